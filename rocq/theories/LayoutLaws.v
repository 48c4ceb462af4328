(** * The layout of JSON text: what follows for dumps and loads *)
From Verif Require Import PyBaseFacts EngineFacts LayoutSpec JsonTextProofs LayoutProofs DumpLaws OrderSpec OrderProofs JsonTextLaws.
Local Open Scope string_scope.
Local Open Scope Z_scope.

(** ** Without arguments: the text of JsonTextModel *)
Lemma entries_default T CT (g : value -> res string) : forall d,
  entries_text T CT layout0 (map (on_snd g) d) =
  rmap (fun kx => rbind (key_text T CT (fst kx)) (fun k => rbind (g (snd kx)) (fun t => Ok (quoted k ++ ": " ++ t)%string))) d.
Proof.
  induction d as [|[k x] d IH]; [reflexivity|]. cbn [map entries_text on_snd fst snd].
  change (rmap ?f ((k, x) :: d)) with (rbind (f (k, x)) (fun y => rbind (rmap f d) (fun ys => Ok (y :: ys)))). cbn [fst snd].
  assert (Hk : key_text_with T CT layout0 k = match key_text T CT k with Ok s => Ok (Some s) | Err e => Err e end).
  { unfold key_text_with, key_text. destruct (scalar_of CT k) as [z|]; [|reflexivity].
    destruct z as [|[|]| |y| | | | | | | | |]; try reflexivity. unfold number_text. cbn [layout0 ly_nan]. destruct y; reflexivity. }
  rewrite Hk. destruct (key_text T CT k) as [s|e]; [|reflexivity]. cbn [rbind]. destruct (g x) as [t|e]; [|reflexivity]. cbn [rbind].
  rewrite IH. reflexivity.
Qed.
Lemma append_nil s : (s ++ "")%string = s.
Proof. induction s as [|c s IH]; [reflexivity|]. cbn [append]. now rewrite IH. Qed.
Lemma bracketed_default lvl a b ts : bracketed layout0 lvl a b ts = (a ++ sjoin ", " ts ++ b)%string.
Proof. reflexivity. Qed.
Lemma rmap_ext {A B} (f g : A -> res B) l : (forall x, In x l -> f x = g x) -> rmap f l = rmap g l.
Proof.
  induction l as [|x l IH]; intros H; [reflexivity|].
  change (rbind (f x) (fun y => rbind (rmap f l) (fun ys => Ok (y :: ys))) = rbind (g x) (fun y => rbind (rmap g l) (fun ys => Ok (y :: ys)))).
  rewrite (H x) by (now left). rewrite IH; [reflexivity|]. intros y Hy. apply H. now right.
Qed.
Theorem json_text_default T CT v : forall lvl, json_text T CT layout0 lvl v = json_dumps T CT v.
Proof.
  assert (SC : forall v, compound v = false -> forall lvl, json_text T CT layout0 lvl v = json_dumps T CT v).
  { intros v' Hc lvl. rewrite json_text_scalar by exact Hc.
    replace (json_dumps T CT v') with (scalar_text T CT v') by (destruct v'; try discriminate Hc; reflexivity).
    unfold scalar_text_with, scalar_text. destruct (scalar_of CT v') as [x|]; [|reflexivity]. destruct x as [|[|]| |y| | | | | | | | |]; try reflexivity.
    destruct y; reflexivity. }
  induction v using value_ind'; intros lvl; try (apply SC; reflexivity);
    try (match goal with H : Forall _ ?ll |- _ => rename H into IH; rewrite Forall_forall in IH; destruct ll as [|x ll']; [reflexivity|];
      cbn [json_text json_dumps]; rewrite (rmap_ext _ (json_dumps T CT)); [reflexivity|]; intros y Hy; now apply IH end).
  match goal with H : Forall _ d |- _ => rename H into IH end. rewrite Forall_forall in IH. destruct d as [|kx d]; [reflexivity|].
  cbn [json_text json_dumps].
  change (items_of CT layout0 ?l) with (@Ok (list (value * res string)) l). cbn [rbind].
  change (map _ (kx :: d)) with (map (on_snd (json_text T CT layout0 (S lvl))) (kx :: d)). rewrite entries_default.
  rewrite (rmap_ext _ (fun kx0 => rbind (key_text T CT (fst kx0)) (fun k0 => rbind (json_dumps T CT (snd kx0)) (fun t => Ok (quoted k0 ++ ": " ++ t)%string)))).
  - reflexivity.
  - intros [y x] Hyx. cbn [fst snd]. destruct (IH _ Hyx) as [_ Hx]. cbn [snd] in Hx. now rewrite Hx.
Qed.

(** ** What can be written *)
Section Write.
Variables (T : textrt) (CT : classes) (L : layout).
Lemma number_iff x : (exists s, number_text T L x = Ok s) <-> allowed L (VFloat x).
Proof.
  unfold number_text, allowed. destruct x; destruct (ly_nan L); split; intros H;
    first [ intros _; exact I | discriminate | exists (float_text T FNan); reflexivity | eexists; reflexivity
          | destruct H; discriminate | now elim (H eq_refl) | idtac ].
Qed.
Lemma key_with_iff k : (exists r, key_text_with T CT L k = Ok r) <->
  (scalar_of CT k = None -> ly_skip L = true) /\ (forall z, scalar_of CT k = Some z -> allowed L z).
Proof.
  unfold key_text_with. destruct (scalar_of CT k) as [x|] eqn:Hx.
  - pose proof (scalar_plain _ _ _ Hx) as Hp. destruct x as [|[|]| |x| | | | | | | | |]; try destruct Hp;
      try (split; [intros _; split; [discriminate|]; intros z0 Hz; injection Hz as <-; intros _; exact I|intros _; now eexists]).
    split.
    + intros (r & H). split; [discriminate|]. intros z Hz. injection Hz as <-. apply number_iff. apply rbind_Ok in H as (t & Ht & _). now exists t.
    + intros (_ & H). destruct (proj2 (number_iff x) (H _ eq_refl)) as (t & ->). now eexists.
  - destruct (ly_skip L); split; intros H.
    + split; [reflexivity|discriminate].
    + now eexists.
    + destruct H; discriminate.
    + now discriminate (proj1 H eq_refl).
Qed.
Lemma scalar_with_iff v : (exists s, scalar_text_with T CT L v = Ok s) <-> exists x, scalar_of CT v = Some x /\ allowed L x.
Proof.
  unfold scalar_text_with. destruct (scalar_of CT v) as [x|] eqn:Hx.
  - pose proof (scalar_plain _ _ _ Hx) as Hp. destruct x as [|[|]| |x| | | | | | | | |]; try destruct Hp;
      try (split; [intros _; eexists; split; [reflexivity|]; intros _; exact I|intros _; now eexists]).
    rewrite number_iff. split; [intros H; now exists (VFloat x)|]. intros (y & Hy & H). now injection Hy as <-.
  - split; [intros (s & H); discriminate|]. intros (x & H & _). discriminate.
Qed.
Lemma entries_iff (g : value -> res string) : forall d,
  (exists ts, entries_text T CT L (map (on_snd g) d) = Ok ts) <->
  (forall y x, In (y, x) d -> (scalar_of CT y = None -> ly_skip L = true) /\ (forall z, scalar_of CT y = Some z -> allowed L z) /\
     (scalar_of CT y <> None -> exists t, g x = Ok t)).
Proof.
  induction d as [|[k x] d IH].
  - split; [intros _ y x []|]. intros _. now exists [].
  - cbn [map entries_text on_snd fst snd]. split.
    + intros (ts & H). apply rbind_Ok in H as (r & Hr & H). pose proof (proj1 (key_with_iff k) (ex_intro _ r Hr)) as [H1 H2].
      assert (Hd : exists ts, entries_text T CT L (map (on_snd g) d) = Ok ts).
      { destruct r as [s|]; [|now exists ts]. apply rbind_Ok in H as (t & _ & H). apply rbind_Ok in H as (ts' & H & _). now exists ts'. }
      intros y x' [Hyx|Hyx]; [|now apply IH]. injection Hyx as <- <-. split; [exact H1|]. split; [exact H2|]. intros Hn. destruct r as [s|].
      * apply rbind_Ok in H as (t & Ht & _). now exists t.
      * apply key_with_none in Hr. unfold is_scalar in Hr. destruct (scalar_of CT k); [discriminate|]. now elim Hn.
    + intros H. destruct (proj2 IH) as (ts & Hts); [intros y x' Hyx; apply H; now right|].
      destruct (H k x (or_introl eq_refl)) as (H1 & H2 & H3). destruct (proj2 (key_with_iff k) (conj H1 H2)) as (r & Hr). rewrite Hr. cbn [rbind].
      destruct r as [s|].
      * apply key_with_name in Hr as [_ Hr]. unfold is_scalar in Hr. destruct H3 as (t & ->). { destruct (scalar_of CT k); discriminate. }
        cbn [rbind]. rewrite Hts. now eexists.
      * rewrite Hts. now eexists.
Qed.
Lemma list_iff lvl l : (forall x, In x l -> ((exists s, json_text T CT L (S lvl) x = Ok s) <-> writable_with CT L x)) ->
  (exists s, rbind (rmap (json_text T CT L (S lvl)) l) (fun ts => Ok (bracketed L lvl "[" "]" ts)) = Ok s) <-> forall x, In x l -> writable_with CT L x.
Proof.
  intros IH. split.
  - intros (s & H) x Hx. apply IH; [exact Hx|]. apply rbind_Ok in H as (ts & H & _). apply (proj1 (rmap_ok _ l)); [now exists ts|exact Hx].
  - intros H. destruct (proj2 (rmap_ok (json_text T CT L (S lvl)) l)) as (ts & ->); [intros x Hx; apply IH; auto|]. now eexists.
Qed.
Definition writes (v : value) : Prop := forall lvl, (ly_sort L = true -> keys_are_text CT v) -> ((exists s, json_text T CT L lvl v = Ok s) <-> writable_with CT L v).
Lemma list_case (con : list value -> value) l :
  (forall lvl l, json_text T CT L lvl (con l) = match l with [] => Ok "[]" | _ => rbind (rmap (json_text T CT L (S lvl)) l) (fun ts => Ok (bracketed L lvl "[" "]" ts)) end) ->
  (writable_with CT L (con l) <-> forall x, In x l -> writable_with CT L x) ->
  (forall x w, In x l -> part_of w x -> part_of w (con l)) -> Forall writes l -> writes (con l).
Proof.
  intros Ht Hw Hp IH lvl Hk. rewrite Forall_forall in IH. rewrite Ht, Hw. destruct l as [|x l].
  - split; [intros _ x []|]. intros _. now eexists.
  - apply list_iff. intros y Hy. apply (IH y Hy). intros Hs k d Hd. apply (Hk Hs k d). now apply Hp with y.
Qed.
Theorem json_text_iff v : writes v.
Proof.
  assert (SC : forall v, compound v = false -> writes v).
  { intros v' Hc lvl _. rewrite json_text_scalar, scalar_with_iff by exact Hc. split.
    - intros (x & H1 & H2). now apply ww_scalar with x.
    - inversion 1; subst; try discriminate Hc. eauto. }
  induction v using value_ind'; try (apply SC; reflexivity).
  - refine (list_case VList l _ _ _ H); [intros ? [|? ?]; reflexivity| |].
    + split; [inversion 1; subst; [discriminate|assumption]|apply ww_list].
    + intros x w Hx Hw. now apply po_list with x.
  - refine (list_case VTuple l _ _ _ H); [intros ? [|? ?]; reflexivity| |].
    + split; [inversion 1; subst; [discriminate|assumption]|apply ww_tuple].
    + intros x w Hx Hw. now apply po_tuple with x.
  - match goal with H : Forall _ d |- _ => rename H into IH end. rewrite Forall_forall in IH. intros lvl Hk.
    destruct d as [|kx0 d0] eqn:Hd.
    { split; [intros _|intros _; now eexists]. apply ww_dict; intros; contradiction. }
    rewrite <- Hd in *. assert (HT : json_text T CT L lvl (VDict k d) =
        rbind (items_of CT L (map (on_snd (json_text T CT L (S lvl))) d)) (fun items =>
        rbind (entries_text T CT L items) (fun ts => Ok (bracketed L lvl "{" "}" ts)))) by (rewrite Hd; reflexivity).
    rewrite HT, items_map. clear HT.
    assert (Hit : exists d1, items_of CT L d = Ok d1).
    { unfold items_of. destruct (ly_sort L) eqn:Hs; [|now eexists].
      destruct (sort_sorted CT L d [] (proj2 (Forall_forall _ _) (Hk eq_refl k d (po_self _))) (Forall_nil _) (SSorted_nil _)) as (r & Hr & _). now exists r. }
    destruct Hit as (d1 & Hit). rewrite Hit. cbn [res_map rbind]. pose proof (items_perm _ _ _ _ Hit) as Hp.
    assert (Hin : forall y x, In (y, x) d1 <-> In (y, x) d).
    { intros y x. split; intros H; [exact (Permutation_in _ (Permutation_sym Hp) H)|exact (Permutation_in _ Hp H)]. }
    assert (Hsub : forall y x, In (y, x) d -> (exists s, json_text T CT L (S lvl) x = Ok s) <-> writable_with CT L x).
    { intros y x Hyx. apply (proj2 (IH _ Hyx)). intros Hs k' d' Hd'. apply (Hk Hs k' d'). now apply po_dict with y x. }
    split.
    + intros (s & H). apply rbind_Ok in H as (ts & Hts & _). pose proof (proj1 (entries_iff _ d1) (ex_intro _ ts Hts)) as H.
      apply ww_dict; intros y x.
      * intros Hyx. apply (H y x). now apply Hin.
      * intros z Hyx. apply (H y x). now apply Hin.
      * intros Hyx Hn. apply (Hsub y x Hyx). apply (H y x); [now apply Hin|exact Hn].
    + intros H. inversion H as [v' x Hx _| | | |k' d' H1 H2 H3]; subst; [discriminate|].
      destruct (proj2 (entries_iff (json_text T CT L (S lvl)) d1)) as (ts & ->); [|now eexists].
      intros y x Hyx. apply Hin in Hyx. split; [now apply (H1 y x)|]. split; [intros z; now apply (H2 y x)|].
      intros Hn. apply (Hsub y x Hyx). now apply (H3 y x).
  - refine (list_case (VNT c) l _ _ _ H); [intros ? [|? ?]; reflexivity| |].
    + split; [inversion 1; subst; [discriminate|assumption]|apply ww_namedtuple].
    + intros x w Hx Hw. now apply po_namedtuple with x.
Qed.
(** The exceptions, without sorting or if all keys are strings *)
Lemma number_err x e : number_text T L x = Err e -> e = exn_of KValue /\ ly_nan L = false.
Proof. unfold number_text. destruct x; try discriminate; destruct (ly_nan L); try discriminate; intros H; injection H as <-; auto. Qed.
Lemma key_err k e : key_text_with T CT L k = Err e -> e = exn_of KType \/ e = exn_of KValue.
Proof.
  unfold key_text_with. destruct (scalar_of CT k) as [x|] eqn:Hx.
  - pose proof (scalar_plain _ _ _ Hx) as Hp. destruct x as [|[|]| |x| | | | | | | | |]; try destruct Hp; try discriminate.
    destruct (number_text T L x) as [t|e'] eqn:Hn; [discriminate|]. intros H. injection H as <-. right. now apply number_err in Hn.
  - destruct (ly_skip L); [discriminate|]. intros H. injection H as <-. now left.
Qed.
Lemma scalar_err v e : scalar_text_with T CT L v = Err e -> e = exn_of KType \/ e = exn_of KValue.
Proof.
  unfold scalar_text_with. destruct (scalar_of CT v) as [x|] eqn:Hx.
  - pose proof (scalar_plain _ _ _ Hx) as Hp. destruct x as [|[|]| |x| | | | | | | | |]; try destruct Hp; try discriminate.
    intros H. right. now apply number_err in H.
  - intros H. injection H as <-. now left.
Qed.
Lemma entries_err (g : value -> res string) e : forall d, entries_text T CT L (map (on_snd g) d) = Err e ->
  e = exn_of KType \/ e = exn_of KValue \/ exists y x, In (y, x) d /\ g x = Err e.
Proof.
  induction d as [|[k x] d IH]; [discriminate|]. cbn [map entries_text on_snd fst snd].
  assert (IH' : entries_text T CT L (map (on_snd g) d) = Err e -> e = exn_of KType \/ e = exn_of KValue \/ exists y x', In (y, x') ((k, x) :: d) /\ g x' = Err e).
  { intros H. destruct (IH H) as [?|[?|(y & x' & ? & ?)]]; auto. right. right. exists y, x'. split; [now right|assumption]. }
  destruct (key_text_with T CT L k) as [[s|]|e'] eqn:Hk; cbn [rbind].
  - destruct (g x) as [t|e'] eqn:Hg; cbn [rbind].
    + destruct (entries_text T CT L (map (on_snd g) d)) as [ts|e'] eqn:Hd; cbn [rbind]; [discriminate|]. intros H. injection H as <-. auto.
    + intros H. injection H as <-. right. right. exists k, x. split; [now left|exact Hg].
  - exact IH'.
  - intros H. injection H as <-. apply key_err in Hk as [?|?]; auto.
Qed.
Definition fails_well (v : value) : Prop := forall lvl e, (ly_sort L = true -> keys_are_text CT v) -> json_text T CT L lvl v = Err e -> e = exn_of KType \/ e = exn_of KValue.
Lemma rmap_err_in {A B} (f : A -> res B) e : forall l, rmap f l = Err e -> exists x, In x l /\ f x = Err e.
Proof.
  induction l as [|x l IH]; [discriminate|]. change (rmap f (x :: l)) with (rbind (f x) (fun y => rbind (rmap f l) (fun ys => Ok (y :: ys)))).
  destruct (f x) as [y|e'] eqn:Hx; cbn [rbind].
  - destruct (rmap f l) as [ys|e'] eqn:Hl; cbn [rbind]; [discriminate|]. intros H. injection H as <-. destruct (IH eq_refl) as (z & Hz & Hf).
    exists z. split; [now right|exact Hf].
  - intros H. injection H as <-. exists x. split; [now left|exact Hx].
Qed.
Lemma list_err (con : list value -> value) l :
  (forall lvl l, json_text T CT L lvl (con l) = match l with [] => Ok "[]" | _ => rbind (rmap (json_text T CT L (S lvl)) l) (fun ts => Ok (bracketed L lvl "[" "]" ts)) end) ->
  (forall x w, In x l -> part_of w x -> part_of w (con l)) -> Forall fails_well l -> fails_well (con l).
Proof.
  intros Ht Hp IH lvl e Hk H. rewrite Forall_forall in IH. rewrite Ht in H. destruct l as [|x0 l0]; [discriminate|].
  destruct (rmap (json_text T CT L (S lvl)) (x0 :: l0)) as [ts|e'] eqn:Hr; [discriminate|]. injection H as <-.
  apply rmap_err_in in Hr as (x & Hx & Hr). apply (IH x Hx (S lvl)); [|exact Hr]. intros Hs k d Hd. apply (Hk Hs k d). now apply Hp with x.
Qed.
Theorem json_text_errors v : fails_well v.
Proof.
  assert (SC : forall v, compound v = false -> fails_well v).
  { intros v' Hc lvl e _. rewrite json_text_scalar by exact Hc. apply scalar_err. }
  induction v using value_ind'; try (apply SC; reflexivity).
  - refine (list_err VList l _ _ H); [intros ? [|? ?]; reflexivity|]. intros x w Hx Hw. now apply po_list with x.
  - refine (list_err VTuple l _ _ H); [intros ? [|? ?]; reflexivity|]. intros x w Hx Hw. now apply po_tuple with x.
  - match goal with H : Forall _ d |- _ => rename H into IH end. rewrite Forall_forall in IH. intros lvl e Hk H.
    destruct d as [|kx0 d0] eqn:Hd; [discriminate|]. rewrite <- Hd in *. assert (HT : json_text T CT L lvl (VDict k d) =
        rbind (items_of CT L (map (on_snd (json_text T CT L (S lvl))) d)) (fun items =>
        rbind (entries_text T CT L items) (fun ts => Ok (bracketed L lvl "{" "}" ts)))) by (rewrite Hd; reflexivity).
    rewrite HT, items_map in H. clear HT.
    assert (Hit : exists d1, items_of CT L d = Ok d1).
    { unfold items_of. destruct (ly_sort L) eqn:Hs; [|now eexists].
      destruct (sort_sorted CT L d [] (proj2 (Forall_forall _ _) (Hk eq_refl k d (po_self _))) (Forall_nil _) (SSorted_nil _)) as (r & Hr & _). now exists r. }
    destruct Hit as (d1 & Hit). rewrite Hit in H. cbn [res_map rbind] in H. pose proof (items_perm _ _ _ _ Hit) as Hp.
    match type of H with rbind ?m _ = _ => destruct m as [ts|e'] eqn:He; [discriminate|] end. injection H as <-.
    apply entries_err in He as [->|[->|(y & x & Hyx & He)]]; auto.
    assert (Hyx' : In (y, x) d) by exact (Permutation_in _ (Permutation_sym Hp) Hyx).
    apply (proj2 (IH _ Hyx') (S lvl)); [|exact He]. intros Hs k' d' Hd'. apply (Hk Hs k' d'). now apply po_dict with y x.
  - refine (list_err (VNT c) l _ _ H); [intros ? [|? ?]; reflexivity|]. intros x w Hx Hw. now apply po_namedtuple with x.
Qed.
(** Mixed keys cannot be sorted. *)
Theorem json_text_mixed lvl k d : ly_sort L = true -> (forall kx, In kx d -> int_key CT (fst kx) \/ str_key CT (fst kx)) ->
  (exists kx, In kx d /\ int_key CT (fst kx)) -> (exists kx, In kx d /\ str_key CT (fst kx)) ->
  json_text T CT L lvl (VDict k d) = raise KType.
Proof.
  intros Hs Ha (a & Ha1 & Ha2) (b & Hb1 & Hb2). destruct d as [|[y x] d0] eqn:Hd; [destruct Ha1|]. rewrite <- Hd in *.
  assert (HT : json_text T CT L lvl (VDict k d) =
        rbind (items_of CT L (map (on_snd (json_text T CT L (S lvl))) d)) (fun items =>
        rbind (entries_text T CT L items) (fun ts => Ok (bracketed L lvl "{" "}" ts)))) by (rewrite Hd; reflexivity).
  rewrite HT, items_map. unfold items_of. rewrite Hs. rewrite Hd in *. cbn [sort_into insert rbind].
  assert (NB : forall k, int_key CT k -> str_key CT k -> False) by (intros k' [z Hz] [s Hs']; unfold text_key in Hs'; congruence).
  rewrite (sort_mixed CT L d0 [(y, x)]); [reflexivity| |discriminate|].
  - apply Forall_forall. intros z Hz. apply Ha. now right.
  - rewrite !Exists_exists. destruct (Ha (y, x) (or_introl eq_refl)) as [H|H]; cbn [fst] in H; [left|right].
    + split; [constructor; auto|]. destruct Hb1 as [<-|Hb1]; [exfalso; eauto|]. now exists b.
    + split; [constructor; auto|]. destruct Ha1 as [<-|Ha1]; [exfalso; eauto|]. now exists a.
Qed.
End Write.

(** ** Documents with strings as keys *)
Lemma filter_all {A} (p : A -> bool) l : (forall x, In x l -> p x = true) -> filter p l = l.
Proof. induction l as [|x l IH]; intros H; [reflexivity|]. cbn [filter]. rewrite (H x) by (now left). f_equal. apply IH. intros y Hy. apply H. now right. Qed.
Lemma Forall2_keys {A B} (P : A -> B -> Prop) (d : list (value * A)) (d' : list (value * B)) :
  Forall2 (fun a b => fst a = fst b /\ P (snd a) (snd b)) d d' -> map fst d = map fst d'.
Proof. induction 1 as [|a b d d' [H _] _ IH]; [reflexivity|]. cbn [map]. now rewrite H, IH. Qed.
Lemma sorted_keys_strict CT d1 d' : Forall2 (fun a b : value * value => fst a = fst b) d1 d' ->
  (forall kx, In kx d1 -> exists s, fst kx = VStr s) -> NoDup (map fst d1) -> StronglySorted (ordered CT) d1 -> StronglySorted by_name d'.
Proof.
  intros H. induction H as [|a b d1 d' Hab Hr IH]; intros Hk Hn Hs; [constructor|].
  cbn [map] in Hn. inversion Hn as [|? ? Hna Hn']; subst. inversion Hs as [|? ? Hs' Ha]; subst. constructor.
  - apply IH; auto. intros kx Hx. apply Hk. now right.
  - apply Forall_forall. intros c Hc. rewrite Forall_forall in Ha.
    assert (G : exists c0, In c0 d1 /\ fst c0 = fst c).
    { clear - Hr Hc. induction Hr as [|u w d1 d' Huw _ IH]; [destruct Hc|]. destruct Hc as [<-|Hc]; [exists u; split; [now left|exact Huw]|].
      destruct (IH Hc) as (c0 & H1 & H2). exists c0. split; [now right|exact H2]. }
    destruct G as (c0 & Hc0 & Ec). destruct (Hk a (or_introl eq_refl)) as (x & Hx). destruct (Hk c0 (or_intror Hc0)) as (y & Hy).
    exists x, y. split; [congruence|]. split; [congruence|].
    assert (Hno : ~ before y x) by (apply (Ha c0 Hc0 x y); unfold text_key; [rewrite Hx|rewrite Hy]; reflexivity).
    destruct (before_total x y) as [H|[-> |H]]; [exact H| |contradiction]. elim Hna. rewrite Hx, <- Hy. now apply in_map.
Qed.
Theorem arranged_data CT L j : json_data j -> forall j', arranged CT L j j' ->
  json_data j' /\ same j j' /\ (ly_sort L = false -> j' = j) /\ (ly_sort L = true -> keys_in_order j').
Proof.
  induction 1 as [v Hp|l Hl IH|d Hn Hk Hd IH]; intros j' Ha.
  - assert (j' = v) as -> by (destruct v; try destruct Hp; now inversion Ha). split; [now constructor|]. split; [constructor|]. split; [reflexivity|].
    intros _ k d Hd. destruct v; try destruct Hp; inversion Hd.
  - inversion Ha as [v H1 _ _ _|l0 l' H| | |]; subst; [now elim (H1 l)|].
    assert (G : forall x', In x' l' -> exists x, In x l /\ arranged CT L x x').
    { clear - H. induction H as [|x x' l l' Hx _ IH]; intros z Hz; [destruct Hz|]. destruct Hz as [<-|Hz]; [exists x; split; [now left|exact Hx]|].
      destruct (IH z Hz) as (y & Hy & Hyz). exists y. split; [now right|exact Hyz]. }
    split; [|split; [|split]].
    + apply jd_list. intros x' Hx'. destruct (G x' Hx') as (x & Hx & Hxx). now apply (IH x Hx x' Hxx).
    + apply sm_list. clear G Ha Hl. induction H as [|x x' l l' Hx _ IHl]; constructor; [apply (IH x (or_introl eq_refl) x' Hx)|].
      apply IHl. intros y Hy. apply IH. now right.
    + intros Hs. f_equal. clear G Ha Hl. induction H as [|x x' l l' Hx _ IHl]; [reflexivity|]. f_equal; [now apply (IH x (or_introl eq_refl) x' Hx)|].
      apply IHl. intros y Hy. apply IH. now right.
    + intros Hs k d Hd. inversion Hd as [|l0 x' Hx' Hp| | |]; subst. destruct (G x' Hx') as (x & Hx & Hxx). now apply (IH x Hx x' Hxx) with k.
  - inversion Ha as [v _ _ _ H1| | | |k0 d0 d1 d' Hp Hns Hso Hf]; subst; [now elim (H1 DkDict d)|].
    assert (Hin1 : forall y x, In (y, x) d1 -> In (y, x) d) by (intros y x H; exact (Permutation_in _ (Permutation_sym Hp) H)).
    rewrite filter_all in Hf by (intros [y x] Hyx; destruct (Hk y x (Hin1 _ _ Hyx)) as (s & ->); reflexivity).
    assert (HN1 : NoDup (map fst d1)) by (apply (Permutation_NoDup (Permutation_map fst Hp) Hn)).
    assert (G : forall y x', In (y, x') d' -> exists x, In (y, x) d /\ arranged CT L x x').
    { intros y x' Hx'. assert (G1 : exists x, In (y, x) d1 /\ arranged CT L x x'); [|destruct G1 as (x & H1 & H2); exists x; split; [now apply Hin1|exact H2]].
      clear - Hf Hx'. induction Hf as [|a b d1 d' [Hab Hx] _ IH]; [destruct Hx'|]. destruct Hx' as [->|Hx'].
      - exists (snd a). cbn [fst snd] in Hab, Hx. subst y. split; [left; now destruct a|exact Hx].
      - destruct (IH Hx') as (x & H1 & H2). exists x. split; [now right|exact H2]. }
    split; [|split; [|split]].
    + apply jd_dict.
      * now rewrite <- (Forall2_keys _ _ _ Hf).
      * intros y x' Hx'. destruct (G y x' Hx') as (x & Hx & _). now apply (Hk y x).
      * intros y x' Hx'. destruct (G y x' Hx') as (x & Hx & Hxx). now apply (IH y x Hx x' Hxx).
    + apply (sm_dict DkDict d d1 d' Hp). clear G HN1 Hns Hso Ha Hp. revert Hin1.
      induction Hf as [|[ay ax] [bk bx] d1 d' [Hab Hx] _ IHl]; intros Hin1; constructor; cbn [fst snd] in *.
      * split; [exact Hab|]. apply (IH ay ax (Hin1 _ _ (or_introl eq_refl)) bx Hx).
      * apply IHl. intros y x Hyx. apply Hin1. now right.
    + intros Hs. specialize (Hns Hs). subst d1. f_equal. clear G HN1 Hso Ha Hp. revert Hin1.
      induction Hf as [|[ay ax] [bk bx] d1 d' [Hab Hx] _ IHl]; intros Hin1; [reflexivity|]. cbn [fst snd] in *. f_equal.
      * f_equal; [congruence|]. now apply (IH ay ax (Hin1 _ _ (or_introl eq_refl)) bx Hx).
      * apply IHl; try (intros y x Hyx; apply Hin1; now right).
        -- cbn [map] in Hn. now inversion Hn.
        -- intros y x Hyx. apply (Hk y x). now right.
        -- intros y x Hyx. apply (Hd y x). now right.
        -- intros y x Hyx. apply (IH y x). now right.
        -- intros y x Hyx. exact Hyx.
    + intros Hs k e He. inversion He as [| | | |k0 d0 y x' Hx' Hpx]; subst.
      * apply (sorted_keys_strict CT d1).
        -- clear - Hf. induction Hf as [|a b d1 d' [H _] _ IH]; constructor; auto.
        -- intros [y x] Hyx. apply (Hk y x). now apply Hin1.
        -- exact HN1.
        -- apply (Hso Hs). intros [y x] Hyx. destruct (Hk y x Hyx) as (s & ->). now exists s.
      * destruct (G y x' Hx') as (x & Hx & Hxx). now apply (IH y x Hx x' Hxx) with k.
Qed.
Lemma json_data_keys CT j : json_data j -> keys_are_text CT j.
Proof.
  induction 1 as [v Hp|l Hl IH|d Hn Hk Hd IH]; intros k e He kx Hkx.
  - destruct v; try destruct Hp; inversion He.
  - inversion He as [|l0 x Hx Hp| | |]; subst. now apply (IH x Hx k e).
  - inversion He as [| | | |k0 d0 y x Hx Hpx]; subst.
    + destruct kx as [y x]. destruct (Hk y x Hkx) as (s & ->). now exists s.
    + now apply (IH y x Hx k e).
Qed.
Lemma json_data_writable_with CT L j : json_data j -> (ly_nan L = true \/ finite j) -> writable_with CT L j.
Proof.
  intros Hj. induction Hj as [v Hp|l Hl IH|d Hn Hk Hd IH]; intros Hf.
  - apply ww_scalar with v; [destruct v; try destruct Hp; reflexivity|]. intros Hna. destruct Hf as [Hf|Hf]; [congruence|].
    destruct v as [| | |x| | | | | | | | |]; try exact I. specialize (Hf x (po_self _)). destruct x; tauto.
  - apply ww_list. intros x Hx. apply IH; [exact Hx|]. destruct Hf as [Hf|Hf]; [now left|right]. intros y Hy. apply Hf. now apply po_list with x.
  - apply ww_dict; intros y x.
    + intros Hyx H. destruct (Hk y x Hyx) as (s & ->). discriminate.
    + intros z Hyx H. destruct (Hk y x Hyx) as (s & ->). injection H as <-. intros _. exact I.
    + intros Hyx _. apply (IH y x Hyx). destruct Hf as [Hf|Hf]; [now left|right]. intros w Hw. apply Hf. now apply po_dict with y x.
Qed.
(** Sorted keys: one text for all orders *)
Theorem json_text_canonical T CT L j : ly_sort L = true -> json_data j -> forall j' lvl, same j j' ->
  json_text T CT L lvl j = json_text T CT L lvl j'.
Proof.
  intros Hs. induction 1 as [v Hp|l Hl IH|d Hn Hk Hd IH]; intros j' lvl Hsame.
  - now rewrite (same_scalar v j' Hp Hsame).
  - apply same_list in Hsame as (l' & -> & H).
    assert (G : rmap (json_text T CT L (S lvl)) l = rmap (json_text T CT L (S lvl)) l').
    { clear Hl. induction H as [|x x' l l' Hx _ IHl]; [reflexivity|].
      change (rbind (json_text T CT L (S lvl) x) (fun y => rbind (rmap (json_text T CT L (S lvl)) l) (fun ys => Ok (y :: ys))) =
              rbind (json_text T CT L (S lvl) x') (fun y => rbind (rmap (json_text T CT L (S lvl)) l') (fun ys => Ok (y :: ys)))).
      rewrite (IH x (or_introl eq_refl) x' (S lvl) Hx), IHl; [reflexivity|]. intros y Hy. apply IH. now right. }
    destruct H as [|x x' l l' Hx Hr]; [reflexivity|]. cbn [json_text]. now rewrite G.
  - apply same_dict in Hsame as (d' & -> & d1 & Hp & Hf).
    assert (G : items_of CT L (map (on_snd (json_text T CT L (S lvl))) d) = items_of CT L (map (on_snd (json_text T CT L (S lvl))) d')).
    { unfold items_of. rewrite Hs.
      assert (Ed : map (on_snd (json_text T CT L (S lvl))) d1 = map (on_snd (json_text T CT L (S lvl))) d').
      { assert (Hin1 : forall y x, In (y, x) d1 -> In (y, x) d) by (intros y x H; exact (Permutation_in _ (Permutation_sym Hp) H)).
        clear Hp. induction Hf as [|[ay ax] [bk bx] d1 d' [Hab Hx] _ IHl]; [reflexivity|]. cbn [map on_snd fst snd] in *. f_equal.
        - unfold on_snd. cbn [fst snd]. rewrite Hab. f_equal. apply (IH ay ax); [apply Hin1; now left|exact Hx].
        - apply IHl. intros y x Hyx. apply Hin1. now right. }
      rewrite <- Ed. apply sort_canonical.
      - now apply Permutation_map.
      - apply Forall_forall. intros z Hz. apply in_map_iff in Hz as ([y x] & <- & Hyx). destruct (Hk y x Hyx) as (s & ->). now exists s.
      - intros a b s Ha Hb. apply in_map_iff in Ha as ([y x] & <- & Hyx). apply in_map_iff in Hb as ([y' x'] & <- & Hyx').
        unfold on_snd. cbn [fst snd]. destruct (Hk y x Hyx) as (u & ->). destruct (Hk y' x' Hyx') as (u' & ->).
        intros H1 H2. unfold text_key in H1, H2. cbn in H1, H2. injection H1 as ->. injection H2 as ->. f_equal. f_equal.
        clear - Hn Hyx Hyx'. induction d as [|[k0 x0] d IH]; [destruct Hyx|]. cbn [map fst] in Hn. inversion Hn as [|? ? Hna Hn']; subst.
        destruct Hyx as [E1|Hyx]; destruct Hyx' as [E2|Hyx'].
        + congruence.
        + injection E1 as -> ->. elim Hna. now apply (in_map fst _ (VStr s, x')).
        + injection E2 as -> ->. elim Hna. now apply (in_map fst _ (VStr s, x)).
        + now apply IH. }
    assert (E0 : forall d : list (value * value), json_text T CT L lvl (VDict DkDict d) = match d with [] => Ok "{}" | _ =>
        rbind (items_of CT L (map (on_snd (json_text T CT L (S lvl))) d)) (fun items =>
        rbind (entries_text T CT L items) (fun ts => Ok (bracketed L lvl "{" "}" ts))) end) by (intros [|? ?]; reflexivity).
    rewrite !E0, G. destruct d as [|kx d]; destruct d' as [|kx' d']; try reflexivity.
    + apply Permutation_nil in Hp. subst d1. inversion Hf.
    + inversion Hf; subst. apply Permutation_sym, Permutation_nil in Hp. discriminate.
Qed.

(** ** Characters *)
Section Characters.
Variables (T : textrt) (CT : classes) (L : layout) (P : Z -> Prop).
Definition good (s : string) : Prop := Forall P (codes s).
Lemma good_app a b : good (a ++ b)%string <-> good a /\ good b.
Proof. unfold good. rewrite codes_app. apply Forall_app. Qed.
Lemma good_join sep l : good sep -> Forall good l -> good (sjoin sep l).
Proof.
  intros Hs. induction 1 as [|a [|b l] Ha Hl IH]; [constructor|exact Ha|]. rewrite sjoin_cons2. rewrite !good_app. auto.
Qed.
Hypothesis Hstr : forall s, good (string_text L s).
Hypothesis Hint : forall z, good (str_int z).
Hypothesis Hflt : forall x, good (float_text T x).
Hypothesis Hword : Forall good ["null"; "true"; "false"; "["; "]"; "{"; "}"].
Hypothesis Hitem : good (item_separator L).
Hypothesis Hkey : good (key_separator L).
Hypothesis Hline : forall lvl, good (newline L lvl).
Lemma good_word s : In s ["null"; "true"; "false"; "["; "]"; "{"; "}"] -> good s.
Proof using Hword. rewrite Forall_forall in Hword. apply Hword. Qed.
Lemma good_scalar v s : scalar_text_with T CT L v = Ok s -> good s.
Proof using Hstr Hint Hflt Hword.
  unfold scalar_text_with. destruct (scalar_of CT v) as [[|[]| |x| | | | | | | | |]|]; try discriminate.
  1-3: injection 1 as <-; apply good_word; cbn; tauto.
  - injection 1 as <-. apply Hint.
  - intros H. apply number_text_ok in H as ->. apply Hflt.
  - injection 1 as <-. apply Hstr.
Qed.
Lemma good_bracketed lvl a b ts : good a -> good b -> Forall good ts -> good (bracketed L lvl a b ts).
Proof using Hitem Hline.
  intros Ha Hb Ht. unfold bracketed. rewrite !good_app. repeat split; auto. apply good_join; [|exact Ht]. rewrite good_app. auto.
Qed.
Lemma good_pair : good "[]" /\ good "{}".
Proof using Hword.
  change "[]" with ("[" ++ "]")%string. change "{}" with ("{" ++ "}")%string. rewrite !good_app. repeat split; apply good_word; cbn; tauto.
Qed.
Lemma good_list (con : list value -> value) l :
  (forall lvl l, json_text T CT L lvl (con l) = match l with [] => Ok "[]" | _ => rbind (rmap (json_text T CT L (S lvl)) l) (fun ts => Ok (bracketed L lvl "[" "]" ts)) end) ->
  Forall (fun v => forall lvl s, json_text T CT L lvl v = Ok s -> good s) l -> forall lvl s, json_text T CT L lvl (con l) = Ok s -> good s.
Proof using Hitem Hline Hword.
  intros Ht IH lvl s H. rewrite Ht in H. destruct l as [|x0 l0]; [injection H as <-; apply good_pair|].
  apply rbind_Ok in H as (ts & Hts & H). injection H as <-. apply good_bracketed; try (apply good_word; cbn; tauto).
  apply rmap_Forall2 in Hts. revert IH. induction Hts as [|x t l ts Hx _ IHl]; intros IH; constructor; inversion IH; subst; eauto.
Qed.
Theorem json_text_good v : forall lvl s, json_text T CT L lvl v = Ok s -> good s.
Proof using All.
  induction v using value_ind'; intros lvl out HH;
    try (match type of HH with json_text _ _ _ _ ?v = _ => rewrite (json_text_scalar T CT L lvl v eq_refl) in HH; exact (good_scalar _ _ HH) end).
  - refine (good_list VList l _ H lvl out HH). intros ? [|? ?]; reflexivity.
  - refine (good_list VTuple l _ H lvl out HH). intros ? [|? ?]; reflexivity.
  - match goal with H : Forall _ d |- _ => rename H into IH end. rewrite Forall_forall in IH.
    destruct d as [|kx0 d0] eqn:Hd; [injection HH as <-; apply good_pair|]. rewrite <- Hd in *. assert (HT : json_text T CT L lvl (VDict k d) =
        rbind (items_of CT L (map (on_snd (json_text T CT L (S lvl))) d)) (fun items =>
        rbind (entries_text T CT L items) (fun ts => Ok (bracketed L lvl "{" "}" ts)))) by (rewrite Hd; reflexivity).
    rewrite HT, items_map in HH. clear HT. destruct (items_of CT L d) as [d1|] eqn:Hit; cbn [res_map rbind] in HH; [|discriminate].
    apply rbind_Ok in HH as (ts & Hts & HH). injection HH as <-. apply entries_done in Hts. pose proof (items_perm _ _ _ _ Hit) as Hp.
    apply good_bracketed; try (apply good_word; cbn; tauto).
    assert (Hin : forall kx, In kx (filter (fun kx => is_scalar CT (fst kx)) d1) -> In kx d).
    { intros kx Hkx. apply filter_In in Hkx as [Hkx _]. exact (Permutation_in _ (Permutation_sym Hp) Hkx). }
    clear Hp Hit Hd. revert Hin. induction Hts as [|t [y x] ts dd (tv & -> & Htv) _ IHl]; intros Hin; constructor.
    + rewrite !good_app. split; [apply Hstr|]. split; [apply Hkey|]. cbn [snd] in Htv. exact (proj2 (IH _ (Hin (y, x) (or_introl eq_refl))) _ _ Htv).
    + apply IHl. intros kx Hkx. apply Hin. now right.
  - refine (good_list (VNT c) l _ H lvl out HH). intros ? [|? ?]; reflexivity.
Qed.
End Characters.

(** ** dumps and loads *)
Lemma dumps_with_done E T L f n o cls v s : snd (dumps_with E T L f n o cls v) = Done s <->
  exists j, snd (dump E f n o cls v) = Done j /\ json_text T (e_ct E) L 0 j = Ok s.
Proof.
  unfold dumps_with. rewrite bind_done. split; intros (j & H1 & H2); exists j; split; auto; now apply lift_done.
Qed.
Lemma dumps_with_written E T L f n o cls v s j : plain_layout L -> snd (dump E f n o cls v) = Done j -> floats_read_back T (e_ct E) j ->
  snd (dumps_with E T L f n o cls v) = Done s ->
  exists j', arranged (e_ct E) L j j' /\ json_document T (codes s) (json_image T (e_ct E) j').
Proof.
  intros HL Hd Hf H. apply dumps_with_done in H as (j0 & Hd' & H). rewrite Hd in Hd'. injection Hd' as <-.
  destruct (json_text_value T (e_ct E) L HL j 0%nat s H Hf) as (j' & H1 & H2). exists j'. split; [exact H1|].
  exists [], (codes s), []. rewrite app_nil_r. repeat split; try constructor. exact H2.
Qed.
Lemma dumps_with_loads E T L f n o cls v j : plain_layout L -> snd (dump E f n o cls v) = Done j -> json_data j ->
  floats_read_back T (e_ct E) j -> ly_nan L = true \/ finite j ->
  exists s j', snd (dumps_with E T L f n o cls v) = Done s /\ same j j' /\
    (ly_sort L = false -> j' = j) /\ (ly_sort L = true -> keys_in_order j') /\
    forall E' m g lo cls', loads E' T m g lo cls' (OVal (VStr s)) = load E' m g lo cls' j'.
Proof.
  intros HL Hd Hj Hf Hn.
  destruct (proj2 (json_text_iff T (e_ct E) L j 0%nat (fun _ => json_data_keys _ _ Hj)) (json_data_writable_with _ L _ Hj Hn)) as (s & Hs).
  assert (HS : snd (dumps_with E T L f n o cls v) = Done s) by (apply dumps_with_done; eauto).
  destruct (dumps_with_written E T L f n o cls v s j HL Hd Hf HS) as (j' & Ha & Hdoc).
  destruct (arranged_data _ _ _ Hj _ Ha) as (H1 & H2 & H3 & H4). exists s, j'. split; [exact HS|]. split; [exact H2|]. split; [exact H3|]. split; [exact H4|].
  intros E' m g lo cls'. rewrite (loads_document E' T m g lo cls' s _ Hdoc). now rewrite json_image_data.
Qed.
Lemma dumps_with_effects E T L f n o cls v : fst (dumps_with E T L f n o cls v) = fst (dump E f n o cls v).
Proof.
  unfold dumps_with. destruct (dump E f n o cls v) as [ev [j|e'|]]; cbn; try reflexivity.
  unfold lift. destruct (json_text T (e_ct E) L 0 j); cbn; now rewrite app_nil_r.
Qed.
Lemma document_data j : OrderSpec.document j -> json_data j.
Proof.
  induction j using value_ind'; intros Hd; try (inversion Hd as [? Hc|? ?|? ? ? ?]; subst; try (now destruct Hc); now constructor).
  - inversion Hd as [? Hc|? Hl|]; subst; [destruct Hc|]. rewrite Forall_forall in Hl, H. apply jd_list. auto.
  - inversion Hd as [? Hc| |? H1 H2 H3]; subst; [destruct Hc|]. rewrite Forall_forall in H, H1, H3. apply jd_dict; [exact H2| |].
    + intros y x Hyx. destruct (H1 _ Hyx) as (s & Hs & _). now exists s.
    + intros y x Hyx. apply (proj2 (H _ Hyx)). exact (H3 _ Hyx).
Qed.
Lemma writable_with_finite CT L v : ly_nan L = false -> ly_skip L = false -> writable_with CT L v -> finite v.
Proof.
  intros Hn Hk. assert (SC : forall x y, scalar_of CT x = Some y -> allowed L y -> finite x).
  { intros x y Hx Hy z Hz. inversion Hz; subst; try discriminate. injection Hx as <-. specialize (Hy Hn). destruct z; tauto. }
  induction 1 as [v x Hx Ha|l _ IH|l _ IH|c l _ IH|k d Hs Ha _ IH]; [now apply SC with x| | | |]; intros z Hz; inversion Hz; subst.
  - now apply (IH x).
  - now apply (IH x).
  - now apply (IH x).
  - refine (IH y x _ _ z _); auto. intros Hy. assert (ly_skip L = true) by (eapply Hs; eauto). congruence.
Qed.
(** Characters *)
Lemma str_int_codes z : Forall (fun c => 32 <= c < 128) (codes (str_int z)).
Proof.
  assert (D : forall ds, Forall digit ds -> Forall (fun c => 32 <= c < 128) ds) by (intros ds; apply Forall_impl; unfold digit; intros c H; lia).
  assert (N : forall t, natural t -> Forall (fun c => 32 <= c < 128) t).
  { intros t [-> | (c & ds & -> & Hc & Hd)]; [repeat constructor; discriminate|]. constructor; [lia|now apply D]. }
  unfold str_int. destruct (z <? 0) eqn:Hz.
  - cbn [append]. rewrite codes_cons. constructor; [cbv; split; [discriminate|reflexivity]|]. apply N, str_nonneg_text. apply Z.ltb_lt in Hz. lia.
  - apply N, str_nonneg_text. apply Z.ltb_ge in Hz. lia.
Qed.
Lemma string_text_line L s : one_line (string_text L s).
Proof.
  assert (E1 : forall c, one_line (escape c)) by (intros [[] [] [] [] [] [] [] []]; unfold one_line; vm_compute; repeat constructor; discriminate).
  assert (E2 : forall c, one_line (escape_raw c)) by (intros [[] [] [] [] [] [] [] []]; unfold one_line; vm_compute; repeat constructor; discriminate).
  assert (Q : forall f, (forall c, one_line (f c)) -> one_line ("""" ++ sjoin "" (map f (list_ascii_of_string s)) ++ """")%string).
  { intros f Hf. change one_line with (good (fun c => 32 <= c)). rewrite !good_app. split; [repeat constructor; discriminate|]. split; [|repeat constructor; discriminate].
    apply good_join; [constructor|]. apply Forall_forall. intros t Ht. apply in_map_iff in Ht as (c & <- & _). apply Hf. }
  unfold string_text. destruct (ly_ascii L); [apply (Q escape E1)|apply (Q escape_raw E2)].
Qed.
Lemma dumps_with_line E T L f n o cls v s : ly_indent L = None -> separators_are one_line L -> (forall x, one_line (tr_repr T x)) ->
  snd (dumps_with E T L f n o cls v) = Done s -> one_line s.
Proof.
  intros Hi Hs HT H. apply dumps_with_done in H as (j & _ & H). revert H. apply (json_text_good T (e_ct E) L (fun c => 32 <= c)).
  - apply string_text_line.
  - intros z. eapply Forall_impl; [|apply str_int_codes]. cbv beta. intros c Hc. lia.
  - intros x. destruct x as [ | |[]| ]; try apply HT; unfold good; vm_compute; repeat constructor; discriminate.
  - repeat constructor; discriminate.
  - unfold item_separator, separators_are in *. rewrite Hi. destruct (ly_separators L) as [[a b]|]; [apply Hs|repeat constructor; discriminate].
  - unfold key_separator, separators_are in *. destruct (ly_separators L) as [[a b]|]; [apply Hs|repeat constructor; discriminate].
  - intros lvl. unfold newline. rewrite Hi. constructor.
Qed.
Lemma dumps_with_ascii E T L f n o cls v s : ly_ascii L = true -> separators_are ascii_text L ->
  (forall i, ly_indent L = Some (IndentWith i) -> ascii_text i) -> (forall x, ascii_text (tr_repr T x)) ->
  snd (dumps_with E T L f n o cls v) = Done s -> ascii_text s.
Proof.
  intros Ha Hs Hi HT H. apply dumps_with_done in H as (j & _ & H). revert H.
  assert (TI : forall n i, ascii_text i -> ascii_text (times n i)).
  { intros m i H. induction m as [|m IH]; cbn [times]; [constructor|]. rewrite ascii_app. auto. }
  apply (json_text_good T (e_ct E) L (fun c => 0 <= c < 128)).
  - intros t. unfold string_text. rewrite Ha. apply ascii_quoted.
  - intros z. apply ascii_str_int.
  - intros x. destruct x as [ | |[]| ]; try apply HT; unfold good; vm_compute; repeat constructor; discriminate.
  - repeat constructor; discriminate.
  - unfold item_separator, separators_are in *. destruct (ly_separators L) as [[a b]|]; [apply Hs|]. destruct (ly_indent L); repeat constructor; discriminate.
  - unfold key_separator, separators_are in *. destruct (ly_separators L) as [[a b]|]; [apply Hs|repeat constructor; discriminate].
  - intros lvl. unfold newline. destruct (ly_indent L) as [i|] eqn:Hind; [|constructor]. unfold good. rewrite codes_cons. constructor; [cbv; split; [discriminate|reflexivity]|].
    apply TI. destruct i as [z|i]; cbn [indent_text]; [apply TI; repeat constructor; discriminate|now apply Hi].
Qed.
Lemma string_text_plain L s : needs_no_escape (ly_ascii L) s -> string_text L s = ("""" ++ s ++ """")%string.
Proof.
  intros H. unfold string_text, quoted.
  assert (Q : forall f, (forall c, 32 <= Z.of_nat (code c) /\ Z.of_nat (code c) <> 34 /\ Z.of_nat (code c) <> 92 /\
      (ly_ascii L = true -> Z.of_nat (code c) <= 126) -> f c = String c "") ->
    sjoin "" (map f (list_ascii_of_string s)) = s).
  { intros f Hf. revert H. unfold needs_no_escape. induction s as [|c s IH]; [reflexivity|]. rewrite codes_cons. intros H.
    apply Forall_cons_iff in H as [Hc Hs]. specialize (IH Hs). cbn [list_ascii_of_string map].
    rewrite (Hf c Hc). destruct (list_ascii_of_string s) as [|d r] eqn:Es; [|cbn [map] in *].
    - destruct s; [reflexivity|discriminate].
    - change (sjoin "" (String c "" :: f d :: map f r)) with (String c "" ++ "" ++ sjoin "" (f d :: map f r))%string. now rewrite IH. }
  destruct (ly_ascii L); rewrite Q; try reflexivity.
  - intros c (H1 & H2 & H3 & H4). specialize (H4 eq_refl). destruct c as [[] [] [] [] [] [] [] []]; try reflexivity; exfalso; vm_compute in H1, H2, H3, H4; congruence.
  - intros c (H1 & H2 & H3 & _). destruct c as [[] [] [] [] [] [] [] []]; try reflexivity; exfalso; vm_compute in H1, H2, H3; congruence.
Qed.
