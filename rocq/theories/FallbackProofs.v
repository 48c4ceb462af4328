(** * Proofs about the argument default of json.dumps (C84) *)
From Coq Require Import Lia.
From Verif Require Import PyBaseFacts EngineFacts FallbackSpec JsonTextProofs LayoutProofs LayoutLaws DumpLaws DumpSpec.
Local Close Scope Z_scope.
Local Open Scope string_scope.

(** ** The shapes of values *)
Definition listy (con : list value -> value) : Prop := con = VList \/ con = VTuple \/ exists c, con = VNT c.
Lemma shape_ind (CT : classes) (P : value -> Prop) :
  (forall v x, scalar_of CT v = Some x -> P v) -> (forall v, foreign CT v -> P v) ->
  (forall con l, listy con -> (forall x, In x l -> P x) -> P (con l)) ->
  (forall k d, (forall y x, In (y, x) d -> P x) -> P (VDict k d)) ->
  forall v, P v.
Proof.
  intros Hs Hf Hl Hd. induction v using value_ind';
    try (match goal with |- P ?v => destruct (scalar_of CT v) as [sc0|] eqn:Hx0; [exact (Hs v sc0 Hx0)|apply Hf; split; [exact Hx0|exact I]] end).
  - apply (Hl VList); [now left|]. now apply Forall_forall.
  - apply (Hl VTuple); [right; now left|]. now apply Forall_forall.
  - apply Hd. intros y x Hin. match goal with H : Forall _ d |- _ => rewrite Forall_forall in H; exact (proj2 (H _ Hin)) end.
  - apply (Hl (VNT c)); [right; right; now exists c|]. now apply Forall_forall.
Qed.
Lemma listy_scalar CT con l : listy con -> scalar_of CT (con l) = None.
Proof. intros [->|[-> |[c ->]]]; reflexivity. Qed.
Lemma listy_foreign CT con l : listy con -> ~ foreign CT (con l).
Proof. intros [->|[-> |[c ->]]] [_ H]; exact H. Qed.

(** ** Lists of actions *)
Lemma each_mmap {A B} (g : A -> M B) l : each g l = mmap g l.
Proof. induction l as [|x l IH]; [reflexivity|]. cbn [each mmap]. now rewrite IH. Qed.
Lemma bind_snd {A B} (m : M A) (r : res A) (f : A -> M B) (g : A -> res B) :
  snd m = snd (lift r) -> (forall a, r = Ok a -> snd (f a) = snd (lift (g a))) -> snd (mbind m f) = snd (lift (rbind r g)).
Proof.
  intros Hm Hf. unfold mbind. rewrite Hm. destruct r as [a|e]; cbn [lift ret fail snd rbind]; [|reflexivity]. now apply Hf.
Qed.
Lemma bind_ext {A B} (m : M A) (f g : A -> M B) : (forall a, snd m = Done a -> f a = g a) -> mbind m f = mbind m g.
Proof. intros H. unfold mbind. destruct (snd m) as [a|e|]; [|reflexivity..]. now rewrite (H a eq_refl). Qed.
Lemma each_snd {A A' B} (g : A -> M B) (h : A' -> res B) l l' :
  Forall2 (fun x x' => snd (g x) = snd (lift (h x'))) l l' -> snd (each g l) = snd (lift (rmap h l')).
Proof.
  induction 1 as [|x x' l l' Hx _ IH]; [reflexivity|]. cbn [each].
  change (rmap h (x' :: l')) with (rbind (h x') (fun y => rbind (rmap h l') (fun ys => Ok (y :: ys)))).
  apply bind_snd; [exact Hx|]. intros y _. apply bind_snd; [exact IH|]. reflexivity.
Qed.
Lemma each_fail {A B} (g : A -> M B) e l : snd (each g l) = Fail e -> exists x, In x l /\ snd (g x) = Fail e.
Proof.
  induction l as [|x l IH]; cbn [each]; intros H; [discriminate|].
  apply bind_fail in H as [H|(y & _ & H)]; [exists x; split; [now left|exact H]|].
  apply bind_fail in H as [H|(ys & _ & H)]; [|discriminate]. destruct (IH H) as (z & Hz & G). exists z. split; [now right|exact G].
Qed.
Lemma lift_bind {A B} (r : res A) (f : A -> M B) (g : A -> res B) :
  (forall a, r = Ok a -> f a = lift (g a)) -> mbind (lift r) f = lift (rbind r g).
Proof. intros H. destruct r as [a|e]; [|reflexivity]. cbn [rbind]. rewrite bind_lift_ok. now apply H. Qed.
Lemma each_lift {A B} (g : A -> M B) (h : A -> res B) l : (forall x, In x l -> g x = lift (h x)) -> each g l = lift (rmap h l).
Proof.
  induction l as [|x l IH]; intros H; [reflexivity|]. cbn [each].
  change (rmap h (x :: l)) with (rbind (h x) (fun y => rbind (rmap h l) (fun ys => Ok (y :: ys)))).
  rewrite (H x) by now left. apply lift_bind. intros y _. rewrite IH by (intros z Hz; apply H; now right). apply lift_bind. reflexivity.
Qed.

Lemma Forall2_weaken {A B} (P Q : A -> B -> Prop) l l' : (forall a b, P a b -> Q a b) -> Forall2 P l l' -> Forall2 Q l l'.
Proof. intros H. induction 1; constructor; auto. Qed.

Section Text.
Variable T : textrt.
Variable CT : classes.
Variable L : layout.
Section One.
Variable D : value -> M value.
Variable again : nat -> value -> M string.
Lemma text_by_list con lvl l : listy con -> text_by T CT L D again lvl (con l) =
  match l with [] => ret "[]" | _ => mbind (each (text_by T CT L D again (S lvl)) l) (fun ts => ret (bracketed L lvl "[" "]" ts)) end.
Proof. intros [->|[-> |[c ->]]]; destruct l; reflexivity. Qed.
Lemma text_by_dict lvl k d : text_by T CT L D again lvl (VDict k d) =
  match d with
  | [] => ret "{}"
  | _ => mbind (lift (items_of CT L (map (on_snd (text_by T CT L D again (S lvl))) d))) (fun items =>
         mbind (entries_by T CT L items) (fun ts => ret (bracketed L lvl "{" "}" ts)))
  end.
Proof. destruct d; reflexivity. Qed.
Lemma text_by_scalar lvl v x : scalar_of CT v = Some x -> text_by T CT L D again lvl v = lift (scalar_text_with T CT L v).
Proof. intros H. destruct v; cbn [text_by]; try rewrite H; try reflexivity; discriminate H. Qed.
Lemma text_by_foreign lvl v : foreign CT v -> text_by T CT L D again lvl v = mbind (D v) (again lvl).
Proof. intros [H Hs]. destruct v; cbn [text_by]; try rewrite H; try reflexivity; try discriminate H; contradiction Hs. Qed.
End One.
Lemma json_text_list con lvl l : listy con -> json_text T CT L lvl (con l) =
  match l with [] => Ok "[]" | _ => rbind (rmap (json_text T CT L (S lvl)) l) (fun ts => Ok (bracketed L lvl "[" "]" ts)) end.
Proof. intros [->|[-> |[c ->]]]; destruct l; reflexivity. Qed.
Lemma json_text_dict lvl k d : json_text T CT L lvl (VDict k d) =
  match d with
  | [] => Ok "{}"
  | _ => rbind (items_of CT L (map (on_snd (json_text T CT L (S lvl))) d)) (fun items =>
         rbind (entries_text T CT L items) (fun ts => Ok (bracketed L lvl "{" "}" ts)))
  end.
Proof. destruct d; reflexivity. Qed.
Lemma json_text_one lvl v x : scalar_of CT v = Some x -> json_text T CT L lvl v = scalar_text_with T CT L v.
Proof. intros H. destruct v; try reflexivity; discriminate H. Qed.
Lemma json_text_foreign lvl v : foreign CT v -> json_text T CT L lvl v = raise KType.
Proof. intros [H Hs]. destruct v; try contradiction Hs; cbn [json_text]; unfold scalar_text_with; now rewrite H. Qed.
Lemma key_some k s : key_text_with T CT L k = Ok (Some s) -> scalar_of CT k <> None.
Proof. intros H. apply key_with_name in H as [_ H]. unfold is_scalar in H. destruct (scalar_of CT k); [discriminate|discriminate H]. Qed.

(** ** Without default *)
Lemma entries_lift (g : value -> M string) (h : value -> res string) d : (forall y x, In (y, x) d -> g x = lift (h x)) ->
  entries_by T CT L (map (on_snd g) d) = lift (entries_text T CT L (map (on_snd h) d)).
Proof.
  induction d as [|[k x] d IH]; intros H; [reflexivity|]. cbn [map entries_by entries_text on_snd fst snd].
  specialize (IH (fun y z Hz => H y z (or_intror Hz))).
  apply lift_bind. intros [s|] _; [|exact IH]. rewrite (H k x) by now left. apply lift_bind. intros t _. rewrite IH. apply lift_bind. reflexivity.
Qed.
Theorem by_no_default m v : forall lvl, json_text_by T CT L no_default (S m) lvl v = lift (json_text T CT L lvl v).
Proof.
  cbn [json_text_by]. induction v as [v x Hx|v Hf|con l Hc IH|k d IH] using (shape_ind CT); intros lvl.
  - now rewrite (text_by_scalar _ _ _ _ _ Hx), (json_text_one _ _ _ Hx).
  - rewrite (text_by_foreign _ _ _ _ Hf), (json_text_foreign _ _ Hf). reflexivity.
  - rewrite text_by_list, json_text_list by exact Hc. destruct l as [|x0 l]; [reflexivity|].
    rewrite (each_lift _ (json_text T CT L (S lvl))) by (intros x Hx; now apply IH). apply lift_bind. reflexivity.
  - rewrite text_by_dict, json_text_dict. destruct d as [|kx d]; [reflexivity|]. rewrite !items_map.
    destruct (items_of CT L (kx :: d)) as [d1|e] eqn:Hi; [|reflexivity]. cbn [res_map rbind]. rewrite bind_lift_ok.
    rewrite (entries_lift _ (json_text T CT L (S lvl))).
    + apply lift_bind. reflexivity.
    + intros y x Hin. apply (IH y). exact (Permutation_in _ (Permutation_sym (items_perm _ _ _ _ Hi)) Hin).
Qed.

(** ** Only what default does with the objects it is given matters *)
Section Agree.
Variables D D' : value -> M value.
Definition alike (v : value) : Prop := forall x, given CT D x v -> D x = D' x.
Lemma given_list con y l x : listy con -> In y l -> given CT D x y -> given CT D x (con l).
Proof. intros [->|[-> |[c ->]]] Hi Hg; [now apply gv_list with y|now apply gv_tuple with y|now apply gv_namedtuple with y]. Qed.
Lemma entries_ext (g g' : value -> M string) d : (forall y x, In (y, x) d -> scalar_of CT y <> None -> g x = g' x) ->
  entries_by T CT L (map (on_snd g) d) = entries_by T CT L (map (on_snd g') d).
Proof.
  induction d as [|[k x] d IH]; intros H; [reflexivity|]. cbn [map entries_by on_snd fst snd].
  specialize (IH (fun y z Hz => H y z (or_intror Hz))). rewrite IH. apply bind_ext. intros [s|] Hk; [|reflexivity].
  apply lift_done in Hk. now rewrite (H k x (or_introl eq_refl) (key_some _ _ Hk)).
Qed.
Theorem by_agree : forall m v, alike v -> forall lvl, json_text_by T CT L D m lvl v = json_text_by T CT L D' m lvl v.
Proof.
  induction m as [|m IHm]; [reflexivity|]. cbn [json_text_by].
  induction v as [v x Hx|v Hf|con l Hc IH|k d IH] using (shape_ind CT); intros Ha lvl.
  - now rewrite !(text_by_scalar _ _ _ _ _ Hx).
  - rewrite !(text_by_foreign _ _ _ _ Hf), <- (Ha v (gv_here CT D v Hf)). apply bind_ext. intros w Hw. apply IHm.
    intros x Hx. apply Ha. now apply gv_result with w.
  - rewrite !text_by_list by exact Hc. destruct l as [|x0 l]; [reflexivity|]. f_equal. rewrite !each_mmap. apply mmap_ext.
    intros x Hx. apply IH; [exact Hx|]. intros z Hz. apply Ha. now apply given_list with x.
  - rewrite !text_by_dict. destruct d as [|kx d]; [reflexivity|]. rewrite !items_map.
    destruct (items_of CT L (kx :: d)) as [d1|e] eqn:Hi; [|reflexivity]. cbn [res_map]. rewrite !bind_lift_ok. f_equal.
    apply entries_ext. intros y x Hin Hy. assert (Hin' : In (y, x) (kx :: d)) by exact (Permutation_in _ (Permutation_sym (items_perm _ _ _ _ Hi)) Hin).
    apply (IH y); [exact Hin'|]. intros z Hz. apply Ha. now apply gv_dict with y x.
Qed.
End Agree.

(** ** The bound *)
Section Bound.
Variable D : value -> M value.
Lemma mle_each {A B} (g g' : A -> M B) l : (forall x, In x l -> mle (g x) (g' x)) -> mle (each g l) (each g' l).
Proof.
  induction l as [|x l IH]; intros H; [apply mle_refl|]. cbn [each]. apply mle_bind; [apply H; now left|]. intros y.
  apply mle_bind; [apply IH; intros z Hz; apply H; now right|]. intros ys. apply mle_refl.
Qed.
Lemma mle_entries (g g' : value -> M string) d : (forall y x, In (y, x) d -> mle (g x) (g' x)) ->
  mle (entries_by T CT L (map (on_snd g) d)) (entries_by T CT L (map (on_snd g') d)).
Proof.
  induction d as [|[k x] d IH]; intros H; [apply mle_refl|]. cbn [map entries_by on_snd fst snd].
  specialize (IH (fun y z Hz => H y z (or_intror Hz))). apply mle_bind; [apply mle_refl|]. intros [s|]; [|exact IH].
  apply mle_bind; [apply (H k x); now left|]. intros t. apply mle_bind; [exact IH|]. intros ts. apply mle_refl.
Qed.
Lemma by_step : forall m v lvl, mle (json_text_by T CT L D m lvl v) (json_text_by T CT L D (S m) lvl v).
Proof.
  induction m as [|m IHm]; intros v; [intros lvl; apply mle_oof|].
  change (json_text_by T CT L D (S (S m))) with (text_by T CT L D (json_text_by T CT L D (S m))).
  change (json_text_by T CT L D (S m)) with (text_by T CT L D (json_text_by T CT L D m)) at 1.
  induction v as [v x Hx|v Hf|con l Hc IH|k d IH] using (shape_ind CT); intros lvl.
  - rewrite !(text_by_scalar _ _ _ _ _ Hx). apply mle_refl.
  - rewrite !(text_by_foreign _ _ _ _ Hf). apply mle_bind; [apply mle_refl|]. intros w. apply IHm.
  - rewrite !text_by_list by exact Hc. destruct l as [|x0 l]; [apply mle_refl|]. apply mle_bind; [|intros ts; apply mle_refl].
    apply mle_each. intros x Hx. now apply IH.
  - rewrite !text_by_dict. destruct d as [|kx d]; [apply mle_refl|]. rewrite !items_map.
    destruct (items_of CT L (kx :: d)) as [d1|e] eqn:Hi; [|apply mle_refl]. cbn [res_map]. rewrite !bind_lift_ok.
    apply mle_bind; [|intros ts; apply mle_refl]. apply mle_entries. intros y x Hin. apply (IH y).
    exact (Permutation_in _ (Permutation_sym (items_perm _ _ _ _ Hi)) Hin).
Qed.
Theorem by_stable m m' v lvl : m <= m' -> snd (json_text_by T CT L D m lvl v) <> Oof ->
  json_text_by T CT L D m' lvl v = json_text_by T CT L D m lvl v.
Proof.
  intros Hm Ho. induction Hm as [|m' Hm IH]; [reflexivity|]. destruct (by_step m' v lvl) as [H|H].
  - rewrite IH in H. contradiction.
  - now rewrite <- H.
Qed.

(** ** Replacing first and writing then is the same *)
Fixpoint replaced_ind' (P : value -> value -> Prop)
  (Hs : forall v x, scalar_of CT v = Some x -> P v v)
  (Hl : forall con l l', listy con -> Forall2 P l l' -> P (con l) (con l'))
  (Hd : forall k d d', Forall2 (fun a b => fst a = fst b /\ (scalar_of CT (fst a) <> None -> P (snd a) (snd b))) d d' -> P (VDict k d) (VDict k d'))
  (Hf : forall v w v', foreign CT v -> snd (D v) = Done w -> replaced CT D w v' -> P w v' -> P v v')
  v w (H : replaced CT D v w) {struct H} : P v w :=
  let all := fix all l l' (F : Forall2 (replaced CT D) l l') : Forall2 P l l' :=
    match F with
    | Forall2_nil _ => Forall2_nil _
    | Forall2_cons _ _ h t => Forall2_cons _ _ (replaced_ind' P Hs Hl Hd Hf _ _ h) (all _ _ t)
    end in
  match H with
  | rp_scalar _ _ v x h => Hs v x h
  | rp_list _ _ l l' F => Hl VList l l' (or_introl eq_refl) (all l l' F)
  | rp_tuple _ _ l l' F => Hl VTuple l l' (or_intror (or_introl eq_refl)) (all l l' F)
  | rp_namedtuple _ _ c l l' F => Hl (VNT c) l l' (or_intror (or_intror (ex_intro _ c eq_refl))) (all l l' F)
  | rp_dict _ _ k d d' F => Hd k d d'
      ((fix go d d' (F : Forall2 (fun a b => fst a = fst b /\ (scalar_of CT (fst a) <> None -> replaced CT D (snd a) (snd b))) d d') :
          Forall2 (fun a b => fst a = fst b /\ (scalar_of CT (fst a) <> None -> P (snd a) (snd b))) d d' :=
        match F with
        | Forall2_nil _ => Forall2_nil _
        | Forall2_cons a b h t =>
            Forall2_cons a b (match h with conj h1 h2 => conj h1 (fun n => replaced_ind' P Hs Hl Hd Hf _ _ (h2 n)) end) (go _ _ t)
        end) d d' F)
  | rp_foreign _ _ v w v' h1 h2 h3 => Hf v w v' h1 h2 h3 (replaced_ind' P Hs Hl Hd Hf _ _ h3)
  end.
Lemma replaced_list con l l' : listy con -> Forall2 (replaced CT D) l l' -> replaced CT D (con l) (con l').
Proof. intros [->|[-> |[c ->]]] F; now constructor. Qed.

(** Entries with what replaces them *)
Lemma zip_entries {R : value -> value -> value -> Prop} d d' :
  Forall2 (fun a b => fst a = fst b /\ R (fst a) (snd a) (snd b)) d d' ->
  exists e : list (value * (value * value)), map (on_snd fst) e = d /\ map (on_snd snd) e = d' /\
    forall k x x', In (k, (x, x')) e -> R k x x'.
Proof.
  induction 1 as [|[k x] [k' x'] d d' [Hk Hr] _ (e & <- & <- & He)]; [exists []; repeat split; contradiction|].
  cbn [fst snd] in Hk, Hr. subst k'. exists ((k, (x, x')) :: e). repeat split. intros y z z' [Hin|Hin]; [|now apply He].
  injection Hin as <- <- <-. exact Hr.
Qed.
Lemma map_on_snd {A B C} (g : B -> C) (h : A -> B) d : map (on_snd g) (map (on_snd h) d) = map (on_snd (fun x => g (h x))) d.
Proof. rewrite map_map. reflexivity. Qed.
Lemma entries_snd (g : value -> M string) (h : value -> res string) e :
  (forall k x x', In (k, (x, x')) e -> scalar_of CT k <> None -> snd (g x) = snd (lift (h x'))) ->
  snd (entries_by T CT L (map (on_snd (fun p => g (fst p))) e)) = snd (lift (entries_text T CT L (map (on_snd (fun p => h (snd p))) e))).
Proof.
  induction e as [|[k [x x']] e IH]; intros H; [reflexivity|]. cbn [map entries_by entries_text on_snd fst snd].
  specialize (IH (fun y z z' Hz => H y z z' (or_intror Hz))).
  apply bind_snd; [reflexivity|]. intros [s|] Hk; [|exact IH]. apply bind_snd; [exact (H k x x' (or_introl eq_refl) (key_some _ _ Hk))|].
  intros t _. apply bind_snd; [exact IH|]. reflexivity.
Qed.
Lemma common_bound {A} (Q : A -> nat -> Prop) (l : list A) :
  (forall a m m', Q a m -> m <= m' -> Q a m') -> (forall a, In a l -> exists m, Q a m) -> exists m, forall a, In a l -> Q a m.
Proof.
  intros HQ. induction l as [|a l IH]; intros H; [exists 0; contradiction|].
  destruct IH as (m & Hm); [intros b Hb; apply H; now right|]. destruct (H a (or_introl eq_refl)) as (m' & Hm').
  exists (Nat.max m m'). intros b [<-|Hb]; [eapply HQ; [exact Hm'|lia]|eapply HQ; [now apply Hm|lia]].
Qed.
Definition same_text (N : nat) (v w : value) : Prop :=
  forall m lvl, N <= m -> snd (json_text_by T CT L D m lvl v) = snd (lift (json_text T CT L lvl w)).
Lemma same_text_more N N' v w : same_text N v w -> N <= N' -> same_text N' v w.
Proof. intros H HN m lvl Hm. apply H. lia. Qed.
Lemma common_text l l' : Forall2 (fun v w => exists N, same_text N v w) l l' -> exists N, Forall2 (same_text N) l l'.
Proof.
  induction 1 as [|v w l l' (N & HN) _ (N' & IH)]; [exists 0; constructor|]. exists (Nat.max N N'). constructor.
  - eapply same_text_more; [exact HN|lia].
  - revert IH. apply Forall2_weaken. intros a b Hab. eapply same_text_more; [exact Hab|lia].
Qed.
Theorem by_replaced v w : replaced CT D v w -> exists N, same_text N v w.
Proof.
  revert v w. refine (replaced_ind' (fun v w => exists N, same_text N v w) _ _ _ _);
    [intros v x Hx|intros con l l' Hc F|intros k d d' F|intros v w v' Hf Hw _ IH].
  - exists 1. intros [|m] lvl Hm; [lia|]. cbn [json_text_by]. now rewrite (text_by_scalar _ _ _ _ _ Hx), (json_text_one _ _ _ Hx).
  - destruct (common_text _ _ F) as (N & HN). exists (S N). intros [|m] lvl Hm; [lia|].
    change (json_text_by T CT L D (S m)) with (text_by T CT L D (json_text_by T CT L D m)).
    rewrite text_by_list, json_text_list by exact Hc. destruct HN as [|x x' l l' Hx HN]; [reflexivity|].
    apply bind_snd; [|reflexivity]. apply each_snd.
    assert (G : forall y y', same_text N y y' -> snd (text_by T CT L D (json_text_by T CT L D m) (S lvl) y) = snd (lift (json_text T CT L (S lvl) y'))).
    { intros y y' Hy. exact (Hy (S m) (S lvl) ltac:(lia)). }
    constructor; [now apply G|]. revert HN. apply Forall2_weaken. exact G.
  - destruct (zip_entries (R := fun y x x' => scalar_of CT y <> None -> exists N, same_text N x x') d d' F) as (e & Hd & Hd' & He).
    destruct (common_bound (fun a N => scalar_of CT (fst a) <> None -> same_text N (fst (snd a)) (snd (snd a))) e) as (N & HN).
    { intros a m m' Ha Hm Hs. eapply same_text_more; [now apply Ha|exact Hm]. }
    { intros [y [x x']] Hin. cbn [fst snd]. destruct (scalar_of CT y) eqn:Hy; [|exists 0; congruence].
      destruct (He y x x' Hin ltac:(congruence)) as (N & HN). exists N. auto. }
    exists (S N). intros [|m] lvl Hm; [lia|].
    change (json_text_by T CT L D (S m)) with (text_by T CT L D (json_text_by T CT L D m)).
    rewrite text_by_dict, json_text_dict. subst d d'. destruct e as [|a e]; [reflexivity|]. set (e0 := a :: e) in *.
    assert (G1 : forall (A : Type) (X Y : A), match map (on_snd fst) e0 with [] => X | _ => Y end = Y) by reflexivity.
    assert (G2 : forall (A : Type) (X Y : A), match map (on_snd snd) e0 with [] => X | _ => Y end = Y) by reflexivity.
    rewrite G1, G2. rewrite !map_on_snd, !items_map. destruct (items_of CT L e0) as [e1|er] eqn:Hi; [|reflexivity]. cbn [res_map rbind].
    rewrite bind_lift_ok. apply bind_snd; [|reflexivity]. apply entries_snd. intros y x x' Hin Hy.
    assert (Hin' : In (y, (x, x')) e0) by exact (Permutation_in _ (Permutation_sym (items_perm _ _ _ _ Hi)) Hin).
    exact (HN _ Hin' Hy (S m) (S lvl) ltac:(lia)).
  - destruct IH as (N & HN). exists (S N). intros [|m] lvl Hm; [lia|]. cbn [json_text_by]. rewrite (text_by_foreign _ _ _ _ Hf).
    unfold mbind. rewrite Hw. cbn [snd]. apply HN. lia.
Qed.
(** What was written can be replaced. *)
Lemma entries_each (g : value -> M string) : forall d ts, snd (entries_by T CT L (map (on_snd g) d)) = Done ts ->
  forall y x, In (y, x) d -> scalar_of CT y <> None -> exists s, snd (g x) = Done s.
Proof.
  induction d as [|[k x] d IH]; intros ts H y z Hin Hy; [contradiction|]. cbn [map entries_by on_snd fst snd] in H.
  apply bind_done in H as ([s|] & Hk & H); apply lift_done in Hk.
  - apply bind_done in H as (t & Ht & H). apply bind_done in H as (ts' & Hts & _). destruct Hin as [[= <- <-]|Hin]; [now exists t|].
    exact (IH _ Hts _ _ Hin Hy).
  - destruct Hin as [[= <- <-]|Hin]; [|exact (IH _ H _ _ Hin Hy)]. apply key_with_none in Hk. unfold is_scalar in Hk. destruct (scalar_of CT k); [discriminate|contradiction].
Qed.
Theorem by_done : forall m v lvl s, snd (json_text_by T CT L D m lvl v) = Done s -> exists w, replaced CT D v w.
Proof.
  induction m as [|m IHm]; [discriminate|]. change (json_text_by T CT L D (S m)) with (text_by T CT L D (json_text_by T CT L D m)).
  induction v as [v x Hx|v Hf|con l Hc IH|k d IH] using (shape_ind CT); intros lvl s H.
  - exists v. exact (rp_scalar CT D v x Hx).
  - rewrite (text_by_foreign _ _ _ _ Hf) in H. apply bind_done in H as (w & Hw & H). destruct (IHm _ _ _ H) as (v' & Hv').
    exists v'. exact (rp_foreign CT D v w v' Hf Hw Hv').
  - assert (G : exists l', Forall2 (replaced CT D) l l').
    { rewrite text_by_list in H by exact Hc. destruct l as [|x0 l0]; [exists []; constructor|]. set (l1 := x0 :: l0) in *.
      apply bind_done in H as (ts & H & _). rewrite each_mmap in H. apply mmap_done in H. clearbody l1.
      induction H as [|x t l ts Hx _ IHl]; [exists []; constructor|]. destruct IHl as (l' & Hl'); [intros y Hy; apply IH; now right|].
      destruct (IH x (or_introl eq_refl) _ _ Hx) as (x' & Hx'). exists (x' :: l'). now constructor. }
    destruct G as (l' & Hl'). exists (con l'). now apply replaced_list.
  - assert (G : exists d', Forall2 (fun a b => fst a = fst b /\ (scalar_of CT (fst a) <> None -> replaced CT D (snd a) (snd b))) d d').
    { assert (Hall : forall y x, In (y, x) d -> scalar_of CT y <> None -> exists x', replaced CT D x x').
      { rewrite text_by_dict in H. destruct d as [|kx0 d0]; [contradiction|]. rewrite items_map in H.
        destruct (items_of CT L (kx0 :: d0)) as [d1|e] eqn:Hi; [|discriminate]. cbn [res_map] in H. rewrite bind_lift_ok in H.
        apply bind_done in H as (ts & H & _). intros y x Hin Hy.
        destruct (entries_each _ _ _ H y x (Permutation_in _ (items_perm _ _ _ _ Hi) Hin) Hy) as (t & Ht). exact (IH y x Hin _ _ Ht). }
      clear H IH. induction d as [|[y x] d IHd]; [exists []; constructor|]. destruct IHd as (d' & Hd'); [intros z w Hz; apply (Hall z w); now right|].
      destruct (scalar_of CT y) eqn:Hy.
      - destruct (Hall y x (or_introl eq_refl) ltac:(congruence)) as (x' & Hx'). exists ((y, x') :: d'). constructor; [split; auto|exact Hd'].
      - exists ((y, x) :: d'). constructor; [split; [reflexivity|cbn [fst]; congruence]|exact Hd']. }
    destruct G as (d' & Hd'). exists (VDict k d'). now constructor.
Qed.

(** ** The objects default is given *)
Lemma given_scalar v x z : scalar_of CT v = Some x -> ~ given CT D z v.
Proof. intros Hx Hg. inversion Hg; subst; try discriminate Hx; match goal with G : foreign CT _ |- _ => destruct G as [G _]; congruence end. Qed.
Lemma given_list_inv con l z : listy con -> given CT D z (con l) -> exists y, In y l /\ given CT D z y.
Proof.
  intros [->|[-> |[c ->]]] Hg; inversion Hg; subst; eauto;
    match goal with G : foreign CT _ |- _ => destruct G as [_ G]; contradiction G end.
Qed.
Lemma given_dict_inv k d z : given CT D z (VDict k d) -> exists key y, In (key, y) d /\ scalar_of CT key <> None /\ given CT D z y.
Proof.
  intros Hg; inversion Hg; subst; eauto; match goal with G : foreign CT _ |- _ => destruct G as [_ G]; contradiction G end.
Qed.
Lemma given_foreign_inv v z : foreign CT v -> given CT D z v -> z = v \/ exists w, snd (D v) = Done w /\ given CT D z w.
Proof. intros [_ Hf] Hg; inversion Hg; subst; eauto; contradiction Hf. Qed.
Lemma given_foreign z v : given CT D z v -> foreign CT z.
Proof. induction 1; assumption. Qed.
Theorem given_endless v w : replaced CT D v w -> forall x, given CT D x v -> snd (D x) = Done x -> False.
Proof.
  revert v w. refine (replaced_ind' (fun v _ => forall x, given CT D x v -> snd (D x) = Done x -> False) _ _ _ _);
    [intros v x Hx|intros con l l' Hc F|intros k d d' F|intros v w v' Hf Hw Hr IH]; intros z Hg Hz.
  - exact (given_scalar _ _ _ Hx Hg).
  - apply given_list_inv in Hg as (y & Hy & Gy); [|exact Hc].
    induction F as [|a b l l' Hab _ IHl]; [contradiction|]. destruct Hy as [<-|Hy]; [exact (Hab z Gy Hz)|auto].
  - apply given_dict_inv in Hg as (key & y & Hy & Hk & Gy).
    induction F as [|a b d d' [_ Hab] _ IHl]; [contradiction|]. destruct Hy as [-> |Hy]; [exact (Hab Hk z Gy Hz)|auto].
  - apply given_foreign_inv in Hg as [-> |(w' & Hw' & Hg)]; [|rewrite Hw in Hw'; injection Hw' as <-; exact (IH z Hg Hz)|exact Hf].
    rewrite Hw in Hz. injection Hz as ->. apply (IH v); [now constructor|exact Hw].
Qed.
(** Every object that is given must be made something of. *)
Theorem given_done v w : replaced CT D v w -> forall x, given CT D x v -> exists y, snd (D x) = Done y.
Proof.
  revert v w. refine (replaced_ind' (fun v _ => forall x, given CT D x v -> exists y, snd (D x) = Done y) _ _ _ _);
    [intros v x Hx|intros con l l' Hc F|intros k d d' F|intros v w v' Hf Hw Hr IH]; intros z Hg.
  - destruct (given_scalar _ _ _ Hx Hg).
  - apply given_list_inv in Hg as (y & Hy & Gy); [|exact Hc].
    induction F as [|a b l l' Hab _ IHl]; [contradiction|]. destruct Hy as [<-|Hy]; [exact (Hab z Gy)|auto].
  - apply given_dict_inv in Hg as (key & y & Hy & Hk & Gy).
    induction F as [|a b d d' [_ Hab] _ IHl]; [contradiction|]. destruct Hy as [-> |Hy]; [exact (Hab Hk z Gy)|auto].
  - apply given_foreign_inv in Hg as [-> |(w' & Hw' & Hg)]; [now exists w|rewrite Hw in Hw'; injection Hw' as <-; exact (IH z Hg)|exact Hf].
Qed.
Lemma given_part z v : given CT D z v -> exists y, part_of y v /\ foreign CT y.
Proof.
  induction 1 as [Hf|v w Hf _ _ _|y l Hin _ (p & Hp & Hf)|y l Hin _ (p & Hp & Hf)|c y l Hin _ (p & Hp & Hf)|k key y d Hin _ _ (p & Hp & Hf)].
  - exists z. split; [constructor|exact Hf].
  - exists v. split; [constructor|exact Hf].
  - exists p. split; [now apply po_list with y|exact Hf].
  - exists p. split; [now apply po_tuple with y|exact Hf].
  - exists p. split; [now apply po_namedtuple with y|exact Hf].
  - exists p. split; [now apply po_dict with key y|exact Hf].
Qed.

(** ** Exceptions *)
Hypothesis Hlt : ly_sort L = false \/ forall a b e, ly_lt L a b = Err e -> e = exn_of KType.
Lemma insert_err {A} (x : value * A) e : forall l, insert (key_lt CT L) x l = Err e -> exists a b, key_lt CT L a b = Err e.
Proof.
  induction l as [|y l IH]; intros H; cbn [insert] in H; [discriminate|]. apply rbind_err in H as [H|([|] & _ & H)]; [eauto|discriminate|].
  apply rbind_err in H as [H|(r & _ & H)]; [auto|discriminate].
Qed.
Lemma sort_err {A} e : forall (l acc : list (value * A)), sort_into (key_lt CT L) acc l = Err e -> exists a b, key_lt CT L a b = Err e.
Proof.
  induction l as [|x l IH]; intros acc H; cbn [sort_into] in H; [discriminate|]. apply rbind_err in H as [H|(r & _ & H)]; [now apply insert_err in H|eauto].
Qed.
Lemma items_err {A} (d : list (value * A)) e : items_of CT L d = Err e -> e = exn_of KType.
Proof using Hlt.
  unfold items_of. destruct (ly_sort L) eqn:Hs; [|discriminate]. destruct Hlt as [?|H]; [discriminate|]. intros Hi. apply sort_err in Hi as (a & b & Hab).
  unfold key_lt, raise in Hab.
  destruct (scalar_of CT a) as [[]|], (scalar_of CT b) as [[]|]; try discriminate; try (now injection Hab as <-); now apply (H a b).
Qed.
Lemma entries_fail (g : value -> M string) e : forall d, snd (entries_by T CT L (map (on_snd g) d)) = Fail e ->
  e = exn_of KType \/ e = exn_of KValue \/ exists y x, In (y, x) d /\ scalar_of CT y <> None /\ snd (g x) = Fail e.
Proof.
  induction d as [|[k x] d IH]; intros H; cbn [map entries_by on_snd fst snd] in H; [discriminate|].
  assert (G : e = exn_of KType \/ e = exn_of KValue \/ (exists y z, In (y, z) d /\ scalar_of CT y <> None /\ snd (g z) = Fail e) ->
    e = exn_of KType \/ e = exn_of KValue \/ exists y z, In (y, z) ((k, x) :: d) /\ scalar_of CT y <> None /\ snd (g z) = Fail e).
  { intros [?|[?|(y & z & ? & ? & ?)]]; auto. right. right. exists y, z. split; [now right|auto]. }
  apply bind_fail in H as [H|([s|] & Hk & H)].
  - destruct (key_text_with T CT L k) as [r|e'] eqn:Hk; [discriminate|]. cbn in H. injection H as ->. apply key_err in Hk as [?|?]; auto.
  - apply lift_done in Hk. apply bind_fail in H as [H|(t & _ & H)].
    + right. right. exists k, x. split; [now left|]. split; [exact (key_some _ _ Hk)|exact H].
    + apply bind_fail in H as [H|(ts & _ & H)]; [auto|discriminate].
  - auto.
Qed.
Theorem by_fails : forall m v lvl e, snd (json_text_by T CT L D m lvl v) = Fail e ->
  e = exn_of KType \/ e = exn_of KValue \/ exists x, given CT D x v /\ snd (D x) = Fail e.
Proof using Hlt.
  induction m as [|m IHm]; [discriminate|]. change (json_text_by T CT L D (S m)) with (text_by T CT L D (json_text_by T CT L D m)).
  induction v as [v x Hx|v Hf|con l Hc IH|k d IH] using (shape_ind CT); intros lvl e H.
  - rewrite (text_by_scalar _ _ _ _ _ Hx) in H. destruct (scalar_text_with T CT L v) as [s|e'] eqn:Hs; [discriminate|]. cbn in H. injection H as ->.
    apply scalar_err in Hs as [?|?]; auto.
  - rewrite (text_by_foreign _ _ _ _ Hf) in H. apply bind_fail in H as [H|(w & Hw & H)].
    + right. right. exists v. split; [now constructor|exact H].
    + destruct (IHm _ _ _ H) as [?|[?|(x & Hx & G)]]; auto. right. right. exists x. split; [now apply gv_result with w|exact G].
  - rewrite text_by_list in H by exact Hc. destruct l as [|x0 l]; [discriminate|]. apply bind_fail in H as [H|(ts & _ & H)]; [|discriminate].
    apply each_fail in H as (x & Hx & H). destruct (IH x Hx _ _ H) as [?|[?|(z & Hz & G)]]; auto. right. right. exists z.
    split; [now apply given_list with x|exact G].
  - rewrite text_by_dict in H. destruct d as [|kx d]; [discriminate|]. rewrite items_map in H.
    destruct (items_of CT L (kx :: d)) as [d1|e'] eqn:Hi; cbn [res_map] in H.
    + rewrite bind_lift_ok in H. apply bind_fail in H as [H|(ts & _ & H)]; [|discriminate].
      apply entries_fail in H as [?|[?|(y & x & Hin & Hy & H)]]; auto.
      assert (Hin' : In (y, x) (kx :: d)) by exact (Permutation_in _ (Permutation_sym (items_perm _ _ _ _ Hi)) Hin).
      destruct (IH y x Hin' _ _ H) as [?|[?|(z & Hz & G)]]; auto. right. right. exists z. split; [now apply gv_dict with y x|exact G].
    + cbn in H. injection H as ->. left. exact (items_err _ _ Hi).
Qed.
End Bound.
End Text.

(** ** Dumps by the default serializers *)
Lemma json_part CT p v : scalars_known CT -> json CT v -> part_of p v -> ~ foreign CT p.
Proof.
  intros HK Hj Hp. induction Hp as [|l x Hin _ IH|l x Hin _ IH|c l x Hin _ IH|k d y x Hin _ IH].
  - intros [Hs Hf]. inversion Hj as [v Ha| |]; subst; [exact (HK _ Ha Hs)|contradiction Hf..].
  - apply IH. inversion Hj as [v Ha|l' Hl|]; subst; [destruct (HK _ Ha eq_refl)|now apply Hl].
  - apply IH. inversion Hj as [v Ha|l' Hl|]; subst. destruct (HK _ Ha eq_refl).
  - apply IH. inversion Hj as [v Ha|l' Hl|]; subst. destruct (HK _ Ha eq_refl).
  - apply IH. inversion Hj as [v Ha|l' Hl|k' d' Hd]; subst; [destruct (HK _ Ha eq_refl)|exact (proj2 (Hd _ _ Hin))].
Qed.
