(** * Proofs about the key transformers *)
From Verif Require Import PyBase PyBaseFacts KeyTransformersModel KeySpec.
Local Open Scope string_scope.

Ltac fails_tac := unfold raise; split; intros; first [discriminate | reflexivity | eexists; reflexivity |
  match goal with H : exists _, _ |- _ => destruct H; discriminate end].

Definition nsep (c : ascii) : bool := negb (sep c).

Lemma free_of_sforall p s : free_of p s <-> sforall (fun c => negb (p c)) s = true.
Proof.
  unfold free_of. rewrite sforall_In. split; intros H c Hc; specialize (H c Hc).
  - now rewrite H.
  - now apply negb_true_iff.
Qed.

Lemma nsep_spec c : nsep c = true <-> Ascii.eqb c "_" = false /\ Ascii.eqb c "-" = false.
Proof. unfold nsep, sep. rewrite negb_true_iff, orb_false_iff. reflexivity. Qed.

Lemma nsep_to_lower c : nsep (to_lower c) = nsep c.
Proof. unfold nsep, sep. now rewrite to_lower_eqb_us, to_lower_eqb_dash. Qed.
Lemma nsep_to_upper c : nsep (to_upper c) = nsep c.
Proof. unfold nsep, sep. now rewrite to_upper_eqb_us, to_upper_eqb_dash. Qed.

(** ** sreplace1 *)
Lemma sreplace1_id a b s :
  sforall (fun c => negb (Ascii.eqb c a)) s = true -> sreplace1 a b s = s.
Proof.
  apply smap_id_on. intros c Hc. apply negb_true_iff in Hc. now rewrite Hc.
Qed.

Lemma sreplace1_free a b s :
  Ascii.eqb b a = false ->
  sforall (fun c => negb (Ascii.eqb c a)) (sreplace1 a b s) = true.
Proof.
  intros Hab. unfold sreplace1. rewrite sforall_smap. apply sforall_all.
  intros c. destruct (Ascii.eqb c a) eqn:E; [now rewrite Hab | now rewrite E].
Qed.

Lemma sreplace1_back a b s :
  sforall (fun c => negb (Ascii.eqb c b)) s = true ->
  sreplace1 b a (sreplace1 a b s) = s.
Proof.
  unfold sreplace1. rewrite smap_smap. apply smap_id_on.
  intros c Hc. apply negb_true_iff in Hc.
  destruct (Ascii.eqb c a) eqn:E.
  - rewrite Ascii.eqb_refl. apply Ascii.eqb_eq in E. congruence.
  - now rewrite Hc.
Qed.

(** ** Body of camelcase, before the first character is lowered *)
Definition camel_body (s : string) : string :=
  let t := sreplace1 "-" "_" s in
  let splitted := ssplit "_" t in
  if Nat.ltb 1 (List.length splitted) then sjoin "" (map stitle splitted) else t.

Lemma camelcase_body s : camelcase s = lower_first (camel_body s).
Proof. reflexivity. Qed.

Lemma ssplit_len_pos c s : 1 <= List.length (ssplit c s).
Proof. pose proof (ssplit_nonempty c s). destruct (ssplit c s); simpl; [congruence|lia]. Qed.

Lemma camel_body_nsep s : sforall nsep (camel_body s) = true.
Proof.
  unfold camel_body. set (t := sreplace1 "-" "_" s).
  assert (Hd : sforall (fun c => negb (Ascii.eqb c "-")) t = true)
    by (apply sreplace1_free; reflexivity).
  assert (Hcomb : forall w, sforall (fun c => negb (Ascii.eqb c "-")) w = true ->
                            smem "_" w = false -> sforall nsep w = true).
  { intros w H1 H2. apply smem_false in H2.
    rewrite sforall_In in *. intros c Hc. apply nsep_spec.
    split; apply negb_true_iff; auto. }
  destruct (Nat.ltb_spec 1 (List.length (ssplit "_" t))) as [Hlt|Hge].
  - apply sjoin_nil_forall.
    pose proof (ssplit_pieces_free "_" t) as F1.
    pose proof (ssplit_pieces_forall _ "_" t Hd) as F2.
    rewrite Forall_forall in *. intros w' Hw'. apply in_map_iff in Hw' as [w [<- Hw]].
    apply stitle_go_forall.
    + intros c; now rewrite nsep_to_lower.
    + intros c; now rewrite nsep_to_upper.
    + apply Hcomb; auto.
  - apply Hcomb; [assumption|]. apply ssplit_single_iff.
    pose proof (ssplit_len_pos "_" t). lia.
Qed.

(** The body is the input without separators, up to letter case. *)
Fixpoint drop_seps (s : string) : string :=
  match s with
  | EmptyString => ""
  | String c r => if sep c then drop_seps r else String c (drop_seps r)
  end.

Lemma stitle_go_len0 b s : stitle_go b s = "" <-> s = "".
Proof. destruct s; simpl; split; congruence. Qed.

Lemma sapp_empty a b : a ++ b = "" <-> a = "" /\ b = "".
Proof. destruct a; simpl; split; [tauto|intros [_ ?]; auto|discriminate|intros [? _]; discriminate]. Qed.

Lemma sjoin_titles_empty ws :
  sjoin "" (map stitle ws) = "" <-> Forall (fun w => w = "") ws.
Proof.
  induction ws as [|w ws IH]; simpl map; [split; [constructor|reflexivity]|].
  rewrite sjoin_nil_cons, sapp_empty. unfold stitle at 1. rewrite stitle_go_len0, IH.
  split; [intros [? ?]; now constructor | inversion 1; auto].
Qed.

Lemma ssplit_all_empty c s :
  Forall (fun w => w = "") (ssplit c s) <-> sforall (fun x => Ascii.eqb x c) s = true.
Proof.
  induction s as [|x s IH]; simpl; [split; [reflexivity|constructor; [reflexivity|constructor]]|].
  destruct (Ascii.eqb x c) eqn:E; simpl.
  - rewrite <- IH. split; [now inversion 1 | now constructor].
  - split; [|discriminate]. destruct (ssplit c s); inversion 1; discriminate.
Qed.

Lemma sreplace1_all_us s :
  sforall (fun x => Ascii.eqb x "_") (sreplace1 "-" "_" s) = sforall sep s.
Proof.
  unfold sreplace1. rewrite sforall_smap. apply sforall_ext. intros c. unfold sep.
  destruct (Ascii.eqb c "-") eqn:E; [now rewrite orb_true_r | now rewrite orb_false_r].
Qed.

Lemma camel_body_empty s : camel_body s = "" <-> sforall sep s = true.
Proof.
  unfold camel_body. set (t := sreplace1 "-" "_" s).
  destruct (Nat.ltb_spec 1 (List.length (ssplit "_" t))) as [Hlt|Hge].
  - rewrite sjoin_titles_empty, ssplit_all_empty. unfold t. rewrite sreplace1_all_us. reflexivity.
  - assert (H1 : smem "_" t = false).
    { apply ssplit_single_iff. pose proof (ssplit_len_pos "_" t). lia. }
    rewrite <- (sreplace1_all_us s). fold t. apply smem_false in H1.
    destruct t as [|c r]; simpl in *; [tauto|].
    split; [discriminate|]. apply andb_prop in H1 as [Hc _].
    destruct (Ascii.eqb c "_"); simpl in *; discriminate.
Qed.

Lemma only_separators_sforall s : only_separators s <-> sforall sep s = true.
Proof. unfold only_separators. now rewrite sforall_In. Qed.

(** ** C01/C02 for camelcase and pascalcase *)

Lemma lower_first_ok s r : lower_first s = Ok r -> exists c t, s = String c t /\ r = String (to_lower c) t.
Proof. destruct s as [|c t]; simpl; [discriminate|]. intros [= <-]. eauto. Qed.
Lemma upper_first_ok s r : upper_first s = Ok r -> exists c t, s = String c t /\ r = String (to_upper c) t.
Proof. destruct s as [|c t]; simpl; [discriminate|]. intros [= <-]. eauto. Qed.

Lemma camelcase_ok s r :
  camelcase s = Ok r -> exists c t, camel_body s = String c t /\ r = String (to_lower c) t.
Proof. rewrite camelcase_body. apply lower_first_ok. Qed.

Lemma camelcase_shape s r : camelcase s = Ok r -> camel_shape r.
Proof.
  intros H. apply camelcase_ok in H as [c [t [Hb ->]]].
  pose proof (camel_body_nsep s) as Hn. rewrite Hb in Hn. simpl in Hn.
  split.
  - apply free_of_sforall. simpl. change (nsep (to_lower c) && sforall nsep t = true).
    now rewrite nsep_to_lower.
  - simpl. apply to_lower_not_upper.
Qed.

Lemma pascalcase_ok s r :
  pascalcase s = Ok r -> exists c t, camel_body s = String c t /\ r = String (to_upper c) t.
Proof.
  unfold pascalcase, rbind. destruct (camelcase s) as [k|e] eqn:E; [|discriminate].
  intros H. apply camelcase_ok in E as [c [t [Hb ->]]].
  simpl in H. injection H as <-. exists c, t. now rewrite upper_to_lower.
Qed.

Lemma pascalcase_shape s r : pascalcase s = Ok r -> pascal_shape r.
Proof.
  intros H. apply pascalcase_ok in H as [c [t [Hb ->]]].
  pose proof (camel_body_nsep s) as Hn. rewrite Hb in Hn. simpl in Hn.
  split.
  - apply free_of_sforall. simpl. change (nsep (to_upper c) && sforall nsep t = true).
    now rewrite nsep_to_upper.
  - simpl. apply to_upper_not_lower.
Qed.

Lemma camel_body_id s : sforall nsep s = true -> camel_body s = s.
Proof.
  intros H. unfold camel_body.
  assert (Hd : sreplace1 "-" "_" s = s).
  { apply sreplace1_id. revert H. apply sforall_impl. intros c Hc.
    apply nsep_spec in Hc as [_ Hc]. now rewrite Hc. }
  assert (Hu : smem "_" s = false).
  { apply smem_false. revert H. apply sforall_impl. intros c Hc.
    apply nsep_spec in Hc as [Hc _]. now rewrite Hc. }
  rewrite Hd, ssplit_none by assumption. reflexivity.
Qed.

Lemma camelcase_fix s : s <> "" -> camel_shape s -> camelcase s = Ok s.
Proof.
  intros Hne [Hf Hu]. rewrite camelcase_body, camel_body_id by now apply free_of_sforall.
  destruct s as [|c t]; [congruence|]. simpl in *. now rewrite to_lower_of_not_upper.
Qed.

Lemma pascalcase_fix s : s <> "" -> pascal_shape s -> pascalcase s = Ok s.
Proof.
  intros Hne [Hf Hu]. unfold pascalcase.
  rewrite camelcase_body, camel_body_id by now apply free_of_sforall.
  destruct s as [|c t]; [congruence|]. simpl in *.
  now rewrite upper_to_lower, to_upper_of_not_lower.
Qed.

Lemma camelcase_idem s r : camelcase s = Ok r -> camelcase r = Ok r.
Proof.
  intros H. apply camelcase_fix; [|eapply camelcase_shape; eauto].
  apply camelcase_ok in H as [c [t [_ ->]]]. discriminate.
Qed.
Lemma pascalcase_idem s r : pascalcase s = Ok r -> pascalcase r = Ok r.
Proof.
  intros H. apply pascalcase_fix; [|eapply pascalcase_shape; eauto].
  apply pascalcase_ok in H as [c [t [_ ->]]]. discriminate.
Qed.

Lemma camelcase_fails s : (exists e, camelcase s = Err e) <-> only_separators s.
Proof.
  rewrite only_separators_sforall, <- camel_body_empty, camelcase_body.
  destruct (camel_body s); simpl; fails_tac.
Qed.
Lemma pascalcase_fails s : (exists e, pascalcase s = Err e) <-> only_separators s.
Proof.
  rewrite <- camelcase_fails. unfold pascalcase, rbind.
  destruct (camelcase s) as [k|e] eqn:E; [|split; eauto].
  apply camelcase_ok in E as [c [t [_ ->]]]. simpl. split; intros [e H]; discriminate.
Qed.

(** ** snakecase and lispcase *)

Lemma resub_forall p s : p "_"%char = true -> sforall p s = true -> sforall p (resub s) = true.
Proof.
  intros Hu. induction s as [|a t IH]; [reflexivity|]. cbn [sforall].
  rewrite andb_true_iff; intros [Ha Ht]. specialize (IH Ht).
  destruct t as [|b t']; [simpl; now rewrite Ha|]. revert IH. generalize (String b t'). intros t IH.
  cbn [resub]. destruct t as [|b2 t2]; [simpl; now rewrite Ha|]. revert IH. cbn [sforall].
  destruct (is_lower a && is_upper b2); cbn [sforall]; intros IH; rewrite Ha, ?Hu, IH; reflexivity.
Qed.

Lemma resub_id s : sforall (fun c => negb (is_upper c)) s = true -> resub s = s.
Proof.
  induction s as [|a t IH]; [reflexivity|]. cbn [sforall resub].
  rewrite andb_true_iff; intros [Ha Ht]. specialize (IH Ht).
  destruct t as [|b t']; [reflexivity|]. cbn [sforall] in Ht. apply andb_prop in Ht as [Hb _].
  apply negb_true_iff in Hb. rewrite Hb, andb_false_r. now rewrite IH.
Qed.

Lemma snakecase_fails s : (exists e, snakecase s = Err e) <-> s = "".
Proof. destruct s as [|c t]; simpl; fails_tac. Qed.

Lemma lispcase_snake s : lispcase s = rbind (snakecase s) (fun r => Ok (sreplace1 "_" "-" r)).
Proof. reflexivity. Qed.

Lemma lispcase_fails s : (exists e, lispcase s = Err e) <-> s = "".
Proof. destruct s as [|c t]; simpl; fails_tac. Qed.

Lemma snakecase_shape s r : snakecase s = Ok r -> snake_shape r /\ r <> "".
Proof.
  intros H. unfold snakecase, rbind in H.
  destruct (lower_first (sreplace1 "-" "_" s)) as [k|e] eqn:E; [|discriminate].
  injection H as <-. apply lower_first_ok in E as [c [t [Hs ->]]].
  split; [split|].
  - apply free_of_sforall. unfold slower. rewrite sforall_smap.
    apply sforall_all. intros x. now rewrite to_lower_not_upper.
  - apply free_of_sforall. unfold slower. rewrite sforall_smap.
    rewrite (sforall_ext _ (fun c => negb (Ascii.eqb c "-")))
      by (intros x; now rewrite to_lower_eqb_dash).
    apply resub_forall; [reflexivity|]. simpl. rewrite to_lower_eqb_dash.
    assert (Hf := sreplace1_free "-" "_" s eq_refl). rewrite Hs in Hf. exact Hf.
  - simpl. destruct t as [|b t']; [discriminate|]. destruct (_ && _); discriminate.
Qed.

Lemma snakecase_fix s : s <> "" -> snake_shape s -> snakecase s = Ok s.
Proof.
  intros Hne [Hu Hd]. apply free_of_sforall in Hu, Hd. unfold snakecase.
  rewrite sreplace1_id by assumption.
  destruct s as [|c t]; [congruence|]. cbn [lower_first rbind].
  assert (Hc : is_upper c = false) by (simpl in Hu; apply andb_prop in Hu as [Hc _];
    now apply negb_true_iff).
  rewrite (to_lower_of_not_upper _ Hc). rewrite resub_id by assumption. f_equal.
  apply (smap_id_on _ (fun c => negb (is_upper c))); [|assumption].
  intros x Hx. apply to_lower_of_not_upper. now apply negb_true_iff.
Qed.

Lemma snakecase_idem s r : snakecase s = Ok r -> snakecase r = Ok r.
Proof. intros H. apply snakecase_shape in H as [Hs Hne]. now apply snakecase_fix. Qed.

Lemma lispcase_ok s r : lispcase s = Ok r -> exists q, snakecase s = Ok q /\ r = sreplace1 "_" "-" q.
Proof.
  rewrite lispcase_snake. unfold rbind. destruct (snakecase s) as [q|e]; [|discriminate].
  intros [= <-]. eauto.
Qed.

Lemma smap_empty f s : smap f s = "" <-> s = "".
Proof. destruct s; simpl; split; congruence. Qed.

Lemma lispcase_shape s r : lispcase s = Ok r -> lisp_shape r /\ r <> "".
Proof.
  intros H. apply lispcase_ok in H as [q [Hq ->]].
  apply snakecase_shape in Hq as [[Hu Hd] Hne]. apply free_of_sforall in Hu, Hd.
  split; [split|].
  - apply free_of_sforall. unfold sreplace1. rewrite sforall_smap. revert Hu. apply sforall_impl.
    intros c Hc. destruct (Ascii.eqb c "_"); [reflexivity|assumption].
  - apply free_of_sforall. apply sreplace1_free. reflexivity.
  - unfold sreplace1. now rewrite smap_empty.
Qed.

Lemma snake_of_lisp_text q :
  snake_shape q -> q <> "" -> snakecase (sreplace1 "_" "-" q) = Ok q.
Proof.
  intros Hs Hne. pose proof Hs as [Hu Hd]. apply free_of_sforall in Hd.
  rewrite <- (snakecase_fix q Hne Hs). unfold snakecase.
  rewrite (sreplace1_back "_" "-" q Hd), (sreplace1_id "-" "_" q Hd). reflexivity.
Qed.

Lemma lispcase_idem s r : lispcase s = Ok r -> lispcase r = Ok r.
Proof.
  intros H. apply lispcase_ok in H as [q [Hq ->]].
  apply snakecase_shape in Hq as [Hs Hne].
  rewrite lispcase_snake, snake_of_lisp_text by assumption. reflexivity.
Qed.

Lemma lispcase_fix s : s <> "" -> lisp_shape s -> lispcase s = Ok s.
Proof.
  intros Hne [Hu Hd]. apply free_of_sforall in Hu, Hd.
  assert (Hq : snake_shape (sreplace1 "-" "_" s)).
  { split; apply free_of_sforall; [|now apply sreplace1_free].
    unfold sreplace1; rewrite sforall_smap. revert Hu; apply sforall_impl. intros c Hc.
    destruct (Ascii.eqb c "-"); [reflexivity|assumption]. }
  assert (Hqne : sreplace1 "-" "_" s <> "") by (unfold sreplace1; now rewrite smap_empty).
  rewrite lispcase_snake.
  rewrite <- (sreplace1_back "-" "_" s Hd) at 1.
  rewrite snake_of_lisp_text by assumption. simpl. now rewrite sreplace1_back.
Qed.

(** ** C04 *)
Lemma snake_lisp s r : lispcase s = Ok r -> snakecase r = snakecase s.
Proof.
  intros H. apply lispcase_ok in H as [q [Hq ->]]. rewrite Hq.
  apply snakecase_shape in Hq as [Hs Hne]. now apply snake_of_lisp_text.
Qed.
Lemma lisp_snake s r : snakecase s = Ok r -> lispcase r = lispcase s.
Proof.
  intros H. rewrite !lispcase_snake, (snakecase_idem _ _ H), H. reflexivity.
Qed.
Lemma camel_pascal s r : pascalcase s = Ok r -> camelcase r = camelcase s.
Proof.
  intros H. pose proof (pascalcase_shape _ _ H) as [Hf _].
  apply pascalcase_ok in H as [c [t [Hb ->]]].
  rewrite !camelcase_body, Hb, camel_body_id by now apply free_of_sforall.
  simpl. now rewrite lower_to_upper.
Qed.
Lemma pascal_camel s r : camelcase s = Ok r -> pascalcase r = pascalcase s.
Proof.
  intros H. unfold pascalcase. rewrite (camelcase_idem _ _ H), H. reflexivity.
Qed.
Lemma camel_pascal_first s :
  (only_separators s) \/
  exists c t, camelcase s = Ok (String (to_lower c) t) /\ pascalcase s = Ok (String (to_upper c) t).
Proof.
  rewrite only_separators_sforall, <- camel_body_empty.
  destruct (camel_body s) as [|c t] eqn:E; [now left|right].
  exists c, t. unfold pascalcase. rewrite camelcase_body, E. simpl. now rewrite upper_to_lower.
Qed.
Lemma snake_lisp_sep s :
  s = "" \/ exists q, snakecase s = Ok q /\ lispcase s = Ok (sreplace1 "_" "-" q).
Proof.
  destruct (snakecase s) as [q|e] eqn:E.
  - right. exists q. now rewrite lispcase_snake, E.
  - left. apply snakecase_fails. eauto.
Qed.

(** ** C03 *)

(** What snakecase makes of a camelCased list of words after the first. *)
Fixpoint tail_form (prev_long : bool) (ws : list string) : string :=
  match ws with
  | [] => ""
  | w :: r => (if prev_long then "_" else "") ++ w ++ tail_form (Nat.leb 2 (String.length w)) r
  end.

Lemma stitle_word w : word w -> stitle w = cap w.
Proof.
  intros [Hne Hl]. destruct w as [|c r]; [congruence|]. simpl in *.
  apply andb_prop in Hl as [Hc Hr]. unfold stitle. simpl. f_equal.
  rewrite (lower_is_cased _ Hc). clear Hne Hc c.
  induction r as [|x r IH]; [reflexivity|]. simpl in *. apply andb_prop in Hr as [Hx Hr].
  rewrite (lower_is_cased _ Hx), (to_lower_of_not_upper _ (lower_is_not_upper _ Hx)).
  f_equal; auto.
Qed.

Lemma lower_id s : sforall is_lower s = true -> slower s = s.
Proof.
  apply smap_id_on. intros c Hc. apply to_lower_of_not_upper. now apply lower_is_not_upper.
Qed.

Lemma resub_lower_then u X t :
  sforall is_lower u = true -> is_upper X = true ->
  resub (u ++ String X t) = u ++ (if Nat.leb 1 (String.length u) then "_" else "") ++ resub (String X t).
Proof.
  intros Hu HX. induction u as [|a u IH]; [reflexivity|].
  cbn [sforall] in Hu. apply andb_prop in Hu as [Ha Hu]. specialize (IH Hu).
  destruct u as [|b u].
  - change (resub (String a (String X t)) = String a ("_" ++ resub (String X t))).
    cbn [resub]. rewrite Ha, HX. reflexivity.
  - change (resub (String a (String b (u ++ String X t))) =
            String a ((String b u ++ "_" ++ resub (String X t)))).
    cbn [sforall] in Hu. apply andb_prop in Hu as [Hb Hu].
    assert (Hstep : forall r, resub (String a (String b r)) = String a (resub (String b r))).
    { intros r. cbn [resub]. now rewrite (lower_is_not_upper _ Hb), andb_false_r. }
    rewrite Hstep. exact (f_equal (String a) IH).
Qed.

Lemma resub_all_lower u : sforall is_lower u = true -> resub u = u.
Proof.
  intros H. apply resub_id. revert H. apply sforall_impl. intros c Hc.
  now rewrite lower_is_not_upper.
Qed.

Lemma resub_upper_head X t : is_lower X = false -> resub (String X t) = String X (resub t).
Proof. intros H. cbn [resub]. destruct t as [|b t]; [reflexivity|]. now rewrite H. Qed.

Definition caps (ws : list string) : string := sjoin "" (map cap ws).

Lemma caps_cons w ws : caps (w :: ws) = cap w ++ caps ws.
Proof. unfold caps. simpl map. apply sjoin_nil_cons. Qed.

Lemma slower_app a b : slower (a ++ b) = slower a ++ slower b.
Proof. apply smap_app. Qed.

(** A run of small letters followed by capitalised words. *)
Lemma resub_run ws : Forall word ws -> forall u,
  sforall is_lower u = true ->
  slower (resub (u ++ caps ws)) = u ++ tail_form (Nat.leb 1 (String.length u)) ws.
Proof.
  induction 1 as [|w ws [Hne Hl] HF IH]; intros u Hu.
  - unfold caps; simpl. rewrite !sapp_nil_r, resub_all_lower by assumption. now apply lower_id.
  - rewrite caps_cons. destruct w as [|c r]; [congruence|].
    cbn [sforall] in Hl. apply andb_prop in Hl as [Hc Hr].
    change (cap (String c r) ++ caps ws) with (String (to_upper c) (r ++ caps ws)).
    rewrite resub_lower_then by (assumption || now apply to_upper_of_lower).
    rewrite !slower_app, (lower_id u Hu). f_equal.
    cbn [tail_form]. f_equal; [now destruct (Nat.leb 1 (String.length u))|].
    rewrite resub_upper_head by apply to_upper_not_lower.
    change (slower (String (to_upper c) (resub (r ++ caps ws))))
      with (String (to_lower (to_upper c)) (slower (resub (r ++ caps ws)))).
    rewrite (lower_upper_of_lower _ Hc), (IH r Hr). reflexivity.
Qed.

Lemma word_nsep w : word w -> sforall nsep w = true.
Proof.
  intros [_ H]. revert H. apply sforall_impl. intros c Hc. apply nsep_spec.
  split; [now apply lower_not_us | now apply lower_not_dash].
Qed.

Lemma word_smem_us w : word w -> smem "_" w = false.
Proof.
  intros [_ H]. apply smem_false. revert H. apply sforall_impl. intros c Hc.
  now rewrite lower_not_us.
Qed.

Lemma snake_name_no_dash ws :
  Forall word ws -> sforall (fun c => negb (Ascii.eqb c "-")) (snake_name ws) = true.
Proof.
  unfold snake_name. induction 1 as [|w ws [Hne Hl] HF IH]; [reflexivity|].
  assert (Hw : sforall (fun c => negb (Ascii.eqb c "-")) w = true).
  { revert Hl. apply sforall_impl. intros c Hc. now rewrite lower_not_dash. }
  destruct ws as [|w2 ws]; [exact Hw|]. cbn [sjoin].
  rewrite !sforall_app, Hw. exact IH.
Qed.

Lemma camel_body_words w ws :
  word w -> Forall word ws ->
  camel_body (snake_name (w :: ws)) =
    match ws with [] => w | _ => caps (w :: ws) end.
Proof.
  intros Hw Hws. unfold camel_body.
  rewrite sreplace1_id by (apply snake_name_no_dash; now constructor).
  assert (Hall : Forall word (w :: ws)) by now constructor.
  unfold snake_name. rewrite ssplit_sjoin;
    [|discriminate| eapply Forall_impl; [|exact Hall]; intros; now apply word_smem_us].
  destruct ws as [|w2 ws]; [reflexivity|].
  assert (Hlt : Nat.ltb 1 (List.length (w :: w2 :: ws)) = true) by reflexivity.
  rewrite Hlt. unfold caps. f_equal. apply map_ext_in. intros x Hx.
  apply stitle_word. rewrite Forall_forall in Hall. auto.
Qed.

Lemma camelcase_words w ws :
  word w -> Forall word ws -> camelcase (snake_name (w :: ws)) = Ok (w ++ caps ws).
Proof.
  intros Hw Hws. rewrite camelcase_body, camel_body_words by assumption.
  destruct Hw as [Hne Hl]. destruct w as [|c r]; [congruence|].
  cbn [sforall] in Hl. apply andb_prop in Hl as [Hc Hr].
  destruct ws as [|w2 ws].
  - unfold caps; simpl. rewrite sapp_nil_r.
    now rewrite (to_lower_of_not_upper _ (lower_is_not_upper _ Hc)).
  - rewrite caps_cons. simpl. now rewrite lower_upper_of_lower.
Qed.

Lemma pascalcase_words w ws :
  word w -> Forall word ws -> pascalcase (snake_name (w :: ws)) = Ok (cap w ++ caps ws).
Proof.
  intros Hw Hws. unfold pascalcase. rewrite camelcase_words by assumption.
  destruct Hw as [Hne _]. destruct w as [|c r]; [congruence|]. reflexivity.
Qed.

Lemma caps_nodash ws : Forall word ws -> sforall nsep (caps ws) = true.
Proof.
  intros H. unfold caps. apply sjoin_nil_forall. rewrite Forall_forall in *.
  intros x Hx. apply in_map_iff in Hx as [w [<- Hw]]. specialize (H _ Hw).
  apply word_nsep in H. destruct w; [reflexivity|]. simpl in *. now rewrite nsep_to_upper.
Qed.

Lemma nsep_nodash s : sforall nsep s = true -> sforall (fun c => negb (Ascii.eqb c "-")) s = true.
Proof.
  apply sforall_impl. intros c Hc. apply nsep_spec in Hc as [_ Hc]. now rewrite Hc.
Qed.

(** The exact outcome of snakecase after camelcase or pascalcase. *)
Lemma snake_of_camel_words w ws :
  word w -> Forall word ws ->
  snakecase (w ++ caps ws) = Ok (w ++ tail_form true ws).
Proof.
  intros [Hne Hl] Hws. unfold snakecase.
  rewrite sreplace1_id.
  2:{ rewrite sforall_app, (nsep_nodash (caps ws)) by now apply caps_nodash.
      rewrite nsep_nodash; [reflexivity|]. now apply word_nsep. }
  destruct w as [|c r]; [congruence|].
  pose proof Hl as Hl'. cbn [sforall] in Hl'. apply andb_prop in Hl' as [Hc Hr].
  cbn [append lower_first rbind].
  rewrite (to_lower_of_not_upper _ (lower_is_not_upper _ Hc)).
  change (String c (r ++ caps ws)) with (String c r ++ caps ws).
  rewrite resub_run by assumption. reflexivity.
Qed.

Lemma snake_of_pascal_words w ws :
  word w -> Forall word ws ->
  snakecase (cap w ++ caps ws) = Ok (w ++ tail_form true ws).
Proof.
  intros Hw Hws. rewrite <- snake_of_camel_words by assumption.
  pose proof Hw as [Hne Hl]. unfold snakecase.
  assert (Hd := nsep_nodash _ (caps_nodash _ Hws)).
  assert (Hdw := nsep_nodash _ (word_nsep _ Hw)).
  destruct w as [|c r]; [congruence|]. cbn [sforall] in Hl, Hdw.
  apply andb_prop in Hl as [Hc Hr]. apply andb_prop in Hdw as [Hdc Hdr].
  rewrite !sreplace1_id.
  - cbn [cap append lower_first rbind]. now rewrite lower_to_upper.
  - simpl. now rewrite Hdc, sforall_app, Hdr, Hd.
  - simpl. now rewrite to_upper_eqb_dash, Hdc, sforall_app, Hdr, Hd.
Qed.

Lemma snake_name_cons w ws :
  snake_name (w :: ws) = w ++ sjoin "" (map (fun x => "_" ++ x) ws).
Proof.
  unfold snake_name. revert w; induction ws as [|w2 ws IH]; intros w.
  - simpl. now rewrite sapp_nil_r.
  - change (sjoin "_" (w :: w2 :: ws)) with (w ++ "_" ++ sjoin "_" (w2 :: ws)).
    rewrite IH. cbn [map]. rewrite sjoin_nil_cons. reflexivity.
Qed.

Lemma tail_form_full ws :
  Forall (fun w => 2 <= String.length w) (removelast ws) ->
  tail_form true ws = sjoin "" (map (fun x => "_" ++ x) ws).
Proof.
  induction ws as [|w ws IH]; [reflexivity|]. intros H.
  cbn [map]. rewrite sjoin_nil_cons. cbn [tail_form append]. f_equal. f_equal.
  destruct ws as [|w2 ws]; [reflexivity|].
  cbn [removelast] in H. inversion H as [|? ? Hw HF]; subst.
  apply Nat.leb_le in Hw. rewrite Hw. now apply IH.
Qed.

Lemma tail_form_length b ws :
  String.length (tail_form b ws) <= String.length (sjoin "" (map (fun x => "_" ++ x) ws)) /\
  (String.length (tail_form b ws) = String.length (sjoin "" (map (fun x => "_" ++ x) ws)) ->
   (ws = [] \/ b = true) /\ Forall (fun w => 2 <= String.length w) (removelast ws)).
Proof.
  revert b; induction ws as [|w ws IH]; intros b.
  - simpl. split; [lia|]. intros _; split; [now left|constructor].
  - cbn [map]. rewrite sjoin_nil_cons. cbn [tail_form].
    destruct (IH (Nat.leb 2 (String.length w))) as [Hle Heq].
    rewrite !slength_app.
    set (A := String.length (tail_form (Nat.leb 2 (String.length w)) ws)) in *.
    set (B := String.length (sjoin "" (map (fun x => "_" ++ x) ws))) in *.
    destruct b; cbn [String.length append]; (split; [lia|]); intros HE; [|lia].
    assert (HAB : A = B) by lia. destruct (Heq HAB) as [Hb HF].
    split; [now right|]. destruct ws as [|w2 ws]; [constructor|].
    cbn [removelast]. constructor; [|exact HF].
    destruct Hb as [Hb|Hb]; [discriminate|]. now apply Nat.leb_le.
Qed.

Lemma sapp_inj_l a b c : a ++ b = a ++ c -> b = c.
Proof. induction a as [|x a IH]; simpl; [auto|]. intros [= H]; auto. Qed.

Lemma recase_iff w ws :
  w ++ tail_form true ws = snake_name (w :: ws) <->
  Forall (fun x => 2 <= String.length x) (interior (w :: ws)).
Proof.
  rewrite snake_name_cons. unfold interior. cbn [tl]. split.
  - intros H. apply sapp_inj_l in H. apply (f_equal String.length) in H.
    now apply (tail_form_length true ws).
  - intros H. now rewrite tail_form_full.
Qed.

Lemma snake_camel_words ws :
  ws <> [] -> Forall word ws ->
  (exists k, camelcase (snake_name ws) = Ok k /\
     (snakecase k = Ok (snake_name ws) <->
      Forall (fun x => 2 <= String.length x) (interior ws))).
Proof.
  intros Hne HF. destruct ws as [|w ws]; [congruence|]. inversion HF as [|? ? Hw Hws]; subst.
  exists (w ++ caps ws). split; [now apply camelcase_words|].
  rewrite snake_of_camel_words by assumption. rewrite <- recase_iff.
  split; [intros H; now injection H | now intros ->].
Qed.

Lemma snake_pascal_words ws :
  ws <> [] -> Forall word ws ->
  (exists k, pascalcase (snake_name ws) = Ok k /\
     (snakecase k = Ok (snake_name ws) <->
      Forall (fun x => 2 <= String.length x) (interior ws))).
Proof.
  intros Hne HF. destruct ws as [|w ws]; [congruence|]. inversion HF as [|? ? Hw Hws]; subst.
  exists (cap w ++ caps ws). split; [now apply pascalcase_words|].
  rewrite snake_of_pascal_words by assumption. rewrite <- recase_iff.
  split; [intros H; now injection H | now intros ->].
Qed.

Lemma snake_name_upfree ws :
  Forall word ws -> sforall (fun c => negb (is_upper c)) (snake_name ws) = true.
Proof.
  unfold snake_name. induction 1 as [|w ws [Hne Hl] HF IH]; [reflexivity|].
  assert (Hw : sforall (fun c => negb (is_upper c)) w = true).
  { revert Hl. apply sforall_impl. intros c Hc. now rewrite lower_is_not_upper. }
  destruct ws as [|w2 ws]; [exact Hw|]. cbn [sjoin].
  rewrite !sforall_app, Hw. exact IH.
Qed.

Lemma snake_name_nonempty ws : ws <> [] -> Forall word ws -> snake_name ws <> "".
Proof.
  intros Hne HF. destruct ws as [|w ws]; [congruence|]. inversion HF as [|? ? [Hw _] _]; subst.
  rewrite snake_name_cons. rewrite sapp_empty. tauto.
Qed.

Lemma snake_lisp_words ws :
  ws <> [] -> Forall word ws ->
  exists k, lispcase (snake_name ws) = Ok k /\ snakecase k = Ok (snake_name ws).
Proof.
  intros Hne HF.
  assert (Hs : snakecase (snake_name ws) = Ok (snake_name ws)).
  { apply snakecase_fix; [now apply snake_name_nonempty|].
    split; apply free_of_sforall; [now apply snake_name_upfree | now apply snake_name_no_dash]. }
  destruct (snake_lisp_sep (snake_name ws)) as [He|[q [Hq Hl]]].
  - now apply snake_name_nonempty in He.
  - exists (sreplace1 "_" "-" q). split; [assumption|].
    rewrite (snake_lisp _ _ Hl). exact Hs.
Qed.

(** Distinct canonical names never share a camelCase (or PascalCase) key. *)
Lemma camel_injective ws vs k :
  ws <> [] -> vs <> [] -> Forall word ws -> Forall word vs ->
  Forall (fun x => 2 <= String.length x) (interior ws) ->
  Forall (fun x => 2 <= String.length x) (interior vs) ->
  camelcase (snake_name ws) = Ok k -> camelcase (snake_name vs) = Ok k ->
  snake_name ws = snake_name vs.
Proof.
  intros Hw Hv Fw Fv Iw Iv Ew Ev.
  destruct (snake_camel_words _ Hw Fw) as [k1 [E1 H1]].
  destruct (snake_camel_words _ Hv Fv) as [k2 [E2 H2]].
  apply H1 in Iw. apply H2 in Iv. congruence.
Qed.

Lemma camel_of_words w ws : word w -> Forall word ws ->
  camelcase (snake_name (w :: ws)) = Ok (w ++ sjoin "" (map cap ws)) /\
  pascalcase (snake_name (w :: ws)) = Ok (sjoin "" (map cap (w :: ws))).
Proof.
  intros Hw Hws. split; [now apply camelcase_words|].
  rewrite pascalcase_words by assumption. now rewrite <- caps_cons.
Qed.

Lemma results_nonempty s r :
  (camelcase s = Ok r \/ pascalcase s = Ok r \/ snakecase s = Ok r \/ lispcase s = Ok r) ->
  r <> "".
Proof.
  intros [H|[H|[H|H]]].
  - apply camelcase_ok in H as [c [t [_ ->]]]. discriminate.
  - apply pascalcase_ok in H as [c [t [_ ->]]]. discriminate.
  - now apply snakecase_shape in H.
  - now apply lispcase_shape in H.
Qed.
