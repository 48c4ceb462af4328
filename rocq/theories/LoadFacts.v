(** * Inversion of load *)
From Verif Require Import PyBaseFacts LoadSpec.
Local Open Scope string_scope.

Definition skips (o : lopts) (cls : option ty) (j : value) : bool :=
  (negb (lo_strict o) && same_type j cls) || match cls with Some TAny => true | _ => false end.
Definition resolved (E : env) (f : nat) (cls cls1 : option ty) : Prop :=
  match cls with
  | Some (TFwd s) => exists t, e_resolve E f s = Ok t /\ cls1 = Some t
  | _ => cls1 = cls
  end.
Definition load_opts (o : lopts) (hints : list (value * value)) (t : ty) (cls1 : option ty) : lopts :=
  set_inferred (changed t cls1)
    (set_hints (Some (match lo_hints o with Some h => h | None => hints end)) o).

Lemma validate_ok E f v t : validate E f v t = Ok tt <-> accepts E f t v.
Proof.
  unfold validate, accepts. destruct (e_validator E f t) as [p|]; [|tauto].
  destruct (p v) as [[]|]; split; intros H; try reflexivity; discriminate.
Qed.
Lemma validate_err E f v t e : validate E f v t = Err e <-> rejects E f t v /\ e = exn_of KValidation.
Proof.
  unfold validate, rejects. destruct (e_validator E f t) as [p|] eqn:Ev.
  - split.
    + intros H. split; [exists p; split; [reflexivity|]|].
      * intros Hp. rewrite Hp in H. discriminate.
      * destruct (p v) as [[]|]; try discriminate; now inversion H.
    + intros [(p' & Hp & Hn) ->]. injection Hp as <-.
      destruct (p v) as [[]|]; try reflexivity. now elim Hn.
  - split; [discriminate|]. intros [(p' & Hp & _) _]. discriminate.
Qed.
Lemma accepts_rejects E f t v : accepts E f t v \/ rejects E f t v.
Proof.
  destruct (validate E f v t) as [[]|e] eqn:H; [left; now apply validate_ok|right].
  now apply validate_err in H as [H _].
Qed.

Lemma load_done E n f o cls j v :
  snd (load E (S n) f o cls j) = Done v <->
  (j = VNone -> can_match_none (e_ct E) cls = Ok true) /\
  if skips o cls j then v = j /\ (forall t, cls = Some t -> accepts E f t v)
  else exists cls1 tm hints t h,
    resolved E f cls cls1 /\ valid_type j = true /\ get_cls_and_meta E f j = Ok (tm, hints) /\
    determine_precedence cls1 tm (Some (class_of j)) (lo_inferred o) = Some t /\
    e_deser E f t = Some h /\
    snd (deser_step E (load E n) f (load_opts o hints t cls1) h t j) = Done v /\
    accepts E f t v.
Proof.
  cbn [load]. unfold load_step. rewrite bind_done.
  assert (X : forall b : bool, snd (if b then ret tt else fail (exn_of KDeser)) = Done tt <-> b = true)
    by (intros []; split; intros; try reflexivity; discriminate).
  assert (HN : (exists a, snd (if is_none j
      then dom b <- lift (can_match_none (e_ct E) cls); (if b then ret tt else fail (exn_of KDeser))
      else ret tt) = Done a) <-> (j = VNone -> can_match_none (e_ct E) cls = Ok true)).
  { destruct j; cbn [is_none]; try (split; [discriminate|intros; exists tt; reflexivity]).
    split.
    - intros ([] & H) _. apply bind_done in H as (b & Hb & H). apply lift_done in Hb.
      apply X in H as ->. exact Hb.
    - intros H. rewrite (H eq_refl). exists tt. reflexivity. }
  rewrite <- HN. clear HN X. fold (skips o cls j). destruct (skips o cls j).
  - split.
    + intros (u & Hu & H). split; [now exists u|]. apply bind_done in H as ([] & Hv & H).
      apply lift_done in Hv. injection H as <-. split; [reflexivity|].
      intros t ->. now apply validate_ok.
    + intros [(u & Hu) [-> Ha]]. exists u. split; [exact Hu|]. destruct cls as [t|]; [|reflexivity].
      now rewrite (proj2 (validate_ok _ _ _ _) (Ha t eq_refl)).
  - assert (HR : forall c1, snd (lift (match cls with
                      | Some (TFwd s) => dor t <- e_resolve E f s; Ok (Some t)
                      | _ => Ok cls end)) = Done c1 <-> resolved E f cls c1).
    { intros c1. rewrite lift_done. unfold resolved. destruct cls as [[]|]; try (split; congruence).
      rewrite rbind_ok. split; intros (t & Ht & H); exists t; split; auto; congruence. }
    split.
    + intros (u & Hu & H). split; [now exists u|]. apply bind_done in H as (c1 & Hc1 & H).
      apply HR in Hc1. destruct (valid_type j); [cbn [negb] in H|discriminate].
      apply bind_done in H as ([tm hints] & Hm & H). apply lift_done in Hm. cbn [fst snd] in H.
      destruct (determine_precedence c1 tm (Some (class_of j)) (lo_inferred o)) as [t|] eqn:Ed; [|discriminate].
      destruct (e_deser E f t) as [h|] eqn:Eh; [|discriminate].
      cbv zeta in H. apply try_done in H as [H|(e & _ & H)]; [|discriminate].
      apply bind_done in H as (r & Hr & H). apply bind_done in H as ([] & Hv & H).
      injection H as <-. apply lift_done, validate_ok in Hv.
      exists c1, tm, hints, t, h. repeat split; assumption.
    + intros [(u & Hu) (c1 & tm & hints & t & h & Hc1 & Hj & Hm & Hd & Hh & Hr & Hv)].
      exists u. split; [exact Hu|]. apply bind_done. exists c1. split; [now apply HR|].
      rewrite Hj. cbn [negb]. rewrite Hm, bind_lift_ok. cbn [fst snd].
      rewrite Hd, Hh. cbv zeta. apply try_done. left. apply bind_done. exists v. split; [exact Hr|].
      apply bind_done. exists tt. split; [apply lift_done; now apply validate_ok|reflexivity].
Qed.

(** ** Failures *)
Lemma load_fail_jsons E n f o cls j e :
  snd (load E n f o cls j) = Fail e ->
  is_jsons (e_kind e) = true \/
  (j = VNone /\ can_match_none (e_ct E) cls = Err e) \/
  (exists s, cls = Some (TFwd s) /\ e_resolve E f s = Err e) \/
  get_cls_and_meta E f j = Err e.
Proof.
  destruct n as [|n]; [discriminate|]. cbn [load]. unfold load_step. rewrite bind_fail.
  intros [H|(u & Hu & H)].
  - destruct j; cbn [is_none] in H; try discriminate. apply bind_fail in H as [H|(b & Hb & H)].
    + apply lift_fail in H. auto.
    + destruct b; [discriminate|]. injection H as <-. now left.
  - fold (skips o cls j) in H. destruct (skips o cls j).
    + apply bind_fail in H as [H|([] & _ & H)]; [|discriminate]. apply lift_fail in H.
      destruct cls as [t|]; [|discriminate]. apply validate_err in H as [_ ->]. now left.
    + apply bind_fail in H as [H|(c1 & Hc1 & H)].
      { apply lift_fail in H. destruct cls as [[]|]; try discriminate. right; right; left.
        eexists; split; [reflexivity|]. destruct (e_resolve E f s); [discriminate|]. cbn in H. congruence. }
      destruct (negb (valid_type j)); [injection H as <-; now left|].
      apply bind_fail in H as [H|([tm hints] & Hm & H)].
      { apply lift_fail in H. auto. }
      cbn [fst snd] in H.
      destruct (determine_precedence _ _ _ _) as [t|]; [|injection H as <-; now left].
      destruct (e_deser E f t) as [h|]; [|injection H as <-; now left].
      cbv zeta in H. left. apply try_fail in H as (e' & _ & H).
      destruct (is_jsons (e_kind e')) eqn:Ej; injection H as <-; [exact Ej|reflexivity].
Qed.

(** ** Without meta data *)
Lemma dget_In k d x : dget (VStr k) d = Some x -> In (VStr k, x) d.
Proof.
  unfold dget, aget. induction d as [|[k' y] d IH]; [discriminate|]. cbn [aget].
  destruct (py_eqb (VStr k) k') eqn:E.
  - intros H; injection H as <-. apply py_eqb_str in E as ->. now left.
  - intros H. right. now apply IH.
Qed.
Lemma no_meta_get E f j : no_meta_entry j -> get_cls_and_meta E f j = Ok (None, []).
Proof.
  intros H. destruct j; try reflexivity. cbn [get_cls_and_meta].
  destruct (dget (VStr "-meta") d) eqn:Eg; [|reflexivity]. apply dget_In in Eg. now apply (H _ _ _ eq_refl) in Eg.
Qed.
Definition child_opts (o : lopts) : lopts :=
  set_inferred false (set_hints (Some (match lo_hints o with Some h => h | None => [] end)) o).
Lemma changed_same t : changed t (Some t) = false.
Proof. unfold changed. now rewrite ty_eqb_refl. Qed.
Lemma load_typed E n f o t j v :
  direct t -> no_meta_entry j ->
  (snd (load E (S n) f o (Some t) j) = Done v <->
   (j = VNone -> can_match_none (e_ct E) (Some t) = Ok true) /\
   if negb (lo_strict o) && ty_eqb (class_of j) t then v = j /\ accepts E f t v
   else valid_type j = true /\ exists h, e_deser E f t = Some h /\
     snd (deser_step E (load E n) f (child_opts o) h t j) = Done v /\ accepts E f t v).
Proof.
  intros Hd Hj. rewrite load_done.
  replace (skips o (Some t) j) with (negb (lo_strict o) && ty_eqb (class_of j) t)
    by (unfold skips; destruct t; try contradiction; cbn [same_type]; now rewrite orb_false_r).
  destruct (negb (lo_strict o) && ty_eqb (class_of j) t).
  - split; intros [H1 [H2 H3]]; (split; [exact H1|split; [exact H2|]]); [now apply H3|].
    intros t' Ht'. injection Ht' as <-. exact H3.
  - rewrite (no_meta_get _ _ _ Hj). split; intros [H1 H2]; (split; [exact H1|]).
    + destruct H2 as (c1 & tm & hints & t' & h & Hc & Hv & Hm & Hp & Hh & Hs & Ha).
      injection Hm as <- <-. assert (c1 = Some t) as -> by (destruct t; (exact Hc || contradiction)).
      assert (t' = t) as -> by (destruct (lo_inferred o); cbn in Hp; congruence).
      split; [exact Hv|]. exists h. split; [exact Hh|]. split; [|exact Ha].
      unfold load_opts in Hs. rewrite changed_same in Hs. exact Hs.
    + destruct H2 as (Hv & h & Hh & Hs & Ha). exists (Some t), None, [], t, h.
      split; [destruct t; (reflexivity || contradiction)|]. split; [exact Hv|]. split; [reflexivity|].
      split; [now destruct (lo_inferred o)|]. split; [exact Hh|]. split; [|exact Ha].
      unfold load_opts. rewrite changed_same. exact Hs.
Qed.
(** Without a type the input's own class is used. *)
Definition untyped_opts (o : lopts) : lopts :=
  set_inferred true (set_hints (Some (match lo_hints o with Some h => h | None => [] end)) o).
Lemma load_untyped E n f o j v :
  no_meta_entry j ->
  (snd (load E (S n) f o None j) = Done v <->
   valid_type j = true /\ exists h, e_deser E f (class_of j) = Some h /\
     snd (deser_step E (load E n) f (untyped_opts o) h (class_of j) j) = Done v /\
     accepts E f (class_of j) v).
Proof.
  intros Hj. rewrite load_done. unfold skips. cbn [same_type]. rewrite andb_false_r. cbn [orb].
  rewrite (no_meta_get _ _ _ Hj). split.
  - intros [_ (c1 & tm & hints & t & h & Hc & Hv & Hm & Hp & Hh & Hs & Ha)].
    injection Hm as <- <-. cbn in Hc. subst c1.
    assert (t = class_of j) as -> by (destruct (lo_inferred o); cbn in Hp; congruence).
    split; [exact Hv|]. exists h. auto.
  - intros (Hv & h & Hh & Hs & Ha). split; [reflexivity|]. exists None, None, [], (class_of j), h.
    repeat split; try assumption. now destruct (lo_inferred o).
Qed.

(** ** Names and None *)
Lemma prefix_app p s : prefix p s = true <-> exists b, s = p ++ b.
Proof.
  revert s. induction p as [|c p IH]; intros s.
  - split; [exists s; reflexivity|]. destruct s; reflexivity.
  - destruct s as [|c' s]; cbn [prefix].
    + split; [discriminate|]. intros (b & H). discriminate.
    + destruct (ascii_dec c c') as [->|Hc].
      * rewrite IH. split; intros (b & Hb); exists b; cbn in *; congruence.
      * split; [discriminate|]. intros (b & H). cbn in H. congruence.
Qed.
Lemma sinfix_occurs p s : sinfix p s = true <-> occurs p s.
Proof.
  unfold occurs. induction s as [|c s IH]; cbn [sinfix]; rewrite orb_true_iff, prefix_app.
  - split.
    + intros [(b & Hb)|H]; [|discriminate]. exists "", b. exact Hb.
    + intros (a & b & H). left. destruct a; [|discriminate]. now exists b.
  - rewrite IH. split.
    + intros [(b & Hb)|(a & b & H)]; [exists "", b; exact Hb|]. exists (String c a), b. cbn. congruence.
    + intros (a & b & H). destruct a as [|c' a]; [left; now exists b|]. right. cbn in H.
      injection H as _ H. now exists a, b.
Qed.
Lemma union_like_occurs CT t : union_like CT t = true <->
  occurs "union" (slower (simple_name CT t)) \/ occurs "optional" (slower (simple_name CT t)).
Proof. unfold union_like. rewrite orb_true_iff. now rewrite !sinfix_occurs. Qed.
Lemma union_like_app CT b h l : union_like CT (TApp b h l) = false.
Proof. destruct b, h; vm_compute; reflexivity. Qed.
Lemma union_like_union CT l : union_like CT (TUnion l) = true.
Proof. unfold union_like, simple_name, class_name. destruct (is_optional l); vm_compute; reflexivity. Qed.
Lemma can_match_spec CT h : ~ odd_name CT h ->
  (may_be_none h /\ can_match_none CT h = Ok true) \/ (~ may_be_none h /\ can_match_none CT h = Ok false).
Proof.
  intros H. destruct h as [t|]; [|left; split; [exact I|reflexivity]].
  assert (X : (forall ts, t <> TUnion ts) -> raw_args t = None -> union_like CT t = false).
  { intros H1 H2. destruct (union_like CT t) eqn:E; [|reflexivity]. destruct H.
    exists t. rewrite <- union_like_occurs. auto. }
  destruct t; try (left; split; [exact I|reflexivity]); cbn [may_be_none can_match_none];
    try (right; split; [tauto|]; rewrite X; [reflexivity|discriminate|reflexivity]).
  - right. split; [tauto|]. now rewrite union_like_app.
  - rewrite union_like_union. cbn [raw_args]. destruct (existsb (ty_eqb TNoneT) args) eqn:E.
    + left. apply existsb_ty_In in E. auto.
    + right. split; [|reflexivity]. intros Hin. apply existsb_ty_In in Hin. congruence.
Qed.
Lemma can_match_true CT h : ~ odd_name CT h -> (can_match_none CT h = Ok true <-> may_be_none h).
Proof. intros H. destruct (can_match_spec CT h H) as [[? ->]|[? ->]]; split; tauto || discriminate. Qed.
Lemma can_match_odd CT t : odd_name CT (Some t) -> direct t -> t <> TObject -> t <> TNoneT ->
  can_match_none CT (Some t) = raise KType.
Proof.
  intros (t' & Et & H1 & H2 & H3) Hd Ho Hn. injection Et as <-. rewrite <- union_like_occurs in H3.
  unfold can_match_none. rewrite H2, H3. destruct t; congruence || contradiction || reflexivity.
Qed.
Lemma child_nested o : no_hints o -> child_opts o = nested_opts o.
Proof. intros [H|H]; unfold child_opts, nested_opts, set_inferred, set_hints; cbn; now rewrite H. Qed.
