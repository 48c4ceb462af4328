(** * Facts about the attribute lists of the object serializer *)
From Verif Require Import PyBaseFacts.
From Verif Require Export DumpProofs.
From Coq Require Import Sorting.Sorted Sorting.Permutation.
Local Open Scope string_scope.

(** ** The order of names *)
Lemma code_inj a b : code a = code b -> a = b.
Proof.
  unfold code. intros H. rewrite <- (ascii_nat_embedding a), <- (ascii_nat_embedding b). now rewrite H.
Qed.
Lemma sleb_refl a : sleb a a = true.
Proof. induction a as [|c a IH]; cbn [sleb]; [reflexivity|]. now rewrite Nat.ltb_irrefl. Qed.
Lemma sleb_antisym a : forall b, sleb a b = true -> sleb b a = true -> a = b.
Proof.
  induction a as [|c a IH]; intros [|d b]; cbn [sleb]; try congruence.
  destruct (Nat.ltb_spec (code c) (code d)), (Nat.ltb_spec (code d) (code c)); try congruence; try lia.
  intros H1 H2. assert (c = d) as -> by (apply code_inj; lia). f_equal. auto.
Qed.
Lemma sleb_total a : forall b, sleb a b = false -> sleb b a = true.
Proof.
  induction a as [|c a IH]; intros [|d b]; cbn [sleb]; try congruence.
  destruct (Nat.ltb_spec (code c) (code d)), (Nat.ltb_spec (code d) (code c)); try congruence; try lia.
  apply IH.
Qed.
Lemma sleb_trans a : forall b c, sleb a b = true -> sleb b c = true -> sleb a c = true.
Proof.
  induction a as [|x a IH]; intros [|y b] [|z c]; cbn [sleb]; try congruence.
  destruct (Nat.ltb_spec (code x) (code y)), (Nat.ltb_spec (code y) (code x)); try congruence; try lia;
  destruct (Nat.ltb_spec (code y) (code z)), (Nat.ltb_spec (code z) (code y)); try congruence; try lia;
  destruct (Nat.ltb_spec (code x) (code z)), (Nat.ltb_spec (code z) (code x)); try congruence; try lia.
  apply IH.
Qed.
Lemma slt_trans a b c : slt a b -> slt b c -> slt a c.
Proof.
  intros [H1 N1] [H2 N2]. split; [eapply sleb_trans; eassumption|]. intros ->.
  apply N1, sleb_antisym; assumption.
Qed.
Lemma sinsert_In a l x : In x (sinsert a l) <-> x = a \/ In x l.
Proof.
  induction l as [|b l IH]; cbn [sinsert]; [cbn; intuition|].
  destruct (String.eqb_spec a b) as [->|Hn]; [cbn; intuition|].
  destruct (sleb a b); cbn; [intuition|]. rewrite IH. intuition.
Qed.
Lemma sinsert_sorted a l : StronglySorted slt l -> StronglySorted slt (sinsert a l).
Proof.
  induction 1 as [|b l Hs IH Hf]; cbn [sinsert].
  - constructor; constructor.
  - destruct (String.eqb_spec a b) as [->|Hn]; [constructor; assumption|].
    destruct (sleb a b) eqn:E.
    + assert (Hab : slt a b) by (split; assumption).
      constructor; [constructor; assumption|]. constructor; [exact Hab|].
      eapply Forall_impl; [|exact Hf]. intros c. now apply slt_trans.
    + constructor; [exact IH|]. apply Forall_forall. intros x Hx. apply sinsert_In in Hx as [->|Hx].
      * split; [now apply sleb_total|congruence].
      * now apply (proj1 (Forall_forall _ _) Hf).
Qed.
Lemma sort_names_In l x : In x (sort_names l) <-> In x l.
Proof.
  induction l as [|a l IH]; [reflexivity|]. cbn [sort_names fold_right].
  change (fold_right sinsert [] l) with (sort_names l). rewrite sinsert_In, IH. cbn. intuition.
Qed.
Lemma sort_names_sorted l : StronglySorted slt (sort_names l).
Proof. induction l as [|a l IH]; [constructor|]. cbn [sort_names fold_right]. now apply sinsert_sorted. Qed.
Lemma sorted_NoDup l : StronglySorted slt l -> NoDup l.
Proof.
  induction 1 as [|b l Hs IH Hf]; constructor; [|assumption].
  intros Hin. apply (proj1 (Forall_forall _ _) Hf) in Hin. now destruct Hin.
Qed.
Lemma sorted_unique l : forall m, StronglySorted slt l -> StronglySorted slt m ->
  (forall x, In x l <-> In x m) -> l = m.
Proof.
  induction l as [|a l IH]; intros [|b m] Hl Hm H; [reflexivity| | |].
  - destruct (H b) as [_ X]. destruct X. now left.
  - destruct (H a) as [X _]. destruct X. now left.
  - inversion Hl as [|? ? Sl Fl]; inversion Hm as [|? ? Sm Fm]; subst. rewrite Forall_forall in Fl, Fm.
    assert (a = b) as ->.
    { destruct (proj1 (H a) (or_introl eq_refl)) as [|Ha]; [congruence|].
      destruct (proj2 (H b) (or_introl eq_refl)) as [|Hb]; [congruence|].
      destruct (Fl _ Hb) as [H1 N1], (Fm _ Ha) as [H2 N2]. now apply sleb_antisym. }
    f_equal. apply IH; [assumption..|]. intros x. split; intros Hx.
    + destruct (proj1 (H x) (or_intror Hx)) as [<-|]; [|assumption]. destruct (Fl _ Hx) as [_ N]. congruence.
    + destruct (proj2 (H x) (or_intror Hx)) as [<-|]; [|assumption]. destruct (Fm _ Hx) as [_ N]. congruence.
Qed.

(** ** Filtering *)
Lemma filter_attrs_names ms o st l r :
  filter_attrs ms o st l = Ok r ->
  r = filter (fun at_ => match keep_attr ms o st (fst at_) with Ok true => true | _ => false end) l /\
  (forall a t, In (a, t) l -> exists b, keep_attr ms o st a = Ok b).
Proof.
  revert r. induction l as [|[a t] l IH]; intros r; cbn [filter_attrs].
  - intros H; inversion H; subst. split; [reflexivity|intros a t []].
  - rewrite rbind_ok. intros (k & Hk & H). apply rbind_ok in H as (r' & Hr & H). inversion H; subst.
    destruct (IH _ Hr) as [-> Hall]. cbn [filter fst]. rewrite Hk. split; [now destruct k|].
    intros a' t' [Eq|Hin]; [inversion Eq; subst; eauto|eauto].
Qed.
Lemma filter_attrs_NoDup ms o st l r :
  filter_attrs ms o st l = Ok r -> NoDup (map fst l) -> NoDup (map fst r).
Proof.
  intros H. apply filter_attrs_names in H as [-> _].
  induction l as [|[a t] l IH]; cbn; intros Hn; [constructor|].
  inversion Hn; subst. destruct (match keep_attr ms o st a with Ok true => true | _ => false end); auto.
  cbn. constructor; [|auto]. intros Hin. apply H1. apply in_map_iff in Hin as (x & Eq & Hin).
  apply filter_In in Hin as [Hin _]. apply in_map_iff. eauto.
Qed.
Lemma map_pair_NoDup {A} (g : string -> A) l : NoDup l -> NoDup (map fst (map (fun a => (a, g a)) l)).
Proof. rewrite map_map. cbn. now rewrite map_id. Qed.
Lemma aset_keys {A} a (x : A) d : In a (map fst d) -> map fst (sset a x d) = map fst d.
Proof.
  unfold sset. induction d as [|[b y] d IH]; cbn; [intros []|].
  destruct (String.eqb_spec a b) as [->|Hn]; [reflexivity|]. intros [Eq|Hin]; [congruence|].
  cbn. now rewrite IH.
Qed.
Lemma aset_keys_new {A} a (x : A) d : ~ In a (map fst d) -> sset a x d = (d ++ [(a, x)])%list.
Proof.
  unfold sset. induction d as [|[b y] d IH]; cbn; [reflexivity|]. intros Hn.
  destruct (String.eqb_spec a b) as [->|Hne]; [tauto|]. rewrite IH; tauto.
Qed.
Lemma sset_NoDup {A} a (x : A) d : NoDup (map fst d) -> NoDup (map fst (sset a x d)).
Proof.
  intros H. destruct (in_dec string_dec a (map fst d)) as [Hi|Hi].
  - now rewrite aset_keys.
  - rewrite aset_keys_new by assumption. rewrite map_app. cbn.
    apply Permutation.Permutation_NoDup with (l := a :: map fst d).
    + apply Permutation.Permutation_cons_append.
    + now constructor.
Qed.
Lemma attrs_and_types_NoDup ci :
  NoDup (map fst (ci_hints ci)) -> match ci_slots ci with Some l => NoDup l | None => True end ->
  NoDup (map fst (attrs_and_types ci)).
Proof.
  intros Hh Hs. unfold attrs_and_types.
  set (base := match ci_slots ci with Some l => _ | None => _ end).
  assert (Hb : NoDup (map fst base)).
  { unfold base. destruct (ci_slots ci).
    - now apply (map_pair_NoDup (fun _ => @None ty)).
    - rewrite map_map. exact Hh. }
  revert Hb. generalize base. generalize (class_props (ci_members ci) ++ other_class_vars (ci_members ci))%list.
  induction l as [|b l IH]; intros base' Hb; cbn [fold_left]; [exact Hb|].
  apply IH. now apply sset_NoDup.
Qed.
