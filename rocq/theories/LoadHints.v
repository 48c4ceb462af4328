(** * Load asks for the annotations of a class only for attributes that are no parameters *)
From Verif Require Import PyBaseFacts LoadSpec LoadFacts LoadLaws LoadSame.
From Verif Require Import CacheModel.
Local Close Scope Z_scope.
Local Open Scope string_scope.

Section Hints.
Variables (E : env) (h : nat -> list (string * ty)) (f : nat).
Let CT' : classes := fun c => set_class_hints (h c) (e_ct E c).
Let E' := set_ct CT' E.
(** The annotations differ for parameters of the constructor only. *)
Hypothesis Hh : forall c a, sget a (h c) = sget a (ci_hints (e_ct E c)) \/
  exists p, In p (ci_params (e_ct E c)) /\ pa_name p = a.
Variables ld ld' : nat -> lopts -> option ty -> value -> M value.
Hypothesis HL : forall g o cls j, ld g o cls j = ld' g o cls j.

Lemma hashable_hints : forall v, hashable CT' v = hashable (e_ct E) v.
Proof.
  induction v using value_ind'; cbn [hashable]; try reflexivity; try (destruct k; reflexivity).
  - induction H as [|x l Hx _ IH]; [reflexivity|]. cbn [forallb]. now rewrite Hx, IH.
  - induction H as [|x l Hx _ IH]; [reflexivity|]. cbn [forallb]. now rewrite Hx, IH.
Qed.
Lemma all_hashable_hints l : forallb (hashable CT') l = forallb (hashable (e_ct E)) l.
Proof. induction l as [|x l IH]; [reflexivity|]. cbn [forallb]. now rewrite hashable_hints, IH. Qed.
Lemma getitem_hints v k : py_getitem CT' v k = py_getitem (e_ct E) v k.
Proof. unfold py_getitem. now rewrite hashable_hints. Qed.
Lemma transform_hints g d : forall acc, transform_keys CT' g d acc = transform_keys (e_ct E) g d acc.
Proof.
  induction d as [|[k x] d IH]; intros acc; [reflexivity|]. cbn [transform_keys]. destruct (g k) as [k'|e]; [|reflexivity].
  cbn [rbind]. now rewrite hashable_hints, IH.
Qed.
Lemma enum_hints b t j : deser_enum CT' b t j = deser_enum (e_ct E) b t j.
Proof. unfold deser_enum, enum_by_name. now rewrite hashable_hints. Qed.
Lemma cls_and_meta_hints j : get_cls_and_meta E' f j = get_cls_and_meta E f j.
Proof. reflexivity. Qed.
Lemma list_go_hints o b t l : forall i, deser_list_go E ld f o b t i l = deser_list_go E' ld' f o b t i l.
Proof.
  induction l as [|x l IH]; intros i; [reflexivity|]. cbn [deser_list_go]. rewrite (HL f o t x).
  destruct (snd (ld' f o t x)) as [y|e|]; [|destruct (is_deser (e_kind e)); [|reflexivity]; destruct b|reflexivity].
  - apply bind_ext; [reflexivity|]. intros _ _. apply bind_ext; [apply IH|reflexivity].
  - apply bind_ext; [reflexivity|]. intros _ _. apply bind_ext; [reflexivity|]. intros _ _. apply IH.
  - reflexivity.
Qed.
Lemma list_hints o args j : deser_list E ld f o args j = deser_list E' ld' f o args j.
Proof. unfold deser_list. apply bind_ext; [reflexivity|]. intros l _. apply list_go_hints. Qed.
Lemma nt_go_hints o j dd len fields : forall i,
  deser_nt_go E ld f o j dd len i fields = deser_nt_go E' ld' f o j dd len i fields.
Proof.
  induction fields as [|fd fields IH]; intros i; [reflexivity|]. cbn [deser_nt_go].
  apply bind_ext; [reflexivity|]. intros x _. apply bind_ext; [reflexivity|]. intros _ _.
  apply bind_ext; [apply HL|]. intros y _. apply bind_ext; [apply IH|reflexivity].
Qed.
Lemma namedtuple_hints o c j : deser_namedtuple E ld f o c j = deser_namedtuple E' ld' f o c j.
Proof.
  unfold deser_namedtuple. change (e_ct E') with CT'.
  apply bind_ext; [destruct j; try reflexivity; now rewrite transform_hints|]. intros dd _.
  apply bind_ext; [reflexivity|]. intros l _. apply bind_ext; [apply nt_go_hints|reflexivity].
Qed.
Lemma tuple_go_hints o l : forall ts, deser_tuple_go ld f o l ts = deser_tuple_go ld' f o l ts.
Proof.
  induction l as [|x l IH]; intros ts; [reflexivity|]. cbn [deser_tuple_go].
  destruct ts as [|t ts]; [reflexivity|]. apply bind_ext; [apply HL|]. intros y _. apply bind_ext; [apply IH|reflexivity].
Qed.
Lemma tuple_hints o t j : deser_tuple E ld f o t j = deser_tuple E' ld' f o t j.
Proof.
  unfold deser_tuple. set (p := mbind _ _). set (p' := mbind _ _).
  assert (Hp : p = p').
  { unfold p, p'. apply bind_ext; [reflexivity|]. intros l _. destruct (get_args (Some t)) as [|t0 ts].
    - apply bind_ext; [|reflexivity]. apply mmap_ext. intros x _. apply HL.
    - apply bind_ext; [|reflexivity]. apply tuple_go_hints. }
  rewrite Hp. destruct t; try reflexivity. change (ci_kind (e_ct E' c)) with (ci_kind (e_ct E c)).
  destruct (ci_kind (e_ct E c)); try reflexivity. apply namedtuple_hints.
Qed.
Lemma union_go_hints o j ts : deser_union_go ld f o j ts = deser_union_go ld' f o j ts.
Proof. induction ts as [|t ts IH]; [reflexivity|]. cbn [deser_union_go]. apply try_ext; [apply HL|]. intros e. now rewrite IH. Qed.
Lemma hashed_go_hints o kt stored : forall result,
  hashed_go E ld f o kt stored result = hashed_go E' ld' f o kt stored result.
Proof.
  induction stored as [|[k0 orig] stored IH]; intros result; [reflexivity|]. cbn [hashed_go].
  apply bind_ext; [apply HL|]. intros k _. destruct (dget k0 result); [|reflexivity].
  change (e_ct E') with CT'. rewrite hashable_hints. destruct (hashable (e_ct E) k && negb (py_eqb (VStr "-keys") k)); [apply IH|reflexivity].
Qed.
Lemma dict_go_hints ok ov gt kc vc dd : forall acc,
  deser_dict_go E ld f ok ov gt kc vc dd acc = deser_dict_go E' ld' f ok ov gt kc vc dd acc.
Proof.
  induction dd as [|[k x] dd IH]; intros acc; [reflexivity|]. cbn [deser_dict_go].
  apply bind_ext; [reflexivity|]. intros k1 _. apply bind_ext; [destruct kc; [apply HL|reflexivity]|]. intros k2 _.
  apply bind_ext; [apply HL|]. intros y _.
  change (e_ct E') with CT'. rewrite hashable_hints. destruct (hashable (e_ct E) k2); [apply IH|reflexivity].
Qed.
Lemma dict_hints o args j : deser_dict E ld f o args j = deser_dict E' ld' f o args j.
Proof.
  unfold deser_dict. destruct j; try reflexivity. apply bind_ext.
  - unfold load_hashed_keys. destruct (dget (VStr "-keys") d) as [keys|]; [|reflexivity].
    apply bind_ext; [reflexivity|]. intros ks _. destruct ks; [reflexivity|].
    destruct args as [|kt [|? [|]]]; try reflexivity. destruct keys; try reflexivity.
    apply bind_ext; [apply hashed_go_hints|reflexivity].
  - intros dh _. destruct args as [|tk [|tv [|]]]; apply dict_go_hints.
Qed.
Lemma mapping_hints o t j : deser_mapping E ld f o t j = deser_mapping E' ld' f o t j.
Proof.
  unfold deser_mapping. apply bind_ext; [reflexivity|]. intros args _. apply bind_ext; [apply dict_hints|]. reflexivity.
Qed.
Lemma defaultdict_hints o t j : deser_defaultdict ld f o t j = deser_defaultdict ld' f o t j.
Proof.
  unfold deser_defaultdict. apply bind_ext; [reflexivity|]. intros args _. apply bind_ext; [apply HL|]. reflexivity.
Qed.
Lemma iterable_hints o t j : deser_iterable E ld f o t j = deser_iterable E' ld' f o t j.
Proof.
  unfold deser_iterable. apply bind_ext; [reflexivity|]. intros args _. apply bind_ext; [apply list_hints|].
  intros l _. change (e_ct E') with CT'. rewrite all_hashable_hints. reflexivity.
Qed.
(** Objects *)
Lemma value_for_hints o mh dd gs p : value_for_attr E ld f o mh dd gs p = value_for_attr E' ld' f o mh dd gs p.
Proof.
  unfold value_for_attr. destruct (dget (VStr (pa_name p)) dd) as [x|]; [|reflexivity].
  apply bind_ext; [|reflexivity]. unfold value_from_obj. apply bind_ext; [reflexivity|]. intros m _. apply HL.
Qed.
Lemma constructor_hints o mh dd gs ps : constructor_args E ld f o mh dd gs ps = constructor_args E' ld' f o mh dd gs ps.
Proof.
  induction ps as [|p ps IH]; [reflexivity|]. cbn [constructor_args].
  apply bind_ext; [apply value_for_hints|]. intros x _. apply bind_ext; [exact IH|reflexivity].
Qed.
(** A key of the document that is a parameter is no remaining one. *)
Lemma constructor_args_given o mh d gs : forall ps args,
  snd (constructor_args E ld f o mh d gs ps) = Done args ->
  forall p x, In p ps -> dget (VStr (pa_name p)) d = Some x -> shas (pa_name p) args = true.
Proof.
  induction ps as [|q ps IHp]; intros args H p x Hin Hx; [contradiction|]. cbn [constructor_args] in H.
  apply bind_done in H as (y & Hy & H). apply bind_done in H as (rest & Hrest & H). injection H as <-.
  destruct Hin as [->|Hin].
  - unfold value_for_attr in Hy. rewrite Hx in Hy. apply bind_done in Hy as (z & _ & Hz). injection Hz as <-.
    unfold shas, amem. cbn [aget]. now rewrite String.eqb_refl.
  - pose proof (IHp _ Hrest p x Hin Hx) as Hr. destruct y as [y|]; [|exact Hr].
    unfold shas, amem in *. cbn [aget]. destruct (String.eqb (pa_name p) (pa_name q)); [reflexivity|exact Hr].
Qed.
Lemma remaining_no_param s d args rest k x : remaining_args s d args = Ok rest -> In (k, x) rest ->
  In (k, x) d /\ has_arg k args = false.
Proof.
  unfold remaining_args. set (l := filter _ d). intros Hr Hin.
  assert (Hl : In (k, x) l).
  { destruct l as [|[k0 x0] l']; [injection Hr as <-; destruct Hin|]. destruct s; [discriminate|]. now injection Hr as <-. }
  apply filter_In in Hl as [Hl Hb]. split; [exact Hl|]. cbn [fst] in Hb. now destruct (has_arg k args).
Qed.
Lemma dget_text_In a x d : In (VStr a, x) d -> exists y, dget (VStr a) d = Some y.
Proof.
  induction d as [|[k y] d IH]; [intros []|]. intros Hin. unfold dget. cbn [aget].
  destruct (py_eqb (VStr a) k) eqn:Ek; [eauto|]. destruct Hin as [Heq|Hin]; [|apply IH, Hin].
  injection Heq as -> ->. cbn [py_eqb] in Ek. now rewrite String.eqb_refl in Ek.
Qed.
Lemma remaining_hints o c : forall rest at_,
  (forall a x, In (VStr a, x) rest -> sget a (h c) = sget a (ci_hints (e_ct E c))) ->
  set_remaining E ld f o (e_ct E c) rest at_ = set_remaining E' ld' f o (CT' c) rest at_.
Proof.
  induction rest as [|[k x] rest IH]; intros at_ Hr; [reflexivity|]. cbn [set_remaining].
  assert (Hk : (match k with VStr a => sget a (ci_hints (e_ct E c)) | _ => None end) =
               (match k with VStr a => sget a (ci_hints (CT' c)) | _ => None end)).
  { destruct k; try reflexivity. symmetry. apply (Hr s x). now left. }
  rewrite Hk. apply bind_ext; [reflexivity|]. intros _ _. apply bind_ext; [apply HL|]. intros y _.
  assert (IH' : forall at', set_remaining E ld f o (e_ct E c) rest at' = set_remaining E' ld' f o (CT' c) rest at').
  { intros at'. apply IH. intros a x' Hin. apply (Hr a x'). now right. }
  destruct k; try reflexivity. change (ci_set (CT' c)) with (ci_set (e_ct E c)).
  destruct (ci_set (e_ct E c) s y at_) as [a|e]; [apply IH'|]. now rewrite IH'.
Qed.
Lemma getters_hints c gs : forall at_, set_getter_attrs (CT' c) gs at_ = set_getter_attrs (e_ct E c) gs at_.
Proof.
  induction gs as [|[a g] gs IH]; intros at_; [reflexivity|]. cbn [set_getter_attrs].
  apply bind_ext; [reflexivity|]. intros _ _. apply bind_ext; [reflexivity|]. intros y _.
  apply bind_ext; [reflexivity|]. intros at' _. apply IH.
Qed.
Lemma object_hints o t j : deser_object E ld f o t j = deser_object E' ld' f o t j.
Proof.
  unfold deser_object. change (cid_of E' t) with (cid_of E t). destruct (cid_of E t) as [c|]; [|reflexivity].
  change (e_ct E') with CT'. apply bind_ext; [reflexivity|]. intros d0 _.
  apply bind_ext; [destruct (lo_kt o); [now rewrite transform_hints|reflexivity]|]. intros dd _.
  apply bind_ext; [apply constructor_hints|]. intros args Hargs.
  apply bind_ext; [reflexivity|]. intros rest Hrest. apply lift_done in Hrest.
  apply bind_ext; [reflexivity|]. intros _ _. apply bind_ext; [reflexivity|]. intros attrs _.
  apply bind_ext; [|intros at_ _; now rewrite getters_hints]. apply remaining_hints. intros a x Hin.
  destruct (Hh c a) as [Heq|(p & Hp & Hn)]; [exact Heq|].
  destruct (remaining_no_param _ _ _ _ _ _ Hrest Hin) as [Hd Ha].
  destruct (dget_text_In _ _ _ Hd) as [y Hy]. rewrite <- Hn in Hy.
  pose proof (constructor_args_given _ _ _ _ _ _ Hargs p y Hp Hy) as G. rewrite Hn in G. cbn [has_arg] in Ha. congruence.
Qed.
Lemma step_hints o hd t j : deser_step E ld f o hd t j = deser_step E' ld' f o hd t j.
Proof.
  destruct hd; cbn [deser_step]; try reflexivity.
  - apply bind_ext; [apply list_hints|reflexivity].
  - apply tuple_hints.
  - unfold deser_union. destruct (raw_args t); [apply union_go_hints|reflexivity].
  - apply defaultdict_hints.
  - unfold deser_timezone. apply bind_ext; [reflexivity|]. intros off _. now rewrite HL.
  - unfold deser_string. destruct (ty_eqb t (TPrim PStr) && negb (lo_inferred o)); [reflexivity|]. apply try_ext; [apply HL|reflexivity].
  - change (e_ct E') with CT'. now rewrite enum_hints.
  - apply mapping_hints.
  - apply iterable_hints.
  - apply object_hints.
  - unfold deser_complex. apply try_ext; [|reflexivity]. apply bind_ext; [reflexivity|]. intros re _.
    apply bind_ext; [reflexivity|]. intros im _. now rewrite HL.
Qed.
Lemma load_step_hints o cls j : load_step E ld f o cls j = load_step E' ld' f o cls j.
Proof.
  unfold load_step. apply bind_ext; [reflexivity|]. intros _ _.
  destruct ((negb (lo_strict o) && same_type j cls) || match cls with Some TAny => true | _ => false end); [reflexivity|].
  apply bind_ext; [reflexivity|]. intros cls1 _. destruct (negb (valid_type j)); [reflexivity|].
  apply bind_ext; [reflexivity|]. intros mh _.
  destruct (determine_precedence cls1 (fst mh) (Some (class_of j)) (lo_inferred o)) as [t|]; [|reflexivity].
  change (e_deser E' f t) with (e_deser E f t). destruct (e_deser E f t) as [hd|]; [|reflexivity].
  unfold wrap_deser. apply try_ext; [|reflexivity]. apply bind_ext; [apply step_hints|reflexivity].
Qed.
End Hints.
Theorem load_other_hints E h :
  (forall c a, sget a (h c) = sget a (ci_hints (e_ct E c)) \/ exists p, In p (ci_params (e_ct E c)) /\ pa_name p = a) ->
  forall n f o cls j, load (set_ct (fun c => set_class_hints (h c) (e_ct E c)) E) n f o cls j = load E n f o cls j.
Proof.
  intros Hh n. induction n as [|n IH]; intros f o cls j; [reflexivity|]. cbn [load]. symmetry.
  apply load_step_hints; [exact Hh|]. intros g o' cls' j'. symmetry. apply IH.
Qed.
