(** * Loading objects: failures and effects *)
From Verif Require Import PyBaseFacts LoadSpec LoadFacts LoadLaws.
Local Open Scope string_scope.

Lemma load_object_run E n f o c d :
  plain_object E f c o d ->
  load E (S n) f o (Some (TClass c)) (VDict DkDict d) =
  wrap_deser (dom r <- deser_object E (load E n) f (nested_opts o) (TClass c) (VDict DkDict d);
              dom _ <- lift (validate E f r (TClass c));
              ret r).
Proof.
  intros (Hd & Hh & Hm & Ho). cbn [load]. unfold load_step. cbn [is_none]. rewrite bind_ret_l.
  cbn [same_type class_of ty_eqb]. rewrite andb_false_r. cbn [orb lift]. rewrite bind_ret_l.
  cbn [valid_type negb]. rewrite (no_meta_get _ _ _ Hm), bind_lift_ok. cbn [fst snd].
  assert (Hp : forall i, determine_precedence (Some (TClass c)) None (Some (class_of (VDict DkDict d))) i = Some (TClass c))
    by (intros []; reflexivity).
  rewrite Hp, Hd. cbv zeta. rewrite changed_same. cbn [deser_step].
  rewrite <- (child_nested _ Hh). reflexivity.
Qed.
Lemma bind_events {A B} (m : M A) (k : A -> M B) a :
  snd m = Done a -> mbind m k = ((fst m ++ fst (k a))%list, snd (k a)).
Proof. intros H. unfold mbind. rewrite H. reflexivity. Qed.
Lemma bind_emit {B} e (k : unit -> M B) : mbind (emit e) k = (e :: fst (k tt), snd (k tt)).
Proof. reflexivity. Qed.
Lemma bind_failed {A B} (m : M A) (k : A -> M B) e : snd m = Fail e -> mbind m k = (fst m, Fail e).
Proof. intros H. unfold mbind. now rewrite H. Qed.
Lemma wrap_done {A} (m : M A) a : snd m = Done a -> wrap_deser m = m.
Proof. intros H. unfold wrap_deser, mtry. rewrite H. reflexivity. Qed.
Lemma wrap_failed {A} (m : M A) e : snd m = Fail e ->
  wrap_deser m = (fst m, Fail (if is_jsons (e_kind e) then e else exn_of KDeser)).
Proof. intros H. unfold wrap_deser, mtry. rewrite H. cbn. now rewrite app_nil_r. Qed.

(** ** Parameters *)
Lemma value_for_attr_events E n f o d p y :
  snd (value_for_attr E (load E n) f (attr_opts o) [] d (lo_getters o) p) = Done y ->
  fst (value_for_attr E (load E n) f (attr_opts o) [] d (lo_getters o) p) = param_events E n f o d p.
Proof.
  unfold value_for_attr, param_events.
  destruct (dget (VStr (pa_name p)) d) as [x|].
  - unfold value_from_obj. change (dget (VStr ("/" ++ pa_name p)) []) with (@None value).
    cbn [lift]. rewrite bind_ret_l. cbn [fst snd determine_precedence].
    change (set_hints (Some []) (attr_opts o)) with (attr_opts o).
    assert (Hdp : match pa_hint p with Some t => Some t | None => None end = pa_hint p) by (now destruct (pa_hint p)).
    rewrite Hdp. intros H. apply bind_done in H as (z & Hz & _).
    rewrite (bind_events _ _ _ Hz). cbn. apply app_nil_r.
  - destruct (sget (pa_name p) (lo_getters o)) as [g|].
    + intros H. apply bind_done in H as ([] & _ & H). apply bind_done in H as (z & Hz & _).
      rewrite bind_emit, (bind_events _ _ _ Hz). destruct g; [reflexivity|discriminate].
    + destruct (pa_default p); [reflexivity|]. destruct (pa_var p); [reflexivity|].
      destruct (can_match_none (e_ct E) (pa_hint p)) as [b|]; [|discriminate].
      rewrite bind_lift_ok. now destruct b.
Qed.
Lemma constructor_args_events E n f o d ps args :
  snd (constructor_args E (load E n) f (attr_opts o) [] d (lo_getters o) ps) = Done args ->
  fst (constructor_args E (load E n) f (attr_opts o) [] d (lo_getters o) ps) =
  flat_map (param_events E n f o d) ps.
Proof.
  revert args. induction ps as [|p ps IH]; intros args; cbn [constructor_args flat_map]; [reflexivity|].
  intros H. apply bind_done in H as (x & Hx & H). apply bind_done in H as (r & Hr & _).
  rewrite (bind_events _ _ _ Hx), (bind_events _ _ _ Hr). cbn [fst].
  rewrite (IH _ Hr), (value_for_attr_events _ _ _ _ _ _ _ Hx). cbn. now rewrite app_nil_r.
Qed.
Lemma unfulfilled_fails E n f o d p :
  ~ odd_name (e_ct E) (pa_hint p) -> unfulfilled o d p ->
  value_for_attr E (load E n) f (attr_opts o) [] d (lo_getters o) p =
  ([], Fail (exn_arg KUnfulfilled (pa_name p))).
Proof.
  intros Ho (H1 & H2 & H3 & H4 & H5). unfold value_for_attr. rewrite H1, H2, H3, H4.
  destruct (can_match_spec _ _ Ho) as [[Hm _]|[_ ->]]; [contradiction|]. reflexivity.
Qed.
Lemma constructor_args_unfulfilled E n f o d p ps2 : forall ps1 ys,
  (forall q, In q (ps1 ++ p :: ps2) -> ~ odd_name (e_ct E) (pa_hint q)) ->
  Forall2 (param_value E n f o d) ps1 ys -> unfulfilled o d p ->
  constructor_args E (load E n) f (attr_opts o) [] d (lo_getters o) (ps1 ++ p :: ps2) =
  (flat_map (param_events E n f o d) ps1, Fail (exn_arg KUnfulfilled (pa_name p))).
Proof.
  induction ps1 as [|q ps1 IH]; intros ys Ho Hf Hu; cbn [app constructor_args flat_map].
  - rewrite unfulfilled_fails; [reflexivity|apply Ho; now left|exact Hu].
  - inversion Hf as [|? y ? ys' Hy Hys]; subst.
    apply value_for_attr_done in Hy; [|apply Ho; now left].
    rewrite (bind_events _ _ _ Hy). rewrite (IH ys'); [|intros; apply Ho; now right|exact Hys|exact Hu].
    cbn. rewrite (value_for_attr_events _ _ _ _ _ _ _ Hy). reflexivity.
Qed.

(** ** deser_object after resolving the keys *)
Lemma deser_object_run E n f o c d d' :
  renamed (e_ct E) o d d' ->
  deser_object E (load E n) f (nested_opts o) (TClass c) (VDict DkDict d) =
  dom args <- constructor_args E (load E n) f (attr_opts o) [] d' (lo_getters o) (ci_params (e_ct E c));
  dom rest <- lift (remaining_args (lo_strict o) d' args);
  dom _ <- emit (EvInit c);
  dom attrs <- lift (ci_init (e_ct E c) args);
  dom attrs1 <- set_remaining E (load E n) f (attr_opts o) (e_ct E c) rest attrs;
  dom attrs2 <- set_getter_attrs (e_ct E c) (lo_getters o) attrs1;
  ret (VObj c attrs2).
Proof.
  intros Hr. apply renamed_iff in Hr. unfold deser_object. cbn [cid_of obj_items]. rewrite bind_lift_ok.
  cbv zeta. change (lo_kt (nested_opts o)) with (lo_kt o). rewrite Hr, bind_lift_ok. reflexivity.
Qed.
Lemma load_object_unfulfilled E n f o c d d' ps1 ys p ps2 :
  plain_object E f c o d -> renamed (e_ct E) o d d' ->
  ci_params (e_ct E c) = (ps1 ++ p :: ps2)%list ->
  Forall2 (param_value E n f o d') ps1 ys -> unfulfilled o d' p ->
  load E (S n) f o (Some (TClass c)) (VDict DkDict d) =
  (flat_map (param_events E n f o d') ps1, Fail (exn_arg KUnfulfilled (pa_name p))).
Proof.
  intros Hp Hr Hps Hf Hu. rewrite (load_object_run _ _ _ _ _ _ Hp), (deser_object_run _ _ _ _ _ _ _ Hr).
  destruct Hp as (_ & _ & _ & Ho). rewrite Hps in *.
  rewrite (constructor_args_unfulfilled _ _ _ _ _ _ _ _ _ Ho Hf Hu).
  cbn. now rewrite app_nil_r.
Qed.
(** Strict loading: an entry that is no parameter *)
Lemma load_object_mismatch E n f o c d d' ys k x rest :
  plain_object E f c o d -> renamed (e_ct E) o d d' -> lo_strict o = true ->
  Forall2 (param_value E n f o d') (ci_params (e_ct E c)) ys ->
  extras (arguments (ci_params (e_ct E c)) ys) d' ((k, x) :: rest) ->
  load E (S n) f o (Some (TClass c)) (VDict DkDict d) =
  (flat_map (param_events E n f o d') (ci_params (e_ct E c)),
   Fail (match k with VStr a => exn_arg KSignature a | _ => exn_of KSignature end)).
Proof.
  intros Hp Hr Hs Hf Hx. rewrite (load_object_run _ _ _ _ _ _ Hp), (deser_object_run _ _ _ _ _ _ _ Hr).
  destruct Hp as (_ & _ & _ & Ho).
  assert (Ha : snd (constructor_args E (load E n) f (attr_opts o) [] d' (lo_getters o) (ci_params (e_ct E c))) =
               Done (arguments (ci_params (e_ct E c)) ys)).
  { apply (constructor_args_done _ _ _ _ _ _ _ Ho). now exists ys. }
  rewrite (bind_events _ _ _ Ha). rewrite (constructor_args_events _ _ _ _ _ _ _ Ha).
  unfold remaining_args. apply extras_filter in Hx. unfold extra_b in Hx. rewrite <- Hx, Hs.
  cbn [lift fst snd]. destruct k; cbn; now rewrite ?app_nil_r.
Qed.
(** The validator *)
Lemma load_object_rejected E n f o c d attrs :
  plain_object E f c o d -> constructs E n f o c d attrs -> rejects E f (TClass c) (VObj c attrs) ->
  snd (load E (S n) f o (Some (TClass c)) (VDict DkDict d)) = Fail (exn_of KValidation).
Proof.
  intros Hp (d' & ys & rest & at0 & at1 & Hc) Hr. rewrite (load_object_run _ _ _ _ _ _ Hp).
  destruct Hp as (_ & Hh & _ & Ho).
  assert (Hd : snd (deser_object E (load E n) f (nested_opts o) (TClass c) (VDict DkDict d)) = Done (VObj c attrs)).
  { rewrite <- (child_nested _ Hh). apply (deser_object_done _ _ _ _ _ _ _ _ Hh Ho).
    exists d', ys, rest, at0, at1, attrs. tauto. }
  rewrite (bind_events _ _ _ Hd).
  assert (Hv : validate E f (VObj c attrs) (TClass c) = Err (exn_of KValidation)) by (now apply validate_err).
  rewrite Hv. cbn [lift].
  rewrite (wrap_failed _ (exn_of KValidation)); reflexivity.
Qed.

(** ** The effects of a successful load *)
Lemma set_remaining_events E n f o ci rest : forall at_ r,
  snd (set_remaining E (load E n) f (attr_opts o) ci rest at_) = Done r ->
  fst (set_remaining E (load E n) f (attr_opts o) ci rest at_) = flat_map (extra_events E n f o ci) rest.
Proof.
  induction rest as [|[k x] rest IH]; intros at_ r; cbn [set_remaining flat_map]; [reflexivity|].
  intros H. apply bind_done in H as ([] & Hw & H). apply bind_done in H as (y & Hy & H).
  rewrite (bind_events _ _ _ Hw), (bind_events _ _ _ Hy). cbn [fst snd].
  destruct k; try discriminate H.
  assert (Hn : fst (match ci_set ci s y at_ with
     | Ok attrs' => set_remaining E (load E n) f (attr_opts o) ci rest attrs'
     | Err e => if is_attributeerror (e_kind e) then set_remaining E (load E n) f (attr_opts o) ci rest at_ else fail e
     end) = flat_map (extra_events E n f o ci) rest).
  { destruct (ci_set ci s y at_) as [at1|e]; [now apply IH with r|].
    destruct (is_attributeerror (e_kind e)); [now apply IH with r|discriminate]. }
  etransitivity; [apply f_equal, f_equal, Hn|]. rewrite app_assoc. f_equal. unfold extra_events. cbn [fst snd]. f_equal.
  - unfold has_keys_section. destruct (sget s (ci_hints ci)); [reflexivity|].
    destruct x; try reflexivity. destruct (dhas (VStr "-keys") d); reflexivity.
Qed.
Lemma set_getters_events ci gs : forall at_ r,
  snd (set_getter_attrs ci gs at_) = Done r ->
  fst (set_getter_attrs ci gs at_) = map (fun g => EvGetter (fst g)) gs.
Proof.
  induction gs as [|[a g] gs IH]; intros at_ r; cbn [set_getter_attrs map]; [reflexivity|].
  intros H. apply bind_done in H as ([] & _ & H). apply bind_done in H as (y & Hy & H).
  apply bind_done in H as (at1 & H1 & H).
  rewrite bind_emit. rewrite (bind_events _ _ _ Hy). rewrite (bind_events _ _ _ H1).
  cbn [fst]. rewrite (IH _ _ H). destruct g; [|discriminate]. destruct (ci_set ci a y at_); [|discriminate]. reflexivity.
Qed.
Lemma load_object_events E n f o c d d' ys rest v :
  plain_object E f c o d -> renamed (e_ct E) o d d' ->
  Forall2 (param_value E n f o d') (ci_params (e_ct E c)) ys ->
  extras (arguments (ci_params (e_ct E c)) ys) d' rest ->
  snd (load E (S n) f o (Some (TClass c)) (VDict DkDict d)) = Done v ->
  fst (load E (S n) f o (Some (TClass c)) (VDict DkDict d)) =
  (flat_map (param_events E n f o d') (ci_params (e_ct E c)) ++
   [EvInit c] ++
   flat_map (extra_events E n f o (e_ct E c)) rest ++
   map (fun g => EvGetter (fst g)) (lo_getters o))%list.
Proof.
  intros Hp Hr Hf Hx. rewrite (load_object_run _ _ _ _ _ _ Hp), (deser_object_run _ _ _ _ _ _ _ Hr).
  destruct Hp as (_ & _ & _ & Ho).
  assert (Ha : snd (constructor_args E (load E n) f (attr_opts o) [] d' (lo_getters o) (ci_params (e_ct E c))) =
               Done (arguments (ci_params (e_ct E c)) ys)).
  { apply (constructor_args_done _ _ _ _ _ _ _ Ho). now exists ys. }
  intros H. apply try_done in H as [H|(e & _ & H)]; [|discriminate].
  rewrite (wrap_done _ _ H). apply bind_done in H as (r & Hd & H). apply bind_done in H as ([] & Hv & H).
  rewrite (bind_events _ _ _ Hd), (bind_events _ _ _ Hv). cbn [fst].
  assert (Hv0 : fst (lift (validate E f r (TClass c))) = []) by (now destruct (validate E f r (TClass c))).
  rewrite Hv0. cbn [app fst ret]. rewrite app_nil_r. clear H Hv Hv0.
  apply bind_done in Hd as (args & Ha' & Hd). assert (args = arguments (ci_params (e_ct E c)) ys) as -> by congruence.
  apply bind_done in Hd as (rest' & Hr' & Hd). assert (rest' = rest) as ->.
  { apply lift_done, remaining_done in Hr' as [Hr' _]. apply extras_filter in Hr', Hx. congruence. }
  apply bind_done in Hd as ([] & _ & Hd). apply bind_done in Hd as (at0 & H0 & Hd).
  apply bind_done in Hd as (at1 & H1 & Hd). apply bind_done in Hd as (at2 & H2 & Hd).
  rewrite (bind_events _ _ _ Ha), (bind_events _ _ _ Hr'), bind_emit, (bind_events _ _ _ H0),
    (bind_events _ _ _ H1), (bind_events _ _ _ H2). cbn [fst ret].
  rewrite (constructor_args_events _ _ _ _ _ _ _ Ha), (set_remaining_events _ _ _ _ _ _ _ _ H1),
    (set_getters_events _ _ _ _ H2).
  apply lift_done in Hr', H0. rewrite Hr', H0. cbn. now rewrite app_nil_r.
Qed.

(** ** Consequences *)
Lemma arguments_In ps : forall ys a y,
  In (a, y) (arguments ps ys) -> exists p, In p ps /\ pa_name p = a.
Proof.
  induction ps as [|p ps IH]; intros [|[z|] ys] a y; cbn [arguments]; intros H; try contradiction.
  - destruct H as [H|H]; [injection H as <- _; exists p; split; [now left|reflexivity]|].
    apply IH in H as (q & Hq & E). exists q. split; [now right|exact E].
  - apply IH in H as (q & Hq & E). exists q. split; [now right|exact E].
Qed.
Lemma extras_nil args d : extras args d [] -> forall k x, In (k, x) d -> ~ is_extra args k.
Proof.
  remember [] as r. induction 1 as [|k x d r H1 H2 IH|k x d r H1 H2 IH]; intros k' x' Hin; [contradiction|discriminate|].
  destruct Hin as [E|Hin]; [injection E as <- <-; exact H1|now apply IH with x'].
Qed.
Lemma extras_In args d r : extras args d r -> forall k x, In (k, x) r <-> In (k, x) d /\ is_extra args k.
Proof.
  induction 1 as [|k x d r H1 H2 IH|k x d r H1 H2 IH]; intros k' x'.
  - split; [intros []|intros [[] _]].
  - cbn [In]. rewrite IH. split.
    + intros [E|[H H']]; [injection E as <- <-; auto|auto].
    + intros [[E|H] H']; [left; exact E|auto].
  - cbn [In]. rewrite IH. split; [tauto|]. intros [[E|H] H']; [injection E as <- <-; contradiction|auto].
Qed.
Lemma has_arg_dec args k : is_extra args k \/ ~ is_extra args k.
Proof.
  destruct (extra_b args (k, VNone)) eqn:E.
  - left. now apply (extra_b_spec args (k, VNone)).
  - right. intros H. apply (extra_b_spec args (k, VNone)) in H. congruence.
Qed.
Lemma not_extra args k : ~ is_extra args k -> k = VStr "-meta" \/ exists a x, k = VStr a /\ In (a, x) args.
Proof.
  intros H. destruct (has_arg k args) eqn:Eh.
  - right. apply has_arg_In in Eh as (a & x & -> & Hin). eauto.
  - left. destruct (py_eqb (VStr "-meta") k) eqn:Em; [now apply py_eqb_str in Em|].
    destruct H. apply (extra_b_spec args (k, VNone)). unfold extra_b. cbn [fst]. now rewrite Eh, Em.
Qed.
Lemma strict_known E n f o c d attrs :
  constructs E n f o c d attrs -> lo_strict o = true ->
  exists d', renamed (e_ct E) o d d' /\
  forall k x, In (k, x) d' -> k = VStr "-meta" \/ exists p, In p (ci_params (e_ct E c)) /\ k = VStr (pa_name p).
Proof.
  intros (d' & ys & rest & at0 & at1 & Hr & _ & Hx & Hs & _) Ho. exists d'. split; [exact Hr|].
  rewrite (Hs Ho) in Hx. intros k x Hin. apply (extras_nil _ _ Hx) in Hin.
  apply not_extra in Hin as [H|(a & y & -> & H)]; [now left|right].
  apply arguments_In in H as (p & Hp & <-). now exists p.
Qed.
Section Plain.
Variables (E : env) (n f : nat) (o : lopts) (ci : cinfo).
Hypothesis Hps : plain_setattr ci.
Lemma sets_getters_keep gs : forall at_ r a, sets_getters ci gs at_ r -> ~ In a (map fst gs) -> sget a r = sget a at_.
Proof.
  induction gs as [|[b g] gs IH]; intros at_ r a H Hn; inversion H as [|b' y r' at' at1 at2 H1 H2]; subst; [reflexivity|].
  rewrite Hps in H1. injection H1 as <-. rewrite (IH _ _ _ H2); [|intros Hin; apply Hn; now right].
  apply sget_sset_other. intros ->. apply Hn. now left.
Qed.
Lemma sets_getters_set gs : forall at_ r a g,
  sets_getters ci gs at_ r -> NoDup (map fst gs) -> In (a, g) gs -> exists y, g = Ok y /\ sget a r = Some y.
Proof.
  induction gs as [|[b g'] gs IH]; intros at_ r a g H Hd Hin; [contradiction|].
  inversion H as [|b' y r' at' at1 at2 H1 H2]; subst. inversion Hd as [|? ? Hb Hd']; subst.
  destruct Hin as [Eq|Hin]; [|now apply (IH _ _ _ _ H2)].
  injection Eq as <- <-. exists y. split; [reflexivity|].
  rewrite (sets_getters_keep _ _ _ _ H2 Hb). rewrite Hps in H1. injection H1 as <-. apply sget_sset_same.
Qed.
Lemma sets_extras_keep rest : forall at_ r a, sets_extras E n f o ci rest at_ r ->
  ~ In (VStr a) (map fst rest) -> sget a r = sget a at_.
Proof.
  induction rest as [|[k x] rest IH]; intros at_ r a H Hn;
    inversion H as [|b x' y r' at' at1 at2 H1 H2 H3|b x' y r' at' at2 e H1 H2 H3 H4]; subst; [reflexivity|..].
  - rewrite Hps in H2. injection H2 as <-. rewrite (IH _ _ _ H3); [|intros Hin; apply Hn; now right].
    apply sget_sset_other. intros ->. apply Hn. now left.
  - rewrite Hps in H2. discriminate.
Qed.
Lemma sets_extras_set rest : forall at_ r a x, sets_extras E n f o ci rest at_ r ->
  NoDup (map fst rest) -> In (VStr a, x) rest ->
  exists y, snd (load E n f (attr_opts o) (Some (extra_type ci a x)) x) = Done y /\ sget a r = Some y.
Proof.
  induction rest as [|[k x0] rest IH]; intros at_ r a x H Hd Hin; [contradiction|].
  inversion Hd as [|? ? Hb Hd']; subst.
  inversion H as [|b x' y r' at' at1 at2 H1 H2 H3|b x' y r' at' at2 e H1 H2 H3 H4]; subst.
  - destruct Hin as [Eq|Hin]; [|now apply (IH _ _ _ _ H3)]. injection Eq as <- <-.
    exists y. split; [exact H1|]. rewrite (sets_extras_keep _ _ _ _ H3 Hb).
    rewrite Hps in H2. injection H2 as <-. apply sget_sset_same.
  - rewrite Hps in H2. discriminate.
Qed.
End Plain.
Lemma extras_NoDup args d r : extras args d r -> NoDup (map fst d) -> NoDup (map fst r).
Proof.
  intros H. pose proof (extras_In _ _ _ H) as Hi. revert Hi.
  induction H as [|k x d r H1 H2 IH|k x d r H1 H2 IH]; intros _ Hd; [constructor|..]; inversion Hd; subst.
  - cbn [map fst]. constructor; [|apply IH; [apply extras_In; assumption|assumption]].
    intros Hin. apply in_map_iff in Hin as ([k' x'] & E & Hin). cbn [fst] in E. subst k'.
    apply (extras_In _ _ _ H2) in Hin as [Hin _]. apply (in_map fst) in Hin. contradiction.
  - apply IH; [apply extras_In; assumption|assumption].
Qed.
Lemma extra_attribute E n f o c d d' attrs a x :
  constructs E n f o c d attrs -> renamed (e_ct E) o d d' ->
  plain_setattr (e_ct E c) -> lo_getters o = [] -> NoDup (map fst d') ->
  In (VStr a, x) d' -> a <> "-meta" -> (forall p, In p (ci_params (e_ct E c)) -> pa_name p <> a) ->
  exists y, snd (load E n f (attr_opts o) (Some (extra_type (e_ct E c) a x)) x) = Done y /\ sget a attrs = Some y.
Proof.
  intros (d'' & ys & rest & at0 & at1 & Hr' & Hf & Hx & Hs & H0 & H1 & H2) Hr Hp Hg Hd Hin Hm Ha.
  assert (d'' = d') as -> by (apply renamed_iff in Hr, Hr'; congruence).
  rewrite Hg in H2. assert (at1 = attrs) as -> by (now inversion H2).
  apply (sets_extras_set _ _ _ _ _ Hp _ _ _ _ _ H1); [now apply (extras_NoDup _ _ _ Hx)|].
  apply (extras_In _ _ _ Hx). split; [exact Hin|]. split; [congruence|].
  intros b y Eb Hb. injection Eb as <-. apply arguments_In in Hb as (p & Hp' & Eb). now apply (Ha p).
Qed.
Lemma getter_attribute E n f o c d attrs a g :
  constructs E n f o c d attrs -> plain_setattr (e_ct E c) -> NoDup (map fst (lo_getters o)) ->
  In (a, g) (lo_getters o) -> exists y, g = Ok y /\ sget a attrs = Some y.
Proof.
  intros (d' & ys & rest & at0 & at1 & Hr & Hf & Hx & Hs & H0 & H1 & H2) Hp Hd Hin.
  now apply (sets_getters_set _ Hp _ _ _ _ _ H2).
Qed.

(** *** How often getters are called *)
Lemma calls_app a l1 l2 : getter_calls a (l1 ++ l2) = getter_calls a l1 + getter_calls a l2.
Proof. unfold getter_calls. now rewrite filter_app, app_length. Qed.
Lemma calls_none a E n f o cls j : lo_getters o = [] -> getter_calls a (fst (load E n f o cls j)) = 0.
Proof.
  intros Hg. assert (H : Forall (gev []) (fst (load E n f o cls j))).
  { apply gm_load. intros b. rewrite Hg. intros []. }
  unfold getter_calls. induction H as [|e l He Hl IH]; [reflexivity|]. cbn [filter].
  destruct e; try exact IH. destruct He.
Qed.
Lemma calls_params a E n f o d ps :
  NoDup (map pa_name ps) ->
  getter_calls a (flat_map (param_events E n f o d) ps) =
  if mem_str a (map pa_name ps) && negb (dhas (VStr a) d) && shas a (lo_getters o) then 1 else 0.
Proof.
  induction ps as [|p ps IH]; intros Hd; [reflexivity|]. inversion Hd as [|? ? Hp Hd']; subst.
  cbn [flat_map map mem_str existsb]. rewrite calls_app, (IH Hd').
  assert (Hn : mem_str (pa_name p) (map pa_name ps) = false).
  { destruct (mem_str (pa_name p) (map pa_name ps)) eqn:Eq; [|reflexivity]. apply mem_str_In in Eq. contradiction. }
  change (existsb (String.eqb a) (map pa_name ps)) with (mem_str a (map pa_name ps)).
  unfold param_events, dhas, shas, amem, dget, sget.
  destruct (String.eqb a (pa_name p)) eqn:Eq.
  - apply String.eqb_eq in Eq as ->. rewrite Hn. cbn [orb andb].
    destruct (aget py_eqb (VStr (pa_name p)) d) as [x|]; [rewrite calls_none by reflexivity; reflexivity|].
    destruct (aget String.eqb (pa_name p) (lo_getters o)); [|reflexivity].
    unfold getter_calls. cbn [filter]. rewrite String.eqb_refl. reflexivity.
  - cbn [orb].
    destruct (aget py_eqb (VStr (pa_name p)) d) as [x|]; [rewrite calls_none by reflexivity; reflexivity|].
    destruct (aget String.eqb (pa_name p) (lo_getters o)); [|reflexivity].
    unfold getter_calls at 1. cbn [filter]. rewrite Eq. reflexivity.
Qed.
Lemma calls_extras a E n f o ci rest :
  getter_calls a (flat_map (extra_events E n f o ci) rest) = 0.
Proof.
  induction rest as [|[k x] rest IH]; [reflexivity|]. cbn [flat_map]. rewrite calls_app, IH, Nat.add_0_r.
  unfold extra_events. cbn [fst snd]. destruct k; try reflexivity. rewrite calls_app, calls_none by reflexivity.
  rewrite Nat.add_0_r. destruct (sget s (ci_hints ci)); [reflexivity|]. destruct x; try reflexivity.
  destruct (dhas (VStr "-keys") d); [|reflexivity]. unfold warn. destruct (e_warn E f _); reflexivity.
Qed.
Lemma calls_getters a (gs : list (string * res value)) :
  NoDup (map fst gs) -> getter_calls a (map (fun g => EvGetter (fst g)) gs) = if shas a gs then 1 else 0.
Proof.
  induction gs as [|[b g] gs IH]; intros Hd; [reflexivity|]. inversion Hd as [|? ? Hb Hd']; subst.
  cbn [map fst]. unfold getter_calls in *. cbn [filter]. unfold shas, amem in *. cbn [aget].
  destruct (String.eqb a b) eqn:E; [|exact (IH Hd')].
  apply String.eqb_eq in E as ->. cbn [length]. rewrite (IH Hd').
  destruct (aget String.eqb b gs) eqn:Eg; [|reflexivity]. apply sget_In in Eg. now apply (in_map fst) in Eg.
Qed.
Lemma getter_calls_done E n f o c d d' v a :
  plain_object E f c o d -> renamed (e_ct E) o d d' ->
  NoDup (map pa_name (ci_params (e_ct E c))) -> NoDup (map fst (lo_getters o)) ->
  In a (map fst (lo_getters o)) ->
  snd (load E (S n) f o (Some (TClass c)) (VDict DkDict d)) = Done v ->
  getter_calls a (fst (load E (S n) f o (Some (TClass c)) (VDict DkDict d))) =
  if mem_str a (map pa_name (ci_params (e_ct E c))) && negb (dhas (VStr a) d') then 2 else 1.
Proof.
  intros Hp Hr Hn Hg Hin Hd.
  pose proof (proj1 (load_object_done _ _ _ _ _ _ _ Hp) Hd) as (attrs & (d'' & ys & rest & at0 & at1 & Hr' & Hf & Hx & _) & _).
  assert (d'' = d') as -> by (apply renamed_iff in Hr, Hr'; congruence).
  rewrite (load_object_events _ _ _ _ _ _ _ _ _ _ Hp Hr Hf Hx Hd).
  rewrite !calls_app, (calls_params _ _ _ _ _ _ _ Hn), calls_extras, (calls_getters _ _ Hg).
  apply shas_In in Hin. rewrite Hin, andb_true_r.
  destruct (mem_str a (map pa_name (ci_params (e_ct E c))) && negb (dhas (VStr a) d')); reflexivity.
Qed.
