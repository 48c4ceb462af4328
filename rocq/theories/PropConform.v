(** * C30, C36: loaded values conform to the requested type and pass the validators

    Model: EngineDeser.v.  Specification: LoadSpec.v, ConformSpec.v. *)
From Verif Require Import PyBaseFacts DumpSpec LoadSpec LoadFacts LoadLaws LoadObject LoadTypes LoadMeta
  ConformSpec ConformProofs PropLoad.
Local Open Scope string_scope.

(** ** Example data *)
Lemma demo_classes : plain_classes demo_ct.
Proof.
  intros c. split; [apply demo_fresh|]. split; [now do 5 (destruct c as [|c]; [reflexivity|])|].
  intros fields fd x H Hin Hd. do 5 (destruct c as [|c]; [try discriminate|]); [|discriminate].
  injection H as <-. destruct Hin as [<-|[<-|[]]]; [discriminate|]. injection Hd as <-. constructor.
Qed.
Lemma demo_string_keys : string_keys lopts0.
Proof. intros g s k H. discriminate. Qed.
(** A computable test for plain inputs *)
Fixpoint plain_input_b (v : value) : bool :=
  match v with
  | VNone | VBool _ | VInt _ | VFloat _ | VStr _ => true
  | VList l | VTuple l => forallb plain_input_b l
  | VDict DkDict d =>
      forallb (fun kx => match fst kx with
                         | VStr s => negb (String.eqb s "-meta") && negb (String.eqb s "-keys")
                         | _ => false end && plain_input_b (snd kx)) d
  | _ => false
  end.
Lemma plain_input_sound : forall v, plain_input_b v = true -> plain_input v.
Proof.
  fix IH 1. intros v H. destruct v as [| | | | |l|l| |[] d| | | |]; try discriminate; try constructor.
  - cbn [plain_input_b] in H. induction l as [|x l IHl]; constructor; cbn [forallb] in H;
      apply andb_true_iff in H as [H1 H2]; [exact (IH x H1)|exact (IHl H2)].
  - cbn [plain_input_b] in H. induction l as [|x l IHl]; constructor; cbn [forallb] in H;
      apply andb_true_iff in H as [H1 H2]; [exact (IH x H1)|exact (IHl H2)].
  - cbn [plain_input_b] in H. induction d as [|[k x] d IHd]; constructor; cbn [forallb] in H;
      apply andb_true_iff in H as [H1 H2]; [|exact (IHd H2)]. cbn [fst snd] in H1. destruct k; try discriminate.
    apply andb_true_iff in H1 as [H1 _]. apply andb_true_iff in H1 as [H1 H3]. exists s.
    split; [reflexivity|]. split; intros ->; discriminate.
  - cbn [plain_input_b] in H. induction d as [|[k x] d IHd]; constructor; cbn [forallb] in H;
      apply andb_true_iff in H as [H1 H2]; [|exact (IHd H2)]. cbn [fst snd] in H1.
    apply andb_true_iff in H1 as [_ H1]. exact (IH x H1).
Qed.

(** ** C30 *)
Theorem C30_loaded_values_conform : forall E f, default_deserializers E f -> plain_classes (e_ct E) ->
  forall n o t j v, no_hints o -> lo_getters o = [] -> string_keys o -> plain_input j ->
  snd (load E n f o (Some t) j) = Done v -> conforms E f t v.
Proof. exact load_conforms. Qed.
Example C30_case :
  plain_classes demo_ct /\ no_hints lopts0 /\ string_keys lopts0 /\ plain_input group_doc /\
  snd (load demo_env 9 0 lopts0 (Some (TClass 2)) group_doc) = Done group.
Proof.
  split; [exact demo_classes|]. split; [now left|]. split; [exact demo_string_keys|].
  split; [now apply plain_input_sound|reflexivity].
Qed.
(** What conforming means, spelled out for some types *)
Theorem C30_lists : forall E f b t v, conforms E f (TApp b HList [t]) v ->
  exists l, v = VList l /\ Forall (conforms E f t) l.
Proof.
  intros E f b t v H. inversion H; subst; try (match goal with H : outside _ |- _ => destruct H end).
  - match goal with H : sequence_of _ _ _ |- _ => inversion H; subst end. eauto.
  - match goal with H : mapping_of _ _ _ |- _ => inversion H end.
Qed.
Theorem C30_unions : forall E f ts v, conforms E f (TUnion ts) v -> exists t, In t ts /\ conforms E f t v.
Proof.
  intros E f ts v H. inversion H; subst; try (match goal with H : outside _ |- _ => destruct H end). eauto.
Qed.
Theorem C30_tuples : forall E f b ts v, conforms E f (TApp b HTuple ts) v -> ts <> [] -> last ts TAny <> TEllipsis ->
  exists l, v = VTuple l /\ length l <= length ts /\
            Forall (fun tx => conforms E f (fst tx) (snd tx)) (combine ts l).
Proof.
  intros E f b ts v H Hn Hl. inversion H; subst; try (match goal with H : outside _ |- _ => destruct H end).
  - match goal with H : sequence_of _ _ _ |- _ => inversion H end.
  - match goal with H : mapping_of _ _ _ |- _ => inversion H end.
  - eauto.
Qed.
Theorem C30_dicts : forall E f b tk tv v, conforms E f (TApp b HDict [tk; tv]) v ->
  exists d, v = VDict DkDict d /\
    forall k x, In (k, x) d -> conforms E f tk k /\ conforms E f tv x.
Proof.
  intros E f b tk tv v H. inversion H; subst; try (match goal with H : outside _ |- _ => destruct H end).
  - match goal with H : sequence_of _ _ _ |- _ => inversion H end.
  - match goal with H : mapping_of _ _ _ |- _ => inversion H; subst end.
    match goal with H : forall _ _, _ -> Forall _ _ /\ _ |- _ => destruct (H _ _ eq_refl) as [H1 H2] end.
    rewrite Forall_forall in H1, H2. eexists. split; [reflexivity|]. intros k x Hin. split; [apply (H1 _ Hin)|apply (H2 _ Hin)].
Qed.
Theorem C30_primitives : forall E f p v, conforms E f (TPrim p) v ->
  class_of v = TPrim p \/ (p = PInt /\ class_of v = TPrim PBool).
Proof.
  intros E f p v H. inversion H; subst; try (match goal with H : outside _ |- _ => destruct H end); auto.
Qed.
Theorem C30_classes : forall E f c v, conforms E f (TClass c) v -> class_of v = TClass c.
Proof.
  intros E f c v H. inversion H; subst; try (match goal with H : outside _ |- _ => destruct H end); reflexivity.
Qed.
Example C30_tuple_case :
  let T := TApp true HTuple [TPrim PInt; TClass 3; TApp true HDict [TPrim PStr; TPrim PFloat]] in
  let j := VList [VBool true; VStr "GREEN"; str_dict []] in
  plain_input j /\
  snd (load demo_env 9 0 lopts0 (Some T) j) = Done (VTuple [VBool true; VEnum 3 "GREEN"; VDict DkDict []]).
Proof. split; [now apply plain_input_sound|reflexivity]. Qed.
(** With a '-meta' entry the conclusion fails below the outermost value. *)
Theorem C30_without_plain_input_refuted : exists E n f o t j v,
  default_deserializers E f /\ plain_classes (e_ct E) /\ no_hints o /\ lo_getters o = [] /\
  snd (load E n f o (Some t) j) = Done v /\ ~ conforms E f t v.
Proof.
  exists meta_env, 9, 0, lopts0, (TApp true HList [TPrim PInt]),
    (VList [VDict DkDict (with_meta [("/", VStr "m.Person")] [("name", VStr "John"); ("age", VInt 30)])]),
    (VList [john]).
  split; [intros t; reflexivity|]. split; [exact demo_classes|]. split; [now left|]. split; [reflexivity|]. split; [reflexivity|].
  intros H. apply C30_lists in H as (l & Hl & H). injection Hl as <-. inversion H as [|? ? H1 _]; subst.
  apply C30_primitives in H1 as [H1|[_ H1]]; discriminate.
Qed.

(** ** C36: validators *)
(** A value that load returns has been accepted by the validator of the requested type ... *)
Theorem C36_returned_value_accepted : forall E n f o t j v,
  direct t \/ t = TAny -> lo_inferred o = false \/ no_meta_entry j ->
  snd (load E n f o (Some t) j) = Done v -> accepts E f t v.
Proof. exact load_accepted. Qed.
Theorem C36_untyped_value_accepted : forall E n f o j v, no_meta_entry j ->
  snd (load E n f o None j) = Done v -> accepts E f (class_of j) v.
Proof. exact load_accepted_untyped. Qed.
(** ... and so have its typed parts, to any depth, by the validators of their types. *)
Theorem C36_nested_values_accepted : forall E f, default_deserializers E f -> plain_classes (e_ct E) ->
  forall n o t j v t' v', no_hints o -> lo_getters o = [] -> string_keys o -> plain_input j ->
  snd (load E n f o (Some t) j) = Done v -> inside (e_ct E) t v t' v' -> (forall s, t' <> TFwd s) ->
  accepts E f t' v'.
Proof. exact load_inside_accepted. Qed.
Example C36_nested_case :
  snd (load meta_env 9 1 lopts0 (Some (TClass 2)) group_doc) = Done group /\
  inside demo_ct (TClass 2) group (TPrim PInt) (VInt 30) /\
  e_validator meta_env 1 (TPrim PInt) <> None.
Proof.
  split; [reflexivity|]. split; [|discriminate].
  assert (T : forall c, c = 1 \/ c = 2 -> tame (demo_ct c)).
  { intros c Hc. split; [|split].
    - destruct Hc as [-> | ->]; apply record_stores; repeat constructor; cbn; intuition discriminate.
    - destruct Hc as [-> | ->]; intros a x at_; reflexivity.
    - destruct Hc as [-> | ->]; repeat constructor; cbn; intuition discriminate. }
  eapply in_part; [apply (cp_attribute demo_ct 2 _ (mkParam "members" (Some (TApp true HList [TClass 1])) None false)
    (TApp true HList [TClass 1]) (VList [john; mary])); try reflexivity; try discriminate; [apply T; auto|now left]|].
  eapply in_part; [eapply cp_element; [constructor|now left]|].
  eapply in_part; [apply (cp_attribute demo_ct 1 _ (mkParam "age" (Some (TPrim PInt)) (Some (VInt 0)) false)
    (TPrim PInt) (VInt 30)); try reflexivity; try discriminate; [apply T; auto|right; now left]|].
  apply in_self.
Qed.
(** A value that is rejected makes load fail with a ValidationError: a value that is given
    as it is, ... *)
Theorem C36_given_value_rejected : forall E n f o j,
  no_meta_entry j -> lo_strict o = false -> j <> VNone ->
  rejects E f (class_of j) j -> snd (load E (S n) f o (Some (class_of j)) j) = Fail (exn_of KValidation).
Proof. exact load_given_rejected. Qed.
Theorem C36_any_rejected : forall E n f o j, rejects E f TAny j ->
  snd (load E (S n) f o (Some TAny) j) = Fail (exn_of KValidation).
Proof. exact load_any_rejected. Qed.
(** ... a primitive, a date, an enum member and so on that would be loaded without the
    validator, ... *)
Theorem C36_flat_rejected : forall E n f o t j v,
  default_deserializers E f -> flat (e_ct E) t -> no_meta_entry j ->
  snd (load (unvalidated E f t) (S n) f o (Some t) j) = Done v -> rejects E f t v ->
  snd (load E (S n) f o (Some t) j) = Fail (exn_of KValidation).
Proof. exact load_flat_rejected. Qed.
(** ... what a custom deserializer returns, ... *)
Theorem C36_custom_rejected : forall E n f o t k j v,
  direct t -> no_meta_entry j -> j <> VNone -> valid_type j = true ->
  lo_strict o = true \/ class_of j <> t -> e_deser E f t = Some (DCustom k) ->
  e_cdeser E k t j = Ok v -> rejects E f t v ->
  snd (load E (S n) f o (Some t) j) = Fail (exn_of KValidation).
Proof. exact load_custom_rejected. Qed.
(** ... a list, ... *)
Theorem C36_list_rejected : forall E n f o b t l ys,
  default_deserializers E f -> no_hints o -> lo_warn o = false ->
  Forall2 (fun x y => snd (load E n f (elem_opts o true) (Some t) x) = Done y) l ys ->
  rejects E f (TApp b HList [t]) (VList ys) ->
  snd (load E (S n) f o (Some (TApp b HList [t])) (VList l)) = Fail (exn_of KValidation).
Proof. exact load_list_rejected. Qed.
(** ... and an object. *)
Theorem C36_object_rejected : forall E n f o c d attrs,
  plain_object E f c o d -> constructs E n f o c d attrs -> rejects E f (TClass c) (VObj c attrs) ->
  snd (load E (S n) f o (Some (TClass c)) (VDict DkDict d)) = Fail (exn_of KValidation).
Proof. exact load_object_rejected. Qed.
Example C36_rejected_cases :
  rejects meta_env 1 (TPrim PInt) (VInt (-5)) /\
  snd (load (unvalidated meta_env 1 (TPrim PInt)) 9 1 strict_opts (Some (TPrim PInt)) (VInt (-5))) = Done (VInt (-5)) /\
  snd (load meta_env 9 1 strict_opts (Some (TPrim PInt)) (VInt (-5))) = Fail (exn_of KValidation) /\
  rejects meta_env 1 (TClass 1) (VObj 1 [("name", VStr "X"); ("age", VInt 0)]) /\
  snd (load meta_env 9 1 lopts0 (Some (TClass 1)) (str_dict [("name", VStr "X")])) = Fail (exn_of KValidation).
Proof. repeat split; try reflexivity; eexists; (split; [reflexivity|discriminate]). Qed.
(** Defaults of constructor parameters are not validated. *)
Theorem C36_defaults_validated_refuted : exists E n f o c j attrs p t y,
  snd (load E n f o (Some (TClass c)) j) = Done (VObj c attrs) /\ In p (ci_params (e_ct E c)) /\
  pa_hint p = Some t /\ sget (pa_name p) attrs = Some y /\ rejects E f t y.
Proof.
  pose (E := mkEnv demo_ct demo_rt 0 (fun _ => default_ser demo_ct) (fun _ => default_deser demo_ct)
    (fun f t => match t with TPrim PInt => Some (fun v => match v with VInt z => Ok (Z.ltb 0 z) | _ => Ok true end) | _ => None end)
    (fun _ _ => true) (fun _ _ => raise KUnknownClass) (fun _ _ _ => raise KType) (fun _ _ _ => raise KType)).
  exists E, 9, 0, lopts0, 1, (str_dict [("name", VStr "A")]), [("name", VStr "A"); ("age", VInt 0)],
    (mkParam "age" (Some (TPrim PInt)) (Some (VInt 0)) false), (TPrim PInt), (VInt 0).
  split; [reflexivity|]. split; [right; now left|]. split; [reflexivity|]. split; [reflexivity|].
  eexists; (split; [reflexivity|discriminate]).
Qed.

Print Assumptions C30_loaded_values_conform.
Print Assumptions C30_lists.
Print Assumptions C30_unions.
Print Assumptions C30_tuples.
Print Assumptions C30_dicts.
Print Assumptions C30_primitives.
Print Assumptions C30_classes.
Print Assumptions C30_without_plain_input_refuted.
Print Assumptions C36_returned_value_accepted.
Print Assumptions C36_untyped_value_accepted.
Print Assumptions C36_nested_values_accepted.
Print Assumptions C36_given_value_rejected.
Print Assumptions C36_any_rejected.
Print Assumptions C36_flat_rejected.
Print Assumptions C36_custom_rejected.
Print Assumptions C36_list_rejected.
Print Assumptions C36_object_rejected.
Print Assumptions C36_defaults_validated_refuted.
