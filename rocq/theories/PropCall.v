(** * C56, C57: the verbose argument; positional arguments

    Model: CallModel.v.  Specification: CallSpec.v. *)
From Verif Require Import PyBaseFacts EngineFacts EngineEnv CallModel CallSpec CallProofs PropRoundTrip PropJsonText.
Local Close Scope Z_scope.
Local Open Scope string_scope.

(** ** Keyword arguments: their order does not matter *)
Theorem C57_keyword_order : forall E T n args kw kw', distinct_names kw -> distinct_names kw' -> same_kw kw kw' ->
  call_dump E n args kw = call_dump E n args kw' /\
  call_dumps E T n args kw = call_dumps E T n args kw' /\
  call_dumpb E T n args kw = call_dumpb E T n args kw' /\
  call_load E n args kw = call_load E n args kw' /\
  call_loads E T n args kw = call_loads E T n args kw' /\
  call_loadb E T n args kw = call_loadb E T n args kw'.
Proof.
  intros E T n args kw kw' H1 H2 H3. split; [now apply call_dump_ext|]. split; [now apply call_dumps_ext|].
  split; [now apply call_dumpb_ext|]. split; [now apply call_load_ext|]. split; [now apply call_loads_ext|now apply call_loadb_ext].
Qed.
(** ** dump, load, dumps: cls by position or by name *)
Theorem C57_dump_cls : forall E n obj cls kw,
  call_dump E n [obj; cls] kw = call_dump E n [obj] (("cls", cls) :: kw).
Proof. exact dump_cls_positional. Qed.
Theorem C57_load_cls : forall E n j cls kw,
  call_load E n [j; cls] kw = call_load E n [j] (("cls", cls) :: kw).
Proof. exact load_cls_positional. Qed.
Theorem C57_dumps_cls : forall E T n obj cls kw, not_named "cls" kw -> not_named "jdkwargs" kw -> distinct_names kw ->
  call_dumps E T n [obj; AVal VNone; cls] kw = call_dumps E T n [obj] (("cls", cls) :: kw).
Proof. exact dumps_cls_positional. Qed.
(** More positional arguments than parameters: a TypeError, whatever they are. *)
Theorem C57_dump_too_many : forall E n obj cls x rest kw,
  call_dump E n (obj :: cls :: x :: rest) kw = fail (exn_of KType).
Proof. exact dump_too_many. Qed.
Theorem C57_load_too_many : forall E n j cls x rest kw,
  call_load E n (j :: cls :: x :: rest) kw = fail (exn_of KType).
Proof. exact load_too_many. Qed.
(** loads and loadb have a *args that is handed on to load, which has none: a call that uses it
    never succeeds. *)
Theorem C57_loads_extra : forall E T n x cls jd a rest kw,
  exists e, snd (call_loads E T n (x :: cls :: jd :: a :: rest) kw) = Fail e.
Proof. exact loads_extra. Qed.
Theorem C57_loadb_extra : forall E T n x cls enc jd a rest kw,
  exists e, snd (call_loadb E T n (x :: cls :: enc :: jd :: a :: rest) kw) = Fail e.
Proof. exact loadb_extra. Qed.
(** So further positional arguments of loads are not "passed on to the deserializer function". *)
Theorem C57_loads_extra_refuted : exists E T n s j v,
  json_loads T (codes s) = Some j /\ snd (call_loads E T n [AVal (VStr s)] []) = Done v /\
  snd (call_loads E T n [AVal (VStr s); AVal VNone; AVal VNone; AVal VNone] []) = Fail (exn_of KType).
Proof.
  exists demo_env, demo_trt, 5, "[1]", (VList [VInt 1]), (VList [VInt 1]).
  split; [vm_compute; reflexivity|]. split; [vm_compute; reflexivity|].
  apply (loads_extra_type_error demo_env demo_trt 5 "[1]" (VList [VInt 1]) (AVal VNone) []). vm_compute. reflexivity.
Qed.
(** The functions with no options are those of the engine model. *)
Theorem C57_plain_calls : forall E T n v j t x f,
  call_dump E n [AVal v] [("fork_inst", AFork f)] = dump E f n sopts0 None v /\
  call_dumps E T n [AVal v] [("fork_inst", AFork f)] = dumps E T f n sopts0 None v /\
  call_load E n [AVal j; AType t] [("fork_inst", AFork f)] = load E n f lopts0 (Some t) j /\
  call_loads E T n [x; AType t] [("fork_inst", AFork f)] =
    mbind (parse_arg T x) (fun j => load E n f lopts0 (Some t) j).
Proof.
  intros E T n v j t x f. split; [apply call_dump_plain|]. split; [apply call_dumps_plain|].
  split; [apply call_load_plain|apply call_loads_plain].
Qed.
Example C57_case :
  same_kw [("strip_nulls", AVal (VBool true)); ("cls", AType (TClass 1))] [("cls", AType (TClass 1)); ("strip_nulls", AVal (VBool true))] /\
  snd (call_dump demo_env 5 [AVal john; AType (TClass 1)] [("strip_attr", AAttrs (SAName "age"))]) =
    Done (str_dict [("name", VStr "John")]) /\
  snd (call_dumps demo_env demo_trt 5 [AVal john; AVal VNone; AType (TClass 1)] [("strip_attr", AAttrs (SAName "age"))]) =
    Done "{""name"": ""John""}" /\
  snd (call_loads demo_env demo_trt 5 [AVal (VStr john_text); AType (TClass 1)] []) = Done john /\
  snd (call_loads demo_env demo_trt 5 [AVal (VStr john_text); AType (TClass 1)] [("cls", AType (TClass 1))]) = Fail (exn_of KType).
Proof.
  split; [|vm_compute; repeat split].
  intros k. unfold sget. cbn [aget]. destruct (String.eqb_spec k "strip_nulls") as [->|]; [reflexivity|].
  destruct (String.eqb_spec k "cls"); reflexivity.
Qed.

(** ** C56: verbose *)
(** Only what the value asks for counts: a Verbosity for itself, any other true value for
    everything, any other value for nothing. *)
Theorem C56_verbose : forall E n args kw a a' b, not_named "verbose" kw -> distinct_names kw ->
  asks_for (e_rt E) a b -> asks_for (e_rt E) a' b ->
  call_dump E n args (("verbose", a) :: kw) = call_dump E n args (("verbose", a') :: kw).
Proof. exact verbose_dump. Qed.
(** verbose=False, None, 0, "", ... is the same as no verbose at all. *)
Theorem C56_silent : forall E n args kw a, not_named "verbose" kw -> distinct_names kw ->
  asks_for (e_rt E) a with_nothing ->
  call_dump E n args (("verbose", a) :: kw) = call_dump E n args kw.
Proof. exact silent_dump. Qed.
(** Each value asks for exactly one thing. *)
Theorem C56_asks_once : forall R a, exists b, asks_for R a b /\ forall b', asks_for R a b' -> b' = b.
Proof.
  intros R a. exists (verb_from_value R a). split; [apply from_value_asks|]. intros b' H.
  apply (asks_unique R a b'); [exact H|apply from_value_asks].
Qed.
(** The tests [Verbosity.X in verbosity] of the code, on the values of the flags: 10 and 20. *)
Theorem C56_flag_bits : forall b,
  (Z.land (verb_value b) 10 = 10%Z <-> vb_class_info b = true) /\
  (Z.land (verb_value b) 20 = 20%Z <-> vb_dump_time b = true).
Proof. intros [[] []]; cbv; split; split; congruence. Qed.
Example C56_case :
  asks_for demo_rt (AVal (VStr "no")) with_everything /\ asks_for demo_rt (AVal (VInt 0)) with_nothing /\
  asks_for demo_rt (AVerb with_class_info) with_class_info /\
  snd (call_dump demo_env 5 [AVal john] [("verbose", AVerb with_dump_time)]) =
    Done (str_dict [("age", VInt 30); ("name", VStr "John"); ("-meta", str_dict [("dump_time", VStr "2020-01-01T00:00:00Z")])]) /\
  snd (call_dump demo_env 5 [AVal john] [("verbose", AVal (VStr "no"))]) =
    Done (str_dict [("age", VInt 30); ("name", VStr "John");
                    ("-meta", str_dict [("classes", str_dict [("/", VStr "m.Person")]); ("dump_time", VStr "2020-01-01T00:00:00Z")])]) /\
  snd (call_dump demo_env 5 [AVal john] [("verbose", AVal (VInt 0))]) = Done john_doc.
Proof.
  split; [left; split; reflexivity|]. split; [right; split; [discriminate|reflexivity]|]. split; [reflexivity|].
  repeat split; vm_compute; reflexivity.
Qed.

Print Assumptions C57_keyword_order.
Print Assumptions C57_dump_cls.
Print Assumptions C57_load_cls.
Print Assumptions C57_dumps_cls.
Print Assumptions C57_dump_too_many.
Print Assumptions C57_load_too_many.
Print Assumptions C57_loads_extra.
Print Assumptions C57_loadb_extra.
Print Assumptions C57_loads_extra_refuted.
Print Assumptions C57_plain_calls.
Print Assumptions C56_verbose.
Print Assumptions C56_silent.
Print Assumptions C56_asks_once.
Print Assumptions C56_flag_bits.
