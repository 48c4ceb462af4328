(** * C46, C48: transform and the decorators

    Model: ApiModel.v.  Specification: ApiSpec.v. *)
From Verif Require Import PyBaseFacts ApiSpec DumpLaws LoadFacts RoundTripLaws ConformProofs TransformProofs DecoratorProofs
  JsonTextSpec PropRoundTrip PropJsonText.
Local Close Scope Z_scope.
Local Open Scope string_scope.

(** ** C46: transform is dump, then the mapper, then load *)
Theorem C46_transform_done : forall E fd n so fl m lo mapper dump_cls cls obj v,
  snd (transform E fd n so fl m lo mapper dump_cls [] cls obj) = Done v <->
  exists j j', snd (dump E fd n so dump_cls obj) = Done j /\ mapped mapper j = Ok j' /\ snd (load E m fl lo cls j') = Done v.
Proof. exact transform_done. Qed.
Theorem C46_transform_fails : forall E fd n so fl m lo mapper dump_cls cls obj e,
  snd (transform E fd n so fl m lo mapper dump_cls [] cls obj) = Fail e <->
  snd (dump E fd n so dump_cls obj) = Fail e \/
  (exists j, snd (dump E fd n so dump_cls obj) = Done j /\ mapped mapper j = Err e) \/
  exists j j', snd (dump E fd n so dump_cls obj) = Done j /\ mapped mapper j = Ok j' /\ snd (load E m fl lo cls j') = Fail e.
Proof. exact transform_fail. Qed.
(** The effects are those of dump followed by those of load; without the latter, if dump or
    the mapper fails. *)
Theorem C46_transform_effects : forall E fd n so fl m lo mapper dump_cls cls obj j j',
  snd (dump E fd n so dump_cls obj) = Done j -> mapped mapper j = Ok j' ->
  fst (transform E fd n so fl m lo mapper dump_cls [] cls obj) =
  (fst (dump E fd n so dump_cls obj) ++ fst (load E m fl lo cls j'))%list.
Proof. exact transform_events. Qed.
Theorem C46_transform_stops : forall E fd n so fl m lo mapper dump_cls cls obj e,
  snd (dump E fd n so dump_cls obj) = Fail e \/
  (exists j, snd (dump E fd n so dump_cls obj) = Done j /\ mapped mapper j = Err e) ->
  transform E fd n so fl m lo mapper dump_cls [] cls obj = (fst (dump E fd n so dump_cls obj), Fail e).
Proof. exact transform_stops. Qed.
(** A well-typed value, transformed to its own type, is copied. *)
Theorem C46_to_own_type : forall E fd fl so t v,
  default_serializers E fd -> default_deserializers E fl -> exact_dump so -> has_type E fl so t v ->
  exists N, forall n m dump_cls lo, N <= n -> N <= m -> dump_cls = None \/ dump_cls = Some t -> exact_load lo ->
    snd (transform E fd n so fl m lo None dump_cls [] (Some t) v) = Done v.
Proof. exact transform_same. Qed.
(** To a class with the same parameters: an instance of that class with the same attributes. *)
Theorem C46_to_similar_class : forall E fd fl so c c' attrs,
  default_serializers E fd -> default_deserializers E fl -> exact_dump so ->
  record_like (e_ct E) so c -> record_like (e_ct E) so c' ->
  map signature (ci_params (e_ct E c')) = map signature (ci_params (e_ct E c)) ->
  has_type E fl so (TClass c) (VObj c attrs) -> accepts E fl (TClass c') (VObj c' attrs) ->
  exists N, forall n m dump_cls lo, N <= n -> N <= m -> dump_cls = None \/ dump_cls = Some (TClass c) -> exact_load lo ->
    snd (transform E fd n so fl m lo None dump_cls [] (Some (TClass c')) (VObj c attrs)) = Done (VObj c' attrs).
Proof. exact transform_class. Qed.
(** The result is an instance of the requested type. *)
Theorem C46_result_type : forall E fd n so fl m lo mapper dump_cls t obj v,
  default_deserializers E fl -> plain_classes (e_ct E) -> no_hints lo -> lo_getters lo = [] -> string_keys lo ->
  (forall j j', snd (dump E fd n so dump_cls obj) = Done j -> mapped mapper j = Ok j' -> plain_input j') ->
  snd (transform E fd n so fl m lo mapper dump_cls [] (Some t) obj) = Done v -> conforms E fl t v.
Proof. exact transform_conforms. Qed.
(** dump_args can only be empty: dump takes everything else by keyword. *)
Theorem C46_dump_args_refuted : forall E fd n so fl m lo mapper dump_cls a args cls obj,
  transform E fd n so fl m lo mapper dump_cls (a :: args) cls obj = fail (exn_of KType).
Proof. reflexivity. Qed.
(** Example: class 5 has the parameters of Person; the mapper adds a year. *)
Definition twin_ct : classes := fun c => if Nat.eqb c 5 then record_class "m" "Human"
  [mkParam "name" (Some (TPrim PStr)) None false; mkParam "age" (Some (TPrim PInt)) (Some (VInt 18)) false] else demo_ct c.
Definition twin_env : env := std_env twin_ct demo_rt.
Definition birthday (j : value) : res value :=
  match j with
  | VDict DkDict [(k, VInt a); y] => Ok (VDict DkDict [(k, VInt (a + 1)); y])
  | _ => raise KValue
  end.
Lemma twin_record c : c = 1 \/ c = 5 -> record_like twin_ct sopts0 c.
Proof.
  intros Hc. constructor.
  - destruct Hc as [-> | ->]; reflexivity.
  - destruct Hc as [-> | ->]; (split; [|intros t []]).
    + apply (demo_fresh 1).
    + unfold fresh_name. intros H. apply mem_str_In in H. vm_compute in H. discriminate.
  - destruct Hc as [-> | ->]; reflexivity.
  - destruct Hc as [-> | ->]; intros a; discriminate.
  - destruct Hc as [-> | ->]; repeat constructor; cbn; intuition discriminate.
  - intros args H. destruct args as [|[a x] [|[b y] [|z args]]]; destruct Hc as [-> | ->]; try discriminate H;
      injection H as -> ->; apply init_record; (discriminate || reflexivity).
  - destruct Hc as [-> | ->]; intros a [].
  - intros p Hp.
    assert (Hv : forall a, prefix "_" a = false -> prefix "__" a = false -> ~ In a abc_names -> ~ In a json_serializable_names ->
              visible [] sopts0 [] a).
    { intros a H1 H2 H3 H4. repeat split; auto; discriminate. }
    destruct Hc as [-> | ->]; destruct Hp as [<-|[<-|[]]]; (split; [apply Hv; (reflexivity || (cbn; intuition discriminate))|]);
      (split; [reflexivity|]); (split; [discriminate|]); (split; [reflexivity|]); eexists;
      (split; [reflexivity|]); (split; [|(now left) || (now right)]);
      (intros (t' & Eq & _ & _ & Ho); injection Eq as <-; apply union_like_occurs in Ho; discriminate).
Qed.
Example C46_similar_case :
  record_like twin_ct sopts0 1 /\ record_like twin_ct sopts0 5 /\
  map signature (ci_params (twin_ct 5)) = map signature (ci_params (twin_ct 1)) /\
  has_type twin_env 0 sopts0 (TClass 1) john /\
  snd (transform twin_env 0 5 sopts0 0 5 lopts0 None None [] (Some (TClass 5)) john) =
    Done (VObj 5 [("name", VStr "John"); ("age", VInt 30)]) /\
  snd (transform twin_env 0 5 sopts0 0 5 lopts0 (Some birthday) None [] (Some (TClass 5)) john) =
    Done (VObj 5 [("name", VStr "John"); ("age", VInt 31)]) /\
  snd (transform twin_env 0 5 sopts0 0 5 lopts0 (Some birthday) None [] (Some (TClass 5)) (VList [])) = Fail (exn_of KValue).
Proof.
  split; [apply twin_record; now left|]. split; [apply twin_record; now right|]. split; [reflexivity|].
  split; [|split; [vm_compute; reflexivity|split; vm_compute; reflexivity]].
  apply ht_object; [apply twin_record; now left|reflexivity| |exact I].
  intros p t x [H|[H|[]]] Ht; injection H as <- <-; injection Ht as <-; apply ht_prim; (reflexivity || exact I).
Qed.

(** ** C48: decorators *)
(** A call returns [y] exactly if the positional arguments are mapped, each with the
    annotation of its parameter (except self and cls), the function returns [x] for the
    mapped arguments and the very keyword arguments, and [y] is what [x] is mapped to. *)
Theorem C48_call_returns : forall has mapper parameters returnvalue fn args kw y,
  snd (wrapper has parameters returnvalue mapper fn args kw) = Done y <->
  exists args' x, passed has parameters mapper fn args args' /\ fn_body fn args' kw = Ok x /\ returned returnvalue mapper fn x y.
Proof. exact wrapper_done. Qed.
Theorem C48_call_fails : forall has mapper parameters returnvalue fn args kw e,
  snd (wrapper has parameters returnvalue mapper fn args kw) = Fail e <->
  (parameters = true /\ snd (map_args has mapper fn args) = Fail e) \/
  exists args', passed has parameters mapper fn args args' /\
    (fn_body fn args' kw = Err e \/
     exists x, fn_body fn args' kw = Ok x /\ returnvalue = true /\ snd (mapper (annotated_cls (fn_return fn)) x) = Fail e).
Proof. exact wrapper_fail. Qed.
(** [annotated_cls] is the class that an annotation asks for. *)
Theorem C48_annotations : forall a c, annotated_cls a = c <-> asked a c.
Proof. intros a c. split; [intros <-; destruct a; constructor|now intros []]. Qed.
(** The mapping of the arguments fails as the first argument that cannot be mapped does, or
    with an IndexError if there are more arguments than parameters (whatever the kind of the
    parameters: *args is one parameter). *)
Theorem C48_arguments_fail : forall has mapper fn args e,
  snd (map_args has mapper fn args) = Fail e <->
  (length (fn_params fn) < length args /\ e = exn_of KIndex) \/
  exists pre x post ps1 p ps2 ys, args = (pre ++ x :: post)%list /\ fn_params fn = (ps1 ++ p :: ps2)%list /\ length ps1 = length pre /\
    length args <= length (fn_params fn) /\
    args_mapped has mapper (fn_name fn) ps1 pre ys /\ arg_fails has mapper (fn_name fn) p x e.
Proof. exact map_args_first_fail. Qed.
Theorem C48_too_many_arguments : forall has mapper returnvalue fn args kw, length (fn_params fn) < length args ->
  wrapper has true returnvalue mapper fn args kw = rfail (exn_of KIndex).
Proof. exact too_many_args. Qed.
(** If the arguments can be mapped, the function is called once, with the mapped ones; if
    not, it is not called, and the outcome does not depend on what it does. *)
Theorem C48_called_once : forall has mapper parameters returnvalue fn args kw args',
  passed has parameters mapper fn args args' ->
  calls (fst (wrapper has parameters returnvalue mapper fn args kw)) = [(args', kw)].
Proof. exact wrapper_calls. Qed.
Theorem C48_not_called : forall has mapper parameters returnvalue fn args kw body,
  (forall args', ~ passed has parameters mapper fn args args') ->
  calls (fst (wrapper has parameters returnvalue mapper fn args kw)) = [] /\
  wrapper has parameters returnvalue mapper fn args kw =
  wrapper has parameters returnvalue mapper (mkFunc (fn_name fn) (fn_params fn) (fn_return fn) (fn_async fn) body) args kw.
Proof. exact wrapper_no_call_body. Qed.
(** Coroutine functions: nothing happens until the coroutine is awaited, then the same. *)
Theorem C48_sync : forall has mapper parameters returnvalue fn args kw, fn_async fn = false ->
  fst (call_wrapper has parameters returnvalue mapper fn args kw) = fst (wrapper has parameters returnvalue mapper fn args kw) /\
  (forall y, snd (call_wrapper has parameters returnvalue mapper fn args kw) = Done (RValue y) <->
             snd (wrapper has parameters returnvalue mapper fn args kw) = Done y) /\
  (forall e, snd (call_wrapper has parameters returnvalue mapper fn args kw) = Fail e <->
             snd (wrapper has parameters returnvalue mapper fn args kw) = Fail e).
Proof. exact sync_call. Qed.
Theorem C48_async : forall has mapper parameters returnvalue fn args kw, fn_async fn = true ->
  exists r, call_wrapper has parameters returnvalue mapper fn args kw = rret r /\
    await r = Some (wrapper has parameters returnvalue mapper fn args kw).
Proof. exact async_call. Qed.
(** Functions can be decorated; static methods and classes are rejected at once, static
    methods with a warning.  Loaders and dumpers other than those of jsons are rejected. *)
Theorem C48_decorate_function : forall has E f parameters returnvalue mapper fn,
  decorate has E f parameters returnvalue mapper (DFunction fn) = ret (call_wrapper has parameters returnvalue mapper fn).
Proof. exact decorate_function. Qed.
Theorem C48_decorate_static : forall has E f parameters returnvalue mapper,
  snd (decorate has E f parameters returnvalue mapper DStatic) = Fail (exn_of KDecoration) /\
  fst (decorate has E f parameters returnvalue mapper DStatic) =
    (if e_warn E f "decorated-static" then [EvWarn f "decorated-static"] else []).
Proof. exact decorate_static. Qed.
Theorem C48_decorate_class : forall has E f parameters returnvalue mapper,
  decorate has E f parameters returnvalue mapper DClass = fail (exn_of KDecoration).
Proof. reflexivity. Qed.
Theorem C48_loaders : forall E T n f raw has parameters returnvalue o loader d,
  loaded E T n f raw has parameters returnvalue o loader d =
  (if match loader with FLoad | FLoads | FLoadb => true | _ => false end
   then decorate has E f parameters returnvalue (load_mapper E T n f raw o loader) d
   else fail (exn_of KDecoration)).
Proof. intros. unfold loaded, loaded_check. destruct loader; rewrite ?bind_ret_l; reflexivity. Qed.
Theorem C48_dumpers : forall E T n f raw has parameters returnvalue o dumper d,
  dumped E T n f raw has parameters returnvalue o dumper d =
  (if match dumper with FDump | FDumps | FDumpb => true | _ => false end
   then decorate has E f parameters returnvalue (dump_mapper E T n f raw o dumper) d
   else fail (exn_of KDecoration)).
Proof. intros. unfold dumped, dumped_check. destruct dumper; rewrite ?bind_ret_l; reflexivity. Qed.
(** Class methods, which the message of the error names, are not rejected; instead each call
    fails with a TypeError. *)
Theorem C48_classmethods_rejected_refuted : forall has E f parameters returnvalue mapper fn,
  exists w, decorate has E f parameters returnvalue mapper (DClassMethod fn) = ret w /\
    forall args kw, w args kw = rfail (exn_of KType).
Proof. intros. eexists. split; [reflexivity|]. reflexivity. Qed.
(** A function with [loaded] that is called with the documents of well-typed values (made by
    dump, dumps or dumpb according to the loader) is called with the values. *)
Theorem C48_loaded_documents : forall E T f g o raw_load raw_dump has dumper loader fname ps ts vs,
  default_serializers E f -> default_deserializers E g -> exact_dump o ->
  Forall2 (fun p t => snd p = AType t /\ fst p <> "self" /\ fst p <> "cls") ps ts -> Forall2 (has_type E g o) ts vs ->
  (forall v j, In v vs -> (exists N, forall n, N <= n -> snd (dump E f n o None v) = Done j) -> floats_read_back T (e_ct E) j) ->
  partners dumper loader ->
  exists xs N, forall n m lo, N <= n -> N <= m -> exact_load lo ->
    Forall2 (fun v x => snd (dump_mapper E T n f raw_dump o dumper None (OVal v)) = Done x) vs xs /\
    args_mapped has (load_mapper E T m g raw_load lo loader) fname ps xs (map OVal vs).
Proof. exact loaded_documents. Qed.
(** Example: def rename(self, p: Person, n: str) -> Person *)
Definition rename : func :=
  mkFunc "rename" [("self", AEmpty); ("p", AType (TClass 1)); ("n", AType (TPrim PStr))] (AType (TClass 1)) false
    (fun args kw => match args with
                    | [_; OVal (VObj 1 [_; a]); OVal n] => Ok (OVal (VObj 1 [("name", n); a]))
                    | _ => raise KType
                    end).
Definition no_raw : option ty -> string -> M value := fun _ _ => fail (exn_of KOverflow).
Definition itself : pyobj := OVal (VObj 2 []).
Definition has_rename (x : pyobj) (a : string) : bool :=
  match x with OVal (VObj 2 _) => String.eqb a "rename" | _ => false end.
Example C48_case :
  let m := load_mapper demo_env demo_trt 5 0 no_raw lopts0 FLoad in
  passed has_rename true m rename [itself; OVal john_doc; OVal (VStr "Jack")] [itself; OVal john; OVal (VStr "Jack")] /\
  snd (wrapper has_rename true true m rename [itself; OVal john_doc; OVal (VStr "Jack")] []) =
    Done (OVal (VObj 1 [("name", VStr "Jack"); ("age", VInt 30)])) /\
  fst (wrapper has_rename true true m rename [itself; OVal john_doc; OVal (VStr "Jack")] []) =
    [StEv (EvInit 1); StCall [itself; OVal john; OVal (VStr "Jack")] []] /\
  (forall args', ~ passed has_rename true m rename [itself; OVal john_doc; OVal VNone] args') /\
  wrapper has_rename true true m rename [itself; OVal john_doc; OVal VNone] [] = ([StEv (EvInit 1)], Fail (exn_of KDeser)) /\
  wrapper has_rename true true m rename [itself; OVal john_doc; OVal (VStr "a"); OVal (VStr "b")] [] = ([], Fail (exn_of KIndex)).
Proof.
  cbv zeta.
  assert (HN : forall x, x <> itself -> forall p, p = "p" \/ p = "n" -> forall a, ~ is_receiver has_rename "rename" (p, a) x).
  { intros x _ p Hp a [[H|H] _]; cbn in H; destruct Hp; congruence. }
  split.
  { constructor; [left; repeat split; now left|]. constructor.
    { right. split; [apply HN; auto; discriminate|vm_compute; reflexivity]. }
    constructor; [|constructor]. right. split; [apply HN; auto; discriminate|vm_compute; reflexivity]. }
  split; [vm_compute; reflexivity|]. split; [vm_compute; reflexivity|]. split; [|split; vm_compute; reflexivity].
  intros args' H. inversion H as [|? ? ? ? ? ? _ H2]; subst. inversion H2 as [|? ? ? ? ? ? _ H4]; subst.
  inversion H4 as [|? ? ? ? ? ? H5 _]; subst. destruct H5 as [[H5 _]|[_ H5]].
  - revert H5. apply HN; auto; discriminate.
  - vm_compute in H5. discriminate.
Qed.

Print Assumptions C48_annotations.
Print Assumptions C46_transform_done.
Print Assumptions C46_transform_fails.
Print Assumptions C46_transform_effects.
Print Assumptions C46_transform_stops.
Print Assumptions C46_to_own_type.
Print Assumptions C46_to_similar_class.
Print Assumptions C46_result_type.
Print Assumptions C46_dump_args_refuted.
Print Assumptions C48_call_returns.
Print Assumptions C48_call_fails.
Print Assumptions C48_arguments_fail.
Print Assumptions C48_too_many_arguments.
Print Assumptions C48_called_once.
Print Assumptions C48_not_called.
Print Assumptions C48_sync.
Print Assumptions C48_async.
Print Assumptions C48_decorate_function.
Print Assumptions C48_decorate_static.
Print Assumptions C48_decorate_class.
Print Assumptions C48_loaders.
Print Assumptions C48_dumpers.
Print Assumptions C48_classmethods_rejected_refuted.
Print Assumptions C48_loaded_documents.
