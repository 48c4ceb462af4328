(** * C53, C54, C55: JsonSerializable

    Model: SerializableModel.v, CallModel.v, RegistryModel.v.  Specification:
    SerializableSpec.v, CallSpec.v.  [jrun W ops] is the state after the calls [ops]; [c] is a
    class that derives from JsonSerializable, [v] an instance of it and [tys c] the class as a
    type hint. *)
From Verif Require Import PyBaseFacts RegistrySpec RegistryProofs EngineFacts EngineEnv CallModel CallSpec CallProofs
  SerializableModel SerializableSpec SerializableProofs SerializableLaws LoadFacts JsonTextProofs RoundTripSpec RoundTripProofs RoundTripLaws JsonTextSpec JsonTextLaws
  PropRoundTrip PropJsonText.
Local Close Scope Z_scope.
Local Open Scope string_scope.

(** Example: class 1 is JsonSerializable, 2 a subclass of it, 3 a subclass of 2, 4 another
    subclass of 1. *)
Definition family : list jop := [JReg (OSubclass 1); JReg (OSubclass 2); JReg (OSubclass 1)].
Definition upper (v : value) : res value :=
  match v with VStr "name" => Ok (VStr "NAME") | VStr "NAME" => Ok (VStr "name") | _ => Ok v end.
Definition set_case : kwargs := [("key_transformer", AFun upper)].
Definition persons (c : nat) : ty := TClass 1.
Definition exW : world := mkWorld (fun c => nth c ["m.A"; "m.B"; "m.Person"] "?") (fun a b => Nat.eqb a b) (fun _ => None).

(** class Person(JsonSerializable): name: str, age: int = 0, with all that it inherits *)
Definition js_members : list (string * member) :=
  map (fun a => (a, if String.eqb a "json" then MProp else if prefix "_" a then MVar VNone else MCallable))
      json_serializable_names.
Definition js_ct : classes := fun c =>
  if Nat.eqb c 1
  then mkCinfo "m" "Person" CkObj [TClass 6; TClass 5]
         [mkParam "name" (Some (TPrim PStr)) None false; mkParam "age" (Some (TPrim PInt)) (Some (VInt 0)) false]
         [] None js_members (fun _ _ => raise KAttribute)
         (init_of [mkParam "name" (Some (TPrim PStr)) None false; mkParam "age" (Some (TPrim PInt)) (Some (VInt 0)) false])
         (fun a x attrs => Ok (sset a x attrs)) false true
  else demo_ct c.
Definition js_env : env := std_env js_ct demo_rt.
Lemma js_person_typed g name age : has_type js_env g sopts0 (TClass 1) (VObj 1 [("name", VStr name); ("age", VInt age)]).
Proof.
  apply ht_object; [|reflexivity| |exact I].
  - constructor.
    + reflexivity.
    + split; [exact (demo_fresh 1)|]. intros t [<-|[<-|[]]]; eexists; reflexivity.
    + reflexivity.
    + intros a. unfold sget. intros H. cbn [js_env std_env e_ct js_ct Nat.eqb ci_members js_members json_serializable_names map] in H.
      repeat (cbn [aget] in H; match type of H with context [String.eqb ?x ?y] => destruct (String.eqb x y); [discriminate H|] end).
      discriminate H.
    + repeat constructor; cbn; intuition discriminate.
    + intros args H. destruct args as [|[a x] [|[b y] [|z args]]]; try discriminate H.
      injection H as -> ->. apply init_record; (discriminate || reflexivity).
    + intros a Ha HV. exfalso. destruct HV as (_ & _ & _ & _ & _ & _ & HV & _). apply HV.
      change (In a (map fst js_members)) in Ha. unfold js_members in Ha. rewrite map_map, map_id in Ha. exact Ha.
    + intros p Hp.
      assert (Hv : forall a, prefix "__" a = false -> ~ In a abc_names -> ~ In a json_serializable_names ->
                sget a js_members = None -> visible js_members sopts0 [] a).
      { intros a H1 H2 H3 H4. repeat split; auto; try discriminate; rewrite H4; discriminate. }
      destruct Hp as [<-|[<-|[]]]; (split; [apply Hv; (reflexivity || (cbn; intuition discriminate))|]);
        (split; [reflexivity|]); (split; [discriminate|]); (split; [reflexivity|]); eexists;
        (split; [reflexivity|]); (split; [intros (t' & Eq & _ & _ & Ho); injection Eq as <-; apply LoadFacts.union_like_occurs in Ho; discriminate|]); now left.
  - intros p t x [H|[H|[]]] Ht; injection H as <- <-; injection Ht as <-; apply ht_prim; (reflexivity || exact I).
Qed.

Lemma exact_sopts0 : exact_dump sopts0.
Proof. repeat split. Qed.

(** ** C53: the methods are the functions, with the class as fork *)
Theorem C53_json : forall W E n ops c v, js_class ops c -> dump_setting ops c = None ->
  m_json E n (jrun W ops) c v = dump E c n sopts0 None v.
Proof. exact method_json. Qed.
Theorem C53_from_json : forall W E n tys ops c j, js_class ops c -> load_setting ops c = None ->
  m_from_json E n tys (jrun W ops) c j [] = load E n c lopts0 (Some (tys c)) j.
Proof. exact method_load_plain. Qed.
Theorem C53_str : forall E T n c v, m_str E T n c v = dumps E T c n sopts0 None v.
Proof. exact method_str. Qed.
(** With keyword arguments. *)
Theorem C53_dump : forall W E n ops c v kw, js_class ops c -> dump_setting ops c = None ->
  not_named "self" kw -> not_named "fork_inst" kw ->
  m_dump E n (jrun W ops) c v kw = call_dump E n [AVal v] (("fork_inst", AFork c) :: kw).
Proof. exact method_dump. Qed.
Theorem C53_load : forall W E n tys ops c j kw, js_class ops c -> load_setting ops c = None ->
  not_named "cls" kw -> not_named "json_obj" kw -> not_named "fork_inst" kw ->
  m_load E n tys (jrun W ops) c j kw = call_load E n [AVal j; AType (tys c)] (("fork_inst", AFork c) :: kw) /\
  m_from_json E n tys (jrun W ops) c j kw = m_load E n tys (jrun W ops) c j kw.
Proof. intros. split; [now apply method_load|now apply method_from_json]. Qed.
Theorem C53_texts : forall E T n c v kw, not_named "self" kw -> not_named "fork_inst" kw ->
  m_dumps E T n c v kw = call_dumps E T n [AVal v] (("fork_inst", AFork c) :: kw) /\
  m_dumpb E T n c v kw = call_dumpb E T n [AVal v] (("fork_inst", AFork c) :: kw).
Proof. intros. split; [now apply method_dumps|now apply method_dumpb]. Qed.
Theorem C53_from_texts : forall E T n tys c x kw, not_named "cls" kw -> not_named "json_obj" kw -> not_named "fork_inst" kw ->
  m_loads E T n tys c x kw = call_loads E T n [x; AType (tys c)] (("fork_inst", AFork c) :: kw) /\
  m_loadb E T n tys c x kw = call_loadb E T n [x; AType (tys c)] (("fork_inst", AFork c) :: kw).
Proof. intros. split; [now apply method_loads|now apply method_loadb]. Qed.
(** Another fork cannot be asked for. *)
Theorem C53_no_other_fork : forall W E n tys ops c v j kw, js_class ops c -> dump_setting ops c = None ->
  load_setting ops c = None -> In "fork_inst" (map fst kw) ->
  m_dump E n (jrun W ops) c v kw = fail (exn_of KType) /\
  m_load E n tys (jrun W ops) c j kw = fail (exn_of KType).
Proof. intros. split; [now apply method_dump_fork|now apply method_load_fork]. Qed.
(** Hence instances that are well-typed come back. *)
Theorem C53_round_trip : forall W E tys ops c v,
  js_class ops c -> dump_setting ops c = None -> load_setting ops c = None ->
  default_serializers E c -> default_deserializers E c -> has_type E c sopts0 (tys c) v ->
  exists j N, forall n m, N <= n -> N <= m ->
    snd (m_json E n (jrun W ops) c v) = Done j /\ snd (m_from_json E m tys (jrun W ops) c j []) = Done v.
Proof.
  intros W E tys ops c v Hc Hd Hl HS HD HT.
  destruct (roundtrip E c c sopts0 (tys c) v HS HD exact_sopts0 HT) as (j & N & _ & H).
  exists j, N. intros n m Hn Hm. rewrite method_json, method_load_plain by assumption.
  apply (H n m None lopts0 Hn Hm); [now left|exact exact_lopts0].
Qed.

Example C53_case :
  js_class family 3 /\ dump_setting family 3 = None /\ load_setting family 3 = None /\
  has_type js_env 3 sopts0 (persons 3) john /\
  snd (m_json js_env 5 (jrun exW family) 3 john) = Done john_doc /\
  snd (m_from_json js_env 5 persons (jrun exW family) 3 john_doc []) = Done john /\
  snd (m_str js_env demo_trt 5 3 john) = Done "{""age"": 30, ""name"": ""John""}" /\
  snd (m_loads js_env demo_trt 5 persons 3 (AVal (VStr john_text)) []) = Done john /\
  snd (m_dump js_env 5 (jrun exW family) 3 john [("fork_inst", AFork 0)]) = Fail (exn_of KType).
Proof.
  split; [reflexivity|]. split; [reflexivity|]. split; [reflexivity|]. split; [|vm_compute; repeat split].
  apply js_person_typed.
Qed.

(** ** C54: with_dump and with_load *)
(** dump and load, once arguments have been set: those arguments, and the ones of the call that
    are not among them.  [load] has the class as its fork; [dump] does not. *)
Theorem C54_dump : forall W E n ops c v kw0 kw kw', js_class ops c -> dump_setting ops c = Some kw0 ->
  distinct_names kw0 -> distinct_names kw -> distinct_names kw' -> not_named "inst" kw -> over kw0 kw kw' ->
  m_dump E n (jrun W ops) c v kw = call_dump E n [AVal v] kw'.
Proof. exact method_dump_set. Qed.
Theorem C54_load : forall W E n tys ops c j kw0 kw kw', js_class ops c -> load_setting ops c = Some kw0 ->
  distinct_names kw0 -> distinct_names kw -> distinct_names kw' -> not_named "inst" kw -> not_named "cls_" kw ->
  not_named "fork_inst" kw0 -> not_named "fork_inst" kw -> over kw0 kw kw' ->
  m_load E n tys (jrun W ops) c j kw = call_load E n [AVal j; AType (tys c)] (("fork_inst", AFork c) :: kw').
Proof. exact method_load_set. Qed.
(** p.with_dump with the arguments [kw]: [p] and the classes below it, unless something is set in between; ... *)
Theorem C54_with_dump : forall ops p kw c, js_class ops p -> accepted kw = true -> exists_in (reg_history ops) c ->
  js_derives ops c p ->
  (forall m, js_derives ops c m -> js_derives ops m p -> m <> p -> own_dump ops m = None) ->
  dump_setting (ops ++ [JWithDump p false kw]) c = Some kw.
Proof. exact with_dump_below. Qed.
Theorem C54_with_load : forall ops p kw c, js_class ops p -> accepted kw = true -> exists_in (reg_history ops) c ->
  js_derives ops c p ->
  (forall m, js_derives ops c m -> js_derives ops m p -> m <> p -> own_load ops m = None) ->
  load_setting (ops ++ [JWithLoad p false kw]) c = Some kw.
Proof. exact with_load_below. Qed.
(** ... no other class, ... *)
Theorem C54_with_dump_others : forall ops p kw c, js_class ops p -> accepted kw = true -> exists_in (reg_history ops) c ->
  ~ js_derives ops c p ->
  dump_setting (ops ++ [JWithDump p false kw]) c = dump_setting ops c.
Proof. exact with_dump_others. Qed.
Theorem C54_with_load_others : forall ops p kw c, js_class ops p -> accepted kw = true -> exists_in (reg_history ops) c ->
  ~ js_derives ops c p ->
  load_setting (ops ++ [JWithLoad p false kw]) c = load_setting ops c.
Proof. exact with_load_others. Qed.
(** ... and only that method. *)
Theorem C54_other_method : forall ops p fork kw c, js_class ops p -> accepted kw = true -> exists_in (reg_history ops) c ->
  load_setting (ops ++ [JWithDump p fork kw]) c = load_setting ops c /\
  dump_setting (ops ++ [JWithLoad p fork kw]) c = dump_setting ops c.
Proof.
  intros ops p fork kw c H1 H2 H3. split; [exact (with_other_kind true ops p fork kw c H1 H2 H3)|exact (with_other_kind false ops p fork kw c H1 H2 H3)].
Qed.
(** With fork=True no existing class is affected, and the class that is returned has the
    arguments. *)
Theorem C54_fork_leaves_existing : forall ops p kw c, js_class ops p -> accepted kw = true -> exists_in (reg_history ops) c ->
  (dump_setting (ops ++ [JWithDump p true kw]) c = dump_setting ops c /\
   load_setting (ops ++ [JWithDump p true kw]) c = load_setting ops c) /\
  (dump_setting (ops ++ [JWithLoad p true kw]) c = dump_setting ops c /\
   load_setting (ops ++ [JWithLoad p true kw]) c = load_setting ops c).
Proof. intros ops p kw c H1 H2 H3. split; [exact (with_fork_old true ops p kw c H1 H2 H3)|exact (with_fork_old false ops p kw c H1 H2 H3)]. Qed.
Theorem C54_fork_dump : forall ops p kw, js_class ops p -> accepted kw = true ->
  let ops' := (ops ++ [JWithDump p true kw])%list in
  js_class ops' (new_class ops) /\ dump_setting ops' (new_class ops) = Some kw /\
  load_setting ops' (new_class ops) = load_setting ops p.
Proof. exact with_dump_new. Qed.
Theorem C54_fork_load : forall ops p kw, js_class ops p -> accepted kw = true ->
  let ops' := (ops ++ [JWithLoad p true kw])%list in
  js_class ops' (new_class ops) /\ load_setting ops' (new_class ops) = Some kw /\
  dump_setting ops' (new_class ops) = dump_setting ops p.
Proof. exact with_load_new. Qed.
(** Classes made later start with what is set for their base; all other calls leave the settings
    as they are. *)
Theorem C54_inherited : forall ops p mk, js_class ops p -> mk = OFork p \/ mk = OSubclass p ->
  let ops' := (ops ++ [JReg mk])%list in
  js_class ops' (new_class ops) /\ dump_setting ops' (new_class ops) = dump_setting ops p /\
  load_setting ops' (new_class ops) = load_setting ops p.
Proof. exact subclass_settings. Qed.
Theorem C54_kept : forall ops o c, sets_nothing o -> exists_in (reg_history ops) c ->
  dump_setting (ops ++ [o]) c = dump_setting ops c /\ load_setting (ops ++ [o]) c = load_setting ops c.
Proof. exact settings_kept. Qed.
(** An argument named cls cannot be set: a TypeError, and nothing changes. *)
Theorem C54_cls_refused : forall W ops p fork kw, js_class ops p -> accepted kw = false ->
  jstep W (jrun W ops) (JWithDump p fork kw) = (jrun W ops, raise KType) /\
  jstep W (jrun W ops) (JWithLoad p fork kw) = (jrun W ops, raise KType).
Proof. intros W ops p fork kw H1 H2. split; [exact (with_refused W true ops p fork kw H1 H2)|exact (with_refused W false ops p fork kw H1 H2)]. Qed.
(** The class that is returned. *)
Theorem C54_result : forall W ops o t, snd (jstep W (jrun W ops) o) = Ok t ->
  match o with
  | JReg _ => True
  | JWithDump p fork _ | JWithLoad p fork _ | JSet _ p _ _ fork _ => t = if fork then new_class ops else p
  end.
Proof. exact js_result. Qed.

(** Example: JsonSerializable.with_dump(key_transformer=...), and then the classes below. *)
Definition family_set : list jop := (family ++ [JWithDump 2 false set_case])%list.
Example C54_case :
  js_class family 2 /\ accepted set_case = true /\ js_derives family 3 2 /\ ~ js_derives family 4 2 /\
  dump_setting family_set 3 = Some set_case /\ dump_setting family_set 4 = None /\
  over set_case [("strip_attr", AAttrs (SAName "age"))] [("strip_attr", AAttrs (SAName "age")); ("key_transformer", AFun upper)] /\
  snd (m_json demo_env 5 (jrun exW family_set) 3 john) = Done (str_dict [("age", VInt 30); ("NAME", VStr "John")]) /\
  snd (m_json demo_env 5 (jrun exW family_set) 4 john) = Done john_doc /\
  snd (m_from_json demo_env 5 persons (jrun exW (family ++ [JWithLoad 1 true set_case])) 5
         (str_dict [("age", VInt 30); ("NAME", VStr "John")]) []) = Done john /\
  accepted [("cls", AType (TClass 1))] = false.
Proof.
  split; [reflexivity|]. split; [reflexivity|]. split; [reflexivity|]. split; [discriminate|]. split; [reflexivity|]. split; [reflexivity|].
  split; [|vm_compute; repeat split].
  intros k. unfold sget. cbn [aget set_case]. destruct (String.eqb_spec k "key_transformer") as [->|]; [reflexivity|].
  destruct (String.eqb_spec k "strip_attr"); reflexivity.
Qed.
(** JsonSerializable.with_dump(...) as in the documentation, without fork=True: every class that
    derives from JsonSerializable is affected, also those that exist already. *)
Theorem C54_documented_example_refuted : exists W E n ops c v kw,
  js_class ops c /\ c <> JS /\ accepted kw = true /\
  m_json E n (jrun W (ops ++ [JWithDump JS false kw])) c v <> m_json E n (jrun W ops) c v.
Proof.
  exists exW, demo_env, 5, family, 4, john, set_case. split; [reflexivity|]. split; [discriminate|]. split; [reflexivity|].
  vm_compute. discriminate.
Qed.
(** with_dump, with no arguments even, makes json ignore the serializers of the class. *)
Definition shout_env : env :=
  let E := demo_env in
  mkEnv (e_ct E) (e_rt E) (e_object E)
        (fun f t => if Nat.eqb f 2 && ty_eqb t (TClass 1) then Some (SCustom 0) else e_ser E f t)
        (e_deser E) (e_validator E) (e_warn E) (e_resolve E) (fun _ _ _ => Ok (VStr "JOHN")) (e_cdeser E).
Theorem C54_own_serializers_refuted : exists W E n ops c v,
  js_class ops c /\ dump_setting ops c = None /\
  snd (m_json E n (jrun W ops) c v) = Done (VStr "JOHN") /\
  snd (m_json E n (jrun W (ops ++ [JWithDump c false []])) c v) = Done john_doc.
Proof.
  exists exW, shout_env, 5, family, 2, john. split; [reflexivity|]. split; [reflexivity|]. vm_compute. split; reflexivity.
Qed.
(** str(v) is not the text of v.json, and loads is not from_json of the parsed text. *)
Theorem C54_texts_refuted : exists W E T n ops c v,
  js_class ops c /\ snd (m_json E n (jrun W ops) c v) = Done (str_dict [("age", VInt 30); ("NAME", VStr "John")]) /\
  snd (m_str E T n c v) = Done "{""age"": 30, ""name"": ""John""}".
Proof.
  exists exW, demo_env, demo_trt, 5, family_set, 3, john. split; [reflexivity|]. vm_compute. split; reflexivity.
Qed.
Theorem C54_loads_refuted : exists W E T n ops c s j v,
  js_class ops c /\ json_document T (codes s) j /\ snd (m_from_json E n persons (jrun W ops) c j []) = Done v /\
  forall w, snd (m_loads E T n persons c (AVal (VStr s)) []) <> Done w.
Proof.
  exists exW, demo_env, demo_trt, 5, (family ++ [JWithLoad 2 false set_case])%list, 3, "{""NAME"": ""John"", ""age"": 30}",
    (str_dict [("NAME", VStr "John"); ("age", VInt 30)]), john.
  split; [reflexivity|]. split; [apply JsonTextProofs.json_loads_iff; vm_compute; reflexivity|]. split; [vm_compute; reflexivity|].
  intros w. vm_compute. discriminate.
Qed.

(** ** C55: set_serializer and set_deserializer *)
(** The registries are those of the registry calls made (C14-C20). *)
Theorem C55_registries : forall W ops, js_heap (jrun W ops) = run W (reg_history ops).
Proof. exact js_registries. Qed.
(** p.set_serializer(g, a): for the named classes, [p] and every class of the same fork. *)
Theorem C55_set : forall W ops k p a hi g c d, js_class ops p -> k <> Val ->
  exists_in (reg_history ops) d -> same_fork (reg_history ops) d p ->
  In (slower (w_name W c)) (names_of W a) ->
  raw_get W k (js_heap (jrun W (ops ++ [JSet k p a hi false g]))) d c = Ok (Some g).
Proof. exact set_here. Qed.
(** p.set_serializer(g, a, fork=True): the class that is returned; no existing class. *)
Theorem C55_set_fork : forall W ops k p a hi g c, js_class ops p -> k <> Val ->
  In (slower (w_name W c)) (names_of W a) ->
  raw_get W k (js_heap (jrun W (ops ++ [JSet k p a hi true g]))) (new_class ops) c = Ok (Some g).
Proof. exact set_fork_new. Qed.
Theorem C55_set_fork_others : forall W ops k k' p a hi g c d, js_class ops p -> k <> Val -> k' <> Val ->
  exists_in (reg_history ops) d ->
  raw_get W k' (js_heap (jrun W (ops ++ [JSet k p a hi true g]))) d c = raw_get W k' (js_heap (jrun W ops)) d c.
Proof. exact set_fork_old. Qed.
(** with_dump and with_load register nothing. *)
Theorem C55_with_registers_nothing : forall W ops p fork kw k d c, js_class ops p -> accepted kw = true -> k <> Val ->
  exists_in (reg_history ops) d ->
  raw_get W k (js_heap (jrun W (ops ++ [JWithDump p fork kw]))) d c = raw_get W k (js_heap (jrun W ops)) d c /\
  raw_get W k (js_heap (jrun W (ops ++ [JWithLoad p fork kw]))) d c = raw_get W k (js_heap (jrun W ops)) d c.
Proof.
  intros. split; [now apply (with_registers_nothing W true)|now apply (with_registers_nothing W false)].
Qed.
(** A function registered on [p] is what v.json calls, if the environment [E] has the
    serializers of the registries. *)
Theorem C55_registered_is_called : forall W E hs tys ops n c d p hi v g i,
  js_class ops p -> js_class ops d -> same_fork (reg_history ops) d p -> dump_setting ops d = None ->
  shows_serializers W (js_heap (jrun W (ops ++ [JSet Ser p (ACls c) hi false g]))) E tys hs ->
  class_of v = tys c -> hs g = SCustom i ->
  forall r, snd (m_json E (S n) (jrun W (ops ++ [JSet Ser p (ACls c) hi false g])) d v) = Done r <-> e_cser E i None v = Ok r.
Proof.
  intros W E hs tys ops n c d p hi v g i Hp Hd HF Hs HE HC Hh. pose proof (js_exists _ _ Hd) as He.
  apply (json_registered W E hs tys _ n c d v g i); auto.
  - unfold js_class. rewrite j_run_snoc. cbn [j_step]. unfold js_class in Hp, Hd. rewrite Hp. cbn [kind_eqb negb andb j_forked j_target].
    unfold j_valid, j_exists, j_derives in *. cbn [j_regs]. rewrite a_run_snoc.
    destruct (a_step_sizes (a_run (j_regs (j_run ops))) (OSet Ser p (ACls c) hi g)) as [-> ->]. exact Hd.
  - now rewrite (proj1 (settings_kept ops (JSet Ser p (ACls c) hi false g) d I He)).
  - apply set_here; auto; [discriminate|]. now left.
Qed.
(** Without fork=True the registration is made in the fork that [p] belongs to: for a plain
    subclass of JsonSerializable that is the default one, which jsons.dump uses for all
    objects. *)
Theorem C55_global_refuted : exists W ops p c g,
  js_class ops p /\ p <> JS /\ ~ js_derives ops 0 p /\
  raw_get W Ser (js_heap (jrun W ops)) 0 c = Ok None /\
  raw_get W Ser (js_heap (jrun W (ops ++ [JSet Ser p (ACls c) true false g]))) 0 c = Ok (Some g).
Proof.
  exists exW, family, 2, 1, 9. split; [reflexivity|]. split; [discriminate|]. split; [discriminate|]. vm_compute. split; reflexivity.
Qed.
Example C55_case :
  js_class family 2 /\ same_fork (reg_history family) 3 2 /\ In (slower (w_name exW 1)) (names_of exW (ACls 1)) /\
  raw_get exW Ser (js_heap (jrun exW (family ++ [JSet Ser 2 (ACls 1) true true 9]))) 5 1 = Ok (Some 9) /\
  raw_get exW Ser (js_heap (jrun exW (family ++ [JSet Ser 2 (ACls 1) true true 9]))) 2 1 = Ok None /\
  raw_get exW Ser (js_heap (jrun exW (family ++ [JSet Ser 2 (ACls 1) true false 9]))) 0 1 = Ok (Some 9) /\
  snd (m_json shout_env 5 (jrun exW family) 2 john) = Done (VStr "JOHN").
Proof. vm_compute. repeat split; auto. Qed.
Print Assumptions C53_json.
Print Assumptions C53_from_json.
Print Assumptions C53_str.
Print Assumptions C53_dump.
Print Assumptions C53_load.
Print Assumptions C53_texts.
Print Assumptions C53_from_texts.
Print Assumptions C53_no_other_fork.
Print Assumptions C53_round_trip.
Print Assumptions C54_dump.
Print Assumptions C54_load.
Print Assumptions C54_with_dump.
Print Assumptions C54_with_load.
Print Assumptions C54_with_dump_others.
Print Assumptions C54_with_load_others.
Print Assumptions C54_other_method.
Print Assumptions C54_fork_leaves_existing.
Print Assumptions C54_fork_dump.
Print Assumptions C54_fork_load.
Print Assumptions C54_inherited.
Print Assumptions C54_kept.
Print Assumptions C54_cls_refused.
Print Assumptions C54_result.
Print Assumptions C54_documented_example_refuted.
Print Assumptions C54_own_serializers_refuted.
Print Assumptions C54_texts_refuted.
Print Assumptions C54_loads_refuted.
Print Assumptions C55_registries.
Print Assumptions C55_set.
Print Assumptions C55_set_fork.
Print Assumptions C55_set_fork_others.
Print Assumptions C55_with_registers_nothing.
Print Assumptions C55_registered_is_called.
Print Assumptions C55_global_refuted.
