(** * C60: names of classes in documents

    Statements about get_cls_from_str and the announcements of dump.  Proofs are in
    ResolveProofs.v. *)
From Verif Require Import EngineEnv EngineFacts DumpSpec VerboseProofs ResolveProofs PropVerbose.
Local Close Scope Z_scope.
Local Open Scope string_scope.

(** ** What a name stands for *)
(** A builtin of that name; or else what can be imported; or else what was announced.  For every
    name without brackets, everything that can be imported, and everything announced. *)
Theorem C60_names : forall P table s r, bracketed s = false ->
  get_cls_from_str P table s = r <-> denotes P table s r.
Proof. exact plain_denotes. Qed.
(** 'A[B, C]' is A of B and C, whatever names A, B and C are. *)
Theorem C60_generic_names : forall P table a ws t, py_builtin P (a ++ "[" ++ sjoin "," ws ++ "]") = None ->
  smem "[" a = false -> ws <> [] -> (forall w, In w ws -> smem "[" w = false /\ smem "," w = false) ->
  get_cls_from_str P table (a ++ "[" ++ sjoin "," ws ++ "]") = Ok t <->
  exists u us, get_cls_from_str P table a = Ok u /\
    Forall2 (fun w x => get_cls_from_str P table (sstrip is_space w) = Ok x) ws us /\ py_index P u us = Ok t.
Proof. exact generic_names. Qed.
(** Brackets within brackets are always a ValueError, which is no JsonsError. *)
Theorem C60_nested_brackets_refuted : forall P table a b c, py_builtin P (a ++ "[" ++ b ++ "[" ++ c) = None ->
  smem "]" (a ++ "[" ++ b ++ "[" ++ c) = true ->
  get_cls_from_str P table (a ++ "[" ++ b ++ "[" ++ c) = raise KValue.
Proof. exact nested_brackets. Qed.
(** The code calls itself for the parts of 'A[B, C]': the model satisfies this equation. *)
Theorem C60_recursive : forall P table s,
  get_cls_from_str P table s = cls_step P table (get_cls_from_str P table) s.
Proof. exact get_cls_unfold. Qed.

(** ** The name under which a class is dumped *)
(** If the class can be imported under the name, the name stands for it, whatever was announced.
    If not, it stands for what was announced under the name; or it is an UnknownClassError. *)
Theorem C60_class_names : forall P CT c table, plain_name (CT c) -> py_builtin P (ci_name (CT c)) = None ->
  (importable P CT c -> get_cls_from_str P table (ci_name (CT c)) = Ok (TClass c)) /\
  (unimportable P CT c -> get_cls_from_str P table (ci_name (CT c)) =
     match sget (ci_name (CT c)) table with Some t => Ok t | None => raise KUnknownClass end).
Proof.
  intros P CT c table H1 H2. split; intros H; [now apply importable_name|].
  destruct (sget (ci_name (CT c)) table) as [t|] eqn:Ht; [now apply announced_name|now apply unannounced_name].
Qed.

(** ** Announcements *)
(** What dump announces are types of the program, for its own fork. *)
Theorem C60_announced_types : forall E f T, program E T -> forall n o cls v f' t, given T o cls ->
  In (EvAnnounce f' t) (fst (dump E f n o cls v)) -> f' = f /\ T t.
Proof. exact announced_types. Qed.
(** After a verbose dump of a tree of objects, the names of their classes are announced, if
    nothing else has these names and attributes are not annotated with other classes. *)
Theorem C60_dump_announces : forall E f g o, default_serializers E f -> default_deserializers E g ->
  dictless_defaults (e_ct E) -> near_exact o -> so_class_info o = true ->
  forall T v st, program E T -> (forall k t, In (k, t) (so_types o) -> T t) -> tree E g o v -> own_hints (e_ct E) v ->
  exists N, forall n dcls st' c, N <= n -> dcls = None \/ dcls = Some (class_of v) ->
    announcements (e_ct E) st (fst (dump E f n o dcls v)) st' ->
    within v c -> own_name (e_ct E) T c -> undisputed (e_ct E) st c ->
    sget (ci_name (e_ct E c)) (na_table st') = Some (TClass c).
Proof. intros E f g o H1 H2 H3 H4 H5. now apply dump_announces. Qed.
(** How names are looked up does not matter to dump. *)
Theorem C60_dump_needs_no_names : forall E P table f n o cls v,
  dump (with_names E P table) f n o cls v = dump E f n o cls v.
Proof. exact dump_names. Qed.

(** ** Round trips *)
(** In the process that dumped it, a verbose dump can be loaded again even if the classes cannot
    be imported, as classes within functions cannot. *)
Theorem C60_same_process : forall E f g o P, default_serializers E f -> default_deserializers E g ->
  dictless_defaults (e_ct E) -> near_exact o -> so_class_info o = true -> so_store_cls o = false ->
  forall T v st, program E T -> (forall k t, In (k, t) (so_types o) -> T t) ->
  tree E g o v -> no_clash v -> own_hints (e_ct E) v ->
  (forall c, within v c -> plain_name (e_ct E c) /\ py_builtin P (ci_name (e_ct E c)) = None /\
     (importable P (e_ct E) c \/
      (unimportable P (e_ct E) c /\ own_name (e_ct E) T c /\ undisputed (e_ct E) st c))) ->
  exists j N, forall n dcls st', N <= n -> dcls = None \/ dcls = Some (class_of v) ->
    announcements (e_ct E) st (fst (dump E f n o dcls v)) st' ->
    snd (dump E f n o dcls v) = Done j /\
    exists M, forall m lo lcls, M <= m -> exact_load lo -> lo_hints lo = None ->
      lcls = None \/ lcls = Some (class_of v) ->
      snd (load (with_names E P (na_table st')) m g lo lcls j) = Done v.
Proof. exact same_process. Qed.
(** In another process it can be loaded if the classes can be imported under their names,
    whatever is announced there. *)
Theorem C60_other_process : forall E f g o P, default_serializers E f -> default_deserializers E g ->
  dictless_defaults (e_ct E) -> near_exact o -> so_class_info o = true -> so_store_cls o = false ->
  forall v, tree E g o v -> no_clash v ->
  (forall c, within v c -> plain_name (e_ct E c) /\ py_builtin P (ci_name (e_ct E c)) = None /\ importable P (e_ct E) c) ->
  exists j N, (forall n dcls, N <= n -> object_cls (e_ct E) dcls -> snd (dump E f n o dcls v) = Done j) /\
  forall table, exists M, forall m lo lcls, M <= m -> exact_load lo -> lo_hints lo = None ->
    lcls = None \/ lcls = Some (class_of v) -> snd (load (with_names E P table) m g lo lcls j) = Done v.
Proof. exact other_process. Qed.

(** ** Examples *)
(** int, str and list are builtins; typing can be imported, and so can m. *)
Definition my_python (attrs : string -> option ty) : python :=
  mkPython (fun s => sget s [("int", TPrim PInt); ("str", TPrim PStr); ("list", TApp false HList [])])
           (fun m => if String.eqb m "typing"
                     then Module (fun n => sget n [("List", TApp true HList []); ("Dict", TApp true HDict [])])
                     else if String.eqb m "m" then Module attrs
                     else if String.eqb m "bad" then Broken (exn_of KZeroDiv) else NoModule)
           (fun t ts => match t, ts with
                        | TApp b HList [], [u] => Ok (TApp b HList [u])
                        | TApp b HDict [], [k; u] => Ok (TApp b HDict [k; u])
                        | _, _ => raise KType
                        end).
Definition local_python : python := my_python (fun _ => None).
Definition firm_module : string -> option ty := fun n =>
  match find (fun c => String.eqb n (ci_simple (firm_ct c))) [1; 2; 3; 4; 5; 6; 7] with
  | Some c => Some (TClass c)
  | None => None
  end.
Definition module_python : python := my_python firm_module.
Example C60_ex_names :
  get_cls_from_str module_python [("m.Person", TClass 9)] "m.Person" = Ok (TClass 1) /\
  get_cls_from_str local_python [("m.Person", TClass 9)] "m.Person" = Ok (TClass 9) /\
  get_cls_from_str local_python [] "m.Person" = raise KUnknownClass /\
  get_cls_from_str local_python [("list", TClass 9)] "list" = Ok (TApp false HList []) /\
  get_cls_from_str local_python [("x", TClass 9)] "x" = Ok (TClass 9) /\
  get_cls_from_str local_python [] "bad.x" = raise KZeroDiv /\
  get_cls_from_str local_python [] "..x" = raise KType /\
  get_cls_from_str module_python [] "typing.Dict[str, m.Team]" = Ok (TApp true HDict [TPrim PStr; TClass 3]) /\
  get_cls_from_str module_python [] "typing.List[typing.List[int]]" = raise KValue.
Proof. repeat split; reflexivity. Qed.
(** The firm of C47 *)
Fixpoint nt_free (t : ty) : bool :=
  match t with
  | TApp _ _ l | TUnion l => forallb nt_free l
  | TNewType _ _ _ | TFwd _ => false
  | _ => true
  end.
Definition firm_type (t : ty) : Prop := nt_free t = true.
Example C60_ex_program : program firm_env firm_type.
Proof.
  assert (Hv : forall v, firm_type (class_of v)).
  { intros v. destruct v as [| | | | | | |k|k| | | |]; try destruct k; reflexivity. }
  constructor.
  - exact Hv.
  - exact Hv.
  - intros c a t. do 8 (destruct c as [|c]; [intros []|]). intros [].
  - intros b h ts u H Hin. unfold firm_type in *. cbn [nt_free] in H. rewrite forallb_forall in H. now apply H.
  - intros ts u H Hin. unfold firm_type in *. cbn [nt_free] in H. rewrite forallb_forall in H. now apply H.
Qed.
Lemma within_firm c : within firm c -> c = 1 \/ c = 2 \/ c = 3 \/ c = 4.
Proof.
  intros (p & attrs & H). apply firm_parts in H as [[_ H]|[[_ H]|[[_ H]|[_ H]]]]; injection H as -> _; auto.
Qed.
Lemma firm_own_name c : c = 1 \/ c = 2 \/ c = 3 \/ c = 4 -> own_name firm_ct firm_type c.
Proof.
  intros Hc t Ht H.
  assert (G : forall s, s = ci_name (firm_ct c) -> s = "m.Person" \/ s = "m.Manager" \/ s = "m.Team" \/ s = "m.Firm").
  { intros s ->. destruct Hc as [-> |[-> |[-> | ->]]]; cbn; tauto. }
  apply G in H as G'. clear G.
  destruct t as [p| | | |b h l|l| | | | |k|c'| | |]; try (exfalso; cbn in G'; intuition discriminate).
  - exfalso. destruct p; cbn in G'; intuition discriminate.
  - exfalso. destruct b, h; cbn in G'; intuition discriminate.
  - exfalso. cbn [class_name] in G'. destruct (is_optional l); intuition discriminate.
  - exfalso. destruct k; cbn in G'; intuition discriminate.
  - f_equal. clear G'. destruct Hc as [-> |[-> |[-> | ->]]];
      do 8 (destruct c' as [|c']; [try reflexivity; discriminate H|]); discriminate H.
Qed.
Example C60_ex_own_hints : own_hints firm_ct firm.
Proof.
  intros p c attrs a c' attrs' _ _. left. do 8 (destruct c as [|c]; [reflexivity|]). reflexivity.
Qed.
Example C60_ex_local : forall c, within firm c ->
  plain_name (firm_ct c) /\ py_builtin local_python (ci_name (firm_ct c)) = None /\
  (importable local_python firm_ct c \/
   (unimportable local_python firm_ct c /\ own_name firm_ct firm_type c /\ undisputed firm_ct (mkNames [] []) c)).
Proof.
  intros c Hc. apply within_firm in Hc. split; [|split; [|right; split; [|split]]].
  - destruct Hc as [-> |[-> |[-> | ->]]]; split; reflexivity.
  - destruct Hc as [-> |[-> |[-> | ->]]]; reflexivity.
  - apply ms_attribute with (fun _ => None).
    + destruct Hc as [-> |[-> |[-> | ->]]]; (split; [discriminate|intros r; discriminate]).
    + destruct Hc as [-> |[-> |[-> | ->]]]; reflexivity.
    + reflexivity.
  - now apply firm_own_name.
  - intros f [].
Qed.
Example C60_ex_module : forall c, within firm c ->
  plain_name (firm_ct c) /\ py_builtin module_python (ci_name (firm_ct c)) = None /\ importable module_python firm_ct c.
Proof.
  intros c Hc. apply within_firm in Hc. split; [|split; [|split]].
  - destruct Hc as [-> |[-> |[-> | ->]]]; split; reflexivity.
  - destruct Hc as [-> |[-> |[-> | ->]]]; reflexivity.
  - destruct Hc as [-> |[-> |[-> | ->]]]; (split; [discriminate|intros r; discriminate]).
  - exists firm_module. destruct Hc as [-> |[-> |[-> | ->]]]; split; reflexivity.
Qed.
Definition after (st : names) (evs : list ev) : names :=
  fold_left (fun st e => match e with EvAnnounce f t => announce firm_ct st f t | _ => st end) evs st.
Example C60_ex_same_process :
  snd (dump firm_env 0 9 verbose None firm) = Done firm_doc /\
  snd (load (with_names firm_env local_python (na_table (after (mkNames [] []) (fst (dump firm_env 0 9 verbose None firm)))))
            9 0 lopts0 None firm_doc) = Done firm /\
  snd (load (with_names firm_env local_python []) 9 0 lopts0 None firm_doc) = Fail (exn_of KUnknownClass) /\
  snd (load (with_names firm_env module_python []) 9 0 lopts0 None firm_doc) = Done firm.
Proof. split; [|split; [|split]]; vm_compute; reflexivity. Qed.

(** ** Where it goes wrong *)
(** class Animal;  class Dog(Animal): name;  class Zoo: pet: Animal;  and two classes Cat *)
Definition zoo_ct : classes := fun c =>
  match c with
  | 1 => record_class "m" "Animal" []
  | 2 => record_class "m" "Dog" [mkParam "name" (Some (TPrim PStr)) None false]
  | 3 => mkCinfo "m" "Zoo" CkObj [] [mkParam "pet" (Some (TClass 1)) None false] [("pet", TClass 1)] None []
                 (fun _ _ => raise KAttribute) (init_of [mkParam "pet" (Some (TClass 1)) None false])
                 (fun a x attrs => Ok (sset a x attrs)) false true
  | 4 => record_class "m" "Cat" [mkParam "name" (Some (TPrim PStr)) None false]
  | 5 => record_class "m" "Cat" [mkParam "name" (Some (TPrim PStr)) None false]
  | _ => record_class "m" "object" []
  end.
Definition zoo_env : env := std_env zoo_ct demo_rt.
Definition zoo_after (st : names) (v : value) : names :=
  fold_left (fun st e => match e with EvAnnounce f t => announce zoo_ct st f t | _ => st end)
            (fst (dump zoo_env 0 9 verbose None v)) st.
Lemma zoo_announcements st v : announcements zoo_ct st (fst (dump zoo_env 0 9 verbose None v)) (zoo_after st v).
Proof.
  unfold zoo_after. generalize (fst (dump zoo_env 0 9 verbose None v)) st. clear.
  induction l as [|e l IH]; intros st; [constructor|]. cbn [fold_left].
  destruct e; try (apply an_other; [discriminate|apply IH]). apply an_call. apply IH.
Qed.
(** The class of an object in an attribute that is annotated with a base class is written into
    the document but not announced: if it cannot be imported, loading in the same process fails. *)
Theorem C60_base_class_refuted : exists E P v st' j,
  own_name (e_ct E) (fun t => exists v, t = class_of v) 2 /\
  snd (dump E 0 9 verbose None v) = Done j /\ announcements (e_ct E) (mkNames [] []) (fst (dump E 0 9 verbose None v)) st' /\
  part v ["pet"] (VObj 2 [("name", VStr "Rex")]) /\ attr_hint (e_ct E 3) "pet" = Some (TClass 1) /\
  snd (load (with_names E P (na_table st')) 9 0 lopts0 None j) = Fail (exn_of KUnknownClass).
Proof.
  exists zoo_env, local_python, (VObj 3 [("pet", VObj 2 [("name", VStr "Rex")])]), (zoo_after (mkNames [] []) (VObj 3 [("pet", VObj 2 [("name", VStr "Rex")])])).
  eexists. split; [|split; [vm_compute; reflexivity|split; [apply zoo_announcements|split; [|split; [reflexivity|]]]]].
  - intros t (v & ->) H. destruct v as [| | | | | | |k|k|x|c|c|c]; try discriminate H; try (destruct k; discriminate H); try (destruct x; discriminate H);
      do 6 (destruct c as [|c]; [try reflexivity; discriminate H|]); discriminate H.
  - apply part_attr with (VObj 2 [("name", VStr "Rex")]); [now left|constructor].
  - vm_compute. reflexivity.
Qed.
(** Of two classes with the same name, the one that can be imported is always taken, even right
    after a dump of the other one, such as a class of the same name within another class. *)
Theorem C60_nested_class_refuted : exists E P v w st' j,
  snd (dump E 0 9 verbose None v) = Done j /\ announcements (e_ct E) (mkNames [] []) (fst (dump E 0 9 verbose None v)) st' /\
  snd (load (with_names E P (na_table st')) 9 0 lopts0 None j) = Done w /\
  class_of v = TClass 4 /\ class_of w = TClass 5.
Proof.
  exists zoo_env, (my_python (fun n => if String.eqb n "Cat" then Some (TClass 5) else None)),
    (VObj 4 [("name", VStr "Tom")]), (VObj 5 [("name", VStr "Tom")]), (zoo_after (mkNames [] []) (VObj 4 [("name", VStr "Tom")])).
  eexists. split; [vm_compute; reflexivity|]. split; [apply zoo_announcements|]. split; [vm_compute; reflexivity|]. split; reflexivity.
Qed.
(** Of two that cannot, it is the one dumped last. *)
Theorem C60_last_dumped_refuted : exists E P v w u st' st'' j,
  snd (dump E 0 9 verbose None v) = Done j /\
  announcements (e_ct E) (mkNames [] []) (fst (dump E 0 9 verbose None v)) st' /\
  snd (load (with_names E P (na_table st')) 9 0 lopts0 None j) = Done v /\
  announcements (e_ct E) (mkNames [] (na_table st')) (fst (dump E 0 9 verbose None u)) st'' /\
  snd (load (with_names E P (na_table st'')) 9 0 lopts0 None j) = Done w /\
  class_of v = TClass 4 /\ class_of w = TClass 5.
Proof.
  exists zoo_env, local_python, (VObj 4 [("name", VStr "Tom")]), (VObj 5 [("name", VStr "Tom")]), (VObj 5 [("name", VStr "Kit")]),
    (zoo_after (mkNames [] []) (VObj 4 [("name", VStr "Tom")])),
    (zoo_after (mkNames [] (na_table (zoo_after (mkNames [] []) (VObj 4 [("name", VStr "Tom")])))) (VObj 5 [("name", VStr "Kit")])).
  eexists. split; [vm_compute; reflexivity|]. split; [apply zoo_announcements|]. split; [vm_compute; reflexivity|].
  split; [apply zoo_announcements|]. split; [vm_compute; reflexivity|]. split; reflexivity.
Qed.
(** A document decides which module is imported; a relative name is a TypeError, and what the
    code of the module raises is passed on, neither being a JsonsError. *)
Theorem C60_errors_refuted : exists E P j k e e',
  snd (load (with_names E P []) 9 0 lopts0 None j) = Fail e /\ is_jsons (e_kind e) = false /\
  snd (load (with_names E P []) 9 0 lopts0 None k) = Fail e' /\ e_kind e' = KZeroDiv /\
  j = str_dict [("-meta", str_dict [("classes", str_dict [("/", VStr "..x")])])] /\
  k = str_dict [("-meta", str_dict [("classes", str_dict [("/", VStr "bad.x")])])].
Proof.
  exists zoo_env, local_python. do 4 eexists. split; [|split; [|split; [|split; [|split; reflexivity]]]]; cbn; try reflexivity.
Qed.

Print Assumptions C60_names.
Print Assumptions C60_generic_names.
Print Assumptions C60_nested_brackets_refuted.
Print Assumptions C60_recursive.
Print Assumptions C60_class_names.
Print Assumptions C60_announced_types.
Print Assumptions C60_dump_announces.
Print Assumptions C60_dump_needs_no_names.
Print Assumptions C60_same_process.
Print Assumptions C60_other_process.
Print Assumptions C60_base_class_refuted.
Print Assumptions C60_nested_class_refuted.
Print Assumptions C60_last_dumped_refuted.
Print Assumptions C60_errors_refuted.
