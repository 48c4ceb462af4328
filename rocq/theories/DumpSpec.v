(** * What the properties of dump are stated with *)
From Verif Require Export EngineEnv.
Local Open Scope string_scope.

(** ** JSON values *)
(** isinstance(v, (str, int, float, bool)), or None *)
Definition json_scalar (CT : classes) (v : value) : Prop :=
  v = VNone \/ exists p, naked_sub CT (class_of v) (TPrim p) = true.
(** Lists of JSON values and dicts from scalars to JSON values, to any depth. *)
Inductive json (CT : classes) : value -> Prop :=
| json_atom v : json_scalar CT v -> json CT v
| json_list l : (forall x, In x l -> json CT x) -> json CT (VList l)
| json_dict k d : (forall a b, In (a, b) d -> json_scalar CT a /\ json CT b) ->
                  json CT (VDict k d).

(** ** What a dump visits *)
(** x[0:1], which typish is asked about in strict mode *)
Inductive slice1 : value -> value -> Prop :=
| slice_list x l : slice1 (VList (x :: l)) (VList [x])
| slice_tuple x l : slice1 (VTuple (x :: l)) (VTuple [x])
| slice_nt c x l : slice1 (VNT c (x :: l)) (VTuple [x])
| slice_str c s : slice1 (VStr (String c s)) (VStr (String c "")).
(** The type that selects the serializer: the one given, or the object's class *)
Definition tyof (c : option ty) (x : value) : ty :=
  match c with Some t => t | None => class_of x end.
Definition serializer (E : env) (f : nat) (c : option ty) (x : value) : option shandler :=
  e_ser E f (tyof c x).
Definition iterates (h : option shandler) : Prop :=
  h = Some SList \/ h = Some SIterable \/ h = Some STuple \/ h = Some SDict.
(** The types that the elements of an [x] of type [c] may be dumped with: none, a type
    parameter of [c] and, in strict mode, the class of the first element or what typish
    infers. *)
Inductive elem_type (E : env) (o : sopts) (c : option ty) (x : value) : option ty -> Prop :=
| et_none : elem_type E o c x None
| et_arg t : In t (get_args c) -> elem_type E o c x (Some t)
| et_first y : so_strict o = true -> py_getitem (e_ct E) x (VInt 0) = Ok y ->
               elem_type E o c x (Some (class_of y))
| et_typish y t : so_strict o = true -> slice1 x y -> In t (get_args (Some (rt_type (e_rt E) y))) ->
                  elem_type E o c x (Some t).
(** The objects that dumping [v] with [cls] can come across, with the types (if any)
    that they are dumped with. *)
Inductive visits (E : env) (f : nat) (o : sopts) (cls : option ty) (v : value)
  : option ty -> value -> Prop :=
| visit_root : visits E f o cls v cls v
| visit_elem c x l y t :
    visits E f o cls v c x -> iterates (serializer E f c x) ->
    py_iter (e_rt E) x = Ok l -> In y l -> elem_type E o c x t -> visits E f o cls v t y
| visit_value c x k y t :
    visits E f o cls v c x -> serializer E f c x = Some SDict ->
    py_getitem (e_ct E) x k = Ok y ->
    (t = None \/ exists k' u, t = Some u /\ In (k', u) (so_types o)) ->
    visits E f o cls v t y
| visit_attr c x a y t :
    visits E f o cls v c x ->
    (serializer E f c x = Some SObject \/ serializer E f c x = Some STuple) ->
    get_attr E x a = Ok y ->
    (t = None \/ exists i u, (c = Some (TClass i) \/ class_of x = TClass i) /\ t = Some u /\
                             In (a, u) (ci_hints (e_ct E i))) ->
    visits E f o cls v t y
| visit_alternative c x t :
    visits E f o cls v c x -> serializer E f c x = Some SUnion -> In t (get_args c) ->
    (x = VNone -> ~ In TNoneT (get_args c)) ->
    visits E f o cls v (Some t) x
| visit_offset c off name :
    visits E f o cls v c (VLeaf (LTimezone off name)) ->
    serializer E f c (VLeaf (LTimezone off name)) = Some STimezone ->
    visits E f o cls v c (VLeaf (LTimedelta off)).

(** User classes that are neither enums nor named tuples have no builtin base class
    besides abstract ones. *)
Definition plain_super (t : ty) : Prop :=
  match t with
  | TClass _ | TApp _ HMapping [] | TApp _ HIterable [] => True
  | _ => False
  end.
Definition wf_supers (CT : classes) : Prop :=
  forall c t, In t (ci_supers (CT c)) -> plain_super t.

(** The attributes that a serializer copies into its result unseen. *)
Definition copies (o : sopts) (h : option shandler) (a : string) : Prop :=
  match h with
  | Some SEnum => a = (if so_enum_name o then "name" else "value")
  | Some SComplex => a = "real" \/ a = "imag"
  | Some SZone => a = "key"
  | _ => False
  end.
(** Every object that is dumped as an enum member, a complex number or a ZoneInfo has JSON
    values in the attributes that are copied. *)
Definition copied_json (E : env) (f : nat) (o : sopts) (cls : option ty) (v : value) : Prop :=
  forall c x a y, visits E f o cls v c x -> copies o (serializer E f c x) a ->
                  get_attr E x a = Ok y -> json (e_ct E) y.
(** The key transformer maps JSON keys to JSON keys. *)
Definition kt_json (CT : classes) (o : sopts) : Prop :=
  forall g k k', so_kt o = Some g -> json_scalar CT k -> g k = Ok k' -> json_scalar CT k'.

(** ** Nulls *)
(** No dict at any depth holds None as a value; lists may hold it. *)
Inductive no_nulls : value -> Prop :=
| nn_list l : (forall x, In x l -> no_nulls x) -> no_nulls (VList l)
| nn_dict k d : (forall a b, In (a, b) d -> b <> VNone /\ no_nulls b) -> no_nulls (VDict k d)
| nn_other v : (forall l, v <> VList l) -> (forall k d, v <> VDict k d) -> no_nulls v.
(** No named tuple is visited. *)
Definition no_named_tuples (E : env) (f : nat) (o : sopts) (cls : option ty) (v : value) : Prop :=
  forall c i l, ~ visits E f o cls v c (VNT i l).
(** What enum members, complex numbers and ZoneInfos have in the attributes that are
    copied holds no nulls, and is None for enum members at most. *)
Definition copied_clean (E : env) (f : nat) (o : sopts) (cls : option ty) (v : value) : Prop :=
  forall c x a y, visits E f o cls v c x -> copies o (serializer E f c x) a ->
                  get_attr E x a = Ok y ->
                  no_nulls y /\ (y = VNone -> serializer E f c x = Some SEnum).

(** ** Rewriting a document: [h] renames the keys, [strip] drops the None entries.  If two
    keys become equal the later entry wins, in the place of the earlier one. *)
Definition new_key (h : string -> string) (k : value) : value :=
  match k with VStr s => VStr (h s) | _ => k end.
Fixpoint rewrite_doc (strip : bool) (h : string -> string) (v : value) : value :=
  match v with
  | VList l => VList (map (rewrite_doc strip h) l)
  | VDict k d =>
      VDict k (fold_left (fun acc kv => if strip && is_none (snd kv) then acc
                                        else dset (new_key h (fst kv)) (snd kv) acc)
                         (map (fun kv => (fst kv, rewrite_doc strip h (snd kv))) d) [])
  | _ => v
  end.
(** The key transformer [kt] renames strings with [h]. *)
Definition renames (kt : option (value -> res value)) (h : string -> string) : Prop :=
  match kt with
  | None => forall s, h s = s
  | Some g => forall s, g (VStr s) = Ok (VStr (h s))
  end.
(** The same options with another key transformer and strip_nulls *)
Definition with_rewriting (kt : option (value -> res value)) (strip : bool) (o : sopts) : sopts :=
  mkSopts (so_strict o) strip kt (so_privates o) (so_properties o) (so_class_vars o) (so_attr o)
          (so_class_info o) (so_dump_time o) (so_store_cls o) (so_enum_name o) (so_strip_us o)
          (so_types o).
Definition neither_list_nor_dict (v : value) : Prop :=
  (forall l, v <> VList l) /\ (forall k d, v <> VDict k d).
(** What is visited is such that all its keys are subject to rewriting and do not clash:
    - no complex numbers, timezones, ZoneInfos and named tuples;
    - enum members are dumped as scalars;
    - dicts have distinct strings as keys;
    - attribute names are distinct, and no attrs classes are involved. *)
Definition rewritable (E : env) (f : nat) (o : sopts) (cls : option ty) (v : value) : Prop :=
  forall c x, visits E f o cls v c x ->
  match serializer E f c x with
  | Some SComplex | Some SZone | Some STimezone => False
  | Some SEnum => forall y, get_attr E x (if so_enum_name o then "name" else "value") = Ok y ->
                            neither_list_nor_dict y
  | Some STuple => forall i l, x <> VNT i l
  | Some SDict => exists k ks xs, x = VDict k (combine (map VStr ks) xs) /\ NoDup ks
  | Some SObject =>
      (forall i, class_of x = TClass i -> ci_attrs (e_ct E i) = false) /\
      match x with VObj _ _ => True | _ => NoDup (rt_dir (e_rt E) x) end /\
      (so_strict o = true ->
       match c with
       | Some (TClass i) => ci_attrs (e_ct E i) = false /\ NoDup (map fst (ci_hints (e_ct E i))) /\
                            match ci_slots (e_ct E i) with Some l => NoDup l | None => True end
       | Some t => NoDup (rt_cls_dir (e_rt E) t)
       | None => True
       end)
  | _ => True
  end.

(** ** Which attributes of an object are dumped *)
(** What strip_attr means: the names to leave out. *)
Definition strips (a : sattr) (l : list string) : Prop :=
  match a with
  | SANone => l = []
  | SAName s => s <> "" /\ l = [s]
  | SATuple l' => l = l'
  | SAList _ => False
  end.
(** The names that every JsonSerializable has, dunder names aside, and those that abc adds
    to classes *)
Definition json_serializable_names : list string :=
  [ "dump"; "dumpb"; "dumps"; "fork"; "from_json"; "json"; "load"; "loadb"; "loads";
    "set_deserializer"; "set_serializer"; "with_dump"; "with_load";
    "_announced_classes"; "_classes_deserializers"; "_classes_serializers";
    "_classes_validators"; "_deserializers"; "_fork_counter"; "_serializers";
    "_suppress_warnings"; "_suppressed_warnings"; "_validators"; "_warn" ].
Definition abc_names : list string :=
  [ "_abc_impl"; "_abc_registry"; "_abc_cache"; "_abc_negative_cache"; "_abc_negative_cache_version" ].
(** The members of a class with its name visible under the options; [strip] are the names
    given as strip_attr. *)
Definition visible (ms : list (string * member)) (o : sopts) (strip : list string) (a : string) : Prop :=
  prefix "__" a = false /\
  (so_privates o = true -> prefix "_" a = false) /\
  (so_properties o = true -> ~ In (a, MProp) ms) /\
  (so_class_vars o = true -> forall m, In (a, m) ms -> m = MProp) /\
  ~ In a strip /\ ~ In a abc_names /\ ~ In a json_serializable_names /\
  sget a ms <> Some MCallable /\ sget a ms <> Some (MClass (Some true)).
(** The source of every class among the members can be read. *)
Definition readable (ms : list (string * member)) : Prop := forall a, sget a ms <> Some (MClass None).
(** The type that an attribute is dumped with: its annotation, unless the class has slots
    or has the name among its members (for instance because of a default value). *)
Definition attr_hint (ci : cinfo) (a : string) : option ty :=
  match ci_slots ci with
  | Some _ => None
  | None => if mem_str a (map fst (ci_members ci)) then None else sget a (ci_hints ci)
  end.
(** The names that a class declares: its slots or its annotations *)
Definition declared_names (ci : cinfo) : list string :=
  match ci_slots ci with Some l => l | None => map fst (ci_hints ci) end.
(** Attribute [a] of [v] dumps to [d] / does not dump. *)
Definition attr_dumps (E : env) (f n : nat) (o : sopts) (v : value) (at_ : string * option ty) (d : value)
  : Prop :=
  exists x, get_attr E v (fst at_) = Ok x /\ snd (dump E f n o (snd at_) x) = Done d.
Definition attr_fails (E : env) (f n : nat) (o : sopts) (v : value) (at_ : string * option ty) : Prop :=
  exists x e, get_attr E v (fst at_) = Ok x /\ snd (dump E f n o (snd at_) x) = Fail e.
(** Strictly before in the order of str *)
Definition slt (a b : string) : Prop := sleb a b = true /\ a <> b.
(** [r] is a dict with the dumps of these attributes, in their order; outside strict mode
    an attribute that does not dump ends it, and the remaining ones are missing. *)
Definition dumped_fields (E : env) (f n : nat) (o : sopts) (v : value)
           (fields : list (string * option ty)) (r : value) : Prop :=
  exists ds, r = VDict DkDict (combine (map VStr (map fst fields)) ds) /\
    Forall2 (attr_dumps E f n o v) (firstn (length ds) fields) ds /\
    length ds <= length fields /\
    (length ds < length fields ->
     so_strict o = false /\
     exists at_, nth_error fields (length ds) = Some at_ /\ attr_fails E f n o v at_).
(** A dump that only selects attributes: no renaming, stripping of nulls or meta data *)
Definition plain_opts (o : sopts) : Prop :=
  so_kt o = None /\ so_strip_nulls o = false /\ so_class_info o = false /\ so_dump_time o = false /\
  so_store_cls o = false.

(** ** JSON documents: what json.loads produces, and dicts with other scalars as keys *)
Definition plain_scalar (v : value) : Prop :=
  match v with VNone | VBool _ | VInt _ | VFloat _ | VStr _ => True | _ => False end.
Inductive document : value -> Prop :=
| doc_scalar v : plain_scalar v -> document v
| doc_list l : (forall x, In x l -> document x) -> document (VList l)
| doc_dict d : (forall k x, In (k, x) d -> plain_scalar k) ->
               (forall k x, In (k, x) d -> document x) ->
               ForallOrdPairs (fun a b => py_eqb a b = false /\ py_eqb b a = false) (map fst d) ->
               document (VDict DkDict d).
(** What json.loads produces: dicts have distinct strings as keys *)
Inductive json_data : value -> Prop :=
| jd_scalar v : plain_scalar v -> json_data v
| jd_list l : (forall x, In x l -> json_data x) -> json_data (VList l)
| jd_dict d : NoDup (map fst d) -> (forall k x, In (k, x) d -> exists s, k = VStr s) ->
              (forall k x, In (k, x) d -> json_data x) -> json_data (VDict DkDict d).
(** No option that concerns documents *)
Definition doc_opts (o : sopts) : Prop :=
  so_strict o = false /\ so_kt o = None /\ so_strip_nulls o = false /\ so_types o = [].

(** Two environments that agree on everything fork [f] uses for dumping *)
Definition same_for_dump (E E' : env) (f : nat) : Prop :=
  e_ct E = e_ct E' /\ e_rt E = e_rt E' /\ e_cser E = e_cser E' /\
  (forall t, e_ser E f t = e_ser E' f t) /\ (forall c, e_warn E f c = e_warn E' f c).

(** Everything that is dumped as an enum member, a complex number or a ZoneInfo is one,
    and enum members are dumped by name. *)
Definition genuine (E : env) (f : nat) (o : sopts) (cls : option ty) (v : value) : Prop :=
  forall c x, visits E f o cls v c x ->
  match serializer E f c x with
  | Some SEnum => so_enum_name o = true /\ exists i m, x = VEnum i m
  | Some SComplex => exists re im, x = VLeaf (LComplex re im)
  | Some SZone => exists k, x = VLeaf (LZone k)
  | _ => True
  end.
