(** * Model of dump: jsons/_dump_impl.py and jsons/serializers

    Recursion is by open recursion: every serializer is a function of [ser], the
    recursive call, and [serialize] ties the knot with a depth bound.  Lists are
    processed with [tasks=1]; the parallel mode is in MultitaskModel.v.  In-place
    updates of the dicts that the serializers have just created are functional. *)
From Verif Require Export EngineTypes.
Set Implicit Arguments.
Local Open Scope string_scope.

(** ** Options: the keyword arguments that the serializers read *)
(** [strip_attr]: nothing, a single name, a tuple or a list. *)
Inductive sattr : Type := SANone | SAName (s : string) | SATuple (l : list string) | SAList (l : list string).
Record sopts : Type := mkSopts {
  so_strict : bool;
  so_strip_nulls : bool;
  so_kt : option (value -> res value);       (* key_transformer *)
  so_privates : bool;                        (* strip_privates *)
  so_properties : bool;
  so_class_vars : bool;
  so_attr : sattr;
  so_class_info : bool;                      (* Verbosity.WITH_CLASS_INFO in verbose *)
  so_dump_time : bool;                       (* Verbosity.WITH_DUMP_TIME in verbose *)
  so_store_cls : bool;                       (* _store_cls *)
  so_enum_name : bool;                       (* use_enum_name *)
  so_strip_us : bool;                        (* strip_microseconds *)
  so_types : list (value * ty) }.            (* types *)
(** The defaults of the serializers' signatures. *)
Definition sopts0 : sopts :=
  mkSopts false false None false false false SANone false false false true false [].
Definition set_store (b : bool) (o : sopts) : sopts :=
  mkSopts (so_strict o) (so_strip_nulls o) (so_kt o) (so_privates o) (so_properties o)
          (so_class_vars o) (so_attr o) (so_class_info o) (so_dump_time o) b
          (so_enum_name o) (so_strip_us o) (so_types o).
Definition no_types (o : sopts) : sopts :=
  mkSopts (so_strict o) (so_strip_nulls o) (so_kt o) (so_privates o) (so_properties o)
          (so_class_vars o) (so_attr o) (so_class_info o) (so_dump_time o) (so_store_cls o)
          (so_enum_name o) (so_strip_us o) [].
Definition set_attr_opt (a : sattr) (o : sopts) : sopts :=
  mkSopts (so_strict o) (so_strip_nulls o) (so_kt o) (so_privates o) (so_properties o)
          (so_class_vars o) a (so_class_info o) (so_dump_time o) (so_store_cls o)
          (so_enum_name o) (so_strip_us o) (so_types o).

(** Catch any exception as a value. *)
Definition mcatch {A} (m : M A) : M (A + exn) :=
  match snd m with
  | Done a => (fst m, Done (inl a))
  | Fail e => (fst m, Done (inr e))
  | Oof => (fst m, Oof)
  end.
(** _do_dump, _dump_impl.py:58-66: any exception becomes a SerializationError. *)
Definition wrap_ser {A} (m : M A) : M A := mtry m (fun _ => fail (exn_of KSer)).

(** key_transformer(key) if given, and the check that the key can be used *)
Definition apply_kt (CT : classes) (kt : option (value -> res value)) (k : value) : res value :=
  dor k' <- match kt with Some g => g k | None => Ok k end;
  if hashable CT k' then Ok k' else raise KType.

(** _is_valid_json_key, serializers/default_dict.py:84-85 *)
Definition json_key (CT : classes) (k : value) : bool :=
  naked_sub CT (class_of k) (TPrim PStr) || naked_sub CT (class_of k) (TPrim PInt)
  || naked_sub CT (class_of k) (TPrim PFloat) || naked_sub CT (class_of k) (TPrim PBool)
  || naked_sub CT (class_of k) TNoneT.

(** to_str, _datetime_impl.py:15-23, on an arbitrary object *)
Definition to_str (local : tzinfo) (strip : bool) (p : list item) (v : value) : res (string * bool) :=
  match v with
  | VLeaf (LDatetime dt) =>
      dor ow <- datetime_offset_str local dt;
      Ok (strftime (with_frac strip (t_us (dt_time dt)) p ++ lit_items (fst ow))%list
                   (dt_date dt) (dt_time dt), snd ow)
  | VLeaf (LDate d) => Ok (strftime p d time0, false)
  | VLeaf (LTime t) => Ok (strftime (with_frac strip (t_us t) p) date0 t, false)
  | _ => raise KAttribute
  end.

(** ** Attribute selection, serializers/default_object.py *)
(** dir(JsonSerializable) without dunder names: the members of StateHolder
    (_common_impl.py:22-45) and of JsonSerializable (classes/json_serializable.py). *)
Definition reserved_names : list string :=
  [ "_fork_counter"; "_classes_serializers"; "_classes_deserializers"; "_serializers";
    "_deserializers"; "_validators"; "_classes_validators"; "_announced_classes";
    "_suppress_warnings"; "_suppressed_warnings"; "_warn";
    "fork"; "with_dump"; "with_load"; "json"; "load"; "dump"; "from_json"; "loads";
    "dumps"; "loadb"; "dumpb"; "set_serializer"; "set_deserializer" ].
(** _ABC_ATTRS, default_object.py:333-334 *)
Definition abc_attrs : list string :=
  [ "_abc_registry"; "_abc_cache"; "_abc_negative_cache"; "_abc_negative_cache_version";
    "_abc_impl" ].
(** _normalize_strip_attr, default_object.py:162-168; a non-empty list makes the later
    [strip_attr + _ABC_ATTRS] raise TypeError. *)
Definition normalize_strip_attr (a : sattr) : sattr :=
  match a with
  | SANone | SAName "" | SAList [] => SATuple []
  | SAName s => SATuple [s]
  | _ => a
  end.
Definition strip_names (a : sattr) : res (list string) :=
  match normalize_strip_attr a with
  | SATuple l => Ok (l ++ abc_attrs)%list
  | _ => raise KType
  end.

(** _get_class_props, default_object.py:249-256 *)
Definition is_prop (m : member) : bool := match m with MProp => true | _ => false end.
Definition class_props (ms : list (string * member)) : list string :=
  map fst (filter (fun x => is_prop (snd x)) ms).
Definition other_class_vars (ms : list (string * member)) : list string :=
  map fst (filter (fun x => negb (is_prop (snd x))) ms).

(** _filter_attributes, default_object.py:224-246, for one name; [ms] are the class's
    members.  [Err] is inspect.getsource raising. *)
Definition keep_attr (ms : list (string * member)) (o : sopts) (stripped : list string)
           (a : string) : res bool :=
  if prefix "__" a then Ok false
  else if so_privates o && prefix "_" a then Ok false
  else if so_properties o && mem_str a (class_props ms) then Ok false
  else if so_class_vars o && mem_str a (other_class_vars ms) then Ok false
  else if mem_str a stripped then Ok false
  else if String.eqb a "json" then Ok false
  else if match sget a ms with Some MCallable => true | _ => false end then Ok false
  else if mem_str a reserved_names then Ok false
  else match sget a ms with
       | Some (MClass (Some inner)) => Ok (negb inner)
       | Some (MClass None) => raise KType
       | _ => Ok true
       end.
Fixpoint filter_attrs (ms : list (string * member)) (o : sopts) (stripped : list string)
         (l : list (string * option ty)) : res (list (string * option ty)) :=
  match l with
  | [] => Ok []
  | (a, t) :: r =>
      dor k <- keep_attr ms o stripped a;
      dor r' <- filter_attrs ms o stripped r;
      Ok (if k then (a, t) :: r' else r')
  end.

(** _get_attributes_and_types, default_object.py:203-221.  On Python 3.10 every user
    class has [__annotations__], so the constructor-only branch is unreachable. *)
Definition attrs_and_types (ci : cinfo) : list (string * option ty) :=
  let base := match ci_slots ci with
              | Some l => map (fun a => (a, None)) l
              | None => map (fun at_ => (fst at_, Some (snd at_))) (ci_hints ci)
              end in
  fold_left (fun d a => sset a None d)
            (class_props (ci_members ci) ++ other_class_vars (ci_members ci)) base.

(** Insertion into a sorted list without duplicates; dir(obj) is sorted. *)
Fixpoint sinsert (a : string) (l : list string) : list string :=
  match l with
  | [] => [a]
  | b :: r => if String.eqb a b then l else if sleb a b then a :: l else b :: sinsert a r
  end.
Definition sort_names (l : list string) : list string := fold_right sinsert [] l.
(** dir(obj), without the dunder names of [object] *)
Definition py_dir (ci : cinfo) (attrs : list (string * value)) : list string :=
  sort_names (map fst (ci_members ci) ++ map fst attrs).

(** _get_attributes_from_class, default_object.py:171-183 *)
Definition attrs_from_class (E : env) (o : sopts) (cls : ty) : res (list (string * option ty)) :=
  dor st <- strip_names (so_attr o);
  match cls with
  | TClass c => filter_attrs (ci_members (e_ct E c)) o st (attrs_and_types (e_ct E c))
  | _ => filter_attrs [] o st (map (fun a => (a, None)) (rt_cls_dir (e_rt E) cls))
  end.
(** _get_attributes_from_object, default_object.py:186-200 *)
Definition attrs_from_object (E : env) (o : sopts) (v : value) : res (list (string * option ty)) :=
  dor st <- strip_names (so_attr o);
  match v with
  | VObj c attrs =>
      let ci := e_ct E c in
      let types := attrs_and_types ci in
      filter_attrs (ci_members ci) o st
        (map (fun a => (a, match sget a types with Some t => t | None => None end))
             (py_dir ci attrs))
  | _ => filter_attrs [] o st (map (fun a => (a, None)) (rt_dir (e_rt E) v))
  end.

(** ** Meta data, serializers/default_object.py:267-323 *)
(** _store_cls_info, default_object.py:316-323 *)
Definition type_name_of (E : env) (v : value) : string :=
  match v with
  | VObj c _ => ci_name (e_ct E c)
  | VLeaf x => leaf_name (leaf_kind x)
  | _ => rt_type_name (e_rt E) v
  end.
Definition store_cls_info (E : env) (store : bool) (dumped attr : value) : value :=
  match dumped with
  | VDict k d => if store then VDict k (dset (VStr "-cls") (VStr (type_name_of E attr)) d) else dumped
  | _ => dumped
  end.
(** _get_class_name_and_strip_cls, default_object.py:307-313 *)
Definition strip_cls (name : option value) (d : list (value * value)) : value * list (value * value) :=
  let found := dget (VStr "-cls") d in
  (match name with
   | Some n => n
   | None => match found with Some n => n | None => VNone end
   end, ddel (VStr "-cls") d).
(** _fill_collection_of_types, default_object.py:289-304, on one dict: returns the dict
    without its '-cls' entries, the class name and the collected types.  A dict under a
    non-string key makes [prefix + attr] raise TypeError. *)
Definition types_acc := list (value * value).
Fixpoint fill_value (prefix : string) (acc : types_acc) (v : value)
  : res (value * value * types_acc) :=
  match v with
  | VDict k d =>
      let '(name, _) := strip_cls None d in
      let go := fix go (d : list (value * value)) (acc : types_acc)
                : res (list (value * value) * types_acc) :=
        match d with
        | [] => Ok ([], acc)
        | (key, x) :: r =>
            if py_eqb (VStr "-cls") key then go r acc
            else
            match key, x with
            | VStr a, VDict _ _ =>
                if String.eqb a "-meta" then
                  dor ra <- go r acc; Ok ((key, x) :: fst ra, snd ra)
                else
                dor xa <- fill_value (prefix ++ a ++ "/") acc x;
                let '(x', n, acc') := xa in
                dor ra <- go r (dset (VStr (prefix ++ a)) n acc');
                Ok ((key, x') :: fst ra, snd ra)
            | _, VDict _ _ => raise KType
            | _, _ => dor ra <- go r acc; Ok ((key, x) :: fst ra, snd ra)
            end
        end in
      dor da <- go d acc;
      Ok (VDict k (fst da), name, snd da)
  | _ => Ok (v, VNone, acc)
  end.
(** _get_dict_with_meta, default_object.py:267-286 *)
Definition dict_with_meta (E : env) (o : sopts) (cls_name : string) (d : list (value * value))
  : res value :=
  if negb (so_class_info o) && negb (so_dump_time o) then Ok (VDict DkDict d)
  else
    let d1 := dset (VStr "-meta") (VDict DkDict []) d in
    dor da <- (if so_class_info o
               then dor r <- fill_value "/" [] (VDict DkDict d1);
                    match r with
                    | (VDict _ d2, _, acc) =>
                        Ok (d2, [(VStr "classes", VDict DkDict (dset (VStr "/") (VStr cls_name) acc))])
                    | _ => Ok (d1, [])              (* unreachable *)
                    end
               else Ok (d1, []));
    let meta := (snd da ++ if so_dump_time o then [(VStr "dump_time", VStr (rt_now (e_rt E)))]
                           else [])%list in
    Ok (VDict DkDict (dset (VStr "-meta") (VDict DkDict meta) (fst da))).

(** ** The serializers *)
Section Serializers.
Variables (E : env) (f : nat).
Let CT := e_ct E.
Let R := e_rt E.
(** The recursive call: options, serializer, cls argument, object. *)
Variable ser : sopts -> option shandler -> option ty -> value -> M value.

(** dump, _dump_impl.py:16-55 *)
Definition dump_ (o : sopts) (cls : option ty) (v : value) : M value :=
  let t := match cls with Some t => t | None => class_of v end in
  dom _ <- emit (EvAnnounce f t);
  wrap_ser (ser o (e_ser E f t) cls v).

(** default_primitive_serializer, serializers/default_primitive.py:6-27 *)
Definition ser_primitive (cls : option ty) (v : value) : res value :=
  let cls_ := match cls with Some (TNewType _ _ s) => Some s | c => c end in
  match cls_, v with
  | None, _ | _, VNone => Ok v
  | Some t, _ =>
      dor b <- is_instance CT v t;
      if b then Ok v
      else match cast R t v with
           | Ok r => Ok r
           | Err e => Err (if is_valueerror (e_kind e) then exn_of KSer else e)
           end
  end.

(** default_list_serializer, serializers/default_list.py:10-48 *)
Definition ser_list (o : sopts) (cls : option ty) (v : value) : M value :=
  if negb (truthy R v) then ret (VList [])
  else
    let o' := set_store false o in
    match get_args cls with
    | t :: _ =>
        dom l <- lift (py_iter R v);
        dom r <- mmap (ser o' (e_ser E f t) (Some t)) l;
        ret (VList r)
    | [] =>
        if so_strict o then
          dom x0 <- lift (py_getitem CT v (VInt 0));
          let t := class_of x0 in
          dom l <- lift (py_iter R v);
          dom r <- mmap (ser o' (e_ser E f t) (Some t)) l;
          ret (VList r)
        else
          dom l <- lift (py_iter R v);
          dom r <- mmap (dump_ o' None) l;
          ret (VList r)
    end.

(** _determine_cls, serializers/default_iterable.py:76-81 *)
Definition determine_cls (cls : option ty) (v : value) : res (option ty) :=
  match cls with
  | Some t => Ok (Some t)
  | None =>
      match v with
      | VList (x :: _) => Ok (Some (rt_type R (VList [x])))
      | VTuple (x :: _) | VNT _ (x :: _) => Ok (Some (rt_type R (VTuple [x])))
      | VStr (String c _) => Ok (Some (rt_type R (VStr (String c EmptyString))))
      | VColl CDeque (_ :: _) | VDict _ (_ :: _) => raise KType
      | _ => Ok None
      end
  end.
(** _get_subclasses, serializers/default_iterable.py:52-67 *)
Definition get_subclasses (n : nat) (cls : option ty) : res (list (option ty)) :=
  match get_args cls with
  | [] => Ok (repeat None n)
  | [t] => Ok (repeat (Some t) n)
  | ts => if Nat.eqb (length ts) n then Ok (map Some ts) else raise KSer
  end.
(** default_iterable_serializer, serializers/default_iterable.py:12-49 *)
Definition ser_iterable (o : sopts) (cls : option ty) (v : value) : M value :=
  let o' := set_store false o in
  dom l <- lift (py_iter R v);
  dom cls_ <- lift (if so_strict o then determine_cls cls v else Ok None);
  dom subs <- lift (get_subclasses (length l) cls_);
  dom r <- mmap (fun xc => dump_ o' (snd xc) (fst xc)) (combine l subs);
  ret (VList r).

(** default_namedtuple_serializer, serializers/default_tuple.py:31-41 *)
Definition ser_namedtuple (o : sopts) (c : nat) (v : value) : M value :=
  dom r <- mmap (fun a => dom x <- lift (get_attr E v a);
                          dom d <- dump_ o None x;
                          ret (VStr a, d))
                (map nf_name (nt_fields CT c));
  ret (VDict DkDict r).
(** default_tuple_serializer, serializers/default_tuple.py:10-28; a class without
    [__args__] makes tuple_with_ellipsis (_compatibility_impl.py:43-49) raise. *)
Definition ser_tuple (o : sopts) (cls : option ty) (v : value) : M value :=
  match v, cls with
  | VNT c _, _ => ser_namedtuple o c v
  | _, None => ser_iterable o None v
  | _, Some t =>
      match raw_args t with
      | None => fail (exn_of KAttribute)
      | Some args =>
          if ty_eqb TEllipsis (last args TAny) then
            dom l <- lift (py_iter R v);
            ser_iterable o (Some (TApp true HTuple (repeat (hd TAny args) (length l)))) v
          else ser_iterable o (Some t) v
      end
  end.

(** _store_and_hash, serializers/default_dict.py:62-81 *)
Definition store_and_hash (o : sopts) (result : list (value * value)) (key : value)
  : M (list (value * value) * value) :=
  if json_key CT key then ret (result, key)
  else
    dom dk <- dump_ o None key;
    if json_key CT dk then ret (result, dk)
    else
      let h := VInt (rt_hash R key) in
      match dget (VStr "-keys") result with
      | None => ret (dset (VStr "-keys") (VDict DkDict [(h, dk)]) result, h)
      | Some (VDict k d) => ret (dset (VStr "-keys") (VDict k (dset h dk d)) result, h)
      | Some _ => fail (exn_of KType)
      end.
(** default_dict_serializer, serializers/default_dict.py:7-59 *)
Fixpoint ser_dict_go (o : sopts) (v : value) (keys : list value) (result : list (value * value))
  : M (list (value * value)) :=
  match keys with
  | [] => ret result
  | key :: rest =>
      dom x <- lift (py_getitem CT v key);
      dom rk <- store_and_hash o result key;
      dom d <- dump_ (no_types o) (aget py_eqb key (so_types o)) x;
      if so_strip_nulls o && is_none d then ser_dict_go o v rest (fst rk)
      else
        dom k <- lift (apply_kt CT (so_kt o) (snd rk));
        ser_dict_go o v rest (dset k d (fst rk))
  end.
Definition ser_dict (o : sopts) (v : value) : M value :=
  dom keys <- lift (py_iter R v);
  dom d <- ser_dict_go o v keys [];
  ret (VDict DkDict d).

(** default_union_serializer, serializers/default_union.py:9-37 *)
Fixpoint ser_union_go (o : sopts) (v : value) (ts : list ty) : M value :=
  match ts with
  | [] => fail (exn_of KSer)
  | t :: r => mtry (dump_ o (Some t) v)
                   (fun e => if is_jsons (e_kind e) then ser_union_go o v r else fail e)
  end.
Definition ser_union (o : sopts) (cls : option ty) (v : value) : M value :=
  match match cls with Some t => raw_args t | None => None end with
  | None => fail (exn_of KType)
  | Some ts => if is_none v && existsb (ty_eqb TNoneT) ts then ret VNone
               else ser_union_go o v ts
  end.

(** _do_serialize, serializers/default_object.py:100-147.  [attrs_cls]: the class is an
    attrs class and privates are not stripped. *)
Definition strip_us (a : string) : string := slstrip (Ascii.eqb "_") a.
Fixpoint do_serialize (o : sopts) (public : bool) (v : value) (attrs : list (string * option ty))
         (result : list (value * value)) : M (list (value * value)) :=
  match attrs with
  | [] => ret result
  | (a, cls_) :: rest =>
      dom x <- lift (get_attr E v a);
      let t := match cls_ with Some t => t | None => class_of x end in
      dom _ <- emit (EvAnnounce f t);
      dom r <- mcatch (dom d <- ser o (e_ser E f t) cls_ x;
                       ret (store_cls_info E (so_store_cls o) d x));
      match r with
      | inr e =>
          if so_strict o then fail (exn_of (if e_noargs e then KIndex else KSer))
          else if e_noargs e then fail (exn_of KIndex)
          else dom _ <- warn E f "attribute-not-serialized"; ret result
      | inl d =>
          let name := if public then strip_us a else a in
          if so_strip_nulls o && is_none d then do_serialize o public v rest result
          else
            dom k <- lift (apply_kt CT (so_kt o) (VStr name));
            do_serialize o public v rest (dset k d result)
      end
  end.
(** default_object_serializer, serializers/default_object.py:18-97 *)
Definition ser_object (o : sopts) (cls : option ty) (v : value) : M value :=
  let from_class := match cls with Some t => if so_strict o then Some t else None | None => None end in
  dom attrs <- lift (match from_class with
                     | Some t => attrs_from_class E o t
                     | None => attrs_from_object E o v
                     end);
  let t := match from_class with Some t => t | None => class_of v end in
  let o' := set_store (so_class_info o) (set_attr_opt (normalize_strip_attr (so_attr o)) o) in
  let public := match t with TClass c => ci_attrs (CT c) | _ => false end
                && negb (so_privates o) in
  dom d <- do_serialize o' public v attrs [];
  if so_store_cls o then ret (VDict DkDict d)
  else lift (dict_with_meta E o (class_name CT t) d).

(** The remaining serializers (serializers/default_complex.py:1-8, default_datetime.py:7-22,
    default_date.py:6-16, default_time.py:6-15, default_timedelta.py:4-12,
    default_timezone.py:6-19, default_uuid.py:4-12, default_decimal.py:4-11,
    default_path.py:4-15, default_enum.py:4-18, default_zone_info.py:7-12) and the
    dispatch. *)
Definition ser_time_like (strip : bool) (p : list item) (v : value) : M value :=
  dom sw <- lift (to_str (rt_local R) strip p v);
  dom _ <- (if snd sw then warn E f "datetime-without-tz" else ret tt);
  ret (VStr (fst sw)).
Definition ser_step (o : sopts) (h : option shandler) (cls : option ty) (v : value) : M value :=
  match h with
  | None => fail (exn_of KType)               (* None is not callable *)
  | Some h =>
      match h with
      | STuple => ser_tuple o cls v
      | SComplex => dom re <- lift (get_attr E v "real");
                    dom im <- lift (get_attr E v "imag");
                    ret (str_dict [("real", re); ("imag", im)])
      | SDatetime => ser_time_like (so_strip_us o) datetime_pattern v
      | SDate => ser_time_like false date_pattern v
      | STime => ser_time_like false time_pattern v
      | STimezone => match v with
                     | VLeaf (LTimezone off name) =>
                         dom d <- dump_ o cls (VLeaf (LTimedelta off));
                         ret (str_dict [("name", VStr (timezone_name off name)); ("offset", d)])
                     | _ => fail (exn_of KAttribute)
                     end
      | STimedelta => match v with
                      | VLeaf (LTimedelta us) => ret (VFloat (total_seconds us))
                      | _ => fail (exn_of KAttribute)
                      end
      | SPrimitive => lift (ser_primitive cls v)
      | SEnum => lift (get_attr E v (if so_enum_name o then "name" else "value"))
      | SDict => ser_dict o v
      | SList => ser_list o cls v
      | SIterable => ser_iterable o cls v
      | SObject => ser_object o cls v
      | SUUID => lift (dor s <- py_str R v; Ok (VStr s))
      | SDecimal => lift (dor s <- py_str R v; Ok (VStr s))
      | SUnion => ser_union o cls v
      | SPath => match v with
                 | VLeaf (LPath s) => ret (VStr s)
                 | _ => fail (exn_of KAttribute)
                 end
      | SZone => dom k <- lift (get_attr E v "key"); ret (str_dict [("key", k)])
      | SCustom n => lift (e_cser E n cls v)
      end
  end.
End Serializers.

(** [n] bounds the depth of nested serializer calls. *)
Fixpoint serialize (E : env) (f : nat) (n : nat) (o : sopts) (h : option shandler)
         (cls : option ty) (v : value) : M value :=
  match n with
  | O => oof
  | S n' => ser_step E f (serialize E f n') o h cls v
  end.
(** jsons.dump(v, cls, fork_inst=f, **o) *)
Definition dump (E : env) (f : nat) (n : nat) (o : sopts) (cls : option ty) (v : value) : M value :=
  dump_ E f (serialize E f n) o cls v.
