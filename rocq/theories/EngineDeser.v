(** * Model of load: jsons/_load_impl.py, jsons/_common_impl.py:76-171 and
      jsons/deserializers

    Same shape as EngineSer.v: deserializers are functions of [load], the recursive
    call, which takes the fork (timezone and complex values are loaded with the
    default fork), the options, the target class and the input. *)
From Verif Require Export EngineTypes.
Set Implicit Arguments.
Local Open Scope string_scope.

(** ** Options: the keyword arguments that load and the deserializers read.
    Lists are processed with [tasks=1].  Getters are functions without state. *)
Record lopts : Type := mkLopts {
  lo_strict : bool;
  lo_getters : list (string * res value);       (* attr_getters *)
  lo_kt : option (value -> res value);          (* key_transformer *)
  lo_hints : option (list (value * value));     (* meta_hints; None: not passed *)
  lo_inferred : bool;                           (* _inferred_cls *)
  lo_warn : bool;                               (* warn_on_fail *)
  lo_enum_name : option bool }.                 (* use_enum_name *)
Definition lopts0 : lopts := mkLopts false [] None None false false None.
Definition set_getters g (o : lopts) :=
  mkLopts (lo_strict o) g (lo_kt o) (lo_hints o) (lo_inferred o) (lo_warn o) (lo_enum_name o).
Definition set_kt k (o : lopts) :=
  mkLopts (lo_strict o) (lo_getters o) k (lo_hints o) (lo_inferred o) (lo_warn o) (lo_enum_name o).
Definition set_hints h (o : lopts) :=
  mkLopts (lo_strict o) (lo_getters o) (lo_kt o) h (lo_inferred o) (lo_warn o) (lo_enum_name o).
Definition set_inferred b (o : lopts) :=
  mkLopts (lo_strict o) (lo_getters o) (lo_kt o) (lo_hints o) b (lo_warn o) (lo_enum_name o).
Definition set_warn b (o : lopts) :=
  mkLopts (lo_strict o) (lo_getters o) (lo_kt o) (lo_hints o) (lo_inferred o) b (lo_enum_name o).

(** ** Matching None: can_match_with_none, _common_impl.py:130-137.
    [None in None] raises TypeError for a union-like name without [__args__]. *)
Definition union_like (CT : classes) (t : ty) : bool :=
  let n := slower (simple_name CT t) in sinfix "union" n || sinfix "optional" n.
Definition can_match_none (CT : classes) (cls : option ty) : res bool :=
  match cls with
  | None | Some TAny | Some TObject | Some TNoneT => Ok true
  | Some t =>
      if union_like CT t then
        match raw_args t with
        | Some ts => Ok (existsb (ty_eqb TNoneT) ts)
        | None => raise KType
        end
      else Ok false
  end.

(** ** Meta data *)
(** get_cls_and_meta, _common_impl.py:120-127, followed by [meta.get('classes', {})]
    (_load_impl.py:203): raises KeyError or TypeError when the section is malformed. *)
Definition get_cls_and_meta (E : env) (f : nat) (j : value) : res (option ty * list (value * value)) :=
  match j with
  | VDict _ d =>
      match dget (VStr "-meta") d with
      | None => Ok (None, [])
      | Some meta =>
          dor classes <- py_getitem (e_ct E) meta (VStr "classes");
          dor s <- py_getitem (e_ct E) classes (VStr "/");
          match s, classes with
          | VStr s, VDict _ hints => dor t <- e_resolve E f s; Ok (Some t, hints)
          | _, _ => raise KType
          end
      end
  | _ => Ok (None, [])
  end.
(** determine_precedence, _common_impl.py:104-117; the last resort is the type of the
    object (absent in the call from default_object.py:138). *)
Definition determine_precedence (cls meta typ : option ty) (inferred : bool) : option ty :=
  let first a b := match a with Some t => Some t | None => b end in
  if inferred then first meta (first cls typ) else first cls (first meta typ).

(** VALID_TYPES, _common_impl.py:17 *)
Definition valid_type (j : value) : bool :=
  match j with
  | VStr _ | VInt _ | VFloat _ | VBool _ | VList _ | VTuple _ | VColl CSet _
  | VDict DkDict _ | VNone => true
  | _ => false
  end.
Definition same_type (j : value) (cls : option ty) : bool :=
  match cls with Some t => ty_eqb (class_of j) t | None => false end.
(** cls is not original_cls *)
Definition changed (cls : ty) (orig : option ty) : bool :=
  match orig with Some t => negb (ty_eqb cls t) | None => true end.

(** validate, _validation.py:52-75 *)
Definition validate (E : env) (f : nat) (v : value) (t : ty) : res unit :=
  match e_validator E f t with
  | None => Ok tt
  | Some p => match p v with
              | Ok true => Ok tt
              | _ => raise KValidation
              end
  end.

(** Dict items of a constructor-argument dict. *)
Definition has_arg (k : value) (args : list (string * value)) : bool :=
  match k with VStr a => shas a args | _ => false end.
(** _remove_prefix, deserializers/default_object.py:116-119 *)
Definition remove_prefix (p s : string) : string :=
  if prefix p s then let r := sdrop (String.length p) s in if String.eqb r "" then "/" else r
  else s.
Fixpoint shift_hints (p : string) (h : list (value * value)) (acc : list (value * value))
  : res (list (value * value)) :=
  match h with
  | [] => Ok acc
  | (VStr k, v) :: r => shift_hints p r (dset (VStr (remove_prefix p k)) v acc)
  | _ :: _ => raise KAttribute
  end.
(** {key_transformer(key): obj[key] for key in obj} *)
Fixpoint transform_keys (CT : classes) (g : value -> res value) (d acc : list (value * value))
  : res (list (value * value)) :=
  match d with
  | [] => Ok acc
  | (k, v) :: r =>
      dor k' <- g k;
      if hashable CT k' then transform_keys CT g r (dset k' v acc) else raise KType
  end.

(** ** Enums: cls[name] and cls(value); aliases denote the canonical member, the first
    one with the same value. *)
Definition canonical (ms : list (string * value)) (x : value) : option string :=
  option_map fst (find (fun nv => py_eqb (snd nv) x) ms).
Definition enum_by_name (CT : classes) (c : nat) (j : value) : res value :=
  if negb (hashable CT j) then raise KType
  else match j with
       | VStr s => match sget s (enum_members CT c) with
                   | Some x => match canonical (enum_members CT c) x with
                               | Some n => Ok (VEnum c n)
                               | None => raise KKey           (* unreachable *)
                               end
                   | None => raise KKey
                   end
       | _ => raise KKey
       end.
Definition enum_by_value (CT : classes) (c : nat) (j : value) : res value :=
  match canonical (enum_members CT c) j with
  | Some n => Ok (VEnum c n)
  | None => raise KValue
  end.
(** default_enum_deserializer, deserializers/default_enum.py:5-32 *)
Definition deser_enum (CT : classes) (use_name : option bool) (t : ty) (j : value) : res value :=
  match t with
  | TClass c =>
      match use_name with
      | Some true => enum_by_name CT c j
      | Some false => enum_by_value CT c j
      | None => match enum_by_name CT c j with
                | Err e => if is_keyerror (e_kind e) then enum_by_value CT c j else Err e
                | r => r
                end
      end
  | _ => if hashable CT j then raise KValue else raise KType
  end.

(** Duplicates of a set are dropped, the first one stays. *)
Fixpoint dedup (l acc : list value) : list value :=
  match l with
  | [] => rev acc
  | x :: r => if existsb (py_eqb x) acc then dedup r acc else dedup r (x :: acc)
  end.

(** ** The deserializers *)
Section Deserializers.
Variable E : env.
Let CT := e_ct E.
Let R := e_rt E.
(** The recursive call of jsons.load: fork, options, cls, json_obj. *)
Variable load : nat -> lopts -> option ty -> value -> M value.
Variable f : nat.

(** default_list_deserializer and _do_load, deserializers/default_list.py:12-69 *)
Fixpoint deser_list_go (o : lopts) (warn_on_fail : bool) (t : option ty) (i : nat) (l : list value)
  : M (list value) :=
  match l with
  | [] => ret []
  | x :: r =>
      let m := load f o t x in
      match snd m with
      | Done y => dom _ <- (fst m, Done tt);
                  dom ys <- deser_list_go o warn_on_fail t (S i) r;
                  ret (y :: ys)
      | Oof => (fst m, Oof)
      | Fail e =>
          if is_deser (e_kind e) then
            if warn_on_fail then
              dom _ <- (fst m, Done tt);
              dom _ <- warn E f "element-not-deserialized";
              deser_list_go o warn_on_fail t (S i) r
            else (fst m, Fail (mkExn KDeser (e_arg e) (i :: e_idx e) false (e_msg e)))
          else (fst m, Fail e)
      end
  end.
Definition deser_list (o : lopts) (args : list ty) (j : value) : M (list value) :=
  let o' := set_warn false (match args with [] => o | _ => set_inferred true o end) in
  dom l <- lift (py_iter R j);
  deser_list_go o' (lo_warn o) (hd_error args) 0 l.

(** default_iterable_deserializer, deserializers/default_iterable.py:8-30 *)
Definition deser_iterable (o : lopts) (t : ty) (j : value) : M value :=
  dom args <- lift (match raw_args t with
                    | None => Ok []
                    | Some [a] => Ok [a]
                    | Some _ => raise KType            (* Iterable takes one parameter *)
                    end);
  dom l <- deser_list o args j;
  match t with
  | TApp _ HList _ | TApp _ HIterable _ => ret (VList l)
  | TApp _ HSet _ => if forallb (hashable CT) l then ret (VColl CSet (dedup l []))
                     else fail (exn_of KType)
  | TApp _ HFrozen _ => if forallb (hashable CT) l then ret (VColl CFrozen (dedup l []))
                        else fail (exn_of KType)
  | TApp _ HDeque _ => ret (VColl CDeque l)
  | TApp _ HTuple _ => ret (VTuple l)
  | _ => lift (rt_cast R t (VList l))
  end.

(** default_namedtuple_deserializer, deserializers/default_tuple.py:39-88 *)
Fixpoint deser_nt_go (o : lopts) (j : value) (d : option (list (value * value))) (len i : nat)
         (fields : list ntfield) : M (list value) :=
  match fields with
  | [] => ret []
  | fd :: rest =>
      dom x <- lift (if Nat.ltb i len then
                       match d with
                       | Some d => match dget (VStr (nf_name fd)) d with
                                   | Some x => Ok x
                                   | None => raise KKey
                                   end
                       | None => py_getitem CT j (VInt (Z.of_nat i))
                       end
                     else Ok (match nf_default fd with Some x => x | None => VNone end));
      dom _ <- (if is_none x
                   && negb (existsb (ty_eqb TNoneT)
                              (match nf_hint fd with
                               | Some h => match raw_args h with Some ts => ts | None => [] end
                               | None => [] end))
                then fail (exn_arg KUnfulfilled (nf_name fd))
                else ret tt);
      dom y <- load f o (nf_hint fd) x;
      dom ys <- deser_nt_go o j d len (S i) rest;
      ret (y :: ys)
  end.
Definition deser_namedtuple (o : lopts) (c : nat) (j : value) : M value :=
  dom d <- (match j with
            | VDict _ d =>
                let g := match lo_kt o with Some g => g | None => fun k => Ok k end in
                dom d' <- lift (transform_keys CT g d []); ret (Some d')
            | _ => ret None
            end);
  dom l <- lift (py_iter R j);
  dom vs <- deser_nt_go o j d (length l) 0 (nt_fields CT c);
  ret (VNT c vs).
(** default_tuple_deserializer, deserializers/default_tuple.py:12-36; the key
    transformer is not passed on. *)
Fixpoint deser_tuple_go (o : lopts) (l : list value) (ts : list ty) : M (list value) :=
  match l with
  | [] => ret []
  | x :: r => match ts with
              | [] => fail (exn_of KIndex)
              | t :: ts' => dom y <- load f o (Some t) x;
                            dom ys <- deser_tuple_go o r ts';
                            ret (y :: ys)
              end
  end.
Definition deser_tuple (o : lopts) (t : ty) (j : value) : M value :=
  let o' := set_kt None o in
  let plain :=
    dom l <- lift (py_iter R j);
    match get_args (Some t) with
    | [] => dom vs <- mmap (load f o' None) l; ret (VTuple vs)
    | (t0 :: _) as ts =>
        let ts' := if ty_eqb TEllipsis (last ts TAny) then repeat t0 (length l) else ts in
        dom vs <- deser_tuple_go o' l ts'; ret (VTuple vs)
    end in
  match t with
  | TClass c => match ci_kind (CT c) with
                | CkNT _ => deser_namedtuple o c j
                | _ => plain
                end
  | _ => plain
  end.

(** default_union_deserializer, deserializers/default_union.py:9-30 *)
Fixpoint deser_union_go (o : lopts) (j : value) (ts : list ty) : M value :=
  match ts with
  | [] => fail (exn_of KDeser)
  | t :: r => mtry (load f o (Some t) j)
                   (fun e => if is_jsons (e_kind e) then deser_union_go o j r else fail e)
  end.
Definition deser_union (o : lopts) (t : ty) (j : value) : M value :=
  match raw_args t with
  | None => fail (exn_of KType)
  | Some ts => deser_union_go o j ts
  end.

(** _load_hashed_keys, deserializers/default_dict.py:32-62.  The stored keys are
    taken in the order of the section (Python: of a set).  That the caller's '-keys'
    section is emptied is modelled in HashedKeysModel.v.  A '-keys' entry that is not a
    dict is rejected unless it is empty, and so is a stored key that loads as '-keys'
    itself. *)
Fixpoint hashed_go (o : lopts) (kt : ty) (stored : list (value * value)) (result : list (value * value))
  : M (list (value * value)) :=
  match stored with
  | [] => if dhas (VStr "-keys") result then ret (ddel (VStr "-keys") result)
          else fail (exn_of KKey)
  | (h, orig) :: r =>
      dom k <- load f o (Some kt) orig;
      match dget h result with
      | None => fail (exn_of KKey)
      | Some x => if hashable CT k && negb (py_eqb (VStr "-keys") k)
                  then hashed_go o kt r (ddel h (dset k x result))
                  else fail (exn_of KType)
      end
  end.
Definition load_hashed_keys (o : lopts) (args : list ty) (d : list (value * value))
  : M (list (value * value) * bool) :=
  match dget (VStr "-keys") d with
  | None => ret (d, false)
  | Some keys =>
      dom ks <- lift (py_iter R keys);
      match ks with
      | [] => ret (d, false)
      | _ :: _ =>
          match args, keys with
          | [kt; _], VDict _ stored => dom d' <- hashed_go o kt stored d; ret (d', true)
          | [_; _], _ => fail (exn_of KType)
          | _, _ => fail (exn_of KDeser)
          end
      end
  end.
(** _deserialize, deserializers/default_dict.py:65-87 *)
Fixpoint deser_dict_go (ok ov : lopts) (g : value -> res value) (key_cls : option ty)
         (val_cls : option ty) (d acc : list (value * value)) : M (list (value * value)) :=
  match d with
  | [] => ret acc
  | (k, x) :: r =>
      dom k1 <- lift (g k);
      dom k2 <- (match key_cls with Some t => load f ok (Some t) k1 | None => ret k1 end);
      dom y <- load f ov val_cls x;
      if hashable CT k2 then deser_dict_go ok ov g key_cls val_cls r (dset k2 y acc)
      else fail (exn_of KType)
  end.
(** default_dict_deserializer, deserializers/default_dict.py:9-29 *)
Definition deser_dict (o : lopts) (args : list ty) (j : value) : M (list (value * value)) :=
  match j with
  | VDict _ d =>
      dom dh <- load_hashed_keys o args d;
      let g := match lo_kt o with Some g => g | None => fun k => Ok k end in
      let ov := set_kt (Some g) o in
      let ok := set_kt None o in
      match args with
      | [tk; tv] => deser_dict_go ok ov g (if snd dh then None else Some tk) (Some tv) (fst dh) []
      | _ => deser_dict_go ok ov g None None (fst dh) []
      end
  | _ => fail (exn_of KAttribute)
  end.
(** default_mapping_deserializer, deserializers/default_mapping.py:9-27; Mapping takes
    two parameters. *)
Definition deser_mapping (o : lopts) (t : ty) (j : value) : M value :=
  dom args <- lift (match get_args (Some t) with
                    | [] => Ok []
                    | [a; b] => Ok [a; b]
                    | _ => raise KType
                    end);
  dom d <- deser_dict o args j;
  match t with
  | TApp _ HDict _ | TApp _ HMapping _ | TApp _ HIterable _ => ret (VDict DkDict d)
  | TApp _ HOrderedDict _ => ret (VDict DkOrdered d)
  | TObject => ret (VDict DkDict d)
  | _ => lift (rt_cast R t (VDict DkDict d))
  end.
(** default_defaultdict_deserializer, deserializers/default_defaultdict.py:9-32; the
    default factory is not part of the value.  [defaultdict(factory, loaded)] accepts
    mappings (and sequences of pairs, which are rejected here). *)
Definition deser_defaultdict (o : lopts) (t : ty) (j : value) : M value :=
  dom t' <- lift (match get_args (Some t) with
                  | [] => Ok (TApp true HDict [])
                  | [a; b] => Ok (TApp true HDict [a; b])
                  | _ => raise KValue
                  end);
  dom r <- load f o (Some t') j;
  match r with
  | VDict _ d => ret (VDict DkDefault d)
  | _ => fail (exn_of KType)
  end.

(** default_primitive_deserializer, deserializers/default_primitive.py:6-24 *)
Definition deser_primitive (t : ty) (j : value) : res value :=
  match j with
  | VNone => Ok VNone
  | _ => dor b <- is_instance CT j t;
         if b then Ok j
         else match cast R t j with
              | Ok r => Ok r
              | Err e => Err (if is_valueerror (e_kind e) then exn_of KDeser else e)
              end
  end.
(** default_string_deserializer, deserializers/default_string.py:9-27 *)
Definition deser_string (o : lopts) (t : ty) (j : value) : M value :=
  if ty_eqb t (TPrim PStr) && negb (lo_inferred o) then
    lift (dor s <- py_str R j; Ok (VStr s))
  else
    mtry (load f o (Some (TLeaf LkDatetime)) j)
         (fun e => if is_deser (e_kind e) then lift (deser_primitive (TPrim PStr) j) else fail e).

(** default_timezone_deserializer, deserializers/default_timezone.py:6-16: the default
    fork and fresh options. *)
Definition deser_timezone (j : value) : M value :=
  dom off <- lift (py_getitem CT j (VStr "offset"));
  dom td <- load 0 lopts0 (Some (TLeaf LkTimedelta)) off;
  dom name <- lift (py_getitem CT j (VStr "name"));
  match td, name with
  | VLeaf (LTimedelta us), VStr n =>
      if timezone_ok us then ret (VLeaf (LTimezone us (Some n))) else fail (exn_of KValue)
  | _, _ => fail (exn_of KType)
  end.
(** default_timedelta_deserializer, deserializers/default_timedelta.py:4-14 *)
Definition deser_timedelta (j : value) : res value :=
  dor us <- match j with
            | VInt z => td_of_int z
            | VBool b => td_of_int (if b then 1 else 0)
            | VFloat x => td_of_float x
            | _ => raise KType
            end;
  Ok (VLeaf (LTimedelta us)).
(** default_complex_deserializer, deserializers/default_complex.py:7-28: default fork,
    fresh options; KeyError and DeserializationError become AttributeErrors. *)
Definition deser_complex (j : value) : M value :=
  mtry
    (dom re <- lift (py_getitem CT j (VStr "real"));
     dom im <- lift (py_getitem CT j (VStr "imag"));
     dom d <- load 0 lopts0 (Some (TApp true HDict [TPrim PStr; TPrim PFloat]))
                   (str_dict [("real", re); ("imag", im)]);
     dom re' <- lift (py_getitem CT d (VStr "real"));
     dom im' <- lift (py_getitem CT d (VStr "imag"));
     match re', im' with
     | VFloat x, VFloat y => ret (VLeaf (LComplex x y))
     | _, _ => fail (exn_of KType)
     end)
    (fun e => if is_keyerror (e_kind e) || is_deser (e_kind e)
              then fail (exn_of KAttribute) else fail e).

(** ** Objects: deserializers/default_object.py *)
(** _get_value_from_obj, default_object.py:122-141 *)
Definition value_from_obj (o : lopts) (hints : list (value * value)) (p : param) (x : value)
  : M value :=
  let key := "/" ++ pa_name p in
  dom mh <- lift (match dget (VStr key) hints with
                  | Some s =>
                      if truthy R s then
                        match s with
                        | VStr s => dor t <- e_resolve E f s;
                                    dor h <- shift_hints key hints [];
                                    Ok (Some t, h)
                        | _ => raise KType
                        end
                      else Ok (None, hints)
                  | None => Ok (None, hints)
                  end);
  load f (set_hints (Some (snd mh)) o) (determine_precedence (pa_hint p) (fst mh) None true) x.
(** _get_value_for_attr, default_object.py:82-113; [None]: the parameter is skipped. *)
Definition value_for_attr (o : lopts) (hints d : list (value * value))
           (getters : list (string * res value)) (p : param) : M (option value) :=
  match dget (VStr (pa_name p)) d with
  | Some x => dom y <- value_from_obj o hints p x; ret (Some y)
  | None =>
      match sget (pa_name p) getters with
      | Some g => dom _ <- emit (EvGetter (pa_name p)); dom y <- lift g; ret (Some y)
      | None =>
          match pa_default p with
          | Some x => ret (Some x)
          | None =>
              if pa_var p then ret None
              else
                dom b <- lift (can_match_none CT (pa_hint p));
                if b then ret (Some VNone) else fail (exn_arg KUnfulfilled (pa_name p))
          end
      end
  end.
(** _get_constructor_args, default_object.py:48-74; the getters are not passed on. *)
Fixpoint constructor_args (o : lopts) (hints d : list (value * value))
         (getters : list (string * res value)) (ps : list param) : M (list (string * value)) :=
  match ps with
  | [] => ret []
  | p :: r =>
      dom x <- value_for_attr o hints d getters p;
      dom rest <- constructor_args o hints d getters r;
      ret (match x with Some y => (pa_name p, y) :: rest | None => rest end)
  end.
(** _get_remaining_args, default_object.py:186-200 *)
Definition remaining_args (strict : bool) (d : list (value * value)) (args : list (string * value))
  : res (list (value * value)) :=
  let rest := filter (fun kv => negb (has_arg (fst kv) args)
                                && negb (py_eqb (VStr "-meta") (fst kv))) d in
  match rest with
  | (k, _) :: _ =>
      if strict then
        Err (match k with VStr a => exn_arg KSignature a | _ => exn_of KSignature end)
      else Ok rest
  | [] => Ok []
  end.
(** _set_remaining_attrs, default_object.py:144-171 *)
Definition has_keys_section (x : value) : bool :=
  match x with VDict _ d => dhas (VStr "-keys") d | _ => false end.
Fixpoint set_remaining (o : lopts) (ci : cinfo) (rest : list (value * value))
         (attrs : list (string * value)) : M (list (string * value)) :=
  match rest with
  | [] => ret attrs
  | (k, x) :: r =>
      let hint := match k with VStr a => sget a (ci_hints ci) | _ => None end in
      dom _ <- (match hint with
                | None => if has_keys_section x then warn E f "hashed-keys-without-hint" else ret tt
                | Some _ => ret tt
                end);
      dom y <- load f o (Some (match hint with Some t => t | None => class_of x end)) x;
      match k with
      | VStr a =>
          match ci_set ci a y attrs with
          | Ok attrs' => set_remaining o ci r attrs'
          | Err e => if is_attributeerror (e_kind e) then set_remaining o ci r attrs else fail e
          end
      | _ => fail (exn_of KType)
      end
  end.
Fixpoint set_getter_attrs (ci : cinfo) (gs : list (string * res value)) (attrs : list (string * value))
  : M (list (string * value)) :=
  match gs with
  | [] => ret attrs
  | (a, g) :: r =>
      dom _ <- emit (EvGetter a);
      dom y <- lift g;
      dom attrs' <- lift (ci_set ci a y attrs);
      set_getter_attrs ci r attrs'
  end.
(** The input of default_object_deserializer as a dict.  Other inputs are rejected with
    a TypeError (the code may raise another error, e.g. for the first missing
    argument), except empty ones, which act like {}.  Not distinguished: a list of nothing
    but the text -meta, which the code also takes for {}, and lists of numbers with a key
    transformer that accepts numbers. *)
Definition obj_items (j : value) : res (list (value * value)) :=
  match j with
  | VDict _ d => Ok d
  | VList [] | VTuple [] | VColl _ [] | VNT _ [] | VStr EmptyString => Ok []
  | _ => raise KType
  end.
Definition cid_of (t : ty) : option nat :=
  match t with
  | TClass c => Some c
  | TObject => Some (e_object E)
  | _ => None
  end.
(** default_object_deserializer, default_object.py:17-45 *)
Definition deser_object (o : lopts) (t : ty) (j : value) : M value :=
  match cid_of t with
  | None => fail (exn_of KType)
  | Some c =>
      let ci := CT c in
      dom d0 <- lift (obj_items j);
      dom d <- lift (match lo_kt o with
                     | Some g => transform_keys CT g d0 []
                     | None => Ok d0
                     end);
      let getters := lo_getters o in
      let hints := match lo_hints o with Some h => h | None => [] end in
      let o' := set_getters [] o in
      dom args <- constructor_args o' hints d getters (ci_params ci);
      dom rest <- lift (remaining_args (lo_strict o) d args);
      dom _ <- emit (EvInit c);
      dom attrs <- lift (ci_init ci args);
      dom attrs1 <- set_remaining o' ci rest attrs;
      dom attrs2 <- set_getter_attrs ci getters attrs1;
      ret (VObj c attrs2)
  end.

(** The dispatch, with default_datetime.py:7-24, default_date.py:6-16,
    default_time.py:6-16, default_nonetype.py:6-19, default_uuid.py:5-16,
    default_decimal.py:5-16, default_path.py:4-12, default_zone_info.py:5-11. *)
Definition deser_step (o : lopts) (h : dhandler) (t : ty) (j : value) : M value :=
  match h with
  | DList => dom l <- deser_list o (get_args (Some t)) j; ret (VList l)
  | DTuple => deser_tuple o t j
  | DUnion => deser_union o t j
  | DDefaultDict => deser_defaultdict o t j
  | DDatetime => match j with
                 | VStr s => lift (dor x <- load_datetime s; Ok (VLeaf (LDatetime x)))
                 | _ => fail (exn_of KType)
                 end
  | DDate => match j with
             | VStr s => lift (dor x <- load_date s; Ok (VLeaf (LDate x)))
             | _ => fail (exn_of KType)
             end
  | DTime => match j with
             | VStr s => lift (dor x <- load_time s; Ok (VLeaf (LTime x)))
             | _ => fail (exn_of KType)
             end
  | DTimezone => deser_timezone j
  | DTimedelta => lift (deser_timedelta j)
  | DString => deser_string o t j
  | DNone => match j with VNone => ret VNone | _ => fail (exn_of KDeser) end
  | DPrimitive => lift (deser_primitive t j)
  | DEnum => lift (deser_enum CT (lo_enum_name o) t j)
  | DMapping => deser_mapping o t j
  | DIterable => deser_iterable o t j
  | DObject => deser_object o t j
  | DUUID => match j with
             | VStr s => lift (dor n <- uuid_parse s; Ok (VLeaf (LUUID n)))
             | _ => fail (exn_of KAttribute)
             end
  | DComplex => deser_complex j
  | DDecimal => lift (dor s <- rt_decimal R j; Ok (VLeaf (LDecimal s)))
  | DPath => lift (dor s <- rt_path R j; Ok (VLeaf (LPath s)))
  | DZone => dom k <- lift (py_getitem CT j (VStr "key"));
             lift (dor s <- rt_zone R k; Ok (VLeaf (LZone s)))
  | DCustom n => lift (e_cdeser E n t j)
  end.

(** _do_load, _load_impl.py:104-125 *)
Definition wrap_deser {A} (m : M A) : M A :=
  mtry m (fun e => fail (if is_jsons (e_kind e) then e else exn_of KDeser)).

(** load, _load_impl.py:26-101, 188-219 *)
Definition load_step (o : lopts) (cls : option ty) (j : value) : M value :=
  dom _ <- (if is_none j then
              dom b <- lift (can_match_none CT cls);
              if b then ret tt else fail (exn_of KDeser)
            else ret tt);
  if (negb (lo_strict o) && same_type j cls)
     || match cls with Some TAny => true | _ => false end
  then
    dom _ <- lift (match cls with Some t => validate E f j t | None => Ok tt end);
    ret j
  else
    dom cls1 <- lift (match cls with
                      | Some (TFwd s) => dor t <- e_resolve E f s; Ok (Some t)
                      | _ => Ok cls
                      end);
    if negb (valid_type j) then fail (exn_of KDeser)
    else
      dom mh <- lift (get_cls_and_meta E f j);
      match determine_precedence cls1 (fst mh) (Some (class_of j)) (lo_inferred o) with
      | None => fail (exn_of KDeser)                       (* unreachable *)
      | Some t =>
          match e_deser E f t with
          | None => fail (exn_of KDeser)
          | Some h =>
              let hints := match lo_hints o with Some h => h | None => snd mh end in
              let o' := set_inferred (changed t cls1) (set_hints (Some hints) o) in
              wrap_deser (dom r <- deser_step o' h t j;
                          dom _ <- lift (validate E f r t);
                          ret r)
          end
      end.
End Deserializers.

(** jsons.load(j, cls, fork_inst=f, **o); [n] bounds the depth of nested calls. *)
Fixpoint load (E : env) (n : nat) (f : nat) (o : lopts) (cls : option ty) (j : value) : M value :=
  match n with
  | O => oof
  | S n' => load_step E (load E n') f o cls j
  end.
