(** * Model of load with a heap: jsons/_load_impl.py and jsons/deserializers

    In EngineDeser.v documents and results are trees.  Here lists, dicts, sets, deques and
    objects are cells of a heap (HeapModel.v) that refer to each other, and the deletions from
    the '-keys' section (default_dict.py:57) are writes to the heap.  Events (warnings, calls of
    getters and constructors) are left out; everything else is as in EngineDeser.v, function by
    function.  Dicts and lists that a deserializer builds on the way and drops again are lists
    of the model and no cells. *)
From Verif Require Export HeapModel EngineDeser.
Set Implicit Arguments.
Local Open Scope string_scope.

(** What belongs to the program and not to the document: constructors, setattr, the results of
    getters, the default values of parameters and of the fields of named tuples, registered
    deserializers.  They may do anything to the heap. *)
Record lenv : Type := mkLenv {
  le_init : nat -> list (string * obj) -> hM (list (string * obj));
  le_set : nat -> string -> obj -> list (string * obj) -> hM (list (string * obj));
  le_getter : string -> hM obj;
  le_default : nat -> string -> obj;
  le_field : nat -> string -> obj;
  le_cdeser : nat -> ty -> obj -> hM obj }.

(** validate, _validation.py:52-75 *)
Definition hvalidate (E : env) (f : nat) (x : obj) (t : ty) : hM unit :=
  fun H => hlift (validate E f (view H x) t) H.
(** get_cls_and_meta, _common_impl.py:120-127, and meta.get('classes', {}), _load_impl.py:203 *)
Definition hcls_and_meta (E : env) (f : nat) (x : obj) : hM (option ty * list (value * value)) :=
  fun H =>
  match x with
  | ORef a =>
      match nth_error H a with
      | Some (NDict _ d) =>
          match hdget H (atom "-meta") d with
          | None => hret (None, []) H
          | Some y => hlift (get_cls_and_meta E f (VDict DkDict [(VStr "-meta", view H y)])) H
          end
      | _ => hret (None, []) H
      end
  | _ => hret (None, []) H
  end.
(** {key_transformer(key): obj[key] for key in obj} *)
Fixpoint htransform_keys (CT : classes) (g : value -> res value) (d acc : list (obj * obj))
  : hM (list (obj * obj)) :=
  match d with
  | [] => hret acc
  | (k, x) :: r =>
      doh k1 <- (fun H => hlift (g (view H k)) H);
      if hashable CT k1 then
        doh k2 <- place k1;
        doh acc' <- hread (fun H => hdset H k2 x acc);
        htransform_keys CT g r acc'
      else hfail (exn_of KType)
  end.
(** Duplicates of a set are dropped, the first one stays. *)
Fixpoint hdedup (H : heap) (l acc : list obj) : list obj :=
  match l with
  | [] => rev acc
  | x :: r => if existsb (key_eqb H x) acc then hdedup H r acc else hdedup H r (x :: acc)
  end.

(** ** The deserializers *)
Section Deserializers.
Variables (E : env) (L : lenv).
Let CT := e_ct E.
Let R := e_rt E.
(** The recursive call of jsons.load: fork, options, cls, json_obj. *)
Variable hload : nat -> lopts -> option ty -> obj -> hM obj.
Variable f : nat.

(** default_list_deserializer and _do_load, deserializers/default_list.py:12-69 *)
Fixpoint hdeser_list_go (o : lopts) (warn_on_fail : bool) (t : option ty) (i : nat) (l : list obj)
  : hM (list obj) :=
  match l with
  | [] => hret []
  | x :: r =>
      doh c <- hcatch (hload f o t x);
      match c with
      | inl y => doh ys <- hdeser_list_go o warn_on_fail t (S i) r; hret (y :: ys)
      | inr e =>
          if is_deser (e_kind e) then
            if warn_on_fail then hdeser_list_go o warn_on_fail t (S i) r
            else hfail (mkExn KDeser (e_arg e) (i :: e_idx e) false (e_msg e))
          else hfail e
      end
  end.
Definition hdeser_list (o : lopts) (args : list ty) (x : obj) : hM (list obj) :=
  let o' := set_warn false (match args with [] => o | _ => set_inferred true o end) in
  doh l <- hiter R x;
  hdeser_list_go o' (lo_warn o) (hd_error args) 0 l.

(** default_iterable_deserializer, deserializers/default_iterable.py:8-30 *)
Definition hnew_set (k : coll) (l : list obj) : hM obj :=
  fun H => if forallb (fun y => hashable CT (view H y)) l then alloc (NColl k (hdedup H l [])) H
           else hfail (exn_of KType) H.
Definition hdeser_iterable (o : lopts) (t : ty) (x : obj) : hM obj :=
  doh args <- hlift (match raw_args t with
                     | None => Ok []
                     | Some [a] => Ok [a]
                     | Some _ => raise KType
                     end);
  doh l <- hdeser_list o args x;
  match t with
  | TApp _ HList _ | TApp _ HIterable _ => alloc (NList l)
  | TApp _ HSet _ => hnew_set CSet l
  | TApp _ HFrozen _ => hnew_set CFrozen l
  | TApp _ HDeque _ => alloc (NColl CDeque l)
  | TApp _ HTuple _ => hret (OTuple l)
  | _ => fun H => place_res (rt_cast R t (VList (map (view H) l))) H
  end.

(** default_namedtuple_deserializer, deserializers/default_tuple.py:39-88 *)
Fixpoint hdeser_nt_go (o : lopts) (c : nat) (x : obj) (d : option (list (obj * obj))) (len i : nat)
         (fields : list ntfield) : hM (list obj) :=
  match fields with
  | [] => hret []
  | fd :: rest =>
      doh y <- (if Nat.ltb i len then
                  match d with
                  | Some d => fun H => match hdget H (atom (nf_name fd)) d with
                                       | Some y => hret y H
                                       | None => hfail (exn_of KKey) H
                                       end
                  | None => hgetitem CT x (OAtom (VInt (Z.of_nat i)))
                  end
                else hret (match nf_default fd with
                           | Some _ => le_field L c (nf_name fd)
                           | None => OAtom VNone
                           end));
      doh b <- hread (fun H => is_none (shallow H y));
      doh _ <- (if b
                   && negb (existsb (ty_eqb TNoneT)
                              (match nf_hint fd with
                               | Some h => match raw_args h with Some ts => ts | None => [] end
                               | None => [] end))
                then hfail (exn_arg KUnfulfilled (nf_name fd))
                else hret tt);
      doh z <- hload f o (nf_hint fd) y;
      doh zs <- hdeser_nt_go o c x d len (S i) rest;
      hret (z :: zs)
  end.
Definition hdeser_namedtuple (o : lopts) (c : nat) (x : obj) : hM obj :=
  doh d <- (fun H =>
            match x with
            | ORef a =>
                match nth_error H a with
                | Some (NDict _ d) =>
                    match lo_kt o with
                    | Some g => (doh d' <- htransform_keys CT g d []; hret (Some d')) H
                    | None => hret (Some d) H
                    end
                | _ => hret None H
                end
            | _ => hret None H
            end);
  doh l <- hiter R x;
  doh ys <- hdeser_nt_go o c x d (length l) 0 (nt_fields CT c);
  hret (ONT c ys).
(** default_tuple_deserializer, deserializers/default_tuple.py:12-36 *)
Fixpoint hdeser_tuple_go (o : lopts) (l : list obj) (ts : list ty) : hM (list obj) :=
  match l with
  | [] => hret []
  | x :: r => match ts with
              | [] => hfail (exn_of KIndex)
              | t :: ts' => doh y <- hload f o (Some t) x;
                            doh ys <- hdeser_tuple_go o r ts';
                            hret (y :: ys)
              end
  end.
Definition hdeser_tuple (o : lopts) (t : ty) (x : obj) : hM obj :=
  let o' := set_kt None o in
  let plain :=
    doh l <- hiter R x;
    match get_args (Some t) with
    | [] => doh ys <- hmap (hload f o' None) l; hret (OTuple ys)
    | (t0 :: _) as ts =>
        let ts' := if ty_eqb TEllipsis (last ts TAny) then repeat t0 (length l) else ts in
        doh ys <- hdeser_tuple_go o' l ts'; hret (OTuple ys)
    end in
  match t with
  | TClass c => match ci_kind (CT c) with
                | CkNT _ => hdeser_namedtuple o c x
                | _ => plain
                end
  | _ => plain
  end.

(** default_union_deserializer, deserializers/default_union.py:9-30 *)
Fixpoint hdeser_union_go (o : lopts) (x : obj) (ts : list ty) : hM obj :=
  match ts with
  | [] => hfail (exn_of KDeser)
  | t :: r => htry (hload f o (Some t) x)
                   (fun e => if is_jsons (e_kind e) then hdeser_union_go o x r else hfail e)
  end.
Definition hdeser_union (o : lopts) (t : ty) (x : obj) : hM obj :=
  match raw_args t with
  | None => hfail (exn_of KType)
  | Some ts => hdeser_union_go o x ts
  end.

(** del d[k], for the dict at [a] *)
Definition del_item (a : nat) (k : obj) : hM unit :=
  fun H => match nth_error H a with
           | Some (NDict kd d) =>
               match hdget H k d with
               | Some _ => write a (NDict kd (hddel H k d)) H
               | None => hfail (exn_of KKey) H
               end
           | _ => hfail (exn_of KType) H
           end.
(** _load_hashed_keys, deserializers/default_dict.py:32-62: [section] is the caller's own
    '-keys' dict, [result] the copy of the dict.  The stored keys are taken in the order of the
    section (Python: of a set). *)
Fixpoint hhashed_go (o : lopts) (kt : ty) (section : nat) (stored : list obj) (result : list (obj * obj))
  : hM (list (obj * obj)) :=
  match stored with
  | [] => fun H => match hdget H (atom "-keys") result with
                   | Some _ => hret (hddel H (atom "-keys") result) H
                   | None => hfail (exn_of KKey) H
                   end
  | h :: r =>
      doh orig <- hgetitem CT (ORef section) h;
      doh k <- hload f o (Some kt) orig;
      fun H =>
      match hdget H h result with
      | None => hfail (exn_of KKey) H
      | Some x => if hashable CT (view H k) && negb (key_eqb H (atom "-keys") k)
                  then (doh _ <- del_item section h;
                        doh result' <- hread (fun H1 => hddel H1 h (hdset H1 k x result));
                        hhashed_go o kt section r result') H
                  else hfail (exn_of KType) H
      end
  end.
Definition hload_hashed_keys (o : lopts) (args : list ty) (d : list (obj * obj))
  : hM (list (obj * obj) * bool) :=
  fun H =>
  match hdget H (atom "-keys") d with
  | None => hret (d, false) H
  | Some keys =>
      (doh ks <- hiter R keys;
       fun H1 =>
       match ks with
       | [] => hret (d, false) H1
       | _ :: _ =>
           match args, dict_at H1 keys with
           | [kt; _], Some a => (doh d' <- hhashed_go o kt a ks d; hret (d', true)) H1
           | [_; _], None => hfail (exn_of KType) H1
           | _, _ => hfail (exn_of KDeser) H1
           end
       end) H
  end.
(** _deserialize, deserializers/default_dict.py:65-87; without a key transformer and a class
    for keys the keys of the result are those of the dict *)
Fixpoint hdeser_dict_go (ok ov : lopts) (g : option (value -> res value)) (key_cls : option ty)
         (val_cls : option ty) (d acc : list (obj * obj)) : hM (list (obj * obj)) :=
  match d with
  | [] => hret acc
  | (k, x) :: r =>
      doh k1 <- (match g with
                 | None => hret k
                 | Some g => fun H => place_res (g (view H k)) H
                 end);
      doh k2 <- (match key_cls with Some t => hload f ok (Some t) k1 | None => hret k1 end);
      doh y <- hload f ov val_cls x;
      fun H =>
      if hashable CT (view H k2) then hdeser_dict_go ok ov g key_cls val_cls r (hdset H k2 y acc) H
      else hfail (exn_of KType) H
  end.
(** default_dict_deserializer, deserializers/default_dict.py:9-29 *)
Definition hdeser_dict (o : lopts) (args : list ty) (x : obj) : hM (list (obj * obj)) :=
  doh od <- hread (fun H => match x with
                            | ORef a => match nth_error H a with Some (NDict _ d) => Some d | _ => None end
                            | _ => None
                            end);
  match od with
  | Some d =>
      doh dh <- hload_hashed_keys o args d;
      let g := match lo_kt o with Some g => g | None => fun k => Ok k end in
      let ov := set_kt (Some g) o in
      let ok := set_kt None o in
      match args with
      | [tk; tv] => hdeser_dict_go ok ov (lo_kt o) (if snd dh then None else Some tk) (Some tv) (fst dh) []
      | _ => hdeser_dict_go ok ov (lo_kt o) None None (fst dh) []
      end
  | None => hfail (exn_of KAttribute)
  end.
(** default_mapping_deserializer, deserializers/default_mapping.py:9-27 *)
Definition hdeser_mapping (o : lopts) (t : ty) (x : obj) : hM obj :=
  doh args <- hlift (match get_args (Some t) with
                     | [] => Ok []
                     | [a; b] => Ok [a; b]
                     | _ => raise KType
                     end);
  doh d <- hdeser_dict o args x;
  match t with
  | TApp _ HDict _ | TApp _ HMapping _ | TApp _ HIterable _ => alloc (NDict DkDict d)
  | TApp _ HOrderedDict _ => alloc (NDict DkOrdered d)
  | TObject => alloc (NDict DkDict d)
  | _ => fun H => place_res (rt_cast R t (VDict DkDict (map (fun kx => (view H (fst kx), view H (snd kx))) d))) H
  end.
(** default_defaultdict_deserializer, deserializers/default_defaultdict.py:9-32:
    defaultdict(factory, loaded) is a copy *)
Definition hdeser_defaultdict (o : lopts) (t : ty) (x : obj) : hM obj :=
  doh t' <- hlift (match get_args (Some t) with
                   | [] => Ok (TApp true HDict [])
                   | [a; b] => Ok (TApp true HDict [a; b])
                   | _ => raise KValue
                   end);
  doh r <- hload f o (Some t') x;
  fun H =>
  match r with
  | ORef a => match nth_error H a with
              | Some (NDict _ d) => alloc (NDict DkDefault d) H
              | _ => hfail (exn_of KType) H
              end
  | _ => hfail (exn_of KType) H
  end.

(** default_primitive_deserializer, deserializers/default_primitive.py:6-24 *)
Definition hdeser_primitive (t : ty) (x : obj) : hM obj :=
  fun H =>
  if is_none (shallow H x) then hret x H
  else
    match is_instance CT (shallow H x) t with
    | Err e => hfail e H
    | Ok true => hret x H
    | Ok false => place_res (match cast R t (view H x) with
                             | Ok r => Ok r
                             | Err e => Err (if is_valueerror (e_kind e) then exn_of KDeser else e)
                             end) H
    end.
(** default_string_deserializer, deserializers/default_string.py:9-27 *)
Definition hdeser_string (o : lopts) (t : ty) (x : obj) : hM obj :=
  if ty_eqb t (TPrim PStr) && negb (lo_inferred o) then
    fun H => hlift (dor s <- py_str R (view H x); Ok (atom s)) H
  else
    htry (hload f o (Some (TLeaf LkDatetime)) x)
         (fun e => if is_deser (e_kind e) then hdeser_primitive (TPrim PStr) x else hfail e).

(** default_timezone_deserializer, deserializers/default_timezone.py:6-16 *)
Definition hdeser_timezone (x : obj) : hM obj :=
  doh off <- hgetitem CT x (atom "offset");
  doh td <- hload 0 lopts0 (Some (TLeaf LkTimedelta)) off;
  doh name <- hgetitem CT x (atom "name");
  match td, name with
  | OAtom (VLeaf (LTimedelta us)), OAtom (VStr n) =>
      if timezone_ok us then hret (OAtom (VLeaf (LTimezone us (Some n)))) else hfail (exn_of KValue)
  | _, _ => hfail (exn_of KType)
  end.
(** default_complex_deserializer, deserializers/default_complex.py:7-28 *)
Definition hdeser_complex (x : obj) : hM obj :=
  htry
    (doh re <- hgetitem CT x (atom "real");
     doh im <- hgetitem CT x (atom "imag");
     doh parts <- alloc (NDict DkDict [(atom "real", re); (atom "imag", im)]);
     doh d <- hload 0 lopts0 (Some (TApp true HDict [TPrim PStr; TPrim PFloat])) parts;
     doh re' <- hgetitem CT d (atom "real");
     doh im' <- hgetitem CT d (atom "imag");
     match re', im' with
     | OAtom (VFloat u), OAtom (VFloat w) => hret (OAtom (VLeaf (LComplex u w)))
     | _, _ => hfail (exn_of KType)
     end)
    (fun e => if is_keyerror (e_kind e) || is_deser (e_kind e)
              then hfail (exn_of KAttribute) else hfail e).

(** ** Objects: deserializers/default_object.py *)
(** _get_value_from_obj, default_object.py:122-141 *)
Definition hvalue_from_obj (o : lopts) (hints : list (value * value)) (p : param) (x : obj) : hM obj :=
  let key := "/" ++ pa_name p in
  doh mh <- hlift (match dget (VStr key) hints with
                   | Some s =>
                       if truthy R s then
                         match s with
                         | VStr s => dor t <- e_resolve E f s;
                                     dor h <- shift_hints key hints [];
                                     Ok (Some t, h)
                         | _ => raise KType
                         end
                       else Ok (None, hints)
                   | None => Ok (None, hints)
                   end);
  hload f (set_hints (Some (snd mh)) o) (determine_precedence (pa_hint p) (fst mh) None true) x.
(** _get_value_for_attr, default_object.py:82-113; a default value is used as it is. *)
Definition hvalue_for_attr (o : lopts) (c : nat) (hints : list (value * value)) (d : list (obj * obj))
           (getters : list (string * res value)) (p : param) : hM (option obj) :=
  fun H =>
  match hdget H (atom (pa_name p)) d with
  | Some x => (doh y <- hvalue_from_obj o hints p x; hret (Some y)) H
  | None =>
      match sget (pa_name p) getters with
      | Some _ => (doh y <- le_getter L (pa_name p); hret (Some y)) H
      | None =>
          match pa_default p with
          | Some _ => hret (Some (le_default L c (pa_name p))) H
          | None =>
              if pa_var p then hret None H
              else
                (doh b <- hlift (can_match_none CT (pa_hint p));
                 if b then hret (Some (OAtom VNone)) else hfail (exn_arg KUnfulfilled (pa_name p))) H
          end
      end
  end.
(** _get_constructor_args, default_object.py:48-74 *)
Fixpoint hconstructor_args (o : lopts) (c : nat) (hints : list (value * value)) (d : list (obj * obj))
         (getters : list (string * res value)) (ps : list param) : hM (list (string * obj)) :=
  match ps with
  | [] => hret []
  | p :: r =>
      doh x <- hvalue_for_attr o c hints d getters p;
      doh rest <- hconstructor_args o c hints d getters r;
      hret (match x with Some y => (pa_name p, y) :: rest | None => rest end)
  end.
(** _get_remaining_args, default_object.py:186-200 *)
Definition key_str (x : obj) : option string := match x with OAtom (VStr a) => Some a | _ => None end.
Definition hremaining_args (strict : bool) (d : list (obj * obj)) (args : list (string * obj))
  : hM (list (obj * obj)) :=
  fun H =>
  let rest := filter (fun kv => negb (match key_str (fst kv) with Some a => shas a args | None => false end)
                                && negb (key_eqb H (atom "-meta") (fst kv))) d in
  match rest with
  | (k, _) :: _ =>
      if strict then
        hfail (match key_str k with Some a => exn_arg KSignature a | None => exn_of KSignature end) H
      else hret rest H
  | [] => hret [] H
  end.
(** _set_remaining_attrs, default_object.py:144-171 *)
Fixpoint hset_remaining (o : lopts) (c : nat) (rest : list (obj * obj)) (attrs : list (string * obj))
  : hM (list (string * obj)) :=
  match rest with
  | [] => hret attrs
  | (k, x) :: r =>
      doh t <- hread (fun H => match match key_str k with
                                     | Some a => sget a (ci_hints (CT c))
                                     | None => None
                                     end with
                               | Some t => t
                               | None => kind H x
                               end);
      doh y <- hload f o (Some t) x;
      match key_str k with
      | Some a =>
          doh s <- hcatch (le_set L c a y attrs);
          match s with
          | inl attrs' => hset_remaining o c r attrs'
          | inr e => if is_attributeerror (e_kind e) then hset_remaining o c r attrs else hfail e
          end
      | None => hfail (exn_of KType)
      end
  end.
Fixpoint hset_getter_attrs (c : nat) (gs : list (string * res value)) (attrs : list (string * obj))
  : hM (list (string * obj)) :=
  match gs with
  | [] => hret attrs
  | (a, _) :: r =>
      doh y <- le_getter L a;
      doh attrs' <- le_set L c a y attrs;
      hset_getter_attrs c r attrs'
  end.
(** The input of default_object_deserializer as a dict, see [obj_items] *)
Definition hobj_items (H : heap) (x : obj) : res (list (obj * obj)) :=
  match x with
  | ORef a => match nth_error H a with
              | Some (NDict _ d) => Ok d
              | Some (NList []) | Some (NColl _ []) => Ok []
              | _ => raise KType
              end
  | OTuple [] | ONT _ [] | OAtom (VStr EmptyString) => Ok []
  | _ => raise KType
  end.
(** default_object_deserializer, default_object.py:17-45 *)
Definition hdeser_object (o : lopts) (t : ty) (x : obj) : hM obj :=
  match cid_of E t with
  | None => hfail (exn_of KType)
  | Some c =>
      doh d0 <- (fun H => hlift (hobj_items H x) H);
      doh d <- (match lo_kt o with
                | Some g => htransform_keys CT g d0 []
                | None => hret d0
                end);
      let getters := lo_getters o in
      let hints := match lo_hints o with Some h => h | None => [] end in
      let o' := set_getters [] o in
      doh args <- hconstructor_args o' c hints d getters (ci_params (CT c));
      doh rest <- hremaining_args (lo_strict o) d args;
      doh attrs <- le_init L c args;
      doh attrs1 <- hset_remaining o' c rest attrs;
      doh attrs2 <- hset_getter_attrs c getters attrs1;
      alloc (NObj c attrs2)
  end.

(** The remaining deserializers and the dispatch, see [deser_step] *)
Definition hdeser_text (g : string -> res value) (e : exn) (x : obj) : hM obj :=
  match x with
  | OAtom (VStr s) => hlift (dor v <- g s; Ok (OAtom v))
  | _ => hfail e
  end.
Definition hdeser_step (o : lopts) (h : dhandler) (t : ty) (x : obj) : hM obj :=
  match h with
  | DList => doh l <- hdeser_list o (get_args (Some t)) x; alloc (NList l)
  | DTuple => hdeser_tuple o t x
  | DUnion => hdeser_union o t x
  | DDefaultDict => hdeser_defaultdict o t x
  | DDatetime => hdeser_text (fun s => dor y <- load_datetime s; Ok (VLeaf (LDatetime y))) (exn_of KType) x
  | DDate => hdeser_text (fun s => dor y <- load_date s; Ok (VLeaf (LDate y))) (exn_of KType) x
  | DTime => hdeser_text (fun s => dor y <- load_time s; Ok (VLeaf (LTime y))) (exn_of KType) x
  | DTimezone => hdeser_timezone x
  | DTimedelta => fun H => place_res (deser_timedelta (shallow H x)) H
  | DString => hdeser_string o t x
  | DNone => fun H => if is_none (shallow H x) then hret x H else hfail (exn_of KDeser) H
  | DPrimitive => hdeser_primitive t x
  | DEnum => fun H => place_res (deser_enum CT (lo_enum_name o) t (view H x)) H
  | DMapping => hdeser_mapping o t x
  | DIterable => hdeser_iterable o t x
  | DObject => hdeser_object o t x
  | DUUID => hdeser_text (fun s => dor n <- uuid_parse s; Ok (VLeaf (LUUID n))) (exn_of KAttribute) x
  | DComplex => hdeser_complex x
  | DDecimal => fun H => hlift (dor s <- rt_decimal R (view H x); Ok (OAtom (VLeaf (LDecimal s)))) H
  | DPath => fun H => hlift (dor s <- rt_path R (view H x); Ok (OAtom (VLeaf (LPath s)))) H
  | DZone => doh k <- hgetitem CT x (atom "key");
             fun H => hlift (dor s <- rt_zone R (view H k); Ok (OAtom (VLeaf (LZone s)))) H
  | DCustom n => le_cdeser L n t x
  end.

(** _do_load, _load_impl.py:104-125 *)
Definition hwrap_deser {A} (m : hM A) : hM A :=
  htry m (fun e => hfail (if is_jsons (e_kind e) then e else exn_of KDeser)).
(** load, _load_impl.py:26-101, 188-219 *)
Definition hload_step (o : lopts) (cls : option ty) (x : obj) : hM obj :=
  doh sh <- hread (fun H => shallow H x);
  doh _ <- (if is_none sh then
              doh b <- hlift (can_match_none CT cls);
              if b then hret tt else hfail (exn_of KDeser)
            else hret tt);
  if (negb (lo_strict o) && same_type sh cls)
     || match cls with Some TAny => true | _ => false end
  then
    doh _ <- (match cls with Some t => hvalidate E f x t | None => hret tt end);
    hret x
  else
    doh cls1 <- hlift (match cls with
                       | Some (TFwd s) => dor t <- e_resolve E f s; Ok (Some t)
                       | _ => Ok cls
                       end);
    if negb (valid_type sh) then hfail (exn_of KDeser)
    else
      doh mh <- hcls_and_meta E f x;
      match determine_precedence cls1 (fst mh) (Some (class_of sh)) (lo_inferred o) with
      | None => hfail (exn_of KDeser)                      (* unreachable *)
      | Some t =>
          match e_deser E f t with
          | None => hfail (exn_of KDeser)
          | Some h =>
              let hints := match lo_hints o with Some h => h | None => snd mh end in
              let o' := set_inferred (changed t cls1) (set_hints (Some hints) o) in
              hwrap_deser (doh r <- hdeser_step o' h t x;
                           doh _ <- hvalidate E f r t;
                           hret r)
          end
      end.
End Deserializers.

(** jsons.load(x, cls, fork_inst=f, **o ); [n] bounds the depth of nested calls. *)
Fixpoint hload (E : env) (L : lenv) (n : nat) (f : nat) (o : lopts) (cls : option ty) (x : obj) : hM obj :=
  match n with
  | O => fun H => (H, Oof)
  | S n' => hload_step E L (hload E L n') f o cls x
  end.
