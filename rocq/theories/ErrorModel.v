(** * Model of the errors of load: what [source] and [target] of a DeserializationError are

    exceptions.py:53-213 and the places that raise.  The functions are those of EngineDeser.v,
    written once more with exceptions that carry [source] and [target]; ErrorProofs.v shows
    that without the two they are the same functions.  Functions that neither call load nor
    raise a DeserializationError are taken from EngineDeser.v. *)
From Verif Require Export EngineDeser.
Set Implicit Arguments.
Local Open Scope string_scope.

(** An exception with [source] and [target] (exceptions.py:53-86), or without: the exceptions
    of other classes, and those that user code raises.  The [target] of an UnknownClassError
    is None (exceptions.py:182-201). *)
Record err : Type := mkErr { er_exn : exn; er_at : option (value * option ty) }.
Inductive xout (A : Type) : Type :=
| XDone (a : A)
| XFail (e : err)
| XOof.
Arguments XDone {A} a.
Arguments XFail {A} e.
Arguments XOof {A}.
Definition X (A : Type) : Type := (list ev * xout A)%type.
Definition xret {A} (a : A) : X A := ([], XDone a).
Definition xraise {A} (e : err) : X A := ([], XFail e).
Definition xoof {A} : X A := ([], XOof).
Definition xemit (e : ev) : X unit := ([e], XDone tt).
(** Exceptions without source and target *)
Definition bare_err (e : exn) : err := mkErr e None.
Definition xfail {A} (e : exn) : X A := xraise (bare_err e).
(** raise DeserializationError(..., source, target) *)
Definition xfail_at {A} (e : exn) (source : value) (target : option ty) : X A :=
  xraise (mkErr e (Some (source, target))).
Definition xlift {A} (r : res A) : X A := match r with Ok a => xret a | Err e => xfail e end.
(** get_cls_from_str(cls_str, source, fork_inst): the source of an UnknownClassError,
    _common_impl.py:140-149 *)
Definition xresolved {A} (source : value) (r : res A) : X A :=
  match r with
  | Ok a => xret a
  | Err e => if is_deser (e_kind e) then xfail_at e source None else xfail e
  end.
Definition xbind {A B} (m : X A) (k : A -> X B) : X B :=
  match snd m with
  | XDone a => let r := k a in ((fst m ++ fst r)%list, snd r)
  | XFail e => (fst m, XFail e)
  | XOof => (fst m, XOof)
  end.
(** try m except err: h err *)
Definition xtry {A} (m : X A) (h : err -> X A) : X A :=
  match snd m with
  | XFail e => let r := h e in ((fst m ++ fst r)%list, snd r)
  | _ => m
  end.
Notation "'dox' x <- m ; f" := (xbind m (fun x => f))
  (at level 200, x pattern, m at level 100, f at level 200, right associativity).
Fixpoint xmap {A B} (f : A -> X B) (l : list A) : X (list B) :=
  match l with
  | [] => xret []
  | x :: r => dox y <- f x; dox ys <- xmap f r; xret (y :: ys)
  end.
Definition xwarn (E : env) (f : nat) (code : string) : X unit :=
  if e_warn E f code then xemit (EvWarn f code) else xret tt.

Section Deserializers.
Variable E : env.
Let CT := e_ct E.
Let R := e_rt E.
Variable load : nat -> lopts -> option ty -> value -> X value.
Variable f : nat.

(** default_list.py:12-69: the new error has the source and the target of the old one *)
Fixpoint xlist_go (o : lopts) (warn_on_fail : bool) (t : option ty) (i : nat) (l : list value)
  : X (list value) :=
  match l with
  | [] => xret []
  | x :: r =>
      let m := load f o t x in
      match snd m with
      | XDone y => dox _ <- (fst m, XDone tt);
                   dox ys <- xlist_go o warn_on_fail t (S i) r;
                   xret (y :: ys)
      | XOof => (fst m, XOof)
      | XFail e =>
          if is_deser (e_kind (er_exn e)) then
            if warn_on_fail then
              dox _ <- (fst m, XDone tt);
              dox _ <- xwarn E f "element-not-deserialized";
              xlist_go o warn_on_fail t (S i) r
            else (fst m, XFail (mkErr (mkExn KDeser (e_arg (er_exn e)) (i :: e_idx (er_exn e)) false (e_msg (er_exn e)))
                                      (er_at e)))
          else (fst m, XFail e)
      end
  end.
Definition xdeser_list (o : lopts) (args : list ty) (j : value) : X (list value) :=
  let o' := set_warn false (match args with [] => o | _ => set_inferred true o end) in
  dox l <- xlift (py_iter R j);
  xlist_go o' (lo_warn o) (hd_error args) 0 l.
(** default_iterable.py:8-30 *)
Definition xdeser_iterable (o : lopts) (t : ty) (j : value) : X value :=
  dox args <- xlift (match raw_args t with
                     | None => Ok []
                     | Some [a] => Ok [a]
                     | Some _ => raise KType
                     end);
  dox l <- xdeser_list o args j;
  match t with
  | TApp _ HList _ | TApp _ HIterable _ => xret (VList l)
  | TApp _ HSet _ => if forallb (hashable CT) l then xret (VColl CSet (dedup l []))
                     else xfail (exn_of KType)
  | TApp _ HFrozen _ => if forallb (hashable CT) l then xret (VColl CFrozen (dedup l []))
                        else xfail (exn_of KType)
  | TApp _ HDeque _ => xret (VColl CDeque l)
  | TApp _ HTuple _ => xret (VTuple l)
  | _ => xlift (rt_cast R t (VList l))
  end.
(** default_tuple.py:39-88; the source is the document as given, without the key
    transformer *)
Fixpoint xnt_go (o : lopts) (c : nat) (j : value) (d : option (list (value * value))) (len i : nat)
         (fields : list ntfield) : X (list value) :=
  match fields with
  | [] => xret []
  | fd :: rest =>
      dox x <- xlift (if Nat.ltb i len then
                        match d with
                        | Some d => match dget (VStr (nf_name fd)) d with
                                    | Some x => Ok x
                                    | None => raise KKey
                                    end
                        | None => py_getitem CT j (VInt (Z.of_nat i))
                        end
                      else Ok (match nf_default fd with Some x => x | None => VNone end));
      dox _ <- (if is_none x
                   && negb (existsb (ty_eqb TNoneT)
                              (match nf_hint fd with
                               | Some h => match raw_args h with Some ts => ts | None => [] end
                               | None => [] end))
                then xfail_at (exn_arg KUnfulfilled (nf_name fd)) j (Some (TClass c))
                else xret tt);
      dox y <- load f o (nf_hint fd) x;
      dox ys <- xnt_go o c j d len (S i) rest;
      xret (y :: ys)
  end.
Definition xdeser_namedtuple (o : lopts) (c : nat) (j : value) : X value :=
  dox d <- (match j with
            | VDict _ d =>
                let g := match lo_kt o with Some g => g | None => fun k => Ok k end in
                dox d' <- xlift (transform_keys CT g d []); xret (Some d')
            | _ => xret None
            end);
  dox l <- xlift (py_iter R j);
  dox vs <- xnt_go o c j d (length l) 0 (nt_fields CT c);
  xret (VNT c vs).
(** default_tuple.py:12-36 *)
Fixpoint xtuple_go (o : lopts) (l : list value) (ts : list ty) : X (list value) :=
  match l with
  | [] => xret []
  | x :: r => match ts with
              | [] => xfail (exn_of KIndex)
              | t :: ts' => dox y <- load f o (Some t) x;
                            dox ys <- xtuple_go o r ts';
                            xret (y :: ys)
              end
  end.
Definition xdeser_tuple (o : lopts) (t : ty) (j : value) : X value :=
  let o' := set_kt None o in
  let plain :=
    dox l <- xlift (py_iter R j);
    match get_args (Some t) with
    | [] => dox vs <- xmap (load f o' None) l; xret (VTuple vs)
    | (t0 :: _) as ts =>
        let ts' := if ty_eqb TEllipsis (last ts TAny) then repeat t0 (length l) else ts in
        dox vs <- xtuple_go o' l ts'; xret (VTuple vs)
    end in
  match t with
  | TClass c => match ci_kind (CT c) with
                | CkNT _ => xdeser_namedtuple o c j
                | _ => plain
                end
  | _ => plain
  end.
(** default_union.py:9-30; [u] is the Union *)
Fixpoint xunion_go (o : lopts) (u : ty) (j : value) (ts : list ty) : X value :=
  match ts with
  | [] => xfail_at (exn_of KDeser) j (Some u)
  | t :: r => xtry (load f o (Some t) j)
                   (fun e => if is_jsons (e_kind (er_exn e)) then xunion_go o u j r else xraise e)
  end.
Definition xdeser_union (o : lopts) (t : ty) (j : value) : X value :=
  match raw_args t with
  | None => xfail (exn_of KType)
  | Some ts => xunion_go o t j ts
  end.
(** default_dict.py:32-62; [t] is the class that default_dict_deserializer gets, see
    [xdeser_mapping] *)
Fixpoint xhashed_go (o : lopts) (kt : ty) (stored : list (value * value)) (result : list (value * value))
  : X (list (value * value)) :=
  match stored with
  | [] => if dhas (VStr "-keys") result then xret (ddel (VStr "-keys") result)
          else xfail (exn_of KKey)
  | (h, orig) :: r =>
      dox k <- load f o (Some kt) orig;
      match dget h result with
      | None => xfail (exn_of KKey)
      | Some x => if hashable CT k && negb (py_eqb (VStr "-keys") k)
                  then xhashed_go o kt r (ddel h (dset k x result))
                  else xfail (exn_of KType)
      end
  end.
Definition xload_hashed_keys (o : lopts) (t : ty) (args : list ty) (j : value) (d : list (value * value))
  : X (list (value * value) * bool) :=
  match dget (VStr "-keys") d with
  | None => xret (d, false)
  | Some keys =>
      dox ks <- xlift (py_iter R keys);
      match ks with
      | [] => xret (d, false)
      | _ :: _ =>
          match args, keys with
          | [kt; _], VDict _ stored => dox d' <- xhashed_go o kt stored d; xret (d', true)
          | [_; _], _ => xfail (exn_of KType)
          | _, _ => xfail_at (exn_of KDeser) j (Some t)
          end
      end
  end.
(** default_dict.py:65-87 *)
Fixpoint xdict_go (ok ov : lopts) (g : value -> res value) (key_cls : option ty)
         (val_cls : option ty) (d acc : list (value * value)) : X (list (value * value)) :=
  match d with
  | [] => xret acc
  | (k, x) :: r =>
      dox k1 <- xlift (g k);
      dox k2 <- (match key_cls with Some t => load f ok (Some t) k1 | None => xret k1 end);
      dox y <- load f ov val_cls x;
      if hashable CT k2 then xdict_go ok ov g key_cls val_cls r (dset k2 y acc)
      else xfail (exn_of KType)
  end.
(** default_dict.py:9-29 *)
Definition xdeser_dict (o : lopts) (t : ty) (args : list ty) (j : value) : X (list (value * value)) :=
  match j with
  | VDict _ d =>
      dox dh <- xload_hashed_keys o t args j d;
      let g := match lo_kt o with Some g => g | None => fun k => Ok k end in
      let ov := set_kt (Some g) o in
      let ok := set_kt None o in
      match args with
      | [tk; tv] => xdict_go ok ov g (if snd dh then None else Some tk) (Some tv) (fst dh) []
      | _ => xdict_go ok ov g None None (fst dh) []
      end
  | _ => xfail (exn_of KAttribute)
  end.
(** default_mapping.py:9-27: default_dict_deserializer is called with collections.abc.Mapping
    or typing.Mapping[K, V]. *)
Definition xdeser_mapping (o : lopts) (t : ty) (j : value) : X value :=
  dox args <- xlift (match get_args (Some t) with
                     | [] => Ok []
                     | [a; b] => Ok [a; b]
                     | _ => raise KType
                     end);
  dox d <- xdeser_dict o (match args with [] => TApp false HMapping [] | _ => TApp true HMapping args end) args j;
  match t with
  | TApp _ HDict _ | TApp _ HMapping _ | TApp _ HIterable _ => xret (VDict DkDict d)
  | TApp _ HOrderedDict _ => xret (VDict DkOrdered d)
  | TObject => xret (VDict DkDict d)
  | _ => xlift (rt_cast R t (VDict DkDict d))
  end.
(** default_defaultdict.py:9-32 *)
Definition xdeser_defaultdict (o : lopts) (t : ty) (j : value) : X value :=
  dox t' <- xlift (match get_args (Some t) with
                   | [] => Ok (TApp true HDict [])
                   | [a; b] => Ok (TApp true HDict [a; b])
                   | _ => raise KValue
                   end);
  dox r <- load f o (Some t') j;
  match r with
  | VDict _ d => xret (VDict DkDefault d)
  | _ => xfail (exn_of KType)
  end.
(** default_primitive.py:6-24 *)
Definition xdeser_primitive (t : ty) (j : value) : X value :=
  match j with
  | VNone => xret VNone
  | _ => dox b <- xlift (is_instance CT j t);
         if b then xret j
         else match cast R t j with
              | Ok r => xret r
              | Err e => if is_valueerror (e_kind e) then xfail_at (exn_of KDeser) j (Some t) else xfail e
              end
  end.
(** default_string.py:9-27 *)
Definition xdeser_string (o : lopts) (t : ty) (j : value) : X value :=
  if ty_eqb t (TPrim PStr) && negb (lo_inferred o) then
    xlift (dor s <- py_str R j; Ok (VStr s))
  else
    xtry (load f o (Some (TLeaf LkDatetime)) j)
         (fun e => if is_deser (e_kind (er_exn e)) then xdeser_primitive (TPrim PStr) j else xraise e).
(** default_timezone.py:6-16 *)
Definition xdeser_timezone (j : value) : X value :=
  dox off <- xlift (py_getitem CT j (VStr "offset"));
  dox td <- load 0 lopts0 (Some (TLeaf LkTimedelta)) off;
  dox name <- xlift (py_getitem CT j (VStr "name"));
  match td, name with
  | VLeaf (LTimedelta us), VStr n =>
      if timezone_ok us then xret (VLeaf (LTimezone us (Some n))) else xfail (exn_of KValue)
  | _, _ => xfail (exn_of KType)
  end.
(** default_complex.py:7-28 *)
Definition xdeser_complex (j : value) : X value :=
  xtry
    (dox re <- xlift (py_getitem CT j (VStr "real"));
     dox im <- xlift (py_getitem CT j (VStr "imag"));
     dox d <- load 0 lopts0 (Some (TApp true HDict [TPrim PStr; TPrim PFloat]))
                   (str_dict [("real", re); ("imag", im)]);
     dox re' <- xlift (py_getitem CT d (VStr "real"));
     dox im' <- xlift (py_getitem CT d (VStr "imag"));
     match re', im' with
     | VFloat x, VFloat y => xret (VLeaf (LComplex x y))
     | _, _ => xfail (exn_of KType)
     end)
    (fun e => if is_keyerror (e_kind (er_exn e)) || is_deser (e_kind (er_exn e))
              then xfail (exn_of KAttribute) else xraise e).
(** default_object.py:122-141; [src] is the document with its keys transformed, the source
    of an UnknownClassError *)
Definition xvalue_from_obj (o : lopts) (src : value) (hints : list (value * value)) (p : param) (x : value)
  : X value :=
  let key := "/" ++ pa_name p in
  dox mh <- (match dget (VStr key) hints with
             | Some s =>
                 if truthy R s then
                   match s with
                   | VStr s => dox t <- xresolved src (e_resolve E f s);
                               dox h <- xlift (shift_hints key hints []);
                               xret (Some t, h)
                   | _ => xfail (exn_of KType)
                   end
                 else xret (None, hints)
             | None => xret (None, hints)
             end);
  load f (set_hints (Some (snd mh)) o) (determine_precedence (pa_hint p) (fst mh) None true) x.
(** default_object.py:82-113; [t] is the class of the object *)
Definition xvalue_for_attr (o : lopts) (t : ty) (src : value) (hints d : list (value * value))
           (getters : list (string * res value)) (p : param) : X (option value) :=
  match dget (VStr (pa_name p)) d with
  | Some x => dox y <- xvalue_from_obj o src hints p x; xret (Some y)
  | None =>
      match sget (pa_name p) getters with
      | Some g => dox _ <- xemit (EvGetter (pa_name p)); dox y <- xlift g; xret (Some y)
      | None =>
          match pa_default p with
          | Some x => xret (Some x)
          | None =>
              if pa_var p then xret None
              else
                dox b <- xlift (can_match_none CT (pa_hint p));
                if b then xret (Some VNone) else xfail_at (exn_arg KUnfulfilled (pa_name p)) src (Some t)
          end
      end
  end.
(** default_object.py:48-74 *)
Fixpoint xconstructor_args (o : lopts) (t : ty) (src : value) (hints d : list (value * value))
         (getters : list (string * res value)) (ps : list param) : X (list (string * value)) :=
  match ps with
  | [] => xret []
  | p :: r =>
      dox x <- xvalue_for_attr o t src hints d getters p;
      dox rest <- xconstructor_args o t src hints d getters r;
      xret (match x with Some y => (pa_name p, y) :: rest | None => rest end)
  end.
(** default_object.py:186-200 *)
Definition xremaining_args (strict : bool) (t : ty) (src : value) (d : list (value * value)) (args : list (string * value))
  : X (list (value * value)) :=
  match remaining_args strict d args with
  | Ok rest => xret rest
  | Err e => xfail_at e src (Some t)
  end.
(** default_object.py:144-171 *)
Fixpoint xset_remaining (o : lopts) (ci : cinfo) (rest : list (value * value))
         (attrs : list (string * value)) : X (list (string * value)) :=
  match rest with
  | [] => xret attrs
  | (k, x) :: r =>
      let hint := match k with VStr a => sget a (ci_hints ci) | _ => None end in
      dox _ <- (match hint with
                | None => if has_keys_section x then xwarn E f "hashed-keys-without-hint" else xret tt
                | Some _ => xret tt
                end);
      dox y <- load f o (Some (match hint with Some t => t | None => class_of x end)) x;
      match k with
      | VStr a =>
          match ci_set ci a y attrs with
          | Ok attrs' => xset_remaining o ci r attrs'
          | Err e => if is_attributeerror (e_kind e) then xset_remaining o ci r attrs else xfail e
          end
      | _ => xfail (exn_of KType)
      end
  end.
Fixpoint xset_getter_attrs (ci : cinfo) (gs : list (string * res value)) (attrs : list (string * value))
  : X (list (string * value)) :=
  match gs with
  | [] => xret attrs
  | (a, g) :: r =>
      dox _ <- xemit (EvGetter a);
      dox y <- xlift g;
      dox attrs' <- xlift (ci_set ci a y attrs);
      xset_getter_attrs ci r attrs'
  end.
(** default_object.py:17-45.  The source is the dict with its keys transformed if there is a
    key transformer, and else the document. *)
Definition xdeser_object (o : lopts) (t : ty) (j : value) : X value :=
  match cid_of E t with
  | None => xfail (exn_of KType)
  | Some c =>
      let ci := CT c in
      dox d0 <- xlift (obj_items j);
      dox d <- xlift (match lo_kt o with
                      | Some g => transform_keys CT g d0 []
                      | None => Ok d0
                      end);
      let src := match lo_kt o with Some _ => VDict DkDict d | None => j end in
      let getters := lo_getters o in
      let hints := match lo_hints o with Some h => h | None => [] end in
      let o' := set_getters [] o in
      dox args <- xconstructor_args o' t src hints d getters (ci_params ci);
      dox rest <- xremaining_args (lo_strict o) t src d args;
      dox _ <- xemit (EvInit c);
      dox attrs <- xlift (ci_init ci args);
      dox attrs1 <- xset_remaining o' ci rest attrs;
      dox attrs2 <- xset_getter_attrs ci getters attrs1;
      xret (VObj c attrs2)
  end.
(** The dispatch, see [deser_step] *)
Definition xdeser_step (o : lopts) (h : dhandler) (t : ty) (j : value) : X value :=
  match h with
  | DList => dox l <- xdeser_list o (get_args (Some t)) j; xret (VList l)
  | DTuple => xdeser_tuple o t j
  | DUnion => xdeser_union o t j
  | DDefaultDict => xdeser_defaultdict o t j
  | DDatetime => match j with
                 | VStr s => xlift (dor x <- load_datetime s; Ok (VLeaf (LDatetime x)))
                 | _ => xfail (exn_of KType)
                 end
  | DDate => match j with
             | VStr s => xlift (dor x <- load_date s; Ok (VLeaf (LDate x)))
             | _ => xfail (exn_of KType)
             end
  | DTime => match j with
             | VStr s => xlift (dor x <- load_time s; Ok (VLeaf (LTime x)))
             | _ => xfail (exn_of KType)
             end
  | DTimezone => xdeser_timezone j
  | DTimedelta => xlift (deser_timedelta j)
  | DString => xdeser_string o t j
  | DNone => match j with VNone => xret VNone | _ => xfail_at (exn_of KDeser) j (Some t) end
  | DPrimitive => xdeser_primitive t j
  | DEnum => xlift (deser_enum CT (lo_enum_name o) t j)
  | DMapping => xdeser_mapping o t j
  | DIterable => xdeser_iterable o t j
  | DObject => xdeser_object o t j
  | DUUID => match j with
             | VStr s => xlift (dor n <- uuid_parse s; Ok (VLeaf (LUUID n)))
             | _ => xfail (exn_of KAttribute)
             end
  | DComplex => xdeser_complex j
  | DDecimal => xlift (dor s <- rt_decimal R j; Ok (VLeaf (LDecimal s)))
  | DPath => xlift (dor s <- rt_path R j; Ok (VLeaf (LPath s)))
  | DZone => dox k <- xlift (py_getitem CT j (VStr "key"));
             xlift (dor s <- rt_zone R k; Ok (VLeaf (LZone s)))
  | DCustom n => xlift (e_cdeser E n t j)
  end.
(** _do_load, _load_impl.py:104-125 *)
Definition xwrap {A} (j : value) (t : ty) (m : X A) : X A :=
  xtry m (fun e => if is_jsons (e_kind (er_exn e)) then xraise e else xfail_at (exn_of KDeser) j (Some t)).
(** load, _load_impl.py:26-101, 188-219 *)
Definition xload_step (o : lopts) (cls : option ty) (j : value) : X value :=
  dox _ <- (if is_none j then
              dox b <- xlift (can_match_none CT cls);
              if b then xret tt else xfail_at (exn_of KDeser) j cls
            else xret tt);
  if (negb (lo_strict o) && same_type j cls)
     || match cls with Some TAny => true | _ => false end
  then
    dox _ <- xlift (match cls with Some t => validate E f j t | None => Ok tt end);
    xret j
  else
    dox cls1 <- (match cls with
                 | Some (TFwd s) => dox t <- xresolved j (e_resolve E f s); xret (Some t)
                 | _ => xret cls
                 end);
    if negb (valid_type j) then xfail_at (exn_of KDeser) j cls1
    else
      dox mh <- xresolved j (get_cls_and_meta E f j);
      match determine_precedence cls1 (fst mh) (Some (class_of j)) (lo_inferred o) with
      | None => xfail_at (exn_of KDeser) j None            (* unreachable *)
      | Some t =>
          match e_deser E f t with
          | None => xfail_at (exn_of KDeser) j (Some t)
          | Some h =>
              let hints := match lo_hints o with Some h => h | None => snd mh end in
              let o' := set_inferred (changed t cls1) (set_hints (Some hints) o) in
              xwrap j t (dox r <- xdeser_step o' h t j;
                         dox _ <- xlift (validate E f r t);
                         xret r)
          end
      end.
End Deserializers.

Fixpoint xload (E : env) (n : nat) (f : nat) (o : lopts) (cls : option ty) (j : value) : X value :=
  match n with
  | O => xoof
  | S n' => xload_step E (xload E n') f o cls j
  end.
