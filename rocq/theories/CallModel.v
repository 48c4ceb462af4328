(** * Model of the calls of dump, dumps, dumpb, load, loads and loadb with Python's
      positional and keyword arguments, and of classes/verbosity.py

    The engine model takes its options as records; here they are read from the keyword
    arguments, which travel from the outermost call down to each serializer.

    Simplifications.  [jdkwargs] other than None or {} is not modelled.  An argument of a type
    that the option does not take (a number as [types], say) gives a TypeError at once; in the
    code it fails where it is used. *)
From Verif Require Export PyBase EngineTypes EngineSer EngineDeser JsonTextModel.
Set Implicit Arguments.
Local Open Scope string_scope.

(** ** classes/verbosity.py *)

(** Verbosity, verbosity.py:7-15: a Flag with the values 0, 10, 20 and 10 | 20.  The bits of 10
    and 20 are disjoint, so a member is a pair of flags. *)
Record verbosity : Type := mkVerb { vb_class_info : bool; vb_dump_time : bool }.
Definition with_nothing : verbosity := mkVerb false false.
Definition with_class_info : verbosity := mkVerb true false.
Definition with_dump_time : verbosity := mkVerb false true.
Definition with_everything : verbosity := mkVerb true true.
Definition verb_value (b : verbosity) : Z :=
  ((if vb_class_info b then 10 else 0) + (if vb_dump_time b then 20 else 0))%Z.

(** The arguments of a call. *)
Inductive arg : Type :=
| AVal (v : value)
| AText (s : text)                            (* a str, as its code points *)
| ABytes (b : string)
| AType (t : ty)                              (* a class or type hint *)
| AFork (f : nat)                             (* a class object used as fork_inst *)
| AFun (g : value -> res value)
| AVerb (b : verbosity)
| AAttrs (a : sattr)                          (* a name, tuple or list of names *)
| ATypes (l : list (value * ty))
| AGetters (l : list (string * res value)).
Definition kwargs : Type := list (string * arg).

Definition arg_truthy (R : runtime) (a : arg) : bool :=
  match a with
  | AVal v => truthy R v
  | AText s => negb (Nat.eqb (length s) 0)
  | ABytes b => negb (String.eqb b "")
  | AVerb b => vb_class_info b || vb_dump_time b
  | AAttrs SANone => false
  | AAttrs (SAName s) => negb (String.eqb s "")
  | AAttrs (SATuple l) | AAttrs (SAList l) => negb (Nat.eqb (length l) 0)
  | ATypes l => negb (Nat.eqb (length l) 0)
  | AGetters l => negb (Nat.eqb (length l) 0)
  | AType _ | AFork _ | AFun _ => true
  end.

(** Verbosity.from_value, verbosity.py:17-32.  [value in (False, None)] compares with [==], and
    what equals False or None is false in a condition. *)
Definition verb_from_value (R : runtime) (a : arg) : verbosity :=
  match a with
  | AVerb b => b
  | AVal VNone | AVal (VBool false) => with_nothing
  | AVal (VBool true) => with_everything
  | _ => if arg_truthy R a then with_everything else with_nothing
  end.

(** ** Binding arguments to parameters *)

(** A signature: positional parameters with "has a default", whether there is a *args,
    keyword-only parameters (all with defaults), whether there is a **kwargs. *)
Record signature : Type := mkSig {
  g_pos : list (string * bool);
  g_var : bool;
  g_kwonly : list string;
  g_varkw : bool }.
Record bound : Type := mkBound {
  b_named : kwargs;
  b_args : list arg;
  b_kwargs : kwargs }.

Fixpoint bind_pos (ps : list (string * bool)) (args : list arg) : kwargs * list arg :=
  match ps, args with
  | (p, _) :: ps', a :: args' => let (n, r) := bind_pos ps' args' in ((p, a) :: n, r)
  | _, _ => ([], args)
  end.
Fixpoint bind_kws (s : signature) (named rest : kwargs) (kw : kwargs) : res (kwargs * kwargs) :=
  match kw with
  | [] => Ok (named, rest)
  | (k, a) :: r =>
      if mem_str k (map fst (g_pos s)) || mem_str k (g_kwonly s)
      then if shas k named then raise KType
           else bind_kws s (named ++ [(k, a)])%list rest r
      else if g_varkw s then bind_kws s named (rest ++ [(k, a)])%list r else raise KType
  end.
Definition bind_call (s : signature) (args : list arg) (kw : kwargs) : res bound :=
  let (named, extra) := bind_pos (g_pos s) args in
  if negb (Nat.eqb (length extra) 0) && negb (g_var s) then raise KType
  else
    dor nr <- bind_kws s named [] kw;
    if forallb (fun p => snd p || shas (fst p) (fst nr)) (g_pos s)
    then Ok (mkBound (fst nr) extra (snd nr)) else raise KType.
(** f(k1=a1, ..., **kw): a name given twice is a TypeError. *)
Definition with_kw (explicit kw : kwargs) : res kwargs :=
  if existsb (fun p => shas (fst p) explicit) kw then raise KType else Ok (explicit ++ kw)%list.
(** {**a, **b} *)
Definition merge_kw (a b : kwargs) : kwargs := fold_left (fun d p => sset (fst p) (snd p) d) b a.

Definition binding {A} (s : signature) (args : list arg) (kw : kwargs) (k : bound -> M A) : M A :=
  match bind_call s args kw with Ok b => k b | Err e => fail e end.

(** ** The options of the serializers and deserializers *)
Definition flag (R : runtime) (kw : kwargs) (k : string) (default : bool) : bool :=
  match sget k kw with Some a => arg_truthy R a | None => default end.
(** key_transformer: used if true in a condition; calling what is not callable raises. *)
Definition kt_of (R : runtime) (kw : kwargs) : option (value -> res value) :=
  match sget "key_transformer" kw with
  | None => None
  | Some (AFun g) => Some g
  | Some a => if arg_truthy R a then Some (fun _ => raise KType) else None
  end.
(** The signatures of the serializers: serializers/default_object.py:19-31, default_dict.py:9-16,
    default_enum.py:4-7, default_datetime.py and others; [strict] of dump itself. *)
Definition sopts_of (R : runtime) (strict : bool) (kw : kwargs) : option sopts :=
  let b := match sget "verbose" kw with Some a => verb_from_value R a | None => with_nothing end in
  let attr := match sget "strip_attr" kw with
              | None | Some (AVal VNone) => Some SANone
              | Some (AAttrs a) => Some a
              | Some _ => None
              end in
  let types := match sget "types" kw with
               | None | Some (AVal VNone) => Some []
               | Some (ATypes l) => Some l
               | Some _ => None
               end in
  match attr, types with
  | Some attr, Some types =>
      Some (mkSopts strict (flag R kw "strip_nulls" false) (kt_of R kw)
              (flag R kw "strip_privates" false) (flag R kw "strip_properties" false)
              (flag R kw "strip_class_variables" false) attr (vb_class_info b) (vb_dump_time b)
              (flag R kw "_store_cls" false) (flag R kw "use_enum_name" true)
              (flag R kw "strip_microseconds" false) types)
  | _, _ => None
  end.
(** The signatures of the deserializers; load itself: _load_impl.py:26-33, 78-101. *)
Definition lopts_of (R : runtime) (strict : bool) (getters : option arg) (kw : kwargs) : option lopts :=
  let gs := match getters with
            | None | Some (AVal VNone) => Some []
            | Some (AGetters l) => Some l
            | Some _ => None
            end in
  let hints := match sget "meta_hints" kw with
               | None => Some None
               | Some (AVal (VDict _ d)) => Some (Some d)
               | Some _ => None
               end in
  match gs, hints with
  | Some gs, Some hints =>
      Some (mkLopts strict gs (kt_of R kw) hints (flag R kw "_inferred_cls" false)
              (flag R kw "warn_on_fail" false)
              (match sget "use_enum_name" kw with
               | None => None
               | Some (AVal (VBool false)) => Some false
               | Some a => if arg_truthy R a then Some true else None
               end))
  | _, _ => None
  end.

(** cls=...: None or a type. *)
Definition type_arg (a : option arg) : res (option ty) :=
  match a with
  | None | Some (AVal VNone) => Ok None
  | Some (AType t) => Ok (Some t)
  | Some _ => raise KType
  end.
(** fork_inst=...: the default is StateHolder; anything but a class object has no
    [_serializers]. *)
Definition fork_arg (a : option arg) : res nat :=
  match a with
  | None => Ok 0
  | Some (AFork f) => Ok f
  | Some _ => raise KAttribute
  end.
(** jdkwargs or {} *)
Definition jd_arg (R : runtime) (a : option arg) : res unit :=
  match a with
  | None => Ok tt
  | Some a => if arg_truthy R a then raise (KOther 0) else Ok tt
  end.
(** encoding='utf-8' *)
Definition enc_arg (a : option arg) : res string :=
  match a with
  | None => Ok "utf-8"
  | Some (AVal (VStr s)) => Ok s
  | Some _ => raise KType
  end.

(** ** The functions *)
Section Calls.
Variable E : env.
Variable T : textrt.
Variable n : nat.                                    (* bounds the depth of nested calls *)
Let R := e_rt E.

(** dump, _dump_impl.py:16-55 *)
Definition sig_dump : signature := mkSig [("obj", false); ("cls", true)] false ["strict"; "fork_inst"] true.
Definition call_dump (args : list arg) (kw : kwargs) : M value :=
  binding sig_dump args kw (fun b =>
    match sget "obj" (b_named b) with
    | Some (AVal v) =>
        dom cls <- lift (type_arg (sget "cls" (b_named b)));
        dom f <- lift (fork_arg (sget "fork_inst" (b_named b)));
        match sopts_of R (flag R (b_named b) "strict" false) (b_kwargs b) with
        | Some o => dump E f n o cls v
        | None => fail (exn_of KType)
        end
    | _ => fail (exn_of KType)
    end).
(** dumps, _dump_impl.py:69-88 *)
Definition sig_dumps : signature := mkSig [("obj", false); ("jdkwargs", true)] true [] true.
Definition call_dumps (args : list arg) (kw : kwargs) : M string :=
  binding sig_dumps args kw (fun b =>
    match sget "obj" (b_named b) with
    | Some obj =>
        dom _ <- lift (jd_arg R (sget "jdkwargs" (b_named b)));
        dom j <- call_dump (obj :: b_args b) (b_kwargs b);
        lift (json_dumps T (e_ct E) j)
    | None => fail (exn_of KType)
    end).
(** dumpb, _dump_impl.py:91-113 *)
Definition sig_dumpb : signature :=
  mkSig [("obj", false); ("encoding", true); ("jdkwargs", true)] true [] true.
Definition call_dumpb (args : list arg) (kw : kwargs) : M string :=
  binding sig_dumpb args kw (fun b =>
    match sget "obj" (b_named b) with
    | Some obj =>
        dom _ <- lift (jd_arg R (sget "jdkwargs" (b_named b)));
        dom j <- call_dump (obj :: b_args b) (b_kwargs b);
        dom s <- lift (json_dumps T (e_ct E) j);
        dom enc <- lift (enc_arg (sget "encoding" (b_named b)));
        lift (encode_text T enc s)
    | None => fail (exn_of KType)
    end).

(** load, _load_impl.py:26-101 *)
Definition sig_load : signature :=
  mkSig [("json_obj", false); ("cls", true)] false ["strict"; "fork_inst"; "attr_getters"] true.
Definition call_load (args : list arg) (kw : kwargs) : M value :=
  binding sig_load args kw (fun b =>
    match sget "json_obj" (b_named b) with
    | Some (AVal j) =>
        dom cls <- lift (type_arg (sget "cls" (b_named b)));
        dom f <- lift (fork_arg (sget "fork_inst" (b_named b)));
        match lopts_of R (flag R (b_named b) "strict" false) (sget "attr_getters" (b_named b)) (b_kwargs b) with
        | Some o => load E n f o cls j
        | None => fail (exn_of KType)
        end
    | _ => fail (exn_of KType)
    end).
(** json.loads of a str or bytes: json/__init__.py:299-359 *)
Definition parse_arg (a : arg) : M value :=
  dom s <- match a with
           | AText s => ret s
           | AVal (VStr s) => ret (codes s)
           | ABytes b => lift (tr_detect T b)
           | _ => fail (exn_of KType)
           end;
  match json_loads T s with Some j => ret j | None => fail (exn_of KDecode) end.
(** loads, _load_impl.py:128-155; an explicit cls is passed on as a positional argument. *)
Definition sig_loads : signature :=
  mkSig [("str_", false); ("cls", true); ("jdkwargs", true)] true [] true.
Definition or_none (a : option arg) : arg := match a with Some a => a | None => AVal VNone end.
Definition call_loads (args : list arg) (kw : kwargs) : M value :=
  binding sig_loads args kw (fun b =>
    match sget "str_" (b_named b) with
    | Some str_ =>
        dom _ <- lift (jd_arg R (sget "jdkwargs" (b_named b)));
        dom j <- parse_arg str_;
        call_load (AVal j :: or_none (sget "cls" (b_named b)) :: b_args b) (b_kwargs b)
    | None => fail (exn_of KType)
    end).
(** loadb, _load_impl.py:158-185 *)
Definition sig_loadb : signature :=
  mkSig [("bytes_", false); ("cls", true); ("encoding", true); ("jdkwargs", true)] true [] true.
Definition call_loadb (args : list arg) (kw : kwargs) : M value :=
  binding sig_loadb args kw (fun b =>
    match sget "bytes_" (b_named b) with
    | Some (ABytes s) =>
        dom _ <- lift (jd_arg R (sget "jdkwargs" (b_named b)));
        dom enc <- lift (enc_arg (sget "encoding" (b_named b)));
        dom str_ <- lift (decode_bytes T enc s);
        match with_kw [("jdkwargs", AVal (VDict DkDict []))] (b_kwargs b) with
        | Ok kw' => call_loads (AText str_ :: or_none (sget "cls" (b_named b)) :: b_args b) kw'
        | Err e => fail e
        end
    | _ => fail (exn_of KDeser)
    end).
End Calls.
