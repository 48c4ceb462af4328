(** * The universe of the engine model: Python values, types and classes

    No jsons code is modelled here, except [class_name] and [simple_name]
    (get_class_name, jsons/_common_impl.py:46-76, 152-171) and [naked_sub] (what
    [issubclass] answers in _get_parents, _lizers_impl.py:143-159).

    What is left out of the universe: subclasses of builtin types other than enums
    and named tuples, user-defined generic classes, cyclic values, bytes, and types
    of the typing module other than those below. *)
From Verif Require Export PyBase LookupModel LeafModel.
Set Implicit Arguments.
Local Open Scope string_scope.

(** ** Types *)
Inductive prim : Type := PStr | PInt | PFloat | PBool.
Inductive leafk : Type :=
| LkDatetime | LkDate | LkTime | LkTimedelta | LkTimezone | LkUUID | LkDecimal
| LkComplex | LkPath | LkZone.
Inductive head : Type :=
| HList | HTuple | HDict | HSet | HFrozen | HDeque | HDefaultDict | HOrderedDict
| HMapping | HIterable.

(** [TApp false HList []] is [list], [TApp true HList []] is [typing.List],
    [TApp true HList [t]] is [List[t]], [TApp false HList [t]] is [list[t]].
    [Tuple[t, ...]] is [TApp true HTuple [t; TEllipsis]].  [TUnion l] is [Union[l]];
    [TUnionForm] and [TOptionalForm] are the bare special forms.  [TFwd s] is the
    string [s] given in place of a type. *)
Inductive ty : Type :=
| TPrim (p : prim)
| TNoneT
| TAny
| TObject
| TApp (typing : bool) (h : head) (args : list ty)
| TUnion (args : list ty)
| TUnionForm | TOptionalForm
| TEnumBase | TIntEnumBase
| TLeaf (k : leafk)
| TClass (c : nat)
| TNewType (module name : string) (super : ty)
| TEllipsis
| TFwd (s : string).

Definition prim_eqb (a b : prim) : bool :=
  match a, b with
  | PStr, PStr | PInt, PInt | PFloat, PFloat | PBool, PBool => true
  | _, _ => false
  end.
Definition leafk_eqb (a b : leafk) : bool :=
  match a, b with
  | LkDatetime, LkDatetime | LkDate, LkDate | LkTime, LkTime | LkTimedelta, LkTimedelta
  | LkTimezone, LkTimezone | LkUUID, LkUUID | LkDecimal, LkDecimal | LkComplex, LkComplex
  | LkPath, LkPath | LkZone, LkZone => true
  | _, _ => false
  end.
Definition head_eqb (a b : head) : bool :=
  match a, b with
  | HList, HList | HTuple, HTuple | HDict, HDict | HSet, HSet | HFrozen, HFrozen
  | HDeque, HDeque | HDefaultDict, HDefaultDict | HOrderedDict, HOrderedDict
  | HMapping, HMapping | HIterable, HIterable => true
  | _, _ => false
  end.
Definition list_eqb {X} (eqb : X -> X -> bool) : list X -> list X -> bool :=
  fix go (a b : list X) : bool :=
    match a, b with
    | [], [] => true
    | x :: a', y :: b' => eqb x y && go a' b'
    | _, _ => false
    end.
(** Equality (and, for the types here, identity) of type objects. *)
Fixpoint ty_eqb (a b : ty) {struct a} : bool :=
  match a, b with
  | TPrim p, TPrim q => prim_eqb p q
  | TNoneT, TNoneT | TAny, TAny | TObject, TObject | TUnionForm, TUnionForm
  | TOptionalForm, TOptionalForm | TEnumBase, TEnumBase | TIntEnumBase, TIntEnumBase
  | TEllipsis, TEllipsis => true
  | TApp t h l, TApp t' h' l' => Bool.eqb t t' && head_eqb h h' && list_eqb ty_eqb l l'
  | TUnion l, TUnion l' => list_eqb ty_eqb l l'
  | TLeaf k, TLeaf k' => leafk_eqb k k'
  | TClass c, TClass c' => Nat.eqb c c'
  | TNewType m n s, TNewType m' n' s' => String.eqb m m' && String.eqb n n' && ty_eqb s s'
  | TFwd s, TFwd s' => String.eqb s s'
  | _, _ => false
  end.

(** ** Values *)
Inductive coll : Type := CSet | CFrozen | CDeque.
Inductive dkind : Type := DkDict | DkOrdered | DkDefault.
Inductive leaf : Type :=
| LDatetime (dt : datetime)
| LDate (d : date)
| LTime (t : time)
| LTimedelta (us : Z)
| LTimezone (off : Z) (name : option string)
| LUUID (n : Z)
| LDecimal (s : string)         (* a Decimal, by its str() *)
| LComplex (re im : pyfloat)
| LPath (s : string)            (* a PurePath, by its as_posix() *)
| LZone (key : string).

(** Sets are lists without duplicates in iteration order, which is taken to be the
    insertion order.  [VEnum c n] is the member of enum [c] whose (canonical) name
    is [n]; [VNT c l] an instance of the named tuple class [c]; [VObj c attrs] an
    instance of [c] with its [__dict__] (or its slots). *)
Inductive value : Type :=
| VNone
| VBool (b : bool)
| VInt (z : Z)
| VFloat (f : pyfloat)
| VStr (s : string)
| VList (l : list value)
| VTuple (l : list value)
| VColl (k : coll) (l : list value)
| VDict (k : dkind) (d : list (value * value))
| VLeaf (x : leaf)
| VEnum (c : nat) (n : string)
| VNT (c : nat) (l : list value)
| VObj (c : nat) (attrs : list (string * value)).

(** ** Classes *)
(** What the class dict (merged along the MRO) holds under a name: a property, a
    function / static / class method, a slot descriptor, a class ([Some b]: [b] says
    whether its source text occurs in that of the outer class; [None]:
    inspect.getsource raises), or anything else. *)
Inductive member : Type :=
| MProp
| MCallable
| MSlot
| MClass (inner : option bool)
| MVar (v : value).

(** A parameter of [__init__], without [self]. *)
Record param : Type := mkParam {
  pa_name : string;
  pa_hint : option ty;
  pa_default : option value;
  pa_var : bool }.               (* *args or **kwargs *)

Record ntfield : Type := mkField {
  nf_name : string; nf_hint : option ty; nf_default : option value }.

Inductive ckind : Type :=
| CkObj
| CkEnum (mixin : option prim) (members : list (string * value))
| CkNT (fields : list ntfield).

Record cinfo : Type := mkCinfo {
  ci_module : string;                     (* __module__ *)
  ci_simple : string;                     (* __name__ *)
  ci_kind : ckind;
  ci_supers : list ty;                    (* further classes that issubclass accepts *)
  ci_params : list param;                 (* inspect.signature(c.__init__) *)
  ci_hints : list (string * ty);          (* get_type_hints(c), _compatibility_impl.py:68-91 *)
  ci_slots : option (list string);        (* c.__dict__['__slots__'] *)
  ci_members : list (string * member);    (* _get_complete_class_dict(c) *)
  ci_prop : string -> list (string * value) -> res value;   (* the properties *)
  ci_init : list (string * value) -> res (list (string * value));  (* c(\*\*kwargs) *)
  ci_set : string -> value -> list (string * value) -> res (list (string * value));
                                          (* setattr *)
  ci_attrs : bool;                        (* has __attrs_attrs__ *)
  ci_hashable : bool }.

(** get_class_name(c, fully_qualified=True) of a class outside the builtins module. *)
Definition ci_name (ci : cinfo) : string := ci_module ci ++ "." ++ ci_simple ci.

Definition classes := nat -> cinfo.

(** type(v) *)
Definition leaf_kind (x : leaf) : leafk :=
  match x with
  | LDatetime _ => LkDatetime | LDate _ => LkDate | LTime _ => LkTime
  | LTimedelta _ => LkTimedelta | LTimezone _ _ => LkTimezone | LUUID _ => LkUUID
  | LDecimal _ => LkDecimal | LComplex _ _ => LkComplex | LPath _ => LkPath
  | LZone _ => LkZone
  end.
Definition class_of (v : value) : ty :=
  match v with
  | VNone => TNoneT
  | VBool _ => TPrim PBool
  | VInt _ => TPrim PInt
  | VFloat _ => TPrim PFloat
  | VStr _ => TPrim PStr
  | VList _ => TApp false HList []
  | VTuple _ => TApp false HTuple []
  | VColl CSet _ => TApp false HSet []
  | VColl CFrozen _ => TApp false HFrozen []
  | VColl CDeque _ => TApp false HDeque []
  | VDict DkDict _ => TApp false HDict []
  | VDict DkOrdered _ => TApp false HOrderedDict []
  | VDict DkDefault _ => TApp false HDefaultDict []
  | VLeaf x => TLeaf (leaf_kind x)
  | VEnum c _ => TClass c
  | VNT c _ => TClass c
  | VObj c _ => TClass c
  end.

(** ** Names *)
Definition prim_name (p : prim) : string :=
  match p with PStr => "str" | PInt => "int" | PFloat => "float" | PBool => "bool" end.
Definition head_name (typing : bool) (h : head) : string :=
  if typing then
    match h with
    | HList => "typing.List" | HTuple => "typing.Tuple" | HDict => "typing.Dict"
    | HSet => "typing.Set" | HFrozen => "typing.FrozenSet" | HDeque => "typing.Deque"
    | HDefaultDict => "typing.DefaultDict" | HOrderedDict => "typing.OrderedDict"
    | HMapping => "typing.Mapping" | HIterable => "typing.Iterable"
    end
  else
    match h with
    | HList => "list" | HTuple => "tuple" | HDict => "dict" | HSet => "set"
    | HFrozen => "frozenset" | HDeque => "collections.deque"
    | HDefaultDict => "collections.defaultdict" | HOrderedDict => "collections.OrderedDict"
    | HMapping => "collections.abc.Mapping" | HIterable => "collections.abc.Iterable"
    end.
Definition leaf_name (k : leafk) : string :=
  match k with
  | LkDatetime => "datetime.datetime" | LkDate => "datetime.date" | LkTime => "datetime.time"
  | LkTimedelta => "datetime.timedelta" | LkTimezone => "datetime.timezone"
  | LkUUID => "uuid.UUID" | LkDecimal => "decimal.Decimal" | LkComplex => "complex"
  | LkPath => "pathlib.PurePath" | LkZone => "zoneinfo.ZoneInfo"
  end.
(** typing names a Union of one type and None 'Optional'. *)
Definition is_optional (l : list ty) : bool :=
  Nat.eqb (length l) 2 && existsb (ty_eqb TNoneT) l.
(** get_class_name(t, fully_qualified=True), _common_impl.py:46-68. *)
Definition class_name (CT : classes) (t : ty) : string :=
  match t with
  | TPrim p => prim_name p
  | TNoneT => "NoneType"
  | TAny => "typing.Any"
  | TObject => "object"
  | TApp typing h _ => head_name typing h
  | TUnion l => if is_optional l then "typing.Optional" else "typing.Union"
  | TUnionForm => "typing.Union"
  | TOptionalForm => "typing.Optional"
  | TEnumBase => "enum.Enum"
  | TIntEnumBase => "enum.IntEnum"
  | TLeaf k => leaf_name k
  | TClass c => ci_name (CT c)
  | TNewType m n _ => m ++ "." ++ n
  | TEllipsis => "ellipsis"
  | TFwd s => "'" ++ s ++ "'"
  end.
(** The part after the last '.'. *)
Definition after_dot (s : string) : string := last (ssplit "." s) "".
(** get_class_name(t), not fully qualified. *)
Definition simple_name (CT : classes) (t : ty) : string :=
  match t with
  | TClass c => ci_simple (CT c)
  | TFwd s => "'" ++ s ++ "'"
  | TNewType _ n _ => n
  | _ => after_dot (class_name CT t)
  end.

(** ** issubclass(get_naked_class(a), b), False where it raises *)
Definition head_supers (h : head) : list ty :=
  let both h := [TApp false h []; TApp true h []] in
  let iter := both HIterable in
  let mapping := (both HMapping ++ iter)%list in
  match h with
  | HList => both HList ++ iter
  | HTuple => both HTuple ++ iter
  | HDict => both HDict ++ mapping
  | HSet => both HSet ++ iter
  | HFrozen => both HFrozen ++ iter
  | HDeque => both HDeque ++ iter
  | HDefaultDict => both HDefaultDict ++ both HDict ++ mapping
  | HOrderedDict => both HOrderedDict ++ both HDict ++ mapping
  | HMapping => mapping
  | HIterable => iter
  end%list.
Definition prim_supers (p : prim) : list ty :=
  match p with
  | PBool => [TPrim PBool; TPrim PInt]
  | PStr => TPrim PStr :: head_supers HIterable
  | _ => [TPrim p]
  end.
Definition supers (CT : classes) (t : ty) : list ty :=
  match t with
  | TPrim p => prim_supers p
  | TNoneT => [TNoneT]
  | TApp _ h _ => head_supers h
  | TEnumBase => [TEnumBase]
  | TIntEnumBase => [TIntEnumBase; TEnumBase; TPrim PInt]
  | TLeaf LkDatetime => [TLeaf LkDatetime; TLeaf LkDate]
  | TLeaf k => [TLeaf k]
  | TClass c =>
      TClass c ::
      (match ci_kind (CT c) with
       | CkObj => []
       | CkEnum mixin _ =>
           TEnumBase :: match mixin with Some p => prim_supers p | None => [] end
       | CkNT _ => head_supers HTuple
       end ++ ci_supers (CT c))%list
  | _ => []
  end.
Definition is_class (t : ty) : bool :=
  match t with
  | TAny | TUnion _ | TUnionForm | TOptionalForm | TNewType _ _ _ | TEllipsis | TFwd _ => false
  | _ => true
  end.
Definition naked_sub (CT : classes) (a b : ty) : bool :=
  is_class a && match b with
                | TObject => true
                | _ => existsb (ty_eqb b) (supers CT a)
                end.
Definition ty_super (t : ty) : option ty :=
  match t with TNewType _ _ s => Some s | _ => None end.
Definition ty_world (CT : classes) : gworld ty :=
  mkWorld (class_name CT) (naked_sub CT) ty_super.

(** [__args__] without type variables (typish.get_args); [None] = no [__args__]. *)
Definition raw_args (t : ty) : option (list ty) :=
  match t with
  | TApp _ _ [] => None
  | TApp _ _ l => Some l
  | TUnion l => Some l
  | _ => None
  end.
Definition get_args (t : option ty) : list ty :=
  match t with
  | Some t => match raw_args t with Some l => l | None => [] end
  | None => []
  end.

(** ** Equality of keys, truth, hashability *)
Definition num_of (v : value) : option (Z * Z) :=
  match v with
  | VBool b => Some ((if b then 1 else 0)%Z, 0%Z)
  | VInt z => Some (z, 0%Z)
  | VFloat (FFin m e) => Some (m, e)
  | VFloat FNegZero => Some (0%Z, 0%Z)
  | _ => None
  end.
Definition num_eqb (a b : Z * Z) : bool :=
  let e := Z.min (snd a) (snd b) in
  (fst a * 2 ^ (snd a - e) =? fst b * 2 ^ (snd b - e))%Z.

Definition pyfloat_eq_dec (a b : pyfloat) : {a = b} + {a <> b}.
Proof. decide equality; solve [apply Z.eq_dec | apply Bool.bool_dec]. Defined.
Definition leaf_eq_dec (a b : leaf) : {a = b} + {a <> b}.
Proof.
  repeat decide equality.
Defined.

Definition coll_eqb (a b : coll) : bool :=
  match a, b with CSet, CSet | CFrozen, CFrozen | CDeque, CDeque => true | _, _ => false end.

(** [a == b], as a dict does to find a key.  Numbers compare across types; enum
    members, leaves and objects compare structurally (datetimes in different
    timezones, and classes with their own [__eq__], are simplified); NaN equals
    itself, as for a dict that finds the same object. *)
Fixpoint py_eqb (a b : value) {struct a} : bool :=
  match a, b with
  | VNone, VNone => true
  | VStr s, VStr t => String.eqb s t
  | VList l, VList m => list_eqb py_eqb l m
  | VTuple l, VTuple m => list_eqb py_eqb l m
  | VNT c l, VNT c' m => Nat.eqb c c' && list_eqb py_eqb l m
  | VColl k l, VColl k' m => coll_eqb k k' && list_eqb py_eqb l m
  | VDict _ d, VDict _ d' =>
      list_eqb (fun x y => py_eqb (fst x) (fst y) && py_eqb (snd x) (snd y)) d d'
  | VLeaf x, VLeaf y => if leaf_eq_dec x y then true else false
  | VEnum c n, VEnum c' n' => Nat.eqb c c' && String.eqb n n'
  | VObj c l, VObj c' m =>
      Nat.eqb c c' &&
      list_eqb (fun x y => String.eqb (fst x) (fst y) && py_eqb (snd x) (snd y)) l m
  | VFloat FNan, VFloat FNan => true
  | VFloat (FInf s), VFloat (FInf t) => Bool.eqb s t
  | _, _ => match num_of a, num_of b with
            | Some x, Some y => num_eqb x y
            | _, _ => false
            end
  end.

(** Dicts with arbitrary keys. *)
Definition dget (k : value) (d : list (value * value)) : option value := aget py_eqb k d.
Definition dset (k v : value) (d : list (value * value)) := aset py_eqb k v d.
Definition ddel (k : value) (d : list (value * value)) := adel py_eqb k d.
Definition dhas (k : value) (d : list (value * value)) : bool := amem py_eqb k d.

Fixpoint hashable (CT : classes) (v : value) : bool :=
  match v with
  | VList _ | VDict _ _ | VColl CSet _ | VColl CDeque _ => false
  | VTuple l => forallb (hashable CT) l
  | VNT _ l => forallb (hashable CT) l
  | VColl CFrozen _ => true
  | VObj c _ => ci_hashable (CT c)
  | _ => true
  end.

Definition str_dict (d : list (string * value)) : value :=
  VDict DkDict (map (fun kv => (VStr (fst kv), snd kv)) d).
Definition is_none (v : value) : bool := match v with VNone => true | _ => false end.

(** ** The rest of the Python runtime

    What jsons asks of objects outside the universe or of library functions that are
    not modelled.  Every theorem holds for all of these. *)
Record runtime : Type := mkRt {
  rt_local : tzinfo;                       (* the host's timezone *)
  rt_now : string;                         (* to_str(datetime.now(tz=utc), True) *)
  rt_str : value -> res string;            (* str(v) *)
  rt_int : value -> res Z;                 (* int(v) *)
  rt_float : value -> res pyfloat;         (* float(v) *)
  rt_truth : value -> bool;                (* bool(v) *)
  rt_hash : value -> Z;                    (* hash(v) *)
  rt_iter : value -> res (list value);     (* iter(v) *)
  rt_dir : value -> list string;           (* what of dir(v) passes _filter_attributes *)
  rt_cls_dir : ty -> list string;          (* the same for a builtin class *)
  rt_getattr : value -> string -> res value;
  rt_type : value -> ty;                   (* typish.get_type(v) *)
  rt_type_name : value -> string;          (* the '-cls' that _store_cls_info computes *)
  rt_cast : ty -> value -> res value;      (* t(v) *)
  rt_decimal : value -> res string;        (* str(Decimal(v)) *)
  rt_path : value -> res string;           (* PurePath(v).as_posix() *)
  rt_zone : value -> res string }.         (* ZoneInfo(v).key *)

(** str(v), int(v), float(v), bool(v), iter(v), len(v) *)
Definition py_str (R : runtime) (v : value) : res string :=
  match v with
  | VStr s => Ok s
  | VInt z => Ok (str_int z)
  | VBool b => Ok (if b then "True" else "False")
  | VNone => Ok "None"
  | VLeaf (LUUID n) => Ok (uuid_str n)
  | VLeaf (LDecimal s) => Ok s
  | _ => rt_str R v
  end.
Definition py_to_int (R : runtime) (v : value) : res Z :=
  match v with
  | VInt z => Ok z
  | VBool b => Ok (if b then 1 else 0)%Z
  | VFloat f => int_of_float f
  | VStr s => match py_int s with Some z => Ok z | None => raise KValue end
  | VNone | VList _ | VTuple _ | VColl _ _ | VDict _ _ | VNT _ _ => raise KType
  | _ => rt_int R v
  end.
Definition py_to_float (R : runtime) (v : value) : res pyfloat :=
  match v with
  | VFloat f => Ok f
  | VInt z => float_of_int z
  | VBool b => float_of_int (if b then 1 else 0)%Z
  | VNone | VList _ | VTuple _ | VColl _ _ | VDict _ _ | VNT _ _ => raise KType
  | _ => rt_float R v
  end.
Definition truthy (R : runtime) (v : value) : bool :=
  match v with
  | VNone => false
  | VBool b => b
  | VInt z => negb (z =? 0)%Z
  | VFloat (FFin m _) => negb (m =? 0)%Z
  | VFloat FNegZero => false
  | VFloat _ => true
  | VStr s => negb (String.eqb s "")
  | VList l | VTuple l | VColl _ l | VNT _ l => negb (Nat.eqb (length l) 0)
  | VDict _ d => negb (Nat.eqb (length d) 0)
  | VLeaf (LTimedelta us) => negb (us =? 0)%Z
  | _ => rt_truth R v
  end.
Definition str_chars (s : string) : list value :=
  map (fun c => VStr (String c EmptyString)) (list_ascii_of_string s).
Definition py_iter (R : runtime) (v : value) : res (list value) :=
  match v with
  | VList l | VTuple l | VColl _ l | VNT _ l => Ok l
  | VDict _ d => Ok (map fst d)
  | VStr s => Ok (str_chars s)
  | VNone | VBool _ | VInt _ | VFloat _ => raise KType
  | _ => rt_iter R v
  end.
(** v[k] *)
Definition py_getitem (CT : classes) (v k : value) : res value :=
  let at_ l := match k with
               | VInt z =>
                   let i := (if z <? 0 then z + Z.of_nat (length l) else z)%Z in
                   if ((0 <=? i) && (i <? Z.of_nat (length l)))%Z
                   then match nth_error l (Z.to_nat i) with
                        | Some x => Ok x
                        | None => raise KIndex
                        end
                   else raise KIndex
               | VBool b => match nth_error l (if b then 1 else 0) with
                            | Some x => Ok x
                            | None => raise KIndex
                            end
               | _ => raise KType
               end in
  match v with
  | VList l | VTuple l | VColl CDeque l | VNT _ l => at_ l
  | VStr s => at_ (str_chars s)
  | VDict _ d => if hashable CT k
                 then match dget k d with Some x => Ok x | None => raise KKey end
                 else raise KType
  | _ => raise KType
  end.

(** ** The handlers: which function a registry holds, __init__.py:277-321 *)
Inductive shandler : Type :=
| STuple | SComplex | SDatetime | SDate | STime | STimezone | STimedelta | SPrimitive
| SEnum | SDict | SList | SIterable | SObject | SUUID | SDecimal | SUnion | SPath | SZone
| SCustom (n : nat).
Inductive dhandler : Type :=
| DList | DTuple | DUnion | DDefaultDict | DDatetime | DDate | DTime | DTimezone
| DTimedelta | DString | DNone | DPrimitive | DEnum | DMapping | DIterable | DObject
| DUUID | DComplex | DDecimal | DPath | DZone
| DCustom (n : nat).

(** set_serializer / set_deserializer calls in order; the table that results. *)
Definition builtin (h : head) : gclsarg ty := ACls (TApp false h []).
Definition generic (h : head) : gclsarg ty := ACls (TApp true h []).
Definition primc (p : prim) : gclsarg ty := ACls (TPrim p).
Definition leafc (k : leafk) : gclsarg ty := ACls (TLeaf k).
(** __init__.py:277-293, 319-320 *)
Definition ser_calls : list (shandler * gclsarg ty * bool) :=
  [ (STuple, ASeq [builtin HTuple; generic HTuple], true);
    (SComplex, leafc LkComplex, true);
    (SDatetime, leafc LkDatetime, true);
    (SDate, leafc LkDate, true);
    (STime, leafc LkTime, true);
    (STimezone, leafc LkTimezone, true);
    (STimedelta, leafc LkTimedelta, true);
    (SPrimitive, ASeq [primc PStr; primc PInt; primc PFloat; primc PBool; ANone], true);
    (SEnum, ASeq [ACls TEnumBase; ACls TIntEnumBase], true);
    (SDict, builtin HMapping, false);
    (SList, ASeq [builtin HList; generic HList], true);
    (SIterable, generic HIterable, false);
    (SObject, ACls TObject, false);
    (SUUID, leafc LkUUID, true);
    (SDecimal, leafc LkDecimal, true);
    (SUnion, ASeq [ACls TUnionForm; ACls TOptionalForm], true);
    (SPath, leafc LkPath, true);
    (SZone, leafc LkZone, true) ].
(** __init__.py:295-314, 321 *)
Definition deser_calls : list (dhandler * gclsarg ty * bool) :=
  [ (DList, ASeq [builtin HList; generic HList], true);
    (DTuple, ASeq [builtin HTuple; generic HTuple], true);
    (DUnion, ASeq [ACls TUnionForm; ACls TOptionalForm], true);
    (DDefaultDict, generic HDefaultDict, true);
    (DDatetime, leafc LkDatetime, true);
    (DDate, leafc LkDate, true);
    (DTime, leafc LkTime, true);
    (DTimezone, leafc LkTimezone, true);
    (DTimedelta, leafc LkTimedelta, true);
    (DString, primc PStr, true);
    (DNone, ACls TNoneT, true);
    (DPrimitive, ASeq [primc PInt; primc PFloat; primc PBool], true);
    (DEnum, ASeq [ACls TEnumBase; ACls TIntEnumBase], true);
    (DMapping, ASeq [builtin HMapping; builtin HDict; generic HDict], false);
    (DIterable, generic HIterable, false);
    (DObject, ACls TObject, false);
    (DUUID, leafc LkUUID, true);
    (DComplex, leafc LkComplex, true);
    (DDecimal, leafc LkDecimal, true);
    (DPath, leafc LkPath, true);
    (DZone, leafc LkZone, true) ].
Definition run_calls {F} (W : gworld ty) (calls : list (F * gclsarg ty * bool)) : gtable ty F :=
  fold_left (fun t c => let '(f, a, hp) := c in set_each (set_one W f hp) a t)
            calls (mkTable [] []).
(** The lookup; a KeyError cannot happen (RegistryProofs) and is read as absence. *)
Definition lookup {F} (W : gworld ty) (t : gtable ty F) (c : ty) : option F :=
  match get_lizer W c t with Ok o => o | Err _ => None end.
Definition default_ser (CT : classes) : ty -> option shandler :=
  lookup (ty_world CT) (run_calls (ty_world CT) ser_calls).
Definition default_deser (CT : classes) : ty -> option dhandler :=
  lookup (ty_world CT) (run_calls (ty_world CT) deser_calls).

(** ** The environment of a dump or load: what each fork has registered.
    Fork 0 is the default (StateHolder).  Registered user functions are arbitrary
    but do not call back into jsons. *)
Record env : Type := mkEnv {
  e_ct : classes;
  e_rt : runtime;
  e_object : nat;                                     (* the class [object] itself *)
  e_ser : nat -> ty -> option shandler;
  e_deser : nat -> ty -> option dhandler;
  e_validator : nat -> ty -> option (value -> res bool);
  e_warn : nat -> string -> bool;                     (* not suppressed *)
  e_resolve : nat -> string -> res ty;                (* get_cls_from_str *)
  e_cser : nat -> option ty -> value -> res value;    (* custom serializers *)
  e_cdeser : nat -> ty -> value -> res value }.       (* custom deserializers *)

(** ** Effects *)
Inductive ev : Type :=
| EvWarn (f : nat) (code : string)
| EvGetter (name : string)
| EvInit (c : nat)
| EvAnnounce (f : nat) (t : ty).
(** [Oof]: the depth bound was too small. *)
Inductive outcome (A : Type) : Type :=
| Done (a : A)
| Fail (e : exn)
| Oof.
Arguments Done {A} a.
Arguments Fail {A} e.
Arguments Oof {A}.
Definition M (A : Type) : Type := (list ev * outcome A)%type.
Definition ret {A} (a : A) : M A := ([], Done a).
Definition fail {A} (e : exn) : M A := ([], Fail e).
Definition oof {A} : M A := ([], Oof).
Definition emit (e : ev) : M unit := ([e], Done tt).
Definition lift {A} (r : res A) : M A :=
  match r with Ok a => ret a | Err e => fail e end.
Definition mbind {A B} (m : M A) (f : A -> M B) : M B :=
  match snd m with
  | Done a => let r := f a in ((fst m ++ fst r)%list, snd r)
  | Fail e => (fst m, Fail e)
  | Oof => (fst m, Oof)
  end.
(** try m except err: h err *)
Definition mtry {A} (m : M A) (h : exn -> M A) : M A :=
  match snd m with
  | Fail e => let r := h e in ((fst m ++ fst r)%list, snd r)
  | _ => m
  end.
Notation "'dom' x <- m ; f" := (mbind m (fun x => f))
  (at level 200, x pattern, m at level 100, f at level 200, right associativity) : py_scope.
Fixpoint mmap {A B} (f : A -> M B) (l : list A) : M (list B) :=
  match l with
  | [] => ret []
  | x :: r => dom y <- f x; dom ys <- mmap f r; ret (y :: ys)
  end.
Definition warn (E : env) (f : nat) (code : string) : M unit :=
  if e_warn E f code then emit (EvWarn f code) else ret tt.

(** ** Attribute access: getattr(v, a) *)
Definition class_members (E : env) (v : value) : list (string * member) :=
  match v with VObj c _ => ci_members (e_ct E c) | _ => [] end.
Definition enum_members (CT : classes) (c : nat) : list (string * value) :=
  match ci_kind (CT c) with CkEnum _ l => l | _ => [] end.
Definition nt_fields (CT : classes) (c : nat) : list ntfield :=
  match ci_kind (CT c) with CkNT l => l | _ => [] end.
Definition nt_get (CT : classes) (c : nat) (l : list value) (a : string) : option value :=
  sget a (combine (map nf_name (nt_fields CT c)) l).
Definition opt_res {A} (o : option A) (d : res A) : res A :=
  match o with Some a => Ok a | None => d end.
Definition get_attr (E : env) (v : value) (a : string) : res value :=
  match v with
  | VObj c attrs =>
      let ci := e_ct E c in
      let m := sget a (ci_members ci) in
      match m with
      | Some MProp => ci_prop ci a attrs
      | _ => match sget a attrs, m with
             | Some x, _ => Ok x
             | None, Some (MVar x) => Ok x
             | None, Some MCallable | None, Some (MClass _) => raise (KOther 0)
                      (* a function or class object: outside the universe *)
             | None, _ => raise KAttribute
             end
      end
  | VNT c l => opt_res (nt_get (e_ct E) c l a) (rt_getattr (e_rt E) v a)
  | VEnum c n =>
      if String.eqb a "name" then Ok (VStr n)
      else if String.eqb a "value" then opt_res (sget n (enum_members (e_ct E) c)) (raise KAttribute)
      else rt_getattr (e_rt E) v a
  | VInt z => if String.eqb a "real" then Ok v
              else if String.eqb a "imag" then Ok (VInt 0)
              else rt_getattr (e_rt E) v a
  | VBool b => if String.eqb a "real" then Ok (VInt (if b then 1 else 0))
               else if String.eqb a "imag" then Ok (VInt 0)
               else rt_getattr (e_rt E) v a
  | VFloat f => if String.eqb a "real" then Ok v
                else if String.eqb a "imag" then Ok (VFloat (FFin 0 0))
                else rt_getattr (e_rt E) v a
  | VLeaf (LComplex re im) =>
      if String.eqb a "real" then Ok (VFloat re)
      else if String.eqb a "imag" then Ok (VFloat im)
      else rt_getattr (e_rt E) v a
  | VLeaf (LZone k) => if String.eqb a "key" then Ok (VStr k) else rt_getattr (e_rt E) v a
  | _ => rt_getattr (e_rt E) v a
  end.

(** ** isinstance(v, t) and t(v) for the classes that the primitive handlers see.
    Parameterized generics, NewTypes and strings make isinstance raise TypeError
    (Unions, which Python 3.10 would accept, never get there by default). *)
Definition is_instance (CT : classes) (v : value) (t : ty) : res bool :=
  match t with
  | TApp _ _ (_ :: _) | TAny | TUnion _ | TUnionForm | TOptionalForm | TNewType _ _ _
  | TEllipsis | TFwd _ => raise KType
  | _ => Ok (naked_sub CT (class_of v) t)
  end.
Definition cast (R : runtime) (t : ty) (v : value) : res value :=
  match t with
  | TPrim PStr => dor s <- py_str R v; Ok (VStr s)
  | TPrim PInt => dor z <- py_to_int R v; Ok (VInt z)
  | TPrim PFloat => dor f <- py_to_float R v; Ok (VFloat f)
  | TPrim PBool => Ok (VBool (truthy R v))
  | TNoneT => raise KType
  | _ => rt_cast R t v
  end.
