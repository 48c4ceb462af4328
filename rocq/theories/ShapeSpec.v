(** * What the properties of documents that do not fit the target type are stated with (C77) *)
From Verif Require Export LoadSpec MisfitSpec.
Local Open Scope string_scope.

(** What a document consists of when it is run through: the elements of a list (or tuple or set),
    the keys of a dict, the characters of a text *)
Inductive elements : value -> list value -> Prop :=
| es_list l : elements (VList l) l
| es_tuple l : elements (VTuple l) l
| es_set l : elements (VColl CSet l) l
| es_dict k d : elements (VDict k d) (map fst d)
| es_text s : elements (VStr s) (map (fun c => VStr (String c "")) (list_ascii_of_string s)).
Definition list_heads : list EngineTypes.head := [HList; HTuple; HSet; HFrozen; HDeque; HIterable].
Definition dict_heads : list EngineTypes.head := [HDict; HDefaultDict; HOrderedDict; HMapping].
(** The documents that are objects without entries in the eyes of load: the empty ones, and lists of
    nothing but '-meta' *)
Definition no_entries (j : value) : Prop := exists l, elements j l /\ Forall (eq (VStr "-meta")) l.
(** [fits CT t j]: [j] is of a kind that load may accept for [t]. *)
Inductive fits (CT : classes) : ty -> value -> Prop :=
| fi_prim p j : fits CT (TPrim p) j
| fi_list b h args j l : In h list_heads -> elements j l -> fits CT (TApp b h args) j
| fi_dict b h args k d : In h dict_heads -> fits CT (TApp b h args) (VDict k d)
| fi_text k s : In k [LkDatetime; LkDate; LkTime; LkUUID] -> fits CT (TLeaf k) (VStr s)
| fi_int z : fits CT (TLeaf LkTimedelta) (VInt z)
| fi_bool b : fits CT (TLeaf LkTimedelta) (VBool b)
| fi_float x : fits CT (TLeaf LkTimedelta) (VFloat x)
| fi_section k kd d : In k [LkTimezone; LkComplex; LkZone] -> fits CT (TLeaf k) (VDict kd d)
| fi_decimal j : fits CT (TLeaf LkDecimal) j
| fi_path j : fits CT (TLeaf LkPath) j
| fi_enum c m l j : ci_kind (CT c) = CkEnum m l -> fits CT (TClass c) j
| fi_namedtuple c fs j l : ci_kind (CT c) = CkNT fs -> elements j l -> fits CT (TClass c) j
| fi_no_fields c j : ci_kind (CT c) = CkNT [] -> fits CT (TClass c) j
| fi_object c k d : ci_kind (CT c) = CkObj -> fits CT (TClass c) (VDict k d)
| fi_empty c j : ci_kind (CT c) = CkObj -> no_entries j -> fits CT (TClass c) j
| fi_tobject k d : fits CT TObject (VDict k d)
| fi_tempty j : no_entries j -> fits CT TObject j.
(** A key transformer is applied to whatever is loaded as an object: one that accepts numbers makes
    entries of a list of numbers.  Objects are therefore looked at without one. *)
Definition untransformed (o : lopts) (t : ty) : Prop :=
  match t with TObject | TClass _ => lo_kt o = None | _ => True end.
