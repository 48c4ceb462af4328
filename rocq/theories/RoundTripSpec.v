(** * What the round-trip properties are stated with *)
From Verif Require Export DumpSpec LoadSpec ConformSpec LeafSpec DatetimeSpec.
Local Open Scope string_scope.

(** ** Options *)
(** Dumping: any of strip_privates, strip_properties and strip_class_variables, but nothing
    that renames, drops or adds entries, or that changes values *)
Definition exact_dump (o : sopts) : Prop :=
  so_strict o = false /\ plain_opts o /\ so_enum_name o = true /\ so_strip_us o = false /\
  so_types o = [] /\ strips (so_attr o) [].
(** As [exact_dump], except that the dump may be verbose *)
Definition near_exact (o : sopts) : Prop :=
  so_strict o = false /\ so_kt o = None /\ so_strip_nulls o = false /\ so_enum_name o = true /\
  so_strip_us o = false /\ so_types o = [] /\ strips (so_attr o) [].
(** Loading: strict or not, with or without warn_on_fail; no getters, no meta hints, a key
    transformer only if it is the identity *)
Definition exact_load (o : lopts) : Prop :=
  no_hints o /\ lo_getters o = [] /\ (forall g k, lo_kt o = Some g -> g k = Ok k) /\
  lo_enum_name o <> Some false.

(** ** Values of standard library classes that survive *)
Definition complex_type : ty := TApp true HDict [TPrim PStr; TPrim PFloat].
Definition survives (E : env) (x : leaf) : Prop :=
  match x with
  | LDatetime dt =>
      real_date 1000 (dt_date dt) /\ real_time (dt_time dt) /\
      exists off tz, dt_tz dt = Some tz /\ new_timezone off = Ok tz /\ exact_offset off
  | LDate d => real_date 1000 d
  | LTime t => real_time t /\ t_us t = 0%Z
  | LTimedelta us => short_timedelta us
  | LTimezone _ _ => False              (* see C51: the typed dump of a timezone fails *)
  | LUUID k => is_uuid k
  | LDecimal s => rt_decimal (e_rt E) (VStr s) = Ok s
  | LPath s => rt_path (e_rt E) (VStr s) = Ok s
  | LZone k => rt_zone (e_rt E) (VStr k) = Ok k
  | LComplex x y =>                     (* loaded by means of the default fork *)
      default_deserializers E 0 /\
      accepts E 0 (TPrim PStr) (VStr "real") /\ accepts E 0 (TPrim PStr) (VStr "imag") /\
      accepts E 0 (TPrim PFloat) (VFloat x) /\ accepts E 0 (TPrim PFloat) (VFloat y) /\
      accepts E 0 complex_type (str_dict [("real", VFloat x); ("imag", VFloat y)])
  end.

(** ** Classes *)
(** Only user classes are among the bases. *)
Definition user_supers (ci : cinfo) : Prop := forall t, In t (ci_supers ci) -> exists i, t = TClass i.
(** A class that has no handler of its own, nor has any of its bases *)
Definition ordinary (ci : cinfo) : Prop := fresh_name ci /\ user_supers ci.
(** Names that cannot be confused with '-meta', '-keys' and so on *)
Definition attribute_name (a : string) : Prop := prefix "-" a = false.
(** A class whose constructor stores its parameters under their own names.  All parameters
    are annotated, with the type that the attribute is dumped with if the class annotates
    it as well; and what dump sees of an instance is just the parameters. *)
Record record_like (CT : classes) (o : sopts) (c : nat) : Prop := {
  rl_kind : ci_kind (CT c) = CkObj;
  rl_ordinary : ordinary (CT c);
  rl_no_attrs : ci_attrs (CT c) = false;
  rl_readable : readable (ci_members (CT c));
  rl_names : NoDup (map pa_name (ci_params (CT c)));
  rl_init : forall args, map fst args = map pa_name (ci_params (CT c)) -> ci_init (CT c) args = Ok args;
  rl_member : forall a, In a (map fst (ci_members (CT c))) -> visible (ci_members (CT c)) o [] a ->
                        In a (map pa_name (ci_params (CT c)));
  rl_param : forall p, In p (ci_params (CT c)) ->
    visible (ci_members (CT c)) o [] (pa_name p) /\ attribute_name (pa_name p) /\
    sget (pa_name p) (ci_members (CT c)) <> Some MProp /\ pa_var p = false /\
    exists t, pa_hint p = Some t /\ ~ odd_name CT (Some t) /\
              (attr_hint (CT c) (pa_name p) = None \/ attr_hint (CT c) (pa_name p) = Some t) }.
(** [n] is the canonical name of its value: the first one with an equal value. *)
Definition canonical_member (ms : list (string * value)) (n : string) : Prop :=
  exists pre x post, ms = (pre ++ (n, x) :: post)%list /\
    forall n' y, In (n', y) pre -> n' <> n /\ py_eqb y x = false.

(** ** Values of a type, with parts of its part types, all accepted by the validators of
    fork [g] *)
Definition distinct_elements (CT : classes) (l : list value) : Prop :=
  forallb (hashable CT) l = true /\ ForallOrdPairs (fun a b => py_eqb b a = false) l.
(** Keys of dicts that are dumped as text, other than the names of the sections *)
Definition no_section (s : string) : Prop := s <> "-meta" /\ s <> "-keys".
Definition text_key (CT : classes) (k : value) : Prop :=
  match k with
  | VStr s | VLeaf (LPath s) | VLeaf (LDecimal s) => no_section s
  | VEnum c s => no_section s /\ exists ms, ci_kind (CT c) = CkEnum None ms
  | VLeaf (LDatetime _) | VLeaf (LDate _) | VLeaf (LTime _) | VLeaf (LUUID _) => True
  | _ => False
  end.
Inductive has_type (E : env) (g : nat) (o : sopts) : ty -> value -> Prop :=
| ht_none : accepts E g TNoneT VNone -> has_type E g o TNoneT VNone
| ht_prim p v :
    class_of v = TPrim p -> accepts E g (TPrim p) v -> has_type E g o (TPrim p) v
| ht_leaf x :
    survives E x -> accepts E g (TLeaf (leaf_kind x)) (VLeaf x) ->
    has_type E g o (TLeaf (leaf_kind x)) (VLeaf x)
| ht_sequence b h t l v :
    sequence_of h l v ->
    (h = HSet \/ h = HFrozen -> distinct_elements (e_ct E) l) ->
    (forall x, In x l -> has_type E g o t x) ->
    accepts E g (TApp b h [t]) v -> has_type E g o (TApp b h [t]) v
| ht_mapping b h tk t d v :
    mapping_of h d v -> NoDup (map fst d) ->
    (forall k, In k (map fst d) -> text_key (e_ct E) k) ->
    (forall k, In k (map fst d) -> has_type E g o tk k) ->
    (forall k x, In (k, x) d -> has_type E g o t x) ->
    (h = HDefaultDict -> accepts E g (TApp true HDict [tk; t]) (VDict DkDict d)) ->
    accepts E g (TApp b h [tk; t]) v -> has_type E g o (TApp b h [tk; t]) v
| ht_tuple b ts l :
    ts <> [] -> ~ In TEllipsis ts -> length ts = length l ->
    (forall t x, In (t, x) (combine ts l) -> has_type E g o t x) ->
    accepts E g (TApp b HTuple ts) (VTuple l) -> has_type E g o (TApp b HTuple ts) (VTuple l)
| ht_repeated b t l :
    (forall x, In x l -> has_type E g o t x) ->
    accepts E g (TApp b HTuple [t; TEllipsis]) (VTuple l) ->
    has_type E g o (TApp b HTuple [t; TEllipsis]) (VTuple l)
| ht_present pre t ts v :             (* the first alternative of a union besides None *)
    (forall u, In u pre -> u = TNoneT) -> v <> VNone ->
    has_type E g o t v -> accepts E g (TUnion (pre ++ t :: ts)) v ->
    has_type E g o (TUnion (pre ++ t :: ts)) v
| ht_absent ts :                             (* None among the alternatives *)
    In TNoneT ts -> (forall t, In t ts -> ~ odd_name (e_ct E) (Some t)) ->
    (forall us, ~ In (TUnion us) ts) ->
    accepts E g TNoneT VNone -> accepts E g (TUnion ts) VNone ->
    has_type E g o (TUnion ts) VNone
| ht_enum c m ms n :
    ci_kind (e_ct E c) = CkEnum m ms -> ordinary (e_ct E c) -> canonical_member ms n ->
    accepts E g (TClass c) (VEnum c n) -> has_type E g o (TClass c) (VEnum c n)
| ht_namedtuple c fields l :
    ci_kind (e_ct E c) = CkNT fields -> ordinary (e_ct E c) ->
    NoDup (map nf_name fields) -> (forall fd, In fd fields -> attribute_name (nf_name fd)) ->
    length fields = length l ->
    (forall fd x, In (fd, x) (combine fields l) -> x = VNone -> none_allowed fd) ->
    (forall fd x, In (fd, x) (combine fields l) -> exists t, nf_hint fd = Some t) ->
    (forall fd x t, In (fd, x) (combine fields l) -> nf_hint fd = Some t -> has_type E g o t x) ->
    accepts E g (TClass c) (VNT c l) -> has_type E g o (TClass c) (VNT c l)
| ht_object c attrs :
    record_like (e_ct E) o c -> map fst attrs = map pa_name (ci_params (e_ct E c)) ->
    (forall p t x, In (p, x) (combine (ci_params (e_ct E c)) (map snd attrs)) -> pa_hint p = Some t ->
                   has_type E g o t x) ->
    accepts E g (TClass c) (VObj c attrs) -> has_type E g o (TClass c) (VObj c attrs).

(** Values that are dumped without dicts, and documents without dicts *)
Fixpoint flat (v : value) : bool :=
  match v with
  | VNone | VBool _ | VInt _ | VFloat _ | VStr _ | VEnum _ _ => true
  | VList l | VTuple l | VColl _ l => forallb flat l
  | VLeaf (LComplex _ _) | VLeaf (LTimezone _ _) | VLeaf (LZone _) => false
  | VLeaf _ => true
  | VDict _ _ | VNT _ _ | VObj _ _ => false
  end.
Fixpoint dictless (j : value) : bool :=
  match j with
  | VNone | VBool _ | VInt _ | VFloat _ | VStr _ => true
  | VList l => forallb dictless l
  | _ => false
  end.
(** Defaults of named tuple fields contain no dicts. *)
Definition dictless_defaults (CT : classes) : Prop :=
  forall c fields fd x, ci_kind (CT c) = CkNT fields -> In fd fields -> nf_default fd = Some x -> dictless x = true.

(** Name and annotation of a parameter *)
Definition signature (p : param) : string * option ty := (pa_name p, pa_hint p).
