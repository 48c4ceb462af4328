(** * What the round trip with key transformers is stated with *)
From Verif Require Export RoundTripSpec.
Local Open Scope string_scope.

(** A key transformer: what it makes of a key. *)
Definition transformer : Type := value -> res value.
(** No transformer: keys stay as they are. *)
Definition keep : transformer := fun k => Ok k.

(** Dumping with the key transformer [d]; the other options as in [exact_dump] *)
Definition dump_with (d : transformer) (o : sopts) : Prop :=
  so_kt o = Some d /\ so_strict o = false /\ so_strip_nulls o = false /\ so_class_info o = false /\
  so_dump_time o = false /\ so_store_cls o = false /\ so_enum_name o = true /\ so_strip_us o = false /\
  so_types o = [] /\ strips (so_attr o) [].
(** Loading with the key transformer [l]; the other options as in [exact_load] *)
Definition load_with (l : transformer) (o : lopts) : Prop :=
  no_hints o /\ lo_getters o = [] /\ lo_enum_name o <> Some false /\
  forall k, match lo_kt o with Some g => g k | None => Ok k end = l k.

(** The name [s] is written as another name, out of which [l] makes [s] again. *)
Definition undone (d l : transformer) (s : string) : Prop :=
  exists s', d (VStr s) = Ok (VStr s') /\ no_section s' /\ l (VStr s') = Ok (VStr s).
(** [l] leaves the name [s] as it is. *)
Definition untouched (l : transformer) (s : string) : Prop := l (VStr s) = Ok (VStr s).

(** The text that a key of a dict is dumped as *)
Definition key_name (k : value) (s : string) : Prop :=
  k = VStr s \/ k = VLeaf (LPath s) \/ k = VLeaf (LDecimal s) \/ exists c, k = VEnum c s.

(** All names in a value survive.  The fields of named tuples are dumped as they are, but the
    loading transformer is applied to them; and nothing is transformed back inside of
    tuples. *)
Inductive renamable (CT : classes) (d : transformer) : transformer -> value -> Prop :=
| rn_scalar l v : plain_scalar v -> renamable CT d l v
| rn_leaf l x : renamable CT d l (VLeaf x)
| rn_enum l c n : renamable CT d l (VEnum c n)
| rn_list l xs : (forall x, In x xs -> renamable CT d l x) -> renamable CT d l (VList xs)
| rn_coll l k xs : (forall x, In x xs -> renamable CT d l x) -> renamable CT d l (VColl k xs)
| rn_tuple l xs : (forall x, In x xs -> renamable CT d keep x) -> renamable CT d l (VTuple xs)
| rn_dict l k items :
    (forall key x, In (key, x) items -> exists s, key_name key s /\ undone d l s) ->
    (forall key x, In (key, x) items -> renamable CT d l x) -> renamable CT d l (VDict k items)
| rn_object l c attrs :
    (forall a x, In (a, x) attrs -> undone d l a) ->
    (forall a x, In (a, x) attrs -> renamable CT d l x) -> renamable CT d l (VObj c attrs)
| rn_namedtuple l c fields xs :
    ci_kind (CT c) = CkNT fields ->
    (forall fd, In fd fields -> untouched l (nf_name fd)) ->
    (forall x, In x xs -> renamable CT d l x) -> renamable CT d l (VNT c xs).

(** A transformer of str as a transformer of keys; the ones of the library call methods of
    str on the key, so that other keys are an AttributeError. *)
Definition on_text (h : string -> res string) : transformer := fun k =>
  match k with
  | VStr s => match h s with Ok r => Ok (VStr r) | Err e => Err e end
  | _ => raise KAttribute
  end.
