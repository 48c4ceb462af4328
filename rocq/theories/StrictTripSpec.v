(** * Specification of round trips by way of strict dumps (C80) *)
From Verif Require Export RoundTripSpec.
Local Open Scope string_scope.

(** ** Options: as [exact_dump], with strict=True *)
Definition exact_strict (o : sopts) : Prop :=
  so_strict o = true /\ plain_opts o /\ so_enum_name o = true /\ so_strip_us o = false /\
  so_types o = [] /\ strips (so_attr o) [].

(** ** What a strict dump knows of the type of a part
    At the top, and for the elements of List[...] and the like and for annotated attributes,
    the type is known.  The elements of a list whose type is not known are dumped with the
    class of the first one.  For the values of a dict, the fields of a named tuple and
    attributes without an annotation nothing is known. *)
Inductive knowledge := Known | Own | Unknown.
Definition given (k : knowledge) (t : ty) (v : value) : option ty :=
  match k with Known => Some t | Own => Some (class_of v) | Unknown => None end.
(** The annotation of an attribute is what is known of it. *)
Definition of_attribute (ci : cinfo) (a : string) : knowledge :=
  match attr_hint ci a with Some _ => Known | None => Unknown end.

(** Values that have no parts *)
Definition atomic (v : value) : Prop :=
  match v with
  | VNone | VBool _ | VInt _ | VFloat _ | VStr _ | VLeaf _ | VEnum _ _ => True
  | _ => False
  end.
(** The class declares (by annotations, slots or class variables) its parameters and, as far as
    dump can see, nothing else. *)
Definition declared (ci : cinfo) (a : string) : Prop :=
  In a (declared_names ci) \/ In a (map fst (ci_members ci)).
Definition declares_parameters (ci : cinfo) (o : sopts) : Prop :=
  NoDup (declared_names ci) /\
  (forall p, In p (ci_params ci) -> declared ci (pa_name p)) /\
  (forall a, declared ci a -> visible (ci_members ci) o [] a -> In a (map pa_name (ci_params ci))).

(** ** Values of a type that survive a strict dump
    [strictly E g o k t v]: [v] is of type [t], as in [has_type], and where a strict dump has to
    do without the type, as much of it as it takes can be told from the value. *)
Inductive strictly (E : env) (g : nat) (o : sopts) : knowledge -> ty -> value -> Prop :=
| st_atomic k t v :
    atomic v -> (forall ts, t <> TUnion ts) -> has_type E g o t v -> strictly E g o k t v
| st_sequence b h t l v :
    sequence_of h l v ->
    (h = HSet \/ h = HFrozen -> distinct_elements (e_ct E) l) ->
    (forall x, In x l -> strictly E g o Known t x) ->
    accepts E g (TApp b h [t]) v -> strictly E g o Known (TApp b h [t]) v
| st_list k b h t l :                        (* elements of one class *)
    k <> Known -> sequence_of h l (VList l) ->
    (forall x y, In x l -> In y l -> class_of x = class_of y) ->
    (forall x, In x l -> strictly E g o Own t x) ->
    accepts E g (TApp b h [t]) (VList l) -> strictly E g o k (TApp b h [t]) (VList l)
| st_unordered k b h t l v :
    k <> Known -> h = HSet \/ h = HFrozen \/ (h = HDeque /\ k = Own) -> sequence_of h l v ->
    (h = HSet \/ h = HFrozen -> distinct_elements (e_ct E) l) ->
    (forall x, In x l -> strictly E g o Unknown t x) ->
    accepts E g (TApp b h [t]) v -> strictly E g o k (TApp b h [t]) v
| st_mapping k b h tk t d v :
    mapping_of h d v -> NoDup (map fst d) ->
    (forall x, In x (map fst d) -> text_key (e_ct E) x) ->
    (forall x, In x (map fst d) -> has_type E g o tk x) ->
    (forall x y, In (x, y) d -> strictly E g o Unknown t y) ->
    (h = HDefaultDict -> accepts E g (TApp true HDict [tk; t]) (VDict DkDict d)) ->
    accepts E g (TApp b h [tk; t]) v -> strictly E g o k (TApp b h [tk; t]) v
| st_tuple b ts l :
    ts <> [] -> ~ In TEllipsis ts -> length ts = length l ->
    (forall t x, In (t, x) (combine ts l) -> strictly E g o Known t x) ->
    accepts E g (TApp b HTuple ts) (VTuple l) -> strictly E g o Known (TApp b HTuple ts) (VTuple l)
| st_repeated b t l :
    (forall x, In x l -> strictly E g o Known t x) ->
    accepts E g (TApp b HTuple [t; TEllipsis]) (VTuple l) ->
    strictly E g o Known (TApp b HTuple [t; TEllipsis]) (VTuple l)
| st_present k pre t ts v :
    (forall u, In u pre -> u = TNoneT) -> v <> VNone ->
    strictly E g o k t v -> accepts E g (TUnion (pre ++ t :: ts)) v ->
    strictly E g o k (TUnion (pre ++ t :: ts)) v
| st_absent k ts :
    In TNoneT ts -> (forall t, In t ts -> ~ odd_name (e_ct E) (Some t)) ->
    (forall us, ~ In (TUnion us) ts) ->
    accepts E g TNoneT VNone -> accepts E g (TUnion ts) VNone ->
    strictly E g o k (TUnion ts) VNone
| st_namedtuple k c fields l :
    ci_kind (e_ct E c) = CkNT fields -> ordinary (e_ct E c) ->
    NoDup (map nf_name fields) -> (forall fd, In fd fields -> attribute_name (nf_name fd)) ->
    length fields = length l ->
    (forall fd x, In (fd, x) (combine fields l) -> x = VNone -> none_allowed fd) ->
    (forall fd x, In (fd, x) (combine fields l) -> exists t, nf_hint fd = Some t) ->
    (forall fd x t, In (fd, x) (combine fields l) -> nf_hint fd = Some t -> strictly E g o Unknown t x) ->
    accepts E g (TClass c) (VNT c l) -> strictly E g o k (TClass c) (VNT c l)
| st_object k c attrs :
    record_like (e_ct E) o c -> map fst attrs = map pa_name (ci_params (e_ct E c)) ->
    (k <> Unknown -> declares_parameters (e_ct E c) o) ->
    (forall p t x, In (p, x) (combine (ci_params (e_ct E c)) (map snd attrs)) -> pa_hint p = Some t ->
                   strictly E g o (of_attribute (e_ct E c) (pa_name p)) t x) ->
    accepts E g (TClass c) (VObj c attrs) -> strictly E g o k (TClass c) (VObj c attrs).
