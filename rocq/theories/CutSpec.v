(** * Specification for calls that are cut short (C69) *)
From Verif Require Export CutModel DumpSpec ParallelSpec.
Local Open Scope string_scope.

(** Nothing in the object is dumped as a Union (see [visits]). *)
Definition no_unions (E : env) (f : nat) (o : sopts) (cls : option ty) (v : value) : Prop :=
  forall c x, visits E f o cls v c x -> serializer E f c x <> Some SUnion.
(** The warning that an attribute is left out *)
Definition left_out (f : nat) : ev := EvWarn f "attribute-not-serialized".
(** Attributes that cannot be dumped do not go unnoticed: the dump is strict, or there is a
    warning, which is not suppressed. *)
Definition noticed (E : env) (f : nat) (o : sopts) : Prop :=
  so_strict o = true \/ e_warn E f "attribute-not-serialized" = true.

(** ** Documents that are loaded completely or not at all
    As in [tidy] (ParallelSpec.v), lists are given where lists are expected and unions are
    optionals; here lists may be empty, and there are no strings without a type. *)
Definition untyped_scalar (j : value) : Prop :=
  match j with VNone | VBool _ | VInt _ | VFloat _ => True | _ => False end.
Inductive firm (CT : classes) (strict : bool) : option ty -> value -> Prop :=
| fm_any j : firm CT strict (Some TAny) j
| fm_same j : strict = false -> firm CT strict (Some (class_of j)) j
| fm_leaf t j : leaf_type CT t -> firm CT strict (Some t) j
| fm_untyped j : untyped_scalar j -> firm CT strict None j
| fm_untyped_list l : Forall (firm CT strict None) l -> firm CT strict None (VList l)
| fm_untyped_dict d :
    Forall (fun kx => firm CT strict None (snd kx)) d -> firm CT strict None (VDict DkDict d)
| fm_list b h t l :
    list_head h -> Forall (firm CT strict (Some t)) l -> firm CT strict (Some (TApp b h [t])) (VList l)
| fm_bare_list b h l :
    list_head h -> Forall (firm CT strict None) l -> firm CT strict (Some (TApp b h [])) (VList l)
| fm_dict b h tk tv d :
    dict_head h -> Forall (fun kx => firm CT strict (Some tk) (fst kx) /\ firm CT strict (Some tv) (snd kx)) d ->
    firm CT strict (Some (TApp b h [tk; tv])) (VDict DkDict d)
| fm_bare_dict b h d :
    dict_head h -> Forall (fun kx => firm CT strict None (snd kx)) d ->
    firm CT strict (Some (TApp b h [])) (VDict DkDict d)
| fm_tuple b t ts l :
    last (t :: ts) TAny <> TEllipsis ->
    Forall2 (fun t x => firm CT strict (Some t) x) (t :: ts) l ->
    firm CT strict (Some (TApp b HTuple (t :: ts))) (VList l)
| fm_tuple_all b t l :
    Forall (firm CT strict (Some t)) l ->
    firm CT strict (Some (TApp b HTuple [t; TEllipsis])) (VList l)
| fm_bare_tuple b l :
    Forall (firm CT strict None) l -> firm CT strict (Some (TApp b HTuple [])) (VList l)
| fm_optional t j :
    j <> VNone -> firm CT strict (Some t) j -> firm CT strict (Some (TUnion [t; TNoneT])) j
| fm_optional_none t :
    ~ may_be_none (Some t) -> ~ odd_name CT (Some t) ->
    firm CT strict (Some (TUnion [t; TNoneT])) VNone
| fm_namedtuple c fields l :
    ordinary (CT c) -> ci_kind (CT c) = CkNT fields ->
    Forall2 (fun fd x => firm CT strict (nf_hint fd) x) fields l ->
    firm CT strict (Some (TClass c)) (VList l)
| fm_namedtuple_dict c fields d :
    ordinary (CT c) -> ci_kind (CT c) = CkNT fields -> length fields <= length d ->
    (forall fd x, In fd fields -> In (VStr (nf_name fd), x) d -> firm CT strict (nf_hint fd) x) ->
    firm CT strict (Some (TClass c)) (VDict DkDict d)
| fm_object c d :
    ordinary (CT c) -> ci_kind (CT c) = CkObj ->
    (forall p x, In p (ci_params (CT c)) -> In (VStr (pa_name p), x) d ->
       firm CT strict (pa_hint p) x) ->
    (forall a x, In (VStr a, x) d -> ~ In a (map pa_name (ci_params (CT c))) ->
       firm CT strict (Some (extra_type (CT c) a x)) x) ->
    firm CT strict (Some (TClass c)) (VDict DkDict d).
