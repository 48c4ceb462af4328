(** * Specification for C82: dump and the order of dict entries and attributes *)
From Verif Require Export DumpSpec OrderSpec.
Local Open Scope string_scope.

(** [same] (OrderSpec.v): values that differ only in the order of the entries of dicts and of the
    attributes of objects, at any depth. *)

(** ** Values that a dump reads by key and by name
    The exceptions are dicts whose keys dump has to hash, and types that do not go with the
    value: a dict that is dumped as a list or as text shows the order of its keys. *)
(** What the elements of a list are dumped as: the argument of the type; if there is none, strict
    dumps take the class of the first one. *)
Definition element_type (strict : bool) (t : option ty) (l : list value) : option ty :=
  match get_args t, l with
  | u :: _, _ => Some u
  | [], x :: _ => if strict then Some (class_of x) else None
  | [], [] => None
  end.
Definition no_or (P : ty -> Prop) (t : option ty) : Prop := match t with Some u => P u | None => True end.
Definition a_list (t : ty) : Prop := exists b ts, t = TApp b HList ts.
Definition a_tuple (t : ty) : Prop := exists b ts, t = TApp b HTuple ts.
Definition a_deque (t : ty) : Prop := exists b ts, t = TApp b HDeque ts.
Definition a_dict (t : ty) : Prop := exists b h ts, dict_head h /\ t = TApp b h ts.
Definition an_object (CT : classes) (t : ty) : Prop := exists c, t = TClass c /\ ordinary (CT c) /\ ci_kind (CT c) = CkObj /\
  NoDup (declared_names (CT c)).
Definition a_namedtuple (CT : classes) (c : nat) (t : ty) : Prop :=
  a_tuple t \/ exists c' fields, t = TClass c' /\ ordinary (CT c') /\ ci_kind (CT c') = CkNT fields.
(** The class that says with which types the attributes of an instance of [c] are dumped *)
Definition declaring (strict : bool) (t : option ty) (c : nat) : nat :=
  match t with Some (TClass c') => if strict then c' else c | _ => c end.

Inductive orderless (E : env) (strict : bool) : option ty -> value -> Prop :=
| ol_fixed t v : (forall v', same v v' -> v' = v) -> orderless E strict t v
| ol_list t l : no_or a_list t -> Forall (orderless E strict (element_type strict t l)) l -> orderless E strict t (VList l)
| ol_tuple t l : strict = false -> no_or a_tuple t -> Forall (orderless E strict None) l -> orderless E strict t (VTuple l)
| ol_strict_tuple b ts l : strict = true -> last ts TAny <> TEllipsis -> length ts <> 1 -> length ts = length l ->
    (forall i u x, nth_error ts i = Some u -> nth_error l i = Some x -> orderless E strict (Some u) x) ->
    orderless E strict (Some (TApp b HTuple ts)) (VTuple l)
| ol_strict_row b u l : strict = true -> u <> TEllipsis -> Forall (orderless E strict (Some u)) l ->
    orderless E strict (Some (TApp b HTuple [u; TEllipsis])) (VTuple l)
| ol_deque t l : strict = false -> no_or a_deque t -> Forall (orderless E strict None) l -> orderless E strict t (VColl CDeque l)
| ol_namedtuple t c l : no_or (a_namedtuple (e_ct E) c) t -> a_namedtuple (e_ct E) c (TClass c) ->
    length l = length (nt_fields (e_ct E) c) -> Forall (orderless E strict None) l -> orderless E strict t (VNT c l)
| ol_dict t k d : no_or a_dict t -> Forall (fun kx => plain_scalar (fst kx)) d ->
    ForallOrdPairs (fun a b => py_eqb a b = false /\ py_eqb b a = false) (map fst d) ->
    Forall (fun kx => orderless E strict None (snd kx)) d -> orderless E strict t (VDict k d)
| ol_union ts v : Forall (fun u => orderless E strict (Some u) v) ts -> orderless E strict (Some (TUnion ts)) v
| ol_object t c attrs : no_or (an_object (e_ct E)) t -> an_object (e_ct E) (TClass c) -> NoDup (map fst attrs) ->
    (forall a x, get_attr E (VObj c attrs) a = Ok x ->
       orderless E strict (attr_hint (e_ct E (declaring strict t c)) a) x) ->
    orderless E strict t (VObj c attrs).

(** ** User code that does not look at the order either *)
Definition fair_properties (E : env) : Prop := forall c a attrs attrs', same_entries attrs attrs' ->
  match ci_prop (e_ct E c) a attrs, ci_prop (e_ct E c) a attrs' with
  | Ok x, Ok x' => same x x'
  | Err e, Err e' => e_noargs e = e_noargs e'
  | _, _ => False
  end.
(** Key transformers that work for all plain keys, make usable keys of them, and keep different
    keys different *)
Definition keys_kept_apart (CT : classes) (o : sopts) : Prop :=
  match so_kt o with
  | None => True
  | Some g => exists g', (forall k, plain_scalar k -> g k = Ok (g' k) /\ plain_scalar (g' k)) /\
      forall k k', plain_scalar k -> plain_scalar k' -> py_eqb (g' k) (g' k') = true -> py_eqb k k' = true
  end.
(** No class information in the document, and no types for single keys *)
Definition orderless_options (CT : classes) (o : sopts) : Prop :=
  so_class_info o = false /\ so_store_cls o = false /\ so_types o = [] /\ keys_kept_apart CT o.
