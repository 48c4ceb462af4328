(** * Specification for the order of keys (C64) *)
From Coq Require Export Permutation.
From Verif Require Export LoadSpec ConformSpec RoundTripSpec ParallelSpec.
Local Open Scope string_scope.

(** ** Values that differ only in the order of dict entries and attributes *)
Inductive same : value -> value -> Prop :=
| sm_refl v : same v v
| sm_list l l' : Forall2 same l l' -> same (VList l) (VList l')
| sm_tuple l l' : Forall2 same l l' -> same (VTuple l) (VTuple l')
| sm_deque l l' : Forall2 same l l' -> same (VColl CDeque l) (VColl CDeque l')
| sm_namedtuple c l l' : Forall2 same l l' -> same (VNT c l) (VNT c l')
| sm_dict k d d1 d' :
    Permutation d d1 -> Forall2 (fun a b => fst a = fst b /\ same (snd a) (snd b)) d1 d' ->
    same (VDict k d) (VDict k d')
| sm_object c at_ at1 at' :
    Permutation at_ at1 -> Forall2 (fun a b => fst a = fst b /\ same (snd a) (snd b)) at1 at' ->
    same (VObj c at_) (VObj c at').
(** The same for entries of dicts and for attributes *)
Definition same_entries {K : Type} (d d' : list (K * value)) : Prop :=
  exists d1, Permutation d d1 /\ Forall2 (fun a b => fst a = fst b /\ same (snd a) (snd b)) d1 d'.

(** ** Documents: JSON values; the keys of a dict are different strings, none of them '-meta'
    or '-keys' *)
Inductive document : value -> Prop :=
| dc_scalar j : scalar j -> document j
| dc_list l : Forall document l -> document (VList l)
| dc_dict d :
    Forall (fun kx => exists s, fst kx = VStr s /\ s <> "-meta" /\ s <> "-keys") d ->
    NoDup (map fst d) -> Forall (fun kx => document (snd kx)) d -> document (VDict DkDict d).
(** Documents without two keys that could be swapped *)
Inductive rigid : value -> Prop :=
| rg_scalar j : scalar j -> rigid j
| rg_list l : Forall rigid l -> rigid (VList l)
| rg_dict d : length d <= 1 -> Forall (fun kx => rigid (snd kx)) d -> rigid (VDict DkDict d).

(** ** Types that read a document by its keys
    Not among them: str and Path of a dict, whose text has the keys in order; lists, sets and tuples
    of a dict, which have its keys in order; sets of dicts, which raise; dicts whose keys are
    loaded as anything but text, because two keys may become equal. *)
(** Types that reject lists and dicts or tell only if they are empty *)
Definition scalar_type (t : ty) : Prop :=
  match t with
  | TNoneT | TPrim PInt | TPrim PFloat | TPrim PBool => True
  | TLeaf (LkDatetime | LkDate | LkTime | LkTimedelta | LkUUID) => True
  | _ => False
  end.
Definition container (j : value) : Prop := match j with VList _ | VDict _ _ => True | _ => False end.
(** Types that are dumped as dicts of a fixed form *)
Definition dict_leaf (t : ty) : Prop :=
  match t with TLeaf (LkComplex | LkTimezone | LkZone) => True | _ => False end.
Definition ordered_head (h : EngineTypes.head) : Prop :=
  match h with HList | HDeque | HIterable => True | _ => False end.
Inductive by_key (CT : classes) (strict : bool) : option ty -> value -> Prop :=
| bk_rigid t j : rigid j -> by_key CT strict t j
| bk_any j : by_key CT strict (Some TAny) j
| bk_same j : strict = false -> by_key CT strict (Some (class_of j)) j
| bk_misfit t j : scalar_type t -> container j -> by_key CT strict (Some t) j
| bk_dict_leaf t d :
    dict_leaf t -> Forall (fun kx => rigid (snd kx)) d -> by_key CT strict (Some t) (VDict DkDict d)
| bk_untyped_list l : Forall (by_key CT strict None) l -> by_key CT strict None (VList l)
| bk_untyped_dict d :
    Forall (fun kx => by_key CT strict None (snd kx)) d -> by_key CT strict None (VDict DkDict d)
| bk_list b h t l :
    ordered_head h -> Forall (by_key CT strict (Some t)) l -> by_key CT strict (Some (TApp b h [t])) (VList l)
| bk_bare_list b h l :
    ordered_head h -> Forall (by_key CT strict None) l -> by_key CT strict (Some (TApp b h [])) (VList l)
| bk_dict b h t d :
    dict_head h -> Forall (fun kx => by_key CT strict (Some t) (snd kx)) d ->
    by_key CT strict (Some (TApp b h [TPrim PStr; t])) (VDict DkDict d)
| bk_bare_dict b h d :
    dict_head h -> Forall (fun kx => by_key CT strict None (snd kx)) d ->
    by_key CT strict (Some (TApp b h [])) (VDict DkDict d)
| bk_tuple b ts l :
    last ts TAny <> TEllipsis ->
    (forall i t x, nth_error ts i = Some t -> nth_error l i = Some x -> by_key CT strict (Some t) x) ->
    (ts = [] -> Forall (by_key CT strict None) l) ->
    by_key CT strict (Some (TApp b HTuple ts)) (VList l)
| bk_tuple_all b t l :
    Forall (by_key CT strict (Some t)) l ->
    by_key CT strict (Some (TApp b HTuple [t; TEllipsis])) (VList l)
| bk_union ts j : Forall (fun t => by_key CT strict (Some t) j) ts -> by_key CT strict (Some (TUnion ts)) j
| bk_namedtuple c fields l :
    ordinary (CT c) -> ci_kind (CT c) = CkNT fields ->
    (forall i fd x, nth_error fields i = Some fd -> nth_error l i = Some x -> by_key CT strict (nf_hint fd) x) ->
    by_key CT strict (Some (TClass c)) (VList l)
| bk_namedtuple_dict c fields d :
    ordinary (CT c) -> ci_kind (CT c) = CkNT fields ->
    (forall fd x, In fd fields -> In (VStr (nf_name fd), x) d -> by_key CT strict (nf_hint fd) x) ->
    by_key CT strict (Some (TClass c)) (VDict DkDict d)
| bk_object c d :
    ordinary (CT c) -> ci_kind (CT c) = CkObj ->
    (forall p x, In p (ci_params (CT c)) -> In (VStr (pa_name p), x) d -> by_key CT strict (pa_hint p) x) ->
    (forall a x, In (VStr a, x) d -> ~ In a (map pa_name (ci_params (CT c))) ->
       by_key CT strict (Some (extra_type (CT c) a x)) x) ->
    by_key CT strict (Some (TClass c)) (VDict DkDict d).

(** ** User code that does not look at the order either *)
(** A constructor: same arguments, same attributes.  An attribute is either stored when it is
    set or read-only. *)
Definition regular (ci : cinfo) : Prop :=
  (forall args args', Forall2 (fun a b => fst a = fst b /\ same (snd a) (snd b)) args args' ->
     match ci_init ci args, ci_init ci args' with
     | Ok at_, Ok at' => NoDup (map fst at_) /\ same_entries at_ at'
     | Err _, Err _ => True
     | _, _ => False
     end) /\
  (forall a, (forall y at_, ci_set ci a y at_ = Ok (sset a y at_)) \/
             (forall y at_, exists e, ci_set ci a y at_ = Err e /\ is_attributeerror (e_kind e) = true)).
(** Validators: same values, same verdict. *)
Definition fair_validators (E : env) (f : nat) : Prop := forall t p v v',
  e_validator E f t = Some p -> same v v' -> (p v = Ok true <-> p v' = Ok true).
(** The outcomes of two calls agree: both return, and the results differ only in the order of
    entries and attributes, or both raise.  The calls may have run out of fuel. *)
Definition outcomes_agree (r r' : outcome value) : Prop :=
  match r, r' with
  | Done v, Done v' => same v v'
  | Fail e, Fail e' => is_jsons (e_kind e) = is_jsons (e_kind e')
  | Oof, _ | _, Oof => True
  | _, _ => False
  end.
