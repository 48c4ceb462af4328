(** * What the properties of dump with a type that the value does not have are stated with (C76) *)
From Verif Require Export DumpSpec RoundTripSpec CastSpec.
Local Open Scope string_scope.

(** ** None *)
(** The types of annotations, unions aside; classes and NewTypes have no handlers of their own. *)
Inductive plain_hint (CT : classes) : ty -> Prop :=
| ph_prim p : plain_hint CT (TPrim p)
| ph_none : plain_hint CT TNoneT
| ph_any : plain_hint CT TAny
| ph_object : plain_hint CT TObject
| ph_app b h args : plain_hint CT (TApp b h args)
| ph_leaf k : plain_hint CT (TLeaf k)
| ph_class c : ordinary (CT c) -> plain_hint CT (TClass c).
Inductive hint (CT : classes) : ty -> Prop :=
| hi_plain t : plain_hint CT t -> hint CT t
| hi_union ts : Forall (plain_hint CT) ts -> hint CT (TUnion ts).
(** What None is written as if it is dumped with a type: null for None and the four basic types;
    an empty list for lists, an empty dict for objects, the text None for UUIDs and Decimals.
    With all other types (tuples, sets, dicts, datetimes, paths, enums, named tuples, ..., and
    Any) it cannot be written. *)
Definition null_plain (CT : classes) (t : ty) : option value :=
  match t with
  | TPrim _ | TNoneT => Some VNone
  | TApp _ HList _ => Some (VList [])
  | TObject => Some (VDict DkDict [])
  | TClass c => match ci_kind (CT c) with CkObj => Some (VDict DkDict []) | _ => None end
  | TLeaf LkUUID | TLeaf LkDecimal => Some (VStr "None")
  | _ => None
  end.
(** The first of the types with which it can be written *)
Fixpoint first_null (CT : classes) (ts : list ty) : option value :=
  match ts with
  | [] => None
  | t :: r => match null_plain CT t with Some j => Some j | None => first_null CT r end
  end.
(** Unions with None among their members, such as Optional[...], give null. *)
Definition null_as (CT : classes) (t : ty) : option value :=
  match t with
  | TUnion ts => if existsb (ty_eqb TNoneT) ts then Some VNone else first_null CT ts
  | _ => null_plain CT t
  end.
(** None has no attributes other than those with dunder names. *)
Definition bare_none (R : runtime) : Prop :=
  (forall a, In a (rt_dir R VNone) -> prefix "__" a = true) /\
  (forall a, prefix "__" a = false -> exists e, rt_getattr R VNone a = Err e).
(** No meta data is asked for, and the call is lenient. *)
Definition plain_dump (o : sopts) : Prop :=
  so_strict o = false /\ so_class_info o = false /\ so_dump_time o = false.
