(** * Specification for the argument default of json.dumps (C84) *)
From Verif Require Export FallbackModel LayoutSpec DumpSpec.
Local Open Scope string_scope.

(** ** What json cannot write
    Everything but strings, numbers, constants, lists, tuples and dicts *)
Definition foreign (CT : classes) (v : value) : Prop :=
  scalar_of CT v = None /\
  match v with VList _ | VTuple _ | VNT _ _ | VDict _ _ => False | _ => True end.

(** ** A value with every part that json cannot write replaced by what default makes of it
    What default returns may have such parts in turn.  Keys of dicts are not replaced; the values
    of entries that are skipped do not matter. *)
Inductive replaced (CT : classes) (D : value -> M value) : value -> value -> Prop :=
| rp_scalar v x : scalar_of CT v = Some x -> replaced CT D v v
| rp_list l l' : Forall2 (replaced CT D) l l' -> replaced CT D (VList l) (VList l')
| rp_tuple l l' : Forall2 (replaced CT D) l l' -> replaced CT D (VTuple l) (VTuple l')
| rp_namedtuple c l l' : Forall2 (replaced CT D) l l' -> replaced CT D (VNT c l) (VNT c l')
| rp_dict k d d' :
    Forall2 (fun a b => fst a = fst b /\ (scalar_of CT (fst a) <> None -> replaced CT D (snd a) (snd b))) d d' ->
    replaced CT D (VDict k d) (VDict k d')
| rp_foreign v w v' : foreign CT v -> snd (D v) = Done w -> replaced CT D w v' -> replaced CT D v v'.

(** ** The objects default is called with when a value is written *)
Inductive given (CT : classes) (D : value -> M value) (x : value) : value -> Prop :=
| gv_here : foreign CT x -> given CT D x x
| gv_result v w : foreign CT v -> snd (D v) = Done w -> given CT D x w -> given CT D x v
| gv_list y l : In y l -> given CT D x y -> given CT D x (VList l)
| gv_tuple y l : In y l -> given CT D x y -> given CT D x (VTuple l)
| gv_namedtuple c y l : In y l -> given CT D x y -> given CT D x (VNT c l)
| gv_dict k key y d : In (key, y) d -> scalar_of CT key <> None -> given CT D x y -> given CT D x (VDict k d).

(** ** Class tables in which json can write every instance of str, int, float and bool
    (members of enums that are one of these as well, if their values are) *)
Definition scalars_known (CT : classes) : Prop := forall v, json_scalar CT v -> scalar_of CT v <> None.
