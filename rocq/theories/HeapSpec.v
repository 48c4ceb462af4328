(** * What the properties about sharing and cycles are stated with *)
From Verif Require Export HeapModel DumpSpec.
Local Open Scope string_scope.

(** [y] is [x] or occurs in the tuples that [x] is made of. *)
Inductive inside : obj -> obj -> Prop :=
| in_self x : inside x x
| in_tuple l x y : In x l -> inside x y -> inside (OTuple l) y
| in_nt c l x y : In x l -> inside x y -> inside (ONT c l) y.
(** The objects that a cell refers to *)
Definition holds (c : cell) (y : obj) : Prop :=
  match c with
  | NList l | NColl _ l => In y l
  | NDict _ d => exists k x, In (k, x) d /\ (y = k \/ y = x)
  | NObj _ l => exists a, In (a, y) l
  end.
(** The cells that can be reached from an object *)
Inductive reaches (H : heap) (x : obj) : nat -> Prop :=
| reach_here a : inside x (ORef a) -> reaches H x a
| reach_next a b c y :
    reaches H x a -> nth_error H a = Some c -> holds c y -> inside y (ORef b) -> reaches H x b.

(** ** Plain objects
    Some attributes are copied into the result as they are: those of enum members, complex
    numbers and ZoneInfos, and of whatever is dumped as such. *)
Definition copied_names : list string := ["name"; "value"; "real"; "imag"; "key"].
Definition single (x : obj) : Prop := exists v, x = OAtom v.
(** In a plain object or cell the attributes with these names are no containers; and instances
    of enums and named tuples are not mistaken for others. *)
Definition plain_obj (CT : classes) (x : obj) : Prop :=
  forall c l, inside x (ONT c l) ->
    (exists fields, ci_kind (CT c) = CkNT fields) /\
    (forall a y, In (a, y) (combine (map nf_name (nt_fields CT c)) l) -> In a copied_names -> single y).
Definition plain_cell (CT : classes) (c : cell) : Prop :=
  (forall y, holds c y -> plain_obj CT y) /\
  match c with
  | NObj i attrs => ci_kind (CT i) = CkObj /\ (forall a y, In (a, y) attrs -> In a copied_names -> single y)
  | _ => True
  end.
Record plain_heap (E : env) (K : henv) (H : heap) : Prop := {
  ph_cells : forall a c, nth_error H a = Some c -> plain_cell (e_ct E) c;
  ph_vars : forall c a, plain_obj (e_ct E) (he_var K c a) /\ (In a copied_names -> single (he_var K c a));
  ph_members : forall c n, single (he_member K c n) }.

(** ** Objects that contain themselves
    The parts of an object that dump visits without being told their classes: the elements of
    lists, tuples, sets and deques and the values of dicts when it is lenient, the attributes
    without a hint when it is strict. *)
Definition with_keys (d : list (value * obj)) : list (obj * obj) :=
  map (fun kx => (OAtom (fst kx), snd kx)) d.
Inductive part (E : env) (f : nat) (o : sopts) (H : heap) : obj -> obj -> Prop :=
| part_tuple l y : so_strict o = false -> In y l -> part E f o H (OTuple l) y
| part_list a l y : so_strict o = false ->
    nth_error H a = Some (NList l) -> In y l -> part E f o H (ORef a) y
| part_coll a k l y : so_strict o = false ->
    nth_error H a = Some (NColl k l) -> In y l -> part E f o H (ORef a) y
| part_dict a kd d k y : so_strict o = false ->
    nth_error H a = Some (NDict kd (with_keys d)) -> forallb flatv (map fst d) = true -> In k (map fst d) -> aget py_eqb k d = Some y ->
    part E f o H (ORef a) y
| part_attr a c attrs l n y : so_strict o = true ->
    nth_error H a = Some (NObj c attrs) -> e_ser E f (TClass c) = Some SObject ->
    attrs_from_object E o (VObj c (map (fun ax => (fst ax, VNone)) attrs)) = Ok l -> In (n, None) l ->
    sget n (ci_members (e_ct E c)) <> Some MProp -> sget n attrs = Some y ->
    part E f o H (ORef a) y.
(** There is no end to the parts of the parts of an object. *)
Definition endless (E : env) (f : nat) (o : sopts) (H : heap) (x : obj) : Prop :=
  exists P : obj -> Prop, P x /\ forall y, P y -> exists z, part E f o H y z /\ P z.
(** [{name: {name: ... {}}}], [n] times *)
Fixpoint nested (name : string) (n : nat) : value :=
  match n with
  | O => VDict DkDict []
  | S n' => VDict DkDict [(VStr name, nested name n')]
  end.

(** ** Objects that stand for trees, see EngineSer.v
    In a plain tree the copied attributes are values without parts, and instances of enums and
    named tuples are not mistaken for others. *)
Definition flat_copied (l : list (string * value)) : bool :=
  forallb (fun ax => implb (mem_str (fst ax) copied_names) (flatv (snd ax))) l.
Fixpoint plain_value (CT : classes) (v : value) : bool :=
  match v with
  | VList l | VTuple l | VColl _ l => forallb (plain_value CT) l
  | VDict _ d => forallb (fun kx => plain_value CT (fst kx) && plain_value CT (snd kx)) d
  | VNT c l =>
      match ci_kind (CT c) with CkNT _ => true | _ => false end && forallb (plain_value CT) l
      && flat_copied (combine (map nf_name (nt_fields CT c)) l)
  | VObj c l =>
      match ci_kind (CT c) with CkObj => true | _ => false end
      && forallb (fun ax => plain_value CT (snd ax)) l && flat_copied l
  | _ => true
  end.
(** What properties, getattr and iter return is plain. *)
Record plain_env (E : env) : Prop := {
  pe_prop : forall c a l v, ci_prop (e_ct E c) a l = Ok v -> plain_value (e_ct E) v = true;
  pe_getattr : forall v a w, rt_getattr (e_rt E) v a = Ok w -> plain_value (e_ct E) w = true;
  pe_iter : forall v l, rt_iter (e_rt E) v = Ok l -> forallb (plain_value (e_ct E)) l = true }.
(** The class variables and the values of enum members are those of the environment. *)
Record agree_env (E : env) (K : henv) (H : heap) : Prop := {
  ag_var : forall c a v, sget a (ci_members (e_ct E c)) = Some (MVar v) ->
    read H (he_var K c a) = Some v /\ plain_value (e_ct E) v = true /\ (In a copied_names -> flatv v = true);
  ag_member : forall c n v, sget n (enum_members (e_ct E) c) = Some v ->
    he_member K c n = OAtom v /\ flatv v = true }.
(** The result of a computation with a heap is that of one with trees. *)
Definition same_result (r : heap * outcome obj) (r' : outcome value) : Prop :=
  match snd r, r' with
  | Done y, Done v => read (fst r) y = Some v
  | Fail e, Fail e' => e = e'
  | Oof, Oof => True
  | _, _ => False
  end.

(** ** Ways through an object: the objects that an object is directly made of, and what is found
    by choosing one of them again and again *)
Definition children (H : heap) (x : obj) : list obj :=
  match x with
  | OAtom _ => []
  | OTuple l | ONT _ l => l
  | ORef a => match nth_error H a with
              | Some (NList l) | Some (NColl _ l) => l
              | Some (NDict _ d) => flat_map (fun kx => [fst kx; snd kx]) d
              | Some (NObj _ l) => map snd l
              | None => []
              end
  end.
Fixpoint follow (H : heap) (x : obj) (way : list nat) : option obj :=
  match way with
  | [] => Some x
  | i :: r => match nth_error (children H x) i with
              | Some y => follow H y r
              | None => None
              end
  end.
