(** * What the properties about load and the heap are stated with (C73) *)
From Verif Require Export HeapSpec HeapLoadModel.
Local Open Scope string_scope.

(** All references that can be followed from [x] lead to cells. *)
Definition valid (H : heap) (x : obj) : Prop := forall a, reaches H x a -> a < length H.
(** The cell [a] is the '-keys' section of a dict that can be reached from [x]. *)
Definition keys_section (H : heap) (x : obj) (a : nat) : Prop :=
  exists b k d, reaches H x b /\ nth_error H b = Some (NDict k d) /\ In (atom "-keys", ORef a) d.
(** Nothing but entries of a dict is gone. *)
Definition lost_entries (c c' : cell) : Prop :=
  exists k d d', c = NDict k d /\ c' = NDict k d' /\ incl d' d.

(** The keys of all dicts are values without parts (in JSON: texts). *)
Definition simple_keys (H : heap) (x : obj) : Prop :=
  forall b k d key y, reaches H x b -> nth_error H b = Some (NDict k d) -> In (key, y) d -> single key.
(** No dict has meta data. *)
Definition without_meta (H : heap) (x : obj) : Prop :=
  forall b k d y, reaches H x b -> nth_error H b = Some (NDict k d) -> ~ In (atom "-meta", y) d.

(** The values that are no containers have no parts. *)
Definition flat_atoms (H : heap) (x : obj) : Prop :=
  (forall v, inside x (OAtom v) -> flatv v = true) /\
  (forall b c y v, reaches H x b -> nth_error H b = Some c -> holds c y -> inside y (OAtom v) -> flatv v = true).

(** Constructors, setattr, getters and registered deserializers write to no existing cell. *)
Definition only_adds {A} (m : hM A) : Prop := forall H, exists new, fst (m H) = (H ++ new)%list.
Record quiet (L : lenv) : Prop := {
  qu_init : forall c args, only_adds (le_init L c args);
  qu_set : forall c a x attrs, only_adds (le_set L c a x attrs);
  qu_getter : forall a, only_adds (le_getter L a);
  qu_cdeser : forall n t x, only_adds (le_cdeser L n t x) }.

(** [G] are the cells that the program owns: it has the default values of parameters, and what
    constructors and getters give is made of new cells, of their arguments and of cells in [G]. *)
Definition made_of (G : nat -> Prop) (H H' : heap) (args : list obj) (y : obj) : Prop :=
  forall a, reaches H' y a -> length H <= a < length H' \/ G a \/ exists x, In x args /\ reaches H x a.
Record owns (G : nat -> Prop) (L : lenv) (H0 : heap) : Prop := {
  ow_cells : forall a, G a -> a < length H0;
  ow_closed : forall a c y b, G a -> nth_error H0 a = Some c -> holds c y -> inside y (ORef b) -> G b;
  ow_default : forall c a b, inside (le_default L c a) (ORef b) -> G b;
  ow_init : forall c args H H' attrs a y,
    le_init L c args H = (H', Done attrs) -> In (a, y) attrs -> made_of G H H' (map snd args) y;
  ow_set : forall c n x old H H' attrs a y,
    le_set L c n x old H = (H', Done attrs) -> In (a, y) attrs -> made_of G H H' (x :: map snd old) y;
  ow_getter : forall a H H' y, le_getter L a H = (H', Done y) -> made_of G H H' [] y }.

(** [Any] does not occur in the type. *)
Fixpoint has_any (t : ty) : bool :=
  match t with
  | TAny => true
  | TApp _ _ l | TUnion l => existsb has_any l
  | _ => false
  end.
Definition any_free (cls : option ty) : bool := match cls with Some t => negb (has_any t) | None => true end.
Record any_free_hints (E : env) (f : nat) : Prop := {
  af_params : forall c p, In p (ci_params (e_ct E c)) -> any_free (pa_hint p) = true;
  af_fields : forall c fd, In fd (nt_fields (e_ct E) c) -> any_free (nf_hint fd) = true;
  af_names : forall s t, e_resolve E f s = Ok t -> has_any t = false }.
