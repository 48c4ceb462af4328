(** * Specification for C81: the constructor calls of load *)
From Verif Require Export LoadSpec TerminationSpec DocumentSpec.
Local Open Scope string_scope.

(** ** What is counted *)
(** The calls of the constructor of [c], and all calls of constructors, in a run *)
Definition constructed (c : nat) (l : list ev) : nat :=
  length (filter (fun e => match e with EvInit c' => Nat.eqb c c' | _ => false end) l).
Definition constructions (l : list ev) : nat :=
  length (filter (fun e => match e with EvInit _ => true | _ => false end) l).
(** The instances of [c] in a value: every occurrence counts. *)
Fixpoint objects (c : nat) (v : value) : nat :=
  match v with
  | VList l | VTuple l | VColl _ l | VNT _ l => list_sum (map (objects c) l)
  | VDict _ d => list_sum (map (fun kx => objects c (fst kx) + objects c (snd kx)) d)
  | VObj c' attrs => (if Nat.eqb c c' then 1 else 0) + list_sum (map (fun ax => objects c (snd ax)) attrs)
  | _ => 0
  end.
Definition objects_in (c : nat) (attrs : list (string * value)) : nat :=
  list_sum (map (fun ax => objects c (snd ax)) attrs).
(** The places of a document that an object can be made of: dicts, and what is empty (load takes
    an empty list or text for an empty dict when it is to make an object) *)
Fixpoint places (j : value) : nat :=
  match j with
  | VStr s => if String.eqb s "" then 1 else 0
  | VList l | VTuple l | VColl _ l => match l with [] => 1 | _ => list_sum (map places l) end
  | VDict _ d => 1 + list_sum (map (fun kx => places (fst kx) + places (snd kx)) d)
  | _ => 0
  end.

(** ** Programs that make instances of [c] in no other way than by its constructor *)
(** Constructors and setattr store what they are given at most once; defaults, attr_getters and
    key transformers bring in no instance of [c]. *)
Record by_constructor_only (E : env) (c : nat) : Prop := {
  bc_init : forall k args attrs, ci_init (e_ct E k) args = Ok attrs -> objects_in c attrs <= objects_in c args;
  bc_set : forall k a y attrs attrs', ci_set (e_ct E k) a y attrs = Ok attrs' ->
           objects_in c attrs' <= objects_in c attrs + objects c y;
  bc_default : forall k p x, In p (ci_params (e_ct E k)) -> pa_default p = Some x -> objects c x = 0;
  bc_field : forall k fd x, In fd (nt_fields (e_ct E) k) -> nf_default fd = Some x -> objects c x = 0;
  bc_cast : forall t v r, rt_cast (e_rt E) t v = Ok r -> objects c r <= objects c v }.
Definition arguments_without (c : nat) (o : lopts) : Prop :=
  (forall a x, In (a, Ok x) (lo_getters o) -> objects c x = 0) /\
  (forall g k k', lo_kt o = Some g -> g k = Ok k' -> objects c k' <= objects c k).

(** ** Types without a choice: a Union has at most one alternative besides None. *)
Fixpoint choiceless (t : ty) : Prop :=
  let all := fix all l := match l with [] => True | u :: r => choiceless u /\ all r end in
  match t with
  | TApp _ _ l => all l
  | TUnion l => all l /\ length (filter (fun u => negb (ty_eqb u TNoneT)) l) <= 1
  | _ => True
  end.
Definition hint_choiceless (h : option ty) : Prop := match h with Some t => choiceless t | None => True end.
Record classes_choiceless (E : env) : Prop := {
  cc_params : forall c p, In p (ci_params (e_ct E c)) -> hint_choiceless (pa_hint p);
  cc_hints : forall c a t, In (a, t) (ci_hints (e_ct E c)) -> choiceless t;
  cc_fields : forall c fd, In fd (nt_fields (e_ct E) c) -> hint_choiceless (nf_hint fd);
  cc_names : forall f s t, e_resolve E f s = Ok t -> choiceless t }.
(** Parameters and fields have names of their own; the defaults of named tuples are no documents
    that an object could be made of. *)
Record classes_regular (E : env) : Prop := {
  cr_params : forall c, NoDup (map pa_name (ci_params (e_ct E c)));
  cr_fields : forall c, NoDup (map nf_name (nt_fields (e_ct E) c));
  cr_defaults : forall c fd x, In fd (nt_fields (e_ct E) c) -> nf_default fd = Some x -> atom x /\ places x = 0 }.
(** Documents as json.loads makes them from text without '-meta': no dict has a key twice. *)
Definition ordinary (j : value) : Prop :=
  forall k d, within (VDict k d) j -> dget (VStr "-meta") d = None /\ NoDup (map fst d).
(** A key transformer makes no document of a key: the new key has no more places than the old one
    had, and is ordinary if that was. *)
Definition keys_to_keys (o : lopts) : Prop :=
  forall g k k', lo_kt o = Some g -> g k = Ok k' -> places k' <= places k /\ (ordinary k -> ordinary k').
