(** * Specification of JsonSerializable classes

    After a history of calls every class has a base, and possibly keyword arguments set on it by
    with_dump or with_load.  What counts for a class is what was set last on the nearest class
    among itself, its base, the base of its base, ... *)
From Verif Require Import PyBase RegistryModel RegistrySpec CallModel CallSpec SerializableModel.
Local Open Scope string_scope.

(** [c] is [d] or derives from it.  Bases are older, so [c] steps suffice. *)
Fixpoint up_to (n : nat) (base : nat -> nat) (c d : nat) : bool :=
  Nat.eqb c d || match n with O => false | S m => up_to m base (base c) d end.
(** What is set on the nearest class. *)
Fixpoint nearest {X} (n : nat) (set : nat -> option X) (base : nat -> nat) (c : nat) : option X :=
  match set c with
  | Some x => Some x
  | None => match n with O => None | S m => nearest m set base (base c) end
  end.

(** JsonSerializable itself; StateHolder is 0. *)
Definition JS : nat := 1.

(** The registry calls made so far, oldest first, and the arguments set on each class. *)
Record jabs : Type := mkJabs {
  j_regs : list op;
  j_dump : nat -> option kwargs;
  j_load : nat -> option kwargs }.
Definition j_init : jabs := mkJabs [OSubclass 0] (fun _ => None) (fun _ => None).

Definition j_exists (s : jabs) (c : nat) : bool := Nat.ltb c (a_size (a_run (j_regs s))).
Definition j_derives (s : jabs) (c d : nat) : bool := up_to c (a_base (a_run (j_regs s))) c d.
(** A class that can be asked for with_dump and so on. *)
Definition j_valid (s : jabs) (c : nat) : bool := j_exists s c && j_derives s c JS.
(** [fork=True] makes a new class first. *)
Definition j_forked (s : jabs) (p : nat) (fork : bool) : jabs :=
  if fork then mkJabs (j_regs s ++ [OFork p]) (j_dump s) (j_load s) else s.
Definition j_target (s : jabs) (p : nat) (fork : bool) : nat :=
  if fork then next_id (j_regs s) else p.
Definition accepted (kw : kwargs) : bool := negb (shas "cls" kw) && negb (shas "fork" kw).

Definition j_step (s : jabs) (o : jop) : jabs :=
  match o with
  | JReg o => mkJabs (j_regs s ++ [o]) (j_dump s) (j_load s)
  | JWithDump p fork kw =>
      if j_valid s p && accepted kw
      then let s' := j_forked s p fork in
           mkJabs (j_regs s') (upd (j_dump s') (j_target s p fork) (Some kw)) (j_load s')
      else s
  | JWithLoad p fork kw =>
      if j_valid s p && accepted kw
      then let s' := j_forked s p fork in
           mkJabs (j_regs s') (j_dump s') (upd (j_load s') (j_target s p fork) (Some kw))
      else s
  | JSet k p a hi fork g =>
      if j_valid s p && negb (kind_eqb k Val)
      then let s' := j_forked s p fork in
           mkJabs (j_regs s' ++ [OSet k (j_target s p fork) a hi g]) (j_dump s') (j_load s')
      else s
  end.
Definition j_run (ops : list jop) : jabs := fold_left j_step ops j_init.

(** The registry calls of a history. *)
Definition reg_history (ops : list jop) : list op := j_regs (j_run ops).
(** [c] exists and derives from JsonSerializable. *)
Definition js_class (ops : list jop) (c : nat) : Prop := j_valid (j_run ops) c = true.
Definition js_derives (ops : list jop) (c d : nat) : Prop := j_derives (j_run ops) c d = true.
(** The class that a call with [fork=True] returns. *)
Definition new_class (ops : list jop) : nat := next_id (reg_history ops).
(** The keyword arguments in force for [c]. *)
Definition dump_setting (ops : list jop) (c : nat) : option kwargs :=
  nearest c (j_dump (j_run ops)) (a_base (a_run (reg_history ops))) c.
Definition load_setting (ops : list jop) (c : nat) : option kwargs :=
  nearest c (j_load (j_run ops)) (a_base (a_run (reg_history ops))) c.
(** The arguments set on [c] itself. *)
Definition own_dump (ops : list jop) (c : nat) : option kwargs := j_dump (j_run ops) c.
Definition own_load (ops : list jop) (c : nat) : option kwargs := j_load (j_run ops) c.

(** The environment of the engine has the serializers that the registries of [h] hold: [tys] is
    the type each class of the registries stands for, [hs] the serializer each function is. *)
Definition shows_serializers (W : world) (h : heap) (E : env) (tys : nat -> ty) (hs : fn -> shandler) : Prop :=
  forall f c, e_ser E f (tys c) =
              match raw_get W Ser h f c with Ok (Some g) => Some (hs g) | _ => None end.
