(** * Specification of the registries

    Independent of heap locations, inheritance and caching: a fork has a list of
    registrations, oldest first; a plain subclass shares its parent's list; a new
    fork starts with its parent's list; validators and announcements are global. *)
From Verif Require Import PyBase RegistryModel.
Local Open Scope string_scope.

Record reg : Type := mkReg { rg_cls : option cls; rg_high : bool; rg_fn : fn }.

(** The name a registration is filed under: case-insensitive. *)
Definition reg_name (W : world) (r : reg) : string :=
  match rg_cls r with Some c => slower (w_name W c) | None => "nonetype" end.

(** The function of the most recent registration under a name. *)
Definition latest (W : world) (regs : list reg) (n : string) : option fn :=
  match find (fun r => String.eqb n (reg_name W r)) (rev regs) with
  | Some r => Some (rg_fn r)
  | None => None
  end.

(** Registered classes by priority: high-priority ones, newest first, then
    low-priority ones, oldest first. *)
Definition classes_of (regs : list reg) : list cls :=
  flat_map (fun r => match rg_cls r with Some c => [c] | None => [] end) regs.
Definition priority (regs : list reg) : list cls :=
  (rev (classes_of (filter rg_high regs)) ++
   classes_of (filter (fun r => negb (rg_high r)) regs))%list.

Definition first_ancestor (W : world) (regs : list reg) (c : cls) : option cls :=
  find (w_sub W c) (priority regs).

Definition handler (W : world) (regs : list reg) (c : cls) : option fn :=
  match latest W regs (slower (w_name W c)) with
  | Some g => Some g
  | None => match first_ancestor W regs c with
            | Some p => latest W regs (slower (w_name W p))
            | None => None
            end
  end.

(** A NewType without a handler of its own uses its supertype's. *)
Definition lookup (W : world) (regs : list reg) (c : cls) : option fn :=
  match handler W regs c with
  | Some g => Some g
  | None => match w_super W c with Some s => handler W regs s | None => None end
  end.

(** The classes named by an argument of set_serializer and friends, in order. *)
Fixpoint targets (a : clsarg) : list (option cls) :=
  match a with
  | ACls c => [Some c]
  | ANone => [None]
  | ASeq l => flat_map targets l
  end.

(** Abstract state: number of class objects; the fork each one belongs to and the
    class it derives from; the registrations and suppressed warning codes of each
    fork; the [suppress_warnings] setting made on each class object itself. *)
Record abs : Type := mkAbs {
  a_size : nat;
  a_owner : nat -> nat;
  a_base : nat -> nat;
  a_ser : nat -> list reg;
  a_deser : nat -> list reg;
  a_val : list reg;
  a_codes : nat -> list string;
  a_flag : nat -> option bool }.

Definition upd {X} (f : nat -> X) (k : nat) (v : X) (x : nat) : X := if Nat.eqb x k then v else f x.

(** The setting in force for a class object: its own, or else that of its base
    (bases are older, so [f] steps suffice). *)
Fixpoint in_force (n : nat) (flag : nat -> option bool) (base : nat -> nat) (f : nat) : bool :=
  match flag f with
  | Some b => b
  | None => match n with O => false | S m => in_force m flag base (base f) end
  end.
Definition silenced (s : abs) (f : nat) : bool := in_force f (a_flag s) (a_base s) f.

Definition a_init : abs :=
  mkAbs 1 (fun _ => 0) (fun _ => 0) (fun _ => []) (fun _ => []) [] (fun _ => [])
        (fun f => if Nat.eqb f 0 then Some false else None).

Definition regs_of_arg (a : clsarg) (hi : bool) (g : fn) : list reg :=
  map (fun c => mkReg c hi g) (targets a).

Definition a_step (s : abs) (o : op) : abs :=
  let '(mkAbs n ow ba se de va co fl) := s in
  let valid f := Nat.ltb f n in
  match o with
  | OSet Ser f a hi g =>
      if valid f
      then mkAbs n ow ba (upd se (ow f) (se (ow f) ++ regs_of_arg a hi g)%list) de va co fl else s
  | OSet Deser f a hi g =>
      if valid f
      then mkAbs n ow ba se (upd de (ow f) (de (ow f) ++ regs_of_arg a hi g)%list) va co fl else s
  | OSet Val f a hi g =>
      if valid f
      then mkAbs n ow ba se de (va ++ regs_of_arg a false g)%list co fl else s
  | OFork p =>
      if valid p
      then mkAbs (S n) (upd ow n n) (upd ba n p) (upd se n (se (ow p))) (upd de n (de (ow p))) va
                 (upd co n (co (ow p))) (upd fl n (Some (silenced s p))) else s
  | OSubclass p =>
      if valid p then mkAbs (S n) (upd ow n (ow p)) (upd ba n p) se de va co (upd fl n None) else s
  | OSuppressAll f b => if valid f then mkAbs n ow ba se de va co (upd fl f (Some b)) else s
  | OSuppress f code =>
      if valid f then mkAbs n ow ba se de va (upd co (ow f) (code :: co (ow f))) fl else s
  | _ => s
  end.

Definition a_run (ops : list op) : abs := fold_left a_step ops a_init.

(** The registrations class object [f] sees after a history. *)
Definition visible (k : kind) (ops : list op) (f : nat) : list reg :=
  let s := a_run ops in
  match k with
  | Ser => a_ser s (a_owner s f)
  | Deser => a_deser s (a_owner s f)
  | Val => a_val s
  end.

Definition exists_in (ops : list op) (f : nat) : Prop := f < a_size (a_run ops).
(** The class object that the next OFork or OSubclass creates. *)
Definition next_id (ops : list op) : nat := a_size (a_run ops).
(** Two class objects belong to the same fork. *)
Definition same_fork (ops : list op) (f g : nat) : Prop :=
  a_owner (a_run ops) f = a_owner (a_run ops) g.
(** suppress_warning(code) is in force for [f]. *)
Definition code_suppressed (ops : list op) (f : nat) (code : string) : bool :=
  mem_str code (a_codes (a_run ops) (a_owner (a_run ops) f)).
(** suppress_warnings(True) is in force for [f]. *)
Definition all_suppressed (ops : list op) (f : nat) : bool := silenced (a_run ops) f.

(** What an argument of set_serializer names, as file names. *)
Definition names_of (W : world) (a : clsarg) : list string :=
  map (fun c => match c with Some c => slower (w_name W c) | None => "nonetype"%string end) (targets a).

(** A call that registers nothing in the fork of [f]; [all_leave_alone]: so does a
    whole continuation of the history. *)
Definition leaves_alone (ops : list op) (f : nat) (o : op) : Prop :=
  match o with
  | OSet Ser g _ _ _ | OSet Deser g _ _ _ => exists_in ops g -> ~ same_fork ops g f
  | _ => True
  end.
Fixpoint all_leave_alone (ops : list op) (f : nat) (more : list op) : Prop :=
  match more with
  | [] => True
  | o :: r => leaves_alone ops f o /\ all_leave_alone (ops ++ [o])%list f r
  end.

(** The calls after which the cache may keep a positional lookup of kind [k]: a
    direct get_serializer(c, fork), a load that returns before its deserializer is
    called.  [calm] excludes them. *)
Definition calm (k : kind) (o : op) : Prop :=
  match o with
  | OGet k' FPos _ _ => k' <> k
  | OLoadSkip _ _ => k <> Val
  | OLoadNone _ _ => k <> Deser
  | _ => True
  end.

(** A call that suppresses nothing in the fork of [f]. *)
Definition leaves_warnings_alone (ops : list op) (f : nat) (o : op) : Prop :=
  match o with
  | OSuppressAll g _ | OSuppress g _ => exists_in ops g -> ~ same_fork ops g f
  | _ => True
  end.
