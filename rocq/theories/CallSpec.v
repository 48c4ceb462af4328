(** * Specification of calls with keyword arguments *)
From Verif Require Import PyBase CallModel.
Local Open Scope string_scope.

(** Keyword arguments: distinct names; [over kw0 kw kw']: [kw'] has those of [kw0], and those of
    [kw] that are not in [kw0]. *)
Definition distinct_names (kw : kwargs) : Prop := NoDup (map fst kw).
Definition not_named (k : string) (kw : kwargs) : Prop := ~ In k (map fst kw).
Definition over (kw0 kw kw' : kwargs) : Prop :=
  forall k, sget k kw' = match sget k kw0 with Some a => Some a | None => sget k kw end.

(** Two lists of keyword arguments that differ in order only. *)
Definition same_kw (kw kw' : kwargs) : Prop := forall k, sget k kw = sget k kw'.

(** True in a condition: Python values say themselves; text, bytes and collections if they are not
    empty, a Verbosity if it has a flag; types, forks and functions always. *)
Definition counts_as_true (R : runtime) (a : arg) : Prop :=
  match a with
  | AVal v => truthy R v = true
  | AText s => s <> []
  | ABytes b => b <> ""
  | AVerb b => vb_class_info b = true \/ vb_dump_time b = true
  | AAttrs SANone => False
  | AAttrs (SAName s) => s <> ""
  | AAttrs (SATuple l) | AAttrs (SAList l) => l <> []
  | ATypes l => l <> []
  | AGetters l => l <> []
  | AType _ | AFork _ | AFun _ => True
  end.
(** What [verbose=a] asks for: a Verbosity says itself; any other value asks for everything if it
    is true in a condition, and for nothing otherwise. *)
Definition asks_for (R : runtime) (a : arg) (b : verbosity) : Prop :=
  match a with
  | AVerb b' => b = b'
  | _ => (counts_as_true R a /\ b = with_everything) \/ (~ counts_as_true R a /\ b = with_nothing)
  end.
Definition is_verbosity (a : arg) : bool := match a with AVerb _ => true | _ => false end.
