(** * What the properties of transform and of the decorators are stated with *)
From Verif Require Export ApiModel RoundTripSpec.
Local Open Scope string_scope.

(** ** transform: the mapper, if any, is applied to the dumped value *)
Definition mapped (mapper : option (value -> res value)) (j : value) : res value :=
  match mapper with Some f => f j | None => Ok j end.

(** ** Decorated functions *)
(** The class that is asked for by an annotation: its type.  Without an annotation, and with
    the annotation None, no class is asked for. *)
Inductive asked : annotation -> option ty -> Prop :=
| ask_type t : asked (AType t) (Some t)
| ask_empty : asked AEmpty None
| ask_none : asked ApiModel.ANone None.
(** [y] is what argument [x] is mapped to: itself if the parameter is called self or cls and
    the argument has an attribute with the name of the function, and what the mapper returns
    for it and the annotation otherwise *)
Definition is_receiver (has : pyobj -> string -> bool) (fname : string) (p : string * annotation) (x : pyobj) : Prop :=
  (fst p = "self" \/ fst p = "cls") /\ has x fname = true.
Definition arg_mapped (has : pyobj -> string -> bool) (mapper : mapper_fn) (fname : string)
    (p : string * annotation) (x y : pyobj) : Prop :=
  (is_receiver has fname p x /\ y = x) \/
  (~ is_receiver has fname p x /\ snd (mapper (annotated_cls (snd p)) x) = Done y).
Definition arg_fails (has : pyobj -> string -> bool) (mapper : mapper_fn) (fname : string)
    (p : string * annotation) (x : pyobj) (e : exn) : Prop :=
  ~ is_receiver has fname p x /\ snd (mapper (annotated_cls (snd p)) x) = Fail e.
(** All of them, with the parameters in order; there may be more parameters. *)
Inductive args_mapped (has : pyobj -> string -> bool) (mapper : mapper_fn) (fname : string) :
  list (string * annotation) -> list pyobj -> list pyobj -> Prop :=
| am_none ps : args_mapped has mapper fname ps [] []
| am_more p ps x xs y ys : arg_mapped has mapper fname p x y -> args_mapped has mapper fname ps xs ys ->
    args_mapped has mapper fname (p :: ps) (x :: xs) (y :: ys).
(** The arguments the function is called with *)
Definition passed (has : pyobj -> string -> bool) (parameters : bool) (mapper : mapper_fn) (fn : func)
    (args args' : list pyobj) : Prop :=
  if parameters then args_mapped has mapper (fn_name fn) (fn_params fn) args args' else args' = args.
(** What the caller gets for the result [x] *)
Definition returned (returnvalue : bool) (mapper : mapper_fn) (fn : func) (x y : pyobj) : Prop :=
  if returnvalue then snd (mapper (annotated_cls (fn_return fn)) x) = Done y else y = x.
(** The calls in a run *)
Definition calls (l : list step) : list (list pyobj * kwargs) :=
  flat_map (fun s => match s with StCall a k => [(a, k)] | StEv _ => [] end) l.
(** The dumper and the loader that belong together *)
Definition partners (dumper loader : api_fn) : Prop :=
  (dumper = FDump /\ loader = FLoad) \/ (dumper = FDumps /\ loader = FLoads) \/ (dumper = FDumpb /\ loader = FLoadb).
