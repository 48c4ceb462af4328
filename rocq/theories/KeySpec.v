(** * Specification vocabulary for key casing

    Independent of the transformers: says what the casings are. *)
From Verif Require Import PyBase.
Local Open Scope string_scope.

(** No character of the string satisfies [p]. *)
Definition free_of (p : ascii -> bool) (s : string) : Prop :=
  forall c, In c (list_ascii_of_string s) -> p c = false.
Definition sep (c : ascii) : bool := Ascii.eqb c "_" || Ascii.eqb c "-".
Definition first_not (p : ascii -> bool) (s : string) : Prop :=
  match s with EmptyString => True | String c _ => p c = false end.

(** camelCase: no separator, no leading capital. *)
Definition camel_shape (s : string) : Prop := free_of sep s /\ first_not is_upper s.
(** PascalCase: no separator, no leading small letter. *)
Definition pascal_shape (s : string) : Prop := free_of sep s /\ first_not is_lower s.
(** snake_case: no capital, no dash. *)
Definition snake_shape (s : string) : Prop :=
  free_of is_upper s /\ free_of (fun c => Ascii.eqb c "-") s.
(** lisp-case: no capital, no underscore. *)
Definition lisp_shape (s : string) : Prop :=
  free_of is_upper s /\ free_of (fun c => Ascii.eqb c "_") s.

(** A key made of separators only (the empty key included). *)
Definition only_separators (s : string) : Prop :=
  forall c, In c (list_ascii_of_string s) -> sep c = true.

(** A word: one or more small letters. *)
Definition word (w : string) : Prop := w <> "" /\ sforall is_lower w = true.

(** The words strictly between the first and the last. *)
Definition interior {A} (ws : list A) : list A := removelast (tl ws).

(** Canonical snake_case names, given by their words. *)
Definition snake_name (ws : list string) : string := sjoin "_" ws.

(** A word with its first letter capitalised. *)
Definition cap (w : string) : string :=
  match w with EmptyString => "" | String c r => String (to_upper c) r end.
