(** * Specification for the positions of errors in JSON text (C85) *)
From Verif Require Export PositionModel JsonTextSpec.
Local Open Scope string_scope.
Local Open Scope Z_scope.

(** ** Where a text goes wrong
    [wrong T s r]: [s] should begin with a value, and goes wrong where [r] begins. *)
Definition begins_with (p : Z -> Prop) (s : text) : Prop := exists c r, s = c :: r /\ p c.
(** [t], a text of a value, is the longest at the beginning of [t ++ s]: 12 rather than 1 in 12x. *)
Definition longest (T : textrt) (t s : text) : Prop := forall t' v s',
  json_value T t' v -> (t ++ s)%list = (t' ++ s')%list -> (length t' <= length t)%nat.
(** The last character is written as \uXXXX. *)
Definition ends_in_unit (t : text) : Prop := exists t' us a b c d, chars t' us /\ t = (t' ++ [92; 117; a; b; c; d])%list.
(** A string without end, also one that ends with a backslash, goes wrong at its beginning; control characters and
    backslashes that begin no escape where they are; \u without four digits and something after them at the u. *)
Inductive wrong_string : text -> text -> Prop :=
| ws_open t us : chars t us -> ~ ends_in_unit t -> wrong_string (34 :: t) (34 :: t)
| ws_open_escape t us : chars t us -> wrong_string (34 :: t ++ [92])%list (34 :: t ++ [92])%list
| ws_control t us c s : chars t us -> c < 32 -> wrong_string (34 :: t ++ c :: s)%list (c :: s)
| ws_escape t us e s : chars t us -> e <> 117 -> (forall u, ~ In (e, u) escapes) ->
    wrong_string (34 :: t ++ 92 :: e :: s)%list (92 :: e :: s)
| ws_unit t us s : chars t us ->
    (forall a b c d x s', s = a :: b :: c :: d :: x :: s' ->
       ~ ((exists v, hex_value a v) /\ (exists v, hex_value b v) /\ (exists v, hex_value c v) /\ (exists v, hex_value d v))) ->
    wrong_string (34 :: t ++ 92 :: 117 :: s)%list (117 :: s).
Inductive wrong (T : textrt) : text -> text -> Prop :=
| wg_token s : (forall t v r, json_value T t v -> s <> (t ++ r)%list) -> ~ begins_with (fun c => c = 34 \/ c = 91 \/ c = 123) s -> wrong T s s
| wg_string s r : wrong_string s r -> wrong T s r
| wg_list w s r : spaces w -> ~ begins_with (fun c => space c \/ c = 93) s -> wrong_elements T s r -> wrong T (codes "[" ++ w ++ s)%list r
| wg_dict w s r : spaces w -> ~ begins_with (fun c => space c \/ c = 125) s -> wrong_members T s r -> wrong T (codes "{" ++ w ++ s)%list r
with wrong_elements (T : textrt) : text -> text -> Prop :=
| we_value s r : wrong T s r -> wrong_elements T s r
| we_after t v w s : json_value T t v -> longest T t (w ++ s)%list -> spaces w -> ~ begins_with (fun c => space c \/ c = 44 \/ c = 93) s ->
    wrong_elements T (t ++ w ++ s)%list s
| we_more t v w w' s r : json_value T t v -> spaces w -> spaces w' -> ~ begins_with space s -> wrong_elements T s r ->
    wrong_elements T (t ++ w ++ codes "," ++ w' ++ s)%list r
with wrong_members (T : textrt) : text -> text -> Prop :=
| wm_key s : ~ begins_with (fun c => c = 34) s -> wrong_members T s s
| wm_string s r : wrong_string s r -> wrong_members T s r
| wm_colon tk k w s : json_string T tk k -> spaces w -> ~ begins_with (fun c => space c \/ c = 58) s ->
    wrong_members T (tk ++ w ++ s)%list s
| wm_value tk k w w' s r : json_string T tk k -> spaces w -> spaces w' -> ~ begins_with space s -> wrong T s r ->
    wrong_members T (tk ++ w ++ codes ":" ++ w' ++ s)%list r
| wm_after tk k w w' t v w2 s : json_string T tk k -> spaces w -> spaces w' -> json_value T t v -> longest T t (w2 ++ s)%list -> spaces w2 ->
    ~ begins_with (fun c => space c \/ c = 44 \/ c = 125) s ->
    wrong_members T (tk ++ w ++ codes ":" ++ w' ++ t ++ w2 ++ s)%list s
| wm_more tk k w w' t v w2 w3 s r : json_string T tk k -> spaces w -> spaces w' -> json_value T t v -> spaces w2 -> spaces w3 ->
    ~ begins_with space s -> wrong_members T s r ->
    wrong_members T (tk ++ w ++ codes ":" ++ w' ++ t ++ w2 ++ codes "," ++ w3 ++ s)%list r.
(** A whole text: its value goes wrong, or there is something after it. *)
Inductive wrong_document (T : textrt) : text -> text -> Prop :=
| wd_value w s r : spaces w -> ~ begins_with space s -> wrong T s r -> wrong_document T (w ++ s)%list r
| wd_extra w t v w' s : spaces w -> json_value T t v -> longest T t (w' ++ s)%list -> spaces w' -> begins_with (fun c => ~ space c) s ->
    wrong_document T (w ++ t ++ w' ++ s)%list s.

(** ** Beginnings of JSON texts *)
Definition can_be_continued (T : textrt) (p : text) : Prop := exists c v, json_document T (p ++ c)%list v.

(** ** Lines *)
Definition no_line_feed (s : text) : Prop := Forall (fun c => c <> 10) s.
(** [s] is this many lines, each with a line feed at its end, and this many more characters *)
Definition lines_and_rest (s : text) (n m : nat) : Prop :=
  exists ls r, s = (concat (map (fun l => l ++ [10]) ls) ++ r)%list /\ Forall no_line_feed ls /\ no_line_feed r /\
    length ls = n /\ length r = m.
