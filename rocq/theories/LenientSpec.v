(** * Specification for json.loads with strict=False (C87) *)
From Verif Require Export LenientModel JsonTextSpec.
Local Open Scope Z_scope.

(** A text in which the control characters within strings are written as escapes, with four hexadecimal digits.
    Nothing else is changed: what is outside of strings is kept, and so is the character after a backslash. *)
Definition hex_digit (d : Z) : Z := if d <? 10 then 48 + d else 87 + d.
Definition escaped (c : Z) : text := [92; 117; 48; 48; hex_digit (c / 16); hex_digit (c mod 16)].
Fixpoint spelled (in_string : bool) (s : text) : text :=
  match s with
  | [] => []
  | c :: r =>
      if c =? 34 then c :: spelled (negb in_string) r
      else if in_string then
        if c =? 92 then match r with [] => [c] | e :: r' => c :: e :: spelled true r' end
        else if (0 <=? c) && (c <? 32) then (escaped c ++ spelled true r)%list
        else c :: spelled true r
      else c :: spelled false r
  end.
Definition control (c : Z) : Prop := 0 <= c < 32.
