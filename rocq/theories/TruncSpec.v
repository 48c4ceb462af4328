(** * Specification for cut off and joined JSON texts (C86) *)
From Verif Require Export PositionSpec LayoutSpec.
Local Open Scope string_scope.

(** What is dumped is no number: the end of its text can be seen. *)
Definition no_number (j : value) : Prop :=
  match j with
  | VNone | VBool _ | VStr _ | VList _ | VTuple _ | VNT _ _ | VDict _ _ => True
  | _ => False
  end.
(** A file with one text per line *)
Definition line_feed : string := String (Ascii.ascii_of_nat 10) EmptyString.
Definition file_of (lines : list string) : string := String.concat "" (map (fun s => s ++ line_feed) lines).
Definition a_line (s : string) : Prop := no_line_feed (codes s).
