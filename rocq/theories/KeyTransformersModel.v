(** * Model of jsons/_key_transformers.py (the four key transformers)

    Strings are ASCII; [str_[0]] on an empty string raises IndexError. *)
From Verif Require Export PyBase.
Local Open Scope string_scope.

(** [str_[0].lower() + str_[1:]], _key_transformers.py:20 and :30. *)
Definition lower_first (s : string) : res string :=
  match s with
  | EmptyString => raise KIndex
  | String c r => Ok (String (to_lower c) r)
  end.

(** [str_[0].upper() + str_[1:]], _key_transformers.py:41. *)
Definition upper_first (s : string) : res string :=
  match s with
  | EmptyString => raise KIndex
  | String c r => Ok (String (to_upper c) r)
  end.

(** camelcase, _key_transformers.py:10-20 (lines 16-20). *)
Definition camelcase (str_ : string) : res string :=
  let str_ := sreplace1 "-" "_" str_ in
  let splitted := ssplit "_" str_ in
  let str_ := if Nat.ltb 1 (List.length splitted)
              then sjoin "" (map stitle splitted)
              else str_ in
  lower_first str_.

(** [re.sub(r'([a-z])([A-Z])', '\\1_\\2', str_)], _key_transformers.py:31.
    A match consumes a small letter and the capital after it; the next match
    cannot start at that capital, so inserting '_' between every such pair is the
    same as the left-to-right non-overlapping substitution. *)
Fixpoint resub (s : string) : string :=
  match s with
  | EmptyString => EmptyString
  | String a t =>
      match t with
      | String b _ =>
          if is_lower a && is_upper b then String a (String "_" (resub t))
          else String a (resub t)
      | EmptyString => String a EmptyString
      end
  end.

(** snakecase, _key_transformers.py:23-31 (lines 29-31). *)
Definition snakecase (str_ : string) : res string :=
  let str_ := sreplace1 "-" "_" str_ in
  dor str_ <- lower_first str_;
  Ok (slower (resub str_)).

(** pascalcase, _key_transformers.py:34-41. *)
Definition pascalcase (str_ : string) : res string :=
  dor camelcase_str <- camelcase str_;
  upper_first camelcase_str.

(** lispcase, _key_transformers.py:44-50. *)
Definition lispcase (str_ : string) : res string :=
  dor s <- snakecase str_;
  Ok (sreplace1 "_" "-" s).
