(** * json.dumps with layout arguments

    json.dumps of CPython 3.10 with the arguments indent, separators, sort_keys,
    ensure_ascii, allow_nan and skipkeys, which dumps and dumpb pass on ([jdkwargs]).  Not
    modelled here: the argument default (FallbackModel), cls and check_circular. *)
From Verif Require Export JsonTextModel.
Set Implicit Arguments.
Local Open Scope string_scope.

(** json/__init__.py:183-185: the keyword arguments of json.dumps.  [ly_lt] is the
    comparison of keys that are neither both text nor both integers. *)
Inductive indentation : Type :=
| IndentBy (z : Z)
| IndentWith (s : string).
Record layout : Type := mkLayout {
  ly_indent : option indentation;
  ly_separators : option (string * string);
  ly_sort : bool;
  ly_ascii : bool;
  ly_nan : bool;
  ly_skip : bool;
  ly_lt : value -> value -> res bool }.
(** The defaults *)
Definition layout0 : layout := mkLayout None None false true true false (fun _ _ => raise KType).

(** json/encoder.py:134-138 (__init__): the separators.  With an indentation there is no
    space after a comma. *)
Definition item_separator (L : layout) : string :=
  match ly_separators L with
  | Some (a, _) => a
  | None => match ly_indent L with Some _ => "," | None => ", " end
  end.
Definition key_separator (L : layout) : string :=
  match ly_separators L with Some (_, b) => b | None => ": " end.
(** json/encoder.py:273-274; repetition of a string a negative number of times is the
    empty string. *)
Fixpoint times (n : nat) (s : string) : string :=
  match n with O => "" | S n => s ++ times n s end.
Definition indent_text (i : indentation) : string :=
  match i with IndentBy z => times (Z.to_nat z) " " | IndentWith s => s end.
(** json/encoder.py:286-290, 313-315: the start of a line at a level of nesting; nothing if
    there is no indentation *)
Definition newline (L : layout) (lvl : nat) : string :=
  match ly_indent L with
  | Some i => String (ascii_of_nat 10) (times lvl (indent_text i))
  | None => ""
  end.

(** json/encoder.py:18-52 (ESCAPE, py_encode_basestring): ensure_ascii=False *)
Definition escape_raw (c : ascii) : string :=
  let n := code c in
  if Nat.eqb n 34 then "\""" else if Nat.eqb n 92 then "\\"
  else if Nat.eqb n 10 then "\n" else if Nat.eqb n 13 then "\r" else if Nat.eqb n 9 then "\t"
  else if Nat.eqb n 12 then "\f" else if Nat.eqb n 8 then "\b"
  else if Nat.leb 32 n then String c EmptyString
  else "\u" ++ hex 4 (Z.of_nat n).
(** json/encoder.py:218-221 (iterencode): the encoder of strings *)
Definition string_text (L : layout) (s : string) : string :=
  if ly_ascii L then quoted s
  else """" ++ sjoin "" (map escape_raw (list_ascii_of_string s)) ++ """".
(** json/encoder.py:223-245 (floatstr) *)
Definition number_text (T : textrt) (L : layout) (x : pyfloat) : res string :=
  match x with
  | FNan | FInf _ => if ly_nan L then Ok (float_text T x) else raise KValue
  | _ => Ok (float_text T x)
  end.
(** json/encoder.py:352-384: keys; None: the entry is skipped *)
Definition key_text_with (T : textrt) (CT : classes) (L : layout) (k : value) : res (option string) :=
  match scalar_of CT k with
  | Some (VStr s) => Ok (Some s)
  | Some (VFloat x) => dor t <- number_text T L x; Ok (Some t)
  | Some (VBool true) => Ok (Some "true")
  | Some (VBool false) => Ok (Some "false")
  | Some VNone => Ok (Some "null")
  | Some (VInt z) => Ok (Some (str_int z))
  | _ => if ly_skip L then Ok None else raise KType
  end.
(** json/encoder.py:413-443 (_iterencode) for everything but lists and dicts *)
Definition scalar_text_with (T : textrt) (CT : classes) (L : layout) (v : value) : res string :=
  match scalar_of CT v with
  | Some (VStr s) => Ok (string_text L s)
  | Some VNone => Ok "null"
  | Some (VBool true) => Ok "true"
  | Some (VBool false) => Ok "false"
  | Some (VInt z) => Ok (str_int z)
  | Some (VFloat x) => number_text T L x
  | _ => raise KType
  end.

(** json/encoder.py:348-351: sorted(dct.items()).  The keys of a dict are different, so
    values are never compared.  Insertion sort instead of list.sort: the results of all stable sorts
    are the same if [<] is an order on the keys (it is not if one of them is NaN), and each
    of them raises if some key cannot be compared with the rest. *)
Definition key_lt (CT : classes) (L : layout) (a b : value) : res bool :=
  match scalar_of CT a, scalar_of CT b with
  | Some (VStr x), Some (VStr y) => Ok (String.ltb x y)
  | Some (VInt x), Some (VInt y) => Ok (x <? y)%Z
  | Some (VStr _), Some _ | Some _, Some (VStr _) => raise KType
  | Some VNone, Some _ | Some _, Some VNone => raise KType
  | _, _ => ly_lt L a b
  end.
Section Sort.
Context {A : Type}.
Variable lt : value -> value -> res bool.
Fixpoint insert (x : value * A) (l : list (value * A)) : res (list (value * A)) :=
  match l with
  | [] => Ok [x]
  | y :: r =>
      dor b <- lt (fst x) (fst y);
      if b then Ok (x :: l) else dor r' <- insert x r; Ok (y :: r')
  end.
Fixpoint sort_into (acc l : list (value * A)) : res (list (value * A)) :=
  match l with
  | [] => Ok acc
  | x :: r => dor acc' <- insert x acc; sort_into acc' r
  end.
End Sort.
Definition items_of {A : Type} (CT : classes) (L : layout) (d : list (value * A)) : res (list (value * A)) :=
  if ly_sort L then sort_into (key_lt CT L) [] d else Ok d.

(** json/encoder.py:332-411: the entries of a dict; their values are given as texts. *)
Fixpoint entries_text (T : textrt) (CT : classes) (L : layout) (d : list (value * res string)) : res (list string) :=
  match d with
  | [] => Ok []
  | kx :: r =>
      dor k <- key_text_with T CT L (fst kx);
      match k with
      | Some k =>
          dor t <- snd kx;
          dor ts <- entries_text T CT L r;
          Ok ((string_text L k ++ key_separator L ++ t) :: ts)
      | None => entries_text T CT L r
      end
  end.
(** Brackets around items, each on its own line if there is an indentation *)
Definition bracketed (L : layout) (lvl : nat) (a b : string) (ts : list string) : string :=
  a ++ newline L (S lvl) ++ sjoin (item_separator L ++ newline L (S lvl)) ts ++ newline L lvl ++ b.
(** json/encoder.py:277-411 (_iterencode_list, _iterencode_dict); [lvl]: _current_indent_level *)
Fixpoint json_text (T : textrt) (CT : classes) (L : layout) (lvl : nat) (v : value) : res string :=
  match v with
  | VList [] | VTuple [] | VNT _ [] => Ok "[]"
  | VList l | VTuple l | VNT _ l =>
      dor ts <- rmap (json_text T CT L (S lvl)) l; Ok (bracketed L lvl "[" "]" ts)
  | VDict _ [] => Ok "{}"
  | VDict _ d =>
      dor items <- items_of CT L (map (fun kx => (fst kx, json_text T CT L (S lvl) (snd kx))) d);
      dor ts <- entries_text T CT L items;
      Ok (bracketed L lvl "{" "}" ts)
  | _ => scalar_text_with T CT L v
  end.

(** dumps, _dump_impl.py:69-88 *)
Definition dumps_with (E : env) (T : textrt) (L : layout) (f n : nat) (o : sopts) (cls : option ty) (v : value) : M string :=
  dom j <- dump E f n o cls v; lift (json_text T (e_ct E) L 0 j).
(** dumpb, _dump_impl.py:91-113 *)
Definition dumpb_with (E : env) (T : textrt) (L : layout) (f n : nat) (o : sopts) (encoding : string) (cls : option ty) (v : value) : M string :=
  dom s <- dumps_with E T L f n o cls v; lift (encode_text T encoding s).
