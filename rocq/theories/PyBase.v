(** * PyBase: the fragment of Python that every model file shares

    Exceptions as values, ASCII strings with the [str] methods that jsons uses,
    [str(int)] / [int(str)], and insertion-ordered dicts.  No jsons code is
    modelled here except the exception hierarchy (jsons/exceptions.py). *)
From Coq Require Export String Ascii.
From Coq Require Export Arith ZArith Bool Lia.
From Coq Require Export List.
Export ListNotations.
Set Implicit Arguments.

(** ** Exceptions *)

(** jsons/exceptions.py:8-196 (the classes) together with the builtin exception
    classes that the jsons code can meet.  [KOther n] stands for any further
    [Exception] subclass raised by user code (constructors, validators, custom
    (de)serializers, properties).  [BaseException]s that are not [Exception]s
    are not modelled. *)
Inductive ekind : Type :=
| KJsons | KValidation | KArgument | KDeser | KSer | KDecode
| KUnfulfilled | KSignature | KUnknownClass | KDecoration
| KType | KValue | KKey | KIndex | KAttribute | KZeroDiv | KUnicode | KOverflow
| KOther (n : nat).

(** isinstance(err, JsonsError): exceptions.py:8, 26, 32, 57, 90, 96, 115, 137, 160, 186. *)
Definition is_jsons (k : ekind) : bool :=
  match k with
  | KJsons | KValidation | KArgument | KDeser | KSer | KDecode
  | KUnfulfilled | KSignature | KUnknownClass | KDecoration => true
  | _ => false
  end.

(** isinstance(err, DeserializationError): exceptions.py:57, 96, 115, 137, 160. *)
Definition is_deser (k : ekind) : bool :=
  match k with
  | KDeser | KDecode | KUnfulfilled | KSignature | KUnknownClass => true
  | _ => false
  end.

(** isinstance(err, ValueError): ArgumentError (exceptions.py:32) and its
    subclasses, JSONDecodeError and UnicodeDecodeError are ValueErrors. *)
Definition is_valueerror (k : ekind) : bool :=
  match k with
  | KValue | KArgument | KUnfulfilled | KSignature | KDecode | KUnicode => true
  | _ => false
  end.

(** isinstance(err, KeyError) / AttributeError *)
Definition is_keyerror (k : ekind) : bool :=
  match k with KKey => true | _ => false end.
Definition is_attributeerror (k : ekind) : bool :=
  match k with KAttribute => true | _ => false end.

(** An exception instance.  [e_arg] is [ArgumentError.argument]
    (exceptions.py:46-54); [e_idx] is the list of element indices that
    [default_list._do_load] (deserializers/default_list.py:61-67) prepends to the
    message; [e_noargs] says that [err.args] is empty; [e_msg] is [err.args[0]]
    as far as the model keeps it (message texts that embed [repr]s are not). *)
Record exn : Type := mkExn {
  e_kind : ekind;
  e_arg : option string;
  e_idx : list nat;
  e_noargs : bool;
  e_msg : string }.

Definition exn_of (k : ekind) : exn := mkExn k None [] false EmptyString.
Definition exn_arg (k : ekind) (a : string) : exn := mkExn k (Some a) [] false EmptyString.

(** Result of a computation that may raise. *)
Inductive res (A : Type) : Type :=
| Ok (a : A)
| Err (e : exn).
Arguments Ok {A} a.
Arguments Err {A} e.

Definition rbind {A B} (m : res A) (f : A -> res B) : res B :=
  match m with Ok a => f a | Err e => Err e end.
Definition raise {A} (k : ekind) : res A := Err (exn_of k).
Definition is_ok {A} (m : res A) : bool := match m with Ok _ => true | Err _ => false end.

Declare Scope py_scope.
Delimit Scope py_scope with py.
Notation "'dor' x <- m ; f" := (rbind m (fun x => f))
  (at level 200, x pattern, m at level 100, f at level 200, right associativity) : py_scope.
Open Scope py_scope.

(** ** Characters *)

Definition code (c : ascii) : nat := nat_of_ascii c.
Definition is_upper (c : ascii) : bool := (65 <=? code c) && (code c <=? 90).
Definition is_lower (c : ascii) : bool := (97 <=? code c) && (code c <=? 122).
Definition is_digit (c : ascii) : bool := (48 <=? code c) && (code c <=? 57).
Definition is_cased (c : ascii) : bool := is_upper c || is_lower c.
Definition to_lower (c : ascii) : ascii :=
  if is_upper c then ascii_of_nat (code c + 32) else c.
Definition to_upper (c : ascii) : ascii :=
  if is_lower c then ascii_of_nat (code c - 32) else c.
(** ASCII whitespace as stripped by [int()] and [str.strip()]. *)
Definition is_space (c : ascii) : bool :=
  ((9 <=? code c) && (code c <=? 13)) || ((28 <=? code c) && (code c <=? 32)).

Definition digit_val (c : ascii) : Z := Z.of_nat (code c) - 48.
Definition digit_char (d : Z) : ascii := ascii_of_nat (Z.to_nat (d + 48)).

(** ** Strings *)

Fixpoint smap (f : ascii -> ascii) (s : string) : string :=
  match s with
  | EmptyString => EmptyString
  | String c r => String (f c) (smap f r)
  end.

(** str.lower, str.upper *)
Definition slower : string -> string := smap to_lower.
Definition supper : string -> string := smap to_upper.

(** str.replace(a, b) for one-character [a] and [b]. *)
Definition sreplace1 (a b : ascii) : string -> string :=
  smap (fun c => if Ascii.eqb c a then b else c).

Fixpoint sforall (p : ascii -> bool) (s : string) : bool :=
  match s with
  | EmptyString => true
  | String c r => p c && sforall p r
  end.

Definition sexists (p : ascii -> bool) (s : string) : bool :=
  negb (sforall (fun c => negb (p c)) s).

(** [c in s] for a one-character [c]. *)
Definition smem (c : ascii) : string -> bool := sexists (fun x => Ascii.eqb x c).

(** str.split(c) for a one-character separator: never returns []. *)
Fixpoint ssplit (c : ascii) (s : string) : list string :=
  match s with
  | EmptyString => [EmptyString]
  | String x r =>
      if Ascii.eqb x c then EmptyString :: ssplit c r
      else match ssplit c r with
           | [] => [String x EmptyString]   (* unreachable *)
           | w :: ws => String x w :: ws
           end
  end.

Fixpoint sjoin (sep : string) (l : list string) : string :=
  match l with
  | [] => EmptyString
  | [x] => x
  | x :: r => (x ++ sep ++ sjoin sep r)%string
  end.

(** str.title(): a cased character is upper-cased if the previous character is
    uncased (or absent) and lower-cased otherwise. *)
Fixpoint stitle_go (prev_cased : bool) (s : string) : string :=
  match s with
  | EmptyString => EmptyString
  | String c r =>
      String (if prev_cased then to_lower c else to_upper c) (stitle_go (is_cased c) r)
  end.
Definition stitle : string -> string := stitle_go false.

(** [p in s] for strings: substring test. *)
Fixpoint sinfix (p s : string) : bool :=
  prefix p s ||
  match s with
  | EmptyString => false
  | String _ r => sinfix p r
  end.

(** str.replace(p, r) for non-empty [p]: left to right, non-overlapping. *)
Fixpoint sreplace_go (p r : string) (skip : nat) (s : string) : string :=
  match s with
  | EmptyString => EmptyString
  | String c t =>
      match skip with
      | S k => sreplace_go p r k t
      | O => if prefix p s
             then (r ++ sreplace_go p r (String.length p - 1) t)%string
             else String c (sreplace_go p r 0 t)
      end
  end.
Definition sreplace (p r s : string) : string := sreplace_go p r 0 s.

(** s[n:] and s[:n] for n >= 0 *)
Fixpoint sdrop (n : nat) (s : string) : string :=
  match n, s with
  | O, _ => s
  | S _, EmptyString => EmptyString
  | S k, String _ r => sdrop k r
  end.
Fixpoint stake (n : nat) (s : string) : string :=
  match n, s with
  | O, _ => EmptyString
  | S _, EmptyString => EmptyString
  | S k, String c r => String c (stake k r)
  end.

(** s[-1], None for the empty string (IndexError). *)
Fixpoint slast (s : string) : option ascii :=
  match s with
  | EmptyString => None
  | String c EmptyString => Some c
  | String _ r => slast r
  end.

(** s[0:-1] *)
Fixpoint sbutlast (s : string) : string :=
  match s with
  | EmptyString => EmptyString
  | String c EmptyString => EmptyString
  | String c r => String c (sbutlast r)
  end.

(** str.lstrip of a set of characters, and str.rstrip / strip via reversal. *)
Fixpoint slstrip (p : ascii -> bool) (s : string) : string :=
  match s with
  | EmptyString => EmptyString
  | String c r => if p c then slstrip p r else s
  end.
Fixpoint srev_app (s acc : string) : string :=
  match s with
  | EmptyString => acc
  | String c r => srev_app r (String c acc)
  end.
Definition srev (s : string) : string := srev_app s EmptyString.
Definition srstrip (p : ascii -> bool) (s : string) : string := srev (slstrip p (srev s)).
Definition sstrip (p : ascii -> bool) (s : string) : string := srstrip p (slstrip p s).

(** Lexicographic order of strings by code point ([sorted], [dir]). *)
Fixpoint sleb (a b : string) : bool :=
  match a, b with
  | EmptyString, _ => true
  | String _ _, EmptyString => false
  | String x a', String y b' =>
      if code x <? code y then true
      else if code y <? code x then false
      else sleb a' b'
  end.

(** ** str(int) and int(str) *)

(** Decimal digits of a non-negative integer, least significant first in time:
    [fuel] bounds the number of digits. *)
Fixpoint digits_go (fuel : nat) (z : Z) (acc : string) : string :=
  match fuel with
  | O => acc
  | S f => if (z <? 10)%Z then String (digit_char z) acc
           else digits_go f (z / 10) (String (digit_char (z mod 10)) acc)
  end.
Definition str_nonneg (z : Z) : string := digits_go (S (Z.to_nat (Z.log2 z))) z EmptyString.
(** str(z) for a Python int. *)
Definition str_int (z : Z) : string :=
  if (z <? 0)%Z then String "-"%char (str_nonneg (- z)) else str_nonneg z.

(** int(s) for a str: surrounding whitespace, an optional sign, decimal digits
    with single underscores between digits.  None = ValueError. *)
Fixpoint int_digits (acc : Z) (prev_digit : bool) (s : string) : option Z :=
  match s with
  | EmptyString => if prev_digit then Some acc else None
  | String c r =>
      if is_digit c then int_digits (acc * 10 + digit_val c) true r
      else if Ascii.eqb c "_"%char && prev_digit then int_digits acc false r
      else None
  end.
Definition py_int (s : string) : option Z :=
  match sstrip is_space s with
  | String c r =>
      if Ascii.eqb c "-"%char then option_map Z.opp (int_digits 0 false r)
      else if Ascii.eqb c "+"%char then int_digits 0 false r
      else int_digits 0 false (String c r)
  | EmptyString => None
  end.

(** ** Insertion-ordered dicts with string keys

    A Python dict: setting an existing key keeps its position. *)
Section Assoc.
  Context {K V : Type} (eqb : K -> K -> bool).
  Fixpoint aget (k : K) (d : list (K * V)) : option V :=
    match d with
    | [] => None
    | (k', v) :: r => if eqb k k' then Some v else aget k r
    end.
  Fixpoint aset (k : K) (v : V) (d : list (K * V)) : list (K * V) :=
    match d with
    | [] => [(k, v)]
    | (k', v') :: r => if eqb k k' then (k', v) :: r else (k', v') :: aset k v r
    end.
  Fixpoint adel (k : K) (d : list (K * V)) : list (K * V) :=
    match d with
    | [] => []
    | (k', v') :: r => if eqb k k' then r else (k', v') :: adel k r
    end.
  Definition amem (k : K) (d : list (K * V)) : bool :=
    match aget k d with Some _ => true | None => false end.
End Assoc.

Definition sget {V} (k : string) (d : list (string * V)) : option V := aget String.eqb k d.
Definition sset {V} (k : string) (v : V) (d : list (string * V)) := aset String.eqb k v d.
Definition sdel {V} (k : string) (d : list (string * V)) := adel String.eqb k d.
Definition shas {V} (k : string) (d : list (string * V)) : bool := amem String.eqb k d.

Definition mem_str (k : string) (l : list string) : bool := existsb (String.eqb k) l.
