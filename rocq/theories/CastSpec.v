(** * What the properties of casts to int, float, bool and str are stated with *)
From Verif Require Export LoadSpec LeafModel.
Local Open Scope string_scope.

(** ** int(x) of a float *)
(** [truncates x z]: [z] is the number x without its fraction, i.e. x rounded toward zero.
    The float FFin m e is m * 2^e; it is written here as the fraction n / d. *)
Definition truncates (x : pyfloat) (z : Z) : Prop :=
  match x with
  | FFin m e =>
      let n := (m * 2 ^ Z.max 0 e)%Z in
      let d := (2 ^ Z.max 0 (- e))%Z in
      (Z.abs z * d <= Z.abs n < (Z.abs z + 1) * d)%Z /\ (0 <= z * n)%Z
  | FNegZero => z = 0%Z
  | FInf _ | FNan => False
  end.

(** ** int(s) of a text *)
(** The value of one of the characters '0' to '9' *)
Definition digit_is (c : ascii) (d : Z) : Prop :=
  (0 <= d <= 9)%Z /\ Z.of_nat (nat_of_ascii c) = (48 + d)%Z.
(** [decimals s n]: [s] consists of decimal digits and denotes [n]; single underscores may
    stand between digits. *)
Inductive decimals : string -> Z -> Prop :=
| dg_one c d : digit_is c d -> decimals (String c "") d
| dg_next s n c d : decimals s n -> digit_is c d -> decimals (s ++ String c "") (10 * n + d)
| dg_under s n c d : decimals s n -> digit_is c d -> decimals (s ++ "_" ++ String c "") (10 * n + d).
(** Only white space (maybe none): tabs, line ends, the separators 28 to 31, blanks *)
Definition spaces : list nat := [9; 10; 11; 12; 13; 28; 29; 30; 31; 32].
Definition blank (s : string) : Prop := forall c, smem c s = true -> In (nat_of_ascii c) spaces.
(** [int_literal s z]: an optional sign and digits, maybe with white space around *)
Definition int_literal (s : string) (z : Z) : Prop :=
  exists a sign ds b n,
    s = a ++ sign ++ ds ++ b /\ blank a /\ blank b /\ decimals ds n /\
    ((sign = "" \/ sign = "+") /\ z = n \/ sign = "-" /\ z = (- n)%Z).
(** [decimal_text s z]: the usual way to write [z], without leading zeros *)
Definition decimal_text (s : string) (z : Z) : Prop :=
  exists ds n, decimals ds n /\ smem "_" ds = false /\
    (forall r, ds = String "0" r -> r = "") /\
    (s = ds /\ z = n \/ s = "-" ++ ds /\ z = (- n)%Z /\ (0 < n)%Z).

(** ** float(z) of an integer *)
(** m * 2^e is a finite number of type double. *)
Definition is_double (m e : Z) : Prop :=
  (Z.abs m < 2 ^ 53 /\ -1074 <= e /\ Z.abs m * 2 ^ e < 2 ^ 1024)%Z.
(** No other double is nearer to [z] than m * 2^e, and if there is one that is equally near
    then the 53 bits of m * 2^e are an even number.  Distances are compared after scaling by
    a power 2^k that makes everything an integer. *)
Definition nearest_double (z m e : Z) : Prop :=
  is_double m e /\
  forall m' e' k : Z, is_double m' e' -> (0 <= k -> 0 <= e + k -> 0 <= e' + k ->
    let x := m * 2 ^ (e + k) in
    let y := m' * 2 ^ (e' + k) in
    let t := z * 2 ^ k in
    Z.abs (x - t) <= Z.abs (y - t) /\
    (Z.abs (x - t) = Z.abs (y - t) -> x <> y ->
     exists b i, 0 <= i + k /\ b * 2 ^ (i + k) = x /\ 2 ^ 52 <= Z.abs b <= 2 ^ 53 /\ Z.even b = true))%Z.
(** Integers from here on have no double near them. *)
Definition double_bound : Z := (2 ^ 1024 - 2 ^ 970)%Z.

(** ** bool(j) *)
Definition is_zero (x : pyfloat) : bool :=
  match x with FFin m _ => Z.eqb m 0 | FNegZero => true | _ => false end.
(** The documents that count as false *)
Inductive falsy : value -> Prop :=
| fy_false : falsy (VBool false)
| fy_int : falsy (VInt 0)
| fy_float x : is_zero x = true -> falsy (VFloat x)
| fy_str : falsy (VStr "")
| fy_list : falsy (VList [])
| fy_dict : falsy (VDict DkDict []).

(** ** The cast *)
(** What json.loads makes, other than None, and no meta data in it *)
Inductive json_input : value -> Prop :=
| ji_bool b : json_input (VBool b)
| ji_int z : json_input (VInt z)
| ji_float x : json_input (VFloat x)
| ji_str s : json_input (VStr s)
| ji_list l : json_input (VList l)
| ji_dict d : no_meta_entry (VDict DkDict d) -> json_input (VDict DkDict d).
(** [casts R p j v]: [v] is what [j] is as a [p].  How the interpreter reads a text as a
    float, and how it shows floats, lists and dicts as text, is left to the runtime [R]. *)
Inductive casts (R : runtime) : prim -> value -> value -> Prop :=
| ca_int z : casts R PInt (VInt z) (VInt z)
| ca_int_bool b : casts R PInt (VBool b) (VBool b)
| ca_int_float x z : truncates x z -> casts R PInt (VFloat x) (VInt z)
| ca_int_str s z : int_literal s z -> casts R PInt (VStr s) (VInt z)
| ca_float x : casts R PFloat (VFloat x) (VFloat x)
| ca_float_int z m e : (Z.abs z < double_bound)%Z -> nearest_double z m e ->
    casts R PFloat (VInt z) (VFloat (FFin m e))
| ca_float_bool (b : bool) : casts R PFloat (VBool b) (VFloat (FFin (if b then 1 else 0) 0))
| ca_float_str s x : rt_float R (VStr s) = Ok x -> casts R PFloat (VStr s) (VFloat x)
| ca_bool j (b : bool) : (b = false <-> falsy j) -> casts R PBool j (VBool b)
| ca_str s : casts R PStr (VStr s) (VStr s)
| ca_str_int z s : decimal_text s z -> casts R PStr (VInt z) (VStr s)
| ca_str_bool (b : bool) : casts R PStr (VBool b) (VStr (if b then "True" else "False"))
| ca_str_other j s : (forall s', j <> VStr s') -> (forall z, j <> VInt z) -> (forall b, j <> VBool b) ->
    rt_str R j = Ok s -> casts R PStr j (VStr s).
