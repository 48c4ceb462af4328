(** * Floats, timedeltas, timezones and UUIDs

    The parts of CPython 3.10 that serializers/default_timedelta.py,
    default_timezone.py, default_uuid.py and their deserializers call. *)
From Verif Require Export PyBase DatetimeModel.
Set Implicit Arguments.
Local Open Scope string_scope.

(** ** Floats: dyadic numbers m * 2^e (m odd, or 0 * 2^0) and the special values.
    Subnormal numbers and the upper bound of the range are not enforced. *)
Inductive pyfloat : Type :=
| FFin (m e : Z)
| FNegZero
| FInf (neg : bool)
| FNan.

(** p = o * 2^k with o odd. *)
Fixpoint twos (p : positive) : positive * Z :=
  match p with
  | xO q => let '(o, k) := twos q in (o, (k + 1)%Z)
  | _ => (p, 0%Z)
  end.
Definition mkfloat (m e : Z) : pyfloat :=
  match m with
  | Z0 => FFin 0 0
  | Zpos p => let '(o, k) := twos p in FFin (Zpos o) (e + k)
  | Zneg p => let '(o, k) := twos p in FFin (Zneg o) (e + k)
  end.

(** Round n/d to the nearest integer, ties to even (d > 0). *)
Definition rhe (n d : Z) : Z :=
  let q := (n / d)%Z in
  let r := (2 * (n mod d))%Z in
  (if r <? d then q else if d <? r then q + 1 else if Z.even q then q else q + 1)%Z.

(** The binary64 number nearest to p/q (q > 0): 53 significant bits. *)
Definition fl_exp (n q : Z) : Z :=
  let e := (Z.log2 n - Z.log2 q - 53)%Z in
  if (n * 2 ^ Z.max 0 (- e) <? 2 ^ 53 * (q * 2 ^ Z.max 0 e))%Z then e else (e + 1)%Z.
Definition fl_mant (n q e : Z) : Z := rhe (n * 2 ^ Z.max 0 (- e)) (q * 2 ^ Z.max 0 e).
Definition fl_div (p q : Z) : pyfloat :=
  let n := Z.abs p in
  if (n =? 0)%Z then FFin 0 0
  else let e := fl_exp n q in mkfloat (Z.sgn p * fl_mant n q e) e.

(** float(int); beyond the range of binary64 an OverflowError. *)
Definition float_of_int (z : Z) : res pyfloat :=
  if (Z.abs z <? 2 ^ 1024 - 2 ^ 970)%Z then Ok (fl_div z 1) else raise KOverflow.
(** int(float): truncation; OverflowError for infinities, ValueError for NaN. *)
Definition int_of_float (f : pyfloat) : res Z :=
  match f with
  | FFin m e => Ok (if (0 <=? e)%Z then (m * 2 ^ e)%Z else Z.quot m (2 ^ (- e)))
  | FNegZero => Ok 0%Z
  | FInf _ => raise KOverflow
  | FNan => raise KValue
  end.

(** ** timedelta *)
(** The range of timedelta: -999999999 days up to 999999999 days and a day minus one
    microsecond. *)
Definition td_ok (us : Z) : bool :=
  ((-999999999 * us_per_day <=? us) && (us <? 1000000000 * us_per_day))%Z.
Definition mk_td (us : Z) : res Z := if td_ok us then Ok us else raise KOverflow.

(** timedelta.total_seconds(): integer true division by 10^6, correctly rounded. *)
Definition total_seconds (us : Z) : pyfloat := fl_div us 1000000.

(** timedelta(seconds=z) for an int. *)
Definition td_of_int (z : Z) : res Z := mk_td (z * 1000000).
(** base + m * 2^e rounded to the nearest integer, ties to even. *)
Definition dy_round (base m e : Z) : Z :=
  if (0 <=? e)%Z then (base + m * 2 ^ e)%Z
  else rhe (base * 2 ^ (- e) + m) (2 ^ (- e)).
(** timedelta(seconds=f) for a float (_datetimemodule.c, accum and delta_new): the
    fractional part is multiplied by 10^6 in floating point and the sum is rounded to
    the nearest microsecond, ties to even. *)
Definition td_of_float (f : pyfloat) : res Z :=
  match f with
  | FFin m e =>
      if (0 <=? e)%Z then mk_td (m * 2 ^ e * 1000000)
      else
        let d := (2 ^ (- e))%Z in
        let ip := (Z.quot m d * 1000000)%Z in
        match fl_div (Z.rem m d * 1000000) d with
        | FFin m' e' => mk_td (dy_round ip m' e')
        | _ => mk_td ip                    (* unreachable: fl_div is finite *)
        end
  | FNegZero => mk_td 0
  | FInf _ => raise KOverflow
  | FNan => raise KValue
  end.

(** ** timezone *)
(** tzname(None) of a datetime.timezone: the explicit name, or one derived from the
    offset. *)
Definition timezone_name (off : Z) (name : option string) : string :=
  match name with
  | Some n => n
  | None => if (off =? 0)%Z then "UTC" else auto_name off
  end.
(** timezone(td, name): the offset must be strictly inside a day. *)
Definition timezone_ok (off : Z) : bool :=
  ((- us_per_day <? off) && (off <? us_per_day))%Z.

(** ** UUID *)
Definition hex_char (d : Z) : ascii :=
  ascii_of_nat (Z.to_nat (if d <? 10 then d + 48 else d + 87)%Z).
(** '%0{n}x' % z: the n lowest hexadecimal digits. *)
Fixpoint hex_go (n : nat) (z : Z) (acc : string) : string :=
  match n with
  | O => acc
  | S k => hex_go k (z / 16)%Z (String (hex_char (z mod 16)) acc)
  end.
Definition hex (n : nat) (z : Z) : string := hex_go n z EmptyString.
(** str(UUID(int=n)), uuid.py __str__ *)
Definition uuid_str (n : Z) : string :=
  let h := hex 32 n in
  stake 8 h ++ "-" ++ stake 4 (sdrop 8 h) ++ "-" ++ stake 4 (sdrop 12 h) ++ "-"
  ++ stake 4 (sdrop 16 h) ++ "-" ++ sdrop 20 h.

Definition is_hex (c : ascii) : bool :=
  is_digit c || (Nat.leb 97 (code c) && Nat.leb (code c) 102)
  || (Nat.leb 65 (code c) && Nat.leb (code c) 70).
Definition hex_val (c : ascii) : Z :=
  if is_digit c then digit_val c
  else if Nat.leb 97 (code c) then (Z.of_nat (code c) - 87)%Z
  else (Z.of_nat (code c) - 55)%Z.
(** int(s, 16): whitespace, a sign, an optional 0x, digits with single underscores
    between them (or after 0x).  None = ValueError. *)
Fixpoint hex_digits (acc : Z) (sep_ok : bool) (dig : bool) (s : string) : option Z :=
  match s with
  | EmptyString => if dig then Some acc else None
  | String c r =>
      if is_hex c then hex_digits (acc * 16 + hex_val c)%Z true true r
      else if Ascii.eqb c "_" && sep_ok then hex_digits acc false false r
      else None
  end.
Definition hex_prefix (s : string) : option Z :=
  match s with
  | String z (String x r) =>
      if Ascii.eqb z "0" && (Ascii.eqb x "x" || Ascii.eqb x "X")
      then hex_digits 0 true false r
      else hex_digits 0 false false s
  | _ => hex_digits 0 false false s
  end.
Definition py_int16 (s : string) : option Z :=
  match sstrip is_space s with
  | String c r =>
      if Ascii.eqb c "-" then option_map Z.opp (hex_prefix r)
      else if Ascii.eqb c "+" then hex_prefix r
      else hex_prefix (String c r)
  | EmptyString => None
  end.
Definition is_brace (c : ascii) : bool := Ascii.eqb c "{" || Ascii.eqb c "}".
Definition is_hyphen (c : ascii) : bool := Ascii.eqb c "-".
Fixpoint sremove (p : ascii -> bool) (s : string) : string :=
  match s with
  | EmptyString => EmptyString
  | String c r => if p c then sremove p r else String c (sremove p r)
  end.
(** uuid.py UUID.__init__: the decorations that are removed ... *)
Definition uuid_clean (s : string) : string :=
  sremove is_hyphen (sstrip is_brace (sreplace "uuid:" "" (sreplace "urn:" "" s))).
(** ... and UUID(s). *)
Definition uuid_parse (s : string) : res Z :=
  let h := uuid_clean s in
  if Nat.eqb (String.length h) 32 then
    match py_int16 h with
    | Some n => if ((0 <=? n) && (n <? 2 ^ 128))%Z then Ok n else raise KValue
    | None => raise KValue
    end
  else raise KValue.
