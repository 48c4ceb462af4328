(** * What the properties of UUIDs, timedeltas and timezones are stated with *)
From Verif Require Export LeafModel DatetimeSpec.
Local Open Scope string_scope.

(** ** Hexadecimal text *)
(** The value of a digit 0-9, a-f or A-F *)
Definition hex_digit (c : ascii) : option Z :=
  let z := Z.of_nat (nat_of_ascii c) in
  if ((48 <=? z) && (z <=? 57))%Z then Some (z - 48)%Z
  else if ((97 <=? z) && (z <=? 102))%Z then Some (z - 87)%Z
  else if ((65 <=? z) && (z <=? 70))%Z then Some (z - 55)%Z
  else None.
(** [hex_text s n]: [s] consists of hexadecimal digits and denotes [n]. *)
Inductive hex_text : string -> Z -> Prop :=
| ht_nil : hex_text "" 0
| ht_snoc s c n d : hex_text s n -> hex_digit c = Some d -> hex_text (s ++ String c "") (16 * n + d).
(** The 36 characters of a UUID: groups of 8, 4, 4, 4 and 12 hexadecimal digits *)
Definition uuid_text (s : string) (n : Z) : Prop :=
  exists a b c d e,
    s = a ++ "-" ++ b ++ "-" ++ c ++ "-" ++ d ++ "-" ++ e /\ hex_text (a ++ b ++ c ++ d ++ e) n /\
    String.length a = 8 /\ String.length b = 4 /\ String.length c = 4 /\ String.length d = 4 /\ String.length e = 12.
Definition is_uuid (n : Z) : Prop := (0 <= n < 2 ^ 128)%Z.
(** Letters of the alphabet that int(s, 16) tolerates besides hexadecimal digits *)
Definition literal_char (c : ascii) : bool :=
  match hex_digit c with
  | Some _ => true
  | None => existsb (Ascii.eqb c) ["x"; "X"; "_"; "+"; "-"]%char || is_space c
  end.
(** The characters other than hyphens *)
Fixpoint without_hyphens (s : string) : string :=
  match s with
  | EmptyString => EmptyString
  | String c r => if Ascii.eqb c "-" then without_hyphens r else String c (without_hyphens r)
  end.
(** Only hexadecimal digits and hyphens *)
Definition plain_uuid_text (s : string) : Prop :=
  forall c, smem c s = true -> c = "-"%char \/ exists d, hex_digit c = Some d.
(** None of the characters of the decorations 'urn:', 'uuid:' and braces that are removed *)
Definition undecorated (s : string) : Prop := smem "u" s = false /\ smem "{" s = false /\ smem "}" s = false.
(** [decorated h s]: [s] is [h] with hyphens, braces, 'urn:' and 'uuid:' put in here and
    there. *)
Inductive decorated (h : string) : string -> Prop :=
| dec_none : decorated h h
| dec_put a p b : decorated h (a ++ b) -> In p ["-"; "{"; "}"; "urn:"; "uuid:"] -> decorated h (a ++ p ++ b).

(** A timedelta shorter than 2^33 seconds, about 272 years; in microseconds *)
Definition short_timedelta (us : Z) : Prop := (Z.abs us < 2 ^ 33 * 1000000)%Z.

(** ** Timezones *)
(** The offset of a timezone, in microseconds: less than a day to either side *)
Definition offset_ok (off : Z) : Prop := (-86400000000 < off < 86400000000)%Z.
(** The name that a timezone shows: its own, or UTC, or UTC and the offset: hours and
    minutes, and seconds and microseconds if there are any. *)
Definition shown_name (off : Z) (name : option string) (nm : string) : Prop :=
  match name with
  | Some own => nm = own
  | None =>
      (off = 0%Z /\ nm = "UTC") \/
      (off <> 0%Z /\ exists h m s u : Z,
         Z.abs off = (((h * 60 + m) * 60 + s) * 1000000 + u)%Z /\
         (0 <= m < 60)%Z /\ (0 <= s < 60)%Z /\ (0 <= u < 1000000)%Z /\
         nm = "UTC" ++ (if Z.ltb off 0 then "-" else "+") ++ digits 2 h ++ ":" ++ digits 2 m ++
              (if Z.eqb s 0 && Z.eqb u 0 then "" else ":" ++ digits 2 s) ++
              (if Z.eqb u 0 then "" else "." ++ digits 6 u))
  end.
