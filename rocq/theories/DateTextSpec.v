(** * What texts of datetimes, dates and times say (C72)

    Independent of the parser: a relation between texts and what they denote. *)
From Verif Require Import PyBase DatetimeModel.
From Verif Require Export DatetimeSpec CastSpec.
Local Open Scope string_scope.

(** A numeral: decimal digits. *)
Inductive numeral : string -> Z -> Prop :=
| nu_one c d : digit_is c d -> numeral (String c "") d
| nu_next s n c d : numeral s n -> digit_is c d -> numeral (s ++ String c "") (10 * n + d).
Definition up_to_two (s : string) (z : Z) : Prop := numeral s z /\ String.length s <= 2.

(** year-month-day: four digits, and one or two for the others; instead of its first digit a day
    may have a blank. *)
Inductive says_date : string -> date -> Prop :=
| sd ys ms ds Y m d :
    numeral ys Y -> String.length ys = 4 -> up_to_two ms m ->
    (up_to_two ds d \/ exists c, ds = String " " (String c "") /\ digit_is c d) ->
    real_date 1 (mkDate Y m d) ->
    says_date (ys ++ "-" ++ ms ++ "-" ++ ds) (mkDate Y m d).
(** hours:minutes:seconds, one or two digits each *)
Inductive says_clock : string -> time -> Prop :=
| sc hs ms ss H M Sc :
    up_to_two hs H -> up_to_two ms M -> up_to_two ss Sc -> real_time (mkTime H M Sc 0) ->
    says_clock (hs ++ ":" ++ ms ++ ":" ++ ss) (mkTime H M Sc 0).
(** A fraction of a second, in microseconds *)
Inductive says_fraction : string -> Z -> Prop :=
| sf_none : says_fraction "" 0
| sf_some ds : sforall is_digit ds = true -> ds <> "" -> says_fraction ("." ++ ds) (microseconds ds).
(** An offset in microseconds: "Z", or a sign, hours and minutes, which are whatever int() takes
    ([int_literal]) but for the signs that are excluded here. *)
Definition hm (h m : Z) : Z := (h * us_per_hour + m * us_per_min)%Z.
Inductive says_zone : string -> Z -> Prop :=
| sz_utc : says_zone "Z" 0
| sz_plus hs ms h m : int_literal hs h -> int_literal ms m -> smem "+" hs = false -> smem "+" ms = false ->
    says_zone ("+" ++ hs ++ ":" ++ ms) (hm h m)
| sz_minus hs ms h m : int_literal hs h -> int_literal ms m ->
    smem "+" hs = false -> smem "+" ms = false -> smem "-" hs = false -> smem "-" ms = false ->
    says_zone ("-" ++ hs ++ ":" ++ ms) (- hm h m).
(** The whole: a date, "T" (or "t" before "Z"), the time, a fraction, an offset of less than a day *)
Inductive says : string -> date -> time -> Z -> Prop :=
| sy a T b fr z d t us off :
    says_date a d -> (T = "T" \/ (T = "t" /\ z = "Z")) -> says_clock b t -> says_fraction fr us ->
    says_zone z off -> (- us_per_day < off < us_per_day)%Z ->
    says (a ++ T ++ b ++ fr ++ z) d (set_us t us) off.
