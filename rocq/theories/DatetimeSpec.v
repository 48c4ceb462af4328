(** * Specification for dates and times

    RFC 3339 text, written independently of the model's printers and parsers. *)
From Verif Require Import PyBase DatetimeModel.
Local Open Scope string_scope.

(** Exactly [n] decimal digits of [z], zero-padded. *)
Fixpoint digits (n : nat) (z : Z) : string :=
  match n with
  | O => ""
  | S k => digits k (z / 10) ++ String (digit_char (z mod 10)) ""
  end.

(** A real calendar date with a year in [lo]..9999, a real time of day. *)
Definition real_date (lo : Z) (d : date) : Prop :=
  (lo <= d_year d <= 9999 /\ 1 <= d_month d <= 12 /\
   1 <= d_day d <= days_in_month (d_year d) (d_month d))%Z.
Definition real_time (t : time) : Prop :=
  (0 <= t_hour t <= 23 /\ 0 <= t_min t <= 59 /\ 0 <= t_sec t <= 59 /\ 0 <= t_us t <= 999999)%Z.

Definition date_text (d : date) : string :=
  digits 4 (d_year d) ++ "-" ++ digits 2 (d_month d) ++ "-" ++ digits 2 (d_day d).
Definition clock_text (t : time) : string :=
  digits 2 (t_hour t) ++ ":" ++ digits 2 (t_min t) ++ ":" ++ digits 2 (t_sec t).
(** The fraction is written when it is non-zero and not stripped. *)
Definition frac_text (strip : bool) (t : time) : string :=
  if strip || (t_us t =? 0)%Z then "" else "." ++ digits 6 (t_us t).
Definition wall_text (d : date) (t : time) : string := date_text d ++ "T" ++ clock_text t.

Definition set_us (t : time) (us : Z) : time := mkTime (t_hour t) (t_min t) (t_sec t) us.

(** Microseconds denoted by a sequence of fraction digits: the first six, as if
    followed by zeros. *)
Fixpoint frac_value (n : nat) (s : string) : Z :=
  match n, s with
  | S k, String c r => (digit_val c * 10 ^ Z.of_nat k + frac_value k r)%Z
  | _, _ => 0%Z
  end.
Definition microseconds (ds : string) : Z := frac_value 6 ds.

(** A timezone with offset [off] at the moment in question that is not called UTC:
    what datetime.timezone (utcoffset(None) is the offset) and zoneinfo
    (utcoffset(None) is None) objects look like. *)
Definition has_offset (tz : tzinfo) (off : Z) : Prop :=
  tz_off tz = Some off /\ (tz_off_none tz = Some off \/ tz_off_none tz = None) /\
  tz_adjusted tz = None /\ tz_name tz <> Some "UTC" /\ tz_name tz <> Some "UTC+00:00".

(** The offsets that survive. *)
Definition exact_offset (off : Z) : Prop :=
  (off mod us_per_min = 0 /\ (0 <= off \/ off mod (30 * us_per_min) = 0))%Z.

(** strip_microseconds=True cuts the microseconds. *)
Definition cut (strip : bool) (t : time) : time := if strip then set_us t 0 else t.

(** A loaded datetime: real calendar fields and, if [aware], an offset strictly
    inside (-24h, 24h).  The exceptions that text can cause. *)
Definition sound_dt (aware : bool) (dt : datetime) : Prop :=
  real_date 1 (dt_date dt) /\ real_time (dt_time dt) /\
  (aware = true -> exists tz off, dt_tz dt = Some tz /\ tz_off tz = Some off /\
                                  (- us_per_day < off < us_per_day)%Z).
Definition parse_error (e : exn) : Prop :=
  e = exn_of KValue \/ e = exn_of KOverflow.
(** A '.' followed by a digit. *)
Definition has_fraction (s : string) : Prop :=
  exists a c b, s = a ++ "." ++ String c b /\ is_digit c = true.
