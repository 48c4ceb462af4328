(** * C05-C10: datetimes, dates and times

    Model: DatetimeModel.v ([dump_datetime local strip dt] gives the text and whether
    the missing-timezone warning is issued; [load_datetime], [load_date], [load_time]
    load text).  Specification: DatetimeSpec.v. *)
From Verif Require Import PyBase PyBaseFacts DatetimeModel DatetimeSpec DatetimeProofs.
Local Open Scope string_scope.

Definition ex_date : date := mkDate 2024 2 29.
Definition ex_time : time := mkTime 23 59 7 120.
Definition ex_tz (off : Z) : tzinfo := mkTz (Some (auto_name off)) (Some off) None (Some off).
(** A zoneinfo-like timezone: no offset without a datetime. *)
Definition ex_zone (off : Z) : tzinfo := mkTz None None None (Some off).

(** ** C05 *)
Theorem C05_offset_round_trip :
  forall (local : tzinfo) (strip : bool) (dt : datetime) (tz : tzinfo) (off : Z),
  real_date 1000 (dt_date dt) -> real_time (dt_time dt) -> dt_tz dt = Some tz ->
  has_offset tz off -> (- us_per_day < off < us_per_day)%Z ->
  exists s tz',
    dump_datetime local strip dt = Ok (s, false) /\
    load_datetime s = Ok (mkDt (dt_date dt) (cut strip (dt_time dt)) (Some tz')) /\
    (tz_off tz' = Some off <-> exact_offset off).
Proof. exact roundtrip_offset. Qed.

Example C05_ex :
  real_date 1000 ex_date /\ real_time ex_time /\
  has_offset (ex_tz (-12600000000)) (-12600000000) /\
  has_offset (ex_zone 20700000000) 20700000000 /\
  exact_offset (-12600000000) /\ exact_offset 20700000000 /\
  (- us_per_day < -12600000000 < us_per_day)%Z /\
  dump_datetime utc false (mkDt ex_date ex_time (Some (ex_tz (-12600000000))))
    = Ok ("2024-02-29T23:59:07.000120-03:30", false) /\
  dump_datetime utc false (mkDt ex_date ex_time (Some (ex_zone 20700000000)))
    = Ok ("2024-02-29T23:59:07.000120+05:45", false).
Proof.
  unfold real_date, real_time, has_offset, exact_offset.
  repeat split; try discriminate; auto; try (left; discriminate); right; reflexivity.
Qed.

(** What goes wrong for the other offsets, on one text: -03:15 is read correctly but
    written back as -03:45. *)
Theorem C05_quarter_hour_refuted :
  exists dt,
    load_datetime "2024-02-29T23:59:07-03:15" = Ok dt /\
    dump_datetime utc false dt = Ok ("2024-02-29T23:59:07-03:45", false).
Proof. eexists. split; reflexivity. Qed.
(** A timezone called "UTC" with another offset is written with Z. *)
Theorem C05_named_utc_refuted :
  exists tz, tz_off tz = Some us_per_hour /\
    forall local strip d t, real_date 1000 d -> real_time t ->
    dump_datetime local strip (mkDt d t (Some tz)) = dump_datetime local strip (mkDt d t (Some utc)).
Proof. exists (mkTz (Some "UTC") (Some us_per_hour) None (Some us_per_hour)). auto. Qed.

(** ** C06 *)
Theorem C06_utc_text :
  forall (local : tzinfo) (strip : bool) (d : date) (t : time),
  real_date 1000 d -> real_time t ->
  dump_datetime local strip (mkDt d t (Some utc)) = Ok (wall_text d t ++ frac_text strip t ++ "Z", false).
Proof. exact dump_utc. Qed.

Theorem C06_utc_load :
  forall (strip : bool) (d : date) (t : time),
  real_date 1000 d -> real_time t ->
  load_datetime (wall_text d t ++ frac_text strip t ++ "Z") = Ok (mkDt d (cut strip t) (Some utc)).
Proof. exact load_utc. Qed.

Example C06_ex :
  wall_text ex_date ex_time ++ frac_text false ex_time ++ "Z" = "2024-02-29T23:59:07.000120Z" /\
  wall_text ex_date ex_time ++ frac_text true ex_time ++ "Z" = "2024-02-29T23:59:07Z".
Proof. split; reflexivity. Qed.

(** A year below 1000 is written with fewer than four digits and cannot be read. *)
Theorem C06_small_year_refuted :
  exists d t s, real_date 1 d /\ real_time t /\
    dump_datetime utc false (mkDt d t (Some utc)) = Ok (s, false) /\
    load_datetime s = raise KValue.
Proof.
  exists (mkDate 999 1 1), time0, "999-01-01T00:00:00Z".
  split; [|split; [|split; reflexivity]]; repeat split; discriminate.
Qed.

(** ** C07 *)
Theorem C07_naive_text :
  forall (local : tzinfo) (strip : bool) (d : date) (t : time),
  real_date 1000 d -> real_time t ->
  dump_datetime local strip (mkDt d t None) = Ok (wall_text d t ++ frac_text strip t ++ "+00:00", true).
Proof. exact dump_naive. Qed.

Theorem C07_naive_load :
  forall (strip : bool) (d : date) (t : time),
  real_date 1000 d -> real_time t ->
  load_datetime (wall_text d t ++ frac_text strip t ++ "+00:00") = Ok (mkDt d (cut strip t) (Some utc)).
Proof. exact load_naive. Qed.

Example C07_ex :
  dump_datetime (ex_tz us_per_hour) false (mkDt ex_date ex_time None)
  = Ok ("2024-02-29T23:59:07.000120+00:00", true).
Proof. reflexivity. Qed.

(** ** C08 *)
Theorem C08_fraction_utc :
  forall (d : date) (t : time) (ds : string),
  real_date 1000 d -> real_time t -> sforall is_digit ds = true -> ds <> "" ->
  load_datetime (wall_text d t ++ "." ++ ds ++ "Z")
  = Ok (mkDt d (set_us t (microseconds ds)) (Some utc)).
Proof. exact load_frac_utc. Qed.

Theorem C08_fraction_offset :
  forall (d : date) (t : time) (ds : string) (neg : bool) (h m : Z),
  real_date 1000 d -> real_time t -> sforall is_digit ds = true -> ds <> "" ->
  (0 <= h <= 23)%Z -> (0 <= m <= 59)%Z ->
  exists tz,
    load_datetime (wall_text d t ++ "." ++ ds ++ (if neg then "-" else "+") ++ digits 2 h ++ ":" ++ digits 2 m)
    = Ok (mkDt d (set_us t (microseconds ds)) (Some tz)) /\
    tz_off tz = Some ((if neg then -1 else 1) * (h * us_per_hour + m * us_per_min))%Z.
Proof. exact load_frac_offset. Qed.

Example C08_ex :
  load_datetime "2024-02-29T23:59:07.99999999999Z"
  = Ok (mkDt ex_date (mkTime 23 59 7 999999) (Some utc)) /\
  microseconds "99999999999" = 999999%Z /\ microseconds "05" = 50000%Z.
Proof. repeat split. Qed.

(** ** C09 *)
Theorem C09_date_round_trip :
  forall d : date, real_date 1000 d -> load_date (dump_date d) = Ok d.
Proof. exact date_roundtrip. Qed.

Theorem C09_time_round_trip :
  forall t : time, real_time t -> t_us t = 0%Z -> load_time (dump_time t) = Ok t.
Proof. exact time_roundtrip. Qed.

Theorem C09_time_with_microseconds_raises :
  forall t : time, real_time t -> t_us t <> 0%Z -> load_time (dump_time t) = raise KValue.
Proof. exact time_microseconds. Qed.

(** The texts. *)
Theorem C09_texts :
  (forall d : date, real_date 1000 d -> dump_date d = date_text d) /\
  (forall t : time, real_time t -> dump_time t = clock_text t ++ frac_text false t).
Proof. split; [exact date_text_ok|exact time_text]. Qed.

Example C09_ex :
  real_date 1000 ex_date /\ real_time ex_time /\ t_us ex_time <> 0%Z /\
  dump_date ex_date = "2024-02-29" /\ dump_time ex_time = "23:59:07.000120".
Proof. repeat split; discriminate. Qed.

(** ** C10 *)
Theorem C10_arbitrary_text :
  forall s : string,
  match load_datetime s with
  | Ok dt => sound_dt true dt
  | Err e => parse_error e \/ (e = exn_of KIndex /\ s = "") \/
             (e = exn_of KAttribute /\ smem "." s = true /\ ~ has_fraction s)
  end.
Proof. exact load_datetime_sound. Qed.

Theorem C10_arbitrary_date_text :
  forall (s : string) (d : date), load_date s = Ok d -> real_date 1 d.
Proof. exact load_date_sound. Qed.
Theorem C10_arbitrary_time_text :
  forall (s : string) (t : time), load_time s = Ok t -> real_time t.
Proof. exact load_time_sound. Qed.

Example C10_ex :
  (exists dt, load_datetime "2000-2-9T1:2:3-23:59" = Ok dt) /\
  load_datetime "2023-02-29T00:00:00Z" = raise KValue /\
  load_datetime "2024-02-29T23:59:60Z" = raise KValue /\
  load_datetime "2024-02-29T23:59:59.Z" = raise KAttribute /\
  load_datetime "2024-02-29T23:59:59+24:00" = raise KValue /\
  load_datetime "2024-02-29T23:59:59+99999999999:00" = raise KOverflow.
Proof. split; [eexists; vm_compute; reflexivity|vm_compute; auto 10]. Qed.

Print Assumptions C05_offset_round_trip.
Print Assumptions C05_quarter_hour_refuted.
Print Assumptions C05_named_utc_refuted.
Print Assumptions C06_utc_text.
Print Assumptions C06_utc_load.
Print Assumptions C06_small_year_refuted.
Print Assumptions C07_naive_text.
Print Assumptions C07_naive_load.
Print Assumptions C08_fraction_utc.
Print Assumptions C08_fraction_offset.
Print Assumptions C09_date_round_trip.
Print Assumptions C09_time_round_trip.
Print Assumptions C09_time_with_microseconds_raises.
Print Assumptions C09_texts.
Print Assumptions C10_arbitrary_text.
Print Assumptions C10_arbitrary_date_text.
Print Assumptions C10_arbitrary_time_text.
