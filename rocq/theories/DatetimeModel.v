(** * Model of jsons/_datetime_impl.py and of the datetime, date and time
      (de)serializers

    [strftime] and [strptime] (CPython 3.10, Lib/_strptime.py, glibc) are modelled for
    the directives that jsons uses.  Strings are ASCII. *)
From Verif Require Export PyBase.
Set Implicit Arguments.
Local Open Scope string_scope.

(** What jsons asks of a tzinfo object: [tzname(None)], [utcoffset(None)],
    the attribute [adjusted_offset] if present, and [utcoffset(dt)] for the datetime
    at hand.  Offsets are in microseconds; None is Python's None. *)
Record tzinfo : Type := mkTz {
  tz_name : option string;
  tz_off_none : option Z;
  tz_adjusted : option (option Z);
  tz_off : option Z }.

Record date : Type := mkDate { d_year : Z; d_month : Z; d_day : Z }.
Record time : Type := mkTime { t_hour : Z; t_min : Z; t_sec : Z; t_us : Z }.
Record datetime : Type := mkDt { dt_date : date; dt_time : time; dt_tz : option tzinfo }.

(** ** Calendar (the checks of the datetime constructors) *)
Definition is_leap (y : Z) : bool :=
  ((y mod 4 =? 0) && (negb (y mod 100 =? 0) || (y mod 400 =? 0)))%Z.
Definition days_in_month (y m : Z) : Z :=
  (if m =? 2 then (if is_leap y then 29 else 28)
   else if (m =? 4) || (m =? 6) || (m =? 9) || (m =? 11) then 30 else 31)%Z.
Definition date_ok (d : date) : bool :=
  ((1 <=? d_year d) && (d_year d <=? 9999) && (1 <=? d_month d) && (d_month d <=? 12)
   && (1 <=? d_day d) && (d_day d <=? days_in_month (d_year d) (d_month d)))%Z.
Definition time_ok (t : time) : bool :=
  ((0 <=? t_hour t) && (t_hour t <=? 23) && (0 <=? t_min t) && (t_min t <=? 59)
   && (0 <=? t_sec t) && (t_sec t <=? 59) && (0 <=? t_us t) && (t_us t <=? 999999))%Z.

Definition us_per_min : Z := 60000000.
Definition us_per_hour : Z := 3600000000.
Definition us_per_day : Z := 86400000000.

(** ** Patterns: _datetime_impl.py:9-12 and the '.%f' suffix *)
Inductive item : Type :=
| IY | Im | Id | IH | IM | IS | If
| ILit (c : ascii).

Definition date_pattern : list item := [IY; ILit "-"; Im; ILit "-"; Id].
Definition time_pattern : list item := [IH; ILit ":"; IM; ILit ":"; IS].
Definition datetime_pattern : list item := (date_pattern ++ ILit "T" :: time_pattern)%list.
Definition frac_items : list item := [ILit "."; If].
Definition lit_items (s : string) : list item := map ILit (list_ascii_of_string s).

(** ** strftime *)
Definition pad2 (z : Z) : string :=
  String (digit_char (z / 10)) (String (digit_char (z mod 10)) EmptyString).
Definition pad6 (z : Z) : string :=
  String (digit_char (z / 100000 mod 10)) (String (digit_char (z / 10000 mod 10))
  (String (digit_char (z / 1000 mod 10)) (String (digit_char (z / 100 mod 10))
  (String (digit_char (z / 10 mod 10)) (String (digit_char (z mod 10)) EmptyString))))).

(** %Y is not zero-padded by glibc. *)
Definition fmt1 (d : date) (t : time) (i : item) : string :=
  match i with
  | IY => str_int (d_year d)
  | Im => pad2 (d_month d)
  | Id => pad2 (d_day d)
  | IH => pad2 (t_hour t)
  | IM => pad2 (t_min t)
  | IS => pad2 (t_sec t)
  | If => pad6 (t_us t)
  | ILit c => String c EmptyString
  end.
Fixpoint strftime (p : list item) (d : date) (t : time) : string :=
  match p with
  | [] => EmptyString
  | i :: r => fmt1 d t i ++ strftime r d t
  end.

(** ** strptime

    _strptime.py compiles a pattern to a regular expression of ordered alternatives.
    A parser returns all ways to match, in the order in which the regular expression
    engine tries them; the first complete one is the match. *)
Record fields : Type := mkFields {
  f_Y : Z; f_m : Z; f_d : Z; f_H : Z; f_M : Z; f_S : Z; f_f : Z }.
(** Defaults of _strptime.py:355-360. *)
Definition fields0 : fields := mkFields 1900 1 1 0 0 0 0.

Definition dg (lo hi : Z) (c : ascii) : bool :=
  is_digit c && (lo <=? digit_val c)%Z && (digit_val c <=? hi)%Z.

(** One alternative of two, respectively one, characters. *)
Definition alt2 (p q : ascii -> bool) (s : string) : list (Z * string) :=
  match s with
  | String a (String b r) =>
      if p a && q b then [((digit_val a * 10 + digit_val b)%Z, r)] else []
  | _ => []
  end.
Definition alt1 (p : ascii -> bool) (s : string) : list (Z * string) :=
  match s with
  | String a r => if p a then [(digit_val a, r)] else []
  | _ => []
  end.
Definition alt_space (p : ascii -> bool) (s : string) : list (Z * string) :=
  match s with
  | String a (String b r) =>
      if Ascii.eqb a " " && p b then [(digit_val b, r)] else []
  | _ => []
  end.

(** \d\d\d\d *)
Definition pY (s : string) : list (Z * string) :=
  match s with
  | String a (String b (String c (String d r))) =>
      if is_digit a && is_digit b && is_digit c && is_digit d
      then [((digit_val a * 1000 + digit_val b * 100 + digit_val c * 10 + digit_val d)%Z, r)]
      else []
  | _ => []
  end.
(** 1[0-2]|0[1-9]|[1-9] *)
Definition pm (s : string) : list (Z * string) :=
  (alt2 (dg 1 1) (dg 0 2) s ++ alt2 (dg 0 0) (dg 1 9) s ++ alt1 (dg 1 9) s)%list.
(** 3[0-1]|[1-2]\d|0[1-9]|[1-9]| [1-9] *)
Definition pd (s : string) : list (Z * string) :=
  (alt2 (dg 3 3) (dg 0 1) s ++ alt2 (dg 1 2) (dg 0 9) s ++ alt2 (dg 0 0) (dg 1 9) s
   ++ alt1 (dg 1 9) s ++ alt_space (dg 1 9) s)%list.
(** 2[0-3]|[0-1]\d|\d *)
Definition pH (s : string) : list (Z * string) :=
  (alt2 (dg 2 2) (dg 0 3) s ++ alt2 (dg 0 1) (dg 0 9) s ++ alt1 (dg 0 9) s)%list.
(** [0-5]\d|\d *)
Definition pM (s : string) : list (Z * string) :=
  (alt2 (dg 0 5) (dg 0 9) s ++ alt1 (dg 0 9) s)%list.
(** 6[0-1]|[0-5]\d|\d *)
Definition pS (s : string) : list (Z * string) :=
  (alt2 (dg 6 6) (dg 0 1) s ++ alt2 (dg 0 5) (dg 0 9) s ++ alt1 (dg 0 9) s)%list.
(** [0-9]{1,6}, greedy; the value is right-padded with zeros to six digits
    (_strptime.py:403-407). [n] is the number of digits still allowed. *)
Fixpoint pf_go (n : nat) (acc : Z) (s : string) : list (Z * string) :=
  match n with
  | O => [(acc, s)]
  | S k =>
      let here := [((acc * 10 ^ Z.of_nat n)%Z, s)] in
      match s with
      | String c r => if is_digit c then (pf_go k (acc * 10 + digit_val c) r ++ here)%list else here
      | EmptyString => here
      end
  end.
Definition pf (s : string) : list (Z * string) :=
  match s with
  | String c r => if is_digit c then pf_go 5 (digit_val c) r else []
  | EmptyString => []
  end.

(** re.IGNORECASE *)
Definition lit_match (c x : ascii) : bool := Ascii.eqb (to_lower c) (to_lower x).

Definition parse1 (i : item) (f : fields) (s : string) : list (fields * string) :=
  let '(mkFields Y m d H M Sc u) := f in
  match i with
  | IY => map (fun x => (mkFields (fst x) m d H M Sc u, snd x)) (pY s)
  | Im => map (fun x => (mkFields Y (fst x) d H M Sc u, snd x)) (pm s)
  | Id => map (fun x => (mkFields Y m (fst x) H M Sc u, snd x)) (pd s)
  | IH => map (fun x => (mkFields Y m d (fst x) M Sc u, snd x)) (pH s)
  | IM => map (fun x => (mkFields Y m d H (fst x) Sc u, snd x)) (pM s)
  | IS => map (fun x => (mkFields Y m d H M (fst x) u, snd x)) (pS s)
  | If => map (fun x => (mkFields Y m d H M Sc (fst x), snd x)) (pf s)
  | ILit c => match s with
              | String x r => if lit_match c x then [(f, r)] else []
              | EmptyString => []
              end
  end.
Fixpoint parse (p : list item) (f : fields) (s : string) : list (fields * string) :=
  match p with
  | [] => [(f, s)]
  | i :: r => flat_map (fun x => parse r (fst x) (snd x)) (parse1 i f s)
  end.

(** datetime.strptime(s, p): no match or unconverted data is a ValueError, and so is
    an impossible date or second 60/61, which the constructor rejects. *)
Definition strptime (s : string) (p : list item) : res (date * time) :=
  match parse p fields0 s with
  | (f, EmptyString) :: _ =>
      let d := mkDate (f_Y f) (f_m f) (f_d f) in
      let t := mkTime (f_H f) (f_M f) (f_S f) (f_f f) in
      if date_ok d && time_ok t then Ok (d, t) else raise KValue
  | _ => raise KValue
  end.

(** ** Timezones *)
(** timezone.utc *)
Definition utc : tzinfo := mkTz (Some "UTC") (Some 0%Z) None (Some 0%Z).
(** The name of timezone(timedelta) without an explicit name. *)
Definition auto_name (us : Z) : string :=
  let a := Z.abs us in
  let s := (a / 1000000 mod 60)%Z in
  let u := (a mod 1000000)%Z in
  "UTC" ++ (if us <? 0 then "-" else "+")%Z ++ pad2 (a / us_per_hour) ++ ":"
  ++ pad2 (a / us_per_min mod 60)
  ++ (if ((s =? 0) && (u =? 0))%Z then "" else ":" ++ pad2 s)
  ++ (if (u =? 0)%Z then "" else "." ++ pad6 u).
(** timezone(timedelta(microseconds=us)): the offset must be strictly inside a day. *)
Definition new_timezone (us : Z) : res tzinfo :=
  if ((- us_per_day <? us) && (us <? us_per_day))%Z
  then Ok (if (us =? 0)%Z then utc else mkTz (Some (auto_name us)) (Some us) None (Some us))
  else raise KValue.
(** timedelta(hours=h, minutes=m) in microseconds; at most 999999999 days. *)
Definition timedelta_hm (h m : Z) : res Z :=
  let us := (h * us_per_hour + m * us_per_min)%Z in
  if ((-999999999 * us_per_day <=? us) && (us <? 1000000000 * us_per_day))%Z
  then Ok us else raise KOverflow.

(** ** Dumping *)

(** _timedelta_offset_str, _datetime_impl.py:82-94.  The floats involved are exact
    enough that truncation gives the integer results below: |offset| is less than a
    few days in microseconds and non-integral quotients are at least 10^-10 away
    from an integer. [time(h, m)] rejects more than 23 hours. *)
Definition timedelta_offset_str (us : Z) : res string :=
  let h := Z.abs (Z.quot us us_per_hour) in
  let m := Z.abs ((us mod us_per_hour) / us_per_min) in
  if (h <=? 23)%Z && (m <=? 59)%Z
  then Ok (String (if 0 <? us then "+" else "-")%Z%char (pad2 h ++ ":" ++ pad2 m))
  else raise KValue.

(** [a or b] on an optional timedelta: timedelta(0) and None are falsy. *)
Definition td_or (a b : option Z) : option Z :=
  match a with
  | Some z => if (z =? 0)%Z then b else a
  | None => b
  end.

(** _datetime_offset_str, _datetime_impl.py:59-79.  [local] is the host's timezone,
    always an instance of datetime.timezone, so that [tzone.utc is timezone.utc]
    holds ([has_utc]).  The second component says whether the
    'datetime-without-tz' warning is issued. *)
Definition has_utc (tz : tzinfo) : bool := true.
Definition offset_of_tz (tz : tzinfo) : res string :=
  if match tz_name tz with
     | Some n => String.eqb n "UTC" || String.eqb n "UTC+00:00"
     | None => false
     end
  then Ok "Z"
  else match td_or (tz_off_none tz)
                   (match tz_adjusted tz with Some o => o | None => tz_off tz end) with
       | Some us => timedelta_offset_str us
       | None => raise KAttribute        (* None.total_seconds() *)
       end.
Definition datetime_offset_str (local : tzinfo) (dt : datetime) : res (string * bool) :=
  match dt_tz dt with
  | None => if has_utc local then Ok ("+00:00", true)
            else dor s <- offset_of_tz local; Ok (s, true)
  | Some tz => dor s <- offset_of_tz tz; Ok (s, false)
  end.

(** to_str, _datetime_impl.py:15-23, for the three kinds of objects. *)
Definition time0 : time := mkTime 0 0 0 0.
Definition date0 : date := mkDate 1900 1 1.
Definition with_frac (strip : bool) (us : Z) (p : list item) : list item :=
  if negb strip && negb (us =? 0)%Z then (p ++ frac_items)%list else p.

(** default_datetime_serializer, serializers/default_datetime.py:7-22. *)
Definition dump_datetime (local : tzinfo) (strip : bool) (dt : datetime) : res (string * bool) :=
  dor ow <- datetime_offset_str local dt;
  Ok (strftime (with_frac strip (t_us (dt_time dt)) datetime_pattern ++ lit_items (fst ow))%list
               (dt_date dt) (dt_time dt), snd ow).
(** default_date_serializer, serializers/default_date.py:6-16: a date has no
    microsecond attribute and no offset. *)
Definition dump_date (d : date) : string := strftime date_pattern d time0.
(** default_time_serializer, serializers/default_time.py:6-15: no offset either, even
    for a time with tzinfo. *)
Definition dump_time (t : time) : string :=
  strftime (with_frac false (t_us t) time_pattern) date0 t.

(** ** Loading *)

(** _datetime_utc_inst, _datetime_impl.py:97-106. *)
Definition datetime_utc_inst (s : string) (p : list item) : res datetime :=
  dor dt <- strptime (sbutlast s) p;
  Ok (mkDt (fst dt) (snd dt) (Some utc)).

(** _datetime_offset_inst, _datetime_impl.py:109-125. *)
Definition datetime_offset_inst (s : string) (p : list item) : res datetime :=
  match ssplit "T" s with
  | [dat; tim] =>
      let plus := smem "+" tim in
      match ssplit (if plus then "+" else "-")%char tim with
      | [naive; offset] =>
          dor dt <- strptime (dat ++ "T" ++ naive) p;
          match ssplit ":" offset with
          | [hs; ms] =>
              match py_int hs, py_int ms with
              | Some h, Some m =>
                  let factor := (if plus then 1 else -1)%Z in
                  dor td <- timedelta_hm (h * factor) (m * factor);
                  dor tz <- new_timezone td;
                  Ok (mkDt (fst dt) (snd dt) (Some tz))
              | _, _ => raise KValue
              end
          | _ => raise KValue
          end
      | _ => raise KValue
      end
  | _ => raise KValue
  end.

(** get_datetime_inst, _datetime_impl.py:43-56; ['T' in pattern] holds for the
    datetime patterns only. *)
Definition has_T (p : list item) : bool :=
  existsb (fun i => match i with ILit c => Ascii.eqb c "T" | _ => false end) p.
Definition get_datetime_inst (s : string) (p : list item) : res datetime :=
  match slast s with
  | None => raise KIndex
  | Some c =>
      if Ascii.eqb c "Z" then datetime_utc_inst s p
      else if has_T p then datetime_offset_inst s p
      else dor dt <- strptime s p; Ok (mkDt (fst dt) (snd dt) None)
  end.

(** The leading digits of a string. *)
Fixpoint take_digits (s : string) : string :=
  match s with
  | String c r => if is_digit c then String c (take_digits r) else EmptyString
  | EmptyString => EmptyString
  end.
(** re.search('(\.[0-9]+)', s).group(): the first '.' followed by a digit. *)
Fixpoint search_frac (s : string) : option string :=
  match s with
  | EmptyString => None
  | String c r =>
      if Ascii.eqb c "." && match r with String d _ => is_digit d | EmptyString => false end
      then Some (String c (take_digits r))
      else search_frac r
  end.

(** default_datetime_deserializer, deserializers/default_datetime.py:7-24. *)
Definition load_datetime (s : string) : res datetime :=
  if smem "." s then
    match search_frac s with
    | None => raise KAttribute          (* None.group() *)
    | Some frac =>
        get_datetime_inst (sreplace frac (stake 7 frac) s) (datetime_pattern ++ frac_items)%list
    end
  else get_datetime_inst s datetime_pattern.
(** default_date_deserializer, deserializers/default_date.py:6-16. *)
Definition load_date (s : string) : res date :=
  dor dt <- get_datetime_inst s date_pattern; Ok (dt_date dt).
(** default_time_deserializer, deserializers/default_time.py:6-16. *)
Definition load_time (s : string) : res time :=
  dor dt <- get_datetime_inst s time_pattern; Ok (dt_time dt).
