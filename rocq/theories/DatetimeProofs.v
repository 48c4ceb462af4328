(** * Proofs about dates and times *)
From Verif Require Import PyBase PyBaseFacts DatetimeModel DatetimeSpec.
From Coq Require Znumtheory.
Local Open Scope string_scope.

Lemma mod_mod_multiple a n k : (0 < n)%Z -> (0 < k)%Z -> ((a mod (k * n)) mod n = a mod n)%Z.
Proof.
  intros Hn Hk. symmetry. apply Znumtheory.Zmod_div_mod; [assumption|nia|]. exists k. reflexivity.
Qed.

Lemma mod_opp_zero a n : (n <> 0)%Z -> ((- a) mod n = 0 <-> a mod n = 0)%Z.
Proof.
  intros Hn. split; intros E.
  - rewrite <- (Z.opp_involutive a). apply Z.mod_opp_l_z; assumption.
  - apply Z.mod_opp_l_z; assumption.
Qed.

(** ** Digits *)
Lemma z_cases n z : (0 <= z < Z.of_nat n)%Z -> In z (map Z.of_nat (seq 0 n)).
Proof.
  intros H. apply in_map_iff. exists (Z.to_nat z). rewrite in_seq. lia.
Qed.
Ltac zcases H n :=
  let I := fresh in
  assert (I := z_cases n _ H); simpl in I;
  repeat (destruct I as [<-|I]; [|]); [..|destruct I].

Lemma digit_char_digit z : (0 <= z <= 9)%Z -> is_digit (digit_char z) = true.
Proof. intros H. assert (H' : (0 <= z < Z.of_nat 10)%Z) by lia. zcases H' 10; reflexivity. Qed.
Lemma digit_val_char z : (0 <= z <= 9)%Z -> digit_val (digit_char z) = z.
Proof. intros H. assert (H' : (0 <= z < Z.of_nat 10)%Z) by lia. zcases H' 10; reflexivity. Qed.
Lemma digit_val_range c : is_digit c = true -> (0 <= digit_val c <= 9)%Z.
Proof.
  unfold is_digit, digit_val. rewrite andb_true_iff, !Nat.leb_le. lia.
Qed.
Lemma digit_not c x : is_digit c = true -> is_digit x = false -> Ascii.eqb c x = false.
Proof.
  intros H1 H2. destruct (Ascii.eqb c x) eqn:E; [|reflexivity]. apply Ascii.eqb_eq in E. congruence.
Qed.

Lemma mod10 z : (0 <= z mod 10 <= 9)%Z.
Proof. pose proof (Z.mod_pos_bound z 10). lia. Qed.
#[local] Hint Resolve mod10 : core.

Lemma digits_forall n z : sforall is_digit (digits n z) = true.
Proof.
  revert z; induction n as [|n IH]; intros z; [reflexivity|].
  cbn [digits]. rewrite sforall_app, IH. cbn [sforall]. now rewrite digit_char_digit.
Qed.
Lemma digits_length n z : String.length (digits n z) = n.
Proof.
  revert z; induction n as [|n IH]; intros z; [reflexivity|].
  cbn [digits]. rewrite slength_app, IH. simpl. lia.
Qed.

Lemma pad2_digits z : (0 <= z <= 99)%Z -> pad2 z = digits 2 z.
Proof.
  intros H. unfold pad2. cbn [digits append].
  rewrite (Z.mod_small (z / 10) 10); [reflexivity|].
  pose proof (Z.div_pos z 10). pose proof (Z.div_lt_upper_bound z 10 10). lia.
Qed.
Lemma pad6_digits z : pad6 z = digits 6 z.
Proof.
  unfold pad6. cbn [digits append]. rewrite !Z.div_div by lia. reflexivity.
Qed.

Lemma str_year y : (1000 <= y <= 9999)%Z -> str_int y = digits 4 y.
Proof.
  intros H. unfold str_int. destruct (Z.ltb_spec y 0); [lia|]. unfold str_nonneg.
  assert (Hl : (9 <= Z.log2 y)%Z) by (apply Z.log2_le_pow2; simpl; lia).
  destruct (Z.to_nat (Z.log2 y)) as [|[|[|n]]] eqn:E; try lia.
  cbn [digits_go digits append].
  destruct (Z.ltb_spec y 10); [lia|]. rewrite !Z.div_div by lia.
  change (10 * 10)%Z with 100%Z. change (100 * 10)%Z with 1000%Z.
  destruct (Z.ltb_spec (y / 10) 10) as [Hc|_].
  { exfalso. pose proof (Z.mul_succ_div_gt y 10). lia. }
  destruct (Z.ltb_spec (y / 100) 10) as [Hc|_].
  { exfalso. pose proof (Z.mul_succ_div_gt y 100). lia. }
  destruct (Z.ltb_spec (y / 1000) 10) as [Hc|Hc].
  - rewrite (Z.mod_small (y / 1000) 10); [reflexivity|].
    pose proof (Z.div_pos y 1000). lia.
  - exfalso. pose proof (Z.mul_div_le y 1000). lia.
Qed.

(** ** Text of the model = text of the specification *)
Lemma strftime_app p q d t : strftime (p ++ q) d t = strftime p d t ++ strftime q d t.
Proof. induction p as [|i p IH]; simpl; [reflexivity|]. now rewrite IH, sapp_assoc. Qed.
Lemma strftime_lits s d t : strftime (lit_items s) d t = s.
Proof. unfold lit_items. induction s as [|c s IH]; simpl; [reflexivity|]. now rewrite IH. Qed.

Lemma days_le y m : (days_in_month y m <= 31)%Z.
Proof.
  unfold days_in_month. destruct (m =? 2)%Z; [destruct (is_leap y); lia|].
  destruct (_ || _); lia.
Qed.

Lemma strftime_date d t : real_date 1000 d -> strftime date_pattern d t = date_text d.
Proof.
  intros [Hy [Hm Hd]]. pose proof (days_le (d_year d) (d_month d)). unfold date_text.
  cbn [date_pattern strftime fmt1]. rewrite str_year, !pad2_digits, !sapp_nil_r by lia. reflexivity.
Qed.
Lemma strftime_time d t : real_time t -> strftime time_pattern d t = clock_text t.
Proof.
  intros [Hh [Hm [Hs Hu]]]. unfold clock_text. cbn [time_pattern strftime fmt1].
  rewrite !pad2_digits, !sapp_nil_r by lia. reflexivity.
Qed.
Lemma strftime_datetime d t : real_date 1000 d -> real_time t ->
  strftime datetime_pattern d t = wall_text d t.
Proof.
  intros Hd Ht. unfold datetime_pattern, wall_text. rewrite strftime_app. cbn [strftime fmt1].
  now rewrite strftime_date, strftime_time.
Qed.
Lemma strftime_frac strip p d t :
  strftime (with_frac strip (t_us t) p) d t = strftime p d t ++ frac_text strip t.
Proof.
  unfold with_frac, frac_text. destruct strip; simpl; [now rewrite sapp_nil_r|].
  destruct (t_us t =? 0)%Z; simpl; [now rewrite sapp_nil_r|].
  rewrite strftime_app. cbn [frac_items strftime fmt1]. now rewrite pad6_digits, sapp_nil_r.
Qed.

(** ** Parsing back *)
Definition set_field (d : date) (t : time) (f : fields) (i : item) : fields :=
  let '(mkFields Y m dd H M Sc u) := f in
  match i with
  | IY => mkFields (d_year d) m dd H M Sc u
  | Im => mkFields Y (d_month d) dd H M Sc u
  | Id => mkFields Y m (d_day d) H M Sc u
  | IH => mkFields Y m dd (t_hour t) M Sc u
  | IM => mkFields Y m dd H (t_min t) Sc u
  | IS => mkFields Y m dd H M (t_sec t) u
  | If => mkFields Y m dd H M Sc (t_us t)
  | ILit _ => f
  end.

Lemma digits2 z : digits 2 z = String (digit_char (z / 10 mod 10)) (String (digit_char (z mod 10)) "").
Proof. reflexivity. Qed.

Ltac two H n := intros H; rewrite digits2; zcases H n; eexists; reflexivity.
Lemma pH_ok z s : (0 <= z < Z.of_nat 24)%Z -> exists tl, pH (digits 2 z ++ s) = (z, s) :: tl.
Proof. two H 24. Qed.
Lemma pM_ok z s : (0 <= z < Z.of_nat 60)%Z -> exists tl, pM (digits 2 z ++ s) = (z, s) :: tl.
Proof. two H 60. Qed.
Lemma pS_ok z s : (0 <= z < Z.of_nat 60)%Z -> exists tl, pS (digits 2 z ++ s) = (z, s) :: tl.
Proof. two H 60. Qed.
Lemma pm_ok z s : (1 <= z <= 12)%Z -> exists tl, pm (digits 2 z ++ s) = (z, s) :: tl.
Proof.
  intros H. assert (H' : (0 <= z < Z.of_nat 13)%Z) by lia. rewrite digits2.
  zcases H' 13; try lia; eexists; reflexivity.
Qed.
Lemma pd_ok z s : (1 <= z <= 31)%Z -> exists tl, pd (digits 2 z ++ s) = (z, s) :: tl.
Proof.
  intros H. assert (H' : (0 <= z < Z.of_nat 32)%Z) by lia. rewrite digits2.
  zcases H' 32; try lia; eexists; reflexivity.
Qed.
Lemma pY_ok z s : (0 <= z <= 9999)%Z -> exists tl, pY (digits 4 z ++ s) = (z, s) :: tl.
Proof.
  intros H. cbn [digits append pY]. rewrite !digit_char_digit by auto. cbn [andb].
  rewrite !digit_val_char by auto. exists []. do 2 f_equal.
  pose proof (Z.div_mod z 10). pose proof (Z.div_mod (z/10) 10). pose proof (Z.div_mod (z/10/10) 10).
  assert (z / 10 / 10 / 10 < 10)%Z by (rewrite !Z.div_div by lia; apply Z.div_lt_upper_bound; lia).
  assert (0 <= z / 10 / 10 / 10)%Z by (repeat apply Z.div_pos; lia).
  rewrite (Z.mod_small (z / 10 / 10 / 10) 10) by lia. lia.
Qed.

Lemma pf_go_ok n : forall ds acc, sforall is_digit ds = true -> String.length ds <= n ->
  exists tl, pf_go n acc ds = ((acc * 10 ^ Z.of_nat n + frac_value n ds)%Z, "") :: tl.
Proof.
  induction n as [|n IH]; intros ds acc Hd Hl.
  - destruct ds; [|simpl in Hl; lia]. exists []. cbn [pf_go frac_value]. do 2 f_equal.
    change (10 ^ Z.of_nat 0)%Z with 1%Z. lia.
  - destruct ds as [|c r].
    + exists []. cbn [pf_go frac_value]. do 2 f_equal. lia.
    + cbn [sforall] in Hd. apply andb_prop in Hd as [Hc Hr]. simpl in Hl.
      cbn [pf_go frac_value]. rewrite Hc.
      destruct (IH r (acc * 10 + digit_val c)%Z Hr) as [tl E]; [lia|]. rewrite E.
      eexists. cbn [app]. do 2 f_equal. rewrite Nat2Z.inj_succ, Z.pow_succ_r by lia. ring.
Qed.
Lemma pf_ok ds : sforall is_digit ds = true -> ds <> "" -> String.length ds <= 6 ->
  exists tl, pf ds = (microseconds ds, "") :: tl.
Proof.
  intros Hd Hne Hl. destruct ds as [|c r]; [congruence|]. cbn [sforall] in Hd.
  apply andb_prop in Hd as [Hc Hr]. cbn [pf]. rewrite Hc.
  destruct (pf_go_ok 5 r (digit_val c) Hr) as [tl E]; [simpl in Hl; lia|].
  rewrite E. exists tl. reflexivity.
Qed.

Lemma parse_app p q : forall f s,
  parse (p ++ q) f s = flat_map (fun x => parse q (fst x) (snd x)) (parse p f s).
Proof.
  induction p as [|i p IH]; intros f s; simpl; [now rewrite app_nil_r|].
  induction (parse1 i f s) as [|x l IHl]; simpl; [reflexivity|].
  rewrite IH, IHl, flat_map_app. reflexivity.
Qed.

Lemma parse_head p q f s f' s' tl : parse p f s = (f', s') :: tl ->
  forall r rl, parse q f' s' = r :: rl -> exists tl', parse (p ++ q) f s = r :: tl'.
Proof. intros E r rl E'. rewrite parse_app, E. simpl. rewrite E'. simpl. eauto. Qed.

(** Each item other than %f parses back what it prints, first try. *)
Definition timed (i : item) : bool := match i with If => false | _ => true end.
Lemma parse1_ok d t i f s : real_date 1000 d -> real_time t -> timed i = true ->
  exists tl, parse1 i f (fmt1 d t i ++ s) = (set_field d t f i, s) :: tl.
Proof.
  intros [Hy [Hm Hd]] [Hh [Hmi [Hs Hu]]] Hi. pose proof (days_le (d_year d) (d_month d)) as Hdl.
  destruct f as [Y m dd H M Sc u]. destruct i; try discriminate; cbn [fmt1 parse1 set_field];
    rewrite ?pad2_digits by lia.
  - rewrite str_year by lia. destruct (pY_ok (d_year d) s) as [tl ->]; [lia|]. eexists; reflexivity.
  - destruct (pm_ok (d_month d) s) as [tl ->]; [lia|]. eexists; reflexivity.
  - destruct (pd_ok (d_day d) s) as [tl ->]; [lia|]. eexists; reflexivity.
  - destruct (pH_ok (t_hour t) s) as [tl ->]; [lia|]. eexists; reflexivity.
  - destruct (pM_ok (t_min t) s) as [tl ->]; [lia|]. eexists; reflexivity.
  - destruct (pS_ok (t_sec t) s) as [tl ->]; [lia|]. eexists; reflexivity.
  - cbn [append]. unfold lit_match. rewrite Ascii.eqb_refl. eexists; reflexivity.
Qed.

Lemma parse_ok d t p : real_date 1000 d -> real_time t -> forallb timed p = true ->
  forall f s, exists tl, parse p f (strftime p d t ++ s) = (fold_left (set_field d t) p f, s) :: tl.
Proof.
  intros Hd Ht. induction p as [|i p IH]; intros Hp f s; simpl in *; [eauto|].
  apply andb_prop in Hp as [Hi Hp]. rewrite sapp_assoc.
  destruct (parse1_ok d t i f (strftime p d t ++ s) Hd Ht Hi) as [tl ->].
  destruct (IH Hp (set_field d t f i) s) as [tl' E]. simpl. rewrite E. simpl. eauto.
Qed.

Lemma real_date_ok lo d : (1 <= lo)%Z -> real_date lo d -> date_ok d = true.
Proof.
  intros Hlo [Hy [Hm Hd]]. unfold date_ok. rewrite !andb_true_iff, !Z.leb_le. lia.
Qed.
Lemma real_time_ok t : real_time t -> time_ok t = true.
Proof. intros [H1 [H2 [H3 H4]]]. unfold time_ok. rewrite !andb_true_iff, !Z.leb_le. lia. Qed.

Lemma real_time_us t us : real_time t -> (0 <= us <= 999999)%Z -> real_time (set_us t us).
Proof. intros [H1 [H2 [H3 H4]]] H. unfold real_time, set_us. simpl. auto. Qed.

Lemma frac_value_range n ds : sforall is_digit ds = true -> (0 <= frac_value n ds < 10 ^ Z.of_nat n)%Z.
Proof.
  revert ds; induction n as [|n IH]; intros ds Hd; [change (10 ^ Z.of_nat 0)%Z with 1%Z; destruct ds; cbn [frac_value]; lia|].
  assert (0 < 10 ^ Z.of_nat n)%Z by (apply Z.pow_pos_nonneg; lia).
  rewrite Nat2Z.inj_succ, Z.pow_succ_r by lia.
  destruct ds as [|c r]; cbn [frac_value]; [lia|]. cbn [sforall] in Hd. apply andb_prop in Hd as [Hc Hr].
  specialize (IH r Hr). apply digit_val_range in Hc. nia.
Qed.
Lemma microseconds_range ds : sforall is_digit ds = true -> (0 <= microseconds ds <= 999999)%Z.
Proof. intros H. pose proof (frac_value_range 6 ds H) as R. unfold microseconds.
  change (10 ^ Z.of_nat 6)%Z with 1000000%Z in R. lia. Qed.

Lemma stake_forall p n s : sforall p s = true -> sforall p (stake n s) = true.
Proof.
  revert n; induction s as [|c s IH]; intros [|n]; cbn [stake sforall]; auto.
  intros H. apply andb_prop in H as [Hc Hs]. now rewrite Hc, IH.
Qed.
Lemma stake_length n s : String.length (stake n s) <= n.
Proof. revert n; induction s as [|c s IH]; intros [|n]; simpl; try lia. specialize (IH n). lia. Qed.
Lemma stake_all n s : String.length s <= n -> stake n s = s.
Proof.
  revert n; induction s as [|c s IH]; intros [|n]; simpl; intros H; try reflexivity; try lia.
  rewrite IH; [reflexivity|lia].
Qed.
Lemma frac_value_take n ds : frac_value n (stake n ds) = frac_value n ds.
Proof.
  revert ds; induction n as [|n IH]; intros [|c r]; cbn [stake frac_value]; try reflexivity. now rewrite IH.
Qed.

(** Fields read from printed text. *)
Lemma strptime_wall d t : real_date 1000 d -> real_time t ->
  strptime (wall_text d t) datetime_pattern = Ok (d, set_us t 0).
Proof.
  intros Hd Ht. unfold strptime. rewrite <- strftime_datetime by assumption.
  rewrite <- (sapp_nil_r (strftime datetime_pattern d t)).
  destruct (parse_ok d t datetime_pattern Hd Ht eq_refl fields0 "") as [tl ->]. cbn -[date_ok time_ok].
  destruct d as [y m dd]. fold (set_us t 0). cbn [d_year d_month d_day].
  rewrite (real_date_ok 1000), real_time_ok; [reflexivity| |lia|assumption].
  apply real_time_us; [assumption|lia].
Qed.

Lemma strptime_wall_frac d t ds : real_date 1000 d -> real_time t ->
  sforall is_digit ds = true -> ds <> "" -> String.length ds <= 6 ->
  strptime (wall_text d t ++ "." ++ ds) (datetime_pattern ++ frac_items) =
  Ok (d, set_us t (microseconds ds)).
Proof.
  intros Hd Ht H1 H2 H3. unfold strptime. rewrite <- strftime_datetime by assumption.
  destruct (parse_ok d t datetime_pattern Hd Ht eq_refl fields0 ("." ++ ds)) as [tl E].
  destruct (pf_ok ds H1 H2 H3) as [tl' Ep].
  match type of E with _ = (?f, _) :: _ =>
    assert (E2 : exists rl, parse frac_items f ("." ++ ds) =
              (mkFields (d_year d) (d_month d) (d_day d) (t_hour t) (t_min t) (t_sec t) (microseconds ds), "") :: rl)
  end.
  { cbn -[pf microseconds]. change (lit_match "." ".") with true. cbn -[pf microseconds]. rewrite Ep. cbn -[microseconds]. eauto. }
  destruct E2 as [rl E2]. destruct (parse_head _ _ _ _ _ _ _ E _ _ E2) as [tl'' ->].
  cbn -[date_ok time_ok microseconds].
  destruct d as [y m dd]. fold (set_us t (microseconds ds)). cbn [d_year d_month d_day].
  rewrite (real_date_ok 1000), real_time_ok; [reflexivity| |lia|assumption].
  apply real_time_us; [assumption|]. now apply microseconds_range.
Qed.

(** ** Characters of the printed text *)
Definition wchar (c : ascii) : bool := is_digit c || Ascii.eqb c "-" || Ascii.eqb c ":".
Lemma digit_wchar s : sforall is_digit s = true -> sforall wchar s = true.
Proof. apply sforall_impl. intros c H. unfold wchar. now rewrite H. Qed.
Lemma date_text_chars d : sforall wchar (date_text d) = true.
Proof.
  unfold date_text. rewrite !sforall_app, !(digit_wchar (digits _ _)) by apply digits_forall. reflexivity.
Qed.
Definition cchar (c : ascii) : bool := is_digit c || Ascii.eqb c ":".
Lemma digit_cchar s : sforall is_digit s = true -> sforall cchar s = true.
Proof. apply sforall_impl. intros c H. unfold cchar. now rewrite H. Qed.
Lemma clock_text_chars t : sforall cchar (clock_text t) = true.
Proof.
  unfold clock_text. rewrite !sforall_app, !(digit_cchar (digits _ _)) by apply digits_forall. reflexivity.
Qed.

Lemma no_char (p : ascii -> bool) c s : sforall p s = true -> p c = false -> smem c s = false.
Proof.
  intros H Hc. apply smem_false. revert H. apply sforall_impl. intros x Hx.
  destruct (Ascii.eqb x c) eqn:E; [|reflexivity]. apply Ascii.eqb_eq in E. congruence.
Qed.
Lemma smem_app c a b : smem c (a ++ b) = smem c a || smem c b.
Proof. unfold smem, sexists. rewrite sforall_app. now destruct (sforall _ a). Qed.
Lemma smem_cons c x s : smem c (String x s) = Ascii.eqb x c || smem c s.
Proof. unfold smem, sexists. cbn [sforall]. now destruct (Ascii.eqb x c). Qed.

(** ** Suffixes *)
Inductive suffix : Type := SZ | SOff (neg : bool) (h m : Z).
Definition suffix_text (s : suffix) : string :=
  match s with
  | SZ => "Z"
  | SOff neg h m => String (if neg then "-" else "+")%char (digits 2 h ++ ":" ++ digits 2 m)
  end.
Definition suffix_ok (s : suffix) : Prop :=
  match s with SZ => True | SOff _ h m => (0 <= h <= 23 /\ 0 <= m <= 59)%Z end.
Definition suffix_off (s : suffix) : Z :=
  match s with
  | SZ => 0
  | SOff neg h m => (if neg then -1 else 1) * (h * us_per_hour + m * us_per_min)
  end%Z.
Definition fixed_tz (off : Z) : tzinfo :=
  if (off =? 0)%Z then utc else mkTz (Some (auto_name off)) (Some off) None (Some off).

(** The text between the clock and the suffix: nothing, or '.' and digits. *)
Definition fpart (fr : option string) : string := match fr with None => "" | Some ds => "." ++ ds end.

Lemma slast_app a b : b <> "" -> slast (a ++ b) = slast b.
Proof.
  intros Hb. induction a as [|c a IH]; [reflexivity|]. cbn [append slast]. rewrite IH.
  destruct (a ++ b) as [|x y] eqn:E; [|reflexivity].
  destruct a; [contradiction|discriminate].
Qed.
Lemma sbutlast_snoc a c : sbutlast (a ++ String c "") = a.
Proof.
  induction a as [|x a IH]; [reflexivity|]. cbn [append sbutlast]. rewrite IH.
  destruct (a ++ String c "") eqn:E; [destruct a; discriminate|reflexivity].
Qed.

Lemma py_int_pad h : (0 <= h < Z.of_nat 60)%Z -> py_int (digits 2 h) = Some h.
Proof. intros H. rewrite digits2. zcases H 60; reflexivity. Qed.

Lemma has_T_pattern (fr : option string) : has_T (datetime_pattern ++ match fr with None => [] | Some _ => frac_items end) = true.
Proof. destruct fr; reflexivity. Qed.

Definition frac_ok (fr : option string) : Prop :=
  match fr with None => True | Some ds => sforall is_digit ds = true /\ ds <> "" /\ String.length ds <= 6 end.
Definition frac_us (fr : option string) : Z := match fr with None => 0 | Some ds => microseconds ds end.
Definition frac_pat (fr : option string) : list item :=
  (datetime_pattern ++ match fr with None => [] | Some _ => frac_items end)%list.

Lemma strptime_fr d t fr : real_date 1000 d -> real_time t -> frac_ok fr ->
  strptime (wall_text d t ++ fpart fr) (frac_pat fr) = Ok (d, set_us t (frac_us fr)).
Proof.
  intros Hd Ht Hf. destruct fr as [ds|]; unfold frac_pat; simpl fpart.
  - destruct Hf as [H1 [H2 H3]]. now apply strptime_wall_frac.
  - rewrite sapp_nil_r, app_nil_r. now apply strptime_wall.
Qed.

Lemma get_inst d t fr sx : real_date 1000 d -> real_time t -> frac_ok fr -> suffix_ok sx ->
  get_datetime_inst (wall_text d t ++ fpart fr ++ suffix_text sx) (frac_pat fr) =
  Ok (mkDt d (set_us t (frac_us fr)) (Some (fixed_tz (suffix_off sx)))).
Proof.
  intros Hd Ht Hf Hs. unfold get_datetime_inst. rewrite <- sapp_assoc.
  rewrite slast_app by (destruct sx; discriminate). destruct sx as [|neg h m].
  - cbn [suffix_text slast]. change (Ascii.eqb "Z" "Z") with true. cbv iota.
    unfold datetime_utc_inst. rewrite sbutlast_snoc, strptime_fr by assumption. reflexivity.
  - destruct Hs as [Hh Hm].
    assert (El : slast (suffix_text (SOff neg h m)) = Some (digit_char (m mod 10))).
    { cbn [suffix_text]. change (String (if neg then "-" else "+")%char (digits 2 h ++ ":" ++ digits 2 m))
        with (String (if neg then "-" else "+")%char "" ++ digits 2 h ++ ":" ++ digits 2 m).
      rewrite !slast_app by discriminate. reflexivity. }
    rewrite El. rewrite digit_not by (apply digit_char_digit || reflexivity; auto).
    unfold frac_pat at 1. rewrite has_T_pattern. unfold datetime_offset_inst.
    assert (Ef : sforall cchar (match fr with None => "" | Some ds => ds end) = true).
    { destruct fr as [ds|]; [|reflexivity]. apply digit_cchar. apply Hf. }
    assert (Efp : forall c, cchar c = false -> Ascii.eqb "." c = false -> smem c (fpart fr) = false).
    { intros c H1 H2. destruct fr as [ds|]; [|reflexivity]. cbn [fpart]. rewrite smem_app, smem_cons, H2.
      cbn [orb]. apply (no_char cchar); assumption. }
    assert (Ec : forall c, cchar c = false -> Ascii.eqb "." c = false -> smem c (clock_text t ++ fpart fr) = false).
    { intros c H1 H2. rewrite smem_app, Efp by assumption. rewrite (no_char cchar c (clock_text t));
        [reflexivity|apply clock_text_chars|assumption]. }
    assert (Eo : forall c, cchar c = false -> smem c (digits 2 h ++ ":" ++ digits 2 m) = false).
    { intros c H1. apply (no_char cchar); [|assumption].
      rewrite !sforall_app, !(digit_cchar (digits _ _)) by apply digits_forall. reflexivity. }
    unfold wall_text. rewrite !sapp_assoc. cbn [append].
    rewrite ssplit_app_sep by (apply (no_char wchar); [apply date_text_chars|reflexivity]).
    rewrite ssplit_none.
    2:{ rewrite <- sapp_assoc, smem_app, Ec by reflexivity. cbn [orb suffix_text].
        rewrite smem_cons, Eo by reflexivity. destruct neg; reflexivity. }
    assert (Eplus : smem "+" (clock_text t ++ fpart fr ++ suffix_text (SOff neg h m)) = negb neg).
    { rewrite <- sapp_assoc, smem_app, Ec by reflexivity. cbn [orb suffix_text].
      rewrite smem_cons, Eo by reflexivity. destruct neg; reflexivity. }
    rewrite Eplus. cbn [suffix_text]. rewrite <- (sapp_assoc (clock_text t)).
    replace (if negb neg then "+" else "-")%char with (if neg then "-" else "+")%char by (destruct neg; reflexivity).
    rewrite ssplit_app_sep by (apply Ec; destruct neg; reflexivity).
    rewrite ssplit_none by (apply Eo; destruct neg; reflexivity).
    replace (date_text d ++ String "T" (clock_text t ++ fpart fr))
      with ((date_text d ++ "T" ++ clock_text t) ++ fpart fr) by (rewrite !sapp_assoc; reflexivity).
    fold (wall_text d t). rewrite strptime_fr by assumption. cbn [rbind].
    cbn [append]. rewrite ssplit_app_sep by (apply (no_char is_digit); [apply digits_forall|reflexivity]).
    rewrite ssplit_none by (apply (no_char is_digit); [apply digits_forall|reflexivity]).
    rewrite !py_int_pad by lia.
    set (off := suffix_off (SOff neg h m)).
    assert (Eoff : (h * (if negb neg then 1 else -1) * us_per_hour + m * (if negb neg then 1 else -1) * us_per_min)%Z = off).
    { unfold off. cbn [suffix_off]. destruct neg; cbn [negb]; lia. }
    assert (Hr : (- us_per_day < off < us_per_day)%Z).
    { rewrite <- Eoff. unfold us_per_day, us_per_hour, us_per_min. destruct neg; cbn [negb]; lia. }
    unfold timedelta_hm. rewrite Eoff. unfold new_timezone.
    replace ((-999999999 * us_per_day <=? off) && (off <? 1000000000 * us_per_day))%Z with true
      by (symmetry; rewrite andb_true_iff, Z.leb_le, Z.ltb_lt; unfold us_per_day in *; lia).
    cbn [rbind]. replace ((- us_per_day <? off) && (off <? us_per_day))%Z with true
      by (symmetry; rewrite andb_true_iff, !Z.ltb_lt; lia).
    reflexivity.
Qed.

(** ** The fraction: search and replace *)
Lemma prefix_refl_app p s : prefix p (p ++ s) = true.
Proof. induction p as [|c p IH]; [now destruct s|]. cbn [append prefix]. destruct (ascii_dec c c); congruence. Qed.

Lemma take_digits_app ds post :
  sforall is_digit ds = true -> (match post with String c _ => is_digit c = false | "" => True end) ->
  take_digits (ds ++ post) = ds.
Proof.
  intros Hd Hp. induction ds as [|c ds IH]; cbn [append take_digits].
  - destruct post as [|x y]; [reflexivity|]. cbn [take_digits]. now rewrite Hp.
  - cbn [sforall] in Hd. apply andb_prop in Hd as [Hc Hd]. now rewrite Hc, IH.
Qed.

Lemma search_frac_found pre ds post :
  smem "." pre = false -> sforall is_digit ds = true -> ds <> "" ->
  (match post with String c _ => is_digit c = false | "" => True end) ->
  search_frac (pre ++ String "." (ds ++ post)) = Some (String "." ds).
Proof.
  intros Hpre Hd Hne Hp. apply smem_false in Hpre. induction pre as [|c pre IH]; cbn [append search_frac].
  - destruct ds as [|x ds]; [congruence|]. cbn [sforall] in Hd. apply andb_prop in Hd as [Hx Hd].
    change (Ascii.eqb "." ".") with true. cbn [append andb]. rewrite Hx. do 2 f_equal.
    apply (take_digits_app (String x ds)); [|assumption]. cbn [sforall]. now rewrite Hx, Hd.
  - cbn [sforall] in Hpre. apply andb_prop in Hpre as [Hc Hpre]. apply negb_true_iff in Hc. rewrite Hc.
    cbn [andb]. auto.
Qed.

Lemma sreplace_skip c p r a b : smem c a = false ->
  sreplace_go (String c p) r 0 (a ++ b) = a ++ sreplace_go (String c p) r 0 b.
Proof.
  intros H. apply smem_false in H. induction a as [|x a IH]; [reflexivity|].
  cbn [sforall] in H. apply andb_prop in H as [Hx Ha]. apply negb_true_iff in Hx.
  cbn [append sreplace_go prefix].
  destruct (ascii_dec c x) as [->|_]; [rewrite Ascii.eqb_refl in Hx; discriminate|].
  now rewrite IH.
Qed.
Lemma sreplace_drop p r k s : sreplace_go p r (String.length k) (k ++ s) = sreplace_go p r 0 s.
Proof. induction k as [|x k IH]; [reflexivity|]. cbn [String.length append sreplace_go]. exact IH. Qed.

Lemma sreplace_frac pre ds r post : smem "." pre = false -> smem "." post = false ->
  sreplace (String "." ds) r (pre ++ String "." ds ++ post) = pre ++ r ++ post.
Proof.
  intros H1 H2. unfold sreplace. rewrite sreplace_skip by assumption. f_equal.
  cbn [append]. cbn [sreplace_go].
  change (String "." (ds ++ post)) with (String "." ds ++ post). rewrite prefix_refl_app. f_equal.
  cbn [String.length]. rewrite Nat.sub_succ, Nat.sub_0_r, sreplace_drop.
  rewrite <- (sapp_nil_r post) at 1. rewrite sreplace_skip by assumption.
  cbn [sreplace_go]. apply sapp_nil_r.
Qed.

(** ** Loading printed text *)
Lemma wall_no_dot d t : smem "." (wall_text d t) = false.
Proof.
  unfold wall_text. rewrite smem_app, smem_app.
  rewrite (no_char wchar _ (date_text d)), (no_char cchar _ (clock_text t))
    by (apply date_text_chars || apply clock_text_chars || reflexivity).
  reflexivity.
Qed.
Lemma suffix_no_dot sx : smem "." (suffix_text sx) = false.
Proof.
  destruct sx as [|neg h m]; [reflexivity|]. cbn [suffix_text]. rewrite smem_cons, !smem_app, !(no_char is_digit _ (digits _ _))
    by (apply digits_forall || reflexivity). destruct neg; reflexivity.
Qed.
Lemma suffix_nondigit sx : match suffix_text sx with String c _ => is_digit c = false | "" => True end.
Proof. destruct sx as [|[|] h m]; reflexivity. Qed.

Lemma load_plain d t sx : real_date 1000 d -> real_time t -> suffix_ok sx ->
  load_datetime (wall_text d t ++ suffix_text sx) =
  Ok (mkDt d (set_us t 0) (Some (fixed_tz (suffix_off sx)))).
Proof.
  intros Hd Ht Hs. unfold load_datetime. rewrite smem_app, wall_no_dot, suffix_no_dot. cbn [orb].
  pose proof (get_inst d t None sx Hd Ht I Hs) as H. unfold frac_pat in H. rewrite app_nil_r in H. exact H.
Qed.

Lemma load_frac d t ds sx : real_date 1000 d -> real_time t -> suffix_ok sx ->
  sforall is_digit ds = true -> ds <> "" ->
  load_datetime (wall_text d t ++ "." ++ ds ++ suffix_text sx) =
  Ok (mkDt d (set_us t (microseconds ds)) (Some (fixed_tz (suffix_off sx)))).
Proof.
  intros Hd Ht Hs H1 H2. unfold load_datetime. cbn [append].
  rewrite smem_app, wall_no_dot, smem_cons. change (Ascii.eqb "." ".") with true. cbn [orb].
  rewrite search_frac_found by (apply wall_no_dot || assumption || apply suffix_nondigit).
  change (String "." (ds ++ suffix_text sx)) with (String "." ds ++ suffix_text sx).
  rewrite sreplace_frac by (apply wall_no_dot || apply suffix_no_dot).
  change (stake 7 (String "." ds)) with ("." ++ stake 6 ds).
  assert (Hfr : frac_ok (Some (stake 6 ds))).
  { cbn [frac_ok]. split; [now apply stake_forall|]. split; [|apply stake_length].
    destruct ds; [congruence|discriminate]. }
  pose proof (get_inst d t (Some (stake 6 ds)) sx Hd Ht Hfr Hs) as H.
  unfold frac_pat in H. cbn [fpart] in H. rewrite H. cbn [frac_us]. unfold microseconds.
  now rewrite frac_value_take.
Qed.

Lemma frac_digits us : (0 <= us <= 999999)%Z -> microseconds (digits 6 us) = us.
Proof.
  intros H. unfold microseconds. cbn [digits append frac_value]. rewrite !digit_val_char by auto.
  simpl (10 ^ Z.of_nat _)%Z.
  assert (0 <= us / 10 / 10 / 10 / 10 / 10 < 10)%Z.
  { rewrite !Z.div_div by lia. split; [apply Z.div_pos; lia|apply Z.div_lt_upper_bound; lia]. }
  rewrite (Z.mod_small (us / 10 / 10 / 10 / 10 / 10) 10) by lia.
  pose proof (Z.div_mod us 10). pose proof (Z.div_mod (us/10) 10). pose proof (Z.div_mod (us/10/10) 10).
  pose proof (Z.div_mod (us/10/10/10) 10). pose proof (Z.div_mod (us/10/10/10/10) 10). lia.
Qed.

Lemma set_us_same t : set_us t (t_us t) = t.
Proof. destruct t; reflexivity. Qed.

Lemma load_text strip d t sx : real_date 1000 d -> real_time t -> suffix_ok sx ->
  load_datetime (wall_text d t ++ frac_text strip t ++ suffix_text sx) =
  Ok (mkDt d (cut strip t) (Some (fixed_tz (suffix_off sx)))).
Proof.
  intros Hd Ht Hs. unfold frac_text, cut. destruct strip; cbn [orb].
  - now apply load_plain.
  - destruct (Z.eqb_spec (t_us t) 0) as [E|E].
    + cbn [append]. rewrite load_plain by assumption. rewrite <- E at 1. now rewrite set_us_same.
    + rewrite sapp_assoc. rewrite load_frac by (assumption || apply digits_forall || discriminate).
      destruct Ht as [? [? [? Hu]]]. now rewrite frac_digits, set_us_same.
Qed.

Lemma dump_text local strip dt s w :
  real_date 1000 (dt_date dt) -> real_time (dt_time dt) ->
  datetime_offset_str local dt = Ok (s, w) ->
  dump_datetime local strip dt =
  Ok (wall_text (dt_date dt) (dt_time dt) ++ frac_text strip (dt_time dt) ++ s, w).
Proof.
  intros Hd Ht E. unfold dump_datetime. rewrite E. cbn [rbind fst snd].
  rewrite strftime_app, strftime_lits, strftime_frac, strftime_datetime, sapp_assoc by assumption.
  reflexivity.
Qed.

(** ** Offsets *)
Definition written (off : Z) : suffix :=
  SOff (negb (0 <? off)%Z) (Z.abs (Z.quot off us_per_hour)) ((off mod us_per_hour) / us_per_min).

Lemma mod_hour off : (0 <= (off mod us_per_hour) / us_per_min <= 59)%Z.
Proof.
  pose proof (Z.mod_pos_bound off us_per_hour).
  assert (0 < us_per_hour)%Z by reflexivity. split; [apply Z.div_pos; [lia|reflexivity]|].
  assert ((off mod us_per_hour) / us_per_min < 60)%Z; [|lia].
  apply Z.div_lt_upper_bound; [reflexivity|]. change (us_per_min * 60)%Z with us_per_hour. lia.
Qed.

Lemma quot_hour off : (- us_per_day < off < us_per_day)%Z -> (0 <= Z.abs (Z.quot off us_per_hour) <= 23)%Z.
Proof.
  intros H. split; [lia|]. rewrite <- Z.quot_abs by discriminate.
  change (Z.abs us_per_hour) with us_per_hour. rewrite Z.quot_div_nonneg by (lia || reflexivity).
  assert (Z.abs off / us_per_hour < 24)%Z; [|lia]. apply Z.div_lt_upper_bound; [reflexivity|].
  change (us_per_hour * 24)%Z with us_per_day. lia.
Qed.

Lemma offset_str off : (- us_per_day < off < us_per_day)%Z ->
  timedelta_offset_str off = Ok (suffix_text (written off)) /\ suffix_ok (written off).
Proof.
  intros H. pose proof (quot_hour off H) as Hq. pose proof (mod_hour off) as Hm.
  split; [|split; assumption]. unfold timedelta_offset_str.
  rewrite (Z.abs_eq (off mod us_per_hour / us_per_min)) by lia.
  replace ((Z.abs (Z.quot off us_per_hour) <=? 23) && (off mod us_per_hour / us_per_min <=? 59))%Z with true
    by (symmetry; rewrite andb_true_iff, !Z.leb_le; lia).
  unfold written, suffix_text. rewrite !pad2_digits by lia. destruct (0 <? off)%Z; reflexivity.
Qed.

Lemma tz_offset_str tz off : has_offset tz off -> (- us_per_day < off < us_per_day)%Z ->
  offset_of_tz tz = Ok (suffix_text (written off)).
Proof.
  intros [H1 [H2 [H3 [H4 H5]]]] Hr. unfold offset_of_tz.
  assert (E : match tz_name tz with Some n => String.eqb n "UTC" || String.eqb n "UTC+00:00" | None => false end = false).
  { destruct (tz_name tz) as [n|]; [|reflexivity].
    destruct (String.eqb_spec n "UTC") as [->|_]; [congruence|].
    destruct (String.eqb_spec n "UTC+00:00") as [->|_]; [congruence|reflexivity]. }
  rewrite E, H3, H1. assert (Et : td_or (tz_off_none tz) (Some off) = Some off).
  { destruct H2 as [->| ->]; simpl; [|reflexivity]. destruct (off =? 0)%Z; reflexivity. }
  rewrite Et. now apply offset_str.
Qed.

Lemma written_exact off : (- us_per_day < off < us_per_day)%Z ->
  (suffix_off (written off) = off <-> exact_offset off).
Proof.
  intros Hr. unfold written, suffix_off, exact_offset.
  destruct (Z.ltb_spec 0 off) as [Hp|Hn]; cbn [negb].
  - rewrite Z.quot_div_nonneg, Z.abs_eq by (apply Z.div_pos || lia || reflexivity; lia || reflexivity).
    pose proof (Z.div_mod off us_per_hour). pose proof (Z.div_mod (off mod us_per_hour) us_per_min).
    assert (Em : (off mod us_per_hour mod us_per_min = off mod us_per_min)%Z).
    { apply (mod_mod_multiple off us_per_min 60); reflexivity. }
    assert (us_per_hour <> 0 /\ us_per_min <> 0)%Z as [Ha Hb] by (split; discriminate).
    specialize (H Ha). specialize (H0 Hb). lia.
  - set (a := (- off)%Z). replace off with (- a)%Z by (unfold a; lia).
    assert (Ha : (0 <= a)%Z) by (unfold a; lia).
    rewrite Z.quot_opp_l by discriminate. rewrite Z.abs_opp.
    rewrite Z.quot_div_nonneg, Z.abs_eq by (apply Z.div_pos || lia || reflexivity; lia || reflexivity).
    pose proof (Z.div_mod a us_per_hour ltac:(discriminate)) as D1.
    pose proof (Z.mod_pos_bound a us_per_hour ltac:(reflexivity)) as B1.
    set (r := (a mod us_per_hour)%Z) in *. set (q := (a / us_per_hour)%Z) in *.
    assert (Er : ((- a) mod us_per_hour = if r =? 0 then 0 else us_per_hour - r)%Z).
    { destruct (Z.eqb_spec r 0) as [E|E].
      - apply Z.mod_opp_l_z; [discriminate|exact E].
      - apply Z.mod_opp_l_nz; [discriminate|exact E]. }
    rewrite Er.
    assert (E1 : ((- a) mod us_per_min = 0 <-> r mod us_per_min = 0)%Z).
    { assert (Em : (r mod us_per_min = a mod us_per_min)%Z).
      { apply (mod_mod_multiple a us_per_min 60); reflexivity. }
      rewrite Em. apply mod_opp_zero. discriminate. }
    assert (E2 : ((- a) mod (30 * us_per_min) = 0 <-> r mod (30 * us_per_min) = 0)%Z).
    { assert (Em : (r mod (30 * us_per_min) = a mod (30 * us_per_min))%Z).
      { apply (mod_mod_multiple a (30 * us_per_min) 2); reflexivity. }
      rewrite Em. apply mod_opp_zero. discriminate. }
    rewrite E1, E2. clear E1 E2 Er.
    change (30 * us_per_min)%Z with 1800000000%Z. unfold us_per_hour, us_per_min in *.
    assert (Hr0 : (0 <= r < 3600000000)%Z) by (unfold r, us_per_hour; apply Z.mod_pos_bound; lia).
    clearbody r q. clear B1.
    destruct (Z.eqb_spec r 0) as [->|E].
    + change (0 / 60000000)%Z with 0%Z. rewrite !Z.mod_0_l by lia. split; [intros _; split; [reflexivity|now right]|lia].
    + split.
      * intros Heq.
        assert (Hd : (r = (3600000000 - r) / 60000000 * 60000000)%Z) by lia.
        assert (Hm : exists k, r = (k * 60000000)%Z) by eauto. destruct Hm as [k ->].
        assert (Hk : (k = 30)%Z).
        { replace (3600000000 - k * 60000000)%Z with ((60 - k) * 60000000)%Z in Hd by lia.
          rewrite Z.div_mul in Hd by lia. lia. }
        subst k. split; [reflexivity|]. right. reflexivity.
      * intros [_ [Hneg|H30]]; [lia|].
        apply Z.mod_divide in H30 as [k ->]; [|lia]. assert (k = 1)%Z as -> by lia.
        change ((3600000000 - 1 * 1800000000) / 60000000 * 60000000)%Z with 1800000000%Z. lia.
Qed.

Lemma fixed_tz_off off : tz_off (fixed_tz off) = Some off.
Proof. unfold fixed_tz. destruct (Z.eqb_spec off 0) as [->|]; reflexivity. Qed.

(** ** Round trips *)
Lemma roundtrip_offset local strip dt tz off :
  real_date 1000 (dt_date dt) -> real_time (dt_time dt) -> dt_tz dt = Some tz ->
  has_offset tz off -> (- us_per_day < off < us_per_day)%Z ->
  exists s tz',
    dump_datetime local strip dt = Ok (s, false) /\
    load_datetime s = Ok (mkDt (dt_date dt) (cut strip (dt_time dt)) (Some tz')) /\
    (tz_off tz' = Some off <-> exact_offset off).
Proof.
  intros Hd Ht Htz Ho Hr. destruct (offset_str off Hr) as [_ Hok].
  exists (wall_text (dt_date dt) (dt_time dt) ++ frac_text strip (dt_time dt) ++ suffix_text (written off)),
         (fixed_tz (suffix_off (written off))).
  split; [|split].
  - apply dump_text; auto. unfold datetime_offset_str. rewrite Htz, (tz_offset_str tz off Ho Hr). reflexivity.
  - now apply load_text.
  - rewrite fixed_tz_off, <- (written_exact off Hr). split; congruence.
Qed.

Lemma dump_utc local strip d t : real_date 1000 d -> real_time t ->
  dump_datetime local strip (mkDt d t (Some utc)) = Ok (wall_text d t ++ frac_text strip t ++ "Z", false).
Proof. intros Hd Ht. apply (dump_text local strip (mkDt d t (Some utc))); auto. Qed.
Lemma load_utc strip d t : real_date 1000 d -> real_time t ->
  load_datetime (wall_text d t ++ frac_text strip t ++ "Z") = Ok (mkDt d (cut strip t) (Some utc)).
Proof. intros Hd Ht. now apply (load_text strip d t SZ). Qed.

Lemma dump_naive local strip d t : real_date 1000 d -> real_time t ->
  dump_datetime local strip (mkDt d t None) = Ok (wall_text d t ++ frac_text strip t ++ "+00:00", true).
Proof. intros Hd Ht. apply (dump_text local strip (mkDt d t None)); auto. Qed.
Lemma load_naive strip d t : real_date 1000 d -> real_time t ->
  load_datetime (wall_text d t ++ frac_text strip t ++ "+00:00") = Ok (mkDt d (cut strip t) (Some utc)).
Proof.
  intros Hd Ht. assert (H : suffix_ok (SOff false 0 0)) by (simpl; lia).
  now apply (load_text strip d t (SOff false 0 0)).
Qed.

(** ** Dates and times *)
Lemma slast_digits n z : slast (digits (S n) z) = Some (digit_char (z mod 10)).
Proof. cbn [digits]. rewrite slast_app by discriminate. reflexivity. Qed.

Lemma date_roundtrip d : real_date 1000 d -> load_date (dump_date d) = Ok d.
Proof.
  intros Hd. unfold load_date, dump_date. rewrite strftime_date by assumption. unfold get_datetime_inst.
  assert (El : slast (date_text d) = Some (digit_char (d_day d mod 10))).
  { unfold date_text. rewrite !slast_app by discriminate. apply slast_digits. }
  rewrite El, digit_not by (apply digit_char_digit || reflexivity; auto). change (has_T date_pattern) with false.
  cbv iota. unfold strptime.
  assert (Ht : real_time time0) by (unfold real_time; simpl; lia).
  rewrite <- (strftime_date d time0 Hd). rewrite <- (sapp_nil_r (strftime date_pattern d time0)).
  destruct (parse_ok d time0 date_pattern Hd Ht eq_refl fields0 "") as [tl ->].
  destruct d as [y m dd]. cbn -[date_ok time_ok].
  rewrite (real_date_ok 1000) by (assumption || lia). reflexivity.
Qed.

Lemma real_date0 : real_date 1000 date0.
Proof. repeat split; discriminate. Qed.

Lemma time_text t : real_time t -> dump_time t = clock_text t ++ frac_text false t.
Proof. intros Ht. unfold dump_time. now rewrite strftime_frac, strftime_time. Qed.

Lemma time_roundtrip t : real_time t -> t_us t = 0%Z -> load_time (dump_time t) = Ok t.
Proof.
  intros Ht Hu. rewrite time_text by assumption. unfold frac_text. rewrite Hu. cbn [orb Z.eqb]. rewrite sapp_nil_r.
  unfold load_time, get_datetime_inst.
  assert (El : slast (clock_text t) = Some (digit_char (t_sec t mod 10))).
  { unfold clock_text. rewrite !slast_app by discriminate. apply slast_digits. }
  rewrite El, digit_not by (apply digit_char_digit || reflexivity; auto). change (has_T time_pattern) with false.
  cbv iota. unfold strptime.
  rewrite <- (strftime_time date0 t Ht). rewrite <- (sapp_nil_r (strftime time_pattern date0 t)).
  destruct (parse_ok date0 t time_pattern real_date0 Ht eq_refl fields0 "") as [tl ->].
  destruct t as [h m s u]. simpl in Hu. subst u. cbn -[date_ok time_ok].
  rewrite real_time_ok by assumption. reflexivity.
Qed.

Lemma time_microseconds t : real_time t -> t_us t <> 0%Z -> load_time (dump_time t) = raise KValue.
Proof.
  intros Ht Hu. rewrite time_text by assumption. unfold frac_text. apply Z.eqb_neq in Hu. rewrite Hu. cbn [orb].
  unfold load_time, get_datetime_inst.
  assert (El : slast (clock_text t ++ "." ++ digits 6 (t_us t)) = Some (digit_char (t_us t mod 10))).
  { rewrite !slast_app by discriminate. apply slast_digits. }
  rewrite El, digit_not by (apply digit_char_digit || reflexivity; auto). change (has_T time_pattern) with false.
  cbv iota. unfold strptime. rewrite <- (strftime_time date0 t Ht).
  destruct (parse_ok date0 t time_pattern real_date0 Ht eq_refl fields0 ("." ++ digits 6 (t_us t))) as [tl ->].
  reflexivity.
Qed.

(** ** Arbitrary text *)
Lemma date_ok_real d : date_ok d = true -> real_date 1 d.
Proof. unfold date_ok, real_date. rewrite !andb_true_iff, !Z.leb_le. lia. Qed.
Lemma time_ok_real t : time_ok t = true -> real_time t.
Proof. unfold time_ok, real_time. rewrite !andb_true_iff, !Z.leb_le. lia. Qed.

Lemma strptime_sound s p : match strptime s p with
  | Ok (d, t) => real_date 1 d /\ real_time t
  | Err e => e = exn_of KValue
  end.
Proof.
  unfold strptime. destruct (parse p fields0 s) as [|[f [|c r]] tl]; try reflexivity.
  destruct (date_ok _) eqn:E1; [|reflexivity]. destruct (time_ok _) eqn:E2; [|reflexivity].
  cbn [andb]. split; [now apply date_ok_real|now apply time_ok_real].
Qed.

Lemma utc_inst_sound s p : match datetime_utc_inst s p with
  | Ok dt => sound_dt true dt | Err e => parse_error e end.
Proof.
  unfold datetime_utc_inst. pose proof (strptime_sound (sbutlast s) p) as H.
  destruct (strptime (sbutlast s) p) as [[d t]|e]; cbn [rbind]; [|now left].
  destruct H as [Hd Ht]. split; [assumption|]. split; [assumption|]. intros _.
  exists utc, 0%Z. repeat split.
Qed.

Lemma offset_inst_sound s p : match datetime_offset_inst s p with
  | Ok dt => sound_dt true dt | Err e => parse_error e end.
Proof.
  unfold datetime_offset_inst.
  destruct (ssplit "T" s) as [|dat [|tim [|]]]; try now left.
  destruct (ssplit (if smem "+" tim then "+" else "-")%char tim) as [|naive [|offset [|]]]; try now left.
  pose proof (strptime_sound (dat ++ "T" ++ naive) p) as H.
  destruct (strptime (dat ++ "T" ++ naive) p) as [[d t]|e]; cbn [rbind]; [|now left].
  destruct (ssplit ":" offset) as [|hs [|ms [|]]]; try now left.
  destruct (py_int hs) as [h|]; [|now left]. destruct (py_int ms) as [m|]; [|now left].
  unfold timedelta_hm. destruct (_ && _)%Z; cbn [rbind]; [|now right].
  unfold new_timezone. destruct (_ && _)%Z eqn:E; cbn [rbind]; [|now left].
  apply andb_prop in E as [E1 E2]. apply Z.ltb_lt in E1. apply Z.ltb_lt in E2.
  destruct H as [Hd Ht]. split; [assumption|]. split; [assumption|]. intros _.
  eexists _, _. split; [reflexivity|]. split; [apply fixed_tz_off|]. lia.
Qed.

Lemma get_inst_sound s p : s <> "" -> match get_datetime_inst s p with
  | Ok dt => sound_dt (has_T p) dt | Err e => parse_error e end.
Proof.
  intros Hs. unfold get_datetime_inst. destruct (slast s) as [c|] eqn:E.
  - destruct (Ascii.eqb c "Z").
    + pose proof (utc_inst_sound s p) as H. destruct (datetime_utc_inst s p); [|assumption].
      destruct H as [Hd [Ht Ha]]. split; [assumption|]. split; [assumption|auto].
    + destruct (has_T p) eqn:ET; [apply offset_inst_sound|].
      pose proof (strptime_sound s p) as H. destruct (strptime s p) as [[d t]|e]; cbn [rbind]; [|now left].
      destruct H as [Hd Ht]. split; [assumption|]. split; [assumption|discriminate].
  - exfalso. destruct s as [|x s]; [congruence|]. clear Hs. revert x E.
    induction s as [|y s IH]; intros x E; [discriminate|]. now apply (IH y).
Qed.

Lemma search_frac_none s : search_frac s = None -> ~ has_fraction s.
Proof.
  intros H [a [c [b [-> Hc]]]]. revert H. induction a as [|x a IH].
  - cbn. rewrite Hc. discriminate.
  - cbn [append search_frac]. destruct (_ && _); [discriminate|exact IH].
Qed.

Lemma load_datetime_sound s : match load_datetime s with
  | Ok dt => sound_dt true dt
  | Err e => parse_error e \/ (e = exn_of KIndex /\ s = "") \/
             (e = exn_of KAttribute /\ smem "." s = true /\ ~ has_fraction s)
  end.
Proof.
  unfold load_datetime. destruct (smem "." s) eqn:E.
  - destruct (search_frac s) as [frac|] eqn:F; [|right; right; split; [|split]; auto using search_frac_none].
    assert (Hne : sreplace frac (stake 7 frac) s <> "").
    { destruct s as [|c s]; [discriminate|].
      assert (Hf : exists x y, frac = String x y).
      { clear E. revert F. generalize (String c s) as z. induction z as [|x z IH]; cbn [search_frac]; [discriminate|].
        destruct (_ && _); [intros [= <-]; eauto|exact IH]. }
      destruct Hf as [x [y ->]]. unfold sreplace. cbn [sreplace_go].
      destruct (prefix _ _); cbn [stake append]; discriminate. }
    pose proof (get_inst_sound _ (datetime_pattern ++ frac_items) Hne) as H.
    destruct (get_datetime_inst _ _); [exact H|now left].
  - destruct s as [|c s].
    + right; left; auto.
    + pose proof (get_inst_sound (String c s) datetime_pattern ltac:(discriminate)) as H.
      destruct (get_datetime_inst _ _); [exact H|now left].
Qed.

Lemma load_date_sound s d : load_date s = Ok d -> real_date 1 d.
Proof.
  unfold load_date. destruct s as [|c s]; [discriminate|].
  pose proof (get_inst_sound (String c s) date_pattern ltac:(discriminate)) as H.
  destruct (get_datetime_inst _ _); cbn [rbind]; [|discriminate]. intros [= <-]. apply H.
Qed.
Lemma load_time_sound s t : load_time s = Ok t -> real_time t.
Proof.
  unfold load_time. destruct s as [|c s]; [discriminate|].
  pose proof (get_inst_sound (String c s) time_pattern ltac:(discriminate)) as H.
  destruct (get_datetime_inst _ _); cbn [rbind]; [|discriminate]. intros [= <-]. apply H.
Qed.

Lemma load_frac_utc d t ds : real_date 1000 d -> real_time t ->
  sforall is_digit ds = true -> ds <> "" ->
  load_datetime (wall_text d t ++ "." ++ ds ++ "Z") = Ok (mkDt d (set_us t (microseconds ds)) (Some utc)).
Proof. intros Hd Ht H1 H2. now apply (load_frac d t ds SZ). Qed.
Lemma load_frac_offset d t ds (neg : bool) h m : real_date 1000 d -> real_time t ->
  sforall is_digit ds = true -> ds <> "" -> (0 <= h <= 23)%Z -> (0 <= m <= 59)%Z ->
  exists tz,
    load_datetime (wall_text d t ++ "." ++ ds ++ (if neg then "-" else "+") ++ digits 2 h ++ ":" ++ digits 2 m)
    = Ok (mkDt d (set_us t (microseconds ds)) (Some tz)) /\
    tz_off tz = Some ((if neg then -1 else 1) * (h * us_per_hour + m * us_per_min))%Z.
Proof.
  intros Hd Ht H1 H2 Hh Hm. exists (fixed_tz (suffix_off (SOff neg h m))).
  split; [|apply fixed_tz_off].
  rewrite <- (load_frac d t ds (SOff neg h m)) by (assumption || (split; assumption)).
  destruct neg; reflexivity.
Qed.
Lemma date_text_ok d : real_date 1000 d -> dump_date d = date_text d.
Proof. apply strftime_date. Qed.
