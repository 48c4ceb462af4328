(** * Proofs about what texts of datetimes say (C72) *)
From Coq Require Import Lia.
From Verif Require Import PyBase PyBaseFacts DatetimeModel DatetimeProofs CastProofs.
From Verif Require Export DateTextSpec.
Local Close Scope Z_scope.
Local Open Scope string_scope.

(** ** Numerals *)
Lemma digit_is_val c d : digit_is c d <-> is_digit c = true /\ d = digit_val c.
Proof.
  unfold digit_is, is_digit, digit_val, code. rewrite Bool.andb_true_iff, !Nat.leb_le. lia.
Qed.
Lemma digit_is_char c d : digit_is c d -> c = digit_char d /\ (0 <= d < Z.of_nat 10)%Z.
Proof.
  intros [Hd Hc]. split; [|lia]. unfold digit_char.
  apply (f_equal Z.to_nat) in Hc. rewrite Nat2Z.id in Hc.
  rewrite <- (ascii_nat_embedding c), Hc. f_equal. lia.
Qed.
Lemma numeral_digits s z : numeral s z -> sforall is_digit s = true /\ s <> "" .
Proof.
  induction 1 as [c d H|s n c d _ [IH1 IH2] H]; apply digit_is_val in H as [H _].
  - cbn. rewrite H. split; [reflexivity|discriminate].
  - rewrite sforall_app, IH1. cbn. rewrite H. split; [reflexivity|]. destruct s; discriminate.
Qed.
Lemma numeral_one c d : numeral (String c "") d <-> digit_is c d.
Proof.
  split; [|now constructor]. intros H. inversion H as [c' d' H' E1 E2|s n c' d' H1 H2 E1 E2]; subst; [assumption|].
  exfalso. apply numeral_digits in H1 as [_ H1]. destruct s as [|x s]; [auto|]. destruct s; discriminate.
Qed.
Lemma numeral_snoc s c z : s <> "" -> numeral (s ++ String c "") z -> exists n d, numeral s n /\ digit_is c d /\ z = (10 * n + d)%Z.
Proof.
  intros Hs H. inversion H as [c' d' H' E1 E2|s' n c' d' H1 H2 E1 E2]; subst.
  - exfalso. destruct s as [|x s]; [auto|]. destruct s; discriminate.
  - apply (f_equal (fun x => (sbutlast x, slast x))) in E1. rewrite !sbutlast_snoc, !slast_app in E1 by discriminate.
    injection E1 as -> ->. eauto.
Qed.
Lemma numeral_two c c' z : numeral (String c (String c' "")) z -> exists d d', digit_is c d /\ digit_is c' d' /\ z = (10 * d + d')%Z.
Proof.
  intros H. apply (numeral_snoc (String c "") c' z) in H as (n & d & H1 & H2 & ->); [|discriminate]. apply numeral_one in H1. eauto.
Qed.
Lemma numeral_intro2 c c' : is_digit c = true -> is_digit c' = true ->
  numeral (String c (String c' "")) (digit_val c * 10 + digit_val c').
Proof.
  intros H H'. replace (digit_val c * 10 + digit_val c')%Z with (10 * digit_val c + digit_val c')%Z by lia.
  apply (nu_next (String c "")); [constructor|]; now apply digit_is_val.
Qed.
Lemma two_cases s z : up_to_two s z ->
  (exists d, s = String (digit_char d) "" /\ (0 <= d < Z.of_nat 10)%Z /\ z = d) \/
  (exists d d', s = String (digit_char d) (String (digit_char d') "") /\
     (0 <= d < Z.of_nat 10)%Z /\ (0 <= d' < Z.of_nat 10)%Z /\ z = (10 * d + d')%Z).
Proof.
  intros [H Hl]. destruct s as [|c [|c' [|c'' s]]]; cbn in Hl; try lia.
  - apply numeral_digits in H as [_ H]. congruence.
  - left. apply numeral_one in H. apply digit_is_char in H as [-> H]. eauto.
  - right. apply numeral_two in H as (d & d' & H1 & H2 & ->). apply digit_is_char in H1 as [-> H1]. apply digit_is_char in H2 as [-> H2]. eauto 7.
Qed.
Lemma four_cases s z : numeral s z -> String.length s = 4 -> exists a b c d,
  s = String a (String b (String c (String d ""))) /\ is_digit a = true /\ is_digit b = true /\ is_digit c = true /\ is_digit d = true /\
  z = (digit_val a * 1000 + digit_val b * 100 + digit_val c * 10 + digit_val d)%Z.
Proof.
  intros H Hl. destruct s as [|a [|b [|c [|d [|x s]]]]]; cbn in Hl; try discriminate.
  apply (numeral_snoc (String a (String b (String c ""))) d z) in H as (n & x & H & Hd & ->); [|discriminate].
  apply (numeral_snoc (String a (String b "")) c n) in H as (m & y & H & Hc & ->); [|discriminate].
  apply numeral_two in H as (p & q & Ha & Hb & ->).
  apply digit_is_val in Ha as [Ha ->]. apply digit_is_val in Hb as [Hb ->]. apply digit_is_val in Hc as [Hc ->]. apply digit_is_val in Hd as [Hd ->].
  exists a, b, c, d. repeat (split; [assumption || reflexivity|]). lia.
Qed.
Lemma four_intro a b c d : is_digit a = true -> is_digit b = true -> is_digit c = true -> is_digit d = true ->
  numeral (String a (String b (String c (String d ""))))
          (digit_val a * 1000 + digit_val b * 100 + digit_val c * 10 + digit_val d).
Proof.
  intros Ha Hb Hc Hd.
  replace (digit_val a * 1000 + digit_val b * 100 + digit_val c * 10 + digit_val d)%Z
    with (10 * (10 * (digit_val a * 10 + digit_val b) + digit_val c) + digit_val d)%Z by lia.
  apply (nu_next (String a (String b (String c "")))); [|now apply digit_is_val].
  apply (nu_next (String a (String b ""))); [|now apply digit_is_val]. now apply numeral_intro2.
Qed.

(** ** Items of patterns: what a match means *)
Lemma dg_digit lo hi c : dg lo hi c = true -> is_digit c = true.
Proof. unfold dg. rewrite !Bool.andb_true_iff. tauto. Qed.
Lemma alt2_in lo hi lo' hi' s x r : In (x, r) (alt2 (dg lo hi) (dg lo' hi') s) -> exists t, s = t ++ r /\ up_to_two t x.
Proof.
  destruct s as [|a [|b s]]; cbn; try contradiction. destruct (dg lo hi a) eqn:Ha; [|contradiction]. destruct (dg lo' hi' b) eqn:Hb; [|contradiction].
  intros [[= <- <-]|[]]. exists (String a (String b "")). split; [reflexivity|]. split; [|cbn; lia].
  apply numeral_intro2; eapply dg_digit; eassumption.
Qed.
Lemma alt1_in lo hi s x r : In (x, r) (alt1 (dg lo hi) s) -> exists t, s = t ++ r /\ up_to_two t x.
Proof.
  destruct s as [|a s]; cbn; try contradiction. destruct (dg lo hi a) eqn:Ha; [|contradiction].
  intros [[= <- <-]|[]]. exists (String a ""). split; [reflexivity|]. split; [|cbn; lia]. constructor. apply digit_is_val.
  split; [eapply dg_digit; eassumption|reflexivity].
Qed.
Ltac alts H := repeat (apply in_app_iff in H as [H|H]); (eapply alt2_in; exact H) || (eapply alt1_in; exact H).
Lemma pm_in s x r : In (x, r) (pm s) -> exists t, s = t ++ r /\ up_to_two t x.
Proof. unfold pm. intros H. alts H. Qed.
Lemma pH_in s x r : In (x, r) (pH s) -> exists t, s = t ++ r /\ up_to_two t x.
Proof. unfold pH. intros H. alts H. Qed.
Lemma pM_in s x r : In (x, r) (pM s) -> exists t, s = t ++ r /\ up_to_two t x.
Proof. unfold pM. intros H. alts H. Qed.
Lemma pS_in s x r : In (x, r) (pS s) -> exists t, s = t ++ r /\ up_to_two t x.
Proof. unfold pS. intros H. alts H. Qed.
Definition day_text (t : string) (x : Z) : Prop := up_to_two t x \/ exists c, t = String " " (String c "") /\ digit_is c x.
Lemma pd_in s x r : In (x, r) (pd s) -> exists t, s = t ++ r /\ day_text t x.
Proof.
  unfold pd. intros H. rewrite !in_app_iff in H. destruct H as [H|[H|[H|[H|H]]]].
  1-3: apply alt2_in in H as (t & -> & H); exists t; split; [reflexivity|now left].
  - apply alt1_in in H as (t & -> & H); exists t; split; [reflexivity|now left].
  - destruct s as [|a [|b s]]; cbn in H; try contradiction. destruct (Ascii.eqb_spec a " ") as [->|]; [|contradiction].
    destruct (dg 1 9 b) eqn:Hb; [|contradiction]. destruct H as [[= <- <-]|[]]. exists (String " " (String b "")).
    split; [reflexivity|]. right. exists b. split; [reflexivity|]. apply digit_is_val. split; [eapply dg_digit; eassumption|reflexivity].
Qed.
Lemma pY_in s x r : In (x, r) (pY s) -> exists t, s = t ++ r /\ numeral t x /\ String.length t = 4.
Proof.
  destruct s as [|a [|b [|c [|d s]]]]; cbn; try contradiction.
  destruct (is_digit a) eqn:Ha; [|contradiction]. destruct (is_digit b) eqn:Hb; [|contradiction].
  destruct (is_digit c) eqn:Hc; [|contradiction]. destruct (is_digit d) eqn:Hd; [|contradiction].
  intros [[= <- <-]|[]]. exists (String a (String b (String c (String d "")))). split; [reflexivity|]. split; [|reflexivity]. now apply four_intro.
Qed.
Lemma pf_go_in n : forall acc s x r, In (x, r) (pf_go n acc s) ->
  exists t, s = t ++ r /\ sforall is_digit t = true /\ String.length t <= n /\ x = (acc * 10 ^ Z.of_nat n + frac_value n t)%Z.
Proof.
  induction n as [|n IH]; intros acc s x r.
  - cbn [pf_go]. intros [[= <- <-]|[]]. exists "". split; [reflexivity|]. split; [reflexivity|]. split; [cbn; lia|]. change (10 ^ Z.of_nat 0)%Z with 1%Z. cbn [frac_value]. lia.
  - assert (Hh : In (x, r) [((acc * 10 ^ Z.of_nat (S n))%Z, s)] ->
      exists t, s = t ++ r /\ sforall is_digit t = true /\ String.length t <= S n /\ x = (acc * 10 ^ Z.of_nat (S n) + frac_value (S n) t)%Z).
    { intros [[= <- <-]|[]]. exists "". split; [reflexivity|]. split; [reflexivity|]. split; [cbn; lia|]. cbn [frac_value]. lia. }
    cbn [pf_go]. destruct s as [|c s]; [exact Hh|]. destruct (is_digit c) eqn:Hc; [|exact Hh].
    rewrite in_app_iff. intros [H|H]; [|now apply Hh]. apply IH in H as (t & -> & Ht & Hl & ->).
    exists (String c t). cbn [append sforall String.length]. rewrite Hc, Ht. split; [reflexivity|]. split; [reflexivity|]. split; [lia|]. cbn [frac_value].
    rewrite Nat2Z.inj_succ, Z.pow_succ_r by lia. lia.
Qed.
Lemma pf_in s x r : In (x, r) (pf s) ->
  exists t, s = t ++ r /\ sforall is_digit t = true /\ t <> "" /\ x = microseconds t /\ String.length t <= 6.
Proof.
  unfold pf. destruct s as [|c s]; [contradiction|]. destruct (is_digit c) eqn:Hc; [|contradiction]. intros H.
  apply pf_go_in in H as (t & -> & Ht & Hl & ->). exists (String c t). cbn [append sforall String.length]. rewrite Hc, Ht.
  split; [reflexivity|]. split; [reflexivity|]. split; [discriminate|]. split; [|lia]. unfold microseconds. cbn [frac_value]. lia.
Qed.

(** ** Patterns *)
Lemma parse_in i p f s y : In y (parse (i :: p) f s) <-> exists x, In x (parse1 i f s) /\ In y (parse p (fst x) (snd x)).
Proof. cbn [parse]. apply in_flat_map. Qed.
Definition setY x f := mkFields x (f_m f) (f_d f) (f_H f) (f_M f) (f_S f) (f_f f).
Definition setm x f := mkFields (f_Y f) x (f_d f) (f_H f) (f_M f) (f_S f) (f_f f).
Definition setd x f := mkFields (f_Y f) (f_m f) x (f_H f) (f_M f) (f_S f) (f_f f).
Definition setH x f := mkFields (f_Y f) (f_m f) (f_d f) x (f_M f) (f_S f) (f_f f).
Definition setM x f := mkFields (f_Y f) (f_m f) (f_d f) (f_H f) x (f_S f) (f_f f).
Definition setS x f := mkFields (f_Y f) (f_m f) (f_d f) (f_H f) (f_M f) x (f_f f).
Definition setf x f := mkFields (f_Y f) (f_m f) (f_d f) (f_H f) (f_M f) (f_S f) x.
Lemma parse1_in i f s f' r : In (f', r) (parse1 i f s) ->
  match i with
  | IY => exists t x, s = t ++ r /\ f' = setY x f /\ numeral t x /\ String.length t = 4
  | Im => exists t x, s = t ++ r /\ f' = setm x f /\ up_to_two t x
  | Id => exists t x, s = t ++ r /\ f' = setd x f /\ day_text t x
  | IH => exists t x, s = t ++ r /\ f' = setH x f /\ up_to_two t x
  | IM => exists t x, s = t ++ r /\ f' = setM x f /\ up_to_two t x
  | IS => exists t x, s = t ++ r /\ f' = setS x f /\ up_to_two t x
  | If => exists t, s = t ++ r /\ f' = setf (microseconds t) f /\ sforall is_digit t = true /\ t <> "" /\ String.length t <= 6
  | ILit c => exists x, s = String x r /\ lit_match c x = true /\ f' = f
  end.
Proof.
  destruct f as [Y m d H M Sc u]. unfold parse1.
  destruct i; intros HI; try (apply in_map_iff in HI as ([x s'] & [= <- <-] & HI)).
  - apply pY_in in HI as (t & -> & H1 & H2). exists t, x. auto.
  - apply pm_in in HI as (t & -> & H1). exists t, x. auto.
  - apply pd_in in HI as (t & -> & H1). exists t, x. auto.
  - apply pH_in in HI as (t & -> & H1). exists t, x. auto.
  - apply pM_in in HI as (t & -> & H1). exists t, x. auto.
  - apply pS_in in HI as (t & -> & H1). exists t, x. auto.
  - apply pf_in in HI as (t & -> & H1 & H2 & -> & H3). exists t. auto 6.
  - destruct s as [|x s]; [contradiction|]. destruct (lit_match c x) eqn:Hc; [|contradiction]. destruct HI as [[= <- <-]|[]]. eauto.
Qed.
Lemma lit_dash x : lit_match "-" x = true -> x = "-"%char.
Proof. destruct x as [[] [] [] [] [] [] [] []]; vm_compute; congruence. Qed.
Lemma lit_colon x : lit_match ":" x = true -> x = ":"%char.
Proof. destruct x as [[] [] [] [] [] [] [] []]; vm_compute; congruence. Qed.
Lemma lit_dot x : lit_match "." x = true -> x = "."%char.
Proof. destruct x as [[] [] [] [] [] [] [] []]; vm_compute; congruence. Qed.
Lemma lit_T x : lit_match "T" x = true -> x = "T"%char \/ x = "t"%char.
Proof. destruct x as [[] [] [] [] [] [] [] []]; vm_compute; intros H; try discriminate; auto. Qed.
Ltac item H f s := let x := fresh "x" in apply parse_in in H as ([f s] & x & H); cbn [fst snd] in H; apply parse1_in in x.
Lemma date_in f s f' r : In (f', r) (parse date_pattern f s) -> exists ys ms ds Y m d,
  s = (ys ++ "-" ++ ms ++ "-" ++ ds) ++ r /\ f' = setd d (setm m (setY Y f)) /\
  numeral ys Y /\ String.length ys = 4 /\ up_to_two ms m /\ day_text ds d.
Proof.
  unfold date_pattern. intros HI.
  item HI f1 s1. destruct x as (ys & Y & -> & -> & H1 & H2).
  item HI f2 s2. destruct x as (x & -> & Hx & ->). apply lit_dash in Hx as ->.
  item HI f3 s3. destruct x as (ms & m & -> & -> & H3).
  item HI f4 s4. destruct x as (x & -> & Hx & ->). apply lit_dash in Hx as ->.
  item HI f5 s5. destruct x as (ds & d & -> & -> & H4).
  cbn [parse] in HI. destruct HI as [[= <- <-]|[]].
  exists ys, ms, ds, Y, m, d. split; [|auto]. now rewrite !sapp_assoc.
Qed.
Lemma time_in f s f' r : In (f', r) (parse time_pattern f s) -> exists hs ms ss h m sec,
  s = (hs ++ ":" ++ ms ++ ":" ++ ss) ++ r /\ f' = setS sec (setM m (setH h f)) /\
  up_to_two hs h /\ up_to_two ms m /\ up_to_two ss sec.
Proof.
  unfold time_pattern. intros HI.
  item HI f1 s1. destruct x as (hs & h & -> & -> & H1).
  item HI f2 s2. destruct x as (x & -> & Hx & ->). apply lit_colon in Hx as ->.
  item HI f3 s3. destruct x as (ms & m & -> & -> & H2).
  item HI f4 s4. destruct x as (x & -> & Hx & ->). apply lit_colon in Hx as ->.
  item HI f5 s5. destruct x as (ss & sec & -> & -> & H3).
  cbn [parse] in HI. destruct HI as [[= <- <-]|[]].
  exists hs, ms, ss, h, m, sec. split; [|auto]. now rewrite !sapp_assoc.
Qed.
Lemma parse_app_in p q f s y : In y (parse (p ++ q) f s) -> exists f' s', In (f', s') (parse p f s) /\ In y (parse q f' s').
Proof. rewrite parse_app. intros H. apply in_flat_map in H as ([f' s'] & H1 & H2). eauto. Qed.

(** ** strptime: what is accepted *)
Lemma strptime_in s p d t : strptime s p = Ok (d, t) -> exists f, In (f, "") (parse p fields0 s) /\
  d = mkDate (f_Y f) (f_m f) (f_d f) /\ t = mkTime (f_H f) (f_M f) (f_S f) (f_f f) /\ real_date 1 d /\ real_time t.
Proof.
  unfold strptime. destruct (parse p fields0 s) as [|[f r] l]; [discriminate|]. destruct r; [|discriminate].
  destruct (date_ok _) eqn:Hd; [|discriminate]. destruct (time_ok _) eqn:Ht; [|discriminate]. cbn [andb]. intros [= <- <-].
  exists f. split; [now left|]. split; [reflexivity|]. split; [reflexivity|]. split; [now apply date_ok_real|now apply time_ok_real].
Qed.
Lemma real_time_us0 t : real_time t -> real_time (set_us t 0).
Proof. unfold real_time, set_us. cbn. lia. Qed.
(** The part of a datetime text before the offset *)
Definition says_local (s : string) (d : date) (t : time) : Prop := exists a x b fr us t0,
  s = a ++ String x (b ++ fr) /\ (x = "T"%char \/ x = "t"%char) /\ says_date a d /\ says_clock b t0 /\
  t = set_us t0 us /\ says_fraction fr us.
Lemma strptime_datetime s d t : strptime s datetime_pattern = Ok (d, t) ->
  exists a x b, s = a ++ String x b /\ (x = "T"%char \/ x = "t"%char) /\ says_date a d /\ says_clock b t.
Proof.
  intros H. apply strptime_in in H as (f & HI & -> & -> & Hd & Ht). unfold datetime_pattern in HI.
  apply parse_app_in in HI as (f1 & s1 & H1 & HI). apply date_in in H1 as (ys & ms & ds & Y & m & d & -> & -> & A1 & A2 & A3 & A4).
  item HI f2 s2. destruct x as (x & -> & Hx & ->). apply lit_T in Hx.
  apply time_in in HI as (hs & mi & ss & h & mn & sec & -> & -> & B1 & B2 & B3).
  rewrite sapp_nil_r. exists (ys ++ "-" ++ ms ++ "-" ++ ds), x, (hs ++ ":" ++ mi ++ ":" ++ ss).
  split; [reflexivity|]. split; [exact Hx|]. split; now constructor.
Qed.
Lemma strptime_datetime_frac s d t : strptime s (datetime_pattern ++ frac_items) = Ok (d, t) ->
  exists a x b ds t0, s = a ++ String x (b ++ "." ++ ds) /\ (x = "T"%char \/ x = "t"%char) /\ says_date a d /\ says_clock b t0 /\
    t = set_us t0 (microseconds ds) /\ sforall is_digit ds = true /\ ds <> "" /\ String.length ds <= 6.
Proof.
  intros H. apply strptime_in in H as (f & HI & -> & -> & Hd & Ht). unfold datetime_pattern in HI.
  apply parse_app_in in HI as (f0 & s0 & HI & HF).
  apply parse_app_in in HI as (f1 & s1 & H1 & HI). apply date_in in H1 as (ys & ms & ds & Y & m & d & -> & -> & A1 & A2 & A3 & A4).
  item HI f2 s2. destruct x as (x & -> & Hx & ->). apply lit_T in Hx.
  apply time_in in HI as (hs & mi & ss & h & mn & sec & -> & -> & B1 & B2 & B3).
  unfold frac_items in HF. item HF f3 s3. destruct x0 as (x0 & -> & Hx0 & ->). apply lit_dot in Hx0 as ->.
  item HF f4 s4. destruct x0 as (fs & -> & -> & C1 & C2 & C3). cbn [parse] in HF. destruct HF as [[= E1 E2]|[]]. subst f s4. rewrite sapp_nil_r.
  exists (ys ++ "-" ++ ms ++ "-" ++ ds), x, (hs ++ ":" ++ mi ++ ":" ++ ss), fs, (mkTime h mn sec 0).
  split; [reflexivity|]. split; [exact Hx|]. split; [now constructor|]. split.
  - constructor; try assumption. apply real_time_us0 in Ht. exact Ht.
  - split; [reflexivity|auto].
Qed.
Lemma strptime_date s d t : strptime s date_pattern = Ok (d, t) -> says_date s d.
Proof.
  intros H. apply strptime_in in H as (f & HI & -> & -> & Hd & Ht).
  apply date_in in HI as (ys & ms & ds & Y & m & d & -> & -> & A1 & A2 & A3 & A4). rewrite sapp_nil_r. now constructor.
Qed.
Lemma strptime_time s d t : strptime s time_pattern = Ok (d, t) -> says_clock s t.
Proof.
  intros H. apply strptime_in in H as (f & HI & -> & -> & Hd & Ht).
  apply time_in in HI as (hs & mi & ss & h & mn & sec & -> & -> & B1 & B2 & B3). rewrite sapp_nil_r. now constructor.
Qed.

(** ** Offsets *)
Lemma sjoin_ssplit c s : sjoin (String c EmptyString) (ssplit c s) = s.
Proof.
  induction s as [|x s IH]; [reflexivity|]. cbn [ssplit]. pose proof (ssplit_nonempty c s) as Hne.
  destruct (ssplit c s) as [|w ws] eqn:Ew; [congruence|]. destruct (Ascii.eqb_spec x c) as [->|].
  - change (sjoin (String c "") ("" :: w :: ws)) with (String c (sjoin (String c "") (w :: ws))). now rewrite IH.
  - destruct ws as [|w2 ws]; cbn [sjoin append] in *; now rewrite IH.
Qed.
Lemma split_two c s a b : ssplit c s = [a; b] -> s = a ++ String c b /\ smem c a = false /\ smem c b = false.
Proof.
  intros H. pose proof (ssplit_pieces_free c s) as HF. rewrite H in HF. inversion HF as [|? ? Ha HF' E1]; subst. inversion HF' as [|? ? Hb _ E2]; subst.
  split; [|auto]. rewrite <- (sjoin_ssplit c s), H. reflexivity.
Qed.
Lemma split_two_iff c s a b : ssplit c s = [a; b] <-> s = a ++ String c b /\ smem c a = false /\ smem c b = false.
Proof.
  split; [apply split_two|]. intros (-> & Ha & Hb). rewrite ssplit_app_sep by assumption. now rewrite ssplit_none.
Qed.
Lemma hm_factor h m (plus : bool) : (h * (if plus then 1 else -1) * us_per_hour + m * (if plus then 1 else -1) * us_per_min)%Z =
  (if plus then hm h m else - hm h m)%Z.
Proof. unfold hm. destruct plus; lia. Qed.
(** datetime_offset_inst, read from both sides *)
Lemma offset_inst_iff s p d t tz : datetime_offset_inst s p = Ok (mkDt d t (Some tz)) <->
  exists dat naive hs ms h m (plus : bool),
    s = dat ++ "T" ++ naive ++ String (if plus then "+" else "-")%char (hs ++ ":" ++ ms) /\
    smem "T" dat = false /\ smem "T" naive = false /\ smem "T" hs = false /\ smem "T" ms = false /\
    (plus = false -> smem "+" naive = false /\ smem "+" hs = false /\ smem "+" ms = false) /\
    (let c := (if plus then "+" else "-")%char in smem c naive = false /\ smem c hs = false /\ smem c ms = false) /\
    smem ":" hs = false /\ smem ":" ms = false /\
    strptime (dat ++ "T" ++ naive) p = Ok (d, t) /\ int_literal hs h /\ int_literal ms m /\
    let off := (if plus then hm h m else - hm h m)%Z in
    (- us_per_day < off < us_per_day)%Z /\ tz = fixed_tz off.
Proof.
  unfold datetime_offset_inst. split.
  - destruct (ssplit "T" s) as [|dat [|tim [|]]] eqn:E1; try discriminate. apply split_two in E1 as (-> & T1 & T2).
    set (plus := smem "+" tim). destruct (ssplit (if plus then "+" else "-")%char tim) as [|naive [|offset [|]]] eqn:E2; try discriminate.
    apply split_two in E2 as (Et & P1 & P2). destruct (strptime (dat ++ "T" ++ naive) p) as [[d' t']|] eqn:Es; [|discriminate]. cbn [rbind].
    destruct (ssplit ":" offset) as [|hs [|ms [|]]] eqn:E3; try discriminate. apply split_two in E3 as (-> & C1 & C2).
    destruct (py_int hs) as [h|] eqn:Hh; [|discriminate]. destruct (py_int ms) as [m|] eqn:Hm; [|discriminate].
    unfold timedelta_hm. rewrite hm_factor. destruct (_ && _)%Z; [|discriminate]. cbn [rbind]. unfold new_timezone.
    destruct (_ && _)%Z eqn:Eo; [|discriminate]. cbn [rbind fst snd]. intros [= <- <- <-].
    apply andb_prop in Eo as [O1 O2]. apply Z.ltb_lt in O1. apply Z.ltb_lt in O2.
    assert (Ep : smem "+" tim = plus) by reflexivity. clearbody plus. subst tim.
    rewrite smem_app, smem_cons, smem_app, smem_cons in T2. rewrite smem_app, smem_cons in P2.
    apply Bool.orb_false_elim in T2 as [Tn T2]. apply Bool.orb_false_elim in T2 as [_ T2]. apply Bool.orb_false_elim in T2 as [Th T2]. apply Bool.orb_false_elim in T2 as [_ Tm].
    apply Bool.orb_false_elim in P2 as [Ph P2]. apply Bool.orb_false_elim in P2 as [_ Pm].
    exists dat, naive, hs, ms, h, m, plus. split; [reflexivity|]. do 4 (split; [assumption|]). split.
    { intros ->. rewrite smem_app, smem_cons, smem_app, smem_cons in Ep.
      apply Bool.orb_false_elim in Ep as [En Ep]. apply Bool.orb_false_elim in Ep as [_ Ep]. apply Bool.orb_false_elim in Ep as [Eh Ep].
      apply Bool.orb_false_elim in Ep as [_ Em]. auto. }
    split; [cbn; auto|]. split; [exact C1|]. split; [exact C2|]. split; [exact Es|]. split; [now apply py_int_iff|]. split; [now apply py_int_iff|].
    cbv zeta. split; [split; assumption|]. reflexivity.
  - intros (dat & naive & hs & ms & h & m & plus & -> & T1 & Tn & Th & Tm & Hp & (Pn & Ph & Pm) & C1 & C2 & Es & Hh & Hm & Ho & ->).
    rewrite (proj2 (split_two_iff "T" _ dat (naive ++ String (if plus then "+" else "-")%char (hs ++ ":" ++ ms)))).
    2:{ split; [reflexivity|]. split; [exact T1|]. rewrite smem_app, smem_cons, smem_app. change (":" ++ ms) with (String ":" ms). rewrite smem_cons, Tn, Th, Tm. destruct plus; reflexivity. }
    assert (Ep : smem "+" (naive ++ String (if plus then "+" else "-")%char (hs ++ ":" ++ ms)) = plus).
    { rewrite smem_app, smem_cons, smem_app. change (":" ++ ms) with (String ":" ms). rewrite smem_cons. destruct plus.
      - now rewrite Bool.orb_true_r.
      - destruct (Hp eq_refl) as (-> & -> & ->). reflexivity. }
    rewrite Ep. rewrite (proj2 (split_two_iff _ _ naive (hs ++ ":" ++ ms))).
    2:{ split; [reflexivity|]. split; [exact Pn|]. rewrite smem_app. change (":" ++ ms) with (String ":" ms). rewrite smem_cons, Ph, Pm. destruct plus; reflexivity. }
    rewrite Es. cbn [rbind]. rewrite (proj2 (split_two_iff _ _ hs ms)) by auto.
    apply py_int_iff in Hh. apply py_int_iff in Hm. rewrite Hh, Hm. unfold timedelta_hm. rewrite hm_factor.
    set (off := (if plus then hm h m else - hm h m)%Z) in *.
    replace ((-999999999 * us_per_day <=? off) && (off <? 1000000000 * us_per_day))%Z with true
      by (symmetry; rewrite andb_true_iff, Z.leb_le, Z.ltb_lt; unfold us_per_day in *; lia).
    cbn [rbind]. unfold new_timezone. replace ((- us_per_day <? off) && (off <? us_per_day))%Z with true
      by (symmetry; rewrite andb_true_iff, !Z.ltb_lt; lia).
    reflexivity.
Qed.

(** ** Characters *)
Definition free (c : ascii) : Prop := is_digit c = false /\ c <> "_"%char /\ c <> "+"%char /\ c <> "-"%char /\ ~ In (nat_of_ascii c) spaces.
Lemma digit_is_not c x d : digit_is c d -> is_digit x = false -> Ascii.eqb c x = false.
Proof. intros H Hx. apply digit_is_val in H as [H _]. now apply digit_not. Qed.
Lemma numeral_free x s z : numeral s z -> is_digit x = false -> smem x s = false.
Proof. intros H Hx. apply numeral_digits in H as [H _]. now apply (no_char is_digit). Qed.
Lemma decimals_free x s z : decimals s z -> is_digit x = false -> x <> "_"%char -> smem x s = false.
Proof.
  intros H Hx Hu. induction H as [c d H|s n c d _ IH H|s n c d _ IH H].
  - rewrite smem_cons, (digit_is_not _ _ _ H Hx). reflexivity.
  - rewrite smem_app, IH, smem_cons, (digit_is_not _ _ _ H Hx). reflexivity.
  - rewrite smem_app, IH. change ("_" ++ String c "") with (String "_" (String c "")). rewrite !smem_cons, (digit_is_not _ _ _ H Hx).
    destruct (Ascii.eqb_spec "_" x) as [<-|]; [congruence|reflexivity].
Qed.
Lemma int_free x s z : int_literal s z -> free x -> smem x s = false.
Proof.
  intros (a & sign & ds & b & n & -> & Ha & Hb & Hd & Hs) (F1 & F2 & F3 & F4 & F5).
  assert (B : forall w, blank w -> smem x w = false).
  { intros w Hw. destruct (smem x w) eqn:E; [|reflexivity]. apply Hw in E. contradiction. }
  rewrite !smem_app, (B a Ha), (B b Hb), (decimals_free x ds n Hd F1 F2).
  destruct Hs as [[[-> | ->] _]|[-> _]]; [reflexivity| |]; rewrite smem_cons.
  - destruct (Ascii.eqb_spec "+" x) as [<-|]; [congruence|reflexivity].
  - destruct (Ascii.eqb_spec "-" x) as [<-|]; [congruence|reflexivity].
Qed.
Lemma free_T : free "T". Proof. repeat split; try discriminate; cbn; intuition discriminate. Qed.
Lemma free_Z : free "Z". Proof. repeat split; try discriminate; cbn; intuition discriminate. Qed.
Lemma free_dot : free ".". Proof. repeat split; try discriminate; cbn; intuition discriminate. Qed.
Lemma free_colon : free ":". Proof. repeat split; try discriminate; cbn; intuition discriminate. Qed.
Lemma two_free x s z : up_to_two s z -> is_digit x = false -> smem x s = false.
Proof. intros [H _]. now apply numeral_free with z. Qed.
Lemma date_free x s d : says_date s d -> is_digit x = false -> x <> "-"%char -> x <> " "%char -> smem x s = false.
Proof.
  intros H H1 H2 H3. destruct H as [ys ms ds Y m d A1 A2 A3 A4 A5].
  change ("-" ++ ds) with (String "-" ds). change ("-" ++ ms ++ String "-" ds) with (String "-" (ms ++ String "-" ds)).
  rewrite smem_app, smem_cons, smem_app, smem_cons, (numeral_free x ys Y A1 H1), (two_free x ms m A3 H1).
  destruct (Ascii.eqb_spec "-" x) as [<-|]; [congruence|]. cbn [orb].
  destruct A4 as [A4|(c & -> & A4)]; [now apply two_free with d|]. rewrite !smem_cons, (digit_is_not _ _ _ A4 H1).
  destruct (Ascii.eqb_spec " " x) as [<-|]; [congruence|reflexivity].
Qed.
Lemma clock_free x s t : says_clock s t -> is_digit x = false -> x <> ":"%char -> smem x s = false.
Proof.
  intros H H1 H2. destruct H as [hs ms ss h m sec A1 A2 A3 A4].
  change (":" ++ ss) with (String ":" ss). change (":" ++ ms ++ String ":" ss) with (String ":" (ms ++ String ":" ss)).
  rewrite smem_app, smem_cons, smem_app, smem_cons, (two_free x hs h A1 H1), (two_free x ms m A2 H1), (two_free x ss sec A3 H1).
  destruct (Ascii.eqb_spec ":" x) as [<-|]; [congruence|]. reflexivity.
Qed.
Lemma fraction_free x s us : says_fraction s us -> is_digit x = false -> x <> "."%char -> smem x s = false.
Proof.
  intros [|ds Hd Hn] H1 H2; [reflexivity|]. change ("." ++ ds) with (String "." ds). rewrite smem_cons.
  destruct (Ascii.eqb_spec "." x) as [<-|]; [congruence|]. cbn [orb]. now apply (no_char is_digit).
Qed.
Lemma split_unique c a b a' b' : smem c a = false -> smem c a' = false -> a ++ String c b = a' ++ String c b' -> a = a' /\ b = b'.
Proof.
  revert a'. induction a as [|x a IH]; intros [|y a'] Ha Ha' H; cbn [append] in H; injection H.
  - auto.
  - intros _ <-. rewrite smem_cons, Ascii.eqb_refl in Ha'. discriminate.
  - intros _ ->. rewrite smem_cons, Ascii.eqb_refl in Ha. discriminate.
  - intros H1 ->. rewrite smem_cons in Ha, Ha'. apply Bool.orb_false_elim in Ha as [_ Ha]. apply Bool.orb_false_elim in Ha' as [_ Ha'].
    destruct (IH a' Ha Ha' H1) as [-> ->]. auto.
Qed.
Lemma split_digits a b a' b' : sforall is_digit a = true -> sforall is_digit a' = true ->
  (match b with String c _ => is_digit c = false | "" => True end) ->
  (match b' with String c _ => is_digit c = false | "" => True end) -> a ++ b = a' ++ b' -> a = a' /\ b = b'.
Proof.
  revert a'. induction a as [|x a IH]; intros [|y a'] Ha Ha' Hb Hb' H; cbn [append sforall] in *.
  - auto.
  - subst b. apply andb_prop in Ha' as [Hy _]. congruence.
  - subst b'. apply andb_prop in Ha as [Hx _]. congruence.
  - injection H as -> H. apply andb_prop in Ha as [_ Ha]. apply andb_prop in Ha' as [_ Ha'].
    destruct (IH a' Ha Ha' Hb Hb' H) as [-> ->]. auto.
Qed.
Lemma zone_nondigit z off : says_zone z off -> match z with String c _ => is_digit c = false | "" => True end.
Proof. intros [| |]; reflexivity. Qed.
Lemma zone_dot z off : says_zone z off -> smem "." z = false.
Proof.
  intros [|hs ms h m H1 H2 _ _|hs ms h m H1 H2 _ _ _ _]; [reflexivity| |]; cbn [append]; rewrite smem_cons, smem_app, smem_cons,
    (int_free "." hs h H1 free_dot), (int_free "." ms m H2 free_dot); reflexivity.
Qed.

(** ** What is accepted *)
Definition pat (w : bool) : list item := (datetime_pattern ++ if w then frac_items else [])%list.
Definition short_fraction (w : bool) (fr : string) (us : Z) : Prop :=
  if w then exists ds, fr = "." ++ ds /\ sforall is_digit ds = true /\ ds <> "" /\ String.length ds <= 6 /\ us = microseconds ds
  else fr = "" /\ us = 0%Z.
Lemma clock_us s t : says_clock s t -> t_us t = 0%Z.
Proof. now intros []. Qed.
Lemma set_us0 t : t_us t = 0%Z -> set_us t 0 = t.
Proof. destruct t; cbn. now intros ->. Qed.
Lemma strptime_pat w s d t : strptime s (pat w) = Ok (d, t) ->
  exists a x b fr us t0, s = a ++ String x (b ++ fr) /\ (x = "T"%char \/ x = "t"%char) /\ says_date a d /\ says_clock b t0 /\
    t = set_us t0 us /\ short_fraction w fr us.
Proof.
  destruct w; unfold pat.
  - intros H. apply strptime_datetime_frac in H as (a & x & b & ds & t0 & -> & Hx & Ha & Hb & -> & H1 & H2 & H3).
    exists a, x, b, ("." ++ ds), (microseconds ds), t0. do 5 (split; [auto|]). exists ds. auto.
  - rewrite app_nil_r. intros H. apply strptime_datetime in H as (a & x & b & -> & Hx & Ha & Hb).
    exists a, x, b, "", 0%Z, t. rewrite sapp_nil_r. do 4 (split; [auto|]). split; [|now split].
    symmetry. apply set_us0. now apply clock_us with b.
Qed.
Lemma short_says w fr us : short_fraction w fr us -> says_fraction fr us.
Proof. destruct w; [intros (ds & -> & H1 & H2 & _ & ->); now constructor|intros [-> ->]; constructor]. Qed.
Lemma last_split s c : slast s = Some c -> s = sbutlast s ++ String c "".
Proof.
  induction s as [|x s IH]; [discriminate|]. destruct s as [|y s]; [intros [= ->]; reflexivity|].
  intros H. change (slast (String x (String y s))) with (slast (String y s)) in H. apply IH in H.
  change (sbutlast (String x (String y s))) with (String x (sbutlast (String y s))). cbn [append]. now rewrite <- H.
Qed.
(** The result of reading a text *)
Definition meaning (w : bool) (s : string) (d : date) (t : time) (off : Z) : Prop :=
  exists a T b fr z us t0, s = a ++ T ++ b ++ fr ++ z /\ says_date a d /\ (T = "T" \/ (T = "t" /\ z = "Z")) /\ says_clock b t0 /\
    t = set_us t0 us /\ short_fraction w fr us /\ says_zone z off /\ (- us_per_day < off < us_per_day)%Z.
Lemma inst_meaning w s dt : get_datetime_inst s (pat w) = Ok dt ->
  exists off, dt_tz dt = Some (fixed_tz off) /\ meaning w s (dt_date dt) (dt_time dt) off.
Proof.
  unfold get_datetime_inst. destruct (slast s) as [c|] eqn:El; [|discriminate]. destruct (Ascii.eqb_spec c "Z") as [->|Hc].
  - unfold datetime_utc_inst. destruct (strptime (sbutlast s) (pat w)) as [[d t]|] eqn:Es; [|discriminate]. cbn [rbind fst snd]. intros [= <-].
    exists 0%Z. split; [reflexivity|]. cbn [dt_date dt_time]. apply last_split in El.
    apply strptime_pat in Es as (a & x & b & fr & us & t0 & E & Hx & Ha & Hb & -> & Hf).
    exists a, (String x ""), b, fr, "Z", us, t0. split.
    { rewrite El, E. rewrite !sapp_assoc. cbn [append]. now rewrite sapp_assoc. }
    do 5 (split; [auto; destruct Hx as [-> | ->]; auto|]). split; [constructor|]. unfold us_per_day. lia.
  - replace (has_T (pat w)) with true by (destruct w; reflexivity). intros H.
    pose proof (offset_inst_sound s (pat w)) as Hs. rewrite H in Hs. destruct Hs as (_ & _ & Hs). destruct (Hs eq_refl) as (tz & off0 & Htz & _).
    destruct dt as [d t otz]. cbn [dt_tz] in Htz. subst otz. cbn [dt_tz dt_date dt_time].
    apply offset_inst_iff in H as (dat & naive & hs & ms & h & m & plus & -> & T1 & Tn & Th & Tm & Hp & (Pn & Ph & Pm) & C1 & C2 & Es & Hh & Hm & Ho & ->).
    exists (if plus then hm h m else - hm h m)%Z. split; [reflexivity|].
    apply strptime_pat in Es as (a & x & b & fr & us & t0 & E & Hx & Ha & Hb & -> & Hf).
    assert (Tf : smem "T" (b ++ fr) = false).
    { rewrite smem_app, (clock_free "T" b t0 Hb eq_refl) by discriminate. apply short_says in Hf. rewrite (fraction_free "T" fr us Hf eq_refl) by discriminate. reflexivity. }
    assert (Ta : smem "T" a = false) by (apply (date_free "T" a d Ha eq_refl); discriminate).
    destruct Hx as [-> | ->].
    2:{ exfalso. apply (f_equal (smem "T")) in E. change ("T" ++ naive) with (String "T" naive) in E.
        rewrite !smem_app, !smem_cons, Ta, Tf, Ascii.eqb_refl in E. rewrite Bool.orb_true_r in E. discriminate. }
    apply split_unique in E as [-> ->]; [|assumption|assumption].
    exists a, "T", b, fr, (String (if plus then "+" else "-")%char (hs ++ ":" ++ ms)), us, t0. split.
    { rewrite !sapp_assoc. reflexivity. }
    do 5 (split; [auto|]). split; [|exact Ho]. destruct plus.
    + apply sz_plus; assumption.
    + destruct (Hp eq_refl) as (_ & E1 & E2). apply sz_minus; assumption.
Qed.
(** The number of dots *)
Fixpoint dots (s : string) : nat :=
  match s with "" => 0 | String c r => (if Ascii.eqb c "." then 1 else 0) + dots r end.
Lemma dots_app a b : dots (a ++ b) = dots a + dots b.
Proof. induction a as [|x a IH]; [reflexivity|]. cbn [append dots]. rewrite IH. lia. Qed.
Lemma dots_zero s : dots s = 0 <-> smem "." s = false.
Proof.
  induction s as [|x s IH]; [now split|]. cbn [dots]. rewrite smem_cons. destruct (Ascii.eqb x "."); [split; intros H; discriminate|exact IH].
Qed.
Lemma prefix_split p s : prefix p s = true -> exists t, s = p ++ t.
Proof.
  revert s. induction p as [|c p IH]; intros s; [exists s; reflexivity|]. destruct s as [|x s]; [discriminate|]. cbn [prefix].
  destruct (ascii_dec c x) as [->|]; [|discriminate]. intros H. apply IH in H as (t & ->). now exists t.
Qed.
Lemma dots_replace ds r n : dots ds = 0 -> dots r = 1 -> forall s, String.length s <= n ->
  dots (sreplace_go (String "." ds) r 0 s) = dots s.
Proof.
  intros Hd Hr. induction n as [|n IH]; intros s Hl; (destruct s as [|c s]; [reflexivity|]); cbn [String.length] in Hl; [lia|].
  cbn [sreplace_go]. destruct (prefix (String "." ds) (String c s)) eqn:Hp.
  - apply prefix_split in Hp as (t & E). cbn [append] in E. injection E as -> ->.
    cbn [String.length]. replace (S (String.length ds) - 1) with (String.length ds) by lia. rewrite sreplace_drop, dots_app, Hr.
    rewrite slength_app in Hl. rewrite IH by lia. cbn [dots]. rewrite Ascii.eqb_refl, dots_app, Hd. reflexivity.
  - cbn [dots]. rewrite IH by lia. reflexivity.
Qed.
Lemma take_digits_split s : exists t r, s = t ++ r /\ take_digits s = t /\ sforall is_digit t = true /\
  match r with String c _ => is_digit c = false | "" => True end.
Proof.
  induction s as [|c s IH]; [exists "", ""; auto|]. cbn [take_digits]. destruct (is_digit c) eqn:Hc.
  - destruct IH as (t & r & -> & Ht & Hd & Hr). exists (String c t), r. split; [reflexivity|]. rewrite Ht. cbn [sforall]. rewrite Hc, Hd. auto.
  - exists "", (String c s). auto.
Qed.
Lemma search_frac_some s fr : search_frac s = Some fr -> exists pre ds post,
  s = pre ++ String "." (ds ++ post) /\ fr = String "." ds /\ sforall is_digit ds = true /\ ds <> "" /\
  match post with String c _ => is_digit c = false | "" => True end.
Proof.
  induction s as [|c s IH]; [discriminate|]. cbn [search_frac].
  destruct (Ascii.eqb c "." && match s with String d _ => is_digit d | "" => false end) eqn:E.
  - intros [= <-]. apply andb_prop in E as [E1 E2]. apply Ascii.eqb_eq in E1 as ->.
    destruct (take_digits_split s) as (t & r & -> & Ht & Hd & Hr). rewrite Ht. exists "", t, r. split; [reflexivity|]. split; [reflexivity|].
    split; [exact Hd|]. split; [|exact Hr]. intros ->. cbn [append] in E2. destruct r; congruence.
  - intros H. apply IH in H as (pre & ds & post & -> & H). exists (String c pre), ds, post. split; [reflexivity|exact H].
Qed.
Lemma meaning_dots w s d t off : meaning w s d t off -> dots s = if w then 1 else 0.
Proof.
  intros (a & T & b & fr & z & us & t0 & -> & Ha & HT & Hb & _ & Hf & Hz & _). rewrite !dots_app.
  rewrite (proj2 (dots_zero a)) by (apply (date_free "." a d Ha eq_refl); discriminate).
  rewrite (proj2 (dots_zero b)) by (apply (clock_free "." b t0 Hb eq_refl); discriminate).
  rewrite (proj2 (dots_zero z)) by (now apply zone_dot with off).
  replace (dots T) with 0 by (destruct HT as [-> |[-> _]]; reflexivity).
  destruct w; [destruct Hf as (ds & -> & Hd & _)|destruct Hf as [-> _]; reflexivity].
  rewrite dots_app, (proj2 (dots_zero ds)) by (now apply (no_char is_digit)). reflexivity.
Qed.
Lemma load_datetime_says s dt : load_datetime s = Ok dt ->
  exists off, dt_tz dt = Some (fixed_tz off) /\ says s (dt_date dt) (dt_time dt) off.
Proof.
  unfold load_datetime. destruct (smem "." s) eqn:Hs.
  - destruct (search_frac s) as [fr|] eqn:Ef; [|discriminate]. apply search_frac_some in Ef as (pre & ds & post & -> & -> & Hd & Hn & Hp).
    intros H. change (datetime_pattern ++ frac_items)%list with (pat true) in H. apply inst_meaning in H as (off & Htz & H).
    exists off. split; [exact Htz|].
    assert (Dd : dots ds = 0) by (apply dots_zero; now apply (no_char is_digit)).
    assert (Dt : dots (stake 7 (String "." ds)) = 1).
    { change (stake 7 (String "." ds)) with (String "." (stake 6 ds)). cbn [dots]. rewrite Ascii.eqb_refl. rewrite (proj2 (dots_zero _)); [reflexivity|].
      apply (no_char is_digit); [now apply stake_forall|reflexivity]. }
    pose proof (meaning_dots _ _ _ _ _ H) as HD. unfold sreplace in HD.
    rewrite (dots_replace ds _ (String.length (pre ++ String "." (ds ++ post)))) in HD by auto.
    rewrite dots_app in HD. cbn [dots] in HD. rewrite Ascii.eqb_refl, dots_app, Dd in HD.
    assert (D1 : smem "." pre = false) by (apply dots_zero; lia). assert (D2 : smem "." post = false) by (apply dots_zero; lia).
    change (String "." (ds ++ post)) with (String "." ds ++ post) in H. rewrite sreplace_frac in H by assumption.
    change (stake 7 (String "." ds)) with (String "." (stake 6 ds)) in H. cbn [append] in H.
    destruct H as (a & T & b & fr & z & us & t0 & E & Ha & HT & Hb & Et & (ds' & -> & Hd' & Hn' & Hl' & ->) & Hz & Ho).
    replace (a ++ T ++ b ++ ("." ++ ds') ++ z) with ((a ++ T ++ b) ++ String "." (ds' ++ z)) in E by (rewrite !sapp_assoc; reflexivity).
    apply split_unique in E as [E1 E2]; [|assumption|].
    2:{ rewrite !smem_app, (date_free "." a _ Ha eq_refl), (clock_free "." b t0 Hb eq_refl) by discriminate. destruct HT as [-> |[-> _]]; reflexivity. }
    apply split_digits in E2 as [E2 E3]; [|now apply stake_forall|assumption|assumption|now apply zone_nondigit with off]. subst pre post ds'.
    replace ((a ++ T ++ b) ++ String "." (ds ++ z)) with (a ++ T ++ b ++ ("." ++ ds) ++ z) by (rewrite !sapp_assoc; reflexivity).
    rewrite Et. replace (microseconds (stake 6 ds)) with (microseconds ds) by (unfold microseconds; now rewrite frac_value_take).
    apply sy; try assumption. now constructor.
  - intros H. change datetime_pattern with (pat false) in H. apply inst_meaning in H as (off & Htz & a & T & b & fr & z & us & t0 & -> & Ha & HT & Hb & Et & Hf & Hz & Ho).
    exists off. split; [exact Htz|]. rewrite Et. apply sy; try assumption. now apply short_says with false.
Qed.

(** ** What is said is read *)
Definition stops (r : string) : Prop := match r with String c _ => is_digit c = false | "" => True end.
Lemma head_step i p f s f1 s1 tl y : parse1 i f s = (f1, s1) :: tl -> (exists l, parse p f1 s1 = y :: l) -> exists l, parse (i :: p) f s = y :: l.
Proof. intros H1 (l & H2). cbn [parse]. rewrite H1. cbn [flat_map fst snd]. rewrite H2. cbn. eauto. Qed.
Lemma dg_stop lo hi c : is_digit c = false -> dg lo hi c = false.
Proof. unfold dg. now intros ->. Qed.
Ltac onedigit r Hr d H1 :=
  destruct r as [|c r]; [zcases H1 10; try lia; eexists; reflexivity|];
  cbn [stops] in Hr; cbn [append]; unfold alt2, alt1, alt_space; rewrite ?(dg_stop _ _ c Hr), ?Bool.andb_false_r; zcases H1 10; try lia; eexists; reflexivity.
Ltac twodigits H1 H2 := zcases H1 10; try lia; zcases H2 10; try lia; eexists; reflexivity.
Lemma pm_back t x r : up_to_two t x -> stops r -> (1 <= x <= 12)%Z -> exists tl, pm (t ++ r) = (x, r) :: tl.
Proof.
  intros H Hr Hx. apply two_cases in H as [(d & -> & H1 & ->)|(d & d' & -> & H1 & H2 & ->)]; unfold pm.
  - onedigit r Hr d H1.
  - twodigits H1 H2.
Qed.
Lemma pH_back t x r : up_to_two t x -> stops r -> (0 <= x <= 23)%Z -> exists tl, pH (t ++ r) = (x, r) :: tl.
Proof.
  intros H Hr Hx. apply two_cases in H as [(d & -> & H1 & ->)|(d & d' & -> & H1 & H2 & ->)]; unfold pH.
  - onedigit r Hr d H1.
  - twodigits H1 H2.
Qed.
Lemma pM_back t x r : up_to_two t x -> stops r -> (0 <= x <= 59)%Z -> exists tl, pM (t ++ r) = (x, r) :: tl.
Proof.
  intros H Hr Hx. apply two_cases in H as [(d & -> & H1 & ->)|(d & d' & -> & H1 & H2 & ->)]; unfold pM.
  - onedigit r Hr d H1.
  - twodigits H1 H2.
Qed.
Lemma pS_back t x r : up_to_two t x -> stops r -> (0 <= x <= 59)%Z -> exists tl, pS (t ++ r) = (x, r) :: tl.
Proof.
  intros H Hr Hx. apply two_cases in H as [(d & -> & H1 & ->)|(d & d' & -> & H1 & H2 & ->)]; unfold pS.
  - onedigit r Hr d H1.
  - twodigits H1 H2.
Qed.
Lemma pd_back t x r : day_text t x -> stops r -> (1 <= x <= 31)%Z -> exists tl, pd (t ++ r) = (x, r) :: tl.
Proof.
  intros [H|(c & -> & H)] Hr Hx.
  - apply two_cases in H as [(d & -> & H1 & ->)|(d & d' & -> & H1 & H2 & ->)]; unfold pd.
    + onedigit r Hr d H1.
    + twodigits H1 H2.
  - apply digit_is_char in H as [-> H1]. unfold pd. zcases H1 10; try lia; eexists; reflexivity.
Qed.
Lemma pY_back t x r : numeral t x -> String.length t = 4 -> exists tl, pY (t ++ r) = (x, r) :: tl.
Proof.
  intros H Hl. apply four_cases in H as (a & b & c & d & -> & Ha & Hb & Hc & Hd & ->); [|exact Hl].
  cbn [append pY]. rewrite Ha, Hb, Hc, Hd. eexists. reflexivity.
Qed.
Ltac field E := eapply head_step; [cbn [parse1]; rewrite E; cbn [map fst snd]; reflexivity|].
Ltac literal := eapply head_step; [cbn; reflexivity|].
Lemma parse_date_back f a d r : says_date a d -> stops r ->
  exists tl, parse date_pattern f (a ++ r) = (setd (d_day d) (setm (d_month d) (setY (d_year d) f)), r) :: tl.
Proof.
  intros H Hr. destruct H as [ys ms ds Y m d A1 A2 A3 A4 (B1 & B2 & B3)]. cbn [d_year d_month d_day] in *.
  pose proof (days_le Y m). rewrite !sapp_assoc. unfold date_pattern. destruct f as [fY fm fd fH fM fS ff].
  destruct (pY_back ys Y ("-" ++ ms ++ "-" ++ ds ++ r) A1 A2) as (t1 & E1).
  destruct (pm_back ms m ("-" ++ ds ++ r) A3 eq_refl B2) as (t2 & E2).
  destruct (pd_back ds d r A4 Hr ltac:(lia)) as (t3 & E3).
  cbn [append] in E1, E2, E3 |- *. field E1. literal. field E2. literal. field E3. exists []. reflexivity.
Qed.
Lemma parse_time_back f a t r : says_clock a t -> stops r ->
  exists tl, parse time_pattern f (a ++ r) = (setS (t_sec t) (setM (t_min t) (setH (t_hour t) f)), r) :: tl.
Proof.
  intros H Hr. destruct H as [hs ms ss h m sec A1 A2 A3 (B1 & B2 & B3 & _)]. cbn [t_hour t_min t_sec] in *.
  rewrite !sapp_assoc. unfold time_pattern. destruct f as [fY fm fd fH fM fS ff].
  destruct (pH_back hs h (":" ++ ms ++ ":" ++ ss ++ r) A1 eq_refl B1) as (t1 & E1).
  destruct (pM_back ms m (":" ++ ss ++ r) A2 eq_refl B2) as (t2 & E2).
  destruct (pS_back ss sec r A3 Hr B3) as (t3 & E3).
  cbn [append] in E1, E2, E3 |- *. field E1. literal. field E2. literal. field E3. exists []. reflexivity.
Qed.
Lemma date_real a d : says_date a d -> real_date 1 d.
Proof. now intros []. Qed.
Lemma clock_real a t : says_clock a t -> real_time t.
Proof. now intros []. Qed.
Lemma parse1_f f s : parse1 If f s = map (fun x => (setf (fst x) f, snd x)) (pf s).
Proof. now destruct f. Qed.
Lemma parse1_lit c f s : parse1 (ILit c) f s = match s with String x r => if lit_match c x then [(f, r)] else [] | "" => [] end.
Proof. now destruct f. Qed.
Lemma strptime_back w a x b fr us d t : says_date a d -> x = "T"%char \/ x = "t"%char -> says_clock b t -> short_fraction w fr us ->
  strptime (a ++ String x (b ++ fr)) (pat w) = Ok (d, set_us t us).
Proof.
  intros Ha Hx Hb Hf.
  assert (H : exists l, parse (pat w) fields0 (a ++ String x (b ++ fr)) =
    (mkFields (d_year d) (d_month d) (d_day d) (t_hour t) (t_min t) (t_sec t) us, "") :: l).
  { unfold pat, datetime_pattern. rewrite <- app_assoc.
    destruct (parse_date_back fields0 a d (String x (b ++ fr)) Ha) as (l1 & E1); [destruct Hx as [-> | ->]; reflexivity|].
    set (f1 := setd _ _) in E1.
    enough (H2 : exists l, parse ((ILit "T" :: time_pattern) ++ (if w then frac_items else [])) f1 (String x (b ++ fr)) =
      (mkFields (d_year d) (d_month d) (d_day d) (t_hour t) (t_min t) (t_sec t) us, "") :: l)
      by (destruct H2 as (l & H2); eapply parse_head; eassumption).
    rewrite <- app_comm_cons.
    assert (E2 : parse1 (ILit "T") f1 (String x (b ++ fr)) = [(f1, b ++ fr)]) by (destruct Hx as [-> | ->]; reflexivity).
    destruct (parse_time_back f1 b t fr Hb) as (l3 & E3); [apply short_says in Hf; destruct Hf; reflexivity|].
    cbn [parse]. rewrite E2. cbn [flat_map fst snd]. rewrite app_nil_r, parse_app, E3. cbn [flat_map fst snd].
    assert (E4 : exists l, parse (if w then frac_items else []) (setS (t_sec t) (setM (t_min t) (setH (t_hour t) f1))) fr =
      (setf us (setS (t_sec t) (setM (t_min t) (setH (t_hour t) f1))), "") :: l).
    { destruct w.
      - destruct Hf as (ds & -> & Hd & Hn & Hl & ->). destruct (pf_ok ds Hd Hn Hl) as (l & E4). unfold frac_items.
        eapply head_step; [rewrite parse1_lit; cbn; reflexivity|].
        eapply head_step; [rewrite parse1_f, E4; cbn [map fst snd]; reflexivity|]. exists []. reflexivity.
      - destruct Hf as [-> ->]. cbn [parse]. eexists. reflexivity. }
    destruct E4 as (l4 & E4). rewrite E4. eexists. reflexivity. }
  destruct H as (l & H). unfold strptime. rewrite H. cbn [f_Y f_m f_d f_H f_M f_S f_f].
  assert (Hd : date_ok (mkDate (d_year d) (d_month d) (d_day d)) = true).
  { apply (real_date_ok 1); [lia|]. apply date_real in Ha. now destruct d. }
  assert (Ht : time_ok (mkTime (t_hour t) (t_min t) (t_sec t) us) = true).
  { apply real_time_ok. apply clock_real in Hb. apply short_says in Hf.
    apply (real_time_us t us Hb). destruct Hf; [lia|now apply microseconds_range]. }
  rewrite Hd, Ht. destruct d, t. reflexivity.
Qed.
Lemma zone_last hs ms m c : int_literal ms m -> slast (String c (hs ++ ":" ++ ms)) <> Some "Z"%char.
Proof.
  intros Hm H. change (String c (hs ++ ":" ++ ms)) with (String c hs ++ ":" ++ ms) in H.
  pose proof (int_free "Z" ms m Hm free_Z) as HF. destruct ms as [|x ms].
  - destruct Hm as (a & sign & ds & b & n & E & _ & _ & Hd & _). assert (ds = "") as -> by (destruct a; [destruct sign; [destruct ds; [reflexivity|]|]|]; discriminate).
    inversion Hd; [destruct s; discriminate|destruct s; discriminate].
  - rewrite !slast_app in H by discriminate. apply last_split in H. rewrite H, smem_app, smem_cons, Ascii.eqb_refl, Bool.orb_true_r in HF. discriminate.
Qed.
Lemma inst_back w s d t off : meaning w s d t off -> get_datetime_inst s (pat w) = Ok (mkDt d t (Some (fixed_tz off))).
Proof.
  intros (a & T & b & fr & z & us & t0 & -> & Ha & HT & Hb & -> & Hf & Hz & Ho).
  assert (Hx : exists x, T = String x "" /\ (x = "T"%char \/ x = "t"%char)) by (destruct HT as [-> |[-> _]]; eexists; split; auto).
  destruct Hx as (x & Ex & Hx). pose proof (strptime_back w a x b fr us d t0 Ha Hx Hb Hf) as Es.
  unfold get_datetime_inst. rewrite !slast_app by (destruct z; [inversion Hz|]; try discriminate; try (destruct b, fr; discriminate); destruct HT as [-> |[-> _]]; discriminate).
  inversion Hz as [E1 E2|hs ms h m H1 H2 P1 P2 E1 E2|hs ms h m H1 H2 P1 P2 M1 M2 E1 E2]; subst z off.
  - cbn [slast]. change (Ascii.eqb "Z" "Z") with true. cbv iota. unfold datetime_utc_inst.
    replace (a ++ T ++ b ++ fr ++ "Z") with ((a ++ String x (b ++ fr)) ++ "Z") by (subst T; rewrite !sapp_assoc; cbn [append]; now rewrite sapp_assoc).
    rewrite sbutlast_snoc, Es. reflexivity.
  - assert (ET : T = "T") by (destruct HT as [H|[_ H]]; [exact H|discriminate]). rewrite Ex in ET. injection ET as ->. subst T.
    destruct (slast ("+" ++ hs ++ ":" ++ ms)) as [c|] eqn:El.
    2:{ exfalso. change ("+" ++ hs ++ ":" ++ ms) with (("+" ++ hs) ++ ":" ++ ms) in El. rewrite slast_app in El by discriminate.
        clear - El. cbn [append] in El. revert El. generalize ":"%char. induction ms as [|y ms IH]; intros x; [discriminate|]. apply (IH y). }
    destruct (Ascii.eqb_spec c "Z") as [->|_]; [exfalso; exact (zone_last hs ms m "+" H2 El)|].
    replace (has_T (pat w)) with true by (destruct w; reflexivity). apply offset_inst_iff.
    exists a, (b ++ fr), hs, ms, h, m, true. split; [rewrite !sapp_assoc; reflexivity|].
    assert (F : forall c, is_digit c = false -> c <> ":"%char -> c <> "."%char -> smem c (b ++ fr) = false).
    { intros y Y1 Y2 Y3. apply short_says in Hf. now rewrite smem_app, (clock_free y b t0 Hb Y1 Y2), (fraction_free y fr us Hf Y1 Y3). }
    split; [apply (date_free "T" a d Ha eq_refl); discriminate|]. split; [apply F; [reflexivity|discriminate|discriminate]|].
    split; [now apply (int_free "T" hs h H1 free_T)|]. split; [now apply (int_free "T" ms m H2 free_T)|]. split; [discriminate|].
    split; [split; [apply F; [reflexivity|discriminate|discriminate]|auto]|].
    split; [now apply (int_free ":" hs h H1 free_colon)|]. split; [now apply (int_free ":" ms m H2 free_colon)|].
    split; [exact Es|]. auto.
  - assert (ET : T = "T") by (destruct HT as [H|[_ H]]; [exact H|discriminate]). rewrite Ex in ET. injection ET as ->. subst T.
    destruct (slast ("-" ++ hs ++ ":" ++ ms)) as [c|] eqn:El.
    2:{ exfalso. change ("-" ++ hs ++ ":" ++ ms) with (("-" ++ hs) ++ ":" ++ ms) in El. rewrite slast_app in El by discriminate.
        clear - El. cbn [append] in El. revert El. generalize ":"%char. induction ms as [|y ms IH]; intros x; [discriminate|]. apply (IH y). }
    destruct (Ascii.eqb_spec c "Z") as [->|_]; [exfalso; exact (zone_last hs ms m "-" H2 El)|].
    replace (has_T (pat w)) with true by (destruct w; reflexivity). apply offset_inst_iff.
    exists a, (b ++ fr), hs, ms, h, m, false. split; [rewrite !sapp_assoc; reflexivity|].
    assert (F : forall c, is_digit c = false -> c <> ":"%char -> c <> "."%char -> smem c (b ++ fr) = false).
    { intros y Y1 Y2 Y3. apply short_says in Hf. now rewrite smem_app, (clock_free y b t0 Hb Y1 Y2), (fraction_free y fr us Hf Y1 Y3). }
    split; [apply (date_free "T" a d Ha eq_refl); discriminate|]. split; [apply F; [reflexivity|discriminate|discriminate]|].
    split; [now apply (int_free "T" hs h H1 free_T)|]. split; [now apply (int_free "T" ms m H2 free_T)|].
    split; [intros _; split; [apply F; [reflexivity|discriminate|discriminate]|auto]|].
    split; [split; [apply F; [reflexivity|discriminate|discriminate]|auto]|].
    split; [now apply (int_free ":" hs h H1 free_colon)|]. split; [now apply (int_free ":" ms m H2 free_colon)|].
    split; [exact Es|]. auto.
Qed.
Lemma says_load_datetime s d t off : says s d t off -> load_datetime s = Ok (mkDt d t (Some (fixed_tz off))).
Proof.
  intros [a T b fr z d' t' us off' Ha HT Hb Hf Hz Ho]. unfold load_datetime.
  assert (Da : smem "." a = false) by (apply (date_free "." a d' Ha eq_refl); discriminate).
  assert (Db : smem "." b = false) by (apply (clock_free "." b t' Hb eq_refl); discriminate).
  assert (DT : smem "." T = false) by (destruct HT as [-> |[-> _]]; reflexivity).
  pose proof (zone_dot z off' Hz) as Dz. destruct Hf as [|ds Hd Hn].
  - rewrite !smem_app, Da, Db, DT, Dz. cbn [smem sexists sforall orb negb].
    change datetime_pattern with (pat false). apply inst_back. exists a, T, b, "", z, 0%Z, t'. do 5 (split; [assumption || reflexivity|]).
    split; [now split|]. split; assumption.
  - replace (a ++ T ++ b ++ ("." ++ ds) ++ z) with ((a ++ T ++ b) ++ String "." (ds ++ z)) by (rewrite !sapp_assoc; reflexivity).
    assert (Dp : smem "." (a ++ T ++ b) = false) by (rewrite !smem_app, Da, DT, Db; reflexivity).
    rewrite smem_app, smem_cons, Ascii.eqb_refl, Bool.orb_true_r.
    rewrite search_frac_found by (assumption || now apply zone_nondigit with off').
    change (String "." (ds ++ z)) with (String "." ds ++ z). rewrite sreplace_frac by assumption.
    change (datetime_pattern ++ frac_items)%list with (pat true). apply inst_back.
    change (stake 7 (String "." ds)) with ("." ++ stake 6 ds).
    exists a, T, b, ("." ++ stake 6 ds), z, (microseconds ds), t'. split; [now rewrite !sapp_assoc|]. do 4 (split; [assumption || reflexivity|]).
    split; [|split; assumption]. exists (stake 6 ds). split; [reflexivity|]. split; [now apply stake_forall|].
    split; [destruct ds; [congruence|discriminate]|]. split; [apply stake_length|]. unfold microseconds. now rewrite frac_value_take.
Qed.

(** ** Dates and times *)
Lemma slast_some s : s <> "" -> exists c, slast s = Some c.
Proof.
  destruct s as [|x s]; [congruence|]. intros _. revert x. induction s as [|y s IH]; intros x; [now exists x|]. apply (IH y).
Qed.
Lemma date_nonempty a d : says_date a d -> a <> "".
Proof. intros [ys ms ds Y m d' _ Hl _ _ _]. destruct ys; discriminate. Qed.
Lemma clock_nonempty a t : says_clock a t -> a <> "".
Proof. intros [hs ms ss h m sec _ _ _ _]. destruct hs; discriminate. Qed.
Lemma load_date_iff s d : load_date s = Ok d <-> exists a, says_date a d /\ (s = a \/ s = a ++ "Z").
Proof.
  unfold load_date, get_datetime_inst. split.
  - destruct (slast s) as [c|] eqn:El; [|discriminate]. destruct (Ascii.eqb_spec c "Z") as [->|Hc].
    + unfold datetime_utc_inst. destruct (strptime (sbutlast s) date_pattern) as [[d' t]|] eqn:Es; [|discriminate]. cbn [rbind fst snd dt_date].
      intros [= <-]. apply strptime_date in Es. apply last_split in El. eauto.
    + change (has_T date_pattern) with false. cbv iota. destruct (strptime s date_pattern) as [[d' t]|] eqn:Es; [|discriminate]. cbn [rbind fst snd dt_date].
      intros [= <-]. apply strptime_date in Es. eauto.
  - intros (a & Ha & Hs).
    assert (E : strptime a date_pattern = Ok (d, time0)).
    { unfold strptime. destruct (parse_date_back fields0 a d "" Ha I) as (l & E). rewrite sapp_nil_r in E. rewrite E.
      cbn [f_Y f_m f_d f_H f_M f_S f_f setd setm setY fields0].
      replace (date_ok _) with true by (symmetry; apply (real_date_ok 1); [lia|]; apply date_real in Ha; now destruct d). destruct d. reflexivity. }
    destruct Hs as [-> | ->].
    + destruct (slast_some a (date_nonempty a d Ha)) as (c & El). rewrite El.
      assert (Hc : Ascii.eqb c "Z" = false).
        { destruct (Ascii.eqb_spec c "Z") as [->|]; [|reflexivity]. exfalso. apply last_split in El.
          pose proof (date_free "Z" a d Ha eq_refl ltac:(discriminate) ltac:(discriminate)) as HF. rewrite El, smem_app, smem_cons, Ascii.eqb_refl, Bool.orb_true_r in HF. discriminate. }
        rewrite Hc. change (has_T date_pattern) with false. cbv iota. rewrite E. reflexivity.
    + rewrite slast_app by discriminate. cbn [slast]. change (Ascii.eqb "Z" "Z") with true. cbv iota. unfold datetime_utc_inst.
      rewrite sbutlast_snoc, E. reflexivity.
Qed.
Lemma load_time_iff s t : load_time s = Ok t <-> exists a, says_clock a t /\ (s = a \/ s = a ++ "Z").
Proof.
  unfold load_time, get_datetime_inst. split.
  - destruct (slast s) as [c|] eqn:El; [|discriminate]. destruct (Ascii.eqb_spec c "Z") as [->|Hc].
    + unfold datetime_utc_inst. destruct (strptime (sbutlast s) time_pattern) as [[d' t']|] eqn:Es; [|discriminate]. cbn [rbind fst snd dt_time].
      intros [= <-]. apply strptime_time in Es. apply last_split in El. eauto.
    + change (has_T time_pattern) with false. cbv iota. destruct (strptime s time_pattern) as [[d' t']|] eqn:Es; [|discriminate]. cbn [rbind fst snd dt_time].
      intros [= <-]. apply strptime_time in Es. eauto.
  - intros (a & Ha & Hs).
    assert (E : strptime a time_pattern = Ok (date0, t)).
    { unfold strptime. destruct (parse_time_back fields0 a t "" Ha I) as (l & E). rewrite sapp_nil_r in E. rewrite E.
      cbn [f_Y f_m f_d f_H f_M f_S f_f setS setM setH fields0]. pose proof (clock_us a t Ha) as Hu. apply clock_real in Ha.
      apply real_time_ok in Ha. destruct t as [h m sec us]. cbn [t_us t_hour t_min t_sec] in *. subst us. rewrite Ha. reflexivity. }
    destruct Hs as [-> | ->].
    + destruct (slast_some a (clock_nonempty a t Ha)) as (c & El). rewrite El.
      assert (Hc : Ascii.eqb c "Z" = false).
        { destruct (Ascii.eqb_spec c "Z") as [->|]; [|reflexivity]. exfalso. apply last_split in El.
          pose proof (clock_free "Z" a t Ha eq_refl ltac:(discriminate)) as HF. rewrite El, smem_app, smem_cons, Ascii.eqb_refl, Bool.orb_true_r in HF. discriminate. }
        rewrite Hc. change (has_T time_pattern) with false. cbv iota. rewrite E. reflexivity.
    + rewrite slast_app by discriminate. cbn [slast]. change (Ascii.eqb "Z" "Z") with true. cbv iota. unfold datetime_utc_inst.
      rewrite sbutlast_snoc, E. reflexivity.
Qed.
