(** * Casts: truncation, literals, nearest doubles *)
From Coq Require Import Lia.
From Verif Require Import CastSpec PyBaseFacts DatetimeProofs LeafProofs LeafLaws.
Local Open Scope Z_scope.
Local Open Scope string_scope.

(** ** int(float) *)
Lemma int_of_float_truncates x z : int_of_float x = Ok z -> truncates x z.
Proof.
  destruct x as [m e| | |]; cbn [int_of_float truncates]; try discriminate.
  - intros H. injection H as <-. destruct (Z.leb_spec 0 e) as [He|He].
    + rewrite (Z.max_r 0 e), (Z.max_l 0 (- e)) by lia. change (2 ^ 0) with 1. split; [lia|nia].
    + rewrite (Z.max_l 0 e), (Z.max_r 0 (- e)) by lia. change (2 ^ 0) with 1. rewrite Z.mul_1_r.
      assert (Hd : 0 < 2 ^ (- e)) by (apply Z.pow_pos_nonneg; lia). set (d := 2 ^ (- e)) in *. clearbody d.
      pose proof (Z.quot_rem m d ltac:(lia)) as Hq. pose proof (Z.rem_bound_abs m d ltac:(lia)) as Hr.
      rewrite (Z.abs_eq d) in Hr by lia.
      assert (Hs : 0 <= Z.rem m d * m) by (apply Z.rem_sign_mul; lia).
      assert (Hp : 0 <= Z.quot m d * m).
      { destruct (Z.le_ge_cases 0 m) as [Hm|Hm].
        - pose proof (Z.quot_pos m d Hm Hd). nia.
        - pose proof (Z.quot_pos (- m) d ltac:(lia) Hd) as H. rewrite Z.quot_opp_l in H by lia. nia. }
      split; [|exact Hp]. set (q := Z.quot m d) in *. set (r := Z.rem m d) in *. clearbody q r.
      destruct (Z.lt_trichotomy m 0) as [Hm|[Hm|Hm]].
      * assert (q <= 0) by nia. assert (r <= 0) by nia. rewrite (Z.abs_neq q), (Z.abs_neq m) by lia. nia.
      * subst m. assert (-1 < q) by nia. assert (q < 1) by nia. replace q with 0 by lia. change (Z.abs 0) with 0. lia.
      * assert (0 <= q) by nia. assert (0 <= r) by nia. rewrite (Z.abs_eq q), (Z.abs_eq m) by lia. nia.
  - intros H. now injection H as <-.
Qed.
Lemma int_of_float_fails x e : int_of_float x = Err e -> forall z, ~ truncates x z.
Proof. destruct x; cbn [int_of_float truncates]; try discriminate; auto. Qed.

(** ** White space *)
Lemma srev_app_srev s a : srev_app s a = srev s ++ a.
Proof.
  revert a. induction s as [|x s IH]; intros a; [reflexivity|]. unfold srev. cbn [srev_app].
  rewrite IH, (IH (String x "")), sapp_assoc. reflexivity.
Qed.
Lemma srev_sapp a b : srev (a ++ b) = srev b ++ srev a.
Proof.
  induction a as [|x a IH]; [symmetry; apply sapp_nil_r|]. cbn [append]. rewrite !srev_cons, IH, sapp_assoc. reflexivity.
Qed.
Lemma slstrip_split p s : exists a, s = a ++ slstrip p s /\ sforall p a = true.
Proof.
  induction s as [|c s [a [H1 H2]]]; [exists ""; auto|]. cbn [slstrip]. destruct (p c) eqn:Ep; [|exists ""; auto].
  exists (String c a). cbn [append sforall]. rewrite <- H1, Ep. auto.
Qed.
Lemma slstrip_blank p a s : sforall p a = true -> slstrip p (a ++ s) = slstrip p s.
Proof.
  induction a as [|c a IH]; [reflexivity|]. cbn [append sforall slstrip]. destruct (p c); [exact IH|discriminate].
Qed.
Lemma sstrip_split p s : exists a b, s = a ++ sstrip p s ++ b /\ sforall p a = true /\ sforall p b = true.
Proof.
  destruct (slstrip_split p s) as (a & Ha & Hb). unfold sstrip, srstrip.
  destruct (slstrip_split p (srev (slstrip p s))) as (b & Hc & Hd). exists a, (srev b).
  split; [|split; [exact Hb|now rewrite srev_forall]]. rewrite <- srev_sapp, <- Hc, srev_srev. exact Ha.
Qed.
Lemma sforall_head p c s : sforall p (String c s) = true -> p c = true.
Proof. cbn [sforall]. destruct (p c); [reflexivity|discriminate]. Qed.
Lemma sstrip_blank p a s b : sforall p a = true -> sforall p b = true -> sforall (fun c => negb (p c)) s = true ->
  sstrip p (a ++ s ++ b) = s.
Proof.
  intros Ha Hb Hs. unfold sstrip. rewrite slstrip_blank by exact Ha. unfold srstrip.
  destruct s as [|c s].
  - cbn [append]. assert (Hn : slstrip p b = "").
    { clear - Hb. induction b as [|c b IH]; [reflexivity|]. cbn [sforall slstrip] in *. destruct (p c); [auto|discriminate]. }
    now rewrite Hn.
  - assert (Hc : p c = false) by (apply sforall_head in Hs; now apply negb_true_iff in Hs).
    assert (Hl : slstrip p (String c s ++ b) = String c s ++ b) by (cbn [append slstrip]; now rewrite Hc).
    rewrite Hl, srev_sapp, slstrip_blank by now rewrite srev_forall.
    rewrite slstrip_none by now rewrite srev_forall. apply srev_srev.
Qed.

Lemma blank_space s : blank s <-> sforall is_space s = true.
Proof.
  assert (Hc : forall c, In (nat_of_ascii c) spaces <-> is_space c = true).
  { intros c. unfold is_space, code, spaces. rewrite orb_true_iff, !andb_true_iff, !Nat.leb_le. cbn [In]. lia. }
  unfold blank, smem. induction s as [|c s IH]; [split; [reflexivity|discriminate]|].
  assert (Hx : forall x, sexists (fun y => Ascii.eqb y x) (String c s) = Ascii.eqb c x || sexists (fun y => Ascii.eqb y x) s).
  { intros x. unfold sexists. cbn [sforall]. now destruct (Ascii.eqb c x). }
  cbn [sforall]. split.
  - intros H. assert (Hs : is_space c = true) by (apply Hc, H; now rewrite Hx, Ascii.eqb_refl). rewrite Hs. apply IH.
    intros x H1. apply H. rewrite Hx, H1. now destruct (Ascii.eqb c x).
  - destruct (is_space c) eqn:Ec; [|discriminate]. intros H x. rewrite Hx. destruct (Ascii.eqb_spec c x) as [<-|]; [intros _; now apply Hc|].
    now apply IH.
Qed.

(** ** int(str) *)
Lemma digit_is_iff c d : digit_is c d <-> is_digit c = true /\ digit_val c = d.
Proof.
  unfold digit_is, is_digit, digit_val, code. rewrite andb_true_iff, !Nat.leb_le. lia.
Qed.
Lemma int_digits_app s : forall t acc b n, int_digits acc b s = Some n -> int_digits acc b (s ++ t) = int_digits n true t.
Proof.
  induction s as [|c s IH]; intros t acc b n; cbn [int_digits append].
  - destruct b; [|discriminate]. intros H. now injection H as ->.
  - destruct (is_digit c); [apply IH|]. destruct (Ascii.eqb c "_"%char && b); [apply IH|discriminate].
Qed.
Lemma decimals_int s n : decimals s n -> int_digits 0 false s = Some n.
Proof.
  induction 1 as [c d H|s n c d _ IH H|s n c d _ IH H]; apply digit_is_iff in H as [Hd Hv].
  - cbn [int_digits]. rewrite Hd, Hv. f_equal; lia.
  - rewrite (int_digits_app _ _ _ _ _ IH). cbn [int_digits]. rewrite Hd, Hv. f_equal; lia.
  - rewrite (int_digits_app _ _ _ _ _ IH). cbn [int_digits append]. rewrite Hd, Hv.
    change (is_digit "_") with false. change (Ascii.eqb "_" "_" && true) with true. cbn iota. f_equal; lia.
Qed.
(** What has been read so far *)
Definition read_part (p : string) (acc : Z) (b : bool) : Prop :=
  if b then decimals p acc else (p = "" /\ acc = 0) \/ exists q, p = q ++ "_" /\ decimals q acc.
Lemma int_decimals s : forall p acc b n, read_part p acc b -> int_digits acc b s = Some n -> decimals (p ++ s) n.
Proof.
  induction s as [|c s IH]; intros p acc b n Hp; cbn [int_digits].
  - destruct b; [|discriminate]. intros H. injection H as <-. now rewrite sapp_nil_r.
  - destruct (is_digit c) eqn:Hd.
    + intros H. replace (p ++ String c s) with ((p ++ String c "") ++ s) by now rewrite sapp_assoc.
      revert H. apply IH. cbn [read_part]. assert (Hc : digit_is c (digit_val c)) by now apply digit_is_iff.
      replace (acc * 10 + digit_val c) with (10 * acc + digit_val c) by lia.
      destruct b; cbn [read_part] in Hp.
      * now constructor.
      * destruct Hp as [[-> ->]|(q & -> & Hq)]; [now constructor|]. rewrite sapp_assoc. now constructor.
    + destruct b; [|now rewrite andb_false_r]. rewrite andb_true_r. destruct (Ascii.eqb_spec c "_"%char) as [->|]; [|discriminate].
      intros H. replace (p ++ String "_" s) with ((p ++ "_") ++ s) by now rewrite sapp_assoc.
      revert H. apply IH. cbn [read_part] in *. right. eauto.
Qed.
Lemma int_digits_iff s n : int_digits 0 false s = Some n <-> decimals s n.
Proof.
  split; [|apply decimals_int]. intros H. apply (int_decimals s "" 0 false n); [now left|exact H].
Qed.
Definition dchar (c : ascii) : bool := is_digit c || Ascii.eqb c "_".
Lemma decimals_chars s n : decimals s n -> sforall dchar s = true /\ s <> "" /\ 0 <= n.
Proof.
  assert (Hc : forall c d, digit_is c d -> dchar c = true).
  { intros c d H. apply digit_is_iff in H as [H _]. unfold dchar. now rewrite H. }
  induction 1 as [c d H|s n c d _ (I1 & I2 & I3) H|s n c d _ (I1 & I2 & I3) H]; pose proof (Hc _ _ H) as Hx; destruct H as [Hr _].
  - cbn [sforall]. rewrite Hx. repeat split; [discriminate|lia].
  - rewrite sforall_app, I1. cbn [sforall]. rewrite Hx. repeat split; [|lia]. destruct s; discriminate.
  - rewrite !sforall_app, I1. cbn [sforall]. rewrite Hx. repeat split; [|lia]. destruct s; discriminate.
Qed.
Lemma dchar_not c : dchar c = true -> is_space c = false /\ c <> "-"%char /\ c <> "+"%char.
Proof. destruct c as [[|] [|] [|] [|] [|] [|] [|] [|]]; vm_compute; intros H; try discriminate H; repeat split; discriminate. Qed.
Lemma py_int_iff s z : py_int s = Some z <-> int_literal s z.
Proof.
  unfold py_int, int_literal. split.
  - destruct (sstrip_split is_space s) as (a & b & Hs & Ha & Hb). destruct (sstrip is_space s) as [|c r]; [discriminate|].
    destruct (Ascii.eqb_spec c "-"%char) as [->|Hm]; [|destruct (Ascii.eqb_spec c "+"%char) as [->|Hp]].
    + destruct (int_digits 0 false r) as [n|] eqn:Hn; [|discriminate]. intros H. injection H as <-.
      apply blank_space in Ha, Hb. exists a, "-", r, b, n. apply int_digits_iff in Hn. repeat split; auto.
    + intros Hn. apply blank_space in Ha, Hb. exists a, "+", r, b, z. apply int_digits_iff in Hn. repeat split; auto.
    + intros Hn. apply blank_space in Ha, Hb. exists a, "", (String c r), b, z. apply int_digits_iff in Hn. repeat split; auto.
  - intros (a & sign & ds & b & n & -> & Ha & Hb & Hd & Hz). pose proof (decimals_chars _ _ Hd) as (Hc & Hne & _).
    apply int_digits_iff in Hd.
    assert (Hf : sforall (fun c => negb (is_space c)) ds = true).
    { clear - Hc. induction ds as [|c ds IH]; [reflexivity|]. cbn [sforall] in *. destruct (dchar c) eqn:Ec; [|discriminate].
      apply dchar_not in Ec as [-> _]. cbn. auto. }
    assert (Hst : sforall (fun c => negb (is_space c)) (sign ++ ds) = true).
    { rewrite sforall_app, Hf. destruct Hz as [[[-> | ->] _]|[-> _]]; reflexivity. }
    replace (a ++ sign ++ ds ++ b) with (a ++ (sign ++ ds) ++ b) by now rewrite !sapp_assoc.
    apply blank_space in Ha, Hb. rewrite (sstrip_blank is_space a _ b Ha Hb Hst).
    destruct Hz as [[[-> | ->] ->]|[-> ->]].
    + destruct ds as [|c ds]; [congruence|]. cbn [append]. apply sforall_head, dchar_not in Hc as (_ & H1 & H2).
      destruct (Ascii.eqb_spec c "-"%char); [congruence|]. destruct (Ascii.eqb_spec c "+"%char); [congruence|]. exact Hd.
    + cbn. exact Hd.
    + cbn. now rewrite Hd.
Qed.

(** ** str(int) *)
Lemma digits_go_acc fuel : forall z acc, digits_go fuel z acc = (digits_go fuel z "" ++ acc)%string.
Proof.
  induction fuel as [|n IH]; intros z acc; [reflexivity|]. cbn [digits_go]. destruct (z <? 10)%Z; [reflexivity|].
  rewrite (IH _ (String _ acc)), (IH _ (String _ "")), sapp_assoc. reflexivity.
Qed.
Lemma digit_char_is d : 0 <= d < 10 -> digit_is (digit_char d) d.
Proof. intros H. apply digit_is_iff. split; [apply digit_char_digit|apply digit_val_char]; lia. Qed.
Lemma digit_not_under d : 0 <= d < 10 -> smem "_" (String (digit_char d) "") = false.
Proof.
  intros H. assert (Hd : is_digit (digit_char d) = true) by (apply digit_char_digit; lia).
  unfold smem, sexists. cbn [sforall]. destruct (Ascii.eqb_spec (digit_char d) "_"%char) as [E1|]; [|reflexivity]. rewrite E1 in Hd. discriminate.
Qed.
Lemma smem_sapp c a b : smem c (a ++ b) = smem c a || smem c b.
Proof.
  unfold smem, sexists. now rewrite sforall_app, negb_andb.
Qed.
Lemma digits_go_decimals fuel : forall z, 0 <= z -> z < 10 ^ Z.of_nat fuel -> (0 < fuel)%nat ->
  decimals (digits_go fuel z "") z /\ smem "_" (digits_go fuel z "") = false /\
  (forall r, digits_go fuel z "" = String "0" r -> r = "" /\ z = 0).
Proof.
  induction fuel as [|n IH]; intros z H0 Hz Hf; [lia|]. cbn [digits_go]. destruct (Z.ltb_spec z 10) as [Hl|Hl].
  - repeat split.
    + constructor. apply digit_char_is. lia.
    + apply digit_not_under. lia.
    + now injection H as _ <-.
    + injection H as H _. rewrite <- (digit_val_char z) by lia. rewrite H. reflexivity.
  - rewrite Nat2Z.inj_succ, Z.pow_succ_r in Hz by lia. assert (Hd : 0 < z / 10) by (apply Z.div_str_pos; lia).
    assert (Hq : z / 10 < 10 ^ Z.of_nat n) by (apply Z.div_lt_upper_bound; lia).
    assert (Hn : (0 < n)%nat) by (destruct n; [change (10 ^ Z.of_nat 0) with 1 in Hq; lia|lia]).
    destruct (IH (z / 10) ltac:(lia) Hq Hn) as (D & U & F). pose proof (Z.mod_pos_bound z 10 ltac:(lia)) as Hm.
    rewrite digits_go_acc. pose proof (Z.div_mod z 10 ltac:(lia)) as Hdm.
    assert (Hcs : exists c r, digits_go n (z / 10) "" = String c r /\ c <> "0"%char).
    { destruct (digits_go n (z / 10) "") as [|c r]; [inversion D as [|s ? ? ? Hs _ E0|s ? ? ? Hs _ E0]; destruct s; discriminate|].
      exists c, r. split; [reflexivity|]. intros ->. destruct (F r eq_refl). lia. }
    split; [|split].
    + rewrite Hdm at 3. constructor; [exact D|]. apply digit_char_is. lia.
    + rewrite smem_sapp, U, digit_not_under by lia. reflexivity.
    + intros r. destruct Hcs as (c & s & -> & Hc). cbn [append]. congruence.
Qed.
Lemma str_nonneg_decimals z : 0 <= z -> decimals (str_nonneg z) z /\ smem "_" (str_nonneg z) = false /\
  (forall r, str_nonneg z = String "0" r -> r = "").
Proof.
  intros H. unfold str_nonneg. destruct (digits_go_decimals (S (Z.to_nat (Z.log2 z))) z H) as (A & B & C); [|lia|].
  - destruct (Z.eq_dec z 0) as [->|Hn]; [reflexivity|].
    assert (Hl : z < 2 ^ Z.succ (Z.log2 z)) by (apply Z.log2_spec; lia).
    pose proof (Z.log2_nonneg z). rewrite Nat2Z.inj_succ, Z2Nat.id by lia.
    eapply Z.lt_le_trans; [exact Hl|]. apply Z.pow_le_mono_l. lia.
  - split; [exact A|]. split; [exact B|]. intros r Hr. now destruct (C r Hr).
Qed.
Lemma str_int_decimal z : decimal_text (str_int z) z.
Proof.
  unfold str_int, decimal_text. destruct (Z.ltb_spec z 0) as [Hz|Hz].
  - destruct (str_nonneg_decimals (- z) ltac:(lia)) as (A & B & C). exists (str_nonneg (- z)), (- z).
    repeat split; auto. right. repeat split; lia.
  - destruct (str_nonneg_decimals z ltac:(lia)) as (A & B & C). exists (str_nonneg z), z. repeat split; auto.
Qed.
Lemma decimal_literal s z : decimal_text s z -> int_literal s z.
Proof.
  intros (ds & n & H & _ & _ & [[-> ->]|(-> & -> & _)]).
  - exists "", "", ds, "", n. repeat split; auto; try discriminate. cbn [append]. now rewrite sapp_nil_r.
  - exists "", "-", ds, "", n. repeat split; auto; try discriminate. cbn [append]. now rewrite sapp_nil_r.
Qed.

(** ** float(int) *)
Local Close Scope string_scope.
Lemma rhe_tie n d : 0 < d -> 2 * Z.abs (rhe n d * d - n) = d -> Z.even (rhe n d) = true.
Proof.
  intros Hd. unfold rhe. cbv zeta. pose proof (Z.div_mod n d ltac:(lia)) as H. pose proof (Z.mod_pos_bound n d Hd) as Hm.
  set (q := n / d) in *. set (r := n mod d) in *.
  destruct (Z.ltb_spec (2 * r) d); [lia|]. destruct (Z.ltb_spec d (2 * r)); [lia|]. destruct (Z.even q) eqn:Hq; [auto|].
  intros _. rewrite Z.add_1_r, Z.even_succ, <- Z.negb_even, Hq. reflexivity.
Qed.
Lemma rhe_exact n : rhe n 1 = n.
Proof. apply rhe_unique; lia. Qed.
(** Among the multiples of d, none is nearer to n. *)
Lemma rhe_best n d c : 0 < d ->
  Z.abs (rhe n d * d - n) <= Z.abs (c * d - n) /\
  (Z.abs (rhe n d * d - n) = Z.abs (c * d - n) -> c <> rhe n d -> Z.even (rhe n d) = true).
Proof.
  intros Hd. pose proof (rhe_near n d Hd) as Hn. pose proof (rhe_tie n d Hd) as Ht. set (y := rhe n d) in *. clearbody y.
  destruct (Z.eq_dec c y) as [->|Hc]; [split; [lia|congruence]|].
  assert (Hy : d <= Z.abs (c * d - y * d)) by (replace (c * d - y * d) with ((c - y) * d) by ring; rewrite Z.abs_mul; nia).
  split; [lia|]. intros He _. apply Ht. lia.
Qed.
Lemma twos_odd p : let '(o, _) := twos p in Z.odd (Zpos o) = true.
Proof. induction p as [p _|p IH|]; cbn [twos]; try reflexivity. destruct (twos p). exact IH. Qed.
Lemma mkfloat_odd M e : M <> 0 -> exists m j, 0 <= j /\ M = m * 2 ^ j /\ mkfloat M e = FFin m (e + j) /\ Z.odd m = true.
Proof.
  intros HM. destruct M as [|p|p]; [congruence| |]; cbn [mkfloat]; pose proof (twos_spec p) as H; pose proof (twos_odd p) as Ho;
  destruct (twos p) as [o k]; destruct H as [H1 H2].
  - exists (Zpos o), k. auto.
  - exists (Zneg o), k. split; [exact H1|]. split; [|split; [reflexivity|exact Ho]].
    change (Zneg p) with (- Zpos p). change (Zneg o) with (- Zpos o). rewrite H2. ring.
Qed.
Lemma fl_exp_one n : 0 < n -> fl_exp n 1 = Z.log2 n - 52.
Proof.
  intros Hn. unfold fl_exp. cbv zeta. change (Z.log2 1) with 0. rewrite Z.sub_0_r, Z.mul_1_l.
  pose proof (Z.log2_spec n Hn) as [H1 H2]. pose proof (Z.log2_nonneg n) as H0. set (L := Z.log2 n) in *. clearbody L.
  destruct (Z.le_ge_cases (L - 53) 0) as [Hl|Hl].
  - rewrite (Z.max_r 0 (- (L - 53))), (Z.max_l 0 (L - 53)) by lia. change (2 ^ 0) with 1. rewrite Z.mul_1_r.
    destruct (Z.ltb_spec (n * 2 ^ (- (L - 53))) (2 ^ 53)) as [H|H]; [|lia]. exfalso.
    assert (2 ^ L * 2 ^ (- (L - 53)) <= n * 2 ^ (- (L - 53))) by (apply Z.mul_le_mono_nonneg_r; [apply Z.pow_nonneg; lia|exact H1]).
    rewrite <- Z.pow_add_r in H3 by lia. replace (L + - (L - 53)) with 53 in H3 by lia. lia.
  - rewrite (Z.max_l 0 (- (L - 53))), (Z.max_r 0 (L - 53)) by lia. change (2 ^ 0) with 1. rewrite Z.mul_1_r, <- Z.pow_add_r by lia.
    replace (53 + (L - 53)) with L by lia. destruct (Z.ltb_spec n (2 ^ L)); lia.
Qed.
Section Nearest.
  Variables (n L e M : Z).
  Hypotheses (Hn : 0 < n) (HL0 : 0 <= L) (HL : 2 ^ L <= n < 2 ^ (L + 1)) (He : e = L - 52)
    (HM : M = rhe (n * 2 ^ Z.max 0 (- e)) (2 ^ Z.max 0 e)).
  Lemma small_exact : e <= 0 -> M = n * 2 ^ (- e).
  Proof. intros H. rewrite HM, (Z.max_r 0 (- e)), (Z.max_l 0 e) by lia. apply rhe_exact. Qed.
  Lemma large_round : 0 < e -> M = rhe n (2 ^ e).
  Proof. intros H. rewrite HM, (Z.max_l 0 (- e)), (Z.max_r 0 e) by lia. now rewrite Z.mul_1_r. Qed.
  Lemma mant_range : 2 ^ 52 <= M <= 2 ^ 53.
  Proof.
    destruct (Z.le_gt_cases e 0) as [H|H].
    - rewrite small_exact by exact H. destruct HL as [H1 H2].
      assert (HP : 0 < 2 ^ (- e)) by (apply Z.pow_pos_nonneg; lia).
      assert (E1 : 2 ^ L * 2 ^ (- e) = 2 ^ 52) by (rewrite <- Z.pow_add_r by lia; f_equal; lia).
      assert (E2 : 2 ^ (L + 1) * 2 ^ (- e) = 2 ^ 53) by (rewrite <- Z.pow_add_r by lia; f_equal; lia).
      rewrite <- E1, <- E2. split; nia.
    - rewrite large_round by exact H. destruct HL as [H1 H2].
      assert (HP : 0 < 2 ^ e) by (apply Z.pow_pos_nonneg; lia).
      assert (E1 : 2 ^ L = 2 ^ 52 * 2 ^ e) by (rewrite <- Z.pow_add_r by lia; f_equal; lia).
      assert (E2 : 2 ^ (L + 1) = 2 ^ 53 * 2 ^ e) by (rewrite <- Z.pow_add_r by lia; f_equal; lia).
      pose proof (rhe_near n (2 ^ e) HP) as Hr. rewrite E1, E2 in *. set (D := 2 ^ e) in *. clearbody D.
      set (y := rhe n D) in *. clearbody y. set (A := 2 ^ 52) in *. set (B := 2 ^ 53) in *. clearbody A B. split; nia.
  Qed.
  (** The multiples of 2^e nearer to zero, and those with fewer bits *)
  Lemma near_double y k m' e' : 0 <= k -> 0 < e -> 0 <= e' + k -> Z.abs m' < 2 ^ 53 -> y = m' * 2 ^ (e' + k) ->
    Z.abs (M * 2 ^ (e + k) - n * 2 ^ k) <= Z.abs (y - n * 2 ^ k) /\
    (Z.abs (M * 2 ^ (e + k) - n * 2 ^ k) = Z.abs (y - n * 2 ^ k) -> M * 2 ^ (e + k) <> y -> Z.even M = true).
  Proof.
    intros Hk Hpos Hk' Hm ->. pose proof (large_round Hpos) as HM'. rewrite Z.pow_add_r by lia.
    assert (HP : 0 < 2 ^ k) by (apply Z.pow_pos_nonneg; lia). assert (HD : 0 < 2 ^ e) by (apply Z.pow_pos_nonneg; lia).
    assert (Hlow : 2 ^ 52 * 2 ^ e <= n) by (rewrite <- Z.pow_add_r by lia; replace (52 + e) with L by lia; lia).
    destruct (Z.le_gt_cases e e') as [Hle|Hgt].
    - replace (e' + k) with ((e' - e) + e + k) by lia. rewrite !Z.pow_add_r by lia.
      set (c := m' * 2 ^ (e' - e)). destruct (rhe_best n (2 ^ e) c HD) as [B1 B2]. rewrite <- HM' in *.
      set (D := 2 ^ e) in *. set (P := 2 ^ k) in *. replace (m' * (2 ^ (e' - e) * D * P)) with (c * D * P) by (unfold c; ring).
      clearbody c D P. rewrite !Z.mul_assoc, <- !Z.mul_sub_distr_r, !Z.abs_mul, (Z.abs_eq P) by lia. split; [nia|].
      intros E1 E2. apply B2; [nia|]. intros ->. apply E2. ring.
    - assert (Hy : Z.abs (m' * 2 ^ (e' + k)) < 2 ^ 52 * 2 ^ e * 2 ^ k).
      { rewrite Z.abs_mul, (Z.abs_eq (2 ^ (e' + k))) by (apply Z.pow_nonneg; lia).
        apply Z.lt_le_trans with (2 ^ 53 * 2 ^ (e' + k)).
        - apply Z.mul_lt_mono_pos_r; [apply Z.pow_pos_nonneg; lia|exact Hm].
        - rewrite <- !Z.pow_add_r by lia. apply Z.pow_le_mono_r; lia. }
      set (y := m' * 2 ^ (e' + k)) in *. clearbody y. destruct (rhe_best n (2 ^ e) (2 ^ 52) HD) as [B1 _]. rewrite <- HM' in B1.
      set (D := 2 ^ e) in *. set (P := 2 ^ k) in *. set (A := 2 ^ 52) in *. clearbody D P A.
      assert (Hs : Z.abs (M * (D * P) - n * P) < Z.abs (y - n * P)).
      { replace (M * (D * P) - n * P) with ((M * D - n) * P) by ring. rewrite Z.abs_mul, (Z.abs_eq P) by lia.
        apply Z.le_lt_trans with ((n - A * D) * P); [apply Z.mul_le_mono_nonneg_r; lia|]. nia. }
      split; [lia|]. intros E1. lia.
  Qed.
End Nearest.
Lemma sgn_abs z : Z.sgn z * Z.abs z = z.
Proof. rewrite Z.mul_comm. apply Z.abs_sgn. Qed.
Lemma float_of_int_nearest z x : float_of_int z = Ok x -> Z.abs z < double_bound /\ exists m e, x = FFin m e /\ nearest_double z m e.
Proof.
  unfold float_of_int. fold double_bound. destruct (Z.ltb_spec (Z.abs z) double_bound) as [Hb|]; [|discriminate].
  intros H. injection H as <-. split; [exact Hb|]. unfold fl_div. cbv zeta. destruct (Z.eqb_spec (Z.abs z) 0) as [H0|H0].
  - assert (z = 0) as -> by lia. exists 0, 0. split; [reflexivity|]. split; [unfold is_double; cbn; lia|].
    intros m' e' k _ Hk _ _. cbv zeta. rewrite !Z.mul_0_l, Z.sub_diag. split; [cbn; lia|]. intros E1 E2. exfalso. apply E2. cbn in E1. lia.
  - set (n := Z.abs z) in *. assert (Hn : 0 < n) by lia. rewrite fl_exp_one by exact Hn.
    pose proof (Z.log2_spec n Hn) as HL. rewrite <- Z.add_1_r in HL. pose proof (Z.log2_nonneg n) as HL0.
    set (L := Z.log2 n) in *. clearbody L. unfold fl_mant. rewrite Z.mul_1_l.
    set (e := L - 52). set (M := rhe _ _).
    pose proof (mant_range n L e M Hn HL0 HL eq_refl eq_refl) as HM.
    set (s := Z.sgn z). assert (Hs : s = 1 \/ s = -1) by (unfold s; destruct (Z.sgn_spec z) as [[? ->]|[[? ->]|[? ->]]]; lia).
    assert (Hzs : z = s * n) by (symmetry; apply sgn_abs).
    destruct (mkfloat_odd (s * M) e ltac:(destruct Hs as [-> | ->]; lia)) as (m & j & Hj & Hm & -> & Ho).
    exists m, (e + j). split; [reflexivity|].
    assert (Habs : Z.abs m * 2 ^ j = M).
    { rewrite <- (Z.abs_eq (2 ^ j)) by (apply Z.pow_nonneg; lia). rewrite <- Z.abs_mul, <- Hm. destruct Hs as [-> | ->]; lia. }
    assert (Hj1 : 1 <= 2 ^ j) by (assert (0 < 2 ^ j) by (apply Z.pow_pos_nonneg; lia); lia).
    assert (Hm53 : Z.abs m < 2 ^ 53).
    { destruct (Z.eq_dec (Z.abs m) (2 ^ 53)) as [E1|E1].
      - exfalso. assert (Z.odd (Z.abs m) = true) by (destruct m; exact Ho). rewrite E1 in H. discriminate H.
      - assert (Z.abs m <= Z.abs m * 2 ^ j) by nia. lia. }
    split.
    + split; [exact Hm53|]. split; [unfold e; lia|].
      destruct (Z.lt_ge_cases (e + j) 0) as [Hneg|Hneg].
      { rewrite Z.pow_neg_r by exact Hneg. rewrite Z.mul_0_r. apply Z.pow_pos_nonneg; lia. }
      destruct (Z.lt_ge_cases e 0) as [He|He].
      { (* exact *) apply Z.lt_trans with (2 ^ 105); [|apply Z.pow_lt_mono_r; lia].
        apply Z.lt_le_trans with (2 ^ 53 * 2 ^ (e + j)); [apply Z.mul_lt_mono_pos_r; [apply Z.pow_pos_nonneg; lia|exact Hm53]|].
        assert (Hjb : j <= 53).
        { destruct (Z.le_gt_cases j 53) as [|Hc]; [assumption|]. exfalso.
          assert (2 ^ 54 <= 2 ^ j) by (apply Z.pow_le_mono_r; lia). assert (1 <= Z.abs m) by (destruct m; [discriminate Ho|lia|lia]).
          assert (2 ^ j <= M) by (rewrite <- Habs; nia). assert (2 ^ 54 = 2 * 2 ^ 53) by reflexivity. lia. }
        rewrite <- Z.pow_add_r by lia. apply Z.pow_le_mono_r; lia. }
      rewrite (Z.add_comm e j), Z.pow_add_r, Z.mul_assoc, Habs by lia.
      destruct (Z.le_gt_cases L 1022) as [Hl|Hl].
      { apply Z.le_lt_trans with (2 ^ 53 * 2 ^ e); [apply Z.mul_le_mono_nonneg_r; [apply Z.pow_nonneg; lia|lia]|].
        rewrite <- Z.pow_add_r by lia. apply Z.pow_lt_mono_r; unfold e; lia. }
      assert (HL1 : L < 1024).
      { apply (Z.pow_lt_mono_r_iff 2); [lia|lia|]. unfold double_bound in Hb.
        assert (0 < 2 ^ 970) by (apply Z.pow_pos_nonneg; lia). lia. }
      assert (L = 1023) as -> by lia. assert (Hr : M = rhe n (2 ^ 971)) by (apply (large_round n 0 e M eq_refl); unfold e; lia).
      pose proof (rhe_near n (2 ^ 971) ltac:(apply Z.pow_pos_nonneg; lia)) as Hnr. rewrite <- Hr in Hnr.
      change e with 971. unfold double_bound in Hb.
      assert (X1 : 2 ^ 1024 = 2 ^ 53 * 2 ^ 971) by (rewrite <- Z.pow_add_r by lia; reflexivity).
      assert (X2 : 2 ^ 971 = 2 * 2 ^ 970) by (rewrite <- Z.pow_succ_r by lia; reflexivity).
      clear - Hnr Hb X1 X2 HM. rewrite X1 in *. rewrite X2 in *.
      assert (HQ : 0 < 2 ^ 970) by (apply Z.pow_pos_nonneg; lia).
      set (Q := 2 ^ 970) in *. set (B := 2 ^ 53) in *. clearbody Q B n M.
      assert (M < B) by (apply Z.nle_gt; intros Hc; assert (B * (2 * Q) <= M * (2 * Q)) by nia; lia). nia.
    + intros m' e' k (Hd1 & Hd2 & _) Hk Hek Hek'. cbv zeta.
      assert (Hv : 0 <= e + k -> m * 2 ^ (e + j + k) = s * (M * 2 ^ (e + k))).
      { intros Hp. replace (e + j + k) with (j + (e + k)) by lia. rewrite Z.pow_add_r, !Z.mul_assoc, <- Hm by lia. reflexivity. }
      destruct (Z.le_gt_cases e 0) as [He|He].
      * (* exact *)
        assert (Hx : m * 2 ^ (e + j + k) = z * 2 ^ k).
        { assert (HP : 0 < 2 ^ (- e)) by (apply Z.pow_pos_nonneg; lia).
          apply (Z.mul_reg_r _ _ (2 ^ (- e))); [lia|]. rewrite <- !Z.mul_assoc, <- !Z.pow_add_r by lia.
          replace (e + j + k + - e) with (j + k) by lia. rewrite Z.pow_add_r, Z.mul_assoc, <- Hm by lia.
          pose proof (small_exact n L e M eq_refl He) as Hse. rewrite Hse, Hzs.
          rewrite (Z.add_comm k (- e)), Z.pow_add_r by lia. ring. }
        rewrite Hx, Z.sub_diag. change (Z.abs 0) with 0. split; [lia|]. intros E1 E2. exfalso. apply E2. lia.
      * rewrite Hv by lia. set (y := m' * 2 ^ (e' + k)).
        destruct (near_double n L e M Hn HL0 HL eq_refl eq_refl (s * y) k (s * m') e' Hk He Hek') as [N1 N2].
        { rewrite Z.abs_mul. destruct Hs as [-> | ->]; cbn [Z.abs]; lia. }
        { unfold y. ring. }
        assert (Hds : forall a, Z.abs (s * a - z * 2 ^ k) = Z.abs (a - n * 2 ^ k)).
        { intros a. rewrite Hzs. destruct Hs as [-> | ->]; lia. }
        assert (Hyy : Z.abs (y - z * 2 ^ k) = Z.abs (s * y - n * 2 ^ k)).
        { rewrite Hzs. destruct Hs as [-> | ->]; lia. }
        rewrite Hds, Hyy. split; [exact N1|]. intros E1 E2. exists (s * M), e. split; [lia|]. split; [ring|].
        split; [destruct Hs as [-> | ->]; lia|]. rewrite Z.even_mul.
        rewrite (N2 E1); [now rewrite orb_true_r|]. intros E3. apply E2. rewrite E3. destruct Hs as [-> | ->]; lia.
Qed.
