(** * Cut off and joined JSON texts: proofs *)
From Verif Require Import EngineFacts JsonTextProofs JsonTextLaws LayoutProofs LayoutLaws PositionProofs.
From Verif Require Export TruncSpec.
From Coq Require Import Lia.
Local Open Scope string_scope.
Local Open Scope list_scope.
Local Open Scope Z_scope.

(** ** Values that are no numbers end where they end *)
Lemma number_number T s v r : number T s = POk v r -> ~ no_number v.
Proof.
  unfold number. destruct (minus s) as [neg x]. destruct (natural_part x) as [[ds r1]|]; [|discriminate].
  destruct (fraction_part r1) as [fr r2]. destruct (exponent_part r2) as [ex r3].
  destruct fr, ex; intros H; injection H as <- _; cbn; tauto.
Qed.
Lemma scan_ends T t v : json_value T t v -> no_number v -> forall n rest, (length t < n)%nat -> scan T n (t ++ rest) = POk v rest.
Proof.
  intros Hv Hn. destruct (value_complete T t v Hv) as [(neg & d & f & e & -> & Hd & Hf & He)|K]; [|exact K]. exfalso.
  set (t := sign neg ++ d ++ f ++ e) in *.
  assert (Hs : scan T (S (length t)) (t ++ []) = POk v []) by (apply (scan_value T t v Hv); [repeat split|lia]).
  rewrite app_nil_r in Hs. unfold t in Hs at 2. rewrite number_scan in Hs by exact Hd. now apply number_number in Hs.
Qed.
Lemma prefix_no_document T p q v v' : json_document T (p ++ q) v -> no_number v -> ~ spaces q -> ~ json_document T p v'.
Proof.
  intros (w & t & w2 & Hw & Hw2 & He & Hv) Hn Hq (a & t1 & b & Ha & Hb & -> & Hv1).
  assert (K : t ++ w2 = t1 ++ b ++ q).
  { pose proof (f_equal skip He) as K. rewrite <- !app_assoc in K. rewrite (skip_spaces a), (skip_spaces w) in K by assumption.
    rewrite (skip_value T t1 v'), (skip_value T t v) in K by assumption. now symmetry. }
  set (n := S (length t + length t1)).
  assert (H1 : scan T n (t ++ w2) = POk v w2) by (apply scan_ends; auto; lia).
  destruct (value_complete T t1 v' Hv1) as [(neg & d & f & e & -> & Hd & Hf & Hx)|K1].
  - rewrite K, <- !app_assoc in H1. unfold n in H1. rewrite number_scan in H1 by exact Hd. now apply number_number in H1.
  - rewrite K, K1 in H1 by (unfold n; lia). injection H1 as _ <-. apply Forall_app in Hw2 as [_ Hw2]. contradiction.
Qed.
Lemma extra_wrong T s v c r : json_document T s v -> no_number v -> ~ space c -> wrong_document T (s ++ c :: r) (c :: r).
Proof.
  intros (w & t & w2 & Hw & Hw2 & -> & Hv) Hn Hc. rewrite <- !app_assoc. apply (wd_extra T w t v w2); auto; [|now apply begins].
  apply (scan_longest T (S (length t)) (t ++ w2 ++ c :: r) v); [|reflexivity]. apply scan_ends; auto.
Qed.

(** ** White space around a text *)
Lemma last_digit (ds : text) : ds <> [] -> Forall digit ds -> exists t c, ds = t ++ [c] /\ ~ space c.
Proof.
  intros Hn Hd. destruct (exists_last Hn) as (t & c & ->). exists t, c. split; [reflexivity|].
  apply Forall_app in Hd as [_ Hd]. inversion Hd as [|? ? Hc]. unfold digit in Hc. unfold space. lia.
Qed.
Definition ends_well (t : text) : Prop := exists t' c, t = t' ++ [c] /\ ~ space c.
Lemma ends_app a b : ends_well b -> ends_well (a ++ b).
Proof. intros (t & c & -> & Hc). exists (a ++ t), c. split; [now rewrite app_assoc|exact Hc]. Qed.
Lemma ends_natural t : natural t -> ends_well t.
Proof.
  intros [-> |(c & ds & -> & Hc & Hds)]; [exists [], 48; split; [reflexivity|unfold space; lia]|].
  apply last_digit; [discriminate|]. constructor; [unfold digit; lia|exact Hds].
Qed.
Lemma ends_fraction t : fraction t -> ends_well t.
Proof. intros (ds & -> & Hn & Hd). apply ends_app. now apply last_digit. Qed.
Lemma ends_exponent t : exponent t -> ends_well t.
Proof. intros (x & sg & ds & -> & _ & _ & Hn & Hd). apply ends_app, ends_app. now apply last_digit. Qed.
Lemma value_ends T t v : json_value T t v -> ends_well t.
Proof.
  intros H. destruct H as [| | | | | |neg t Ht|neg t f e Ht Hf He Hfe|t s Hs|w Hw|t l Hl|w Hw|t kvs Hl].
  - exists (codes "nul"), 108. split; [reflexivity|unfold space; lia].
  - exists (codes "tru"), 101. split; [reflexivity|unfold space; lia].
  - exists (codes "fals"), 101. split; [reflexivity|unfold space; lia].
  - exists (codes "Na"), 78. split; [reflexivity|unfold space; lia].
  - exists (codes "Infinit"), 121. split; [reflexivity|unfold space; lia].
  - exists (codes "-Infinit"), 121. split; [reflexivity|unfold space; lia].
  - now apply ends_app, ends_natural.
  - apply ends_app. destruct He as [-> |He]; [|now apply ends_app, ends_app, ends_exponent]. rewrite app_nil_r.
    destruct Hf as [-> |Hf]; [rewrite app_nil_r; now apply ends_natural|now apply ends_app, ends_fraction].
  - destruct Hs as [t us cs Hc Hp]. apply ends_app, ends_app. exists [], 34. split; [reflexivity|unfold space; lia].
  - apply ends_app, ends_app. exists [], 93. split; [reflexivity|unfold space; lia].
  - apply ends_app, ends_app. exists [], 93. split; [reflexivity|unfold space; lia].
  - apply ends_app, ends_app. exists [], 125. split; [reflexivity|unfold space; lia].
  - apply ends_app, ends_app. exists [], 125. split; [reflexivity|unfold space; lia].
Qed.
Lemma spaces_rev w : spaces w -> spaces (rev w).
Proof. intros H. apply Forall_rev, H. Qed.
Lemma document_lead T w s v : spaces w -> json_document T (w ++ s) v <-> json_document T s v.
Proof.
  intros Hw. split.
  - intros (a & t & b & Ha & Hb & He & Hv). pose proof (f_equal skip He) as K. rewrite (skip_spaces w), (skip_spaces a), (skip_value T t v) in K by assumption.
    destruct (skip_split s) as (x & Hx & Hs). exists x, t, b. rewrite <- K. auto.
  - intros (a & t & b & Ha & Hb & -> & Hv). exists (w ++ a), t, b. rewrite <- app_assoc. auto using spaces_app.
Qed.
Lemma document_trail T w s v : spaces w -> json_document T (s ++ w) v <-> json_document T s v.
Proof.
  intros Hw. split.
  - intros (a & t & b & Ha & Hb & He & Hv). pose proof (f_equal (fun x => skip (rev x)) He) as K. cbn beta in K.
    rewrite !rev_app_distr, (skip_spaces (rev w)) in K by (now apply spaces_rev).
    assert (Ht : skip ((rev t ++ rev a)) = rev t ++ rev a).
    { destruct (value_ends T t v Hv) as (t' & c & -> & Hc). rewrite rev_app_distr. cbn [rev app]. now apply skip_id. }
    rewrite <- app_assoc, skip_spaces, Ht in K by (now apply spaces_rev).
    destruct (skip_split (rev s)) as (x & Hx & Hs). rewrite K in Hs. apply (f_equal (@rev Z)) in Hs.
    rewrite rev_involutive, !rev_app_distr, !rev_involutive in Hs. exists a, t, (rev x). rewrite Hs, <- app_assoc. auto using spaces_rev.
  - intros (a & t & b & Ha & Hb & -> & Hv). exists a, t, (b ++ w). rewrite <- !app_assoc. auto using spaces_app.
Qed.
Lemma json_loads_spaces T w s w' : spaces w -> spaces w' -> json_loads T (w ++ s ++ w') = json_loads T s.
Proof.
  intros Hw Hw'. assert (K : forall v, json_document T (w ++ s ++ w') v <-> json_document T s v).
  { intros v. rewrite document_lead by exact Hw. now apply document_trail. }
  destruct (json_loads T s) as [v|] eqn:H; [apply json_loads_iff; apply K; now apply json_loads_iff|].
  destruct (json_loads T (w ++ s ++ w')) as [v|] eqn:H'; [|reflexivity]. apply json_loads_iff, K, json_loads_iff in H'. congruence.
Qed.

(** ** What dumps writes *)
Lemma arranged_no_number CT L T j j' : arranged CT L j j' -> no_number j -> no_number (json_image T CT j').
Proof. intros H Hn. destruct H; try exact I. destruct v; cbn in Hn |- *; try contradiction; auto. Qed.
Lemma dumps_with_value E T L f n o cls v s j : plain_layout L -> snd (dump E f n o cls v) = Done j -> floats_read_back T (e_ct E) j ->
  no_number j -> snd (dumps_with E T L f n o cls v) = Done s -> exists j', no_number j' /\ json_value T (codes s) j'.
Proof.
  intros HL Hd Hf Hn H. apply dumps_with_done in H as (j0 & Hd' & H). rewrite Hd in Hd'. injection Hd' as <-.
  destruct (json_text_value T (e_ct E) L HL j 0%nat s H Hf) as (j' & H1 & H2). exists (json_image T (e_ct E) j').
  split; [now apply (arranged_no_number _ _ _ _ _ H1)|exact H2].
Qed.
Lemma value_document T t v : json_value T t v -> json_document T t v.
Proof. intros H. exists [], t, []. rewrite app_nil_r. repeat split; try constructor. exact H. Qed.
Lemma value_cut T p q v : json_value T (p ++ q) v -> no_number v -> q <> [] -> forall v', ~ json_document T p v'.
Proof.
  intros Hv Hn Hq v'. apply (prefix_no_document T p q v); [now apply value_document|exact Hn|].
  intros Hs. destruct (exists_last Hq) as (q' & c & ->). destruct (value_ends T _ _ Hv) as (t & c' & Ht & Hc).
  rewrite app_assoc in Ht. apply app_inj_tail in Ht as [_ <-]. apply Forall_app in Hs as [_ Hs]. inversion Hs. contradiction.
Qed.
(** UTF-8 cut off *)
Lemma codes_scalar s : Forall scalar_value (codes s).
Proof. eapply Forall_impl; [|apply codes_range]. intros c Hc. cbv beta in Hc. unfold scalar_value. lia. Qed.
Lemma codes_length s : length (codes s) = String.length s.
Proof. induction s as [|c s IH]; [reflexivity|]. rewrite codes_cons. cbn [length String.length]. now rewrite IH. Qed.
Lemma decode_app s b : Forall scalar_value s -> utf8_decode (flat_map utf8 s ++ b) = option_map (app s) (utf8_decode b).
Proof.
  induction 1 as [|c s Hc _ IH]; cbn [flat_map app]; [now destruct (utf8_decode b)|].
  rewrite <- app_assoc, utf8_decode_char, IH by exact Hc. unfold cons_point. now destruct (utf8_decode b).
Qed.
Lemma decode_prefix s b b' p : Forall scalar_value s -> flat_map utf8 s = b ++ b' -> Forall (fun x => 0 <= x) b ->
  utf8_decode b = Some p -> b' <> [] -> exists q, s = p ++ q /\ q <> [].
Proof.
  intros Hs He Hb Hp Hn. apply utf8_decode_sound in Hp as [Hp1 Hp2]; [|exact Hb].
  pose proof (utf8_decode_complete s Hs) as Hd. rewrite He, Hp2, decode_app in Hd by exact Hp1.
  destruct (utf8_decode b') as [q|] eqn:Hq; [|discriminate]. cbn [option_map] in Hd. injection Hd as <-. exists q. split; [reflexivity|].
  intros ->. rewrite app_nil_r in He. rewrite <- Hp2 in He. apply Hn. rewrite <- (app_nil_r b) in He at 1. apply app_inv_head in He. now symmetry.
Qed.

(** ** Lines *)
Lemma codes_line_feed s : codes (s ++ line_feed)%string = codes s ++ [10].
Proof. rewrite codes_app. reflexivity. Qed.
Lemma concat_cons s l : String.concat "" (s :: l) = (s ++ String.concat "" l)%string.
Proof. destruct l as [|x l]; [|reflexivity]. cbn. clear. induction s as [|c s IH]; cbn; congruence. Qed.
Lemma line_split a b r r' : no_line_feed a -> no_line_feed b -> a ++ 10 :: r = b ++ 10 :: r' -> a = b /\ r = r'.
Proof.
  revert b. induction a as [|c a IH]; intros [|d b] Ha Hb H; cbn [app] in H.
  - injection H as ->. auto.
  - injection H as <- _. inversion Hb. contradiction.
  - injection H as -> _. inversion Ha. contradiction.
  - injection H as -> H. inversion Ha; inversion Hb; subst. destruct (IH b) as [-> ->]; auto.
Qed.
Lemma file_inj : forall ls ss, Forall a_line ls -> Forall a_line ss -> file_of ls = file_of ss -> ls = ss.
Proof.
  unfold file_of. induction ls as [|l ls IH]; intros [|s ss] Hl Hs H; [reflexivity| | |]; cbn [map] in H; rewrite ?concat_cons in H.
  - apply (f_equal codes) in H. rewrite !codes_app in H. cbn [map String.concat codes list_ascii_of_string] in H.
    destruct (codes s); discriminate.
  - apply (f_equal codes) in H. rewrite !codes_app in H. cbn [map String.concat codes list_ascii_of_string] in H.
    destruct (codes l); discriminate.
  - apply (f_equal codes) in H. rewrite !codes_app, <- !app_assoc in H. inversion Hl; inversion Hs; subst.
    change (codes line_feed) with [10] in H. cbn [app] in H. apply line_split in H as [K1 K2]; [|assumption..].
    apply codes_inj in K1, K2. subst. f_equal. now apply IH.
Qed.
Lemma one_line_a_line s : one_line s -> a_line s.
Proof. intros H. eapply Forall_impl; [|exact H]. cbn beta. intros. lia. Qed.

(** ** Integers *)
Lemma decimal_bound ds : Forall digit ds -> 0 <= decimal ds < 10 ^ Z.of_nat (length ds).
Proof.
  induction 1 as [|c ds Hc _ IH]; [cbn; lia|]. cbn [decimal length]. rewrite Nat2Z.inj_succ, Z.pow_succ_r by lia. unfold digit in Hc. nia.
Qed.
Lemma natural_digits t : natural t -> Forall digit t.
Proof.
  intros [-> |(c & ds & -> & Hc & Hds)]; [repeat constructor; unfold digit; cbn; lia|]. constructor; [unfold digit; lia|exact Hds].
Qed.
Lemma natural_prefix p q : natural (p ++ q) -> p <> [] -> natural p /\ decimal p = decimal (p ++ q) / 10 ^ Z.of_nat (length q).
Proof.
  intros H Hp. pose proof (natural_digits _ H) as Hd. apply Forall_app in Hd as [_ Hq]. apply decimal_bound in Hq. split.
  - destruct p as [|c p]; [contradiction|]. destruct H as [H|(c' & ds & H & Hc & Hds)]; cbn [app] in H.
    + left. injection H as -> H. apply app_eq_nil in H as [-> _]. reflexivity.
    + injection H as <- <-. right. exists c, p. apply Forall_app in Hds as [Hds _]. auto.
  - rewrite decimal_app. symmetry. rewrite Z.add_comm, Z.div_add by lia. rewrite Z.div_small by exact Hq. reflexivity.
Qed.
Lemma int_cut T z p q : str_int z = (p ++ q)%string -> p <> "" -> p <> "-" ->
  json_value T (codes p) (VInt (Z.quot z (10 ^ Z.of_nat (String.length q)))).
Proof.
  intros H Hp Hm. unfold str_int in H. rewrite <- codes_length. destruct (Z.ltb_spec z 0) as [Hz|Hz].
  - destruct p as [|c p]; [contradiction|]. cbn [append] in H. injection H as <- H.
    destruct (str_nonneg_text (- z) ltac:(lia)) as [N D]. rewrite H, codes_app in N, D.
    assert (Hp' : codes p <> []) by (destruct p; [contradiction|discriminate]).
    destruct (natural_prefix _ _ N Hp') as [N' D']. rewrite D in D'. rewrite codes_cons.
    pose proof (jv_int T true _ N') as J. cbv iota in J. rewrite D' in J.
    rewrite <- (Z.opp_involutive z) at 1. rewrite Z.quot_opp_l by (apply Z.pow_nonzero; lia). rewrite Z.quot_div_nonneg by (try apply Z.pow_pos_nonneg; lia). exact J.
  - destruct (str_nonneg_text z ltac:(lia)) as [N D]. rewrite H, codes_app in N, D.
    assert (Hp' : codes p <> []) by (destruct p; [contradiction|discriminate]).
    destruct (natural_prefix _ _ N Hp') as [N' D']. rewrite D in D'.
    pose proof (jv_int T false _ N') as J. cbv iota in J. rewrite D' in J.
    rewrite Z.quot_div_nonneg by (try apply Z.pow_pos_nonneg; lia). exact J.
Qed.
Lemma natural_joined t ds : natural t -> decimal t <> 0 -> Forall digit ds ->
  natural (t ++ ds) /\ decimal (t ++ ds) = decimal t * 10 ^ Z.of_nat (length ds) + decimal ds.
Proof.
  intros H H0 Hd. split; [|apply decimal_app]. destruct H as [-> |(c & r & -> & Hc & Hr)]; [now elim H0|].
  right. exists c, (r ++ ds). split; [reflexivity|]. split; [exact Hc|]. now apply Forall_app.
Qed.
Lemma int_joined T a b : a <> 0 -> 0 <= b ->
  json_value T (codes (str_int a ++ str_int b)) (VInt (a * 10 ^ Z.of_nat (String.length (str_int b)) + Z.sgn a * b)).
Proof.
  intros Ha Hb. assert (Eb : str_int b = str_nonneg b) by (unfold str_int; destruct (Z.ltb_spec b 0); [lia|reflexivity]). rewrite Eb, <- codes_length.
  destruct (str_nonneg_text b Hb) as [Nb Db]. pose proof (natural_digits _ Nb) as Hd. rewrite codes_app.
  unfold str_int. destruct (Z.ltb_spec a 0) as [Hz|Hz].
  - destruct (str_nonneg_text (- a) ltac:(lia)) as [N D]. destruct (natural_joined _ _ N ltac:(lia) Hd) as [N' D'].
    pose proof (jv_int T true _ N') as J. cbv iota in J. rewrite D', D, Db in J. rewrite codes_cons. cbn [app].
    replace (a * _ + Z.sgn a * b) with (- (- a * 10 ^ Z.of_nat (length (codes (str_nonneg b))) + b)) by (rewrite Z.sgn_neg by lia; ring). exact J.
  - destruct (str_nonneg_text a ltac:(lia)) as [N D]. destruct (natural_joined _ _ N ltac:(lia) Hd) as [N' D'].
    pose proof (jv_int T false _ N') as J. cbv iota in J. rewrite D', D, Db in J.
    rewrite Z.sgn_pos, Z.mul_1_l by lia. exact J.
Qed.
