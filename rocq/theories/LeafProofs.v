(** * Proofs about UUIDs, timedeltas and timezones *)
From Verif Require Import PyBaseFacts LeafSpec.
Local Open Scope string_scope.

(** ** Strings *)
Lemma hex_digit_is c : is_hex c = true <-> exists d, hex_digit c = Some d.
Proof.
  assert (G : is_hex c = match hex_digit c with Some _ => true | None => false end)
    by (destruct c as [[] [] [] [] [] [] [] []]; reflexivity).
  rewrite G. destruct (hex_digit c) as [d|]; split; intros H; try discriminate; try (now exists d); try reflexivity; destruct H; discriminate.
Qed.
Lemma hex_digit_val c d : hex_digit c = Some d -> is_hex c = true /\ hex_val c = d /\ (0 <= d < 16)%Z.
Proof.
  destruct c as [[] [] [] [] [] [] [] []]; vm_compute; intros H; try discriminate; injection H as <-;
    repeat split; discriminate.
Qed.
Lemma sreplace_absent p c r : forall s, sforall (fun x => negb (Ascii.eqb x c)) s = true -> sreplace (String c p) r s = s.
Proof.
  unfold sreplace. induction s as [|x s IH]; intros H; [reflexivity|]. cbn [sforall] in H. apply andb_true_iff in H as [H1 H2].
  cbn [sreplace_go prefix]. destruct (ascii_dec c x) as [->|Hn].
  - rewrite Ascii.eqb_refl in H1. discriminate.
  - now rewrite (IH H2).
Qed.
Lemma slstrip_none p s : sforall (fun c => negb (p c)) s = true -> slstrip p s = s.
Proof. destruct s as [|c s]; [reflexivity|]. cbn. destruct (p c); [discriminate|reflexivity]. Qed.
Lemma srev_app_forall p : forall s a, sforall p (srev_app s a) = sforall p s && sforall p a.
Proof.
  induction s as [|c s IH]; intros a; [reflexivity|]. cbn [srev_app]. rewrite IH. cbn [sforall].
  destruct (p c), (sforall p s); reflexivity.
Qed.
Lemma srev_app_app : forall s a b, srev_app (srev_app s a) b = srev_app a (s ++ b).
Proof. induction s as [|c s IH]; intros a b; [reflexivity|]. cbn [srev_app append]. now rewrite IH. Qed.
Lemma srev_srev s : srev (srev s) = s.
Proof. unfold srev. rewrite srev_app_app. cbn [srev_app]. apply sapp_nil_r. Qed.
Lemma sstrip_none p s : sforall (fun c => negb (p c)) s = true -> sstrip p s = s.
Proof.
  intros H. unfold sstrip, srstrip. rewrite (slstrip_none _ _ H), slstrip_none; [apply srev_srev|].
  unfold srev. rewrite srev_app_forall, H. reflexivity.
Qed.
Lemma sremove_app p a b : sremove p (a ++ b) = sremove p a ++ sremove p b.
Proof. induction a as [|c a IH]; [reflexivity|]. cbn. destruct (p c); [exact IH|cbn; now rewrite IH]. Qed.
Lemma sremove_none p s : sforall (fun c => negb (p c)) s = true -> sremove p s = s.
Proof.
  induction s as [|c s IH]; [reflexivity|]. cbn. destruct (p c); [discriminate|]. intros H. now rewrite (IH H).
Qed.
Lemma stake_sdrop n s : stake n s ++ sdrop n s = s.
Proof. revert n. induction s as [|c s IH]; intros [|n]; cbn; try reflexivity. now rewrite IH. Qed.
Lemma stake_length n s : n <= String.length s -> String.length (stake n s) = n.
Proof.
  revert n. induction s as [|c s IH]; intros [|n] H; cbn in *; try reflexivity; [inversion H|].
  rewrite IH; [reflexivity|now apply le_S_n].
Qed.
Lemma sdrop_length n s : String.length (sdrop n s) = String.length s - n.
Proof. revert n. induction s as [|c s IH]; intros [|n]; cbn; try reflexivity. apply IH. Qed.
Lemma sdrop_sdrop a b s : sdrop a (sdrop b s) = sdrop (b + a) s.
Proof.
  revert s. induction b as [|b IH]; intros s; [reflexivity|]. destruct s as [|c s]; [now destruct a|]. apply IH.
Qed.

(** ** Hexadecimal text *)
Lemma hex_text_hex s n : hex_text s n -> sforall is_hex s = true /\ (0 <= n < 16 ^ Z.of_nat (String.length s))%Z.
Proof.
  induction 1 as [|s c n d H [IH1 IH2] Hd]; [split; [reflexivity|cbn; lia]|].
  apply hex_digit_val in Hd as (H1 & _ & H3). split.
  - rewrite sforall_app, IH1. cbn. now rewrite H1.
  - rewrite slength_app. cbn [String.length]. rewrite Nat2Z.inj_add, Z.pow_add_r by lia. change (16 ^ Z.of_nat 1)%Z with 16%Z. lia.
Qed.
Lemma hex_digits_app : forall a b acc sep dig, sforall is_hex a = true ->
  hex_digits acc sep dig (a ++ b) =
  match a with
  | EmptyString => hex_digits acc sep dig b
  | _ => match hex_digits acc sep dig a with Some z => hex_digits z true true b | None => None end
  end.
Proof.
  induction a as [|c a IH]; intros b acc sep dig H; [reflexivity|]. cbn [sforall] in H. apply andb_true_iff in H as [H1 H2].
  cbn [append hex_digits]. rewrite H1, (IH _ _ _ _ H2). destruct a; reflexivity.
Qed.
Lemma hex_digits_text s n : hex_text s n -> forall sep, s <> "" -> hex_digits 0 sep false s = Some n.
Proof.
  induction 1 as [|s c n d H IH Hd]; intros sep Hne; [congruence|].
  pose proof (hex_text_hex _ _ H) as [Hh _]. rewrite (hex_digits_app _ _ _ _ _ Hh).
  apply hex_digit_val in Hd as (H1 & H2 & _). destruct s as [|x s].
  - cbn [hex_digits]. rewrite H1, H2. inversion H; subst; [f_equal; lia|]. destruct s; discriminate.
  - rewrite IH by discriminate. cbn [hex_digits]. rewrite H1, H2. f_equal. lia.
Qed.
Lemma hex_not c : is_hex c = true -> is_space c = false /\ is_hyphen c = false /\ is_brace c = false /\
  Ascii.eqb c "u" = false /\ Ascii.eqb c "-" = false /\ Ascii.eqb c "+" = false /\ Ascii.eqb c "x" = false /\ Ascii.eqb c "X" = false.
Proof. destruct c as [[] [] [] [] [] [] [] []]; vm_compute; intros H; try discriminate; tauto. Qed.
Lemma sforall_hex (q : ascii -> bool) s : (forall c, is_hex c = true -> q c = true) -> sforall is_hex s = true -> sforall q s = true.
Proof. intros H. now apply sforall_impl. Qed.
Lemma py_int16_text s n : hex_text s n -> s <> "" -> py_int16 s = Some n.
Proof.
  intros H Hne. pose proof (hex_text_hex _ _ H) as [Hh _]. unfold py_int16. rewrite sstrip_none.
  2:{ revert Hh. apply sforall_hex. intros c Hc. apply hex_not in Hc as (-> & _). reflexivity. }
  pose proof (hex_digits_text _ _ H false Hne) as Hd.
  destruct s as [|a s]; [congruence|]. cbn [sforall] in Hh. apply andb_true_iff in Hh as [Ha Hs].
  destruct (hex_not _ Ha) as (_ & _ & _ & _ & -> & -> & _). unfold hex_prefix. destruct s as [|b s]; [exact Hd|].
  cbn [sforall] in Hs. apply andb_true_iff in Hs as [Hb _]. destruct (hex_not _ Hb) as (_ & _ & _ & _ & _ & _ & -> & ->).
  cbn [orb]. now rewrite andb_false_r.
Qed.
Lemma uuid_parse_clean s h n : uuid_clean s = h -> hex_text h n -> String.length h = 32 -> uuid_parse s = Ok n.
Proof.
  intros Hc H Hl. unfold uuid_parse. rewrite Hc, Hl. cbn [Nat.eqb]. rewrite (py_int16_text _ _ H) by (intros ->; discriminate).
  apply hex_text_hex in H as [_ H]. rewrite Hl in H. change (16 ^ Z.of_nat 32)%Z with (2 ^ 128)%Z in H.
  destruct (Z.leb_spec 0 n), (Z.ltb_spec n (2 ^ 128)); cbn [andb]; try lia; reflexivity.
Qed.
Definition uuid_char (c : ascii) : bool := is_hex c || Ascii.eqb c "-".
Lemma uuid_char_not c : uuid_char c = true -> Ascii.eqb c "u" = false /\ is_brace c = false.
Proof. destruct c as [[] [] [] [] [] [] [] []]; vm_compute; intros H; try discriminate; tauto. Qed.
Lemma uuid_clean_chars s : sforall uuid_char s = true -> uuid_clean s = sremove is_hyphen s.
Proof.
  intros H. unfold uuid_clean.
  assert (Hu : sforall (fun x => negb (Ascii.eqb x "u")) s = true).
  { revert H. apply sforall_impl. intros c Hc. apply uuid_char_not in Hc as [-> _]. reflexivity. }
  rewrite (sreplace_absent "rn:" "u" "" s Hu), (sreplace_absent "uid:" "u" "" s Hu), sstrip_none; [reflexivity|].
  revert H. apply sforall_impl. intros c Hc. apply uuid_char_not in Hc as [_ ->]. reflexivity.
Qed.
Lemma hex_is_char s : sforall is_hex s = true -> sforall uuid_char s = true.
Proof. apply sforall_impl. intros c H. unfold uuid_char. now rewrite H. Qed.
Lemma hex_no_hyphen s : sforall is_hex s = true -> sremove is_hyphen s = s.
Proof. intros H. apply sremove_none. revert H. apply sforall_hex. intros c Hc. apply hex_not in Hc as (_ & -> & _). reflexivity. Qed.
Lemma uuid_text_parse s n : uuid_text s n -> uuid_parse s = Ok n.
Proof.
  intros (a & b & c & d & e & -> & H & Ha & Hb & Hc & Hd & He).
  pose proof (hex_text_hex _ _ H) as [Hh _]. rewrite !sforall_app in Hh.
  apply andb_true_iff in Hh as [Xa Hh]. apply andb_true_iff in Hh as [Xb Hh]. apply andb_true_iff in Hh as [Xc Hh].
  apply andb_true_iff in Hh as [Xd Xe].
  apply (uuid_parse_clean _ (a ++ b ++ c ++ d ++ e)); [|exact H|rewrite !slength_app; lia].
  rewrite uuid_clean_chars.
  - rewrite !sremove_app. rewrite (hex_no_hyphen a Xa), (hex_no_hyphen b Xb), (hex_no_hyphen c Xc), (hex_no_hyphen d Xd), (hex_no_hyphen e Xe). reflexivity.
  - rewrite !sforall_app. rewrite (hex_is_char a Xa), (hex_is_char b Xb), (hex_is_char c Xc), (hex_is_char d Xd), (hex_is_char e Xe). reflexivity.
Qed.
(** Braces, 'urn:uuid:' and hyphens anywhere make no difference. *)
Lemma hex_char_digit z : (0 <= z < 16)%Z -> hex_digit (hex_char z) = Some z.
Proof.
  intros H. assert (Hz : exists n, n < 16 /\ z = Z.of_nat n) by (exists (Z.to_nat z); lia). destruct Hz as (n & Hn & ->).
  do 16 (destruct n as [|n]; [reflexivity|]). lia.
Qed.
Lemma hex_go_app : forall n z acc, hex_go n z acc = hex_go n z "" ++ acc.
Proof.
  induction n as [|n IH]; intros z acc; [reflexivity|]. cbn [hex_go]. rewrite (IH _ (String _ acc)), (IH _ (String _ "")).
  rewrite sapp_assoc. reflexivity.
Qed.
Lemma hex_text_of : forall n z, (0 <= z < 16 ^ Z.of_nat n)%Z -> hex_text (hex n z) z.
Proof.
  unfold hex. induction n as [|n IH]; intros z Hz.
  - cbn in Hz. assert (z = 0%Z) as -> by lia. constructor.
  - rewrite Nat2Z.inj_succ, Z.pow_succ_r in Hz by lia. cbn [hex_go]. rewrite hex_go_app.
    pose proof (Z.div_mod z 16 ltac:(lia)) as Hdm. pose proof (Z.mod_pos_bound z 16 ltac:(lia)) as Hm.
    rewrite Hdm at 3. apply ht_snoc; [apply IH|now apply hex_char_digit].
    split; [apply Z.div_pos; lia|apply Z.div_lt_upper_bound; lia].
Qed.
Lemma hex_length n z : String.length (hex n z) = n.
Proof.
  unfold hex. revert z. induction n as [|n IH]; intros z; [reflexivity|]. cbn [hex_go]. rewrite hex_go_app, slength_app, IH. cbn. lia.
Qed.
Lemma uuid_str_text n : is_uuid n -> uuid_text (uuid_str n) n.
Proof.
  intros Hn. unfold uuid_str. pose proof (hex_length 32 n) as Hl. pose proof (hex_text_of 32 n Hn) as Ht.
  set (h := hex 32 n) in *. exists (stake 8 h), (stake 4 (sdrop 8 h)), (stake 4 (sdrop 12 h)), (stake 4 (sdrop 16 h)), (sdrop 20 h).
  split; [reflexivity|]. split.
  - assert (Hh : stake 8 h ++ stake 4 (sdrop 8 h) ++ stake 4 (sdrop 12 h) ++ stake 4 (sdrop 16 h) ++ sdrop 20 h = h).
    { assert (X : forall b, stake 4 (sdrop b h) ++ sdrop (b + 4) h = sdrop b h)
        by (intros b; rewrite <- sdrop_sdrop; apply stake_sdrop).
      rewrite (X 16 : stake 4 (sdrop 16 h) ++ sdrop 20 h = sdrop 16 h).
      rewrite (X 12 : stake 4 (sdrop 12 h) ++ sdrop 16 h = sdrop 12 h).
      rewrite (X 8 : stake 4 (sdrop 8 h) ++ sdrop 12 h = sdrop 8 h). apply stake_sdrop. }
    now rewrite Hh.
  - repeat split; try (apply stake_length; rewrite ?sdrop_length; lia).
Qed.
Lemma uuid_roundtrip n : is_uuid n -> uuid_parse (uuid_str n) = Ok n.
Proof. intros H. now apply uuid_text_parse, uuid_str_text. Qed.

(** ** Which texts load *)
Lemma without_hyphens_remove s : without_hyphens s = sremove is_hyphen s.
Proof. induction s as [|c s IH]; [reflexivity|]. cbn. unfold is_hyphen at 1. destruct (Ascii.eqb c "-"); [exact IH|now rewrite IH]. Qed.
Lemma slstrip_forall p q s : (forall c, p c = true -> q c = true) -> sforall q (slstrip p s) = true -> sforall q s = true.
Proof.
  intros Hpq. induction s as [|c s IH]; [reflexivity|]. cbn. destruct (p c) eqn:Ep; [|auto]. intros H. now rewrite (Hpq _ Ep), IH.
Qed.
Lemma srev_forall p s : sforall p (srev s) = sforall p s.
Proof. unfold srev. rewrite srev_app_forall. apply andb_true_r. Qed.
Lemma sstrip_forall p q s : (forall c, p c = true -> q c = true) -> sforall q (sstrip p s) = true -> sforall q s = true.
Proof.
  intros Hpq H. unfold sstrip, srstrip in H. rewrite srev_forall in H. apply (slstrip_forall _ _ _ Hpq) in H.
  rewrite srev_forall in H. now apply (slstrip_forall _ _ _ Hpq) in H.
Qed.
Lemma hex_literal c : is_hex c = true -> literal_char c = true.
Proof. intros H. unfold literal_char. apply hex_digit_is in H as [d ->]. reflexivity. Qed.
Lemma hex_digits_literal : forall s acc sep dig n, hex_digits acc sep dig s = Some n -> sforall literal_char s = true.
Proof.
  induction s as [|c s IH]; intros acc sep dig n H; [reflexivity|]. cbn [hex_digits] in H. cbn [sforall].
  destruct (is_hex c) eqn:Eh.
  - rewrite (hex_literal _ Eh). eapply IH; eassumption.
  - destruct (Ascii.eqb c "_" && sep) eqn:Es; [|discriminate]. apply andb_true_iff in Es as [Es _]. apply Ascii.eqb_eq in Es as ->.
    cbn. eapply IH; eassumption.
Qed.
Lemma hex_prefix_literal s n : hex_prefix s = Some n -> sforall literal_char s = true.
Proof.
  unfold hex_prefix. destruct s as [|a [|b s]]; try apply hex_digits_literal.
  destruct (Ascii.eqb a "0" && (Ascii.eqb b "x" || Ascii.eqb b "X")) eqn:Ep; [|apply hex_digits_literal].
  intros H. apply hex_digits_literal in H. cbn [sforall]. rewrite H.
  apply andb_true_iff in Ep as [Ea Eb]. apply Ascii.eqb_eq in Ea as ->. apply orb_true_iff in Eb as [Eb|Eb];
    apply Ascii.eqb_eq in Eb as ->; reflexivity.
Qed.
Lemma py_int16_literal s n : py_int16 s = Some n -> sforall literal_char s = true.
Proof.
  intros H. unfold py_int16 in H. apply (sstrip_forall is_space).
  { intros c Hc. unfold literal_char. rewrite Hc, orb_true_r. now destruct (hex_digit c). }
  destruct (sstrip is_space s) as [|c r]; [reflexivity|].
  destruct (Ascii.eqb c "-") eqn:E1.
  - apply Ascii.eqb_eq in E1 as ->. destruct (hex_prefix r) eqn:Er; [|discriminate]. apply hex_prefix_literal in Er. cbn. exact Er.
  - destruct (Ascii.eqb c "+") eqn:E2; [|now apply hex_prefix_literal in H].
    apply Ascii.eqb_eq in E2 as ->. apply hex_prefix_literal in H. cbn. exact H.
Qed.
Lemma undecorated_clean s : undecorated s -> uuid_clean s = without_hyphens s.
Proof.
  intros (Hu & Hl & Hr). rewrite without_hyphens_remove. unfold uuid_clean. apply smem_false in Hu.
  rewrite (sreplace_absent "rn:" "u" "" s Hu), (sreplace_absent "uid:" "u" "" s Hu), sstrip_none; [reflexivity|].
  apply smem_false in Hl, Hr. erewrite sforall_ext; [|intros c; unfold is_brace; rewrite negb_orb; reflexivity].
  rewrite sforall_and, Hl, Hr. reflexivity.
Qed.
Lemma uuid_parse_ok s n : uuid_parse s = Ok n <->
  String.length (uuid_clean s) = 32 /\ py_int16 (uuid_clean s) = Some n /\ is_uuid n.
Proof.
  unfold uuid_parse, is_uuid. destruct (Nat.eqb_spec (String.length (uuid_clean s)) 32) as [Hl|Hl];
    [|split; [discriminate|tauto]].
  destruct (py_int16 (uuid_clean s)) as [m|]; [|split; [discriminate|intros (_ & H & _); discriminate]].
  destruct (Z.leb_spec 0 m), (Z.ltb_spec m (2 ^ 128)); cbn [andb]; split; intros Hx; try discriminate.
  - injection Hx as <-. auto.
  - destruct Hx as (_ & Hx & _). injection Hx as <-. reflexivity.
  - destruct Hx as (_ & Hx & ?). injection Hx as <-. lia.
  - destruct Hx as (_ & Hx & ?). injection Hx as <-. lia.
  - destruct Hx as (_ & Hx & ?). injection Hx as <-. lia.
Qed.
Lemma uuid_sound s n : undecorated s -> uuid_parse s = Ok n ->
  is_uuid n /\ String.length (without_hyphens s) = 32 /\ sforall literal_char (without_hyphens s) = true.
Proof.
  intros Hu H. apply uuid_parse_ok in H as (Hl & Hp & Hn). rewrite (undecorated_clean _ Hu) in Hl, Hp.
  apply py_int16_literal in Hp. auto.
Qed.
Lemma hex_text_exists s : sforall is_hex s = true -> exists n, hex_text s n.
Proof.
  assert (G : forall b a n, hex_text a n -> sforall is_hex b = true -> exists m, hex_text (a ++ b) m).
  { induction b as [|c b IH]; intros a n Ha Hb; [rewrite sapp_nil_r; eauto|]. cbn [sforall] in Hb. apply andb_true_iff in Hb as [Hc Hb].
    apply hex_digit_is in Hc as [d Hd]. pose proof (ht_snoc _ _ _ _ Ha Hd) as Hx. destruct (IH _ _ Hx Hb) as [m Hm].
    rewrite sapp_assoc in Hm. eauto. }
  intros H. now apply (G s "" 0%Z ht_nil).
Qed.
Lemma plain_chars s : plain_uuid_text s -> sforall uuid_char s = true.
Proof.
  intros H. apply sforall_In. intros c Hc. unfold uuid_char. destruct (H c) as [->|Hd].
  - unfold smem, sexists. apply negb_true_iff. destruct (sforall _ s) eqn:Ef; [|reflexivity].
    rewrite sforall_In in Ef. specialize (Ef c Hc). cbn in Ef. rewrite Ascii.eqb_refl in Ef. discriminate.
  - apply orb_true_r.
  - apply hex_digit_is in Hd as ->. reflexivity.
Qed.
Lemma plain_hex s : sforall uuid_char s = true -> sforall is_hex (sremove is_hyphen s) = true.
Proof.
  induction s as [|c s IH]; [reflexivity|]. cbn. unfold is_hyphen at 1. intros H. apply andb_true_iff in H as [Hc H].
  destruct (Ascii.eqb c "-") eqn:Ec; [auto|]. cbn. rewrite (IH H). unfold uuid_char in Hc. rewrite Ec, orb_false_r in Hc. now rewrite Hc.
Qed.
Lemma uuid_plain_iff s n : plain_uuid_text s ->
  (uuid_parse s = Ok n <-> hex_text (without_hyphens s) n /\ String.length (without_hyphens s) = 32).
Proof.
  intros H. apply plain_chars in H. rewrite without_hyphens_remove. split.
  - intros Hp. apply uuid_parse_ok in Hp as (Hl & Hp & _). rewrite (uuid_clean_chars _ H) in Hl, Hp. split; [|exact Hl].
    destruct (hex_text_exists _ (plain_hex _ H)) as [m Hm].
    rewrite (py_int16_text _ _ Hm) in Hp by (intros Hx; rewrite Hx in Hl; discriminate). injection Hp as <-. exact Hm.
  - intros [Ht Hl]. apply (uuid_parse_clean _ (sremove is_hyphen s)); [now apply uuid_clean_chars|exact Ht|exact Hl].
Qed.
Lemma sreplace_go_absent p c r s : sforall (fun x => negb (Ascii.eqb x c)) s = true -> sreplace_go (String c p) r 0 s = s.
Proof. exact (sreplace_absent p c r s). Qed.
Lemma uuid_text_chars s n : uuid_text s n -> sforall uuid_char s = true.
Proof.
  intros (a & b & c & d & e & -> & H & _). apply hex_text_hex in H as [Hh _]. rewrite !sforall_app in Hh.
  apply andb_true_iff in Hh as [Xa Hh]. apply andb_true_iff in Hh as [Xb Hh]. apply andb_true_iff in Hh as [Xc Hh].
  apply andb_true_iff in Hh as [Xd Xe]. rewrite !sforall_app.
  rewrite (hex_is_char a Xa), (hex_is_char b Xb), (hex_is_char c Xc), (hex_is_char d Xd), (hex_is_char e Xe). reflexivity.
Qed.
Lemma uuid_parse_same s s' : uuid_clean s' = uuid_clean s -> uuid_parse s' = uuid_parse s.
Proof. unfold uuid_parse. now intros ->. Qed.
Lemma srev_app_snoc s c : srev (s ++ String c "") = String c (srev s).
Proof.
  assert (G : forall s a, srev_app (s ++ String c "") a = String c (srev_app s a)).
  { induction s0 as [|x s0 IH]; intros a; [reflexivity|]. cbn [append srev_app]. apply IH. }
  apply G.
Qed.
Lemma uuid_braces s n : uuid_text s n -> uuid_parse ("{" ++ s ++ "}") = Ok n.
Proof.
  intros H. rewrite <- (uuid_text_parse _ _ H). apply uuid_parse_same. pose proof (uuid_text_chars _ _ H) as Hc.
  rewrite (uuid_clean_chars _ Hc). unfold uuid_clean.
  assert (Hu : sforall (fun x => negb (Ascii.eqb x "u")) ("{" ++ s ++ "}") = true).
  { rewrite !sforall_app. cbn. rewrite andb_true_r. revert Hc. apply sforall_impl. intros c Hx. apply uuid_char_not in Hx as [-> _]. reflexivity. }
  rewrite (sreplace_absent "rn:" "u" "" _ Hu), (sreplace_absent "uid:" "u" "" _ Hu). f_equal.
  assert (Hb : sforall (fun c => negb (is_brace c)) s = true).
  { revert Hc. apply sforall_impl. intros c Hx. apply uuid_char_not in Hx as [_ ->]. reflexivity. }
  unfold sstrip, srstrip. cbn [append slstrip]. change (is_brace "{") with true. cbv iota.
  assert (Hl : slstrip is_brace (s ++ "}") = s ++ "}" \/ s = "").
  { destruct s as [|c s]; [now right|]. left. cbn in *. now destruct (is_brace c). }
  destruct Hl as [-> | ->]; [|reflexivity]. rewrite srev_app_snoc. cbn [slstrip]. change (is_brace "}") with true. cbv iota.
  rewrite slstrip_none; [apply srev_srev|now rewrite srev_forall].
Qed.
Lemma uuid_urn s n : uuid_text s n -> uuid_parse ("urn:uuid:" ++ s) = Ok n.
Proof.
  intros H. rewrite <- (uuid_text_parse _ _ H). apply uuid_parse_same. pose proof (uuid_text_chars _ _ H) as Hc.
  assert (Hu : sforall (fun x => negb (Ascii.eqb x "u")) s = true).
  { revert Hc. apply sforall_impl. intros c Hx. apply uuid_char_not in Hx as [-> _]. reflexivity. }
  unfold uuid_clean. rewrite (sreplace_absent "rn:" "u" "" s Hu), (sreplace_absent "uid:" "u" "" s Hu).
  assert (H1 : sreplace "urn:" "" ("urn:uuid:" ++ s) = "uuid:" ++ s).
  { change (sreplace "urn:" "" ("urn:uuid:" ++ s)) with ("uuid:" ++ sreplace_go "urn:" "" 0 s).
    now rewrite (sreplace_go_absent "rn:" "u" "" s Hu). }
  rewrite H1.
  assert (H2 : sreplace "uuid:" "" ("uuid:" ++ s) = sreplace_go "uuid:" "" 0 s) by (now destruct s).
  rewrite H2.
  now rewrite (sreplace_go_absent "uid:" "u" "" s Hu).
Qed.

(** ** Rounding *)
Local Open Scope Z_scope.
Lemma rhe_near n d : 0 < d -> 2 * Z.abs (rhe n d * d - n) <= d.
Proof.
  intros Hd. unfold rhe. cbv zeta. pose proof (Z.div_mod n d ltac:(lia)) as H. pose proof (Z.mod_pos_bound n d Hd) as Hm.
  set (q := n / d) in *. set (r := n mod d) in *.
  destruct (Z.ltb_spec (2 * r) d); [|destruct (Z.ltb_spec d (2 * r)); [|destruct (Z.even q)]]; lia.
Qed.
Lemma rhe_unique n d z : 0 < d -> 2 * Z.abs (z * d - n) < d -> rhe n d = z.
Proof.
  intros Hd H. pose proof (rhe_near n d Hd) as H1. set (y := rhe n d) in *. clearbody y.
  assert (Hx : Z.abs (y - z) * d < d) by (rewrite <- (Z.abs_eq d) at 1 by lia; rewrite <- Z.abs_mul; lia).
  assert (Z.abs (y - z) < 1) by nia. lia.
Qed.
Lemma rhe_scale n d c : 0 < d -> 0 < c -> rhe (n * c) (d * c) = rhe n d.
Proof.
  intros Hd Hc. unfold rhe. cbv zeta. rewrite Z.div_mul_cancel_r, Z.mul_mod_distr_r by lia.
  set (r := n mod d). set (q := n / d).
  assert (E1 : (2 * (r * c) <? d * c) = (2 * r <? d)) by (destruct (Z.ltb_spec (2 * r) d), (Z.ltb_spec (2 * (r * c)) (d * c)); nia || reflexivity).
  assert (E2 : (d * c <? 2 * (r * c)) = (d <? 2 * r)) by (destruct (Z.ltb_spec d (2 * r)), (Z.ltb_spec (d * c) (2 * (r * c))); nia || reflexivity).
  now rewrite E1, E2.
Qed.
Lemma twos_spec p : let '(o, k) := twos p in 0 <= k /\ Zpos p = Zpos o * 2 ^ k.
Proof.
  induction p as [p IH|p IH|]; cbn [twos]; try (split; [lia|now rewrite Z.mul_1_r]).
  destruct (twos p) as [o k]. destruct IH as [H1 H2]. split; [lia|]. rewrite Z.add_1_r, Z.pow_succ_r by lia.
  change (Zpos (xO p)) with (2 * Zpos p). rewrite H2. ring.
Qed.
Lemma mkfloat_spec M e : exists m j, 0 <= j /\ M = m * 2 ^ j /\
  (M <> 0 -> mkfloat M e = FFin m (e + j)) /\ (M = 0 -> mkfloat M e = FFin 0 0 /\ m = 0).
Proof.
  destruct M as [|p|p]; cbn [mkfloat].
  - exists 0, 0. repeat split; try lia; congruence.
  - pose proof (twos_spec p) as H. destruct (twos p) as [o k]. exists (Zpos o), k. destruct H as [H1 H2]. repeat split; auto; try lia; congruence.
  - pose proof (twos_spec p) as H. destruct (twos p) as [o k]. exists (Zneg o), k. destruct H as [H1 H2]. repeat split; auto; try lia; congruence.
Qed.
(** The quotient as a float: 53 significant bits, below 2^40 *)
Lemma fl_div_spec p q B : p <> 0 -> 0 < q -> 0 <= B <= 40 -> Z.abs p < 2 ^ B * q ->
  exists M k, fl_div p q = mkfloat M (- k) /\ 52 - B < k /\ M <> 0 /\ 2 * Z.abs (M * q - p * 2 ^ k) <= q.
Proof.
  intros Hp Hq HB Hlt. unfold fl_div. cbv zeta. set (n := Z.abs p) in *. assert (Hn : 0 < n) by lia.
  destruct (Z.eqb_spec n 0); [lia|].
  assert (Hl : 2 ^ Z.log2 n <= n < 2 ^ Z.succ (Z.log2 n)) by (apply Z.log2_spec; lia).
  assert (Hlq : 2 ^ Z.log2 q <= q < 2 ^ Z.succ (Z.log2 q)) by (apply Z.log2_spec; lia).
  pose proof (Z.log2_nonneg n). pose proof (Z.log2_nonneg q).
  assert (He : Z.log2 n <= B + Z.log2 q).
  { assert (Z.log2 n < B + Z.succ (Z.log2 q)); [|lia]. apply (Z.pow_lt_mono_r_iff 2); [lia|lia|].
    rewrite Z.pow_add_r by lia. nia. }
  assert (HE : exists k, fl_exp n q = - k /\ 0 < k /\ 2 ^ 52 * q <= n * 2 ^ k).
  { unfold fl_exp. cbv zeta. set (e := Z.log2 n - Z.log2 q - 53). assert (e < -1) by (unfold e; lia).
    rewrite (Z.max_r 0 (- e)), (Z.max_l 0 e), Z.mul_1_r by lia.
    destruct (Z.ltb_spec (n * 2 ^ (- e)) (2 ^ 53 * q)) as [Hc|Hc].
    - exists (- e). split; [lia|]. split; [lia|].
      assert (2 ^ 52 * 2 ^ Z.succ (Z.log2 q) <= n * 2 ^ (- e)).
      { replace (2 ^ 52 * 2 ^ Z.succ (Z.log2 q)) with (2 ^ Z.log2 n * 2 ^ (- e)).
        - apply Z.mul_le_mono_nonneg_r; [apply Z.pow_nonneg; lia|lia].
        - rewrite <- !Z.pow_add_r by lia. f_equal. unfold e. lia. }
      assert (2 ^ 52 * q <= 2 ^ 52 * 2 ^ Z.succ (Z.log2 q)) by (apply Z.mul_le_mono_nonneg_l; lia). lia.
    - exists (- (e + 1)). split; [lia|]. split; [lia|].
      replace (- e) with (Z.succ (- (e + 1))) in Hc by lia. rewrite Z.pow_succ_r in Hc by lia.
      change (2 ^ 53) with (2 * 2 ^ 52) in Hc. nia. }
  destruct HE as (k & -> & Hk & Hm). unfold fl_mant. rewrite (Z.max_r 0 (- - k)), (Z.max_l 0 (- k)), Z.mul_1_r by lia.
  replace (- - k) with k by lia. pose proof (rhe_near (n * 2 ^ k) q Hq) as Hr. set (m := rhe (n * 2 ^ k) q) in *. clearbody m.
  exists (Z.sgn p * m), k. split; [reflexivity|].
  assert (Hk2 : 52 - B < k).
  { apply (Z.pow_lt_mono_r_iff 2); [lia|lia|].
    assert (2 ^ 52 * q < 2 ^ B * q * 2 ^ k) as Hx.
    { assert (0 < 2 ^ k) by (apply Z.pow_pos_nonneg; lia). nia. }
    assert (2 ^ 52 = 2 ^ (52 - B) * 2 ^ B) as Hy by (rewrite <- Z.pow_add_r by lia; f_equal; lia). rewrite Hy in Hx.
    assert (0 < 2 ^ B) by (apply Z.pow_pos_nonneg; lia). nia. }
  split; [exact Hk2|]. assert (Hm0 : m <> 0) by (intros ->; lia).
  unfold n in *. destruct (Z.sgn_spec p) as [[Hs Hs']|[[Hs Hs']|[Hs Hs']]]; [|lia|]; rewrite Hs'.
  - rewrite (Z.abs_eq p) in * by lia. split; [lia|]. rewrite Z.mul_1_l. exact Hr.
  - rewrite (Z.abs_neq p) in * by lia. split; [lia|]. lia.
Qed.
(** Rounding base + M / 2^k *)
Lemma dy_round_mkfloat base M k T : 0 <= k -> 2 * Z.abs (2 ^ k * (T - base) - M) < 2 ^ k ->
  exists m e, mkfloat M (- k) = FFin m e /\ dy_round base m e = T.
Proof.
  intros Hk H. assert (HP : 0 < 2 ^ k) by (apply Z.pow_pos_nonneg; lia). destruct (mkfloat_spec M (- k)) as (m & j & Hj & HM & H1 & H0).
  destruct (Z.eq_dec M 0) as [Hz|Hz].
  - destruct (H0 Hz) as [-> _]. exists 0, 0. split; [reflexivity|]. cbn. rewrite Hz, Z.sub_0_r in H.
    assert (Z.abs (T - base) = 0); [|lia]. rewrite Z.abs_mul, (Z.abs_eq (2 ^ k)) in H by lia. nia.
  - rewrite (H1 Hz). exists m, (- k + j). split; [reflexivity|]. unfold dy_round. destruct (Z.leb_spec 0 (- k + j)).
    + assert (Hp : 2 ^ j = 2 ^ (- k + j) * 2 ^ k) by (rewrite <- Z.pow_add_r by lia; f_equal; lia).
      rewrite Hp in HM. set (V := m * 2 ^ (- k + j)) in *. replace M with (V * 2 ^ k) in H by (unfold V; lia).
      replace (2 ^ k * (T - base) - V * 2 ^ k) with (2 ^ k * (T - base - V)) in H by ring.
      rewrite Z.abs_mul, (Z.abs_eq (2 ^ k)) in H by lia. assert (Z.abs (T - base - V) = 0) by nia. lia.
    + assert (HJ : 0 < 2 ^ j) by (apply Z.pow_pos_nonneg; lia).
      assert (Hp : 2 ^ k = 2 ^ (- (- k + j)) * 2 ^ j) by (rewrite <- Z.pow_add_r by lia; f_equal; lia).
      set (D := 2 ^ (- (- k + j))) in *. assert (HD : 0 < D) by (apply Z.pow_pos_nonneg; lia).
      apply rhe_unique; [exact HD|]. rewrite HM, Hp in H.
      replace (D * 2 ^ j * (T - base) - m * 2 ^ j) with ((T * D - (base * D + m)) * 2 ^ j) in H by ring.
      rewrite Z.abs_mul, (Z.abs_eq (2 ^ j)) in H by lia. nia.
Qed.
Lemma timedelta_roundtrip us : Z.abs us < 2 ^ 33 * 1000000 -> td_of_float (total_seconds us) = Ok us.
Proof.
  intros Hus. unfold total_seconds.
  assert (Htd : mk_td us = Ok us).
  { unfold mk_td, td_ok, us_per_day.
    match goal with |- (if ?b then _ else _) = _ => destruct b eqn:Eb; [reflexivity|] end.
    apply andb_false_iff in Eb as [Eb|Eb]; [apply Z.leb_gt in Eb|apply Z.ltb_ge in Eb]; lia. }
  destruct (Z.eq_dec us 0) as [->|Hz]; [reflexivity|].
  destruct (fl_div_spec us 1000000 33 Hz ltac:(lia) ltac:(lia) Hus) as (M & k & -> & Hk & HM0 & Herr).
  assert (HP : 2 ^ 20 <= 2 ^ k) by (apply Z.pow_le_mono_r; lia).
  destruct (mkfloat_spec M (- k)) as (m & j & Hj & HM & H1 & _). rewrite (H1 HM0). unfold td_of_float.
  assert (HJ : 0 < 2 ^ j) by (apply Z.pow_pos_nonneg; lia).
  destruct (Z.leb_spec 0 (- k + j)) as [He|He].
  - assert (Hp : 2 ^ j = 2 ^ (- k + j) * 2 ^ k) by (rewrite <- Z.pow_add_r by lia; f_equal; lia).
    set (V := m * 2 ^ (- k + j)) in *. assert (HV : M = V * 2 ^ k) by (unfold V; rewrite HM, Hp; ring).
    rewrite HV in Herr. replace (V * 2 ^ k * 1000000 - us * 2 ^ k) with ((V * 1000000 - us) * 2 ^ k) in Herr by ring.
    rewrite Z.abs_mul, (Z.abs_eq (2 ^ k)) in Herr by lia.
    assert (Z.abs (V * 1000000 - us) = 0) by nia. replace (V * 1000000) with us by lia. exact Htd.
  - assert (Hp : 2 ^ k = 2 ^ (- (- k + j)) * 2 ^ j) by (rewrite <- Z.pow_add_r by lia; f_equal; lia).
    set (d := 2 ^ (- (- k + j))) in *. assert (Hd : 0 < d) by (apply Z.pow_pos_nonneg; lia). cbv zeta.
    pose proof (Z.quot_rem' m d) as Hqr. set (qm := Z.quot m d) in *. set (r := Z.rem m d) in *.
    assert (Hr : Z.abs r < d).
    { unfold r. pose proof (Z.rem_bound_abs m d ltac:(lia)). lia. }
    rewrite HM, Hp in Herr. set (A := us * d - m * 1000000).
    replace (m * 2 ^ j * 1000000 - us * (d * 2 ^ j)) with (- A * 2 ^ j) in Herr by (unfold A; ring).
    rewrite Z.abs_mul, Z.abs_opp, (Z.abs_eq (2 ^ j)) in Herr by lia.
    assert (HA : 2 * Z.abs A * 2 ^ 20 <= 1000000 * d) by (rewrite Hp in HP; nia).
    assert (G : exists m' e', fl_div (r * 1000000) d = FFin m' e' /\ dy_round (qm * 1000000) m' e' = us).
    { destruct (Z.eq_dec r 0) as [Hr0|Hr0].
      - rewrite Hr0. exists 0, 0. split; [reflexivity|]. cbn.
        assert (HA2 : A = (us - qm * 1000000) * d) by (unfold A; rewrite Hqr, Hr0; ring).
        rewrite HA2, Z.abs_mul, (Z.abs_eq d) in HA by lia. assert (Z.abs (us - qm * 1000000) = 0) by nia. lia.
      - destruct (fl_div_spec (r * 1000000) d 20) as (M' & k' & -> & Hk' & _ & Herr'); [lia|lia|lia|rewrite Z.abs_mul; lia|].
        apply dy_round_mkfloat; [lia|]. set (B := M' * d - r * 1000000 * 2 ^ k') in *.
        assert (HK : 2 ^ 33 <= 2 ^ k') by (apply Z.pow_le_mono_r; lia).
        assert (Heq : (2 ^ k' * (us - qm * 1000000) - M') * d = 2 ^ k' * A - B).
        { unfold A, B. rewrite Hqr. ring. }
        assert (Hab : 2 * Z.abs (2 ^ k' * A - B) < 2 ^ k' * d).
        { assert (Z.abs (2 ^ k' * A - B) <= 2 ^ k' * Z.abs A + Z.abs B).
          { rewrite <- (Z.abs_eq (2 ^ k')) at 2 by lia. rewrite <- Z.abs_mul. lia. }
          set (K := 2 ^ k') in *. assert (K * (2 * Z.abs A * 2 ^ 20) <= K * (1000000 * d)) by (apply Z.mul_le_mono_nonneg_l; lia).
          nia. }
        rewrite <- Heq, Z.abs_mul, (Z.abs_eq d) in Hab by lia. nia. }
    destruct G as (m' & e' & -> & ->). exact Htd.
Qed.
