(** * Positions of errors in JSON text: proofs *)
From Verif Require Import JsonTextProofs.
From Verif Require Export PositionSpec.
From Coq Require Import Lia.
Local Open Scope string_scope.
Local Open Scope list_scope.
Local Open Scope Z_scope.

(** ** Without positions this is the scanner of JsonTextModel.v *)
Definition erase {A} (q : qres A) : pres A :=
  match q with QOk a r => POk a r | QBad _ => PBad | QOof => POof end.
Definition erase_units (u : ures) : option (list Z * text) :=
  match u with UOk us r => Some (us, r) | UOpen | UAt _ => None end.
Lemma erase_bind {A B} (q : qres A) (f : A -> text -> qres B) (p : pres A) (g : A -> text -> pres B) :
  erase q = p -> (forall a r, erase (f a r) = g a r) -> erase (qbind q f) = pbind p g.
Proof. intros <- H. destruct q; cbn [erase qbind pbind]; auto. Qed.
Lemma erase_more u r : erase_units (more_at u r) = more_units u (erase_units r).
Proof. now destruct r. Qed.
Lemma units_erase_n n : forall s, (length s < n)%nat -> erase_units (units_at s) = units s.
Proof.
  induction n as [|n IH]; intros s Hl; [lia|]. destruct s as [|c s]; [reflexivity|]. cbn [units units_at]. cbn [length] in Hl.
  destruct (c =? 34); [reflexivity|]. destruct (c =? 92).
  - destruct s as [|e s]; [reflexivity|]. cbn [length] in Hl. destruct (e =? 117).
    + destruct s as [|h1 [|h2 [|h3 [|h4 s]]]]; try reflexivity. cbn [length] in Hl. destruct s as [|x s].
      * destruct (hex4 h1 h2 h3 h4); reflexivity.
      * destruct (hex4 h1 h2 h3 h4); [|reflexivity]. rewrite erase_more, IH by lia. reflexivity.
    + destruct (unescape e); [|reflexivity]. rewrite erase_more, IH by lia. reflexivity.
  - destruct (c <=? 31); [reflexivity|]. rewrite erase_more, IH by lia. reflexivity.
Qed.
Lemma units_erase s : erase_units (units_at s) = units s.
Proof. apply (units_erase_n (S (length s))). lia. Qed.
Lemma units_at_ok s us r : units_at s = UOk us r -> units s = Some (us, r).
Proof. intros H. rewrite <- units_erase, H. reflexivity. Qed.
Section Erase.
Variable T : textrt.
Variable sa : text -> qres value.
Variable sc : text -> pres value.
Hypothesis Hs : forall s, erase (sa s) = sc s.
Lemma elements_erase k : forall s, erase (elements_at sa k s) = elements sc k s.
Proof.
  induction k as [|k IH]; intros s; [reflexivity|]. cbn [elements elements_at]. apply erase_bind; [apply Hs|]. intros v r.
  destruct (skip r) as [|c r']; [reflexivity|]. destruct (c =? 93); [reflexivity|]. destruct (c =? 44); [|reflexivity].
  apply erase_bind; [apply IH|reflexivity].
Qed.
Lemma members_erase k : forall s, erase (members_at T sa k s) = members T sc k s.
Proof.
  induction k as [|k IH]; intros s; [reflexivity|]. cbn [members members_at]. destruct s as [|c s]; [reflexivity|].
  destruct (c =? 34); [|reflexivity]. rewrite <- units_erase. destruct (units_at s) as [us r1| |]; [|reflexivity|reflexivity].
  cbn [erase_units]. destruct (skip r1) as [|c2 r2]; [reflexivity|]. destruct (c2 =? 58); [|reflexivity].
  apply erase_bind; [apply Hs|]. intros v r. destruct (skip r) as [|c4 r4]; [reflexivity|]. destruct (c4 =? 125); [reflexivity|].
  destruct (c4 =? 44); [|reflexivity]. apply erase_bind; [apply IH|reflexivity].
Qed.
End Erase.
Lemma number_no_oof T s : number T s <> POof.
Proof.
  unfold number. destruct (minus s) as [neg r]. destruct (natural_part r) as [[ds r1]|]; [|discriminate].
  destruct (fraction_part r1) as [fr r2]. destruct (exponent_part r2) as [ex r3]. destruct fr, ex; discriminate.
Qed.
Lemma scan_erase T : forall n s, erase (scan_at T n s) = scan T n s.
Proof.
  induction n as [|n IH]; intros s; [reflexivity|]. cbn [scan scan_at]. destruct s as [|c s]; [reflexivity|].
  destruct (c =? 34). { rewrite <- units_erase. destruct (units_at s); reflexivity. }
  destruct (c =? 123). { destruct (strip [125] (skip s)); [reflexivity|]. apply erase_bind; [now apply members_erase|reflexivity]. }
  destruct (c =? 91). { destruct (strip [93] (skip s)); [reflexivity|]. apply erase_bind; [now apply elements_erase|reflexivity]. }
  destruct (strip (codes "null") (c :: s)); [reflexivity|]. destruct (strip (codes "true") (c :: s)); [reflexivity|].
  destruct (strip (codes "false") (c :: s)); [reflexivity|]. destruct (strip (codes "NaN") (c :: s)); [reflexivity|].
  destruct (strip (codes "Infinity") (c :: s)); [reflexivity|]. destruct (strip (codes "-Infinity") (c :: s)); [reflexivity|].
  pose proof (number_no_oof T (c :: s)). now destruct (number T (c :: s)).
Qed.

(** ** The scanner does not run out of fuel *)
Lemma skip_length s : (length (skip s) <= length s)%nat.
Proof. induction s as [|c s IH]; cbn [skip length]; [lia|]. destruct (is_ws c); cbn [length]; lia. Qed.
Lemma units_at_length s us r : units_at s = UOk us r -> (length r < length s)%nat.
Proof. intros H. apply units_at_ok, units_split in H as (t & -> & _). rewrite app_length. cbn [length]. lia. Qed.
Lemma scan_at_ok T n s v r : scan_at T n s = QOk v r -> exists t, s = t ++ r /\ json_value T t v.
Proof. intros H. apply (scan_sound T n). rewrite <- scan_erase, H. reflexivity. Qed.
Lemma scan_at_length T n s v r : scan_at T n s = QOk v r -> (length r < length s)%nat.
Proof. intros H. apply scan_at_ok in H as (t & -> & Ht). apply value_nonempty in Ht. rewrite app_length. lia. Qed.
Section Fuel.
Variable T : textrt.
Variable sa : text -> qres value.
Variable m : nat.
Hypothesis Hlen : forall s v r, sa s = QOk v r -> (length r < length s)%nat.
Hypothesis Hs : forall s, (length s < m)%nat -> sa s <> QOof.
Lemma elements_fuel k : forall s, (length s < k)%nat -> (length s < m)%nat -> elements_at sa k s <> QOof.
Proof.
  induction k as [|k IH]; intros s Hk Hm; [lia|]. cbn [elements_at]. destruct (sa s) as [v r| |] eqn:H; cbn [qbind]; [|discriminate|now apply Hs in H].
  apply Hlen in H. pose proof (skip_length r) as Hr. destruct (skip r) as [|c r']; [discriminate|]. destruct (c =? 93); [discriminate|].
  destruct (c =? 44); [|discriminate]. pose proof (skip_length r') as Hr'. cbn [length] in Hr.
  assert (K : elements_at sa k (skip r') <> QOof) by (apply IH; lia). destruct (elements_at sa k (skip r')); cbn [qbind]; congruence.
Qed.
Lemma members_fuel k : forall s, (length s < k)%nat -> (length s < m)%nat -> members_at T sa k s <> QOof.
Proof.
  induction k as [|k IH]; intros s Hk Hm; [lia|]. cbn [members_at]. destruct s as [|c s]; [discriminate|]. cbn [length] in *.
  destruct (c =? 34); [|discriminate]. destruct (units_at s) as [us r1| |] eqn:Hu; [|discriminate|discriminate].
  apply units_at_length in Hu. pose proof (skip_length r1) as H1. destruct (skip r1) as [|c2 r2]; [discriminate|].
  destruct (c2 =? 58); [|discriminate]. pose proof (skip_length r2) as H2. cbn [length] in H1.
  destruct (sa (skip r2)) as [v r| |] eqn:H; cbn [qbind]; [|discriminate|apply Hs in H; [destruct H|lia]].
  apply Hlen in H. pose proof (skip_length r) as Hr. destruct (skip r) as [|c4 r4]; [discriminate|]. destruct (c4 =? 125); [discriminate|].
  destruct (c4 =? 44); [|discriminate]. pose proof (skip_length r4) as Hr'. cbn [length] in Hr.
  assert (K : members_at T sa k (skip r4) <> QOof) by (apply IH; lia). destruct (members_at T sa k (skip r4)); cbn [qbind]; congruence.
Qed.
End Fuel.
Lemma scan_fuel T : forall n s, (length s < n)%nat -> scan_at T n s <> QOof.
Proof.
  induction n as [|n IH]; intros s Hl; [lia|]. cbn [scan_at]. destruct s as [|c s]; [discriminate|]. cbn [length] in Hl.
  pose proof (skip_length s) as Hk.
  destruct (c =? 34). { destruct (units_at s); discriminate. }
  destruct (c =? 123).
  { destruct (strip [125] (skip s)); [discriminate|].
    assert (K : members_at T (scan_at T n) (S (length s)) (skip s) <> QOof) by (apply members_fuel with (m := n); [apply scan_at_length|exact IH|lia|lia]).
    destruct (members_at T (scan_at T n) (S (length s)) (skip s)); cbn [qbind]; congruence. }
  destruct (c =? 91).
  { destruct (strip [93] (skip s)); [discriminate|].
    assert (K : elements_at (scan_at T n) (S (length s)) (skip s) <> QOof) by (apply elements_fuel with (m := n); [apply scan_at_length|exact IH|lia|lia]).
    destruct (elements_at (scan_at T n) (S (length s)) (skip s)); cbn [qbind]; congruence. }
  destruct (strip (codes "null") (c :: s)); [discriminate|]. destruct (strip (codes "true") (c :: s)); [discriminate|].
  destruct (strip (codes "false") (c :: s)); [discriminate|]. destruct (strip (codes "NaN") (c :: s)); [discriminate|].
  destruct (strip (codes "Infinity") (c :: s)); [discriminate|]. destruct (strip (codes "-Infinity") (c :: s)); [discriminate|].
  destruct (number T (c :: s)); discriminate.
Qed.
Lemma json_fault_none T s : json_fault T s = None <-> exists v, json_document T s v.
Proof.
  assert (K : json_fault T s = None <-> exists v, json_loads T s = Some v).
  { unfold json_fault, json_loads. rewrite <- scan_erase. pose proof (skip_length s) as Hk.
    pose proof (scan_fuel T (S (length s)) (skip s) ltac:(lia)) as Hf.
    destruct (scan_at T (S (length s)) (skip s)) as [v r|x|]; cbn [erase]; [|split; [discriminate|intros (v & Hv); discriminate]|now elim Hf].
    destruct (skip r); split; try discriminate; eauto. intros (v' & Hv). discriminate. }
  rewrite K. split; intros (v & Hv); exists v; now apply json_loads_iff.
Qed.

(** ** The scanner takes the longest text of a value *)
Definition suffix (r s : text) : Prop := exists p, s = p ++ r.
Lemma suffix_refl s : suffix s s.
Proof. now exists []. Qed.
Lemma suffix_trans a b c : suffix a b -> suffix b c -> suffix a c.
Proof. intros (p & ->) (q & ->). exists (q ++ p). now rewrite app_assoc. Qed.
Lemma suffix_length r s : suffix r s -> (length r <= length s)%nat.
Proof. intros (p & ->). rewrite app_length. lia. Qed.
Lemma span_more ds s : Forall digit ds -> span (ds ++ s) = (ds ++ fst (span s), snd (span s)).
Proof.
  induction 1 as [|c ds Hc _ IH]; cbn [app]; [now destruct (span s)|]. cbn [span]. apply is_dig_digit in Hc. now rewrite Hc, IH.
Qed.
Lemma span_suffix s : suffix (snd (span s)) s.
Proof. destruct (span s) as [ds r] eqn:H. apply span_split in H as (-> & _). now exists ds. Qed.
Lemma span_stop s : span s = ([], s) \/ exists c r, s = c :: r /\ digit c.
Proof. destruct s as [|c s]; [now left|]. cbn [span]. destruct (is_dig c) eqn:H; [right; exists c, s; split; [reflexivity|now apply is_dig_digit]|now left]. Qed.
Lemma fraction_suffix s : suffix (snd (fraction_part s)) s.
Proof. destruct (fraction_part s) as [f r] eqn:H. apply fraction_part_split in H as (-> & _). now exists f. Qed.
Lemma exponent_suffix s : suffix (snd (exponent_part s)) s.
Proof. destruct (exponent_part s) as [f r] eqn:H. apply exponent_part_split in H as (-> & _). now exists f. Qed.
Lemma exponent_greedy e s : e = [] \/ exponent e -> suffix (snd (exponent_part (e ++ s))) s.
Proof.
  intros [-> |(x & sg & ds & -> & Hx & Hsg & Hne & Hds)]; [apply exponent_suffix|].
  assert (G : forall r1 y, r1 = ds ++ s -> suffix (match fst (span r1) with [] => y | _ => snd (span r1) end) s).
  { intros r1 y ->. rewrite span_more by exact Hds. cbn [fst snd]. destruct ds as [|d ds]; [contradiction|]. cbn [app]. apply span_suffix. }
  assert (Hd : exists d ds', ds = d :: ds' /\ digit d) by (destruct ds as [|d ds']; [contradiction|]; exists d, ds'; split; [reflexivity|now inversion Hds]).
  destruct Hd as (d & ds' & Eds & Hd).
  assert (N : forall c, ((c =? 101) || (c =? 69)) = true ->
    suffix (snd (exponent_part (c :: sg ++ ds ++ s))) s).
  { intros c Hc. cbn [exponent_part]. rewrite Hc. destruct Hsg as [-> |[-> | ->]]; cbn [codes map list_ascii_of_string app].
    - assert (Hn : ((d =? 43) || (d =? 45)) = false) by (unfold digit in Hd; destruct (Z.eqb_spec d 43), (Z.eqb_spec d 45); try reflexivity; lia).
      specialize (G (ds ++ s) (c :: ds ++ s) eq_refl). subst ds. cbn [app] in *. rewrite Hn.
      destruct (span (d :: ds' ++ s)) as [[|d1 ds1] r2]; cbn [fst snd app] in G |- *; exact G.
    - change (Z.of_nat (code "+")) with 43. change ((43 =? 43) || (43 =? 45)) with true. cbv iota.
      specialize (G (ds ++ s) (c :: 43 :: ds ++ s) eq_refl). destruct (span (ds ++ s)) as [[|d1 ds1] r2]; cbn [fst snd] in G |- *; exact G.
    - change (Z.of_nat (code "-")) with 45. change ((45 =? 43) || (45 =? 45)) with true. cbv iota.
      specialize (G (ds ++ s) (c :: 45 :: ds ++ s) eq_refl). destruct (span (ds ++ s)) as [[|d1 ds1] r2]; cbn [fst snd] in G |- *; exact G. }
  rewrite <- !app_assoc. destruct Hx as [-> | ->]; apply N; reflexivity.
Qed.
Lemma exponent_first e s : e = [] \/ exponent e -> forall c r, e ++ s = c :: r -> c <> 101 -> c <> 69 -> e = [].
Proof.
  intros [-> |(x & sg & ds & -> & [-> | ->] & _)] c r H; [reflexivity| |]; cbn in H; injection H as <- _; intros; exfalso; cbn in *; congruence.
Qed.
Lemma fraction_greedy f e s : f = [] \/ fraction f -> e = [] \/ exponent e ->
  suffix (snd (exponent_part (snd (fraction_part (f ++ e ++ s))))) s.
Proof.
  intros Hf He.
  (* either the fraction is f, or e is empty and what is left is a suffix of s *)
  assert (K : snd (fraction_part (f ++ e ++ s)) = e ++ s \/ suffix (snd (fraction_part (f ++ e ++ s))) s).
  { destruct Hf as [-> |(ds & -> & Hne & Hds)].
    - cbn [app]. unfold fraction_part at 1 2. destruct (e ++ s) as [|c y] eqn:Hy; [now left|].
      destruct (Z.eqb_spec c 46) as [->|Hc]; [|now left]. assert (He0 : e = []) by (eapply exponent_first; eauto; lia). subst e. cbn [app] in Hy. subst s.
      pose proof (span_suffix y) as Hs. destruct (span y) as [[|d ds] r]; [now left|]. right. cbn [snd] in *.
      apply (suffix_trans _ y); [exact Hs|]. now exists [46].
    - rewrite <- app_assoc. cbn [codes map list_ascii_of_string app fraction_part]. change (Z.of_nat (code ".") =? 46) with true. cbv iota.
      rewrite span_more by exact Hds. destruct ds as [|d ds]; [contradiction|]. cbn [app].
      destruct (span_stop (e ++ s)) as [H|(c & r & H & Hc)]; [left; now rewrite H|]. right. unfold digit in Hc.
      assert (He0 : e = []) by (eapply exponent_first; eauto; lia). subst e. cbn [app snd]. apply span_suffix. }
  destruct K as [-> |K]; [now apply exponent_greedy|]. eapply suffix_trans; [apply exponent_suffix|exact K].
Qed.
Lemma fraction_first f s : f = [] \/ fraction f -> forall c r, f ++ s = c :: r -> c <> 46 -> f = [].
Proof. intros [-> |(ds & -> & _)] c r H; [reflexivity|]. cbn in H. injection H as <- _. intros; exfalso; cbn in *; congruence. Qed.
(** Numbers *)
Lemma number_greedy T neg t f e s v r : natural t -> f = [] \/ fraction f -> e = [] \/ exponent e ->
  number T (sign neg ++ t ++ f ++ e ++ s) = POk v r -> suffix r s.
Proof.
  intros Ht Hf He. unfold number. destruct (natural_start _ Ht) as (c0 & ds0 & E0 & Hd0).
  rewrite (minus_ok neg) by (rewrite E0; intros c' ds' H; injection H as <- _; unfold digit in Hd0; lia).
  assert (K : exists q r1, natural_part (t ++ f ++ e ++ s) = Some (q, r1) /\ (r1 = f ++ e ++ s \/ suffix r1 s)).
  { destruct Ht as [-> |(c & ds & -> & Hc & Hds)].
    - cbn [codes map list_ascii_of_string app natural_part]. eexists _, _. split; [reflexivity|now left].
    - cbn [app natural_part]. destruct (Z.eqb_spec c 48); [lia|]. rewrite (proj2 (is_dig_digit c)) by (unfold digit; lia).
      rewrite span_more by exact Hds. eexists _, _. split; [reflexivity|].
      destruct (span_stop (f ++ e ++ s)) as [H|(c1 & r1 & H & Hc1)]; [left; now rewrite H|]. right. unfold digit in Hc1.
      assert (Hf0 : f = []) by (eapply fraction_first; eauto; lia). subst f. cbn [app] in *.
      assert (He0 : e = []) by (eapply exponent_first; eauto; lia). subst e. apply span_suffix. }
  destruct K as (q & r1 & -> & K).
  assert (G : suffix (snd (exponent_part (snd (fraction_part r1)))) s).
  { destruct K as [-> |K]; [now apply fraction_greedy|].
    eapply suffix_trans; [apply exponent_suffix|]. eapply suffix_trans; [apply fraction_suffix|exact K]. }
  destruct (fraction_part r1) as [fr r2]. cbn [snd] in G. destruct (exponent_part r2) as [ex r3]. cbn [snd] in G.
  destruct fr, ex; intros H; injection H as _ <-; exact G.
Qed.
(** Everything else does not depend on what follows. *)
Scheme json_elements_only := Minimality for json_elements Sort Prop.
Scheme json_members_only := Minimality for json_members Sort Prop.
Lemma elements_complete T t l : json_elements T t l -> scans_elements T t l.
Proof.
  induction 1 as [w t w' v Hw Ht Hw'|w t w' v ts vs Hw Ht Hw' _ IH] using json_elements_only; intros n k rest Hn Hk; rewrite !app_length in *.
  - destruct k as [|k]; [lia|]. rewrite <- !app_assoc, skip_spaces, (skip_value T t v) by assumption. cbn [elements].
    rewrite (scan_value T t v Ht) by (try apply delimited_spaces; auto; lia). cbn [pbind].
    rewrite skip_to by (auto; unfold space; lia). reflexivity.
  - destruct k as [|k]; [lia|]. rewrite <- !app_assoc, skip_spaces, (skip_value T t v) by assumption. cbn [elements].
    change (codes "," ++ ts ++ 93 :: rest) with (44 :: ts ++ 93 :: rest).
    rewrite (scan_value T t v Ht) by (try apply delimited_spaces; auto; lia). cbn [pbind].
    rewrite skip_to by (auto; unfold space; lia). change (44 =? 93) with false. change (44 =? 44) with true. cbv iota.
    cbn [codes map list_ascii_of_string length] in *. rewrite IH by lia. reflexivity.
Qed.
Lemma members_complete T t l : json_members T t l -> scans_members T t l.
Proof.
  induction 1 as [w tk k0 w1 w2 t v w' Hw Hk0 Hw1 Hw2 Ht Hw'|w tk k0 w1 w2 t v w' ts kvs Hw Hk0 Hw1 Hw2 Ht Hw' _ IH] using json_members_only;
    intros n k rest Hn Hk; rewrite !app_length in *; (destruct k as [|k]; [lia|]).
  - rewrite <- !app_assoc, skip_spaces, (skip_string T tk k0) by assumption. destruct (units_string T tk k0 (w1 ++ codes ":" ++ w2 ++ t ++ w' ++ 125 :: rest) Hk0) as (x & us & -> & Hu & Hj).
    cbn [app members]. change (34 =? 34) with true. cbv iota. rewrite Hu.
    change (codes ":" ++ w2 ++ t ++ w' ++ 125 :: rest) with (58 :: w2 ++ t ++ w' ++ 125 :: rest).
    rewrite skip_to by (auto; unfold space; lia). change (58 =? 58) with true. cbv iota.
    rewrite skip_spaces, (skip_value T t v) by assumption.
    rewrite (scan_value T t v Ht) by (try apply delimited_spaces; auto; lia). cbn [pbind].
    rewrite skip_to by (auto; unfold space; lia). rewrite Hj. reflexivity.
  - rewrite <- !app_assoc, skip_spaces, (skip_string T tk k0) by assumption. destruct (units_string T tk k0 (w1 ++ codes ":" ++ w2 ++ t ++ w' ++ codes "," ++ ts ++ 125 :: rest) Hk0) as (x & us & -> & Hu & Hj).
    cbn [app members]. change (34 =? 34) with true. cbv iota. rewrite Hu.
    change (codes ":" ++ w2 ++ t ++ w' ++ codes "," ++ ts ++ 125 :: rest) with (58 :: w2 ++ t ++ w' ++ 44 :: ts ++ 125 :: rest).
    rewrite skip_to by (auto; unfold space; lia). change (58 =? 58) with true. cbv iota.
    rewrite skip_spaces, (skip_value T t v) by assumption.
    rewrite (scan_value T t v Ht) by (try apply delimited_spaces; auto; lia). cbn [pbind].
    rewrite skip_to by (auto; unfold space; lia). change (44 =? 125) with false. change (44 =? 44) with true. cbv iota.
    cbn [codes map list_ascii_of_string length] in *. rewrite IH by lia. rewrite Hj. reflexivity.
Qed.
Definition number_text (t : text) : Prop := exists neg d f e,
  t = sign neg ++ d ++ f ++ e /\ natural d /\ (f = [] \/ fraction f) /\ (e = [] \/ exponent e).
Lemma value_complete T t v : json_value T t v -> number_text t \/
  forall n rest, (length t < n)%nat -> scan T n (t ++ rest) = POk v rest.
Proof.
  intros H. destruct H as [| | | | | |neg t Ht|neg t f e Ht Hf He _|t s Hs|w Hw|t l Hl|w Hw|t kvs Hl];
    try (right; intros [|n] rest Hn; [cbn in Hn; lia|reflexivity]).
  - left. exists neg, t, [], []. rewrite !app_nil_r. auto.
  - left. exists neg, t, f, e. auto.
  - right. intros [|n] rest Hn; [lia|]. destruct (units_string T t s rest Hs) as (x & us & -> & Hu & Hj). cbn [app scan].
    change (34 =? 34) with true. cbv iota. rewrite Hu, Hj. reflexivity.
  - right. intros [|n] rest Hn; [lia|]. rewrite <- !app_assoc. cbn [codes map list_ascii_of_string app scan].
    change (Z.of_nat (code "[")) with 91. change (Z.of_nat (code "]")) with 93.
    change (91 =? 34) with false. change (91 =? 123) with false. change (91 =? 91) with true. cbv iota.
    rewrite skip_to by (auto; unfold space; lia). reflexivity.
  - right. intros [|n] rest Hn; [lia|]. rewrite <- !app_assoc. cbn [codes map list_ascii_of_string app scan].
    change (Z.of_nat (code "[")) with 91. change (Z.of_nat (code "]")) with 93.
    change (91 =? 34) with false. change (91 =? 123) with false. change (91 =? 91) with true. cbv iota.
    destruct (elements_starts T t l (93 :: rest) Hl) as (c & y & Hy & Hc).
    assert (Hst : strip [93] (skip (t ++ 93 :: rest)) = None) by (rewrite Hy; apply strip_head; unfold starts_value in Hc; intuition congruence).
    rewrite Hst. rewrite !app_length in Hn. cbn [codes map list_ascii_of_string length] in Hn.
    rewrite (elements_complete T t l Hl) by (rewrite ?app_length; cbn [length]; lia). reflexivity.
  - right. intros [|n] rest Hn; [lia|]. rewrite <- !app_assoc. cbn [codes map list_ascii_of_string app scan].
    change (Z.of_nat (code "{")) with 123. change (Z.of_nat (code "}")) with 125.
    change (123 =? 34) with false. change (123 =? 123) with true. cbv iota.
    rewrite skip_to by (auto; unfold space; lia). reflexivity.
  - right. intros [|n] rest Hn; [lia|]. rewrite <- !app_assoc. cbn [codes map list_ascii_of_string app scan].
    change (Z.of_nat (code "{")) with 123. change (Z.of_nat (code "}")) with 125.
    change (123 =? 34) with false. change (123 =? 123) with true. cbv iota.
    destruct (members_starts T t kvs (125 :: rest) Hl) as (y & Hy).
    assert (Hst : strip [125] (skip (t ++ 125 :: rest)) = None) by (rewrite Hy; apply strip_head; lia).
    rewrite Hst. rewrite !app_length in Hn. cbn [codes map list_ascii_of_string length] in Hn.
    rewrite (members_complete T t kvs Hl) by (rewrite ?app_length; cbn [length]; lia). reflexivity.
Qed.
Lemma number_scan T n neg d y : natural d -> scan T (S n) (sign neg ++ d ++ y) = number T (sign neg ++ d ++ y).
Proof. intros Hd. destruct (number_first neg d y Hd) as (c & s & -> & Hc & Hm). now apply scan_number. Qed.
(** More fuel changes nothing. *)
Lemma elements_mono (sc sc' : text -> pres value) : (forall s v r, sc s = POk v r -> sc' s = POk v r) ->
  forall k k' s l r, (k <= k')%nat -> elements sc k s = POk l r -> elements sc' k' s = POk l r.
Proof.
  intros Hsc. induction k as [|k IH]; intros k' s l r Hk H; [discriminate|]. destruct k' as [|k']; [lia|]. cbn [elements] in *.
  apply pbind_ok in H as (v & r1 & Hv & H). rewrite (Hsc _ _ _ Hv). cbn [pbind]. destruct (skip r1) as [|c r2]; [discriminate|].
  destruct (c =? 93); [exact H|]. destruct (c =? 44); [|discriminate]. apply pbind_ok in H as (vs & r3 & He & H).
  rewrite (IH k' _ _ _ ltac:(lia) He). exact H.
Qed.
Lemma members_mono T (sc sc' : text -> pres value) : (forall s v r, sc s = POk v r -> sc' s = POk v r) ->
  forall k k' s l r, (k <= k')%nat -> members T sc k s = POk l r -> members T sc' k' s = POk l r.
Proof.
  intros Hsc. induction k as [|k IH]; intros k' s l r Hk H; [discriminate|]. destruct k' as [|k']; [lia|]. cbn [members] in *.
  destruct s as [|c s]; [discriminate|]. destruct (c =? 34); [|discriminate]. destruct (units s) as [[us r1]|]; [|discriminate].
  destruct (skip r1) as [|c2 r2]; [discriminate|]. destruct (c2 =? 58); [|discriminate].
  apply pbind_ok in H as (v & r3 & Hv & H). rewrite (Hsc _ _ _ Hv). cbn [pbind]. destruct (skip r3) as [|c4 r4]; [discriminate|].
  destruct (c4 =? 125); [exact H|]. destruct (c4 =? 44); [|discriminate]. apply pbind_ok in H as (vs & r5 & He & H).
  rewrite (IH k' _ _ _ ltac:(lia) He). exact H.
Qed.
Lemma scan_mono T : forall n n' s v r, (n <= n')%nat -> scan T n s = POk v r -> scan T n' s = POk v r.
Proof.
  induction n as [|n IH]; intros n' s v r Hn H; [discriminate|]. destruct n' as [|n']; [lia|]. cbn [scan] in *.
  destruct s as [|c s]; [discriminate|]. destruct (c =? 34); [exact H|]. destruct (c =? 123).
  { destruct (strip [125] (skip s)); [exact H|]. apply pbind_ok in H as (l & r1 & Hl & H).
    rewrite (members_mono T (scan T n) (scan T n') ltac:(intros; apply IH; [lia|assumption]) (S (length s)) (S (length s)) _ _ _ (le_n _) Hl). exact H. }
  destruct (c =? 91); [|exact H].
  destruct (strip [93] (skip s)); [exact H|]. apply pbind_ok in H as (l & r1 & Hl & H).
  rewrite (elements_mono (scan T n) (scan T n') ltac:(intros; apply IH; [lia|assumption]) (S (length s)) (S (length s)) _ _ _ (le_n _) Hl). exact H.
Qed.
Lemma scan_longest T n s v r t : scan T n s = POk v r -> s = t ++ r -> longest T t r.
Proof.
  intros H Hs t' v' s' Hv' He. subst s. destruct (value_complete T t' v' Hv') as [(neg & d & f & e & -> & Hd & Hf & Hx)|K].
  - assert (Hn : number T (sign neg ++ d ++ f ++ e ++ s') = POk v r).
    { destruct n as [|n]; [discriminate|]. rewrite He, <- !app_assoc, number_scan in H by exact Hd. exact H. }
    apply number_greedy, suffix_length in Hn; [|assumption..]. apply (f_equal (@length Z)) in He. rewrite !app_length in *. lia.
  - apply (scan_mono T n (n + S (length t'))) in H; [|lia]. rewrite He, K in H by lia. injection H as _ <-. 
    apply (f_equal (@length Z)) in He. rewrite !app_length in *. lia.
Qed.
Lemma scan_at_longest T n s v r : scan_at T n s = QOk v r -> exists t, s = t ++ r /\ json_value T t v /\ longest T t r.
Proof.
  intros H. destruct (scan_at_ok T n s v r H) as (t & Ht & Hv). exists t. split; [exact Ht|]. split; [exact Hv|].
  apply (scan_longest T n s v); [|exact Ht]. rewrite <- scan_erase, H. reflexivity.
Qed.

(** ** What is reported is where the text goes wrong *)
Lemma not_begins_nil (p : Z -> Prop) : ~ begins_with p [].
Proof. intros (c & r & H & _). discriminate. Qed.
Lemma not_begins (p : Z -> Prop) c r : ~ p c -> ~ begins_with p (c :: r).
Proof. intros H (c' & r' & H' & Hp). injection H' as <- <-. contradiction. Qed.
Lemma begins (p : Z -> Prop) c r : p c -> begins_with p (c :: r).
Proof. intros H. now exists c, r. Qed.
Lemma skip_no_space s : ~ begins_with space (skip s).
Proof.
  induction s as [|c s IH]; cbn [skip]; [apply not_begins_nil|]. destruct (is_ws c) eqn:Hc; [exact IH|].
  apply not_begins. rewrite <- is_ws_space, Hc. discriminate.
Qed.
Lemma escape_not_u u : ~ In (117, u) escapes.
Proof. cbn. intuition discriminate. Qed.
Lemma unit_plain c s : c <> 92 -> ends_in_unit (c :: s) -> ends_in_unit s.
Proof.
  intros Hc (t & us & h1 & h2 & h3 & h4 & Ht & H). destruct Ht as [|c' t us H1 H2 H3 Ht|e u t us He Ht|a' b' c' d' va vb vc vd t us Ha Hb Hd Hx Ht];
    cbn [app] in H; injection H as -> H; try contradiction. exists t, us, h1, h2, h3, h4. auto.
Qed.
Lemma unit_escape e s : e <> 117 -> ends_in_unit (92 :: e :: s) -> ends_in_unit s.
Proof.
  intros Hc (t & us & h1 & h2 & h3 & h4 & Ht & H). destruct Ht as [|c' t us H1 H2 H3 Ht|e' u t us He Ht|a' b' c' d' va vb vc vd t us Ha Hb Hd Hx Ht];
    cbn [app] in H.
  - injection H as -> _. contradiction.
  - injection H as <- _. contradiction.
  - injection H as _ H. exists t, us, h1, h2, h3, h4. auto.
  - injection H as -> _. contradiction.
Qed.
Lemma unit_unit a b c d s : s <> [] -> ends_in_unit (92 :: 117 :: a :: b :: c :: d :: s) -> ends_in_unit s.
Proof.
  intros Hs (t & us & h1 & h2 & h3 & h4 & Ht & H). destruct Ht as [|c' t us H1 H2 H3 Ht|e u t us He Ht|a' b' c' d' va vb vc vd t us Ha Hb Hd Hx Ht];
    cbn [app] in H.
  - injection H as _ _ _ _ H. contradiction.
  - injection H as <- _. contradiction.
  - injection H as <- _. now apply escape_not_u in He.
  - injection H as _ _ _ _ H. exists t, us, h1, h2, h3, h4. auto.
Qed.
(** What precedes an error in a string *)
Lemma units_bad_n n : forall s, (length s < n)%nat ->
  match units_at s with
  | UOk _ _ => True
  | UOpen => exists t us, chars t us /\ (s = t /\ ~ ends_in_unit t \/ s = t ++ [92])
  | UAt x => exists t us, chars t us /\
      ((exists c r, s = t ++ c :: r /\ x = c :: r /\ c < 32) \/
       (exists e r, s = t ++ 92 :: e :: r /\ x = 92 :: e :: r /\ e <> 117 /\ forall u, ~ In (e, u) escapes) \/
       (exists r, s = t ++ 92 :: 117 :: r /\ x = 117 :: r /\
          forall a b c d y r', r = a :: b :: c :: d :: y :: r' ->
            ~ ((exists v, hex_value a v) /\ (exists v, hex_value b v) /\ (exists v, hex_value c v) /\ (exists v, hex_value d v))))
  end.
Proof.
  induction n as [|n IH]; intros s Hl; [lia|]. destruct s as [|c s].
  { exists [], []. split; [constructor|]. left. split; [reflexivity|]. intros (t & us & h1 & h2 & h3 & h4 & _ & H). destruct t; discriminate. }
  cbn [units_at]. cbn [length] in Hl.
  (* prefixing *)
  assert (K : forall p u s', (length s' < n)%nat -> (forall t us, chars t us -> chars (p ++ t) (u :: us)) ->
    (ends_in_unit (p ++ s') -> ends_in_unit s') ->
    match more_at u (units_at s') with
    | UOk _ _ => True
    | UOpen => exists t us, chars t us /\ (p ++ s' = t /\ ~ ends_in_unit t \/ p ++ s' = t ++ [92])
    | UAt x => exists t us, chars t us /\
        ((exists c r, p ++ s' = t ++ c :: r /\ x = c :: r /\ c < 32) \/
         (exists e r, p ++ s' = t ++ 92 :: e :: r /\ x = 92 :: e :: r /\ e <> 117 /\ forall u, ~ In (e, u) escapes) \/
         (exists r, p ++ s' = t ++ 92 :: 117 :: r /\ x = 117 :: r /\
            forall a b c d y r', r = a :: b :: c :: d :: y :: r' ->
              ~ ((exists v, hex_value a v) /\ (exists v, hex_value b v) /\ (exists v, hex_value c v) /\ (exists v, hex_value d v))))
    end).
  { intros p u s' Hs' Hp Hq. specialize (IH s' Hs'). destruct (units_at s') as [us r| |x]; cbn [more_at]; [exact I| |].
    - destruct IH as (t & us & Hc & [[-> Hu]| ->]); exists (p ++ t), (u :: us); (split; [now apply Hp|]); [left; split; [reflexivity|now intros H; apply Hu, Hq]|right; now rewrite app_assoc].
    - destruct IH as (t & us & Hc & H). exists (p ++ t), (u :: us). split; [now apply Hp|].
      destruct H as [(c' & r & -> & Hx & H)|[(e & r & -> & Hx & H)|(r & -> & Hx & H)]].
      + left. exists c', r. split; [now rewrite app_assoc|auto].
      + right. left. exists e, r. split; [now rewrite app_assoc|auto].
      + right. right. exists r. split; [now rewrite app_assoc|auto]. }
  destruct (Z.eqb_spec c 34) as [->|H34]; [exact I|]. destruct (Z.eqb_spec c 92) as [->|H92].
  - destruct s as [|e s]; [exists [], []; split; [constructor|now right]|]. cbn [length] in Hl.
    destruct (Z.eqb_spec e 117) as [->|He].
    + assert (B : (forall a b c d y r', s = a :: b :: c :: d :: y :: r' ->
            ~ ((exists v, hex_value a v) /\ (exists v, hex_value b v) /\ (exists v, hex_value c v) /\ (exists v, hex_value d v))) ->
          exists t us, chars t us /\
          ((exists c r, 92 :: 117 :: s = t ++ c :: r /\ 117 :: s = c :: r /\ c < 32) \/
           (exists e r, 92 :: 117 :: s = t ++ 92 :: e :: r /\ 117 :: s = 92 :: e :: r /\ e <> 117 /\ forall u, ~ In (e, u) escapes) \/
           (exists r, 92 :: 117 :: s = t ++ 92 :: 117 :: r /\ 117 :: s = 117 :: r /\
              forall a b c d y r', r = a :: b :: c :: d :: y :: r' ->
                ~ ((exists v, hex_value a v) /\ (exists v, hex_value b v) /\ (exists v, hex_value c v) /\ (exists v, hex_value d v))))).
      { intros H. exists [], []. split; [constructor|]. right. right. exists s. auto. }
      destruct s as [|h1 [|h2 [|h3 [|h4 [|y s]]]]]; try (apply B; intros; discriminate).
      destruct (hex4 h1 h2 h3 h4) as [u|] eqn:Hx.
      * apply hex4_value in Hx as (a' & b' & c' & d' & Ha & Hb & Hc' & Hd & ->). cbn [length] in Hl.
        apply (K [92; 117; h1; h2; h3; h4] _ (y :: s)); [cbn [length]; lia| |now apply unit_unit]. intros t us Hc. cbn [app]. now constructor.
      * apply B. intros a b c d y' r' Hr ((va & Ha) & (vb & Hb) & (vc & Hc) & (vd & Hd)). injection Hr as <- <- <- <- <- <-.
        enough (hex4 h1 h2 h3 h4 <> None) by contradiction. unfold hex4. apply hex_unit_value in Ha, Hb, Hc, Hd. rewrite Ha, Hb, Hc, Hd. discriminate.
    + destruct (unescape e) as [u|] eqn:Hx.
      * apply unescape_ok in Hx. apply (K [92; e] u s); [lia| |now apply unit_escape]. intros t us Hc. cbn [app]. now constructor.
      * exists [], []. split; [constructor|]. right. left. exists e, s. repeat split; auto. intros u Hu. apply unescape_ok in Hu. congruence.
  - destruct (Z.leb_spec c 31).
    + exists [], []. split; [constructor|]. left. exists c, s. repeat split. lia.
    + apply (K [c] c s); [lia| |now apply unit_plain]. intros t us Hc. cbn [app]. constructor; auto. lia.
Qed.
Lemma units_open s : units_at s = UOpen -> wrong_string (34 :: s) (34 :: s).
Proof.
  intros H. pose proof (units_bad_n (S (length s)) s ltac:(lia)) as K. rewrite H in K.
  destruct K as (t & us & Hc & [[-> Hu]| ->]); [eapply ws_open; eauto|eapply ws_open_escape; eauto].
Qed.
Lemma units_bad s x : units_at s = UAt x -> wrong_string (34 :: s) x.
Proof.
  intros H. pose proof (units_bad_n (S (length s)) s ltac:(lia)) as K. rewrite H in K.
  destruct K as (t & us & Hc & [(c & r & -> & -> & H1)|[(e & r & -> & -> & H1 & H2)|(r & -> & -> & H1)]]).
  - eapply ws_control; eauto.
  - eapply ws_escape; eauto.
  - eapply ws_unit; eauto.
Qed.
Lemma qbind_bad {A B} (q : qres A) (f : A -> text -> qres B) x :
  qbind q f = QBad x -> q = QBad x \/ exists a r, q = QOk a r /\ f a r = QBad x.
Proof. destruct q as [a r| |]; cbn [qbind]; [right; eauto|left; congruence|discriminate]. Qed.
Section Reported.
Variable T : textrt.
Variable sa : text -> qres value.
Hypothesis Hok : forall s v r, sa s = QOk v r -> exists t, s = t ++ r /\ json_value T t v /\ longest T t r.
Hypothesis Hbad : forall s x, sa s = QBad x -> wrong T s x.
Lemma elements_bad k : forall s x, elements_at sa k s = QBad x -> wrong_elements T s x.
Proof.
  induction k as [|k IH]; intros s x H; cbn [elements_at] in H; [discriminate|].
  apply qbind_bad in H as [H|(v & r & H & H')]; [constructor; now apply Hbad|].
  apply Hok in H as (t & -> & Ht & Hlo). destruct (skip_split r) as (w & Hw & Hs). pose proof (skip_no_space r) as Hn. rewrite Hs in Hlo |- *.
  destruct (skip r) as [|c r1].
  - injection H' as <-. eapply we_after; eauto using not_begins_nil.
  - destruct (Z.eqb_spec c 93) as [->|H93]; [discriminate|]. destruct (Z.eqb_spec c 44) as [->|H44].
    + apply qbind_bad in H' as [H'|(vs & r2 & _ & H')]; [|discriminate]. apply IH in H'.
      destruct (skip_split r1) as (w' & Hw' & Hs'). rewrite Hs'. exact (we_more T t v w w' _ x Ht Hw Hw' (skip_no_space r1) H').
    + injection H' as <-. eapply we_after; eauto. apply not_begins. intros [Hc|[Hc|Hc]]; [now apply Hn, begins|contradiction|contradiction].
Qed.
Lemma members_bad k : forall s x, members_at T sa k s = QBad x -> wrong_members T s x.
Proof.
  induction k as [|k IH]; intros s x H; cbn [members_at] in H; [discriminate|].
  destruct s as [|c s]; [injection H as <-; constructor; apply not_begins_nil|].
  destruct (Z.eqb_spec c 34) as [->|H34]; [|injection H as <-; constructor; now apply not_begins].
  destruct (units_at s) as [us r1| |y] eqn:Hu; [|injection H as <-; now apply wm_string, units_open|injection H as <-; now apply wm_string, units_bad].
  apply units_at_ok, (units_json_string T) in Hu as (tk & Hk & Hst). rewrite Hk.
  destruct (skip_split r1) as (w1 & Hw1 & Hs1). pose proof (skip_no_space r1) as Hn1. rewrite Hs1. destruct (skip r1) as [|c2 r2].
  { injection H as <-. eapply wm_colon; eauto using not_begins_nil. }
  destruct (Z.eqb_spec c2 58) as [->|H58].
  2:{ injection H as <-. eapply wm_colon; eauto. apply not_begins. intros [Hc|Hc]; [now apply Hn1, begins|contradiction]. }
  destruct (skip_split r2) as (w2 & Hw2 & Hs2). rewrite Hs2.
  apply qbind_bad in H as [H|(v & r3 & H & H')].
  { apply Hbad in H. exact (wm_value T tk _ w1 w2 _ x Hst Hw1 Hw2 (skip_no_space r2) H). }
  apply Hok in H as (t & Ht & Hj & Hlo). rewrite Ht.
  destruct (skip_split r3) as (w3 & Hw3 & Hs3). pose proof (skip_no_space r3) as Hn3. rewrite Hs3 in Hlo |- *. destruct (skip r3) as [|c4 r4].
  { injection H' as <-. eapply (wm_after T tk _ w1 w2 t v w3 []); eauto using not_begins_nil. }
  destruct (Z.eqb_spec c4 125) as [->|H125]; [discriminate|]. destruct (Z.eqb_spec c4 44) as [->|H44].
  - apply qbind_bad in H' as [H'|(vs & r5 & _ & H')]; [|discriminate]. apply IH in H'.
    destruct (skip_split r4) as (w4 & Hw4 & Hs4). rewrite Hs4. eapply (wm_more T tk _ w1 w2 t v w3 w4 _ x); eauto using skip_no_space.
  - injection H' as <-. eapply (wm_after T tk _ w1 w2 t v w3 (c4 :: r4)); eauto.
    apply not_begins. intros [Hc|[Hc|Hc]]; [now apply Hn3, begins|contradiction|contradiction].
Qed.
End Reported.
(** A text at which there is neither a literal nor a number *)
Lemma number_some T neg t r : natural t -> number T (sign neg ++ t ++ r) <> PBad.
Proof.
  intros Ht. unfold number. destruct (natural_start _ Ht) as (c & ds & -> & Hd).
  rewrite (minus_ok neg) by (intros c' ds' H; injection H as <- _; unfold digit in Hd; lia).
  cbn [app natural_part]. apply is_dig_digit in Hd. rewrite Hd.
  assert (K : forall q : text * text, (let (fr, r2) := fraction_part (snd q) in let (ex, r3) := exponent_part r2 in
      match fr, ex with
      | [], [] => POk (VInt (if neg then - digits_value (fst q) else digits_value (fst q))) r3
      | _, _ => POk (VFloat (tr_read T ((if neg then [45] else []) ++ fst q ++ fr ++ ex))) r3
      end) <> PBad).
  { intros q. destruct (fraction_part (snd q)) as [fr r2]. destruct (exponent_part r2) as [ex r3]. destruct fr, ex; discriminate. }
  destruct (c =? 48); [exact (K ([c], ds ++ r))|]. destruct (span (ds ++ r)) as [ds' r']. exact (K (c :: ds', r')).
Qed.
Lemma no_token T s : ~ begins_with (fun c => c = 34 \/ c = 91 \/ c = 123) s ->
  strip (codes "null") s = None -> strip (codes "true") s = None -> strip (codes "false") s = None ->
  strip (codes "NaN") s = None -> strip (codes "Infinity") s = None -> strip (codes "-Infinity") s = None ->
  number T s = PBad -> forall t v r, json_value T t v -> s <> t ++ r.
Proof.
  intros Hb S1 S2 S3 S4 S5 S6 Hn t v r Hv ->. destruct Hv as [| | | | | |neg t Ht|neg t f e Ht _ _ _|t s Hs|w _|t l _|w _|t kvs _].
  - now rewrite strip_ok in S1.
  - now rewrite strip_ok in S2.
  - now rewrite strip_ok in S3.
  - now rewrite strip_ok in S4.
  - now rewrite strip_ok in S5.
  - now rewrite strip_ok in S6.
  - rewrite <- app_assoc in Hn. now apply number_some in Hn.
  - rewrite <- !app_assoc in Hn. now apply number_some in Hn.
  - apply string_starts in Hs as (t' & ->). apply Hb. cbn [app]. apply begins. auto.
  - apply Hb. cbn [app codes map list_ascii_of_string]. apply begins. auto.
  - apply Hb. cbn [app codes map list_ascii_of_string]. apply begins. auto.
  - apply Hb. cbn [app codes map list_ascii_of_string]. apply begins. auto.
  - apply Hb. cbn [app codes map list_ascii_of_string]. apply begins. auto.
Qed.
Lemma strip_none c s : strip [c] s = None -> ~ begins_with (fun x => x = c) s.
Proof. intros H (c' & r & -> & ->). cbn [strip] in H. rewrite Z.eqb_refl in H. discriminate. Qed.
Lemma skip_strip c s : strip [c] (skip s) = None -> ~ begins_with (fun x => space x \/ x = c) (skip s).
Proof.
  intros H (c' & r & Hr & [Hs|Hc]); [apply (skip_no_space s)|apply (strip_none c _ H)]; rewrite Hr; now apply begins.
Qed.
Lemma scan_bad T : forall n s x, scan_at T n s = QBad x -> wrong T s x.
Proof.
  induction n as [|n IH]; intros s x H; [discriminate|]. cbn [scan_at] in H. destruct s as [|c s].
  { injection H as <-. apply wg_token; [|apply not_begins_nil]. intros t v r Hv Ht. apply value_nonempty in Hv.
    apply (f_equal (@length Z)) in Ht. rewrite app_length in Ht. cbn [length] in Ht. lia. }
  destruct (Z.eqb_spec c 34) as [->|H34].
  { destruct (units_at s) as [us r| |y] eqn:Hu; [discriminate|injection H as <-; now apply wg_string, units_open|injection H as <-; now apply wg_string, units_bad]. }
  destruct (Z.eqb_spec c 123) as [->|H123].
  { destruct (skip_split s) as (w & Hw & Hs). destruct (strip [125] (skip s)) as [r'|] eqn:Hc; [discriminate|].
    apply qbind_bad in H as [H|(vs & r2 & _ & H)]; [|discriminate].
    apply (members_bad T _ (scan_at_longest T n) IH) in H. rewrite Hs. apply (wg_dict T w); auto. now apply skip_strip. }
  destruct (Z.eqb_spec c 91) as [->|H91].
  { destruct (skip_split s) as (w & Hw & Hs). destruct (strip [93] (skip s)) as [r'|] eqn:Hc; [discriminate|].
    apply qbind_bad in H as [H|(vs & r2 & _ & H)]; [|discriminate].
    apply (elements_bad T _ (scan_at_longest T n) IH) in H. rewrite Hs. apply (wg_list T w); auto. now apply skip_strip. }
  assert (Hb : ~ begins_with (fun c => c = 34 \/ c = 91 \/ c = 123) (c :: s)) by (apply not_begins; tauto).
  destruct (strip (codes "null") (c :: s)) eqn:S1; [discriminate|]. destruct (strip (codes "true") (c :: s)) eqn:S2; [discriminate|].
  destruct (strip (codes "false") (c :: s)) eqn:S3; [discriminate|]. destruct (strip (codes "NaN") (c :: s)) eqn:S4; [discriminate|].
  destruct (strip (codes "Infinity") (c :: s)) eqn:S5; [discriminate|]. destruct (strip (codes "-Infinity") (c :: s)) eqn:S6; [discriminate|].
  pose proof (number_no_oof T (c :: s)) as Ho. destruct (number T (c :: s)) as [v r| |] eqn:Hn; [discriminate| |congruence].
  injection H as <-. apply wg_token; [|exact Hb]. now apply no_token.
Qed.
Theorem json_fault_wrong T s x : json_fault T s = Some x -> wrong_document T s x.
Proof.
  unfold json_fault. destruct (skip_split s) as (w & Hw & Hs). pose proof (skip_no_space s) as Hn.
  destruct (scan_at T (S (length s)) (skip s)) as [v r|y|] eqn:H; intros Hx; [|injection Hx as <-|discriminate].
  - apply scan_at_longest in H as (t & Ht & Hj & Hlo). destruct (skip_split r) as (w' & Hw' & Hs'). rewrite Hs' in Hlo. pose proof (skip_no_space r) as Hr.
    destruct (skip r) as [|c r'] eqn:Hk; [discriminate|]. injection Hx as <-. rewrite Hs, Ht, Hs'. eapply wd_extra; eauto.
    apply begins. intros Hc. apply Hr. now apply begins.
  - apply scan_bad in H. rewrite Hs. now constructor.
Qed.

(** ** Where the text goes wrong is reported *)
Lemma erase_ok {A} (q : qres A) a r : erase q = POk a r -> q = QOk a r.
Proof. destruct q; cbn [erase]; congruence. Qed.
Lemma value_scan T t v rest n : json_value T t v -> longest T t rest -> (length t < n)%nat -> scan_at T n (t ++ rest) = QOk v rest.
Proof.
  intros Hv Hlo Hn. apply erase_ok. rewrite scan_erase. destruct (value_complete T t v Hv) as [(neg & d & f & e & Et & Hd & Hf & He)|K]; [|now apply K].
  destruct n as [|n]; [lia|]. rewrite Et, <- !app_assoc, number_scan by exact Hd.
  pose proof (number_some T neg d (f ++ e ++ rest) Hd) as Hb. pose proof (number_no_oof T (sign neg ++ d ++ f ++ e ++ rest)) as Ho.
  destruct (number T (sign neg ++ d ++ f ++ e ++ rest)) as [v1 r1| |] eqn:Hx; [|congruence|congruence].
  pose proof (number_split T _ _ _ Hx) as (t1 & Ht1 & Hv1).
  apply number_greedy in Hx as (p & Hp); [|assumption..].
  assert (Hl : (length t1 <= length t)%nat) by (apply (Hlo t1 v1 r1 Hv1); rewrite <- Ht1, Et, <- !app_assoc; reflexivity).
  assert (E1 : t1 = t ++ p).
  { apply (app_inv_tail r1). rewrite <- Ht1, Et, <- !app_assoc, <- Hp. reflexivity. }
  destruct p as [|x p]; [|rewrite E1, app_length in Hl; cbn [length] in Hl; lia]. rewrite app_nil_r in E1. subst t1. cbn [app] in Hp. subst r1.
  f_equal. apply (json_document_unique T t); exists [], t, []; rewrite app_nil_r; repeat split; auto; constructor.
Qed.
Lemma value_scan_to T t v w c rest n : json_value T t v -> spaces w -> c = 44 \/ c = 93 \/ c = 125 -> (length t < n)%nat ->
  scan_at T n (t ++ w ++ c :: rest) = QOk v (w ++ c :: rest).
Proof.
  intros Hv Hw Hc Hn. apply erase_ok. rewrite scan_erase. apply (scan_value T t v Hv); [now apply delimited_spaces|exact Hn].
Qed.
Lemma more_units_at t us : chars t us -> forall r, r <> [] ->
  units_at (t ++ r) = match units_at r with UOk us' r' => UOk (us ++ us') r' | UOpen => UOpen | UAt x => UAt x end.
Proof.
  induction 1 as [|c t us H1 H2 H3 _ IH|e u t us Hin _ IH|a b c d a' b' c' d' t us Ha Hb Hc Hd _ IH]; intros r Hr.
  - cbn [app]. now destruct (units_at r).
  - cbn [app units_at]. destruct (Z.eqb_spec c 34); [contradiction|]. destruct (Z.eqb_spec c 92); [contradiction|].
    destruct (Z.leb_spec c 31); [lia|]. rewrite IH by exact Hr. now destruct (units_at r).
  - cbn [app units_at]. change (92 =? 34) with false. change (92 =? 92) with true. cbv iota.
    destruct (Z.eqb_spec e 117) as [->|]; [now apply escape_not_u in Hin|].
    apply unescape_ok in Hin. rewrite Hin, IH by exact Hr. now destruct (units_at r).
  - cbn [app units_at]. change (92 =? 34) with false. change (92 =? 92) with true. change (117 =? 117) with true. cbv iota.
    rewrite (proj2 (hex4_value a b c d _)) by (exists a', b', c', d'; repeat split; eauto).
    rewrite IH by exact Hr. destruct (t ++ r) as [|x y] eqn:Hx; [apply app_eq_nil in Hx as [_ Hx]; contradiction|]. now destruct (units_at r).
Qed.
Lemma open_units_at t us : chars t us -> ~ ends_in_unit t -> units_at t = UOpen.
Proof.
  induction 1 as [|c t us H1 H2 H3 _ IH|e u t us Hin _ IH|a b c d a' b' c' d' t us Ha Hb Hc Hd _ IH]; intros Hu.
  - reflexivity.
  - cbn [units_at]. destruct (Z.eqb_spec c 34); [contradiction|]. destruct (Z.eqb_spec c 92); [contradiction|].
    destruct (Z.leb_spec c 31); [lia|]. rewrite IH; [reflexivity|]. intros (t' & us' & h1 & h2 & h3 & h4 & Ht & ->). apply Hu.
    exists (c :: t'), (c :: us'), h1, h2, h3, h4. split; [now constructor|reflexivity].
  - cbn [units_at]. change (92 =? 34) with false. change (92 =? 92) with true. cbv iota.
    destruct (Z.eqb_spec e 117) as [->|]; [now apply escape_not_u in Hin|].
    pose proof Hin as Hin'. apply unescape_ok in Hin. rewrite Hin, IH; [reflexivity|].
    intros (t' & us' & h1 & h2 & h3 & h4 & Ht & ->). apply Hu.
    exists (92 :: e :: t'), (u :: us'), h1, h2, h3, h4. split; [now constructor|reflexivity].
  - cbn [units_at]. change (92 =? 34) with false. change (92 =? 92) with true. change (117 =? 117) with true. cbv iota.
    rewrite (proj2 (hex4_value a b c d _)) by (exists a', b', c', d'; repeat split; eauto). destruct t as [|x t].
    + exfalso. apply Hu. exists [], [], a, b, c, d. split; [constructor|reflexivity].
    + rewrite IH; [reflexivity|]. intros (t' & us' & h1 & h2 & h3 & h4 & Ht & Hx). apply Hu.
      exists (92 :: 117 :: a :: b :: c :: d :: t'), (4096 * a' + 256 * b' + 16 * c' + d' :: us'), h1, h2, h3, h4.
      split; [now constructor|now rewrite Hx].
Qed.
Lemma wrong_string_units s x : wrong_string s x -> exists r, s = 34 :: r /\ (units_at r = UOpen /\ x = s \/ units_at r = UAt x).
Proof.
  intros H. destruct H as [t us Hc Hu|t us Hc|t us c s Hc Hlt|t us e s Hc He Hn|t us s Hc Hn]; (eexists; split; [reflexivity|]).
  - left. split; [now apply open_units_at with us|reflexivity].
  - left. split; [|reflexivity]. rewrite (more_units_at t us Hc) by discriminate. reflexivity.
  - right. rewrite (more_units_at t us Hc) by discriminate. cbn [units_at].
    destruct (Z.eqb_spec c 34); [lia|]. destruct (Z.eqb_spec c 92); [lia|]. destruct (Z.leb_spec c 31); [reflexivity|lia].
  - right. rewrite (more_units_at t us Hc) by discriminate. cbn [units_at]. change (92 =? 34) with false. change (92 =? 92) with true. cbv iota.
    destruct (Z.eqb_spec e 117); [contradiction|]. destruct (unescape e) as [u|] eqn:Hu; [|reflexivity]. apply unescape_ok in Hu. now apply Hn in Hu.
  - right. rewrite (more_units_at t us Hc) by discriminate. cbn [units_at]. change (92 =? 34) with false. change (92 =? 92) with true.
    change (117 =? 117) with true. cbv iota. destruct s as [|a [|b [|c [|d [|y s]]]]]; try reflexivity.
    destruct (hex4 a b c d) as [u|] eqn:Hx; [|reflexivity]. exfalso. apply hex4_value in Hx as (a' & b' & c' & d' & Ha & Hb & Hc' & Hd & _).
    apply (Hn _ _ _ _ _ _ eq_refl). eauto 10.
Qed.
Lemma string_at T t k r : json_string T t k -> exists x us, t = 34 :: x /\ units_at (x ++ r) = UOk us r /\ string_of T (join us) = k.
Proof.
  intros H. destruct (units_string T t k r H) as (x & us & -> & Hu & Hj). exists x, us. repeat split; auto.
  rewrite <- units_erase in Hu. destruct (units_at (x ++ r)); cbn [erase_units] in Hu; congruence.
Qed.
Scheme wrong_mut := Minimality for wrong Sort Prop
with wrong_elements_mut := Minimality for wrong_elements Sort Prop
with wrong_members_mut := Minimality for wrong_members Sort Prop.
Definition found (T : textrt) (s x : text) : Prop := forall n, (length s < n)%nat -> scan_at T n s = QBad x.
Definition found_elements (T : textrt) (s x : text) : Prop := forall n k, (length s < n)%nat -> (length s < k)%nat ->
  elements_at (scan_at T n) k s = QBad x.
Definition found_members (T : textrt) (s x : text) : Prop := forall n k, (length s < n)%nat -> (length s < k)%nat ->
  members_at T (scan_at T n) k s = QBad x.
Lemma skip_not_space s : ~ begins_with space s -> skip s = s.
Proof. destruct s as [|c s]; [reflexivity|]. intros H. apply skip_id. intros Hc. now apply H, begins. Qed.
Lemma not_space_or (p : Z -> Prop) s : ~ begins_with (fun c => space c \/ p c) s -> ~ begins_with space s.
Proof. intros H (c & r & -> & Hc). apply H, begins. now left. Qed.
Lemma not_strip c s : ~ begins_with (fun x => space x \/ x = c) s -> strip [c] s = None.
Proof.
  intros H. destruct s as [|x s]; [reflexivity|]. apply strip_head. intros ->. apply H, begins. now right.
Qed.
Lemma wrong_found T s x : wrong T s x -> found T s x.
Proof.
  apply (wrong_mut T (found T) (found_elements T) (found_members T)).
  - intros s0 Hno Hb [|n] Hn; [lia|]. destruct (scan_at T (S n) s0) as [v r|y|] eqn:H.
    + apply scan_at_ok in H as (t & Ht & Hv). now apply (Hno t v r) in Hv.
    + cbn [scan_at] in H. destruct s0 as [|c s0]; [exact (eq_sym H)|]. 
      destruct (Z.eqb_spec c 34) as [->|_]; [exfalso; apply Hb, begins; auto|].
      destruct (Z.eqb_spec c 123) as [->|_]; [exfalso; apply Hb, begins; auto|].
      destruct (Z.eqb_spec c 91) as [->|_]; [exfalso; apply Hb, begins; auto|].
      destruct (strip (codes "null") (c :: s0)); [discriminate|]. destruct (strip (codes "true") (c :: s0)); [discriminate|].
      destruct (strip (codes "false") (c :: s0)); [discriminate|]. destruct (strip (codes "NaN") (c :: s0)); [discriminate|].
      destruct (strip (codes "Infinity") (c :: s0)); [discriminate|]. destruct (strip (codes "-Infinity") (c :: s0)); [discriminate|].
      destruct (number T (c :: s0)); [discriminate|exact (eq_sym H)|exact (eq_sym H)].
    + now apply scan_fuel in H.
  - intros s0 r0 H [|n] Hn; [lia|]. apply wrong_string_units in H as (r & -> & [[Hu ->]|Hu]); cbn [scan_at]; change (34 =? 34) with true; cbv iota; now rewrite Hu.
  - intros w s0 r0 Hw Hb _ IH [|n] Hn; [lia|]. rewrite !app_length in Hn. cbn [codes map list_ascii_of_string app scan_at length] in *.
    change (Z.of_nat (code "[")) with 91. change (91 =? 34) with false. change (91 =? 123) with false. change (91 =? 91) with true. cbv iota.
    rewrite skip_spaces by exact Hw. rewrite skip_not_space by (eapply not_space_or, Hb). rewrite not_strip by exact Hb.
    rewrite IH by (rewrite ?app_length; lia). reflexivity.
  - intros w s0 r0 Hw Hb _ IH [|n] Hn; [lia|]. rewrite !app_length in Hn. cbn [codes map list_ascii_of_string app scan_at length] in *.
    change (Z.of_nat (code "{")) with 123. change (123 =? 34) with false. change (123 =? 123) with true. cbv iota.
    rewrite skip_spaces by exact Hw. rewrite skip_not_space by (eapply not_space_or, Hb). rewrite not_strip by exact Hb.
    rewrite IH by (rewrite ?app_length; lia). reflexivity.
  - intros s0 r0 _ IH n [|k] Hn Hk; [lia|]. cbn [elements_at]. rewrite IH by exact Hn. reflexivity.
  - intros t v w s0 Ht Hlo Hw Hb n [|k] Hn Hk; [lia|]. rewrite !app_length in *. cbn [elements_at].
    rewrite (value_scan T t v) by (auto; lia). cbn [qbind]. rewrite skip_spaces by exact Hw. rewrite skip_not_space by (eapply not_space_or, Hb).
    destruct s0 as [|c s0]; [reflexivity|]. destruct (Z.eqb_spec c 93) as [->|_]; [exfalso; apply Hb, begins; auto|].
    destruct (Z.eqb_spec c 44) as [->|_]; [exfalso; apply Hb, begins; auto|reflexivity].
  - intros t v w w' s0 r0 Ht Hw Hw' Hb _ IH n [|k] Hn Hk; [lia|]. rewrite !app_length in Hn, Hk. cbn [codes map list_ascii_of_string length] in Hn, Hk. cbn [elements_at].
    change (codes "," ++ w' ++ s0) with (44 :: w' ++ s0).
    rewrite (value_scan_to T t v) by (auto; lia). cbn [qbind]. rewrite skip_to by (auto; unfold space; lia).
    change (44 =? 93) with false. change (44 =? 44) with true. cbv iota. rewrite skip_spaces, skip_not_space by assumption.
    rewrite IH by lia. reflexivity.
  - intros s0 Hb n [|k] Hn Hk; [lia|]. cbn [members_at]. destruct s0 as [|c s0]; [reflexivity|].
    destruct (Z.eqb_spec c 34) as [->|_]; [exfalso; now apply Hb, begins|reflexivity].
  - intros s0 r0 H n [|k] Hn Hk; [lia|]. apply wrong_string_units in H as (r & -> & [[Hu ->]|Hu]); cbn [members_at]; change (34 =? 34) with true; cbv iota; now rewrite Hu.
  - intros tk k0 w s0 Hk0 Hw Hb n [|k] Hn Hk; [lia|]. destruct (string_at T tk k0 (w ++ s0) Hk0) as (x0 & us & -> & Hu & _).
    cbn [app members_at]. change (34 =? 34) with true. cbv iota. rewrite Hu. rewrite skip_spaces by exact Hw. rewrite skip_not_space by (eapply not_space_or, Hb).
    destruct s0 as [|c s0]; [reflexivity|]. destruct (Z.eqb_spec c 58) as [->|_]; [exfalso; apply Hb, begins; auto|reflexivity].
  - intros tk k0 w w' s0 r0 Hk0 Hw Hw' Hb _ IH n [|k] Hn Hk; [lia|]. rewrite !app_length in Hn. 
    destruct (string_at T tk k0 (w ++ codes ":" ++ w' ++ s0) Hk0) as (x0 & us & -> & Hu & _).
    cbn [app members_at]. change (34 =? 34) with true. cbv iota. rewrite Hu. change (codes ":" ++ w' ++ s0) with (58 :: w' ++ s0).
    rewrite skip_to by (auto; unfold space; lia). change (58 =? 58) with true. cbv iota. rewrite skip_spaces, skip_not_space by assumption.
    rewrite IH by lia. reflexivity.
  - intros tk k0 w w' t v w2 s0 Hk0 Hw Hw' Ht Hlo Hw2 Hb n [|k] Hn Hk; [lia|]. rewrite !app_length in Hn.
    destruct (string_at T tk k0 (w ++ codes ":" ++ w' ++ t ++ w2 ++ s0) Hk0) as (x0 & us & -> & Hu & _).
    cbn [app members_at]. change (34 =? 34) with true. cbv iota. rewrite Hu.
    change (codes ":" ++ w' ++ t ++ w2 ++ s0) with (58 :: w' ++ t ++ w2 ++ s0).
    rewrite skip_to by (auto; unfold space; lia). change (58 =? 58) with true. cbv iota. rewrite skip_spaces, (skip_value T t v) by assumption.
    rewrite (value_scan T t v) by (auto; lia). cbn [qbind]. rewrite skip_spaces by exact Hw2. rewrite skip_not_space by (eapply not_space_or, Hb).
    destruct s0 as [|c s0]; [reflexivity|]. destruct (Z.eqb_spec c 125) as [->|_]; [exfalso; apply Hb, begins; auto|].
    destruct (Z.eqb_spec c 44) as [->|_]; [exfalso; apply Hb, begins; auto|reflexivity].
  - intros tk k0 w w' t v w2 w3 s0 r0 Hk0 Hw Hw' Ht Hw2 Hw3 Hb _ IH n [|k] Hn Hk; [lia|]. rewrite !app_length in Hn, Hk. cbn [codes map list_ascii_of_string length] in Hn, Hk.
    destruct (string_at T tk k0 (w ++ codes ":" ++ w' ++ t ++ w2 ++ codes "," ++ w3 ++ s0) Hk0) as (x0 & us & -> & Hu & _).
    cbn [app members_at]. change (34 =? 34) with true. cbv iota. rewrite Hu.
    change (codes ":" ++ w' ++ t ++ w2 ++ codes "," ++ w3 ++ s0) with (58 :: w' ++ t ++ w2 ++ 44 :: w3 ++ s0).
    rewrite skip_to by (auto; unfold space; lia). change (58 =? 58) with true. cbv iota. rewrite skip_spaces, (skip_value T t v) by assumption.
    rewrite (value_scan_to T t v) by (auto; lia). cbn [qbind]. rewrite skip_to by (auto; unfold space; lia).
    change (44 =? 125) with false. change (44 =? 44) with true. cbv iota. rewrite skip_spaces, skip_not_space by assumption.
    rewrite IH by lia. reflexivity.
Qed.
Theorem json_fault_iff T s x : json_fault T s = Some x <-> wrong_document T s x.
Proof.
  split; [apply json_fault_wrong|]. intros H. unfold json_fault. destruct H as [w s x Hw Hb H|w t v w' s Hw Hv Hlo Hw' (c & r & -> & Hc)].
  - rewrite skip_spaces, skip_not_space by assumption. rewrite (wrong_found T s x H) by (rewrite app_length; lia). reflexivity.
  - rewrite skip_spaces, (skip_value T t v) by assumption. rewrite (value_scan T t v) by (auto; rewrite !app_length; lia).
    rewrite skip_to by assumption. reflexivity.
Qed.

(** ** What precedes the error is the beginning of a JSON text *)
(** [s] is [p] and then [r], and [p] can be continued to a value *)
Definition completed (T : textrt) (s r : text) : Prop := exists p c v, s = p ++ r /\ json_value T (p ++ c) v.
Definition completed_elements (T : textrt) (s r : text) : Prop := exists p c l, s = p ++ r /\ json_elements T (p ++ c) l.
Definition completed_members (T : textrt) (s r : text) : Prop := exists p c l, s = p ++ r /\ json_members T (p ++ c) l.
Lemma zero_value T : json_value T (codes "0") (VInt 0).
Proof. exact (jv_int T false (codes "0") (or_introl eq_refl)). Qed.
Lemma chars_string T t us : chars t us -> json_string T (34 :: t ++ [34]) (string_of T (join us)).
Proof. intros H. exact (js_string T t us (join us) H (join_points us)). Qed.
Lemma chars_snoc_n t us : chars t us -> chars (t ++ [92; 110]) (us ++ [10]).
Proof. intros H. apply chars_app; [exact H|]. apply ch_escape; [cbn; tauto|constructor]. Qed.
Lemma string_completed T s r : wrong_string s r -> exists p c, s = p ++ r /\ (p = [] \/ exists k, json_string T (p ++ c) k).
Proof.
  intros H. destruct H as [t us Hc Hu|t us Hc|t us c s Hc Hlt|t us e s Hc He Hn|t us s Hc Hn].
  - exists [], []. split; [reflexivity|now left].
  - exists [], []. split; [reflexivity|now left].
  - exists (34 :: t), [34]. split; [reflexivity|]. right. eexists. exact (chars_string T t us Hc).
  - exists (34 :: t), [34]. split; [reflexivity|]. right. eexists. exact (chars_string T t us Hc).
  - exists (34 :: t ++ [92]), [110; 34]. split; [cbn [app]; now rewrite <- app_assoc|]. right. eexists.
    replace ((34 :: t ++ [92]) ++ [110; 34]) with (34 :: (t ++ [92; 110]) ++ [34]) by (cbn [app]; now rewrite <- !app_assoc).
    apply (chars_string T _ (us ++ [10])). now apply chars_snoc_n.
Qed.
Lemma empty_key T : json_string T (codes """""") (string_of T []).
Proof. exact (js_string T [] [] [] ch_end pt_end). Qed.
Lemma zero_member T tk k w : json_string T tk k -> spaces w -> json_members T (tk ++ w ++ codes ":0") [(k, VInt 0)].
Proof.
  intros Hk Hw. exact (jm_last T [] tk k w [] (codes "0") (VInt 0) [] (Forall_nil _) Hk Hw (Forall_nil _) (zero_value T) (Forall_nil _)).
Qed.
Lemma wrong_completed T s r : wrong T s r -> completed T s r.
Proof.
  apply (wrong_mut T (completed T) (completed_elements T) (completed_members T)).
  - intros s0 _ _. exists [], (codes "0"), (VInt 0). split; [reflexivity|apply zero_value].
  - intros s0 r0 H. destruct (string_completed T _ _ H) as (p & c & -> & [-> |(k & Hk)]).
    + exists [], (codes "0"), (VInt 0). split; [reflexivity|apply zero_value].
    + exists p, c, (VStr k). split; [reflexivity|now constructor].
  - intros w s0 r0 Hw _ _ (p & c & l & -> & Hl). exists (codes "[" ++ w ++ p), (c ++ codes "]"), (VList l). split; [now rewrite <- !app_assoc|].
    replace ((codes "[" ++ w ++ p) ++ c ++ codes "]") with (codes "[" ++ (w ++ p ++ c) ++ codes "]") by now rewrite <- !app_assoc.
    apply jv_list. now apply elements_spaces.
  - intros w s0 r0 Hw _ _ (p & c & l & -> & Hl). exists (codes "{" ++ w ++ p), (c ++ codes "}"), (VDict DkDict (dict_of l)). split; [now rewrite <- !app_assoc|].
    replace ((codes "{" ++ w ++ p) ++ c ++ codes "}") with (codes "{" ++ (w ++ p ++ c) ++ codes "}") by now rewrite <- !app_assoc.
    apply jv_dict. now apply members_spaces.
  - intros s0 r0 _ (p & c & v & -> & Hv). exists p, c, [v]. split; [reflexivity|]. rewrite <- (app_nil_r (p ++ c)).
    apply (je_last T [] (p ++ c) [] v); [constructor|exact Hv|constructor].
  - intros t v w s0 Ht _ Hw _. exists (t ++ w), [], [v]. split; [now rewrite <- app_assoc|]. rewrite app_nil_r.
    apply (je_last T [] t w v); [constructor|exact Ht|exact Hw].
  - intros t v w w' s0 r0 Ht Hw Hw' _ _ (p & c & l & -> & Hl). exists (t ++ w ++ codes "," ++ w' ++ p), c, (v :: l). split; [now rewrite <- !app_assoc|].
    replace ((t ++ w ++ codes "," ++ w' ++ p) ++ c) with ([] ++ t ++ w ++ codes "," ++ (w' ++ p ++ c)) by now rewrite <- !app_assoc.
    apply je_more; [constructor|exact Ht|exact Hw|now apply elements_spaces].
  - intros s0 _. exists [], (codes """"":0"), [(string_of T [], VInt 0)]. split; [reflexivity|].
    exact (zero_member T _ _ [] (empty_key T) (Forall_nil _)).
  - intros s0 r0 H. destruct (string_completed T _ _ H) as (p & c & -> & [-> |(k & Hk)]).
    + exists [], (codes """"":0"), [(string_of T [], VInt 0)]. split; [reflexivity|].
      exact (zero_member T _ _ [] (empty_key T) (Forall_nil _)).
    + exists p, (c ++ codes ":0"), [(k, VInt 0)]. split; [reflexivity|].
      rewrite app_assoc. exact (zero_member T _ k [] Hk (Forall_nil _)).
  - intros tk k w s0 Hk Hw _. exists (tk ++ w), (codes ":0"), [(k, VInt 0)]. split; [now rewrite <- app_assoc|].
    rewrite <- app_assoc. now apply zero_member.
  - intros tk k w w' s0 r0 Hk Hw Hw' _ _ (p & c & v & -> & Hv). exists (tk ++ w ++ codes ":" ++ w' ++ p), c, [(k, v)]. split; [now rewrite <- !app_assoc|].
    replace ((tk ++ w ++ codes ":" ++ w' ++ p) ++ c) with ([] ++ tk ++ w ++ codes ":" ++ w' ++ (p ++ c) ++ []) by (cbn [app]; now rewrite app_nil_r, <- !app_assoc).
    apply jm_last; auto; constructor.
  - intros tk k w w' t v w2 s0 Hk Hw Hw' Ht _ Hw2 _. exists (tk ++ w ++ codes ":" ++ w' ++ t ++ w2), [], [(k, v)]. split; [now rewrite <- !app_assoc|].
    rewrite app_nil_r. apply (jm_last T [] tk k w w' t v w2); auto. constructor.
  - intros tk k w w' t v w2 w3 s0 r0 Hk Hw Hw' Ht Hw2 Hw3 _ _ (p & c & l & -> & Hl).
    exists (tk ++ w ++ codes ":" ++ w' ++ t ++ w2 ++ codes "," ++ w3 ++ p), c, ((k, v) :: l). split; [now rewrite <- !app_assoc|].
    replace ((tk ++ w ++ codes ":" ++ w' ++ t ++ w2 ++ codes "," ++ w3 ++ p) ++ c)
      with ([] ++ tk ++ w ++ codes ":" ++ w' ++ t ++ w2 ++ codes "," ++ (w3 ++ p ++ c)) by now rewrite <- !app_assoc.
    apply jm_more; auto; [constructor|now apply members_spaces].
Qed.
Theorem wrong_document_completed T s r : wrong_document T s r -> exists p, s = p ++ r /\ can_be_continued T p.
Proof.
  intros H. destruct H as [w s r Hw _ H|w t v w' s Hw Hv _ Hw' _].
  - apply wrong_completed in H as (p & c & v & -> & Hv). exists (w ++ p). split; [now rewrite app_assoc|].
    exists c, v. exists w, (p ++ c), []. repeat split; auto; [constructor|]. now rewrite app_nil_r, app_assoc.
  - exists (w ++ t ++ w'). split; [now rewrite <- !app_assoc|]. exists [], v, w, t, w'. rewrite app_nil_r. auto.
Qed.

(** ** Lines and columns *)
Lemma line_feeds_app a b : line_feeds (a ++ b) = (line_feeds a + line_feeds b)%nat.
Proof. induction a as [|c a IH]; [reflexivity|]. cbn [app line_feeds]. rewrite IH. lia. Qed.
Lemma line_feeds_none s : line_feeds s = 0%nat <-> no_line_feed s.
Proof.
  induction s as [|c s IH]; [split; [constructor|reflexivity]|]. cbn [line_feeds]. destruct (Z.eqb_spec c 10) as [->|Hc].
  - split; [discriminate|]. intros H. inversion H. contradiction.
  - cbn [plus]. rewrite IH. split; [now constructor|]. intros H. now inversion H.
Qed.
Lemma lines_split s : lines_and_rest s (line_feeds s) (length (last_line s)).
Proof.
  induction s as [|c s IH]; [exists [], []; repeat split; constructor|].
  cbn [last_line]. destruct (Nat.eqb_spec (line_feeds (c :: s)) 0) as [H|H].
  { rewrite H. apply line_feeds_none in H. exists [], (c :: s). repeat split; auto. }
  destruct IH as (ls & r & Hs & Hl & Hr & Hn & Hm). cbn [line_feeds] in *. destruct (Z.eqb_spec c 10) as [->|Hc].
  - exists ([] :: ls), r. repeat split; auto; [now rewrite Hs|constructor; [constructor|exact Hl]|cbn [length plus]; congruence].
  - destruct ls as [|l ls]; [cbn [length] in Hn; lia|]. exists ((c :: l) :: ls), r. inversion Hl; subst.
    split; [reflexivity|]. split; [constructor; [now constructor|assumption]|]. split; [assumption|]. split; [cbn [length] in *; lia|exact Hm].
Qed.

(** ** The DecodeError *)
Lemma error_at_pos src cls p r : de_pos (error_at src cls (p ++ r) r) = length p.
Proof. unfold error_at. cbn [de_pos]. rewrite app_length. lia. Qed.
Lemma error_at_lines src cls doc r : let d := error_at src cls doc r in
  exists l c, de_lineno d = S l /\ de_colno d = S c /\ lines_and_rest (firstn (de_pos d) doc) l c.
Proof.
  cbn zeta. unfold error_at. cbn [de_pos de_lineno de_colno].
  eexists _, _. split; [reflexivity|]. split; [reflexivity|]. apply lines_split.
Qed.
Lemma firstn_prefix (p r : text) : firstn (length p) (p ++ r) = p.
Proof. rewrite firstn_app, Nat.sub_diag, firstn_all. cbn [firstn]. apply app_nil_r. Qed.
(** What the DecodeErrors of loads and loadb have in common *)
Lemma fault_error T src cls s d : option_map (error_at src cls s) (json_fault T s) = Some d ->
  de_source d = src /\ de_target d = cls /\ de_doc d = s /\
  (exists p r, s = p ++ r /\ length p = de_pos d /\ wrong_document T s r /\ can_be_continued T p) /\
  exists l c, de_lineno d = S l /\ de_colno d = S c /\ lines_and_rest (firstn (de_pos d) s) l c.
Proof.
  destruct (json_fault T s) as [x|] eqn:H; [|discriminate]. cbn [option_map]. intros Hd. injection Hd as <-.
  repeat split; [|apply error_at_lines]. apply json_fault_wrong in H. destruct (wrong_document_completed T s x H) as (p & -> & Hp).
  exists p, x. rewrite error_at_pos. auto.
Qed.
Lemma fault_some T src cls s : (exists d, option_map (error_at src cls s) (json_fault T s) = Some d) <-> forall v, ~ json_document T s v.
Proof.
  pose proof (json_fault_none T s) as H. destruct (json_fault T s) as [x|]; cbn [option_map]; split.
  - intros _ v Hv. pose proof (proj2 H (ex_intro _ v Hv)). discriminate.
  - eauto.
  - intros (d & Hd). discriminate.
  - intros Hn. destruct (proj1 H eq_refl) as (v & Hv). now apply Hn in Hv.
Qed.
