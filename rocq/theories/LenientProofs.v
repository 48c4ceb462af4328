(** * json.loads with strict=False: proofs *)
From Verif Require Import EngineFacts JsonTextProofs JsonTextLaws PositionProofs.
From Verif Require Export LenientSpec.
From Coq Require Import Lia.
Local Open Scope string_scope.
Local Open Scope list_scope.
Local Open Scope Z_scope.

Notation out := (spelled false).
Lemma out_cons c r : out (c :: r) = c :: spelled (c =? 34) r.
Proof. cbn [spelled]. now destruct (c =? 34). Qed.
Lemma out_other c r : c <> 34 -> out (c :: r) = c :: out r.
Proof. intros H. rewrite out_cons. now destruct (Z.eqb_spec c 34). Qed.
(** ** Outside of strings *)
Lemma skip_out s : skip (out s) = out (skip s).
Proof.
  induction s as [|c s IH]; [reflexivity|]. rewrite out_cons. cbn [skip]. destruct (is_ws c) eqn:Hc; [|now rewrite out_cons].
  assert (c <> 34) by (apply is_ws_space in Hc; unfold space in Hc; lia). destruct (Z.eqb_spec c 34); [contradiction|exact IH].
Qed.
Lemma strip_out p : ~ In 34 p -> forall s, strip p (out s) = option_map out (strip p s).
Proof.
  induction p as [|a p IH]; intros Hp s; [reflexivity|]. destruct s as [|c s]; [reflexivity|]. rewrite out_cons. cbn [strip].
  destruct (Z.eqb_spec a c) as [<-|]; [|reflexivity]. destruct (Z.eqb_spec a 34) as [->|]; [elim Hp; now left|].
  apply IH. intros H. apply Hp. now right.
Qed.
Lemma dig_not c : is_dig c = true -> (c =? 34) = false.
Proof. intros H. apply is_dig_digit in H. unfold digit in H. apply Z.eqb_neq. lia. Qed.
Lemma span_out s : span (out s) = (fst (span s), out (snd (span s))).
Proof.
  induction s as [|c s IH]; [reflexivity|]. rewrite out_cons. cbn [span]. destruct (is_dig c) eqn:Hc; [|cbn [fst snd]; now rewrite out_cons].
  rewrite (dig_not _ Hc), IH. now destruct (span s).
Qed.
Lemma minus_out s : minus (out s) = (fst (minus s), out (snd (minus s))).
Proof.
  destruct s as [|c s]; [reflexivity|]. rewrite out_cons. cbn [minus]. destruct (Z.eqb_spec c 45) as [->|]; [reflexivity|].
  cbn [fst snd]. now rewrite out_cons.
Qed.
Lemma natural_out s : natural_part (out s) = option_map (fun x => (fst x, out (snd x))) (natural_part s).
Proof.
  destruct s as [|c s]; [reflexivity|]. rewrite out_cons. cbn [natural_part]. destruct (Z.eqb_spec c 48) as [->|]; [reflexivity|].
  destruct (is_dig c) eqn:Hc; [|reflexivity]. rewrite (dig_not _ Hc), span_out. now destruct (span s).
Qed.
Lemma fraction_out s : fraction_part (out s) = (fst (fraction_part s), out (snd (fraction_part s))).
Proof.
  destruct s as [|c s]; [reflexivity|]. rewrite out_cons. cbn [fraction_part]. destruct (Z.eqb_spec c 46) as [->|]; [|cbn [fst snd]; now rewrite out_cons].
  change (46 =? 34) with false. rewrite span_out. destruct (span s) as [[|d ds] r]; cbn [fst snd]; [now rewrite out_cons|reflexivity].
Qed.
Lemma exponent_out s : exponent_part (out s) = (fst (exponent_part s), out (snd (exponent_part s))).
Proof.
  destruct s as [|c s]; [reflexivity|]. rewrite out_cons. cbn [exponent_part].
  destruct ((c =? 101) || (c =? 69)) eqn:Hc; [|cbn [fst snd]; now rewrite out_cons].
  assert (Hq : (c =? 34) = false) by (destruct (Z.eqb_spec c 101), (Z.eqb_spec c 69); try discriminate; apply Z.eqb_neq; lia). rewrite Hq.
  assert (G : forall sg r1 y, y = c :: out s ->
    match span (out r1) with ([], _) => ([], y) | (ds, r2) => (c :: sg ++ ds, r2) end =
    (fst (match span r1 with ([], _) => ([], c :: s) | (ds, r2) => (c :: sg ++ ds, r2) end),
     out (snd (match span r1 with ([], _) => ([], c :: s) | (ds, r2) => (c :: sg ++ ds, r2) end)))).
  { intros sg r1 y ->. rewrite span_out. destruct (span r1) as [[|d ds] r]; cbn [fst snd]; [now rewrite out_cons, Hq|reflexivity]. }
  destruct s as [|x s]; [exact (G [] [] _ eq_refl)|]. destruct ((x =? 43) || (x =? 45)) eqn:Hx.
  - assert (Hq' : x <> 34) by (destruct (Z.eqb_spec x 43), (Z.eqb_spec x 45); try discriminate; lia).
    specialize (G [x] s _ eq_refl). rewrite (out_other x s Hq') in *. rewrite Hx. exact G.
  - specialize (G [] (x :: s) _ eq_refl). rewrite (out_cons x s) in *. rewrite Hx. exact G.
Qed.
Definition pmap {A} (p : pres A) : pres A := match p with POk a r => POk a (out r) | PBad => PBad | POof => POof end.
Lemma number_out T s : number T (out s) = pmap (number T s).
Proof.
  unfold number. rewrite minus_out. destruct (minus s) as [neg x]. cbn [fst snd]. rewrite natural_out.
  destruct (natural_part x) as [[ds r1]|]; [|reflexivity]. cbn [option_map fst snd]. rewrite fraction_out.
  destruct (fraction_part r1) as [fr r2]. cbn [fst snd]. rewrite exponent_out. destruct (exponent_part r2) as [ex r3]. cbn [fst snd].
  destruct fr, ex; reflexivity.
Qed.
(** ** Within strings *)
Definition umap (p : option (list Z * text)) : option (list Z * text) := option_map (fun x => (fst x, out (snd x))) p.
Lemma more_umap u p : umap (more_units u p) = more_units u (umap p).
Proof. destruct p as [[us r]|]; reflexivity. Qed.
Lemma hex_in h r : hex_unit h <> None -> spelled true (h :: r) = h :: spelled true r.
Proof.
  intros H. unfold hex_unit in H. cbn [spelled].
  assert (K : 48 <= h <= 102 /\ h <> 92).
  { unfold is_dig in H. destruct (Z.leb_spec 48 h), (Z.leb_spec h 57); cbn [andb] in H; try lia;
      destruct (Z.leb_spec 97 h), (Z.leb_spec h 102); cbn [andb] in H; try lia;
      destruct (Z.leb_spec 65 h), (Z.leb_spec h 70); cbn [andb] in H; try lia; now elim H. }
  destruct (Z.eqb_spec h 34); [lia|]. destruct (Z.eqb_spec h 92); [lia|]. destruct (Z.leb_spec 0 h), (Z.ltb_spec h 32); try lia; reflexivity.
Qed.
(** A character that is no hexadecimal digit does not become one. *)
Lemma no_hex_in h r : hex_unit h = None -> exists h' r', spelled true (h :: r) = h' :: r' /\ hex_unit h' = None.
Proof.
  intros H. cbn [spelled]. destruct (h =? 34); [eauto|]. destruct (h =? 92); [destruct r; eauto|].
  destruct ((0 <=? h) && (h <? 32)); [|eauto]. eexists _, _. split; [reflexivity|reflexivity].
Qed.
Definition four (s : text) : option (Z * text) :=
  match s with
  | h1 :: h2 :: h3 :: h4 :: r => option_map (fun u => (u, r)) (hex4 h1 h2 h3 h4)
  | _ => None
  end.
Ltac no_hex H r := let h := fresh "h" in let y := fresh "y" in let Hy := fresh "Hy" in let Hh := fresh "Hh" in
  destruct (no_hex_in _ r H) as (h & y & Hy & Hh); rewrite Hy.
Lemma four_in s : four (spelled true s) = option_map (fun x => (fst x, spelled true (snd x))) (four s).
Proof.
  assert (N : forall s', (exists a, s' = a /\ four a = None) -> four s' = None) by (intros s' (a & -> & H); exact H).
  assert (N1 : forall h r, hex_unit h = None -> four (h :: r) = None).
  { intros h r H. destruct r as [|b [|c [|d r]]]; try reflexivity. cbn [four]. unfold hex4. now rewrite H. }
  assert (N2 : forall a h r, hex_unit h = None -> four (a :: h :: r) = None).
  { intros a h r H. destruct r as [|c [|d r]]; try reflexivity. cbn [four]. unfold hex4. rewrite H. now destruct (hex_unit a). }
  assert (N3 : forall a b h r, hex_unit h = None -> four (a :: b :: h :: r) = None).
  { intros a b h r H. destruct r as [|d r]; try reflexivity. cbn [four]. unfold hex4. rewrite H. now destruct (hex_unit a), (hex_unit b). }
  assert (N4 : forall a b c h r, hex_unit h = None -> four (a :: b :: c :: h :: r) = None).
  { intros a b c h r H. cbn [four]. unfold hex4. rewrite H. now destruct (hex_unit a), (hex_unit b), (hex_unit c). }
  destruct s as [|a s]; [reflexivity|]. destruct (hex_unit a) as [x|] eqn:Ha; [|no_hex Ha s; now rewrite !N1].
  rewrite hex_in by congruence. destruct s as [|b s]; [reflexivity|]. destruct (hex_unit b) as [x2|] eqn:Hb; [|no_hex Hb s; now rewrite !N2].
  rewrite hex_in by congruence. destruct s as [|c s]; [reflexivity|]. destruct (hex_unit c) as [x3|] eqn:Hc; [|no_hex Hc s; now rewrite !N3].
  rewrite hex_in by congruence. destruct s as [|d s]; [reflexivity|]. destruct (hex_unit d) as [x4|] eqn:Hd; [|no_hex Hd s; now rewrite !N4].
  rewrite hex_in by congruence. cbn [four]. now destruct (hex4 a b c d).
Qed.
Lemma units_four s : units (92 :: 117 :: s) = match four s with Some (u, r) => more_units u (units r) | None => None end.
Proof. destruct s as [|a [|b [|c [|d s]]]]; try reflexivity. cbn [four]. cbn [units]. change (92 =? 34) with false. change (92 =? 92) with true.
  change (117 =? 117) with true. cbv iota. now destruct (hex4 a b c d). Qed.
Lemma lenient_four s : lenient_units (92 :: 117 :: s) = match four s with Some (u, r) => more_units u (lenient_units r) | None => None end.
Proof. destruct s as [|a [|b [|c [|d s]]]]; try reflexivity. cbn [four]. cbn [lenient_units]. change (92 =? 34) with false. change (92 =? 92) with true.
  change (117 =? 117) with true. cbv iota. now destruct (hex4 a b c d). Qed.
Lemma four_length s u r : four s = Some (u, r) -> (length r < length s)%nat.
Proof. destruct s as [|a [|b [|c [|d s]]]]; try discriminate. cbn [four]. destruct (hex4 a b c d); [|discriminate]. intros H. injection H as _ <-. cbn [length]. lia. Qed.
Lemma escaped_units c r : 0 <= c < 32 -> units (escaped c ++ r) = more_units c (units r).
Proof.
  intros H. unfold escaped. cbn [app]. rewrite units_four. cbn [four].
  assert (K : hex4 48 48 (hex_digit (c / 16)) (hex_digit (c mod 16)) = Some c); [|now rewrite K].
  assert (Hc : exists k, (k < 32)%nat /\ c = Z.of_nat k) by (exists (Z.to_nat c); lia). destruct Hc as (k & Hk & ->). clear H.
  do 32 (destruct k as [|k]; [reflexivity|]). lia.
Qed.
Lemma units_in : forall n s, (length s < n)%nat -> units (spelled true s) = umap (lenient_units s).
Proof.
  induction n as [|n IH]; intros s Hn; [lia|]. destruct s as [|c s]; [reflexivity|]. cbn [length] in Hn.
  destruct (Z.eqb_spec c 34) as [->|H34]; [reflexivity|]. destruct (Z.eqb_spec c 92) as [->|H92].
  - destruct s as [|e s]; [reflexivity|]. cbn [length] in Hn. change (spelled true (92 :: e :: s)) with (92 :: e :: spelled true s).
    destruct (Z.eqb_spec e 117) as [->|He].
    + rewrite units_four, lenient_four, four_in. destruct (four s) as [[u r]|] eqn:Hf; [|reflexivity]. cbn [option_map fst snd].
      apply four_length in Hf. rewrite more_umap, IH by lia. reflexivity.
    + cbn [units lenient_units]. change (92 =? 34) with false. change (92 =? 92) with true. cbv iota. destruct (Z.eqb_spec e 117); [contradiction|].
      destruct (unescape e); [|reflexivity]. rewrite more_umap, IH by lia. reflexivity.
  - destruct (Z.ltb_spec c 0) as [Hc|Hc].
    + cbn [spelled units lenient_units]. destruct (Z.eqb_spec c 34); [contradiction|]. destruct (Z.eqb_spec c 92); [contradiction|].
      destruct (Z.leb_spec 0 c); [lia|]. cbn [andb]. cbn [units]. destruct (Z.eqb_spec c 34); [contradiction|]. destruct (Z.eqb_spec c 92); [contradiction|].
      destruct (Z.leb_spec c 31); [|lia]. destruct (Z.ltb_spec c 0); [reflexivity|lia].
    + assert (L : lenient_units (c :: s) = more_units c (lenient_units s)).
      { cbn [lenient_units]. destruct (Z.eqb_spec c 34); [contradiction|]. destruct (Z.eqb_spec c 92); [contradiction|]. destruct (Z.ltb_spec c 0); [lia|reflexivity]. }
      rewrite L, more_umap, <- IH by lia. cbn [spelled]. destruct (Z.eqb_spec c 34); [contradiction|]. destruct (Z.eqb_spec c 92); [contradiction|].
      destruct (Z.leb_spec 0 c); [|lia]. destruct (Z.ltb_spec c 32); cbn [andb]; [apply escaped_units; lia|].
      cbn [units]. destruct (Z.eqb_spec c 34); [contradiction|]. destruct (Z.eqb_spec c 92); [contradiction|]. destruct (Z.leb_spec c 31); [lia|reflexivity].
Qed.
Lemma units_out s : units (spelled true s) = umap (lenient_units s).
Proof. apply (units_in (S (length s))). lia. Qed.
(** ** Lengths *)
Lemma spelled_length_n : forall n b s, (length s < n)%nat -> (length s <= length (spelled b s))%nat.
Proof.
  induction n as [|n IH]; intros b s Hn; [lia|]. destruct s as [|c s]; [cbn; lia|]. cbn [length] in Hn. cbn [spelled].
  destruct (c =? 34). { cbn [length]. specialize (IH (negb b) s ltac:(lia)). lia. }
  destruct b; [|cbn [length]; specialize (IH false s ltac:(lia)); lia].
  destruct (c =? 92). { destruct s as [|e s]; cbn [length] in *; [lia|]. specialize (IH true s ltac:(lia)). lia. }
  specialize (IH true s ltac:(lia)). destruct ((0 <=? c) && (c <? 32)); [rewrite app_length|]; cbn [length escaped]; lia.
Qed.
Lemma spelled_length b s : (length s <= length (spelled b s))%nat.
Proof. apply (spelled_length_n (S (length s))). lia. Qed.
Lemma more_units_some u p us r : more_units u p = Some (us, r) -> exists us', p = Some (us', r).
Proof. destruct p as [[us' r']|]; [|discriminate]. intros H. injection H as _ <-. eauto. Qed.
Lemma lenient_units_length : forall n s us r, (length s < n)%nat -> lenient_units s = Some (us, r) -> (length r < length s)%nat.
Proof.
  induction n as [|n IH]; intros s us r Hn H; [lia|]. destruct s as [|c s]; [discriminate|]. cbn [length] in *.
  destruct (Z.eqb_spec c 92) as [->|H92].
  - destruct s as [|e s]; [discriminate|]. cbn [length] in *. destruct (Z.eqb_spec e 117) as [->|He].
    + rewrite lenient_four in H. destruct (four s) as [[u y]|] eqn:Hf; [|discriminate]. apply four_length in Hf.
      apply more_units_some in H as (us' & H). apply IH in H; lia.
    + cbn [lenient_units] in H. change (92 =? 34) with false in H. change (92 =? 92) with true in H. cbv iota in H.
      destruct (Z.eqb_spec e 117); [contradiction|]. destruct (unescape e); [|discriminate].
      apply more_units_some in H as (us' & H). apply IH in H; lia.
  - cbn [lenient_units] in H. destruct (c =? 34); [injection H as _ <-; lia|]. destruct (Z.eqb_spec c 92); [contradiction|].
    destruct (c <? 0); [discriminate|]. apply more_units_some in H as (us' & H). apply IH in H; lia.
Qed.
Lemma strip_length p s r : strip p s = Some r -> (length r <= length s)%nat.
Proof. intros H. apply strip_split in H as ->. rewrite app_length. lia. Qed.
Lemma number_length T s v r : number T s = POk v r -> (length r < length s)%nat.
Proof.
  intros H. apply number_split in H. destruct H as (t & -> & H). apply value_nonempty in H. rewrite app_length. lia.
Qed.
Section Length.
Variables (T : textrt) (sc : text -> pres value).
Hypothesis Hlen : forall s v r, sc s = POk v r -> (length r < length s)%nat.
Lemma elements_length k : forall s l r, elements sc k s = POk l r -> (length r < length s)%nat.
Proof.
  induction k as [|k IH]; intros s l r H; [discriminate|]. cbn [elements] in H. apply pbind_ok in H as (v & r1 & Hv & H). apply Hlen in Hv.
  pose proof (skip_length r1) as K. destruct (skip r1) as [|c r2]; [discriminate|]. cbn [length] in K. destruct (c =? 93); [injection H as _ <-; lia|].
  destruct (c =? 44); [|discriminate]. apply pbind_ok in H as (vs & r3 & He & H). injection H as _ <-. apply IH in He. pose proof (skip_length r2). lia.
Qed.
Lemma members_length k : forall s l r, lenient_members T sc k s = POk l r -> (length r < length s)%nat.
Proof.
  induction k as [|k IH]; intros s l r H; [discriminate|]. cbn [lenient_members] in H. destruct s as [|c s]; [discriminate|]. cbn [length].
  destruct (c =? 34); [|discriminate]. destruct (lenient_units s) as [[us r1]|] eqn:Hu; [|discriminate].
  apply (lenient_units_length (S (length s))) in Hu; [|lia]. pose proof (skip_length r1) as K. destruct (skip r1) as [|c2 r2]; [discriminate|]. cbn [length] in K.
  destruct (c2 =? 58); [|discriminate]. apply pbind_ok in H as (v & r3 & Hv & H). apply Hlen in Hv. pose proof (skip_length r2).
  pose proof (skip_length r3) as K3. destruct (skip r3) as [|c4 r4]; [discriminate|]. cbn [length] in K3. destruct (c4 =? 125); [injection H as _ <-; lia|].
  destruct (c4 =? 44); [|discriminate]. apply pbind_ok in H as (vs & r5 & He & H). injection H as _ <-. apply IH in He. pose proof (skip_length r4). lia.
Qed.
End Length.
Lemma lenient_scan_length T : forall n s v r, lenient_scan T n s = POk v r -> (length r < length s)%nat.
Proof.
  induction n as [|n IH]; intros s v r H; [discriminate|]. cbn [lenient_scan] in H. destruct s as [|c s]; [discriminate|].
  pose proof (skip_length s) as K. cbn [length]. destruct (c =? 34).
  { destruct (lenient_units s) as [[us r1]|] eqn:Hu; [|discriminate]. injection H as _ <-. apply (lenient_units_length (S (length s))) in Hu; lia. }
  destruct (c =? 123).
  { destruct (strip [125] (skip s)) as [y|] eqn:Hs; [injection H as _ <-; apply strip_length in Hs; lia|].
    apply pbind_ok in H as (l & r1 & Hl & H). injection H as _ <-. apply (members_length T _ IH) in Hl. lia. }
  destruct (c =? 91).
  { destruct (strip [93] (skip s)) as [y|] eqn:Hs; [injection H as _ <-; apply strip_length in Hs; lia|].
    apply pbind_ok in H as (l & r1 & Hl & H). injection H as _ <-. apply (elements_length _ IH) in Hl. lia. }
  assert (P : forall p y, strip p (c :: s) = Some y -> p <> [] -> (length y < S (length s))%nat).
  { intros p y Hy Hp. apply strip_split in Hy. apply (f_equal (@length Z)) in Hy. rewrite app_length in Hy. destruct p; [contradiction|]. cbn [length] in Hy. lia. }
  repeat match type of H with context [strip ?p (c :: s)] => let Hs := fresh "Hs" in destruct (strip p (c :: s)) as [?y|] eqn:Hs;
    [injection H as _ <-; apply (P _ _ Hs); discriminate|] end.
  apply number_length in H. exact H.
Qed.
(** ** The scanner with strict=False is the scanner of the spelled text *)
Section Forward.
Variables (T : textrt) (sc sc' : text -> pres value).
Hypothesis Hsc : forall s v r, sc s = POk v r -> sc' (out s) = POk v (out r).
Lemma elements_fwd : forall k k' s l r, (k <= k')%nat -> elements sc k s = POk l r -> elements sc' k' (out s) = POk l (out r).
Proof.
  induction k as [|k IH]; intros k' s l r Hk H; [discriminate|]. destruct k' as [|k']; [lia|]. cbn [elements] in *.
  apply pbind_ok in H as (v & r1 & Hv & H). rewrite (Hsc _ _ _ Hv). cbn [pbind]. rewrite skip_out. destruct (skip r1) as [|c r2]; [discriminate|].
  destruct (Z.eqb_spec c 93) as [->|]; [injection H as <- <-; reflexivity|]. destruct (Z.eqb_spec c 44) as [->|]; [|discriminate].
  apply pbind_ok in H as (vs & r3 & He & H). injection H as <- <-. rewrite out_other by lia. change (44 =? 93) with false. change (44 =? 44) with true. cbv iota.
  rewrite skip_out, (IH k' _ _ _ ltac:(lia) He). reflexivity.
Qed.
Lemma members_fwd : forall k k' s l r, (k <= k')%nat -> lenient_members T sc k s = POk l r -> members T sc' k' (out s) = POk l (out r).
Proof.
  induction k as [|k IH]; intros k' s l r Hk H; [discriminate|]. destruct k' as [|k']; [lia|]. cbn [members lenient_members] in *.
  destruct s as [|c s]; [discriminate|]. destruct (Z.eqb_spec c 34) as [->|]; [|discriminate]. rewrite out_cons. change (34 =? 34) with true. cbv iota.
  rewrite units_out. destruct (lenient_units s) as [[us r1]|]; [|discriminate]. cbn [umap option_map fst snd]. rewrite skip_out.
  destruct (skip r1) as [|c2 r2]; [discriminate|]. destruct (Z.eqb_spec c2 58) as [->|]; [|discriminate]. rewrite out_other by lia. change (58 =? 58) with true. cbv iota.
  apply pbind_ok in H as (v & r3 & Hv & H). rewrite skip_out, (Hsc _ _ _ Hv). cbn [pbind]. rewrite skip_out. destruct (skip r3) as [|c4 r4]; [discriminate|].
  destruct (Z.eqb_spec c4 125) as [->|]; [injection H as <- <-; reflexivity|]. destruct (Z.eqb_spec c4 44) as [->|]; [|discriminate].
  apply pbind_ok in H as (vs & r5 & He & H). injection H as <- <-. rewrite out_other by lia. change (44 =? 125) with false. change (44 =? 44) with true. cbv iota.
  rewrite skip_out, (IH k' _ _ _ ltac:(lia) He). reflexivity.
Qed.
End Forward.
Ltac not_in := cbn; intros H0; repeat destruct H0 as [H0|H0]; try discriminate H0; contradiction.
Lemma scan_fwd T : forall n s v r, lenient_scan T n s = POk v r -> scan T n (out s) = POk v (out r).
Proof.
  induction n as [|n IH]; intros s v r H; [discriminate|]. destruct s as [|c s]; [discriminate|]. cbn [lenient_scan] in H.
  destruct (Z.eqb_spec c 34) as [->|H34].
  { rewrite out_cons. change (34 =? 34) with true. cbn [scan]. change (34 =? 34) with true. cbv iota. rewrite units_out.
    destruct (lenient_units s) as [[us r1]|]; [|discriminate]. injection H as <- <-. reflexivity. }
  pose proof (spelled_length false s) as Hle. cbn [scan].
  assert (O : out (c :: s) = c :: out s) by (now apply out_other). rewrite O at 1. destruct (Z.eqb_spec c 34); [contradiction|].
  destruct (c =? 123).
  { rewrite skip_out, strip_out by not_in. destruct (strip [125] (skip s)); [injection H as <- <-; reflexivity|]. cbn [option_map].
    apply pbind_ok in H as (l & r1 & Hl & H). injection H as <- <-.
    rewrite (members_fwd T _ _ IH (S (length s)) (S (length (out s))) _ _ _ ltac:(lia) Hl). reflexivity. }
  destruct (c =? 91).
  { rewrite skip_out, strip_out by not_in. destruct (strip [93] (skip s)); [injection H as <- <-; reflexivity|]. cbn [option_map].
    apply pbind_ok in H as (l & r1 & Hl & H). injection H as <- <-.
    rewrite (elements_fwd _ _ IH (S (length s)) (S (length (out s))) _ _ _ ltac:(lia) Hl). reflexivity. }
  rewrite !strip_out, number_out by not_in.
  repeat match type of H with context [strip ?p (c :: s)] => destruct (strip p (c :: s)) as [?y|]; cbn [option_map]; [injection H as <- <-; reflexivity|] end.
  rewrite H. reflexivity.
Qed.
Section Backward.
Variables (T : textrt) (sc sc' : text -> pres value) (m : nat).
Hypothesis Hlen : forall s v r, sc s = POk v r -> (length r < length s)%nat.
Hypothesis Hsc : forall s v r', (length s < m)%nat -> sc' (out s) = POk v r' -> exists r, sc s = POk v r /\ r' = out r.
Lemma elements_bwd : forall k k' s l r', (length s < k)%nat -> (length s < m)%nat -> elements sc' k' (out s) = POk l r' ->
  exists r, elements sc k s = POk l r /\ r' = out r.
Proof.
  induction k as [|k IH]; intros k' s l r' Hk Hm H; [lia|]. destruct k' as [|k']; [discriminate|]. cbn [elements] in *.
  apply pbind_ok in H as (v & y & Hv & H). apply Hsc in Hv as (r1 & Hv & ->); [|exact Hm]. rewrite Hv. apply Hlen in Hv. cbn [pbind]. rewrite skip_out in H.
  pose proof (skip_length r1) as K. destruct (skip r1) as [|c r2]; [discriminate|]. rewrite out_cons in H. cbn [length] in K.
  destruct (Z.eqb_spec c 93) as [->|]; [injection H as <- <-; eexists; split; reflexivity|]. destruct (Z.eqb_spec c 44) as [->|]; [|discriminate].
  change (44 =? 34) with false in H. rewrite skip_out in H. apply pbind_ok in H as (vs & y & He & H). injection H as <- <-. pose proof (skip_length r2).
  apply IH in He as (r3 & He & ->); [|lia|lia]. rewrite He. cbn [pbind]. eauto.
Qed.
Lemma members_bwd : forall k k' s l r', (length s < k)%nat -> (length s < m)%nat -> members T sc' k' (out s) = POk l r' ->
  exists r, lenient_members T sc k s = POk l r /\ r' = out r.
Proof.
  induction k as [|k IH]; intros k' s l r' Hk Hm H; [lia|]. destruct k' as [|k']; [discriminate|]. cbn [members lenient_members] in *.
  destruct s as [|c s]; [discriminate|]. rewrite out_cons in H. cbn [length] in *. destruct (Z.eqb_spec c 34) as [->|]; [|discriminate].
  rewrite units_out in H. destruct (lenient_units s) as [[us r1]|] eqn:Hu; [|discriminate]. cbn [umap option_map fst snd] in H. rewrite skip_out in H.
  apply (lenient_units_length (S (length s))) in Hu; [|lia]. pose proof (skip_length r1) as K.
  destruct (skip r1) as [|c2 r2]; [discriminate|]. rewrite out_cons in H. cbn [length] in K. destruct (Z.eqb_spec c2 58) as [->|]; [|discriminate].
  change (58 =? 34) with false in H. rewrite skip_out in H. pose proof (skip_length r2).
  apply pbind_ok in H as (v & y & Hv & H). apply Hsc in Hv as (r3 & Hv & ->); [|lia]. rewrite Hv. apply Hlen in Hv. cbn [pbind]. rewrite skip_out in H.
  pose proof (skip_length r3) as K3. destruct (skip r3) as [|c4 r4]; [discriminate|]. rewrite out_cons in H. cbn [length] in K3.
  destruct (Z.eqb_spec c4 125) as [->|]; [injection H as <- <-; eexists; split; reflexivity|]. destruct (Z.eqb_spec c4 44) as [->|]; [|discriminate].
  change (44 =? 34) with false in H. rewrite skip_out in H. apply pbind_ok in H as (vs & y & He & H). injection H as <- <-. pose proof (skip_length r4).
  apply IH in He as (r5 & He & ->); [|lia|lia]. rewrite He. cbn [pbind]. eauto.
Qed.
End Backward.
Lemma scan_bwd T : forall n m s v r', (length s < n)%nat -> scan T m (out s) = POk v r' -> exists r, lenient_scan T n s = POk v r /\ r' = out r.
Proof.
  induction n as [|n IH]; intros m s v r' Hn H; [lia|]. destruct m as [|m]; [discriminate|]. destruct s as [|c s]; [discriminate|]. cbn [length] in Hn.
  pose proof (skip_length s) as K. cbn [lenient_scan]. destruct (Z.eqb_spec c 34) as [->|H34].
  { rewrite out_cons in H. change (34 =? 34) with true in H. cbn [scan] in H. change (34 =? 34) with true in H. cbv iota in H. rewrite units_out in H.
    destruct (lenient_units s) as [[us r1]|]; [|discriminate]. cbn [umap option_map fst snd] in H. injection H as <- <-. eauto. }
  assert (O : out (c :: s) = c :: out s) by (now apply out_other). rewrite O in H. cbn [scan] in H. destruct (Z.eqb_spec c 34); [contradiction|].
  destruct (c =? 123).
  { rewrite skip_out, strip_out in H by not_in. destruct (strip [125] (skip s)); cbn [option_map] in H; [injection H as <- <-; eauto|].
    apply pbind_ok in H as (l & y & Hl & H). injection H as <- <-.
    apply (members_bwd T (lenient_scan T n) _ n (lenient_scan_length T n) (IH m) (S (length s))) in Hl as (r1 & Hl & ->); [|lia|lia]. rewrite Hl. cbn [pbind]. eauto. }
  destruct (c =? 91).
  { rewrite skip_out, strip_out in H by not_in. destruct (strip [93] (skip s)); cbn [option_map] in H; [injection H as <- <-; eauto|].
    apply pbind_ok in H as (l & y & Hl & H). injection H as <- <-.
    apply (elements_bwd (lenient_scan T n) _ n (lenient_scan_length T n) (IH m) (S (length s))) in Hl as (r1 & Hl & ->); [|lia|lia]. rewrite Hl. cbn [pbind]. eauto. }
  rewrite <- O, !strip_out, number_out in H by not_in.
  repeat match goal with |- context [strip ?p (c :: s)] => destruct (strip p (c :: s)) as [?y|]; cbn [option_map] in H; [injection H as <- <-; eauto|] end.
  destruct (number T (c :: s)); try discriminate. cbn [pmap] in H. injection H as <- <-. eauto.
Qed.
Lemma out_nil s : out s = [] <-> s = [].
Proof. destruct s; [tauto|]. rewrite out_cons. split; discriminate. Qed.
Theorem lenient_spelled T s : lenient_json_loads T s = json_loads T (out s).
Proof.
  assert (F : forall v, lenient_json_loads T s = Some v -> json_loads T (out s) = Some v).
  { intros v. unfold lenient_json_loads, json_loads. destruct (lenient_scan T (S (length s)) (skip s)) as [w r| |] eqn:H; try discriminate.
    apply scan_fwd in H. rewrite <- skip_out in H. pose proof (spelled_length false s).
    rewrite (scan_mono T (S (length s)) (S (length (out s))) _ _ _ ltac:(lia) H), skip_out. destruct (skip r); [intros E; injection E as <-; reflexivity|discriminate]. }
  assert (B : forall v, json_loads T (out s) = Some v -> lenient_json_loads T s = Some v).
  { intros v. unfold lenient_json_loads, json_loads. destruct (scan T (S (length (out s))) (skip (out s))) as [w y| |] eqn:H; try discriminate.
    rewrite skip_out in H. pose proof (skip_length s). apply (scan_bwd T (S (length s))) in H as (r & -> & ->); [|lia]. rewrite skip_out.
    destruct (skip r) as [|c r2]; [cbn; auto|]. rewrite out_cons. discriminate. }
  destruct (lenient_json_loads T s) as [v|] eqn:H; [symmetry; now apply F|]. destruct (json_loads T (out s)) as [v|] eqn:H'; [|reflexivity].
  specialize (B _ eq_refl). discriminate.
Qed.
(** ** Texts that are JSON anyway *)
Lemma units_lenient : forall n s x, (length s < n)%nat -> units s = Some x -> lenient_units s = Some x.
Proof.
  induction n as [|n IH]; intros s x Hn H; [lia|]. destruct s as [|c s]; [discriminate|]. cbn [length] in Hn.
  assert (M : forall u a b, more_units u a = Some x -> (forall y, a = Some y -> b = Some y) -> more_units u b = Some x).
  { intros u a b Ha Hab. destruct a as [y|]; [|discriminate]. now rewrite (Hab _ eq_refl). }
  destruct (Z.eqb_spec c 92) as [->|H92].
  - destruct s as [|e s]; [discriminate|]. cbn [length] in Hn. destruct (Z.eqb_spec e 117) as [->|He].
    + rewrite units_four in H. rewrite lenient_four. destruct (four s) as [[u y]|] eqn:Hf; [|discriminate]. apply four_length in Hf.
      apply (M u _ _ H). intros z. apply IH. lia.
    + cbn [units lenient_units] in *. change (92 =? 34) with false in *. change (92 =? 92) with true in *. cbv iota in *.
      destruct (Z.eqb_spec e 117); [contradiction|]. destruct (unescape e) as [u|]; [|discriminate]. apply (M u _ _ H). intros z. apply IH. lia.
  - cbn [units lenient_units] in *. destruct (c =? 34); [exact H|]. destruct (Z.eqb_spec c 92); [contradiction|].
    destruct (Z.leb_spec c 31); [discriminate|]. destruct (Z.ltb_spec c 0); [lia|]. apply (M c _ _ H). intros z. apply IH. lia.
Qed.
Lemma members_lenient T (sc sc' : text -> pres value) : (forall s v r, sc s = POk v r -> sc' s = POk v r) ->
  forall k s l r, members T sc k s = POk l r -> lenient_members T sc' k s = POk l r.
Proof.
  intros Hsc. induction k as [|k IH]; intros s l r H; [discriminate|]. cbn [members lenient_members] in *.
  destruct s as [|c s]; [discriminate|]. destruct (c =? 34); [|discriminate]. destruct (units s) as [[us r1]|] eqn:Hu; [|discriminate].
  rewrite (units_lenient (S (length s)) s _ (le_n _) Hu).
  destruct (skip r1) as [|c2 r2]; [discriminate|]. destruct (c2 =? 58); [|discriminate].
  apply pbind_ok in H as (v & r3 & Hv & H). rewrite (Hsc _ _ _ Hv). cbn [pbind]. destruct (skip r3) as [|c4 r4]; [discriminate|].
  destruct (c4 =? 125); [exact H|]. destruct (c4 =? 44); [|discriminate]. apply pbind_ok in H as (vs & r5 & He & H).
  rewrite (IH _ _ _ He). exact H.
Qed.
Lemma scan_lenient T : forall n s v r, scan T n s = POk v r -> lenient_scan T n s = POk v r.
Proof.
  induction n as [|n IH]; intros s v r H; [discriminate|]. cbn [scan lenient_scan] in *.
  destruct s as [|c s]; [discriminate|]. destruct (c =? 34).
  { destruct (units s) as [[us r1]|] eqn:Hu; [|discriminate]. now rewrite (units_lenient (S (length s)) s _ (le_n _) Hu). }
  destruct (c =? 123).
  { destruct (strip [125] (skip s)); [exact H|]. apply pbind_ok in H as (l & r1 & Hl & H).
    rewrite (members_lenient T _ _ IH _ _ _ _ Hl). exact H. }
  destruct (c =? 91); [|exact H].
  destruct (strip [93] (skip s)); [exact H|]. apply pbind_ok in H as (l & r1 & Hl & H).
  rewrite (elements_mono _ _ IH _ _ _ _ _ (le_n _) Hl). exact H.
Qed.
Lemma lenient_document T s v : json_document T s v -> lenient_json_loads T s = Some v.
Proof.
  intros H. apply json_loads_iff in H. unfold json_loads in H. unfold lenient_json_loads.
  destruct (scan T (S (length s)) (skip s)) as [w r| |] eqn:Hs; try discriminate. now rewrite (scan_lenient T _ _ _ _ Hs).
Qed.
Lemma spelled_same_n : forall n b s, (length s < n)%nat -> Forall (fun c => ~ control c) s -> spelled b s = s.
Proof.
  induction n as [|n IH]; intros b s Hn H; [lia|]. destruct H as [|c s Hc H]; [reflexivity|]. cbn [length] in Hn. cbn [spelled].
  destruct (c =? 34); [now rewrite IH by (auto; lia)|]. destruct b; [|now rewrite IH by (auto; lia)].
  destruct (c =? 92). { destruct H as [|e s He H]; [reflexivity|]. cbn [length] in Hn. now rewrite IH by (auto; lia). }
  unfold control in Hc. destruct (Z.leb_spec 0 c), (Z.ltb_spec c 32); cbn [andb]; try lia; now rewrite IH by (auto; lia).
Qed.
Lemma spelled_same b s : Forall (fun c => ~ control c) s -> spelled b s = s.
Proof. apply (spelled_same_n (S (length s))). lia. Qed.
Lemma spelled_range_n : forall n b s, (length s < n)%nat -> Forall (fun c => 0 <= c < 256) s -> Forall (fun c => 0 <= c < 256) (spelled b s).
Proof.
  induction n as [|n IH]; intros b s Hn H; [lia|]. destruct H as [|c s Hc H]; [constructor|]. cbn [length] in Hn. cbn [spelled].
  destruct (c =? 34); [constructor; auto; apply IH; auto; lia|]. destruct b; [|constructor; auto; apply IH; auto; lia].
  destruct (c =? 92). { destruct H as [|e s He H]; [repeat constructor; lia|]. cbn [length] in Hn. constructor; [lia|]. constructor; [lia|]. apply IH; auto. lia. }
  destruct (Z.leb_spec 0 c), (Z.ltb_spec c 32); cbn [andb]; try (constructor; auto; apply IH; auto; lia).
  apply Forall_app. split; [|apply IH; auto; lia]. unfold escaped, hex_digit.
  assert (0 <= c / 16 < 2) by (split; [apply Z.div_pos; lia|apply Z.div_lt_upper_bound; lia]). pose proof (Z.mod_pos_bound c 16 ltac:(lia)).
  repeat constructor; try lia; destruct (Z.ltb_spec (c / 16) 10), (Z.ltb_spec (c mod 16) 10); lia.
Qed.
Lemma text_string s : Forall (fun c => 0 <= c < 256) s -> exists x, codes x = s.
Proof.
  induction 1 as [|c s Hc _ (x & Hx)]; [now exists ""|]. exists (String (Ascii.ascii_of_nat (Z.to_nat c)) x). rewrite codes_cons, Hx. f_equal.
  unfold code. rewrite Ascii.nat_ascii_embedding by lia. lia.
Qed.
