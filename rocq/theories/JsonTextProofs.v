(** * JSON text: proofs *)
From Verif Require Import PyBaseFacts EngineFacts RewriteProofs.
From Verif Require Export JsonTextSpec.
From Coq Require Import Lia.
Local Open Scope string_scope.
Local Open Scope list_scope.
Local Open Scope Z_scope.

(** ** Spaces, digits, literals *)
Lemma is_ws_space c : is_ws c = true <-> space c.
Proof.
  unfold is_ws, space. rewrite !orb_true_iff, !Z.eqb_eq. tauto.
Qed.
Lemma skip_spaces w s : spaces w -> skip (w ++ s) = skip s.
Proof.
  induction 1 as [|c w H _ IH]; [reflexivity|]. cbn [app skip]. apply is_ws_space in H. now rewrite H.
Qed.
Lemma skip_split s : exists w, spaces w /\ s = (w ++ skip s)%list.
Proof.
  induction s as [|c s (w & Hw & Hs)]; [exists []; split; [constructor|reflexivity]|].
  cbn [skip]. destruct (is_ws c) eqn:Hc.
  - exists (c :: w). split; [constructor; [now apply is_ws_space|exact Hw]|]. cbn [app]. now rewrite <- Hs.
  - exists []. split; [constructor|reflexivity].
Qed.
Lemma skip_id c s : ~ space c -> skip (c :: s) = c :: s.
Proof.
  intros H. cbn [skip]. destruct (is_ws c) eqn:Hc; [|reflexivity]. now apply is_ws_space in Hc.
Qed.
Lemma skip_all w : skip w = [] <-> spaces w.
Proof.
  split.
  - intros H. destruct (skip_split w) as (w' & Hw & Hs). rewrite H, app_nil_r in Hs. now subst.
  - intros H. rewrite <- (app_nil_r w), skip_spaces by exact H. reflexivity.
Qed.
Lemma skip_idem s : skip (skip s) = skip s.
Proof.
  induction s as [|c s IH]; [reflexivity|]. cbn [skip]. destruct (is_ws c) eqn:Hc; [exact IH|]. cbn [skip]. now rewrite Hc.
Qed.
Lemma is_dig_digit c : is_dig c = true <-> digit c.
Proof. unfold is_dig, digit. rewrite andb_true_iff, !Z.leb_le. tauto. Qed.
Definition no_digit (s : text) : Prop := match s with c :: _ => is_dig c = false | [] => True end.
Lemma span_ok ds r : Forall digit ds -> no_digit r -> span (ds ++ r) = (ds, r).
Proof.
  intros H Hr. induction H as [|c ds Hc _ IH].
  - destruct r as [|c r]; [reflexivity|]. cbn [app span]. cbn [no_digit] in Hr. now rewrite Hr.
  - cbn [app span]. apply is_dig_digit in Hc. now rewrite Hc, IH.
Qed.
Lemma span_split s ds r : span s = (ds, r) -> s = (ds ++ r)%list /\ Forall digit ds.
Proof.
  revert ds r. induction s as [|c s IH]; intros ds r H; cbn [span] in H.
  - injection H as <- <-. split; [reflexivity|constructor].
  - destruct (is_dig c) eqn:Hc.
    + destruct (span s) as [ds' r']. injection H as <- <-. destruct (IH _ _ eq_refl) as [-> H].
      split; [reflexivity|constructor; [now apply is_dig_digit|exact H]].
    + injection H as <- <-. split; [reflexivity|constructor].
Qed.
Lemma strip_ok p r : strip p (p ++ r) = Some r.
Proof. induction p as [|c p IH]; [reflexivity|]. cbn [app strip]. now rewrite Z.eqb_refl. Qed.
Lemma strip_split p : forall s r, strip p s = Some r -> s = (p ++ r)%list.
Proof.
  induction p as [|a p IH]; intros s r H; cbn [strip] in H; [now injection H as ->|].
  destruct s as [|b s]; [discriminate|]. destruct (Z.eqb_spec a b) as [->|]; [|discriminate]. cbn [app]. f_equal. now apply IH.
Qed.

(** ** Numbers *)
Lemma natural_start t : natural t -> exists c ds, t = c :: ds /\ digit c.
Proof.
  intros [-> | (c & ds & -> & Hc & _)]; [exists 48, []|exists c, ds]; (split; [reflexivity|unfold digit; lia]).
Qed.
Lemma natural_part_ok t r : natural t -> no_digit r -> natural_part (t ++ r) = Some (t, r).
Proof.
  intros [-> | (c & ds & -> & Hc & Hd)] Hr; [reflexivity|]. cbn [app natural_part].
  destruct (Z.eqb_spec c 48); [lia|]. rewrite (proj2 (is_dig_digit c)) by (unfold digit; lia). now rewrite (span_ok _ _ Hd Hr).
Qed.
Lemma natural_part_split s t r : natural_part s = Some (t, r) -> s = (t ++ r)%list /\ natural t.
Proof.
  destruct s as [|c s]; cbn [natural_part]; [discriminate|]. destruct (Z.eqb_spec c 48) as [->|Hn].
  - intros H. injection H as <- <-. split; [reflexivity|now left].
  - destruct (is_dig c) eqn:Hc; [|discriminate]. destruct (span s) as [ds r'] eqn:Hs. intros H. injection H as <- <-.
    apply span_split in Hs as [-> Hs]. split; [reflexivity|]. right. exists c, ds. apply is_dig_digit in Hc. unfold digit in Hc.
    repeat split; auto; lia.
Qed.
Definition not_first (p : Z -> Prop) (s : text) : Prop := match s with c :: _ => ~ p c | [] => True end.
Lemma fraction_part_ok f r : f = [] \/ fraction f -> no_digit r -> not_first (eq 46) r ->
  fraction_part (f ++ r) = (f, r).
Proof.
  intros [-> | (ds & -> & Hn & Hd)] Hr Hf.
  - destruct r as [|c r]; [reflexivity|]. cbn [app fraction_part]. destruct (Z.eqb_spec c 46) as [->|]; [|reflexivity]. now elim Hf.
  - change (codes "." ++ ds)%list with (46 :: ds). cbn [app fraction_part]. change (46 =? 46) with true. cbv iota.
    rewrite (span_ok _ _ Hd Hr). destruct ds; [now elim Hn|reflexivity].
Qed.
Lemma fraction_part_split s f r : fraction_part s = (f, r) -> s = (f ++ r)%list /\ (f = [] \/ fraction f).
Proof.
  destruct s as [|c s]; cbn [fraction_part]; [intros H; injection H as <- <-; auto|].
  destruct (Z.eqb_spec c 46) as [->|]; [|intros H; injection H as <- <-; auto].
  destruct (span s) as [ds r'] eqn:Hs. destruct ds as [|d ds]; intros H; injection H as <- <-; [auto|].
  apply span_split in Hs as [-> Hd]. split; [reflexivity|]. right. exists (d :: ds). repeat split; [discriminate|exact Hd].
Qed.
Definition is_e (c : Z) : Prop := c = 101 \/ c = 69.
Lemma exponent_part_ok e r : e = [] \/ exponent e -> no_digit r -> not_first is_e r ->
  exponent_part (e ++ r) = (e, r).
Proof.
  assert (K : forall c, is_e c -> ((c =? 101) || (c =? 69)) = true) by (intros c [-> | ->]; reflexivity).
  intros [-> | (e' & sg & ds & -> & He & Hsg & Hn & Hd)] Hr Hf.
  - destruct r as [|c r]; [reflexivity|]. cbn [app exponent_part].
    destruct ((c =? 101) || (c =? 69)) eqn:Hc; [|reflexivity]. elim Hf. apply orb_true_iff in Hc as [Hc|Hc]; apply Z.eqb_eq in Hc; [now left|now right].
  - assert (He' : exists c, e' = [c] /\ is_e c) by (destruct He as [-> | ->]; eexists; (split; [reflexivity|]); [now left|now right]).
    destruct He' as (c & -> & Hc). clear He. cbn [app exponent_part]. rewrite (K _ Hc). rewrite <- app_assoc.
    assert (Hs : span (ds ++ r) = (ds, r)) by now apply span_ok.
    assert (Hx : match (sg ++ ds ++ r)%list with
                 | x :: r' => if (x =? 43) || (x =? 45) then ([x], r') else ([], sg ++ ds ++ r)
                 | [] => ([], sg ++ ds ++ r) end = (sg, ds ++ r)%list).
    { destruct Hsg as [-> | [-> | ->]]; [|reflexivity|reflexivity]. destruct ds as [|d ds]; [now elim Hn|]. inversion Hd; subst.
      unfold digit in *. cbn [app]. destruct (Z.eqb_spec d 43); [lia|]. destruct (Z.eqb_spec d 45); [lia|]. reflexivity. }
    rewrite Hx, Hs. destruct ds; [now elim Hn|]. reflexivity.
Qed.
Lemma exponent_part_split s e r : exponent_part s = (e, r) -> s = (e ++ r)%list /\ (e = [] \/ exponent e).
Proof.
  destruct s as [|c s]; cbn [exponent_part]; [intros H; injection H as <- <-; auto|].
  destruct ((c =? 101) || (c =? 69)) eqn:Hc; [|intros H; injection H as <- <-; auto].
  assert (Hsg : exists sg r1, s = (sg ++ r1)%list /\ (sg = [] \/ sg = codes "+" \/ sg = codes "-") /\
    match s with x :: r' => if (x =? 43) || (x =? 45) then ([x], r') else ([], s) | [] => ([], s) end = (sg, r1)).
  { destruct s as [|x s]; [exists [], []; auto|]. destruct ((x =? 43) || (x =? 45)) eqn:Hx; [|exists [], (x :: s); auto].
    exists [x], s. repeat split. right. apply orb_true_iff in Hx as [Hx|Hx]; apply Z.eqb_eq in Hx; subst; auto. }
  destruct Hsg as (sg & r1 & Hs & Hsg & ->). destruct (span r1) as [ds r2] eqn:Hp.
  destruct ds as [|d ds]; intros H; injection H as <- <-; [auto|]. apply span_split in Hp as [-> Hd].
  split; [rewrite Hs; cbn [app]; now rewrite <- app_assoc|]. right. exists [c], sg, (d :: ds). repeat split; auto; [|discriminate].
  apply orb_true_iff in Hc as [Hc|Hc]; apply Z.eqb_eq in Hc; subst; auto.
Qed.
Lemma digits_value_acc ds : forall z, fold_left (fun z c => z * 10 + (c - 48)) ds z = z * 10 ^ Z.of_nat (length ds) + decimal ds.
Proof.
  induction ds as [|c ds IH]; intros z; cbn [fold_left length decimal].
  - change (10 ^ Z.of_nat 0) with 1. lia.
  - rewrite IH, Nat2Z.inj_succ, Z.pow_succ_r by lia. ring.
Qed.
Lemma digits_value_decimal ds : digits_value ds = decimal ds.
Proof. unfold digits_value. rewrite digits_value_acc. lia. Qed.

(** What may follow a number *)
Definition delimited (s : text) : Prop := no_digit s /\ not_first (eq 46) s /\ not_first is_e s.
Lemma minus_ok neg t : (forall c ds, t = c :: ds -> c <> 45) -> minus (sign neg ++ t) = (neg, t).
Proof.
  intros H. destruct neg; cbn [sign app]; [reflexivity|]. destruct t as [|c t]; [reflexivity|]. cbn [minus].
  destruct (Z.eqb_spec c 45) as [->|]; [|reflexivity]. now elim (H 45 t).
Qed.
Lemma minus_split s neg r : minus s = (neg, r) -> s = (sign neg ++ r)%list.
Proof.
  destruct s as [|c s]; cbn [minus]; [intros H; now injection H as <- <-|].
  destruct (Z.eqb_spec c 45) as [->|]; intros H; now injection H as <- <-.
Qed.
Lemma number_ok T neg t f e rest :
  natural t -> f = [] \/ fraction f -> e = [] \/ exponent e -> delimited rest ->
  number T (sign neg ++ t ++ f ++ e ++ rest) =
  POk (match f, e with
       | [], [] => VInt (if neg then - decimal t else decimal t)
       | _, _ => VFloat (tr_read T (sign neg ++ t ++ f ++ e))
       end) rest.
Proof.
  intros Ht Hf He (Hd & H46 & Hee). unfold number. rewrite minus_ok.
  2:{ intros c ds Hc Hx. subst c. destruct (natural_start _ Ht) as (c & ds' & -> & Hg). injection Hc as -> _. unfold digit in Hg. lia. }
  assert (Hfe : no_digit (e ++ rest) /\ not_first (eq 46) (e ++ rest)).
  { destruct He as [-> | (e' & sg & ds & -> & [-> | ->] & _)]; cbn [app]; auto; (split; [reflexivity|discriminate]). }
  assert (Hr : no_digit (f ++ e ++ rest)).
  { destruct Hf as [-> | (ds & -> & _)]; cbn [app]; [exact (proj1 Hfe)|reflexivity]. }
  rewrite (natural_part_ok _ _ Ht Hr), (fraction_part_ok _ _ Hf (proj1 Hfe) (proj2 Hfe)), (exponent_part_ok _ _ He Hd Hee).
  rewrite digits_value_decimal.
  destruct f; destruct e; reflexivity.
Qed.
Lemma number_split T s v rest : number T s = POk v rest ->
  exists t, s = (t ++ rest)%list /\ json_value T t v.
Proof.
  unfold number. destruct (minus s) as [neg r] eqn:H1. destruct (natural_part r) as [[ds r1]|] eqn:H2; [|discriminate].
  destruct (fraction_part r1) as [fr r2] eqn:H3. destruct (exponent_part r2) as [ex r3] eqn:H4. intros H.
  apply minus_split in H1 as ->. apply natural_part_split in H2 as [-> H2]. apply fraction_part_split in H3 as [-> H3].
  apply exponent_part_split in H4 as [-> H4].
  assert (Hc : (fr = [] /\ ex = [] /\ POk (VInt (if neg then - digits_value ds else digits_value ds)) r3 = POk v rest) \/
               ((fr <> [] \/ ex <> []) /\ POk (VFloat (tr_read T (sign neg ++ ds ++ fr ++ ex))) r3 = POk v rest)).
  { destruct fr; [destruct ex|]; [left; auto|right; split; [right; discriminate|exact H]|right; split; [left; discriminate|exact H]]. }
  destruct Hc as [(-> & -> & Hc)|[Hn Hc]]; injection Hc as <- <-.
  - exists (sign neg ++ ds)%list. split; [now rewrite <- app_assoc|]. rewrite digits_value_decimal. now apply jv_int.
  - exists (sign neg ++ ds ++ fr ++ ex)%list. split; [now rewrite <- !app_assoc|]. now apply jv_float.
Qed.

(** ** Strings *)
Lemma hex_unit_value c v : hex_unit c = Some v <-> hex_value c v.
Proof.
  unfold hex_unit, hex_value. destruct (is_dig c) eqn:Hd.
  - apply is_dig_digit in Hd. split; intros H; [left; split; [exact Hd|congruence]|].
    unfold digit in *. f_equal. lia.
  - assert (Hn : ~ digit c) by (rewrite <- is_dig_digit; congruence).
    destruct (Z.leb_spec 97 c); destruct (Z.leb_spec c 102); cbn [andb];
    destruct (Z.leb_spec 65 c); destruct (Z.leb_spec c 70); cbn [andb];
    (split; [intros H'; try discriminate; injection H' as <-; lia | intros [[? ?]|[[? ?]|[? ?]]]; try contradiction; try lia; f_equal; lia]).
Qed.
Lemma hex4_value a b c d u : hex4 a b c d = Some u <->
  exists a' b' c' d', hex_value a a' /\ hex_value b b' /\ hex_value c c' /\ hex_value d d' /\
    u = 4096 * a' + 256 * b' + 16 * c' + d'.
Proof.
  unfold hex4. split.
  - destruct (hex_unit a) as [a'|] eqn:Ha; [|discriminate]. destruct (hex_unit b) as [b'|] eqn:Hb; [|discriminate].
    destruct (hex_unit c) as [c'|] eqn:Hc; [|discriminate]. destruct (hex_unit d) as [d'|] eqn:Hd; [|discriminate].
    intros H. injection H as <-. exists a', b', c', d'. rewrite <- !hex_unit_value. repeat split; auto. lia.
  - intros (a' & b' & c' & d' & Ha & Hb & Hc & Hd & ->). apply hex_unit_value in Ha, Hb, Hc, Hd. rewrite Ha, Hb, Hc, Hd. f_equal. lia.
Qed.
Lemma unescape_ok e u : unescape e = Some u <-> In (e, u) escapes.
Proof.
  split.
  - unfold unescape, escapes. repeat (match goal with |- context [?x =? ?y] => destruct (Z.eqb_spec x y); [intros H; injection H as <-; subst; cbn; tauto|] end). discriminate.
  - unfold escapes. cbn [In]. intros H. repeat (destruct H as [H|H]; [injection H as <- <-; reflexivity|]). destruct H.
Qed.
Lemma units_ok t us : chars t us -> forall r, units (t ++ 34 :: r) = Some (us, r).
Proof.
  induction 1 as [|c t us H1 H2 H3 _ IH|e u t us Hin _ IH|a b c d a' b' c' d' t us Ha Hb Hc Hd _ IH]; intros r.
  - reflexivity.
  - cbn [app units]. destruct (Z.eqb_spec c 34); [contradiction|]. destruct (Z.eqb_spec c 92); [contradiction|].
    destruct (Z.leb_spec c 31); [lia|]. now rewrite IH.
  - cbn [app units]. change (92 =? 34) with false. change (92 =? 92) with true. cbv iota.
    destruct (Z.eqb_spec e 117) as [->|]; [exfalso; cbn in Hin; repeat (destruct Hin as [Hin|Hin]; [discriminate|]); exact Hin|].
    apply unescape_ok in Hin. rewrite Hin, IH. reflexivity.
  - cbn [app units]. change (92 =? 34) with false. change (92 =? 92) with true. change (117 =? 117) with true. cbv iota.
    rewrite (proj2 (hex4_value a b c d _)) by (exists a', b', c', d'; repeat split; eauto). now rewrite IH.
Qed.
Lemma units_split_n n : forall s us r, (length s < n)%nat -> units s = Some (us, r) ->
  exists t, s = (t ++ 34 :: r)%list /\ chars t us.
Proof.
  induction n as [|n IH]; intros s us r Hl H; [lia|]. destruct s as [|c s]; [discriminate|]. cbn [units] in H. cbn [length] in Hl.
  destruct (Z.eqb_spec c 34) as [->|H34]; [injection H as <- <-; exists []; split; [reflexivity|constructor]|].
  assert (K : forall u s' us r, (length s' < n)%nat -> more_units u (units s') = Some (us, r) ->
    exists us' t, us = u :: us' /\ s' = (t ++ 34 :: r)%list /\ chars t us').
  { intros u s' us0 r0 Hl' H'. unfold more_units in H'. destruct (units s') as [[us' r']|] eqn:Hu; [|discriminate].
    injection H' as <- <-. destruct (IH _ _ _ Hl' Hu) as (t & Ht & Hc). eauto. }
  destruct (Z.eqb_spec c 92) as [->|H92].
  - destruct s as [|e s]; [discriminate|]. destruct (Z.eqb_spec e 117) as [->|He].
    + destruct s as [|a [|b [|c [|d s]]]]; try discriminate. destruct (hex4 a b c d) as [u|] eqn:Hx; [|discriminate].
      cbn [length] in Hl. apply K in H as (us' & t & -> & -> & Hc); [|lia].
      apply hex4_value in Hx as (a' & b' & c' & d' & Ha & Hb & Hc' & Hd & ->).
      exists (92 :: 117 :: a :: b :: c :: d :: t). split; [reflexivity|]. now constructor.
    + destruct (unescape e) as [u|] eqn:Hx; [|discriminate]. cbn [length] in Hl. apply K in H as (us' & t & -> & -> & Hc); [|lia].
      apply unescape_ok in Hx. exists (92 :: e :: t). split; [reflexivity|]. now constructor.
  - destruct (Z.leb_spec c 31); [discriminate|]. apply K in H as (us' & t & -> & -> & Hc); [|lia].
    exists (c :: t). split; [reflexivity|]. constructor; auto. lia.
Qed.
Lemma units_split s us r : units s = Some (us, r) -> exists t, s = (t ++ 34 :: r)%list /\ chars t us.
Proof. apply (units_split_n (S (length s))). lia. Qed.
Definition pairb (a b : Z) : bool := (55296 <=? a) && (a <=? 56319) && (56320 <=? b) && (b <=? 57343).
Lemma pairb_spec a b : pairb a b = true <-> high a /\ low b.
Proof. unfold pairb, high, low. rewrite !andb_true_iff, !Z.leb_le. tauto. Qed.
Lemma join_pair a b r : join (a :: b :: r) =
  if pairb a b then 65536 + (a - 55296) * 1024 + (b - 56320) :: join r else a :: join (b :: r).
Proof. reflexivity. Qed.
Lemma join_points us : points us (join us).
Proof.
  enough (G : forall n us, (length us < n)%nat -> points us (join us)) by (apply (G (S (length us))); lia).
  induction n as [|n IH]; intros vs Hl; [lia|]. destruct vs as [|a [|b r]].
  - constructor.
  - apply pt_one; [discriminate|constructor].
  - rewrite join_pair. cbn [length] in Hl. destruct (pairb a b) eqn:Hp.
    + apply pairb_spec in Hp as [Ha Hb]. replace (65536 + (a - 55296) * 1024 + (b - 56320)) with (65536 + 1024 * (a - 55296) + (b - 56320)) by ring.
      constructor; auto. apply IH. lia.
    + apply pt_one; [|apply IH; cbn [length]; lia]. intros b' us' H. injection H as <- <-. rewrite <- pairb_spec. congruence.
Qed.
Lemma points_join us cs : points us cs -> join us = cs.
Proof.
  induction 1 as [|a b us cs Ha Hb _ IH|a us cs Hn _ IH]; [reflexivity| |].
  - rewrite join_pair. rewrite (proj2 (pairb_spec a b)) by auto. rewrite IH. f_equal. ring.
  - destruct us as [|b us]; [now rewrite <- IH|]. rewrite join_pair. destruct (pairb a b) eqn:Hp; [|now rewrite IH].
    apply pairb_spec in Hp. now elim (Hn b us).
Qed.

(** ** The scanner accepts what the grammar derives *)
Definition first_of (p : Z -> Prop) (t : text) : Prop := exists c r, t = c :: r /\ p c.
(** The characters a value starts with *)
Definition starts_value (c : Z) : Prop :=
  ~ space c /\ c <> 93 /\ c <> 125 /\ c <> 44 /\ c <> 58.
Lemma digit_starts c : digit c -> starts_value c.
Proof. unfold digit, starts_value, space. lia. Qed.
Lemma value_starts T t v : json_value T t v -> first_of starts_value t.
Proof.
  assert (K : forall c, c = 110 \/ c = 116 \/ c = 102 \/ c = 78 \/ c = 73 \/ c = 45 \/ c = 34 \/ c = 91 \/ c = 123 -> starts_value c)
    by (unfold starts_value, space; lia).
  assert (N : forall neg t r, natural t -> first_of starts_value (sign neg ++ t ++ r)).
  { intros neg t' r Ht. destruct neg; cbn [sign app codes]; [eexists _, _; split; [reflexivity|]; apply K; tauto|].
    destruct (natural_start _ Ht) as (c & ds & -> & Hd). eexists _, _. split; [reflexivity|]. now apply digit_starts. }
  destruct 1; try (eexists _, _; split; [reflexivity|]; apply K; tauto).
  - rewrite <- (app_nil_r t). now apply N.
  - now apply N.
  - destruct H. eexists _, _. split; [reflexivity|]. apply K. tauto.
Qed.
Lemma value_nonempty T t v : json_value T t v -> (0 < length t)%nat.
Proof. intros H. apply value_starts in H as (c & r & -> & _). cbn [length]. lia. Qed.
Lemma skip_value T t v r : json_value T t v -> skip (t ++ r) = (t ++ r)%list.
Proof. intros H. apply value_starts in H as (c & t' & -> & Hc & _). cbn [app]. now apply skip_id. Qed.
Lemma string_starts T t s : json_string T t s -> exists t', t = (34 :: t')%list.
Proof. intros []. eexists. reflexivity. Qed.
Lemma skip_string T t s r : json_string T t s -> skip (t ++ r) = (t ++ r)%list.
Proof. intros H. destruct (string_starts _ _ _ H) as (t' & ->). apply skip_id. unfold space. lia. Qed.
Lemma elements_starts T t l r : json_elements T t l -> first_of starts_value (skip (t ++ r)).
Proof.
  intros [w t' w' v Hw Hv Hw'|w t' w' v ts vs Hw Hv Hw' _]; rewrite <- app_assoc, skip_spaces by exact Hw;
    rewrite <- app_assoc, (skip_value _ _ _ _ Hv); apply value_starts in Hv as (c & x & -> & Hc); eexists _, _; (split; [reflexivity|exact Hc]).
Qed.
Lemma members_starts T t l r : json_members T t l -> exists s, skip (t ++ r) = 34 :: s.
Proof.
  intros H. destruct H as [w tk k w1 w2 t v w' Hw Hk _ _ _ _|w tk k w1 w2 t v w' ts kvs Hw Hk _ _ _ _ _];
    rewrite <- app_assoc, skip_spaces by exact Hw; rewrite <- app_assoc, (skip_string _ _ _ _ Hk);
    destruct (string_starts _ _ _ Hk) as (t' & ->); eexists; reflexivity.
Qed.
Lemma units_string T t s r : json_string T t s ->
  exists x us, t = 34 :: x /\ units (x ++ r) = Some (us, r) /\ string_of T (join us) = s.
Proof.
  intros [t' us cs Hc Hp]. exists (t' ++ [34])%list, us. split; [reflexivity|]. split.
  - rewrite <- app_assoc. now apply units_ok.
  - now rewrite (points_join _ _ Hp).
Qed.
Lemma delimited_char c r : c = 44 \/ c = 93 \/ c = 125 \/ space c -> delimited (c :: r).
Proof.
  intros H. unfold delimited, no_digit, not_first, is_e. assert (Hd : is_dig c = false).
  { destruct (is_dig c) eqn:Hc; [|reflexivity]. apply is_dig_digit in Hc. unfold digit, space in *. lia. }
  rewrite Hd. unfold space in H. repeat split; lia.
Qed.
Lemma delimited_spaces w c r : spaces w -> c = 44 \/ c = 93 \/ c = 125 -> delimited (w ++ c :: r).
Proof.
  intros Hw Hc. destruct Hw as [|x w Hx _]; cbn [app]; apply delimited_char; tauto.
Qed.
Lemma skip_to w c r : spaces w -> ~ space c -> skip (w ++ c :: r) = c :: r.
Proof. intros Hw Hc. rewrite skip_spaces by exact Hw. now apply skip_id. Qed.

Lemma strip_head a p c s : a <> c -> strip (a :: p) (c :: s) = None.
Proof. intros H. cbn [strip]. destruct (Z.eqb_spec a c); [contradiction|reflexivity]. Qed.
Lemma scan_number T n c s : c = 45 \/ digit c -> (c = 45 -> not_first (eq 73) s) ->
  scan T (S n) (c :: s) = number T (c :: s).
Proof.
  intros Hc Hm. cbn [scan].
  assert (Hx : c <> 34 /\ c <> 123 /\ c <> 91 /\ 110 <> c /\ 116 <> c /\ 102 <> c /\ 78 <> c /\ 73 <> c) by (unfold digit in Hc; lia).
  destruct Hx as (X1 & X2 & X3 & X4 & X5 & X6 & X7 & X8).
  destruct (Z.eqb_spec c 34); [contradiction|]. destruct (Z.eqb_spec c 123); [contradiction|]. destruct (Z.eqb_spec c 91); [contradiction|].
  change (codes "null") with (110 :: codes "ull"). change (codes "true") with (116 :: codes "rue").
  change (codes "false") with (102 :: codes "alse"). change (codes "NaN") with (78 :: codes "aN").
  change (codes "Infinity") with (73 :: codes "nfinity"). change (codes "-Infinity") with (45 :: 73 :: codes "nfinity").
  rewrite !strip_head by assumption.
  assert (Hs : strip (45 :: 73 :: codes "nfinity") (c :: s) = None).
  { cbn [strip]. destruct (Z.eqb_spec 45 c) as [<-|]; [|reflexivity]. specialize (Hm eq_refl). destruct s as [|d s]; [reflexivity|].
    cbn [not_first] in Hm. destruct (Z.eqb_spec 73 d); [now elim Hm|reflexivity]. }
  now rewrite Hs.
Qed.
Lemma number_first neg t r : natural t ->
  exists c s, (sign neg ++ t ++ r)%list = c :: s /\ (c = 45 \/ digit c) /\ (c = 45 -> not_first (eq 73) s).
Proof.
  intros Ht. destruct (natural_start _ Ht) as (d & ds & -> & Hd). destruct neg; cbn [sign codes app].
  - exists 45, (d :: ds ++ r)%list. split; [reflexivity|]. split; [now left|]. intros _. cbn [not_first]. unfold digit in Hd. lia.
  - exists d, (ds ++ r)%list. split; [reflexivity|]. split; [now right|]. unfold digit in Hd. lia.
Qed.

Scheme json_value_mut := Minimality for json_value Sort Prop
with json_elements_mut := Minimality for json_elements Sort Prop
with json_members_mut := Minimality for json_members Sort Prop.

Section Complete.
Variable T : textrt.
Definition scans (t : text) (v : value) : Prop := forall n rest,
  delimited rest -> (length t < n)%nat -> scan T n (t ++ rest) = POk v rest.
Definition scans_elements (t : text) (l : list value) : Prop := forall n k rest,
  (length t < n)%nat -> (length t < k)%nat -> elements (scan T n) k (skip (t ++ 93 :: rest)) = POk l rest.
Definition scans_members (t : text) (l : list (string * value)) : Prop := forall n k rest,
  (length t < n)%nat -> (length t < k)%nat -> members T (scan T n) k (skip (t ++ 125 :: rest)) = POk l rest.

Lemma scan_value t v : json_value T t v -> scans t v.
Proof.
  apply (json_value_mut T scans scans_elements scans_members); unfold scans, scans_elements, scans_members.
  1-6: intros n rest _ Hl; destruct n as [|n]; [cbn in Hl; lia|]; reflexivity.
  - intros neg t' Ht n rest Hr Hl. destruct n as [|n]; [cbn in Hl; lia|].
    rewrite <- app_assoc. destruct (number_first neg t' rest Ht) as (c & s & Hs & Hc & Hm).
    rewrite Hs, scan_number, <- Hs by assumption. now apply (number_ok T neg t' [] [] rest); auto.
  - intros neg t' f e Ht Hf He Hn n rest Hr Hl. destruct n as [|n]; [cbn in Hl; lia|].
    rewrite <- !app_assoc. destruct (number_first neg t' (f ++ e ++ rest)%list Ht) as (c & s & Hs & Hc & Hm).
    rewrite Hs, scan_number, <- Hs by assumption. rewrite (number_ok T neg t' f e rest) by assumption.
    destruct f; [destruct e|]; [destruct Hn as [Hn|Hn]; now elim Hn|reflexivity|reflexivity].
  - intros t' s Hs n rest _ Hl. destruct n as [|n]; [lia|]. destruct (units_string _ _ _ rest Hs) as (x & us & -> & Hu & <-).
    cbn [app scan]. change (34 =? 34) with true. cbv iota. now rewrite Hu.
  - intros w Hw n rest _ Hl. destruct n as [|n]; [lia|]. cbn [app codes map list_ascii_of_string].
    change (Z.of_nat (code "["%char)) with 91. change (Z.of_nat (code "]"%char)) with 93. cbn [scan].
    change (91 =? 34) with false. change (91 =? 123) with false. change (91 =? 91) with true. cbv iota.
    rewrite <- app_assoc. cbn [app]. rewrite skip_to by (auto; unfold space; lia). reflexivity.
  - intros t' l He IH n rest _ Hl. destruct n as [|n]; [lia|].
    change (codes "[" ++ t' ++ codes "]")%list with (91 :: t' ++ [93])%list in *. cbn [length] in Hl. rewrite app_length in Hl. cbn [length] in Hl.
    cbn [app scan]. change (91 =? 34) with false. change (91 =? 123) with false. change (91 =? 91) with true. cbv iota.
    rewrite <- app_assoc. cbn [app].
    destruct (elements_starts T t' l (93 :: rest) He) as (c & x & Hx & Hc). rewrite Hx, strip_head by (unfold starts_value in Hc; lia).
    rewrite <- Hx, IH; [reflexivity|lia|]. rewrite app_length. cbn [length]. lia.
  - intros w Hw n rest _ Hl. destruct n as [|n]; [lia|]. cbn [app codes map list_ascii_of_string].
    change (Z.of_nat (code "{"%char)) with 123. change (Z.of_nat (code "}"%char)) with 125. cbn [scan].
    change (123 =? 34) with false. change (123 =? 123) with true. cbv iota.
    rewrite <- app_assoc. cbn [app]. rewrite skip_to by (auto; unfold space; lia). reflexivity.
  - intros t' kvs He IH n rest _ Hl. destruct n as [|n]; [lia|].
    change (codes "{" ++ t' ++ codes "}")%list with (123 :: t' ++ [125])%list in *. cbn [length] in Hl. rewrite app_length in Hl. cbn [length] in Hl.
    cbn [app scan]. change (123 =? 34) with false. change (123 =? 123) with true. cbv iota.
    rewrite <- app_assoc. cbn [app].
    destruct (members_starts T t' kvs (125 :: rest) He) as (x & Hx). rewrite Hx, strip_head by lia.
    rewrite <- Hx, IH; [reflexivity|lia|]. rewrite app_length. cbn [length]. lia.
  - intros w t' w' v' Hw Hv IH Hw' n k rest Hl Hk. destruct k as [|k]; [lia|]. rewrite !app_length in Hl.
    rewrite <- !app_assoc, skip_spaces, (skip_value _ _ _ _ Hv) by exact Hw. cbn [elements].
    rewrite IH by (try (apply delimited_spaces; auto); lia). cbn [pbind]. rewrite skip_to by (auto; unfold space; lia). reflexivity.
  - intros w t' w' v' ts vs Hw Hv IH Hw' _ IHs n k rest Hl Hk. destruct k as [|k]; [lia|]. rewrite !app_length in Hl, Hk.
    change (length (codes ",")) with 1%nat in *.
    rewrite <- !app_assoc, skip_spaces, (skip_value _ _ _ _ Hv) by exact Hw. change (codes "," ++ ts ++ 93 :: rest)%list with (44 :: ts ++ 93 :: rest)%list.
    cbn [elements]. rewrite IH by (try (apply delimited_spaces; auto); lia). cbn [pbind]. rewrite skip_to by (auto; unfold space; lia).
    change (44 =? 93) with false. change (44 =? 44) with true. cbv iota. rewrite IHs by lia. reflexivity.
  - intros w tk key w1 w2 t' v' w' Hw Hk H1 H2 Hv IH Hw' n k rest Hl Hkk. destruct k as [|k]; [lia|]. rewrite !app_length in Hl.
    rewrite <- !app_assoc, skip_spaces, (skip_string _ _ _ _ Hk) by exact Hw.
    destruct (units_string _ _ _ (w1 ++ codes ":" ++ w2 ++ t' ++ w' ++ 125 :: rest)%list Hk) as (x & us & -> & Hu & <-).
    cbn [app members]. change (34 =? 34) with true. cbv iota. rewrite Hu. change (codes ":" ++ w2 ++ t' ++ w' ++ 125 :: rest)%list with (58 :: w2 ++ t' ++ w' ++ 125 :: rest)%list.
    rewrite skip_to by (auto; unfold space; lia). change (58 =? 58) with true. cbv iota.
    rewrite skip_spaces, (skip_value _ _ _ _ Hv) by exact H2. rewrite IH by (try (apply delimited_spaces; auto); lia). cbn [pbind].
    rewrite skip_to by (auto; unfold space; lia). reflexivity.
  - intros w tk key w1 w2 t' v' w' ts kvs Hw Hk H1 H2 Hv IH Hw' _ IHs n k rest Hl Hkk. destruct k as [|k]; [lia|]. rewrite !app_length in Hl, Hkk.
    change (length (codes ",")) with 1%nat in *. change (length (codes ":")) with 1%nat in *.
    rewrite <- !app_assoc, skip_spaces, (skip_string _ _ _ _ Hk) by exact Hw.
    change (codes "," ++ ts ++ 125 :: rest)%list with (44 :: ts ++ 125 :: rest)%list.
    destruct (units_string _ _ _ (w1 ++ codes ":" ++ w2 ++ t' ++ w' ++ 44 :: ts ++ 125 :: rest)%list Hk) as (x & us & -> & Hu & <-).
    cbn [app members]. change (34 =? 34) with true. cbv iota. rewrite Hu. change (codes ":" ++ w2 ++ t' ++ w' ++ 44 :: ts ++ 125 :: rest)%list with (58 :: w2 ++ t' ++ w' ++ 44 :: ts ++ 125 :: rest)%list.
    rewrite skip_to by (auto; unfold space; lia). change (58 =? 58) with true. cbv iota.
    rewrite skip_spaces, (skip_value _ _ _ _ Hv) by exact H2. rewrite IH by (try (apply delimited_spaces; auto); lia). cbn [pbind].
    rewrite skip_to by (auto; unfold space; lia). change (44 =? 125) with false. change (44 =? 44) with true. cbv iota. rewrite IHs by lia. reflexivity.
Qed.
End Complete.

(** ** The grammar derives what the scanner accepts *)
Lemma pbind_ok {A B} (p : pres A) (f : A -> text -> pres B) b r :
  pbind p f = POk b r -> exists a r', p = POk a r' /\ f a r' = POk b r.
Proof. destruct p as [a r'| |]; try discriminate. intros H. now exists a, r'. Qed.
Lemma spaces_app w w' : spaces w -> spaces w' -> spaces (w ++ w').
Proof. intros. apply Forall_app. now split. Qed.
Lemma elements_spaces T w t l : spaces w -> json_elements T t l -> json_elements T (w ++ t) l.
Proof.
  intros Hw H. destruct H as [w0 t w' v H1 H2 H3|w0 t w' v ts vs H1 H2 H3 H4]; rewrite app_assoc; constructor; auto using spaces_app.
Qed.
Lemma members_spaces T w t l : spaces w -> json_members T t l -> json_members T (w ++ t) l.
Proof.
  intros Hw H. destruct H; rewrite app_assoc; constructor; auto using spaces_app.
Qed.
Lemma units_json_string T s us r : units s = Some (us, r) ->
  exists t, 34 :: s = (t ++ r)%list /\ json_string T t (string_of T (join us)).
Proof.
  intros H. apply units_split in H as (t & -> & Hc). exists (34 :: t ++ [34])%list. split; [cbn [app]; now rewrite <- app_assoc|].
  apply (js_string T t us (join us)); [exact Hc|apply join_points].
Qed.
Section Sound.
Variable T : textrt.
Variable sc : text -> pres value.
Hypothesis Hsc : forall s v r, sc s = POk v r -> exists t, s = (t ++ r)%list /\ json_value T t v.
Lemma elements_sound k : forall s l r, elements sc k s = POk l r -> exists t, s = (t ++ 93 :: r)%list /\ json_elements T t l.
Proof.
  induction k as [|k IH]; intros s l r H; cbn [elements] in H; [discriminate|].
  apply pbind_ok in H as (v & r1 & Hv & H). apply Hsc in Hv as (t & -> & Ht).
  destruct (skip_split r1) as (w & Hw & Hs). destruct (skip r1) as [|c r2]; [discriminate|]. rewrite Hs.
  destruct (Z.eqb_spec c 93) as [->|_].
  - injection H as <- <-. exists ([] ++ t ++ w)%list. split; [cbn [app]; now rewrite <- app_assoc|].
    apply je_last; [constructor|exact Ht|exact Hw].
  - destruct (Z.eqb_spec c 44) as [->|_]; [|discriminate]. apply pbind_ok in H as (vs & r3 & He & H). injection H as <- <-.
    apply IH in He as (ts & He & Hts). destruct (skip_split r2) as (w2 & Hw2 & Hs2). rewrite Hs2, He.
    exists ([] ++ t ++ w ++ codes "," ++ (w2 ++ ts))%list. split; [cbn [app]; rewrite <- !app_assoc; reflexivity|].
    apply je_more; [constructor|exact Ht|exact Hw|now apply elements_spaces].
Qed.
Lemma members_sound k : forall s l r, members T sc k s = POk l r -> exists t, s = (t ++ 125 :: r)%list /\ json_members T t l.
Proof.
  induction k as [|k IH]; intros s l r H; cbn [members] in H; [discriminate|].
  destruct s as [|c s]; [discriminate|]. destruct (Z.eqb_spec c 34) as [->|_]; [|discriminate].
  destruct (units s) as [[us r1]|] eqn:Hu; [|discriminate]. apply (units_json_string T) in Hu as (tk & Hk & Hst). rewrite Hk.
  destruct (skip_split r1) as (w1 & Hw1 & Hs1). destruct (skip r1) as [|c2 r2]; [discriminate|].
  destruct (Z.eqb_spec c2 58) as [->|_]; [|discriminate]. apply pbind_ok in H as (v & r3 & Hv & H).
  apply Hsc in Hv as (t & Ht & Hj). destruct (skip_split r2) as (w2 & Hw2 & Hs2). rewrite Ht in Hs2.
  destruct (skip_split r3) as (w3 & Hw3 & Hs3). destruct (skip r3) as [|c4 r4]; [discriminate|].
  rewrite Hs1, Hs2, Hs3. destruct (Z.eqb_spec c4 125) as [->|_].
  - injection H as <- <-. exists ([] ++ tk ++ w1 ++ codes ":" ++ w2 ++ t ++ w3)%list.
    split; [cbn [app]; rewrite <- !app_assoc; reflexivity|]. apply jm_last; auto. constructor.
  - destruct (Z.eqb_spec c4 44) as [->|_]; [|discriminate]. apply pbind_ok in H as (kvs & r5 & He & H). injection H as <- <-.
    apply IH in He as (ts & He & Hts). destruct (skip_split r4) as (w4 & Hw4 & Hs4). rewrite Hs4, He.
    exists ([] ++ tk ++ w1 ++ codes ":" ++ w2 ++ t ++ w3 ++ codes "," ++ (w4 ++ ts))%list.
    split; [cbn [app]; rewrite <- !app_assoc; reflexivity|].
    apply jm_more; auto; [constructor|now apply members_spaces].
Qed.
End Sound.
Lemma scan_sound T : forall n s v r, scan T n s = POk v r -> exists t, s = (t ++ r)%list /\ json_value T t v.
Proof.
  induction n as [|n IH]; intros s v r H; [discriminate|]. cbn [scan] in H. destruct s as [|c s]; [discriminate|].
  destruct (Z.eqb_spec c 34) as [->|H34].
  { destruct (units s) as [[us r1]|] eqn:Hu; [|discriminate]. injection H as <- <-.
    apply (units_json_string T) in Hu as (t & Ht & Hs). exists t. split; [exact Ht|now constructor]. }
  destruct (Z.eqb_spec c 123) as [->|H123].
  { destruct (skip_split s) as (w & Hw & Hs). destruct (strip [125] (skip s)) as [r'|] eqn:Hc.
    - injection H as <- <-. apply strip_split in Hc. rewrite Hc in Hs. rewrite Hs. exists (codes "{" ++ w ++ codes "}")%list.
      split; [cbn [app codes map list_ascii_of_string]; now rewrite <- !app_assoc|now constructor].
    - apply pbind_ok in H as (kvs & r' & He & H). injection H as <- <-. apply (members_sound T _ IH) in He as (t & He & Ht).
      rewrite Hs, He. exists (codes "{" ++ (w ++ t) ++ codes "}")%list.
      split; [cbn [app codes map list_ascii_of_string]; now rewrite <- !app_assoc|]. apply jv_dict. now apply members_spaces. }
  destruct (Z.eqb_spec c 91) as [->|H91].
  { destruct (skip_split s) as (w & Hw & Hs). destruct (strip [93] (skip s)) as [r'|] eqn:Hc.
    - injection H as <- <-. apply strip_split in Hc. rewrite Hc in Hs. rewrite Hs. exists (codes "[" ++ w ++ codes "]")%list.
      split; [cbn [app codes map list_ascii_of_string]; now rewrite <- !app_assoc|now constructor].
    - apply pbind_ok in H as (vs & r' & He & H). injection H as <- <-. apply (elements_sound T _ IH) in He as (t & He & Ht).
      rewrite Hs, He. exists (codes "[" ++ (w ++ t) ++ codes "]")%list.
      split; [cbn [app codes map list_ascii_of_string]; now rewrite <- !app_assoc|]. apply jv_list. now apply elements_spaces. }
  destruct (strip (codes "null") (c :: s)) as [r'|] eqn:S1; [injection H as <- <-; apply strip_split in S1; eexists; split; [exact S1|constructor]|].
  destruct (strip (codes "true") (c :: s)) as [r'|] eqn:S2; [injection H as <- <-; apply strip_split in S2; eexists; split; [exact S2|constructor]|].
  destruct (strip (codes "false") (c :: s)) as [r'|] eqn:S3; [injection H as <- <-; apply strip_split in S3; eexists; split; [exact S3|constructor]|].
  destruct (strip (codes "NaN") (c :: s)) as [r'|] eqn:S4; [injection H as <- <-; apply strip_split in S4; eexists; split; [exact S4|constructor]|].
  destruct (strip (codes "Infinity") (c :: s)) as [r'|] eqn:S5; [injection H as <- <-; apply strip_split in S5; eexists; split; [exact S5|constructor]|].
  destruct (strip (codes "-Infinity") (c :: s)) as [r'|] eqn:S6; [injection H as <- <-; apply strip_split in S6; eexists; split; [exact S6|constructor]|].
  now apply number_split in H.
Qed.

(** json.loads accepts exactly the JSON documents. *)
Theorem json_loads_iff T s v : json_loads T s = Some v <-> json_document T s v.
Proof.
  unfold json_loads, json_document. split.
  - destruct (scan T (S (length s)) (skip s)) as [v' r| |] eqn:H; try discriminate.
    destruct (skip r) as [|] eqn:Hr; [|discriminate]. intros Hv. injection Hv as ->. apply scan_sound in H as (t & Ht & Hj).
    destruct (skip_split s) as (w & Hw & Hs). exists w, t, r. apply skip_all in Hr. rewrite <- Ht. auto.
  - intros (w & t & w' & Hw & Hw' & -> & Hj). rewrite skip_spaces, (skip_value _ _ _ _ Hj) by exact Hw.
    rewrite (scan_value T t v Hj).
    + now rewrite (proj2 (skip_all w') Hw').
    + destruct Hw' as [|c w' Hc _]; [repeat split|]. apply delimited_char. tauto.
    + rewrite !app_length. lia.
Qed.
Corollary json_document_unique T s v v' : json_document T s v -> json_document T s v' -> v = v'.
Proof. rewrite <- !json_loads_iff. congruence. Qed.

(** ** Writing *)
Lemma codes_app a b : codes (a ++ b)%string = codes a ++ codes b.
Proof.
  unfold codes. rewrite <- map_app. f_equal. induction a as [|c a IH]; [reflexivity|]. cbn [append list_ascii_of_string app]. now rewrite IH.
Qed.
Lemma codes_cons c s : codes (String c s) = Z.of_nat (code c) :: codes s.
Proof. reflexivity. Qed.
Lemma codes_range s : Forall (fun c => 0 <= c < 256) (codes s).
Proof.
  unfold codes. apply Forall_forall. intros x Hx. apply in_map_iff in Hx as (c & <- & _). pose proof (nat_ascii_bounded c). unfold code. lia.
Qed.
Lemma string_of_codes T s : string_of T (codes s) = s.
Proof.
  unfold string_of, codes. rewrite map_map. induction s as [|c s IH]; [reflexivity|].
  cbn [list_ascii_of_string map]. rewrite sjoin_nil_cons, IH. unfold chr.
  pose proof (nat_ascii_bounded c) as Hb. unfold code.
  destruct (Z.leb_spec 0 (Z.of_nat (nat_of_ascii c))); [|lia]. destruct (Z.leb_spec (Z.of_nat (nat_of_ascii c)) 255); [|lia].
  cbn [andb]. rewrite Nat2Z.id, ascii_nat_embedding. reflexivity.
Qed.
Lemma chars_app t us t' us' : chars t us -> chars t' us' -> chars (t ++ t') (us ++ us').
Proof. intros H H'. induction H; cbn [app]; [exact H'| | |]; now constructor. Qed.
Ltac hexv := unfold hex_value, digit; lia.
Lemma escape_chars c : chars (codes (escape c)) [Z.of_nat (code c)].
Proof.
  destruct c as [[|] [|] [|] [|] [|] [|] [|] [|]];
  match goal with |- chars ?x ?y => let x' := eval vm_compute in x in let y' := eval vm_compute in y in change (chars x' y') end;
  first [ apply ch_plain; [lia|lia|lia|constructor]
        | apply ch_escape; [cbn; tauto|constructor]
        | idtac ].
  all: match goal with |- chars [92; 117; ?a; ?b; ?c; ?d] [?u] =>
    let h x := (let y := eval vm_compute in (match hex_unit x with Some v => v | None => 0 end) in constr:(y)) in
    let a' := h a in let b' := h b in let c' := h c in let d' := h d in
    change [u] with [4096 * a' + 256 * b' + 16 * c' + d'];
    apply (ch_unit a b c d a' b' c' d' [] []); [hexv|hexv|hexv|hexv|constructor] end.
Qed.
Lemma low_points us : Forall (fun c => 0 <= c < 256) us -> points us us.
Proof.
  induction 1 as [|c us Hc _ IH]; [constructor|]. apply pt_one; [|exact IH]. intros b us' _ [Hh _]. unfold high in Hh. lia.
Qed.
Lemma quoted_string T s : json_string T (codes (quoted s)) s.
Proof.
  unfold quoted. rewrite !codes_app.
  assert (H : chars (codes (sjoin "" (map escape (list_ascii_of_string s)))) (codes s)).
  { induction s as [|c s IH]; [constructor|]. cbn [list_ascii_of_string map]. rewrite sjoin_nil_cons, codes_app, codes_cons.
    apply (chars_app _ [Z.of_nat (code c)]); [apply escape_chars|exact IH]. }
  pose proof (js_string T _ _ _ H (low_points _ (codes_range s))) as J. now rewrite string_of_codes in J.
Qed.
(** Decimal digits *)
Lemma decimal_app a b : decimal (a ++ b) = decimal a * 10 ^ Z.of_nat (length b) + decimal b.
Proof.
  induction a as [|c a IH]; [reflexivity|]. cbn [app decimal]. rewrite IH, app_length, Nat2Z.inj_add, Z.pow_add_r by lia. ring.
Qed.
Lemma digits_go_app fuel : forall z acc, digits_go fuel z acc = (digits_go fuel z "" ++ acc)%string.
Proof.
  induction fuel as [|n IH]; intros z acc; [reflexivity|]. cbn [digits_go]. destruct (z <? 10); [reflexivity|].
  rewrite (IH _ (String _ acc)), (IH _ (String _ "")), sapp_assoc. reflexivity.
Qed.
Lemma digit_char_code d : 0 <= d < 10 -> Z.of_nat (code (digit_char d)) = d + 48.
Proof.
  intros H. unfold digit_char, code. rewrite nat_ascii_embedding by lia. lia.
Qed.
Lemma digits_go_text fuel : forall z, 0 <= z -> z < 10 ^ Z.of_nat fuel -> (0 < fuel)%nat ->
  natural (codes (digits_go fuel z "")) /\ decimal (codes (digits_go fuel z "")) = z.
Proof.
  induction fuel as [|n IH]; intros z H0 Hz Hf; [lia|]. cbn [digits_go]. destruct (Z.ltb_spec z 10) as [Hl|Hl].
  - rewrite codes_cons, digit_char_code by lia. split.
    + destruct (Z.eq_dec z 0) as [->|]; [now left|]. right. exists (z + 48), []. split; [reflexivity|split; [lia|constructor]].
    + change (codes "") with (@nil Z). cbn [decimal length]. change (10 ^ Z.of_nat 0) with 1. lia.
  - rewrite Nat2Z.inj_succ, Z.pow_succ_r in Hz by lia. assert (Hd : 0 < z / 10) by (apply Z.div_str_pos; lia).
    assert (Hq : z / 10 < 10 ^ Z.of_nat n) by (apply Z.div_lt_upper_bound; lia).
    assert (Hn : (0 < n)%nat) by (destruct n; [change (10 ^ Z.of_nat 0) with 1 in Hq; lia|lia]).
    destruct (IH (z / 10) ltac:(lia) Hq Hn) as [N D]. pose proof (Z.mod_pos_bound z 10 ltac:(lia)) as Hm.
    rewrite digits_go_app, codes_app, codes_cons, digit_char_code by lia. change (codes "") with (@nil Z). split.
    + destruct N as [N|(c & ds & Hc & Hr & Hds)].
      * rewrite N in D. change (decimal (codes "0")) with 0 in D. lia.
      * rewrite Hc. right. exists c, (ds ++ [z mod 10 + 48])%list. split; [reflexivity|]. split; [exact Hr|].
        apply Forall_app. split; [exact Hds|]. constructor; [unfold digit; lia|constructor].
    + rewrite decimal_app, D. cbn [decimal length]. change (10 ^ Z.of_nat 1) with 10. change (10 ^ Z.of_nat 0) with 1.
      pose proof (Z.div_mod z 10). lia.
Qed.
Lemma str_nonneg_text z : 0 <= z -> natural (codes (str_nonneg z)) /\ decimal (codes (str_nonneg z)) = z.
Proof.
  intros H. unfold str_nonneg. apply digits_go_text; [exact H| |lia].
  destruct (Z.eq_dec z 0) as [->|Hn]; [reflexivity|].
  assert (Hl : z < 2 ^ Z.succ (Z.log2 z)) by (apply Z.log2_spec; lia).
  pose proof (Z.log2_nonneg z). rewrite Nat2Z.inj_succ, Z2Nat.id by lia.
  eapply Z.lt_le_trans; [exact Hl|]. apply Z.pow_le_mono_l. lia.
Qed.
Lemma str_int_text T z : json_value T (codes (str_int z)) (VInt z).
Proof.
  unfold str_int. destruct (Z.ltb_spec z 0) as [Hz|Hz].
  - destruct (str_nonneg_text (- z) ltac:(lia)) as [N D]. rewrite codes_cons. pose proof (jv_int T true _ N) as J. cbv iota in J.
    rewrite D, Z.opp_involutive in J. exact J.
  - destruct (str_nonneg_text z ltac:(lia)) as [N D]. pose proof (jv_int T false _ N) as J. cbv iota in J. rewrite D in J. exact J.
Qed.
Lemma float_text_value T x : reads_back T x -> json_value T (codes (float_text T x)) (VFloat x).
Proof.
  assert (G : forall y, (exists neg t f e, codes (tr_repr T y) = (sign neg ++ t ++ f ++ e)%list /\
      natural t /\ (f = [] \/ fraction f) /\ (e = [] \/ exponent e) /\ (f <> [] \/ e <> []) /\
      tr_read T (codes (tr_repr T y)) = y) -> json_value T (codes (tr_repr T y)) (VFloat y)).
  { intros y (neg & t & f & e & Hc & Ht & Hf & He & Hn & Hr). rewrite <- Hr at 2. rewrite Hc. now constructor. }
  destruct x as [m e| |neg|]; cbn [reads_back float_text]; intros H; [now apply G|now apply G| |constructor].
  destruct neg; constructor.
Qed.

(** *** Lists and dicts *)
Lemma rmap_Forall2 {A B} (f : A -> res B) l ys : rmap f l = Ok ys <-> Forall2 (fun x y => f x = Ok y) l ys.
Proof.
  revert ys. induction l as [|x l IH]; intros ys.
  - split; [intros H; injection H as <-; constructor|now inversion 1].
  - change (rmap f (x :: l)) with (rbind (f x) (fun y => rbind (rmap f l) (fun ys => Ok (y :: ys)))). split.
    + destruct (f x) as [y|] eqn:Hx; [|discriminate]. cbn [rbind]. destruct (rmap f l) as [zs|] eqn:Hl; [|discriminate].
      intros H. injection H as <-. constructor; [exact Hx|now apply IH].
    + inversion 1; subst. rewrite H2. cbn [rbind]. rewrite (proj2 (IH l') H4). reflexivity.
Qed.
Lemma sjoin_cons2 sep a b l : sjoin sep (a :: b :: l) = (a ++ sep ++ sjoin sep (b :: l))%string.
Proof. reflexivity. Qed.
Definition blank : text := codes " ".
Lemma blank_spaces : spaces blank.
Proof. constructor; [now left|constructor]. Qed.
Lemma elements_join T ts vs : Forall2 (fun t v => json_value T (codes t) v) ts vs -> ts <> [] ->
  json_elements T (codes (sjoin ", " ts)) vs.
Proof.
  intros H. induction H as [|t v ts vs Hv Hr IH]; intros Hn; [now elim Hn|]. destruct ts as [|t2 ts].
  - inversion Hr; subst. cbn [sjoin]. rewrite <- (app_nil_r (codes t)). apply (je_last T [] (codes t) []); [constructor|exact Hv|constructor].
  - rewrite sjoin_cons2, !codes_app. change (codes ", ") with (codes "," ++ blank).
    rewrite <- (app_assoc (codes ",")). apply (je_more T [] (codes t) [] v (blank ++ codes (sjoin ", " (t2 :: ts)))); [constructor|exact Hv|constructor|].
    apply elements_spaces; [apply blank_spaces|]. apply IH. discriminate.
Qed.
Lemma members_join T ts kvs :
  Forall2 (fun t kv => exists tv, t = (quoted (fst kv) ++ ": " ++ tv)%string /\ json_value T (codes tv) (snd kv)) ts kvs -> ts <> [] ->
  json_members T (codes (sjoin ", " ts)) kvs.
Proof.
  intros H. induction H as [|t kv ts kvs Hv Hr IH]; intros Hn; [now elim Hn|]. destruct kv as [k v]. cbn [fst snd] in Hv.
  destruct Hv as (tv & -> & Hv). pose proof (quoted_string T k) as Hk. destruct ts as [|t2 ts].
  - inversion Hr; subst. cbn [sjoin]. rewrite !codes_app. change (codes ": ") with (codes ":" ++ blank). rewrite <- (app_assoc (codes ":")).
    rewrite <- (app_nil_r (codes tv)). apply (jm_last T [] _ k [] blank (codes tv) v []); auto; try constructor; [now left|constructor].
  - rewrite sjoin_cons2, !codes_app. change (codes ": ") with (codes ":" ++ blank). change (codes ", ") with (codes "," ++ blank).
    rewrite <- !app_assoc.
    apply (jm_more T [] _ k [] blank (codes tv) v [] (blank ++ codes (sjoin ", " (t2 :: ts))) kvs); auto; try constructor; try (now left); try constructor.
    apply members_spaces; [apply blank_spaces|]. apply IH. discriminate.
Qed.

(** *** Every value *)
Lemma scalar_plain CT v x : scalar_of CT v = Some x -> plain_scalar x.
Proof.
  destruct v; cbn [scalar_of]; try discriminate; intros H; try (injection H as <-; exact I).
  destruct (ci_kind (CT c)) as [|[p|] l|]; try discriminate. destruct (sget n l) as [y|]; [|discriminate].
  destruct y; cbn [class_of ty_eqb] in H; try discriminate; try (destruct k; cbn [ty_eqb] in H; discriminate);
    match type of H with (if ?b then _ else _) = _ => destruct b; [|discriminate] end; injection H as <-; exact I.
Qed.
Definition compound (v : value) : bool :=
  match v with VList _ | VTuple _ | VNT _ _ | VDict _ _ => true | _ => false end.
Lemma scalar_json T CT v s : compound v = false -> json_dumps T CT v = Ok s ->
  exists x, scalar_of CT v = Some x /\ json_image T CT v = x /\ ((forall y, x = VFloat y -> reads_back T y) -> json_value T (codes s) x).
Proof.
  intros Hc H. assert (Hs : scalar_text T CT v = Ok s) by (destruct v; try discriminate Hc; exact H).
  assert (Hi : json_image T CT v = match scalar_of CT v with Some x => x | None => v end) by (destruct v; try discriminate Hc; reflexivity).
  rewrite Hi. unfold scalar_text in Hs. destruct (scalar_of CT v) as [x|] eqn:Hx; [|discriminate]. exists x. split; [reflexivity|]. split; [reflexivity|].
  intros Hf. pose proof (scalar_plain _ _ _ Hx) as Hp. destruct x; try destruct Hp.
  - injection Hs as <-. constructor.
  - destruct b; injection Hs as <-; constructor.
  - injection Hs as <-. apply str_int_text.
  - injection Hs as <-. apply float_text_value. now apply Hf.
  - injection Hs as <-. constructor. apply quoted_string.
Qed.
Lemma key_text_name T CT k s : key_text T CT k = Ok s -> s = key_name T CT k.
Proof.
  unfold key_text, key_name. destruct (scalar_of CT k) as [x|]; [|discriminate]. destruct x; try discriminate; try (now injection 1); destruct b; now injection 1.
Qed.
Lemma codes_brackets a b t v T : json_value T (codes a ++ codes t ++ codes b) v -> json_value T (codes (a ++ t ++ b)%string) v.
Proof. now rewrite !codes_app. Qed.
Lemma list_written T CT l s :
  Forall (fun v => forall s, json_dumps T CT v = Ok s -> floats_read_back T CT v -> json_value T (codes s) (json_image T CT v)) l ->
  (forall x, In x l -> floats_read_back T CT x) ->
  rbind (rmap (json_dumps T CT) l) (fun ts => Ok ("[" ++ sjoin ", " ts ++ "]")%string) = Ok s ->
  json_value T (codes s) (VList (map (json_image T CT) l)).
Proof.
  intros IH Hf H. destruct (rmap (json_dumps T CT) l) as [ts|] eqn:Hm; [|discriminate]. cbn [rbind] in H. injection H as <-.
  apply (codes_brackets "[" "]" (sjoin ", " ts)). apply rmap_Forall2 in Hm. destruct l as [|x l].
  - inversion Hm; subst. apply (jv_empty_list T []). constructor.
  - apply jv_list. apply elements_join; [|inversion Hm; discriminate].
    rewrite Forall_forall in IH.
    assert (G : forall l ts, Forall2 (fun x y => json_dumps T CT x = Ok y) l ts ->
      (forall y, In y l -> forall s, json_dumps T CT y = Ok s -> json_value T (codes s) (json_image T CT y)) ->
      Forall2 (fun t v => json_value T (codes t) v) ts (map (json_image T CT) l)).
    { clear. induction 1 as [|x t l ts Hx _ IHl]; intros Hin; cbn [map]; constructor; [now apply Hin; [left|]|]. apply IHl. intros y Hy. apply Hin. now right. }
    apply G; [exact Hm|]. intros y Hy s Hs. apply IH; auto.
Qed.
Theorem json_dumps_value T CT v : forall s, json_dumps T CT v = Ok s -> floats_read_back T CT v ->
  json_value T (codes s) (json_image T CT v).
Proof.
  induction v using value_ind'; intros out HH Hf;
  try (match goal with |- json_value _ _ (json_image _ _ ?v) =>
    destruct (scalar_json T CT v out eq_refl HH) as (sc0 & Hx & Hi & HJ); rewrite Hi; apply HJ; intros y Hy; rewrite Hy in Hx; apply (Hf v); [constructor|exact Hx] end).
  - apply (list_written T CT l out); auto. intros x Hx w y Hw. apply Hf. now apply po_list with x.
  - apply (list_written T CT l out); auto. intros x Hx w y Hw. apply Hf. now apply po_tuple with x.
  - cbn [json_dumps] in HH. match type of HH with rbind (rmap ?g d) _ = _ => set (gg := g) in HH; destruct (rmap gg d) as [ts|] eqn:Hm; [|discriminate] end.
    cbn [rbind] in HH. injection HH as <-. apply (codes_brackets "{" "}" (sjoin ", " ts)). apply rmap_Forall2 in Hm. cbn [json_image].
    destruct d as [|kx d].
    + inversion Hm; subst. apply (jv_empty_dict T []). constructor.
    + apply jv_dict. apply members_join; [|inversion Hm; discriminate].
      match goal with H : Forall _ (kx :: d) |- _ => rename H into IH end. rewrite Forall_forall in IH.
      assert (Hin : forall y x, In (y, x) (kx :: d) -> forall s, json_dumps T CT x = Ok s -> json_value T (codes s) (json_image T CT x)).
      { intros y x Hyx s Hs. apply (proj2 (IH _ Hyx)); [exact Hs|]. intros w z Hw. apply Hf. now apply po_dict with y x. }
      clear IH Hf. revert Hin. generalize dependent (kx :: d). clear kx d.
      induction 1 as [|[y x] t d ts Hx _ IHl]; intros Hin; cbn [map]; constructor.
      * unfold gg in Hx. cbn [fst snd] in Hx |- *. destruct (key_text T CT y) as [ky|] eqn:Hk; [|discriminate]. cbn [rbind] in Hx.
        destruct (json_dumps T CT x) as [tx|] eqn:Htx; [|discriminate]. cbn [rbind] in Hx. injection Hx as <-.
        exists tx. apply key_text_name in Hk as ->. split; [reflexivity|]. apply (Hin y x); [now left|exact Htx].
      * apply IHl. intros y' x' Hy'. apply (Hin y' x'). now right.
  - apply (list_written T CT l out); auto. intros x Hx w y Hw. apply Hf. now apply po_namedtuple with x.
Qed.
Corollary json_round T CT v s : json_dumps T CT v = Ok s -> floats_read_back T CT v ->
  json_loads T (codes s) = Some (json_image T CT v).
Proof.
  intros H Hf. apply json_loads_iff. exists [], (codes s), []. rewrite app_nil_r. repeat split; try constructor. now apply json_dumps_value.
Qed.
(** What can be written *)
Lemma rmap_ok {A B} (f : A -> res B) l : (exists ys, rmap f l = Ok ys) <-> forall x, In x l -> exists y, f x = Ok y.
Proof.
  induction l as [|x l IH].
  - split; [intros _ x []|]. intros _. now exists [].
  - change (rmap f (x :: l)) with (rbind (f x) (fun y => rbind (rmap f l) (fun ys => Ok (y :: ys)))). split.
    + intros [ys H] z [<-|Hz].
      * destruct (f x) as [y|]; [now exists y|discriminate].
      * apply IH; [|exact Hz]. destruct (f x) as [y|]; [|discriminate]. cbn [rbind] in H. destruct (rmap f l) as [zs|]; [now exists zs|discriminate].
    + intros H. destruct (H x) as [y Hy]; [now left|]. destruct (proj2 IH) as [ys Hys]; [intros z Hz; apply H; now right|].
      rewrite Hy. cbn [rbind]. rewrite Hys. now exists (y :: ys).
Qed.
Lemma rmap_err {A B} (f : A -> res B) e l : (forall x e', In x l -> f x = Err e' -> e' = e) -> forall e', rmap f l = Err e' -> e' = e.
Proof.
  induction l as [|x l IH]; intros H e' He; [discriminate|].
  change (rmap f (x :: l)) with (rbind (f x) (fun y => rbind (rmap f l) (fun ys => Ok (y :: ys)))) in He.
  destruct (f x) as [y|e''] eqn:Hx; cbn [rbind] in He.
  - destruct (rmap f l) as [ys|e''] eqn:Hl; [discriminate|]. cbn [rbind] in He. injection He as <-. apply IH; [|reflexivity]. intros z e' Hz. apply H. now right.
  - injection He as <-. apply (H x); [now left|exact Hx].
Qed.
Lemma scalar_text_ok T CT v : (exists s, scalar_text T CT v = Ok s) <-> scalar_of CT v <> None.
Proof.
  unfold scalar_text. destruct (scalar_of CT v) as [x|] eqn:Hx; [|split; [intros [s H]; discriminate|intros H; now elim H]].
  split; [discriminate|]. intros _. apply scalar_plain in Hx. destruct x; try destruct Hx; try (now eexists). destruct b; now eexists.
Qed.
Lemma key_text_ok T CT v : (exists s, key_text T CT v = Ok s) <-> scalar_of CT v <> None.
Proof.
  unfold key_text. destruct (scalar_of CT v) as [x|] eqn:Hx; [|split; [intros [s H]; discriminate|intros H; now elim H]].
  split; [discriminate|]. intros _. apply scalar_plain in Hx. destruct x; try destruct Hx; try (now eexists). destruct b; now eexists.
Qed.
Lemma list_dumps_ok T CT (l : list value) :
  Forall (fun v => (exists s, json_dumps T CT v = Ok s) <-> writable CT v) l ->
  ((exists s, rbind (rmap (json_dumps T CT) l) (fun ts => Ok ("[" ++ sjoin ", " ts ++ "]")%string) = Ok s) <-> forall x, In x l -> writable CT x).
Proof.
  intros IH. rewrite Forall_forall in IH. split.
  - intros [s H] x Hx. apply IH; [exact Hx|]. apply (proj1 (rmap_ok _ l)); [|exact Hx].
    destruct (rmap (json_dumps T CT) l) as [ts|]; [now exists ts|discriminate].
  - intros H. destruct (proj2 (rmap_ok (json_dumps T CT) l)) as [ts ->]; [intros x Hx; apply IH; auto|]. now eexists.
Qed.
Theorem json_dumps_iff T CT v : (exists s, json_dumps T CT v = Ok s) <-> writable CT v.
Proof.
  assert (SC : forall v, compound v = false -> ((exists s, json_dumps T CT v = Ok s) <-> writable CT v)).
  { intros v' Hc. replace (json_dumps T CT v') with (scalar_text T CT v') by (destruct v'; try discriminate Hc; reflexivity).
    rewrite scalar_text_ok. split; [now constructor|]. inversion 1; subst; try discriminate Hc. assumption. }
  induction v using value_ind'; try (apply SC; reflexivity).
  - cbn [json_dumps]. rewrite (list_dumps_ok T CT l) by assumption. split; [apply wr_list|]. inversion 1; subst; [|assumption]. now elim H1.
  - cbn [json_dumps]. rewrite (list_dumps_ok T CT l) by assumption. split; [apply wr_tuple|]. inversion 1; subst; [|assumption]. now elim H1.
  - cbn [json_dumps]. match goal with |- context [rmap ?g d] => set (gg := g) end.
    match goal with H : Forall _ d |- _ => rename H into IH; rewrite Forall_forall in IH end.
    assert (Hg : forall y x, In (y, x) d -> ((exists t, gg (y, x) = Ok t) <-> scalar_of CT y <> None /\ writable CT x)).
    { intros y x Hyx. rewrite <- (key_text_ok T), <- (proj2 (IH _ Hyx)). unfold gg. cbn [fst snd]. split.
      - intros [t Ht]. destruct (key_text T CT y) as [a|]; [|discriminate]. cbn [rbind] in Ht. destruct (json_dumps T CT x) as [b|]; [|discriminate].
        split; now eexists.
      - intros [[a ->] [b ->]]. now eexists. }
    split.
    + intros [s H]. assert (Hok : exists ts, rmap gg d = Ok ts) by (destruct (rmap gg d) as [ts|]; [now exists ts|discriminate]).
      rewrite rmap_ok in Hok. apply wr_dict; intros y x Hyx; now apply (Hg y x Hyx), Hok.
    + intros H. assert (Hok : exists ts, rmap gg d = Ok ts).
      { apply rmap_ok. intros [y x] Hyx. apply (Hg y x Hyx). inversion H as [v' Hn| | | |k' d' H1 H2]; subst; [now elim Hn|]. split; [eapply H1|eapply H2]; exact Hyx. }
      destruct Hok as [ts ->]. now eexists.
  - cbn [json_dumps]. rewrite (list_dumps_ok T CT l) by assumption. split; [apply wr_namedtuple|]. inversion 1; subst; [|assumption]. now elim H1.
Qed.
Theorem json_dumps_error T CT v : forall e, json_dumps T CT v = Err e -> e = exn_of KType.
Proof.
  assert (ST : forall v e, scalar_text T CT v = Err e -> e = exn_of KType).
  { intros v' e. unfold scalar_text. destruct (scalar_of CT v') as [x|] eqn:Hx; [|now injection 1].
    apply scalar_plain in Hx. destruct x; try destruct Hx; try discriminate. destruct b; discriminate. }
  assert (LI : forall l e, Forall (fun v => forall e, json_dumps T CT v = Err e -> e = exn_of KType) l ->
    rbind (rmap (json_dumps T CT) l) (fun ts => Ok ("[" ++ sjoin ", " ts ++ "]")%string) = Err e -> e = exn_of KType).
  { intros l e IH H. destruct (rmap (json_dumps T CT) l) as [ts|e'] eqn:Hm; [discriminate|]. injection H as <-. rewrite Forall_forall in IH.
    apply (rmap_err (json_dumps T CT) (exn_of KType) l); [|exact Hm]. eauto. }
  induction v using value_ind'; intros e He; try (now apply (ST _ _ He)); try (now eapply LI; eauto).
  cbn [json_dumps] in He. match type of He with rbind (rmap ?g d) _ = _ => set (gg := g) in He; destruct (rmap gg d) as [ts|e'] eqn:Hm; [discriminate|] end.
  injection He as <-. match goal with H : Forall _ d |- _ => rename H into IH; rewrite Forall_forall in IH end.
  apply (rmap_err gg (exn_of KType) d); [|exact Hm]. intros [y x] e0 Hyx. unfold gg. cbn [fst snd].
  destruct (key_text T CT y) as [a|e''] eqn:Hk; cbn [rbind].
  - destruct (json_dumps T CT x) as [b|e''] eqn:Hx; cbn [rbind]; [discriminate|]. intros H. injection H as <-. exact (proj2 (IH _ Hyx) _ Hx).
  - intros H. injection H as <-. revert Hk. unfold key_text. destruct (scalar_of CT y) as [z|] eqn:Hz; [|now injection 1].
    apply scalar_plain in Hz. destruct z; try destruct Hz; try discriminate. destruct b; discriminate.
Qed.
(** Data made of strings, numbers, lists and dicts with string keys is not changed. *)
Lemma dict_of_distinct kvs acc : NoDup (map fst acc ++ map (fun kx => VStr (fst kx)) kvs) ->
  fold_left (fun d kx => dset (VStr (fst kx)) (snd kx) d) kvs acc = acc ++ map (fun kx => (VStr (fst kx), snd kx)) kvs.
Proof.
  revert acc. induction kvs as [|[k x] kvs IH]; intros acc H; cbn [fold_left map fst snd]; [now rewrite app_nil_r|].
  cbn [map fst] in H. rewrite dset_new.
  - rewrite IH, <- app_assoc; [reflexivity|]. rewrite map_app, <- app_assoc. exact H.
  - intros Hin. apply NoDup_remove_2 in H. apply H. apply in_or_app. now left.
Qed.
Lemma json_image_data T CT v : json_data v -> json_image T CT v = v.
Proof.
  induction 1 as [v Hp|l _ IH|d Hn Hk _ IH].
  - destruct v; try destruct Hp; reflexivity.
  - cbn [json_image]. f_equal. rewrite <- (map_id l) at 2. apply map_ext_in. exact IH.
  - cbn [json_image]. f_equal. unfold dict_of.
    assert (G : map (fun kx => (VStr (fst kx), snd kx)) (map (fun kx => (key_name T CT (fst kx), json_image T CT (snd kx))) d) = d).
    { rewrite map_map. cbn [fst snd]. rewrite <- (map_id d) at 2. apply map_ext_in. intros [k x] Hin. cbn [fst snd].
      destruct (Hk _ _ Hin) as (s & ->). rewrite (IH _ _ Hin). reflexivity. }
    rewrite dict_of_distinct.
    + cbn [app]. exact G.
    + cbn [map app]. rewrite <- G in Hn. rewrite map_map in Hn. exact Hn.
Qed.
Lemma json_data_writable CT v : json_data v -> writable CT v.
Proof.
  induction 1 as [v Hp|l _ IH|d Hn Hk _ IH].
  - constructor. destruct v; try destruct Hp; discriminate.
  - now constructor.
  - constructor; [|exact IH]. intros k x Hin. destruct (Hk _ _ Hin) as (s & ->). discriminate.
Qed.

(** ** UTF-8 *)
Lemma byte_in_spec a b c : byte_in a b c = true <-> a <= c <= b.
Proof. unfold byte_in. rewrite andb_true_iff, !Z.leb_le. tauto. Qed.
Lemma divmod64 x y : 0 <= y < 64 -> (x * 64 + y) / 64 = x /\ (x * 64 + y) mod 64 = y.
Proof.
  intros H. split; [rewrite Z.div_add_l by lia; rewrite Z.div_small by lia; lia|].
  rewrite Z.add_comm, Z.mod_add by lia. now apply Z.mod_small.
Qed.
Lemma cons_point_some c r s : cons_point c r = Some s -> exists s', r = Some s' /\ s = c :: s'.
Proof. destruct r as [s'|]; [|discriminate]. injection 1 as <-. now exists s'. Qed.
Lemma div4096 c : c / 4096 = c / 64 / 64.
Proof. now rewrite Z.div_div by lia. Qed.
Lemma div262144 c : c / 262144 = c / 64 / 64 / 64.
Proof. now rewrite !Z.div_div by lia. Qed.
Lemma utf8_2 x y : 2 <= x < 32 -> 0 <= y < 64 -> utf8 (x * 64 + y) = [192 + x; 128 + y] /\ scalar_value (x * 64 + y).
Proof.
  intros Hx Hy. destruct (divmod64 x y Hy) as [D M]. split; [|unfold scalar_value; lia]. unfold utf8.
  destruct (Z.ltb_spec (x * 64 + y) 128); [lia|]. destruct (Z.ltb_spec (x * 64 + y) 2048); [|lia]. now rewrite D, M.
Qed.
Lemma utf8_3 x y z : 0 <= x < 16 -> 0 <= y < 64 -> 0 <= z < 64 -> (x = 0 -> 32 <= y) -> (x = 13 -> y < 32) ->
  utf8 ((x * 64 + y) * 64 + z) = [224 + x; 128 + y; 128 + z] /\ scalar_value ((x * 64 + y) * 64 + z).
Proof.
  intros Hx Hy Hz H0 H13. destruct (divmod64 (x * 64 + y) z Hz) as [D M]. destruct (divmod64 x y Hy) as [D' M']. split.
  - unfold utf8. destruct (Z.ltb_spec ((x * 64 + y) * 64 + z) 128); [nia|]. destruct (Z.ltb_spec ((x * 64 + y) * 64 + z) 2048); [lia|].
    destruct (Z.ltb_spec ((x * 64 + y) * 64 + z) 65536); [|lia]. now rewrite div4096, D, D', M', M.
  - unfold scalar_value. split; lia.
Qed.
Lemma utf8_4 x y z u : 0 <= x < 5 -> 0 <= y < 64 -> 0 <= z < 64 -> 0 <= u < 64 -> (x = 0 -> 16 <= y) -> (x = 4 -> y < 16) ->
  utf8 (((x * 64 + y) * 64 + z) * 64 + u) = [240 + x; 128 + y; 128 + z; 128 + u] /\ scalar_value (((x * 64 + y) * 64 + z) * 64 + u).
Proof.
  intros Hx Hy Hz Hu H0 H4. destruct (divmod64 ((x * 64 + y) * 64 + z) u Hu) as [D M]. destruct (divmod64 (x * 64 + y) z Hz) as [D' M'].
  destruct (divmod64 x y Hy) as [D'' M'']. split.
  - unfold utf8. set (c := ((x * 64 + y) * 64 + z) * 64 + u) in *.
    destruct (Z.ltb_spec c 128); [lia|]. destruct (Z.ltb_spec c 2048); [lia|]. destruct (Z.ltb_spec c 65536); [lia|].
    now rewrite div262144, div4096, D, D', D'', M'', M', M.
  - unfold scalar_value. split; lia.
Qed.
Theorem utf8_decode_sound b : Forall (fun x => 0 <= x) b -> forall s, utf8_decode b = Some s ->
  Forall scalar_value s /\ b = flat_map utf8 s.
Proof.
  enough (G : forall n b, (length b < n)%nat -> Forall (fun x => 0 <= x) b -> forall s, utf8_decode b = Some s ->
    Forall scalar_value s /\ b = flat_map utf8 s) by (apply (G (S (length b))); lia).
  clear b. induction n as [|n IH]; intros b Hl Hb s H; [lia|]. destruct b as [|a r]; [injection H as <-; split; [constructor|reflexivity]|].
  cbn [length] in Hl. inversion Hb as [|? ? Ha Hr]; subst. cbn [utf8_decode] in H.
  destruct (Z.ltb_spec a 128) as [H128|H128].
  { apply cons_point_some in H as (s' & H & ->). destruct (IH r ltac:(lia) Hr s' H) as [G1 G2]. split.
    - constructor; [unfold scalar_value; lia|exact G1].
    - cbn [flat_map]. unfold utf8 at 1. destruct (Z.ltb_spec a 128); [|lia]. cbn [app]. now rewrite <- G2. }
  destruct (byte_in 194 223 a) eqn:B2.
  { apply byte_in_spec in B2. destruct r as [|b1 r]; [discriminate|]. destruct (byte_in 128 191 b1) eqn:C1; [|discriminate].
    apply byte_in_spec in C1. apply cons_point_some in H as (s' & H & ->). inversion Hr; subst. cbn [length] in Hl.
    destruct (IH r ltac:(lia) ltac:(assumption) s' H) as [G1 G2]. destruct (utf8_2 (a - 192) (b1 - 128)) as [U V]; [lia|lia|].
    split; [now constructor|]. cbn [flat_map]. rewrite U, <- G2. cbn [app]. f_equal; [lia|]. f_equal. lia. }
  destruct (byte_in 224 239 a) eqn:B3.
  { apply byte_in_spec in B3. destruct r as [|b1 [|b2 r]]; try discriminate.
    match type of H with (if ?x then _ else _) = _ => destruct x eqn:C; [|discriminate] end. apply andb_true_iff in C as [C1 C2].
    apply byte_in_spec in C1, C2. apply cons_point_some in H as (s' & H & ->). inversion Hr as [|? ? ? Hr']; subst. inversion Hr'; subst. cbn [length] in Hl.
    destruct (IH r ltac:(lia) ltac:(assumption) s' H) as [G1 G2].
    destruct (utf8_3 (a - 224) (b1 - 128) (b2 - 128)) as [U V]; try lia; try (destruct (Z.eqb_spec a 224); destruct (Z.eqb_spec a 237); lia).
    split; [now constructor|]. cbn [flat_map]. rewrite U, <- G2. cbn [app]. f_equal; [lia|]. f_equal; [lia|]. f_equal. lia. }
  destruct (byte_in 240 244 a) eqn:B4; [|discriminate].
  apply byte_in_spec in B4. destruct r as [|b1 [|b2 [|b3 r]]]; try discriminate.
  match type of H with (if ?x then _ else _) = _ => destruct x eqn:C; [|discriminate] end. apply andb_true_iff in C as [C C3]. apply andb_true_iff in C as [C1 C2].
  apply byte_in_spec in C1, C2, C3. apply cons_point_some in H as (s' & H & ->). inversion Hr as [|? ? ? Hr']; subst. inversion Hr' as [|? ? ? Hr'']; subst. inversion Hr''; subst. cbn [length] in Hl.
  destruct (IH r ltac:(lia) ltac:(assumption) s' H) as [G1 G2].
  destruct (utf8_4 (a - 240) (b1 - 128) (b2 - 128) (b3 - 128)) as [U V]; try lia; try (destruct (Z.eqb_spec a 240); destruct (Z.eqb_spec a 244); lia).
  split; [now constructor|]. cbn [flat_map]. rewrite U, <- G2. cbn [app]. f_equal; [lia|]. f_equal; [lia|]. f_equal; [lia|]. f_equal. lia.
Qed.
(** ** UTF-8: what is encoded is decoded *)
Lemma utf8_decode_char c r : scalar_value c -> utf8_decode (utf8 c ++ r) = cons_point c (utf8_decode r).
Proof.
  intros [Hc Hs]. unfold utf8.
  destruct (Z.ltb_spec c 128) as [H1|H1].
  { cbn [app utf8_decode]. destruct (Z.ltb_spec c 128); [reflexivity|lia]. }
  pose proof (Z.div_mod c 64 ltac:(lia)) as D0. pose proof (Z.mod_pos_bound c 64 ltac:(lia)) as M0.
  destruct (Z.ltb_spec c 2048) as [H2|H2].
  { cbn [app utf8_decode]. destruct (Z.ltb_spec (192 + c / 64) 128); [lia|].
    replace (byte_in 194 223 (192 + c / 64)) with true by (symmetry; apply byte_in_spec; lia).
    replace (byte_in 128 191 (128 + c mod 64)) with true by (symmetry; apply byte_in_spec; lia).
    f_equal. lia. }
  set (q := c / 64) in *.
  pose proof (Z.div_mod q 64 ltac:(lia)) as D1. pose proof (Z.mod_pos_bound q 64 ltac:(lia)) as M1.
  destruct (Z.ltb_spec c 65536) as [H3|H3].
  { rewrite div4096. fold q. set (p := q / 64) in *. cbn [app utf8_decode].
    destruct (Z.ltb_spec (224 + p) 128); [lia|].
    replace (byte_in 194 223 (224 + p)) with false by (symmetry; unfold byte_in; destruct (Z.leb_spec (224 + p) 223); [lia|apply andb_false_r]).
    replace (byte_in 224 239 (224 + p)) with true by (symmetry; apply byte_in_spec; lia).
    replace (byte_in 128 191 (128 + c mod 64)) with true by (symmetry; apply byte_in_spec; lia).
    match goal with |- context [byte_in ?a ?b ?x && true] => replace (byte_in a b x) with true end.
    - cbn [andb]. f_equal. lia.
    - symmetry. apply byte_in_spec. destruct (Z.eqb_spec (224 + p) 224); destruct (Z.eqb_spec (224 + p) 237); lia. }
  rewrite div262144, div4096. fold q. set (p := q / 64) in *.
  pose proof (Z.div_mod p 64 ltac:(lia)) as D2. pose proof (Z.mod_pos_bound p 64 ltac:(lia)) as M2. set (o := p / 64) in *.
  cbn [app utf8_decode]. destruct (Z.ltb_spec (240 + o) 128); [lia|].
  replace (byte_in 194 223 (240 + o)) with false by (symmetry; unfold byte_in; destruct (Z.leb_spec (240 + o) 223); [lia|apply andb_false_r]).
  replace (byte_in 224 239 (240 + o)) with false by (symmetry; unfold byte_in; destruct (Z.leb_spec (240 + o) 239); [lia|apply andb_false_r]).
  replace (byte_in 240 244 (240 + o)) with true by (symmetry; apply byte_in_spec; lia).
  replace (byte_in 128 191 (128 + c mod 64)) with true by (symmetry; apply byte_in_spec; lia).
  replace (byte_in 128 191 (128 + q mod 64)) with true by (symmetry; apply byte_in_spec; lia).
  match goal with |- context [byte_in ?a ?b ?x && true && true] => replace (byte_in a b x) with true end.
  - cbn [andb]. f_equal. lia.
  - symmetry. apply byte_in_spec. destruct (Z.eqb_spec (240 + o) 240); destruct (Z.eqb_spec (240 + o) 244); lia.
Qed.
Theorem utf8_decode_complete s : Forall scalar_value s -> utf8_decode (flat_map utf8 s) = Some s.
Proof.
  induction 1 as [|c s Hc _ IH]; [reflexivity|]. cbn [flat_map]. rewrite utf8_decode_char by exact Hc. now rewrite IH.
Qed.
Lemma utf8_char_codes c : codes (utf8_char c) = utf8 (Z.of_nat (code c)).
Proof. destruct c as [[] [] [] [] [] [] [] []]; reflexivity. Qed.
Lemma utf8_encode_cons c s : utf8_encode (String c s) = (utf8_char c ++ utf8_encode s)%string.
Proof.
  unfold utf8_encode. cbn [list_ascii_of_string map]. destruct (list_ascii_of_string s); [|reflexivity].
  change (utf8_char c = (utf8_char c ++ "")%string). now rewrite sapp_nil_r.
Qed.
Lemma utf8_encode_codes s : codes (utf8_encode s) = flat_map utf8 (codes s).
Proof.
  induction s as [|c s IH]; [reflexivity|]. rewrite utf8_encode_cons, codes_app, codes_cons, utf8_char_codes, IH. reflexivity.
Qed.
Theorem utf8_round s : utf8_decode (codes (utf8_encode s)) = Some (codes s).
Proof.
  rewrite utf8_encode_codes. apply utf8_decode_complete. eapply Forall_impl; [|apply codes_range].
  intros c Hc. unfold scalar_value. cbv beta in Hc. lia.
Qed.
(** ** What json.dumps writes is ASCII *)
Lemma ascii_app a b : ascii_text (a ++ b)%string <-> ascii_text a /\ ascii_text b.
Proof. unfold ascii_text. rewrite codes_app. apply Forall_app. Qed.
Lemma ascii_join sep l : ascii_text sep -> Forall ascii_text l -> ascii_text (sjoin sep l).
Proof.
  intros Hs. induction 1 as [|a [|b l] Ha Hl IH]; [constructor|exact Ha|].
  rewrite sjoin_cons2. rewrite !ascii_app. auto.
Qed.
Lemma ascii_escape c : ascii_text (escape c).
Proof. destruct c as [[] [] [] [] [] [] [] []]; unfold ascii_text; vm_compute; repeat constructor; discriminate. Qed.
Lemma ascii_quoted s : ascii_text (quoted s).
Proof.
  unfold quoted. rewrite !ascii_app. split; [repeat constructor; discriminate|]. split; [|repeat constructor; discriminate].
  apply ascii_join; [constructor|]. apply Forall_forall. intros t Hin. apply in_map_iff in Hin as (c & <- & _). apply ascii_escape.
Qed.
Lemma digit_ascii ds : Forall digit ds -> Forall (fun c => 0 <= c < 128) ds.
Proof. apply Forall_impl. unfold digit. intros c H. lia. Qed.
Lemma natural_ascii t : natural t -> Forall (fun c => 0 <= c < 128) t.
Proof.
  intros [-> | (c & ds & -> & Hc & Hd)]; [repeat constructor; discriminate|]. constructor; [lia|now apply digit_ascii].
Qed.
Lemma ascii_str_int z : ascii_text (str_int z).
Proof.
  unfold str_int, ascii_text. destruct (z <? 0) eqn:Hz.
  - cbn [append]. rewrite codes_cons. constructor; [cbv; split; [discriminate|reflexivity]|].
    apply natural_ascii. apply str_nonneg_text. apply Z.ltb_lt in Hz. lia.
  - apply natural_ascii. apply str_nonneg_text. apply Z.ltb_ge in Hz. lia.
Qed.
Section Ascii.
Variables (T : textrt) (CT : classes).
Hypothesis HT : forall x, ascii_text (tr_repr T x).
Lemma ascii_float x : ascii_text (float_text T x).
Proof. destruct x as [ | |[]| ]; try apply HT; unfold ascii_text; vm_compute; repeat constructor; discriminate. Qed.
Lemma ascii_list (l : list value) s :
  Forall (fun v => forall s, json_dumps T CT v = Ok s -> ascii_text s) l ->
  rbind (rmap (json_dumps T CT) l) (fun ts => Ok ("[" ++ sjoin ", " ts ++ "]")%string) = Ok s -> ascii_text s.
Proof.
  intros Hl H. apply rbind_ok in H as (ts & Hts & H). injection H as <-. apply rmap_Forall2 in Hts.
  change (ascii_text ("[" ++ sjoin ", " ts ++ "]")%string). rewrite !ascii_app.
  split; [repeat constructor; discriminate|]. split; [|repeat constructor; discriminate].
  apply ascii_join; [repeat constructor; discriminate|].
  revert Hl. induction Hts as [|x t l ts Hx Hts IH]; intros Hl; constructor; inversion Hl; subst; auto.
Qed.
Lemma ascii_scalar v s : scalar_text T CT v = Ok s -> ascii_text s.
Proof.
  unfold scalar_text. destruct (scalar_of CT v) as [[| [] | | | | | | | | | | |]|]; try discriminate; injection 1 as <-;
    try (unfold ascii_text; vm_compute; repeat constructor; discriminate).
  - apply ascii_str_int.
  - apply ascii_float.
  - apply ascii_quoted.
Qed.
Theorem json_dumps_ascii v : forall s, json_dumps T CT v = Ok s -> ascii_text s.
Proof.
  induction v using value_ind'; intros out HH; try (now apply (ascii_scalar _ _ HH)).
  - apply ascii_list with (1 := H). exact HH.
  - apply ascii_list with (1 := H). exact HH.
  - cbn [json_dumps] in HH. apply rbind_ok in HH as (ts & Hts & HH). injection HH as <-. apply rmap_Forall2 in Hts.
    change (ascii_text ("{" ++ sjoin ", " ts ++ "}")%string). rewrite !ascii_app.
    split; [repeat constructor; discriminate|]. split; [|repeat constructor; discriminate].
    apply ascii_join; [repeat constructor; discriminate|].
    revert H. induction Hts as [|x t l ts Hx Hts IH]; intros Hl; constructor.
    + apply rbind_ok in Hx as (kt & Hk & Hx). apply rbind_ok in Hx as (tv & Hv & Hx). injection Hx as <-.
      change (ascii_text (quoted kt ++ ": " ++ tv)%string). rewrite !ascii_app. split; [apply ascii_quoted|]. split; [repeat constructor; discriminate|].
      inversion Hl as [|? ? [_ Hx] _]; subst. now apply Hx.
    + apply IH. now inversion Hl.
  - apply ascii_list with (1 := H). exact HH.
Qed.
End Ascii.
