(** * Dicts with arbitrary keys: what is lost *)
From Verif Require Import PyBaseFacts EngineFacts DumpProofs DumpLaws LoadFacts LoadLaws LoadTypes RoundTripFacts.
From Verif Require Export HashedFacts.
Local Close Scope Z_scope.
Local Open Scope string_scope.

(** ** Equality of JSON keys is transitive *)
Lemma num_eqb_iff a b e : (e <= snd a)%Z -> (e <= snd b)%Z ->
  num_eqb a b = true <-> (fst a * 2 ^ (snd a - e) = fst b * 2 ^ (snd b - e))%Z.
Proof.
  intros Ha Hb. unfold num_eqb. rewrite Z.eqb_eq. set (m := Z.min (snd a) (snd b)).
  assert (Hm : (e <= m)%Z) by (unfold m; lia).
  assert (Ea : (2 ^ (snd a - e) = 2 ^ (snd a - m) * 2 ^ (m - e))%Z).
  { rewrite <- Z.pow_add_r by (unfold m; lia). f_equal. lia. }
  assert (Eb : (2 ^ (snd b - e) = 2 ^ (snd b - m) * 2 ^ (m - e))%Z).
  { rewrite <- Z.pow_add_r by (unfold m; lia). f_equal. lia. }
  rewrite Ea, Eb, !Z.mul_assoc. rewrite Z.mul_cancel_r; [tauto|]. apply Z.pow_nonzero; lia.
Qed.
Lemma num_eqb_trans a b c : num_eqb a b = true -> num_eqb b c = true -> num_eqb a c = true.
Proof.
  set (e := Z.min (snd a) (Z.min (snd b) (snd c))).
  rewrite (num_eqb_iff a b e), (num_eqb_iff b c e), (num_eqb_iff a c e) by (unfold e; lia). congruence.
Qed.
Lemma eqb_scalar k k' : plain_scalar k -> py_eqb k k' = true -> plain_scalar k'.
Proof. destruct k as [| | |[]| | | | | | | | |], k' as [| | |[]| | | | | | | | |]; cbn; intros; try discriminate; tauto. Qed.
Lemma scalar_trans a b c : plain_scalar a -> py_eqb a b = true -> py_eqb b c = true -> py_eqb a c = true.
Proof.
  intros Ha Hab Hbc. pose proof (eqb_scalar _ _ Ha Hab) as Hb. pose proof (eqb_scalar _ _ Hb Hbc) as Hc.
  destruct a as [|ba|za|fa|sa| | | | | | | |]; try (now destruct Ha); destruct b as [|bb|zb|fb|sb| | | | | | | |]; try (now destruct Hb);
    destruct c as [|bc|zc|fc|sc| | | | | | | |]; try (now destruct Hc); try discriminate; try reflexivity;
    try (destruct fa as [ma ea| |ia|]); try (destruct fb as [mb eb| |ib|]); try (destruct fc as [mc ec| |ic|]);
    try discriminate; try reflexivity; try assumption; try (cbn [py_eqb num_of] in *; eapply num_eqb_trans; eassumption).
  - cbn in *. destruct ia, ib, ic; cbn in *; congruence.
  - cbn in *. apply String.eqb_eq in Hab. apply String.eqb_eq in Hbc. subst. apply String.eqb_refl.
Qed.
Lemma dhas_iff k d : dhas k d = true <-> exists k', In k' (keys d) /\ py_eqb k k' = true.
Proof.
  unfold dhas, amem. induction d as [|[k2 y] d IH]; cbn [aget map fst].
  - split; [discriminate|intros (k' & [] & _)].
  - destruct (py_eqb k k2) eqn:He.
    + split; [|reflexivity]. intros _. exists k2. split; [now left|exact He].
    + rewrite IH. split; intros (k' & Hin & Hk); exists k'.
      * split; [now right|exact Hk].
      * destruct Hin as [<-|Hin]; [congruence|auto].
Qed.
Lemma dhas_equal a b d : plain_scalar b -> py_eqb a b = true -> dhas a d = true -> dhas b d = true.
Proof.
  intros Hb Hab H. apply dhas_iff in H as (k' & Hin & Hk). apply dhas_iff. exists k'. split; [exact Hin|].
  apply scalar_trans with a; auto. now rewrite py_eqb_sym.
Qed.
Lemma dget_dset_str s d k x : py_eqb (VStr s) k = false -> dget (VStr s) (dset k x d) = dget (VStr s) d.
Proof.
  intros Hk. unfold dget, dset. induction d as [|[k2 y] d IH]; cbn [aset aget]; [now rewrite Hk|].
  destruct (py_eqb k k2) eqn:He; cbn [aget]; [|now rewrite IH].
  destruct (py_eqb (VStr s) k2) eqn:Hs; [|reflexivity]. apply py_eqb_str in Hs. subst k2. rewrite py_eqb_sym in He. congruence.
Qed.
Lemma dget_dset_str_same s d x : dget (VStr s) (dset (VStr s) x d) = Some x.
Proof.
  unfold dget, dset. induction d as [|[k2 y] d IH]; cbn [aset aget]; [now rewrite py_eqb_refl|].
  destruct (py_eqb (VStr s) k2) eqn:He; cbn [aget]; rewrite He; auto.
Qed.

(** ** Dumping: the entries besides the section are at most as many as the keys *)
Section Dump.
Variables (E : env) (f n : nat) (o : sopts).
Hypothesis Hkt : so_kt o = None.

(** [d] is the result so far; [c] bounds its entries besides the section. *)
Definition sized (c : nat) (d : list (value * value)) : Prop :=
  (dget (VStr "-keys") d = None /\ length d <= c) \/ (stored_keys d /\ length d <= S c).
Lemma sized_le c c' d : sized c d -> c <= c' -> sized c' d.
Proof. intros [[H1 H2]|[H1 H2]] Hc; [left|right]; split; auto; lia. Qed.
Lemma sized_set c d k x : py_eqb (VStr "-keys") k = false -> sized c d -> sized (S c) (dset k x d).
Proof.
  intros Hk. pose proof (dset_length d k x) as [Hl _]. unfold sized, stored_keys. rewrite (dget_dset_str _ _ _ _ Hk).
  intros [[H1 H2]|[H1 H2]]; [left|right]; split; auto; lia.
Qed.
Lemma sized_reset c d k x : py_eqb (VStr "-keys") k = false -> dhas k d = true -> sized c d -> sized c (dset k x d).
Proof.
  intros Hk Hh. unfold sized, stored_keys. rewrite (dget_dset_str _ _ _ _ Hk), (dset_present _ _ _ Hh). auto.
Qed.
Lemma sized_section c d x h kd sec : x = VDict kd ((h, snd (hd (VNone, VNone) sec)) :: tl sec) \/ (exists y r, x = VDict kd (y :: r)) ->
  sized c d -> sized c (dset (VStr "-keys") x d).
Proof.
  intros Hx Hs. right. assert (Hne : exists y r, x = VDict kd (y :: r)) by (destruct Hx as [->|Hx]; eauto). clear Hx.
  destruct Hne as ([a b] & r & ->). split.
  - exists kd, a, b, r. apply dget_dset_str_same.
  - destruct Hs as [[H1 H2]|[H1 H2]].
    + pose proof (dset_length d (VStr "-keys") (VDict kd ((a, b) :: r))). lia.
    + rewrite dset_present; [exact H2|]. destruct H1 as (? & ? & ? & ? & H1). unfold dhas, amem. unfold dget in H1. now rewrite H1.
Qed.
Lemma dset_nonempty k x d : exists y r, dset k x d = y :: r.
Proof. unfold dset. destruct d as [|[k' y] d]; cbn [aset]; [eauto|]. destruct (py_eqb k k'); eauto. Qed.
(** One key: the result keeps its size, and its keys stay. *)
Lemma store_sized c d k d' h : sized c d -> snd (store_and_hash E f (serialize E f n) o d k) = Done (d', h) ->
  document_key E f n o k h /\ sized c d' /\ (forall k', dhas k' d = true -> dhas k' d' = true).
Proof.
  intros Hs H. unfold store_and_hash in H. destruct (json_key (e_ct E) k) eqn:Hj.
  - injection H as <- <-. split; [now constructor|]. auto.
  - apply bind_done in H as (dk & Hdk & H). fold (dump E f n o None k) in Hdk. destruct (json_key (e_ct E) dk) eqn:Hjd.
    + injection H as <- <-. split; [now apply dk_dumped|]. auto.
    + cbn zeta in H. destruct (dget (VStr "-keys") d) as [[| | | | | | | |kd sec| | | |]|] eqn:Hg; try discriminate;
        injection H as <- <-; (split; [now apply dk_hashed with dk|]).
      * split; [|intros; now apply dhas_dset]. apply (sized_section c d _ VNone kd []); [|exact Hs]. right.
        destruct (dset_nonempty (VInt (rt_hash (e_rt E) k)) dk sec) as (y & r & ->). eauto.
      * split; [|intros; now apply dhas_dset]. apply (sized_section c d _ VNone DkDict []); [|exact Hs]. right. eauto.
Qed.
Definition no_sections (ks : list value) : Prop :=
  forall k h, In k ks -> document_key E f n o k h -> h <> VStr "-keys" /\ h <> VStr "-meta".
Lemma no_section_eqb h : h <> VStr "-keys" -> py_eqb (VStr "-keys") h = false.
Proof. intros H. destruct (py_eqb (VStr "-keys") h) eqn:He; [|reflexivity]. apply py_eqb_str in He. now elim H. Qed.
Lemma go_sized v ks : forall d d' c, no_sections ks -> sized c d -> snd (ser_dict_go E f (serialize E f n) o v ks d) = Done d' ->
  sized (c + length ks) d' /\ (forall k', dhas k' d = true -> dhas k' d' = true).
Proof.
  induction ks as [|k ks IH]; intros d d' c Hns Hs H.
  - injection H as <-. rewrite Nat.add_0_r. auto.
  - cbn [ser_dict_go] in H. apply bind_done in H as (x & _ & H). apply bind_done in H as ([d1 h] & Hst & H).
    destruct (store_sized c d k d1 h Hs Hst) as (Hdk & Hs1 & Hk1). destruct (Hns k h (or_introl eq_refl) Hdk) as [Hnk _].
    apply bind_done in H as (j & _ & H). cbn [fst snd] in H. assert (Hns' : no_sections ks) by (intros k' h' Hin; apply Hns; now right).
    cbn [length]. destruct (so_strip_nulls o && is_none j).
    + destruct (IH d1 d' c Hns' Hs1 H) as [H1 H2]. split; [apply sized_le with (1 := H1); lia|auto].
    + apply bind_done in H as (h' & Hh & H). unfold apply_kt in Hh. rewrite Hkt in Hh. cbn [rbind] in Hh.
      destruct (hashable (e_ct E) h); [|discriminate]. injection Hh as <-.
      destruct (IH (dset h j d1) d' (S c) Hns') as [H1 H2]; [apply sized_set; auto; now apply no_section_eqb|exact H|].
      split; [rewrite <- plus_n_Sm; exact H1|]. intros k' Hk'. apply H2, dhas_dset. auto.
Qed.
Lemma go_app v a : forall b d d', snd (ser_dict_go E f (serialize E f n) o v (a ++ b) d) = Done d' ->
  exists d1, snd (ser_dict_go E f (serialize E f n) o v a d) = Done d1 /\ snd (ser_dict_go E f (serialize E f n) o v b d1) = Done d'.
Proof.
  induction a as [|k a IH]; intros b d d' H; [exists d; split; [reflexivity|exact H]|].
  cbn [app ser_dict_go] in H. apply bind_done in H as (x & Hx & H). apply bind_done in H as (rk & Hrk & H).
  apply bind_done in H as (j & Hj & H). destruct (so_strip_nulls o && is_none j) eqn:Hsn.
  - destruct (IH b _ _ H) as (d1 & H1 & H2). exists d1. split; [|exact H2]. cbn [ser_dict_go].
    apply bind_done. exists x. split; [exact Hx|]. apply bind_done. exists rk. split; [exact Hrk|].
    apply bind_done. exists j. split; [exact Hj|]. rewrite Hsn. exact H1.
  - apply bind_done in H as (h & Hh & H). destruct (IH b _ _ H) as (d1 & H1 & H2). exists d1. split; [|exact H2]. cbn [ser_dict_go].
    apply bind_done. exists x. split; [exact Hx|]. apply bind_done. exists rk. split; [exact Hrk|].
    apply bind_done. exists j. split; [exact Hj|]. rewrite Hsn. apply bind_done. exists h. split; [exact Hh|exact H1].
Qed.
Lemma document_key_unique k h h' : document_key E f n o k h -> document_key E f n o k h' -> h = h'.
Proof. intros [k1 H1|k1 j H1 H2 H3|k1 j H1 H2 H3] H; inversion H; subst; congruence. Qed.
(** One step: the entry is stored under its document key, or dropped. *)
Lemma go_one v k d d' c : no_sections [k] -> sized c d -> snd (ser_dict_go E f (serialize E f n) o v [k] d) = Done d' ->
  exists h, document_key E f n o k h /\
    (sized c d' \/ (dhas h d' = true /\ (dhas h d = true -> sized c d'))).
Proof.
  intros Hns Hs H. cbn [ser_dict_go] in H. apply bind_done in H as (x & _ & H). apply bind_done in H as ([d1 h] & Hst & H).
  destruct (store_sized c d k d1 h Hs Hst) as (Hdk & Hs1 & Hk1). exists h. split; [exact Hdk|].
  destruct (Hns k h (or_introl eq_refl) Hdk) as [Hnk _].
  apply bind_done in H as (j & _ & H). cbn [fst snd] in H. destruct (so_strip_nulls o && is_none j).
  - injection H as <-. now left.
  - apply bind_done in H as (h' & Hh & H). unfold apply_kt in Hh. rewrite Hkt in Hh. cbn [rbind] in Hh.
    destruct (hashable (e_ct E) h); [|discriminate]. injection Hh as <-. injection H as <-. right. split; [apply dhas_dset_same|].
    intros Hd. apply sized_reset; auto. now apply no_section_eqb.
Qed.
Lemma clash_sized v pre k1 mid k2 post d' h1 h2 :
  let ks := (pre ++ k1 :: mid ++ k2 :: post)%list in
  no_sections ks -> document_key E f n o k1 h1 -> document_key E f n o k2 h2 ->
  plain_scalar h2 -> py_eqb h1 h2 = true ->
  snd (ser_dict_go E f (serialize E f n) o v ks []) = Done d' -> exists c, S c = length ks /\ sized c d'.
Proof.
  intros ks Hns H1 H2 Hp Heq H. unfold ks in *.
  assert (Hns1 : no_sections pre) by (intros k h Hin; apply Hns, in_or_app; now left).
  assert (Hns2 : no_sections [k1]) by (intros k h [<-|[]]; apply Hns, in_or_app; right; now left).
  assert (Hns3 : no_sections mid) by (intros k h Hin; apply Hns, in_or_app; right; right; apply in_or_app; now left).
  assert (Hns4 : no_sections [k2]) by (intros k h [<-|[]]; apply Hns, in_or_app; right; right; apply in_or_app; right; now left).
  assert (Hns5 : no_sections post) by (intros k h Hin; apply Hns, in_or_app; right; right; apply in_or_app; right; now right).
  exists (length pre + length mid + S (length post)). split; [rewrite app_length; cbn [length]; rewrite app_length; cbn [length]; lia|].
  apply go_app in H as (d1 & Ha & H). change (k1 :: mid ++ k2 :: post)%list with ([k1] ++ mid ++ k2 :: post)%list in H.
  apply go_app in H as (d2 & Hb & H). apply go_app in H as (d3 & Hc & H).
  change (k2 :: post) with ([k2] ++ post)%list in H. apply go_app in H as (d4 & Hd & He).
  destruct (go_sized v pre [] d1 0 Hns1 (or_introl (conj eq_refl (le_n _))) Ha) as [S1 _]. cbn [Nat.add] in S1.
  destruct (go_one v k1 d1 d2 _ Hns2 S1 Hb) as (h1' & H1' & Hcase). pose proof (document_key_unique _ _ _ H1 H1') as <-.
  destruct Hcase as [S2|[Hh _]].
  - (* the first entry was dropped *)
    destruct (go_sized v mid d2 d3 _ Hns3 S2 Hc) as [S3 _]. destruct (go_sized v [k2] d3 d4 _ Hns4 S3 Hd) as [S4 _].
    destruct (go_sized v post d4 d' _ Hns5 S4 He) as [S5 _]. apply sized_le with (1 := S5). cbn [length]. lia.
  - destruct (go_sized v [k1] d1 d2 _ Hns2 S1 Hb) as [S2 _]. destruct (go_sized v mid d2 d3 _ Hns3 S2 Hc) as [S3 K3].
    destruct (go_one v k2 d3 d4 _ Hns4 S3 Hd) as (h2' & H2' & Hcase). pose proof (document_key_unique _ _ _ H2 H2') as <-.
    assert (S4 : sized (length pre + length [k1] + length mid) d4).
    { destruct Hcase as [S4|[_ S4]]; [exact S4|]. apply S4. apply dhas_equal with h1; auto. }
    destruct (go_sized v post d4 d' _ Hns5 S4 He) as [S5 _]. apply sized_le with (1 := S5). cbn [length]. lia.
Qed.
(** '-meta' does not turn up. *)
Lemma go_no_meta v ks : forall d d', no_sections ks -> ~ In (VStr "-meta") (keys d) ->
  snd (ser_dict_go E f (serialize E f n) o v ks d) = Done d' -> ~ In (VStr "-meta") (keys d').
Proof.
  assert (HA : forall d k x, ~ In (VStr "-meta") (keys d) -> k <> VStr "-meta" -> ~ In (VStr "-meta") (keys (dset k x d))).
  { intros d k x Hn Hk. unfold dset. induction d as [|[k' y] d IH]; cbn [aset map fst].
    - intros [H|[]]. congruence.
    - destruct (py_eqb k k'); cbn [map fst]; [exact Hn|]. intros [H|H]; [apply Hn; now left|]. revert H. apply IH. intros H. apply Hn. now right. }
  induction ks as [|k ks IH]; intros d d' Hns Hm H; [injection H as <-; exact Hm|].
  cbn [ser_dict_go] in H. apply bind_done in H as (x & _ & H). apply bind_done in H as ([d1 h] & Hst & H).
  assert (Hns' : no_sections ks) by (intros k' h' Hin; apply Hns; now right).
  assert (Hst' : document_key E f n o k h /\ ~ In (VStr "-meta") (keys d1)).
  { unfold store_and_hash in Hst. destruct (json_key (e_ct E) k) eqn:Hj.
    - injection Hst as <- <-. split; [now constructor|exact Hm].
    - apply bind_done in Hst as (dk & Hdk & Hst). fold (dump E f n o None k) in Hdk. destruct (json_key (e_ct E) dk) eqn:Hjd.
      + injection Hst as <- <-. split; [now apply dk_dumped|exact Hm].
      + cbn zeta in Hst. destruct (dget (VStr "-keys") d) as [[| | | | | | | |kd sec| | | |]|] eqn:Hg; try discriminate;
          injection Hst as <- <-; (split; [now apply dk_hashed with dk|]); (apply HA; [exact Hm|discriminate]). }
  destruct Hst' as [Hdk Hm1]. destruct (Hns k h (or_introl eq_refl) Hdk) as [_ Hnm].
  apply bind_done in H as (j & _ & H). cbn [fst snd] in H. destruct (so_strip_nulls o && is_none j); [eapply IH; eauto|].
  apply bind_done in H as (h' & Hh & H). unfold apply_kt in Hh. rewrite Hkt in Hh. cbn [rbind] in Hh.
  destruct (hashable (e_ct E) h); [|discriminate]. injection Hh as <-. eapply IH; [exact Hns'| |exact H]. now apply HA.
Qed.
End Dump.

(** ** Loading: no more entries than the document has, besides the section *)
Section Load.
Variables (E : env) (g : nat).
Variable ld : nat -> lopts -> option ty -> value -> M value.
Lemma hashed_go_size lo tk stored : forall d r, snd (hashed_go E ld g lo tk stored d) = Done r -> S (length r) <= length d.
Proof.
  induction stored as [|[h kj] stored IH]; intros d r H; cbn [hashed_go] in H.
  - destruct (dhas (VStr "-keys") d) eqn:Hk; [|discriminate]. injection H as <-. now rewrite (ddel_present _ _ Hk).
  - apply bind_done in H as (k & _ & H). destruct (dget h d) as [x|] eqn:Hg; [|discriminate].
    destruct (hashable (e_ct E) k && negb (py_eqb (VStr "-keys") k)); [|discriminate].
    apply IH in H. assert (Hh : dhas h (dset k x d) = true) by (apply dhas_dset; unfold dhas, amem; unfold dget in Hg; now rewrite Hg).
    pose proof (ddel_present _ _ Hh). pose proof (dset_length d k x). lia.
Qed.
Lemma deser_go_size ok ov gt kc vc : forall d acc r, snd (deser_dict_go E ld g ok ov gt kc vc d acc) = Done r ->
  length r <= length acc + length d.
Proof.
  induction d as [|[k x] d IH]; intros acc r H; cbn [deser_dict_go] in H; [injection H as <-; cbn [length]; lia|].
  apply bind_done in H as (k1 & _ & H). apply bind_done in H as (k2 & _ & H). apply bind_done in H as (y & _ & H).
  destruct (hashable (e_ct E) k2); [|discriminate]. apply IH in H. pose proof (dset_length acc k2 y). cbn [length]. lia.
Qed.
Lemma deser_dict_size lo args c k d r : sized c d -> snd (deser_dict E ld g lo args (VDict k d)) = Done r -> length r <= c.
Proof.
  intros Hs H. unfold deser_dict in H. apply bind_done in H as ([d1 fl] & Hh & H).
  assert (Hd1 : length d1 <= c).
  { unfold load_hashed_keys in Hh. destruct Hs as [[Hn Hl]|[(kd & h & x & sec & Hg) Hl]].
    - rewrite Hn in Hh. injection Hh as <- <-. exact Hl.
    - rewrite Hg in Hh. cbn [py_iter lift map] in Hh. rewrite bind_ret_l in Hh.
      destruct args as [|kt [|vt [|]]]; try discriminate. apply bind_done in Hh as (r' & Hr & Hh). injection Hh as <- <-.
      apply hashed_go_size in Hr. lia. }
  cbn [fst snd] in H. destruct args as [|kt [|vt [|]]]; apply deser_go_size in H; cbn [length] in H; lia.
Qed.
End Load.
Section Lost.
Variables (E : env) (f g : nat).
Hypothesis HS : default_serializers E f.
Hypothesis HD : default_deserializers E g.
Lemma load_size c doc b h args lo m v' : sized c doc -> ~ In (VStr "-meta") (keys doc) -> args <> [] ->
  (h = HDict \/ h = HMapping \/ h = HOrderedDict \/ h = HDefaultDict) ->
  snd (load E m g lo (Some (TApp b h args)) (VDict DkDict doc)) = Done v' ->
  exists k d', v' = VDict k d' /\ length d' <= c.
Proof.
  intros Hs Hm Hargs Hh. 
  assert (Hmeta : no_meta_entry (VDict DkDict doc)).
  { intros k d x [= <- <-] Hin. apply Hm. now apply (in_map fst) in Hin. }
  assert (HR : forall m lo b h v', snd (load E (S m) g lo (Some (TApp b h args)) (VDict DkDict doc)) = Done v' ->
     snd (deser_step E (load E m) g (child_opts lo) (head_handler h) (TApp b h args) (VDict DkDict doc)) = Done v').
  { intros m' lo' b' h' w H.
    rewrite (load_run E m' g lo' (TApp b' h' args) (VDict DkDict doc) (head_handler h') I Hmeta) in H.
    - apply try_done in H as [H|(e & _ & H)]; [|discriminate].
      apply bind_done in H as (r & Hr & H). apply bind_done in H as (u & _ & H). injection H as <-. exact Hr.
    - discriminate.
    - reflexivity.
    - right. intros Heq. injection Heq as _ _ Heq. now elim Hargs.
    - rewrite HD. apply deser_head. }
  assert (HM : forall m lo b h v', (h = HDict \/ h = HMapping \/ h = HOrderedDict) ->
     snd (deser_step E (load E m) g (child_opts lo) DMapping (TApp b h args) (VDict DkDict doc)) = Done v' ->
     exists k d', v' = VDict k d' /\ length d' <= c).
  { intros m' lo' b' h' w Hh' H. cbn [deser_step] in H. unfold deser_mapping in H.
    apply bind_done in H as (args' & _ & H). apply bind_done in H as (d & Hd & H).
    apply (deser_dict_size E g) with (1 := Hs) in Hd.
    destruct Hh' as [-> |[-> | ->]]; injection H as <-; eauto. }
  intros H. destruct m as [|m]; [discriminate|]. apply HR in H. destruct Hh as [-> |[-> |[-> | ->]]].
  - now apply (HM m lo b HDict); auto.
  - now apply (HM m lo b HMapping); auto.
  - now apply (HM m lo b HOrderedDict); auto.
  - cbn [head_handler deser_step] in H. unfold deser_defaultdict in H. apply bind_done in H as (t' & Ht & H).
    apply bind_done in H as (r & Hr & H). destruct r as [| | | | | | | |k d'| | | |]; try discriminate. injection H as <-.
    assert (Ht' : t' = TApp true HDict args).
    { destruct args as [|a [|a' [|]]]; cbn in Ht; try discriminate; [now elim Hargs|]. now injection Ht as <-. }
    subst t'. destruct m as [|m]; [discriminate|]. apply HR in Hr. apply (HM m (child_opts lo) true HDict) in Hr; [|now left].
    destruct Hr as (k' & d2 & Heq & Hl). injection Heq as <- <-. eauto.
Qed.
Lemma clash_loses n m o cls kd pre k1 x1 mid k2 x2 post j h1 h2 b h args lo v' :
  let d := (pre ++ (k1, x1) :: mid ++ (k2, x2) :: post)%list in
  so_kt o = None ->
  (forall k h, In k (keys d) -> document_key E f n o k h -> h <> VStr "-keys" /\ h <> VStr "-meta") ->
  document_key E f n o k1 h1 -> document_key E f n o k2 h2 -> plain_scalar h2 -> py_eqb h1 h2 = true ->
  cls = None \/ (exists b' h' args', cls = Some (TApp b' h' args') /\ (h' = HDict \/ h' = HMapping \/ h' = HOrderedDict \/ h' = HDefaultDict)) ->
  snd (dump E f (S n) o cls (VDict kd d)) = Done j ->
  (h = HDict \/ h = HMapping \/ h = HOrderedDict \/ h = HDefaultDict) -> args <> [] ->
  snd (load E m g lo (Some (TApp b h args)) j) = Done v' ->
  exists k' d', v' = VDict k' d' /\ length d' < length d.
Proof.
  intros d Hkt Hns H1 H2 Hp Heq Hc Hj Hh Hargs Hl. apply dump_done_iff in Hj.
  assert (Hs : serializer E f cls (VDict kd d) = Some SDict).
  { unfold serializer. rewrite !HS. destruct Hc as [-> |(b' & h' & args' & -> & Hh')]; cbn [tyof].
    - destruct kd; cbn [class_of]; rewrite ser_head; reflexivity.
    - rewrite ser_head. destruct Hh' as [-> |[-> |[-> | ->]]]; reflexivity. }
  rewrite Hs in Hj. cbn [serialize] in Hj. cbn [ser_step] in Hj. unfold ser_dict in Hj. cbn [py_iter lift] in Hj.
  rewrite bind_ret_l in Hj. apply bind_done in Hj as (doc & Hdoc & Hj). injection Hj as <-.
  assert (Hks : keys d = (keys pre ++ k1 :: keys mid ++ k2 :: keys post)%list).
  { unfold d. rewrite map_app. cbn [map fst]. rewrite map_app. reflexivity. }
  pose proof (go_no_meta E f n o Hkt (VDict kd d) (keys d) [] doc Hns (fun H => H) Hdoc) as Hm.
  rewrite Hks in Hns, Hdoc.
  destruct (clash_sized E f n o Hkt (VDict kd d) (keys pre) k1 (keys mid) k2 (keys post) doc h1 h2 Hns H1 H2 Hp Heq Hdoc) as (c & Hcl & Hsz).
  destruct (load_size c doc b h args lo m v' Hsz Hm Hargs Hh Hl) as (k' & d' & -> & Hd'). exists k', d'. split; [reflexivity|].
  rewrite <- Hks, map_length in Hcl. lia.
Qed.
(** Without the types of keys and values, a document with stored keys is rejected. *)
Lemma deser_untyped n lo h t args doc : stored_keys doc -> get_args (Some t) = args ->
  match t with TApp _ h _ => h = HDict \/ h = HMapping \/ h = HOrderedDict | _ => False end ->
  (args = [] \/ exists a, args = [a]) -> h = DMapping ->
  exists e, snd (deser_step E (load E n) g lo h t (VDict DkDict doc)) = Fail e /\ (e_kind e = KDeser \/ e_kind e = KType).
Proof.
  intros Hk Hg Ht Hargs ->. cbn [deser_step]. unfold deser_mapping. rewrite Hg. destruct Hargs as [-> |(a & ->)].
  - cbn [lift]. rewrite bind_ret_l. unfold deser_dict, load_hashed_keys.
    destruct Hk as (k & h' & x & sec & ->). cbn [py_iter lift map]. rewrite bind_ret_l. eexists. split; [reflexivity|now left].
  - eexists. split; [reflexivity|now right].
Qed.
Lemma wrapped_deser {A} (m : M A) e : snd m = Fail e -> e_kind e = KDeser \/ e_kind e = KType ->
  exists e', snd (wrap_deser m) = Fail e' /\ e_kind e' = KDeser.
Proof.
  intros H Hk. unfold wrap_deser, mtry. rewrite H. cbn [snd fail]. destruct Hk as [Hk|Hk].
  - exists e. rewrite Hk. split; reflexivity || exact Hk.
  - rewrite Hk. eexists. split; reflexivity.
Qed.
Lemma untyped_rejected n lo cls doc :
  stored_keys doc -> ~ In (VStr "-meta") (keys doc) ->
  (cls = None \/ exists b h args, cls = Some (TApp b h args) /\ (h = HDict \/ h = HMapping \/ h = HOrderedDict) /\
     (args = [] \/ exists a, args = [a]) /\ (lo_strict lo = true \/ TApp b h args <> TApp false HDict [])) ->
  exists e, snd (load E (S n) g lo cls (VDict DkDict doc)) = Fail e /\ e_kind e = KDeser.
Proof.
  intros Hk Hm Hc.
  assert (Hmeta : no_meta_entry (VDict DkDict doc)).
  { intros k d x [= <- <-] Hin. apply Hm. now apply (in_map fst) in Hin. }
  destruct Hc as [->|(b & h & args & -> & Hh & Hargs & Hst)].
  - cbn [load]. unfold load_step. cbn [is_none]. rewrite bind_ret_l. cbn [same_type]. rewrite andb_false_r. cbn [orb lift]. rewrite bind_ret_l.
    cbn [valid_type negb]. rewrite (no_meta_get _ _ _ Hmeta). cbn [lift]. rewrite bind_ret_l. cbn [fst snd].
    assert (determine_precedence None None (Some (class_of (VDict DkDict doc))) (lo_inferred lo) = Some (TApp false HDict [])) as ->
      by (destruct (lo_inferred lo); reflexivity).
    rewrite HD, deser_head. cbn [head_handler].
    match goal with |- context [wrap_deser (mbind (deser_step E (load E n) g ?o' DMapping ?t ?j) _)] =>
      destruct (deser_untyped n o' DMapping t [] doc Hk eq_refl (or_introl eq_refl) (or_introl eq_refl) eq_refl) as (e & Hf & He) end.
    apply wrapped_deser with e; [|exact He]. apply bind_fail. now left.
  - rewrite (load_run E n g lo (TApp b h args) (VDict DkDict doc) (head_handler h) I Hmeta); [|discriminate|reflexivity| |rewrite HD; apply deser_head].
    + assert (Hdm : head_handler h = DMapping) by (destruct Hh as [-> |[-> | ->]]; reflexivity).
      destruct (deser_untyped n (child_opts lo) (head_handler h) (TApp b h args) (get_args (Some (TApp b h args))) doc Hk eq_refl Hh) as (e & Hf & He); auto.
      { destruct Hargs as [-> |(a & ->)]; cbn; eauto. }
      apply wrapped_deser with e; [|exact He]. apply bind_fail. now left.
    + destruct Hst as [H|H]; [now left|right]. cbn [class_of]. congruence.
Qed.
End Lost.
