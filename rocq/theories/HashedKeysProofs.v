(** * What loading does to the caller's '-keys' section: proofs *)
From Verif Require Import PyBaseFacts EngineFacts DumpProofs DumpLaws LoadFacts LoadLaws LoadTypes RoundTripFacts.
From Verif Require Export HashedKeysModel HashedFacts HashedLoss.
Local Close Scope Z_scope.
Local Open Scope string_scope.

Lemma in_keys_split (k : value) d : In k (keys d) -> exists pre x post, d = (pre ++ (k, x) :: post)%list.
Proof.
  intros H. apply in_map_iff in H as ([k' x] & <- & H). apply in_split in H as (pre & post & ->). eauto.
Qed.
Lemma keys_perm (d : list (value * value)) k ks : Permutation (k :: ks) (keys d) -> distinct (keys d) ->
  exists x, dget k d = Some x /\ Permutation ks (keys (ddel k d)) /\ distinct (keys (ddel k d)).
Proof.
  intros HP Hd. assert (Hin : In k (keys d)) by (apply Permutation_in with (k :: ks); [exact HP|now left]).
  destruct (in_keys_split k d Hin) as (pre & x & post & ->). exists x.
  pose proof (fresh_left _ _ _ _ Hd) as Hf. rewrite (dget_app _ _ _ _ Hf), (ddel_app _ _ _ _ Hf).
  split; [reflexivity|]. rewrite map_app in HP, Hd. cbn [map fst] in HP, Hd. rewrite map_app.
  apply Permutation_cons_app_inv in HP. split; [exact HP|]. now apply distinct_app_mid in Hd.
Qed.

Section Unpack.
Variables (CT : classes) (ld : value -> M value).
Lemma unpack_done order : forall section result r, Permutation order (keys section) -> distinct (keys section) ->
  snd (unpack CT ld order section result) = Done r -> fst (unpack CT ld order section result) = [].
Proof.
  induction order as [|k order IH]; intros section result r HP Hd H; cbn [unpack] in *.
  - apply Permutation_nil in HP. now destruct section.
  - destruct (keys_perm _ _ _ HP Hd) as (orig & Hg & HP' & Hd'). rewrite Hg in *.
    destruct (snd (ld orig)) as [k'|e|]; try discriminate. destruct (dget k result) as [x|]; try discriminate.
    destruct (hashable CT k' && negb (py_eqb (VStr "-keys") k')); try discriminate. eapply IH; eauto.
Qed.
Lemma dhas_ddel_str s k d : py_eqb k (VStr s) = false -> dhas (VStr s) d = true -> dhas (VStr s) (ddel k d) = true.
Proof.
  intros Hk. unfold dhas, amem, ddel. induction d as [|[k2 y] d IH]; cbn [adel aget]; [discriminate|].
  destruct (py_eqb k k2) eqn:He; cbn [aget].
  - destruct (py_eqb (VStr s) k2) eqn:Hs; [|auto]. apply py_eqb_str in Hs. subst k2. congruence.
  - destruct (py_eqb (VStr s) k2); auto.
Qed.
Lemma in_ddel (k k' x : value) d : In (k', x) (ddel k d) -> In (k', x) d.
Proof.
  unfold ddel. induction d as [|[k2 y] d IH]; cbn [adel]; [auto|]. destruct (py_eqb k k2); [now right|].
  intros [H|H]; [now left|right; auto].
Qed.
(** If it fails, then at some stored key; the keys before it are gone from the section. *)
Lemma unpack_fails order : forall section result e, Permutation order (keys section) -> distinct (keys section) ->
  dhas (VStr "-keys") result = true -> ~ In (VStr "-keys") order ->
  snd (unpack CT ld order section result) = Fail e ->
  exists pre k post, order = (pre ++ k :: post)%list /\
    Permutation (k :: post) (keys (fst (unpack CT ld order section result))) /\
    (forall k' x, In (k', x) (fst (unpack CT ld order section result)) -> In (k', x) section).
Proof.
  induction order as [|k order IH]; intros section result e HP Hd Hk Hn H; cbn [unpack] in *; [now rewrite Hk in H|].
  destruct (keys_perm _ _ _ HP Hd) as (orig & Hg & HP' & Hd'). rewrite Hg in *.
  assert (Hbase : exists pre k0 post, k :: order = (pre ++ k0 :: post)%list /\ Permutation (k0 :: post) (keys section) /\
     (forall k' x, In (k', x) section -> In (k', x) section)) by (exists [], k, order; auto).
  destruct (snd (ld orig)) as [k'|e'|]; try exact Hbase; try discriminate.
  destruct (dget k result) as [x|]; try exact Hbase.
  destruct (hashable CT k' && negb (py_eqb (VStr "-keys") k')); try exact Hbase.
  assert (Hkk : py_eqb k (VStr "-keys") = false).
  { rewrite py_eqb_sym. destruct (py_eqb (VStr "-keys") k) eqn:He; [|reflexivity]. apply py_eqb_str in He. subst k. elim Hn. now left. }
  destruct (IH (ddel k section) (ddel k (dset k' x result)) e) as (pre & k0 & post & -> & H1 & H2); auto.
  - apply dhas_ddel_str; [exact Hkk|]. now apply dhas_dset.
  - intros Hin. apply Hn. now right.
  - exists (k :: pre), k0, post. split; [reflexivity|]. split; [exact H1|]. intros k1 x1 Hin. apply in_ddel with k. auto.
Qed.
End Unpack.

(** The outcome is that of the engine, which takes the section in the order of traversal. *)
Lemma unpack_outcome E lds g lo tk stored : forall section result, Permutation stored section -> distinct (keys section) ->
  snd (unpack (e_ct E) (lds g lo (Some tk)) (keys stored) section result) = snd (hashed_go E lds g lo tk stored result).
Proof.
  induction stored as [|[h kj] stored IH]; intros section result HP Hd; cbn [map fst unpack hashed_go].
  - destruct (dhas (VStr "-keys") result); reflexivity.
  - assert (Hg : dget h section = Some kj).
    { apply dget_distinct; [exact Hd|]. apply Permutation_in with (1 := HP). now left. }
    rewrite Hg. unfold mbind. destruct (snd (lds g lo (Some tk) kj)) as [k'|e|]; cbn [snd]; try reflexivity.
    destruct (dget h result) as [x|]; [|reflexivity].
    destruct (hashable (e_ct E) k' && negb (py_eqb (VStr "-keys") k')); [|reflexivity].
    assert (HP' : Permutation (ddel h section) stored) by (apply ddel_perm with kj; [exact Hd|now apply Permutation_sym]).
    apply IH; [now apply Permutation_sym|].
    pose proof (Permutation_map fst (Permutation_sym HP)) as Hk. apply distinct_perm with (1 := Hk) in Hd. cbn [map fst] in Hd.
    apply distinct_perm with (keys stored); [now apply Permutation_map, Permutation_sym|]. now inversion Hd.
Qed.

Section Load.
Variables (E : env) (g : nat).
Hypothesis HD : default_deserializers E g.
Lemma mapping_run n lo b h tk t d : ~ In (VStr "-meta") (keys d) -> h = HDict \/ h = HMapping \/ h = HOrderedDict ->
  load E (S n) g lo (Some (TApp b h [tk; t])) (VDict DkDict d) =
  wrap_deser (dom r <- deser_mapping E (load E n) g (child_opts lo) (TApp b h [tk; t]) (VDict DkDict d);
              dom _ <- lift (validate E g r (TApp b h [tk; t]));
              ret r).
Proof.
  intros Hm Hh. rewrite (load_run E n g lo (TApp b h [tk; t]) (VDict DkDict d) DMapping I).
  - reflexivity.
  - intros k d' x [= <- <-] Hin. apply Hm. now apply (in_map fst) in Hin.
  - discriminate.
  - reflexivity.
  - right. discriminate.
  - rewrite HD, deser_head. destruct Hh as [-> |[-> | ->]]; reflexivity.
Qed.
Lemma mapping_done n lo b h tk t d v : ~ In (VStr "-meta") (keys d) -> h = HDict \/ h = HMapping \/ h = HOrderedDict ->
  snd (load E (S n) g lo (Some (TApp b h [tk; t])) (VDict DkDict d)) = Done v ->
  exists d', mapping_of h d' v /\ snd (deser_dict E (load E n) g (child_opts lo) [tk; t] (VDict DkDict d)) = Done d'.
Proof.
  intros Hm Hh H. rewrite (mapping_run n lo b h tk t d Hm Hh) in H. apply try_done in H as [H|(e & _ & H)]; [|discriminate].
  apply bind_done in H as (r & Hr & H). apply bind_done in H as (u & _ & H). injection H as <-.
  unfold deser_mapping in Hr. apply bind_done in Hr as (args & Ha & Hr). cbn [get_args raw_args lift] in Ha. injection Ha as <-.
  apply bind_done in Hr as (d' & Hd & Hr). exists d'. split; [|exact Hd].
  destruct Hh as [-> |[-> | ->]]; injection Hr as <-; constructor.
Qed.
Lemma emptied n lo b h tk t d k sec v : ~ In (VStr "-meta") (keys d) -> h = HDict \/ h = HMapping \/ h = HOrderedDict ->
  dget (VStr "-keys") d = Some (VDict k sec) -> distinct (keys sec) ->
  snd (load E (S n) g lo (Some (TApp b h [tk; t])) (VDict DkDict d)) = Done v ->
  dget (VStr "-keys") (caller_after E n g (child_opts lo) tk (keys sec) d) = Some (VDict k []).
Proof.
  intros Hm Hh Hg Hd H. destruct (mapping_done n lo b h tk t d v Hm Hh H) as (d' & _ & H').
  unfold caller_after. rewrite Hg. destruct sec as [|s0 sec]; [exact Hg|]. set (sec' := s0 :: sec) in *.
  unfold deser_dict, load_hashed_keys in H'. rewrite Hg in H'. cbn [py_iter lift] in H'. rewrite bind_ret_l in H'.
  unfold sec' at 1 in H'. cbn [map] in H'. fold sec' in H'.
  apply bind_done in H' as ([d1 fl] & H1 & _). apply bind_done in H1 as (r & Hr & _).
  rewrite dget_dset_str_same. f_equal. f_equal.
  rewrite <- (unpack_outcome E (load E n) g (child_opts lo) tk sec' sec' d (Permutation_refl _) Hd) in Hr.
  now apply unpack_done with (r := r).
Qed.
(** Whatever the outcome, only the section changes, and it only loses entries. *)
Lemma others_kept n lo tk order d : forall name, name <> VStr "-keys" ->
  forall x, In (name, x) (caller_after E n g lo tk order d) <-> In (name, x) d.
Proof.
  intros name Hn x. unfold caller_after. destruct (dget (VStr "-keys") d) as [[| | | | | | | |k sec| | | |]|] eqn:Hg; try tauto.
  destruct sec as [|s0 sec]; [tauto|]. generalize (VDict k (fst (unpack (e_ct E) (load E n g lo (Some tk)) order (s0 :: sec) d))) as y.
  intros y. unfold dset. clear Hg. induction d as [|[k2 z] d IH]; cbn [aset].
  - split; [|intros []]. intros [H|[]]. injection H as <- _. now elim Hn.
  - destruct (py_eqb (VStr "-keys") k2) eqn:He.
    + apply py_eqb_str in He. subst k2. split; (intros [H|H]; [injection H as <- _; now elim Hn|now right]).
    + split; (intros [H|H]; [now left|right; now apply IH]).
Qed.
Lemma unpack_subset CT ld order : forall section result k x, In (k, x) (fst (unpack CT ld order section result)) -> In (k, x) section.
Proof.
  induction order as [|key order IH]; intros section result k x H; cbn [unpack] in H; [exact H|].
  destruct (dget key section) as [orig|]; [|exact H]. destruct (snd (ld orig)) as [k'|e|]; try exact H.
  destruct (dget key result) as [y|]; [|exact H]. destruct (hashable CT k' && negb (py_eqb (VStr "-keys") k')); [|exact H].
  apply IH in H. now apply in_ddel in H.
Qed.
Lemma only_loses n lo tk order d k sec : dget (VStr "-keys") d = Some (VDict k sec) ->
  exists sec', dget (VStr "-keys") (caller_after E n g lo tk order d) = Some (VDict k sec') /\ (forall kx, In kx sec' -> In kx sec).
Proof.
  intros Hg. unfold caller_after. rewrite Hg. destruct sec as [|s0 sec]; [exists []; split; [exact Hg|auto]|].
  rewrite dget_dset_str_same. eexists. split; [reflexivity|]. intros [h x]. apply unpack_subset.
Qed.
Lemma untouched n lo tk order d : (forall k sec, dget (VStr "-keys") d = Some (VDict k sec) -> sec = []) ->
  caller_after E n g lo tk order d = d.
Proof.
  intros H. unfold caller_after. destruct (dget (VStr "-keys") d) as [[| | | | | | | |k sec| | | |]|]; try reflexivity.
  now rewrite (H k sec eq_refl).
Qed.
Lemma deser_go_parts ld ok ov gt tk t d : forall acc r,
  snd (deser_dict_go E ld g ok ov gt (Some tk) (Some t) d acc) = Done r -> forall name x, In (name, x) d ->
  exists k1 k2 x2, gt name = Ok k1 /\ snd (ld g ok (Some tk) k1) = Done k2 /\ snd (ld g ov (Some t) x) = Done x2.
Proof.
  induction d as [|[k y] d IH]; intros acc r H name x Hin; [destruct Hin|]. cbn [deser_dict_go] in H.
  apply bind_done in H as (k1 & H1 & H). apply bind_done in H as (k2 & H2 & H). apply bind_done in H as (y2 & H3 & H).
  destruct (hashable (e_ct E) k2); [|discriminate]. apply lift_done in H1.
  destruct Hin as [Heq|Hin]; [injection Heq as <- <-; eauto 6|]. eapply IH; eauto.
Qed.
(** Once the section is empty, each name is loaded as a key, '-keys' included. *)
Lemma second_load n lo b h tk t d k v2 : lo_kt lo = None -> ~ In (VStr "-meta") (keys d) -> h = HDict \/ h = HMapping \/ h = HOrderedDict ->
  dget (VStr "-keys") d = Some (VDict k []) ->
  snd (load E (S n) g lo (Some (TApp b h [tk; t])) (VDict DkDict d)) = Done v2 ->
  forall name x, In (name, x) d -> exists k2 x2 lok lov,
    snd (load E n g lok (Some tk) name) = Done k2 /\ snd (load E n g lov (Some t) x) = Done x2.
Proof.
  intros He Hm Hh Hg H name x Hin. destruct (mapping_done n lo b h tk t d v2 Hm Hh H) as (d' & _ & H').
  unfold deser_dict, load_hashed_keys in H'. rewrite Hg in H'. cbn [py_iter lift map] in H'. rewrite !bind_ret_l in H'. cbn [fst snd] in H'.
  replace (lo_kt (child_opts lo)) with (@None (value -> res value)) in H' by (symmetry; exact He).
  destruct (deser_go_parts _ _ _ _ _ _ _ _ _ H' name x Hin) as (k1 & k2 & x2 & Hk1 & Hk2 & Hx2). injection Hk1 as <-. eauto 6.
Qed.
Lemma dget_In' k d x : dget (VStr k) d = Some x -> In (VStr k, x) d.
Proof.
  unfold dget. induction d as [|[k2 y] d IH]; cbn [aget]; [discriminate|]. destruct (py_eqb (VStr k) k2) eqn:He.
  - apply py_eqb_str in He. subst. injection 1 as <-. now left.
  - intros H. right. auto.
Qed.
Lemma after_no_meta n lo tk order d : ~ In (VStr "-meta") (keys d) -> ~ In (VStr "-meta") (keys (caller_after E n g lo tk order d)).
Proof.
  intros H Hin. apply in_map_iff in Hin as ([k x] & Hk & Hin). cbn in Hk. subst k.
  apply others_kept in Hin; [|discriminate]. apply H. now apply (in_map fst) in Hin.
Qed.
Lemma twice n lo b h tk t d k sec v : lo_kt lo = None -> ~ In (VStr "-meta") (keys d) -> h = HDict \/ h = HMapping \/ h = HOrderedDict ->
  dget (VStr "-keys") d = Some (VDict k sec) -> distinct (keys sec) ->
  snd (load E (S n) g lo (Some (TApp b h [tk; t])) (VDict DkDict d)) = Done v ->
  forall n' lo' v2, lo_kt lo' = None ->
  snd (load E (S n') g lo' (Some (TApp b h [tk; t])) (VDict DkDict (caller_after E n g (child_opts lo) tk (keys sec) d))) = Done v2 ->
  (exists k2 lok, snd (load E n' g lok (Some tk) (VStr "-keys")) = Done k2) /\
  (forall name x, name <> VStr "-keys" -> In (name, x) d -> exists k2 lok, snd (load E n' g lok (Some tk) name) = Done k2).
Proof.
  intros Hkt Hm Hh Hg Hd H n' lo' v2 Hkt' H2.
  pose proof (emptied n lo b h tk t d k sec v Hm Hh Hg Hd H) as He.
  pose proof (second_load n' lo' b h tk t _ k v2 Hkt' (after_no_meta n _ tk (keys sec) d Hm) Hh He H2) as HA. split.
  - destruct (HA (VStr "-keys") (VDict k [])) as (k2 & x2 & lok & lov & Hk2 & _); [now apply dget_In'|eauto].
  - intros name x Hn Hin. destruct (HA name x) as (k2 & x2 & lok & lov & Hk2 & _); [now apply others_kept|eauto].
Qed.
End Load.
