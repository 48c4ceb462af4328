(** * Loaded values conform to the type that they are loaded with *)
From Coq Require Import Lia.
From Verif Require Import PyBaseFacts DumpProofs LoadFacts LoadLaws LoadObject LoadTypes LoadMeta ConformSpec.
Local Open Scope string_scope.

Lemma pi_no_meta j : plain_input j -> no_meta_entry j.
Proof.
  intros H k d x -> Hin. inversion H as [| | | | | | |d' H1 H2]; subst. rewrite Forall_forall in H1.
  apply H1 in Hin as (s & Hs & Hm & _). cbn [fst] in Hs. injection Hs as <-. congruence.
Qed.
Lemma pi_iter R j l : plain_input j -> py_iter R j = Ok l -> Forall plain_input l.
Proof.
  intros H Hi. inversion H; subst; cbn [py_iter] in Hi; try discriminate; injection Hi as <-.
  - unfold str_chars. apply Forall_forall. intros x Hx. apply in_map_iff in Hx as (c & <- & _). constructor.
  - assumption.
  - assumption.
  - apply Forall_forall. intros x Hx. apply in_map_iff in Hx as ([k y] & <- & Hin). rewrite Forall_forall in H0.
    apply H0 in Hin as (s & -> & _). constructor.
Qed.
Lemma pi_items d x : plain_input (VDict DkDict d) -> In x (map snd d) -> plain_input x.
Proof.
  intros H Hin. inversion H as [| | | | | | |d' H1 H2]; subst. apply in_map_iff in Hin as ([k y] & <- & Hin).
  rewrite Forall_forall in H2. exact (H2 _ Hin).
Qed.
Lemma dset_values k x d y : In y (map snd (dset k x d)) -> y = x \/ In y (map snd d).
Proof.
  intros H. apply in_map_iff in H as ([k' y'] & <- & H). apply aset_In in H as [H|[H _]].
  - right. apply in_map_iff. now exists (k', y').
  - now left.
Qed.
Lemma transform_values CT g d : forall acc d', transform_keys CT g d acc = Ok d' ->
  forall y, In y (map snd d') -> In y (map snd d) \/ In y (map snd acc).
Proof.
  induction d as [|[k x] d IH]; intros acc d' H y Hy; cbn [transform_keys] in H.
  - injection H as <-. now right.
  - destruct (g k) as [k'|]; [|discriminate]. cbn [rbind] in H. destruct (hashable CT k'); [|discriminate].
    apply (IH _ _ H) in Hy as [Hy|Hy]; [left; now right|]. apply dset_values in Hy as [->|Hy]; [left; now left|now right].
Qed.
Lemma dget_values k d x : dget k d = Some x -> In x (map snd d).
Proof.
  unfold dget. induction d as [|[k' y] d IH]; [discriminate|]. cbn [aget map snd].
  destruct (py_eqb k k'); [intros H; injection H as ->; now left|]. intros H. right. now apply IH.
Qed.
Lemma dedup_In l : forall acc x, In x (dedup l acc) -> In x l \/ In x acc.
Proof.
  induction l as [|a l IH]; intros acc x H; cbn [dedup] in H.
  - right. now apply in_rev.
  - destruct (existsb (py_eqb a) acc).
    + apply IH in H as [H|H]; [left; now right|now right].
    + apply IH in H as [H|[->|H]]; [left; now right|left; now left|now right].
Qed.

Definition good (o : lopts) : Prop := no_hints o /\ lo_getters o = [] /\ string_keys o.
Lemma good_nested o : good o -> good (nested_opts o).
Proof. intros (H1 & H2 & H3). split; [now right|]. split; [exact H2|exact H3]. Qed.
Lemma good_attr o : good o -> good (attr_opts o).
Proof. intros (H1 & H2 & H3). split; [now right|]. split; [reflexivity|exact H3]. Qed.
Lemma good_elem o b : good o -> good (elem_opts o b).
Proof. intros (H1 & H2 & H3). split; [now right|]. split; [exact H2|exact H3]. Qed.
Lemma good_kt_none o : good o -> good (set_kt None o).
Proof. intros (H1 & H2 & H3). split; [exact H1|]. split; [exact H2|]. intros g s k H. discriminate. Qed.
Lemma good_kt_some o : good o ->
  good (set_kt (Some (match lo_kt o with Some g => g | None => fun k => Ok k end)) o).
Proof.
  intros (H1 & H2 & H3). split; [exact H1|]. split; [exact H2|]. intros g s k Hg Hk. cbn [lo_kt set_kt] in Hg.
  injection Hg as <-. destruct (lo_kt o) as [g|] eqn:Eg; [exact (H3 g s k Eg Hk)|]. injection Hk as <-. eauto.
Qed.
Lemma kt_string o s k : good o ->
  (match lo_kt o with Some g => g | None => fun k => Ok k end) (VStr s) = Ok k -> exists s', k = VStr s'.
Proof.
  intros (_ & _ & H3) H. destruct (lo_kt o) as [g|] eqn:Eg; [exact (H3 g s k Eg H)|]. injection H as <-. eauto.
Qed.

Section Step.
Variables (E : env) (f n : nat).
Hypothesis HD : default_deserializers E f.
Hypothesis HC : plain_classes (e_ct E).
Hypothesis IH : forall o t j v, good o -> plain_input j -> snd (load E n f o (Some t) j) = Done v -> conforms E f t v.

Lemma list_go_conforms o w t l : good o -> Forall plain_input l -> forall i ys,
  snd (deser_list_go E (load E n) f o w (Some t) i l) = Done ys -> Forall (conforms E f t) ys.
Proof.
  intros Ho Hl. induction l as [|x l IHl]; intros i ys H; cbn [deser_list_go] in H.
  - injection H as <-. constructor.
  - inversion Hl as [|? ? Hx Hl']; subst. specialize (IHl Hl').
    destruct (snd (load E n f o (Some t) x)) as [y|e|] eqn:Ex.
    + apply bind_done in H as (u & _ & H). apply bind_done in H as (ys' & Hys & H). injection H as <-.
      constructor; [now apply (IH o _ x)|now apply (IHl (S i))].
    + destruct (is_deser (e_kind e)); [|discriminate]. destruct w; [|discriminate].
      apply bind_done in H as (u & _ & H). apply bind_done in H as (u' & _ & H). now apply (IHl (S i)).
    + discriminate.
Qed.
Lemma list_conforms o args j ys : good o -> plain_input j ->
  snd (deser_list E (load E n) f o args j) = Done ys -> forall t r, args = t :: r -> Forall (conforms E f t) ys.
Proof.
  intros Ho Hj H t r ->. unfold deser_list in H. apply bind_done in H as (l & Hl & H). apply lift_done in Hl.
  cbn [hd_error] in H. eapply list_go_conforms; [|eapply pi_iter; eassumption|exact H].
  destruct Ho as (H1 & H2 & H3). split; [exact H1|]. split; [exact H2|exact H3].
Qed.
Lemma tuple_go_conforms o l : good o -> Forall plain_input l -> forall ts ys,
  snd (deser_tuple_go (load E n) f o l ts) = Done ys ->
  length ys <= length ts /\ Forall (fun tx => conforms E f (fst tx) (snd tx)) (combine ts ys).
Proof.
  intros Ho Hl ts ys H. apply tuple_go_done in H as [H1 H2].
  revert ts ys H1 H2. induction l as [|x l IHl]; intros ts ys H1 H2.
  - inversion H2; subst. split; [cbn [length]; lia|]. destruct ts; constructor.
  - inversion Hl as [|? ? Hx Hl']; subst. destruct ts as [|t ts]; [cbn in H1; lia|]. cbn [combine] in H2.
    inversion H2 as [|? y ? ys' Hy Hys]; subst. cbn [fst snd] in Hy.
    destruct (IHl Hl' ts ys') as [G1 G2]; [cbn [length] in H1; lia|exact Hys|].
    split; [cbn [length]; lia|]. cbn [combine]. constructor; [|exact G2]. now apply (IH o _ x).
Qed.
Lemma tuple_go_length o l : forall ts ys, snd (deser_tuple_go (load E n) f o l ts) = Done ys -> length ys = length l.
Proof.
  intros ts ys H. apply tuple_go_done in H as [H1 H2]. apply Forall2_len in H2. rewrite combine_length in H2. lia.
Qed.
Lemma combine_repeat_r (t : ty) (ys : list value) : Forall (fun tx => conforms E f (fst tx) (snd tx)) (combine (repeat t (length ys)) ys) ->
  Forall (conforms E f t) ys.
Proof.
  induction ys as [|y ys IHy]; cbn [length repeat combine]; intros H; constructor; inversion H; subst; auto.
Qed.
Lemma dict_go_conforms ok ov g tk tv d : good ok -> good ov ->
  (forall s k, g (VStr s) = Ok k -> exists s', k = VStr s') ->
  (forall k x, In (k, x) d -> exists s, k = VStr s) -> (forall x, In x (map snd d) -> plain_input x) ->
  forall acc r, Forall (fun kx => conforms E f tk (fst kx)) acc -> Forall (fun kx => conforms E f tv (snd kx)) acc ->
  snd (deser_dict_go E (load E n) f ok ov g (Some tk) (Some tv) d acc) = Done r ->
  Forall (fun kx => conforms E f tk (fst kx)) r /\ Forall (fun kx => conforms E f tv (snd kx)) r.
Proof.
  intros Hok Hov Hg. induction d as [|[k x] d IHd]; intros Hk Hx acc r H1 H2 H; cbn [deser_dict_go] in H.
  - injection H as <-. auto.
  - apply bind_done in H as (k1 & Hk1 & H). apply lift_done in Hk1.
    apply bind_done in H as (k2 & Hk2 & H). apply bind_done in H as (y & Hy & H).
    destruct (hashable (e_ct E) k2); [|discriminate].
    assert (Hck : conforms E f tk k2).
    { apply (IH ok _ k1); [exact Hok| |exact Hk2]. destruct (Hk k x) as [s ->]; [now left|].
      apply Hg in Hk1 as [s' ->]. constructor. }
    assert (Hcx : conforms E f tv y) by (apply (IH ov _ x); [exact Hov|apply Hx; now left|exact Hy]).
    apply IHd in H; [exact H| | | |].
    + intros; eapply Hk; right; eassumption.
    + intros; apply Hx; now right.
    + rewrite Forall_forall in *. intros [a b] Hin. apply aset_In in Hin as [Hin|[_ [->|[z Ha]]]]; cbn [fst].
      * exact (H1 _ Hin).
      * exact Hck.
      * exact (H1 _ Ha).
    + rewrite Forall_forall in *. intros [a b] Hin. apply aset_In in Hin as [Hin|[-> _]]; cbn [snd].
      * exact (H2 _ Hin).
      * exact Hcx.
Qed.
Lemma no_hashed o args d r : plain_input (VDict DkDict d) ->
  snd (load_hashed_keys E (load E n) f o args d) = Done r -> r = (d, false).
Proof.
  intros Hd H. unfold load_hashed_keys in H. destruct (dget (VStr "-keys") d) as [x|] eqn:Ek.
  - exfalso. apply dget_In in Ek. inversion Hd as [| | | | | | |d' H1 H2]; subst. rewrite Forall_forall in H1.
    apply H1 in Ek as (s & Hs & _ & Hn). cbn [fst] in Hs. injection Hs as <-. congruence.
  - now injection H as <-.
Qed.
Lemma dict_conforms o args j r : good o -> plain_input j ->
  snd (deser_dict E (load E n) f o args j) = Done r ->
  forall tk tv, args = [tk; tv] ->
  Forall (fun kx => conforms E f tk (fst kx)) r /\ Forall (fun kx => conforms E f tv (snd kx)) r.
Proof.
  intros Ho Hj H tk tv ->. unfold deser_dict in H. destruct j as [| | | | | | | |k d| | | |]; try discriminate.
  assert (k = DkDict) as -> by (inversion Hj; reflexivity).
  apply bind_done in H as (dh & Hdh & H). apply (no_hashed _ _ _ _ Hj) in Hdh as ->. cbn [fst snd] in H.
  eapply dict_go_conforms; [| | | | | | |exact H].
  - now apply good_kt_none.
  - now apply good_kt_some.
  - intros s k' Hk. now apply (kt_string o s).
  - intros k x Hin. inversion Hj as [| | | | | | |d' H1 H2]; subst. rewrite Forall_forall in H1.
    apply H1 in Hin as (s & Hs & _). now exists s.
  - intros x Hx. now apply (pi_items d).
  - constructor.
  - constructor.
Qed.
Lemma mapping_conforms o b h ts j v : good o -> plain_input j -> head_handler h = DMapping ->
  snd (deser_mapping E (load E n) f o (TApp b h ts) j) = Done v -> accepts E f (TApp b h ts) v ->
  conforms E f (TApp b h ts) v.
Proof.
  intros Ho Hj Hh H Ha. unfold deser_mapping in H. apply bind_done in H as (args & Hargs & H). apply lift_done in Hargs.
  apply bind_done in H as (d & Hd & H).
  assert (Hc : forall tk tv, ts = [tk; tv] ->
     Forall (fun kx => conforms E f tk (fst kx)) d /\ Forall (fun kx => conforms E f tv (snd kx)) d).
  { intros tk tv ->. cbn in Hargs. injection Hargs as <-. now apply (dict_conforms o [tk; tv] j). }
  destruct h; try discriminate; injection H as <-; (eapply cf_mapping; [constructor|exact Hc|exact Ha]).
Qed.
Lemma defaultdict_conforms o b ts j v : good o -> plain_input j ->
  snd (deser_defaultdict (load E n) f o (TApp b HDefaultDict ts) j) = Done v ->
  accepts E f (TApp b HDefaultDict ts) v -> conforms E f (TApp b HDefaultDict ts) v.
Proof.
  intros Ho Hj H Ha. unfold deser_defaultdict in H. apply bind_done in H as (t' & Ht & H). apply lift_done in Ht.
  apply bind_done in H as (r & Hr & H). destruct r as [| | | | | | | |k d| | | |]; try discriminate. injection H as <-.
  apply (cf_mapping E f b HDefaultDict ts d); [constructor| |exact Ha]. intros tk tv ->.
  cbn in Ht. injection Ht as <-. apply IH in Hr; [|assumption..].
  inversion Hr as [| | | | | |b' h ts' d' v' Hm Hc Ha'| | | | | | |]; subst.
  - match goal with H : sequence_of _ _ _ |- _ => inversion H end.
  - inversion Hm; subst. now apply Hc.
  - match goal with H : outside _ |- _ => destruct H end.
Qed.
Lemma iterable_conforms o b h ts j v : good o -> plain_input j -> head_handler h = DIterable ->
  snd (deser_iterable E (load E n) f o (TApp b h ts) j) = Done v -> accepts E f (TApp b h ts) v ->
  conforms E f (TApp b h ts) v.
Proof.
  intros Ho Hj Hh H Ha. unfold deser_iterable in H. apply bind_done in H as (args & Hargs & H). apply lift_done in Hargs.
  apply bind_done in H as (l & Hl & H).
  assert (Hc : forall t r, ts = t :: r -> Forall (conforms E f t) l).
  { intros t r ->. cbn [raw_args] in Hargs. destruct r; [|discriminate]. injection Hargs as <-.
    now apply (list_conforms o [t] j l Ho Hj Hl t []). }
  assert (Hd : forall t r, ts = t :: r -> Forall (conforms E f t) (dedup l [])).
  { intros t r Hts. apply Forall_forall. intros x Hx. apply dedup_In in Hx as [Hx|[]].
    specialize (Hc t r Hts). rewrite Forall_forall in Hc. now apply Hc. }
  destruct h; try discriminate;
    try (destruct (forallb (hashable (e_ct E)) l); [|discriminate]); injection H as <-;
    (eapply cf_sequence; [constructor|eassumption|exact Ha]).
Qed.
Lemma tuple_conforms o b ts j v : good o -> plain_input j ->
  snd (deser_tuple E (load E n) f o (TApp b HTuple ts) j) = Done v -> accepts E f (TApp b HTuple ts) v ->
  conforms E f (TApp b HTuple ts) v.
Proof.
  intros Ho Hj H Ha. unfold deser_tuple in H. cbv zeta in H.
  apply bind_done in H as (l & Hl & H). apply lift_done in Hl. apply (pi_iter _ _ _ Hj) in Hl.
  assert (Hg : get_args (Some (TApp b HTuple ts)) = ts) by (now destruct ts). rewrite Hg in H.
  destruct ts as [|t0 ts].
  - apply bind_done in H as (vs & _ & H). injection H as <-. apply cf_tuple; [congruence|discriminate|exact Ha].
  - apply bind_done in H as (vs & Hvs & H). injection H as <-.
    pose proof (tuple_go_length _ _ _ _ Hvs) as Hlen.
    apply tuple_go_conforms in Hvs as [H1 H2]; [|now apply good_kt_none|exact Hl].
    apply cf_tuple; [| |exact Ha].
    + intros _ He. assert (ty_eqb TEllipsis (last (t0 :: ts) TAny) = false) as Hf by (apply ty_eqb_neq; congruence).
      rewrite Hf in H1, H2. auto.
    + intros t r Hts He. injection Hts as <- <-.
      assert (ty_eqb TEllipsis (last (t0 :: ts) TAny) = true) as Hf by (apply ty_eqb_eq; congruence).
      rewrite Hf in H2. rewrite <- Hlen in H2. now apply combine_repeat_r.
Qed.
Lemma enum_conforms u c m ms j v : ci_kind (e_ct E c) = CkEnum m ms ->
  deser_enum (e_ct E) u (TClass c) j = Ok v -> accepts E f (TClass c) v -> conforms E f (TClass c) v.
Proof.
  intros Hk H Ha.
  assert (G : exists a, v = VEnum c a /\ In a (map fst ms)).
  { assert (Hc : forall x a, canonical (enum_members (e_ct E) c) x = Some a -> In a (map fst ms)).
    { intros x a Hx. unfold canonical, enum_members in Hx. rewrite Hk in Hx.
      destruct (find (fun nv => py_eqb (snd nv) x) ms) as [[a' y]|] eqn:Ef; [|discriminate].
      injection Hx as <-. apply find_some in Ef as [Ef _]. now apply (in_map fst) in Ef. }
    assert (H1 : forall r, enum_by_name (e_ct E) c j = Ok r -> exists a, r = VEnum c a /\ In a (map fst ms)).
    { intros r Hr. unfold enum_by_name in Hr. destruct (negb (hashable (e_ct E) j)); [discriminate|].
      destruct j; try discriminate. destruct (sget s (enum_members (e_ct E) c)) as [x|]; [|discriminate].
      destruct (canonical (enum_members (e_ct E) c) x) eqn:Ec; [|discriminate]. injection Hr as <-. eauto. }
    assert (H2 : forall r, enum_by_value (e_ct E) c j = Ok r -> exists a, r = VEnum c a /\ In a (map fst ms)).
    { intros r Hr. unfold enum_by_value in Hr. destruct (canonical (enum_members (e_ct E) c) j) eqn:Ec; [|discriminate].
      injection Hr as <-. eauto. }
    cbn [deser_enum] in H. destruct u as [[]|]; [now apply H1|now apply H2|].
    destruct (enum_by_name (e_ct E) c j) as [r|e] eqn:Er; [apply H1; congruence|].
    destruct (is_keyerror (e_kind e)); [now apply H2|discriminate]. }
  destruct G as (a & -> & Hin). now apply cf_enum with m ms.
Qed.
Lemma nt_go_conforms o j d len : good o -> plain_input j ->
  (forall d', d = Some d' -> forall x, In x (map snd d') -> plain_input x) ->
  forall fields i ys, (forall fd x, In fd fields -> nf_default fd = Some x -> plain_input x) ->
  snd (deser_nt_go E (load E n) f o j d len i fields) = Done ys ->
  Forall2 (fun fd y => forall t, nf_hint fd = Some t -> conforms E f t y) fields ys.
Proof.
  intros Ho Hj Hd. induction fields as [|fd fields IHf]; intros i ys Hdf H; cbn [deser_nt_go] in H.
  - injection H as <-. constructor.
  - apply bind_done in H as (x & Hx & H). apply lift_done in Hx. apply bind_done in H as (u & _ & H).
    apply bind_done in H as (y & Hy & H). apply bind_done in H as (ys' & Hys & H). injection H as <-.
    constructor; [|apply (IHf (S i)); [intros; eapply Hdf; [right|]; eassumption|exact Hys]].
    intros t Ht. rewrite Ht in Hy. apply (IH o t x); [exact Ho| |exact Hy].
    destruct (Nat.ltb i len).
    + destruct d as [d'|].
      * destruct (dget (VStr (nf_name fd)) d') eqn:Eg; [|discriminate]. injection Hx as ->.
        apply dget_values in Eg. now apply (Hd d').
      * assert (Hl : forall l, Forall plain_input l ->
                 py_getitem (e_ct E) (VList l) (VInt (Z.of_nat i)) = Ok x -> plain_input x).
        { intros l Hf Hg. cbn [py_getitem] in Hg.
          match type of Hg with (if ?b then _ else _) = _ => destruct b; [|discriminate] end.
          match type of Hg with match nth_error ?l ?k with _ => _ end = _ => destruct (nth_error l k) as [z|] eqn:En; [|discriminate] end.
          injection Hg as ->. apply nth_error_In in En. rewrite Forall_forall in Hf. now apply Hf. }
        inversion Hj; subst; try discriminate.
        -- cbn [py_getitem] in Hx. destruct (Z.of_nat i <? 0)%Z; 
           match type of Hx with (if ?b then _ else _) = _ => destruct b; [|discriminate] end;
           match type of Hx with match nth_error ?l ?k with _ => _ end = _ => destruct (nth_error l k) as [z|] eqn:En; [|discriminate] end;
           injection Hx as ->; apply nth_error_In, in_map_iff in En as (ch & <- & _); constructor.
        -- now apply (Hl l).
        -- now apply (Hl l).
        -- cbn [py_getitem hashable] in Hx.
           match type of Hx with match ?m with _ => _ end = _ => destruct m as [z|] eqn:Eg; [|discriminate] end.
           injection Hx as ->. apply dget_values in Eg. now apply (pi_items d).
    + injection Hx as <-. destruct (nf_default fd) eqn:Ed; [|constructor]. eapply Hdf; [now left|exact Ed].
Qed.
Lemma namedtuple_conforms o c fields j v : good o -> plain_input j -> ci_kind (e_ct E c) = CkNT fields ->
  snd (deser_tuple E (load E n) f o (TClass c) j) = Done v -> accepts E f (TClass c) v -> conforms E f (TClass c) v.
Proof.
  intros Ho Hj Hk H Ha. unfold deser_tuple in H. cbv zeta in H. rewrite Hk in H. unfold deser_namedtuple in H.
  apply bind_done in H as (d & Hd & H). apply bind_done in H as (l & _ & H). apply bind_done in H as (vs & Hvs & H).
  injection H as <-. unfold nt_fields in Hvs. rewrite Hk in Hvs.
  apply cf_namedtuple with fields; [exact Hk| |exact Ha].
  eapply nt_go_conforms; [exact Ho|exact Hj| | |exact Hvs].
  - intros d' -> x Hx. destruct j as [| | | | | | | |k d0| | | |]; try discriminate.
    assert (k = DkDict) as -> by (inversion Hj; reflexivity).
    apply bind_done in Hd as (d1 & Hd1 & Hd). injection Hd as ->. apply lift_done in Hd1.
    apply (transform_values _ _ _ _ _ Hd1) in Hx as [Hx|[]]. now apply (pi_items d0).
  - intros fd x Hin Hdf. destruct (HC c) as (_ & _ & H3). now apply (H3 fields fd).
Qed.
Lemma args_values o d ps args : good o -> (forall x, In x (map snd d) -> plain_input x) ->
  snd (constructor_args E (load E n) f o [] d [] ps) = Done args ->
  forall a y, In (a, y) args -> exists p, In p ps /\ pa_name p = a /\
    ((forall t, pa_hint p = Some t -> conforms E f t y) \/ pa_default p = Some y \/ (y = VNone /\ may_be_none (pa_hint p))).
Proof.
  intros Ho Hd. revert args. induction ps as [|p ps IHp]; intros args H a y Hin; cbn [constructor_args] in H.
  - injection H as <-. destruct Hin.
  - apply bind_done in H as (x & Hx & H). apply bind_done in H as (rest & Hrest & H). injection H as <-.
    assert (G : In (a, y) rest \/ (x = Some y /\ a = pa_name p)).
    { destruct x as [z|]; [|now left]. destruct Hin as [Hin|Hin]; [right|now left]. injection Hin as <- <-. auto. }
    destruct G as [G|[-> ->]].
    + destruct (IHp _ Hrest _ _ G) as (q & Hq & Hn & Hc). exists q. split; [now right|auto].
    + exists p. split; [now left|]. split; [reflexivity|]. unfold value_for_attr in Hx. cbn [sget aget] in Hx.
      destruct (dget (VStr (pa_name p)) d) as [z|] eqn:Eg.
      * apply bind_done in Hx as (y' & Hy & Hx). injection Hx as ->. left. intros t Ht.
        unfold value_from_obj in Hy. change (dget (VStr ("/" ++ pa_name p)) []) with (@None value) in Hy.
        cbn [lift] in Hy. rewrite bind_ret_l in Hy. cbn [fst snd determine_precedence] in Hy. rewrite Ht in Hy.
        apply (IH (set_hints (Some []) o) t z); [|apply Hd; now apply dget_values in Eg|exact Hy].
        destruct Ho as (H1 & H2 & H3). split; [now right|]. split; [exact H2|exact H3].
      * change (sget (pa_name p) []) with (@None (res value)) in Hx. destruct (pa_default p) as [z|] eqn:Ed.
        -- injection Hx as ->. auto.
        -- destruct (pa_var p); [discriminate|]. apply bind_done in Hx as (b & Hb & Hx). apply lift_done in Hb.
           destruct b; [|discriminate]. injection Hx as <-. right; right. split; [reflexivity|]. now apply can_match_cases in Hb.
Qed.
Lemma args_cover o d ps args p : pa_var p = false ->
  snd (constructor_args E (load E n) f o [] d [] ps) = Done args -> In p ps -> exists y, In (pa_name p, y) args.
Proof.
  intros Hv. revert args. induction ps as [|q ps IHp]; intros args H Hin; [destruct Hin|]. cbn [constructor_args] in H.
  apply bind_done in H as (x & Hx & H). apply bind_done in H as (rest & Hrest & H). injection H as <-.
  destruct Hin as [->|Hin].
  - unfold value_for_attr in Hx. destruct (dget (VStr (pa_name p)) d) as [z|].
    + apply bind_done in Hx as (y' & Hy & Hx). injection Hx as <-. exists y'. now left.
    + change (sget (pa_name p) []) with (@None (res value)) in Hx. destruct (pa_default p) as [z|].
      * injection Hx as <-. exists z. now left.
      * rewrite Hv in Hx. apply bind_done in Hx as (b & _ & Hx). destruct b; [|discriminate].
        injection Hx as <-. exists VNone. now left.
  - destruct (IHp _ Hrest Hin) as [y Hy]. exists y. destruct x; [now right|exact Hy].
Qed.
Lemma object_conforms o c j v : good o -> plain_input j -> ci_kind (e_ct E c) = CkObj ->
  snd (deser_object E (load E n) f (nested_opts o) (TClass c) j) = Done v -> accepts E f (TClass c) v ->
  conforms E f (TClass c) v.
Proof.
  intros Ho Hj Hk H Ha. unfold deser_object in H. cbn [cid_of] in H. cbv zeta in H.
  apply bind_done in H as (d0 & Hd0 & H). apply lift_done in Hd0.
  assert (Hp0 : forall x, In x (map snd d0) -> plain_input x).
  { destruct j as [| | | |s|l|l| |k d| | | |]; try discriminate.
    - destruct s; [|discriminate]. injection Hd0 as <-. intros x [].
    - destruct l; [|discriminate]. injection Hd0 as <-. intros x [].
    - destruct l; [|discriminate]. injection Hd0 as <-. intros x [].
    - destruct l; [|discriminate]. injection Hd0 as <-. intros x [].
    - injection Hd0 as <-. assert (k = DkDict) as -> by (inversion Hj; reflexivity). intros x Hx. now apply (pi_items d).
    - destruct l; [|discriminate]. injection Hd0 as <-. intros x []. }
  apply bind_done in H as (d & Hd & H). apply lift_done in Hd.
  assert (Hp : forall x, In x (map snd d) -> plain_input x).
  { intros x Hx. change (lo_kt (nested_opts o)) with (lo_kt o) in Hd. destruct (lo_kt o).
    - apply (transform_values _ _ _ _ _ Hd) in Hx as [Hx|[]]. now apply Hp0.
    - injection Hd as <-. now apply Hp0. }
  change (match lo_hints (nested_opts o) with Some h => h | None => [] end) with (@nil (value * value)) in H.
  change (lo_getters (nested_opts o)) with (lo_getters o) in H.
  pose proof Ho as (_ & Hg & _). rewrite Hg in H.
  apply bind_done in H as (args & Hargs & H). apply bind_done in H as (rest & Hrest & H).
  apply lift_done, remaining_done in Hrest as [Hrest _].
  apply bind_done in H as ([] & _ & H). apply bind_done in H as (at0 & H0 & H). apply lift_done in H0.
  apply bind_done in H as (at1 & Hs1 & H). cbn [set_getter_attrs] in H. rewrite bind_ret_l in H. injection H as <-.
  apply cf_object; [exact Hk| |exact Ha]. intros (T1 & T2 & T3) p t y Hin Hv Ht Hy.
  destruct (args_cover _ _ _ _ _ Hv Hargs Hin) as [y' Hy'].
  pose proof (constructor_args_NoDup _ _ _ _ _ _ _ _ _ T3 Hargs) as Hnd.
  assert (Hst : sget (pa_name p) at0 = Some y') by (now apply (T1 args)).
  rewrite (set_remaining_keep _ _ _ _ _ (pa_name p) T2 _ _ _ Hs1) in Hy.
  2:{ intros z Hz. apply (extras_In _ _ _ Hrest) in Hz as [_ [_ Hz]]. now apply (Hz (pa_name p) y'). }
  assert (y' = y) as -> by congruence.
  destruct (args_values _ _ _ _ (good_attr _ Ho) Hp Hargs _ _ Hy') as (q & Hq & Hn & Hc).
  assert (q = p) as ->.
  { clear -T3 Hq Hn Hin. induction (ci_params (e_ct E c)) as [|r ps IHr]; [destruct Hin|].
    cbn [map] in T3. inversion T3 as [|? ? Hr T3']; subst. destruct Hq as [->|Hq], Hin as [->|Hin]; try reflexivity.
    - exfalso. apply Hr. rewrite Hn. now apply in_map.
    - exfalso. apply Hr. rewrite <- Hn. now apply in_map.
    - now apply IHr. }
  rewrite Ht in Hc. destruct Hc as [Hc|Hc]; [left; now apply Hc|now right].
Qed.
Lemma leaf_conforms o k j v : snd (deser_step E (load E n) f o (leaf_handler k) (TLeaf k) j) = Done v ->
  accepts E f (TLeaf k) v -> conforms E f (TLeaf k) v.
Proof.
  intros H Ha.
  assert (G : exists x, v = VLeaf x /\ leaf_kind x = k).
  { destruct k; cbn [leaf_handler deser_step] in H.
    - destruct j; try discriminate. apply lift_done in H. destruct (load_datetime s); [|discriminate]. injection H as <-. eauto.
    - destruct j; try discriminate. apply lift_done in H. destruct (load_date s); [|discriminate]. injection H as <-. eauto.
    - destruct j; try discriminate. apply lift_done in H. destruct (load_time s); [|discriminate]. injection H as <-. eauto.
    - apply lift_done in H. unfold deser_timedelta in H.
      match type of H with rbind ?m _ = _ => destruct m; [|discriminate] end. injection H as <-. eauto.
    - unfold deser_timezone in H. apply bind_done in H as (a & _ & H). apply bind_done in H as (b & _ & H).
      apply bind_done in H as (c & _ & H). destruct b as [| | | | | | | | |x| | |]; try discriminate.
      destruct x as [| | |us| | | | | |]; try discriminate. destruct c; try discriminate.
      destruct (timezone_ok us); [|discriminate]. injection H as <-. eauto.
    - destruct j; try discriminate. apply lift_done in H. destruct (uuid_parse s); [|discriminate]. injection H as <-. eauto.
    - apply lift_done in H. destruct (rt_decimal (e_rt E) j); [|discriminate]. injection H as <-. eauto.
    - unfold deser_complex in H. apply try_done in H as [H|(e & _ & H)].
      + repeat (apply bind_done in H as (? & _ & H)).
        match type of H with snd (match ?a with _ => _ end) = _ => destruct a; try discriminate end.
        match type of H with snd (match ?a with _ => _ end) = _ => destruct a; try discriminate end.
        injection H as <-. eauto.
      + destruct (is_keyerror (e_kind e) || is_deser (e_kind e)); discriminate.
    - apply lift_done in H. destruct (rt_path (e_rt E) j); [|discriminate]. injection H as <-. eauto.
    - apply bind_done in H as (a & _ & H). apply lift_done in H. destruct (rt_zone (e_rt E) a); [|discriminate].
      injection H as <-. eauto. }
  destruct G as (x & -> & <-). now apply cf_leaf.
Qed.
Lemma prim_conforms o p j v : plain_input j -> j <> VNone ->
  snd (deser_step E (load E n) f (child_opts o) (prim_handler p) (TPrim p) j) = Done v ->
  accepts E f (TPrim p) v -> conforms E f (TPrim p) v.
Proof.
  intros Hj Hn H Ha. destruct p; cbn [prim_handler deser_step] in H.
  1:{ unfold deser_string in H. cbn [ty_eqb prim_eqb] in H. change (lo_inferred (child_opts o)) with false in H.
      cbn [negb andb] in H. apply lift_done in H. destruct (py_str (e_rt E) j) as [s|]; [|discriminate]. injection H as <-.
      now apply cf_prim. }
  all: apply lift_done in H; unfold deser_primitive in H.
  all: assert (G : forall p, (forall v, cast (e_rt E) (TPrim p) j = Ok v -> class_of v = TPrim p) ->
         (dor b <- is_instance (e_ct E) j (TPrim p);
         if b then Ok j
         else match cast (e_rt E) (TPrim p) j with
              | Ok r => Ok r
              | Err e => Err (if is_valueerror (e_kind e) then exn_of KDeser else e)
              end) = Ok v -> class_of v = TPrim p \/ (p = PInt /\ exists b, v = VBool b))
    by (intros q Hq Hv; cbn [is_instance rbind] in Hv;
        destruct (naked_sub (e_ct E) (class_of j) (TPrim q)) eqn:Es;
        [injection Hv as <-; destruct q; inversion Hj; subst; try (vm_compute in Es; discriminate); cbn; eauto
        |left; destruct (cast (e_rt E) (TPrim q) j) as [r|] eqn:Ec; [|discriminate]; injection Hv as <-; now apply Hq]).
  all: match type of H with context [is_instance _ _ (TPrim ?p)] =>
         assert (H' : class_of v = TPrim p \/ (p = PInt /\ exists b, v = VBool b)) end.
  all: try (apply G; [|destruct j; (exact H || congruence)]).
  all: try (intros v' Hv'; cbn [cast] in Hv').
  - destruct (py_to_int (e_rt E) j); [|discriminate]. now injection Hv' as <-.
  - destruct H' as [H'|[_ [b ->]]]; [now apply cf_prim|now apply cf_bool_int].
  - destruct (py_to_float (e_rt E) j); [|discriminate]. now injection Hv' as <-.
  - destruct H' as [H'|[H' _]]; [now apply cf_prim|discriminate].
  - now injection Hv' as <-.
  - destruct H' as [H'|[H' _]]; [now apply cf_prim|discriminate].
Qed.
Lemma given_conforms j t : plain_input j -> class_of j = t -> accepts E f t j -> conforms E f t j.
Proof.
  intros Hj <- Ha. inversion Hj; subst; cbn [class_of] in *;
    try (apply cf_prim; [reflexivity|exact Ha]).
  - now apply cf_none.
  - apply (cf_sequence E f false HList [] l); [constructor|discriminate|exact Ha].
  - apply cf_tuple; [congruence|discriminate|exact Ha].
  - apply (cf_mapping E f false HDict [] d); [constructor|discriminate|exact Ha].
Qed.
Lemma dispatch_conforms o t h j v : good o -> plain_input j -> direct t ->
  may_be_none (Some t) \/ j <> VNone -> default_deser (e_ct E) t = Some h ->
  snd (deser_step E (load E n) f (child_opts o) h t j) = Done v -> accepts E f t v -> conforms E f t v.
Proof.
  intros Ho Hj Hdir Hnn Hh H Ha.
  pose proof Ho as (Hh0 & _ & _). pose proof (child_nested _ Hh0) as Hch. pose proof (good_nested _ Ho) as Hgn.
  destruct t as [p| | | |b hd ts|ts| | | | |k|c|m s t| |s]; try (now apply cf_outside).
  - rewrite deser_prim in Hh. injection Hh as <-. destruct Hnn as [[]|Hnn]. now apply (prim_conforms o p j).
  - rewrite deser_none in Hh. injection Hh as <-. cbn [deser_step] in H. destruct j; try discriminate.
    injection H as <-. now apply cf_none.
  - rewrite deser_head in Hh. injection Hh as <-. rewrite Hch in H. destruct hd; cbn [head_handler deser_step] in H.
    + apply bind_done in H as (l & Hl & H). injection H as <-.
      apply (cf_sequence E f b HList ts l); [constructor| |exact Ha]. intros t r ->.
      apply (list_conforms _ _ _ _ Hgn Hj Hl t r). reflexivity.
    + now apply (tuple_conforms (nested_opts o) b ts j).
    + now apply (mapping_conforms (nested_opts o) b HDict ts j).
    + now apply (iterable_conforms (nested_opts o) b HSet ts j).
    + now apply (iterable_conforms (nested_opts o) b HFrozen ts j).
    + now apply (iterable_conforms (nested_opts o) b HDeque ts j).
    + now apply (defaultdict_conforms (nested_opts o) b ts j).
    + now apply (mapping_conforms (nested_opts o) b HOrderedDict ts j).
    + now apply (mapping_conforms (nested_opts o) b HMapping ts j).
    + now apply (iterable_conforms (nested_opts o) b HIterable ts j).
  - rewrite deser_tunion in Hh. injection Hh as <-. rewrite Hch in H. cbn [deser_step] in H. unfold deser_union in H.
    cbn [raw_args] in H. apply union_go_done in H as (pre & t & post & -> & Ht & _).
    apply cf_union with t; [apply in_or_app; right; now left| |exact Ha]. now apply (IH (nested_opts o) t j).
  - rewrite deser_leaf in Hh. injection Hh as <-. now apply (leaf_conforms (child_opts o) k j).
  - destruct (HC c) as (Hf & Hs & _). rewrite Hch in H. destruct (ci_kind (e_ct E c)) as [|m ms|fields] eqn:Ek.
    + rewrite (deser_plain_class _ _ Hf Ek Hs) in Hh. injection Hh as <-. now apply (object_conforms o c j).
    + rewrite (deser_enum_class _ _ _ _ Hf Ek Hs) in Hh. injection Hh as <-. cbn [deser_step] in H. apply lift_done in H.
      now apply (enum_conforms (lo_enum_name (nested_opts o)) c m ms j).
    + rewrite (deser_nt_class _ _ _ Hf Ek Hs) in Hh. injection Hh as <-. now apply (namedtuple_conforms (nested_opts o) c fields j).
Qed.
Lemma step_conforms o t j v : good o -> plain_input j ->
  snd (load E (S n) f o (Some t) j) = Done v -> conforms E f t v.
Proof.
  intros Ho Hj H. assert (Hdir : direct t \/ t = TAny \/ exists s, t = TFwd s) by (destruct t; cbn; eauto).
  destruct Hdir as [Hdir|[->|[s ->]]].
  - apply load_typed in H as [Hn H]; [|exact Hdir|now apply pi_no_meta].
    destruct (negb (lo_strict o) && ty_eqb (class_of j) t) eqn:Es.
    { destruct H as [-> Ha]. apply andb_true_iff in Es as [_ Es]. apply ty_eqb_eq in Es. now apply given_conforms. }
    destruct H as (Hv & h & Hh & H & Ha). rewrite HD in Hh. apply (dispatch_conforms o t h j); auto.
    destruct j; try (right; discriminate). left. now apply can_match_cases in Hn.
  - apply load_done in H as [_ H]; unfold skips in H; rewrite orb_true_r in H;
    destruct H as [-> H]; apply cf_any; now apply H.
  - apply load_done in H as [Hn H].
    assert (Hs : skips o (Some (TFwd s)) j = false)
      by (unfold skips; cbn [same_type]; rewrite orb_false_r; destruct Hj; apply andb_false_r).
    rewrite Hs in H. rewrite (no_meta_get _ _ _ (pi_no_meta _ Hj)) in H.
    destruct H as (c1 & tm & hints & t' & h & (t & Hr & ->) & Hv & Hm & Hp & Hh & H & Ha). injection Hm as <- <-.
    assert (t' = t) as -> by (destruct (lo_inferred o); cbn in Hp; congruence).
    unfold load_opts in H. rewrite changed_same in H. rewrite HD in Hh.
    apply cf_fwd with t; [exact Hr|exact Ha|]. intros Hdir. apply (dispatch_conforms o t h j); auto.
    right. intros ->. specialize (Hn eq_refl). apply can_match_cases in Hn. exact Hn.
Qed.
End Step.
Theorem load_conforms E f : default_deserializers E f -> plain_classes (e_ct E) ->
  forall n o t j v, no_hints o -> lo_getters o = [] -> string_keys o -> plain_input j ->
  snd (load E n f o (Some t) j) = Done v -> conforms E f t v.
Proof.
  intros HD HC. assert (G : forall n o t j v, good o -> plain_input j ->
    snd (load E n f o (Some t) j) = Done v -> conforms E f t v).
  { induction n as [|n IH]; [discriminate|]. intros o t j v. now apply step_conforms. }
  intros n o t j v H1 H2 H3. apply G. split; [exact H1|]. split; [exact H2|exact H3].
Qed.

(** ** Validators *)
Lemma load_accepted E n f o t j v : direct t \/ t = TAny -> lo_inferred o = false \/ no_meta_entry j ->
  snd (load E n f o (Some t) j) = Done v -> accepts E f t v.
Proof.
  intros Hd Hi H. destruct n as [|n]; [discriminate|]. apply load_done in H as [_ H].
  destruct (skips o (Some t) j) eqn:Es; [destruct H as [_ H]; now apply H|].
  destruct H as (c1 & tm & hints & t' & h & Hr & _ & Hm & Hp & _ & _ & Ha).
  destruct Hd as [Hd| ->]; [|unfold skips in Es; rewrite orb_true_r in Es; discriminate].
  assert (c1 = Some t) as -> by (destruct t; (exact Hr || contradiction)).
  destruct Hi as [Hi|Hi].
  - rewrite Hi in Hp. cbn in Hp. assert (t' = t) as -> by congruence. exact Ha.
  - rewrite (no_meta_get _ _ _ Hi) in Hm. injection Hm as <- <-.
    assert (t' = t) as -> by (destruct (lo_inferred o); cbn in Hp; congruence). exact Ha.
Qed.
Lemma load_accepted_untyped E n f o j v : no_meta_entry j ->
  snd (load E n f o None j) = Done v -> accepts E f (class_of j) v.
Proof.
  intros Hj H. destruct n as [|n]; [discriminate|]. apply (load_untyped _ _ _ _ _ _ Hj) in H. now destruct H as (_ & h & _ & _ & H).
Qed.
Lemma conforms_accepts E f t v : (forall s, t <> TFwd s) -> conforms E f t v -> accepts E f t v.
Proof. intros Ht H. destruct H; try assumption. exfalso. now apply (Ht s). Qed.
Lemma component_conforms E f t v t' v' : component (e_ct E) t v t' v' -> conforms E f t v -> conforms E f t' v'.
Proof.
  intros Hc H. destruct Hc as [b h t r l v x Hs Hin|b h tk tv d v k x Hm Hin|b h tk tv d v k x Hm Hin
    |b ts l i t x Hl Ht Hx|b t r l x Hl Hin|c fields l i fd t x Hk Hf Ht Hx|c attrs p t x Hk Htm Hp Hv Ht Hx Hd Hn].
  - inversion H; subst; try (match goal with H : outside _ |- _ => destruct H end).
    + match goal with H : sequence_of h ?l' v |- _ => assert (l' = l) as -> by (inversion H; subst; inversion Hs; congruence) end.
      match goal with H : forall t r, _ -> Forall _ _ |- _ => specialize (H _ _ eq_refl); rewrite Forall_forall in H; now apply H end.
    + inversion Hs; subst; match goal with H : mapping_of _ _ _ |- _ => inversion H end.
    + inversion Hs.
  - inversion H; subst; try (match goal with H : outside _ |- _ => destruct H end).
    + inversion Hm; subst; match goal with H : sequence_of _ _ _ |- _ => inversion H end.
    + match goal with H : mapping_of h ?l' v |- _ => assert (l' = d) as -> by (inversion H; subst; inversion Hm; congruence) end.
      match goal with H : forall _ _, _ -> Forall _ _ /\ _ |- _ => destruct (H _ _ eq_refl) as [H1 H2] end.
      rewrite Forall_forall in H1. apply (H1 _ Hin).
    + inversion Hm.
  - inversion H; subst; try (match goal with H : outside _ |- _ => destruct H end).
    + inversion Hm; subst; match goal with H : sequence_of _ _ _ |- _ => inversion H end.
    + match goal with H : mapping_of h ?l' v |- _ => assert (l' = d) as -> by (inversion H; subst; inversion Hm; congruence) end.
      match goal with H : forall _ _, _ -> Forall _ _ /\ _ |- _ => destruct (H _ _ eq_refl) as [H1 H2] end.
      rewrite Forall_forall in H2. apply (H2 _ Hin).
    + inversion Hm.
  - inversion H; subst; try (match goal with H : outside _ |- _ => destruct H end).
    + match goal with H : sequence_of _ _ _ |- _ => inversion H end.
    + match goal with H : mapping_of _ _ _ |- _ => inversion H end.
    + assert (ts <> []) as Hts by (intros ->; now destruct i).
      match goal with H : ts <> [] -> _ |- _ => destruct (H Hts Hl) as [_ Hf] end. rewrite Forall_forall in Hf.
      apply (Hf (t, x)). clear -Ht Hx. revert ts l Ht Hx. induction i as [|i IH]; intros [|t0 ts] [|x0 l] Ht Hx; try discriminate; cbn [combine].
      * injection Ht as ->. injection Hx as ->. now left.
      * right. now apply IH.
  - inversion H; subst; try (match goal with H : outside _ |- _ => destruct H end).
    + match goal with H : sequence_of _ _ _ |- _ => inversion H end.
    + match goal with H : mapping_of _ _ _ |- _ => inversion H end.
    + match goal with H : forall t r, _ -> _ -> Forall _ _ |- _ => specialize (H _ _ eq_refl Hl); rewrite Forall_forall in H; now apply H end.
  - inversion H; subst; try (match goal with H : outside _ |- _ => destruct H end).
    match goal with H : Forall2 _ ?fs l |- _ => assert (fs = fields) as -> by congruence; destruct (Forall2_nth _ _ _ H _ _ Hf) as (y & Hy & Hc) end.
    assert (y = x) as -> by congruence. now apply Hc.
  - inversion H; subst; try (match goal with H : outside _ |- _ => destruct H end).
    match goal with H : tame _ -> _ |- _ => destruct (H Htm p t x Hp Hv Ht Hx) as [Hc|[Hc|[Hc _]]] end; [exact Hc|contradiction..].
Qed.
Lemma inside_conforms E f t v t' v' : inside (e_ct E) t v t' v' -> conforms E f t v -> conforms E f t' v'.
Proof. induction 1 as [|t v t1 v1 t2 v2 Hc _ IH]; [auto|]. intros H. apply IH. now apply (component_conforms _ _ _ _ _ _ Hc). Qed.
Lemma load_inside_accepted E f : default_deserializers E f -> plain_classes (e_ct E) ->
  forall n o t j v t' v', no_hints o -> lo_getters o = [] -> string_keys o -> plain_input j ->
  snd (load E n f o (Some t) j) = Done v -> inside (e_ct E) t v t' v' -> (forall s, t' <> TFwd s) -> accepts E f t' v'.
Proof.
  intros HD HC n o t j v t' v' H1 H2 H3 H4 H Hi Hf. apply conforms_accepts; [exact Hf|].
  apply (inside_conforms _ _ _ _ _ _ Hi). now apply (load_conforms E f HD HC n o t j).
Qed.
Lemma load_rejected E n f o t j v : direct t -> no_meta_entry j ->
  (j = VNone -> can_match_none (e_ct E) (Some t) = Ok true) ->
  (if negb (lo_strict o) && ty_eqb (class_of j) t then v = j
   else valid_type j = true /\ exists h, e_deser E f t = Some h /\
     snd (deser_step E (load E n) f (child_opts o) h t j) = Done v) ->
  rejects E f t v -> snd (load E (S n) f o (Some t) j) = Fail (exn_of KValidation).
Proof.
  intros Hd Hm Hn H Hr. assert (Hv : validate E f v t = Err (exn_of KValidation)) by (now apply validate_err).
  cbn [load]. unfold load_step.
  assert (Hg : forall K : unit -> M value, (dom x <- (if is_none j then dom b <- lift (can_match_none (e_ct E) (Some t));
     if b then ret tt else fail (exn_of KDeser) else ret tt); K x) = K tt).
  { intros K. destruct (is_none j) eqn:Ei; [|now rewrite bind_ret_l].
    assert (j = VNone) as -> by (now destruct j). rewrite (Hn eq_refl). cbn [lift]. now rewrite !bind_ret_l. }
  rewrite Hg. clear Hg.
  assert (Hsk : (negb (lo_strict o) && same_type j (Some t)) || match Some t with Some TAny => true | _ => false end =
                negb (lo_strict o) && ty_eqb (class_of j) t)
    by (cbn [same_type]; destruct t; try contradiction; apply orb_false_r).
  rewrite Hsk. destruct (negb (lo_strict o) && ty_eqb (class_of j) t).
  - subst v. rewrite Hv. reflexivity.
  - destruct H as (Hvt & h & Hh & Hs). 
    assert (Hl : match Some t with Some (TFwd s) => dor t0 <- e_resolve E f s; Ok (Some t0) | _ => Ok (Some t) end = Ok (Some t))
      by (destruct t; try contradiction; reflexivity).
    rewrite Hl. cbn [lift]. rewrite bind_ret_l, Hvt. cbn [negb]. rewrite (no_meta_get _ _ _ Hm). cbn [lift]. rewrite bind_ret_l. cbn [fst snd].
    assert (Hp : determine_precedence (Some t) None (Some (class_of j)) (lo_inferred o) = Some t) by (now destruct (lo_inferred o)).
    rewrite Hp, Hh. cbv zeta. rewrite changed_same. now apply (wrap_rejected _ _ _ _ v).
Qed.
Lemma load_given_rejected E n f o j : no_meta_entry j -> lo_strict o = false -> j <> VNone ->
  rejects E f (class_of j) j -> snd (load E (S n) f o (Some (class_of j)) j) = Fail (exn_of KValidation).
Proof.
  intros Hm Hs Hn Hr. apply (load_rejected _ _ _ _ _ _ j); [destruct j as [| | | | | | |k|k| | | |]; try exact I; now destruct k|exact Hm|congruence| |exact Hr].
  now rewrite Hs, ty_eqb_refl.
Qed.
Lemma load_any_rejected E n f o j : rejects E f TAny j ->
  snd (load E (S n) f o (Some TAny) j) = Fail (exn_of KValidation).
Proof.
  intros Hr. assert (Hv : validate E f j TAny = Err (exn_of KValidation)) by (now apply validate_err).
  cbn [load]. unfold load_step. cbn [can_match_none lift].
  destruct (is_none j); rewrite ?bind_ret_l; rewrite orb_true_r, Hv; reflexivity.
Qed.
Lemma load_list_rejected E n f o b t l ys : default_deserializers E f -> no_hints o -> lo_warn o = false ->
  Forall2 (fun x y => snd (load E n f (elem_opts o true) (Some t) x) = Done y) l ys ->
  rejects E f (TApp b HList [t]) (VList ys) ->
  snd (load E (S n) f o (Some (TApp b HList [t])) (VList l)) = Fail (exn_of KValidation).
Proof.
  intros HD Hh Hw Hys Hr. rewrite (load_list_run _ _ _ _ _ _ _ HD Hh), Hw.
  apply (wrap_rejected _ _ _ _ (VList ys)); [|exact Hr]. apply bind_done. exists ys. split; [now apply list_go_plain|reflexivity].
Qed.
Lemma load_custom_rejected E n f o t k j v : direct t -> no_meta_entry j -> j <> VNone -> valid_type j = true ->
  lo_strict o = true \/ class_of j <> t -> e_deser E f t = Some (DCustom k) ->
  e_cdeser E k t j = Ok v -> rejects E f t v ->
  snd (load E (S n) f o (Some t) j) = Fail (exn_of KValidation).
Proof.
  intros Hd Hm Hn Hv Hs Hh Hc Hr. rewrite (load_run _ _ _ _ _ _ _ Hd Hm Hn Hv Hs Hh).
  apply (wrap_rejected _ _ _ _ v); [|exact Hr]. cbn [deser_step]. now rewrite Hc.
Qed.
Lemma flat_step E n f o t h j : default_deserializers E f -> flat (e_ct E) t -> e_deser E f t = Some h ->
  deser_step (unvalidated E f t) (load (unvalidated E f t) n) f (child_opts o) h t j =
  deser_step E (load E n) f (child_opts o) h t j.
Proof.
  intros HD Hf Hh. rewrite HD in Hh. destruct t; try destruct Hf; cbn [unvalidated].
  - rewrite deser_prim in Hh. injection Hh as <-. destruct p; reflexivity.
  - rewrite deser_none in Hh. injection Hh as <-. reflexivity.
  - rewrite deser_leaf in Hh. injection Hh as <-. destruct k; try contradiction; reflexivity.
  - destruct H0 as (Hs & m & ms & Hk). rewrite (deser_enum_class _ _ _ _ H Hk Hs) in Hh. injection Hh as <-. reflexivity.
Qed.
Lemma load_flat_rejected E n f o t j v : default_deserializers E f -> flat (e_ct E) t -> no_meta_entry j ->
  snd (load (unvalidated E f t) (S n) f o (Some t) j) = Done v -> rejects E f t v ->
  snd (load E (S n) f o (Some t) j) = Fail (exn_of KValidation).
Proof.
  intros HD Hf Hm H Hr. assert (Hd : direct t) by (destruct t; try destruct Hf; exact I).
  apply load_typed in H as [Hn H]; [|exact Hd|exact Hm]. apply (load_rejected E n f o t j v Hd Hm Hn); [|exact Hr].
  destruct (negb (lo_strict o) && ty_eqb (class_of j) t); [tauto|].
  destruct H as (Hv & h & Hh & Hs & _). split; [exact Hv|]. exists h. split; [exact Hh|].
  rewrite <- Hs. apply f_equal. symmetry. now apply flat_step.
Qed.
