(** * Loads that are cut short: proofs *)
From Coq Require Import Lia.
From Verif Require Import PyBaseFacts EngineFacts MultitaskProofs LoadSpec LoadFacts LoadLaws LoadObject LoadTypes
  LoadMeta ConformSpec ConformProofs RoundTripFacts ParallelProofs.
From Verif Require Export CutProofs.
Local Open Scope string_scope.

(** The result and the events of the whole load, if the one that is cut short has a result *)
Definition same {A} (m m' : M A) : Prop := forall a, snd m = Done a -> m' = m.
Lemma same_refl {A} (m : M A) : same m m.
Proof. intros a _. reflexivity. Qed.
Lemma same_fail {A} e (m' : M A) : same (fail e) m'.
Proof. intros a H. discriminate. Qed.
Lemma same_bind {A B} (m m' : M A) (k k' : A -> M B) :
  same m m' -> (forall a, snd m = Done a -> same (k a) (k' a)) -> same (mbind m k) (mbind m' k').
Proof.
  intros Hm Hk b H. unfold mbind in *. destruct (snd m) as [a|e|] eqn:Em; try discriminate.
  cbn [fst snd] in *. rewrite (Hm a Em), Em. now rewrite (Hk a eq_refl b H).
Qed.
Lemma same_bind_same {A B} (m : M A) (k k' : A -> M B) :
  (forall a, snd m = Done a -> same (k a) (k' a)) -> same (mbind m k) (mbind m k').
Proof. intros H. apply same_bind; [apply same_refl|exact H]. Qed.
Lemma same_map {A B} (g g' : A -> M B) l :
  (forall x, In x l -> same (g x) (g' x)) -> same (mmap g l) (mmap g' l).
Proof.
  induction l as [|x l IH]; intros H; [apply same_refl|]. cbn [mmap].
  apply same_bind; [apply H; now left|]. intros y _. apply same_bind; [apply IH; intros; apply H; now right|].
  intros ys _. apply same_refl.
Qed.
Lemma same_try {A} (m m' : M A) h h' :
  same m m' -> (forall e a, snd m = Fail e -> snd (h e) <> Done a) -> same (mtry m h) (mtry m' h').
Proof.
  intros Hm Hh a H. unfold mtry in *. destruct (snd m) as [b|e|] eqn:Em.
  - rewrite (Hm b Em). now rewrite Em.
  - cbn [snd] in H. now apply (Hh e a eq_refl) in H.
  - rewrite Em in H. discriminate.
Qed.
Ltac sb := apply same_bind.
Ltac sbs := apply same_bind_same.

Section Load.
Variable E : env.
Let CT := e_ct E.
Hypothesis HD : default_deserializers E 0.

Section Step.
Variables ld ld' : nat -> lopts -> option ty -> value -> M value.
Hypothesis IH : forall s o t j, ok_opts s o -> plain_input j -> firm CT s t j -> same (ld 0 o t j) (ld' 0 o t j).
(** calls that are not expected to succeed *)
Hypothesis IHnone : forall o j, no_meta_entry j -> j <> VNone -> forall v, snd (ld 0 o (Some TNoneT) j) <> Done v.
Hypothesis IHother : forall o t, ~ may_be_none (Some t) -> ~ odd_name CT (Some t) ->
  (exists e, ld 0 o (Some t) VNone = fail e) /\
  (ld' 0 o (Some t) VNone = fail (exn_of KDeser) \/
   forall o v, snd (ld 0 o (Some TNoneT) VNone) <> Done v).
Variable s : bool.

Lemma step_same o cls j : not_fwd cls -> no_meta_entry j ->
  (forall h, skips o cls j = false -> e_deser E 0 (target cls j) = Some h ->
     same (deser_step E ld 0 (inner o (target cls j) cls) h (target cls j) j)
          (deser_step E ld' 0 (inner o (target cls j) cls) h (target cls j) j)) ->
  same (load_step E ld 0 o cls j) (load_step E ld' 0 o cls j).
Proof.
  intros Hf Hm Hs. unfold load_step. sbs. intros u _. fold (skips o cls j).
  destruct (skips o cls j) eqn:Esk; [apply same_refl|]. specialize (Hs).
  assert (El : match cls with Some (TFwd s) => dor t <- e_resolve E 0 s; Ok (Some t) | _ => Ok cls end = Ok cls)
    by (destruct cls as [[]|]; try reflexivity; contradiction).
  rewrite El, !bind_lift_ok. destruct (negb (valid_type j)); [apply same_refl|].
  rewrite (no_meta_get _ _ _ Hm), !bind_lift_ok. cbn [fst snd].
  assert (Et : determine_precedence cls None (Some (class_of j)) (lo_inferred o) = Some (target cls j)).
  { unfold determine_precedence. destruct cls as [u'|], (lo_inferred o); reflexivity. }
  rewrite Et. destruct (e_deser E 0 (target cls j)) as [h|] eqn:Eh; [|apply same_refl]. cbv zeta.
  apply same_try; [|intros; discriminate]. sb; [apply (Hs h eq_refl eq_refl)|]. intros r _. apply same_refl.
Qed.
Lemma list_go_same o t : ok_opts s o -> forall l i, Forall plain_input l -> Forall (firm CT s t) l ->
  same (deser_list_go E ld 0 o false t i l) (deser_list_go E ld' 0 o false t i l).
Proof.
  intros Ho. induction l as [|x l IHl]; intros i Hp Ht; [apply same_refl|]. cbn [deser_list_go]. cbv zeta.
  inversion Hp; subst. inversion Ht; subst.
  intros a H. destruct (snd (ld 0 o t x)) as [y|e|] eqn:Ex.
  - assert (Hx : ld' 0 o t x = ld 0 o t x) by (eapply IH; eauto). rewrite Hx, Ex.
    assert (K : same
      (dom _ <- (fst (ld 0 o t x), Done tt); dom ys <- deser_list_go E ld 0 o false t (S i) l; ret (y :: ys))
      (dom _ <- (fst (ld 0 o t x), Done tt); dom ys <- deser_list_go E ld' 0 o false t (S i) l; ret (y :: ys))).
    { sbs. intros u _. sb; [now apply IHl|]. intros ys _. apply same_refl. }
    exact (K a H).
  - destruct (is_deser (e_kind e)); discriminate.
  - discriminate.
Qed.
Lemma list_same o args l : ok_opts s o -> Forall plain_input l -> Forall (firm CT s (hd_error args)) l ->
  same (deser_list E ld 0 o args (VList l)) (deser_list E ld' 0 o args (VList l)).
Proof.
  intros Ho Hp Ht. unfold deser_list. cbv zeta. sbs. intros l' Hl. apply lift_done in Hl. injection Hl as <-.
  assert (Hw : lo_warn o = false) by apply Ho. rewrite Hw. apply list_go_same; auto.
  destruct Ho as (H1 & H2 & H3 & H4). destruct args; unfold ok_opts, no_hints; cbn; auto.
Qed.
Lemma iterable_same o b h args l : args = [] \/ (exists t, args = [t]) ->
  ok_opts s o -> Forall plain_input l -> Forall (firm CT s (hd_error args)) l ->
  same (deser_iterable E ld 0 o (TApp b h args) (VList l)) (deser_iterable E ld' 0 o (TApp b h args) (VList l)).
Proof.
  intros Ha Ho Hp Ht. unfold deser_iterable.
  assert (Ea : match raw_args (TApp b h args) with None => Ok [] | Some [a] => Ok [a] | Some _ => raise KType end = Ok args)
    by (destruct Ha as [->|(t & ->)]; reflexivity).
  rewrite Ea, !bind_lift_ok. sb; [now apply list_same|]. intros ys _. apply same_refl.
Qed.
Lemma tuple_go_same o : ok_opts s o -> forall l ts, Forall plain_input l ->
  Forall2 (fun t x => firm CT s (Some t) x) ts l ->
  same (deser_tuple_go ld 0 o l ts) (deser_tuple_go ld' 0 o l ts).
Proof.
  intros Ho. induction l as [|x l IHl]; intros ts Hp Ht; [apply same_refl|]. cbn [deser_tuple_go].
  inversion Ht as [|t ? ts' ? Hx Hts]; subst. inversion Hp; subst.
  sb; [eapply IH; eauto|]. intros y _. sb; [now apply IHl|]. intros ys _. apply same_refl.
Qed.
Lemma dict_go_same ok ov g kc vc : ok_opts s ok -> ok_opts s ov -> (forall x, g x = Ok x) -> forall d,
  Forall (fun kx => plain_input (fst kx) /\ plain_input (snd kx)) d ->
  Forall (fun kx => (forall tk, kc = Some tk -> firm CT s (Some tk) (fst kx)) /\ firm CT s vc (snd kx)) d ->
  forall acc, same (deser_dict_go E ld 0 ok ov g kc vc d acc) (deser_dict_go E ld' 0 ok ov g kc vc d acc).
Proof.
  intros H1 H2 Hg. induction d as [|[key x] d IHd]; intros Hp Ht acc; [apply same_refl|]. cbn [deser_dict_go].
  inversion Hp as [|? ? [P1 P2] Hp']; subst. inversion Ht as [|? ? [T1 T2] Ht']; subst. cbn [fst snd] in *.
  rewrite Hg, !bind_lift_ok. sb; [destruct kc as [tk|]; [eapply IH; eauto|apply same_refl]|]. intros k2 _.
  sb; [eapply IH; eauto|]. intros y _. destruct (hashable (e_ct E) k2); [now apply IHd|apply same_refl].
Qed.
Lemma dict_same o args d : ok_opts s o -> plain_input (VDict DkDict d) ->
  (args = [] /\ Forall (fun kx => firm CT s None (snd kx)) d) \/
  (exists tk tv, args = [tk; tv] /\ Forall (fun kx => firm CT s (Some tk) (fst kx) /\ firm CT s (Some tv) (snd kx)) d) ->
  same (deser_dict E ld 0 o args (VDict DkDict d)) (deser_dict E ld' 0 o args (VDict DkDict d)).
Proof.
  intros Ho Hp Ha. apply pi_dict_entries in Hp as [Hp Hkeys]. cbn [deser_dict].
  unfold load_hashed_keys. rewrite Hkeys, !bind_ret_l. cbv zeta. cbn [fst snd]. fold (the_kt o).
  pose proof (ok_kt_none s _ Ho). pose proof (ok_kt_some s _ Ho). pose proof (fun x => the_kt_id s o x Ho).
  destruct Ha as [[-> Ht]|(tk & tv & -> & Ht)].
  - apply dict_go_same; auto. eapply Forall_impl; [|exact Ht]. intros kx Hx. split; [discriminate|exact Hx].
  - apply dict_go_same; auto. eapply Forall_impl; [|exact Ht]. intros kx [Hx Hy]. split; [|exact Hy].
    intros t' Et. now injection Et as <-.
Qed.
Lemma value_from_obj_same o p x : ok_opts s o -> plain_input x -> firm CT s (pa_hint p) x ->
  same (value_from_obj E ld 0 o [] p x) (value_from_obj E ld' 0 o [] p x).
Proof.
  intros Ho Hp Ht. unfold value_from_obj. cbv zeta.
  change (dget (VStr ("/" ++ pa_name p)) []) with (@None value).
  cbn match. rewrite !bind_lift_ok. cbn [fst snd].
  assert (Ed : determine_precedence (pa_hint p) None None true = pa_hint p)
    by (unfold determine_precedence; cbn; now destruct (pa_hint p)).
  rewrite Ed. apply (IH s); auto. destruct Ho as (H1 & H2 & H3 & H4). unfold ok_opts, no_hints, set_hints. cbn. auto.
Qed.
Lemma constructor_args_same o d gs : ok_opts s o -> forall ps,
  (forall p x, In p ps -> In (VStr (pa_name p), x) d -> plain_input x /\ firm CT s (pa_hint p) x) ->
  same (constructor_args E ld 0 o [] d gs ps) (constructor_args E ld' 0 o [] d gs ps).
Proof.
  intros Ho. induction ps as [|p ps IHp]; intros Ht; [apply same_refl|]. cbn [constructor_args].
  sb.
  - unfold value_for_attr. destruct (dget (VStr (pa_name p)) d) as [j|] eqn:Eg; [|apply same_refl].
    apply dget_In in Eg. destruct (Ht p j (or_introl eq_refl) Eg) as [Hp Hj].
    sb; [now apply value_from_obj_same|]. intros y _. apply same_refl.
  - intros x _. sb; [apply IHp; intros; apply Ht; auto; now right|]. intros rest _. apply same_refl.
Qed.
Lemma constructor_args_has' d gs o : forall ps args,
  snd (constructor_args E ld 0 o [] d gs ps) = Done args ->
  forall p x, In p ps -> dget (VStr (pa_name p)) d = Some x -> shas (pa_name p) args = true.
Proof.
  induction ps as [|q ps IHp]; intros args H p x Hin Hx; [contradiction|]. cbn [constructor_args] in H.
  apply bind_done in H as (y & Hy & H). apply bind_done in H as (rest & Hrest & H). injection H as <-.
  destruct Hin as [->|Hin].
  - unfold value_for_attr in Hy. rewrite Hx in Hy. apply bind_done in Hy as (z & _ & Hz). injection Hz as <-.
    unfold shas, amem. cbn [aget]. now rewrite String.eqb_refl.
  - pose proof (IHp _ Hrest p x Hin Hx) as Hr. destruct y as [y|]; [|exact Hr].
    unfold shas, amem in *. cbn [aget]. destruct (String.eqb (pa_name p) (pa_name q)); [reflexivity|exact Hr].
Qed.
Lemma set_remaining_same o ci : ok_opts s o -> forall rest,
  (forall key x, In (key, x) rest -> exists a, key = VStr a /\ plain_input x /\
      firm CT s (Some (extra_type ci a x)) x) -> forall at_,
  same (set_remaining E ld 0 o ci rest at_) (set_remaining E ld' 0 o ci rest at_).
Proof.
  intros Ho. induction rest as [|[key x] rest IHr]; intros Ht at_; [apply same_refl|]. cbn [set_remaining].
  destruct (Ht key x (or_introl eq_refl)) as (a & -> & Hp & Hx). cbv zeta.
  assert (Ht' : forall key x, In (key, x) rest -> exists a, key = VStr a /\ plain_input x /\
      firm CT s (Some (extra_type ci a x)) x) by (intros; apply Ht; now right).
  sbs. intros u _. sb; [apply (IH s); auto|]. intros y _.
  destruct (ci_set ci a y at_) as [at1|e]; [now apply IHr|].
  destruct (is_attributeerror (e_kind e)); [now apply IHr|apply same_refl].
Qed.
Lemma object_same o c d : ok_opts s o -> lo_hints o = Some [] -> plain_input (VDict DkDict d) ->
  (forall p x, In p (ci_params (CT c)) -> In (VStr (pa_name p), x) d -> firm CT s (pa_hint p) x) ->
  (forall a x, In (VStr a, x) d -> ~ In a (map pa_name (ci_params (CT c))) ->
     firm CT s (Some (extra_type (CT c) a x)) x) ->
  same (deser_object E ld 0 o (TClass c) (VDict DkDict d)) (deser_object E ld' 0 o (TClass c) (VDict DkDict d)).
Proof.
  intros Ho Hh Hp Ht1 Ht2. unfold deser_object. cbn [cid_of obj_items]. cbv zeta.
  rewrite !bind_lift_ok, Hh.
  destruct (pi_dict_entries _ Hp) as [Hpl _]. pose proof (pi_dict_keys _ Hp) as Hks.
  sbs. intros d1 Hd1. apply lift_done in Hd1.
  assert (Hd : forall kx, In kx d1 -> In kx d).
  { intros kx Hin. pose proof (fun x => the_kt_id s o x Ho) as Hid. unfold the_kt in Hid.
    destruct (lo_kt o) as [g|]; [|injection Hd1 as <-; exact Hin].
    destruct (transform_entries E g d Hid Hks [] d1) with (kx := kx) as [Hi|[]]; auto. intros ? []. }
  assert (Ho' : ok_opts s (set_getters [] o))
    by (destruct Ho as (H1 & H2 & H3 & H4); unfold ok_opts, no_hints, set_getters; cbn; auto).
  rewrite Forall_forall in Hpl.
  sb.
  { apply constructor_args_same; auto. intros p x Hin Hx. apply Hd in Hx. split; [exact (proj2 (Hpl _ Hx))|auto]. }
  intros args Hargs. sbs. intros rest Hrest. sbs. intros u _. sbs. intros at0 _.
  sb; [|intros at1 _; apply same_refl].
  apply set_remaining_same; auto. intros key x Hin. apply lift_done in Hrest. unfold remaining_args in Hrest.
  assert (Hf : In (key, x) (filter (fun kv => negb (has_arg (fst kv) args) && negb (py_eqb (VStr "-meta") (fst kv))) d1)).
  { destruct (filter _ d1) as [|[k1 x1] r1]; [injection Hrest as <-; contradiction|].
    destruct (lo_strict o); [discriminate|]. injection Hrest as <-. exact Hin. }
  apply filter_In in Hf as [Hf Hb]. cbn [fst] in Hb. apply andb_true_iff in Hb as [Hb _].
  pose proof (Hd _ Hf) as Hfd. destruct (Hks _ Hfd) as (a & Ha). cbn [fst] in Ha. subst key.
  exists a. split; [reflexivity|]. split; [exact (proj2 (Hpl _ Hfd))|]. apply Ht2; [exact Hfd|].
  intros Hin'. apply in_map_iff in Hin' as (p & Hpn & Hpi). subst a.
  assert (Hks1 : forall kx, In kx d1 -> exists b, fst kx = VStr b) by (intros kx Hi; apply Hks; now apply Hd).
  destruct (dget_str_some _ _ _ Hks1 Hf) as (y & Hy).
  pose proof (constructor_args_has' _ _ _ _ _ Hargs p y Hpi Hy) as Hhas. cbn [has_arg] in Hb. now rewrite Hhas in Hb.
Qed.
Lemma nt_go_same o j d len : ok_opts s o -> forall fields i,
  (forall m fd x, nth_error fields m = Some fd ->
     (i + m < len -> match d with
                     | Some d => dget (VStr (nf_name fd)) d = Some x
                     | None => py_getitem CT j (VInt (Z.of_nat (i + m))) = Ok x
                     end -> plain_input x /\ firm CT s (nf_hint fd) x) /\ i + m < len) ->
  same (deser_nt_go E ld 0 o j d len i fields) (deser_nt_go E ld' 0 o j d len i fields).
Proof.
  intros Ho. induction fields as [|fd fields IHf]; intros i Ht; [apply same_refl|]. cbn [deser_nt_go].
  sbs. intros x Hx. sbs. intros u _. apply lift_done in Hx.
  destruct (Ht 0 fd x eq_refl) as [H0 Hlen]. rewrite Nat.add_0_r in *.
  sb.
  { destruct H0 as [P T].
    - lia.
    - assert (Nat.ltb i len = true) as El by (apply Nat.ltb_lt; lia). rewrite El in Hx.
      destruct d as [d|]; [|exact Hx]. destruct (dget (VStr (nf_name fd)) d); [congruence|discriminate].
    - apply (IH s); auto. }
  intros y _. sb; [|intros ys _; apply same_refl].
  apply IHf. intros m fd' x' Hm. specialize (Ht (S m) fd' x' Hm).
  replace (S i + m) with (i + S m) by lia. exact Ht.
Qed.
Lemma namedtuple_list_same o c fields l : ok_opts s o -> ci_kind (CT c) = CkNT fields -> Forall plain_input l ->
  Forall2 (fun fd x => firm CT s (nf_hint fd) x) fields l ->
  same (deser_namedtuple E ld 0 o c (VList l)) (deser_namedtuple E ld' 0 o c (VList l)).
Proof.
  intros Ho Hc Hp Ht. unfold deser_namedtuple. rewrite !bind_ret_l.
  cbn [py_iter]. rewrite !bind_lift_ok. sb; [|intros vs _; apply same_refl].
  apply nt_go_same; auto. unfold nt_fields. fold CT. rewrite Hc. intros m fd x Hm. cbn [Nat.add].
  pose proof (nth_error_len _ _ _ Hm) as Hl. pose proof (Forall2_len _ _ _ Ht) as Hl'. split; [|lia].
  intros _ Hx. destruct (nth_error l m) as [x'|] eqn:Ex.
  2:{ apply nth_error_None in Ex. lia. }
  rewrite (getitem_nth _ _ _ _ Ex) in Hx. injection Hx as <-.
  rewrite Forall_forall in Hp. split; [apply Hp; eapply nth_error_In; eauto|].
  clear -Ht Hm Ex. revert m Hm Ex. induction Ht as [|f1 x1 fs l Hf Hfs IHt]; intros [|m] Hm Ex; try discriminate.
  - cbn in *. congruence.
  - eapply IHt; eauto.
Qed.
Lemma namedtuple_dict_same o c fields d : ok_opts s o -> ci_kind (CT c) = CkNT fields -> plain_input (VDict DkDict d) ->
  length fields <= length d ->
  (forall fd x, In fd fields -> In (VStr (nf_name fd), x) d -> firm CT s (nf_hint fd) x) ->
  same (deser_namedtuple E ld 0 o c (VDict DkDict d)) (deser_namedtuple E ld' 0 o c (VDict DkDict d)).
Proof.
  intros Ho Hc Hp Hlen Ht. unfold deser_namedtuple. cbv zeta. fold (the_kt o).
  sbs. intros d1 Hd1. apply bind_done in Hd1 as (d' & Hd' & Hd1). injection Hd1 as <-. apply lift_done in Hd'.
  sbs. intros l Hl. apply lift_done in Hl. cbn [py_iter] in Hl. injection Hl as <-.
  sb; [|intros vs _; apply same_refl].
  destruct (pi_dict_entries _ Hp) as [Hpl _]. rewrite Forall_forall in Hpl. pose proof (pi_dict_keys _ Hp) as Hks.
  apply nt_go_same; auto. unfold nt_fields. fold CT. rewrite Hc. intros m fd x Hm. cbn [Nat.add].
  pose proof (nth_error_len _ _ _ Hm) as Hl. split.
  - intros _ Hx. apply dget_In in Hx.
    destruct (transform_entries E (the_kt o) d (fun x => the_kt_id s o x Ho) Hks [] d') with (kx := (VStr (nf_name fd), x)) as [Hi|[]]; auto.
    { intros ? []. }
    split; [exact (proj2 (Hpl _ Hi))|]. apply Ht; [eapply nth_error_In; eauto|exact Hi].
  - rewrite map_length. lia.
Qed.
(** *** Leaves *)
Lemma getitem_plain j k x : plain_input j -> py_getitem CT j (VStr k) = Ok x -> plain_input x.
Proof.
  intros Hp H. destruct j; try discriminate H; [inversion Hp|].
  inversion Hp as [| | | | | | |d' H1 H2]; subst. cbn [py_getitem] in H.
  destruct (hashable CT (VStr k)); [|discriminate]. 
  destruct (dget (VStr k) d) as [y|] eqn:Eg; [|discriminate H]. injection H as <-.
  apply dget_In in Eg. rewrite Forall_forall in H2. exact (H2 _ Eg).
Qed.
Lemma ok_lopts0 : ok_opts false lopts0.
Proof. unfold ok_opts, no_hints, lopts0. cbn. repeat split; auto. discriminate. Qed.
Lemma timezone_same j : plain_input j -> same (deser_timezone E ld j) (deser_timezone E ld' j).
Proof.
  intros Hp. unfold deser_timezone. sbs. intros off Ho. apply lift_done in Ho. apply getitem_plain in Ho; [|exact Hp].
  sb; [apply (IH false); [apply ok_lopts0|exact Ho|apply fm_leaf; exact I]|]. intros td _. apply same_refl.
Qed.
Lemma complex_same j : plain_input j -> same (deser_complex E ld j) (deser_complex E ld' j).
Proof.
  intros Hp. unfold deser_complex. apply same_try.
  2:{ intros e a _. destruct (is_keyerror (e_kind e) || is_deser (e_kind e)); discriminate. }
  sbs. intros re Hre. apply lift_done in Hre. apply getitem_plain in Hre; [|exact Hp].
  sbs. intros im Him. apply lift_done in Him. apply getitem_plain in Him; [|exact Hp].
  sb; [|intros d _; apply same_refl].
  apply (IH false); [apply ok_lopts0| |].
  - unfold str_dict. cbn [map fst snd]. apply pi_dict; repeat constructor; try assumption; cbn; eexists; repeat split; discriminate.
  - unfold str_dict. cbn [map fst snd]. apply fm_dict; [exact I|]. repeat constructor.
Qed.
Lemma leaf_same o t j h cls : plain_input j -> leaf_type CT t -> e_deser E 0 t = Some h ->
  cls = Some t \/ cls = None /\ t <> TPrim PStr ->
  same (deser_step E ld 0 (inner o t cls) h t j) (deser_step E ld' 0 (inner o t cls) h t j).
Proof.
  intros Hp Ht Hh Hc0. rewrite HD in Hh. fold CT in Hh.
  assert (Hc : pure_handler h = true \/ h = DString /\ t = TPrim PStr \/ h = DTimezone \/ h = DComplex).
  { destruct t; try contradiction.
    - rewrite deser_prim in Hh. injection Hh as <-. destruct p; auto.
    - rewrite deser_none in Hh. injection Hh as <-. now left.
    - rewrite deser_leaf in Hh. injection Hh as <-. destruct k; auto.
    - destruct Ht as [Ho (m & l & Hc)]. rewrite (deser_enumeration CT c Ho m l Hc) in Hh. injection Hh as <-. now left. }
  destruct Hc as [Hpu|[[-> ->]|[->| ->]]].
  - destruct h; try discriminate Hpu; apply same_refl.
  - destruct Hc0 as [->|[_ Hc0]]; [|now elim Hc0].
    cbn [deser_step]. unfold deser_string. unfold inner. cbn [lo_inferred set_inferred].
    unfold changed. rewrite !ty_eqb_refl. cbn [negb andb]. apply same_refl.
  - now apply timezone_same.
  - now apply complex_same.
Qed.
(** *** Optionals *)
Lemma union_same o t j : ok_opts s o -> plain_input j -> firm CT s (Some t) j -> j <> VNone ->
  same (deser_union_go ld 0 o j [t; TNoneT]) (deser_union_go ld' 0 o j [t; TNoneT]).
Proof.
  intros Ho Hp Ht Hj. cbn [deser_union_go]. apply same_try; [apply (IH s); auto|].
  intros e a _. destruct (is_jsons (e_kind e)); [|discriminate]. intros H.
  apply try_done in H as [H|(e' & _ & H)].
  - exact (IHnone o j (pi_no_meta _ Hp) Hj a H).
  - destruct (is_jsons (e_kind e')); discriminate.
Qed.
Lemma union_none_same o t : ok_opts s o -> ~ may_be_none (Some t) -> ~ odd_name CT (Some t) ->
  same (deser_union_go ld 0 o VNone [t; TNoneT]) (deser_union_go ld' 0 o VNone [t; TNoneT]).
Proof.
  intros Ho H1 H2. cbn [deser_union_go]. destruct (IHother o t H1 H2) as [(e & ->) Hld].
  set (rest := fun l : nat -> lopts -> option ty -> value -> M value => mtry (l 0 o (Some TNoneT) VNone)
     (fun e0 => if is_jsons (e_kind e0) then fail (exn_of KDeser) else fail e0)).
  assert (K : same (rest ld) (rest ld')).
  { apply same_try; [apply (IH s); auto; [constructor|apply fm_leaf; exact I]|].
    intros e0 a0 _. destruct (is_jsons (e_kind e0)); discriminate. }
  change (same (mtry (fail e) (fun e => if is_jsons (e_kind e) then rest ld else fail e))
               (mtry (ld' 0 o (Some t) VNone) (fun e => if is_jsons (e_kind e) then rest ld' else fail e))).
  intros a H. unfold mtry at 1 in H. cbn [fail snd fst] in H. unfold mtry at 2. cbn [fail snd fst].
  destruct (is_jsons (e_kind e)); [|discriminate]. cbn [app snd] in *.
  destruct Hld as [->|Hld].
  - unfold mtry at 1. cbn [fail snd fst exn_of e_kind is_jsons app]. now rewrite (K a H).
  - exfalso. unfold rest in H. apply try_done in H as [H|(e' & _ & H)]; [now apply Hld in H|].
    destruct (is_jsons (e_kind e')); discriminate.
Qed.
End Step.

(** ** The loads *)
Lemma firm_not_fwd s t j : firm CT s t j -> not_fwd t.
Proof.
  intros H. inversion H; subst; try exact I.
  - destruct j; try exact I;
      match goal with |- context [class_of (VColl ?c _)] => destruct c | |- context [class_of (VDict ?c _)] => destruct c end; exact I.
  - destruct t0; try contradiction; exact I.
Qed.
Lemma step_none ld o j v : no_meta_entry j -> j <> VNone -> snd (load_step E ld 0 o (Some TNoneT) j) <> Done v.
Proof.
  intros Hm Hj H. unfold load_step in H. apply bind_done in H as (u & _ & H).
  fold (skips o (Some TNoneT) j) in H. destruct (skips o (Some TNoneT) j) eqn:Es.
  - unfold skips in Es. cbn [same_type] in Es. rewrite orb_false_r in Es. apply andb_true_iff in Es as [_ Es].
    apply ty_eqb_eq in Es. destruct j as [| | | | | | |[]|[]|[]| | |]; try discriminate Es. now apply Hj.
  - rewrite bind_lift_ok in H. destruct (negb (valid_type j)); [discriminate|].
    rewrite (no_meta_get _ _ _ Hm), bind_lift_ok in H. cbn [fst snd] in H.
    assert (Et : determine_precedence (Some TNoneT) None (Some (class_of j)) (lo_inferred o) = Some TNoneT)
      by (unfold determine_precedence; now destruct (lo_inferred o)).
    rewrite Et, HD, deser_none in H. cbv zeta in H. apply try_done in H as [H|(e & _ & H)]; [|discriminate].
    apply bind_done in H as (r & H & _). cbn [deser_step] in H. destruct j; try discriminate H. now apply Hj.
Qed.
Lemma step_other ld o t : ~ may_be_none (Some t) -> ~ odd_name CT (Some t) ->
  load_step E ld 0 o (Some t) VNone = fail (exn_of KDeser).
Proof.
  intros H1 H2. unfold load_step. cbn [is_none].
  destruct (can_match_spec _ _ H2) as [[Hm _]|[_ Hm]]; [contradiction|]. fold CT. now rewrite Hm.
Qed.
Section Cut.
Variables ld ld' : nat -> lopts -> option ty -> value -> M value.
Hypothesis IH : forall s o t j, ok_opts s o -> plain_input j -> firm CT s t j -> same (ld 0 o t j) (ld' 0 o t j).
Hypothesis IHnone : forall o j, no_meta_entry j -> j <> VNone -> forall v, snd (ld 0 o (Some TNoneT) j) <> Done v.
Hypothesis IHother : forall o t, ~ may_be_none (Some t) -> ~ odd_name CT (Some t) ->
  (exists e, ld 0 o (Some t) VNone = fail e) /\
  (ld' 0 o (Some t) VNone = fail (exn_of KDeser) \/
   forall o v, snd (ld 0 o (Some TNoneT) VNone) <> Done v).
Lemma load_step_same s o t j : ok_opts s o -> plain_input j -> firm CT s t j ->
  same (load_step E ld 0 o t j) (load_step E ld' 0 o t j).
Proof.
  intros Ho Hp Ht. pose proof (pi_no_meta _ Hp) as Hm. pose proof (firm_not_fwd _ _ _ Ht) as Hf.
  apply (step_same ld ld' o t j Hf Hm). intros h Hsk Hh.
  destruct (ok_inner s o (target t j) t Ho) as [Hi Hih].
  assert (Hpl : forall l, j = VList l -> Forall plain_input l) by (intros l ->; now inversion Hp).
  inversion Ht as [?|? Hs|? ? Hl|? Hl|l Hx|d Hx|b hd u l Hd Hx|b hd l Hd Hx|b hd tk tv d Hd Hx|b hd d Hd Hx
                  |b u us l Hd Hx|b u l Hx|b l Hx|u ? Hn Hx|u Hn Hx|c fields l Hc Hx Hy|c fields d Hc Hx Hl Hy
                  |c d Hc Hx Hy Hz]; subst; cbn [target class_of] in *.
  - rewrite HD, deser_any in Hh. discriminate.
  - exfalso. unfold skips in Hsk. destruct Ho as (_ & _ & _ & Hs'). rewrite Hs' in Hsk. cbn [negb same_type] in Hsk.
    rewrite ty_eqb_refl in Hsk. discriminate.
  - apply (leaf_same ld ld' IH); auto.
  - apply (leaf_same ld ld' IH); auto; [destruct j; try contradiction; exact I|].
    right. split; [reflexivity|]. destruct j; try contradiction; discriminate.
  - rewrite HD, deser_head in Hh. injection Hh as <-. cbn [head_handler deser_step get_args raw_args] in *.
    sb; [|intros r _; apply same_refl]. apply (list_same ld ld' IH s); auto.
  - rewrite HD, deser_head in Hh. injection Hh as <-. cbn [head_handler deser_step] in *.
    unfold deser_mapping. cbn [get_args raw_args]. rewrite !bind_lift_ok.
    sb; [|intros r _; apply same_refl]. apply (dict_same ld ld' IH s); auto.
  - rewrite HD, deser_head in Hh. injection Hh as <-.
    destruct hd; try contradiction; cbn [head_handler deser_step get_args raw_args] in *;
      [|apply (iterable_same ld ld' IH s); eauto..].
    sb; [|intros r _; apply same_refl]. apply (list_same ld ld' IH s); auto.
  - rewrite HD, deser_head in Hh. injection Hh as <-.
    destruct hd; try contradiction; cbn [head_handler deser_step get_args raw_args] in *;
      [|apply (iterable_same ld ld' IH s); eauto..].
    sb; [|intros r _; apply same_refl]. apply (list_same ld ld' IH s); auto.
  - rewrite HD, deser_head in Hh. injection Hh as <-. destruct (Bool.bool_dec (match hd with HDefaultDict => true | _ => false end) true) as [Edd|Edd].
    + destruct hd; try discriminate Edd. cbn [head_handler deser_step] in *. unfold deser_defaultdict.
      cbn [get_args raw_args]. rewrite !bind_lift_ok. sb; [|intros r _; apply same_refl].
      apply (IH s); auto. constructor; [exact I|exact Hx].
    + assert (Eh : head_handler hd = DMapping) by (destruct hd; try contradiction; try reflexivity; now elim Edd).
      rewrite Eh. cbn [deser_step]. unfold deser_mapping. cbn [get_args raw_args].
      rewrite !bind_lift_ok. sb; [|intros r _; apply same_refl].
      apply (dict_same ld ld' IH s); auto. right. exists tk, tv. auto.
  - rewrite HD, deser_head in Hh. injection Hh as <-. destruct (Bool.bool_dec (match hd with HDefaultDict => true | _ => false end) true) as [Edd|Edd].
    + destruct hd; try discriminate Edd. cbn [head_handler deser_step] in *. unfold deser_defaultdict.
      cbn [get_args raw_args]. rewrite !bind_lift_ok. sb; [|intros r _; apply same_refl].
      apply (IH s); auto. apply fm_bare_dict; [exact I|exact Hx].
    + assert (Eh : head_handler hd = DMapping) by (destruct hd; try contradiction; try reflexivity; now elim Edd).
      rewrite Eh. cbn [deser_step]. unfold deser_mapping. cbn [get_args raw_args].
      rewrite !bind_lift_ok. sb; [|intros r _; apply same_refl].
      apply (dict_same ld ld' IH s); auto.
  - rewrite HD, deser_head in Hh. injection Hh as <-. cbn [head_handler deser_step] in *.
    unfold deser_tuple. cbv zeta. cbn [py_iter get_args raw_args]. rewrite !bind_lift_ok.
    assert (El : ty_eqb TEllipsis (last (u :: us) TAny) = false) by (apply ty_eqb_neq; congruence).
    rewrite El. sb; [|intros r _; apply same_refl]. apply (tuple_go_same ld ld' IH s); auto. now apply ok_kt_none.
  - rewrite HD, deser_head in Hh. injection Hh as <-. cbn [head_handler deser_step] in *.
    unfold deser_tuple. cbv zeta. cbn [py_iter get_args raw_args last ty_eqb]. rewrite !bind_lift_ok.
    sb; [|intros r _; apply same_refl].
    apply (tuple_go_same ld ld' IH s); auto; [now apply ok_kt_none|]. clear -Hx.
    induction Hx; cbn; constructor; auto.
  - rewrite HD, deser_head in Hh. injection Hh as <-. cbn [head_handler deser_step] in *.
    unfold deser_tuple. cbv zeta. cbn [py_iter get_args raw_args]. rewrite !bind_lift_ok.
    sb; [|intros r _; apply same_refl]. apply same_map. intros x Hin. rewrite Forall_forall in Hx.
    apply (IH s); auto; [now apply ok_kt_none|]. inversion Hp as [| | | | |? Hp'| |]; subst. rewrite Forall_forall in Hp'. auto.
  - rewrite HD, deser_tunion in Hh. injection Hh as <-. cbn [deser_step]. unfold deser_union.
    cbn [raw_args]. now apply (union_same ld ld' IH IHnone s).
  - rewrite HD, deser_tunion in Hh. injection Hh as <-. cbn [deser_step]. unfold deser_union.
    cbn [raw_args]. now apply (union_none_same ld ld' IH IHother s).
  - rewrite HD in Hh. fold CT in Hh. rewrite (deser_namedtuple_class CT c Hc fields Hx) in Hh. injection Hh as <-.
    cbn [deser_step]. unfold deser_tuple. fold CT. rewrite Hx.
    apply (namedtuple_list_same ld ld' IH s) with (fields := fields); auto.
  - rewrite HD in Hh. fold CT in Hh. rewrite (deser_namedtuple_class CT c Hc fields Hx) in Hh. injection Hh as <-.
    cbn [deser_step]. unfold deser_tuple. fold CT. rewrite Hx.
    apply (namedtuple_dict_same ld ld' IH s) with (fields := fields); auto.
  - rewrite HD in Hh. fold CT in Hh. rewrite (deser_object_class CT c Hc Hx) in Hh. injection Hh as <-.
    cbn [deser_step]. apply (object_same ld ld' IH s); auto.
Qed.
End Cut.
End Load.

Section Loads.
Variable E : env.
Let CT := e_ct E.
Hypothesis HD : default_deserializers E 0.
Variable cut : load_cut.
Lemma cut_none n o j v : no_meta_entry j -> j <> VNone -> snd (cut_load E cut n 0 o (Some TNoneT) j) <> Done v.
Proof.
  intros Hm Hj. destruct n as [|n]; [discriminate|]. cbn [cut_load].
  destruct (cut n 0 o (Some TNoneT) j); [discriminate|]. now apply step_none.
Qed.
Lemma cut_other n o t : ~ may_be_none (Some t) -> ~ odd_name CT (Some t) ->
  exists e, cut_load E cut n 0 o (Some t) VNone = fail e.
Proof.
  intros H1 H2. destruct n as [|n]; [eexists; reflexivity|]. cbn [cut_load].
  destruct (cut n 0 o (Some t) VNone); [eexists; reflexivity|].
  eexists. now apply step_other.
Qed.
Lemma cut_load_same n : forall s o t j, ok_opts s o -> plain_input j -> firm CT s t j ->
  same (cut_load E cut n 0 o t j) (load E n 0 o t j).
Proof.
  induction n as [|n IH]; intros s o t j Ho Hp Ht; cbn [cut_load load]; [apply same_fail|].
  destruct (cut n 0 o t j); [apply same_fail|].
  apply (load_step_same E HD _ _ IH) with (s := s); auto.
  - intros. now apply cut_none.
  - intros o' t' H1 H2. split; [now apply cut_other|]. destruct n as [|n].
    + right. intros o1 v. discriminate.
    + left. cbn [load]. now apply step_other.
Qed.
Lemma user_load_same n o t j v : plain_options o -> plain_input j -> firm CT (lo_strict o) t j ->
  snd (user_load E cut n 0 o t j) = Done v -> load E (S n) 0 o t j = user_load E cut n 0 o t j.
Proof.
  intros (H1 & H2 & H3) Hp Ht H. cbn [load]. unfold user_load in *.
  apply (load_step_same E HD _ _ (cut_load_same n)) with (s := lo_strict o) (a := v); auto.
  - intros. now apply cut_none.
  - intros o' t' H1' H2'. split; [now apply cut_other|]. destruct n as [|n'].
    + right. intros o1 v1. discriminate.
    + left. cbn [load]. now apply step_other.
  - repeat split; auto.
Qed.
End Loads.

(** ** Outcomes *)
Section LoadEnds.
Variables (E : env) (ld : nat -> lopts -> option ty -> value -> M value).
Hypothesis Hld : forall f o c j, ends (ld f o c j).
Variable f : nat.
Ltac fin1 := repeat match goal with
  | |- ends (mbind _ _) => apply ends_bind; [|intros]
  | |- ends (lift _) => apply ends_lift
  | |- ends (mmap _ _) => apply ends_map; intros
  | |- ends (warn _ _ _) => apply ends_warn
  | |- ends (ret _) => discriminate
  | |- ends (fail _) => discriminate
  | |- ends (emit _) => discriminate
  | |- ends (ld _ _ _ _) => apply Hld
  | |- ends (match ?x with _ => _ end) => destruct x
  end.
Lemma ends_list_go o w t l : forall i, ends (deser_list_go E ld f o w t i l).
Proof.
  induction l as [|x l IH]; intros i; cbn [deser_list_go]; [discriminate|]. cbv zeta.
  pose proof (Hld f o t x) as Hx. unfold ends in Hx. destruct (snd (ld f o t x)) as [y|e|] eqn:Ex; [| |contradiction].
  - apply ends_bind; [discriminate|]. intros _. apply ends_bind; [apply IH|discriminate].
  - destruct (is_deser (e_kind e)); [|discriminate]. destruct w; [|discriminate].
    apply ends_bind; [discriminate|]. intros _. apply ends_bind; [apply ends_warn|]. intros _. apply IH.
Qed.
Lemma ends_list o args j : ends (deser_list E ld f o args j).
Proof. unfold deser_list. cbv zeta. apply ends_bind; [apply ends_lift|]. intros l. apply ends_list_go. Qed.
Lemma ends_nt_go o j d len fields : forall i, ends (deser_nt_go E ld f o j d len i fields).
Proof.
  induction fields as [|fd fields IH]; intros i; cbn [deser_nt_go]; [discriminate|].
  fin1. apply IH.
Qed.
Lemma ends_namedtuple o c j : ends (deser_namedtuple E ld f o c j).
Proof. unfold deser_namedtuple. cbv zeta. fin1; apply ends_nt_go. Qed.
Lemma ends_tuple_go o l : forall ts, ends (deser_tuple_go ld f o l ts).
Proof. induction l as [|x l IH]; intros ts; cbn [deser_tuple_go]; fin1. apply IH. Qed.
Lemma ends_tuple o t j : ends (deser_tuple E ld f o t j).
Proof.
  unfold deser_tuple. cbv zeta.
  assert (P : forall m : M value, ends m -> forall c, ends (match ci_kind (e_ct E c) with CkNT _ => deser_namedtuple E ld f o c j | _ => m end))
    by (intros m Hm c; destruct (ci_kind (e_ct E c)); auto using ends_namedtuple).
  destruct t; try (apply P); fin1; apply ends_tuple_go.
Qed.
Lemma ends_union_go o j ts : ends (deser_union_go ld f o j ts).
Proof.
  induction ts as [|t ts IH]; cbn [deser_union_go]; [discriminate|]. apply ends_try; [apply Hld|].
  intros e. destruct (is_jsons (e_kind e)); [exact IH|discriminate].
Qed.
Lemma ends_dict o args j : ends (deser_dict E ld f o args j).
Proof.
  assert (Hg : forall ok ov g kc vc d acc, ends (deser_dict_go E ld f ok ov g kc vc d acc)).
  { intros ok ov g kc vc. induction d as [|[k x] d IH]; intros acc; cbn [deser_dict_go]; fin1. apply IH. }
  assert (Hh : forall o kt st r, ends (hashed_go E ld f o kt st r)).
  { intros o' kt. induction st as [|[h x] st IH]; intros r; cbn [hashed_go]; [destruct (dhas _ r); discriminate|].
    apply ends_bind; [apply Hld|]. intros k. destruct (dget h r); [|discriminate].
    destruct (hashable (e_ct E) k && negb (py_eqb (VStr "-keys") k)); [apply IH|discriminate]. }
  destruct j; try discriminate. cbn [deser_dict]. cbv zeta. apply ends_bind.
  - unfold load_hashed_keys. fin1; apply Hh.
  - intros dh. destruct args as [|? [|? [|? ?]]]; apply Hg.
Qed.
Lemma ends_object o t j : ends (deser_object E ld f o t j).
Proof.
  unfold deser_object. destruct (cid_of E t) as [c|]; [|discriminate]. cbv zeta.
  apply ends_bind; [apply ends_lift|]. intros d0. apply ends_bind; [apply ends_lift|]. intros d.
  apply ends_bind.
  { induction (ci_params (e_ct E c)) as [|p ps IH]; cbn [constructor_args]; [discriminate|].
    apply ends_bind.
    - unfold value_for_attr, value_from_obj. cbv zeta. fin1.
    - intros x. apply ends_bind; [exact IH|discriminate]. }
  intros args. apply ends_bind; [apply ends_lift|]. intros rest. apply ends_bind; [discriminate|]. intros _.
  apply ends_bind; [apply ends_lift|]. intros at0. apply ends_bind.
  { revert at0. induction rest as [|[k x] rest IH]; intros at0; cbn [set_remaining]; [discriminate|]. cbv zeta.
    apply ends_bind; [fin1|]. intros _. apply ends_bind; [apply Hld|]. intros y.
    destruct k; try discriminate. destruct (ci_set (e_ct E c) s y at0); [apply IH|].
    destruct (is_attributeerror (e_kind e)); [apply IH|discriminate]. }
  intros at1. apply ends_bind; [|discriminate].
  revert at1. induction (lo_getters o) as [|[a g] gs IH]; intros at1; cbn [set_getter_attrs]; [discriminate|].
  apply ends_bind; [discriminate|]. intros _. apply ends_bind; [apply ends_lift|]. intros y.
  apply ends_bind; [apply ends_lift|]. intros at2. apply IH.
Qed.
Lemma ends_deser o h t j : ends (deser_step E ld f o h t j).
Proof.
  destruct h; cbn [deser_step]; fin1; auto using ends_list, ends_tuple, ends_object.
  - unfold deser_union. fin1. apply ends_union_go.
  - unfold deser_defaultdict. fin1.
  - unfold deser_timezone. fin1.
  - unfold deser_string. destruct (ty_eqb t (TPrim PStr) && negb (lo_inferred o)); [apply ends_lift|].
    apply ends_try; [apply Hld|]. intros e. fin1.
  - unfold deser_mapping. apply ends_bind; [apply ends_lift|]. intros args. apply ends_bind; [apply ends_dict|]. intros d. fin1.
  - unfold deser_iterable. apply ends_bind; [apply ends_lift|]. intros args. apply ends_bind; [apply ends_list|]. intros d. fin1.
  - unfold deser_complex. apply ends_try; [fin1|]. intros e. destruct (is_keyerror _ || is_deser _); discriminate.
Qed.
Lemma ends_load_step o c j : ends (load_step E ld f o c j).
Proof.
  unfold load_step. apply ends_bind; [fin1|]. intros _. fin1. cbv zeta. unfold wrap_deser. apply ends_try; [|discriminate].
  apply ends_bind; [apply ends_deser|]. intros r. fin1.
Qed.
End LoadEnds.
Lemma cut_load_ends E cut n : forall f o c j, ends (cut_load E cut n f o c j).
Proof.
  induction n as [|n IH]; intros f o c j; cbn [cut_load]; [discriminate|].
  destruct (cut n f o c j); [discriminate|]. now apply ends_load_step.
Qed.
Lemma user_load_ends E cut n f o c j : snd (user_load E cut n f o c j) <> Oof.
Proof. apply ends_load_step, cut_load_ends. Qed.
Lemma step_jsons_error E ld f o cls j e :
  no_meta_entry j -> (j = VNone -> ~ odd_name (e_ct E) cls) ->
  (forall s e', cls = Some (TFwd s) -> e_resolve E f s = Err e' -> is_jsons (e_kind e') = true) ->
  snd (load_step E ld f o cls j) = Fail e -> is_jsons (e_kind e) = true.
Proof.
  intros Hm Ho Hr. unfold load_step. rewrite bind_fail. intros [H|(u & Hu & H)].
  - destruct j; cbn [is_none] in H; try discriminate. apply bind_fail in H as [H|(b & Hb & H)].
    + apply lift_fail in H. apply can_match_err in H. now elim (Ho eq_refl).
    + destruct b; [discriminate|]. injection H as <-. reflexivity.
  - fold (skips o cls j) in H. destruct (skips o cls j).
    + apply bind_fail in H as [H|([] & _ & H)]; [|discriminate]. apply lift_fail in H.
      destruct cls as [t|]; [|discriminate]. apply validate_err in H as [_ ->]. reflexivity.
    + apply bind_fail in H as [H|(c1 & Hc1 & H)].
      { apply lift_fail in H. destruct cls as [[]|]; try discriminate. eapply Hr; [reflexivity|].
        destruct (e_resolve E f s); [discriminate|]. cbn in H. congruence. }
      destruct (negb (valid_type j)); [injection H as <-; reflexivity|].
      rewrite (no_meta_get _ _ _ Hm), bind_lift_ok in H.
      cbn [fst snd] in H.
      destruct (determine_precedence _ _ _ _) as [t|]; [|injection H as <-; reflexivity].
      destruct (e_deser E f t) as [h|]; [|injection H as <-; reflexivity].
      cbv zeta in H. apply try_fail in H as (e' & _ & H).
      destruct (is_jsons (e_kind e')) eqn:Ej; injection H as <-; [exact Ej|reflexivity].
Qed.
Lemma user_load_outcome E cut n f o cls j :
  no_meta_entry j -> (j = VNone -> ~ odd_name (e_ct E) cls) ->
  (forall s e', cls = Some (TFwd s) -> e_resolve E f s = Err e' -> is_jsons (e_kind e') = true) ->
  (exists v, snd (user_load E cut n f o cls j) = Done v) \/
  (exists e, snd (user_load E cut n f o cls j) = Fail e /\ is_jsons (e_kind e) = true).
Proof.
  intros Hm Ho Hr. pose proof (user_load_ends E cut n f o cls j) as He.
  destruct (snd (user_load E cut n f o cls j)) as [v|e|] eqn:Es; [left; eauto| |contradiction].
  right. exists e. split; [reflexivity|]. eapply step_jsons_error; [exact Hm|exact Ho|exact Hr|exact Es].
Qed.
Lemma user_load_too_deep E cut n o cls j :
  default_deserializers E 0 -> plain_options o -> plain_input j -> firm (e_ct E) (lo_strict o) cls j ->
  (j = VNone -> ~ odd_name (e_ct E) cls) ->
  snd (load E (S n) 0 o cls j) = Oof ->
  exists e, snd (user_load E cut n 0 o cls j) = Fail e /\ is_jsons (e_kind e) = true.
Proof.
  intros HD Ho Hp Hf Hn H. destruct (user_load_outcome E cut n 0 o cls j) as [(v & Hv)|He]; auto.
  - now apply pi_no_meta.
  - intros s e' -> _. now apply firm_not_fwd in Hf.
  - pose proof (user_load_same E HD cut n o cls j v Ho Hp Hf Hv) as X. congruence.
Qed.
