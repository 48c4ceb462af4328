(** * Meta data in the input, and errors that are not wrapped *)
From Verif Require Import PyBaseFacts LoadSpec LoadFacts LoadLaws LoadObject LoadTypes.
Local Open Scope string_scope.

(** ** Raw errors *)
Lemma ok_err {A} (a : A) e : Ok a = Err e -> False.
Proof. discriminate. Qed.
Lemma can_match_err CT cls e : can_match_none CT cls = Err e -> odd_name CT cls.
Proof.
  assert (G : forall t, (if union_like CT t
     then match raw_args t with Some ts => Ok (existsb (ty_eqb TNoneT) ts) | None => raise KType end
     else Ok false) = Err e -> odd_name CT (Some t)).
  { intros t H. destruct (union_like CT t) eqn:Eu; [|discriminate].
    destruct (raw_args t) eqn:Er; [discriminate|]. exists t. split; [reflexivity|]. split.
    - intros ts ->. discriminate.
    - split; [exact Er|]. now apply union_like_occurs in Eu. }
  intros H. destruct cls as [t|]; [|discriminate]. destruct t; first [apply G; exact H | exfalso; exact (ok_err _ _ H)].
Qed.
Lemma load_jsons_error E n f o cls j e :
  no_meta_entry j -> (j = VNone -> ~ odd_name (e_ct E) cls) ->
  (forall s e', cls = Some (TFwd s) -> e_resolve E f s = Err e' -> is_jsons (e_kind e') = true) ->
  snd (load E n f o cls j) = Fail e -> is_jsons (e_kind e) = true.
Proof.
  intros Hm Ho Hr H. apply load_fail_jsons in H as [H|[(-> & H)|[(s & -> & H)|H]]].
  - exact H.
  - apply can_match_err in H. now elim (Ho eq_refl).
  - eapply Hr; [reflexivity|exact H].
  - rewrite (no_meta_get _ _ _ Hm) in H. discriminate.
Qed.
(** A '-meta' section without 'classes' *)
Lemma load_no_classes E n f o cls d km meta :
  dget (VStr "-meta") d = Some (VDict km meta) -> dget (VStr "classes") meta = None ->
  (forall s, cls <> Some (TFwd s)) -> cls <> Some TAny ->
  lo_strict o = true \/ cls <> Some (class_of (VDict DkDict d)) ->
  load E (S n) f o cls (VDict DkDict d) = fail (exn_of KKey).
Proof.
  intros Hm Hc Hf Ha Hs. cbn [load]. unfold load_step. cbn [is_none]. rewrite bind_ret_l.
  assert (Hsk : (negb (lo_strict o) && same_type (VDict DkDict d) cls)
                || match cls with Some TAny => true | _ => false end = false).
  { apply orb_false_iff. split; [|destruct cls as [[]|]; try reflexivity; now elim Ha].
    destruct Hs as [->|Hs]; [reflexivity|]. apply andb_false_iff. right. destruct cls as [t|]; [|reflexivity].
    cbn [same_type]. apply ty_eqb_neq. congruence. }
  rewrite Hsk.
  assert (Hl : match cls with Some (TFwd s) => dor t <- e_resolve E f s; Ok (Some t) | _ => Ok cls end = Ok cls).
  { destruct cls as [[]|]; try reflexivity. now elim (Hf s). }
  rewrite Hl, bind_lift_ok. cbn [valid_type negb].
  assert (Hg : get_cls_and_meta E f (VDict DkDict d) = Err (exn_of KKey)).
  { cbn [get_cls_and_meta]. rewrite Hm. cbn [py_getitem]. cbn [hashable]. rewrite Hc. reflexivity. }
  rewrite Hg. reflexivity.
Qed.

(** ** An explicit class is never overridden *)
Lemma load_explicit_class E n f o c j v :
  e_deser E f (TClass c) = Some DObject -> lo_inferred o = false ->
  snd (load E n f o (Some (TClass c)) j) = Done v -> class_of v = TClass c.
Proof.
  intros Hd Hi H. destruct n as [|n]; [discriminate|]. apply load_done in H as [_ H].
  destruct (skips o (Some (TClass c)) j) eqn:Es.
  - destruct H as [-> _]. unfold skips in Es. rewrite orb_false_r in Es. apply andb_true_iff in Es as [_ Es].
    now apply ty_eqb_eq in Es.
  - destruct H as (cls1 & tm & hints & t & h & Hr & _ & _ & Hp & Hh & H & _). cbn [resolved] in Hr. subst cls1.
    rewrite Hi in Hp. cbn [determine_precedence] in Hp. injection Hp as <-.
    rewrite Hd in Hh. injection Hh as <-. cbn [deser_step] in H. unfold deser_object in H. cbn [cid_of] in H.
    repeat match goal with H : snd (mbind _ _) = Done _ |- _ => apply bind_done in H as (? & _ & H) end.
    injection H as <-. reflexivity.
Qed.
(** ** The class that the meta data name takes precedence over an inferred one *)
Lemma load_meta_class E n f o t c j v :
  e_deser E f (TClass c) = Some DObject -> lo_inferred o = true -> meta_class E f j (TClass c) ->
  t <> TAny -> lo_strict o = true \/ t <> class_of j ->
  snd (load E n f o (Some t) j) = Done v -> class_of v = TClass c.
Proof.
  intros Hd Hi (k & d & km & meta & kc & hints & s & -> & H1 & H2 & H3 & H4) Ha Hs H.
  destruct n as [|n]; [discriminate|]. apply load_done in H as [_ H].
  assert (Hsk : skips o (Some t) (VDict k d) = false).
  { unfold skips. apply orb_false_iff. split; [|destruct t; (reflexivity || now elim Ha)].
    destruct Hs as [->|Hs]; [reflexivity|]. apply andb_false_iff. right. cbn [same_type]. apply ty_eqb_neq. congruence. }
  rewrite Hsk in H. destruct H as (cls1 & tm & hs & t1 & h & _ & _ & Hg & Hp & Hh & H & _).
  cbn [get_cls_and_meta] in Hg. rewrite H1 in Hg. cbn [py_getitem] in Hg. cbn [hashable] in Hg. rewrite H2 in Hg.
  cbn [opt_res rbind py_getitem hashable] in Hg. rewrite H3 in Hg. cbn [opt_res rbind] in Hg. rewrite H4 in Hg.
  cbn [rbind] in Hg. injection Hg as <- <-.
  rewrite Hi in Hp. cbn [determine_precedence] in Hp. injection Hp as <-.
  rewrite Hd in Hh. injection Hh as <-. cbn [deser_step] in H. unfold deser_object in H. cbn [cid_of] in H.
  repeat match goal with H : snd (mbind _ _) = Done _ |- _ => apply bind_done in H as (? & _ & H) end.
  injection H as <-. reflexivity.
Qed.
Lemma Forall2_nth {A B} (P : A -> B -> Prop) l m : Forall2 P l m ->
  forall i x, nth_error l i = Some x -> exists y, nth_error m i = Some y /\ P x y.
Proof.
  induction 1 as [|a b l m H1 H2 IH]; intros [|i] x H; try discriminate; cbn [nth_error] in *.
  - injection H as <-. eauto.
  - now apply IH.
Qed.
Lemma load_list_meta E n f o b t c l v i x :
  default_deserializers E f -> no_hints o -> lo_warn o = false ->
  e_deser E f (TClass c) = Some DObject ->
  snd (load E (S n) f o (Some (TApp b HList [t])) (VList l)) = Done v ->
  nth_error l i = Some x -> meta_class E f x (TClass c) ->
  t <> TAny -> lo_strict o = true \/ t <> class_of x ->
  exists ys y, v = VList ys /\ nth_error ys i = Some y /\ class_of y = TClass c.
Proof.
  intros HD Hh Hw Hd H Hn Hm Ha Hs. apply (load_list_done _ _ _ _ _ _ _ _ HD Hh Hw) in H as (ys & Hf & -> & _).
  destruct (Forall2_nth _ _ _ Hf _ _ Hn) as (y & Hy & Hl). exists ys, y. split; [reflexivity|]. split; [exact Hy|].
  eapply load_meta_class in Hl; eauto.
Qed.

(** ** Attributes *)
Lemma value_from_obj_meta E n f o hints p x y s c :
  lo_inferred o = false -> e_deser E f (TClass c) = Some DObject ->
  dget (VStr ("/" ++ pa_name p)) hints = Some (VStr s) -> s <> "" -> e_resolve E f s = Ok (TClass c) ->
  snd (value_from_obj E (load E n) f o hints p x) = Done y -> class_of y = TClass c.
Proof.
  intros Hi Hd Hk Hs Hr H. unfold value_from_obj in H. rewrite Hk in H.
  apply bind_done in H as (mh & Hm & H). apply lift_done in Hm.
  assert (Ht : truthy (e_rt E) (VStr s) = true) by (destruct s; [congruence|reflexivity]).
  rewrite Ht, Hr in Hm. cbn [rbind] in Hm.
  destruct (shift_hints ("/" ++ pa_name p) hints []) as [h'|]; [|discriminate]. injection Hm as <-.
  cbn [fst snd determine_precedence] in H.
  eapply load_explicit_class; [exact Hd| |exact H]. exact Hi.
Qed.
Lemma constructor_args_In E ld f o hints d g : forall ps args,
  snd (constructor_args E ld f o hints d g ps) = Done args ->
  (forall a y, In (a, y) args -> In a (map pa_name ps)) /\
  forall p x, In p ps -> dget (VStr (pa_name p)) d = Some x ->
  exists y, In (pa_name p, y) args /\ snd (value_from_obj E ld f o hints p x) = Done y.
Proof.
  induction ps as [|q ps IH]; intros args H; cbn [constructor_args] in H.
  - injection H as <-. split; [intros a y []|intros p x []].
  - apply bind_done in H as (r & Hr & H). apply bind_done in H as (rest & Hrest & H). injection H as <-.
    apply IH in Hrest as [H1 H2]. split.
    + intros a y Hin. cbn [map]. destruct r as [z|]; [destruct Hin as [Hin|Hin]; [left; congruence|]|]; right; eauto.
    + intros p x [->|Hp] Hx.
      * unfold value_for_attr in Hr. rewrite Hx in Hr. apply bind_done in Hr as (y & Hy & Hr). injection Hr as <-.
        exists y. split; [now left|exact Hy].
      * destruct (H2 _ _ Hp Hx) as (y & Hy & Hv). exists y. split; [|exact Hv]. destruct r; [now right|exact Hy].
Qed.
Lemma constructor_args_NoDup E ld f o hints d g : forall ps args,
  NoDup (map pa_name ps) ->
  snd (constructor_args E ld f o hints d g ps) = Done args -> NoDup (map fst args).
Proof.
  induction ps as [|q ps IH]; intros args Hn H; cbn [constructor_args] in H.
  - injection H as <-. constructor.
  - apply bind_done in H as (r & Hr & H). apply bind_done in H as (rest & Hrest & H). injection H as <-.
    cbn [map] in Hn. inversion Hn as [|? ? Hq Hn']; subst. pose proof (IH _ Hn' Hrest) as Hr'.
    destruct r; [|exact Hr']. cbn [map fst]. constructor; [|exact Hr'].
    intros Hin. apply in_map_iff in Hin as ([a y] & Ha & Hin). cbn [fst] in Ha. subst a.
    apply constructor_args_In in Hrest as [H1 _]. now apply Hq, H1 with y.
Qed.
Lemma set_remaining_keep E ld f o ci a : plain_setattr ci -> forall rest at_ r,
  snd (set_remaining E ld f o ci rest at_) = Done r -> (forall x, ~ In (VStr a, x) rest) -> sget a r = sget a at_.
Proof.
  intros Hp. induction rest as [|[k x] rest IH]; intros at_ r H Hn; cbn [set_remaining] in H.
  - now injection H as <-.
  - apply bind_done in H as ([] & _ & H). apply bind_done in H as (y & _ & H). destruct k; try discriminate.
    rewrite Hp in H. apply IH in H; [|intros z Hz; apply (Hn z); now right].
    rewrite H. apply sget_sset_other. intros ->. apply (Hn x). now left.
Qed.
Lemma load_attribute_meta E n f o c d km meta kc hints s0 t0 p x s c' v :
  lo_inferred o = false -> lo_hints o = None -> lo_kt o = None -> lo_getters o = [] ->
  e_deser E f (TClass c) = Some DObject -> e_deser E f (TClass c') = Some DObject ->
  stores_arguments (e_ct E c) -> plain_setattr (e_ct E c) ->
  NoDup (map pa_name (ci_params (e_ct E c))) ->
  dget (VStr "-meta") d = Some (VDict km meta) -> dget (VStr "classes") meta = Some (VDict kc hints) ->
  dget (VStr "/") hints = Some (VStr s0) -> e_resolve E f s0 = Ok t0 ->
  dget (VStr ("/" ++ pa_name p)) hints = Some (VStr s) -> s <> "" -> e_resolve E f s = Ok (TClass c') ->
  In p (ci_params (e_ct E c)) -> dget (VStr (pa_name p)) d = Some x ->
  snd (load E (S n) f o (Some (TClass c)) (VDict DkDict d)) = Done v ->
  exists attrs y, v = VObj c attrs /\ sget (pa_name p) attrs = Some y /\ class_of y = TClass c'.
Proof.
  intros Hi Hlh Hkt Hg Hd Hd' Hin Hset Hnd H1 H2 H3 H4 H5 Hs H6 Hp Hx H.
  apply load_done in H as [_ H].
  assert (Hsk : skips o (Some (TClass c)) (VDict DkDict d) = false) by (unfold skips; cbn; now rewrite andb_false_r).
  rewrite Hsk in H. destruct H as (cls1 & tm & hs & t1 & h & Hr & _ & Hgm & Hpr & Hh & H & _).
  cbn [resolved] in Hr. subst cls1.
  cbn [get_cls_and_meta] in Hgm. rewrite H1 in Hgm. cbn [py_getitem] in Hgm. cbn [hashable] in Hgm. rewrite H2 in Hgm.
  cbn [opt_res rbind py_getitem hashable] in Hgm. rewrite H3 in Hgm. cbn [opt_res rbind] in Hgm. rewrite H4 in Hgm.
  cbn [rbind] in Hgm. injection Hgm as <- <-.
  rewrite Hi in Hpr. cbn [determine_precedence] in Hpr. injection Hpr as <-.
  rewrite Hd in Hh. injection Hh as <-. cbn [deser_step] in H.
  unfold load_opts in H. rewrite Hlh, changed_same in H. unfold deser_object in H. cbn [cid_of obj_items] in H.
  rewrite bind_lift_ok in H. cbv zeta in H.
  change (lo_kt (set_inferred false (set_hints (Some hints) o))) with (lo_kt o) in H. rewrite Hkt in H.
  rewrite bind_lift_ok in H.
  change (match lo_hints (set_inferred false (set_hints (Some hints) o)) with Some h => h | None => [] end) with hints in H.
  change (lo_getters (set_inferred false (set_hints (Some hints) o))) with (lo_getters o) in H. rewrite Hg in H.
  apply bind_done in H as (args & Ha & H). apply bind_done in H as (rest & Hrest & H).
  apply lift_done, remaining_done in Hrest as [Hrest _].
  apply bind_done in H as ([] & _ & H). apply bind_done in H as (at0 & H0 & H). apply lift_done in H0.
  apply bind_done in H as (at1 & Hs1 & H). cbn [set_getter_attrs] in H. rewrite bind_ret_l in H. injection H as <-.
  pose proof (constructor_args_NoDup _ _ _ _ _ _ _ _ _ Hnd Ha) as Hndup.
  apply constructor_args_In in Ha as [_ Ha]. destruct (Ha _ _ Hp Hx) as (y & Hy & Hv).
  exists at1, y. split; [reflexivity|]. split.
  - rewrite (set_remaining_keep _ _ _ _ _ (pa_name p) Hset _ _ _ Hs1).
    + now apply (Hin _ _ _ _ H0).
    + intros z Hz. apply (extras_In _ _ _ Hrest) in Hz as [_ [_ Hz]]. now apply (Hz (pa_name p) y).
  - eapply value_from_obj_meta; [|exact Hd'|exact H5|exact Hs|exact H6|exact Hv]. reflexivity.
Qed.
Lemma take_params_sget ps : forall args at0 a y, NoDup (map pa_name ps) ->
  take_params ps args = Ok at0 -> In a (map pa_name ps) -> sget a args = Some y -> sget a at0 = Some y.
Proof.
  induction ps as [|p ps IH]; intros args at0 a y Hn H Hin Hs; [destruct Hin|].
  cbn [take_params] in H. cbn [map] in Hn. inversion Hn as [|? ? Hp Hn']; subst.
  destruct (take_params ps args) as [rest|] eqn:Er; [|discriminate]. cbn [rbind] in H.
  destruct Hin as [<-|Hin].
  - rewrite Hs in H. injection H as <-. unfold sget. cbn [aget]. now rewrite String.eqb_refl.
  - assert (Ha : String.eqb a (pa_name p) = false) by (apply String.eqb_neq; intros ->; contradiction).
    pose proof (IH _ _ _ _ Hn' Er Hin Hs) as Hr.
    destruct (sget (pa_name p) args); [injection H as <-; unfold sget; cbn [aget]; now rewrite Ha|].
    destruct (pa_default p); [|discriminate]. injection H as <-. unfold sget. cbn [aget]. now rewrite Ha.
Qed.
Lemma record_stores m name ps : NoDup (map pa_name ps) -> stores_arguments (record_class m name ps).
Proof.
  intros Hn args at0 a y H Hd Hin. unfold record_class in H. cbn [ci_init] in H. unfold init_of in H.
  destruct (forallb _ args) eqn:Ef; [|discriminate]. rewrite forallb_forall in Ef.
  pose proof (Ef _ Hin) as Ha. cbn [fst] in Ha. apply mem_str_In in Ha.
  eapply take_params_sget; eauto. now apply sget_NoDup.
Qed.
