(** * strip_nulls: no dict in a dump holds None *)
From Verif Require Import PyBaseFacts.
From Verif Require Export DumpProofs.
Local Open Scope string_scope.

Lemma nn_scalar CT v : json_scalar CT v -> no_nulls v.
Proof.
  intros H. apply nn_other.
  - intros l ->. destruct H as [H|[[] H]]; [discriminate|vm_compute in H; discriminate..].
  - intros k d ->. destruct H as [H|[[] H]]; [discriminate|destruct k; vm_compute in H; discriminate..].
Qed.
Lemma nn_str s : no_nulls (VStr s).
Proof. apply nn_other; discriminate. Qed.
Lemma nn_empty k : no_nulls (VDict k []).
Proof. apply nn_dict. intros a b []. Qed.
Lemma nn_dict_inv k d a b : no_nulls (VDict k d) -> In (a, b) d -> b <> VNone /\ no_nulls b.
Proof. intros H Hin. inversion H as [|? ? Hd|? ? Hd]; subst; [eauto|]. exfalso. eapply Hd. reflexivity. Qed.
Lemma nn_dset k d a b : no_nulls (VDict k d) -> b <> VNone -> no_nulls b -> no_nulls (VDict k (dset a b d)).
Proof.
  intros Hd Hb Hb'. apply nn_dict. intros a' b' Hin. apply aset_In in Hin as [Hin|[Eq _]].
  - eapply nn_dict_inv; eassumption.
  - subst; auto.
Qed.
Lemma nn_str_dict l : (forall a b, In (a, b) l -> b <> VNone /\ no_nulls b) -> no_nulls (str_dict l).
Proof.
  intros H. apply nn_dict. intros a b Hin. apply in_map_iff in Hin as ([a' b'] & Eq & Hin).
  inversion Eq; subst. eauto.
Qed.
Lemma json_key_not_none CT k : json_key CT k = false -> k <> VNone.
Proof. intros H ->. vm_compute in H. discriminate. Qed.

Section Nulls.
Variables (E : env) (f : nat) (o0 : sopts).
Let CT := e_ct E.
Variable V : option ty -> value -> Prop.
Let sr c x := serializer E f c x.
Hypothesis HD : default_serializers E f.
Hypothesis HW : wf_supers CT.
Hypothesis Velem : forall c x l y t, V c x -> iterates (sr c x) ->
  py_iter (e_rt E) x = Ok l -> In y l -> elem_type E o0 c x t -> V t y.
Hypothesis Vvalue : forall c x k y t, V c x -> sr c x = Some SDict -> py_getitem CT x k = Ok y ->
  (t = None \/ exists k' u, t = Some u /\ In (k', u) (so_types o0)) -> V t y.
Hypothesis Vattr : forall c x a y t, V c x -> (sr c x = Some SObject \/ sr c x = Some STuple) ->
  get_attr E x a = Ok y ->
  (t = None \/ exists i u, (c = Some (TClass i) \/ class_of x = TClass i) /\ t = Some u /\
                           In (a, u) (ci_hints (CT i))) -> V t y.
Hypothesis Valt : forall c x t, V c x -> sr c x = Some SUnion -> In t (get_args c) ->
  (x = VNone -> ~ In TNoneT (get_args c)) -> V (Some t) x.
Hypothesis Vnt : forall c i l, ~ V c (VNT i l).
Hypothesis Hcopy : forall c x a y, V c x -> copies o0 (sr c x) a -> get_attr E x a = Ok y ->
  no_nulls y /\ (y = VNone -> sr c x = Some SEnum).

Definition okn (o : sopts) : Prop :=
  so_strict o = so_strict o0 /\ so_enum_name o = so_enum_name o0 /\ so_strip_nulls o = true /\
  so_class_info o = false /\ (forall k t, In (k, t) (so_types o) -> In (k, t) (so_types o0)).
Lemma okn_types o : okn o -> okn (no_types o).
Proof. intros (H0 & H1 & H2 & H3 & _). repeat (split; [assumption|]). intros k t []. Qed.

Variable ser : sopts -> option shandler -> option ty -> value -> M value.
Hypothesis Hser : forall o cls v r, okn o -> V cls v ->
  snd (ser o (sr cls v) cls v) = Done r -> no_nulls r.
(** The offset of a timezone *)
Hypothesis Hoff : forall o cls us r, sr cls (VLeaf (LTimezone us None)) = Some STimezone ->
  snd (ser o (sr cls (VLeaf (LTimedelta us))) cls (VLeaf (LTimedelta us))) = Done r ->
  exists x, r = VFloat x.

Lemma dump_nn o cls v r : okn o -> V cls v -> snd (dump_ E f ser o cls v) = Done r -> no_nulls r.
Proof.
  intros Ho Hq. unfold dump_. rewrite bind_done. intros (u & _ & H).
  apply try_done in H as [H|(e & _ & H)]; [|discriminate]. eapply Hser; eassumption.
Qed.
Lemma nn_of_map o l g r :
  (forall x y, In x l -> snd (g x) = Done y -> no_nulls y) ->
  snd (mmap (B := value) g (l : list o)) = Done r -> no_nulls (VList r).
Proof.
  intros Hg H. apply mmap_done in H. apply nn_list. intros y Hy.
  assert (X : forall l' r', Forall2 (fun x y => snd (g x) = Done y) l' r' -> In y r' ->
             exists x, In x l' /\ snd (g x) = Done y).
  { induction 1; intros []; subst; [eexists; split; [now left|eassumption]|].
    destruct IHForall2 as (x' & ? & ?); [assumption|]. exists x'. split; [now right|assumption]. }
  destruct (X _ _ H Hy) as (x & Hx & Hxy). eauto.
Qed.
Lemma ser_list_nn o cls v r : okn o -> V cls v -> sr cls v = Some SList ->
  snd (ser_list E f ser o cls v) = Done r -> no_nulls r.
Proof.
  intros Ho Hq Hs. assert (Hit : iterates (sr cls v)) by (now left).
  unfold ser_list. destruct (negb (truthy (e_rt E) v)).
  { intros H. inversion H; subst. apply nn_list. intros x []. }
  cbv zeta. destruct (get_args cls) as [|t ts] eqn:Ea.
  - destruct (so_strict o) eqn:Est.
    + rewrite bind_done. intros (x0 & H0 & H). apply lift_done in H0.
      apply bind_done in H as (l & Hl & H). apply lift_done in Hl.
      apply bind_done in H as (l' & Hl' & H). inversion H; subst.
      eapply nn_of_map; [|exact Hl']. cbn beta. intros x y Hx Hy.
      eapply (Hser (set_store false o) (Some (class_of x0)) x); [exact Ho| |exact Hy].
      eapply Velem; [eassumption..|]. eapply et_first; [|exact H0]. destruct Ho as (<- & _). exact Est.
    + rewrite bind_done. intros (l & Hl & H). apply lift_done in Hl.
      apply bind_done in H as (l' & Hl' & H). inversion H; subst.
      eapply nn_of_map; [|exact Hl']. cbn beta. intros x y Hx Hy.
      eapply (dump_nn (set_store false o) None x); [exact Ho| |exact Hy].
      eapply Velem; [eassumption..|]. constructor.
  - rewrite bind_done. intros (l & Hl & H). apply lift_done in Hl.
    apply bind_done in H as (l' & Hl' & H). inversion H; subst.
    eapply nn_of_map; [|exact Hl']. cbn beta. intros x y Hx Hy.
    eapply (Hser (set_store false o) (Some t) x); [exact Ho| |exact Hy].
    eapply Velem; [eassumption..|]. apply et_arg. rewrite Ea. now left.
Qed.
Lemma ser_iterable_nn o c cls v r : okn o -> V c v -> iterates (sr c v) ->
  (forall t, In t (get_args cls) -> In t (get_args c)) ->
  snd (ser_iterable E f ser o cls v) = Done r -> no_nulls r.
Proof.
  intros Ho Hq Hit Hc. unfold ser_iterable. cbv zeta. rewrite bind_done. intros (l & Hl & H).
  apply lift_done in Hl. apply bind_done in H as (cls_ & Hcls & H). apply lift_done in Hcls.
  apply bind_done in H as (subs & Hsubs & H). apply lift_done in Hsubs.
  apply bind_done in H as (r' & Hr & H). inversion H; subst. clear H.
  assert (Hc' : forall t, In t (get_args cls_) -> elem_type E o0 c v (Some t)).
  { destruct (so_strict o) eqn:Est; [|inversion Hcls; subst; intros t []].
    assert (Est0 : so_strict o0 = true) by (destruct Ho as (<- & _); exact Est).
    unfold determine_cls in Hcls.
    destruct cls as [c'|]; [inversion Hcls; subst; intros; apply et_arg; auto|].
    assert (Ht : forall y, slice1 v y -> forall t, In t (get_args (Some (rt_type (e_rt E) y))) ->
                   elem_type E o0 c v (Some t)) by (intros y Hy t Ht; eapply et_typish; eassumption).
    destruct v as [| | | |[|ch s]|[|x l1]|[|x l1]|[] [|x l1]|k [|x l1]| | |c' [|x l1]|];
      inversion Hcls; subst; try (intros t []); apply Ht; constructor. }
  eapply nn_of_map; [|exact Hr]. cbn beta. intros [x c1] y Hin Hy. cbn [fst snd] in Hy.
  eapply (dump_nn (set_store false o) c1 x); [exact Ho| |exact Hy].
  eapply Velem; [eassumption..| |].
  - apply in_combine_l in Hin. exact Hin.
  - apply in_combine_r in Hin. destruct c1 as [t|]; [|constructor].
    unfold get_subclasses in Hsubs. destruct (get_args cls_) as [|t1 [|t2 ts]] eqn:Ea.
    + inversion Hsubs; subst. apply repeat_spec in Hin. discriminate.
    + inversion Hsubs; subst. apply repeat_spec in Hin. inversion Hin; subst. apply Hc'. now left.
    + destruct (Nat.eqb _ _); [|discriminate]. inversion Hsubs; subst.
      change (Some t1 :: Some t2 :: map Some ts) with (map Some (t1 :: t2 :: ts)) in Hin.
      apply in_map_iff in Hin as (t' & Et & Hin). inversion Et; subst. apply Hc'. exact Hin.
Qed.
Lemma ser_tuple_nn o cls v r : okn o -> V cls v -> sr cls v = Some STuple ->
  snd (ser_tuple E f ser o cls v) = Done r -> no_nulls r.
Proof.
  intros Ho Hq Hs. assert (Hit : iterates (sr cls v)) by (now right; right; left).
  assert (Hn : snd (ser_iterable E f ser o None v) = Done r -> no_nulls r)
    by (eapply ser_iterable_nn; [exact Ho|exact Hq|exact Hit|intros t []]).
  assert (Ht : forall t, cls = Some t -> snd
     (match raw_args t with
      | None => fail (exn_of KAttribute)
      | Some args =>
          if ty_eqb TEllipsis (last args TAny) then
            dom l <- lift (py_iter (e_rt E) v);
            ser_iterable E f ser o (Some (TApp true HTuple (repeat (hd TAny args) (length l)))) v
          else ser_iterable E f ser o (Some t) v
      end) = Done r -> no_nulls r).
  { intros t ->. destruct (raw_args t) as [args|] eqn:Ea; [|discriminate].
    destruct (ty_eqb TEllipsis (last args TAny)) eqn:El.
    - rewrite bind_done. intros (l & Hl & H). eapply ser_iterable_nn; [exact Ho|exact Hq|exact Hit| |exact H].
      intros t' Ht'. assert (t' = hd TAny args) as ->.
      { cbn in Ht'. destruct (repeat (hd TAny args) (length l)) eqn:Er; [destruct Ht'|].
        rewrite <- Er in Ht'. now apply repeat_spec in Ht'. }
      cbn. rewrite Ea. destruct args; [discriminate|]. now left.
    - intros H. eapply ser_iterable_nn; [exact Ho|exact Hq|exact Hit| |exact H]. auto. }
  unfold ser_tuple. destruct v; destruct cls as [t|]; first [exact Hn | exact (Ht t eq_refl) | idtac];
    exfalso; eapply Vnt; exact Hq.
Qed.
Lemma ser_dict_go_nn o c v : okn o -> V c v -> sr c v = Some SDict -> forall keys result r,
  (forall k, In k keys -> V None k) -> no_nulls (VDict DkDict result) ->
  snd (ser_dict_go E f ser o v keys result) = Done r -> no_nulls (VDict DkDict r).
Proof.
  intros Ho Hq Hsd. induction keys as [|key keys IH]; intros result r Hk Hr; cbn [ser_dict_go].
  - intros H; inversion H; subst; assumption.
  - rewrite bind_done. intros (x & Hx & H). apply lift_done in Hx.
    apply bind_done in H as ([res1 k1] & Hs & H). apply bind_done in H as (d & Hd & H).
    cbn [fst snd] in H.
    assert (Hs1 : no_nulls (VDict DkDict res1)).
    { unfold store_and_hash in Hs. destruct (json_key (e_ct E) key) eqn:Ek.
      - inversion Hs; subst. assumption.
      - apply bind_done in Hs as (dk & Hdk & Hs).
        apply dump_nn in Hdk; [|exact Ho|apply Hk; now left].
        destruct (json_key (e_ct E) dk) eqn:Edk; [inversion Hs; subst; assumption|].
        apply json_key_not_none in Edk.
        cbv zeta in Hs. destruct (dget (VStr "-keys") result) as [s|] eqn:Eg.
        + apply aget_In' in Eg as [k' Hin]. eapply nn_dict_inv in Hin as [_ Hjs]; [|exact Hr].
          destruct s; try discriminate. inversion Hs; subst.
          apply nn_dset; [assumption|discriminate|]. apply nn_dset; assumption.
        + inversion Hs; subst. apply nn_dset; [assumption|discriminate|]. apply nn_dict.
          intros a b [Eq|[]]. inversion Eq; subst. split; assumption. }
    apply dump_nn in Hd; [|now apply okn_types|].
    2: { eapply Vvalue; [eassumption..|]. destruct (aget py_eqb key (so_types o)) eqn:Et; [right|now left].
         apply aget_In' in Et as [k' Hin]. destruct Ho as (_ & _ & _ & _ & Ho). eauto. }
    assert (Hk' : forall k, In k keys -> V None k) by (intros; apply Hk; now right).
    assert (Hsn : so_strip_nulls o = true) by (now destruct Ho as (_ & _ & Ho & _)).
    rewrite Hsn in H. destruct (is_none d) eqn:En; cbn [andb] in H.
    + eapply IH; [exact Hk'|exact Hs1|exact H].
    + apply bind_done in H as (k2 & Hk2 & H).
      eapply IH; [exact Hk'| |exact H]. apply nn_dset; [assumption| |assumption].
      intros ->. discriminate.
Qed.
Lemma ser_union_nn o cls v r : okn o -> V cls v -> sr cls v = Some SUnion ->
  snd (ser_union E f ser o cls v) = Done r -> no_nulls r.
Proof.
  intros Ho Hq Hs. unfold ser_union. destruct cls as [t|]; [|discriminate].
  destruct (raw_args t) as [ts|] eqn:Ea; [|discriminate].
  destruct (is_none v && existsb (ty_eqb TNoneT) ts) eqn:En.
  { intros H; inversion H; subst. apply nn_other; discriminate. }
  assert (Ht : forall t', In t' ts -> V (Some t') v)
    by (intros t' Hin; eapply Valt; [exact Hq|exact Hs|cbn; now rewrite Ea|];
        intros ->; cbn [get_args]; rewrite Ea; intros Hn; apply existsb_ty_In in Hn; cbn [is_none andb] in En; congruence).
  clear Ea En. induction ts as [|t1 ts IH]; cbn [ser_union_go]; [discriminate|].
  rewrite try_done. intros [H|(e & He & H)].
  - eapply dump_nn; [exact Ho| |exact H]. apply Ht. now left.
  - destruct (is_jsons (e_kind e)); [|discriminate]. apply IH; [intros; apply Ht; now right|exact H].
Qed.
Lemma store_cls_nn b d x : no_nulls d -> no_nulls (store_cls_info E b d x).
Proof.
  intros H. destruct d; try exact H. cbn. destruct b; [|exact H].
  apply nn_dset; [assumption|discriminate|apply nn_str].
Qed.
Lemma do_serialize_nn o p v attrs : okn o ->
  (forall a t x, In (a, t) attrs -> get_attr E v a = Ok x -> V t x) ->
  forall result r, no_nulls (VDict DkDict result) ->
  snd (do_serialize E f ser o p v attrs result) = Done r -> no_nulls (VDict DkDict r).
Proof.
  intros Ho. induction attrs as [|[a c] attrs IH]; intros Ha result r Hr; cbn [do_serialize].
  - intros H; inversion H; subst; assumption.
  - rewrite bind_done. intros (x & Hx & H). apply lift_done in Hx. cbv zeta in H.
    apply bind_done in H as (u & _ & H). apply bind_done in H as (res1 & Hres & H).
    destruct res1 as [d|e].
    + assert (Hd : no_nulls d).
      { unfold mcatch in Hres.
        destruct (snd (dom d <- ser o (e_ser E f match c with Some t => t | None => class_of x end) c x;
                       ret (store_cls_info E (so_store_cls o) d x))) as [d'|e'|] eqn:Es;
          cbn in Hres; inversion Hres; subst.
        apply bind_done in Es as (d1 & Hd1 & Hd2). inversion Hd2; subst. apply store_cls_nn.
        eapply (Hser o c x); [exact Ho| |exact Hd1]. eapply (Ha a); [now left|exact Hx]. }
      assert (Ha' : forall a t x, In (a, t) attrs -> get_attr E v a = Ok x -> V t x)
        by (intros a' t' x' Hin; apply (Ha a'); now right).
      assert (Hsn : so_strip_nulls o = true) by (now destruct Ho as (_ & _ & Ho & _)).
      cbv zeta in H. rewrite Hsn in H. destruct (is_none d) eqn:En; cbn [andb] in H.
      * eapply IH; [exact Ha'|exact Hr|exact H].
      * apply bind_done in H as (k2 & Hk2 & H).
        eapply IH; [exact Ha'| |exact H]. apply nn_dset; [assumption| |assumption].
        intros ->. discriminate.
    + destruct (so_strict o); [discriminate|]. destruct (e_noargs e); [discriminate|].
      apply bind_done in H as (u' & _ & H). inversion H; subst. assumption.
Qed.
Lemma dict_with_meta_nn o name d r : so_class_info o = false ->
  no_nulls (VDict DkDict d) -> dict_with_meta E o name d = Ok r -> no_nulls r.
Proof.
  intros Hci Hd. unfold dict_with_meta. rewrite Hci. cbn [negb andb].
  destruct (so_dump_time o); cbn; intros H; inversion H; subst; [|assumption].
  apply nn_dset; [|discriminate|].
  - apply nn_dset; [assumption|discriminate|apply nn_empty].
  - apply nn_dict. intros a b [Eq|[]]. inversion Eq; subst. split; [discriminate|apply nn_str].
Qed.
Lemma ser_step_nn o cls v r : okn o -> V cls v ->
  snd (ser_step E f ser o (sr cls v) cls v) = Done r -> no_nulls r.
Proof.
  intros Ho Hq. unfold ser_step.
  destruct (sr cls v) as [h|] eqn:Eh; [|discriminate].
  assert (Hcp : forall a y, copies o0 (Some h) a -> get_attr E v a = Ok y ->
                no_nulls y /\ (y = VNone -> h = SEnum)).
  { intros a y Ha Hy. destruct (Hcopy cls v a y Hq) as [H1 H2]; [rewrite Eh; assumption|assumption|].
    split; [assumption|]. intros H. apply H2 in H. congruence. }
  assert (Htime : forall b p, snd (ser_time_like E f b p v) = Done r -> no_nulls r).
  { intros b p. unfold ser_time_like. rewrite bind_done. intros (sw & _ & H).
    apply bind_done in H as (u & _ & H). inversion H; subst. apply nn_str. }
  destruct h; intros H; eauto using ser_tuple_nn, ser_list_nn, ser_union_nn.
  - (* complex *) apply bind_done in H as (re & Hre & H). apply bind_done in H as (im & Him & H).
    apply lift_done in Hre, Him. inversion H; subst. apply nn_str_dict.
    destruct (Hcp "real" re) as [N1 M1]; [now left|assumption|].
    destruct (Hcp "imag" im) as [N2 M2]; [now right|assumption|].
    intros a b [Eq|[Eq|[]]]; inversion Eq; subst; (split; [|assumption]); intros X; discriminate (M1 X) || discriminate (M2 X).
  - (* timezone *) destruct v as [| | | | | | | | |x| | |]; try discriminate.
    destruct x; try discriminate. apply bind_done in H as (d & Hd & H). inversion H; subst.
    unfold dump_ in Hd. apply bind_done in Hd as (u & _ & Hd).
    apply try_done in Hd as [Hd|(e & _ & Hd)]; [|discriminate].
    destruct (Hoff o cls off d) as [x ->]; [exact Eh|exact Hd|]. apply nn_str_dict.
    intros a b [Eq|[Eq|[]]]; inversion Eq; subst; (split; [discriminate|]); apply nn_other; discriminate.
  - destruct v as [| | | | | | | | |x| | |]; try discriminate. destruct x; try discriminate.
    inversion H; subst. apply nn_other; discriminate.
  - (* primitive *) apply lift_done in H. eapply nn_scalar, ser_primitive_scalar; [exact HW| |exact H].
    rewrite <- HD. exact Eh.
  - apply lift_done in H. destruct Ho as (_ & Hen & _). rewrite Hen in H. eapply Hcp; [|exact H]. reflexivity.
  - unfold ser_dict in H. apply bind_done in H as (keys & Hk & H). apply lift_done in Hk.
    apply bind_done in H as (d & Hd & H). inversion H; subst.
    eapply ser_dict_go_nn; [exact Ho|exact Hq|exact Eh| |apply nn_empty|exact Hd].
    intros k Hin. eapply Velem; [exact Hq| |exact Hk|exact Hin|constructor]. rewrite Eh. unfold iterates. auto.
  - eapply ser_iterable_nn; [exact Ho|exact Hq| | |exact H]; [|auto]. rewrite Eh. unfold iterates. auto.
  - (* object *) unfold ser_object in H. apply bind_done in H as (attrs & Ha & H). apply lift_done in Ha.
    cbv zeta in H. apply bind_done in H as (d & Hd & H).
    apply do_serialize_nn in Hd; [|exact Ho| |apply nn_empty].
    2: { eapply (object_attrs_visited E f V Vattr); eassumption. }
    destruct (so_store_cls o); [inversion H; subst; assumption|].
    apply lift_done in H. eapply dict_with_meta_nn; [|exact Hd|exact H]. apply Ho.
  - apply lift_done in H. apply rbind_ok in H as (s & _ & H). inversion H; subst. apply nn_str.
  - apply lift_done in H. apply rbind_ok in H as (s & _ & H). inversion H; subst. apply nn_str.
  - destruct v as [| | | | | | | | |x| | |]; try discriminate. destruct x; try discriminate.
    inversion H; subst. apply nn_str.
  - apply bind_done in H as (k & Hk & H). apply lift_done in Hk. inversion H; subst. apply nn_str_dict.
    destruct (Hcp "key" k) as [N1 M1]; [reflexivity|assumption|].
    intros a b [Eq|[]]; inversion Eq; subst. split; [|assumption]. intros X. discriminate (M1 X).
  - exfalso. unfold sr, serializer in Eh. rewrite HD in Eh. now apply ser_no_custom in Eh.
Qed.
End Nulls.

Lemma timezone_offset_float E f : default_serializers E f -> forall n o cls us name r,
  serializer E f cls (VLeaf (LTimezone us name)) = Some STimezone ->
  snd (serialize E f n o (serializer E f cls (VLeaf (LTimedelta us))) cls (VLeaf (LTimedelta us))) = Done r ->
  exists x, r = VFloat x.
Proof.
  intros HD n o cls us name r Hs H. destruct n as [|n]; [discriminate|]. cbn [serialize] in H.
  destruct cls as [t|].
  - unfold serializer, tyof in *. rewrite Hs in H. discriminate.
  - unfold serializer, tyof in *. rewrite HD in H.
    replace (default_ser (e_ct E) (class_of (VLeaf (LTimedelta us)))) with (Some STimedelta) in H
      by (rewrite default_ser_eq; vm_compute; reflexivity).
    inversion H; subst. eauto.
Qed.
Lemma serialize_no_nulls E f o0 cls0 v0 :
  default_serializers E f -> wf_supers (e_ct E) -> no_named_tuples E f o0 cls0 v0 ->
  copied_clean E f o0 cls0 v0 ->
  forall n o cls v r, okn o0 o -> visits E f o0 cls0 v0 cls v ->
  snd (serialize E f n o (serializer E f cls v) cls v) = Done r -> no_nulls r.
Proof.
  intros HD HW Hnt Hc. induction n as [|n IH]; intros o cls v r Ho Hq; [discriminate|].
  cbn [serialize]. apply (ser_step_nn E f o0 (visits E f o0 cls0 v0)); eauto using visits.
  intros o' cls' us r'. eapply timezone_offset_float; eassumption.
Qed.
Lemma dump_no_nulls E f n o cls v r :
  default_serializers E f -> wf_supers (e_ct E) -> so_strip_nulls o = true -> so_class_info o = false ->
  no_named_tuples E f o cls v -> copied_clean E f o cls v ->
  snd (dump E f n o cls v) = Done r -> no_nulls r.
Proof.
  intros HD HW Hs Hci Hnt Hcp H. unfold dump in H.
  eapply (dump_nn E f o (visits E f o cls v)); [| | |exact H].
  - intros o' cls' v' r'. eapply serialize_no_nulls; eassumption.
  - repeat split; auto.
  - apply visit_root.
Qed.
