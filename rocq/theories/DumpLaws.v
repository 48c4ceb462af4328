(** * Laws of dump: failures, attributes, documents, unions, strict lists, forks *)
From Verif Require Import PyBaseFacts.
From Verif Require Export RewriteProofs.
From Coq Require Import Sorting.Sorted.
Local Open Scope string_scope.

Lemma bind_ext {A B} (m : M A) (k k' : A -> M B) : (forall a, k a = k' a) -> mbind m k = mbind m k'.
Proof. intros H. unfold mbind. destruct (snd m); [now rewrite H|reflexivity|reflexivity]. Qed.
Lemma mmap_ext {A B} (g g' : A -> M B) l : (forall x, In x l -> g x = g' x) -> mmap g l = mmap g' l.
Proof.
  induction l as [|x l IH]; cbn [mmap]; intros H; [reflexivity|].
  rewrite (H x) by now left. rewrite IH by (intros; apply H; now right). reflexivity.
Qed.
Lemma Forall2_impl' {A B} (P Q : A -> B -> Prop) l l' :
  (forall x y, P x y -> Q x y) -> Forall2 P l l' -> Forall2 Q l l'.
Proof. intros H. induction 1; constructor; auto. Qed.
Lemma try_ext {A} (m : M A) h h' : (forall e, h e = h' e) -> mtry m h = mtry m h'.
Proof. intros H. unfold mtry. destruct (snd m); rewrite ?H; reflexivity. Qed.

(** ** Failures *)
Lemma dump_fails_ser E f n o c v e : snd (dump E f n o c v) = Fail e -> e_kind e = KSer.
Proof.
  unfold dump, dump_. rewrite bind_fail. intros [H|(u & _ & H)]; [discriminate|].
  unfold wrap_ser in H. apply try_fail in H as (e' & _ & H). inversion H; reflexivity.
Qed.
Lemma dump_done_iff E f ser o c v r :
  snd (dump_ E f ser o c v) = Done r <-> snd (ser o (serializer E f c v) c v) = Done r.
Proof.
  unfold dump_, serializer, tyof. rewrite bind_done. split.
  - intros (u & _ & H). apply try_done in H as [H|(e & _ & H)]; [exact H|discriminate].
  - intros H. exists tt. split; [reflexivity|]. unfold wrap_ser, mtry. now rewrite H.
Qed.
Lemma dump_fail_iff E f ser o c v :
  (exists e, snd (dump_ E f ser o c v) = Fail e) <-> exists e, snd (ser o (serializer E f c v) c v) = Fail e.
Proof.
  unfold dump_, serializer, tyof. split.
  - intros (e & H). apply bind_fail in H as [H|(u & _ & H)]; [discriminate|].
    unfold wrap_ser in H. apply try_fail in H as (e' & H & _). eauto.
  - intros (e & H). exists (exn_of KSer). apply bind_fail. right. exists tt. split; [reflexivity|].
    unfold wrap_ser, mtry. rewrite H. reflexivity.
Qed.

(** ** Attributes *)
Lemma class_props_In a ms : In a (class_props ms) <-> In (a, MProp) ms.
Proof.
  unfold class_props. rewrite in_map_iff. split.
  - intros ([b m] & <- & H). apply filter_In in H as [H Hp]. destruct m; try discriminate. exact H.
  - intros H. exists (a, MProp). split; [reflexivity|]. apply filter_In. auto.
Qed.
Lemma other_vars_In a ms : In a (other_class_vars ms) <-> exists m, In (a, m) ms /\ m <> MProp.
Proof.
  unfold other_class_vars. rewrite in_map_iff. split.
  - intros ([b m] & <- & H). apply filter_In in H as [H Hp]. exists m. split; [exact H|].
    intros ->. discriminate.
  - intros (m & H & Hn). exists (a, m). split; [reflexivity|]. apply filter_In. split; [exact H|].
    now destruct m.
Qed.
Lemma mem_str_false s l : mem_str s l = false <-> ~ In s l.
Proof. rewrite <- mem_str_In. destruct (mem_str s l); split; congruence. Qed.
Lemma member_dec (a b : member) : {a = MProp} + {a <> MProp}.
Proof. destruct a; (now left) || (right; discriminate). Qed.
Lemma same_names l m : forallb (fun a => mem_str a m) l = true -> forallb (fun a => mem_str a l) m = true ->
  forall a, In a l <-> In a m.
Proof.
  rewrite !forallb_forall. intros H1 H2 a. split; intros H; apply mem_str_In; auto.
Qed.
Lemma reserved_same a : In a reserved_names <-> In a json_serializable_names.
Proof. revert a. apply same_names; vm_compute; reflexivity. Qed.
Lemma abc_same a : In a abc_attrs <-> In a abc_names.
Proof. revert a. apply same_names; vm_compute; reflexivity. Qed.
Definition visible0 (ms : list (string * member)) (o : sopts) (strip : list string) (a : string) : Prop :=
  prefix "__" a = false /\
  (so_privates o = true -> prefix "_" a = false) /\
  (so_properties o = true -> ~ In (a, MProp) ms) /\
  (so_class_vars o = true -> forall m, In (a, m) ms -> m = MProp) /\
  ~ In a strip /\ ~ In a abc_attrs /\ ~ In a reserved_names /\
  sget a ms <> Some MCallable /\ sget a ms <> Some (MClass (Some true)).
Lemma visible_same ms o strip a : visible0 ms o strip a <-> visible ms o strip a.
Proof. unfold visible0, visible. now rewrite reserved_same, abc_same. Qed.
Lemma keep_attr_visible ms o strip a : readable ms ->
  exists k, keep_attr ms o (strip ++ abc_attrs)%list a = Ok k /\ (k = true <-> visible ms o strip a).
Proof.
  intros Hr. setoid_rewrite <- visible_same. unfold keep_attr, visible0.
  destruct (prefix "__" a); [exists false; split; [reflexivity|]; split; [discriminate|intros (X & _); discriminate]|].
  destruct (so_privates o && prefix "_" a) eqn:E1.
  { apply andb_true_iff in E1 as [P1 P2]. exists false. split; [reflexivity|]. split; [discriminate|].
    intros (_ & X & _). rewrite X in P2; [discriminate|assumption]. }
  destruct (so_properties o && mem_str a (class_props ms)) eqn:E2.
  { apply andb_true_iff in E2 as [P1 P2]. apply mem_str_In, class_props_In in P2.
    exists false. split; [reflexivity|]. split; [discriminate|].
    intros (_ & _ & X & _). now destruct (X P1). }
  destruct (so_class_vars o && mem_str a (other_class_vars ms)) eqn:E3.
  { apply andb_true_iff in E3 as [P1 P2]. apply mem_str_In, other_vars_In in P2 as (m & Hm & Hn).
    exists false. split; [reflexivity|]. split; [discriminate|].
    intros (_ & _ & _ & X & _). destruct Hn. now apply X. }
  destruct (mem_str a (strip ++ abc_attrs)) eqn:E4.
  { apply mem_str_In, in_app_iff in E4. exists false. split; [reflexivity|]. split; [discriminate|].
    intros (_ & _ & _ & _ & X & Y & _). tauto. }
  assert (Hns : ~ In a strip /\ ~ In a abc_attrs).
  { apply mem_str_false in E4. rewrite in_app_iff in E4. tauto. }
  destruct (String.eqb a "json") eqn:E5.
  { apply String.eqb_eq in E5. subst. exists false. split; [reflexivity|]. split; [discriminate|].
    intros (_ & _ & _ & _ & _ & _ & X & _). destruct X. unfold reserved_names, In. tauto. }
  assert (Hall : forall X : Prop, ~ In a reserved_names -> sget a ms <> Some MCallable -> 
     (X <-> sget a ms <> Some (MClass (Some true))) ->
     (X <-> (false = false /\ (so_privates o = true -> prefix "_" a = false) /\
     (so_properties o = true -> ~ In (a, MProp) ms) /\
     (so_class_vars o = true -> forall m, In (a, m) ms -> m = MProp) /\
     ~ In a strip /\ ~ In a abc_attrs /\ ~ In a reserved_names /\
     sget a ms <> Some MCallable /\ sget a ms <> Some (MClass (Some true))))).
  { intros X R1 R2 R3. rewrite R3. split; [|tauto]. intros R4. split; [reflexivity|].
    split. { intros P. rewrite P in E1. exact E1. }
    split. { intros P. rewrite P in E2. cbn [andb] in E2. apply mem_str_false in E2. now rewrite class_props_In in E2. }
    split. { intros P m Hm. rewrite P in E3. cbn [andb] in E3. apply mem_str_false in E3.
             rewrite other_vars_In in E3. destruct (member_dec m m) as [|Hn]; [assumption|]. destruct E3; eauto. }
    tauto. }
  destruct (mem_str a reserved_names) eqn:E6.
  - apply mem_str_In in E6.
    exists false. split; [destruct (sget a ms) as [[]|]; reflexivity|]. split; [discriminate|].
    intros (_ & _ & _ & _ & _ & _ & X & _). tauto.
  - apply mem_str_false in E6. specialize (Hr a).
    destruct (sget a ms) as [[| | |[inner|]|]|] eqn:Eg.
    + exists true. split; [reflexivity|]. apply Hall; [assumption|congruence|]. split; congruence.
    + exists false. split; [reflexivity|]. split; [discriminate|]. intros (_ & _ & _ & _ & _ & _ & _ & X & _). congruence.
    + exists true. split; [reflexivity|]. apply Hall; [assumption|congruence|]. split; congruence.
    + exists (negb inner). split; [reflexivity|]. apply Hall; [assumption|congruence|]. destruct inner; cbn; split; congruence.
    + congruence.
    + exists true. split; [reflexivity|]. apply Hall; [assumption|congruence|]. split; congruence.
    + exists true. split; [reflexivity|]. apply Hall; [assumption|congruence|]. split; congruence.
Qed.
(** Filtering keeps the visible names, in the same order. *)
Inductive selects {A} (P : A -> Prop) : list A -> list A -> Prop :=
| sel_nil : selects P [] []
| sel_keep x l r : P x -> selects P l r -> selects P (x :: l) (x :: r)
| sel_drop x l r : ~ P x -> selects P l r -> selects P (x :: l) r.
Lemma selects_In {A} (P : A -> Prop) l r x : selects P l r -> (In x r <-> In x l /\ P x).
Proof.
  induction 1 as [|y l r Hy _ IH|y l r Hy _ IH]; cbn; [tauto| |]; rewrite IH; split; intros H.
  - destruct H as [->|[]]; tauto.
  - destruct H as [[->|] ?]; tauto.
  - tauto.
  - destruct H as [[->|] ?]; tauto.
Qed.
Lemma filter_attrs_selects ms o strip : readable ms -> forall l,
  exists r, filter_attrs ms o (strip ++ abc_attrs)%list l = Ok r /\
            selects (fun at_ => visible ms o strip (fst at_)) l r.
Proof.
  intros Hr. induction l as [|[a t] l (r & IH & Hs)].
  - exists []. split; [reflexivity|constructor].
  - destruct (keep_attr_visible ms o strip a Hr) as (k & Hk & Hv).
    cbn [filter_attrs]. rewrite Hk. cbn [rbind]. rewrite IH. cbn [rbind]. destruct k.
    + exists ((a, t) :: r). split; [reflexivity|]. apply sel_keep; [now apply Hv|assumption].
    + exists r. split; [reflexivity|]. apply sel_drop; [|assumption]. intros Hc. apply Hv in Hc. discriminate.
Qed.
Lemma strips_names a l : strips a l ->
  strip_names a = Ok (l ++ abc_attrs)%list /\ normalize_strip_attr a = SATuple l.
Proof.
  unfold strip_names. destruct a as [|s|l'|l']; cbn; try tauto; try (intros ->; auto).
  intros [Hs ->]. destruct s; [congruence|]. auto.
Qed.

Section Objects.
Variables (E : env) (f n : nat).
Let ser := serialize E f n.
(** What the attribute loop does, without renaming, stripping of nulls and meta data *)
Lemma do_serialize_done o v : so_kt o = None -> so_strip_nulls o = false -> so_store_cls o = false ->
  forall attrs acc r,
  NoDup (map fst attrs) -> (forall s, In s (map fst attrs) -> ~ In (VStr s) (map fst acc)) ->
  snd (do_serialize E f ser o false v attrs acc) = Done r ->
  exists ds, r = (acc ++ combine (map VStr (map fst attrs)) ds)%list /\
    Forall2 (attr_dumps E f n o v) (firstn (length ds) attrs) ds /\
    (length ds < length attrs -> so_strict o = false /\
       exists at_, nth_error attrs (length ds) = Some at_ /\ attr_fails E f n o v at_ /\
         (e_warn E f "attribute-not-serialized" = true ->
          In (EvWarn f "attribute-not-serialized") (fst (do_serialize E f ser o false v attrs acc)))) /\
    length ds <= length attrs.
Proof.
  intros O1 O2 O3. induction attrs as [|[a c] attrs IH]; intros acc r Hn Hd; cbn [do_serialize map fst].
  - intros H. inversion H; subst. exists []. rewrite app_nil_r.
    split; [reflexivity|]. split; [constructor|]. split; [|cbn; lia]. intros Hlt. cbn in Hlt. lia.
  - cbn [map fst] in Hn, Hd. apply NoDup_cons_iff in Hn as [Hna Hn].
    rewrite bind_done. intros (x & Hx & H). apply lift_done in Hx. rewrite Hx. rewrite bind_lift_ok. cbv zeta in *.
    apply bind_done in H as (u & _ & H).
    change (e_ser E f match c with Some t => t | None => class_of x end) with (serializer E f c x) in *.
    apply bind_done in H as (res1 & Hres & H).
    unfold mcatch in Hres. unfold ser in Hres. rewrite O3 in Hres.
    destruct (snd (dom d <- serialize E f n o (serializer E f c x) c x; ret (store_cls_info E false d x))) as [d'|e'|] eqn:Es;
      cbn in Hres; inversion Hres; subst; clear Hres.
    + assert (Hd' : snd (serialize E f n o (serializer E f c x) c x) = Done d').
      { apply bind_done in Es as (d1 & Hd1 & Hd2). injection Hd2 as <-. destruct d1; exact Hd1. }
      rewrite O2, O1 in H. cbn [andb] in H. unfold apply_kt in H. cbn [rbind hashable] in H. rewrite bind_lift_ok in H.
      assert (Hfresh : forall s, In s (map fst attrs) -> ~ In (VStr s) (map fst (dset (VStr a) d' acc))).
      { intros s' Hs'. rewrite dset_new by (apply Hd; now left). rewrite map_app, in_app_iff. cbn.
        intros [Hi|[Eq|[]]]; [eapply Hd; [right; exact Hs'|exact Hi]|]. injection Eq as ->. tauto. }
      destruct (IH _ _ Hn Hfresh H) as (ds & Hr & Hf & Hk & Hle).
      exists (d' :: ds). split.
      { rewrite Hr. rewrite dset_new by (apply Hd; now left). rewrite <- app_assoc. reflexivity. }
      split. { cbn [length firstn]. constructor; [|exact Hf]. exists x. split; [exact Hx|]. now apply dump_done_iff. }
      split; [|cbn; lia]. cbn [length nth_error]. intros Hlt.
      destruct Hk as (S1 & at_ & N1 & N2 & N3); [lia|]. split; [exact S1|]. exists at_. split; [exact N1|]. split; [exact N2|].
      intros Hw. specialize (N3 Hw).
      unfold mbind at 1. cbn [emit snd fst]. apply in_or_app. right.
      unfold mbind at 1. unfold mcatch, ser. rewrite O3, Es. cbn [fst snd]. apply in_or_app. right.
      rewrite O2, O1. cbn [andb]. unfold apply_kt. cbn [rbind hashable]. rewrite bind_lift_ok. exact N3.
    + destruct (so_strict o) eqn:Est; [discriminate|]. destruct (e_noargs e') eqn:Ena; [discriminate|].
      apply bind_done in H as (u' & _ & H). injection H as <-.
      exists []. rewrite app_nil_r. split; [reflexivity|]. split; [constructor|]. split; [|cbn; lia].
      intros _. split; [reflexivity|]. exists (a, c). split; [reflexivity|]. split.
      * assert (Hf : exists e, snd (serialize E f n o (serializer E f c x) c x) = Fail e).
        { apply bind_fail in Es as [Es|(d & _ & Es)]; [eauto|discriminate]. }
        apply (dump_fail_iff E f (serialize E f n) o c x) in Hf as (e & Hf). exists x, e. split; [exact Hx|exact Hf].
      * intros Hw. unfold mbind at 1. cbn [emit snd fst]. apply in_or_app. right.
        unfold mbind at 1. unfold mcatch, ser. rewrite O3, Es. cbn [fst snd]. apply in_or_app. right.
        rewrite Ena. unfold warn. rewrite Hw. cbn. now left.
Qed.
Lemma do_serialize_all o v : so_kt o = None -> so_strip_nulls o = false -> so_store_cls o = false ->
  forall attrs ds acc,
  NoDup (map fst attrs) -> (forall s, In s (map fst attrs) -> ~ In (VStr s) (map fst acc)) ->
  Forall2 (attr_dumps E f n o v) attrs ds ->
  snd (do_serialize E f ser o false v attrs acc) = Done (acc ++ combine (map VStr (map fst attrs)) ds)%list.
Proof.
  intros O1 O2 O3 attrs ds acc Hn Hd Hf. revert acc Hn Hd.
  induction Hf as [|[a c] d attrs ds (x & Hx & Hdx) _ IH]; intros acc Hn Hd; cbn [do_serialize map fst].
  - now rewrite app_nil_r.
  - cbn [map fst snd] in *. inversion Hn; subst. apply bind_done. exists x. split; [now rewrite Hx|]. cbv zeta.
    apply bind_done. exists tt. split; [reflexivity|].
    apply dump_done_iff in Hdx. apply bind_done. exists (inl d). split.
    + unfold mcatch. replace (snd (dom d0 <- _; _)) with (Done d); [reflexivity|]. symmetry.
      apply bind_done. exists d. split; [exact Hdx|]. rewrite O3. destruct d; reflexivity.
    + cbv zeta. rewrite O2, O1. cbn [andb]. unfold apply_kt. cbn [rbind hashable]. rewrite bind_lift_ok.
      rewrite IH; [|assumption|].
      * rewrite dset_new by (apply Hd; now left). rewrite <- app_assoc. reflexivity.
      * intros s' Hs'. rewrite dset_new by (apply Hd; now left). rewrite map_app, in_app_iff. cbn.
        intros [Hi|[Eq|[]]]; [eapply Hd; [right; exact Hs'|exact Hi]|]. injection Eq as ->. tauto.
Qed.
End Objects.

Lemma fold_sset_get names : forall (base : list (string * option ty)) a,
  sget a (fold_left (fun d b => sset b None d) names base) =
  if mem_str a names then Some None else sget a base.
Proof.
  induction names as [|b names IH]; intros base a; cbn [fold_left]; [reflexivity|].
  rewrite IH. change (mem_str a (b :: names)) with (String.eqb a b || mem_str a names).
  destruct (mem_str a names); [now rewrite orb_true_r|]. rewrite orb_false_r.
  destruct (String.eqb a b) eqn:Eab.
  - apply String.eqb_eq in Eab. subst. apply sget_sset_same.
  - apply sget_sset_other. now apply String.eqb_neq.
Qed.
Lemma members_split ms a : mem_str a (class_props ms ++ other_class_vars ms) = mem_str a (map fst ms).
Proof.
  apply eq_true_iff_eq. rewrite !mem_str_In, in_app_iff, class_props_In, other_vars_In, in_map_iff. split.
  - intros [H|(m & H & _)]; [exists (a, MProp)|exists (a, m)]; auto.
  - intros ([b m] & <- & H). destruct (member_dec m m) as [->|Hn]; [now left|right; eauto].
Qed.
Lemma attrs_and_types_get ci a :
  match sget a (attrs_and_types ci) with Some t => t | None => None end = attr_hint ci a.
Proof.
  unfold attrs_and_types, attr_hint. rewrite fold_sset_get, members_split.
  destruct (mem_str a (map fst (ci_members ci))); [now destruct (ci_slots ci)|].
  destruct (ci_slots ci) as [l|].
  - induction l as [|b l IH]; [reflexivity|]. cbn [map]. unfold sget in *. cbn [aget].
    destruct (String.eqb a b); [reflexivity|exact IH].
  - induction (ci_hints ci) as [|[b t] l IH]; [reflexivity|]. cbn [map fst snd]. unfold sget in *. cbn [aget].
    destruct (String.eqb a b); [reflexivity|exact IH].
Qed.
Lemma fold_sset_keys names : forall (base : list (string * option ty)) a,
  In a (map fst (fold_left (fun d b => sset b None d) names base)) <-> In a names \/ In a (map fst base).
Proof.
  induction names as [|b names IH]; intros base a; cbn [fold_left In]; [tauto|].
  rewrite IH. destruct (in_dec string_dec b (map fst base)) as [Hi|Hi].
  - rewrite aset_keys by assumption. split; [tauto|]. intros [[->|]|]; tauto.
  - rewrite aset_keys_new by assumption. rewrite map_app, in_app_iff. cbn. tauto.
Qed.
Lemma attrs_and_types_keys ci a :
  In a (map fst (attrs_and_types ci)) <-> In a (declared_names ci) \/ In a (map fst (ci_members ci)).
Proof.
  unfold attrs_and_types. rewrite fold_sset_keys. rewrite <- mem_str_In, members_split, mem_str_In.
  unfold declared_names. destruct (ci_slots ci).
  - rewrite map_map. cbn. rewrite map_id. tauto.
  - rewrite map_map. cbn. tauto.
Qed.
Lemma NoDup_sget {A} (l : list (string * A)) a t : NoDup (map fst l) -> In (a, t) l -> sget a l = Some t.
Proof.
  unfold sget. induction l as [|[b x] l IH]; cbn [map fst In aget]; [tauto|].
  intros Hn [Eq|Hi].
  - injection Eq as -> ->. now rewrite String.eqb_refl.
  - apply NoDup_cons_iff in Hn as [Hb Hn]. destruct (String.eqb a b) eqn:Eab; [|auto].
    apply String.eqb_eq in Eab. subst. destruct Hb. apply in_map_iff. exists (b, t). auto.
Qed.
Lemma selects_map {A B} (g : A -> B) P l r : selects (fun x => P (g x)) l r -> selects P (map g l) (map g r).
Proof. induction 1; cbn; constructor; assumption. Qed.
Lemma selects_sorted P l r : selects P l r -> StronglySorted slt l -> StronglySorted slt r.
Proof.
  induction 1 as [|x l r Hx Hs IH|x l r Hx Hs IH]; intros H; [constructor| |]; inversion H; subst; auto.
  constructor; [auto|]. rewrite Forall_forall in *. intros y Hy. apply (selects_In _ _ _ _ Hs) in Hy. now apply H3.
Qed.
Lemma sopts_eta o strip : so_class_info o = false -> so_store_cls o = false ->
  normalize_strip_attr (so_attr o) = SATuple strip ->
  set_store (so_class_info o) (set_attr_opt (normalize_strip_attr (so_attr o)) o) = set_attr_opt (SATuple strip) o.
Proof. intros H1 H2 ->. destruct o; cbn in *. subst. reflexivity. Qed.

Lemma dump_object_fields E f n o cls v fields strip :
  serializer E f cls v = Some SObject -> plain_opts o -> strips (so_attr o) strip ->
  NoDup (map fst fields) ->
  (let t := match cls with Some t => if so_strict o then Some t else None | None => None end in
   match t with Some t => attrs_from_class E o t | None => attrs_from_object E o v end = Ok fields /\
   match match t with Some t => t | None => class_of v end with TClass c => ci_attrs (e_ct E c) | _ => false end = false) ->
  let o' := set_attr_opt (SATuple strip) o in
  (forall r, snd (dump E f (S n) o cls v) = Done r -> dumped_fields E f n o' v fields r) /\
  (forall ds, Forall2 (attr_dumps E f n o' v) fields ds ->
     snd (dump E f (S n) o cls v) = Done (VDict DkDict (combine (map VStr (map fst fields)) ds))) /\
  (forall d, snd (dump E f (S n) o cls v) = Done (VDict DkDict d) -> length d < length fields ->
     e_warn E f "attribute-not-serialized" = true ->
     In (EvWarn f "attribute-not-serialized") (fst (dump E f (S n) o cls v))).
Proof.
  intros Hs Hp Hst Hn [Hf Hat] o'.
  destruct Hp as (O1 & O2 & O3 & O4 & O5). destruct (strips_names _ _ Hst) as [Hsn Hno].
  pose proof (sopts_eta o strip O3 O5 Hno) as Heta.
  assert (Hmeta : forall name d, dict_with_meta E o name d = Ok (VDict DkDict d))
    by (intros; unfold dict_with_meta; rewrite O3, O4; reflexivity).
  assert (Hobj : ser_object E f (serialize E f n) o cls v =
                 dom d <- do_serialize E f (serialize E f n) o' false v fields []; ret (VDict DkDict d)).
  { unfold ser_object. cbv zeta. rewrite Hf, bind_lift_ok, Hat. cbn [andb]. rewrite Heta, O5.
    fold o'. apply bind_ext. intros d. now rewrite Hmeta. }
  assert (Hd : forall r, snd (dump E f (S n) o cls v) = Done r <->
               exists d, snd (do_serialize E f (serialize E f n) o' false v fields []) = Done d /\ r = VDict DkDict d).
  { intros r. unfold dump. rewrite dump_done_iff. cbn [serialize]. rewrite Hs. cbn [ser_step]. rewrite Hobj, bind_done.
    split; intros (d & H1 & H2); exists d; split; auto; [injection H2 as <-; reflexivity|subst; reflexivity]. }
  assert (Hev : forall e d, snd (do_serialize E f (serialize E f n) o' false v fields []) = Done d ->
     In e (fst (do_serialize E f (serialize E f n) o' false v fields [])) -> In e (fst (dump E f (S n) o cls v))).
  { intros e d Hd1 He. unfold dump, dump_. unfold mbind at 1. cbn [emit fst snd]. apply in_or_app. right.
    change (e_ser E f match cls with Some t => t | None => class_of v end) with (serializer E f cls v).
    rewrite Hs. cbn [serialize ser_step]. rewrite Hobj. unfold wrap_ser, mtry, mbind. rewrite Hd1. cbn.
    rewrite app_nil_r. exact He. }
  split; [|split].
  - intros r Hr. apply Hd in Hr as (d & Hr & ->). apply do_serialize_done in Hr; try assumption; [|intros s _ []].
    destruct Hr as (ds & -> & H1 & H2 & H3). exists ds. split; [reflexivity|]. split; [exact H1|]. split; [exact H3|].
    intros Hlt. destruct (H2 Hlt) as (S1 & at_ & N1 & N2 & _). eauto.
  - intros ds Hds. apply Hd. eexists. split; [|reflexivity].
    apply (do_serialize_all E f n o' v O1 O2 O5 fields ds []); [exact Hn|intros s _ []|exact Hds].
  - intros d Hr Hlt Hw. apply Hd in Hr as (d' & Hr & Eq). injection Eq as <-.
    pose proof Hr as Hr'. apply do_serialize_done in Hr'; try assumption; [|intros s _ []].
    destruct Hr' as (ds & Hdd & H1 & H2 & H3). destruct H2 as (_ & at_ & _ & _ & H2).
    { subst d. cbn [app] in Hlt. rewrite combine_length, !map_length in Hlt. lia. }
    eapply Hev; [exact Hr|]. now apply H2.
Qed.

(** The attributes of an instance *)
Lemma instance_fields E o c attrs strip :
  strips (so_attr o) strip -> readable (ci_members (e_ct E c)) ->
  exists names, attrs_from_object E o (VObj c attrs) = Ok (map (fun a => (a, attr_hint (e_ct E c) a)) names) /\
    StronglySorted slt names /\
    (forall a, In a names <-> (In a (map fst attrs) \/ In a (map fst (ci_members (e_ct E c)))) /\
                              visible (ci_members (e_ct E c)) o strip a).
Proof.
  intros Hst Hr. destruct (strips_names _ _ Hst) as [Hsn _].
  unfold attrs_from_object. rewrite Hsn. cbn [rbind].
  set (l := map _ (py_dir (e_ct E c) attrs)).
  assert (El : l = map (fun a => (a, attr_hint (e_ct E c) a)) (py_dir (e_ct E c) attrs)).
  { apply map_ext. intros a. now rewrite attrs_and_types_get. }
  destruct (filter_attrs_selects (ci_members (e_ct E c)) o strip Hr l) as (r & Hf & Hs).
  exists (map fst r). rewrite Hf.
  assert (Hr' : r = map (fun a => (a, attr_hint (e_ct E c) a)) (map fst r)).
  { rewrite El in Hs. clear -Hs. remember (map (fun a => (a, attr_hint (e_ct E c) a)) (py_dir (e_ct E c) attrs)) as l.
    assert (Hl : forall x, In x l -> snd x = attr_hint (e_ct E c) (fst x)).
    { subst l. intros x Hx. apply in_map_iff in Hx as (a & <- & _). reflexivity. }
    clear Heql. induction Hs as [|x l r Hx Hs IH|x l r Hx Hs IH]; cbn; [reflexivity| |].
    - rewrite <- IH by (intros; apply Hl; now right). f_equal. destruct x as [a t]. cbn.
      pose proof (Hl (a, t) (or_introl eq_refl)) as Ht. cbn in Ht. now rewrite <- Ht.
    - apply IH. intros; apply Hl; now right. }
  split; [f_equal; exact Hr'|].
  assert (Hsel : selects (visible (ci_members (e_ct E c)) o strip) (py_dir (e_ct E c) attrs) (map fst r)).
  { replace (py_dir (e_ct E c) attrs) with (map fst l).
    - now apply (selects_map fst).
    - rewrite El, map_map. cbn. apply map_id. }
  split.
  - eapply selects_sorted; [exact Hsel|]. apply sort_names_sorted.
  - intros a. rewrite (selects_In _ _ _ _ Hsel). unfold py_dir. rewrite sort_names_In, in_app_iff. tauto.
Qed.
Lemma dump_instance E f n o cls c attrs strip :
  serializer E f cls (VObj c attrs) = Some SObject -> (cls = None \/ so_strict o = false) ->
  plain_opts o -> strips (so_attr o) strip -> ci_attrs (e_ct E c) = false -> readable (ci_members (e_ct E c)) ->
  exists names, StronglySorted slt names /\
    (forall a, In a names <-> (In a (map fst attrs) \/ In a (map fst (ci_members (e_ct E c)))) /\
                              visible (ci_members (e_ct E c)) o strip a) /\
    let fields := map (fun a => (a, attr_hint (e_ct E c) a)) names in
    let o' := set_attr_opt (SATuple strip) o in
    (forall r, snd (dump E f (S n) o cls (VObj c attrs)) = Done r -> dumped_fields E f n o' (VObj c attrs) fields r) /\
    (forall ds, Forall2 (attr_dumps E f n o' (VObj c attrs)) fields ds ->
       snd (dump E f (S n) o cls (VObj c attrs)) = Done (VDict DkDict (combine (map VStr names) ds))) /\
    (forall d, snd (dump E f (S n) o cls (VObj c attrs)) = Done (VDict DkDict d) -> length d < length names ->
       e_warn E f "attribute-not-serialized" = true ->
       In (EvWarn f "attribute-not-serialized") (fst (dump E f (S n) o cls (VObj c attrs)))).
Proof.
  intros Hs Hc Hp Hst Ha Hr. destruct (instance_fields E o c attrs strip Hst Hr) as (names & Hf & Hsort & Hin).
  exists names. split; [exact Hsort|]. split; [exact Hin|]. cbv zeta.
  assert (Hm : map fst (map (fun a => (a, attr_hint (e_ct E c) a)) names) = names)
    by (rewrite map_map; cbn; apply map_id).
  destruct (dump_object_fields E f n o cls (VObj c attrs) (map (fun a => (a, attr_hint (e_ct E c) a)) names) strip)
    as (H1 & H2 & H3); try assumption.
  - rewrite Hm. now apply sorted_NoDup.
  - cbv zeta. assert (Ht : match cls with Some t => if so_strict o then Some t else None | None => None end = None).
    { destruct Hc as [->|Hc]; [reflexivity|]. rewrite Hc. now destruct cls. }
    rewrite Ht. split; [exact Hf|]. exact Ha.
  - rewrite Hm in H2. rewrite map_length in H3. auto.
Qed.
(** In strict mode with a class given, its declarations decide. *)
Lemma dump_as_class E f n o c v strip :
  serializer E f (Some (TClass c)) v = Some SObject -> so_strict o = true ->
  plain_opts o -> strips (so_attr o) strip -> ci_attrs (e_ct E c) = false -> readable (ci_members (e_ct E c)) ->
  NoDup (declared_names (e_ct E c)) ->
  exists fields, NoDup (map fst fields) /\
    (forall a t, In (a, t) fields <-> (In a (declared_names (e_ct E c)) \/ In a (map fst (ci_members (e_ct E c)))) /\
                              visible (ci_members (e_ct E c)) o strip a /\ t = attr_hint (e_ct E c) a) /\
    forall r, snd (dump E f (S n) o (Some (TClass c)) v) = Done r <->
      exists ds, Forall2 (attr_dumps E f n (set_attr_opt (SATuple strip) o) v) fields ds /\
                 r = VDict DkDict (combine (map VStr (map fst fields)) ds).
Proof.
  intros Hs Hstr Hp Hst Ha Hr Hdn. destruct (strips_names _ _ Hst) as [Hsn _].
  destruct (filter_attrs_selects (ci_members (e_ct E c)) o strip Hr (attrs_and_types (e_ct E c))) as (r & Hf & Hsel).
  assert (Hnd0 : NoDup (map fst (attrs_and_types (e_ct E c)))).
  { unfold attrs_and_types. unfold declared_names in Hdn.
    set (base := match ci_slots (e_ct E c) with Some l => _ | None => _ end).
    assert (Hb : NoDup (map fst base)).
    { unfold base. destruct (ci_slots (e_ct E c)); rewrite map_map; cbn; [rewrite map_id|]; exact Hdn. }
    revert Hb. generalize base.
    generalize (class_props (ci_members (e_ct E c)) ++ other_class_vars (ci_members (e_ct E c)))%list.
    induction l as [|b l IH]; intros base' Hb; cbn [fold_left]; [exact Hb|].
    apply IH. now apply sset_NoDup. }
  assert (Hnd : NoDup (map fst r)) by (eapply filter_attrs_NoDup; [exact Hf|exact Hnd0]).
  exists r. split; [exact Hnd|]. split.
  - intros a t. rewrite (selects_In _ _ _ _ Hsel). cbn [fst]. rewrite <- attrs_and_types_keys. split.
    + intros [Hi Hv]. split; [apply in_map_iff; exists (a, t); auto|]. split; [exact Hv|].
      rewrite <- attrs_and_types_get. now rewrite (NoDup_sget _ _ _ Hnd0 Hi).
    + intros (Hi & Hv & ->). split; [|exact Hv]. apply in_map_iff in Hi as ([a' t] & Eq & Hi). cbn in Eq. subst a'.
      rewrite <- attrs_and_types_get. now rewrite (NoDup_sget _ _ _ Hnd0 Hi).
  - intros r'.
    destruct (dump_object_fields E f n o (Some (TClass c)) v r strip) as (H1 & H2 & _); try assumption.
    { cbv zeta. rewrite Hstr. unfold attrs_from_class. rewrite Hsn. cbn [rbind]. auto. }
    split.
    + intros H. destruct (H1 _ H) as (ds & -> & G1 & G2 & G3). exists ds. split; [|reflexivity].
      destruct (Nat.lt_ge_cases (length ds) (length r)) as [Hlt|Hge].
      * destruct (G3 Hlt) as [X _]. cbn in X. congruence.
      * rewrite firstn_all2 in G1 by exact Hge. exact G1.
    + intros (ds & G1 & ->). now apply H2.
Qed.

(** strip_attr given as a list makes every dump of an object fail. *)
Lemma dump_strip_list E f n o cls v s l :
  serializer E f cls v = Some SObject -> so_attr o = SAList (s :: l) ->
  exists e, snd (dump E f (S n) o cls v) = Fail e.
Proof.
  intros Hs Ha. apply (dump_fail_iff E f (serialize E f (S n)) o cls v). exists (exn_of KType).
  cbn [serialize]. rewrite Hs. cbn [ser_step]. unfold ser_object, attrs_from_class, attrs_from_object, strip_names.
  rewrite Ha. cbn. destruct cls as [t|]; [destruct (so_strict o)|]; reflexivity.
Qed.

(** ** Documents *)
Lemma default_ser_union CT ts : default_ser CT (TUnion ts) = Some SUnion.
Proof.
  rewrite default_ser_eq. unfold lookup, get_lizer, get_lizer_flat.
  change (lname (ty_world CT) (TUnion ts)) with (slower (class_name CT (TUnion ts))).
  cbn [class_name]. destruct (is_optional ts); reflexivity.
Qed.
Lemma default_ser_scalar CT v : plain_scalar v -> default_ser CT (class_of v) = Some SPrimitive.
Proof. rewrite default_ser_eq. destruct v; cbn [plain_scalar]; try tauto; intros _; vm_compute; reflexivity. Qed.
Lemma default_ser_list CT b l : default_ser CT (TApp b HList l) = Some SList.
Proof. rewrite default_ser_eq. destruct b; vm_compute; reflexivity. Qed.
Lemma default_ser_dict CT : default_ser CT (TApp false HDict []) = Some SDict.
Proof. rewrite default_ser_eq. vm_compute. reflexivity. Qed.
Lemma scalar_key CT v : plain_scalar v -> json_key CT v = true.
Proof. destruct v; cbn [plain_scalar]; try tauto; intros _; reflexivity. Qed.
Lemma dset_fresh k x d : (forall k', In k' (map fst d) -> py_eqb k k' = false) -> dset k x d = (d ++ [(k, x)])%list.
Proof.
  unfold dset. induction d as [|[k' y] d IH]; cbn [aset map fst app]; intros H; [reflexivity|].
  rewrite (H k') by now left. rewrite IH; [reflexivity|]. intros; apply H; now right.
Qed.
Lemma dget_app k x pre post : (forall k', In k' (map fst pre) -> py_eqb k k' = false) ->
  dget k (pre ++ (k, x) :: post) = Some x.
Proof.
  unfold dget. induction pre as [|[k' y] pre IH]; cbn [aget map fst app]; intros H.
  - now rewrite py_eqb_refl.
  - rewrite (H k') by now left. apply IH. intros; apply H; now right.
Qed.
Lemma plain_hashable CT v : plain_scalar v -> hashable CT v = true.
Proof. destruct v; cbn; tauto. Qed.
Lemma forall_upto {A} (P : nat -> A -> Prop) l : (forall x, In x l -> exists N, forall n, N <= n -> P n x) ->
  exists N, forall n, N <= n -> forall x, In x l -> P n x.
Proof.
  induction l as [|x l IH]; intros H.
  - exists 0. intros n _ x [].
  - destruct IH as (N & HN); [intros; apply H; now right|]. destruct (H x (or_introl eq_refl)) as (N' & HN').
    exists (max N N'). intros n Hn y [<-|Hy]; [apply HN'; lia|apply HN; [lia|assumption]].
Qed.
Lemma mmap_all_done {A B} (g : A -> M B) (h : A -> B) l :
  (forall x, In x l -> snd (g x) = Done (h x)) -> snd (mmap g l) = Done (map h l).
Proof.
  induction l as [|x l IH]; intros H; [reflexivity|]. cbn [mmap map].
  apply bind_done. exists (h x). split; [apply H; now left|].
  apply bind_done. exists (map h l). split; [apply IH; intros; apply H; now right|]. reflexivity.
Qed.
Lemma dump_document E f v : default_serializers E f -> document v ->
  exists N, forall n, N <= n -> forall o, doc_opts o -> snd (dump E f n o None v) = Done v.
Proof.
  intros HD. induction 1 as [v Hv|l _ IH|d Hd _ IH Hk].
  - exists 1. intros [|n] Hn o Ho; [lia|]. unfold dump. apply dump_done_iff.
    unfold serializer. rewrite HD. cbn [tyof serialize]. rewrite default_ser_scalar by assumption. reflexivity.
  - apply (forall_upto (fun n x => forall o, doc_opts o -> snd (dump E f n o None x) = Done x)) in IH as (N & IH).
    exists (S N). intros [|n] Hn o Ho; [lia|]. unfold dump. apply dump_done_iff.
    unfold serializer. rewrite HD. cbn [tyof class_of serialize]. rewrite default_ser_list. cbn [ser_step].
    unfold ser_list. cbn [truthy get_args].
    destruct l as [|x l]; [reflexivity|]. cbn [length Nat.eqb negb].
    destruct Ho as (O1 & O2). rewrite O1. cbn [py_iter]. rewrite bind_lift_ok. apply bind_done.
    exists (x :: l). split; [|reflexivity].
    rewrite (mmap_all_done _ (fun x => x)); [now rewrite map_id|].
    intros y Hy. apply (IH n); [lia|exact Hy|]. split; [exact O1|exact O2].
  - assert (IH' : forall p, In p d -> exists N, forall n, N <= n -> forall o, doc_opts o -> snd (dump E f n o None (snd p)) = Done (snd p)).
    { intros [k x] Hin. exact (IH k x Hin). }
    apply (forall_upto (fun n p => forall o, doc_opts o -> snd (dump E f n o None (snd p)) = Done (snd p))) in IH' as (N & IH').
    exists (S N). intros [|n] Hn o Ho; [lia|]. unfold dump. apply dump_done_iff.
    unfold serializer. rewrite HD. cbn [tyof class_of serialize]. rewrite default_ser_dict. cbn [ser_step].
    unfold ser_dict. cbn [py_iter]. rewrite bind_lift_ok. apply bind_done. exists d. split; [|reflexivity].
    pose proof Ho as (O1 & O2 & O3 & O4).
    assert (Hgo : forall post pre, d = (pre ++ post)%list ->
              snd (ser_dict_go E f (serialize E f n) o (VDict DkDict d) (map fst post) pre) = Done d).
    { induction post as [|[k x] post IHp]; intros pre Ed; cbn [map fst ser_dict_go].
      - rewrite app_nil_r in Ed. subst. reflexivity.
      - assert (Hin : In (k, x) d) by (rewrite Ed; apply in_or_app; right; now left).
        assert (Hfr : forall k', In k' (map fst pre) -> py_eqb k k' = false).
        { intros k' Hk'. rewrite Ed, map_app in Hk. cbn [map fst] in Hk. clear -Hk Hk'.
          induction pre as [|[k1 y] pre IHpre]; [destruct Hk'|]. cbn [map fst app] in *.
          inversion Hk as [|? ? Hall Hk2 Heq]; subst. destruct Hk' as [<-|Hk'].
          - rewrite Forall_forall in Hall. apply Hall. apply in_or_app. right. now left.
          - now apply IHpre. }
        pose proof (Hd k x Hin) as Hs.
        apply bind_done. exists x. split.
        { cbn [py_getitem]. rewrite plain_hashable by assumption. rewrite Ed, dget_app by assumption. reflexivity. }
        unfold store_and_hash. rewrite scalar_key by assumption. rewrite bind_ret_l. cbn [fst snd].
        apply bind_done. exists x. split.
        { rewrite O4. cbn [aget]. apply (IH' n (le_S_n _ _ Hn) (k, x) Hin (no_types o)). unfold doc_opts. auto. }
        rewrite O3, O2. cbn [andb]. unfold apply_kt. cbn [rbind]. rewrite plain_hashable by assumption. rewrite bind_lift_ok.
        rewrite dset_fresh by assumption. apply IHp. rewrite Ed, <- app_assoc. reflexivity. }
    now apply (Hgo d []).
Qed.

(** ** Unions *)
Lemma ser_union_go_done E f ser o v ts r :
  snd (ser_union_go E f ser o v ts) = Done r <->
  exists pre t post, ts = (pre ++ t :: post)%list /\ snd (dump_ E f ser o (Some t) v) = Done r /\
    Forall (fun t' => exists e, snd (dump_ E f ser o (Some t') v) = Fail e) pre.
Proof.
  induction ts as [|t ts IH]; cbn [ser_union_go].
  - split; [discriminate|]. intros (pre & t & post & H & _). now destruct pre.
  - rewrite try_done. split.
    + intros [H|(e & He & H)].
      * exists [], t, ts. auto.
      * destruct (is_jsons (e_kind e)); [|discriminate]. apply IH in H as (pre & t' & post & -> & H & Hp).
        exists (t :: pre), t', post. split; [reflexivity|]. split; [exact H|]. constructor; eauto.
    + intros (pre & t' & post & Eq & H & Hp). destruct pre as [|t1 pre]; cbn in Eq; injection Eq as <- ->.
      * now left.
      * right. inversion Hp as [|? ? (e & He) Hp']; subst. exists e. split; [exact He|].
        assert (Hk : e_kind e = KSer).
        { unfold dump_ in He. apply bind_fail in He as [He|(u & _ & He)]; [discriminate|].
          unfold wrap_ser in He. apply try_fail in He as (e' & _ & He). inversion He. reflexivity. }
        rewrite Hk. cbn. apply IH. exists pre, t', post. auto.
Qed.
Lemma ser_union_go_fail E f ser o v ts :
  (exists e, snd (ser_union_go E f ser o v ts) = Fail e) <->
  Forall (fun t' => exists e, snd (dump_ E f ser o (Some t') v) = Fail e) ts.
Proof.
  induction ts as [|t ts IH]; cbn [ser_union_go].
  - split; [constructor|]. intros _. eexists. reflexivity.
  - split.
    + intros (e & H). apply try_fail in H as (e' & He & H). constructor; [eauto|]. apply IH.
      destruct (is_jsons (e_kind e')) eqn:Ej; [eauto|].
      assert (Hk : e_kind e' = KSer).
      { unfold dump_ in He. apply bind_fail in He as [He|(u & _ & He)]; [discriminate|].
        unfold wrap_ser in He. apply try_fail in He as (e2 & _ & He). inversion He. reflexivity. }
      rewrite Hk in Ej. discriminate.
    + intros Hf. inversion Hf as [|? ? (e' & He) Hf']; subst. apply IH in Hf' as (e & H). exists e.
      apply try_fail. exists e'. split; [exact He|].
      assert (Hk : e_kind e' = KSer).
      { unfold dump_ in He. apply bind_fail in He as [He|(u & _ & He)]; [discriminate|].
        unfold wrap_ser in He. apply try_fail in He as (e2 & _ & He). inversion He. reflexivity. }
      rewrite Hk. exact H.
Qed.
Lemma dump_union_done E f n o ts v r : default_serializers E f ->
  (snd (dump E f (S n) o (Some (TUnion ts)) v) = Done r <->
   (v = VNone /\ In TNoneT ts /\ r = VNone) \/
   (~ (v = VNone /\ In TNoneT ts) /\
    exists pre t post, ts = (pre ++ t :: post)%list /\ snd (dump E f n o (Some t) v) = Done r /\
      Forall (fun t' => exists e, snd (dump E f n o (Some t') v) = Fail e) pre)).
Proof.
  intros HD. unfold dump at 1. rewrite dump_done_iff. unfold serializer. rewrite HD. cbn [tyof serialize].
  rewrite default_ser_union. cbn [ser_step]. unfold ser_union. cbn [raw_args].
  destruct (is_none v && existsb (ty_eqb TNoneT) ts) eqn:En.
  - apply andb_true_iff in En as [Ev Et]. destruct v; try discriminate. apply existsb_ty_In in Et. split.
    + intros H. injection H as <-. left. auto.
    + intros [(_ & _ & ->)|[H _]]; [reflexivity|]. tauto.
  - rewrite ser_union_go_done. split.
    + intros H. right. split; [|exact H]. intros [-> Hin]. apply existsb_ty_In in Hin. cbn [is_none andb] in En. congruence.
    + intros [(-> & Hin & _)|[_ H]]; [|exact H]. apply existsb_ty_In in Hin. cbn [is_none andb] in En. congruence.
Qed.
Lemma dump_union_fail E f n o ts v : default_serializers E f ->
  ((exists e, snd (dump E f (S n) o (Some (TUnion ts)) v) = Fail e) <->
   ~ (v = VNone /\ In TNoneT ts) /\
   Forall (fun t' => exists e, snd (dump E f n o (Some t') v) = Fail e) ts).
Proof.
  intros HD. unfold dump at 1. rewrite dump_fail_iff. unfold serializer. rewrite HD. cbn [tyof serialize].
  rewrite default_ser_union. cbn [ser_step]. unfold ser_union. cbn [raw_args].
  destruct (is_none v && existsb (ty_eqb TNoneT) ts) eqn:En.
  - apply andb_true_iff in En as [Ev Et]. destruct v; try discriminate. apply existsb_ty_In in Et. split.
    + intros (e & H). discriminate.
    + intros [H _]. tauto.
  - rewrite ser_union_go_fail. split.
    + intros H. split; [|exact H]. intros [-> Hin]. apply existsb_ty_In in Hin. cbn [is_none andb] in En. congruence.
    + intros [_ H]. exact H.
Qed.

(** ** Lists *)
Lemma dump_list_strict E f n o b x0 l r : default_serializers E f -> so_strict o = true ->
  (snd (dump E f (S n) o (if b : bool then None else Some (TApp false HList [])) (VList (x0 :: l))) = Done r <->
   exists rs, r = VList rs /\
     Forall2 (fun x y => snd (dump E f n (set_store false o) (Some (class_of x0)) x) = Done y) (x0 :: l) rs).
Proof.
  intros HD Hs. unfold dump at 1. rewrite dump_done_iff. unfold serializer. rewrite HD.
  replace (tyof (if b then None else Some (TApp false HList [])) (VList (x0 :: l))) with (TApp false HList [])
    by now destruct b.
  cbn [serialize]. rewrite default_ser_list. cbn [ser_step]. unfold ser_list. cbn [truthy length Nat.eqb negb].
  replace (get_args (if b then None else Some (TApp false HList []))) with (@nil ty) by now destruct b.
  rewrite Hs. cbn [py_iter]. rewrite bind_done. split.
  - intros (y & Hy & H). cbn in Hy. injection Hy as <-. rewrite bind_lift_ok in H.
    apply bind_done in H as (rs & Hrs & H). injection H as <-. exists rs. split; [reflexivity|].
    apply mmap_done in Hrs. eapply Forall2_impl'; [|exact Hrs]. intros x y Hxy. now apply dump_done_iff.
  - intros (rs & -> & H). exists x0. split; [reflexivity|]. rewrite bind_lift_ok. apply bind_done.
    exists rs. split; [|reflexivity]. apply mmap_done. eapply Forall2_impl'; [|exact H].
    intros x y Hxy. apply dump_done_iff in Hxy. exact Hxy.
Qed.
Lemma dump_list_lenient E f n o b l r : default_serializers E f -> so_strict o = false ->
  (snd (dump E f (S n) o (if b : bool then None else Some (TApp false HList [])) (VList l)) = Done r <->
   exists rs, r = VList rs /\
     Forall2 (fun x y => snd (dump E f n (set_store false o) None x) = Done y) l rs).
Proof.
  intros HD Hs. unfold dump at 1. rewrite dump_done_iff. unfold serializer. rewrite HD.
  replace (tyof (if b then None else Some (TApp false HList [])) (VList l)) with (TApp false HList [])
    by now destruct b.
  cbn [serialize]. rewrite default_ser_list. cbn [ser_step]. unfold ser_list. cbn [truthy].
  destruct l as [|x0 l]; cbn [length Nat.eqb negb].
  { split; [intros H; injection H as <-; exists []; auto|]. intros (rs & -> & H). inversion H; subst. reflexivity. }
  replace (get_args (if b then None else Some (TApp false HList []))) with (@nil ty) by now destruct b.
  rewrite Hs. cbn [py_iter]. rewrite bind_lift_ok, bind_done. split.
  - intros (rs & Hrs & H). injection H as <-. exists rs. split; [reflexivity|]. now apply mmap_done in Hrs.
  - intros (rs & -> & H). exists rs. split; [|reflexivity]. now apply mmap_done.
Qed.
(** A type parameter decides for all elements, strict or not. *)
Lemma dump_list_typed E f n o b t ts l r : default_serializers E f ->
  (snd (dump E f (S n) o (Some (TApp b HList (t :: ts))) (VList l)) = Done r <->
   exists rs, r = VList rs /\
     Forall2 (fun x y => snd (dump E f n (set_store false o) (Some t) x) = Done y) l rs).
Proof.
  intros HD. unfold dump at 1. rewrite dump_done_iff. unfold serializer. rewrite HD. cbn [tyof].
  cbn [serialize]. rewrite default_ser_list. cbn [ser_step]. unfold ser_list. cbn [truthy get_args raw_args].
  destruct l as [|x0 l]; cbn [length Nat.eqb negb].
  { split; [intros H; injection H as <-; exists []; auto|]. intros (rs & -> & H). inversion H; subst. reflexivity. }
  cbn [py_iter]. rewrite bind_lift_ok, bind_done. split.
  - intros (rs & Hrs & H). injection H as <-. exists rs. split; [reflexivity|]. apply mmap_done in Hrs.
    eapply Forall2_impl'; [|exact Hrs]. intros x y Hxy. now apply dump_done_iff.
  - intros (rs & -> & H). exists rs. split; [|reflexivity]. apply mmap_done. eapply Forall2_impl'; [|exact H].
    intros x y Hxy. apply dump_done_iff in Hxy. exact Hxy.
Qed.
Lemma dump_strict_scalars E f n o p l : default_serializers E f -> so_strict o = true ->
  (forall x, In x l -> class_of x = TPrim p) ->
  snd (dump E f (S (S n)) o None (VList l)) = Done (VList l).
Proof.
  intros HD Hs Hl. destruct l as [|x0 l].
  - unfold dump. apply dump_done_iff. unfold serializer. rewrite HD. reflexivity.
  - apply (dump_list_strict E f (S n) o true x0 l (VList (x0 :: l)) HD Hs). exists (x0 :: l). split; [reflexivity|].
    rewrite (Hl x0) by now left. generalize (x0 :: l), Hl. clear -HD. intros m Hm. induction m as [|x m IH]; constructor.
    + pose proof (Hm x (or_introl eq_refl)) as Hx. unfold dump. apply dump_done_iff. unfold serializer.
      rewrite HD. cbn [tyof serialize]. rewrite <- Hx.
      rewrite default_ser_scalar by (destruct x as [| | | | | | |[]|[]| | | |]; solve [discriminate Hx|exact I]).
      cbn [ser_step]. unfold ser_primitive.
      destruct x as [| | | | | | |[]|[]| | | |]; solve [discriminate Hx|reflexivity].
    + apply IH. intros; apply Hm; now right.
Qed.

(** ** Tuples *)
Lemma default_ser_tuple CT b l : default_ser CT (TApp b HTuple l) = Some STuple.
Proof. rewrite default_ser_eq. destruct b; vm_compute; reflexivity. Qed.
(** What the iterable serializer does with a tuple *)
Lemma ser_iterable_tuple E f n o cls l r :
  snd (ser_iterable E f (serialize E f n) o cls (VTuple l)) = Done r <->
  exists cls_ subs rs, (if so_strict o then determine_cls E cls (VTuple l) else Ok None) = Ok cls_ /\
    get_subclasses (length l) cls_ = Ok subs /\ r = VList rs /\
    Forall2 (fun xs y => snd (dump E f n (set_store false o) (snd xs) (fst xs)) = Done y) (combine l subs) rs.
Proof.
  unfold ser_iterable. cbn [py_iter]. rewrite bind_lift_ok. split.
  - intros H. apply bind_done in H as (cls_ & Hc & H). apply lift_done in Hc. apply bind_done in H as (subs & Hs & H).
    apply lift_done in Hs. apply bind_done in H as (rs & Hr & H). injection H as <-. exists cls_, subs, rs.
    split; [exact Hc|]. split; [exact Hs|]. split; [reflexivity|]. apply mmap_done in Hr. exact Hr.
  - intros (cls_ & subs & rs & Hc & Hs & -> & H). rewrite Hc, bind_lift_ok, Hs, bind_lift_ok. apply bind_done.
    exists rs. split; [apply mmap_done; exact H|reflexivity].
Qed.
Lemma dump_tuple_iff E f n o cls l r : default_serializers E f -> cls = None \/ (exists b ts, cls = Some (TApp b HTuple ts)) ->
  (snd (dump E f (S n) o cls (VTuple l)) = Done r <->
   snd (ser_tuple E f (serialize E f n) o cls (VTuple l)) = Done r).
Proof.
  intros HD Hc. unfold dump at 1. rewrite dump_done_iff. unfold serializer. rewrite HD.
  assert (Ht : exists b ts, tyof cls (VTuple l) = TApp b HTuple ts).
  { destruct Hc as [-> |(b & ts & ->)]; cbn [tyof class_of]; eauto. }
  destruct Ht as (b & ts & ->). rewrite default_ser_tuple. cbn [serialize ser_step]. reflexivity.
Qed.
Lemma combine_repeat {A B} (x : B) (l : list A) : combine l (repeat x (length l)) = map (fun a => (a, x)) l.
Proof. induction l as [|a l IH]; cbn; [reflexivity|now rewrite IH]. Qed.
Lemma Forall2_map_l' {A B C} (g : A -> B) (P : B -> C -> Prop) l r :
  Forall2 P (map g l) r <-> Forall2 (fun x y => P (g x) y) l r.
Proof.
  split.
  - revert r. induction l as [|a l IH]; cbn; intros r H; inversion H; subst; constructor; auto.
  - induction 1; cbn; constructor; auto.
Qed.
Lemma dump_tuple_strict E f n o x0 l r b t : default_serializers E f -> so_strict o = true ->
  rt_type (e_rt E) (VTuple [x0]) = TApp b HTuple [t] ->
  (snd (dump E f (S n) o None (VTuple (x0 :: l))) = Done r <->
   exists rs, r = VList rs /\
     Forall2 (fun x y => snd (dump E f n (set_store false o) (Some t) x) = Done y) (x0 :: l) rs).
Proof.
  intros HD Hs Ht. rewrite dump_tuple_iff by auto. cbn [ser_tuple]. rewrite ser_iterable_tuple, Hs. cbn [determine_cls]. rewrite Ht.
  generalize (x0 :: l). clear - t. intros L. split.
  - intros (cls_ & subs & rs & Hc & Hsub & -> & H). injection Hc as <-. cbn [get_subclasses get_args raw_args] in Hsub. injection Hsub as <-.
    exists rs. split; [reflexivity|]. rewrite combine_repeat in H. apply Forall2_map_l' in H. exact H.
  - intros (rs & -> & H). eexists _, _, rs. split; [reflexivity|]. split; [reflexivity|]. split; [reflexivity|].
    rewrite combine_repeat. apply Forall2_map_l'. exact H.
Qed.
Lemma dump_tuple_lenient E f n o cls l r : default_serializers E f -> so_strict o = false ->
  cls = None \/ (exists b t ts, cls = Some (TApp b HTuple (t :: ts))) ->
  (snd (dump E f (S n) o cls (VTuple l)) = Done r <->
   exists rs, r = VList rs /\
     Forall2 (fun x y => snd (dump E f n (set_store false o) None x) = Done y) l rs).
Proof.
  intros HD Hs Hc. rewrite dump_tuple_iff by (destruct Hc as [-> |(b & t & ts & ->)]; eauto).
  assert (X : forall c, snd (ser_iterable E f (serialize E f n) o c (VTuple l)) = Done r <->
    exists rs, r = VList rs /\ Forall2 (fun x y => snd (dump E f n (set_store false o) None x) = Done y) l rs).
  { intros c. rewrite ser_iterable_tuple, Hs. split.
    - intros (cls_ & subs & rs & Hc' & Hsub & -> & H). injection Hc' as <-. cbn [get_subclasses get_args] in Hsub. injection Hsub as <-.
      exists rs. split; [reflexivity|]. rewrite combine_repeat in H. apply Forall2_map_l' in H. exact H.
    - intros (rs & -> & H). eexists _, _, rs. split; [reflexivity|]. split; [reflexivity|]. split; [reflexivity|].
      rewrite combine_repeat. apply Forall2_map_l'. exact H. }
  destruct Hc as [-> |(b & t & ts & ->)]; cbn [ser_tuple]; [apply X|]. cbn [raw_args].
  destruct (ty_eqb TEllipsis _); [|apply X]. cbn [py_iter]. rewrite bind_lift_ok. apply X.
Qed.
Lemma dump_tuple_typed E f n o b t1 t2 ts l r : default_serializers E f -> so_strict o = true ->
  last (t2 :: ts) TAny <> TEllipsis ->
  (snd (dump E f (S n) o (Some (TApp b HTuple (t1 :: t2 :: ts))) (VTuple l)) = Done r <->
   exists rs, r = VList rs /\ length l = length (t1 :: t2 :: ts) /\
     Forall2 (fun xt y => snd (dump E f n (set_store false o) (Some (snd xt)) (fst xt)) = Done y) (combine l (t1 :: t2 :: ts)) rs).
Proof.
  intros HD Hs Hl. rewrite dump_tuple_iff by eauto. cbn [ser_tuple raw_args].
  rewrite (proj2 (ty_eqb_neq TEllipsis _)) by (cbn [last] in *; congruence). rewrite ser_iterable_tuple, Hs. cbn [determine_cls].
  assert (Cm : forall m : list ty, combine l (map Some m) = map (fun p => (fst p, Some (snd p))) (combine l m)).
  { clear. induction l as [|x l IH]; intros [|t m]; cbn [combine map]; try reflexivity. now rewrite IH. }
  split.
  - intros (cls_ & subs & rs & Hc & Hsub & -> & H). injection Hc as <-. unfold get_subclasses in Hsub. cbn [get_args raw_args] in Hsub.
    destruct (Nat.eqb (length (t1 :: t2 :: ts)) (length l)) eqn:En; [|discriminate]. injection Hsub as <-. apply Nat.eqb_eq in En.
    exists rs. split; [reflexivity|]. split; [auto|]. change (Some t1 :: Some t2 :: map Some ts) with (map Some (t1 :: t2 :: ts)) in H. rewrite Cm in H. apply Forall2_map_l' in H. exact H.
  - intros (rs & -> & Hn & H). exists (Some (TApp b HTuple (t1 :: t2 :: ts))), (map Some (t1 :: t2 :: ts)), rs. split; [reflexivity|]. split.
    { unfold get_subclasses. cbn [get_args raw_args]. rewrite <- Hn, Nat.eqb_refl. reflexivity. }
    split; [reflexivity|]. rewrite Cm. apply Forall2_map_l'. exact H.
Qed.
Lemma dump_tuple_all E f n o b t l r (var : bool) : default_serializers E f -> so_strict o = true -> t <> TEllipsis ->
  (snd (dump E f (S n) o (Some (TApp b HTuple (if var then [t; TEllipsis] else [t]))) (VTuple l)) = Done r <->
   exists rs, r = VList rs /\
     Forall2 (fun x y => snd (dump E f n (set_store false o) (Some t) x) = Done y) l rs).
Proof.
  intros HD Hs Ht. rewrite dump_tuple_iff by eauto.
  assert (X : forall c, get_subclasses (length l) (Some c) = Ok (repeat (Some t) (length l)) ->
    (snd (ser_iterable E f (serialize E f n) o (Some c) (VTuple l)) = Done r <->
     exists rs, r = VList rs /\ Forall2 (fun x y => snd (dump E f n (set_store false o) (Some t) x) = Done y) l rs)).
  { intros c Hc. rewrite ser_iterable_tuple, Hs. cbn [determine_cls]. split.
    - intros (cls_ & subs & rs & Hc' & Hsub & -> & H). injection Hc' as <-. rewrite Hc in Hsub. injection Hsub as <-.
      exists rs. split; [reflexivity|]. rewrite combine_repeat in H. apply Forall2_map_l' in H. exact H.
    - intros (rs & -> & H). eexists _, _, rs. split; [reflexivity|]. split; [exact Hc|]. split; [reflexivity|].
      rewrite combine_repeat. apply Forall2_map_l'. exact H. }
  destruct var; cbn [ser_tuple raw_args last].
  - rewrite ty_eqb_refl. cbn [py_iter]. rewrite bind_lift_ok. apply X. clear. cbn [hd].
    destruct l as [|x [|x' l]]; try reflexivity. unfold get_subclasses. cbn [length repeat get_args raw_args].
    rewrite repeat_length, Nat.eqb_refl. cbn [map]. do 3 f_equal. induction (length l) as [|m IH]; cbn; [reflexivity|now rewrite IH].
  - rewrite (proj2 (ty_eqb_neq TEllipsis _)) by congruence. apply X. reflexivity.
Qed.

(** ** Forks *)
Section Agree.
Variables (E E' : env) (f : nat).
Hypothesis HA : same_for_dump E E' f.
Let Hct : e_ct E' = e_ct E. Proof. symmetry. apply HA. Qed.
Let Hrt : e_rt E' = e_rt E. Proof. symmetry. apply HA. Qed.
Let Hcs : e_cser E' = e_cser E. Proof. symmetry. apply HA. Qed.
Let Hsr t : e_ser E' f t = e_ser E f t. Proof. symmetry. apply HA. Qed.
Let Hwr c : warn E' f c = warn E f c. Proof. unfold warn. destruct HA as (_ & _ & _ & _ & ->). reflexivity. Qed.
Variables ser ser' : sopts -> option shandler -> option ty -> value -> M value.
Hypothesis Hser : forall o h c v, ser' o h c v = ser o h c v.
Lemma dump_agree o c v : dump_ E' f ser' o c v = dump_ E f ser o c v.
Proof. unfold dump_. now rewrite Hsr, Hser. Qed.
Lemma get_attr_agree v a : get_attr E' v a = get_attr E v a.
Proof. unfold get_attr. now rewrite Hct, Hrt. Qed.
Lemma ser_list_agree o c v : ser_list E' f ser' o c v = ser_list E f ser o c v.
Proof.
  unfold ser_list. rewrite Hrt, Hct. destruct (negb _); [reflexivity|]. destruct (get_args c) as [|t ts].
  - destruct (so_strict o).
    + apply bind_ext. intros x0. apply bind_ext. intros l.
      rewrite (mmap_ext _ (ser (set_store false o) (e_ser E f (class_of x0)) (Some (class_of x0)))); [reflexivity|].
      intros x _. now rewrite Hsr, Hser.
    + apply bind_ext. intros l. rewrite (mmap_ext _ (dump_ E f ser (set_store false o) None)); [reflexivity|].
      intros x _. apply dump_agree.
  - apply bind_ext. intros l. rewrite (mmap_ext _ (ser (set_store false o) (e_ser E f t) (Some t))); [reflexivity|].
    intros x _. now rewrite Hsr, Hser.
Qed.
Lemma determine_agree c v : determine_cls E' c v = determine_cls E c v.
Proof. unfold determine_cls. now rewrite Hrt. Qed.
Lemma ser_iterable_agree o c v : ser_iterable E' f ser' o c v = ser_iterable E f ser o c v.
Proof.
  unfold ser_iterable. rewrite Hrt, determine_agree. apply bind_ext. intros l. apply bind_ext. intros c'.
  apply bind_ext. intros subs.
  rewrite (mmap_ext _ (fun xc => dump_ E f ser (set_store false o) (snd xc) (fst xc))); [reflexivity|].
  intros x _. apply dump_agree.
Qed.
Lemma ser_tuple_agree o c v : ser_tuple E' f ser' o c v = ser_tuple E f ser o c v.
Proof.
  assert (Hnt : forall i v, ser_namedtuple E' f ser' o i v = ser_namedtuple E f ser o i v).
  { intros i v'. unfold ser_namedtuple. rewrite Hct.
    rewrite (mmap_ext _ (fun a => dom x <- lift (get_attr E v' a); dom d <- dump_ E f ser o None x; ret (VStr a, d)));
      [reflexivity|].
    intros a _. rewrite get_attr_agree. apply bind_ext. intros x. now rewrite dump_agree. }
  unfold ser_tuple. rewrite Hrt.
  destruct v; try apply Hnt; destruct c as [t|]; try apply ser_iterable_agree;
    (destruct (raw_args t); [|reflexivity]); (destruct (ty_eqb _ _); [|apply ser_iterable_agree]);
    apply bind_ext; intros; apply ser_iterable_agree.
Qed.
Lemma store_agree o r k : store_and_hash E' f ser' o r k = store_and_hash E f ser o r k.
Proof. unfold store_and_hash. now rewrite Hct, Hrt, dump_agree. Qed.
Lemma ser_dict_go_agree o v ks : forall acc,
  ser_dict_go E' f ser' o v ks acc = ser_dict_go E f ser o v ks acc.
Proof.
  induction ks as [|k ks IH]; intros acc; cbn [ser_dict_go]; [reflexivity|].
  rewrite Hct. apply bind_ext. intros x. rewrite store_agree. apply bind_ext. intros rk.
  rewrite dump_agree. apply bind_ext. intros d. destruct (_ && _); [apply IH|]. apply bind_ext. intros k'. apply IH.
Qed.
Lemma ser_union_go_agree o v ts : ser_union_go E' f ser' o v ts = ser_union_go E f ser o v ts.
Proof.
  induction ts as [|t ts IH]; cbn [ser_union_go]; [reflexivity|]. rewrite dump_agree. apply try_ext.
  intros e. destruct (is_jsons _); [apply IH|reflexivity].
Qed.
Lemma store_cls_agree b d x : store_cls_info E' b d x = store_cls_info E b d x.
Proof. unfold store_cls_info, type_name_of. now rewrite Hct, Hrt. Qed.
Lemma do_serialize_agree o p v attrs : forall r,
  do_serialize E' f ser' o p v attrs r = do_serialize E f ser o p v attrs r.
Proof.
  induction attrs as [|[a c] attrs IH]; intros r; cbn [do_serialize]; [reflexivity|].
  rewrite get_attr_agree. apply bind_ext. intros x. apply bind_ext. intros u. rewrite Hsr, Hser.
  rewrite (bind_ext _ (fun d => ret (store_cls_info E' (so_store_cls o) d x))
                      (fun d => ret (store_cls_info E (so_store_cls o) d x)))
    by (intros d; now rewrite store_cls_agree).
  apply bind_ext. intros [d|e].
  - destruct (_ && _); [apply IH|]. rewrite Hct. apply bind_ext. intros k. apply IH.
  - now rewrite Hwr.
Qed.
Lemma ser_object_agree o c v : ser_object E' f ser' o c v = ser_object E f ser o c v.
Proof.
  unfold ser_object, attrs_from_class, attrs_from_object, dict_with_meta. rewrite Hct, Hrt.
  apply bind_ext. intros attrs. rewrite do_serialize_agree. reflexivity.
Qed.
Lemma ser_step_agree o h c v : ser_step E' f ser' o h c v = ser_step E f ser o h c v.
Proof.
  unfold ser_step. destruct h as [h|]; [|reflexivity].
  assert (Ht : forall b p, ser_time_like E' f b p v = ser_time_like E f b p v).
  { intros b p. unfold ser_time_like. rewrite Hrt. apply bind_ext. intros sw. now rewrite Hwr. }
  destruct h; rewrite ?get_attr_agree, ?Hrt, ?Hcs; auto using ser_tuple_agree, ser_list_agree, ser_iterable_agree, ser_object_agree.
  - destruct v as [| | | | | | | | |x| | |]; try reflexivity. destruct x; try reflexivity. now rewrite dump_agree.
  - unfold ser_primitive. now rewrite Hct, Hrt.
  - unfold ser_dict. rewrite Hrt. apply bind_ext. intros ks. now rewrite ser_dict_go_agree.
  - unfold ser_union. destruct (match c with Some t => raw_args t | None => None end); [|reflexivity].
    destruct (_ && _); [reflexivity|]. apply ser_union_go_agree.
Qed.
End Agree.
Lemma serialize_same E E' f : same_for_dump E E' f -> forall n o h c v,
  serialize E' f n o h c v = serialize E f n o h c v.
Proof.
  intros HA. induction n as [|n IH]; intros o h c v; [reflexivity|]. cbn [serialize].
  now apply ser_step_agree.
Qed.
Lemma dump_same E E' f n o c v : same_for_dump E E' f -> dump E f n o c v = dump E' f n o c v.
Proof. intros HA. symmetry. unfold dump. apply dump_agree; [exact HA|]. intros. now apply serialize_same. Qed.

(** ** Genuine values *)
Lemma genuine_copied E f o cls v : genuine E f o cls v ->
  copied_json E f o cls v /\ copied_clean E f o cls v.
Proof.
  intros Hg.
  assert (Hs : forall c x a y, visits E f o cls v c x -> copies o (serializer E f c x) a ->
               get_attr E x a = Ok y -> (exists s, y = VStr s) \/ exists z, y = VFloat z).
  { intros c x a y Hv Hc Hy. specialize (Hg c x Hv). unfold copies in Hc.
    destruct (serializer E f c x) as [[]|]; try contradiction.
    - destruct Hg as (re & im & ->). destruct Hc as [-> | ->]; cbn in Hy; injection Hy as <-; eauto.
    - destruct Hg as (Hn & i & m & ->). rewrite Hn in Hc. subst a. cbn in Hy. injection Hy as <-. eauto.
    - destruct Hg as (k & ->). subst a. cbn in Hy. injection Hy as <-. eauto. }
  split; intros c x a y Hv Hc Hy; destruct (Hs c x a y Hv Hc Hy) as [(s & ->)|(z & ->)].
  - apply json_atom. right. exists PStr. reflexivity.
  - apply json_atom. right. exists PFloat. reflexivity.
  - split; [apply nn_other; discriminate|discriminate].
  - split; [apply nn_other; discriminate|discriminate].
Qed.

(** ** A failing attribute *)
Section Failing.
Variables (E : env) (f n : nat).
Let ser := serialize E f n.
Lemma do_serialize_fails o v : so_kt o = None -> so_strip_nulls o = false -> so_store_cls o = false ->
  forall pre at_ post ds acc,
  NoDup (map fst (pre ++ at_ :: post)) ->
  (forall s, In s (map fst (pre ++ at_ :: post)) -> ~ In (VStr s) (map fst acc)) ->
  Forall2 (attr_dumps E f n o v) pre ds -> attr_fails E f n o v at_ ->
  (exists e, snd (do_serialize E f ser o false v (pre ++ at_ :: post) acc) = Fail e) \/
  (so_strict o = false /\
   snd (do_serialize E f ser o false v (pre ++ at_ :: post) acc) =
   Done (acc ++ combine (map VStr (map fst pre)) ds)%list).
Proof.
  intros O1 O2 O3 pre at_ post ds acc Hn Hd Hf Hfail. revert acc Hn Hd.
  induction Hf as [|[a c] d pre ds (x & Hx & Hdx) _ IH]; intros acc Hn Hd.
  - destruct at_ as [a c]. destruct Hfail as (x & e & Hx & He). cbn [fst snd app] in *. cbn [do_serialize map].
    destruct (proj1 (dump_fail_iff E f (serialize E f n) o c x) (ex_intro _ e He)) as (e0 & He0). clear e He. rename He0 into He.
    rewrite Hx, bind_lift_ok. cbv zeta.
    assert (Hc : snd (mcatch (dom d <- ser o (serializer E f c x) c x; ret (store_cls_info E (so_store_cls o) d x)))
                 = Done (inr e0)).
    { unfold mcatch. replace (snd (dom d <- _; _)) with (@Fail value e0); [reflexivity|]. symmetry.
      apply bind_fail. left. exact He. }
    destruct (so_strict o) eqn:Est.
    + left. exists (exn_of (if e_noargs e0 then KIndex else KSer)). apply bind_fail. right. exists tt. split; [reflexivity|].
      apply bind_fail. right. exists (inr e0). split; [exact Hc|reflexivity].
    + destruct (e_noargs e0) eqn:Ena.
      * left. exists (exn_of KIndex). apply bind_fail. right. exists tt. split; [reflexivity|].
        apply bind_fail. right. exists (inr e0). split; [exact Hc|]. now rewrite Ena.
      * right. split; [reflexivity|]. rewrite app_nil_r. apply bind_done. exists tt. split; [reflexivity|].
        apply bind_done. exists (inr e0). split; [exact Hc|]. rewrite Ena.
        apply bind_done. exists tt. split; [apply warn_done|reflexivity].
  - cbn [map fst snd app] in *. apply NoDup_cons_iff in Hn as [Hna Hn].
    assert (Hfresh : forall s, In s (map fst (pre ++ at_ :: post)) -> ~ In (VStr s) (map fst (dset (VStr a) d acc))).
    { intros s' Hs'. rewrite dset_new by (apply Hd; now left). rewrite map_app, in_app_iff. cbn.
      intros [Hi|[Eq|[]]]; [eapply Hd; [right; exact Hs'|exact Hi]|]. injection Eq as ->. tauto. }
    assert (Hstep : snd (do_serialize E f ser o false v ((a, c) :: pre ++ at_ :: post) acc) =
                    snd (do_serialize E f ser o false v (pre ++ at_ :: post) (dset (VStr a) d acc))).
    { cbn [do_serialize]. rewrite Hx, bind_lift_ok. cbv zeta. apply dump_done_iff in Hdx.
      unfold mbind at 1. cbn [emit snd fst].
      assert (Hc : snd (mcatch (dom d <- ser o (serializer E f c x) c x; ret (store_cls_info E (so_store_cls o) d x)))
                 = Done (inl d)).
      { unfold mcatch. replace (snd (dom d0 <- _; _)) with (Done d); [reflexivity|]. symmetry.
        apply bind_done. exists d. split; [exact Hdx|]. rewrite O3. destruct d; reflexivity. }
      unfold serializer, tyof in Hc. unfold mbind at 1. rewrite Hc. cbn [snd].
      rewrite O2, O1. cbn [andb]. unfold apply_kt. cbn [rbind hashable]. now rewrite bind_lift_ok. }
    rewrite Hstep. destruct (IH _ Hn Hfresh) as [H|[H1 H2]]; [now left|]. right. split; [exact H1|].
    rewrite H2. rewrite dset_new by (apply Hd; now left). rewrite <- app_assoc. reflexivity.
Qed.
End Failing.
Lemma dump_instance_fails E f n o cls c attrs strip :
  serializer E f cls (VObj c attrs) = Some SObject -> (cls = None \/ so_strict o = false) ->
  plain_opts o -> strips (so_attr o) strip -> ci_attrs (e_ct E c) = false -> readable (ci_members (e_ct E c)) ->
  forall names a names' ds,
  StronglySorted slt (names ++ a :: names') ->
  (forall b, In b (names ++ a :: names') <->
     (In b (map fst attrs) \/ In b (map fst (ci_members (e_ct E c)))) /\
     visible (ci_members (e_ct E c)) o strip b) ->
  let field b := (b, attr_hint (e_ct E c) b) in
  let o' := set_attr_opt (SATuple strip) o in
  Forall2 (attr_dumps E f n o' (VObj c attrs)) (map field names) ds ->
  attr_fails E f n o' (VObj c attrs) (field a) ->
  (exists e, snd (dump E f (S n) o cls (VObj c attrs)) = Fail e) \/
  (so_strict o = false /\
   snd (dump E f (S n) o cls (VObj c attrs)) = Done (VDict DkDict (combine (map VStr names) ds))).
Proof.
  intros Hs Hc Hp Hst Ha Hr names a names' ds Hsort Hin field o' Hds Hfail.
  destruct (instance_fields E o c attrs strip Hst Hr) as (names0 & Hf & Hsort0 & Hin0).
  assert (names0 = (names ++ a :: names')%list) as ->.
  { apply sorted_unique; [exact Hsort0|exact Hsort|]. intros b. now rewrite Hin0, Hin. }
  destruct Hp as (O1 & O2 & O3 & O4 & O5). destruct (strips_names _ _ Hst) as [Hsn Hno].
  pose proof (sopts_eta o strip O3 O5 Hno) as Heta. fold o' in Heta.
  assert (Hmeta : forall name d, dict_with_meta E o name d = Ok (VDict DkDict d))
    by (intros; unfold dict_with_meta; rewrite O3, O4; reflexivity).
  assert (Ht : match cls with Some t => if so_strict o then Some t else None | None => None end = None).
  { destruct Hc as [->|Hc]; [reflexivity|]. rewrite Hc. now destruct cls. }
  rewrite map_app in Hf. cbn [map] in Hf. fold field in Hf.
  change (a, attr_hint (e_ct E c) a) with (field a) in Hf.
  assert (Hobj : ser_object E f (serialize E f n) o cls (VObj c attrs) =
                 dom d <- do_serialize E f (serialize E f n) o' false (VObj c attrs)
                            (map field names ++ field a :: map field names') []; ret (VDict DkDict d)).
  { unfold ser_object. cbv zeta. rewrite Ht. rewrite Hf, bind_lift_ok. cbn [class_of]. rewrite Ha. cbn [andb].
    rewrite Heta, O5. apply bind_ext. intros d. now rewrite Hmeta. }
  assert (Hmap : map fst (map field names ++ field a :: map field names') = (names ++ a :: names')%list).
  { rewrite map_app. cbn [map fst]. rewrite !map_map. cbn. now rewrite !map_id. }
  destruct (do_serialize_fails E f n o' (VObj c attrs) O1 O2 O5 (map field names) (field a) (map field names') ds [])
    as [(e & He)|[H1 H2]]; try assumption.
  - rewrite Hmap. now apply sorted_NoDup.
  - intros s _ [].
  - left. apply (dump_fail_iff E f (serialize E f (S n))). exists e. cbn [serialize]. rewrite Hs. cbn [ser_step].
    rewrite Hobj. apply bind_fail. now left.
  - right. split; [exact H1|]. unfold dump. apply dump_done_iff. cbn [serialize]. rewrite Hs. cbn [ser_step].
    rewrite Hobj. apply bind_done. eexists. split; [exact H2|]. cbn [app].
    rewrite (map_map field fst). unfold field. cbn [fst]. now rewrite map_id.
Qed.
(** An attribute that cannot be read makes the whole dump fail, strict or not. *)
Lemma do_serialize_unreadable E f n o v : forall pre a t post acc e,
  get_attr E v a = Err e ->
  (forall at_, In at_ pre -> exists x d, get_attr E v (fst at_) = Ok x /\ snd (dump E f n o (snd at_) x) = Done d) ->
  so_kt o = None ->
  exists e, snd (do_serialize E f (serialize E f n) o false v (pre ++ (a, t) :: post) acc) = Fail e.
Proof.
  induction pre as [|[a1 c1] pre IH]; intros a t post acc e He Hpre Hk; cbn [app do_serialize].
  - exists e. apply bind_fail. left. now rewrite He.
  - destruct (Hpre (a1, c1) (or_introl eq_refl)) as (x & d & Hx & Hd). cbn [fst snd] in *.
    apply dump_done_iff in Hd. rewrite Hx, bind_lift_ok. cbv zeta.
    set (d' := store_cls_info E (so_store_cls o) d x).
    assert (Hc : snd (mcatch (dom d <- serialize E f n o (e_ser E f match c1 with Some t => t | None => class_of x end) c1 x;
                 ret (store_cls_info E (so_store_cls o) d x))) = Done (inl d')).
    { unfold mcatch. replace (snd (dom d0 <- _; _)) with (Done d'); [reflexivity|]. symmetry.
      apply bind_done. exists d. split; [exact Hd|reflexivity]. }
    assert (Hpre' : forall at_, In at_ pre -> exists x d, get_attr E v (fst at_) = Ok x /\ snd (dump E f n o (snd at_) x) = Done d)
      by (intros; apply Hpre; now right).
    destruct (so_strip_nulls o && is_none d') eqn:Es.
    + destruct (IH a t post acc e He Hpre' Hk) as (e2 & H2). exists e2. apply bind_fail. right. exists tt.
      split; [reflexivity|]. apply bind_fail. right. exists (inl d'). split; [exact Hc|]. cbv zeta. now rewrite Es.
    + destruct (IH a t post (dset (VStr a1) d' acc) e He Hpre' Hk) as (e2 & H2). exists e2. apply bind_fail. right. exists tt.
      split; [reflexivity|]. apply bind_fail. right. exists (inl d'). split; [exact Hc|]. cbv zeta. rewrite Es, Hk.
      unfold apply_kt. cbn [rbind hashable]. now rewrite bind_lift_ok.
Qed.
Lemma dump_instance_unreadable E f n o cls c attrs strip :
  serializer E f cls (VObj c attrs) = Some SObject -> (cls = None \/ so_strict o = false) ->
  plain_opts o -> strips (so_attr o) strip -> ci_attrs (e_ct E c) = false -> readable (ci_members (e_ct E c)) ->
  forall names a names' e ds,
  StronglySorted slt (names ++ a :: names') ->
  (forall b, In b (names ++ a :: names') <->
     (In b (map fst attrs) \/ In b (map fst (ci_members (e_ct E c)))) /\
     visible (ci_members (e_ct E c)) o strip b) ->
  Forall2 (attr_dumps E f n (set_attr_opt (SATuple strip) o) (VObj c attrs))
          (map (fun b => (b, attr_hint (e_ct E c) b)) names) ds ->
  get_attr E (VObj c attrs) a = Err e ->
  exists e, snd (dump E f (S n) o cls (VObj c attrs)) = Fail e.
Proof.
  intros Hs Hc Hp Hst Ha Hr names a names' e ds Hsort Hin Hds He.
  set (field b := (b, attr_hint (e_ct E c) b)) in *. set (o' := set_attr_opt (SATuple strip) o) in *.
  destruct (instance_fields E o c attrs strip Hst Hr) as (names0 & Hf & Hsort0 & Hin0).
  assert (names0 = (names ++ a :: names')%list) as ->.
  { apply sorted_unique; [exact Hsort0|exact Hsort|]. intros b. now rewrite Hin0, Hin. }
  destruct Hp as (O1 & O2 & O3 & O4 & O5). destruct (strips_names _ _ Hst) as [Hsn Hno].
  pose proof (sopts_eta o strip O3 O5 Hno) as Heta. fold o' in Heta.
  assert (Ht : match cls with Some t => if so_strict o then Some t else None | None => None end = None).
  { destruct Hc as [->|Hc]; [reflexivity|]. rewrite Hc. now destruct cls. }
  rewrite map_app in Hf. cbn [map] in Hf. fold field in Hf.
  change (a, attr_hint (e_ct E c) a) with (field a) in Hf.
  assert (Hpre : forall at_, In at_ (map field names) -> exists x d, get_attr E (VObj c attrs) (fst at_) = Ok x /\
                                              snd (dump E f n o' (snd at_) x) = Done d).
  { clear -Hds. induction Hds as [|at1 d l ds (x & H1 & H2) _ IH]; intros at_ []; [subst; eauto|auto]. }
  destruct (do_serialize_unreadable E f n o' (VObj c attrs) (map field names) a (attr_hint (e_ct E c) a)
              (map field names') [] e He Hpre O1) as (e2 & He2).
  apply (dump_fail_iff E f (serialize E f (S n))). exists e2. cbn [serialize]. rewrite Hs. cbn [ser_step].
  unfold ser_object. cbv zeta. rewrite Ht. rewrite Hf, bind_lift_ok. cbn [class_of]. rewrite Ha. cbn [andb].
  rewrite Heta. apply bind_fail. now left.
Qed.

(** ** Rewriting, in terms of outcomes *)
Lemma dump_rewrites E f n o cls v b h kt :
  default_serializers E f -> wf_supers (e_ct E) -> renames kt h -> rewritable E f o cls v -> plain_opts o ->
  fst (dump E f n (with_rewriting kt b o) cls v) = fst (dump E f n o cls v) /\
  match snd (dump E f n o cls v) with
  | Done r => snd (dump E f n (with_rewriting kt b o) cls v) = Done (rewrite_doc b h r)
  | Fail e => snd (dump E f n (with_rewriting kt b o) cls v) = Fail e
  | Oof => snd (dump E f n (with_rewriting kt b o) cls v) = Oof
  end.
Proof.
  intros HD HW Hk Hr (O1 & O2 & O3 & O4 & O5).
  destruct (dump_rewrite E f n o cls v b h kt HD HW Hk Hr O1 O2 O3 O4 O5) as [He Ho]. split; [exact He|].
  destruct (snd (dump E f n (with_rewriting kt b o) cls v)), (snd (dump E f n o cls v)); cbn in Ho; try contradiction; congruence.
Qed.
Lemma strip_nulls_exact E f n o cls v :
  default_serializers E f -> wf_supers (e_ct E) -> rewritable E f o cls v -> plain_opts o ->
  forall r,
  snd (dump E f n (with_rewriting None true o) cls v) = Done r <->
  exists r0, snd (dump E f n o cls v) = Done r0 /\ r = rewrite_doc true (fun s => s) r0.
Proof.
  intros HD HW Hr Hp r.
  destruct (dump_rewrites E f n o cls v true (fun s => s) None HD HW (fun s => eq_refl) Hr Hp) as [_ Ho].
  destruct (snd (dump E f n o cls v)) as [r0|e|]; rewrite Ho; split.
  - intros Eq. injection Eq as <-. eauto.
  - intros (r1 & Eq & ->). injection Eq as <-. reflexivity.
  - discriminate.
  - intros (r1 & Eq & _). discriminate.
  - discriminate.
  - intros (r1 & Eq & _). discriminate.
Qed.
