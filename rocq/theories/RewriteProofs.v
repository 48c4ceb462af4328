(** * key_transformer and strip_nulls rewrite the plain dump *)
From Verif Require Import PyBaseFacts.
From Verif Require Export AttrFacts.
Local Open Scope string_scope.

(** ** Two runs with the same effects, the same failures and related results *)
Definition orel {A B} (R : A -> B -> Prop) (a : outcome A) (b : outcome B) : Prop :=
  match a, b with
  | Done x, Done y => R x y
  | Fail e, Fail e' => e = e'
  | Oof, Oof => True
  | _, _ => False
  end.
Definition mrel {A B} (R : A -> B -> Prop) (m : M A) (m' : M B) : Prop :=
  fst m = fst m' /\ orel R (snd m) (snd m').
Lemma mrel_ret {A B} (R : A -> B -> Prop) a b : R a b -> mrel R (ret a) (ret b).
Proof. intros H. split; [reflexivity|exact H]. Qed.
Lemma mrel_fail {A B} (R : A -> B -> Prop) e : mrel R (fail e) (fail e).
Proof. split; reflexivity. Qed.
Lemma mrel_same {A} (m : M A) : mrel eq m m.
Proof. split; [reflexivity|]. now destruct (snd m). Qed.
Lemma mrel_bind {A B A' B'} (R : A -> A' -> Prop) (S' : B -> B' -> Prop) m m' k k' :
  mrel R m m' -> (forall a a', R a a' -> snd m = Done a -> snd m' = Done a' -> mrel S' (k a) (k' a')) ->
  mrel S' (mbind m k) (mbind m' k').
Proof.
  intros [He Ho] Hk. unfold mbind.
  destruct (snd m) as [a|e|] eqn:Em, (snd m') as [a'|e'|] eqn:Em'; cbn in Ho; try contradiction.
  - destruct (Hk a a' Ho eq_refl eq_refl) as [H1 H2]. split; cbn; [congruence|assumption].
  - subst. split; [exact He|reflexivity].
  - split; [exact He|exact I].
Qed.
Lemma mrel_bind_same {A B B'} (S' : B -> B' -> Prop) (m : M A) k k' :
  (forall a, snd m = Done a -> mrel S' (k a) (k' a)) -> mrel S' (mbind m k) (mbind m k').
Proof. intros H. eapply mrel_bind; [apply mrel_same|]. intros a a' -> Ha _. now apply H. Qed.
Lemma mrel_try {A A'} (R : A -> A' -> Prop) m m' h h' :
  mrel R m m' -> (forall e, mrel R (h e) (h' e)) -> mrel R (mtry m h) (mtry m' h').
Proof.
  intros [He Ho] Hh. unfold mtry.
  destruct (snd m) as [a|e|] eqn:Em, (snd m') as [a'|e'|] eqn:Em'; cbn in Ho; try contradiction.
  - split; [exact He|]. now rewrite Em, Em'.
  - subst. destruct (Hh e') as [H1 H2]. split; cbn; [congruence|assumption].
  - split; [exact He|]. now rewrite Em, Em'.
Qed.
Lemma mrel_catch {A A'} (R : A -> A' -> Prop) m m' :
  mrel R m m' ->
  mrel (fun a b => match a, b with inl x, inl y => R x y | inr e, inr e' => e = e' | _, _ => False end)
       (mcatch m) (mcatch m').
Proof.
  intros [He Ho]. unfold mcatch.
  destruct (snd m) as [a|e|] eqn:Em, (snd m') as [a'|e'|] eqn:Em'; cbn in Ho; try contradiction;
    split; cbn; auto.
Qed.
Lemma mrel_map {A B B'} (R : B -> B' -> Prop) (g : A -> M B) (g' : A -> M B') l :
  (forall x, In x l -> mrel R (g x) (g' x)) -> mrel (Forall2 R) (mmap g l) (mmap g' l).
Proof.
  induction l as [|x l IH]; cbn [mmap]; intros H.
  - apply mrel_ret. constructor.
  - eapply mrel_bind; [apply H; now left|]. intros a a' Ha _ _.
    eapply mrel_bind; [apply IH; intros; apply H; now right|]. intros b b' Hb _ _.
    apply mrel_ret. now constructor.
Qed.

Lemma dset_new s v d : ~ In (VStr s) (map fst d) -> dset (VStr s) v d = (d ++ [(VStr s, v)])%list.
Proof.
  unfold dset. induction d as [|[k x] d IH]; cbn [aset map fst In app]; [reflexivity|]. intros Hn.
  destruct (py_eqb (VStr s) k) eqn:E; [apply py_eqb_str in E; subst; tauto|]. rewrite IH; tauto.
Qed.

(** ** Facts about rewriting *)
Section Rewrite.
Variables (b : bool) (h : string -> string).
Notation phi := (rewrite_doc b h).
Definition rstep (acc : list (value * value)) (kv : value * value) : list (value * value) :=
  if b && is_none (snd kv) then acc else dset (new_key h (fst kv)) (snd kv) acc.
Definition build (d : list (value * value)) : list (value * value) :=
  fold_left rstep (map (fun kv => (fst kv, phi (snd kv))) d) [].
Lemma phi_dict k d : phi (VDict k d) = VDict k (build d).
Proof. reflexivity. Qed.
Lemma phi_atom v : neither_list_nor_dict v -> phi v = v.
Proof. intros [H1 H2]. destruct v; try reflexivity; [now destruct (H1 l)|now destruct (H2 k d)]. Qed.
Lemma scalar_neither CT v : json_scalar CT v -> neither_list_nor_dict v.
Proof.
  intros H. split.
  - intros l ->. destruct H as [H|[[] H]]; [discriminate|vm_compute in H; discriminate..].
  - intros k d ->. destruct H as [H|[[] H]]; [discriminate|destruct k; vm_compute in H; discriminate..].
Qed.
Lemma phi_is_none v : is_none (phi v) = is_none v.
Proof. now destruct v. Qed.
Lemma build_snoc d k v : build (d ++ [(k, v)]) = rstep (build d) (k, phi v).
Proof. unfold build. rewrite map_app, fold_left_app. reflexivity. Qed.
Lemma Forall2_phi l l' : Forall2 (fun r r' => r = phi r') l l' -> l = map phi l'.
Proof. induction 1; cbn; [reflexivity|]. congruence. Qed.

Variables (E : env) (f : nat) (o0 : sopts).
Let CT := e_ct E.
Variable kt : option (value -> res value).
Hypothesis Hkt : renames kt h.
Let W := with_rewriting kt b.
Variable V : option ty -> value -> Prop.
Let sr c x := serializer E f c x.
Hypothesis HD : default_serializers E f.
Hypothesis HW : wf_supers CT.
Hypothesis Velem : forall c x l y t, V c x -> iterates (sr c x) ->
  py_iter (e_rt E) x = Ok l -> In y l -> elem_type E o0 c x t -> V t y.
Hypothesis Vvalue : forall c x k y t, V c x -> sr c x = Some SDict -> py_getitem CT x k = Ok y ->
  (t = None \/ exists k' u, t = Some u /\ In (k', u) (so_types o0)) -> V t y.
Hypothesis Vattr : forall c x a y t, V c x -> (sr c x = Some SObject \/ sr c x = Some STuple) ->
  get_attr E x a = Ok y ->
  (t = None \/ exists i u, (c = Some (TClass i) \/ class_of x = TClass i) /\ t = Some u /\
                           In (a, u) (ci_hints (CT i))) -> V t y.
Hypothesis Valt : forall c x t, V c x -> sr c x = Some SUnion -> In t (get_args c) ->
  (x = VNone -> ~ In TNoneT (get_args c)) -> V (Some t) x.
Hypothesis HV : forall c x, V c x ->
  match sr c x with
  | Some SComplex | Some SZone | Some STimezone => False
  | Some SEnum => forall y, get_attr E x (if so_enum_name o0 then "name" else "value") = Ok y ->
                            neither_list_nor_dict y
  | Some STuple => forall i l, x <> VNT i l
  | Some SDict => exists k ks xs, x = VDict k (combine (map VStr ks) xs) /\ NoDup ks
  | Some SObject =>
      (forall i, class_of x = TClass i -> ci_attrs (e_ct E i) = false) /\
      match x with VObj _ _ => True | _ => NoDup (rt_dir (e_rt E) x) end /\
      (so_strict o0 = true ->
       match c with
       | Some (TClass i) => ci_attrs (e_ct E i) = false /\ NoDup (map fst (ci_hints (e_ct E i))) /\
                            match ci_slots (e_ct E i) with Some l => NoDup l | None => True end
       | Some t => NoDup (rt_cls_dir (e_rt E) t)
       | None => True
       end)
  | _ => True
  end.

Definition okr (o : sopts) : Prop :=
  so_strict o = so_strict o0 /\ so_enum_name o = so_enum_name o0 /\
  so_kt o = None /\ so_strip_nulls o = false /\ so_class_info o = false /\ so_dump_time o = false /\
  so_store_cls o = false /\
  (forall k t, In (k, t) (so_types o) -> In (k, t) (so_types o0)).
Lemma okr_types o : okr o -> okr (no_types o).
Proof. intros (H0 & H1 & H2 & H3 & H4 & H5 & H6 & _). repeat (split; [assumption|]). intros k t []. Qed.
Lemma okr_store o : okr o -> okr (set_store false o).
Proof. intros (H0 & H1 & H2 & H3 & H4 & H5 & H6 & H7). repeat (split; [assumption || reflexivity|]). assumption. Qed.

Variable ser : sopts -> option shandler -> option ty -> value -> M value.
Notation PhiR := (fun r r' => r = phi r').
Hypothesis Hser : forall o cls v, okr o -> V cls v ->
  mrel PhiR (ser (W o) (sr cls v) cls v) (ser o (sr cls v) cls v).

Lemma dump_rw o cls v : okr o -> V cls v ->
  mrel PhiR (dump_ E f ser (W o) cls v) (dump_ E f ser o cls v).
Proof.
  intros Ho Hq. unfold dump_. apply mrel_bind_same. intros u _.
  apply mrel_try; [apply (Hser o cls v Ho Hq)|]. intros e. apply mrel_fail.
Qed.
Lemma list_rw {A} (g g' : A -> M value) l : (forall x, In x l -> mrel PhiR (g x) (g' x)) ->
  mrel PhiR (dom r <- mmap g l; ret (VList r)) (dom r <- mmap g' l; ret (VList r)).
Proof.
  intros H. eapply mrel_bind; [apply (mrel_map PhiR); exact H|]. intros a a' Ha _ _. apply mrel_ret.
  apply Forall2_phi in Ha. subst. reflexivity.
Qed.
Lemma ser_list_rw o cls v : okr o -> V cls v -> sr cls v = Some SList ->
  mrel PhiR (ser_list E f ser (W o) cls v) (ser_list E f ser o cls v).
Proof.
  intros Ho Hq Hs. assert (Hit : iterates (sr cls v)) by (now left).
  unfold ser_list. destruct (negb (truthy (e_rt E) v)); [apply mrel_ret; reflexivity|].
  cbv zeta. destruct (get_args cls) as [|t ts] eqn:Ea.
  - change (so_strict (W o)) with (so_strict o). destruct (so_strict o) eqn:Est.
    + apply mrel_bind_same. intros x0 H0. apply lift_done in H0.
      apply mrel_bind_same. intros l Hl. apply lift_done in Hl. apply list_rw. intros x Hx.
      apply (Hser (set_store false o) (Some (class_of x0)) x); [now apply okr_store|].
      eapply Velem; [eassumption..|]. eapply et_first; [|exact H0]. destruct Ho as (<- & _). exact Est.
    + apply mrel_bind_same. intros l Hl. apply lift_done in Hl. apply list_rw. intros x Hx.
      apply (dump_rw (set_store false o) None x); [now apply okr_store|].
      eapply Velem; [eassumption..|]. constructor.
  - apply mrel_bind_same. intros l Hl. apply lift_done in Hl. apply list_rw. intros x Hx.
    apply (Hser (set_store false o) (Some t) x); [now apply okr_store|].
    eapply Velem; [eassumption..|]. apply et_arg. rewrite Ea. now left.
Qed.
Lemma ser_iterable_rw o c cls v : okr o -> V c v -> iterates (sr c v) ->
  (forall t, In t (get_args cls) -> In t (get_args c)) ->
  mrel PhiR (ser_iterable E f ser (W o) cls v) (ser_iterable E f ser o cls v).
Proof.
  intros Ho Hq Hit Hc. unfold ser_iterable. cbv zeta.
  change (so_strict (W o)) with (so_strict o).
  apply mrel_bind_same. intros l Hl. apply lift_done in Hl.
  apply mrel_bind_same. intros cls_ Hcls. apply lift_done in Hcls.
  apply mrel_bind_same. intros subs Hsubs. apply lift_done in Hsubs.
  assert (Hc' : forall t, In t (get_args cls_) -> elem_type E o0 c v (Some t)).
  { destruct (so_strict o) eqn:Est; [|inversion Hcls; subst; intros t []].
    assert (Est0 : so_strict o0 = true) by (destruct Ho as (<- & _); exact Est).
    unfold determine_cls in Hcls.
    destruct cls as [c'|]; [inversion Hcls; subst; intros; apply et_arg; auto|].
    assert (Ht : forall y, slice1 v y -> forall t, In t (get_args (Some (rt_type (e_rt E) y))) ->
                   elem_type E o0 c v (Some t)) by (intros y Hy t Ht; eapply et_typish; eassumption).
    destruct v as [| | | |[|ch s]|[|x l1]|[|x l1]|[] [|x l1]|k [|x l1]| | |c' [|x l1]|];
      inversion Hcls; subst; try (intros t []); apply Ht; constructor. }
  apply list_rw. intros [x c1] Hin. cbn [fst snd].
  apply (dump_rw (set_store false o) c1 x); [now apply okr_store|].
  eapply Velem; [eassumption..| |].
  - apply in_combine_l in Hin. exact Hin.
  - apply in_combine_r in Hin. destruct c1 as [t|]; [|constructor].
    unfold get_subclasses in Hsubs. destruct (get_args cls_) as [|t1 [|t2 ts]] eqn:Ea.
    + inversion Hsubs; subst. apply repeat_spec in Hin. discriminate.
    + inversion Hsubs; subst. apply repeat_spec in Hin. inversion Hin; subst. apply Hc'. now left.
    + destruct (Nat.eqb _ _); [|discriminate]. inversion Hsubs; subst.
      change (Some t1 :: Some t2 :: map Some ts) with (map Some (t1 :: t2 :: ts)) in Hin.
      apply in_map_iff in Hin as (t' & Et & Hin). inversion Et; subst. apply Hc'. exact Hin.
Qed.
Lemma ser_tuple_rw o cls v : okr o -> V cls v -> sr cls v = Some STuple ->
  mrel PhiR (ser_tuple E f ser (W o) cls v) (ser_tuple E f ser o cls v).
Proof.
  intros Ho Hq Hs. assert (Hit : iterates (sr cls v)) by (now right; right; left).
  assert (Hn : mrel PhiR (ser_iterable E f ser (W o) None v) (ser_iterable E f ser o None v))
    by (eapply ser_iterable_rw; [exact Ho|exact Hq|exact Hit|intros t []]).
  assert (Hnt : forall i l, v <> VNT i l) by (apply HV in Hq; rewrite Hs in Hq; exact Hq).
  assert (Ht : forall t, cls = Some t -> forall o1 o2 : sopts, o1 = W o -> o2 = o -> mrel PhiR
     (match raw_args t with
      | None => fail (exn_of KAttribute)
      | Some args =>
          if ty_eqb TEllipsis (last args TAny) then
            dom l <- lift (py_iter (e_rt E) v);
            ser_iterable E f ser o1 (Some (TApp true HTuple (repeat (hd TAny args) (length l)))) v
          else ser_iterable E f ser o1 (Some t) v
      end)
     (match raw_args t with
      | None => fail (exn_of KAttribute)
      | Some args =>
          if ty_eqb TEllipsis (last args TAny) then
            dom l <- lift (py_iter (e_rt E) v);
            ser_iterable E f ser o2 (Some (TApp true HTuple (repeat (hd TAny args) (length l)))) v
          else ser_iterable E f ser o2 (Some t) v
      end)).
  { intros t -> o1 o2 -> ->. destruct (raw_args t) as [args|] eqn:Ea; [|apply mrel_fail].
    destruct (ty_eqb TEllipsis (last args TAny)) eqn:El.
    - apply mrel_bind_same. intros l Hl. eapply ser_iterable_rw; [exact Ho|exact Hq|exact Hit|].
      intros t' Ht'. assert (t' = hd TAny args) as ->.
      { cbn in Ht'. destruct (repeat (hd TAny args) (length l)) eqn:Er; [destruct Ht'|].
        rewrite <- Er in Ht'. now apply repeat_spec in Ht'. }
      cbn. rewrite Ea. destruct args; [discriminate|]. now left.
    - eapply ser_iterable_rw; [exact Ho|exact Hq|exact Hit|]. auto. }
  unfold ser_tuple. destruct v; destruct cls as [t|];
    first [exact Hn | exact (Ht t eq_refl _ _ eq_refl eq_refl) | exfalso; eapply Hnt; reflexivity].
Qed.
Lemma ktr s : apply_kt CT kt (VStr s) = Ok (VStr (h s)).
Proof.
  unfold apply_kt. unfold renames in Hkt. destruct kt as [g|]; cbn [rbind].
  - rewrite Hkt. reflexivity.
  - rewrite Hkt. reflexivity.
Qed.
Lemma rstep_is d' k d acc : d' = phi d ->
  rstep acc (VStr k, phi d) = (if b && is_none d' then acc else dset (VStr (h k)) d' acc).
Proof. intros ->. reflexivity. Qed.
Lemma ser_dict_go_rw o c v : okr o -> V c v -> sr c v = Some SDict -> forall ks acc,
  NoDup ks -> (forall s, In s ks -> ~ In (VStr s) (map fst acc)) ->
  mrel (fun r r' => r = build r') (ser_dict_go E f ser (W o) v (map VStr ks) (build acc))
       (ser_dict_go E f ser o v (map VStr ks) acc).
Proof.
  intros Ho Hq Hsd. induction ks as [|s ks IH]; intros acc Hn Hd; cbn [map ser_dict_go].
  - apply mrel_ret. reflexivity.
  - inversion Hn; subst.
    apply mrel_bind_same. intros x Hx. apply lift_done in Hx.
    assert (Hst : forall o' acc', store_and_hash E f ser o' acc' (VStr s) = ret (acc', VStr s)).
    { intros. unfold store_and_hash. replace (json_key (e_ct E) (VStr s)) with true by reflexivity. reflexivity. }
    rewrite !Hst, !bind_ret_l. cbn [fst snd].
    change (so_types (W o)) with (so_types o). change (no_types (W o)) with (W (no_types o)).
    eapply mrel_bind.
    { apply dump_rw; [now apply okr_types|]. eapply Vvalue; [eassumption..|].
      destruct (aget py_eqb (VStr s) (so_types o)) eqn:Et; [right|now left].
      apply aget_In' in Et as [k' Hin]. destruct Ho as (_ & _ & _ & _ & _ & _ & _ & Ho). eauto. }
    intros d' d Hdd _ _. change (so_strip_nulls (W o)) with b. change (so_kt (W o)) with kt.
    destruct Ho as (O1 & O2 & O3 & O4 & O5). rewrite O4, O3. cbn [andb].
    assert (Hb : build (dset (VStr s) d acc) = if b && is_none d' then build acc else dset (VStr (h s)) d' (build acc)).
    { rewrite dset_new by (apply Hd; now left). rewrite build_snoc. now apply rstep_is. }
    assert (Hd' : forall s', In s' ks -> ~ In (VStr s') (map fst (dset (VStr s) d acc))).
    { intros s' Hs'. rewrite dset_new by (apply Hd; now left). rewrite map_app, in_app_iff. cbn.
      intros [Hi|[Eq|[]]]; [eapply Hd; [right; exact Hs'|exact Hi]|]. injection Eq as ->. tauto. }
    unfold apply_kt at 2. cbn [rbind hashable]. rewrite bind_lift_ok.
    destruct (b && is_none d').
    + rewrite <- Hb. apply IH; assumption.
    + fold CT. rewrite ktr, bind_lift_ok, <- Hb. apply IH; assumption.
Qed.
Lemma ser_dict_rw o c v : okr o -> V c v -> sr c v = Some SDict ->
  mrel PhiR (ser_dict E f ser (W o) v) (ser_dict E f ser o v).
Proof.
  intros Ho Hq Hs. pose proof (HV _ _ Hq) as Hv. rewrite Hs in Hv. destruct Hv as (k & ks & xs & -> & Hn).
  unfold ser_dict. apply mrel_bind_same. intros keys Hk. apply lift_done in Hk. cbn in Hk.
  injection Hk as <-.
  assert (Hks : exists ks', map fst (combine (map VStr ks) xs) = map VStr ks' /\ NoDup ks').
  { clear -Hn. revert xs. induction ks as [|s ks IH]; intros [|x xs]; try (exists []; split; [reflexivity|constructor]).
    inversion Hn; subst. destruct (IH H2 xs) as (ks' & Hk & Hn').
    exists (s :: ks'). cbn [map combine fst]. rewrite Hk. split; [reflexivity|].
    constructor; [|assumption]. intros Hin. apply H1.
    assert (Hi : In (VStr s) (map fst (combine (map VStr ks) xs))) by (rewrite Hk; now apply in_map).
    apply in_map_iff in Hi as ([k' x'] & Eq & Hi). cbn in Eq. subst. apply in_combine_l in Hi.
    apply in_map_iff in Hi as (s' & Eq & Hi). now injection Eq as ->. }
  destruct Hks as (ks' & -> & Hn').
  eapply mrel_bind.
  - apply (ser_dict_go_rw o c _ Ho Hq Hs ks' [] Hn'). intros s _ [].
  - intros r r' -> _ _. apply mrel_ret. reflexivity.
Qed.
Lemma ser_union_rw o cls v : okr o -> V cls v -> sr cls v = Some SUnion ->
  mrel PhiR (ser_union E f ser (W o) cls v) (ser_union E f ser o cls v).
Proof.
  intros Ho Hq Hs. unfold ser_union. destruct cls as [t|]; [|apply mrel_fail].
  destruct (raw_args t) as [ts|] eqn:Ea; [|apply mrel_fail].
  destruct (is_none v && existsb (ty_eqb TNoneT) ts) eqn:En; [apply mrel_ret; reflexivity|].
  assert (Ht : forall t', In t' ts -> V (Some t') v)
    by (intros t' Hin; eapply Valt; [exact Hq|exact Hs|cbn; now rewrite Ea|];
        intros ->; cbn [get_args]; rewrite Ea; intros Hn; apply existsb_ty_In in Hn; cbn [is_none andb] in En; congruence).
  clear Ea En. induction ts as [|t1 ts IH]; cbn [ser_union_go]; [apply mrel_fail|].
  apply mrel_try; [apply dump_rw; [exact Ho|apply Ht; now left]|].
  intros e. destruct (is_jsons (e_kind e)); [|apply mrel_fail]. apply IH. intros; apply Ht; now right.
Qed.
Lemma do_serialize_rw o v : okr o -> forall attrs acc,
  (forall a t x, In (a, t) attrs -> get_attr E v a = Ok x -> V t x) ->
  NoDup (map fst attrs) -> (forall s, In s (map fst attrs) -> ~ In (VStr s) (map fst acc)) ->
  mrel (fun r r' => r = build r') (do_serialize E f ser (W o) false v attrs (build acc))
       (do_serialize E f ser o false v attrs acc).
Proof.
  intros Ho. induction attrs as [|[a c] attrs IH]; intros acc Ha Hn Hd; cbn [do_serialize].
  - apply mrel_ret. reflexivity.
  - cbn [map fst] in Hn, Hd. inversion Hn; subst.
    apply mrel_bind_same. intros x Hx. apply lift_done in Hx. cbv zeta.
    apply mrel_bind_same. intros u _.
    eapply mrel_bind.
    { apply (mrel_catch PhiR). eapply mrel_bind.
      - apply (Hser o c x Ho). eapply (Ha a); [now left|exact Hx].
      - intros d' d Hdd _ _. apply mrel_ret. change (so_store_cls (W o)) with (so_store_cls o).
        destruct Ho as (_ & _ & _ & _ & _ & _ & -> & _). cbv beta in Hdd. rewrite Hdd. destruct d; reflexivity. }
    assert (Ha' : forall a t x, In (a, t) attrs -> get_attr E v a = Ok x -> V t x)
      by (intros a' t' x' Hin; apply (Ha a'); now right).
    intros [d'|e'] [d|e] Hdd _ _; try contradiction.
    2: { subst e'. change (so_strict (W o)) with (so_strict o).
         destruct (so_strict o); [apply mrel_fail|]. destruct (e_noargs e); [apply mrel_fail|].
         apply mrel_bind_same. intros _ _. apply mrel_ret. reflexivity. }
    change (so_strip_nulls (W o)) with b. change (so_kt (W o)) with kt.
    pose proof Ho as (O1 & O2 & O3 & O4 & O5). rewrite O4, O3. cbn [andb].
    assert (Hb : build (dset (VStr a) d acc) = if b && is_none d' then build acc else dset (VStr (h a)) d' (build acc)).
    { rewrite dset_new by (apply Hd; now left). rewrite build_snoc. now apply rstep_is. }
    assert (Hd' : forall s', In s' (map fst attrs) -> ~ In (VStr s') (map fst (dset (VStr a) d acc))).
    { intros s' Hs'. rewrite dset_new by (apply Hd; now left). rewrite map_app, in_app_iff. cbn.
      intros [Hi|[Eq|[]]]; [eapply Hd; [right; exact Hs'|exact Hi]|]. injection Eq as ->. tauto. }
    unfold apply_kt at 2. cbn [rbind hashable]. rewrite bind_lift_ok.
    destruct (b && is_none d').
    + rewrite <- Hb. apply IH; assumption.
    + fold CT. rewrite ktr, bind_lift_ok, <- Hb. apply IH; assumption.
Qed.
Lemma filter_attrs_W ms o st l : filter_attrs ms (W o) st l = filter_attrs ms o st l.
Proof. induction l as [|[a c] l IH]; [reflexivity|]. cbn [filter_attrs]. rewrite IH. reflexivity. Qed.
Lemma ser_object_rw o cls v : okr o -> V cls v -> sr cls v = Some SObject ->
  mrel PhiR (ser_object E f ser (W o) cls v) (ser_object E f ser o cls v).
Proof.
  intros Ho Hq Hs. pose proof (HV _ _ Hq) as Hv. rewrite Hs in Hv. destruct Hv as (Hv0 & Hv1 & Hv2).
  unfold ser_object. change (so_strict (W o)) with (so_strict o).
  set (fc := match cls with Some t => if so_strict o then Some t else None | None => None end).
  assert (Hsame : (match fc with Some t => attrs_from_class E (W o) t | None => attrs_from_object E (W o) v end)
                = match fc with Some t => attrs_from_class E o t | None => attrs_from_object E o v end)
    by (destruct fc as [t|]; unfold attrs_from_class, attrs_from_object;
        change (so_attr (W o)) with (so_attr o); destruct (strip_names (so_attr o)); try reflexivity;
        cbn [rbind]; [destruct t|destruct v]; apply filter_attrs_W).
  rewrite Hsame. apply mrel_bind_same. intros attrs Ha. apply lift_done in Ha. cbv zeta.
  set (o' := set_store (so_class_info o) (set_attr_opt (normalize_strip_attr (so_attr o)) o)).
  change (set_store (so_class_info (W o)) (set_attr_opt (normalize_strip_attr (so_attr (W o))) (W o))) with (W o').
  assert (Ho' : okr o').
  { destruct Ho as (O1 & O2 & O3 & O4 & O5 & O6 & O7 & O8). repeat (split; [assumption|]). assumption. }
  assert (Hst : fc = match cls with Some t => if so_strict o0 then Some t else None | None => None end).
  { unfold fc. destruct Ho as (-> & _). reflexivity. }
  assert (Hfc : forall t, fc = Some t -> cls = Some t /\ so_strict o0 = true).
  { intros t. rewrite Hst. destruct cls as [t'|]; [|discriminate]. destruct (so_strict o0); [|discriminate].
    intros Eq. auto. }
  assert (Hpub : (match match fc with Some t => t | None => class_of v end with
                  | TClass c => ci_attrs (e_ct E c) | _ => false end && negb (so_privates o)) = false).
  { destruct fc as [t|] eqn:Ef.
    - destruct (Hfc t eq_refl) as [-> Hst0]. apply Hv2 in Hst0.
      destruct t; try reflexivity. destruct Hst0 as [-> _]. reflexivity.
    - destruct (class_of v) eqn:Ec; try reflexivity. now rewrite Hv0. }
  assert (Hnd : NoDup (map fst attrs)).
  { destruct fc as [t|] eqn:Ef.
    - destruct (Hfc t eq_refl) as [-> Hst0]. apply Hv2 in Hst0.
      unfold attrs_from_class in Ha. apply rbind_ok in Ha as (st & _ & Ha).
      destruct t; (eapply filter_attrs_NoDup; [exact Ha|]);
        first [apply (map_pair_NoDup (fun _ => @None ty)); exact Hst0
              |apply attrs_and_types_NoDup; apply Hst0].
    - unfold attrs_from_object in Ha. apply rbind_ok in Ha as (st & _ & Ha).
      destruct v; (eapply filter_attrs_NoDup; [exact Ha|]);
        first [apply (map_pair_NoDup (fun _ => @None ty)); exact Hv1
              |eapply (map_pair_NoDup); apply sorted_NoDup, sort_names_sorted]. }
  change (so_privates (W o)) with (so_privates o). rewrite Hpub.
  eapply mrel_bind.
  - apply (do_serialize_rw o' v Ho' attrs []); [|exact Hnd|intros s _ []].
    eapply (object_attrs_visited E f V Vattr); eassumption.
  - intros d' d -> _ _. change (so_store_cls (W o)) with (so_store_cls o).
    destruct Ho as (O1 & O2 & O3 & O4 & O5 & O6 & O7 & O8). rewrite O7.
    unfold dict_with_meta. change (so_class_info (W o)) with (so_class_info o).
    change (so_dump_time (W o)) with (so_dump_time o). rewrite O5, O6. cbn. apply mrel_ret. reflexivity.
Qed.
Lemma atom_rw (m : M value) : (forall r, snd m = Done r -> neither_list_nor_dict r) -> mrel PhiR m m.
Proof.
  intros H. split; [reflexivity|]. destruct (snd m); cbn; [|reflexivity|exact I].
  symmetry. apply phi_atom. now apply H.
Qed.
Lemma ser_step_rw o cls v : okr o -> V cls v ->
  mrel PhiR (ser_step E f ser (W o) (sr cls v) cls v) (ser_step E f ser o (sr cls v) cls v).
Proof.
  intros Ho Hq. pose proof (HV _ _ Hq) as Hv. unfold ser_step.
  destruct (sr cls v) as [hh|] eqn:Eh; [|apply mrel_fail].
  assert (Hstr : forall s, neither_list_nor_dict (VStr s)) by (intros; split; discriminate).
  assert (Htime : forall b p, mrel PhiR (ser_time_like E f b p v) (ser_time_like E f b p v)).
  { intros b' p. apply atom_rw. intros r. unfold ser_time_like. rewrite bind_done. intros (sw & _ & H).
    apply bind_done in H as (u & _ & H). inversion H; subst. apply Hstr. }
  destruct hh; try contradiction; eauto using ser_tuple_rw, ser_list_rw, ser_union_rw, ser_dict_rw, ser_object_rw.
  - destruct v as [| | | | | | | | |x| | |]; try apply mrel_fail. destruct x; try apply mrel_fail.
    apply atom_rw. intros r H. inversion H; subst. split; discriminate.
  - apply atom_rw. intros r H. apply lift_done in H. eapply scalar_neither, ser_primitive_scalar; [exact HW| |exact H].
    rewrite <- HD. exact Eh.
  - apply atom_rw. intros r H. apply lift_done in H. apply Hv. destruct Ho as (_ & <- & _). exact H.
  - eapply ser_iterable_rw; [exact Ho|exact Hq| |auto]. rewrite Eh. unfold iterates. auto.
  - apply atom_rw. intros r H. apply lift_done in H. apply rbind_ok in H as (s & _ & H). inversion H; subst. apply Hstr.
  - apply atom_rw. intros r H. apply lift_done in H. apply rbind_ok in H as (s & _ & H). inversion H; subst. apply Hstr.
  - destruct v as [| | | | | | | | |x| | |]; try apply mrel_fail. destruct x; try apply mrel_fail.
    apply atom_rw. intros r H. inversion H; subst. apply Hstr.
  - exfalso. unfold sr, serializer in Eh. rewrite HD in Eh. now apply ser_no_custom in Eh.
Qed.
End Rewrite.

Lemma serialize_rewrite E f o0 cls0 v0 b h kt :
  default_serializers E f -> wf_supers (e_ct E) -> renames kt h -> rewritable E f o0 cls0 v0 ->
  forall n o cls v, okr o0 o -> visits E f o0 cls0 v0 cls v ->
  mrel (fun r r' => r = rewrite_doc b h r')
       (serialize E f n (with_rewriting kt b o) (serializer E f cls v) cls v)
       (serialize E f n o (serializer E f cls v) cls v).
Proof.
  intros HD HW Hkt Hr. induction n as [|n IH]; intros o cls v Ho Hq; [split; [reflexivity|exact I]|].
  cbn [serialize]. apply (ser_step_rw b h E f o0 kt Hkt (visits E f o0 cls0 v0)); eauto using visits.
Qed.
Lemma dump_rewrite E f n o cls v b h kt :
  default_serializers E f -> wf_supers (e_ct E) -> renames kt h -> rewritable E f o cls v ->
  so_kt o = None -> so_strip_nulls o = false -> so_class_info o = false -> so_dump_time o = false ->
  so_store_cls o = false ->
  mrel (fun r r' => r = rewrite_doc b h r')
       (dump E f n (with_rewriting kt b o) cls v) (dump E f n o cls v).
Proof.
  intros HD HW Hkt Hr H1 H2 H3 H4 H5. unfold dump.
  apply (dump_rw b h E f o kt (visits E f o cls v)).
  - intros o' cls' v' Ho Hq. now apply (serialize_rewrite E f o cls v).
  - unfold okr. auto 10.
  - apply visit_root.
Qed.
