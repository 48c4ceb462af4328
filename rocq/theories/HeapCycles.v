(** * Objects that contain themselves *)
From Verif Require Import HeapProofs RoundTripFacts.
Local Open Scope string_scope.

(** The options that stay the same on the way down *)
Definition same_opts (o o' : sopts) : Prop :=
  so_strict o' = so_strict o /\ normalize_strip_attr (so_attr o') = normalize_strip_attr (so_attr o) /\
  so_privates o' = so_privates o /\ so_properties o' = so_properties o /\ so_class_vars o' = so_class_vars o /\
  so_types o' = [].
Lemma keep_same o o' ms st a : same_opts o o' -> keep_attr ms o' st a = keep_attr ms o st a.
Proof. intros (_ & _ & E1 & E2 & E3 & _). unfold keep_attr. now rewrite E1, E2, E3. Qed.
Lemma filter_same o o' ms st l : same_opts o o' -> filter_attrs ms o' st l = filter_attrs ms o st l.
Proof.
  intros S1. induction l as [|[a t] l IH]; cbn [filter_attrs]; [reflexivity|]. rewrite (keep_same o o') by assumption.
  now rewrite IH.
Qed.
Lemma attrs_same E o o' v : same_opts o o' -> attrs_from_object E o' v = attrs_from_object E o v.
Proof.
  intros S1. unfold attrs_from_object, strip_names. rewrite (proj1 (proj2 S1)).
  destruct (normalize_strip_attr (so_attr o)); try reflexivity; cbn [rbind]; destruct v; now apply filter_same.
Qed.

Section Cycle.
Variables (E : env) (K : henv) (f : nat) (H0 : heap) (limit : option exn) (o0 : sopts) (P : obj -> Prop).
Hypothesis (HS : default_serializers E f) (W : wf_supers (e_ct E)) (PH : plain_heap E K H0).
Hypothesis HP : forall y, P y -> exists z, part E f o0 H0 y z /\ P z.
Hypothesis HG : forall y, P y -> good E H0 y.

Definition never {A} (m : hM A) (H : heap) : Prop := forall y, snd (m H) <> Done y.
Lemma never_bind1 {A B} (m : hM A) (g : A -> hM B) H : never m H -> never (hbind m g) H.
Proof.
  intros Hm y. unfold hbind. specialize (Hm). unfold never in Hm.
  destruct (m H) as [H1 [a|e|]]; cbn in *; [|discriminate..]. destruct (Hm a eq_refl).
Qed.
Lemma never_bind2 {A B} (m : hM A) (g : A -> hM B) (Q : A -> Prop) H :
  okat H0 Q m H -> (forall a H1, inv H0 H1 -> Q a -> never (g a) H1) -> never (hbind m g) H.
Proof.
  intros [I1 Q1] Hg y. unfold hbind. destruct (m H) as [H1 [a|e|]]; cbn in *; [|discriminate..].
  apply Hg; auto.
Qed.
Lemma never_safe {A B} (m : hM A) (g : A -> hM B) (Q : A -> Prop) H : safe H0 Q m -> inv H0 H ->
  (forall a H1, inv H0 H1 -> Q a -> never (g a) H1) -> never (hbind m g) H.
Proof. intros Hm I. apply never_bind2. now apply Hm. Qed.
Lemma never_run {A B} (m : hM A) (g : A -> hM B) H a H1 : m H = (H1, Done a) -> never (g a) H1 -> never (hbind m g) H.
Proof. intros Em Hg y. unfold hbind. rewrite Em. apply Hg. Qed.
Lemma never_map {A B} (g : A -> hM B) l x H : inv H0 H -> In x l ->
  (forall y, In y l -> safe H0 (fun _ => True) (g y)) -> (forall H1, inv H0 H1 -> never (g x) H1) -> never (hmap g l) H.
Proof.
  intros I Hin Hs Hn. revert H I. induction l as [|y l IH]; [destruct Hin|]. intros H I. cbn [hmap].
  destruct Hin as [-> |Hin].
  - apply never_bind1. now apply Hn.
  - eapply never_safe; [apply Hs; now left|exact I|]. intros z H1 I1 _.
    eapply never_bind1. apply IH; auto. intros; apply Hs. now right.
Qed.
Lemma view_atom H v : flatv v = true -> view H (OAtom v) = v.
Proof. intros Hv. unfold view, read. cbn [read_with]. now rewrite Hv. Qed.
Lemma with_keys_get H k d : flatv k = true -> forallb flatv (map fst d) = true ->
  hdget H (OAtom k) (with_keys d) = aget py_eqb k d.
Proof.
  intros Hk. unfold hdget, with_keys. induction d as [|[k1 x1] d IH]; [reflexivity|]. cbn [map aget fst snd forallb].
  rewrite andb_true_iff. intros [Hk1 Hd]. unfold key_eqb at 1. rewrite !view_atom by assumption. now rewrite IH.
Qed.
Lemma safe_any {A} (Q : A -> Prop) m : safe H0 Q m -> safe H0 (fun _ => True) m.
Proof. apply safe_weaken. auto. Qed.

Section Step.
Variable hser : sopts -> option shandler -> option ty -> obj -> hM obj.
Hypothesis Hser : forall o cls x H, inv H0 H -> good E H0 x ->
  okat H0 (clean H0) (hser o (e_ser E f (ktype cls H x)) cls x) H.
Hypothesis IH : forall o x H, same_opts o0 o -> inv H0 H -> P x -> never (hser o (e_ser E f (kind H x)) None x) H.

Lemma never_dump o x H : same_opts o0 o -> inv H0 H -> P x -> never (hdump_ E f hser o None x) H.
Proof.
  intros So I Hx y. unfold hdump_, htry. specialize (IH o x H So I Hx y). revert IH.
  destruct (hser o (e_ser E f (kind H x)) None x H) as [H1 [a|e|]]; cbn; congruence.
Qed.
Lemma dump_safe o cls x : good E H0 x -> safe H0 (fun _ => True) (hdump_ E f hser o cls x).
Proof. intros Hx. apply (safe_any (clean H0)). now apply safe_dump. Qed.
Lemma never_iterable o x l y H : same_opts o0 o -> so_strict o0 = false -> inv H0 H ->
  (forall H1, inv H0 H1 -> hiter (e_rt E) x H1 = (H1, Done l)) -> Forall (good E H0) l -> In y l -> P y ->
  never (hser_iterable E f hser o None x) H.
Proof.
  intros So Hst I Hi Hl Hy Py. unfold hser_iterable. cbv zeta. eapply never_run; [now apply Hi|].
  assert (Es : so_strict o = false) by (destruct So; congruence). rewrite Es.
  eapply never_run; [reflexivity|]. eapply never_run; [reflexivity|].
  apply never_bind1. apply never_map with (x := (y, None)); auto.
  - clear - Hy. induction l as [|z l IHl]; [destruct Hy|]. cbn. destruct Hy as [-> |Hy]; [now left|right; auto].
  - intros [z c] Hz. apply in_combine_l in Hz. cbn [fst snd]. apply dump_safe.
    exact (proj1 (Forall_forall _ _) Hl _ Hz).
  - intros H1 I1. cbn [fst snd]. apply never_dump; auto.
Qed.
Lemma never_dict_go o x keys key y : same_opts o0 o -> good E H0 x -> Forall (good E H0) keys -> In key keys -> P y ->
  (forall H, inv H0 H -> hgetitem (e_ct E) x key H = (H, Done y) \/ never (hgetitem (e_ct E) x key) H) ->
  forall result H, length H0 <= result -> inv H0 H -> never (hser_dict_go E f hser o x keys result) H.
Proof.
  intros So Hx Hk Hin Py Hget. induction Hk as [|k keys Hgk Hks IHk]; [destruct Hin|].
  intros result H Hr I. cbn [hser_dict_go]. destruct Hin as [-> |Hin].
  - destruct (Hget H I) as [Hg|Hg]; [|now apply never_bind1]. eapply never_run; [exact Hg|].
    eapply never_safe; [eapply safe_store_and_hash; eassumption|assumption|]. intros [r k] H1 I1 [Hr1 Hk1]. cbn [fst snd] in *.
    eapply never_run; [reflexivity|].
    assert (Et : so_types o = []) by apply So. rewrite Et. cbn [aget].
    apply never_bind1. apply never_dump; auto. destruct So as (S1 & S2 & S3 & S4 & S5 & S6). repeat split; assumption.
  - eapply never_safe; [eapply safe_getitem; eassumption|assumption|]. intros z H1 I1 Hz.
    eapply never_safe; [eapply safe_store_and_hash; eassumption|assumption|]. intros [r k'] H2 I2 [Hr1 Hk1]. cbn [fst snd] in *.
    eapply never_run; [reflexivity|].
    eapply never_safe; [eapply safe_dump; eassumption|assumption|]. intros d H3 I3 Hd.
    destruct (_ && _)%bool; [now apply IHk|].
    eapply never_safe; [eapply safe_apply_kt; eassumption|assumption|]. intros k2 H4 I4 Hk2.
    eapply never_safe; [eapply safe_set_item; eassumption|assumption|]. intros _ H5 I5 _. now apply IHk.
Qed.
Lemma never_do_serialize o public x attrs n y result : same_opts o0 o -> so_strict o0 = true ->
  good E H0 x -> length H0 <= result -> In (n, None) attrs -> P y ->
  (forall H, inv H0 H -> hget_attr E K x n H = (H, Done y)) ->
  forall H, inv H0 H -> never (hdo_serialize E K f hser o public x attrs result) H.
Proof.
  intros So Hst Hx Hr Hin Py Hget. induction attrs as [|[a cls_] rest IHr]; [destruct Hin|].
  intros H I. cbn [hdo_serialize].
  assert (Es : so_strict o = true) by (destruct So; congruence). rewrite Es.
  destruct Hin as [Eq|Hin].
  - injection Eq as -> ->. eapply never_run; [now apply Hget|]. eapply never_run; [reflexivity|].
    intros z. unfold hbind at 1, hcatch, hbind at 1. specialize (IH o y H So I Py).
    unfold never in IH. destruct (hser o (e_ser E f (kind H y)) None y H) as [H1 [d|e|]]; cbn in *;
      [destruct (IH d eq_refl)|discriminate..].
  - eapply never_safe; [eapply safe_attr; eassumption|assumption|]. intros y1 H1 I1 Hy1. eapply never_run; [reflexivity|].
    eapply never_bind2 with (Q := fun r => match r with inl d => clean H0 d | inr _ => True end).
    + apply okat_catch with (P := clean H0). eapply okat_bind; [exact (Hser o cls_ y1 H1 I1 Hy1)|]. intros d Hd.
      eapply safe_bind; [now apply safe_store_cls|]. intros _ _. apply safe_ret. exact Hd.
    + intros [d|e] H2 I2 Hd; [|intros z; discriminate]. cbv zeta.
      destruct (_ && _)%bool; [now apply IHr|].
      eapply never_safe; [eapply safe_apply_kt; apply clean_atom|assumption|]. intros k2 H4 I4 Hk2.
      eapply never_safe; [eapply safe_set_item; eassumption|assumption|]. intros _ H5 I5 _. now apply IHr.
Qed.
Lemma old_cell H a c : inv H0 H -> nth_error H0 a = Some c -> nth_error H a = Some c.
Proof. intros I Ha. rewrite (inv_old _ _ I); [exact Ha|]. apply nth_error_Some. congruence. Qed.
Lemma never_step o x H : same_opts o0 o -> inv H0 H -> P x ->
  never (hser_step E K f hser o (e_ser E f (kind H x)) None x) H.
Proof.
  intros So I Px. destruct (HP x Px) as (z & Hz & Pz). pose proof (HG x Px) as Hg.
  destruct So as (S1 & S2 & S3 & S4 & S5 & S6).
  assert (So : same_opts o0 o) by (repeat split; assumption).
  inversion Hz; subst.
  - change (kind H (OTuple l)) with (TApp false HTuple []). rewrite HS, ser_head. cbn [head_ser hser_step hser_tuple].
    apply (never_iterable o (OTuple l) l z); auto. apply Forall_forall. intros y Hy. eapply good_tuple; eauto.
  - pose proof (old_cell H a _ I H2) as Hc. unfold kind. cbn [shallow]. rewrite Hc. cbn [class_of].
    rewrite HS, ser_head. cbn [head_ser hser_step]. unfold never, hser_list. cbn [htruthy]. rewrite Hc.
    destruct l as [|l0 l1]; [destruct H3|]. cbn [length Nat.eqb negb get_args]. cbv zeta.
    assert (Es : so_strict o = false) by congruence. rewrite Es.
    assert (Hgl : Forall (good E H0) (l0 :: l1)).
    { apply Forall_forall. intros y Hy. eapply cell_good; eauto. }
    eapply never_run; [unfold hiter; rewrite Hc; reflexivity|].
    apply never_bind1. eapply never_map; eauto.
    + intros y Hy. apply dump_safe. exact (proj1 (Forall_forall _ _) Hgl _ Hy).
    + intros H5 I5. apply never_dump; auto.
  - pose proof (old_cell H a _ I H2) as Hc. unfold kind. cbn [shallow]. rewrite Hc. cbn [class_of].
    assert (Hgl : Forall (good E H0) l).
    { apply Forall_forall. intros y Hy. eapply cell_good; eauto. }
    destruct k; rewrite HS, ser_head; cbn [head_ser hser_step];
      (eapply never_iterable; eauto; intros H5 I5; unfold hiter; rewrite (old_cell H5 a _ I5 H2); reflexivity).
  - pose proof (old_cell H a _ I H2) as Hc. unfold kind. cbn [shallow]. rewrite Hc. cbn [class_of].
    assert (Hgl : Forall (good E H0) (map fst (with_keys d))).
    { apply Forall_forall. intros y Hy. apply in_map_iff in Hy as ([k1 x1] & <- & Hin). eapply cell_good; eauto. cbn. eauto. }
    assert (Hgo : never (hser_dict E f hser o (ORef a)) H).
    { unfold hser_dict, never. pose proof (inv_len _ _ I) as Hl.
      eapply never_safe; [apply safe_new_dict|exact I|]. intros _ Hb Ib _.
      eapply never_run; [unfold hiter; rewrite (old_cell Hb a _ Ib H2); reflexivity|].
      eapply never_dict_go with (key := OAtom k) (y := z); auto.
      - unfold with_keys. rewrite map_map. cbn. apply in_map_iff. apply in_map_iff in H4 as ([k1 x1] & <- & Hin).
        exists (k1, x1). auto.
      - intros H6 I6. unfold hgetitem, never. rewrite (old_cell H6 a _ I6 H2).
        destruct (hashable _ _); [left|right; discriminate]. rewrite with_keys_get, H5; [reflexivity| |assumption].
        exact (proj1 (forallb_forall _ _) H3 _ H4). }
    destruct kd; rewrite HS, ser_head; exact Hgo.
  - pose proof (old_cell H a _ I H2) as Hc. unfold kind. cbn [shallow]. rewrite Hc. cbn [class_of].
    rewrite H3. cbn [hser_step]. unfold hser_object, never. cbv zeta. unfold hattrs_from_object. rewrite Hc.
    rewrite (attrs_same E o0 o) by assumption. rewrite H4. cbn [hlift]. eapply never_run; [reflexivity|].
    pose proof (inv_len _ _ I) as Hl.
    eapply never_safe; [apply safe_new_dict|exact I|]. intros _ H8 I8 _. apply never_bind1.
    eapply never_do_serialize with (y := z); eauto.
    + repeat split; try assumption. cbn. destruct (so_attr o) as [|[|]| |[|]]; cbn in *; assumption.
    + intros H9 I9. unfold hget_attr. rewrite (old_cell H9 a _ I9 H2), H7.
      destruct (sget n (ci_members (e_ct E c))) as [[| | |i|v]|]; try reflexivity. congruence.
Qed.
End Step.
Lemma never_serialize n : forall o x H, same_opts o0 o -> inv H0 H -> P x ->
  never (hserialize E K f limit n o (e_ser E f (kind H x)) None x) H.
Proof.
  induction n as [|n IH]; intros o x H So I Px.
  - intros y. cbn. destruct limit; discriminate.
  - cbn [hserialize]. apply never_step; auto. intros. now apply safe_serialize.
Qed.
End Cycle.

Lemma part_plain E K f o H x y : plain_heap E K H -> plain_obj (e_ct E) x -> part E f o H x y -> plain_obj (e_ct E) y.
Proof.
  intros PH Hx Hp. inversion Hp; subst.
  - intros c' l' Hi. apply Hx. econstructor; eauto.
  - eapply (ph_cells _ _ _ PH); eauto.
  - eapply (ph_cells _ _ _ PH); eauto.
  - eapply (ph_cells _ _ _ PH); eauto. destruct (aget_in _ _ _ _ H4) as (k' & Hin). cbn. exists (OAtom k'), y.
    split; [|auto]. unfold with_keys. apply in_map_iff. exists (k', y). auto.
  - eapply (ph_cells _ _ _ PH); eauto. cbn. exists n. now apply sget_in.
Qed.
Theorem dump_endless E K f limit n o x H y :
  default_serializers E f -> wf_supers (e_ct E) -> plain_heap E K H -> plain_obj (e_ct E) x ->
  so_types o = [] -> endless E f o H x -> snd (hdump E K f limit n o None x H) <> Done y.
Proof.
  intros HS W PH Hx Ht (P & Px & HP).
  apply (never_dump E f H o (fun z => P z /\ plain_obj (e_ct E) z)).
  - intros o' z H1 So I [Pz Hz]. apply never_serialize with (H0 := H) (o0 := o) (P := fun z => P z /\ plain_obj (e_ct E) z); auto.
    + intros u [Pu Hu]. destruct (HP u Pu) as (w & Hw & Pw). exists w. eauto using part_plain.
    + intros u [_ Hu]. now right.
  - repeat split. exact Ht.
  - apply inv_start.
  - auto.
Qed.
Theorem dump_error E K f limit n o cls x H H' e :
  hdump E K f limit n o cls x H = (H', Fail e) -> e = exn_of KSer.
Proof.
  unfold hdump, hdump_, htry. destruct (hserialize _ _ _ _ _ _ _ _ _ H) as [H1 [y|e'|]]; intros Eq; inversion Eq;
    reflexivity.
Qed.

(** ** Lenient dump of an object that is its own attribute: the calls beyond the limit are
    dropped with a warning, and what is left is as deep as the limit. *)
Fixpoint chain (name : string) (b n : nat) : list cell :=
  match n with
  | O => []
  | S O => [NDict DkDict []]
  | S n' => NDict DkDict [(atom name, ORef (S b))] :: chain name (S b) n'
  end.
Lemma put_at H c d R : put (length H) c (H ++ d :: R)%list = (H ++ c :: R)%list.
Proof. induction H as [|h H IH]; cbn; [reflexivity|now rewrite IH]. Qed.
Section Knot.
Variables (E : env) (K : henv) (f : nat) (e : exn) (o0 : sopts) (c a : nat) (name : string).
Hypothesis (Hser : e_ser E f (TClass c) = Some SObject) (He : e_noargs e = false) (Hname : strip_us name = name).
Hypothesis (Hmem : sget name (ci_members (e_ct E c)) = None).
Hypothesis (Hattrs : attrs_from_object E o0 (VObj c [(name, VNone)]) = Ok [(name, None)]).
Hypothesis (Hstrict : so_strict o0 = false).
Definition knot_opts (o : sopts) : Prop :=
  same_opts o0 o /\ so_kt o = None /\ so_class_info o = false /\ so_dump_time o = false.

Lemma knot_serialize n : forall o H, knot_opts o -> nth_error H a = Some (NObj c [(name, ORef a)]) ->
  hserialize E K f (Some e) (S n) o (Some SObject) None (ORef a) H =
  ((H ++ chain name (length H) (S n))%list, Done (ORef (length H))).
Proof.
  induction n as [|n IH]; intros o H Ho Hc.
  - cbn [hserialize hser_step]. unfold hser_object. cbv zeta.
    destruct Ho as (So & Hk & Hci & Hdt). unfold hattrs_from_object. rewrite Hc. cbn [map fst].
    rewrite (attrs_same E o0 o) by assumption. rewrite Hattrs. cbn [hlift]. unfold hbind at 1, hret.
    unfold hbind at 1, alloc. cbn [hdo_serialize].
    assert (Hc1 : nth_error (H ++ [NDict DkDict []])%list a = Some (NObj c [(name, ORef a)])).
    { rewrite nth_error_app1; [exact Hc|]. apply nth_error_Some. congruence. }
    assert (Hg : hget_attr E K (ORef a) name (H ++ [NDict DkDict []])%list = ((H ++ [NDict DkDict []])%list, Done (ORef a))).
    { unfold hget_attr. rewrite Hc1, Hmem. cbn [sget aget]. rewrite String.eqb_refl. reflexivity. }
    unfold hbind at 1, hbind at 1. rewrite Hg. unfold hbind at 1, hread.
    unfold hbind at 1, hcatch, hbind at 1.
    assert (Es : so_strict o = false) by (destruct So; congruence). rewrite ?Es, ?He.
    cbn [set_store set_attr_opt so_strict]. rewrite Es. cbn [hret].
    unfold hdict_with_meta. rewrite Hci, Hdt. cbn [negb andb].
    destruct (so_store_cls o); reflexivity.
  - change (hserialize E K f (Some e) (S (S n)) o (Some SObject) None (ORef a) H)
      with (hser_object E K f (hserialize E K f (Some e) (S n)) o None (ORef a) H).
    unfold hser_object. cbv zeta.
    destruct Ho as (So & Hk & Hci & Hdt). unfold hattrs_from_object. rewrite Hc. cbn [map fst].
    rewrite (attrs_same E o0 o) by assumption. rewrite Hattrs. cbn [hlift]. unfold hbind at 1, hret.
    unfold hbind at 1, alloc. cbn [hdo_serialize].
    set (o' := set_store (so_class_info o) (set_attr_opt (normalize_strip_attr (so_attr o)) o)).
    set (H1 := (H ++ [NDict DkDict []])%list).
    assert (Hc1 : nth_error H1 a = Some (NObj c [(name, ORef a)])).
    { unfold H1. rewrite nth_error_app1; [exact Hc|]. apply nth_error_Some. congruence. }
    assert (Hg : hget_attr E K (ORef a) name H1 = (H1, Done (ORef a))).
    { unfold hget_attr. rewrite Hc1, Hmem. cbn [sget aget]. rewrite String.eqb_refl. reflexivity. }
    unfold hbind at 1, hbind at 1. rewrite Hg. unfold hbind at 1, hread.
    unfold kind at 1. cbn [shallow]. rewrite Hc1. cbn [class_of]. rewrite Hser.
    unfold hbind at 1, hcatch, hbind at 1.
    assert (Ho' : knot_opts o').
    { destruct So as (S1 & S2 & S3 & S4 & S5 & S6). repeat split; try assumption.
      cbn. rewrite S2. destruct (so_attr o0) as [|[|]| |[|]]; reflexivity. }
    rewrite (IH o' H1 Ho' Hc1).
    set (H2 := (H1 ++ chain name (length H1) (S n))%list).
    assert (Hst : hstore_cls_info E (so_store_cls o') (ORef (length H1)) (ORef a) H2 = (H2, Done tt)).
    { unfold hstore_cls_info. destruct (nth_error H2 (length H1)) as [[]|]; try reflexivity.
      cbn [o' set_store so_store_cls]. rewrite Hci. reflexivity. }
    unfold hbind at 1. rewrite Hst. cbn [hret].
    rewrite andb_false_r. unfold hbind at 1, happly_kt. cbn [o' set_store set_attr_opt so_kt]. rewrite Hk.
    unfold kind. cbn [shallow]. rewrite Hc. cbn [class_of].
    assert (Ea : (if (ci_attrs (e_ct E c) && negb (so_privates o))%bool then strip_us name else name) = name).
    { destruct (_ && _)%bool; [exact Hname|reflexivity]. }
    rewrite Ea. change (hashable (e_ct E) (view H2 (atom name))) with true. cbn match.
    assert (EH2 : H2 = (H ++ NDict DkDict [] :: chain name (length H1) (S n))%list).
    { unfold H2, H1. rewrite <- app_assoc. reflexivity. }
    unfold hret at 1. unfold hbind at 1, set_item.
    replace (nth_error H2 (length H)) with (Some (NDict DkDict []))
      by (rewrite EH2, nth_error_app2, Nat.sub_diag by lia; reflexivity).
    cbn [write hret hdset aset]. unfold hdset. cbn [aset]. rewrite EH2, put_at.
    unfold hdict_with_meta. rewrite Hci, Hdt. cbn [negb andb].
    replace (length H1) with (S (length H)) by (unfold H1; rewrite app_length; cbn; lia).
    destruct (so_store_cls o); reflexivity.
Qed.
Lemma chain_read n : forall H k, n < k ->
  read_ref (H ++ chain name (length H) (S n))%list k (length H) = Some (nested name n).
Proof.
  induction n as [|n IH]; intros H k Hk; (destruct k as [|k]; [lia|]).
  - cbn. rewrite nth_error_app2, Nat.sub_diag by lia. reflexivity.
  - cbn [read_ref]. change (chain name (length H) (S (S n)))
      with (NDict DkDict [(atom name, ORef (S (length H)))] :: chain name (S (length H)) (S n)).
    rewrite nth_error_app2, Nat.sub_diag by lia. cbn [nth_error omap fst snd read_with atom opair].
    specialize (IH (H ++ [NDict DkDict [(atom name, ORef (S (length H)))]])%list k).
    rewrite app_length, <- app_assoc in IH. cbn [length app] in IH. rewrite Nat.add_1_r in IH.
    rewrite IH by lia. reflexivity.
Qed.
Lemma chain_length b n : length (chain name b n) = n.
Proof. revert b. induction n as [|[|n] IH]; intros b; [reflexivity..|]. cbn [chain length]. f_equal. apply IH. Qed.
End Knot.

Theorem dump_knot E K f e n o c a name H :
  e_ser E f (TClass c) = Some SObject ->
  so_strict o = false -> so_types o = [] -> so_kt o = None -> so_class_info o = false -> so_dump_time o = false ->
  attrs_from_object E o (VObj c [(name, VNone)]) = Ok [(name, None)] ->
  sget name (ci_members (e_ct E c)) = None -> strip_us name = name ->
  nth_error H a = Some (NObj c [(name, ORef a)]) -> e_noargs e = false ->
  exists H' y, hdump E K f (Some e) (S n) o None (ORef a) H = (H', Done y) /\ read H' y = Some (nested name n).
Proof.
  intros Hser Hst Hty Hkt Hci Hdt Hat Hmem Hn Hc He.
  exists (H ++ chain name (length H) (S n))%list, (ORef (length H)). split.
  - unfold hdump, hdump_, htry, kind. cbn [shallow]. rewrite Hc. cbn [class_of]. rewrite Hser.
    rewrite (knot_serialize E K f e o c a name Hser He Hn Hmem Hat Hst n o H); [reflexivity| |exact Hc].
    repeat split; assumption.
  - unfold read. cbn [read_with]. apply chain_read. rewrite app_length, chain_length. lia.
Qed.
