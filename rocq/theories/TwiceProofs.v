(** * Dumps are documents: no second dump changes them *)
From Verif Require Import PyBaseFacts DumpProofs DumpLaws HashedFacts.
From Verif Require Export DocumentSpec.
Local Close Scope Z_scope.
Local Open Scope string_scope.

(** JSON, with dicts that are plain dicts with distinct keys *)
Inductive tidy (CT : classes) : value -> Prop :=
| tidy_atom v : json_scalar CT v -> tidy CT v
| tidy_list l : (forall x, In x l -> tidy CT x) -> tidy CT (VList l)
| tidy_dict_ k d : k = DkDict -> distinct (keys d) -> (forall a b, In (a, b) d -> json_scalar CT a) ->
                   (forall a b, In (a, b) d -> tidy CT b) -> tidy CT (VDict k d).
Lemma tidy_dict CT k d : k = DkDict -> distinct (keys d) -> (forall a b, In (a, b) d -> json_scalar CT a /\ tidy CT b) ->
  tidy CT (VDict k d).
Proof. intros Hk Hn H. apply tidy_dict_; [exact Hk|exact Hn|intros a b Hin; now apply (H a b)..]. Qed.
Lemma tidy_dict_inv CT k d a b : tidy CT (VDict k d) -> In (a, b) d -> json_scalar CT a /\ tidy CT b.
Proof.
  intros H. inversion H as [v Hs|l Hl|k' d' Hk Hn Hd Hd']; subst; [|eauto].
  destruct Hs as [Hs|[p Hs]]; [discriminate|].
  exfalso. destruct k, p; vm_compute in Hs; discriminate.
Qed.
Lemma tidy_kind CT k d : tidy CT (VDict k d) -> k = DkDict /\ distinct (keys d).
Proof.
  intros H. inversion H as [v Hs|l Hl|k' d' Hk Hn Hd Hd']; subst; [|eauto].
  destruct Hs as [Hs|[p Hs]]; [discriminate|].
  exfalso. destruct k, p; vm_compute in Hs; discriminate.
Qed.
Lemma keys_dset (k : value) x d : keys (dset k x d) = keys d \/ (keys (dset k x d) = (keys d ++ [k])%list /\ forall k', In k' (keys d) -> py_eqb k k' = false).
Proof.
  unfold dset. induction d as [|[k' x'] d IH]; cbn [aset map fst app]; [right; split; [reflexivity|intros ? []]|].
  destruct (py_eqb k k') eqn:Ek; [now left|]. cbn [map fst].
  destruct IH as [-> |[-> IH]]; [now left|right]. split; [reflexivity|]. intros k2 [<-|H]; auto.
Qed.
Lemma distinct_dset k x d : distinct (keys d) -> distinct (keys (dset k x d)).
Proof.
  intros H. destruct (keys_dset k x d) as [-> |[-> Hn]]; [exact H|].
  revert H Hn. generalize (keys d). clear. induction l as [|a l IH]; intros H Hn; [repeat constructor|].
  inversion H; subst. cbn [app]. constructor.
  - apply Forall_app. split; [assumption|]. repeat constructor. rewrite py_eqb_sym. apply Hn. now left.
  - apply IH; [assumption|]. intros k' Hk. apply Hn. now right.
Qed.
Lemma tidy_dset CT k d a b :
  tidy CT (VDict k d) -> json_scalar CT a -> tidy CT b -> tidy CT (VDict k (dset a b d)).
Proof.
  intros Hd Ha Hb. destruct (tidy_kind _ _ _ Hd) as [-> Hn]. apply tidy_dict; [reflexivity|now apply distinct_dset|].
  intros a' b' H. apply aset_In in H as [H|[-> [->|[b'' H]]]].
  - eapply tidy_dict_inv; eauto.
  - auto.
  - split; [|assumption]. eapply tidy_dict_inv; eauto.
Qed.
Lemma tidy_empty CT : tidy CT (VDict DkDict []).
Proof. apply tidy_dict; [reflexivity|constructor|]. intros a b []. Qed.
Lemma tidy_str CT s : tidy CT (VStr s).
Proof. apply tidy_atom, scalar_str. Qed.
Lemma distinct_names l : NoDup l -> distinct (map VStr l).
Proof.
  induction 1 as [|a l Ha _ IH]; [constructor|]. cbn [map]. constructor; [|exact IH].
  apply Forall_forall. intros y Hy. apply in_map_iff in Hy as (b & <- & Hb).
  destruct (py_eqb (VStr a) (VStr b)) eqn:Hab; [|reflexivity]. apply py_eqb_str in Hab. injection Hab as <-. contradiction.
Qed.
Lemma tidy_str_dict CT d : NoDup (map fst d) -> (forall a b, In (a, b) d -> tidy CT b) -> tidy CT (str_dict d).
Proof.
  intros Hn H. apply tidy_dict; [reflexivity| |].
  - replace (keys _) with (map VStr (map fst d)) by (rewrite !map_map; reflexivity). now apply distinct_names.
  - intros a b Hin. apply in_map_iff in Hin as ([a' b'] & Eq & Hin).
    inversion Eq; subst. split; [apply scalar_str|eauto].
Qed.
Lemma ser_primitive_tidy E cls v r :
  wf_supers (e_ct E) ->
  default_ser (e_ct E) (match cls with Some t => t | None => class_of v end) = Some SPrimitive ->
  ser_primitive E cls v = Ok r -> tidy (e_ct E) r.
Proof. intros W H H'. apply tidy_atom. eapply ser_primitive_scalar; eassumption. Qed.
Lemma strip_cls_tidy CT k d : tidy CT (VDict k d) -> tidy CT (fst (strip_cls None d)).
Proof.
  intros H. cbn. destruct (dget (VStr "-cls") d) eqn:E; [|apply tidy_atom; now left].
  apply aget_In' in E as [k' Hin]. eapply tidy_dict_inv in H; [|eassumption]. apply H.
Qed.
Lemma distinct_filter (p : value -> bool) l : distinct l -> distinct (filter p l).
Proof.
  induction 1 as [|a l Ha _ IH]; [constructor|]. cbn [filter]. destruct (p a); [|exact IH]. constructor; [|exact IH].
  apply Forall_forall. intros y Hy. apply filter_In in Hy as [Hy _]. rewrite Forall_forall in Ha. auto.
Qed.
Definition not_cls (k : value) : bool := negb (py_eqb (VStr "-cls") k).
Lemma fill_value_tidy CT : forall v p acc v' n acc',
  tidy CT v -> tidy CT (VDict DkDict acc) -> fill_value p acc v = Ok (v', n, acc') ->
  tidy CT v' /\ tidy CT n /\ tidy CT (VDict DkDict acc').
Proof.
  induction v using value_ind'; intros p acc v' n' acc' Hv Ha;
    try (intros E; inversion E; subst; split; [assumption|split; [apply tidy_atom; now left|assumption]]).
  rewrite fill_value_dict. rewrite rbind_ok. intros ([d' acc1] & Hgo & E). inversion E; subst. clear E.
  cbn [fst snd]. pose proof (strip_cls_tidy _ _ _ Hv) as Hn. destruct (tidy_kind _ _ _ Hv) as [-> Hdis].
  cut ((keys d' = filter not_cls (keys d) /\ forall a b, In (a, b) d' -> json_scalar CT a /\ tidy CT b) /\ tidy CT (VDict DkDict acc')).
  { intros [[H0 H1] H2]. split; [apply tidy_dict; [reflexivity|rewrite H0; now apply distinct_filter|exact H1]|]. split; assumption. }
  assert (Hd : forall a b, In (a, b) d -> json_scalar CT a /\ tidy CT b)
    by (intros; eapply tidy_dict_inv; [exact Hv|eassumption]).
  clear Hn Hv Hdis. revert acc Ha d' acc' Hgo. induction d as [|[key x] d IHd]; intros acc Ha d' acc' Hgo.
  - cbn in Hgo. inversion Hgo; subst. split; [split; [reflexivity|intros a b []]|assumption].
  - inversion H as [|? ? [_ Hx] Hrest]; subst.
    assert (Hd' : forall a b, In (a, b) d -> json_scalar CT a /\ tidy CT b)
      by (intros; apply Hd; now right).
    assert (Hkx : json_scalar CT key /\ tidy CT x) by (apply Hd; now left).
    cbn [fill_go] in Hgo. cbn [map fst filter]. unfold not_cls at 1.
    destruct (py_eqb (VStr "-cls") key); cbn [negb]; [eapply IHd; eassumption|].
    assert (Hplain : (dor ra <- fill_go fill_value p d acc; Ok ((key, x) :: fst ra, snd ra)) = Ok (d', acc') ->
       (keys d' = key :: filter not_cls (keys d) /\ forall a b, In (a, b) d' -> json_scalar CT a /\ tidy CT b) /\ tidy CT (VDict DkDict acc')).
    { rewrite rbind_ok. intros ([d1 a1] & H1 & E1). inversion E1; subst.
      destruct (IHd Hrest Hd' acc Ha d1 acc' H1) as [[I0 I1] I2]. split; [|exact I2]. cbn [fst snd map] in *.
      split; [now rewrite I0|]. intros a b [E|Hin]; [inversion E; subst; exact Hkx|auto]. }
    destruct x as [| | | | | | | |kd dd| | | |]; try (apply Hplain; destruct key; exact Hgo).
    destruct key as [| | | |a| | | | | | | |]; try discriminate.
    destruct (String.eqb a "-meta"); [apply Hplain; exact Hgo|].
    apply rbind_ok in Hgo as ([[x' n1] acc1] & H1 & Hgo).
    apply rbind_ok in Hgo as ([d1 a1] & H2 & E1). inversion E1; subst.
    apply Hx in H1 as (J1 & J2 & J3); [|apply Hkx|assumption].
    apply IHd in H2 as [[I0 I1] I2]; [|assumption|assumption|].
    + split; [|exact I2]. cbn [fst snd map] in *. split; [now rewrite I0|].
      intros a0 b [E|Hin]; [inversion E; subst; split; [apply Hkx|exact J1]|auto].
    + apply tidy_dset; [assumption|apply scalar_str|assumption].
Qed.
Lemma dict_with_meta_tidy E o name d r :
  tidy (e_ct E) (VDict DkDict d) -> dict_with_meta E o name d = Ok r -> tidy (e_ct E) r.
Proof.
  intros Hd. unfold dict_with_meta.
  destruct (negb (so_class_info o) && negb (so_dump_time o)); [intros H; inversion H; subst; assumption|].
  assert (Hd1 : tidy (e_ct E) (VDict DkDict (dset (VStr "-meta") (VDict DkDict []) d)))
    by (apply tidy_dset; [assumption|apply scalar_str|apply tidy_empty]).
  cbv zeta. rewrite rbind_ok. intros ([d2 m] & H1 & H2). inversion H2; subst. clear H2. cbn [fst snd].
  assert (Hdm : tidy (e_ct E) (VDict DkDict d2) /\ tidy (e_ct E) (VDict DkDict m) /\ (m = [] \/ exists x, m = [(VStr "classes", x)])).
  { destruct (so_class_info o).
    - apply rbind_ok in H1 as ([[v' n] acc] & Hf & H1).
      apply (fill_value_tidy (e_ct E)) in Hf as (J1 & J2 & J3); [|assumption|apply tidy_empty].
      assert (Hm : tidy (e_ct E) (VDict DkDict [(VStr "classes", VDict DkDict (dset (VStr "/") (VStr name) acc))])).
      { apply tidy_dict; [reflexivity|repeat constructor|]. intros a b [Eq|[]]. inversion Eq; subst. split; [apply scalar_str|].
        apply tidy_dset; [assumption|apply scalar_str|apply tidy_str]. }
      destruct v'; inversion H1; subst; (split; [first [assumption | apply tidy_empty | idtac]|split; [first [assumption|apply tidy_empty]|first [now left|right; eauto]]]).
      destruct (tidy_kind _ _ _ J1) as [_ Hn]. apply tidy_dict; [reflexivity|exact Hn|].
      intros. eapply tidy_dict_inv; [exact J1|eassumption].
    - inversion H1; subst. split; [assumption|]. split; [apply tidy_empty|now left]. }
  destruct Hdm as (J1 & J2 & Hm).
  apply tidy_dset; [assumption|apply scalar_str|].
  apply tidy_dict; [reflexivity| |].
  - destruct Hm as [-> |(x & ->)]; destruct (so_dump_time o); repeat constructor.
  - intros a b Hin. apply in_app_or in Hin as [Hin|Hin].
    + eapply tidy_dict_inv; eassumption.
    + destruct (so_dump_time o); [|destruct Hin]. destruct Hin as [Eq|[]]. inversion Eq; subst.
      split; [apply scalar_str|apply tidy_str].
Qed.

(** ** dump only produces JSON *)
Section Json.
Variables (E : env) (f : nat) (o0 : sopts).
Let CT := e_ct E.
Variable V : option ty -> value -> Prop.   (* what is visited *)
Let sr c x := serializer E f c x.
Hypothesis HD : default_serializers E f.
Hypothesis HW : wf_supers CT.
Hypothesis HF : forall c fs, ci_kind (CT c) = CkNT fs -> NoDup (map nf_name fs).
Hypothesis Velem : forall c x l y t, V c x -> iterates (sr c x) ->
  py_iter (e_rt E) x = Ok l -> In y l -> elem_type E o0 c x t -> V t y.
Hypothesis Vvalue : forall c x k y t, V c x -> sr c x = Some SDict -> py_getitem CT x k = Ok y ->
  (t = None \/ exists k' u, t = Some u /\ In (k', u) (so_types o0)) -> V t y.
Hypothesis Vattr : forall c x a y t, V c x -> (sr c x = Some SObject \/ sr c x = Some STuple) ->
  get_attr E x a = Ok y ->
  (t = None \/ exists i u, (c = Some (TClass i) \/ class_of x = TClass i) /\ t = Some u /\
                           In (a, u) (ci_hints (CT i))) -> V t y.
Hypothesis Valt : forall c x t, V c x -> sr c x = Some SUnion -> In t (get_args c) ->
  (x = VNone -> ~ In TNoneT (get_args c)) -> V (Some t) x.
Hypothesis Voff : forall c off name, V c (VLeaf (LTimezone off name)) ->
  sr c (VLeaf (LTimezone off name)) = Some STimezone -> V c (VLeaf (LTimedelta off)).
Hypothesis Hcopy : forall c x a y, V c x -> copies o0 (sr c x) a -> get_attr E x a = Ok y -> tidy CT y.

Definition oko (o : sopts) : Prop :=
  so_strict o = so_strict o0 /\ so_enum_name o = so_enum_name o0 /\ kt_json CT o /\
  (forall k t, In (k, t) (so_types o) -> In (k, t) (so_types o0)).
Lemma oko_types o : oko o -> oko (no_types o).
Proof. intros (H0 & H1 & H2 & _). split; [exact H0|]. split; [exact H1|]. split; [exact H2|]. intros k t []. Qed.

Variable ser : sopts -> option shandler -> option ty -> value -> M value.
Hypothesis Hser : forall o cls v r, oko o -> V cls v ->
  snd (ser o (sr cls v) cls v) = Done r -> tidy CT r.

Lemma dump_tidy o cls v r : oko o -> V cls v -> snd (dump_ E f ser o cls v) = Done r -> tidy CT r.
Proof.
  intros Ho Hq. unfold dump_. rewrite bind_done. intros (u & _ & H).
  apply try_done in H as [H|(e & _ & H)]; [|discriminate]. eapply Hser; eassumption.
Qed.
Lemma tidy_of_map o l g r :
  (forall x y, In x l -> snd (g x) = Done y -> tidy CT y) ->
  snd (mmap (B := value) g (l : list o)) = Done r -> tidy CT (VList r).
Proof.
  intros Hg H. apply mmap_done in H. apply tidy_list. intros y Hy.
  assert (X : forall l' r', Forall2 (fun x y => snd (g x) = Done y) l' r' -> In y r' ->
             exists x, In x l' /\ snd (g x) = Done y).
  { induction 1; intros []; subst; [eexists; split; [now left|eassumption]|].
    destruct IHForall2 as (x' & ? & ?); [assumption|]. exists x'. split; [now right|assumption]. }
  destruct (X _ _ H Hy) as (x & Hx & Hxy). eauto.
Qed.
Lemma ser_list_tidy o cls v r : oko o -> V cls v -> sr cls v = Some SList ->
  snd (ser_list E f ser o cls v) = Done r -> tidy CT r.
Proof.
  intros Ho Hq Hs. assert (Hit : iterates (sr cls v)) by (now left).
  unfold ser_list. destruct (negb (truthy (e_rt E) v)).
  { intros H. inversion H; subst. apply tidy_list. intros x []. }
  cbv zeta. destruct (get_args cls) as [|t ts] eqn:Ea.
  - destruct (so_strict o) eqn:Est.
    + rewrite bind_done. intros (x0 & H0 & H). apply lift_done in H0.
      apply bind_done in H as (l & Hl & H). apply lift_done in Hl.
      apply bind_done in H as (l' & Hl' & H). inversion H; subst.
      eapply tidy_of_map; [|exact Hl']. cbn beta. intros x y Hx Hy.
      eapply (Hser (set_store false o) (Some (class_of x0)) x); [exact Ho| |exact Hy].
      eapply Velem; [eassumption..|]. eapply et_first; [|exact H0]. destruct Ho as (<- & _). exact Est.
    + rewrite bind_done. intros (l & Hl & H). apply lift_done in Hl.
      apply bind_done in H as (l' & Hl' & H). inversion H; subst.
      eapply tidy_of_map; [|exact Hl']. cbn beta. intros x y Hx Hy.
      eapply (dump_tidy (set_store false o) None x); [exact Ho| |exact Hy].
      eapply Velem; [eassumption..|]. constructor.
  - rewrite bind_done. intros (l & Hl & H). apply lift_done in Hl.
    apply bind_done in H as (l' & Hl' & H). inversion H; subst.
    eapply tidy_of_map; [|exact Hl']. cbn beta. intros x y Hx Hy.
    eapply (Hser (set_store false o) (Some t) x); [exact Ho| |exact Hy].
    eapply Velem; [eassumption..|]. apply et_arg. rewrite Ea. now left.
Qed.
Lemma ser_iterable_tidy o c cls v r : oko o -> V c v -> iterates (sr c v) ->
  (forall t, In t (get_args cls) -> In t (get_args c)) ->
  snd (ser_iterable E f ser o cls v) = Done r -> tidy CT r.
Proof.
  intros Ho Hq Hit Hc. unfold ser_iterable. cbv zeta. rewrite bind_done. intros (l & Hl & H).
  apply lift_done in Hl. apply bind_done in H as (cls_ & Hcls & H). apply lift_done in Hcls.
  apply bind_done in H as (subs & Hsubs & H). apply lift_done in Hsubs.
  apply bind_done in H as (r' & Hr & H). inversion H; subst. clear H.
  assert (Hc' : forall t, In t (get_args cls_) -> elem_type E o0 c v (Some t)).
  { destruct (so_strict o) eqn:Est; [|inversion Hcls; subst; intros t []].
    assert (Est0 : so_strict o0 = true) by (destruct Ho as (<- & _); exact Est).
    unfold determine_cls in Hcls.
    destruct cls as [c'|]; [inversion Hcls; subst; intros; apply et_arg; auto|].
    assert (Ht : forall y, slice1 v y -> forall t, In t (get_args (Some (rt_type (e_rt E) y))) ->
                   elem_type E o0 c v (Some t)) by (intros y Hy t Ht; eapply et_typish; eassumption).
    destruct v as [| | | |[|ch s]|[|x l1]|[|x l1]|[] [|x l1]|k [|x l1]| | |c' [|x l1]|];
      inversion Hcls; subst; try (intros t []); apply Ht; constructor. }
  eapply tidy_of_map; [|exact Hr]. cbn beta. intros [x c1] y Hin Hy. cbn [fst snd] in Hy.
  eapply (dump_tidy (set_store false o) c1 x); [exact Ho| |exact Hy].
  eapply Velem; [eassumption..| |].
  - apply in_combine_l in Hin. exact Hin.
  - apply in_combine_r in Hin. destruct c1 as [t|]; [|constructor].
    unfold get_subclasses in Hsubs. destruct (get_args cls_) as [|t1 [|t2 ts]] eqn:Ea.
    + inversion Hsubs; subst. apply repeat_spec in Hin. discriminate.
    + inversion Hsubs; subst. apply repeat_spec in Hin. inversion Hin; subst. apply Hc'. now left.
    + destruct (Nat.eqb _ _); [|discriminate]. inversion Hsubs; subst.
      change (Some t1 :: Some t2 :: map Some ts) with (map Some (t1 :: t2 :: ts)) in Hin.
      apply in_map_iff in Hin as (t' & Et & Hin). inversion Et; subst. apply Hc'. exact Hin.
Qed.
Lemma ser_namedtuple_tidy o cls c v r : oko o -> V cls v -> sr cls v = Some STuple ->
  snd (ser_namedtuple E f ser o c v) = Done r -> tidy CT r.
Proof.
  intros Ho Hq Hs. unfold ser_namedtuple. rewrite bind_done. intros (l & Hl & H). inversion H; subst.
  apply mmap_done in Hl. apply tidy_dict; [reflexivity| |].
  { assert (Hk : keys l = map VStr (map nf_name (nt_fields (e_ct E) c))).
    { revert Hl. generalize (map nf_name (nt_fields (e_ct E) c)). clear. intros names Hl.
      induction Hl as [|a p names l Hp _ IH]; [reflexivity|]. cbn [map]. rewrite IH. f_equal.
      apply bind_done in Hp as (x & _ & Hp). apply bind_done in Hp as (d & _ & Hp). now injection Hp as <-. }
    rewrite Hk. apply distinct_names. unfold nt_fields. destruct (ci_kind (e_ct E c)) as [| |fs] eqn:Ek; try constructor. exact (HF c fs Ek). }
  intros a b Hin. clear H.
  induction Hl as [|x y l' r' Hxy Hl IH]; [destruct Hin|]. destruct Hin as [->|Hin]; [|auto].
  apply bind_done in Hxy as (x1 & H1 & Hxy). apply lift_done in H1.
  apply bind_done in Hxy as (d & H2 & Hxy). inversion Hxy; subst. split; [apply scalar_str|].
  eapply (dump_tidy o None x1); [exact Ho| |exact H2].
  eapply Vattr; [eassumption|now right|eassumption|now left].
Qed.
Lemma ser_tuple_tidy o cls v r : oko o -> V cls v -> sr cls v = Some STuple ->
  snd (ser_tuple E f ser o cls v) = Done r -> tidy CT r.
Proof.
  intros Ho Hq Hs. assert (Hit : iterates (sr cls v)) by (now right; right; left).
  assert (Hn : snd (ser_iterable E f ser o None v) = Done r -> tidy CT r)
    by (eapply ser_iterable_tidy; [exact Ho|exact Hq|exact Hit|intros t []]).
  assert (Ht : forall t, cls = Some t -> snd
     (match raw_args t with
      | None => fail (exn_of KAttribute)
      | Some args =>
          if ty_eqb TEllipsis (last args TAny) then
            dom l <- lift (py_iter (e_rt E) v);
            ser_iterable E f ser o (Some (TApp true HTuple (repeat (hd TAny args) (length l)))) v
          else ser_iterable E f ser o (Some t) v
      end) = Done r -> tidy CT r).
  { intros t ->. destruct (raw_args t) as [args|] eqn:Ea; [|discriminate].
    destruct (ty_eqb TEllipsis (last args TAny)) eqn:El.
    - rewrite bind_done. intros (l & Hl & H). eapply ser_iterable_tidy; [exact Ho|exact Hq|exact Hit| |exact H].
      intros t' Ht'. assert (t' = hd TAny args) as ->.
      { cbn in Ht'. destruct (repeat (hd TAny args) (length l)) eqn:Er; [destruct Ht'|].
        rewrite <- Er in Ht'. now apply repeat_spec in Ht'. }
      cbn. rewrite Ea. destruct args; [discriminate|]. now left.
    - intros H. eapply ser_iterable_tidy; [exact Ho|exact Hq|exact Hit| |exact H]. auto. }
  unfold ser_tuple. destruct v; destruct cls as [t|]; first [exact Hn | exact (Ht t eq_refl) | idtac];
    (intros H; eapply ser_namedtuple_tidy; [exact Ho|exact Hq|exact Hs|exact H]).
Qed.
Lemma ser_dict_go_tidy o c v : oko o -> V c v -> sr c v = Some SDict -> forall keys result r,
  (forall k, In k keys -> V None k) -> tidy CT (VDict DkDict result) ->
  snd (ser_dict_go E f ser o v keys result) = Done r -> tidy CT (VDict DkDict r).
Proof.
  intros Ho Hq Hsd. induction keys as [|key keys IH]; intros result r Hk Hr; cbn [ser_dict_go].
  - intros H; inversion H; subst; assumption.
  - rewrite bind_done. intros (x & Hx & H). apply lift_done in Hx.
    apply bind_done in H as ([res1 k1] & Hs & H). apply bind_done in H as (d & Hd & H).
    cbn [fst snd] in H.
    assert (Hs' : tidy CT (VDict DkDict res1) /\ json_scalar CT k1).
    { unfold store_and_hash in Hs. destruct (json_key (e_ct E) key) eqn:Ek.
      - inversion Hs; subst. split; [assumption|]. now apply json_key_scalar.
      - apply bind_done in Hs as (dk & Hdk & Hs).
        apply dump_tidy in Hdk; [|exact Ho|apply Hk; now left].
        destruct (json_key (e_ct E) dk) eqn:Edk.
        + inversion Hs; subst. split; [assumption|]. now apply json_key_scalar.
        + cbv zeta in Hs. destruct (dget (VStr "-keys") result) as [s|] eqn:Eg.
          * apply aget_In' in Eg as [k' Hin]. eapply tidy_dict_inv in Hin as [_ Hjs]; [|exact Hr].
            destruct s; try discriminate. inversion Hs; subst. split; [|apply scalar_int].
            apply tidy_dset; [assumption|apply scalar_str|].
            apply tidy_dset; [assumption|apply scalar_int|assumption].
          * inversion Hs; subst. split; [|apply scalar_int].
            apply tidy_dset; [assumption|apply scalar_str|]. apply tidy_dict; [reflexivity|repeat constructor|].
            intros a b [Eq|[]]. inversion Eq; subst. split; [apply scalar_int|assumption]. }
    destruct Hs' as [Hs1 Hs2].
    apply dump_tidy in Hd; [|now apply oko_types|].
    2: { eapply Vvalue; [eassumption..|]. destruct (aget py_eqb key (so_types o)) eqn:Et; [right|now left].
         apply aget_In' in Et as [k' Hin]. destruct Ho as (_ & _ & _ & Ho). eauto. }
    assert (Hk' : forall k, In k keys -> V None k) by (intros; apply Hk; now right).
    destruct (so_strip_nulls o && is_none d).
    + eapply IH; [exact Hk'|exact Hs1|exact H].
    + apply bind_done in H as (k2 & Hk2 & H). apply lift_done in Hk2.
      eapply IH; [exact Hk'| |exact H]. apply tidy_dset; [assumption| |assumption].
      unfold apply_kt in Hk2. apply rbind_ok in Hk2 as (k3 & Hk3 & Hk2).
      destruct (hashable (e_ct E) k3); inversion Hk2; subst.
      destruct (so_kt o) as [g|] eqn:Eg.
      * destruct Ho as (_ & _ & Ho & _). eapply Ho; eassumption.
      * inversion Hk3; subst. assumption.
Qed.
Lemma ser_union_tidy o cls v r : oko o -> V cls v -> sr cls v = Some SUnion ->
  snd (ser_union E f ser o cls v) = Done r -> tidy CT r.
Proof.
  intros Ho Hq Hs. unfold ser_union. destruct cls as [t|]; [|discriminate].
  destruct (raw_args t) as [ts|] eqn:Ea; [|discriminate].
  destruct (is_none v && existsb (ty_eqb TNoneT) ts) eqn:En.
  { intros H; inversion H; subst. apply tidy_atom; now left. }
  assert (Ht : forall t', In t' ts -> V (Some t') v)
    by (intros t' Hin; eapply Valt; [exact Hq|exact Hs|cbn; now rewrite Ea|];
        intros ->; cbn [get_args]; rewrite Ea; intros Hn; apply existsb_ty_In in Hn; cbn [is_none andb] in En; congruence).
  clear Ea En. induction ts as [|t1 ts IH]; cbn [ser_union_go]; [discriminate|].
  rewrite try_done. intros [H|(e & He & H)].
  - eapply dump_tidy; [exact Ho| |exact H]. apply Ht. now left.
  - destruct (is_jsons (e_kind e)); [|discriminate]. apply IH; [intros; apply Ht; now right|exact H].
Qed.
Lemma store_cls_tidy o d x : tidy CT d -> tidy CT (store_cls_info E o d x).
Proof.
  intros H. destruct d; try exact H. cbn. destruct o; [|exact H].
  apply tidy_dset; [assumption|apply scalar_str|apply tidy_str].
Qed.
Lemma do_serialize_tidy o p v attrs : oko o ->
  (forall a t x, In (a, t) attrs -> get_attr E v a = Ok x -> V t x) ->
  forall result r, tidy CT (VDict DkDict result) ->
  snd (do_serialize E f ser o p v attrs result) = Done r -> tidy CT (VDict DkDict r).
Proof.
  intros Ho. induction attrs as [|[a c] attrs IH]; intros Ha result r Hr; cbn [do_serialize].
  - intros H; inversion H; subst; assumption.
  - rewrite bind_done. intros (x & Hx & H). apply lift_done in Hx. cbv zeta in H.
    apply bind_done in H as (u & _ & H). apply bind_done in H as (res1 & Hres & H).
    destruct res1 as [d|e].
    + assert (Hd : tidy CT d).
      { unfold mcatch in Hres.
        destruct (snd (dom d <- ser o (e_ser E f match c with Some t => t | None => class_of x end) c x;
                       ret (store_cls_info E (so_store_cls o) d x))) as [d'|e'|] eqn:Es;
          cbn in Hres; inversion Hres; subst.
        apply bind_done in Es as (d1 & Hd1 & Hd2). inversion Hd2; subst. apply store_cls_tidy.
        eapply (Hser o c x); [exact Ho| |exact Hd1]. eapply (Ha a); [now left|exact Hx]. }
      assert (Ha' : forall a t x, In (a, t) attrs -> get_attr E v a = Ok x -> V t x)
        by (intros a' t' x' Hin; apply (Ha a'); now right).
      cbv zeta in H. destruct (so_strip_nulls o && is_none d).
      * eapply IH; [exact Ha'|exact Hr|exact H].
      * apply bind_done in H as (k2 & Hk2 & H). apply lift_done in Hk2.
        eapply IH; [exact Ha'| |exact H]. apply tidy_dset; [assumption| |assumption].
        unfold apply_kt in Hk2. apply rbind_ok in Hk2 as (k3 & Hk3 & Hk2).
        destruct (hashable (e_ct E) k3); inversion Hk2; subst.
        destruct (so_kt o) as [g|] eqn:Eg.
        -- destruct Ho as (_ & _ & Ho & _). eapply Ho; [eassumption| |eassumption]. apply scalar_str.
        -- inversion Hk3; subst. apply scalar_str.
    + destruct (so_strict o); [discriminate|]. destruct (e_noargs e); [discriminate|].
      apply bind_done in H as (u' & _ & H). inversion H; subst. assumption.
Qed.
(** The attributes that ser_object goes through are visited. *)
Lemma object_attrs_visited o cls v attrs : V cls v -> sr cls v = Some SObject ->
  match match cls with Some t => if so_strict o then Some t else None | None => None end with
  | Some t => attrs_from_class E o t
  | None => attrs_from_object E o v
  end = Ok attrs ->
  forall a t x, In (a, t) attrs -> get_attr E v a = Ok x -> V t x.
Proof.
  intros Hq Hs H a t x Hin Hx. eapply Vattr; [exact Hq|now left|exact Hx|].
  destruct t as [t|]; [right|now left].
  assert (X : attrs_from_object E o v = Ok attrs -> exists i u,
     (cls = Some (TClass i) \/ class_of v = TClass i) /\ Some t = Some u /\ In (a, u) (ci_hints (CT i))).
  { intros H'. destruct (attrs_from_object_hint _ _ _ _ _ _ H' Hin) as (i & Hi & Hh). exists i, t. auto. }
  destruct cls as [t0|]; [destruct (so_strict o)|]; auto.
  destruct (attrs_from_class_hint _ _ _ _ _ _ H Hin) as (i & -> & Hh). exists i, t. auto.
Qed.
Lemma ser_step_tidy o cls v r : oko o -> V cls v ->
  snd (ser_step E f ser o (sr cls v) cls v) = Done r -> tidy CT r.
Proof.
  intros Ho Hq. unfold ser_step.
  destruct (sr cls v) as [h|] eqn:Eh; [|discriminate].
  assert (Hcp : forall a y, copies o0 (Some h) a -> get_attr E v a = Ok y -> tidy CT y)
    by (intros a y Ha; apply (Hcopy cls); [assumption..|rewrite Eh; assumption]).
  assert (Htime : forall b p, snd (ser_time_like E f b p v) = Done r -> tidy CT r).
  { intros b p. unfold ser_time_like. rewrite bind_done. intros (sw & _ & H).
    apply bind_done in H as (u & _ & H). inversion H; subst. apply tidy_str. }
  destruct h; intros H; eauto using ser_tuple_tidy, ser_list_tidy, ser_union_tidy.
  - (* complex *) apply bind_done in H as (re & Hre & H). apply bind_done in H as (im & Him & H).
    apply lift_done in Hre, Him. inversion H; subst. apply tidy_str_dict; [repeat constructor; cbn; intuition discriminate|].
    intros a b [Eq|[Eq|[]]]; inversion Eq; subst; eapply Hcp; eauto; cbn; auto.
  - (* timezone *) destruct v as [| | | | | | | | |x| | |]; try discriminate.
    destruct x; try discriminate. apply bind_done in H as (d & Hd & H). inversion H; subst.
    apply dump_tidy in Hd; [|assumption|eauto]. apply tidy_str_dict; [repeat constructor; cbn; intuition discriminate|].
    intros a b [Eq|[Eq|[]]]; inversion Eq; subst; [apply tidy_str|assumption].
  - destruct v as [| | | | | | | | |x| | |]; try discriminate. destruct x; try discriminate.
    inversion H; subst. apply tidy_atom, scalar_float.
  - (* primitive *) apply lift_done in H. eapply ser_primitive_tidy; [exact HW| |exact H].
    rewrite <- HD. exact Eh.
  - apply lift_done in H. destruct Ho as (_ & Hen & _). rewrite Hen in H. eapply Hcp; [|exact H]. reflexivity.
  - unfold ser_dict in H. apply bind_done in H as (keys & Hk & H). apply lift_done in Hk.
    apply bind_done in H as (d & Hd & H). inversion H; subst.
    eapply ser_dict_go_tidy; [exact Ho|exact Hq|exact Eh| |apply tidy_empty|exact Hd].
    intros k Hin. eapply Velem; [exact Hq| |exact Hk|exact Hin|constructor]. rewrite Eh. unfold iterates. auto.
  - eapply ser_iterable_tidy; [exact Ho|exact Hq| | |exact H]; [|auto]. rewrite Eh. unfold iterates. auto.
  - (* object *) unfold ser_object in H. apply bind_done in H as (attrs & Ha & H). apply lift_done in Ha.
    cbv zeta in H. apply bind_done in H as (d & Hd & H).
    apply do_serialize_tidy in Hd; [|exact Ho|eapply object_attrs_visited; eassumption|apply tidy_empty].
    destruct (so_store_cls o); [inversion H; subst; assumption|].
    apply lift_done in H. eapply dict_with_meta_tidy; eassumption.
  - apply lift_done in H. apply rbind_ok in H as (s & _ & H). inversion H; subst. apply tidy_str.
  - apply lift_done in H. apply rbind_ok in H as (s & _ & H). inversion H; subst. apply tidy_str.
  - destruct v as [| | | | | | | | |x| | |]; try discriminate. destruct x; try discriminate.
    inversion H; subst. apply tidy_str.
  - apply bind_done in H as (k & Hk & H). apply lift_done in Hk. inversion H; subst. apply tidy_str_dict; [repeat constructor; cbn; intuition discriminate|].
    intros a b [Eq|[]]; inversion Eq; subst; eapply Hcp; eauto; reflexivity.
  - exfalso. unfold sr, serializer in Eh. rewrite HD in Eh. now apply ser_no_custom in Eh.
Qed.
End Json.

Lemma genuine_text E f o cls v c x a y : genuine E f o cls v -> visits E f o cls v c x ->
  copies o (serializer E f c x) a -> get_attr E x a = Ok y -> tidy (e_ct E) y.
Proof.
  intros Hg Hv Hc Hy. specialize (Hg c x Hv). unfold copies in Hc.
  destruct (serializer E f c x) as [[]|]; try contradiction.
  - destruct Hg as (re & im & ->). destruct Hc as [-> | ->]; cbn in Hy; injection Hy as <-; apply tidy_atom, scalar_float.
  - destruct Hg as (Hn & i & m & ->). rewrite Hn in Hc. subst a. cbn in Hy. injection Hy as <-. apply tidy_str.
  - destruct Hg as (k & ->). subst a. cbn in Hy. injection Hy as <-. apply tidy_str.
Qed.
Lemma serialize_tidy E f o0 cls0 v0 :
  default_serializers E f -> wf_supers (e_ct E) -> distinct_fields (e_ct E) -> genuine E f o0 cls0 v0 ->
  forall n o cls v r, oko E o0 o -> visits E f o0 cls0 v0 cls v ->
  snd (serialize E f n o (serializer E f cls v) cls v) = Done r -> tidy (e_ct E) r.
Proof.
  intros HD HW HF Hc. induction n as [|n IH]; intros o cls v r Ho Hq; [discriminate|].
  cbn [serialize]. apply (ser_step_tidy E f o0 (visits E f o0 cls0 v0)); eauto using visits, genuine_text.
Qed.
Lemma dump_tidy' E f n o cls v r :
  default_serializers E f -> wf_supers (e_ct E) -> distinct_fields (e_ct E) -> kt_json (e_ct E) o -> genuine E f o cls v ->
  snd (dump E f n o cls v) = Done r -> tidy (e_ct E) r.
Proof.
  intros HD HW HF Hkt Hcp H. unfold dump in H.
  eapply (dump_tidy E f o (visits E f o cls v)); [| | |exact H].
  - intros o' cls' v' r'. eapply serialize_tidy; eassumption.
  - repeat split; auto.
  - apply visit_root.
Qed.
(** Without mixed-in enums, JSON scalars are the plain ones. *)
Lemma scalar_plain CT v : wf_supers CT -> plain_enums CT -> json_scalar CT v <-> plain_scalar v.
Proof.
  intros W P. split.
  - intros [-> |[p H]]; [exact I|]. unfold naked_sub in H. apply andb_true_iff in H as [_ H]. apply existsb_ty_In in H.
    assert (Hc : forall c, ~ In (TPrim p) (supers CT (TClass c))).
    { intros c Hin. cbn [supers] in Hin. destruct Hin as [?|Hin]; [discriminate|].
      apply in_app_or in Hin as [Hin|Hin].
      - destruct (ci_kind (CT c)) as [|m l|l] eqn:Ek; [destruct Hin| |vm_compute in Hin; intuition discriminate].
        rewrite (P c m l Ek) in Hin. destruct Hin as [?|[]]; discriminate.
      - apply W in Hin. exact Hin. }
    destruct v as [| | | | | | |k l|k d|x| | |]; try exact I; try (exfalso; eapply Hc; eassumption);
      exfalso; try (destruct k); try (destruct x); destruct p; vm_compute in H; intuition discriminate.
  - destruct v; intros []; [now left|right; exists PBool|right; exists PInt|right; exists PFloat|right; exists PStr]; reflexivity.
Qed.
Lemma tidy_document CT v : wf_supers CT -> plain_enums CT -> tidy CT v -> document v.
Proof.
  intros W P. induction 1 as [v H|l _ IH|k d -> Hn Hd _ IH].
  - apply doc_scalar. now apply (scalar_plain CT).
  - now apply doc_list.
  - apply doc_dict.
    + intros k x Hin. apply (scalar_plain CT); [assumption..|]. now apply (Hd k x).
    + intros k x Hin. now apply (IH k x).
    + revert Hn. generalize (keys d). clear. induction 1 as [|a l Ha _ IHl]; constructor; [|exact IHl].
      eapply Forall_impl; [|exact Ha]. intros b Hb. split; [exact Hb|]. now rewrite py_eqb_sym.
Qed.
Lemma dump_gives_document E f n o cls v r :
  default_serializers E f -> wf_supers (e_ct E) -> plain_enums (e_ct E) -> distinct_fields (e_ct E) ->
  kt_plain o -> genuine E f o cls v -> snd (dump E f n o cls v) = Done r -> document r.
Proof.
  intros HD HW HP HF Hkt Hg H. apply (tidy_document (e_ct E)); [exact HW|exact HP|].
  eapply dump_tidy'; eauto. intros g k k' Hk Hs Hg'. apply (scalar_plain _ _ HW HP). apply (scalar_plain _ _ HW HP) in Hs. eauto.
Qed.
