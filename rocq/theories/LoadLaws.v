(** * Laws of load *)
From Verif Require Import PyBaseFacts LoadSpec LoadFacts.
Local Open Scope string_scope.

(** ** Objects *)
Lemma transform_renamed CT g d : forall acc d',
  transform_keys CT g d acc = Ok d' <->
  exists ks, Forall2 (fun kv k' => g (fst kv) = Ok k' /\ hashable CT k' = true) d ks /\
             d' = fold_left (fun acc kx => dset (fst kx) (snd kx) acc) (combine ks (map snd d)) acc.
Proof.
  induction d as [|[k x] d IH]; intros acc d'; cbn [transform_keys].
  - split.
    + intros H. injection H as <-. exists []. split; [constructor|reflexivity].
    + intros (ks & Hf & ->). inversion Hf; subst. reflexivity.
  - rewrite rbind_ok. split.
    + intros (k' & Hk & H). destruct (hashable CT k') eqn:Eh; [|discriminate].
      apply IH in H as (ks & Hf & ->). exists (k' :: ks). split; [constructor; auto|reflexivity].
    + intros (ks & Hf & ->). inversion Hf as [|? k' ? ks' [Hk Hh] Hf']; subst. cbn [fst] in Hk.
      exists k'. split; [exact Hk|]. rewrite Hh. apply IH. exists ks'. split; [exact Hf'|reflexivity].
Qed.
Lemma renamed_iff CT o d d' :
  (match lo_kt o with Some g => transform_keys CT g d [] | None => Ok d end) = Ok d' <-> renamed CT o d d'.
Proof.
  unfold renamed. destruct (lo_kt o) as [g|]; [apply transform_renamed|]. split; congruence.
Qed.

(** The options as default_object_deserializer sees them, without meta data *)
Definition in_object (o : lopts) : lopts := set_getters [] (nested_opts o).
Lemma in_object_attr o : in_object o = attr_opts o.
Proof. reflexivity. Qed.

Lemma value_for_attr_done E n f o d p y :
  ~ odd_name (e_ct E) (pa_hint p) ->
  (snd (value_for_attr E (load E n) f (attr_opts o) [] d (lo_getters o) p) = Done y <->
   param_value E n f o d p y).
Proof.
  intros Ho. unfold value_for_attr.
  destruct (dget (VStr (pa_name p)) d) as [x|] eqn:Ed.
  - rewrite bind_done. unfold value_from_obj. change (dget (VStr ("/" ++ pa_name p)) []) with (@None value).
    cbn [lift]. rewrite bind_ret_l. cbn [fst snd determine_precedence].
    change (set_hints (Some []) (attr_opts o)) with (attr_opts o).
    assert (Hdp : match pa_hint p with Some t => Some t | None => None end = pa_hint p) by (now destruct (pa_hint p)).
    rewrite Hdp.
    split.
    + intros (y' & Hy & H). injection H as <-. now apply pv_input with x.
    + intros H. inversion H; subst; try congruence. exists y0. split; [|reflexivity]. congruence.
  - destruct (sget (pa_name p) (lo_getters o)) as [g|] eqn:Eg.
    + rewrite bind_done. split.
      * intros ([] & _ & H). apply bind_done in H as (y' & Hy & H). injection H as <-.
        apply lift_done in Hy as ->. now apply pv_getter.
      * intros H. inversion H; subst; try congruence. exists tt. split; [reflexivity|].
        assert (g = Ok y0) as -> by congruence. reflexivity.
    + destruct (pa_default p) as [x|] eqn:Edf.
      * split.
        -- intros H. injection H as <-. now apply pv_default.
        -- intros H. inversion H; subst; try congruence. cbn. congruence.
      * destruct (pa_var p) eqn:Ev.
        -- split.
           ++ intros H. injection H as <-. now apply pv_var.
           ++ intros H. inversion H; subst; try congruence. reflexivity.
        -- destruct (can_match_spec _ _ Ho) as [[Hm ->]|[Hm ->]]; rewrite bind_lift_ok.
           ++ split; [intros H; injection H as <-; now apply pv_none|].
              intros H. inversion H; subst; try congruence. reflexivity.
           ++ split; [discriminate|]. intros H. inversion H; subst; try congruence.
Qed.
Lemma constructor_args_done E n f o d ps args :
  (forall p, In p ps -> ~ odd_name (e_ct E) (pa_hint p)) ->
  (snd (constructor_args E (load E n) f (attr_opts o) [] d (lo_getters o) ps) = Done args <->
   exists ys, Forall2 (param_value E n f o d) ps ys /\ args = arguments ps ys).
Proof.
  revert args. induction ps as [|p ps IH]; intros args Ho; cbn [constructor_args].
  - split.
    + intros H. injection H as <-. exists []. split; [constructor|reflexivity].
    + intros (ys & H & ->). inversion H; subst. reflexivity.
  - rewrite bind_done. split.
    + intros (x & Hx & H). apply value_for_attr_done in Hx; [|apply Ho; now left].
      apply bind_done in H as (rest & Hr & H). injection H as <-.
      apply IH in Hr as (ys & Hys & ->); [|intros; apply Ho; now right].
      exists (x :: ys). split; [now constructor|]. reflexivity.
    + intros (ys & H & ->). inversion H as [|? y ? ys' Hy Hys]; subst. exists y. split.
      * apply value_for_attr_done; [apply Ho; now left|exact Hy].
      * apply bind_done. exists (arguments ps ys'). split; [|now destruct y].
        apply IH; [intros; apply Ho; now right|]. now exists ys'.
Qed.

(** *** Extra entries *)
Lemma has_arg_In k args : has_arg k args = true <-> exists a x, k = VStr a /\ In (a, x) args.
Proof.
  destruct k; cbn [has_arg]; try (split; [discriminate|intros (? & ? & H & _); discriminate]).
  rewrite shas_In, in_map_iff. split.
  - intros ([a x] & <- & Hin). eauto.
  - intros (a & x & H & Hin). injection H as <-. now exists (s, x).
Qed.
Definition extra_b (args : list (string * value)) (kv : value * value) : bool :=
  negb (has_arg (fst kv) args) && negb (py_eqb (VStr "-meta") (fst kv)).
Lemma extra_b_spec args kv : extra_b args kv = true <-> is_extra args (fst kv).
Proof.
  unfold extra_b, is_extra. rewrite andb_true_iff, !negb_true_iff. split.
  - intros [H1 H2]. split.
    + intros E. rewrite E in H2. rewrite py_eqb_refl in H2. discriminate.
    + intros a x E Hin. assert (has_arg (fst kv) args = true) by (apply has_arg_In; eauto). congruence.
  - intros [H1 H2]. split.
    + destruct (has_arg (fst kv) args) eqn:E; [|reflexivity]. apply has_arg_In in E as (a & x & Ha & Hx).
      destruct (H2 a x Ha Hx).
    + destruct (py_eqb (VStr "-meta") (fst kv)) eqn:E; [|reflexivity]. now apply py_eqb_str in E.
Qed.
Lemma filter_extras args d : extras args d (filter (extra_b args) d).
Proof.
  induction d as [|[k x] d IH]; cbn [filter]; [constructor|].
  destruct (extra_b args (k, x)) eqn:E.
  - apply extra_b_spec in E. now constructor.
  - constructor; [|assumption]. intros H. apply (extra_b_spec args (k, x)) in H. congruence.
Qed.
Lemma extras_filter args d r : extras args d r -> r = filter (extra_b args) d.
Proof.
  induction 1 as [|k x d r H1 H2 IH|k x d r H1 H2 IH]; cbn [filter]; [reflexivity|..].
  - apply (extra_b_spec args (k, x)) in H1. rewrite H1. now f_equal.
  - destruct (extra_b args (k, x)) eqn:E; [|assumption]. now apply extra_b_spec in E.
Qed.
Lemma remaining_done strict d args rest :
  remaining_args strict d args = Ok rest <->
  extras args d rest /\ (strict = true -> rest = []).
Proof.
  unfold remaining_args. fold (extra_b args). split.
  - intros H. pose proof (filter_extras args d) as Hx.
    destruct (filter (extra_b args) d) as [|[k x] r]; [injection H as <-; auto|].
    destruct strict; [discriminate|]. injection H as <-. split; [exact Hx|discriminate].
  - intros [H1 H2]. apply extras_filter in H1 as ->.
    destruct (filter (extra_b args) d) as [|[k x] r] eqn:Ef; [reflexivity|].
    destruct strict; [|reflexivity]. specialize (H2 eq_refl). discriminate.
Qed.
Lemma set_remaining_done E n f o ci rest : forall at_ r,
  snd (set_remaining E (load E n) f (attr_opts o) ci rest at_) = Done r <->
  sets_extras E n f o ci rest at_ r.
Proof.
  induction rest as [|[k x] rest IH]; intros at_ r; cbn [set_remaining].
  - split; [intros H; injection H as <-; constructor|]. intros H. inversion H; subst. reflexivity.
  - assert (W : forall k', snd (match match k' with VStr a => sget a (ci_hints ci) | _ => None end with
       | Some _ => ret tt
       | None => if has_keys_section x then warn E f "hashed-keys-without-hint" else ret tt end) = Done tt).
    { intros k'. destruct (match k' with VStr a => sget a (ci_hints ci) | _ => None end); [reflexivity|].
      destruct (has_keys_section x); [apply warn_done|reflexivity]. }
    rewrite bind_done. split.
    + intros ([] & _ & H). apply bind_done in H as (y & Hy & H).
      destruct k; try discriminate. destruct (ci_set ci s y at_) as [at1|e] eqn:Es.
      * apply IH in H. eapply se_set; eassumption.
      * destruct (is_attributeerror (e_kind e)) eqn:Ea; [|discriminate].
        apply IH in H. eapply se_readonly; try eassumption.
        unfold is_attributeerror in Ea. destruct (e_kind e); congruence.
    + intros H. exists tt. split; [apply W|]. apply bind_done.
      inversion H as [|a x' y r' at' at1 at2 H1 H2 H3|a x' y r' at' at2 e H1 H2 H3 H4]; subst.
      * exists y. split; [exact H1|]. rewrite H2. now apply IH.
      * exists y. split; [exact H1|]. rewrite H2, H3. cbn [is_attributeerror]. now apply IH.
Qed.
Lemma set_getters_done ci gs : forall at_ r,
  snd (set_getter_attrs ci gs at_) = Done r <-> sets_getters ci gs at_ r.
Proof.
  induction gs as [|[a g] gs IH]; intros at_ r; cbn [set_getter_attrs].
  - split; [intros H; injection H as <-; constructor|]. intros H. inversion H; subst. reflexivity.
  - rewrite bind_done. split.
    + intros ([] & _ & H). apply bind_done in H as (y & Hy & H). apply lift_done in Hy as ->.
      apply bind_done in H as (at1 & H1 & H). apply lift_done in H1. apply IH in H. econstructor; eassumption.
    + intros H. exists tt. split; [reflexivity|]. inversion H as [|a' y r' at' at1 at2 H1 H2]; subst.
      cbn [lift]. rewrite bind_ret_l. rewrite H1, bind_lift_ok. now apply IH.
Qed.

(** *** The whole *)
Lemma deser_object_done E n f o c k d v :
  no_hints o -> (forall p, In p (ci_params (e_ct E c)) -> ~ odd_name (e_ct E) (pa_hint p)) ->
  (snd (deser_object E (load E n) f (child_opts o) (TClass c) (VDict k d)) = Done v <->
   exists d' ys rest at0 at1 at2,
     renamed (e_ct E) o d d' /\
     Forall2 (param_value E n f o d') (ci_params (e_ct E c)) ys /\
     extras (arguments (ci_params (e_ct E c)) ys) d' rest /\
     (lo_strict o = true -> rest = []) /\
     ci_init (e_ct E c) (arguments (ci_params (e_ct E c)) ys) = Ok at0 /\
     sets_extras E n f o (e_ct E c) rest at0 at1 /\
     sets_getters (e_ct E c) (lo_getters o) at1 at2 /\
     v = VObj c at2).
Proof.
  intros Hh Ho. rewrite (child_nested _ Hh). unfold deser_object. cbn [cid_of obj_items].
  rewrite bind_lift_ok. cbv zeta. rewrite bind_done.
  change (set_getters [] (nested_opts o)) with (attr_opts o).
  change (match lo_hints (nested_opts o) with Some h => h | None => [] end) with (@nil (value * value)).
  change (lo_getters (nested_opts o)) with (lo_getters o).
  change (lo_strict (nested_opts o)) with (lo_strict o).
  change (lo_kt (nested_opts o)) with (lo_kt o).
  split.
  - intros (d' & Hd & H). apply lift_done, renamed_iff in Hd.
    apply bind_done in H as (args & Ha & H). apply (constructor_args_done _ _ _ _ _ _ _ Ho) in Ha as (ys & Hys & ->).
    apply bind_done in H as (rest & Hr & H). apply lift_done, remaining_done in Hr as [Hr Hs].
    apply bind_done in H as ([] & _ & H).
    apply bind_done in H as (at0 & H0 & H). apply lift_done in H0.
    apply bind_done in H as (at1 & H1 & H). apply set_remaining_done in H1.
    apply bind_done in H as (at2 & H2 & H). apply set_getters_done in H2. injection H as <-.
    exists d', ys, rest, at0, at1, at2. repeat split; assumption.
  - intros (d' & ys & rest & at0 & at1 & at2 & Hd & Hys & Hr & Hs & H0 & H1 & H2 & ->).
    exists d'. split; [apply lift_done; now apply renamed_iff|].
    apply bind_done. exists (arguments (ci_params (e_ct E c)) ys).
    split; [apply (constructor_args_done _ _ _ _ _ _ _ Ho); eauto|].
    apply bind_done. exists rest. split; [apply lift_done, remaining_done; auto|].
    apply bind_done. exists tt. split; [reflexivity|].
    apply bind_done. exists at0. split; [now apply lift_done|].
    apply bind_done. exists at1. split; [now apply set_remaining_done|].
    apply bind_done. exists at2. split; [now apply set_getters_done|reflexivity].
Qed.
Theorem load_object_done E n f o c d v :
  plain_object E f c o d ->
  (snd (load E (S n) f o (Some (TClass c)) (VDict DkDict d)) = Done v <->
   exists attrs, constructs E n f o c d attrs /\ v = VObj c attrs /\ accepts E f (TClass c) v).
Proof.
  intros (Hd & Hh & Hm & Ho). rewrite load_typed; [|exact I|exact Hm].
  cbn [class_of ty_eqb]. rewrite andb_false_r. split.
  - intros [_ (_ & h & Hh' & H & Ha)]. rewrite Hd in Hh'. injection Hh' as <-. cbn [deser_step] in H.
    apply (deser_object_done _ _ _ _ _ _ _ _ Hh Ho) in H as (d' & ys & rest & at0 & at1 & at2 & H).
    exists at2. split; [|tauto]. exists d', ys, rest, at0, at1. tauto.
  - intros (at2 & (d' & ys & rest & at0 & at1 & H) & Hv & Ha). split; [discriminate|]. split; [reflexivity|].
    exists DObject. split; [exact Hd|]. cbn [deser_step]. split; [|tauto].
    apply (deser_object_done _ _ _ _ _ _ _ _ Hh Ho). exists d', ys, rest, at0, at1, at2. tauto.
Qed.

(** *** Events: getters are only called by the object that they are given for *)
Section Events.
Variable G : list string.
Definition gev (e : ev) : Prop := match e with EvGetter a => In a G | _ => True end.
Definition gm {A} (m : M A) : Prop := Forall gev (fst m).
Lemma gm_ret {A} (a : A) : gm (ret a). Proof. constructor. Qed.
Lemma gm_fail {A} e : gm (@fail A e). Proof. constructor. Qed.
Lemma gm_lift {A} (r : res A) : gm (lift r). Proof. destruct r; constructor. Qed.
Lemma gm_bind {A B} (m : M A) (k : A -> M B) : gm m -> (forall a, gm (k a)) -> gm (mbind m k).
Proof.
  intros H1 H2. unfold gm, mbind. destruct (snd m); cbn [fst]; [|exact H1..].
  apply Forall_app. split; [exact H1|apply H2].
Qed.
Lemma gm_try {A} (m : M A) h : gm m -> (forall e, gm (h e)) -> gm (mtry m h).
Proof.
  intros H1 H2. unfold gm, mtry. destruct (snd m); cbn [fst]; try exact H1.
  apply Forall_app. split; [exact H1|apply H2].
Qed.
Lemma gm_map {A B} (g : A -> M B) l : (forall x, gm (g x)) -> gm (mmap g l).
Proof.
  intros H. induction l; cbn [mmap]; [apply gm_ret|].
  apply gm_bind; [apply H|intros]. apply gm_bind; [assumption|intros; apply gm_ret].
Qed.
Lemma gm_warn E f c : gm (warn E f c).
Proof. unfold warn. destruct (e_warn E f c); [repeat constructor|apply gm_ret]. Qed.
Definition gok (o : lopts) : Prop := forall a, In a (map fst (lo_getters o)) -> In a G.

Section Step.
Variables (E : env) (ld : nat -> lopts -> option ty -> value -> M value) (f : nat).
Hypothesis Hld : forall f o c j, gok o -> gm (ld f o c j).
Lemma gok_nil o : lo_getters o = [] -> gok o.
Proof. intros H a. now rewrite H. Qed.
Ltac gs := repeat first
  [ apply gm_ret | apply gm_fail | apply gm_lift | apply gm_warn
  | apply Hld; assumption
  | apply gm_bind; [|intros] | apply gm_map; intros | apply gm_try; [|intros]
  | match goal with
    | |- gm (match ?x with _ => _ end) => destruct x
    | |- gm (let '_ := ?x in _) => destruct x
    end ].
Lemma gm_list_go o w t l : gok o -> forall i, gm (deser_list_go E ld f o w t i l).
Proof.
  intros Ho. induction l as [|x l IH]; intros i; cbn [deser_list_go]; [apply gm_ret|].
  pose proof (Hld f o t x Ho) as Hm. destruct (snd (ld f o t x)) as [y|e|].
  - apply gm_bind; [exact Hm|intros _]. gs. apply IH.
  - destruct (is_deser (e_kind e)); [|exact Hm]. destruct w; [|exact Hm].
    apply gm_bind; [exact Hm|intros _]. gs. apply IH.
  - exact Hm.
Qed.
Lemma gm_list o a j : gok o -> gm (deser_list E ld f o a j).
Proof. intros Ho. unfold deser_list. gs. apply gm_list_go. now destruct a. Qed.
Lemma gm_nt_go o j d len fields : gok o -> forall i, gm (deser_nt_go E ld f o j d len i fields).
Proof. intros Ho. induction fields; intros i; cbn [deser_nt_go]; gs. apply IHfields. Qed.
Lemma gm_tuple_go o l : gok o -> forall ts, gm (deser_tuple_go ld f o l ts).
Proof. intros Ho. induction l; intros ts; cbn [deser_tuple_go]; gs. apply IHl. Qed.
Lemma gm_union_go o j ts : gok o -> gm (deser_union_go ld f o j ts).
Proof. intros Ho. induction ts; cbn [deser_union_go]; gs. exact IHts. Qed.
Lemma gm_hashed_go o kt st : gok o -> forall r, gm (hashed_go E ld f o kt st r).
Proof. intros Ho. induction st as [|[h x] st IH]; intros r; cbn [hashed_go]; gs. apply IH. Qed.
Lemma gm_dict_go ok ov g kc vc d : gok ok -> gok ov -> forall acc, gm (deser_dict_go E ld f ok ov g kc vc d acc).
Proof. intros H1 H2. induction d as [|[k x] d IH]; intros acc; cbn [deser_dict_go]; gs. apply IH. Qed.
Lemma gm_dict o a j : gok o -> gm (deser_dict E ld f o a j).
Proof.
  intros Ho. unfold deser_dict. destruct j; try apply gm_fail. apply gm_bind.
  - unfold load_hashed_keys. gs. now apply gm_hashed_go.
  - intros dh. cbv zeta. gs; now apply gm_dict_go.
Qed.
Lemma gm_attr o h d g p : gok o -> (forall a, In a (map fst g) -> In a G) -> gm (value_for_attr E ld f o h d g p).
Proof.
  intros Ho Hg. unfold value_for_attr, value_from_obj. destruct (dget (VStr (pa_name p)) d); [gs|].
  destruct (sget (pa_name p) g) eqn:Eg; [|gs]. apply gm_bind; [|intros; gs].
  constructor; [|constructor]. cbn. apply Hg. apply sget_In in Eg. apply in_map_iff. now exists (pa_name p, r).
Qed.
Lemma gm_args o h d g ps : gok o -> (forall a, In a (map fst g) -> In a G) -> gm (constructor_args E ld f o h d g ps).
Proof. intros Ho Hg. induction ps; cbn [constructor_args]; gs; [now apply gm_attr|exact IHps]. Qed.
Lemma gm_remaining o ci rest : gok o -> forall at_, gm (set_remaining E ld f o ci rest at_).
Proof. intros Ho. induction rest as [|[k x] rest IH]; intros at_; cbn [set_remaining]; gs; apply IH. Qed.
Lemma gm_getters ci gs_ : (forall a, In a (map fst gs_) -> In a G) -> forall at_, gm (set_getter_attrs ci gs_ at_).
Proof.
  induction gs_ as [|[a g] r IH]; intros H at_; cbn [set_getter_attrs]; [apply gm_ret|].
  apply gm_bind; [constructor; [apply H; now left|constructor]|intros _]. gs. apply IH.
  intros b Hb. apply H. now right.
Qed.
Lemma gm_object o t j : gok o -> gm (deser_object E ld f o t j).
Proof.
  intros Ho. unfold deser_object. destruct (cid_of E t); [|apply gm_fail]. cbv zeta.
  assert (Hn : gok (set_getters [] o)) by (now apply gok_nil).
  gs; try (now apply gm_args); try (now apply gm_remaining); try (now apply gm_getters).
  constructor; [exact I|constructor].
Qed.
Lemma gm_step o h t j : gok o -> gm (deser_step E ld f o h t j).
Proof.
  intros Ho. assert (H0 : gok lopts0) by (now apply gok_nil).
  assert (Hk : gok (set_kt None o)) by exact Ho.
  destruct h; cbn [deser_step];
    try match goal with
    | |- gm (lift _) => apply gm_lift
    | |- gm (match j with _ => _ end) => destruct j; first [apply gm_lift | apply gm_fail | apply gm_ret]
    end.
  - apply gm_bind; [now apply gm_list|intros; apply gm_ret].
  - unfold deser_tuple, deser_namedtuple. cbv zeta.
    assert (Hp : gm (dom l <- lift (py_iter (e_rt E) j);
      match get_args (Some t) with
      | [] => dom vs <- mmap (ld f (set_kt None o) None) l; ret (VTuple vs)
      | (t0 :: _) as ts =>
        dom vs <- deser_tuple_go ld f (set_kt None o) l
          (if ty_eqb TEllipsis (last ts TAny) then repeat t0 (length l) else ts); ret (VTuple vs)
      end)).
    { apply gm_bind; [apply gm_lift|intros l]. destruct (get_args (Some t)).
      - apply gm_bind; [apply gm_map; intros; now apply Hld|intros; apply gm_ret].
      - apply gm_bind; [now apply gm_tuple_go|intros; apply gm_ret]. }
    destruct t; try exact Hp. destruct (ci_kind (e_ct E c)); try exact Hp.
    apply gm_bind; [|intros; apply gm_bind; [apply gm_lift|intros]].
    + destruct j; try apply gm_ret. apply gm_bind; [apply gm_lift|intros; apply gm_ret].
    + apply gm_bind; [now apply gm_nt_go|intros; apply gm_ret].
  - unfold deser_union. destruct (raw_args t); [now apply gm_union_go|apply gm_fail].
  - unfold deser_defaultdict. gs.
  - unfold deser_timezone. gs.
  - unfold deser_string. gs.
  - unfold deser_mapping. apply gm_bind; [apply gm_lift|intros]. apply gm_bind; [now apply gm_dict|intros]. gs.
  - unfold deser_iterable. apply gm_bind; [apply gm_lift|intros]. apply gm_bind; [now apply gm_list|intros]. gs.
  - now apply gm_object.
  - unfold deser_complex. gs.
  - gs.
Qed.
Lemma gm_load_step o c j : gok o -> gm (load_step E ld f o c j).
Proof.
  intros Ho. unfold load_step, wrap_deser. gs. now apply gm_step.
Qed.
End Step.
Lemma gm_load E : forall n f o c j, gok o -> gm (load E n f o c j).
Proof.
  induction n as [|n IH]; intros f o c j Ho; [constructor|]. cbn [load]. now apply gm_load_step.
Qed.
End Events.
