(** * Laws of load: None, unions, lists, strings, tuples, named tuples *)
From Coq Require Import Lia.
From Verif Require Import PyBaseFacts DatetimeProofs DumpLaws LoadSpec LoadFacts LoadLaws LoadObject.
Local Open Scope string_scope.

(** ** The default deserializers of types that are not classes *)
Definition head_handler (h : head) : dhandler :=
  match h with
  | HList => DList
  | HTuple => DTuple
  | HDefaultDict => DDefaultDict
  | HDict | HOrderedDict | HMapping => DMapping
  | HSet | HFrozen | HDeque | HIterable => DIterable
  end.
Lemma deser_head CT b h args : default_deser CT (TApp b h args) = Some (head_handler h).
Proof. rewrite default_deser_eq. destruct b, h; vm_compute; reflexivity. Qed.
Definition prim_handler (p : prim) : dhandler := match p with PStr => DString | _ => DPrimitive end.
Lemma deser_prim CT p : default_deser CT (TPrim p) = Some (prim_handler p).
Proof. rewrite default_deser_eq. destruct p; vm_compute; reflexivity. Qed.
Lemma deser_none CT : default_deser CT TNoneT = Some DNone.
Proof. rewrite default_deser_eq. vm_compute. reflexivity. Qed.
Lemma deser_any CT : default_deser CT TAny = None.
Proof. rewrite default_deser_eq. vm_compute. reflexivity. Qed.
Lemma deser_tobject CT : default_deser CT TObject = Some DObject.
Proof. rewrite default_deser_eq. vm_compute. reflexivity. Qed.
Lemma deser_tunion CT ts : default_deser CT (TUnion ts) = Some DUnion.
Proof.
  rewrite default_deser_eq. unfold lookup, get_lizer, get_lizer_flat.
  change (lname (ty_world CT) (TUnion ts)) with (slower (if is_optional ts then "typing.Optional" else "typing.Union")).
  destruct (is_optional ts); vm_compute; reflexivity.
Qed.
Definition leaf_handler (k : leafk) : dhandler :=
  match k with
  | LkDatetime => DDatetime | LkDate => DDate | LkTime => DTime | LkTimedelta => DTimedelta
  | LkTimezone => DTimezone | LkUUID => DUUID | LkDecimal => DDecimal | LkComplex => DComplex
  | LkPath => DPath | LkZone => DZone
  end.
Lemma deser_leaf CT k : default_deser CT (TLeaf k) = Some (leaf_handler k).
Proof. rewrite default_deser_eq. destruct k; vm_compute; reflexivity. Qed.

(** ** Load as a function of the handler *)
Lemma load_run E n f o t j h :
  direct t -> no_meta_entry j -> j <> VNone -> valid_type j = true ->
  lo_strict o = true \/ class_of j <> t -> e_deser E f t = Some h ->
  load E (S n) f o (Some t) j =
  wrap_deser (dom r <- deser_step E (load E n) f (child_opts o) h t j;
              dom _ <- lift (validate E f r t);
              ret r).
Proof.
  intros Hd Hm Hn Hv Hs Hh. cbn [load]. unfold load_step.
  assert (is_none j = false) as -> by (destruct j; congruence || reflexivity). rewrite bind_ret_l.
  assert (Hsk : (negb (lo_strict o) && same_type j (Some t)) || match Some t with Some TAny => true | _ => false end = false).
  { apply orb_false_iff. split; [|destruct t; (reflexivity || contradiction)].
    destruct Hs as [->|Hs]; [reflexivity|]. cbn [same_type]. apply ty_eqb_neq in Hs. rewrite Hs. apply andb_false_r. }
  rewrite Hsk.
  assert (Hl : match Some t with Some (TFwd s) => dor t0 <- e_resolve E f s; Ok (Some t0) | _ => Ok (Some t) end = Ok (Some t))
    by (destruct t; (reflexivity || contradiction)).
  rewrite Hl, bind_lift_ok, Hv. cbn [negb]. rewrite (no_meta_get _ _ _ Hm), bind_lift_ok. cbn [fst snd].
  assert (Hp : forall i, determine_precedence (Some t) None (Some (class_of j)) i = Some t) by (intros []; reflexivity).
  rewrite Hp, Hh. cbv zeta. rewrite changed_same. reflexivity.
Qed.
Lemma wrap_step_done {A} (m : M A) E f t (k : A -> value) a :
  snd m = Done a -> accepts E f t (k a) ->
  snd (wrap_deser (dom r <- (dom x <- m; ret (k x)); dom _ <- lift (validate E f r t); ret r)) = Done (k a).
Proof.
  intros H Ha. apply try_done. left. apply bind_done. exists (k a). split.
  - apply bind_done. exists a. auto.
  - apply bind_done. exists tt. split; [apply lift_done; now apply validate_ok|reflexivity].
Qed.
Lemma wrap_fail_jsons E f t (m : M value) e :
  snd m = Fail e -> is_jsons (e_kind e) = true ->
  snd (wrap_deser (dom r <- m; dom _ <- lift (validate E f r t); ret r)) = Fail e.
Proof.
  intros H He. rewrite (bind_failed _ _ _ H). rewrite (wrap_failed _ e); [|reflexivity]. cbn. now rewrite He.
Qed.
Lemma wrap_fail_raw E f t (m : M value) e :
  snd m = Fail e -> is_jsons (e_kind e) = false ->
  snd (wrap_deser (dom r <- m; dom _ <- lift (validate E f r t); ret r)) = Fail (exn_of KDeser).
Proof.
  intros H He. rewrite (bind_failed _ _ _ H). rewrite (wrap_failed _ e); [|reflexivity]. cbn. now rewrite He.
Qed.
Lemma wrap_rejected E f t (m : M value) v :
  snd m = Done v -> rejects E f t v ->
  snd (wrap_deser (dom r <- m; dom _ <- lift (validate E f r t); ret r)) = Fail (exn_of KValidation).
Proof.
  intros H Hr. rewrite (bind_events _ _ _ H).
  assert (Hv : validate E f v t = Err (exn_of KValidation)) by (now apply validate_err).
  rewrite Hv. rewrite (wrap_failed _ (exn_of KValidation)); reflexivity.
Qed.

(** ** None *)
Lemma may_be_none_dec h : may_be_none h \/ ~ may_be_none h.
Proof.
  destruct h as [[]|]; cbn; try (right; tauto); try (now left).
  destruct (existsb (ty_eqb TNoneT) args) eqn:E; [left; now apply existsb_ty_In|].
  right. intros H. apply existsb_ty_In in H. congruence.
Qed.
Lemma load_none_rejected E n f o cls :
  ~ odd_name (e_ct E) cls -> ~ may_be_none cls ->
  load E (S n) f o cls VNone = ([], Fail (exn_of KDeser)).
Proof.
  intros Ho Hm. cbn [load]. unfold load_step. cbn [is_none].
  destruct (can_match_spec _ _ Ho) as [[H _]|[_ ->]]; [contradiction|]. reflexivity.
Qed.
Lemma can_match_cases CT cls : can_match_none CT cls = Ok true -> may_be_none cls.
Proof.
  destruct cls as [t|]; [|reflexivity || (intros; exact I)].
  unfold can_match_none. destruct t; try (intros; exact I); try (destruct (union_like CT _); discriminate).
  - rewrite union_like_app. discriminate.
  - rewrite union_like_union. cbn [raw_args may_be_none]. intros H. injection H as H. now apply existsb_ty_In.
Qed.
(** Loading None never gives anything but None. *)
Lemma load_none_done E f : default_deserializers E f -> forall n o cls v,
  snd (load E n f o cls VNone) = Done v -> v = VNone /\ may_be_none cls /\ cls <> Some TObject.
Proof.
  intros HD. induction n as [|n IH]; [discriminate|]. intros o cls v H.
  apply load_done in H as [Hn H]. specialize (Hn eq_refl). apply can_match_cases in Hn as Hc.
  destruct (skips o cls VNone) eqn:Esk.
  { destruct H as [-> _]. split; [reflexivity|]. split; [exact Hc|]. intros ->. unfold skips in Esk.
    cbn in Esk. rewrite andb_false_r in Esk. discriminate. }
  destruct H as (cls1 & tm & hints & t & h & Hr & _ & Hg & Hd & Hh & Hs & _).
  cbn in Hg. injection Hg as <- <-. rewrite HD in Hh.
  destruct cls as [[]|]; try contradiction; cbn in Hr; subst cls1.
  - assert (t = TNoneT) as -> by (destruct (lo_inferred o); cbn in Hd; congruence).
    rewrite deser_none in Hh. injection Hh as <-. cbn in Hs. injection Hs as <-. repeat split; discriminate.
  - unfold skips in Esk. cbn in Esk. rewrite orb_true_r in Esk. discriminate.
  - assert (t = TObject) as -> by (destruct (lo_inferred o); cbn in Hd; congruence).
    rewrite deser_tobject in Hh. injection Hh as <-. discriminate.
  - assert (t = TUnion args) as -> by (destruct (lo_inferred o); cbn in Hd; congruence).
    rewrite deser_tunion in Hh. injection Hh as <-. cbn [deser_step] in Hs. unfold deser_union in Hs. cbn [raw_args] in Hs.
    split; [|split; [exact Hc|discriminate]]. revert Hs. clear Hc Hn Hd Esk. generalize (load_opts o [] (TUnion args) (Some (TUnion args))) as o'. intros o'. induction args as [|a args IHa]; [discriminate|].
    cbn [deser_union_go]. intros Hs. apply try_done in Hs as [Hs|(e & _ & Hs)]; [now apply IH in Hs as [-> _]|].
    destruct (is_jsons (e_kind e)); [now apply IHa|discriminate].
  - assert (t = TNoneT) as -> by (destruct (lo_inferred o); cbn in Hd; congruence).
    rewrite deser_none in Hh. injection Hh as <-. cbn in Hs. injection Hs as <-. repeat split; discriminate.
Qed.
Lemma load_none_nonetype E n f o : default_deserializers E f -> accepts E f TNoneT VNone ->
  snd (load E (S n) f o (Some TNoneT) VNone) = Done VNone.
Proof.
  intros HD Ha. apply load_typed; [exact I|intros ? ? ? H; discriminate|]. split; [reflexivity|].
  destruct (negb (lo_strict o) && ty_eqb (class_of VNone) TNoneT); [auto|]. split; [reflexivity|].
  exists DNone. rewrite HD, deser_none. auto.
Qed.
(** An alternative that is neither odd nor a union itself either loads None or fails with a
    jsons error. *)
Lemma load_none_alternative E n f o t : default_deserializers E f ->
  ~ odd_name (e_ct E) (Some t) -> (forall us, t <> TUnion us) ->
  snd (load E (S n) f o (Some t) VNone) = Done VNone \/
  exists e, snd (load E (S n) f o (Some t) VNone) = Fail e /\ is_jsons (e_kind e) = true.
Proof.
  intros HD Ho Hu.
  destruct (may_be_none_dec (Some t)) as [Hm|Hm].
  2:{ right. rewrite (load_none_rejected _ _ _ _ _ Ho Hm). exists (exn_of KDeser). auto. }
  destruct t; try contradiction.
  - destruct (accepts_rejects E f TNoneT VNone) as [Ha|Hr]; [left; now apply load_none_nonetype|right].
    exists (exn_of KValidation). split; [|reflexivity].
    assert (Hv : validate E f VNone TNoneT = Err (exn_of KValidation)) by (now apply validate_err).
    cbn [load]. unfold load_step. cbn [is_none can_match_none].
    rewrite bind_lift_ok, bind_ret_l. cbn [same_type class_of ty_eqb]. rewrite orb_false_r, andb_true_r.
    destruct (negb (lo_strict o)); [rewrite Hv; reflexivity|]. cbn [lift]. rewrite bind_ret_l.
    cbn [valid_type negb get_cls_and_meta lift]. rewrite bind_ret_l. cbn [fst snd].
    assert (Hp : forall i, determine_precedence (Some TNoneT) None (Some TNoneT) i = Some TNoneT) by (intros []; reflexivity).
    rewrite Hp, HD, deser_none. cbn [deser_step]. cbv zeta. rewrite bind_ret_l, Hv. reflexivity.
  - cbn [load]. unfold load_step. cbn [is_none can_match_none]. rewrite bind_lift_ok, bind_ret_l, orb_true_r.
    destruct (validate E f VNone TAny) as [[]|e] eqn:Ev; [now left|right].
    apply validate_err in Ev as [_ ->]. exists (exn_of KValidation). auto.
  - right. exists (exn_of KDeser). split; [|reflexivity]. cbn [load]. unfold load_step. cbn [is_none can_match_none].
    rewrite bind_lift_ok, bind_ret_l. cbn [same_type class_of ty_eqb]. rewrite andb_false_r. cbn [orb lift].
    rewrite bind_ret_l. cbn [valid_type negb get_cls_and_meta lift]. rewrite bind_ret_l. cbn [fst snd].
    assert (Hp : forall i, determine_precedence (Some TObject) None (Some TNoneT) i = Some TObject) by (intros []; reflexivity).
    rewrite Hp, HD, deser_tobject. reflexivity.
  - now elim (Hu args).
Qed.
Lemma load_none_object E n f o : default_deserializers E f ->
  load E (S n) f o (Some TObject) VNone = ([], Fail (exn_of KDeser)).
Proof.
  intros HD. cbn [load]. unfold load_step. cbn [is_none can_match_none].
  rewrite bind_lift_ok, bind_ret_l. cbn [same_type class_of ty_eqb]. rewrite andb_false_r. cbn [orb lift].
  rewrite bind_ret_l. cbn [valid_type negb get_cls_and_meta lift]. rewrite bind_ret_l. cbn [fst snd].
  assert (Hp : forall i, determine_precedence (Some TObject) None (Some TNoneT) i = Some TObject) by (intros []; reflexivity).
  rewrite Hp, HD, deser_tobject. reflexivity.
Qed.
Lemma union_go_none E n f o ts : default_deserializers E f -> In TNoneT ts -> accepts E f TNoneT VNone ->
  (forall t, In t ts -> ~ odd_name (e_ct E) (Some t)) -> (forall us, ~ In (TUnion us) ts) ->
  snd (deser_union_go (load E (S n)) f o VNone ts) = Done VNone.
Proof.
  intros HD Hin Ha Ho Hu. induction ts as [|t ts IH]; [contradiction|]. cbn [deser_union_go].
  apply try_done. destruct (load_none_alternative E n f o t HD) as [H|(e & H & He)];
    [apply Ho; now left|intros us ->; apply (Hu us); now left|now left|].
  right. exists e. split; [exact H|]. rewrite He. apply IH.
  - destruct Hin as [->|Hin]; [|exact Hin]. rewrite load_none_nonetype in H by assumption. discriminate.
  - intros; apply Ho; now right.
  - intros us Hus. apply (Hu us). now right.
Qed.
Lemma load_none_accepted E n f o cls :
  default_deserializers E f -> may_be_none cls -> cls <> Some TObject ->
  accepts E f TNoneT VNone -> (forall t, cls = Some t -> accepts E f t VNone) ->
  (forall ts, cls = Some (TUnion ts) ->
     (forall t, In t ts -> ~ odd_name (e_ct E) (Some t)) /\ forall us, ~ In (TUnion us) ts) ->
  snd (load E (S (S n)) f o cls VNone) = Done VNone.
Proof.
  intros HD Hm Hob Ha Hc Hu. destruct cls as [t|].
  - destruct t; try contradiction.
    + now apply load_none_nonetype.
    + apply load_done. split; [reflexivity|]. unfold skips. rewrite orb_true_r. split; [reflexivity|exact Hc].
    + destruct (Hu _ eq_refl) as [Ho Hn].
      apply load_typed; [exact I|intros ? ? ? H; discriminate|]. split.
      * intros _. apply can_match_true; [|exact Hm]. intros (t & E1 & H & _). injection E1 as <-. now apply (H args).
      * cbn [class_of ty_eqb]. rewrite andb_false_r. split; [reflexivity|]. exists DUnion. rewrite HD, deser_tunion.
        split; [reflexivity|]. split; [|now apply Hc]. cbn [deser_step]. unfold deser_union. cbn [raw_args].
        now apply union_go_none.
  - apply load_untyped; [intros ? ? ? H; discriminate|]. split; [reflexivity|]. exists DNone.
    cbn [class_of]. rewrite HD, deser_none. auto.
Qed.
Lemma load_none_odd E n f o t : odd_name (e_ct E) (Some t) -> direct t -> t <> TObject -> t <> TNoneT ->
  load E (S n) f o (Some t) VNone = ([], Fail (exn_of KType)).
Proof.
  intros Ho Hd H1 H2. cbn [load]. unfold load_step. cbn [is_none].
  rewrite (can_match_odd _ _ Ho Hd H1 H2). reflexivity.
Qed.

(** ** Unions *)
Definition jsons_fail {A} (m : M A) : Prop := exists e, snd m = Fail e /\ is_jsons (e_kind e) = true.
Lemma union_go_done E n f o j ts v :
  snd (deser_union_go (load E n) f o j ts) = Done v <->
  exists pre t post, ts = (pre ++ t :: post)%list /\ snd (load E n f o (Some t) j) = Done v /\
    Forall (fun t' => jsons_fail (load E n f o (Some t') j)) pre.
Proof.
  induction ts as [|t ts IH]; cbn [deser_union_go].
  - split; [discriminate|]. intros (pre & t & post & H & _). destruct pre; discriminate.
  - rewrite try_done. split.
    + intros [H|(e & He & H)]; [exists [], t, ts; repeat split; [exact H|constructor]|].
      destruct (is_jsons (e_kind e)) eqn:Ej; [|discriminate]. apply IH in H as (pre & t' & post & -> & H1 & H2).
      exists (t :: pre), t', post. repeat split; [exact H1|]. constructor; [exists e; auto|exact H2].
    + intros (pre & t' & post & H & H1 & H2). destruct pre as [|t0 pre].
      * injection H as -> ->. now left.
      * injection H as -> ->. inversion H2 as [|? ? (e & He & Hj) H2']; subst. right. exists e. split; [exact He|].
        rewrite Hj. apply IH. exists pre, t', post. auto.
Qed.
Lemma union_go_all_fail E n f o j ts :
  Forall (fun t' => jsons_fail (load E n f o (Some t') j)) ts ->
  snd (deser_union_go (load E n) f o j ts) = Fail (exn_of KDeser).
Proof.
  induction 1 as [|t ts (e & He & Hj) H IH]; [reflexivity|]. cbn [deser_union_go]. unfold mtry. rewrite He, Hj.
  exact IH.
Qed.
Lemma load_union_done E n f o ts j v :
  default_deserializers E f -> no_hints o -> no_meta_entry j -> valid_type j = true ->
  (snd (load E (S n) f o (Some (TUnion ts)) j) = Done v <->
   (j = VNone -> In TNoneT ts) /\ accepts E f (TUnion ts) v /\
   exists pre t post, ts = (pre ++ t :: post)%list /\
     snd (load E n f (nested_opts o) (Some t) j) = Done v /\
     Forall (fun t' => jsons_fail (load E n f (nested_opts o) (Some t') j)) pre).
Proof.
  intros HD Hh Hm Hv. rewrite load_typed; [|exact I|exact Hm].
  assert (Hc : ty_eqb (class_of j) (TUnion ts) = false) by (destruct j as [| | | | | | |[]|[]| | | |]; reflexivity).
  rewrite Hc, andb_false_r. rewrite can_match_true; [|intros (t & E1 & H & _); injection E1 as <-; now apply (H ts)].
  cbn [may_be_none]. rewrite HD, deser_tunion, (child_nested _ Hh), <- union_go_done. split.
  - intros [H1 (_ & h & H2 & H3 & H4)]. injection H2 as <-. auto.
  - intros (H1 & H2 & H3). split; [exact H1|]. split; [exact Hv|]. exists DUnion. auto.
Qed.
Lemma load_union_all_fail E n f o ts j :
  default_deserializers E f -> no_hints o -> no_meta_entry j -> valid_type j = true -> j <> VNone ->
  Forall (fun t' => jsons_fail (load E n f (nested_opts o) (Some t') j)) ts ->
  snd (load E (S n) f o (Some (TUnion ts)) j) = Fail (exn_of KDeser).
Proof.
  intros HD Hh Hm Hv Hn H. rewrite (load_run _ _ _ _ _ _ DUnion); try assumption; [|exact I| |].
  - rewrite (child_nested _ Hh). apply wrap_fail_jsons; [|reflexivity]. cbn [deser_step]. unfold deser_union.
    cbn [raw_args]. now apply union_go_all_fail.
  - right. destruct j as [| | | | | | |[]|[]| | | |]; discriminate.
  - now rewrite HD, deser_tunion.
Qed.

(** ** Lists *)
Lemma is_deser_spec e : is_deser (e_kind e) = true <-> deserialization_error e.
Proof.
  unfold deserialization_error. destruct (e_kind e); cbn;
    split; intros H; try reflexivity; try discriminate; try tauto;
    repeat destruct H as [H|H]; discriminate || contradiction.
Qed.
Lemma list_go_keeps E n f o t l : forall i ys evs,
  keeps E n f o t l ys evs -> deser_list_go E (load E n) f o true t i l = (evs, Done ys).
Proof.
  intros i ys evs H. revert i. induction H as [|x y l ys evs H1 H2 IH|x e l ys evs H1 He H2 IH]; intros i; cbn [deser_list_go].
  - reflexivity.
  - rewrite H1. cbn. rewrite IH. cbn. now rewrite app_nil_r.
  - rewrite H1. apply is_deser_spec in He. rewrite He. cbn. unfold warn.
    destruct (e_warn E f "element-not-deserialized"); cbn; now rewrite IH.
Qed.
Lemma list_go_kept E n f o t l : forall i ys,
  snd (deser_list_go E (load E n) f o true t i l) = Done ys -> exists evs, keeps E n f o t l ys evs.
Proof.
  induction l as [|x l IH]; intros i ys; cbn [deser_list_go].
  - intros H. injection H as <-. exists []. constructor.
  - destruct (snd (load E n f o t x)) as [y|e|] eqn:Ex.
    + intros H. apply bind_done in H as ([] & _ & H). apply bind_done in H as (ys' & Hys & H). injection H as <-.
      apply IH in Hys as (evs & Hk). eexists. apply keeps_elem; [exact Ex|exact Hk].
    + destruct (is_deser (e_kind e)) eqn:Ed; [|discriminate].
      intros H. apply bind_done in H as ([] & _ & H). apply bind_done in H as ([] & _ & H).
      apply IH in H as (evs & Hk). eexists. eapply keeps_drop; [exact Ex|now apply is_deser_spec|exact Hk].
    + discriminate.
Qed.
Lemma list_go_plain E n f o t l : forall i ys,
  snd (deser_list_go E (load E n) f o false t i l) = Done ys <->
  Forall2 (fun x y => snd (load E n f o t x) = Done y) l ys.
Proof.
  induction l as [|x l IH]; intros i ys; cbn [deser_list_go].
  - split; [intros H; injection H as <-; constructor|]. intros H. inversion H; subst. reflexivity.
  - destruct (snd (load E n f o t x)) as [y|e|] eqn:Ex.
    + rewrite bind_done. split.
      * intros ([] & _ & H). apply bind_done in H as (ys' & Hys & H). injection H as <-.
        apply IH in Hys. now constructor.
      * intros H. inversion H as [|? y' ? ys' H1 H2]; subst. exists tt. split; [reflexivity|].
        apply bind_done. exists ys'. split; [now apply IH|]. assert (y' = y) as -> by congruence. reflexivity.
    + split.
      * destruct (is_deser (e_kind e)); discriminate.
      * intros H. inversion H; subst. congruence.
    + split; [discriminate|]. intros H. inversion H; subst. congruence.
Qed.
(** The first element that does not load *)
Lemma list_go_fail E n f o w t x e l2 : forall l1 ys i evs,
  keeps E n f o t l1 ys evs -> (w = false -> length ys = length l1) ->
  snd (load E n f o t x) = Fail e -> (w = true -> ~ deserialization_error e) ->
  snd (deser_list_go E (load E n) f o w t i (l1 ++ x :: l2)) =
  Fail (if is_deser (e_kind e) then mkExn KDeser (e_arg e) (i + length l1 :: e_idx e) false (e_msg e) else e).
Proof.
  intros l1 ys i evs H. revert i.
  induction H as [|x' y l ys evs H1 H2 IH|x' e' l ys evs H1 He H2 IH]; intros i Hl Hx Hd; cbn [app deser_list_go].
  - rewrite Hx. destruct (is_deser (e_kind e)) eqn:Ed; [|reflexivity]. destruct w.
    + apply is_deser_spec in Ed. now elim (Hd eq_refl).
    + cbn. now rewrite Nat.add_0_r.
  - rewrite H1. rewrite (bind_events _ _ tt) by reflexivity. cbn [snd].
    assert (Hw : w = false -> length ys = length l) by (intros Hw; specialize (Hl Hw); now injection Hl).
    specialize (IH (S i) Hw Hx Hd). rewrite (bind_failed _ _ _ IH). cbn [snd length].
    destruct (is_deser (e_kind e)); [|reflexivity]. do 2 f_equal. now rewrite Nat.add_succ_r.
  - rewrite H1. pose proof (proj2 (is_deser_spec e') He) as He'. rewrite He'. destruct w.
    + rewrite (bind_events _ _ tt) by reflexivity. cbn [snd].
      rewrite (bind_events _ _ tt) by apply warn_done. cbn [snd].
      rewrite IH; [|discriminate|exact Hx|exact Hd]. cbn [length].
      destruct (is_deser (e_kind e)) eqn:Ed; [|reflexivity]. apply is_deser_spec in Ed. now elim (Hd eq_refl).
    + exfalso. specialize (Hl eq_refl). cbn in Hl.
      assert (length ys <= length l); [|rewrite Hl in *; apply (Nat.nle_succ_diag_l _ H)].
      clear -H2. induction H2; cbn; auto using le_n_S, le_S, Nat.le_0_l.
Qed.
Lemma deser_list_run E n f o b t l : no_hints o ->
  deser_step E (load E n) f (child_opts o) DList (TApp b HList [t]) (VList l) =
  dom ys <- deser_list_go E (load E n) f (elem_opts o true) (lo_warn o) (Some t) 0 l; ret (VList ys).
Proof. intros Hh. rewrite (child_nested _ Hh). reflexivity. Qed.
Lemma load_list_run E n f o b t l : default_deserializers E f -> no_hints o ->
  load E (S n) f o (Some (TApp b HList [t])) (VList l) =
  wrap_deser (dom r <- (dom ys <- deser_list_go E (load E n) f (elem_opts o true) (lo_warn o) (Some t) 0 l; ret (VList ys));
              dom _ <- lift (validate E f r (TApp b HList [t]));
              ret r).
Proof.
  intros HD Hh. rewrite (load_run _ _ _ _ _ _ DList); [now rewrite deser_list_run|exact I| |discriminate|reflexivity| |].
  - intros ? ? ? H; discriminate.
  - right. discriminate.
  - now rewrite HD, deser_head.
Qed.
Lemma load_list_done E n f o b t l v : default_deserializers E f -> no_hints o -> lo_warn o = false ->
  (snd (load E (S n) f o (Some (TApp b HList [t])) (VList l)) = Done v <->
   exists ys, Forall2 (fun x y => snd (load E n f (elem_opts o true) (Some t) x) = Done y) l ys /\
              v = VList ys /\ accepts E f (TApp b HList [t]) v).
Proof.
  intros HD Hh Hw. rewrite (load_list_run _ _ _ _ _ _ _ HD Hh), Hw. split.
  - intros H. apply try_done in H as [H|(e & _ & H)]; [|discriminate].
    apply bind_done in H as (r & Hr & H). apply bind_done in Hr as (ys & Hys & Hr). injection Hr as <-.
    apply bind_done in H as ([] & Hv & H). injection H as <-. apply lift_done, validate_ok in Hv.
    exists ys. split; [now apply (list_go_plain _ _ _ _ _ _ 0)|auto].
  - intros (ys & Hys & -> & Ha). apply (wrap_step_done _ _ _ _ VList ys); [|exact Ha]. now apply list_go_plain.
Qed.
Lemma load_list_warn E n f o b t l ys evs : default_deserializers E f -> no_hints o -> lo_warn o = true ->
  keeps E n f (elem_opts o true) (Some t) l ys evs -> accepts E f (TApp b HList [t]) (VList ys) ->
  load E (S n) f o (Some (TApp b HList [t])) (VList l) = (evs, Done (VList ys)).
Proof.
  intros HD Hh Hw Hk Ha. rewrite (load_list_run _ _ _ _ _ _ _ HD Hh), Hw.
  rewrite (list_go_keeps _ _ _ _ _ _ _ _ _ Hk). cbn. apply validate_ok in Ha. rewrite Ha. cbn.
  unfold wrap_deser, mtry. cbn. now rewrite !app_nil_r.
Qed.
Lemma load_list_warn_inv E n f o b t l v : default_deserializers E f -> no_hints o -> lo_warn o = true ->
  snd (load E (S n) f o (Some (TApp b HList [t])) (VList l)) = Done v ->
  exists ys evs, v = VList ys /\ keeps E n f (elem_opts o true) (Some t) l ys evs /\ accepts E f (TApp b HList [t]) v.
Proof.
  intros HD Hh Hw. rewrite (load_list_run _ _ _ _ _ _ _ HD Hh), Hw.
  intros H. apply try_done in H as [H|(e & _ & H)]; [|discriminate].
  apply bind_done in H as (r & Hr & H). apply bind_done in Hr as (ys & Hys & Hr). injection Hr as <-.
  apply bind_done in H as ([] & Hv & H). injection H as <-. apply lift_done, validate_ok in Hv.
  apply list_go_kept in Hys as (evs & Hk). exists ys, evs. auto.
Qed.
Lemma Forall2_len {A B} (P : A -> B -> Prop) l m : Forall2 P l m -> length l = length m.
Proof. induction 1; cbn; congruence. Qed.
Lemma load_list_index E n f o b t l1 ys x e l2 : default_deserializers E f -> no_hints o -> lo_warn o = false ->
  Forall2 (fun x y => snd (load E n f (elem_opts o true) (Some t) x) = Done y) l1 ys ->
  snd (load E n f (elem_opts o true) (Some t) x) = Fail e -> deserialization_error e ->
  snd (load E (S n) f o (Some (TApp b HList [t])) (VList (l1 ++ x :: l2))) =
  Fail (mkExn KDeser (e_arg e) (length l1 :: e_idx e) false (e_msg e)).
Proof.
  intros HD Hh Hw Hf Hx He. rewrite (load_list_run _ _ _ _ _ _ _ HD Hh), Hw.
  assert (Hk : exists evs, keeps E n f (elem_opts o true) (Some t) l1 ys evs).
  { clear -Hf. induction Hf as [|a y l ys H Hf [evs IH]]; eexists; [constructor|]. apply keeps_elem; eassumption. }
  destruct Hk as (evs & Hk). apply Forall2_len in Hf.
  pose proof (list_go_fail E n f (elem_opts o true) false (Some t) x e l2 l1 ys 0 evs Hk (fun _ => eq_sym Hf) Hx) as H.
  apply is_deser_spec in He. rewrite He in H. specialize (H ltac:(discriminate)).
  apply wrap_fail_jsons; [|reflexivity]. rewrite (bind_failed _ _ _ H). reflexivity.
Qed.
Lemma load_list_validation E n f o b t l1 ys evs x e l2 : default_deserializers E f -> no_hints o ->
  keeps E n f (elem_opts o true) (Some t) l1 ys evs -> (lo_warn o = false -> length ys = length l1) ->
  snd (load E n f (elem_opts o true) (Some t) x) = Fail e -> e_kind e = KValidation ->
  snd (load E (S n) f o (Some (TApp b HList [t])) (VList (l1 ++ x :: l2))) = Fail e.
Proof.
  intros HD Hh Hk Hl Hx He. rewrite (load_list_run _ _ _ _ _ _ _ HD Hh).
  pose proof (list_go_fail E n f (elem_opts o true) (lo_warn o) (Some t) x e l2 l1 ys 0 evs Hk Hl Hx) as H.
  rewrite He in H. cbn [is_deser] in H. apply wrap_fail_jsons; [|now rewrite He].
  rewrite (bind_failed _ _ _ (H ltac:(intros _ Hd; apply is_deser_spec in Hd; rewrite He in Hd; discriminate))). reflexivity.
Qed.

(** ** Strings *)
Lemma load_str_explicit E n f o s : default_deserializers E f -> accepts E f (TPrim PStr) (VStr s) ->
  snd (load E (S n) f o (Some (TPrim PStr)) (VStr s)) = Done (VStr s).
Proof.
  intros HD Ha. apply load_typed; [exact I|intros ? ? ? H; discriminate|]. split; [discriminate|].
  destruct (negb (lo_strict o) && ty_eqb (class_of (VStr s)) (TPrim PStr)); [auto|].
  split; [reflexivity|]. exists DString. rewrite HD, deser_prim. auto.
Qed.
Lemma load_datetime_typed E n f o s : default_deserializers E f ->
  snd (load E (S n) f o (Some (TLeaf LkDatetime)) (VStr s)) =
  match load_datetime s with
  | Ok x => match validate E f (VLeaf (LDatetime x)) (TLeaf LkDatetime) with
            | Ok _ => Done (VLeaf (LDatetime x))
            | Err e => Fail e
            end
  | Err e => Fail (if is_jsons (e_kind e) then e else exn_of KDeser)
  end.
Proof.
  intros HD. rewrite (load_run _ _ _ _ _ _ DDatetime); [|exact I|intros ? ? ? H; discriminate|discriminate|reflexivity| |].
  - cbn [deser_step]. destruct (load_datetime s) as [x|e]; cbn [rbind]; [|reflexivity].
    rewrite bind_lift_ok. destruct (validate E f (VLeaf (LDatetime x)) (TLeaf LkDatetime)) as [[]|e] eqn:Ev; [reflexivity|].
    apply validate_err in Ev as [_ ->]. reflexivity.
  - right. discriminate.
  - now rewrite HD, deser_leaf.
Qed.

Lemma load_datetime_raw s e : load_datetime s = Err e -> is_jsons (e_kind e) = false.
Proof.
  intros H. pose proof (load_datetime_sound s) as Hs. rewrite H in Hs.
  destruct Hs as [[-> | ->]|[[-> _]|[-> _]]]; reflexivity.
Qed.
(** Without a type, a string is loaded as a datetime if it is one. *)
Lemma load_str_untyped E n f o s : default_deserializers E f ->
  (forall x, accepts E f (TLeaf LkDatetime) (VLeaf (LDatetime x))) ->
  (forall v, accepts E f (TPrim PStr) v) ->
  snd (load E (S (S n)) f o None (VStr s)) =
  Done (match load_datetime s with Ok x => VLeaf (LDatetime x) | Err _ => VStr s end).
Proof.
  intros HD Ha Hb. apply load_untyped; [intros ? ? ? H; discriminate|]. split; [reflexivity|].
  exists DString. cbn [class_of]. rewrite HD, deser_prim. split; [reflexivity|]. split; [|apply Hb].
  cbn [deser_step]. unfold deser_string. cbn [ty_eqb prim_eqb lo_inferred untyped_opts set_inferred negb andb].
  pose proof (load_datetime_typed E n f (untyped_opts o) s HD) as H.
  apply try_done. destruct (load_datetime s) as [x|e] eqn:El.
  - left. rewrite H. now rewrite (proj2 (validate_ok _ _ _ _) (Ha x)).
  - right. apply load_datetime_raw in El. rewrite El in H. exists (exn_of KDeser). split; [exact H|]. reflexivity.
Qed.

(** ** Documents without a type *)
Lemma accepts_all E f t v : no_validators E f -> accepts E f t v.
Proof. intros H. unfold accepts. rewrite H. exact I. Qed.
Definition kt_id (o : lopts) : Prop := forall g k, lo_kt o = Some g -> g k = Ok k.
Lemma no_key_dget s k d : no_key s (VDict k d) -> dget (VStr s) d = None.
Proof.
  intros H. destruct (dget (VStr s) d) as [x|] eqn:E; [|reflexivity]. apply dget_In in E.
  inversion H as [| | | |k' d' Hd|v Hv]; subst; [|contradiction]. now apply (Hd _ _) in E.
Qed.
Lemma no_key_no_meta j : no_key "-meta" j -> no_meta_entry j.
Proof.
  intros H k d x -> Hin. inversion H as [| | | |k' d' Hd|v Hv]; subst; [|contradiction].
  now apply (Hd _ _) in Hin.
Qed.
Lemma load_document E f j : default_deserializers E f -> no_validators E f ->
  document j -> no_key "-meta" j -> no_key "-keys" j ->
  exists N, forall n, N <= n -> forall o, kt_id o -> snd (load E n f o None j) = Done (undate j).
Proof.
  intros HD HV Hdoc. induction Hdoc as [v Hv|l _ IH|d Hd _ IH Hk]; intros Hm Hks.
  - exists 2. intros [|[|n]] Hn o Ho; [lia..|]. destruct v; try contradiction.
    + apply load_none_accepted; try exact I; try discriminate; try assumption; intros; now apply accepts_all.
    + apply load_untyped; [intros ? ? ? H; discriminate|]. split; [reflexivity|]. exists DPrimitive.
      cbn [class_of]. rewrite HD, deser_prim. repeat split. now apply accepts_all.
    + apply load_untyped; [intros ? ? ? H; discriminate|]. split; [reflexivity|]. exists DPrimitive.
      cbn [class_of]. rewrite HD, deser_prim. repeat split. now apply accepts_all.
    + apply load_untyped; [intros ? ? ? H; discriminate|]. split; [reflexivity|]. exists DPrimitive.
      cbn [class_of]. rewrite HD, deser_prim. repeat split. now apply accepts_all.
    + apply load_str_untyped; [exact HD|intros; now apply accepts_all..].
  - assert (IH' : forall x, In x l -> exists N, forall n, N <= n -> forall o, kt_id o -> snd (load E n f o None x) = Done (undate x)).
    { intros x Hx. inversion Hm as [l' Hm'| | | | |v Hv]; subst; [|contradiction].
      inversion Hks as [l' Hk'| | | | |v Hv]; subst; [|contradiction]. apply IH; auto. }
    apply (forall_upto (fun n x => forall o, kt_id o -> snd (load E n f o None x) = Done (undate x))) in IH' as (N & HN).
    exists (S N). intros [|n] Hn o Ho; [lia|]. apply load_untyped; [intros ? ? ? H; discriminate|].
    split; [reflexivity|]. exists DList. cbn [class_of]. rewrite HD, deser_head. split; [reflexivity|].
    split; [|now apply accepts_all]. cbn [deser_step get_args raw_args]. unfold deser_list. cbn [py_iter]. rewrite bind_lift_ok.
    apply bind_done. exists (map undate l). split; [|reflexivity]. cbn [hd_error].
    assert (Hgo : forall i l', incl l' l -> snd (deser_list_go E (load E n) f (set_warn false (untyped_opts o)) (lo_warn (untyped_opts o)) None i l') =
                  Done (map undate l')).
    { intros i l'. revert i. induction l' as [|x l' IHl]; intros i Hi; cbn [deser_list_go map]; [reflexivity|].
      rewrite (HN n); [|lia|apply Hi; now left|exact Ho].
      apply bind_done. exists tt. split; [reflexivity|]. apply bind_done. exists (map undate l'). split; [|reflexivity].
      apply IHl. intros y Hy. apply Hi. now right. }
    apply Hgo. apply incl_refl.
  - assert (IH' : forall p, In p d -> exists N, forall n, N <= n -> forall o, kt_id o -> snd (load E n f o None (snd p)) = Done (undate (snd p))).
    { intros [k x] Hin. inversion Hm as [| | | |k' d' Hm'|v Hv]; subst; [|contradiction].
      inversion Hks as [| | | |k' d' Hk'|v Hv]; subst; [|contradiction].
      apply (IH k x Hin); [now apply (Hm' k x)|now apply (Hk' k x)]. }
    apply (forall_upto (fun n p => forall o, kt_id o -> snd (load E n f o None (snd p)) = Done (undate (snd p)))) in IH' as (N & HN).
    exists (S N). intros [|n] Hn o Ho; [lia|]. apply load_untyped; [now apply no_key_no_meta|].
    split; [reflexivity|]. exists DMapping. cbn [class_of]. rewrite HD, deser_head. split; [reflexivity|].
    split; [|now apply accepts_all]. cbn [deser_step]. unfold deser_mapping. cbn [get_args raw_args]. rewrite bind_lift_ok.
    apply bind_done. exists (map (fun kx => (fst kx, undate (snd kx))) d). split; [|reflexivity].
    unfold deser_dict, load_hashed_keys. rewrite (no_key_dget _ _ _ Hks), bind_ret_l. cbv zeta. cbn [fst snd].
    set (g := match lo_kt (untyped_opts o) with Some g => g | None => fun k => Ok k end).
    assert (Hg : forall k, g k = Ok k).
    { intros k. unfold g. change (lo_kt (untyped_opts o)) with (lo_kt o). destruct (lo_kt o) eqn:El; [now apply Ho|reflexivity]. }
    set (ov := set_kt (Some g) (untyped_opts o)).
    assert (Hov : kt_id ov) by (intros g' k Hg'; injection Hg' as <-; apply Hg).
    clearbody g ov.
    assert (Hgo : forall post pre, d = (pre ++ post)%list ->
       snd (deser_dict_go E (load E n) f (set_kt None (untyped_opts o)) ov g None None post
              (map (fun kx => (fst kx, undate (snd kx))) pre)) = Done (map (fun kx => (fst kx, undate (snd kx))) d)).
    { induction post as [|[k x] post IHp]; intros pre Ed; cbn [deser_dict_go].
      - rewrite app_nil_r in Ed. now subst.
      - assert (Hin : In (k, x) d) by (rewrite Ed; apply in_or_app; right; now left).
        rewrite Hg, bind_lift_ok, bind_ret_l. apply bind_done. exists (undate x). split.
        { apply (HN n ltac:(lia) (k, x) Hin _ Hov). }
        rewrite plain_hashable by now apply (Hd k x). rewrite dset_fresh.
        + specialize (IHp (pre ++ [(k, x)])%list). rewrite map_app in IHp. apply IHp. rewrite Ed, <- app_assoc. reflexivity.
        + rewrite map_map. cbn [fst]. intros k' Hk'. change (In k' (map fst pre)) in Hk'.
          rewrite Ed, map_app in Hk. cbn [map fst] in Hk. clear -Hk Hk'.
          induction pre as [|[k1 y] pre IHpre]; [destruct Hk'|]. cbn [map fst app] in *.
          inversion Hk as [|? ? Hall Hk2 Heq]; subst. destruct Hk' as [<-|Hk'].
          * rewrite Forall_forall in Hall. apply Hall. apply in_or_app. right. now left.
          * now apply IHpre. }
    now apply (Hgo d []).
Qed.

(** ** Tuples *)
Lemma tuple_go_done E n f o l : forall ts ys,
  snd (deser_tuple_go (load E n) f o l ts) = Done ys <->
  length l <= length ts /\
  Forall2 (fun xt y => snd (load E n f o (Some (snd xt)) (fst xt)) = Done y) (combine l ts) ys.
Proof.
  induction l as [|x l IH]; intros ts ys; cbn [deser_tuple_go].
  - cbn. split.
    + intros H. injection H as <-. split; [lia|constructor].
    + intros [_ H]. inversion H; subst. reflexivity.
  - destruct ts as [|t ts].
    + cbn. split; [discriminate|lia].
    + rewrite bind_done. cbn [length combine]. split.
      * intros (y & Hy & H). apply bind_done in H as (ys' & Hys & H). injection H as <-.
        apply IH in Hys as [Hl Hf]. split; [lia|]. now constructor.
      * intros [Hl H]. inversion H as [|? y ? ys' H1 H2]; subst. exists y. split; [exact H1|].
        apply bind_done. exists ys'. split; [|reflexivity]. apply IH. split; [lia|exact H2].
Qed.
Lemma tuple_go_too_many E n f o : forall l ts x r ys, length l = length ts ->
  Forall2 (fun xt y => snd (load E n f o (Some (snd xt)) (fst xt)) = Done y) (combine l ts) ys ->
  snd (deser_tuple_go (load E n) f o (l ++ x :: r) ts) = Fail (exn_of KIndex).
Proof.
  induction l as [|a l IH]; intros [|t ts] x r ys Hl H; try discriminate; cbn [app deser_tuple_go]; [reflexivity|].
  cbn [combine] in H. inversion H as [|? y ? ys' H1 H2]; subst. cbn [fst snd] in H1.
  rewrite (bind_events _ _ _ H1). rewrite (bind_failed _ _ (exn_of KIndex)); [reflexivity|].
  apply IH with ys'; [now injection Hl|exact H2].
Qed.
Lemma load_tuple_run E n f o b t0 ts l j :
  default_deserializers E f -> no_hints o -> (j = VList l \/ j = VTuple l) ->
  load E (S n) f o (Some (TApp b HTuple (t0 :: ts))) j =
  wrap_deser (dom r <- (dom ys <- deser_tuple_go (load E n) f (tuple_opts o) l
                          (if ty_eqb TEllipsis (last (t0 :: ts) TAny) then repeat t0 (length l) else t0 :: ts);
                        ret (VTuple ys));
              dom _ <- lift (validate E f r (TApp b HTuple (t0 :: ts)));
              ret r).
Proof.
  intros HD Hh Hj. rewrite (load_run _ _ _ _ _ _ DTuple).
  - rewrite (child_nested _ Hh). cbn [deser_step]. unfold deser_tuple. cbv zeta.
    destruct Hj as [-> | ->]; cbn [py_iter]; rewrite bind_lift_ok; reflexivity.
  - exact I.
  - intros k d x. destruct Hj as [-> | ->]; discriminate.
  - destruct Hj as [-> | ->]; discriminate.
  - destruct Hj as [-> | ->]; reflexivity.
  - right. destruct Hj as [-> | ->]; discriminate.
  - now rewrite HD, deser_head.
Qed.
Lemma load_tuple_gen E n f o b t0 ts l j v :
  default_deserializers E f -> no_hints o -> (j = VList l \/ j = VTuple l) ->
  let ts' := if ty_eqb TEllipsis (last (t0 :: ts) TAny) then repeat t0 (length l) else t0 :: ts in
  (snd (load E (S n) f o (Some (TApp b HTuple (t0 :: ts))) j) = Done v <->
   exists ys, length l <= length ts' /\
     Forall2 (fun xt y => snd (load E n f (tuple_opts o) (Some (snd xt)) (fst xt)) = Done y)
             (combine l ts') ys /\
     v = VTuple ys /\ accepts E f (TApp b HTuple (t0 :: ts)) v).
Proof.
  intros HD Hh Hj ts'. rewrite (load_tuple_run _ _ _ _ _ _ _ _ _ HD Hh Hj). fold ts'. split.
  - intros H. apply try_done in H as [H|(e & _ & H)]; [|discriminate].
    apply bind_done in H as (r & Hr & H). apply bind_done in Hr as (ys & Hys & Hr). injection Hr as <-.
    apply bind_done in H as ([] & Hv & H). injection H as <-. apply lift_done, validate_ok in Hv.
    apply tuple_go_done in Hys as [H1 H2]. exists ys. auto.
  - intros (ys & H1 & H2 & -> & Ha). apply (wrap_step_done _ _ _ _ VTuple ys); [|exact Ha]. now apply tuple_go_done.
Qed.
Lemma load_tuple_done E n f o b ts l j v :
  default_deserializers E f -> no_hints o -> (j = VList l \/ j = VTuple l) ->
  ts <> [] -> ~ In TEllipsis ts ->
  (snd (load E (S n) f o (Some (TApp b HTuple ts)) j) = Done v <->
   exists ys, length l <= length ts /\
     Forall2 (fun xt y => snd (load E n f (tuple_opts o) (Some (snd xt)) (fst xt)) = Done y) (combine l ts) ys /\
     v = VTuple ys /\ accepts E f (TApp b HTuple ts) v).
Proof.
  intros HD Hh Hj Hn He. destruct ts as [|t0 ts]; [congruence|].
  pose proof (load_tuple_gen E n f o b t0 ts l j v HD Hh Hj) as H. cbv zeta in H.
  assert (Hl : ty_eqb TEllipsis (last (t0 :: ts) TAny) = false).
  { apply ty_eqb_neq. intros E1. apply He. rewrite E1. clear.
    revert t0. induction ts as [|t ts IH]; intros t0; [now left|]. right. apply IH. }
  rewrite Hl in H. exact H.
Qed.
Lemma load_tuple_too_many E n f o b ts l ys x r :
  default_deserializers E f -> no_hints o -> ts <> [] -> ~ In TEllipsis ts -> length l = length ts ->
  Forall2 (fun xt y => snd (load E n f (tuple_opts o) (Some (snd xt)) (fst xt)) = Done y) (combine l ts) ys ->
  snd (load E (S n) f o (Some (TApp b HTuple ts)) (VList (l ++ x :: r))) = Fail (exn_of KDeser).
Proof.
  intros HD Hh Hn He Hl Hf. destruct ts as [|t0 ts]; [congruence|].
  rewrite (load_tuple_run _ _ _ _ _ _ _ _ _ HD Hh (or_introl eq_refl)).
  assert (Hl' : ty_eqb TEllipsis (last (t0 :: ts) TAny) = false).
  { apply ty_eqb_neq. intros E1. apply He. rewrite E1. clear.
    revert t0. induction ts as [|t ts IH]; intros t0; [now left|]. right. apply IH. }
  rewrite Hl'. apply wrap_fail_raw with (e := exn_of KIndex); [|reflexivity].
  rewrite (bind_failed _ _ (exn_of KIndex)); [reflexivity|]. now apply tuple_go_too_many with ys.
Qed.
Lemma combine_repeat {A B} (l : list A) (t : B) : combine l (repeat t (length l)) = map (fun x => (x, t)) l.
Proof. induction l; cbn; congruence. Qed.
Lemma Forall2_map_l {A B C} (P : B -> C -> Prop) (g : A -> B) l m :
  Forall2 P (map g l) m <-> Forall2 (fun x y => P (g x) y) l m.
Proof.
  revert m. induction l as [|x l IH]; intros m; cbn [map]; split; intros H; inversion H; subst; constructor; auto; now apply IH.
Qed.
Lemma load_tuple_ellipsis E n f o b t l j v :
  default_deserializers E f -> no_hints o -> (j = VList l \/ j = VTuple l) ->
  (snd (load E (S n) f o (Some (TApp b HTuple [t; TEllipsis])) j) = Done v <->
   exists ys, Forall2 (fun x y => snd (load E n f (tuple_opts o) (Some t) x) = Done y) l ys /\
     v = VTuple ys /\ accepts E f (TApp b HTuple [t; TEllipsis]) v).
Proof.
  intros HD Hh Hj. pose proof (load_tuple_gen E n f o b t [TEllipsis] l j v HD Hh Hj) as H. cbv zeta in H.
  cbn [last ty_eqb] in H. rewrite H. rewrite combine_repeat, repeat_length. split.
  - intros (ys & _ & Hf & Hv). exists ys. rewrite Forall2_map_l in Hf. auto.
  - intros (ys & Hf & Hv). exists ys. rewrite Forall2_map_l. auto.
Qed.

(** ** Named tuples *)
Lemma none_allowed_b fd :
  existsb (ty_eqb TNoneT) (match nf_hint fd with
                           | Some h => match raw_args h with Some ts => ts | None => [] end
                           | None => [] end) = true <-> none_allowed fd.
Proof.
  unfold none_allowed. rewrite existsb_ty_In. destruct (nf_hint fd) as [h|].
  - destruct (raw_args h) as [ts|] eqn:E.
    + split; [intros H; exists h, ts; auto|]. intros (h' & ts' & H1 & H2 & H3). injection H1 as <-. congruence.
    + split; [intros []|]. intros (h' & ts' & H1 & H2 & H3). injection H1 as <-. congruence.
  - split; [intros []|]. intros (h' & ts' & H1 & _). discriminate.
Qed.
Lemma nth_getitem CT l i : i < length l ->
  py_getitem CT (VList l) (VInt (Z.of_nat i)) = opt_res (nth_error l i) (raise KIndex).
Proof.
  intros H. cbn [py_getitem]. assert ((Z.of_nat i <? 0)%Z = false) as -> by (apply Z.ltb_ge; lia).
  assert (((0 <=? Z.of_nat i) && (Z.of_nat i <? Z.of_nat (length l)))%Z = true) as ->
    by (apply andb_true_iff; split; [apply Z.leb_le; lia|apply Z.ltb_lt; lia]).
  rewrite Nat2Z.id. destruct (nth_error l i); reflexivity.
Qed.
Definition nt_view (j j' : value) (d : option (list (value * value))) (len : nat) : Prop :=
  match j' with
  | VDict _ d' => d = Some d' /\ len = length d'
  | VList l | VTuple l => j = j' /\ d = None /\ len = length l
  | _ => False
  end.
Lemma nt_field_input CT j j' d len i fd x : nt_view j j' d len ->
  ((if Nat.ltb i len then
                       match d with
                       | Some d => match dget (VStr (nf_name fd)) d with
                                   | Some x => Ok x
                                   | None => raise KKey
                                   end
                       | None => py_getitem CT j (VInt (Z.of_nat i))
                       end
                     else Ok (match nf_default fd with Some x => x | None => VNone end)) = Ok x <->
              field_input j' i fd x \/ (no_more_input j' i /\ x = field_default fd)).
Proof.
  intros Hj.
  unfold nt_view in Hj. unfold field_input, no_more_input, field_default.
      destruct (Nat.ltb i len) eqn:El; [apply Nat.ltb_lt in El|apply Nat.ltb_ge in El].
      - destruct j'; try contradiction; (destruct Hj as (-> & -> & ->) || destruct Hj as (-> & ->)).
        + rewrite nth_getitem by assumption. destruct (nth_error l i); cbn.
          * split; [intros H; injection H as <-; left; auto|]. intros [[_ H]|[H _]]; [congruence|lia].
          * split; [discriminate|]. intros [[_ H]|[H _]]; [discriminate|lia].
        + change (py_getitem CT (VTuple l) (VInt (Z.of_nat i))) with (py_getitem CT (VList l) (VInt (Z.of_nat i))).
          rewrite nth_getitem by assumption. destruct (nth_error l i); cbn.
          * split; [intros H; injection H as <-; left; auto|]. intros [[_ H]|[H _]]; [congruence|lia].
          * split; [discriminate|]. intros [[_ H]|[H _]]; [discriminate|lia].
        + destruct (dget (VStr (nf_name fd)) d0).
          * split; [intros H; injection H as <-; left; auto|]. intros [[_ H]|[H _]]; [congruence|lia].
          * split; [discriminate|]. intros [[_ H]|[H _]]; [discriminate|lia].
      - destruct j'; try contradiction; (destruct Hj as (-> & -> & ->) || destruct Hj as (-> & ->)); (split;
          [intros H; injection H as <-; right; auto|intros [[H _]|[_ ->]]; [lia|reflexivity]]).
Qed.
Lemma nt_go_done E n f o j j' d len : nt_view j j' d len -> forall fields i ys,
  snd (deser_nt_go E (load E n) f o j d len i fields) = Done ys <-> field_values E n f o j' i fields ys.
Proof.
  intros Hj. induction fields as [|fd fields IH]; intros i ys; cbn [deser_nt_go].
  - split; [intros H; injection H as <-; constructor|]. intros H. inversion H; subst. reflexivity.
  - pose proof (fun x => nt_field_input (e_ct E) j j' d len i fd x Hj) as Hin.
    rewrite bind_done. split.
    + intros (x & Hx & H). apply lift_done, Hin in Hx. apply bind_done in H as ([] & Hn & H).
      apply bind_done in H as (y & Hy & H). apply bind_done in H as (ys' & Hys & H). injection H as <-.
      econstructor; [exact Hx| |exact Hy|now apply IH].
      intros ->. apply none_allowed_b. cbn [is_none andb] in Hn.
      destruct (existsb _ _); [reflexivity|discriminate].
    + intros H. inversion H as [|i' fd' fds x y ys' H1 H2 H3 H4]; subst. exists x. split; [apply lift_done; now apply Hin|].
      apply bind_done. exists tt. split.
      * destruct (is_none x) eqn:En; cbn [andb]; [|reflexivity].
        assert (x = VNone) as -> by (destruct x; (reflexivity || discriminate)).
        specialize (H2 eq_refl). apply none_allowed_b in H2. rewrite H2. reflexivity.
      * apply bind_done. exists y. split; [exact H3|]. apply bind_done. exists ys'. split; [now apply IH|reflexivity].
Qed.
Lemma transform_id CT d : string_dict d -> transform_keys CT (fun k => Ok k) d [] = Ok d.
Proof.
  intros [Hk Hn].
  assert (G : forall r acc, (acc ++ r)%list = d -> transform_keys CT (fun k => Ok k) r acc = Ok d).
  { induction r as [|[k x] r IH]; intros acc Ha; cbn [transform_keys].
    - now rewrite app_nil_r in Ha; subst.
    - assert (Hin : In (k, x) d) by (rewrite <- Ha; apply in_or_app; right; now left).
      destruct (Hk _ _ Hin) as [s ->]. cbn [rbind hashable].
      rewrite dset_fresh.
      + apply IH. now rewrite <- app_assoc.
      + intros k' Hk'. destruct (py_eqb (VStr s) k') eqn:Eq; [|reflexivity]. apply py_eqb_str in Eq as ->.
        rewrite <- Ha, map_app in Hn. cbn [map fst] in Hn. apply NoDup_remove_2 in Hn. exfalso. apply Hn.
        apply in_or_app. now left. }
  apply G. reflexivity.
Qed.
Lemma transform_ok CT o d d' : string_dict d -> renamed CT o d d' ->
  transform_keys CT (match lo_kt o with Some g => g | None => fun k => Ok k end) d [] = Ok d'.
Proof.
  intros Hs H. apply renamed_iff in H. destruct (lo_kt o); [exact H|]. injection H as <-. now apply transform_id.
Qed.
Lemma load_namedtuple_run E n f o c fields j j' :
  ci_kind (e_ct E c) = CkNT fields -> e_deser E f (TClass c) = Some DTuple -> no_hints o -> no_meta_entry j ->
  field_source (e_ct E) o j j' ->
  exists d len, nt_view j j' d len /\
  load E (S n) f o (Some (TClass c)) j =
  wrap_deser (dom r <- (dom ys <- deser_nt_go E (load E n) f (nested_opts o) j d len 0 fields; ret (VNT c ys));
              dom _ <- lift (validate E f r (TClass c));
              ret r).
Proof.
  intros Hk He Hh Hm Hs.
  assert (Hr : load E (S n) f o (Some (TClass c)) j =
     wrap_deser (dom r <- deser_namedtuple E (load E n) f (nested_opts o) c j;
              dom _ <- lift (validate E f r (TClass c)); ret r)).
  { rewrite (load_run _ _ _ _ _ _ DTuple); [|exact I|exact Hm|destruct j; (discriminate || contradiction)
      |destruct j as [| | | | | | | |[]| | | |]; (reflexivity || contradiction)|right; destruct j as [| | | | | | | |[]| | | |]; (discriminate || contradiction)|exact He].
    rewrite (child_nested _ Hh). cbn [deser_step]. unfold deser_tuple. rewrite Hk. reflexivity. }
  rewrite Hr. unfold deser_namedtuple, nt_fields. rewrite Hk.
  destruct j as [| | | | |l|l| |[] d| | | |]; try contradiction; cbn [field_source] in Hs.
  - subst j'. exists None, (length l). split; [cbn; auto|]. rewrite bind_ret_l. cbn [py_iter]. rewrite bind_lift_ok. reflexivity.
  - subst j'. exists None, (length l). split; [cbn; auto|]. rewrite bind_ret_l. cbn [py_iter]. rewrite bind_lift_ok. reflexivity.
  - destruct Hs as (Hsd & d' & Hd & Hl & ->). exists (Some d'), (length d'). split; [cbn; auto|].
    change (lo_kt (nested_opts o)) with (lo_kt o). cbv zeta.
    rewrite (transform_ok _ _ _ _ Hsd Hd). rewrite bind_lift_ok, bind_ret_l. cbn [py_iter]. rewrite bind_lift_ok.
    rewrite map_length, Hl. reflexivity.
Qed.
Lemma load_namedtuple_done E n f o c fields j j' v :
  ci_kind (e_ct E c) = CkNT fields -> e_deser E f (TClass c) = Some DTuple -> no_hints o -> no_meta_entry j ->
  field_source (e_ct E) o j j' ->
  (snd (load E (S n) f o (Some (TClass c)) j) = Done v <->
   exists ys, field_values E n f (nested_opts o) j' 0 fields ys /\ v = VNT c ys /\ accepts E f (TClass c) v).
Proof.
  intros Hk He Hh Hm Hs. destruct (load_namedtuple_run _ n _ _ _ _ _ _ Hk He Hh Hm Hs) as (d & len & Hv & ->). split.
  - intros H. apply try_done in H as [H|(e & _ & H)]; [|discriminate].
    apply bind_done in H as (r & Hr & H). apply bind_done in Hr as (ys & Hys & Hr). injection Hr as <-.
    apply bind_done in H as ([] & Hv' & H). injection H as <-. apply lift_done, validate_ok in Hv'.
    apply (nt_go_done _ _ _ _ _ _ _ _ Hv) in Hys. exists ys. auto.
  - intros (ys & H1 & -> & Ha). apply (wrap_step_done _ _ _ _ (VNT c) ys); [|exact Ha]. now apply (nt_go_done _ _ _ _ _ _ _ _ Hv).
Qed.
(** The first field for which there is no input and no default and that does not accept
    None *)
Lemma nt_go_missing E n f o j j' d len fd post : nt_view j j' d len ->
  nf_default fd = None -> ~ none_allowed fd ->
  forall pre i ys, field_values E n f o j' i pre ys -> no_more_input j' (i + length pre) ->
  snd (deser_nt_go E (load E n) f o j d len i (pre ++ fd :: post)) = Fail (exn_arg KUnfulfilled (nf_name fd)).
Proof.
  intros Hj Hd Hn. induction pre as [|p pre IH]; intros i ys Hp Hm.
  - cbn [app deser_nt_go]. cbn [length] in Hm. rewrite Nat.add_0_r in Hm.
    assert (Nat.ltb i len = false) as ->.
    { apply Nat.ltb_ge. unfold nt_view in Hj. destruct j'; try contradiction; (destruct Hj as (-> & -> & ->) || destruct Hj as (-> & ->)); exact Hm. }
    rewrite bind_lift_ok, Hd. cbn [is_none andb].
    destruct (existsb _ _) eqn:Ex; [exfalso; now apply Hn, none_allowed_b|]. reflexivity.
  - inversion Hp as [|i' fd' fds x y ys' H1 H2 H3 H4]; subst.
    cbn [app deser_nt_go].
    assert (Hg : snd (deser_nt_go E (load E n) f o j d len i [p]) = Done [y]).
    { apply (nt_go_done _ _ _ _ _ _ _ _ Hj). econstructor; eauto. constructor. }
    cbn [deser_nt_go] in Hg. apply bind_done in Hg as (x' & Hx & Hg). apply bind_done in Hg as ([] & Hg1 & Hg).
    apply bind_done in Hg as (y' & Hy & Hg).
    rewrite (bind_events _ _ _ Hx). cbn [snd]. rewrite (bind_events _ _ _ Hg1). cbn [snd]. rewrite (bind_events _ _ _ Hy). cbn [snd].
    rewrite (bind_failed _ _ (exn_arg KUnfulfilled (nf_name fd))); [reflexivity|].
    apply IH with ys'; [exact H4|]. cbn [length] in Hm. now replace (S i + length pre) with (i + S (length pre)) by lia.
Qed.
Lemma load_namedtuple_missing E n f o c pre fd post j j' ys :
  ci_kind (e_ct E c) = CkNT (pre ++ fd :: post) -> e_deser E f (TClass c) = Some DTuple ->
  no_hints o -> no_meta_entry j -> field_source (e_ct E) o j j' ->
  field_values E n f (nested_opts o) j' 0 pre ys -> no_more_input j' (length pre) ->
  nf_default fd = None -> ~ none_allowed fd ->
  snd (load E (S n) f o (Some (TClass c)) j) = Fail (exn_arg KUnfulfilled (nf_name fd)).
Proof.
  intros Hk He Hh Hm Hs Hp Hn Hd Hx. destruct (load_namedtuple_run _ n _ _ _ _ _ _ Hk He Hh Hm Hs) as (d & len & Hv & ->).
  apply wrap_fail_jsons; [|reflexivity]. rewrite (bind_failed _ _ (exn_arg KUnfulfilled (nf_name fd))); [reflexivity|].
  now apply nt_go_missing with j' ys.
Qed.
