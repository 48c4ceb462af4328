(** * Documents that do not fit the target type: proofs *)
From Verif Require Import EngineEnv EngineFacts LoadTypes RoundTripFacts LoadFacts LoadLaws LoadObject.
From Verif Require Export ShapeSpec.
Local Open Scope string_scope.

Lemma elements_iter R j l : elements j l -> py_iter R j = Ok l.
Proof. intros []; reflexivity. Qed.
Lemma not_elements R j : valid_type j = true -> j <> VNone -> (forall l, ~ elements j l) ->
  py_iter R j = raise KType.
Proof.
  intros Hv Hn He. destruct j as [| | | | | |l|k l|k d|x| | |]; try discriminate Hv; try congruence; try reflexivity.
  - exfalso. eapply He. constructor.
  - exfalso. eapply He. constructor.
  - exfalso. eapply He. constructor.
  - destruct k; try discriminate Hv. exfalso. eapply He. constructor.
  - exfalso. eapply He. constructor.
Qed.
Lemma wrap_fails E f t {m : M value} : (exists e, snd m = Fail e /\ is_jsons (e_kind e) = false \/ snd m = Fail (exn_of KDeser)) ->
  snd (wrap_deser (dom r <- m; dom _ <- lift (validate E f r t); ret r)) = Fail (exn_of KDeser).
Proof.
  intros (e & H). unfold wrap_deser, mtry, mbind. destruct m as [l r]. cbn [snd] in H. destruct H as [[-> He]| ->]; cbn [snd fst].
  - rewrite He. reflexivity.
  - reflexivity.
Qed.
Section Shape.
Variables (E : env) (f n : nat) (o : lopts).
Hypothesis DD : default_deserializers E f.
Lemma run_fits t j h : direct t -> no_meta_entry j -> j <> VNone -> valid_type j = true -> class_of j <> t ->
  default_deser (e_ct E) t = Some h ->
  (exists e, snd (deser_step E (load E n) f (child_opts o) h t j) = Fail e /\ is_jsons (e_kind e) = false \/
             snd (deser_step E (load E n) f (child_opts o) h t j) = Fail (exn_of KDeser)) ->
  snd (load E (S n) f o (Some t) j) = Fail (exn_of KDeser).
Proof.
  intros Hd Hm Hn Hv Hc Hh Hf. rewrite (load_run E n f o t j h Hd Hm Hn Hv (or_intror Hc)) by now rewrite (DD t).
  now apply wrap_fails.
Qed.
Lemma class_fits CT t j : plain_hint CT t -> valid_type j = true -> j <> VNone -> class_of j = t -> fits CT t j.
Proof.
  intros _ Hv Hn <-. destruct j as [| | | | | |l|k l|k d|x| | |]; try discriminate Hv; try congruence; cbn [class_of];
    try (constructor; fail).
  - eapply fi_list; [now left|constructor].
  - eapply fi_list; [right; now left|constructor].
  - destruct k; try discriminate Hv. eapply fi_list; [right; right; now left|constructor].
  - destruct k; try discriminate Hv. eapply fi_dict. now left.
Qed.
Lemma dict_head_fails h b args j m : In h dict_heads -> valid_type j = true -> j <> VNone ->
  (forall k d, j <> VDict k d) -> no_meta_entry j ->
  h <> HDefaultDict ->
  exists e, snd (deser_step E (load E m) f (child_opts o) (head_handler h) (TApp b h args) j) = Fail e /\ is_jsons (e_kind e) = false.
Proof.
  intros Hh Hv Hn Hd Hm Hdd.
  assert (head_handler h = DMapping) as ->.
  { destruct Hh as [<-|[<-|[<-|[<-|[]]]]]; try reflexivity. congruence. }
  cbn [deser_step]. unfold deser_mapping.
  assert (Hf : forall a, deser_dict E (load E m) f (child_opts o) a j = fail (exn_of KAttribute)).
  { intros a. destruct j; try reflexivity. exfalso. eapply Hd. reflexivity. }
  destruct (get_args (Some (TApp b h args))) as [|a [|a' [|]]];
    [rewrite bind_lift_ok, Hf|rewrite ?bind_lift_ok|rewrite bind_lift_ok, Hf|]; eexists; split; reflexivity.
Qed.
Lemma list_head_fails h b args j m : In h list_heads -> valid_type j = true -> j <> VNone ->
  (forall l, ~ elements j l) ->
  exists e, snd (deser_step E (load E m) f (child_opts o) (head_handler h) (TApp b h args) j) = Fail e /\ is_jsons (e_kind e) = false.
Proof.
  intros Hh Hv Hn Hl. pose proof (not_elements (e_rt E) j Hv Hn Hl) as Hi.
  destruct Hh as [<-|[<-|[<-|[<-|[<-|[<-|[]]]]]]]; cbn [head_handler deser_step];
    unfold deser_tuple, deser_iterable, deser_list; cbv zeta.
  - rewrite Hi. eexists; split; reflexivity.
  - rewrite Hi. eexists; split; reflexivity.
  - destruct (raw_args (TApp b HSet args)) as [[|a [|]]|]; rewrite ?bind_lift_ok, ?Hi; eexists; split; reflexivity.
  - destruct (raw_args (TApp b HFrozen args)) as [[|a [|]]|]; rewrite ?bind_lift_ok, ?Hi; eexists; split; reflexivity.
  - destruct (raw_args (TApp b HDeque args)) as [[|a [|]]|]; rewrite ?bind_lift_ok, ?Hi; eexists; split; reflexivity.
  - destruct (raw_args (TApp b HIterable args)) as [[|a [|]]|]; rewrite ?bind_lift_ok, ?Hi; eexists; split; reflexivity.
Qed.
Lemma leaf_fails k j m : valid_type j = true -> j <> VNone -> ~ fits (e_ct E) (TLeaf k) j ->
  exists e, snd (deser_step E (load E m) f (child_opts o) (leaf_handler k) (TLeaf k) j) = Fail e /\ is_jsons (e_kind e) = false.
Proof.
  intros Hv Hn Hf.
  assert (Hs : In k [LkDatetime; LkDate; LkTime; LkUUID] -> forall s, j <> VStr s) by (intros Hk s ->; apply Hf; now constructor).
  assert (Hd : In k [LkTimezone; LkComplex; LkZone] -> forall kd d, j <> VDict kd d) by (intros Hk kd d ->; apply Hf; now constructor).
  assert (Hg : (forall kd d, j <> VDict kd d) -> forall x, py_getitem (e_ct E) j (VStr x) = raise KType).
  { intros Hd' x. destruct j as [| | | | | |l|c l|kd d|y| | |]; try reflexivity; try discriminate Hv.
    - destruct c; try discriminate Hv; reflexivity.
    - now destruct (Hd' kd d). }
  assert (Hsf : In k [LkDatetime; LkDate; LkTime; LkUUID] -> forall (g : string -> M value) e0, is_jsons (e_kind e0) = false ->
            exists e, snd (match j with VStr s => g s | _ => fail e0 end) = Fail e /\ is_jsons (e_kind e) = false).
  { intros Hk g e0 He. destruct j; try (eexists; split; [reflexivity|exact He]). exfalso. eapply (Hs Hk). reflexivity. }
  destruct k; cbn [leaf_handler deser_step];
    try (exfalso; apply Hf; constructor; fail);
    try (apply Hsf; [cbn; tauto|reflexivity]).
  - destruct j; try (eexists; split; reflexivity); exfalso; apply Hf; constructor.
  - unfold deser_timezone. rewrite Hg by (apply Hd; cbn; tauto). eexists; split; reflexivity.
  - unfold deser_complex. rewrite Hg by (apply Hd; cbn; tauto). eexists; split; reflexivity.
  - rewrite Hg by (apply Hd; cbn; tauto). eexists; split; reflexivity.
Qed.
Lemma no_items j : valid_type j = true -> (forall k d, j <> VDict k d) -> ~ no_entries j -> obj_items j = raise KType.
Proof.
  intros Hv Hd Hn. destruct j as [| | | |s|l|l|c l|kd d|y| | |]; try reflexivity; try discriminate Hv.
  - destruct s; [|reflexivity]. exfalso. apply Hn. exists []. split; [exact (es_text "")|constructor].
  - destruct l; [|reflexivity]. exfalso. apply Hn. exists []. split; constructor.
  - destruct l; [|reflexivity]. exfalso. apply Hn. exists []. split; constructor.
  - destruct c; try discriminate Hv. destruct l; [|reflexivity]. exfalso. apply Hn. exists []. split; constructor.
  - exfalso. eapply Hd. reflexivity.
Qed.
Lemma object_fails t c j m : cid_of E t = Some c -> obj_items j = raise KType ->
  exists e, snd (deser_step E (load E m) f (child_opts o) DObject t j) = Fail e /\ is_jsons (e_kind e) = false.
Proof.
  intros Hc Hi. cbn [deser_step]. unfold deser_object. rewrite Hc, Hi. eexists; split; reflexivity.
Qed.
End Shape.
Lemma misfit_fails E f n o t j : default_deserializers E f -> plain_hint (e_ct E) t -> t <> TAny ->
  valid_type j = true -> j <> VNone -> no_meta_entry j -> ~ fits (e_ct E) t j ->
  snd (load E (S (S n)) f o (Some t) j) = Fail (exn_of KDeser).
Proof.
  intros DD Ht Ha Hv Hn Hm Hf.
  assert (Hc : class_of j <> t) by (intros Hc; apply Hf; now apply class_fits).
  assert (Hdir : direct t) by (destruct Ht; exact I || congruence).
  destruct Ht as [p| | | |b h args|k|c Hord].
  - exfalso. apply Hf. constructor.
  - eapply run_fits; eauto using deser_none. cbn [deser_step]. exists (exn_of KDeser). right. destruct j; (reflexivity || congruence).
  - congruence.
  - eapply run_fits; eauto using deser_tobject.
    destruct (object_fails E f o TObject (e_object E) j (S n)) as (e & He); [reflexivity| |exists e; now left].
    apply no_items; [exact Hv| |]; [intros k d ->; apply Hf; constructor|intros H; apply Hf; now constructor].
  - destruct (in_dec (fun x y : EngineTypes.head => ltac:(decide equality)) h list_heads) as [Hl|Hl].
    + eapply run_fits; eauto using deser_head. destruct (list_head_fails E f o h b args j (S n) Hl Hv Hn) as (e & He).
      * intros l Hl'. apply Hf. now apply fi_list with l.
      * exists e. now left.
    + assert (Hd : In h dict_heads) by (destruct h; cbn in *; tauto).
      assert (Hnd : forall k d, j <> VDict k d) by (intros k d ->; apply Hf; now constructor).
      destruct (ty_eqb (TApp false h []) (TApp false HDefaultDict [])) eqn:Q.
      * assert (h = HDefaultDict) as -> by (destruct h; (reflexivity || discriminate Q)).
        eapply run_fits; eauto using deser_head. cbn [head_handler deser_step]. unfold deser_defaultdict.
        assert (Hin : forall args', snd (load E (S n) f (child_opts o) (Some (TApp true HDict args')) j) = Fail (exn_of KDeser)).
        { intros args'. eapply run_fits; eauto using deser_head; try exact I.
          - destruct j as [| | | | | |l|kc l|kd d|y| | |]; try discriminate; try (destruct kc; discriminate). now destruct (Hnd kd d).
          - destruct (dict_head_fails E f (child_opts o) HDict true args' j n) as (e & He); auto; [now left|discriminate|].
            exists e. now left. }
        destruct (get_args (Some (TApp b HDefaultDict args))) as [|a [|a' [|]]];
          rewrite ?bind_lift_ok; try (exists (exn_of KValue); left; split; reflexivity);
          (exists (exn_of KDeser); right; rewrite (bind_failed _ _ _ (Hin _)); reflexivity).
      * eapply run_fits; eauto using deser_head.
        destruct (dict_head_fails E f o h b args j (S n)) as (e & He); auto; [intros ->; discriminate Q|]. exists e. now left.
  - eapply run_fits; eauto using deser_leaf. destruct (leaf_fails E f o k j (S n) Hv Hn Hf) as (e & He). exists e. now left.
  - destruct (ci_kind (e_ct E c)) as [|m l|fs] eqn:K.
    + eapply run_fits; eauto using deser_object_class.
      destruct (object_fails E f o (TClass c) c j (S n)) as (e & He); [reflexivity| |exists e; now left].
      apply no_items; [exact Hv| |]; [intros k d ->; apply Hf; now constructor|intros H; apply Hf; now constructor].
    + exfalso. apply Hf. now apply fi_enum with m l.
    + eapply run_fits; eauto using deser_namedtuple_class. cbn [deser_step]. unfold deser_tuple. cbv zeta. rewrite K.
      unfold deser_namedtuple.
      assert (Hi : py_iter (e_rt E) j = raise KType).
      { apply not_elements; auto. intros l Hl. apply Hf. now apply fi_namedtuple with fs l. }
      destruct j; try discriminate Hi; rewrite ?bind_ret_l, Hi; exists (exn_of KType); left; split; reflexivity.
Qed.

(** ** Collections from other documents *)
Lemma collection_run E f n o b h args j l : default_deserializers E f -> In h list_heads -> elements j l ->
  valid_type j = true -> no_meta_entry j ->
  lo_strict o = true \/ class_of j <> TApp b h args /\ (b, h, args) <> (false, HList, []) ->
  load E (S n) f o (Some (TApp b h args)) j = load E (S n) f o (Some (TApp b h args)) (VList l).
Proof.
  intros DD Hh Hl Hv Hm Hs.
  assert (Hh' : e_deser E f (TApp b h args) = Some (head_handler h)) by (rewrite (DD _); apply deser_head).
  rewrite (load_run E n f o (TApp b h args) j (head_handler h) I Hm) by (assumption || tauto || (destruct Hl; discriminate)).
  rewrite (load_run E n f o (TApp b h args) (VList l) (head_handler h) I); auto; [|intros ? ? ? ?; discriminate|discriminate|].
  - f_equal. f_equal. pose proof (elements_iter (e_rt E) _ _ Hl) as Hi.
    destruct Hh as [<-|[<-|[<-|[<-|[<-|[<-|[]]]]]]]; cbn [head_handler deser_step];
      unfold deser_tuple, deser_iterable, deser_list; cbn [py_iter]; rewrite Hi; reflexivity.
  - destruct Hs as [Hs|[_ Hs]]; [now left|right]. cbn [class_of]. congruence.
Qed.
Lemma empty_object E f n o c j : default_deserializers E f -> ordinary (e_ct E c) -> ci_kind (e_ct E c) = CkObj ->
  valid_type j = true -> elements j [] ->
  load E (S n) f o (Some (TClass c)) j = load E (S n) f o (Some (TClass c)) (VDict DkDict []).
Proof.
  intros DD Ho K Hv Hl.
  assert (Hh : e_deser E f (TClass c) = Some DObject) by (rewrite (DD _); now apply deser_object_class).
  assert (Hm : no_meta_entry j).
  { intros k d x -> Hx. inversion Hl as [| | |k0 d0 Q1 Q2|]; subst. destruct d; [contradiction|discriminate]. }
  assert (Hi : obj_items j = Ok []).
  { inversion Hl as [| | |k d Q1 Q|s Q1 Q]; subst; try reflexivity.
    - destruct d; [reflexivity|discriminate].
    - destruct s; [reflexivity|discriminate]. }
  rewrite (load_run E n f o (TClass c) j DObject I Hm); auto;
    [|destruct Hl; discriminate|right; destruct j as [| | | | | |l|kc l|kd d|y| | |]; try discriminate;
      try (destruct kc; discriminate); try (destruct kd; discriminate); discriminate Hv].
  rewrite (load_run E n f o (TClass c) (VDict DkDict []) DObject I); auto; [|intros ? ? ? Q; injection Q as <- <-; intros []|discriminate|right; discriminate].
  f_equal. cbn [deser_step]. unfold deser_object. cbn [cid_of]. rewrite Hi. reflexivity.
Qed.

(** ** Unions of a list and a text *)
Lemma text_as_list E f n o b s : default_deserializers E f -> no_hints o -> lo_warn o = false -> lo_strict o = false ->
  (forall c, accepts E f (TPrim PStr) (VStr (String c ""))) ->
  (forall l, accepts E f (TApp b HList [TPrim PStr]) (VList l)) ->
  snd (load E (S (S n)) f o (Some (TApp b HList [TPrim PStr])) (VStr s)) =
  Done (VList (map (fun c => VStr (String c "")) (list_ascii_of_string s))).
Proof.
  intros DD Hh Hw Hs Ha Hl.
  rewrite (collection_run E f (S n) o b HList [TPrim PStr] _ _ DD (or_introl eq_refl) (es_text s) eq_refl);
    [|intros ? ? ? ?; discriminate|right; split; [discriminate|congruence]].
  apply load_list_done; auto. eexists. split; [|split; [reflexivity|apply Hl]].
  induction (list_ascii_of_string s) as [|c r IH]; cbn [map]; constructor; [|exact IH].
  apply load_typed; [exact I|intros ? ? ? ?; discriminate|]. split; [discriminate|].
  assert (lo_strict (elem_opts o true) = false) as -> by exact Hs. cbn [negb andb class_of ty_eqb].
  split; [reflexivity|apply Ha].
Qed.
Lemma union_text E f n o b ts s : default_deserializers E f -> no_hints o -> lo_warn o = false -> lo_strict o = false ->
  (forall t v, accepts E f t v) ->
  snd (load E (S (S (S n))) f o (Some (TUnion (TApp b HList [TPrim PStr] :: ts))) (VStr s)) =
  Done (VList (map (fun c => VStr (String c "")) (list_ascii_of_string s))).
Proof.
  intros DD Hh Hw Hs Ha. apply load_typed; [exact I|intros ? ? ? ?; discriminate|]. split; [discriminate|].
  cbn [class_of ty_eqb]. rewrite andb_false_r. split; [reflexivity|]. exists DUnion. split; [now rewrite (DD _), deser_tunion|].
  split; [|apply Ha]. cbn [deser_step]. unfold deser_union. cbn [raw_args deser_union_go].
  apply try_done. left. apply text_as_list; auto. right. rewrite (child_nested _ Hh). reflexivity.
Qed.

(** ** Whether a document fits can be decided *)
Lemma elements_dec j : (exists l, elements j l) \/ (forall l, ~ elements j l).
Proof.
  destruct j as [| | | | | |l|k l|k d|x| | |]; try (left; eexists; constructor; fail);
    try (right; intros ? H; inversion H; fail).
  destruct k; try (right; intros ? H; inversion H; fail). left. eexists. constructor.
Qed.
Lemma elements_fun j l l' : elements j l -> elements j l' -> l = l'.
Proof. intros [] H; inversion H; reflexivity. Qed.
Lemma no_entries_dec j : no_entries j \/ ~ no_entries j.
Proof.
  destruct (elements_dec j) as [[l Hl]|H].
  - assert (Hd : Forall (eq (VStr "-meta")) l \/ ~ Forall (eq (VStr "-meta")) l).
    { clear Hl. induction l as [|x l IH]; [left; constructor|].
      assert (VStr "-meta" = x \/ VStr "-meta" <> x) as [Hx|Hx].
      { destruct x; try (right; discriminate). destruct (string_dec "-meta" s) as [->|Hs]; [now left|right; congruence]. }
      - destruct IH; [left; now constructor|right]. intros Q. now inversion Q.
      - right. intros Q. now inversion Q. }
    destruct Hd as [Hd|Hd]; [left; now exists l|right]. intros (l' & Hl' & H). now rewrite (elements_fun _ _ _ Hl Hl') in Hd.
  - right. intros (l & Hl & _). now apply (H l).
Qed.
Lemma dict_dec j : (exists k d, j = VDict k d) \/ (forall k d, j <> VDict k d).
Proof. destruct j; try (right; discriminate). left. eauto. Qed.
Lemma fits_dec CT t j : fits CT t j \/ ~ fits CT t j.
Proof.
  destruct t as [p| | | |b h args| | | | | |k|c| | | ]; try (right; intros H; inversion H; fail).
  - left. constructor.
  - destruct (dict_dec j) as [(k & d & ->)|Hd]; [left; constructor|].
    destruct (no_entries_dec j) as [Hn|Hn]; [left; now constructor|right]. intros H. inversion H; subst; [eapply Hd; reflexivity|contradiction].
  - destruct (elements_dec j) as [[l Hl]|Hl].
    + destruct (dict_dec j) as [(k & d & ->)|Hd].
      * left. destruct h; (eapply fi_list; [cbn; tauto|exact Hl]) || (apply fi_dict; cbn; tauto).
      * destruct h; try (left; eapply fi_list; [cbn; tauto|exact Hl]);
          right; intros H; inversion H; subst;
          solve [match goal with Q : In _ list_heads |- _ => cbn in Q; intuition discriminate end|eapply Hd; reflexivity].
    + right. intros H. inversion H; subst; [eapply Hl; eassumption|eapply Hl; constructor].
  - destruct k, j; try (left; constructor; cbn; tauto); right; intros H; inversion H; subst;
      match goal with Q : In _ _ |- _ => cbn in Q; intuition discriminate end.
  - destruct (ci_kind (CT c)) as [|m l|fs] eqn:K.
    + destruct (dict_dec j) as [(k & d & ->)|Hd]; [left; now constructor|].
      destruct (no_entries_dec j) as [Hn|Hn]; [left; now constructor|right].
      intros H. inversion H; subst; try congruence; try contradiction; eapply Hd; reflexivity.
    + left. now apply fi_enum with m l.
    + destruct (elements_dec j) as [[l Hl]|Hl]; [left; now apply fi_namedtuple with fs l|].
      destruct fs; [left; now apply fi_no_fields|right]. intros H. inversion H; subst; try congruence; try (eapply Hl; eassumption); rewrite K in *; discriminate.
Qed.
