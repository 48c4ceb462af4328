(** * C65: errors name what failed *)
From Coq Require Import Lia.
From Verif Require Import EngineEnv EngineFacts LoadFacts LoadTypes PropRoundTrip ErrorModel ErrorSpec ErrorProofs ErrorLaws.
Local Open Scope string_scope.

(** Source and target are all that is new in the model of the errors: effects, results and
    exceptions are those of [load]. *)
Theorem C65_same_load : forall E n f o cls j,
  fst (xload E n f o cls j) = fst (load E n f o cls j) /\
  (forall v, snd (xload E n f o cls j) = XDone v <-> snd (load E n f o cls j) = Done v) /\
  (forall e, (exists at_, snd (xload E n f o cls j) = XFail (mkErr e at_)) <-> snd (load E n f o cls j) = Fail e).
Proof.
  intros E n f o cls j. rewrite <- erase_load. unfold erase. destruct (xload E n f o cls j) as [evs [v|[e at_]|]]; cbn [fst snd er_exn].
  - split; [reflexivity|]. split; [intros w; split; intros [= ->]; reflexivity|]. intros e. split; [intros (? & ?); discriminate|discriminate].
  - split; [reflexivity|]. split; [intros w; split; discriminate|]. intros e'. split; [intros (? & [= -> ->]); reflexivity|]. intros [= ->]. eauto.
  - split; [reflexivity|]. split; [intros w; split; discriminate|]. intros e'. split; [intros (? & ?); discriminate|discriminate].
Qed.

(** If the error of load(j, cls) has a source and a target, then the source was to be loaded as
    the target in the course of load(j, cls), and loading it on its own fails with the same
    error, but for the indices of list elements. *)
Definition key_transformer_of (o : lopts) : value -> res value :=
  match lo_kt o with Some g => g | None => fun k => Ok k end.
Theorem C65_source_and_target : forall E n f o cls j x, snd (xload E n f o cls j) = XFail x ->
  blames E (key_transformer_of o) (asked E (key_transformer_of o) f cls j) x.
Proof.
  intros E n f o cls j x H. eapply load_errors; [|exact H]. intros h k k' Hk Hh. right. unfold key_transformer_of. now rewrite Hk.
Qed.
(** All DeserializationErrors have a source and a target; UnfulfilledArgumentErrors and
    SignatureMismatchErrors name an argument: a required parameter that the source lacks, and a
    key of the source that is no parameter. *)
Theorem C65_explained : forall E n f o cls j x, polite E -> polite_options o ->
  snd (xload E n f o cls j) = XFail x -> explained E x.
Proof.
  intros E n f o cls j x HE Ho H. eapply (load_errors E (key_transformer_of o)); [|exact H|exact HE|exact Ho].
  intros h k k' Hk Hh. right. unfold key_transformer_of. now rewrite Hk.
Qed.

(** Unions blame the whole object and the Union, whatever the members say. *)
Theorem C65_union : forall E n f o ts j x, e_deser E f (TUnion ts) = Some DUnion -> no_meta_entry j ->
  snd (xload E (S n) f o (Some (TUnion ts)) j) = XFail x -> deserialization_error (er_exn x) ->
  x = mkErr (exn_of KDeser) (Some (j, Some (TUnion ts))).
Proof.
  intros E n f o ts j x Hh Hn H Hd. cbn [xload] in H. unfold xload_step in H.
  assert (Hv : forall v t, snd (xlift (validate E f v t)) = XFail x -> False).
  { intros v t Hx. apply xlift_fail in Hx as (e & He & ->). eapply nd_validate; [exact He|exact Hd]. }
  apply xbind_fail in H as [H|(a & _ & H)].
  { destruct (is_none j); [|discriminate]. apply xbind_fail in H as [H|(b & _ & H)].
    - apply xlift_fail in H as (e & He & ->). exfalso. eapply nd_can_match_none; [exact He|exact Hd].
    - destruct b; [discriminate|]. now injection H as <-. }
  destruct (_ || _)%bool.
  { apply xbind_fail in H as [H|(b & _ & H)]; [|discriminate]. exfalso. eapply Hv; exact H. }
  apply xbind_fail in H as [H|(cls1 & Hc & H)]; [discriminate|]. injection Hc as <-.
  destruct (valid_type j); cbn [negb] in H; [|now injection H as <-].
  rewrite (no_meta_get E f j Hn) in H. apply xbind_fail in H as [H|(mh & Hm & H)]; [discriminate|]. injection Hm as <-. cbn [fst] in H.
  replace (determine_precedence (Some (TUnion ts)) None (Some (class_of j)) (lo_inferred o)) with (Some (TUnion ts)) in H by (unfold determine_precedence; now destruct (lo_inferred o)).
  rewrite Hh in H. cbv zeta in H. unfold xwrap in H. apply xtry_fail in H as (e & He & H). destruct (is_jsons _) eqn:Ej; [|now injection H as <-].
  injection H as <-. apply xbind_fail in He as [He|(r & _ & He)]; [|apply xbind_fail in He as [He|(u & _ & He)]; [exfalso; eapply Hv; exact He|discriminate]].
  cbn [xdeser_step] in He. unfold xdeser_union in He. cbn [raw_args] in He.
  assert (Hgo : forall us, snd (xunion_go (xload E n) f (set_inferred (changed (TUnion ts) (Some (TUnion ts))) (set_hints (Some (match lo_hints o with Some h => h | None => [] end)) o)) (TUnion ts) j us) = XFail e ->
    e = mkErr (exn_of KDeser) (Some (j, Some (TUnion ts)))).
  { induction us as [|u us IH]; intros Hu; cbn [xunion_go] in Hu; [now injection Hu as <-|].
    apply xtry_fail in Hu as (e1 & H1 & Hu). destruct (is_jsons (e_kind (er_exn e1))) eqn:E1; [now apply IH|]. injection Hu as <-. congruence. }
  now apply Hgo in He.
Qed.
(** The first element of a list that cannot be loaded: its source and its target are those of the
    whole error, and its index is the first of the indices. *)
Theorem C65_element : forall E n f o b t l1 y l2 x,
  e_deser E f (TApp b HList [t]) = Some DList -> no_hints o -> lo_warn o = false ->
  (forall z, In z l1 -> exists v, snd (load E n f (elem_opts o true) (Some t) z) = Done v) ->
  snd (xload E n f (elem_opts o true) (Some t) y) = XFail x -> deserialization_error (er_exn x) ->
  snd (xload E (S n) f o (Some (TApp b HList [t])) (VList (l1 ++ y :: l2)%list)) =
  XFail (mkErr (at_indices [length l1] (er_exn x)) (er_at x)).
Proof.
  intros E n f o b t l1 y l2 x Hh Ho Hw H1 Hx Hd. cbn [xload]. unfold xload_step.
  assert (Hsame : (negb (lo_strict o) && same_type (VList (l1 ++ y :: l2)%list) (Some (TApp b HList [t])) || false)%bool = false).
  { rewrite orb_false_r. cbn. now rewrite !andb_false_r. }
  cbn [is_none]. unfold xbind at 1. cbn [fst snd xret]. rewrite Hsame.
  unfold xbind at 1. cbn [fst snd xret valid_type negb get_cls_and_meta xresolved]. unfold xbind at 1. cbn [fst snd xret].
  replace (determine_precedence (Some (TApp b HList [t])) None (Some (class_of (VList (l1 ++ y :: l2)%list))) (lo_inferred o)) with (Some (TApp b HList [t]))
    by (unfold determine_precedence; now destruct (lo_inferred o)).
  rewrite Hh. cbv zeta.
  set (o' := set_inferred _ _).
  assert (Ho' : set_warn false (set_inferred true o') = elem_opts o true).
  { unfold o', elem_opts, set_warn, set_inferred, set_hints. cbn. destruct Ho as [->| ->]; reflexivity. }
  assert (Hgo : forall i, snd (xlist_go E (xload E n) f (elem_opts o true) false (Some t) i (l1 ++ y :: l2)%list) =
    XFail (mkErr (mkExn KDeser (e_arg (er_exn x)) (i + length l1 :: e_idx (er_exn x)) false (e_msg (er_exn x))) (er_at x))).
  { clear Hsame. induction l1 as [|z l1 IH]; intros i; cbn [app xlist_go]; cbv zeta.
    - rewrite Hx. rewrite (proj2 (is_deser_spec _) Hd). cbn [length]. now rewrite Nat.add_0_r.
    - destruct (H1 z (or_introl eq_refl)) as (v & Hz). apply (C65_same_load E n f _ (Some t) z) in Hz. rewrite Hz.
      unfold xbind at 1. cbn [fst snd]. unfold xbind at 1. rewrite IH by (intros w Hw'; apply H1; now right). cbn [fst snd length].
      replace (i + S (length l1)) with (S i + length l1) by lia. reflexivity. }
  assert (Hstep : snd (xdeser_step E (xload E n) f o' DList (TApp b HList [t]) (VList (l1 ++ y :: l2)%list)) =
    XFail (mkErr (at_indices [length l1] (er_exn x)) (er_at x))).
  { cbn [xdeser_step get_args raw_args]. unfold xdeser_list. cbv zeta. cbn [py_iter xlift hd_error]. rewrite Ho'.
    replace (lo_warn o') with false by (symmetry; exact Hw).
    unfold xbind. cbn [fst snd xret]. rewrite (Hgo 0). reflexivity. }
  unfold xwrap. unfold xtry, xbind. rewrite Hstep. cbn [fst snd at_indices er_exn e_kind is_jsons xraise]. reflexivity.
Qed.

(** ** Instances *)
Lemma nd_take_params ps : forall args, no_deser (take_params ps args).
Proof. induction ps as [|p ps IH]; intros args; cbn [take_params]; nd; apply IH. Qed.
Lemma nd_init_of ps args : no_deser (init_of ps args).
Proof. unfold init_of. nd. apply nd_take_params. Qed.
Lemma demo_polite : polite demo_env.
Proof.
  constructor; intros; try (now apply nd_raise); try (apply nd_ok).
  - destruct c as [|[|[|[|[|c]]]]]; try apply nd_init_of; now apply nd_raise.
  - destruct c as [|[|[|[|[|c]]]]]; try apply nd_ok; now apply nd_raise.
  - cbn in H. injection H as <-. reflexivity.
Qed.
Definition bad_mary : value := str_dict [("age", VStr "x"); ("name", VStr "Mary")].
Definition bad_group : value := str_dict [("lead", VNone); ("members", VList [john_doc; bad_mary])].
(** The age of the second member of a Group: "x" is to be an int. *)
Example C65_age_ex : snd (xload demo_env 20 0 lopts0 (Some (TClass 2)) bad_group) =
  XFail (mkErr (mkExn KDeser None [1] false "") (Some (VStr "x", Some (TPrim PInt)))).
Proof. vm_compute. reflexivity. Qed.
Example C65_age_explained : explained demo_env (mkErr (mkExn KDeser None [1] false "") (Some (VStr "x", Some (TPrim PInt)))) /\
  blames demo_env (fun k => Ok k) (asked demo_env (fun k => Ok k) 0 (Some (TClass 2)) bad_group)
    (mkErr (mkExn KDeser None [1] false "") (Some (VStr "x", Some (TPrim PInt)))).
Proof.
  split; [refine (C65_explained _ _ _ _ _ _ _ demo_polite _ C65_age_ex); split; [intros a r []|discriminate]|].
  exact (C65_source_and_target _ _ _ _ _ _ _ C65_age_ex).
Qed.
Example C65_element_ex : e_deser demo_env 0 (TApp true HList [TClass 1]) = Some DList /\ no_hints lopts0 /\ lo_warn lopts0 = false /\
  (forall z, In z [john_doc; mary_doc] -> exists v, snd (load demo_env 9 0 (elem_opts lopts0 true) (Some (TClass 1)) z) = Done v) /\
  snd (xload demo_env 9 0 (elem_opts lopts0 true) (Some (TClass 1)) bad_mary) =
  XFail (mkErr (exn_of KDeser) (Some (VStr "x", Some (TPrim PInt)))).
Proof.
  split; [vm_compute; reflexivity|]. split; [now left|]. split; [reflexivity|]. split; [|vm_compute; reflexivity].
  intros z [<-|[<-|[]]]; eexists; vm_compute; reflexivity.
Qed.
(** A Person without a name, and one with an address in strict mode *)
Example C65_missing_ex : snd (xload demo_env 20 0 lopts0 (Some (TClass 1)) (str_dict [("age", VInt 3)])) =
  XFail (mkErr (exn_arg KUnfulfilled "name") (Some (str_dict [("age", VInt 3)], Some (TClass 1)))).
Proof. vm_compute. reflexivity. Qed.
Example C65_unexpected_ex :
  snd (xload demo_env 20 0 (mkLopts true [] None None false false None) (Some (TClass 1)) (str_dict [("name", VStr "A"); ("address", VInt 3)])) =
  XFail (mkErr (exn_arg KSignature "address") (Some (str_dict [("name", VStr "A"); ("address", VInt 3)], Some (TClass 1)))).
Proof. vm_compute. reflexivity. Qed.
(** The lead of a Group is Optional: the error is that of the Union, and "x" is not mentioned. *)
Example C65_union_ex : snd (xload demo_env 20 0 lopts0 (Some (TClass 2)) (str_dict [("lead", bad_mary); ("members", VList [])])) =
  XFail (mkErr (exn_of KDeser) (Some (bad_mary, Some (TUnion [TClass 1; TNoneT])))).
Proof. vm_compute. reflexivity. Qed.

(** ** What does not hold *)
(** "The source of an error is a part of the document": not with a key transformer. *)
Definition to_name (k : value) : res value := match k with VStr "years" => Ok (VStr "age") | _ => Ok k end.
Theorem C65_source_is_a_part_refuted : exists E n f o cls j x src tgt,
  snd (xload E n f o cls j) = XFail x /\ er_at x = Some (src, tgt) /\ deserialization_error (er_exn x) /\
  src <> j /\ (forall k, ~ entry j k src) /\ (forall i, ~ element j i src).
Proof.
  exists demo_env, 20, 0, (mkLopts false [] (Some to_name) None false false None), (Some (TClass 1)), (str_dict [("years", VInt 3)]),
    (mkErr (exn_arg KUnfulfilled "name") (Some (str_dict [("age", VInt 3)], Some (TClass 1)))), (str_dict [("age", VInt 3)]), (Some (TClass 1)).
  split; [vm_compute; reflexivity|]. split; [reflexivity|]. split; [cbn; auto|]. split; [discriminate|]. split.
  - intros k (dk & d & H & Hin). injection H as <- <-. destruct Hin as [Hin|[]]. discriminate Hin.
  - intros i H. inversion H as [| | |? ? ? ? ? Hn|]; subst. destruct i as [|[|i]]; discriminate Hn.
Qed.
(** "The target of an error is the type that was given, or one that it mentions": for stored keys
    without the types of the keys, it is Mapping. *)
Theorem C65_target_of_dict_refuted : exists E n f o j x src,
  snd (xload E n f o (Some (TApp false HDict [])) j) = XFail x /\ er_at x = Some (src, Some (TApp false HMapping [])).
Proof.
  exists demo_env, 20, 0, (mkLopts true [] None None false false None), (str_dict [("7", VInt 1); ("-keys", str_dict [("7", VList [])])]). eexists. eexists.
  split; [vm_compute; reflexivity|reflexivity].
Qed.
(** An UnfulfilledArgumentError of an element of a list arrives as a plain DeserializationError. *)
Theorem C65_element_kind_refuted : exists E n f o t y x,
  snd (xload E n f (elem_opts o true) (Some t) y) = XFail x /\ e_kind (er_exn x) = KUnfulfilled /\
  exists x', snd (xload E (S n) f o (Some (TApp true HList [t])) (VList [y])) = XFail x' /\ e_kind (er_exn x') = KDeser /\ er_at x' = er_at x.
Proof.
  exists demo_env, 20, 0, lopts0, (TClass 1), (str_dict []). eexists. split; [vm_compute; reflexivity|]. split; [reflexivity|].
  eexists. split; [vm_compute; reflexivity|]. split; reflexivity.
Qed.

Print Assumptions C65_same_load.
Print Assumptions C65_source_and_target.
Print Assumptions C65_explained.
Print Assumptions C65_union.
Print Assumptions C65_element.
