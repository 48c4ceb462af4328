(** * Enum members and named tuples, dumped and loaded: proofs *)
From Verif Require Import PyBaseFacts DumpProofs DumpLaws LoadFacts LoadLaws LoadTypes LeafLaws LoadObject.
From Verif Require Export RoundTripProofs.
Local Close Scope Z_scope.
Local Open Scope string_scope.

(** ** The whole theorem, unfolded *)
Theorem roundtrip E f g o t v :
  default_serializers E f -> default_deserializers E g -> exact_dump o -> has_type E g o t v ->
  exists j N, (plain_input j /\ json_data j) /\ forall n m cls lo, N <= n -> N <= m -> cls = None \/ cls = Some t -> exact_load lo ->
    snd (dump E f n o cls v) = Done j /\ snd (load E m g lo (Some t) j) = Done v.
Proof.
  intros HS HD He Ht. destruct (has_type_passes E f g o HS HD t v Ht) as (j & Hp & _ & N & HN).
  exists j, N. split; [exact Hp|]. intros n m cls lo Hn Hm Hc Hl. split.
  - apply exact_near in He as [He Hq]. apply (proj1 (HN n Hn)); auto. repeat split.
  - now apply (proj2 (HN m Hm)).
Qed.

(** ** Enums *)
Lemma dump_member E f n o cls c m ms nm x :
  default_serializers E f -> ci_kind (e_ct E c) = CkEnum m ms -> ordinary (e_ct E c) ->
  cls = None \/ cls = Some (TClass c) -> sget nm ms = Some x ->
  snd (dump E f (S n) o cls (VEnum c nm)) = Done (if so_enum_name o then VStr nm else x).
Proof.
  intros HS HK HO Hc Hx. apply dump_done_iff.
  assert (Hs : serializer E f cls (VEnum c nm) = Some SEnum).
  { unfold serializer. rewrite !HS. destruct Hc as [-> | ->]; cbn [tyof class_of]; apply ser_enumeration with m ms; auto. }
  rewrite Hs. cbn [serialize]. cbn [ser_step]. apply lift_done.
  destruct (so_enum_name o); [reflexivity|]. cbn [get_attr].
  change (String.eqb "value" "name") with false. change (String.eqb "value" "value") with true. cbv iota.
  unfold enum_members. now rewrite HK, Hx.
Qed.
(** What stands for a member in the input *)
Lemma load_member E n f o c m ms j :
  default_deserializers E f -> ci_kind (e_ct E c) = CkEnum m ms -> ordinary (e_ct E c) ->
  no_meta_entry j -> j <> VNone -> valid_type j = true ->
  snd (load E (S n) f o (Some (TClass c)) j) =
  load_result E f (TClass c) (deser_enum (e_ct E) (lo_enum_name o) (TClass c) j).
Proof.
  intros HD HK HO Hm Hn Hv.
  rewrite (load_run E n f o (TClass c) j DEnum); auto; [|exact I| |].
  - cbn [deser_step]. apply wrap_lift.
  - right. intros Hc. destruct j as [| | | | | | |[]|[]| | | |]; try discriminate; cbn in Hc; discriminate.
  - rewrite HD. now apply deser_enumeration with m ms.
Qed.
Lemma member_by_name E n f o c m ms nm :
  default_deserializers E f -> ci_kind (e_ct E c) = CkEnum m ms -> ordinary (e_ct E c) ->
  canonical_member ms nm -> accepts E f (TClass c) (VEnum c nm) -> lo_enum_name o <> Some false ->
  snd (load E (S n) f o (Some (TClass c)) (VStr nm)) = Done (VEnum c nm).
Proof.
  intros HD HK HO HC Ha Ho. rewrite (load_member E n f o c m ms (VStr nm) HD HK HO); [|intros ? ? ? H; discriminate|discriminate|reflexivity].
  destruct (canonical_get ms nm HC) as (y & Hy & Hcan).
  assert (Hb : enum_by_name (e_ct E) c (VStr nm) = Ok (VEnum c nm)).
  { unfold enum_by_name, enum_members. rewrite HK. cbn [hashable negb]. now rewrite Hy, Hcan. }
  unfold deser_enum. destruct (lo_enum_name o) as [[]|]; [|now elim Ho|]; rewrite Hb; now apply load_result_ok.
Qed.
Lemma member_by_value E n f o c m ms nm x :
  default_deserializers E f -> ci_kind (e_ct E c) = CkEnum m ms -> ordinary (e_ct E c) ->
  canonical_member ms nm -> sget nm ms = Some x -> no_meta_entry x -> x <> VNone -> valid_type x = true ->
  accepts E f (TClass c) (VEnum c nm) -> lo_enum_name o = Some false ->
  snd (load E (S n) f o (Some (TClass c)) x) = Done (VEnum c nm).
Proof.
  intros HD HK HO HC Hx Hm Hn Hv Ha Ho. rewrite (load_member E n f o c m ms x HD HK HO Hm Hn Hv), Ho.
  destruct (canonical_get ms nm HC) as (y & Hy & Hcan). rewrite Hx in Hy. injection Hy as <-.
  cbn [deser_enum]. unfold enum_by_value, enum_members. rewrite HK, Hcan. now apply load_result_ok.
Qed.
Lemma canonical_In ms x nm : canonical ms x = Some nm -> exists y, In (nm, y) ms /\ py_eqb y x = true.
Proof.
  unfold canonical. destruct (find (fun nv => py_eqb (snd nv) x) ms) as [[a y]|] eqn:F; [|discriminate].
  cbn. intros H. injection H as ->. apply find_some in F as [H1 H2]. eauto.
Qed.
Lemma sget_unique {A} (l : list (string * A)) a x y : NoDup (map fst l) -> sget a l = Some x -> In (a, y) l -> y = x.
Proof.
  unfold sget. induction l as [|[b z] l IH]; intros Hn Hs Hin; [destruct Hin|]. cbn in Hn, Hs.
  inversion Hn as [|? ? Hnot Hn']; subst. destruct (String.eqb_spec a b) as [->|Hne].
  - injection Hs as ->. destruct Hin as [Heq|Hin]; [now injection Heq|]. apply (in_map fst) in Hin. contradiction.
  - destruct Hin as [Heq|Hin]; [injection Heq as -> _; contradiction|]. now apply IH.
Qed.
Lemma member_by_default E n f o c m ms nm x :
  default_deserializers E f -> ci_kind (e_ct E c) = CkEnum m ms -> ordinary (e_ct E c) -> NoDup (map fst ms) ->
  canonical_member ms nm -> sget nm ms = Some x -> no_meta_entry x -> x <> VNone -> valid_type x = true ->
  accepts E f (TClass c) (VEnum c nm) -> lo_enum_name o = None -> hashable (e_ct E) x = true ->
  (snd (load E (S n) f o (Some (TClass c)) x) = Done (VEnum c nm) <->
   forall s y, x = VStr s -> sget s ms = Some y -> y = x).
Proof.
  intros HD HK HO HU HC Hx Hm Hn Hv Ha Ho Hh. rewrite (load_member E n f o c m ms x HD HK HO Hm Hn Hv), Ho.
  destruct (canonical_get ms nm HC) as (y & Hy & Hcan). rewrite Hx in Hy. injection Hy as <-.
  cbn [deser_enum]. unfold enum_by_name, enum_by_value, enum_members. rewrite HK, Hh. cbn [negb].
  assert (Hdef : load_result E f (TClass c) (match canonical ms x with Some n => Ok (VEnum c n) | None => raise KValue end) = Done (VEnum c nm)).
  { rewrite Hcan. now apply load_result_ok. }
  destruct x as [| | | |s| | | | | | | |]; try (split; [intros _ ? ? ?; discriminate|intros _; exact Hdef]).
  destruct (sget s ms) as [y|] eqn:Hs; [|split; [intros _ s' y' [= <-] Hy'; congruence|intros _; exact Hdef]].
  destruct (canonical ms y) as [n'|] eqn:Hn'.
  - split.
    + intros H. apply load_result_ok in H as [H _]. injection H as ->. intros s' y' [= <-] Hy'.
      rewrite Hs in Hy'. injection Hy' as <-. apply canonical_In in Hn' as (u & Hin & Hu).
      rewrite (sget_unique ms nm (VStr s) u HU Hx Hin) in Hu. now apply py_eqb_str.
    + intros H. rewrite (H s y eq_refl Hs) in Hn'. rewrite Hcan in Hn'. injection Hn' as <-. now apply load_result_ok.
  - exfalso. unfold canonical in Hn'. destruct (find _ _) eqn:F; [discriminate|]. apply sget_In in Hs.
    apply (find_none _ _ F) in Hs. cbn in Hs. now rewrite py_eqb_refl in Hs.
Qed.
(** An unhashable value is looked up as a name first, which fails. *)
Lemma member_unhashable E n f o c m ms x :
  default_deserializers E f -> ci_kind (e_ct E c) = CkEnum m ms -> ordinary (e_ct E c) ->
  no_meta_entry x -> x <> VNone -> valid_type x = true -> lo_enum_name o = None -> hashable (e_ct E) x = false ->
  snd (load E (S n) f o (Some (TClass c)) x) = Fail (exn_of KDeser).
Proof.
  intros HD HK HO Hm Hn Hv Ho Hh. rewrite (load_member E n f o c m ms x HD HK HO Hm Hn Hv), Ho.
  cbn [deser_enum]. unfold enum_by_name. rewrite Hh. reflexivity.
Qed.

(** ** Named tuples with None in them *)
Lemma nt_go_none E n f o j j' d len fd post : nt_view j j' d len -> ~ none_allowed fd ->
  forall pre i ys, field_values E n f o j' i pre ys -> field_input j' (i + length pre) fd VNone ->
  snd (deser_nt_go E (load E n) f o j d len i (pre ++ fd :: post)) = Fail (exn_arg KUnfulfilled (nf_name fd)).
Proof.
  intros Hj Hn. induction pre as [|p pre IH]; intros i ys Hp Hm.
  - cbn [app deser_nt_go]. cbn [length] in Hm. rewrite Nat.add_0_r in Hm.
    assert (Hx : (if Nat.ltb i len then
                       match d with
                       | Some d => match dget (VStr (nf_name fd)) d with
                                   | Some x => Ok x
                                   | None => raise KKey
                                   end
                       | None => py_getitem (e_ct E) j (VInt (Z.of_nat i))
                       end
                     else Ok (match nf_default fd with Some x => x | None => VNone end)) = Ok VNone).
    { apply (nt_field_input (e_ct E) j j' d len i fd VNone Hj). now left. }
    rewrite Hx, bind_lift_ok. cbn [is_none andb].
    destruct (existsb _ _) eqn:Ex; [exfalso; now apply Hn, none_allowed_b|]. reflexivity.
  - inversion Hp as [|i' fd' fds x y ys' H1 H2 H3 H4]; subst.
    cbn [app deser_nt_go].
    assert (Hg : snd (deser_nt_go E (load E n) f o j d len i [p]) = Done [y]).
    { apply (nt_go_done _ _ _ _ _ _ _ _ Hj). econstructor; eauto. constructor. }
    cbn [deser_nt_go] in Hg. apply bind_done in Hg as (x' & Hx & Hg). apply bind_done in Hg as ([] & Hg1 & Hg).
    apply bind_done in Hg as (y' & Hy & Hg).
    rewrite (bind_events _ _ _ Hx). cbn [snd]. rewrite (bind_events _ _ _ Hg1). cbn [snd]. rewrite (bind_events _ _ _ Hy). cbn [snd].
    rewrite (bind_failed _ _ (exn_arg KUnfulfilled (nf_name fd))); [reflexivity|].
    apply IH with ys'; [exact H4|]. cbn [length] in Hm. now replace (S i + length pre) with (i + S (length pre)) by lia.
Qed.
Lemma load_namedtuple_none E n f o c pre fd post j j' ys :
  ci_kind (e_ct E c) = CkNT (pre ++ fd :: post) -> e_deser E f (TClass c) = Some DTuple ->
  no_hints o -> no_meta_entry j -> field_source (e_ct E) o j j' ->
  field_values E n f (nested_opts o) j' 0 pre ys -> field_input j' (length pre) fd VNone -> ~ none_allowed fd ->
  snd (load E (S n) f o (Some (TClass c)) j) = Fail (exn_arg KUnfulfilled (nf_name fd)).
Proof.
  intros Hk He Hh Hm Hs Hp Hn Hx. destruct (load_namedtuple_run _ n _ _ _ _ _ _ Hk He Hh Hm Hs) as (d & len & Hv & ->).
  apply wrap_fail_jsons; [|reflexivity]. rewrite (bind_failed _ _ (exn_arg KUnfulfilled (nf_name fd))); [reflexivity|].
  now apply nt_go_none with j' ys.
Qed.
(** A None that its field does not admit does not come back: it is dumped as None. *)
Lemma dump_untyped_none E f n o d : default_serializers E f -> snd (dump E f n o None VNone) = Done d -> d = VNone.
Proof.
  intros HS H. destruct n as [|n]; [discriminate|]. apply dump_done_iff in H.
  assert (Hs : serializer E f None VNone = Some SPrimitive) by (unfold serializer; rewrite HS; apply ser_none).
  rewrite Hs in H. cbn [serialize] in H. cbn [ser_step] in H. now injection H as <-.
Qed.
Lemma namedtuple_none_lost E f g n m o lo c fields l fd j :
  default_serializers E f -> default_deserializers E g -> exact_load lo ->
  ci_kind (e_ct E c) = CkNT fields -> ordinary (e_ct E c) ->
  NoDup (map nf_name fields) -> (forall fd, In fd fields -> attribute_name (nf_name fd)) ->
  length fields = length l -> In (fd, VNone) (combine fields l) -> ~ none_allowed fd ->
  snd (dump E f n o None (VNT c l)) = Done j ->
  forall v, snd (load E m g lo (Some (TClass c)) j) <> Done v.
Proof.
  intros HS HD He HK HO Hnd Hnm Hlen Hin Hh Hdump v Hload.
  destruct n as [|n]; [discriminate|]. destruct m as [|m]; [discriminate|].
  apply dump_done_iff in Hdump.
  assert (Hs : serializer E f None (VNT c l) = Some STuple).
  { unfold serializer. rewrite !HS. cbn [tyof class_of]. apply ser_namedtuple_class with fields; auto. }
  rewrite Hs in Hdump. cbn [serialize] in Hdump. cbn [ser_step] in Hdump. cbn [ser_tuple] in Hdump.
  assert (Hn : snd (ser_namedtuple E f (serialize E f n) o c (VNT c l)) = Done j) by exact Hdump. clear Hdump.
  unfold ser_namedtuple in Hn. apply bind_done in Hn as (d & Hd & Hj). injection Hj as <-.
  apply mmap_done in Hd. unfold nt_fields in Hd. rewrite HK in Hd.
  assert (HF : exists js, d = combine (map VStr (map nf_name fields)) js /\
    Forall2 (fun fd jx => exists x, get_attr E (VNT c l) (nf_name fd) = Ok x /\ snd (dump E f n o None x) = Done jx) fields js).
  { clear -Hd. revert d Hd. generalize (VNT c l) as w. intros w. induction fields as [|fd fields IH]; intros d Hd.
    - inversion Hd; subst. exists []. split; [reflexivity|constructor].
    - cbn [map] in Hd. inversion Hd as [|? kx ? d' Hx Hd']; subst. destruct (IH d' Hd') as (js & -> & HF).
      apply bind_done in Hx as (x & Hx & H). apply lift_done in Hx. apply bind_done in H as (jx & Hjx & H). injection H as <-.
      exists (jx :: js). split; [reflexivity|]. constructor; [|exact HF]. exists x. auto. }
  destruct HF as (js & -> & HF). pose proof (Forall2_len _ _ _ HF) as Hjl.
  assert (Hsd : string_dict (combine (map VStr (map nf_name fields)) js)) by (apply names_string_dict; auto; now rewrite map_length).
  destruct (combine_In fields js fd Hjl (in_combine_l _ _ _ _ Hin)) as (jx & Hjx).
  assert (Hjn : jx = VNone).
  { destruct (Forall2_combine _ _ _ _ _ HF Hjx) as (x & Hx & Hdx).
    unfold get_attr, nt_get, nt_fields in Hx. rewrite HK, (sget_combine nf_name fields l fd VNone Hnd Hin) in Hx. injection Hx as <-.
    now apply dump_untyped_none in Hdx. }
  subst jx.
  assert (Hget : dget (VStr (nf_name fd)) (combine (map VStr (map nf_name fields)) js) = Some VNone).
  { destruct Hsd as [Hk Hn]. apply dget_string; [|exact Hn|].
    - intros k Hki. apply in_map_iff in Hki as ([k' x'] & <- & Hki). cbn. eauto.
    - rewrite map_map. now apply (combine_map_l (fun fd => VStr (nf_name fd))). }
  assert (Hm : no_meta_entry (VDict DkDict (combine (map VStr (map nf_name fields)) js))).
  { intros k d x Heq Hkin. injection Heq as <- <-. apply in_combine_l in Hkin. apply in_map_iff in Hkin as (a & Ha & Hain).
    injection Ha as ->. apply in_map_iff in Hain as (fd' & Hfd & Hfin). specialize (Hnm fd' Hfin). rewrite Hfd in Hnm. discriminate. }
  assert (Hld : length (combine (map VStr (map nf_name fields)) js) = length fields).
  { rewrite combine_length, !map_length. lia. }
  set (d := combine (map VStr (map nf_name fields)) js) in *.
  apply (load_namedtuple_done E m g lo c fields (VDict DkDict d) (VDict DkDict d)) in Hload; auto.
  - destruct Hload as (ys & Hys & _). apply in_combine_l in Hin. clear -Hys Hin Hget Hh Hld.
    assert (HG : forall fs i ys, i + length fs <= length fields -> In fd fs -> field_values E m g (nested_opts lo) (VDict DkDict d) i fs ys -> False).
    { induction fs as [|fd' fs IH]; intros i ys' Hle Hfin Hfv; [destruct Hfin|]. cbn [length] in Hle.
      inversion Hfv as [|? ? ? x y ys2 H1 H2 H3 H4]; subst. destruct Hfin as [->|Hfin].
      - destruct H1 as [[_ H1]|[H1 _]].
        + rewrite Hget in H1. injection H1 as <-. now apply Hh, H2.
        + cbn [no_more_input] in H1. lia.
      - apply (IH (S i) ys2); auto. lia. }
    now apply (HG fields 0 ys).
  - rewrite HD. apply deser_namedtuple_class with fields; auto.
  - apply He.
  - cbn [field_source]. split; [exact Hsd|]. exists d. split; [now apply renamed_same|auto].
Qed.
