(** * C28, C39, C42: values dumped and loaded again

    Model: EngineTypes.v, EngineSer.v, EngineDeser.v.  Specification: RoundTripSpec.v, in
    particular [has_type], the values that are well typed all the way down. *)
From Verif Require Import PyBaseFacts RoundTripSpec DumpLaws LoadFacts LeafLaws RoundTripLaws.
Local Close Scope Z_scope.
Local Open Scope string_scope.

(** ** C28: load(dump(v), t) = v *)
(** For every well-typed value there is one document, that dump returns with the type and
    without, and that load turns into the value again, strict or not; whatever the bounds on
    the depth of recursion, as long as they are large enough.  The forks of dump ([f]) and of
    load ([g]) need not be the same. *)
Theorem C28_round_trip : forall E f g o t v,
  default_serializers E f -> default_deserializers E g -> exact_dump o -> has_type E g o t v ->
  exists j N, (plain_input j /\ json_data j) /\ forall n m cls lo, N <= n -> N <= m -> cls = None \/ cls = Some t -> exact_load lo ->
    snd (dump E f n o cls v) = Done j /\ snd (load E m g lo (Some t) j) = Done v.
Proof. exact roundtrip. Qed.

(** Example: a list of groups of persons, a dict of optional datetimes, a tuple of an enum
    member and a named tuple. *)
Lemma demo_accepts f t v : accepts demo_env f t v.
Proof. exact I. Qed.
Lemma demo_ordinary c : ordinary (demo_ct c).
Proof.
  split; [apply demo_fresh|]. intros t H. exfalso. revert H.
  do 5 (destruct c as [|c]; [intros []|]). intros [].
Qed.
Lemma demo_even t : union_like demo_ct t = false -> ~ odd_name demo_ct (Some t).
Proof. intros H (t' & Eq & _ & _ & Ho). injection Eq as <-. apply union_like_occurs in Ho. congruence. Qed.
Lemma union_even CT ts : ~ odd_name CT (Some (TUnion ts)).
Proof. intros (t' & Eq & Hu & _). injection Eq as <-. now apply (Hu ts). Qed.
Lemma init_record a b x y : a <> b ->
  forall p q, pa_name p = a -> pa_name q = b -> init_of [p; q] [(a, x); (b, y)] = Ok [(a, x); (b, y)].
Proof.
  intros Hn p q <- <-. unfold init_of. cbn [forallb fst map mem_str existsb]. rewrite !String.eqb_refl.
  cbn [orb andb]. rewrite orb_true_r. cbn [andb take_params rbind]. unfold sget. cbn [aget].
  rewrite !String.eqb_refl. destruct (String.eqb_spec (pa_name q) (pa_name p)) as [He|_]; [now elim Hn|]. reflexivity.
Qed.
Lemma demo_record c : c = 1 \/ c = 2 -> record_like demo_ct sopts0 c.
Proof.
  intros Hc. constructor.
  - destruct Hc as [-> | ->]; reflexivity.
  - apply demo_ordinary.
  - destruct Hc as [-> | ->]; reflexivity.
  - destruct Hc as [-> | ->]; intros a; discriminate.
  - destruct Hc as [-> | ->]; repeat constructor; cbn; intuition discriminate.
  - intros args H. destruct args as [|[a x] [|[b y] [|z args]]]; destruct Hc as [-> | ->]; try discriminate H;
      injection H as -> ->; apply init_record; (discriminate || reflexivity).
  - destruct Hc as [-> | ->]; intros a [].
  - intros p Hp.
    assert (Hv : forall a, prefix "_" a = false -> prefix "__" a = false -> ~ In a abc_names -> ~ In a json_serializable_names ->
              visible [] sopts0 [] a).
    { intros a H1 H2 H3 H4. repeat split; auto; discriminate. }
    destruct Hc as [-> | ->]; destruct Hp as [<-|[<-|[]]]; (split; [apply Hv; (reflexivity || (cbn; intuition discriminate))|]);
      (split; [reflexivity|]); (split; [discriminate|]); (split; [reflexivity|]); eexists;
      (split; [reflexivity|]); (split; [(apply union_even || (apply demo_even; reflexivity))|]); (now left) || (now right).
Qed.
Lemma demo_person_typed name age : has_type demo_env 0 sopts0 (TClass 1) (VObj 1 [("name", VStr name); ("age", VInt age)]).
Proof.
  apply ht_object; [apply demo_record; now left|reflexivity| |exact I].
  intros p t x [H|[H|[]]] Ht; injection H as <- <-; injection Ht as <-; apply ht_prim; (reflexivity || exact I).
Qed.
Example C28_group : has_type demo_env 0 sopts0 (TClass 2) group.
Proof.
  apply ht_object; [apply demo_record; now right|reflexivity| |exact I].
  intros p t x [H|[H|[]]] Ht; injection H as <- <-; injection Ht as <-.
  - eapply (ht_sequence _ _ _ true HList); [constructor|intros [|]; discriminate| |exact I].
    intros x [<-|[<-|[]]]; apply demo_person_typed.
  - apply (ht_present _ _ _ [] (TClass 1) [TNoneT]); [intros u []|discriminate|apply demo_person_typed|exact I].
Qed.
Definition new_year : value :=
  VLeaf (LDatetime (mkDt (mkDate 2020 1 1) (mkTime 3 4 5 678) (Some utc))).
Example C28_dict : has_type demo_env 0 sopts0 (TApp true HDict [TPrim PStr; TUnion [TLeaf LkDatetime; TNoneT]])
  (str_dict [("a", new_year); ("b", VNone)]).
Proof.
  eapply ht_mapping; [constructor| | | | | |exact I].
  - repeat constructor; cbn; intuition discriminate.
  - intros k [<-|[<-|[]]]; split; discriminate.
  - intros k [<-|[<-|[]]]; (apply ht_prim; [reflexivity|exact I]).
  - intros k x [H|[H|[]]]; injection H as <- <-.
    + apply (ht_present _ _ _ [] (TLeaf LkDatetime) [TNoneT]); [intros u []|discriminate| |exact I].
      apply (ht_leaf _ _ _ (LDatetime (mkDt (mkDate 2020 1 1) (mkTime 3 4 5 678) (Some utc)))); [|exact I].
      split; [repeat split; cbn; lia|]. split; [repeat split; cbn; lia|].
      exists 0%Z, utc. repeat split. left. lia.
    + apply ht_absent; try exact I; [right; now left| |].
      * intros t [<-|[<-|[]]]; apply demo_even; reflexivity.
      * intros us [H|[H|[]]]; discriminate.
  - discriminate.
Qed.
(** Keys may be of any class that is dumped as text. *)
Example C28_dict_keys : has_type demo_env 0 sopts0 (TApp true HDict [TLeaf LkDate; TPrim PInt])
  (VDict DkDict [(VLeaf (LDate (mkDate 2020 1 1)), VInt 1); (VLeaf (LDate (mkDate 2021 2 3)), VInt 2)]).
Proof.
  eapply ht_mapping; [constructor| | | | | |exact I].
  - repeat constructor; cbn; intuition discriminate.
  - intros k [<-|[<-|[]]]; exact I.
  - intros k [<-|[<-|[]]]; (eapply (ht_leaf _ _ _ (LDate _)); [repeat split; cbn; lia|exact I]).
  - intros k x [H|[H|[]]]; injection H as <- <-; (apply ht_prim; [reflexivity|exact I]).
  - discriminate.
Qed.
Example C28_tuple : has_type demo_env 0 sopts0 (TApp true HTuple [TClass 3; TClass 4; TLeaf LkUUID])
  (VTuple [VEnum 3 "GREEN"; VNT 4 [VInt 5; VNone]; VLeaf (LUUID 7)]).
Proof.
  apply ht_tuple; try exact I; [discriminate|intros [H|[H|[H|[]]]]; discriminate|reflexivity|].
  intros t x [H|[H|[H|[]]]]; injection H as <- <-.
  - eapply ht_enum; [reflexivity|apply demo_ordinary| |exact I].
    exists [("RED", VInt 1)], (VInt 2), []. split; [reflexivity|]. intros n' y [H|[]]; injection H as <- <-. split; [discriminate|reflexivity].
  - eapply ht_namedtuple; [reflexivity|apply demo_ordinary| | |reflexivity| | | |exact I].
    + repeat constructor; cbn; intuition discriminate.
    + intros fd [<-|[<-|[]]]; reflexivity.
    + intros fd x [H|[H|[]]] Hx; injection H as <- <-; [discriminate|].
      exists (TUnion [TPrim PInt; TNoneT]), [TPrim PInt; TNoneT]. repeat split. right. now left.
    + intros fd x [H|[H|[]]]; injection H as <- <-; eexists; reflexivity.
    + intros fd x t [H|[H|[]]] Ht; injection H as <- <-; injection Ht as <-.
      * apply ht_prim; [reflexivity|exact I].
      * apply ht_absent; try exact I; [right; now left| |].
        -- intros t [<-|[<-|[]]]; apply demo_even; reflexivity.
        -- intros us [H|[H|[]]]; discriminate.
  - apply (ht_leaf _ _ _ (LUUID 7)); [split; cbn; lia|exact I].
Qed.
Example C28_options : exact_dump sopts0 /\ exact_load lopts0 /\ exact_load (mkLopts true [] None None false true None).
Proof. repeat split; try discriminate; now left. Qed.
Example C28_group_case : exists j N, forall n m cls lo, N <= n -> N <= m -> cls = None \/ cls = Some (TClass 2) -> exact_load lo ->
  snd (dump demo_env 0 n sopts0 cls group) = Done j /\ snd (load demo_env m 0 lo (Some (TClass 2)) j) = Done group.
Proof.
  destruct (C28_round_trip demo_env 0 0 sopts0 (TClass 2) group) as (j & N & _ & H); eauto.
  - intros t. reflexivity.
  - intros t. reflexivity.
  - apply C28_options.
  - apply C28_group.
Qed.
(** Beyond the first alternative of a union it fails: a value of a later alternative is
    converted to an earlier one. *)
Theorem C28_union_refuted : exists E t v j w,
  default_serializers E 0 /\ default_deserializers E 0 /\ conforms E 0 t v /\
  snd (dump E 0 5 sopts0 (Some t) v) = Done j /\ snd (load E 5 0 lopts0 (Some t) j) = Done w /\ w <> v.
Proof.
  exists demo_env, (TUnion [TLeaf LkDatetime; TPrim PStr]), (VStr "2020-01-01T00:00:00Z").
  eexists. eexists. split; [intros t; reflexivity|]. split; [intros t; reflexivity|]. split.
  - apply cf_union with (TPrim PStr); [right; now left| |exact I]. apply cf_prim; [reflexivity|exact I].
  - split; [vm_compute; reflexivity|]. split; [vm_compute; reflexivity|]. discriminate.
Qed.

(** ** C39: enums *)
(** By name, which is the default. *)
Theorem C39_dumped_by_name_or_value : forall E f n o cls c m ms nm x,
  default_serializers E f -> ci_kind (e_ct E c) = CkEnum m ms -> ordinary (e_ct E c) ->
  cls = None \/ cls = Some (TClass c) -> sget nm ms = Some x ->
  snd (dump E f (S n) o cls (VEnum c nm)) = Done (if so_enum_name o then VStr nm else x).
Proof. exact dump_member. Qed.
Theorem C39_name_loads_as_member : forall E n f o c m ms nm,
  default_deserializers E f -> ci_kind (e_ct E c) = CkEnum m ms -> ordinary (e_ct E c) ->
  canonical_member ms nm -> accepts E f (TClass c) (VEnum c nm) -> lo_enum_name o <> Some false ->
  snd (load E (S n) f o (Some (TClass c)) (VStr nm)) = Done (VEnum c nm).
Proof. exact member_by_name. Qed.
Theorem C39_value_loads_as_member : forall E n f o c m ms nm x,
  default_deserializers E f -> ci_kind (e_ct E c) = CkEnum m ms -> ordinary (e_ct E c) ->
  canonical_member ms nm -> sget nm ms = Some x -> no_meta_entry x -> x <> VNone -> valid_type x = true ->
  accepts E f (TClass c) (VEnum c nm) -> lo_enum_name o = Some false ->
  snd (load E (S n) f o (Some (TClass c)) x) = Done (VEnum c nm).
Proof. exact member_by_value. Qed.
(** Dumped by value and loaded by default, the same member comes back unless the value is
    the name of a member with another value. *)
Theorem C39_value_by_default : forall E n f o c m ms nm x,
  default_deserializers E f -> ci_kind (e_ct E c) = CkEnum m ms -> ordinary (e_ct E c) -> NoDup (map fst ms) ->
  canonical_member ms nm -> sget nm ms = Some x -> no_meta_entry x -> x <> VNone -> valid_type x = true ->
  accepts E f (TClass c) (VEnum c nm) -> lo_enum_name o = None -> hashable (e_ct E) x = true ->
  (snd (load E (S n) f o (Some (TClass c)) x) = Done (VEnum c nm) <->
   forall s y, x = VStr s -> sget s ms = Some y -> y = x).
Proof. exact member_by_default. Qed.
(** Values that cannot be hashed are only found when use_enum_name=False. *)
Theorem C39_unhashable_value_fails : forall E n f o c m ms x,
  default_deserializers E f -> ci_kind (e_ct E c) = CkEnum m ms -> ordinary (e_ct E c) ->
  no_meta_entry x -> x <> VNone -> valid_type x = true -> lo_enum_name o = None -> hashable (e_ct E) x = false ->
  snd (load E (S n) f o (Some (TClass c)) x) = Fail (exn_of KDeser).
Proof. exact member_unhashable. Qed.
(** class Swap(Enum): A = 'B'; B = 'A'; L = [1] *)
Definition swap_ct : classes := fun c =>
  match c with
  | 0 => enum_class "m" "Swap" [("A", VStr "B"); ("B", VStr "A"); ("L", VList [VInt 1])]
  | _ => demo_ct c
  end.
Definition swap_env : env := std_env swap_ct demo_rt.
Definition by_value_dump : sopts := mkSopts false false None false false false SANone false false false false false [].
Definition by_value_load : lopts := mkLopts false [] None None false false (Some false).
Lemma swap_ordinary : ordinary (swap_ct 0).
Proof.
  split; [|intros t []]. unfold fresh_name. intros H. apply mem_str_In in H. revert H. vm_compute. discriminate.
Qed.
Example C39_case :
  canonical_member (enum_members swap_ct 0) "A" /\ canonical_member (enum_members swap_ct 0) "L" /\
  snd (dump swap_env 0 3 sopts0 None (VEnum 0 "A")) = Done (VStr "A") /\
  snd (load swap_env 3 0 lopts0 (Some (TClass 0)) (VStr "A")) = Done (VEnum 0 "A") /\
  snd (dump swap_env 0 3 by_value_dump None (VEnum 0 "A")) = Done (VStr "B") /\
  snd (load swap_env 3 0 by_value_load (Some (TClass 0)) (VStr "B")) = Done (VEnum 0 "A") /\
  snd (load swap_env 3 0 lopts0 (Some (TClass 0)) (VStr "B")) = Done (VEnum 0 "B") /\
  snd (load swap_env 3 0 by_value_load (Some (TClass 0)) (VList [VInt 1])) = Done (VEnum 0 "L") /\
  snd (load swap_env 3 0 lopts0 (Some (TClass 0)) (VList [VInt 1])) = Fail (exn_of KDeser) /\
  snd (load demo_env 3 0 lopts0 (Some (TClass 3)) (VInt 2)) = Done (VEnum 3 "GREEN").
Proof.
  split; [exists [], (VStr "B"), [("B", VStr "A"); ("L", VList [VInt 1])]; split; [reflexivity|intros n' y []]|].
  split; [exists [("A", VStr "B"); ("B", VStr "A")], (VList [VInt 1]), []; split; [reflexivity|]|].
  { intros n' y [H|[H|[]]]; injection H as <- <-; (split; [discriminate|reflexivity]). }
  repeat split; vm_compute; reflexivity.
Qed.
Theorem C39_default_load_of_value_refuted : exists E c nm x,
  default_deserializers E 0 /\ snd (dump E 0 3 by_value_dump None (VEnum c nm)) = Done x /\
  exists nm', nm' <> nm /\ snd (load E 3 0 lopts0 (Some (TClass c)) x) = Done (VEnum c nm').
Proof.
  exists swap_env, 0, "A", (VStr "B"). split; [intros t; reflexivity|]. split; [reflexivity|].
  exists "B". split; [discriminate|reflexivity].
Qed.

(** ** C42: the round trip of named tuples *)
Theorem C42_round_trip : forall E f g o c fields l,
  default_serializers E f -> default_deserializers E g -> exact_dump o ->
  ci_kind (e_ct E c) = CkNT fields -> ordinary (e_ct E c) ->
  NoDup (map nf_name fields) -> (forall fd, In fd fields -> attribute_name (nf_name fd)) ->
  length fields = length l ->
  (forall fd x, In (fd, x) (combine fields l) -> x = VNone -> none_allowed fd) ->
  (forall fd x, In (fd, x) (combine fields l) -> exists t, nf_hint fd = Some t) ->
  (forall fd x t, In (fd, x) (combine fields l) -> nf_hint fd = Some t -> has_type E g o t x) ->
  accepts E g (TClass c) (VNT c l) ->
  exists j N, (plain_input j /\ json_data j) /\ forall n m cls lo, N <= n -> N <= m -> cls = None \/ cls = Some (TClass c) -> exact_load lo ->
    snd (dump E f n o cls (VNT c l)) = Done j /\ snd (load E m g lo (Some (TClass c)) j) = Done (VNT c l).
Proof.
  intros E f g o c fields l HS HD He HK HO Hnd Hnm Hlen Hnone Hh Ht Ha.
  apply roundtrip; auto. eapply ht_namedtuple; eauto.
Qed.
(** With None in a field that is not annotated as optional, nothing comes back at all. *)
Theorem C42_none_not_optional_is_lost : forall E f g n m o lo c fields l fd j,
  default_serializers E f -> default_deserializers E g -> exact_load lo ->
  ci_kind (e_ct E c) = CkNT fields -> ordinary (e_ct E c) ->
  NoDup (map nf_name fields) -> (forall fd, In fd fields -> attribute_name (nf_name fd)) ->
  length fields = length l -> In (fd, VNone) (combine fields l) -> ~ none_allowed fd ->
  snd (dump E f n o None (VNT c l)) = Done j ->
  forall v, snd (load E m g lo (Some (TClass c)) j) <> Done v.
Proof. exact namedtuple_none_lost. Qed.
Theorem C42_none_input_unfulfilled : forall E n f o c pre fd post j j' ys,
  ci_kind (e_ct E c) = CkNT (pre ++ fd :: post) -> e_deser E f (TClass c) = Some DTuple ->
  no_hints o -> no_meta_entry j -> field_source (e_ct E) o j j' ->
  field_values E n f (nested_opts o) j' 0 pre ys -> field_input j' (length pre) fd VNone -> ~ none_allowed fd ->
  snd (load E (S n) f o (Some (TClass c)) j) = Fail (exn_arg KUnfulfilled (nf_name fd)).
Proof. exact load_namedtuple_none. Qed.
Example C42_round_trip_case :
  snd (dump demo_env 0 5 sopts0 None (VNT 4 [VInt 5; VNone])) = Done (str_dict [("x", VInt 5); ("y", VNone)]) /\
  snd (load demo_env 5 0 lopts0 (Some (TClass 4)) (str_dict [("x", VInt 5); ("y", VNone)])) = Done (VNT 4 [VInt 5; VNone]) /\
  snd (dump demo_env 0 5 sopts0 None (VNT 4 [VNone; VInt 1])) = Done (str_dict [("x", VNone); ("y", VInt 1)]) /\
  snd (load demo_env 5 0 lopts0 (Some (TClass 4)) (str_dict [("x", VNone); ("y", VInt 1)])) = Fail (exn_arg KUnfulfilled "x").
Proof. repeat split; vm_compute; reflexivity. Qed.
Example C42_not_allowed : ~ none_allowed (mkField "x" (Some (TPrim PInt)) None).
Proof. intros (h & ts & H & Hr & _). injection H as <-. discriminate. Qed.

Print Assumptions C28_round_trip.
Print Assumptions C28_union_refuted.
Print Assumptions C39_dumped_by_name_or_value.
Print Assumptions C39_name_loads_as_member.
Print Assumptions C39_value_loads_as_member.
Print Assumptions C39_value_by_default.
Print Assumptions C39_unhashable_value_fails.
Print Assumptions C39_default_load_of_value_refuted.
Print Assumptions C42_round_trip.
Print Assumptions C42_none_not_optional_is_lost.
Print Assumptions C42_none_input_unfulfilled.
