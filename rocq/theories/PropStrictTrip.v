(** * C80: values dumped with strict=True and loaded again

    Model: EngineSer.v, EngineDeser.v.  Specification: StrictTripSpec.v, in particular
    [strictly]: which parts of a value a strict dump meets with their type, and what it takes
    for the others. *)
From Verif Require Import PyBaseFacts EngineEnv RoundTripSpec DumpLaws LoadFacts LeafLaws RoundTripLaws PropRoundTrip
  StrictTripSpec StrictTripProofs.
Local Close Scope Z_scope.
Local Open Scope string_scope.

(** dump(v, t, strict=True) returns a JSON document, that load(_, t) turns into [v] again, strict
    or not; whatever the bounds on the depth of recursion, as long as they are large enough. *)
Theorem C80_round_trip : forall E f g o t v,
  default_serializers E f -> default_deserializers E g -> exact_strict o -> strictly E g o Known t v ->
  exists j N, (plain_input j /\ json_data j) /\ forall n m lo, N <= n -> N <= m -> exact_load lo ->
    snd (dump E f n o (Some t) v) = Done j /\ snd (load E m g lo (Some t) j) = Done v.
Proof. intros E f g o t v. exact (strict_roundtrip E f g o Known t v). Qed.
(** The same for dump(v, strict=True) *)
Theorem C80_untyped_round_trip : forall E f g o t v,
  default_serializers E f -> default_deserializers E g -> exact_strict o -> strictly E g o Unknown t v ->
  exists j N, (plain_input j /\ json_data j) /\ forall n m lo, N <= n -> N <= m -> exact_load lo ->
    snd (dump E f n o None v) = Done j /\ snd (load E m g lo (Some t) j) = Done v.
Proof. intros E f g o t v. exact (strict_roundtrip E f g o Unknown t v). Qed.

(** ** Example: a dict of groups of persons.  Person and Group annotate their attributes. *)
Definition with_hints (hints : list (string * ty)) (ci : cinfo) : cinfo :=
  mkCinfo (ci_module ci) (ci_simple ci) (ci_kind ci) (ci_supers ci) (ci_params ci) hints (ci_slots ci) (ci_members ci)
          (ci_prop ci) (ci_init ci) (ci_set ci) (ci_attrs ci) (ci_hashable ci).
Definition staff_ct : classes := fun c =>
  match c with
  | 1 => with_hints [("name", TPrim PStr); ("age", TPrim PInt)] (demo_ct 1)
  | 2 => with_hints [("members", TApp true HList [TClass 1]); ("lead", TUnion [TClass 1; TNoneT])] (demo_ct 2)
  | _ => demo_ct c
  end.
Definition staff_env : env := std_env staff_ct demo_rt.
Definition strict_sopts : sopts := mkSopts true false None false false false SANone false false false true false [].
Example C80_ex_options : exact_strict strict_sopts.
Proof. repeat split. Qed.
Lemma staff_even t : union_like staff_ct t = false -> ~ odd_name staff_ct (Some t).
Proof. intros H (t' & Eq & _ & _ & Ho). injection Eq as <-. apply union_like_occurs in Ho. congruence. Qed.
Lemma staff_ordinary c : ordinary (staff_ct c).
Proof.
  assert (H : staff_ct c = demo_ct c \/ c = 1 \/ c = 2) by (destruct c as [|[|[|c]]]; auto).
  destruct H as [-> |[-> | ->]]; [apply demo_ordinary|exact (demo_ordinary 1)|exact (demo_ordinary 2)].
Qed.
Lemma staff_record c : c = 1 \/ c = 2 -> record_like staff_ct strict_sopts c.
Proof.
  intros Hc. constructor.
  - destruct Hc as [-> | ->]; reflexivity.
  - apply staff_ordinary.
  - destruct Hc as [-> | ->]; reflexivity.
  - destruct Hc as [-> | ->]; intros a; discriminate.
  - destruct Hc as [-> | ->]; repeat constructor; cbn; intuition discriminate.
  - intros args H. destruct args as [|[a x] [|[b y] [|z args]]]; destruct Hc as [-> | ->]; try discriminate H;
      injection H as -> ->; apply init_record; (discriminate || reflexivity).
  - destruct Hc as [-> | ->]; intros a [].
  - intros p Hp.
    assert (Hv : forall a, prefix "_" a = false -> prefix "__" a = false -> ~ In a abc_names -> ~ In a json_serializable_names ->
              visible [] strict_sopts [] a).
    { intros a H1 H2 H3 H4. repeat split; auto; discriminate. }
    destruct Hc as [-> | ->]; destruct Hp as [<-|[<-|[]]]; (split; [apply Hv; (reflexivity || (cbn; intuition discriminate))|]);
      (split; [reflexivity|]); (split; [discriminate|]); (split; [reflexivity|]); eexists;
      (split; [reflexivity|]); (split; [(apply union_even || (apply staff_even; reflexivity))|]); now right.
Qed.
Lemma staff_declares c : c = 1 \/ c = 2 -> declares_parameters (staff_ct c) strict_sopts.
Proof.
  intros Hc. split; [destruct Hc as [-> | ->]; repeat constructor; cbn; intuition discriminate|]. split.
  - intros p Hp. left. destruct Hc as [-> | ->]; destruct Hp as [<-|[<-|[]]]; cbn; auto.
  - intros a [Ha|Ha] _; destruct Hc as [-> | ->]; try (now destruct Ha); exact Ha.
Qed.
Lemma staff_person k name age : strictly staff_env 0 strict_sopts k (TClass 1) (VObj 1 [("name", VStr name); ("age", VInt age)]).
Proof.
  apply st_object; [apply staff_record; now left|reflexivity|intros _; apply staff_declares; now left| |exact I].
  intros p t x [H|[H|[]]] Ht; injection H as <- <-; injection Ht as <-;
    (apply st_atomic; [exact I|discriminate|]; apply ht_prim; (reflexivity || exact I)).
Qed.
Lemma staff_group k : strictly staff_env 0 strict_sopts k (TClass 2) group.
Proof.
  apply st_object; [apply staff_record; now right|reflexivity|intros _; apply staff_declares; now right| |exact I].
  intros p t x [H|[H|[]]] Ht; injection H as <- <-; injection Ht as <-.
  - eapply (st_sequence _ _ _ true HList); [constructor|intros [|]; discriminate| |exact I].
    intros x [<-|[<-|[]]]; apply staff_person.
  - apply (st_present _ _ _ _ [] (TClass 1) [TNoneT]); [intros u []|discriminate|apply staff_person|exact I].
Qed.
(** Inside the dict nothing is known of the type: a list of lists of groups *)
Definition groups_type : ty := TApp true HDict [TPrim PStr; TApp true HList [TApp true HList [TClass 2]]].
Definition groups : value := str_dict [("a", VList [VList [group; group]; VList []]); ("b", VList [])].
Example C80_ex_groups : strictly staff_env 0 strict_sopts Known groups_type groups.
Proof.
  eapply st_mapping; [constructor| | | | |discriminate|exact I].
  - repeat constructor; cbn; intuition discriminate.
  - intros k [<-|[<-|[]]]; split; discriminate.
  - intros k [<-|[<-|[]]]; (apply ht_prim; [reflexivity|exact I]).
  - assert (Hl : forall k l, k <> Known -> (forall x, In x l -> x = group) -> strictly staff_env 0 strict_sopts k (TApp true HList [TClass 2]) (VList l)).
    { intros k l Hk Hx. apply st_list; [exact Hk|constructor| | |exact I].
      - intros x y Hi Hj. now rewrite (Hx x Hi), (Hx y Hj).
      - intros x Hi. rewrite (Hx x Hi). apply staff_group. }
    intros x y [H|[H|[]]]; injection H as <- <-; (apply st_list; [discriminate|constructor| | |exact I]).
    + intros x y [<-|[<-|[]]] [<-|[<-|[]]]; reflexivity.
    + intros x [<-|[<-|[]]]; (apply Hl; [discriminate|]); [intros x [<-|[<-|[]]]; reflexivity|intros x []].
    + intros x y [].
    + intros x [].
Qed.
Example C80_ex_case : exists j N, (plain_input j /\ json_data j) /\ forall n m lo, N <= n -> N <= m -> exact_load lo ->
    snd (dump staff_env 0 n strict_sopts (Some groups_type) groups) = Done j /\
    snd (load staff_env m 0 lo (Some groups_type) j) = Done groups.
Proof.
  apply C80_round_trip; [intros t; reflexivity|intros t; reflexivity|apply C80_ex_options|exact C80_ex_groups].
Qed.
(** The document: the entries are in the order of the annotations. *)
Example C80_ex_document :
  snd (dump staff_env 0 9 strict_sopts (Some (TClass 2)) group) =
  Done (str_dict [("members", VList [str_dict [("name", VStr "John"); ("age", VInt 30)]; str_dict [("name", VStr "Mary"); ("age", VInt 31)]]);
                  ("lead", str_dict [("name", VStr "Mary"); ("age", VInt 31)])]).
Proof. vm_compute. reflexivity. Qed.

(** ** Values that survive without strict=True (C28) and are lost with it *)
Definition optional_int : ty := TUnion [TPrim PInt; TNoneT].
(** The type of the values of a dict is not used: [None, 3] in it raises, as 3 is no None. *)
Theorem C80_dict_values_refuted : exists E t v, default_serializers E 0 /\ default_deserializers E 0 /\
  has_type E 0 strict_sopts t v /\ exists e, snd (dump E 0 9 strict_sopts (Some t) v) = Fail e.
Proof.
  exists staff_env, (TApp true HDict [TPrim PStr; TApp true HList [optional_int]]), (str_dict [("a", VList [VNone; VInt 3])]).
  split; [intros t; reflexivity|]. split; [intros t; reflexivity|]. split.
  - eapply ht_mapping; [constructor| | | | |discriminate|exact I].
    + repeat constructor; cbn; intuition discriminate.
    + intros k [<-|[]]; split; discriminate.
    + intros k [<-|[]]; (apply ht_prim; [reflexivity|exact I]).
    + intros k x [H|[]]; injection H as <- <-.
      eapply (ht_sequence _ _ _ true HList); [constructor|intros [|]; discriminate| |exact I].
      intros x [<-|[<-|[]]].
      * apply ht_absent; try exact I; [right; now left| |].
        -- intros t [<-|[<-|[]]]; apply staff_even; reflexivity.
        -- intros us [H|[H|[]]]; discriminate.
      * apply (ht_present _ _ _ [] (TPrim PInt) [TNoneT]); [intros u []|discriminate| |exact I]. apply ht_prim; [reflexivity|exact I].
  - eexists. vm_compute. reflexivity.
Qed.
(** [3, None] in a dict is no problem, nor is List[Optional[int]] itself. *)
Example C80_ex_order :
  snd (dump staff_env 0 9 strict_sopts None (str_dict [("a", VList [VInt 3; VNone])])) = Done (str_dict [("a", VList [VInt 3; VNone])]) /\
  snd (dump staff_env 0 9 strict_sopts (Some (TApp true HList [optional_int])) (VList [VNone; VInt 3])) = Done (VList [VNone; VInt 3]).
Proof. split; vm_compute; reflexivity. Qed.
(** Tuples in a list in a dict raise as well. *)
Theorem C80_tuples_refuted : exists E t v, default_serializers E 0 /\ default_deserializers E 0 /\
  has_type E 0 strict_sopts t v /\ exists e, snd (dump E 0 9 strict_sopts (Some t) v) = Fail e.
Proof.
  exists staff_env, (TApp true HDict [TPrim PStr; TApp true HList [TApp true HTuple [TPrim PInt]]]), (str_dict [("a", VList [VTuple [VInt 3]])]).
  split; [intros t; reflexivity|]. split; [intros t; reflexivity|]. split.
  - eapply ht_mapping; [constructor| | | | |discriminate|exact I].
    + repeat constructor; cbn; intuition discriminate.
    + intros k [<-|[]]; split; discriminate.
    + intros k [<-|[]]; (apply ht_prim; [reflexivity|exact I]).
    + intros k x [H|[]]; injection H as <- <-.
      eapply (ht_sequence _ _ _ true HList); [constructor|intros [|]; discriminate| |exact I].
      intros x [<-|[]]. apply ht_tuple; try exact I; [discriminate|intros [H|[]]; discriminate|reflexivity|].
      intros t x [H|[]]; injection H as <- <-. apply ht_prim; [reflexivity|exact I].
  - eexists. vm_compute. reflexivity.
Qed.
(** Nothing is dumped of attributes that the class does not declare, as those of a class without
    annotations: the document is empty, and load raises. *)
Theorem C80_undeclared_refuted : exists E t v j e, default_serializers E 0 /\ default_deserializers E 0 /\
  has_type E 0 strict_sopts t v /\ snd (dump E 0 9 strict_sopts (Some t) v) = Done j /\
  snd (load E 9 0 lopts0 (Some t) j) = Fail e.
Proof.
  assert (He : exists e, snd (load demo_env 9 0 lopts0 (Some (TClass 1)) (str_dict [])) = Fail e) by (eexists; vm_compute; reflexivity).
  destruct He as [e He]. exists demo_env, (TClass 1), john, (str_dict []), e. split; [intros t; reflexivity|]. split; [intros t; reflexivity|]. split.
  - apply ht_object; [|reflexivity| |exact I].
    + destruct (demo_record 1 (or_introl eq_refl)) as [H1 H2 H3 H4 H5 H6 H7 H8]. constructor; assumption.
    + intros p t x [Hp|[Hp|[]]] Ht; injection Hp as <- <-; injection Ht as <-; apply ht_prim; (reflexivity || exact I).
  - split; [vm_compute; reflexivity|exact He].
Qed.
Print Assumptions C80_round_trip.
Print Assumptions C80_untyped_round_trip.
Print Assumptions C80_dict_values_refuted.
Print Assumptions C80_tuples_refuted.
Print Assumptions C80_undeclared_refuted.
