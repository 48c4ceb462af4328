(** * C58: dumping with a key transformer and loading with its inverse

    Model: EngineSer.v, EngineDeser.v, KeyTransformersModel.v.  Specification: RoundTripSpec.v
    ([has_type]) and KeyTripSpec.v ([renamable], [undone]). *)
From Verif Require Import PyBaseFacts KeySpec KeyTransformersModel KeyTripSpec KeyTripLaws LoadFacts EngineEnv.
Local Close Scope Z_scope.
Local Open Scope string_scope.

(** A well-typed value of which every name is undone by the loading transformer is dumped to
    one document, that load turns into the value again. *)
Theorem C58_round_trip : forall E f g o t v d l,
  default_serializers E f -> default_deserializers E g -> dump_with d o -> has_type E g o t v ->
  renamable (e_ct E) d l v ->
  exists j N, (plain_input j /\ json_data j) /\
    forall n m cls lo, N <= n -> N <= m -> cls = None \/ cls = Some t -> load_with l lo ->
    snd (dump E f n o cls v) = Done j /\ snd (load E m g lo (Some t) j) = Done v.
Proof. exact key_trip. Qed.

(** snakecase undoes camelcase, pascalcase and lispcase on snake_case names. *)
Theorem C58_library_names : forall ws, ws <> [] -> Forall word ws ->
  (Forall (fun w => 2 <= String.length w) (interior ws) ->
   undone (on_text camelcase) (on_text snakecase) (snake_name ws) /\
   undone (on_text pascalcase) (on_text snakecase) (snake_name ws)) /\
  undone (on_text lispcase) (on_text snakecase) (snake_name ws).
Proof. exact library_names. Qed.
(** With a transformer of the library, named tuples ask for nothing more than objects. *)
Theorem C58_library_fields : forall d h s, In h [camelcase; snakecase; pascalcase; lispcase] ->
  undone d (on_text h) s -> untouched (on_text h) s.
Proof. exact untouched_library. Qed.

(** ** Example: classes with snake_case attributes *)
Definition kt_ct : classes := fun c =>
  match c with
  | 1 => record_class "m" "Person"
           [mkParam "first_name" (Some (TPrim PStr)) None false;
            mkParam "birth_year" (Some (TUnion [TPrim PInt; TNoneT])) None false]
  | 2 => record_class "m" "Team"
           [mkParam "team_members" (Some (TApp true HList [TClass 1])) None false;
            mkParam "phone_numbers" (Some (TApp true HDict [TPrim PStr; TClass 3])) None false]
  | 3 => nt_class "m" "Phone"
           [mkField "country_code" (Some (TPrim PInt)) None; mkField "own_number" (Some (TPrim PInt)) None]
  | _ => record_class "m" "object" []
  end.
Definition kt_env : env := std_env kt_ct demo_rt.
Definition camel : transformer := on_text camelcase.
Definition snake : transformer := on_text snakecase.
Definition camel_opts : sopts := mkSopts false false (Some camel) false false false SANone false false false true false [].
Definition snake_opts : lopts := mkLopts false [] (Some snake) None false false None.
Definition kt_person (name : string) (year : Z) : value := VObj 1 [("first_name", VStr name); ("birth_year", VInt year)].
Definition kt_team : value :=
  VObj 2 [("team_members", VList [kt_person "John" 1970; kt_person "Mary" 1971]);
          ("phone_numbers", str_dict [("at_home", VNT 3 [VInt 31; VInt 5])])].
Definition kt_person_doc (name : string) (year : Z) : value := str_dict [("birthYear", VInt year); ("firstName", VStr name)].
Definition kt_doc : value :=
  str_dict [("phoneNumbers", str_dict [("atHome", str_dict [("country_code", VInt 31); ("own_number", VInt 5)])]);
            ("teamMembers", VList [kt_person_doc "John" 1970; kt_person_doc "Mary" 1971])].

Lemma kt_ordinary c : ordinary (kt_ct c).
Proof.
  split.
  - unfold fresh_name. intros H. apply mem_str_In in H. revert H.
    do 4 (destruct c as [|c]; [vm_compute; discriminate|]). vm_compute; discriminate.
  - intros t H. exfalso. revert H. do 4 (destruct c as [|c]; [intros []|]). intros [].
Qed.
Lemma kt_even t : union_like kt_ct t = false -> ~ odd_name kt_ct (Some t).
Proof. intros H (t' & Eq & _ & _ & Ho). injection Eq as <-. apply union_like_occurs in Ho. congruence. Qed.
Lemma kt_union ts : ~ odd_name kt_ct (Some (TUnion ts)).
Proof. intros (t' & Eq & Hu & _). injection Eq as <-. now apply (Hu ts). Qed.
Lemma init_two a b x y : a <> b ->
  forall p q, pa_name p = a -> pa_name q = b -> init_of [p; q] [(a, x); (b, y)] = Ok [(a, x); (b, y)].
Proof.
  intros Hn p q <- <-. unfold init_of. cbn [forallb fst map mem_str existsb]. rewrite !String.eqb_refl.
  cbn [orb andb]. rewrite orb_true_r. cbn [andb take_params rbind]. unfold sget. cbn [aget].
  rewrite !String.eqb_refl. destruct (String.eqb_spec (pa_name q) (pa_name p)) as [He|_]; [now elim Hn|]. reflexivity.
Qed.
Lemma kt_record c : c = 1 \/ c = 2 -> record_like kt_ct camel_opts c.
Proof.
  intros Hc. constructor.
  - destruct Hc as [-> | ->]; reflexivity.
  - apply kt_ordinary.
  - destruct Hc as [-> | ->]; reflexivity.
  - destruct Hc as [-> | ->]; intros a; discriminate.
  - destruct Hc as [-> | ->]; repeat constructor; cbn; intuition discriminate.
  - intros args H. destruct args as [|[a x] [|[b y] [|z args]]]; destruct Hc as [-> | ->]; try discriminate H;
      injection H as -> ->; apply init_two; (discriminate || reflexivity).
  - destruct Hc as [-> | ->]; intros a [].
  - intros p Hp.
    assert (Hv : forall a, prefix "_" a = false -> prefix "__" a = false -> ~ In a abc_names -> ~ In a json_serializable_names ->
              visible [] camel_opts [] a).
    { intros a H1 H2 H3 H4. repeat split; auto; discriminate. }
    destruct Hc as [-> | ->]; destruct Hp as [<-|[<-|[]]]; (split; [apply Hv; (reflexivity || (cbn; intuition discriminate))|]);
      (split; [reflexivity|]); (split; [discriminate|]); (split; [reflexivity|]); eexists;
      (split; [reflexivity|]); (split; [(apply kt_union || (apply kt_even; reflexivity))|]); (now left) || (now right).
Qed.
Lemma kt_person_typed name year : has_type kt_env 0 camel_opts (TClass 1) (kt_person name year).
Proof.
  apply ht_object; [apply kt_record; now left|reflexivity| |exact I].
  intros p t x [H|[H|[]]] Ht; injection H as <- <-; injection Ht as <-.
  - apply ht_prim; (reflexivity || exact I).
  - apply (ht_present _ _ _ [] (TPrim PInt) [TNoneT]); [intros u []|discriminate|apply ht_prim; (reflexivity || exact I)|exact I].
Qed.
Lemma kt_undone w1 w2 : word w1 -> word w2 -> undone camel snake (w1 ++ "_" ++ w2).
Proof. intros H1 H2. apply (C58_library_names [w1; w2]); [discriminate|auto|constructor]. Qed.
Lemma kt_person_renamable name year l : (forall s, undone camel snake s -> undone camel l s) ->
  renamable kt_ct camel l (kt_person name year).
Proof.
  intros Hl. apply rn_object.
  - intros a x [H|[H|[]]]; injection H as <- _; apply Hl.
    + apply (kt_undone "first" "name"); (split; [discriminate|reflexivity]).
    + apply (kt_undone "birth" "year"); (split; [discriminate|reflexivity]).
  - intros a x [H|[H|[]]]; injection H as _ <-; apply rn_scalar; exact I.
Qed.
Example C58_team :
  dump_with camel camel_opts /\ load_with snake snake_opts /\ has_type kt_env 0 camel_opts (TClass 2) kt_team /\
  renamable kt_ct camel snake kt_team /\
  snd (dump kt_env 0 9 camel_opts None kt_team) = Done kt_doc /\
  snd (load kt_env 9 0 snake_opts (Some (TClass 2)) kt_doc) = Done kt_team.
Proof.
  split; [repeat split|]. split; [split; [now left|]; split; [reflexivity|]; split; [discriminate|reflexivity]|]. split; [|split; [|split]].
  - apply ht_object; [apply kt_record; now right|reflexivity| |exact I].
    intros p t x [H|[H|[]]] Ht; injection H as <- <-; injection Ht as <-.
    + eapply (ht_sequence _ _ _ true HList); [constructor|intros [|]; discriminate| |exact I].
      intros x [<-|[<-|[]]]; apply kt_person_typed.
    + eapply ht_mapping; [constructor| | | | | |exact I].
      * repeat constructor; cbn; intuition discriminate.
      * intros k [<-|[]]; split; discriminate.
      * intros k [<-|[]]; (apply ht_prim; [reflexivity|exact I]).
      * intros k x [H|[]]; injection H as <- <-.
        eapply ht_namedtuple; [reflexivity|apply kt_ordinary| | |reflexivity| | | |exact I].
        -- repeat constructor; cbn; intuition discriminate.
        -- intros fd [<-|[<-|[]]]; reflexivity.
        -- intros fd x [H|[H|[]]] Hx; injection H as <- <-; discriminate.
        -- intros fd x [H|[H|[]]]; injection H as <- <-; eexists; reflexivity.
        -- intros fd x t [H|[H|[]]] Ht; injection H as <- <-; injection Ht as <-; (apply ht_prim; [reflexivity|exact I]).
      * discriminate.
  - apply rn_object.
    + intros a x [H|[H|[]]]; injection H as <- _.
      * apply (kt_undone "team" "members"); (split; [discriminate|reflexivity]).
      * apply (kt_undone "phone" "numbers"); (split; [discriminate|reflexivity]).
    + intros a x [H|[H|[]]]; injection H as _ <-.
      * apply rn_list. intros x [<-|[<-|[]]]; now apply kt_person_renamable.
      * apply rn_dict.
        -- intros k x [H|[]]. injection H as <- _. exists "at_home". split; [now left|].
           apply (kt_undone "at" "home"); (split; [discriminate|reflexivity]).
        -- intros k x [H|[]]. injection H as _ <-. eapply rn_namedtuple; [reflexivity| |].
           ++ intros fd [<-|[<-|[]]]; reflexivity.
           ++ intros x [<-|[<-|[]]]; apply rn_scalar; exact I.
  - vm_compute. reflexivity.
  - vm_compute. reflexivity.
Qed.

(** ** What does not survive *)
(** Inside of tuples the keys are transformed by dump but not by load, although every name
    is undone. *)
Theorem C58_tuples_refuted : exists E t v j,
  default_serializers E 0 /\ default_deserializers E 0 /\ has_type E 0 camel_opts t v /\
  (exists x, v = VTuple [x] /\ renamable (e_ct E) camel snake x) /\
  snd (dump E 0 9 camel_opts None v) = Done j /\
  exists e, snd (load E 9 0 snake_opts (Some t) j) = Fail e /\ e_kind e = KUnfulfilled.
Proof.
  exists kt_env, (TApp true HTuple [TClass 1]), (VTuple [kt_person "John" 1970]), (VList [kt_person_doc "John" 1970]).
  split; [intros t; reflexivity|]. split; [intros t; reflexivity|]. split.
  { apply ht_tuple; try exact I; [discriminate|intros [H|[]]; discriminate|reflexivity|].
    intros t x [H|[]]. injection H as <- <-. apply kt_person_typed. }
  split; [exists (kt_person "John" 1970); split; [reflexivity|now apply kt_person_renamable]|].
  split; [vm_compute; reflexivity|]. eexists. split; vm_compute; reflexivity.
Qed.
(** The fields of named tuples are transformed by load but not by dump, so that an inverse
    pair that is not one of the library's fails. *)
Definition add_prefix : transformer := on_text (fun s => Ok ("k_" ++ s)).
Definition drop_prefix : transformer := on_text (fun s => Ok (substring 2 (String.length s - 2) s)).
Theorem C58_named_tuples_refuted : exists E t v j o lo,
  default_serializers E 0 /\ default_deserializers E 0 /\ dump_with add_prefix o /\ load_with drop_prefix lo /\
  (forall s, undone add_prefix drop_prefix s) /\ has_type E 0 o t v /\
  snd (dump E 0 9 o None v) = Done j /\ j = str_dict [("country_code", VInt 31); ("own_number", VInt 5)] /\
  exists e, snd (load E 9 0 lo (Some t) j) = Fail e.
Proof.
  exists kt_env, (TClass 3), (VNT 3 [VInt 31; VInt 5]), (str_dict [("country_code", VInt 31); ("own_number", VInt 5)]),
    (mkSopts false false (Some add_prefix) false false false SANone false false false true false []),
    (mkLopts false [] (Some drop_prefix) None false false None).
  split; [intros t; reflexivity|]. split; [intros t; reflexivity|]. split; [repeat split|].
  split; [split; [now left|]; split; [reflexivity|]; split; [discriminate|reflexivity]|]. split.
  { intros s. exists ("k_" ++ s). split; [reflexivity|]. split; [split; discriminate|].
    unfold drop_prefix, on_text. f_equal. f_equal. cbn [append String.length]. replace (S (S (String.length s)) - 2) with (String.length s) by lia.
    cbn [substring]. clear. induction s as [|c s IH]; [reflexivity|]. cbn [String.length substring]. now rewrite IH. }
  split.
  { eapply ht_namedtuple; [reflexivity|apply kt_ordinary| | |reflexivity| | | |exact I].
    - repeat constructor; cbn; intuition discriminate.
    - intros fd [<-|[<-|[]]]; reflexivity.
    - intros fd x [H|[H|[]]] Hx; injection H as <- <-; discriminate.
    - intros fd x [H|[H|[]]]; injection H as <- <-; eexists; reflexivity.
    - intros fd x t [H|[H|[]]] Ht; injection H as <- <-; injection Ht as <-; (apply ht_prim; [reflexivity|exact I]). }
  split; [vm_compute; reflexivity|]. split; [reflexivity|]. eexists. vm_compute. reflexivity.
Qed.

Print Assumptions C58_round_trip.
Print Assumptions C58_library_names.
Print Assumptions C58_library_fields.
Print Assumptions C58_tuples_refuted.
Print Assumptions C58_named_tuples_refuted.
