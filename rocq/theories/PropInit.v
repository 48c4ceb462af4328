(** * C81: the constructor calls of load

    Model: EngineDeser.v; every call of a constructor is an event [EvInit] of the run.
    Specification: InitSpec.v, which counts the calls, the instances in a value, and the places
    of a document that an object can be made of. *)
From Verif Require Import PyBaseFacts EngineFacts EngineEnv LoadSpec TerminationSpec DocumentSpec InitSpec InitProofs InitBound.
From Coq Require Import Lia.
Local Close Scope Z_scope.
Local Open Scope string_scope.

(** Every instance in the result was made by a constructor call of its own: there are at least as
    many calls of the constructor of [c] as instances of [c] in the result. *)
Theorem C81_objects_were_constructed : forall E c n f o cls j l r,
  by_constructor_only E c -> (forall g, default_deserializers E g) -> arguments_without c o -> objects c j = 0 ->
  load E n f o cls j = (l, Done r) -> objects c r <= constructed c l.
Proof.
  intros E c n f o cls j l r HE HD Ho Hj H. pose proof (load_made E c n f o cls j HE HD Ho Hj r) as Hm. rewrite H in Hm. exact (Hm eq_refl).
Qed.
(** Where the types leave no choice, load calls no more constructors than the document has places
    for objects, whether it returns or raises: nothing is constructed twice. *)
Theorem C81_no_more_than_places : forall E n f o cls j,
  classes_choiceless E -> classes_regular E -> (forall g, deserializers_settled E g) ->
  keys_to_keys o -> hint_choiceless cls -> ordinary j ->
  constructions (fst (load E n f o cls j)) <= places j.
Proof. exact load_bounded. Qed.
(** If in the result there is an object for every place, then each was constructed exactly once,
    and nothing else was. *)
Theorem C81_exactly_once : forall E c n f o cls j l r,
  by_constructor_only E c -> arguments_without c o -> objects c j = 0 ->
  classes_choiceless E -> classes_regular E -> (forall g, default_deserializers E g) ->
  keys_to_keys o -> hint_choiceless cls -> ordinary j ->
  load E n f o cls j = (l, Done r) -> objects c r = places j ->
  constructed c l = places j /\ constructions l = places j.
Proof.
  intros E c n f o cls j l r HE Ho Hj HC HR HD Hk Hcls Hord H Heq.
  pose proof (C81_objects_were_constructed E c n f o cls j l r HE HD Ho Hj H) as H1.
  pose proof (C81_no_more_than_places E n f o cls j HC HR (fun g t => or_introl (HD g t)) Hk Hcls Hord) as H2. rewrite H in H2. cbn [fst] in H2.
  assert (H3 : constructed c l <= constructions l).
  { unfold constructed, constructions. clear. induction l as [|e l IH]; [cbn; lia|]. cbn [filter].
    destruct e; try exact IH. destruct (Nat.eqb c c0); cbn [length]; lia. }
  lia.
Qed.

(** ** Example: the persons and groups of EngineEnv.v *)
Lemma in_cons c a x l : objects_in c ((a, x) :: l) = objects c x + objects_in c l.
Proof. unfold objects_in. cbn [map]. now rewrite sum_cons. Qed.
Definition named (names : list string) (args : list (string * value)) := filter (fun kv => mem_str (fst kv) names) args.
Lemma named_split c n names args : ~ In n names ->
  match sget n args with Some x => objects c x | None => 0 end + objects_in c (named names args) <= objects_in c (named (n :: names) args).
Proof.
  intros Hn. unfold sget. induction args as [|[a x] args IH]; [cbn; lia|]. unfold named in *. cbn [aget filter fst].
  change (mem_str a (n :: names)) with (String.eqb a n || mem_str a names)%bool. rewrite (String.eqb_sym a n). destruct (String.eqb n a) eqn:Ea.
  - apply String.eqb_eq in Ea as <-. cbn [orb]. destruct (mem_str n names) eqn:Em; [now apply mem_str_In in Em|].
    rewrite !in_cons. destruct (aget String.eqb n args); lia.
  - cbn [orb]. destruct (mem_str a names); rewrite ?in_cons; lia.
Qed.
Lemma named_le c names args : objects_in c (named names args) <= objects_in c args.
Proof.
  induction args as [|[a x] args IH]; [cbn; lia|]. unfold named in *. cbn [filter fst]. destruct (mem_str a names); rewrite ?in_cons; lia.
Qed.
Lemma init_keeps c ps args attrs : NoDup (map pa_name ps) -> (forall p x, In p ps -> pa_default p = Some x -> objects c x = 0) ->
  init_of ps args = Ok attrs -> objects_in c attrs <= objects_in c args.
Proof.
  unfold init_of. destruct (forallb _ args); [|discriminate]. intros Hn Hd H.
  apply (Nat.le_trans _ (objects_in c (named (map pa_name ps) args))); [|apply named_le].
  revert attrs Hn Hd H. induction ps as [|p ps IH]; cbn [take_params map]; intros attrs Hn Hd H; [injection H as <-; cbn; lia|].
  inversion Hn as [|? ? Hp Hn']; subst. destruct (take_params ps args) as [rest|]; [|discriminate]. cbn [rbind] in H.
  specialize (IH rest Hn' (fun q x Hq => Hd q x (or_intror Hq)) eq_refl).
  pose proof (named_split c (pa_name p) (map pa_name ps) args Hp) as Hs.
  destruct (sget (pa_name p) args) as [x|]; [injection H as <-; rewrite in_cons; lia|].
  destruct (pa_default p) as [x|] eqn:Ex; [|discriminate]. injection H as <-. rewrite in_cons, (Hd p x (or_introl eq_refl) Ex). lia.
Qed.
Lemma sset_keeps c a x attrs : objects_in c (sset a x attrs) <= objects_in c attrs + objects c x.
Proof.
  unfold sset. induction attrs as [|[b y] attrs IH]; cbn [aset]; [rewrite in_cons; lia|].
  destruct (String.eqb a b); rewrite !in_cons; lia.
Qed.
Example C81_ex_program c : by_constructor_only demo_env c.
Proof.
  constructor.
  - intros k args attrs.
    assert (Hk : k = 1 \/ k = 2 \/ k = 3 \/ k = 4 \/ e_ct demo_env k = record_class "m" "object" []) by (do 5 (destruct k as [|k]; [tauto|]); tauto).
    destruct Hk as [-> |[-> |[-> |[-> | ->]]]]; try discriminate; (apply init_keeps; [|]); cbn [map pa_name].
    1,3: repeat constructor; cbn; intuition discriminate.
    1,2: intros p x [<-|[<-|[]]]; try discriminate; intros [= <-]; reflexivity.
    + constructor.
    + intros p x [].
  - intros k a y attrs attrs'. do 5 (destruct k as [|k]; [first [discriminate | intros [= <-]; apply sset_keeps]|]). intros [= <-]; apply sset_keeps.
  - intros k p x. do 5 (destruct k as [|k]; [first [now intros [] | intros [<-|[<-|[]]]; first [discriminate | intros [= <-]; reflexivity]]|]). intros [].
  - intros k fd x. do 5 (destruct k as [|k]; [first [now intros [] | intros [<-|[<-|[]]]; first [discriminate | intros [= <-]; reflexivity]]|]). intros [].
  - intros t v r. discriminate.
Qed.
Example C81_ex_classes : classes_choiceless demo_env /\ classes_regular demo_env.
Proof.
  split; constructor.
  - intros k p. do 5 (destruct k as [|k]; [first [now intros [] | intros [<-|[<-|[]]]; cbn; auto with arith]|]). intros [].
  - intros k a t. do 5 (destruct k as [|k]; [intros []|]). intros [].
  - intros k fd. do 5 (destruct k as [|k]; [first [now intros [] | intros [<-|[<-|[]]]; cbn; auto with arith]|]). intros [].
  - intros f s t. discriminate.
  - intros k. do 5 (destruct k as [|k]; [repeat constructor; cbn; intuition discriminate|]). constructor.
  - intros k. do 5 (destruct k as [|k]; [repeat constructor; cbn; intuition discriminate|]). constructor.
  - intros k fd x. do 5 (destruct k as [|k]; [first [now intros [] | intros [<-|[<-|[]]]; first [discriminate | intros [= <-]; split; [exact I|reflexivity]]]|]). intros [].
Qed.
Definition four_docs : value := VList [john_doc; mary_doc; john_doc; mary_doc].
Lemma text_ordinary s : ordinary (VStr s).
Proof. now apply ordinary_atom. Qed.
Lemma person_ordinary a n : ordinary (str_dict [("age", VInt a); ("name", VStr n)]).
Proof.
  apply ordinary_dict; [reflexivity|repeat constructor; cbn; intuition discriminate|].
  intros k x [[= <- <-]|[[= <- <-]|[]]]; split; now apply ordinary_atom.
Qed.
Lemma list_ordinary l : (forall x, In x l -> ordinary x) -> ordinary (VList l).
Proof.
  intros H k d Hw. apply within_top in Hw as [Eq|(y & Hy & Hw)]; [discriminate|]. inversion Hy; subst. match goal with Hi : In y l |- _ => exact (H y Hi k d Hw) end.
Qed.
Example C81_ex_document : ordinary four_docs /\ objects 1 four_docs = 0 /\ places four_docs = 4.
Proof.
  split; [|split; reflexivity]. apply list_ordinary. intros x [<-|[<-|[<-|[<-|[]]]]]; apply person_ordinary.
Qed.
Example C81_ex_load : exists l, load demo_env 9 0 lopts0 (Some (TApp true HList [TClass 1])) four_docs = (l, Done (VList [john; mary; john; mary])) /\
  constructed 1 l = 4 /\ constructions l = 4.
Proof.
  assert (H : exists l, load demo_env 9 0 lopts0 (Some (TApp true HList [TClass 1])) four_docs = (l, Done (VList [john; mary; john; mary])))
    by (eexists; vm_compute; reflexivity).
  destruct H as [l H]. exists l. split; [exact H|].
  apply (C81_exactly_once demo_env 1 9 0 lopts0 (Some (TApp true HList [TClass 1])) four_docs l (VList [john; mary; john; mary])).
  - apply C81_ex_program.
  - split; [intros a x []|discriminate].
  - reflexivity.
  - apply C81_ex_classes.
  - apply C81_ex_classes.
  - intros g t; reflexivity.
  - intros g k k'; discriminate.
  - cbn. auto.
  - apply C81_ex_document.
  - exact H.
  - reflexivity.
Qed.
(** A group: three persons in the result, three calls of their constructor, one of Group's. *)
Example C81_ex_group :
  objects 1 group = 3 /\ constructed 1 (fst (load demo_env 9 0 lopts0 (Some (TClass 2)) group_doc)) = 3 /\
  constructions (fst (load demo_env 9 0 lopts0 (Some (TClass 2)) group_doc)) = 4 /\ places group_doc = 4.
Proof. repeat split; vm_compute; reflexivity. Qed.

(** ** With alternatives in a Union, the same part of the document may be constructed again. *)
Definition pair_with (t : ty) : ty := TApp true HTuple [TClass 1; t].
Definition two_ways : ty := TUnion [pair_with (TPrim PInt); pair_with (TPrim PStr)].
(** load([john, 'x'], Union[Tuple[Person, int], Tuple[Person, str]]) calls Person's constructor
    twice; one of the two objects is thrown away. *)
Theorem C81_choice_refuted : exists E t j l r, classes_choiceless E /\ classes_regular E /\ (forall g, default_deserializers E g) /\
  ordinary j /\ load E 9 0 lopts0 (Some t) j = (l, Done r) /\
  places j = 1 /\ objects 1 r = 1 /\ constructed 1 l = 2.
Proof.
  set (j := VList [john_doc; VStr "x"]).
  assert (H : exists l, load demo_env 9 0 lopts0 (Some two_ways) j = (l, Done (VTuple [john; VStr "x"])) /\ constructed 1 l = 2)
    by (eexists; split; [vm_compute; reflexivity|reflexivity]).
  destruct H as (l & H & Hl). exists demo_env, two_ways, j, l, (VTuple [john; VStr "x"]).
  split; [apply C81_ex_classes|]. split; [apply C81_ex_classes|]. split; [intros g t; reflexivity|]. split.
  - apply list_ordinary. intros x [<-|[<-|[]]]; [apply person_ordinary|apply text_ordinary].
  - split; [exact H|]. split; [reflexivity|]. split; [reflexivity|exact Hl].
Qed.
(** ** Not every constructed object is in the result, even without a choice. *)
(** warn_on_fail=True: the first of two groups cannot be loaded, and is left out with a warning;
    two persons were made for it. *)
Theorem C81_discarded_refuted : exists E o t j l r, classes_choiceless E /\ hint_choiceless (Some t) /\
  ordinary j /\ load E 9 0 o (Some t) j = (l, Done r) /\ objects 1 r = 0 /\ constructed 1 l = 2.
Proof.
  set (j := VList [str_dict [("lead", VInt 3); ("members", VList [john_doc; mary_doc])]]).
  set (o := mkLopts false [] None None false true None).
  assert (H : exists l, load demo_env 9 0 o (Some (TApp true HList [TClass 2])) j = (l, Done (VList [])) /\ constructed 1 l = 2)
    by (eexists; split; [vm_compute; reflexivity|reflexivity]).
  destruct H as (l & H & Hl). exists demo_env, o, (TApp true HList [TClass 2]), j, l, (VList []).
  split; [apply C81_ex_classes|]. split; [cbn; auto|]. split.
  - apply list_ordinary. intros x [<-|[]]. apply ordinary_dict; [reflexivity|repeat constructor; cbn; intuition discriminate|].
    intros k x [[= <- <-]|[[= <- <-]|[]]]; (split; [apply text_ordinary|]); [now apply ordinary_atom|].
    apply list_ordinary. intros y [<-|[<-|[]]]; apply person_ordinary.
  - split; [exact H|]. split; [reflexivity|exact Hl].
Qed.
Print Assumptions C81_objects_were_constructed.
Print Assumptions C81_no_more_than_places.
Print Assumptions C81_exactly_once.
Print Assumptions C81_choice_refuted.
Print Assumptions C81_discarded_refuted.
