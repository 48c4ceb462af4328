(** * C47: verbose dumps

    Model: EngineSer.v, EngineDeser.v.  Specification: VerboseSpec.v, in particular [tree],
    [lists_classes] and [no_clash]. *)
From Verif Require Import PyBaseFacts VerboseSpec DumpLaws LoadFacts RoundTripProofs VerboseLaws VerboseFacts.
Local Close Scope Z_scope.
Local Open Scope string_scope.

(** ** The document *)
(** A dump with WITH_CLASS_INFO is the plain dump with a '-meta' entry behind it, that maps the
    path of every object of the tree, and nothing else, to the name of its class. *)
Theorem C47_document : forall E f g o, default_serializers E f -> default_deserializers E g ->
  dictless_defaults (e_ct E) -> near_exact o -> so_class_info o = true -> so_store_cls o = false ->
  forall v, tree E g o v ->
  exists d hints N, lists_classes (e_ct E) v hints /\ dget (VStr "-meta") d = None /\
    forall n cls, N <= n -> object_cls (e_ct E) cls ->
      snd (dump E f n o cls v) = Done (VDict DkDict (d ++ [(VStr "-meta", meta_section E o hints)])) /\
      snd (dump E f n (silent o) cls v) = Done (VDict DkDict d).
Proof. exact verbose_document. Qed.
(** ** Round trip *)
(** Loaded without a class, or with its own class, the document becomes the same tree of
    objects, of the same classes, even if nothing is annotated; unless hints clash. *)
Theorem C47_round_trip : forall E f g o, default_serializers E f -> default_deserializers E g ->
  dictless_defaults (e_ct E) -> near_exact o -> so_class_info o = true -> so_store_cls o = false ->
  forall v, tree E g o v -> resolves E g v -> no_clash v ->
  exists j N, forall n m dcls lo lcls, N <= n -> N <= m -> object_cls (e_ct E) dcls ->
    exact_load lo -> lo_hints lo = None -> lcls = None \/ lcls = Some (class_of v) ->
    snd (dump E f n o dcls v) = Done j /\ snd (load E m g lo lcls j) = Done v.
Proof. exact verbose_round_trip. Qed.
(** In particular if names of attributes that hold objects are not used elsewhere *)
Theorem C47_own_names : forall v, own_names v -> no_clash v.
Proof. exact own_no_clash. Qed.
(** ** WITH_DUMP_TIME alone *)
(** Such a dump of an object is never loaded again: there is a '-meta' entry, but it does not
    name a class.  The error is a KeyError. *)
Theorem C47_dump_time_only : forall E f n o cls c attrs r,
  serializer E f cls (VObj c attrs) = Some SObject ->
  so_class_info o = false -> so_dump_time o = true -> so_store_cls o = false ->
  snd (dump E f n o cls (VObj c attrs)) = Done r ->
  forall m g lo lcls, lcls = None \/ (exists c', lcls = Some (TClass c')) ->
    load E (S m) g lo lcls r = fail (exn_of KKey).
Proof. exact dump_time_only. Qed.

(** ** Examples *)
(** class Person: name: str;  class Manager: name: str, level: int = 0;  class Team: lead, size:
    int;  class Firm: owner, team, tags: List[str];  class Board: group, lead;  class Crew:
    teams: List[Team], byname: Dict[str, Person] *)
Definition firm_ct : classes := fun c =>
  match c with
  | 1 => record_class "m" "Person" [mkParam "name" (Some (TPrim PStr)) None false]
  | 2 => record_class "m" "Manager" [mkParam "name" (Some (TPrim PStr)) None false;
                                     mkParam "level" (Some (TPrim PInt)) (Some (VInt 0)) false]
  | 3 => record_class "m" "Team" [mkParam "lead" None None false;
                                  mkParam "size" (Some (TPrim PInt)) None false]
  | 4 => record_class "m" "Firm" [mkParam "owner" None None false; mkParam "team" None None false;
                                  mkParam "tags" (Some (TApp true HList [TPrim PStr])) None false]
  | 5 => record_class "m" "Board" [mkParam "group" None None false; mkParam "lead" None None false]
  | 6 => record_class "m" "Crew" [mkParam "teams" (Some (TApp true HList [TClass 3])) None false]
  | 7 => record_class "m" "Index" [mkParam "members" None None false]
  | _ => record_class "m" "object" []
  end.
Definition firm_env : env :=
  let E := std_env firm_ct demo_rt in
  mkEnv (e_ct E) (e_rt E) (e_object E) (e_ser E) (e_deser E) (e_validator E) (e_warn E)
        (fun _ s => match find (fun c => String.eqb s (ci_name (firm_ct c))) [1; 2; 3; 4; 5; 6; 7] with
                    | Some c => Ok (TClass c)
                    | None => raise KUnknownClass
                    end)
        (e_cser E) (e_cdeser E).
Definition verbose : sopts :=
  mkSopts false false None false false false SANone true true false true false [].
Definition ann : value := VObj 1 [("name", VStr "Ann")].
Definition bob : value := VObj 2 [("name", VStr "Bob"); ("level", VInt 7)].
Definition team : value := VObj 3 [("lead", ann); ("size", VInt 3)].
Definition firm : value := VObj 4 [("owner", bob); ("team", team); ("tags", VList [VStr "x"])].
Definition firm_hints : list (value * value) :=
  [(VStr "/owner", VStr "m.Manager"); (VStr "/team/lead", VStr "m.Person"); (VStr "/team", VStr "m.Team");
   (VStr "/", VStr "m.Firm")].
Definition firm_doc : value := str_dict
  [("owner", str_dict [("level", VInt 7); ("name", VStr "Bob")]);
   ("tags", VList [VStr "x"]);
   ("team", str_dict [("lead", str_dict [("name", VStr "Ann")]); ("size", VInt 3)]);
   ("-meta", str_dict [("classes", VDict DkDict firm_hints); ("dump_time", VStr "2020-01-01T00:00:00Z")])].

Lemma init_all ps args : NoDup (map pa_name ps) -> map fst args = map pa_name ps -> init_of ps args = Ok args.
Proof.
  intros Hn Hm. unfold init_of.
  assert (Hf : forallb (fun kv => mem_str (fst kv) (map pa_name ps)) args = true).
  { apply forallb_forall. intros [a x] Hin. apply mem_str_In. rewrite <- Hm. apply in_map_iff. now exists (a, x). }
  rewrite Hf.
  assert (G : forall l qs, map fst l = map pa_name qs -> (forall a x, In (a, x) l -> In (a, x) args) -> take_params qs args = Ok l).
  { induction l as [|[a x] l IH]; intros [|q qs] He Hin; try discriminate; [reflexivity|]. cbn [map fst] in He. injection He as -> He.
    cbn [take_params]. rewrite (IH qs He) by (intros; apply Hin; now right). cbn [rbind].
    rewrite (sget_NoDup (pa_name q) x args); [reflexivity|now rewrite Hm|apply Hin; now left]. }
  now apply G.
Qed.
Lemma firm_ordinary c : ordinary (firm_ct c).
Proof.
  split.
  - unfold fresh_name. intros H. apply mem_str_In in H. revert H.
    do 8 (destruct c as [|c]; [vm_compute; discriminate|]). vm_compute; discriminate.
  - intros t H. exfalso. revert H. do 8 (destruct c as [|c]; [intros []|]). intros [].
Qed.
Lemma record_node m s ps c : firm_ct c = record_class m s ps -> NoDup (map pa_name ps) ->
  (forall p, In p ps -> In (pa_name p) ["name"; "level"; "lead"; "size"; "owner"; "team"; "tags"; "group"]) ->
  node_like firm_ct verbose c.
Proof.
  intros Hc Hn Hp. constructor; try rewrite Hc.
  - reflexivity.
  - rewrite <- Hc. apply firm_ordinary.
  - reflexivity.
  - intros a; discriminate.
  - exact Hn.
  - intros args. now apply init_all.
  - intros a [].
  - intros p Hin. apply Hp in Hin. cbn [ci_members record_class].
    assert (Hv : forall a, prefix "__" a = false -> ~ In a abc_names -> ~ In a json_serializable_names -> visible [] verbose [] a)
      by (intros a H1 H3 H4; repeat split; auto; discriminate).
    repeat (destruct Hin as [Hin|Hin]; [rewrite <- Hin; split; [apply Hv; (reflexivity || (cbn; intuition discriminate))|];
      split; [reflexivity|]; split; [discriminate|]; split; [repeat split; discriminate|discriminate]|]). destruct Hin.
Qed.
Ltac node := eapply record_node; [reflexivity|repeat constructor; cbn; intuition discriminate|intros p Hp; repeat (destruct Hp as [<-|Hp]; [cbn; tauto|]); destruct Hp].
Lemma typed_prim p v : class_of v = TPrim p -> has_type firm_env 0 verbose (TPrim p) v.
Proof. intros H. apply ht_prim; [exact H|exact I]. Qed.
Lemma ann_tree : tree firm_env 0 verbose ann.
Proof.
  apply tree_obj; [node|reflexivity| |exact I]. intros p x [H|[]]; injection H as <- <-.
  left. split; [reflexivity|]. eexists. split; [reflexivity|]. split; [now apply typed_prim|now left].
Qed.
Lemma bob_tree : tree firm_env 0 verbose bob.
Proof.
  apply tree_obj; [node|reflexivity| |exact I]. intros p x [H|[H|[]]]; injection H as <- <-;
  (left; split; [reflexivity|]; eexists; split; [reflexivity|]; split; [now apply typed_prim|now left]).
Qed.
Lemma team_tree : tree firm_env 0 verbose team.
Proof.
  apply tree_obj; [node|reflexivity| |exact I]. intros p x [H|[H|[]]]; injection H as <- <-.
  - right. split; [exact ann_tree|now left].
  - left. split; [reflexivity|]. eexists. split; [reflexivity|]. split; [now apply typed_prim|now left].
Qed.
Example C47_firm : tree firm_env 0 verbose firm.
Proof.
  apply tree_obj; [node|reflexivity| |exact I]. intros p x [H|[H|[H|[]]]]; injection H as <- <-.
  - right. split; [exact bob_tree|now left].
  - right. split; [exact team_tree|now left].
  - left. split; [reflexivity|]. eexists. split; [reflexivity|]. split; [|now left].
    eapply (ht_sequence _ _ _ true HList); [constructor|intros [|]; discriminate| |exact I].
    intros x [<-|[]]. now apply typed_prim.
Qed.
Lemma part_cases v p w : part v p w ->
  (p = [] /\ w = v) \/ exists a q c attrs x, v = VObj c attrs /\ p = a :: q /\ In (a, x) attrs /\ part x q w.
Proof. intros H. destruct H as [v|c attrs a x q w Hin Hp]; [now left|]. right. now exists a, q, c, attrs, x. Qed.
Lemma firm_parts p c attrs : part firm p (VObj c attrs) ->
  (p = [] /\ VObj c attrs = firm) \/ (p = ["owner"] /\ VObj c attrs = bob) \/ (p = ["team"] /\ VObj c attrs = team) \/
  (p = ["team"; "lead"] /\ VObj c attrs = ann).
Proof.
  remember (VObj c attrs) as w eqn:Hw. intros H.
  destruct (part_cases _ _ _ H) as [[-> ->]|(a & q & c1 & l1 & x & H1 & -> & Hin & Hx)]; [tauto|]. injection H1 as <- <-.
  destruct Hin as [Hin|[Hin|[Hin|[]]]]; injection Hin as <- <-;
    destruct (part_cases _ _ _ Hx) as [[-> ->]|(a2 & q2 & c2 & l2 & x2 & H2 & -> & Hin2 & Hx2)]; try tauto; try discriminate;
    injection H2 as <- <-.
  - destruct Hin2 as [Hin|[Hin|[]]]; injection Hin as <- <-;
      destruct (part_cases _ _ _ Hx2) as [[-> ->]|(a3 & q3 & c3 & l3 & x3 & H3 & _)]; discriminate.
  - destruct Hin2 as [Hin|[Hin|[]]]; injection Hin as <- <-;
      destruct (part_cases _ _ _ Hx2) as [[-> ->]|(a3 & q3 & c3 & l3 & x3 & H3 & -> & Hin3 & Hx3)]; try discriminate; [tauto|].
    injection H3 as <- <-. destruct Hin3 as [Hin|[]]; injection Hin as <- <-.
    destruct (part_cases _ _ _ Hx3) as [[-> ->]|(a4 & q4 & c4 & l4 & x4 & H4 & _)]; discriminate.
Qed.
Example C47_firm_resolves : resolves firm_env 0 firm.
Proof.
  intros p c attrs H. apply firm_parts in H as [[_ H]|[[_ H]|[[_ H]|[_ H]]]]; injection H as -> _; reflexivity.
Qed.
Example C47_firm_names : own_names firm.
Proof.
  intros p q a x c attrs c' attrs' Hp Hx Hq.
  apply firm_parts in Hq as [[Hq _]|[[Hq _]|[[Hq _]|[Hq _]]]].
  - now destruct q.
  - destruct q as [|b [|b' q]]; try discriminate; injection Hq as ->.
    apply firm_parts in Hp as [[-> H]|[[-> H]|[[-> H]|[-> H]]]]; injection H as -> ->; try reflexivity;
      repeat (destruct Hx as [Hx|Hx]; [discriminate|]); destruct Hx.
  - destruct q as [|b [|b' q]]; try discriminate; injection Hq as ->.
    apply firm_parts in Hp as [[-> H]|[[-> H]|[[-> H]|[-> H]]]]; injection H as -> ->; try reflexivity;
      repeat (destruct Hx as [Hx|Hx]; [discriminate|]); destruct Hx.
  - destruct q as [|b [|b' [|b2 q]]]; try discriminate; injection Hq as -> ->.
    apply firm_parts in Hp as [[-> H]|[[-> H]|[[-> H]|[-> H]]]]; injection H as -> ->; try reflexivity;
      repeat (destruct Hx as [Hx|Hx]; [discriminate|]); destruct Hx.
Qed.
Example C47_ex_firm :
  dictless_defaults firm_ct /\ near_exact verbose /\
  snd (dump firm_env 0 9 verbose None firm) = Done firm_doc /\
  snd (load firm_env 9 0 lopts0 None firm_doc) = Done firm.
Proof.
  split; [|split; [|split]].
  - intros c fields fd x H. exfalso. revert H. do 8 (destruct c as [|c]; [discriminate|]). discriminate.
  - repeat split; try reflexivity.
  - vm_compute. reflexivity.
  - vm_compute. reflexivity.
Qed.
Definition timed : sopts :=
  mkSopts false false None false false false SANone false true false true false [].
Example C47_ex_dump_time :
  snd (dump firm_env 0 9 timed None ann) =
    Done (str_dict [("name", VStr "Ann"); ("-meta", str_dict [("dump_time", VStr "2020-01-01T00:00:00Z")])]) /\
  snd (load firm_env 9 0 lopts0 None (str_dict [("name", VStr "Ann"); ("-meta", str_dict [("dump_time", VStr "2020-01-01T00:00:00Z")])]))
    = Fail (exn_of KKey).
Proof. split; vm_compute; reflexivity. Qed.

(** ** Clashes *)
(** Without [no_clash] an object may come back as an instance of another class: here the lead
    of the group, a Person, comes back as a Manager, because the board has a lead as well. *)
Definition board : value := VObj 5 [("group", team); ("lead", bob)].
Lemma board_resolves : resolves firm_env 0 board.
Proof.
  intros p c attrs H. remember (VObj c attrs) as w eqn:Hw.
  destruct (part_cases _ _ _ H) as [[-> ->]|(a & q & c1 & l1 & x & H1 & -> & Hin & Hx)]; [injection Hw as <- _; reflexivity|]. injection H1 as <- <-.
  destruct Hin as [Hin|[Hin|[]]]; injection Hin as <- <-.
  - subst w. apply (C47_firm_resolves ("team" :: q) c attrs). apply part_attr with team; [right; now left|exact Hx].
  - subst w. apply (C47_firm_resolves ("owner" :: q) c attrs). apply part_attr with bob; [now left|exact Hx].
Qed.
Theorem C47_clash_refuted : exists E f g o v j w,
  default_serializers E f /\ default_deserializers E g /\ dictless_defaults (e_ct E) /\ near_exact o /\
  so_class_info o = true /\ so_store_cls o = false /\ tree E g o v /\ resolves E g v /\
  snd (dump E f 9 o None v) = Done j /\ snd (load E 9 g lopts0 None j) = Done w /\ w <> v /\
  part v ["group"; "lead"] (VObj 1 [("name", VStr "Ann")]) /\
  part w ["group"; "lead"] (VObj 2 [("name", VStr "Ann"); ("level", VInt 0)]).
Proof.
  exists firm_env, 0, 0, verbose, board.
  eexists. exists (VObj 5 [("group", VObj 3 [("lead", VObj 2 [("name", VStr "Ann"); ("level", VInt 0)]); ("size", VInt 3)]); ("lead", bob)]).
  split; [intro; reflexivity|]. split; [intro; reflexivity|]. split; [apply C47_ex_firm|]. split; [apply C47_ex_firm|].
  split; [reflexivity|]. split; [reflexivity|]. split.
  { apply tree_obj; [node|reflexivity| |exact I]. intros p x [H|[H|[]]]; injection H as <- <-.
    - right. split; [exact team_tree|now left].
    - right. split; [exact bob_tree|now left]. }
  split; [exact board_resolves|].
  split; [vm_compute; reflexivity|]. split; [vm_compute; reflexivity|]. split; [discriminate|]. split.
  - eapply part_attr; [left; reflexivity|]. eapply part_attr; [left; reflexivity|]. apply part_self.
  - eapply part_attr; [left; reflexivity|]. eapply part_attr; [left; reflexivity|]. apply part_self.
Qed.
(** Objects in lists have their own '-meta' section, but those of the objects within them are
    not used: the lead comes back as a dict. *)
Theorem C47_list_refuted : exists E v j w d,
  snd (dump E 0 9 verbose None v) = Done j /\ snd (load E 9 0 lopts0 None j) = Done w /\
  v = VObj 6 [("teams", VList [team])] /\
  w = VObj 6 [("teams", VList [VObj 3 [("lead", VDict DkDict d); ("size", VInt 3)]])].
Proof.
  exists firm_env, (VObj 6 [("teams", VList [team])]). do 3 eexists.
  split; [vm_compute; reflexivity|]. split; [vm_compute; reflexivity|]. split; reflexivity.
Qed.
(** What is listed for the outer object is used within the objects of a list instead: the lead
    of the team, a Person according to the team's own section, comes back as a Manager, since
    the board's lead is one. *)
Theorem C47_leak_refuted : exists E v j w,
  snd (dump E 0 9 verbose None v) = Done j /\ snd (load E 9 0 lopts0 None j) = Done w /\
  v = VObj 5 [("group", VList [team]); ("lead", bob)] /\
  w = VObj 5 [("group", VList [VObj 3 [("lead", VObj 2 [("name", VStr "Ann"); ("level", VInt 0)]); ("size", VInt 3)]]);
              ("lead", bob)].
Proof.
  exists firm_env, (VObj 5 [("group", VList [team]); ("lead", bob)]). do 2 eexists.
  split; [vm_compute; reflexivity|]. split; [vm_compute; reflexivity|]. split; reflexivity.
Qed.
(** The class of an object in a dict is not listed. *)
Theorem C47_dict_refuted : exists E v d hints,
  snd (dump E 0 9 verbose None v) = Done (VDict DkDict (d ++ [(VStr "-meta", meta_section E verbose hints)])) /\
  v = VObj 7 [("members", str_dict [("a", ann)])] /\
  dget (VStr "/members/a") hints = Some VNone.
Proof.
  exists firm_env, (VObj 7 [("members", str_dict [("a", ann)])]),
    [(VStr "members", str_dict [("a", str_dict [("name", VStr "Ann")])])],
    [(VStr "/members/a", VNone); (VStr "/members", VStr "T"); (VStr "/", VStr "m.Index")].
  split; [vm_compute; reflexivity|]. split; reflexivity.
Qed.

Print Assumptions C47_document.
Print Assumptions C47_round_trip.
Print Assumptions C47_own_names.
Print Assumptions C47_dump_time_only.
Print Assumptions C47_clash_refuted.
Print Assumptions C47_list_refuted.
Print Assumptions C47_leak_refuted.
Print Assumptions C47_dict_refuted.
