(** * C59: loading with several tasks

    Model: ParallelModel.v (load with [tasks], on top of EngineDeser.v and MultitaskModel.v).
    [sch] has the schedules of the tasks: which task runs when, for each list. *)
From Coq Require Import Lia.
From Verif Require Import PyBaseFacts LoadSpec LoadTypes ConformProofs RoundTripFacts ParallelSpec ParallelProofs PropConform.
Local Open Scope string_scope.

(** With [tasks=1] this is the load of all other properties. *)
Theorem C59_one_task : forall E sch n f o cls j,
  snd (tload E sch n 1 f o cls j) = snd (load E n f o cls j).
Proof. exact tload_one. Qed.

(** Whatever loads with one task loads with any number of tasks, and gives the same, if the
    schedules are fair, the default fork is used and the document is tidy: no empty lists, lists
    where lists are expected, and no unions but optionals. *)
Theorem C59_same_result : forall E sch n k o t j v,
  default_deserializers E 0 -> (1 <= k)%Z -> plain_options o -> plain_input j ->
  tidy (e_ct E) (lo_strict o) t j -> fair (Z.to_nat k) sch ->
  snd (load E n 0 o t j) = Done v ->
  snd (tload E sch n k 0 o t j) = Done v.
Proof. exact same_result_fair. Qed.
(** Other schedules give the same or do not finish. *)
Theorem C59_any_schedule : forall E sch n k o t j v,
  default_deserializers E 0 -> (1 <= k)%Z -> plain_options o -> plain_input j ->
  tidy (e_ct E) (lo_strict o) t j ->
  snd (load E n 0 o t j) = Done v ->
  snd (tload E sch n k 0 o t j) = Done v \/ snd (tload E sch n k 0 o t j) = Oof.
Proof. exact same_result_any. Qed.
Theorem C59_fair_schedules : forall k, exists sch, fair k sch.
Proof. exact fair_exists. Qed.

(** A list, failures included: the elements are loaded with the default fork, whatever fork is
    asked for, and an element that cannot be loaded becomes 0, together with the rest of its
    part. *)
Theorem C59_lists : forall E sch n k f o b t l,
  e_deser E f (TApp b HList [t]) = Some DList -> e_validator E f (TApp b HList [t]) = None ->
  no_hints o -> (1 < k)%Z -> l <> [] ->
  let left := Z.of_nat (tasks_left (Z.to_nat k) (length l)) in
  let outs := map (fun x => snd (tload E sch n left 0 (elem_opts o true) (Some t) x)) l in
  ~ In Oof outs ->
  fair_schedule (Z.to_nat k) (2 * length l + Z.to_nat k) (sch n (VList l)) ->
  exists ys, snd (tload E sch (S n) k f o (Some (TApp b HList [t])) (VList l)) = Done (VList ys) /\
             filled (Z.to_nat k) outs ys.
Proof. exact list_filled. Qed.
(** Without tasks *)
Theorem C59_no_tasks : forall E sch n k f o b t l,
  e_deser E f (TApp b HList [t]) = Some DList -> (k < 1)%Z ->
  snd (tload E sch (S n) k f o (Some (TApp b HList [t])) (VList l)) = Fail (exn_of KJsons).
Proof. exact no_tasks_fails. Qed.

(** ** Cases *)
Definition robin (n : nat) (j : value) : list action := round_robin 3 20.
Lemma robin_fair k m : k <= 3 -> m <= 20 -> forall n j, fair_schedule k m (robin n j).
Proof.
  intros Hk Hm n j. destruct (round_robin_fair 3 20) as (rs & H1 & H2 & H3). exists rs. split; [exact H1|].
  split; [|lia]. eapply Forall_impl; [|exact H2]. intros r [Ha Hb]. split; [exact Ha|]. intros i Hi. apply Hb. lia.
Qed.
Lemma demo_ordinary c : ordinary (demo_ct c).
Proof.
  split; [apply demo_fresh|]. intros t H. exfalso. revert H.
  do 5 (destruct c as [|c]; [intros []|]). intros [].
Qed.
Lemma person_tidy name age : tidy demo_ct false (Some (TClass 1)) (str_dict [("age", VInt age); ("name", VStr name)]).
Proof.
  apply td_object; [apply demo_ordinary|reflexivity| |].
  - intros p x [<-|[<-|[]]] [H|[H|[]]]; cbn in H; try discriminate; injection H as <-; apply td_leaf; exact I.
  - intros a x [H|[H|[]]] Hn; injection H as <- <-; elim Hn; cbn; auto.
Qed.
Lemma group_tidy : tidy demo_ct false (Some (TClass 2)) group_doc.
Proof.
  apply td_object; [apply demo_ordinary|reflexivity| |].
  - intros p x [<-|[<-|[]]] [H|[H|[]]]; cbn in H; try discriminate; injection H as <-.
    + apply td_list; [exact I|discriminate|]. constructor; [apply person_tidy|]. constructor; [apply person_tidy|constructor].
    + apply td_optional; [discriminate|]. apply person_tidy.
  - intros a x [H|[H|[]]] Hn; injection H as <- <-; elim Hn; cbn; auto.
Qed.
Example C59_case :
  plain_options lopts0 /\ plain_input group_doc /\ tidy demo_ct false (Some (TClass 2)) group_doc /\
  snd (load demo_env 9 0 lopts0 (Some (TClass 2)) group_doc) = Done group /\
  snd (tload demo_env robin 9 3 0 lopts0 (Some (TClass 2)) group_doc) = Done group /\
  snd (tload demo_env (fun _ _ => []) 9 3 0 lopts0 (Some (TClass 2)) group_doc) = Oof.
Proof.
  split; [split; [now left|]; split; [discriminate|reflexivity]|]. split; [now apply plain_input_sound|].
  split; [exact group_tidy|]. split; [reflexivity|]. split; vm_compute; reflexivity.
Qed.
(** [True, None, 2, 3] as List[int] with two tasks: None is the end of the first part. *)
Example C59_lists_case :
  let l := [VBool true; VNone; VInt 2; VInt 3] in
  snd (tload demo_env robin 9 2 0 lopts0 (Some (TApp true HList [TPrim PInt])) (VList l)) =
    Done (VList [VBool true; VInt 0; VInt 2; VInt 3]) /\
  exists e, snd (load demo_env 9 0 lopts0 (Some (TApp true HList [TPrim PInt])) (VList l)) = Fail e /\
    e_kind e = KDeser /\ e_idx e = [1].
Proof. split; [vm_compute; reflexivity|]. eexists. split; [vm_compute; reflexivity|]. split; reflexivity. Qed.

(** ** What several tasks change *)
(** Empty lists cannot be loaded. *)
Theorem C59_empty_lists_refuted : forall E sch n k f o b t,
  e_deser E f (TApp b HList [t]) = Some DList -> no_hints o -> (1 < k)%Z ->
  snd (tload E sch (S n) k f o (Some (TApp b HList [t])) (VList [])) = Fail (exn_of KDeser).
Proof. exact empty_list_fails. Qed.
Example C59_empty_lists_case :
  snd (load demo_env 9 0 lopts0 (Some (TApp true HList [TPrim PInt])) (VList [])) = Done (VList []).
Proof. reflexivity. Qed.
(** Sets are loaded as lists of zeros, whatever their elements are. *)
Theorem C59_sets_refuted : forall E sch n k f o b t l,
  e_deser E f (TApp b HList [t]) = Some DList -> e_validator E f (TApp b HList [t]) = None ->
  no_hints o -> (1 < k)%Z -> l <> [] ->
  fair_schedule (Z.to_nat k) (2 * length l + Z.to_nat k) (sch n (VColl CSet l)) ->
  snd (tload E sch (S n) k f o (Some (TApp b HList [t])) (VColl CSet l)) =
    Done (VList (repeat (VInt 0) (length l))).
Proof. exact set_zeros. Qed.
Example C59_sets_case :
  let T := TApp true HList [TPrim PStr] in let j := VColl CSet [VStr "a"; VStr "b"] in
  snd (load demo_env 9 0 lopts0 (Some T) j) = Done (VList [VStr "a"; VStr "b"]) /\
  snd (tload demo_env robin 9 2 0 lopts0 (Some T) j) = Done (VList [VInt 0; VInt 0]).
Proof. split; vm_compute; reflexivity. Qed.
(** A fork's own deserializers are not used for the elements of lists. *)
Theorem C59_forks_refuted : exists E n f o t j v w,
  e_deser E f (TApp true HList [t]) = Some DList /\ tidy (e_ct E) (lo_strict o) (Some (TApp true HList [t])) j /\
  plain_options o /\ plain_input j /\ v <> w /\
  snd (load E n f o (Some (TApp true HList [t])) j) = Done v /\
  forall k sch, (1 < k)%Z -> fair (Z.to_nat k) sch ->
    snd (tload E sch n k f o (Some (TApp true HList [t])) j) = Done w.
Proof.
  pose (E := mkEnv demo_ct demo_rt 0 (fun _ => default_ser demo_ct)
    (fun f t => if Nat.eqb f 1 && ty_eqb t (TClass 3) then Some (DCustom 0) else default_deser demo_ct t)
    (fun _ _ => None) (fun _ _ => true) (fun _ _ => raise KUnknownClass) (fun _ _ _ => raise KType)
    (fun _ _ j => Ok (VEnum 3 "GREEN"))).
  exists E, 3, 1, lopts0, (TClass 3), (VList [VStr "RED"]), (VList [VEnum 3 "GREEN"]), (VList [VEnum 3 "RED"]).
  split; [reflexivity|]. split.
  { apply td_list; [exact I|discriminate|]. constructor; [|constructor]. apply td_leaf. split; [apply demo_ordinary|]. eexists _, _. reflexivity. }
  split; [split; [now left|]; split; [discriminate|reflexivity]|]. split; [now apply plain_input_sound|].
  split; [discriminate|]. split; [vm_compute; reflexivity|]. intros k sch Hk HF.
  assert (Hd : default_deserializers E 0) by (intros t; reflexivity).
  pose proof (list_filled E sch 2 k 1 lopts0 true (TClass 3) [VStr "RED"] eq_refl eq_refl (or_introl eq_refl) Hk
                ltac:(discriminate)) as H. cbv zeta in H.
  assert (X : forall z, snd (tload E sch 2 z 0 (elem_opts lopts0 true) (Some (TClass 3)) (VStr "RED")) = Done (VEnum 3 "RED")).
  { intros z. rewrite (pure_same E sch 2 z (Some (TClass 3)) (VStr "RED") (elem_opts lopts0 true) DEnum);
      [vm_compute; reflexivity|exact I|intros ? ? ? Y; discriminate Y|vm_compute; reflexivity|reflexivity]. }
  destruct H as (ys & Hy & Hlen & Hfill).
  - cbn [map]. rewrite X. intros [Y|[]]. discriminate Y.
  - exact (HF 2 [VStr "RED"]).
  - rewrite Hy. do 2 f_equal. cbn [map length] in Hlen. destruct ys as [|y [|? ?]]; try discriminate Hlen. f_equal.
    destruct (Hfill 0 y eq_refl) as [Hg _]. cbn [map] in Hg. rewrite X in Hg.
    assert (Y : Some (Done (VEnum 3 "RED")) = Some (Done y)); [|congruence]. apply Hg.
    intros i Hi. assert (i = 0) by lia. subst i. eexists. reflexivity.
Qed.
(** [warn_on_fail] has no effect: elements that fail become 0 instead of being dropped. *)
Theorem C59_warn_on_fail_refuted : exists E n o t j v w,
  default_deserializers E 0 /\ lo_warn o = true /\ v <> w /\
  snd (load E n 0 o (Some (TApp true HList [t])) j) = Done v /\
  snd (tload E robin n 2 0 o (Some (TApp true HList [t])) j) = Done w.
Proof.
  exists demo_env, 4, (set_warn true lopts0), (TPrim PInt), (VList [VNone; VInt 3]),
    (VList [VInt 3]), (VList [VInt 0; VInt 3]).
  split; [intros t; reflexivity|]. split; [reflexivity|]. split; [discriminate|]. split; vm_compute; reflexivity.
Qed.
(** A union takes the first list type, whatever the elements are. *)
Theorem C59_unions_refuted : exists E n t j v w,
  default_deserializers E 0 /\ v <> w /\
  snd (load E n 0 lopts0 (Some t) j) = Done v /\
  snd (tload E robin n 2 0 lopts0 (Some t) j) = Done w.
Proof.
  exists demo_env, 6, (TUnion [TApp true HList [TClass 3]; TApp true HList [TPrim PStr]]), (VList [VStr "a"; VStr "b"]),
    (VList [VStr "a"; VStr "b"]), (VList [VInt 0; VInt 0]).
  split; [intros t; reflexivity|]. split; [discriminate|]. split; vm_compute; reflexivity.
Qed.

Print Assumptions C59_one_task.
Print Assumptions C59_same_result.
Print Assumptions C59_any_schedule.
Print Assumptions C59_fair_schedules.
Print Assumptions C59_lists.
Print Assumptions C59_no_tasks.
Print Assumptions C59_empty_lists_refuted.
Print Assumptions C59_sets_refuted.
Print Assumptions C59_forks_refuted.
Print Assumptions C59_warn_on_fail_refuted.
Print Assumptions C59_unions_refuted.
