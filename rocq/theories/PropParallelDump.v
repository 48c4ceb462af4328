(** * C68: dumping with several tasks

    Model: ParallelDumpModel.v (dump with [tasks], on top of EngineSer.v and MultitaskModel.v).
    [sch] has the schedules of the tasks: which task runs when, for each iterable.
    Specification: ParallelDumpSpec.v. *)
From Coq Require Import Lia.
From Verif Require Import PyBaseFacts ParallelProofs ParallelDumpProofs PropParallel.
Local Open Scope string_scope.

(** With fewer than two tasks this is the dump of all other properties. *)
Theorem C68_one_task : forall E sch f n k o cls v, (k < 2)%Z ->
  snd (tdump E sch f n k o cls v) = snd (dump E f n o cls v).
Proof. exact tdump_one. Qed.
(** Any number of tasks gives the same, failures included, if the schedules are fair and each
    outermost tuple, set or other iterable has elements and can be dumped. *)
Theorem C68_same_result : forall E sch f n k o cls v,
  steady E f o cls v -> fair_dump E (Z.to_nat k) sch ->
  snd (tdump E sch f n k o cls v) = snd (dump E f n o cls v).
Proof. exact dump_fair. Qed.
(** Other schedules give the same or do not finish. *)
Theorem C68_any_schedule : forall E sch f n k o cls v, steady E f o cls v ->
  snd (tdump E sch f n k o cls v) = snd (dump E f n o cls v) \/ snd (tdump E sch f n k o cls v) = Oof.
Proof. exact dump_any. Qed.
Theorem C68_fair_schedules : forall E k, exists sch, fair_dump E k sch.
Proof. exact fair_dump_exists. Qed.
(** Without such iterables nothing is shared out: lists, dicts and objects are dumped by one
    task, whatever [tasks] is. *)
Theorem C68_nothing_shared : forall E sch f n k o cls v,
  (forall c x, outer E f o cls v c x -> ~ shared_out (serializer E f c x) x) ->
  snd (tdump E sch f n k o cls v) = snd (dump E f n o cls v).
Proof. exact dump_unshared. Qed.
(** An iterable, failures included: the dump never fails; an element that cannot be dumped becomes
    0, together with the rest of its part. *)
Theorem C68_iterables : forall E sch f n k o v l,
  shared_out (serializer E f None v) v -> so_strict o = false -> so_store_cls o = false ->
  py_iter (e_rt E) v = Ok l -> l <> [] -> (1 < k)%Z ->
  let outs := map (fun x => snd (dump E f n o None x)) l in
  ~ In Oof outs -> fair_schedule (Z.to_nat k) (2 * length l + Z.to_nat k) (sch n v) ->
  exists ys, snd (tdump E sch f (S n) k o None v) = Done (VList ys) /\ filled (Z.to_nat k) outs ys.
Proof. exact shared_filled. Qed.

(** ** Cases *)
(** [(john, (), mary), {1, 2}] *)
Definition two_shared : value :=
  VList [VTuple [john; VTuple []; mary]; VColl CSet [VInt 1; VInt 2]].
Definition two_shared_doc : value :=
  VList [VList [john_doc; VList []; mary_doc]; VList [VInt 1; VInt 2]].
Lemma two_shared_outer c x : outer demo_env 0 sopts0 None two_shared c x ->
  c = None /\ In x [two_shared; VTuple [john; VTuple []; mary]; VColl CSet [VInt 1; VInt 2]].
Proof.
  assert (Hs : forall z, In z [two_shared; VTuple [john; VTuple []; mary]; VColl CSet [VInt 1; VInt 2]] ->
    z = two_shared \/ serializer demo_env 0 None z = Some STuple /\ (forall i l, z <> VNT i l) \/
    serializer demo_env 0 None z = Some SIterable).
  { intros z [<-|[<-|[<-|[]]]]; [now left|right; left|right; right]; [|vm_compute; reflexivity].
    split; [vm_compute; reflexivity|discriminate]. }
  assert (Hl : serializer demo_env 0 None two_shared = Some SList) by (vm_compute; reflexivity).
  induction 1 as [|c x l y t _ [-> IH] Hi Hl' Hy Ht|c x k y t _ [-> IH] Hd _ _
                        |c x a y t _ [-> IH] Hd _ _|c x t _ [-> IH] Hd _ _|c off name _ [-> IH] _].
  - split; [reflexivity|now left].
  - destruct (Hs x IH) as [->|[[Hh _]|Hh]]; [|destruct Hi; congruence|destruct Hi; congruence].
    cbn in Hl'. injection Hl' as <-. split; [|right; exact Hy].
    destruct Ht as [|u []|y' H'|y' u H']; [reflexivity|discriminate H'|discriminate H'].
  - destruct (Hs x IH) as [->|[[Hh _]|Hh]]; congruence.
  - destruct (Hs x IH) as [->|[[Hh Hn]|Hh]]; destruct Hd as [Hd|[Hd (i & l & ->)]]; try congruence.

  - destruct (Hs x IH) as [->|[[Hh _]|Hh]]; congruence.
  - destruct IH as [IH|[IH|[IH|[]]]]; discriminate IH.
Qed.
Lemma two_shared_steady : steady demo_env 0 sopts0 None two_shared.
Proof.
  intros c x l Hx Hsh Hl. apply two_shared_outer in Hx as [-> Hx].
  destruct Hx as [<-|[<-|[<-|[]]]]; cbn in Hl; injection Hl as <-; (split; [discriminate|]);
    intros o' (st & ts & at_ & Ht & Ha & ->); exists 9;
    assert (ts = []) as -> by (destruct Ht; assumption);
    destruct Ha as [-> | ->]; destruct st; eexists; vm_compute; reflexivity.
Qed.
Example C68_case :
  steady demo_env 0 sopts0 None two_shared /\
  snd (dump demo_env 0 9 sopts0 None two_shared) = Done two_shared_doc /\
  snd (tdump demo_env robin 0 9 3 sopts0 None two_shared) = Done two_shared_doc /\
  snd (tdump demo_env (fun _ _ => []) 0 9 3 sopts0 None two_shared) = Oof.
Proof. split; [exact two_shared_steady|]. split; [vm_compute; reflexivity|]. split; vm_compute; reflexivity. Qed.
(** A group has no tuples or sets: the schedule does not matter. *)
Example C68_nothing_shared_case :
  snd (tdump demo_env (fun _ _ => []) 0 9 3 sopts0 None group) = snd (dump demo_env 0 9 sopts0 None group) /\
  snd (dump demo_env 0 9 sopts0 None group) = Done group_doc.
Proof. split; vm_compute; reflexivity. Qed.
(** The tuple (1, john, 2, 3) with two tasks, when john cannot be dumped since [strip_attr] is a
    list: john is the end of the first part. *)
Example C68_iterables_case :
  let o := set_attr_opt (SAList ["age"]) sopts0 in
  let v := VTuple [VInt 1; john; VInt 2; VInt 3] in
  shared_out (serializer demo_env 0 None v) v /\
  snd (tdump demo_env robin 0 9 2 o None v) = Done (VList [VInt 1; VInt 0; VInt 2; VInt 3]) /\
  snd (dump demo_env 0 9 o None v) = Fail (exn_of KSer).
Proof.
  split; [right; split; [vm_compute; reflexivity|discriminate]|]. split; vm_compute; reflexivity.
Qed.

(** ** What several tasks change *)
(** Empty tuples, sets and other iterables cannot be dumped. *)
Theorem C68_empty_refuted : forall E sch f n k o v,
  shared_out (serializer E f None v) v -> so_strict o = false -> py_iter (e_rt E) v = Ok [] -> (1 < k)%Z ->
  snd (tdump E sch f (S n) k o None v) = Fail (exn_of KSer) /\
  snd (dump E f (S n) o None v) = Done (VList []).
Proof. exact shared_empty. Qed.
Example C68_empty_case :
  shared_out (serializer demo_env 0 None (VColl CSet [])) (VColl CSet []) /\
  shared_out (serializer demo_env 0 None (VTuple [])) (VTuple []).
Proof. split; [left|right; split; [|discriminate]]; vm_compute; reflexivity. Qed.
(** Strictness is lost: ("x", 1) cannot be dumped as Tuple[int, int], but with two tasks the
    result is [[0, 1]]. *)
Theorem C68_strict_refuted : exists E f n o t v d,
  so_strict o = true /\ default_serializers E f /\
  snd (dump E f n o (Some t) v) = Fail (exn_of KSer) /\
  forall sch, fair_dump E 2 sch -> snd (tdump E sch f n 2 o (Some t) v) = Done d.
Proof.
  set (o := mkSopts true false None false false false SANone false false false true false []).
  set (T := TApp true HTuple [TPrim PInt; TPrim PInt]). set (v := VTuple [VStr "x"; VInt 1]).
  exists demo_env, 0, 5, o, T, v, (VList [VInt 0; VInt 1]).
  split; [reflexivity|]. split; [intros u; reflexivity|]. split; [vm_compute; reflexivity|].
  intros sch Hf.
  assert (Hr : snd (tdump demo_env sch 0 5 2 o (Some T) v) =
    snd (wrap_ser (dom r <- parallel_dump demo_env 0 (tserialize demo_env 0 sch 4) 2 o
                     [(VStr "x", Some (TPrim PInt)); (VInt 1, Some (TPrim PInt))] (sch 4 v); ret (VList r)))).
  { transitivity (snd (wrap_ser (tser_iterable demo_env 0 (tserialize demo_env 0 sch 4) (sch 4) 2 o (Some T) v))); [reflexivity|].
    unfold tser_iterable. cbv zeta. change (py_iter (e_rt demo_env) v) with (Ok [VStr "x"; VInt 1]). rewrite bind_lift_ok.
    change (if so_strict o then determine_cls demo_env (Some T) v else Ok None) with (Ok (Some T)).
    rewrite bind_lift_ok. change (get_subclasses (length [VStr "x"; VInt 1]) (Some T))
      with (Ok [Some (TPrim PInt); Some (TPrim PInt)]). rewrite bind_lift_ok. reflexivity. }
  rewrite Hr. clear Hr.
  set (ser := tserialize demo_env 0 sch 4).
  assert (Hx : forall k, snd (do_dump demo_env 0 ser o k (VStr "x", Some (TPrim PInt))) = Fail (exn_of KSer))
    by (intros k; vm_compute; reflexivity).
  assert (H1 : forall k, snd (do_dump demo_env 0 ser o k (VInt 1, Some (TPrim PInt))) = Done (VInt 1))
    by (intros k; vm_compute; reflexivity).
  set (zs := [(VStr "x", Some (TPrim PInt)); (VInt 1, Some (TPrim PInt))]).
  set (func := fun (k : nat) xc => to_res (do_dump demo_env 0 ser o k xc)).
  destruct (fair_finishes func (VInt 0) zs 2 2 (sch 4 v)) as (ys & Hy).
  { lia. } { discriminate. } { exact (Hf 4 v [VStr "x"; VInt 1] eq_refl). }
  assert (Hp : parallel_dump demo_env 0 ser 2 o zs (sch 4 v) = lift (Ok ys)).
  { unfold parallel_dump, zs. cbv zeta. cbn [existsb]. unfold is_oof. rewrite Hx, H1. cbn [orb]. fold zs.
    change (Z.to_nat 2) with 2. fold func. now rewrite Hy. }
  rewrite Hp. apply MultitaskProofs.multi_task_slots in Hy as [Hlen Hslot].
  change (snd (wrap_ser (dom r <- lift (Ok ys); ret (VList r)))) with (Done (VList ys)). do 2 f_equal.
  destruct ys as [|y0 [|y1 [|? ?]]]; try discriminate Hlen.
  assert (Y0 : y0 = VInt 0).
  { destruct (Hslot 0 (VStr "x", Some (TPrim PInt)) eq_refl) as [_ Hb]. cbv zeta in Hb.
    assert (X : nth_error [y0; y1] 0 = Some (VInt 0)); [|cbn in X; congruence]. apply Hb. intros Ha.
    destruct (Ha 0 (VStr "x", Some (TPrim PInt))) as (w & Hw); [vm_compute; lia|reflexivity|].
    unfold func, to_res in Hw. rewrite Hx in Hw. discriminate Hw. }
  assert (Y1 : y1 = VInt 1).
  { destruct (Hslot 1 (VInt 1, Some (TPrim PInt)) eq_refl) as [Hg _]. cbv zeta in Hg.
    destruct Hg as (w & Hw & Hn).
    - intros j x Hj Hxj. change (part_start _ _ 1) with 1 in Hj. assert (j = 1) as -> by lia. injection Hxj as <-.
      unfold func, to_res. rewrite H1. eauto.
    - unfold func, to_res in Hw. rewrite H1 in Hw. cbn in Hn. congruence. }
  now rewrite Y0, Y1.
Qed.
(** An attribute that cannot be dumped is left out, but with two tasks it is dumped as zeros. *)
Theorem C68_attributes_refuted : exists E f n o v d d',
  default_serializers E f /\ d <> d' /\
  snd (dump E f n o None v) = Done d /\ snd (tdump E robin f n 2 o None v) = Done d'.
Proof.
  set (bad := VDict DkDict [(VTuple [VInt 1], VInt 2); (VStr "-keys", VInt 3); (VTuple [VInt 4], VInt 5)]).
  exists demo_env, 0, 9, sopts0, (VObj 1 [("age", VInt 1); ("name", VTuple [bad; VInt 2])]),
    (str_dict [("age", VInt 1)]), (str_dict [("age", VInt 1); ("name", VList [VInt 0; VInt 2])]).
  split; [intros t; reflexivity|]. split; [discriminate|]. split; vm_compute; reflexivity.
Qed.

Print Assumptions C68_one_task.
Print Assumptions C68_same_result.
Print Assumptions C68_any_schedule.
Print Assumptions C68_fair_schedules.
Print Assumptions C68_nothing_shared.
Print Assumptions C68_iterables.
Print Assumptions C68_empty_refuted.
Print Assumptions C68_strict_refuted.
Print Assumptions C68_attributes_refuted.
