(** * C62: calls do not influence each other through the caches

    Proofs are in CacheProofs.v and LoadHints.v. *)
From Verif Require Import PyBaseFacts EngineEnv CacheModel CacheProofs LoadHints.
Local Close Scope Z_scope.
Local Open Scope string_scope.

(** A call that returned, or raised an Exception *)
Definition completed (k : call) : Prop := exists l, k = Completed l.
(** What happens while load runs *)
Definition while_loading (e : cevent) : Prop := match e with CeAttrs _ _ => False | _ => True end.
(** Every annotated class variable or property is a parameter of the constructor, as in
    dataclasses. *)
Definition members_are_parameters (CT : classes) : Prop := forall c a,
  In a (map fst (ci_members (CT c))) -> In a (map fst (ci_hints (CT c))) -> In a (map pa_name (ci_params (CT c))).

(** ** Dump *)
(** What dump takes for the attributes of a class is the same after any history and at any
    moment, whatever was interrupted or dropped from the caches. *)
Theorem C62_dump_sees_all : forall CT history l s c,
  let st := crun CT l (ccalls CT history empty_cache) in
  let (r, st') := get_attrs CT s c st in deref st' r = attrs_and_types (CT c).
Proof.
  intros CT history l s c st. assert (Hi : inv CT st) by apply crun_inv, ccalls_inv, inv_empty.
  destruct (get_attrs_inv CT s c st Hi) as [_ Hd]. now destruct (get_attrs CT s c st).
Qed.
(** ** Load *)
(** After calls that completed, load is as in a new process. *)
Theorem C62_load_after_calls : forall E history n f o cls j, Forall completed history ->
  load_after E history n f o cls j = load E n f o cls j.
Proof.
  intros E history n f o cls j H. apply load_other_hints. intros c a. left. f_equal. apply seen_fresh. apply fresh_empty.
  intros c'. rewrite <- (rev_involutive history) in *. apply Forall_rev in H. rewrite rev_involutive in H.
  destruct (rev history) as [|k l]; [reflexivity|]. inversion H as [|? ? [l' ->] _]. cbn [rev].
  unfold ccalls. rewrite fold_left_app. reflexivity.
Qed.
(** So it is after any history that ends with such a call. *)
Theorem C62_load_recovers : forall E history k n f o cls j, completed k ->
  load_after E (history ++ [k]) n f o cls j = load E n f o cls j.
Proof.
  intros E history k n f o cls j [l ->]. apply load_other_hints. intros c a. left. f_equal. apply seen_fresh. apply fresh_empty.
  intros c'. unfold ccalls. rewrite fold_left_app. reflexivity.
Qed.
(** In the course of such a load, annotations stay as they are written. *)
Theorem C62_while_loading : forall CT history k l c, completed k -> Forall while_loading l ->
  seen_hints CT (crun CT l (ccalls CT (history ++ [k]) empty_cache)) c = ci_hints (CT c).
Proof.
  intros CT history k l c [l' ->] Hl. apply seen_fresh.
  assert (Hf : fresh CT (ccalls CT (history ++ [Completed l']) empty_cache)).
  { apply fresh_empty. intros c'. unfold ccalls. rewrite fold_left_app. reflexivity. }
  revert Hf. generalize (ccalls CT (history ++ [Completed l']) empty_cache).
  induction Hl as [|e l He _ IH]; intros st Hf; [exact Hf|]. apply IH. clear IH.
  destruct e as [s c'|c'|c'|s c'|]; cbn [cstep]; [destruct He|now apply fresh_hints| | |].
  - intros c1 r. cbn [put_hints hc_hints]. destruct (Nat.eqb c1 c'); [discriminate|]. apply Hf.
  - exact Hf.
  - now apply fresh_empty.
Qed.
(** With such classes, interrupted calls and serializers that were called directly have no
    influence either. *)
Theorem C62_load_any_history : forall E history n f o cls j, members_are_parameters (e_ct E) ->
  load_after E history n f o cls j = load E n f o cls j.
Proof.
  intros E history n f o cls j Hm. apply load_other_hints. intros c a.
  destruct (in_dec string_dec a (map pa_name (ci_params (e_ct E c)))) as [Hp|Hp].
  - right. apply in_map_iff in Hp as (p & Hp & Hin). eauto.
  - left. apply seen_inv; [apply ccalls_inv, inv_empty|]. intros Hin.
    destruct (sget a (ci_hints (e_ct E c))) as [t|] eqn:Ha; [|reflexivity]. elim Hp. apply (Hm c a Hin).
    apply sget_In in Ha. apply in_map_iff. now exists (a, t).
Qed.

(** ** Examples *)
(** class Person: def __init__(self, name: str, age: int): ...
    class Note:
        author: Person = None
        def __init__(self, text: str): ... *)
Definition note_ct (c : nat) : cinfo :=
  match c with
  | 2 => mkCinfo "m" "Note" CkObj [] [mkParam "text" (Some (TPrim PStr)) None false]
                 [("author", TClass 1); ("text", TPrim PStr)] None [("author", MVar VNone)]
                 (fun _ _ => raise KAttribute) (init_of [mkParam "text" (Some (TPrim PStr)) None false])
                 (fun a x attrs => Ok (sset a x attrs)) false true
  | _ => demo_ct c
  end.
Definition note_env : env := std_env note_ct demo_rt.
Definition note_doc : value := str_dict [("text", VStr "hi"); ("author", john_doc)].
Example C62_ex_fresh :
  snd (load note_env 20 0 lopts0 (Some (TClass 2)) note_doc) = Done (VObj 2 [("text", VStr "hi"); ("author", john)]).
Proof. vm_compute. reflexivity. Qed.
(** A history of complete calls *)
Definition note_calls : list call := [Completed [CeAttrs false 2; CeAttrs false 1]; Completed [CeHints 2; CeDropHints 2; CeAttrs true 2]].
Example C62_ex_calls : Forall completed note_calls /\
  snd (load_after note_env note_calls 20 0 lopts0 (Some (TClass 2)) note_doc) = Done (VObj 2 [("text", VStr "hi"); ("author", john)]).
Proof. split; [|vm_compute; reflexivity]. repeat (apply Forall_cons; [eexists; reflexivity|]). apply Forall_nil. Qed.
Example C62_ex_parameters : members_are_parameters demo_ct /\ ~ members_are_parameters note_ct.
Proof.
  split.
  - intros c a H. exfalso. revert H. do 5 (destruct c as [|c]; [intros []|]). intros [].
  - intros H. destruct (H 2 "author" (or_introl eq_refl) (or_introl eq_refl)) as [Hx|[]]. discriminate Hx.
Qed.
(** A dump of a Note that was interrupted, for example with Ctrl-C, or a direct call of the
    default serializer for objects: the next load leaves a dict in author.  The one after that is right
    again (C62_load_recovers). *)
Theorem C62_interrupted_dump_refuted : exists E l c j v w,
  snd (load E 20 0 lopts0 (Some (TClass c)) j) = Done v /\
  snd (load_after E [BrokenOff l] 20 0 lopts0 (Some (TClass c)) j) = Done w /\ v <> w.
Proof.
  exists note_env, [CeAttrs false 2], 2, note_doc, (VObj 2 [("text", VStr "hi"); ("author", john)]),
         (VObj 2 [("text", VStr "hi"); ("author", john_doc)]).
  split; [vm_compute; reflexivity|]. split; [vm_compute; reflexivity|discriminate].
Qed.

Print Assumptions C62_dump_sees_all.
Print Assumptions C62_load_after_calls.
Print Assumptions C62_load_recovers.
Print Assumptions C62_while_loading.
Print Assumptions C62_load_any_history.
Print Assumptions C62_interrupted_dump_refuted.
