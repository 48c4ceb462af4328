(** * C75: load of documents that contain themselves

    Lists, tuples, sets and dicts that contain themselves, directly or not, have no end.  load
    recurs until the recursion limit ([n] nested calls, or wherever [cut] says) and the
    RecursionError goes through the handlers of load.  Model: HeapCycleModel.v, specification:
    HeapCycleSpec.v. *)
From Coq Require Import Lia.
From Verif Require Import EngineEnv EngineFacts LoadTypes.
From Verif Require Export HeapCycleSpec HeapCycleProofs PropHeapTree.
Local Open Scope string_scope.

(** ** Without a target type nothing is returned
    load of a document without end raises a JsonsError, for every recursion limit; so it neither
    hangs nor returns something that was cut off. *)
Theorem C75_documents_without_end : forall E L cut n f o x H,
  default_deserializers E f -> valid H x -> without_meta H x -> flat_atoms H x -> lo_warn o = false ->
  endless_doc H x ->
  exists e, snd (huser_load E L cut n f o None x H) = Fail e /\ is_jsons (e_kind e) = true.
Proof. intros E L cut n f o x H DD V M F W He. apply endless_load; auto. exact (conj V (conj M F)). Qed.

(** ** With warn_on_fail
    The list that contains nothing but itself gives the empty list. *)
Lemma run_list E L ld f o a l H : default_deserializers E f -> nth_error H a = Some (NList l) ->
  hload_step E L ld f o None (ORef a) H =
  hwrap_deser (hbind (hdeser_step E L ld f (set_inferred true (set_hints (Some match lo_hints o with Some h => h | None => [] end) o))
                        DList (TApp false HList []) (ORef a))
                 (fun r => hbind (hvalidate E f r (TApp false HList [])) (fun _ => hret r))) H.
Proof.
  intros DD Ha. unfold hload_step. unfold hbind at 1, hread. cbn [shallow]. rewrite Ha. cbn [is_none same_type andb orb].
  rewrite andb_false_r. cbn [orb]. unfold hbind at 1, hret at 1. unfold hbind at 1, hlift at 1, hret at 1. cbn [valid_type negb].
  unfold hbind at 1. unfold hcls_and_meta. rewrite Ha. unfold hret at 1.
  assert (Ht : determine_precedence None None (Some (class_of (VList []))) (lo_inferred o) = Some (TApp false HList [])) by (destruct (lo_inferred o); reflexivity).
  cbn [fst snd]. rewrite Ht, (DD _), deser_head. reflexivity.
Qed.
Lemma self_fails E L f a H : default_deserializers E f -> nth_error H a = Some (NList [ORef a]) ->
  forall n o, lo_warn o = false -> exists e, hcut_load E L no_hload_cut n f o None (ORef a) H = (H, Fail e) /\
    (if Nat.eqb n 0 then is_jsons (e_kind e) = false else is_deser (e_kind e) = true).
Proof.
  intros DD Ha. induction n as [|n IH]; intros o Hw; cbn [hcut_load no_hload_cut]; [eexists; split; reflexivity|].
  rewrite (run_list E L _ f o a [ORef a] H DD Ha). unfold hwrap_deser, htry. cbn [hdeser_step get_args raw_args]. unfold hdeser_list. cbv zeta. unfold hbind at 1 2 3, hiter.
  rewrite Ha. unfold hret at 1. cbn [hdeser_list_go hd_error]. unfold hbind at 1, hcatch.
  match goal with |- context [hcut_load _ _ _ n f ?o1 None (ORef a) H] => destruct (IH o1 eq_refl) as (e & -> & He) end.
  cbn [set_warn lo_warn set_inferred set_hints]. rewrite Hw. destruct n as [|n]; cbn [Nat.eqb] in He |- *.
  - assert (Hd : is_deser (e_kind e) = false) by (destruct (e_kind e); try reflexivity; discriminate He).
    rewrite Hd. cbn [hfail]. rewrite He. eexists. split; reflexivity.
  - rewrite He. cbn [hfail]. eexists. split; reflexivity.
Qed.
Theorem C75_warn_on_fail_gives_the_empty_list : forall E L f o a n H,
  default_deserializers E f -> e_validator E f (TApp false HList []) = None ->
  nth_error H a = Some (NList [ORef a]) -> lo_warn o = true ->
  huser_load E L no_hload_cut (S n) f o None (ORef a) H = ((H ++ [NList []])%list, Done (ORef (length H))).
Proof.
  intros E L f o a n H DD Hv Ha Hw. unfold huser_load. rewrite (run_list E L _ f o a [ORef a] H DD Ha).
  unfold hwrap_deser, htry. cbn [hdeser_step get_args raw_args]. unfold hdeser_list. cbv zeta. unfold hbind at 1 2 3, hiter.
  rewrite Ha. unfold hret at 1. cbn [hdeser_list_go hd_error]. unfold hbind at 1, hcatch.
  match goal with |- context [hcut_load _ _ _ (S n) f ?o1 None (ORef a) H] => destruct (self_fails E L f a H DD Ha (S n) o1 eq_refl) as (e & -> & He) end.
  cbn [Nat.eqb] in He. rewrite He. cbn [set_warn lo_warn set_inferred set_hints]. rewrite Hw. cbn [hret alloc]. unfold hbind, hvalidate, validate. rewrite Hv. reflexivity.
Qed.

(** *** Cases *)
(** a = [1, {'b': (a,)}] *)
Definition ring_heap : heap := [NList [OAtom (VInt 1); ORef 1]; NDict DkDict [(atom "b", OTuple [ORef 0])]].
Lemma ring_endless : endless_doc ring_heap (ORef 0).
Proof.
  exists (fun y => y = ORef 0 \/ y = ORef 1 \/ y = OTuple [ORef 0]). split; [now left|]. intros y [-> |[-> | ->]].
  - exists (ORef 1). split; [|auto]. eapply el_list; [reflexivity|cbn; auto].
  - exists (OTuple [ORef 0]). split; [|auto]. eapply el_dict; [reflexivity|cbn; auto].
  - exists (ORef 0). split; [|auto]. apply el_tuple. now left.
Qed.
Lemma ring_flat : flat_atoms ring_heap (ORef 0).
Proof.
  split; [intros v Hi; inversion Hi|]. intros b c y v _ Hn Hh Hi. apply holds_parts in Hh. revert Hn Hh Hi.
  destruct b as [|[|b]]; [| |destruct b; discriminate]; cbn; intros [= <-]; cbn.
  - intros [<-|[<-|[]]] Hi; inversion Hi; reflexivity.
  - intros [<-|[<-|[]]] Hi; inversion Hi; subst; [reflexivity|].
    match goal with Hx : In _ [ORef 0], Hy : inside _ _ |- _ => destruct Hx as [<-|[]]; inversion Hy end.
Qed.
Lemma ring_meta : without_meta ring_heap (ORef 0).
Proof. intros b k d y _. destruct b as [|[|b]]; [discriminate| |destruct b; discriminate]. cbn. intros [= <- <-]. cbn. intuition discriminate. Qed.
Example C75_ring_case : forall n, exists e,
  snd (huser_load team_env team_lenv no_hload_cut n 0 lopts0 None (ORef 0) ring_heap) = Fail e /\ is_jsons (e_kind e) = true.
Proof.
  intros n. apply C75_documents_without_end.
  - intros t. reflexivity.
  - apply sound_valid; reflexivity.
  - exact ring_meta.
  - exact ring_flat.
  - reflexivity.
  - exact ring_endless.
Qed.
(** l = [l] *)
Example C75_self_case : forall n,
  huser_load team_env team_lenv no_hload_cut (S n) 0 (set_warn true lopts0) None (ORef 0) [NList [ORef 0]] =
  ([NList [ORef 0]; NList []], Done (ORef 1)).
Proof. intros n. apply C75_warn_on_fail_gives_the_empty_list; try reflexivity. intros t. reflexivity. Qed.
(** The type list is enough for l itself to be returned. *)
Example C75_lenient_case : forall n,
  huser_load team_env team_lenv no_hload_cut n 0 lopts0 (Some (TApp false HList [])) (ORef 0) [NList [ORef 0]] = ([NList [ORef 0]], Done (ORef 0)).
Proof. intros n. reflexivity. Qed.

(** ** With a target type the recursion limit shows
    class Node: next: Union[Node, dict].  For the dict d = {'next': d} load gives nodes in nodes,
    as many as the recursion limit allows; the innermost one has d itself. *)
Definition node_ct : classes := fun c => match c with
  | 1 => record_class "m" "Node" [mkParam "next" (Some (TUnion [TClass 1; TApp false HDict []])) None false]
  | _ => demo_ct c end.
Definition node_env : env := std_env node_ct demo_rt.
Definition node_lenv : lenv := storing_lenv (fun _ _ => OAtom (VInt 0)) node_ct.
Definition knot_heap : heap := [NDict DkDict [(atom "next", ORef 0)]].
(** [y] is [k] nodes deep and ends with [z]. *)
Fixpoint nodes (H : heap) (k : nat) (y z : obj) : Prop :=
  match k with
  | O => y = z
  | S k' => exists a x, y = ORef a /\ nth_error H a = Some (NObj 1 [("next", x)]) /\ nodes H k' x z
  end.
Definition knot_load (n : nat) := huser_load node_env node_lenv no_hload_cut n 0 lopts0 (Some (TClass 1)) (ORef 0) knot_heap.
Lemma knot_endless : endless_doc knot_heap (ORef 0).
Proof. exists (fun y => y = ORef 0). split; [reflexivity|]. intros y ->. exists (ORef 0). split; [|reflexivity]. eapply el_dict; [reflexivity|cbn; auto]. Qed.
Ltac node_chain := repeat (eexists; eexists; split; [reflexivity|]; split; [vm_compute; reflexivity|]); reflexivity.
Theorem C75_typed_documents_without_end_refuted : exists E L f o cls x H n n' y y' k k',
  default_deserializers E f /\ valid H x /\ without_meta H x /\ lo_warn o = false /\ endless_doc H x /\
  snd (huser_load E L no_hload_cut n f o cls x H) = Done y /\ nodes (fst (huser_load E L no_hload_cut n f o cls x H)) k y x /\
  snd (huser_load E L no_hload_cut n' f o cls x H) = Done y' /\ nodes (fst (huser_load E L no_hload_cut n' f o cls x H)) k' y' x /\
  k <> k'.
Proof.
  exists node_env, node_lenv, 0, lopts0, (Some (TClass 1)), (ORef 0), knot_heap, 6, 8. do 2 eexists. exists 3, 4.
  split; [intros t; reflexivity|]. split; [apply sound_valid; reflexivity|].
  split; [intros b k d y _; destruct b as [|b]; [cbn; intros [= <- <-]; cbn; intuition discriminate|destruct b; discriminate]|].
  split; [reflexivity|]. split; [exact knot_endless|].
  split; [vm_compute; reflexivity|]. split; [node_chain|]. split; [vm_compute; reflexivity|]. split; [node_chain|]. discriminate.
Qed.
Print Assumptions C75_documents_without_end.
Print Assumptions C75_warn_on_fail_gives_the_empty_list.
Print Assumptions C75_typed_documents_without_end_refuted.
