(** * C71: dump sees trees

    Which lists, dicts and objects are one and the same and which are only equal makes no
    difference to dump; and in the document that it returns no two are the same.
    Model: HeapModel.v (objects of a heap), EngineSer.v (trees).  Specification: HeapSpec.v:
    [read H x = Some v] says that [v] is the tree of [x]; objects that contain themselves have
    none. *)
From Coq Require Import Lia.
From Verif Require Import EngineEnv DumpSpec CutModel HeapRefine.
From Verif Require Export PropHeap.
Local Open Scope string_scope.

(** ** The document of an object is the document of its tree
    The same document, the same exception, or neither within [n] nested calls. *)
Theorem C71_dump_of_the_tree : forall E K f n o cls x v H,
  default_serializers E f -> wf_supers (e_ct E) -> plain_env E -> agree_env E K H ->
  read H x = Some v -> plain_value (e_ct E) v = true ->
  same_result (hdump E K f None n o cls x H) (snd (dump E f n o cls v)).
Proof. exact dump_of_tree. Qed.
(** With a recursion limit [n]; see C69 for [cut_dump]. *)
Theorem C71_dump_with_a_limit : forall E K f n o cls x v H,
  default_serializers E f -> wf_supers (e_ct E) -> plain_env E -> agree_env E K H ->
  read H x = Some v -> plain_value (e_ct E) v = true ->
  same_result (hdump E K f (Some CutModel.recursion_error) n o cls x H) (snd (cut_dump E f no_cut n o cls v)).
Proof. exact dump_of_tree_limited. Qed.
(** ** Sharing is not seen
    Two objects, of one heap or two, with the same tree have the same document. *)
Theorem C71_sharing_is_not_seen : forall E K K' f n o cls x x' v d H H' H1 y,
  default_serializers E f -> wf_supers (e_ct E) -> plain_env E -> agree_env E K H -> agree_env E K' H' ->
  read H x = Some v -> read H' x' = Some v -> plain_value (e_ct E) v = true ->
  hdump E K f None n o cls x H = (H1, Done y) -> read H1 y = Some d ->
  exists H2 z, hdump E K' f None n o cls x' H' = (H2, Done z) /\ read H2 z = Some d.
Proof.
  intros E K K' f n o cls x x' v d H H' H1 y HS W PE AE AE' Hr Hr' Hp Hd Hy.
  pose proof (dump_of_tree E K f n o cls x v H HS W PE AE Hr Hp) as S1.
  pose proof (dump_of_tree E K' f n o cls x' v H' HS W PE AE' Hr' Hp) as S2.
  rewrite Hd in S1. unfold same_result in S1, S2. cbn [fst snd] in S1. rewrite Hy in S1.
  destruct (snd (dump E f n o cls v)) as [w|e|]; try contradiction. injection S1 as ->.
  destruct (hdump E K' f None n o cls x' H') as [H2 [z|e|]]; try contradiction. cbn [fst snd] in S2. eauto.
Qed.
(** ** Nothing is shared in the document
    Every list and every dict of the document is new, and there is one way to it only. *)
Theorem C71_document_is_unshared : forall E K f n o cls x v H H' y a p q,
  default_serializers E f -> wf_supers (e_ct E) -> plain_env E -> agree_env E K H ->
  read H x = Some v -> plain_value (e_ct E) v = true ->
  hdump E K f None n o cls x H = (H', Done y) ->
  follow H' y p = Some (ORef a) -> length H <= a /\ (follow H' y q = Some (ORef a) -> q = p).
Proof. exact dump_unshared. Qed.

(** *** Cases *)
Definition color_henv : henv :=
  mkHenv (fun _ _ => OAtom VNone) (fun _ n => OAtom (VInt (if String.eqb n "RED" then 1 else 2))) (fun _ _ _ => hfail (exn_of KType)).
Lemma demo_plain_env : plain_env demo_env.
Proof.
  constructor.
  - intros c a l v Hv. exfalso. do 5 (destruct c as [|c]; [discriminate Hv|]). discriminate Hv.
  - intros v a w Hw. discriminate Hw.
  - intros v l Hl. discriminate Hl.
Qed.
Lemma demo_agree H : agree_env demo_env color_henv H.
Proof.
  constructor.
  - intros c a v Hv. exfalso. revert Hv. do 5 (destruct c as [|c]; [cbn; try discriminate|]); try discriminate.
  - intros c n v Hv. do 3 (destruct c as [|c]; [discriminate Hv|]). destruct c as [|c]; [|destruct c; discriminate Hv].
    cbn in Hv. cbn [color_henv he_member]. destruct (String.eqb n "RED"); [injection Hv as <-; auto|].
    destruct (String.eqb n "GREEN"); [injection Hv as <-; auto|discriminate].
Qed.
(** The heap of C70: cell 2 is a group whose lead occurs in its list, and in a tuple of the
    list.  Below the same group with three equal leads. *)
Definition copies_heap : heap :=
  [NObj 1 [("name", atom "Mary"); ("age", OAtom (VInt 31))];
   NObj 1 [("name", atom "Mary"); ("age", OAtom (VInt 31))];
   NObj 1 [("name", atom "Mary"); ("age", OAtom (VInt 31))];
   NList [ORef 0; OTuple [ORef 1; OAtom (VEnum 3 "RED")]];
   NObj 2 [("members", ORef 3); ("lead", ORef 2)]].
Definition shared_group : value := VObj 2 [("members", VList [mary; VTuple [mary; VEnum 3 "RED"]]); ("lead", mary)].
Example C71_shared_case :
  read demo_heap (ORef 2) = Some shared_group /\ read copies_heap (ORef 4) = Some shared_group /\
  plain_value (e_ct demo_env) shared_group = true /\
  same_result (hdump demo_env color_henv 0 None 9 verbose_o None (ORef 2) demo_heap) (snd (dump demo_env 0 9 verbose_o None shared_group)) /\
  exists H1 y H2 z, hdump demo_env color_henv 0 None 9 verbose_o None (ORef 2) demo_heap = (H1, Done y) /\
    hdump demo_env color_henv 0 None 9 verbose_o None (ORef 4) copies_heap = (H2, Done z) /\ read H1 y = read H2 z.
Proof.
  assert (R1 : read demo_heap (ORef 2) = Some shared_group) by (vm_compute; reflexivity).
  split; [exact R1|]. split; [vm_compute; reflexivity|]. split; [reflexivity|]. split.
  - exact (C71_dump_of_the_tree demo_env color_henv 0 9 verbose_o None _ _ _ demo_default demo_supers demo_plain_env (demo_agree _) R1 eq_refl).
  - eexists _, _, _, _. split; [vm_compute; reflexivity|]. split; [vm_compute; reflexivity|]. vm_compute. reflexivity.
Qed.
(** The lead of the document and the first of its members: equal, and two dicts. *)
Example C71_unshared_case :
  exists H' a b, hdump demo_env color_henv 0 None 9 sopts0 None (ORef 2) demo_heap = (H', Done (ORef 6)) /\
    follow H' (ORef 6) [1] = Some (ORef a) /\ follow H' (ORef 6) [3; 0] = Some (ORef b) /\
    read H' (ORef a) = Some mary_doc /\ read H' (ORef b) = Some mary_doc /\ a <> b /\ 6 <= a /\ 6 <= b.
Proof.
  eexists _, _, _. do 3 (split; [vm_compute; reflexivity|]). do 2 (split; [vm_compute; reflexivity|]).
  split; [discriminate|]. lia.
Qed.
Example C71_limit_case :
  same_result (hdump demo_env color_henv 0 (Some CutModel.recursion_error) 2 sopts0 None (ORef 2) demo_heap)
    (snd (cut_dump demo_env 0 no_cut 2 sopts0 None shared_group)) /\
  snd (cut_dump demo_env 0 no_cut 2 sopts0 None shared_group) = Done (str_dict [("lead", str_dict [])]).
Proof.
  split; [|vm_compute; reflexivity].
  apply (C71_dump_with_a_limit demo_env color_henv 0 2 sopts0 None (ORef 2) shared_group demo_heap demo_default demo_supers demo_plain_env (demo_agree _)).
  - vm_compute; reflexivity.
  - reflexivity.
Qed.

(** ** Where the document shares
    The value of an enum member is not copied: a list of members that are dumped by value is
    dumped to a list in which the value occurs again and again. *)
Theorem C71_enum_values_refuted : exists E K H x v H' y a p q,
  default_serializers E 0 /\ wf_supers (e_ct E) /\ plain_env E /\ read H x = Some v /\ plain_value (e_ct E) v = true /\
  hdump E K 0 None 9 by_value_o None x H = (H', Done y) /\
  follow H' y p = Some (ORef a) /\ follow H' y q = Some (ORef a) /\ p <> q /\ a < length H.
Proof.
  exists demo_env, list_henv, (color_heap ++ [NList [OAtom (VEnum 3 "RED"); OAtom (VEnum 3 "RED")]])%list, (ORef 1).
  eexists _, _, _, _, [0], [1]. split; [exact demo_default|]. split; [exact demo_supers|]. split; [exact demo_plain_env|].
  split; [vm_compute; reflexivity|]. split; [reflexivity|]. split; [vm_compute; reflexivity|].
  split; [vm_compute; reflexivity|]. split; [vm_compute; reflexivity|]. split; [discriminate|]. vm_compute. lia.
Qed.
Print Assumptions C71_dump_of_the_tree.
Print Assumptions C71_dump_with_a_limit.
Print Assumptions C71_sharing_is_not_seen.
Print Assumptions C71_document_is_unshared.
Print Assumptions C71_enum_values_refuted.
