(** * C70: what dump does to the objects it is given, and objects that contain themselves

    Model: HeapModel.v, where lists, dicts, sets, deques and objects are cells of a heap that
    refer to each other in any way, and where the serializers write to the dicts that they have.
    [n] bounds the number of nested calls of serializers; [limit] is the exception that is raised
    beyond (RecursionError).  Specification: HeapSpec.v. *)
From Coq Require Import Lia.
From Verif Require Import EngineEnv DumpSpec DumpProofs.
From Verif Require Export HeapSpec HeapProofs HeapCycles.
Local Open Scope string_scope.

(** ** The argument stays as it is
    Every cell that there was before the call has the same contents afterwards, whether dump
    returns or raises, and whatever refers to what. *)
Theorem C70_argument_unchanged : forall E K f limit n o cls x H H' r a c,
  default_serializers E f -> wf_supers (e_ct E) -> plain_heap E K H -> plain_obj (e_ct E) x ->
  hdump E K f limit n o cls x H = (H', r) ->
  nth_error H a = Some c -> nth_error H' a = Some c.
Proof. exact dump_unchanged. Qed.
(** ** The result is new
    No cell that can be reached from the result was there before the call. *)
Theorem C70_result_is_new : forall E K f limit n o cls x H H' y a,
  default_serializers E f -> wf_supers (e_ct E) -> plain_heap E K H -> plain_obj (e_ct E) x ->
  hdump E K f limit n o cls x H = (H', Done y) -> reaches H' y a -> length H <= a.
Proof. exact dump_new. Qed.
(** ** Objects without end
    Dump does not return anything for a list, tuple, set, deque or dict that contains itself,
    directly or not; in strict mode neither for an object that is an attribute of itself.  The
    exception is a SerializationError. *)
Theorem C70_no_document_without_end : forall E K f limit n o x H y,
  default_serializers E f -> wf_supers (e_ct E) -> plain_heap E K H -> plain_obj (e_ct E) x ->
  so_types o = [] -> endless E f o H x -> snd (hdump E K f limit n o None x H) <> Done y.
Proof. exact dump_endless. Qed.
Theorem C70_errors : forall E K f limit n o cls x H H' e,
  hdump E K f limit n o cls x H = (H', Fail e) -> e = exn_of KSer.
Proof. exact dump_error. Qed.
(** When dump is lenient there is a document for an object that is its own attribute; it is as
    deep as the recursion limit. *)
Theorem C70_objects_without_end_refuted : forall E K f e n o c a name H,
  e_ser E f (TClass c) = Some SObject ->
  so_strict o = false -> so_types o = [] -> so_kt o = None -> so_class_info o = false -> so_dump_time o = false ->
  attrs_from_object E o (VObj c [(name, VNone)]) = Ok [(name, None)] ->
  sget name (ci_members (e_ct E c)) = None -> strip_us name = name ->
  nth_error H a = Some (NObj c [(name, ORef a)]) -> e_noargs e = false ->
  exists H' y, hdump E K f (Some e) (S n) o None (ORef a) H = (H', Done y) /\ read H' y = Some (nested name n).
Proof. exact dump_knot. Qed.

(** *** Cases *)
Definition demo_henv : henv :=
  mkHenv (fun _ _ => OAtom VNone) (fun _ _ => OAtom (VInt 1)) (fun _ _ _ => hfail (exn_of KType)).
(** A group whose lead is one of the members, twice; a list that contains itself; an object that
    is its own lead. *)
Definition demo_heap : heap :=
  [NObj 1 [("name", atom "Mary"); ("age", OAtom (VInt 31))];
   NList [ORef 0; OTuple [ORef 0; OAtom (VEnum 3 "RED")]];
   NObj 2 [("members", ORef 1); ("lead", ORef 0)];
   NList [OAtom (VInt 1); ORef 4];
   NDict DkDict [(atom "list", OTuple [ORef 3])];
   NObj 2 [("lead", ORef 5)]].
Lemma demo_plain_obj x : (forall c l, ~ inside x (ONT c l)) -> plain_obj (e_ct demo_env) x.
Proof. intros Hx c l Hi. destruct (Hx _ _ Hi). Qed.
Ltac no_nt :=
  let c := fresh in let l := fresh in let Hi := fresh "Hi" in
  apply demo_plain_obj; intros c l Hi; unfold atom in Hi; cbn in Hi;
  repeat match goal with
         | H : inside (OAtom _) (ONT _ _) |- _ => inversion H
         | H : inside (ORef _) (ONT _ _) |- _ => inversion H
         | H : inside (OTuple _) (ONT _ _) |- _ => inversion H; clear H; subst
         | H : In _ (_ :: _) |- _ => destruct H as [<- | H]
         | H : In _ [] |- _ => destruct H
         end.
Lemma demo_plain_heap : plain_heap demo_env demo_henv demo_heap.
Proof.
  constructor.
  - intros a c Ha.
    do 6 (destruct a as [|a]; [injection Ha as <-; split;
      [intros y Hy; cbn in Hy;
       repeat match goal with
              | H : _ \/ _ |- _ => destruct H
              | H : exists _, _ |- _ => destruct H
              | H : _ /\ _ |- _ => destruct H
              | H : (_, _) = (_, _) |- _ => injection H as <- <-
              | H : False |- _ => destruct H
              end; subst; no_nt
      |first [exact I | split; [reflexivity|]];
       intros b y Hb Hin; cbn in Hb, Hin;
       repeat match goal with
              | H : _ \/ _ |- _ => destruct H
              | H : (_, _) = (_, _) |- _ => injection H as <- <-
              | H : False |- _ => destruct H
              end; solve [eexists; reflexivity | discriminate]]|]).
    destruct a; discriminate.
  - intros c a. split; [no_nt|intros _; now exists VNone].
  - intros c n. now exists (VInt 1).
Qed.
Lemma demo_default : default_serializers demo_env 0.
Proof. intros t. reflexivity. Qed.
Lemma demo_supers : wf_supers (e_ct demo_env).
Proof. intros c t Ht. exfalso. do 5 (destruct c as [|c]; [destruct Ht|]). destruct Ht. Qed.
Lemma ref_plain a : plain_obj (e_ct demo_env) (ORef a).
Proof. no_nt. Qed.
Definition recursion_error : exn := mkExn (KOther 2) None [] false "".
Definition verbose_o : sopts := mkSopts false false None false false false SANone true false false true false [].
(** The lead occurs in the document three times, each time as a dict of its own. *)
Example C70_shared_case :
  plain_heap demo_env demo_henv demo_heap /\ plain_obj (e_ct demo_env) (ORef 2) /\
  exists H' y, hdump demo_env demo_henv 0 (Some recursion_error) 9 sopts0 None (ORef 2) demo_heap = (H', Done y) /\
    read H' y = Some (str_dict [("lead", mary_doc); ("members", VList [mary_doc; VList [mary_doc; VStr "RED"]])]) /\
    firstn 6 H' = demo_heap /\ length H' = 12.
Proof.
  split; [exact demo_plain_heap|]. split; [apply ref_plain|].
  eexists _, _. split; [vm_compute; reflexivity|]. vm_compute. auto.
Qed.
(** Verbose: the '-cls' entries are written to and removed from new dicts only. *)
Example C70_verbose_case :
  exists H' y, hdump demo_env demo_henv 0 (Some recursion_error) 9 verbose_o None (ORef 2) demo_heap = (H', Done y) /\
    read H' y = Some (str_dict [("lead", mary_doc); ("members", VList [str_dict [("age", VInt 31); ("name", VStr "Mary"); ("-meta", str_dict [("classes", str_dict [("/", VStr "m.Person")])])]; VList [str_dict [("age", VInt 31); ("name", VStr "Mary"); ("-meta", str_dict [("classes", str_dict [("/", VStr "m.Person")])])]; VStr "RED"]]); ("-meta", str_dict [("classes", str_dict [("/lead", VStr "m.Person"); ("/", VStr "m.Group")])])]) /\
    firstn 6 H' = demo_heap.
Proof. eexists _, _. split; [vm_compute; reflexivity|]. vm_compute. auto. Qed.
(** A list with a dict with a tuple with the list *)
Lemma demo_endless : endless demo_env 0 sopts0 demo_heap (ORef 3).
Proof.
  exists (fun y => y = ORef 3 \/ y = ORef 4 \/ y = OTuple [ORef 3]). split; [auto|].
  intros y [-> |[-> | ->]].
  - exists (ORef 4). split; [|auto]. eapply part_list; [reflexivity|reflexivity|cbn; auto].
  - exists (OTuple [ORef 3]). split; [|auto].
    eapply (part_dict _ _ _ _ 4 DkDict [(VStr "list", OTuple [ORef 3])] (VStr "list")); [reflexivity..|cbn; auto|reflexivity].
  - exists (ORef 3). split; [|auto]. apply part_tuple; [reflexivity|cbn; auto].
Qed.
Definition strict_opts : sopts := mkSopts true false None false false false SANone false false false true false [].
Lemma demo_endless_object : endless demo_env 0 strict_opts demo_heap (ORef 5).
Proof.
  exists (fun y => y = ORef 5). split; [auto|]. intros y ->. exists (ORef 5). split; [|auto].
  eapply (part_attr _ _ _ _ 5 2 [("lead", ORef 5)] [("lead", None)] "lead"); try (vm_compute; reflexivity).
  - now left.
  - discriminate.
Qed.
Example C70_endless_case :
  endless demo_env 0 sopts0 demo_heap (ORef 3) /\ endless demo_env 0 strict_opts demo_heap (ORef 5) /\
  snd (hdump demo_env demo_henv 0 (Some recursion_error) 40 sopts0 None (ORef 3) demo_heap) = Fail (exn_of KSer) /\
  snd (hdump demo_env demo_henv 0 (Some recursion_error) 40 strict_opts None (ORef 5) demo_heap) = Fail (exn_of KSer).
Proof.
  split; [exact demo_endless|]. split; [exact demo_endless_object|]. vm_compute. auto.
Qed.
Example C70_knot_case : exists H' y,
  hdump demo_env demo_henv 0 (Some recursion_error) 4 sopts0 None (ORef 5) demo_heap = (H', Done y) /\
  read H' y = Some (str_dict [("lead", str_dict [("lead", str_dict [("lead", str_dict [])])])]).
Proof. apply (C70_objects_without_end_refuted demo_env demo_henv 0 recursion_error 3 sopts0 2 5 "lead"); vm_compute; reflexivity. Qed.

(** ** Where the result is not new
    The hypotheses about the heap are needed: an enum member that is dumped by value is dumped to
    the very object that is the member's value. *)
Theorem C70_enum_values_refuted : forall E K f limit n o c m v H,
  e_ser E f (TClass c) = Some SEnum -> so_enum_name o = false -> sget m (enum_members (e_ct E) c) = Some v ->
  hdump E K f limit (S n) o None (OAtom (VEnum c m)) H = (H, Done (he_member K c m)).
Proof.
  intros E K f limit n o c m v H He Ho Hm. unfold hdump, hdump_, htry. cbn [kind shallow class_of hserialize].
  unfold kind. cbn [shallow class_of]. rewrite He. cbn [hser_step]. rewrite Ho. cbn [hget_attr]. rewrite Hm. reflexivity.
Qed.
(** class Color(Enum): RED = [255, 0, 0] *)
Definition list_henv : henv :=
  mkHenv (fun _ _ => OAtom VNone) (fun _ _ => ORef 0) (fun _ _ _ => hfail (exn_of KType)).
Definition by_value_o : sopts := mkSopts false false None false false false SANone false false false false false [].
Definition color_heap : heap := [NList [OAtom (VInt 255); OAtom (VInt 0); OAtom (VInt 0)]].
Example C70_enum_case :
  hdump demo_env list_henv 0 None 2 by_value_o None (OAtom (VEnum 3 "RED")) color_heap = (color_heap, Done (ORef 0)).
Proof. reflexivity. Qed.
(** A registered serializer that returns a dict of the object itself, within an object that is
    dumped with class info: the '-cls' entry of that dict is overwritten and then removed. *)
Definition own_dict_env : env :=
  mkEnv demo_ct demo_rt 0 (fun _ t => match t with TClass 1 => Some (SCustom 0) | _ => default_ser demo_ct t end)
        (fun _ => default_deser demo_ct) (fun _ _ => None) (fun _ _ => true) (fun _ _ => raise KUnknownClass)
        (fun _ _ _ => raise KType) (fun _ _ _ => raise KType).
Definition own_dict_henv : henv :=
  mkHenv (fun _ _ => OAtom VNone) (fun _ _ => OAtom VNone) (fun _ _ _ => hret (ORef 0)).
Definition own_dict_heap : heap :=
  [NDict DkDict [(atom "-cls", OAtom (VInt 1)); (atom "a", OAtom (VInt 2))];
   NObj 1 [("d", ORef 0)];
   NObj 2 [("lead", ORef 1)]].
Theorem C70_registered_serializers_refuted :
  exists E K H H' y, wf_supers (e_ct E) /\ plain_heap E K H /\
    hdump E K 0 None 9 verbose_o None (ORef 2) H = (H', Done y) /\
    nth_error H 0 = Some (NDict DkDict [(atom "-cls", OAtom (VInt 1)); (atom "a", OAtom (VInt 2))]) /\
    nth_error H' 0 = Some (NDict DkDict [(atom "a", OAtom (VInt 2))]) /\ reaches H' y 0.
Proof.
  exists own_dict_env, own_dict_henv, own_dict_heap. eexists _, _. split; [exact demo_supers|]. split.
  - constructor.
    + intros a c Ha. do 3 (destruct a as [|a]; [injection Ha as <-; split;
        [intros y Hy; cbn in Hy;
         repeat match goal with
              | H : _ \/ _ |- _ => destruct H
              | H : exists _, _ |- _ => destruct H
              | H : _ /\ _ |- _ => destruct H
              | H : (_, _) = (_, _) |- _ => injection H as <- <-
              | H : False |- _ => destruct H
              end; subst; change (e_ct own_dict_env) with (e_ct demo_env); no_nt
        |first [exact I | split; [reflexivity|]];
         intros b y Hb Hin; cbn in Hb, Hin;
         repeat match goal with
              | H : _ \/ _ |- _ => destruct H
              | H : (_, _) = (_, _) |- _ => injection H as <- <-
              | H : False |- _ => destruct H
              end; solve [eexists; reflexivity | discriminate]]|]).
      destruct a; discriminate.
    + intros c a. split; [change (e_ct own_dict_env) with (e_ct demo_env); no_nt|intros _; now exists VNone].
    + intros c n. now exists VNone.
  - split; [vm_compute; reflexivity|]. split; [reflexivity|]. split; [reflexivity|].
    eapply reach_next with (a := 3); [constructor; constructor|reflexivity|..].
    + cbn. exists (atom "lead"), (ORef 0). split; [now left|now right].
    + constructor.
Qed.
Print Assumptions C70_argument_unchanged.
Print Assumptions C70_result_is_new.
Print Assumptions C70_no_document_without_end.
Print Assumptions C70_errors.
Print Assumptions C70_objects_without_end_refuted.
Print Assumptions C70_enum_values_refuted.
Print Assumptions C70_registered_serializers_refuted.
