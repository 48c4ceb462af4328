(** * C73: what load does to the document it is given, and what the result shares with it

    Model: HeapLoadModel.v, where documents and results are cells of a heap that refer to each
    other in any way.  Constructors, setattr, getters and registered deserializers are arbitrary
    functions on the heap; below they do not write to what exists already ([quiet]).  [n] bounds
    the number of nested calls of load.  Specification: HeapLoadSpec.v. *)
From Coq Require Import Lia.
From Verif Require Import EngineEnv.
From Verif Require Export HeapLoadSpec HeapLoadProofs.
Local Open Scope string_scope.

(** ** The document stays as it is
    Whether load returns or raises: every cell that there was before the call is the same
    afterwards.  The only exception is a '-keys' section, which may have lost entries. *)
Theorem C73_document_unchanged : forall E L n f o cls x H H' r a c,
  quiet L -> valid H x -> (forall i m, valid H (le_field L i m)) ->
  hload E L n f o cls x H = (H', r) ->
  nth_error H a = Some c ->
  nth_error H' a = Some c \/
  ((keys_section H x a \/ exists i m, keys_section H (le_field L i m) a) /\
   exists c', nth_error H' a = Some c' /\ lost_entries c c').
Proof. intros E L n f o cls x H H' r a c QL V VF Hl. exact (load_argument E L H n f o cls x H' r QL V VF Hl a c). Qed.
(** Without '-keys' sections nothing that exists is changed: the heap only grows. *)
Lemma grown_heap (H : heap) : forall H', (forall a c, nth_error H a = Some c -> nth_error H' a = Some c) -> exists new, H' = (H ++ new)%list.
Proof.
  induction H as [|c H IH]; intros H' Hk; [now exists H'|].
  pose proof (Hk 0 c eq_refl) as H0. destruct H' as [|c' H']; [discriminate|]. injection H0 as ->.
  destruct (IH H') as (new & ->); [intros a c0 Ha; exact (Hk (S a) c0 Ha)|now exists new].
Qed.
Theorem C73_document_without_sections : forall E L n f o cls x H H' r,
  quiet L -> valid H x -> (forall i m, valid H (le_field L i m)) ->
  (forall a, ~ keys_section H x a) -> (forall i m a, ~ keys_section H (le_field L i m) a) ->
  hload E L n f o cls x H = (H', r) -> exists new, H' = (H ++ new)%list.
Proof.
  intros E L n f o cls x H H' r QL V VF N1 N2 Hl. apply grown_heap. intros a c Ha.
  destruct (C73_document_unchanged E L n f o cls x H H' r a c QL V VF Hl Ha) as [Hk|[[Hk|(i & m & Hk)] _]];
    [exact Hk|destruct (N1 _ Hk)|destruct (N2 _ _ _ Hk)].
Qed.
(** ** The result of a strict load is new
    When load is strict and the types do not contain Any, no cell of the document can be reached
    from the result: what can be reached is new, or is part of the default values of the program
    ([G]). *)
Theorem C73_strict_result_is_new : forall E L G n f o cls x H H' y a,
  quiet L -> valid H x -> simple_keys H x ->
  (forall i m, valid H (le_field L i m) /\ simple_keys H (le_field L i m)) ->
  default_deserializers E f -> any_free_hints E f -> owns G L H ->
  lo_strict o = true -> any_free cls = true ->
  hload E L n f o cls x H = (H', Done y) -> reaches H' y a -> length H <= a < length H' \/ G a.
Proof.
  intros E L G n f o cls x H H' y a QL V SK VF DD HA HO S Af Hl Hr.
  destruct (load_result E L H G n f o cls x H' y QL V SK VF DD HA HO (or_introl (conj S Af)) Hl a Hr) as [H1 [H2|H2]]; [left; lia|now right].
Qed.
(** ** A load without a target type copies
    A document without meta data that is loaded without a type is copied, in strict mode or not. *)
Theorem C73_untyped_load_copies : forall E L G n f o x H H' y a,
  quiet L -> valid H x -> simple_keys H x ->
  (forall i m, valid H (le_field L i m) /\ simple_keys H (le_field L i m)) ->
  default_deserializers E f -> any_free_hints E f -> owns G L H ->
  without_meta H x -> flat_atoms H x ->
  hload E L n f o None x H = (H', Done y) -> reaches H' y a -> length H <= a < length H' \/ G a.
Proof.
  intros E L G n f o x H H' y a QL V SK VF DD HA HO Hm Hf Hl Hr.
  destruct (load_result E L H G n f o None x H' y QL V SK VF DD HA HO (or_intror (conj eq_refl (conj Hm Hf))) Hl a Hr) as [H1 [H2|H2]]; [left; lia|now right].
Qed.
(** ** A lenient load does not copy
    What has the wanted type already is returned as it is: the result is the argument itself,
    with everything in it. *)
Theorem C73_lenient_same_object : forall E L H n f o t x,
  lo_strict o = false -> kind H x = t -> e_validator E f t = None -> is_none (shallow H x) = false ->
  hload E L (S n) f o (Some t) x H = (H, Done x).
Proof. exact load_same. Qed.

(** *** Cases *)
(** class Team: name: str, tags: List[str] = [], lead: Optional[Person], notes: list;
    the default value of tags is the cell 0. *)
Definition team_class : cinfo :=
  record_class "m" "Team" [mkParam "name" (Some (TPrim PStr)) None false;
                           mkParam "tags" (Some (TApp true HList [TPrim PStr])) (Some (VList [])) false;
                           mkParam "lead" (Some (TUnion [TClass 1; TNoneT])) None false;
                           mkParam "notes" (Some (TApp false HList [])) None false].
Definition team_env : env := std_env (fun c => match c with 5 => team_class | _ => demo_ct c end) demo_rt.
Definition team_lenv : lenv :=
  mkLenv (fun _ args => hret args) (fun _ a y old => hret (sset a y old)) (fun _ => hfail (exn_of KKey))
         (fun c a => if Nat.eqb c 5 && String.eqb a "tags" then ORef 0 else OAtom (VInt 0)) (fun _ _ => OAtom VNone) (fun _ _ _ => hfail (exn_of KType)).
(** The same team twice, once with its tags. *)
Definition team_heap : heap :=
  [NList [];
   NDict DkDict [(atom "name", atom "John"); (atom "age", OAtom (VInt 30))];
   NList [atom "x"];
   NDict DkDict [(atom "name", atom "A"); (atom "lead", ORef 1); (atom "notes", ORef 2)];
   NList [ORef 3; ORef 3]].
Definition strict_l : lopts := mkLopts true [] None None false false None.

(** The references in a concrete heap *)
Fixpoint refs (x : obj) : list nat :=
  match x with
  | OAtom _ => []
  | OTuple l | ONT _ l => flat_map refs l
  | ORef a => [a]
  end.
Definition parts (c : cell) : list obj :=
  match c with
  | NList l | NColl _ l => l
  | NDict _ d => map fst d ++ map snd d
  | NObj _ attrs => map snd attrs
  end.
Definition sound_heap (H : heap) : bool :=
  forallb (fun c => forallb (fun y => forallb (fun a => Nat.ltb a (length H)) (refs y)) (parts c)) H.
Lemma inside_refs x a : inside x (ORef a) -> In a (refs x).
Proof.
  intros Hi. remember (ORef a) as z eqn:Ez. induction Hi as [x|l x y Hx Hi IH|c l x y Hx Hi IH]; subst; cbn [refs].
  - now left.
  - apply in_flat_map. eauto.
  - apply in_flat_map. eauto.
Qed.
Lemma holds_parts c y : holds c y -> In y (parts c).
Proof.
  destruct c as [l|k l|k d|c l]; cbn [holds parts]; auto.
  - intros (k1 & x1 & Hin & [-> | ->]); apply in_or_app; [left|right]; apply in_map_iff; [exists (k1, x1)|exists (k1, x1)]; auto.
  - intros (a & Hin). apply in_map_iff. exists (a, y). auto.
Qed.
Lemma sound_valid H x : sound_heap H = true -> forallb (fun a => Nat.ltb a (length H)) (refs x) = true -> valid H x.
Proof.
  intros Hs Hx a Hr. assert (Hl : forall l b, forallb (fun a => Nat.ltb a (length H)) l = true -> In b l -> b < length H).
  { intros l b Hl Hb. apply Nat.ltb_lt. exact (proj1 (forallb_forall _ _) Hl _ Hb). }
  induction Hr as [a Ha|a b c y Hr IH Hn Hh Hi]; [apply inside_refs in Ha; eauto|]. apply inside_refs in Hi.
  eapply Hl; [|exact Hi]. apply nth_error_In in Hn. apply holds_parts in Hh.
  exact (proj1 (forallb_forall _ _) (proj1 (forallb_forall _ _) Hs _ Hn) _ Hh).
Qed.
Lemma made_of_args G H y (args : list obj) : In y args -> made_of G H H args y.
Proof. intros Hy a Ha. eauto. Qed.
Lemma team_quiet : quiet team_lenv.
Proof. constructor; intros; intros H; exists []; now rewrite app_nil_r. Qed.
Lemma sset_in a x l (b : string) (y : obj) : In (b, y) (sset a x l) -> y = x \/ In (b, y) l.
Proof.
  unfold sset. induction l as [|[k z] l IH]; cbn [aset]; [intros [[= _ <-]|[]]; auto|].
  destruct (String.eqb a k); cbn [In]; intros [[= <- <-]|Hin]; auto. destruct (IH Hin); auto.
Qed.
Lemma team_owns : owns (fun a => a = 0) team_lenv team_heap.
Proof.
  constructor.
  - intros a ->. cbn. lia.
  - intros a c y b -> [= <-] [].
  - intros c a b Hi. cbn in Hi. destruct (Nat.eqb c 5 && String.eqb a "tags"); inversion Hi; reflexivity.
  - intros c args H H' attrs a y [= <- <-] Hin. apply made_of_args. apply in_map_iff. exists (a, y). auto.
  - intros c m x old H H' attrs a y [= <- <-] Hin. apply made_of_args. apply sset_in in Hin as [-> |Hin]; [now left|right].
    apply in_map_iff. exists (a, y). auto.
  - intros a H H' y Hg. discriminate.
Qed.
Lemma team_any_free : any_free_hints team_env 0.
Proof.
  constructor.
  - intros c p. do 6 (destruct c as [|c]; [cbn; intuition (subst; reflexivity)|]). intros [].
  - intros c fd. do 6 (destruct c as [|c]; [cbn; intuition (subst; reflexivity)|]). intros [].
  - discriminate.
Qed.
Lemma team_simple : simple_keys team_heap (ORef 4).
Proof.
  intros b k d key y _. do 5 (destruct b as [|b]; [try discriminate; cbn; intros [= <- <-]; cbn; intuition; subst; (match goal with H : (_, _) = (_, _) |- _ => injection H as <- <- end); eexists; reflexivity|]).
  destruct b; discriminate.
Qed.
Lemma team_no_keys a : ~ keys_section team_heap (ORef 4) a.
Proof.
  intros (b & k & d & _ & Hn & Hin). revert Hn Hin. do 5 (destruct b as [|b]; [try discriminate; cbn; intros [= <- <-]; cbn; intuition discriminate|]).
  destruct b; discriminate.
Qed.
Lemma team_no_meta : without_meta team_heap (ORef 4).
Proof.
  intros b k d y _. do 5 (destruct b as [|b]; [try discriminate; cbn; intros [= <- <-]; cbn; intuition discriminate|]).
  destruct b; discriminate.
Qed.
Lemma team_flat : flat_atoms team_heap (ORef 4).
Proof.
  split; [intros v Hi; inversion Hi|]. intros b c y v _ Hn Hh Hi. apply holds_parts in Hh. revert Hn Hh Hi.
  do 5 (destruct b as [|b]; [cbn; intros [= <-]; cbn; intuition; subst; (match goal with H : inside _ _ |- _ => inversion H; reflexivity end)|]).
  destruct b; discriminate.
Qed.
Lemma team_valid : valid team_heap (ORef 4).
Proof. apply sound_valid; reflexivity. Qed.
Lemma none_field i m : valid team_heap (le_field team_lenv i m) /\ simple_keys team_heap (le_field team_lenv i m).
Proof. split; [now apply sound_valid|]. intros b k d key y Hr. destruct (reaches_atom _ _ _ Hr). Qed.
(** The strict load succeeds; the team is loaded twice, the persons and notes are new, and the
    two teams have the one default value of tags. *)
Definition team_run := hload team_env team_lenv 9 0 strict_l (Some (TApp true HList [TClass 5])) (ORef 4) team_heap.
Definition john_h : value := VObj 1 [("name", VStr "John"); ("age", VInt 30)].
Definition team_h : value := VObj 5 [("name", VStr "A"); ("tags", VList []); ("lead", john_h); ("notes", VList [VStr "x"])].
Example C73_strict_case : exists y,
  snd team_run = Done y /\ read (fst team_run) y = Some (VList [team_h; team_h]) /\
  (forall a, reaches (fst team_run) y a -> length team_heap <= a < length (fst team_run) \/ a = 0) /\
  reaches (fst team_run) y 0 /\
  (exists new, fst team_run = (team_heap ++ new)%list).
Proof.
  assert (Hs : snd team_run = Done (ORef 11)) by (vm_compute; reflexivity).
  exists (ORef 11). split; [exact Hs|]. split; [vm_compute; reflexivity|]. split; [|split].
  - intros a Ha. eapply (C73_strict_result_is_new team_env team_lenv (fun a => a = 0)) with (o := strict_l) (cls := Some (TApp true HList [TClass 5])).
    + exact team_quiet.
    + exact team_valid.
    + exact team_simple.
    + exact none_field.
    + intros t. reflexivity.
    + exact team_any_free.
    + exact team_owns.
    + reflexivity.
    + reflexivity.
    + unfold team_run in Hs. rewrite <- Hs. apply surjective_pairing.
    + exact Ha.
  - eapply (reaches_held _ _ 11 (NList [ORef 7; ORef 10]) (ORef 7)); [apply reaches_ref|vm_compute; reflexivity|now left|].
    eapply (reaches_held _ _ 7); [apply reaches_ref|vm_compute; reflexivity| |apply reaches_ref].
    exists "tags". right. now left.
  - eapply (C73_document_without_sections team_env team_lenv 9 0 strict_l).
    + exact team_quiet.
    + exact team_valid.
    + intros i m. apply none_field.
    + exact team_no_keys.
    + intros i m a (b & k & d & Hr & _). destruct (reaches_atom _ _ _ Hr).
    + apply surjective_pairing.
Qed.
(** The same document without a type, in lenient mode: a copy. *)
Definition team_copy := hload team_env team_lenv 9 0 lopts0 None (ORef 4) team_heap.
Example C73_untyped_case : exists y v,
  snd team_copy = Done y /\ read (fst team_copy) y = Some v /\ read team_heap (ORef 4) = Some v /\
  (forall a, reaches (fst team_copy) y a -> length team_heap <= a < length (fst team_copy) \/ a = 0).
Proof.
  assert (Hs : snd team_copy = Done (ORef 11)) by (vm_compute; reflexivity).
  exists (ORef 11). eexists. split; [exact Hs|]. split; [vm_compute; reflexivity|]. split; [vm_compute; reflexivity|].
  intros a Ha. eapply (C73_untyped_load_copies team_env team_lenv (fun a => a = 0)) with (o := lopts0).
  - exact team_quiet.
  - exact team_valid.
  - exact team_simple.
  - exact none_field.
  - intros t. reflexivity.
  - exact team_any_free.
  - exact team_owns.
  - exact team_no_meta.
  - exact team_flat.
  - unfold team_copy in Hs. rewrite <- Hs. apply surjective_pairing.
  - exact Ha.
Qed.
(** The same document as a list of teams in lenient mode: the notes of the two teams are the one
    list of the document, cell 2, so that a later change of the document changes the result. *)
Definition team_lenient := hload team_env team_lenv 9 0 lopts0 (Some (TApp true HList [TClass 5])) (ORef 4) team_heap.
Theorem C73_lenient_result_is_new_refuted :
  ~ (forall E L G n f o cls x H H' y a,
      quiet L -> valid H x -> simple_keys H x ->
      (forall i m, valid H (le_field L i m) /\ simple_keys H (le_field L i m)) ->
      default_deserializers E f -> any_free_hints E f -> owns G L H ->
      any_free cls = true ->
      hload E L n f o cls x H = (H', Done y) -> reaches H' y a -> length H <= a < length H' \/ G a).
Proof.
  intros Hall. assert (Hs : snd team_lenient = Done (ORef 9)) by (vm_compute; reflexivity).
  destruct (Hall team_env team_lenv (fun a => a = 0) 9 0 lopts0 (Some (TApp true HList [TClass 5])) (ORef 4) team_heap
              (fst team_lenient) (ORef 9) 2) as [Hl|Hl].
  - exact team_quiet.
  - exact team_valid.
  - exact team_simple.
  - exact none_field.
  - intros t. reflexivity.
  - exact team_any_free.
  - exact team_owns.
  - reflexivity.
  - unfold team_lenient in Hs. rewrite <- Hs. apply surjective_pairing.
  - eapply (reaches_held _ _ 9); [apply reaches_ref|vm_compute; reflexivity|now left|].
    eapply (reaches_held _ _ 6); [apply reaches_ref|vm_compute; reflexivity| |apply reaches_ref].
    exists "notes". right. right. right. now left.
  - cbn in Hl. lia.
  - discriminate.
Qed.
Example C73_same_object_case :
  hload team_env team_lenv 1 0 lopts0 (Some (TApp false HList [])) (ORef 4) team_heap = (team_heap, Done (ORef 4)).
Proof. apply C73_lenient_same_object; reflexivity. Qed.
(** A document with a '-keys' section, loaded as Dict[int, str]: {1: 'a'}.  The section is then
    empty, and so the second load of the same document fails. *)
Definition keyed_heap : heap :=
  [NDict DkDict [(atom "h", OAtom (VInt 1))];
   NDict DkDict [(atom "h", atom "a"); (atom "-keys", ORef 0)]].
Definition keyed_load (H : heap) := hload team_env team_lenv 9 0 lopts0 (Some (TApp true HDict [TPrim PInt; TPrim PStr])) (ORef 1) H.
Theorem C73_document_unchanged_refuted :
  exists H1 H2 y e,
    quiet team_lenv /\ valid keyed_heap (ORef 1) /\
    keyed_load keyed_heap = (H1, Done y) /\
    read H1 y = Some (VDict DkDict [(VInt 1, VStr "a")]) /\
    read H1 (ORef 1) <> read keyed_heap (ORef 1) /\
    keyed_load H1 = (H2, Fail e) /\ e_kind e = KDeser.
Proof.
  assert (Hs : snd (keyed_load keyed_heap) = Done (ORef 2)) by (vm_compute; reflexivity).
  exists (fst (keyed_load keyed_heap)), (fst (keyed_load (fst (keyed_load keyed_heap)))), (ORef 2), (exn_of KDeser).
  split; [exact team_quiet|]. split; [apply sound_valid; reflexivity|].
  split; [rewrite <- Hs; apply surjective_pairing|]. split; [vm_compute; reflexivity|].
  split; [vm_compute; discriminate|]. split; [|reflexivity].
  assert (Hf : snd (keyed_load (fst (keyed_load keyed_heap))) = Fail (exn_of KDeser)) by (vm_compute; reflexivity).
  rewrite <- Hf. apply surjective_pairing.
Qed.
Example C73_section_case :
  keys_section keyed_heap (ORef 1) 0 /\
  nth_error (fst (keyed_load keyed_heap)) 0 = Some (NDict DkDict []) /\
  nth_error (fst (keyed_load keyed_heap)) 1 = nth_error keyed_heap 1.
Proof.
  split; [|split; vm_compute; reflexivity].
  exists 1, DkDict, [(atom "h", atom "a"); (atom "-keys", ORef 0)]. split; [apply reaches_ref|]. split; [reflexivity|]. right. now left.
Qed.
(** Two keys: both come back, and the section is empty afterwards. *)
Definition two_keys_heap : heap :=
  [NDict DkDict [(atom "h", OAtom (VInt 1)); (atom "i", OAtom (VInt 2))];
   NDict DkDict [(atom "h", atom "a"); (atom "i", atom "b"); (atom "-keys", ORef 0)]].
Example C73_two_keys_case : exists y,
  snd (keyed_load two_keys_heap) = Done y /\
  read (fst (keyed_load two_keys_heap)) y = Some (VDict DkDict [(VInt 1, VStr "a"); (VInt 2, VStr "b")]) /\
  nth_error (fst (keyed_load two_keys_heap)) 0 = Some (NDict DkDict []).
Proof. eexists. split; [vm_compute; reflexivity|]. split; vm_compute; reflexivity. Qed.
Print Assumptions C73_document_unchanged.
Print Assumptions C73_document_without_sections.
Print Assumptions C73_strict_result_is_new.
Print Assumptions C73_untyped_load_copies.
Print Assumptions C73_lenient_same_object.
Print Assumptions C73_lenient_result_is_new_refuted.
Print Assumptions C73_document_unchanged_refuted.
