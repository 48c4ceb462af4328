(** * C69: calls that are cut short

    A RecursionError or a MemoryError, or any other exception that comes out of the blue, stops
    some of the calls of serializers (of load) that happen within a call of dump (of load).
    Model: CutModel.v.  [cut] decides which of these calls are stopped and how; besides, at most
    [n] calls are nested.  Specification: CutSpec.v. *)
From Coq Require Import Lia.
From Verif Require Import PyBaseFacts LoadSpec LoadTypes LoadFacts ConformSpec ParallelProofs PropDump PropParallel.
From Verif Require Export CutLoadProofs.
Local Open Scope string_scope.

(** ** Dump
    What comes out is complete, or something is reported. *)
Theorem C69_dump_complete_or_reported : forall E f cut n o cls v d,
  noticed E f o -> no_unions E f o cls v ->
  snd (cut_dump E f cut n o cls v) = Done d ->
  dump E f n o cls v = cut_dump E f cut n o cls v \/
  (so_strict o = false /\ In (left_out f) (fst (cut_dump E f cut n o cls v))).
Proof. exact cut_dump_or_warning. Qed.
Theorem C69_strict_dump : forall E f cut n o cls v d,
  so_strict o = true -> no_unions E f o cls v ->
  snd (cut_dump E f cut n o cls v) = Done d -> snd (dump E f n o cls v) = Done d.
Proof. exact cut_dump_strict. Qed.
(** Whatever happens inside: dump ends, and the only exception is a SerializationError. *)
Theorem C69_dump_errors : forall E f cut n o cls v,
  (exists d, snd (cut_dump E f cut n o cls v) = Done d) \/
  snd (cut_dump E f cut n o cls v) = Fail (exn_of KSer).
Proof. exact cut_dump_outcome. Qed.
(** Objects that are nested too deeply: there are more than [n] nested calls. *)
Theorem C69_too_deep : forall E f cut n o cls v,
  noticed E f o -> no_unions E f o cls v -> snd (dump E f n o cls v) = Oof ->
  snd (cut_dump E f cut n o cls v) = Fail (exn_of KSer) \/
  (so_strict o = false /\ In (left_out f) (fst (cut_dump E f cut n o cls v))).
Proof. exact cut_dump_deep_or_warning. Qed.

(** *** Cases *)
Lemma john_visits o c x : visits demo_env 0 o None john c x ->
  c = None /\ (x = john \/ x = VStr "John" \/ x = VInt 30).
Proof.
  induction 1 as [|c x l y t _ [-> IH] Hi Hl Hy Ht|c x k y t _ [-> IH] Hd _ _
                 |c x a y t _ [-> IH] Hd Ha Ht|c x t _ [-> IH] Hd _ _|c off name _ [-> IH] _].
  - auto.
  - exfalso. destruct IH as [-> |[-> | ->]]; destruct Hi as [Hi|[Hi|[Hi|Hi]]]; vm_compute in Hi; discriminate.
  - exfalso. destruct IH as [-> |[-> | ->]]; vm_compute in Hd; discriminate.
  - destruct IH as [-> |[-> | ->]]; try (destruct Hd as [Hd|Hd]; vm_compute in Hd; discriminate).
    split.
    + destruct Ht as [->|(i & u & [Eq|Eq] & -> & Hh)]; [reflexivity|discriminate|]. injection Eq as <-. destruct Hh.
    + assert (Hm : sget a (ci_members (e_ct demo_env 1)) = None) by reflexivity.
      cbn [get_attr john] in Ha. rewrite Hm in Ha. unfold sget in Ha. cbn [aget] in Ha.
      destruct (String.eqb a "name"); [injection Ha as <-; auto|].
      destruct (String.eqb a "age"); [injection Ha as <-; auto|discriminate].
  - exfalso. destruct IH as [-> |[-> | ->]]; vm_compute in Hd; discriminate.
  - exfalso. destruct IH as [H|[H|H]]; discriminate.
Qed.
Lemma john_unions o : no_unions demo_env 0 o None john.
Proof. intros c x H. apply john_visits in H as [-> [-> |[-> | ->]]]; vm_compute; discriminate. Qed.
(** There is no memory for integers. *)
Definition memory_error : exn := mkExn (KOther 1) None [] false "".
Definition no_integers : ser_cut := fun _ _ _ _ v => match v with VInt _ => Some memory_error | _ => None end.
Definition strict_o : sopts := mkSopts true false None false false false SANone false false false true false [].
Example C69_strict_case :
  no_unions demo_env 0 strict_o None john /\
  snd (cut_dump demo_env 0 no_cut 2 strict_o None john) = Done john_doc /\
  snd (cut_dump demo_env 0 no_integers 2 strict_o None john) = Fail (exn_of KSer) /\
  snd (cut_dump demo_env 0 no_cut 1 strict_o None john) = Fail (exn_of KSer).
Proof. split; [apply john_unions|]. vm_compute. auto. Qed.
Lemma party_unions o : so_strict o = false -> no_unions demo_env 0 o None party.
Proof.
  intros Hs c x H. apply party_visits in H as [-> H]; [|exact Hs]. unfold party_parts in H. cbn [In] in H.
  repeat destruct H as [<-|H]; try contradiction; vm_compute; discriminate.
Qed.
Example C69_lenient_case :
  noticed demo_env 0 sopts0 /\ no_unions demo_env 0 sopts0 None party /\
  cut_dump demo_env 0 no_cut 5 sopts0 None party = dump demo_env 0 5 sopts0 None party /\
  snd (dump demo_env 0 5 sopts0 None party) = Done party_doc /\
  snd (cut_dump demo_env 0 no_cut 3 sopts0 None party) =
    Done (str_dict [("lead", VStr "RED"); ("members", VList [str_dict []; VNone; str_dict []]); ("note", VNone)]) /\
  In (left_out 0) (fst (cut_dump demo_env 0 no_cut 3 sopts0 None party)).
Proof.
  split; [now right|]. split; [now apply party_unions|]. vm_compute. repeat split; auto 12.
Qed.
(** A list that contains a list that contains a list ... *)
Fixpoint nested (n : nat) : value := match n with O => VList [] | S n' => VList [nested n'] end.
Lemma nested_list n : exists l, nested n = VList l.
Proof. destruct n; eexists; reflexivity. Qed.
Lemma nested_oof n : forall o, so_strict o = false ->
  snd (serialize demo_env 0 n o (Some SList) None (nested n)) = Oof.
Proof.
  induction n as [|n IH]; intros o Hs; [reflexivity|]. cbn [nested serialize ser_step]. unfold ser_list. cbn [truthy negb].
  cbv zeta. cbn [get_args]. rewrite Hs. cbn [py_iter]. rewrite bind_lift_ok. cbn [mmap].
  destruct (nested_list n) as (l & El). 
  assert (Hd : snd (dump_ demo_env 0 (serialize demo_env 0 n) (set_store false o) None (nested n)) = Oof).
  { unfold dump_. unfold mbind. cbn [snd emit fst]. rewrite El. cbn [class_of].
    assert (Hser : e_ser demo_env 0 (TApp false HList []) = Some SList) by (vm_compute; reflexivity).
    rewrite Hser, <- El. unfold wrap_ser, mtry. rewrite (IH (set_store false o) Hs). exact (IH (set_store false o) Hs). }
  unfold mbind. rewrite Hd. reflexivity.
Qed.
Lemma nested_visits m o c x : so_strict o = false ->
  visits demo_env 0 o None (nested m) c x -> c = None /\ exists k, x = nested k.
Proof.
  intros Hs. induction 1 as [|c x l y t _ [-> (k & ->)] Hi Hl Hy Ht|c x k y t _ [-> (k' & ->)] Hd _ _
                 |c x a y t _ [-> (k & ->)] Hd Ha Ht|c x t _ [-> (k & ->)] Hd _ _|c off name _ [-> (k & H)] _].
  - eauto.
  - split; [destruct Ht as [|t []|y' Ho|y' t Ho]; [reflexivity|congruence..]|].
    destruct k; cbn in Hl; injection Hl as <-; [destruct Hy|]. destruct Hy as [<-|[]]. eauto.
  - exfalso. destruct (nested_list k') as (l & El). rewrite El in Hd. vm_compute in Hd. discriminate.
  - exfalso. destruct (nested_list k) as (l & El). rewrite El in Hd. destruct Hd as [Hd|Hd]; vm_compute in Hd; discriminate.
  - exfalso. destruct (nested_list k) as (l & El). rewrite El in Hd. vm_compute in Hd. discriminate.
  - exfalso. destruct (nested_list k) as (l & El). congruence.
Qed.
(** Whatever the limit is, there is a list that is nested too deeply. *)
Example C69_too_deep_case : forall n,
  noticed demo_env 0 sopts0 /\ no_unions demo_env 0 sopts0 None (nested n) /\
  snd (dump demo_env 0 n sopts0 None (nested n)) = Oof.
Proof.
  intros n. split; [now right|]. split.
  - intros c x H. apply nested_visits in H as [-> (k & ->)]; [|reflexivity].
    destruct (nested_list k) as (l & El). rewrite El. vm_compute. discriminate.
  - unfold dump, dump_, mbind. cbn [snd emit fst]. destruct (nested_list n) as (l & El). rewrite El. cbn [class_of].
    assert (Hser : e_ser demo_env 0 (TApp false HList []) = Some SList) by (vm_compute; reflexivity).
    rewrite Hser, <- El. unfold wrap_ser, mtry. rewrite (nested_oof n sopts0 eq_refl). exact (nested_oof n sopts0 eq_refl).
Qed.

(** *** What does not hold
    Lenient dumps of objects that are nested too deeply are not rejected: whatever the limit is,
    there are objects that are dumped, with a warning, but not completely. *)
Fixpoint staff (n : nat) : value :=
  VObj 1 (match n with O => [] | S n' => [("boss", staff n')] end).
Fixpoint staff_doc (n : nat) : value :=
  VDict DkDict (match n with O => [] | S n' => [(VStr "boss", staff_doc n')] end).
Definition normal (o : sopts) : Prop := o = sopts0 \/ o = set_attr_opt (SATuple []) sopts0.
Lemma staff_step ser o l d : normal o ->
  snd (ser (set_attr_opt (SATuple []) sopts0) (Some SObject) None (VObj 1 l)) = Done (VDict DkDict d) ->
  snd (ser_step demo_env 0 ser o (Some SObject) None (VObj 1 [("boss", VObj 1 l)])) =
    Done (VDict DkDict [(VStr "boss", VDict DkDict d)]).
Proof. intros [-> | ->] H; vm_compute in H; vm_compute; rewrite H; reflexivity. Qed.
Lemma staff_step_cut ser o l : normal o ->
  snd (ser (set_attr_opt (SATuple []) sopts0) (Some SObject) None (VObj 1 l)) = Fail recursion_error ->
  snd (ser_step demo_env 0 ser o (Some SObject) None (VObj 1 [("boss", VObj 1 l)])) = Done (VDict DkDict []).
Proof. intros [-> | ->] H; vm_compute in H; vm_compute; rewrite H; reflexivity. Qed.
Lemma staff_obj n : exists l, staff n = VObj 1 l.
Proof. destruct n; eexists; reflexivity. Qed.
Lemma staff_doc_dict n : exists d, staff_doc n = VDict DkDict d.
Proof. destruct n; eexists; reflexivity. Qed.
Lemma staff_whole n : forall o, normal o ->
  snd (serialize demo_env 0 (S n) o (Some SObject) None (staff n)) = Done (staff_doc n).
Proof.
  induction n as [|n IH]; intros o Ho.
  - destruct Ho as [-> | ->]; vm_compute; reflexivity.
  - pose proof (IH _ (or_intror eq_refl)) as H. cbn [staff staff_doc].
    destruct (staff_obj n) as (l & El). destruct (staff_doc_dict n) as (d & Ed). rewrite El, Ed in *.
    change (serialize demo_env 0 (S (S n))) with (ser_step demo_env 0 (serialize demo_env 0 (S n))).
    exact (staff_step (serialize demo_env 0 (S n)) o l d Ho H).
Qed.
Lemma staff_cut n m : forall o, normal o ->
  snd (cut_serialize demo_env 0 no_cut (S n) o (Some SObject) None (staff (S n + m))) = Done (staff_doc n).
Proof.
  induction n as [|n IH]; intros o Ho.
  - cbn [Nat.add staff]. destruct (staff_obj m) as (l & El). rewrite El.
    exact (staff_step_cut (cut_serialize demo_env 0 no_cut 0) o l Ho eq_refl).
  - pose proof (IH _ (or_intror eq_refl)) as H. cbn [Nat.add staff staff_doc].
    cbn [Nat.add] in H. destruct (staff_obj (S (n + m))) as (l & El). destruct (staff_doc_dict n) as (d & Ed).
    rewrite El, Ed in H. cbn [staff] in El. injection El as El. rewrite El, Ed.
    exact (staff_step (cut_serialize demo_env 0 no_cut (S n)) o l d Ho H).
Qed.
Lemma staff_doc_inj n m : staff_doc n = staff_doc m -> n = m.
Proof.
  revert m. induction n as [|n IH]; intros [|m] H; try reflexivity; try discriminate H.
  cbn [staff_doc] in H. injection H as H. f_equal. now apply IH.
Qed.
Lemma dump_staff n k ser :
  snd (ser sopts0 (Some SObject) None (staff k)) = Done (staff_doc n) ->
  snd (dump_ demo_env 0 ser sopts0 None (staff k)) = Done (staff_doc n).
Proof.
  intros H. unfold dump_, mbind. cbn [snd emit fst]. destruct (staff_obj k) as (l & El). rewrite El in *. cbn [class_of].
  assert (Hser : e_ser demo_env 0 (TClass 1) = Some SObject) by (vm_compute; reflexivity).
  rewrite Hser. unfold wrap_ser, mtry. rewrite H. exact H.
Qed.
Theorem C69_lenient_refuted : forall n, exists v d full m,
  snd (cut_dump demo_env 0 no_cut (S n) sopts0 None v) = Done d /\
  snd (dump demo_env 0 m sopts0 None v) = Done full /\ d <> full.
Proof.
  intros n. exists (staff (S n)), (staff_doc n), (staff_doc (S n)), (S (S n)). split; [|split].
  - unfold cut_dump. apply dump_staff. pose proof (staff_cut n 0 sopts0 (or_introl eq_refl)) as H.
    rewrite Nat.add_0_r in H. exact H.
  - unfold dump. apply dump_staff. exact (staff_whole (S n) sopts0 (or_introl eq_refl)).
  - intros H. apply staff_doc_inj in H. lia.
Qed.
(** With a Union, even a strict dump may fall back on another alternative, without any
    warning.  Here, Person has annotations, and the dump is one with Union[Person, object]. *)
Definition person_hints : cinfo :=
  mkCinfo "m" "Person" CkObj [] (ci_params (demo_ct 1)) [("name", TPrim PStr); ("age", TPrim PInt)] None []
          (fun _ _ => raise KAttribute) (ci_init (demo_ct 1)) (ci_set (demo_ct 1)) false true.
Definition hints_env : env := std_env (fun c => match c with 1 => person_hints | _ => demo_ct c end) demo_rt.
Theorem C69_union_refuted : exists cut n o cls v d full,
  so_strict o = true /\ snd (cut_dump hints_env 0 cut n o cls v) = Done d /\
  ~ (exists w, In (EvWarn 0 w) (fst (cut_dump hints_env 0 cut n o cls v))) /\
  snd (dump hints_env 0 n o cls v) = Done full /\ d <> full.
Proof.
  exists no_integers, 9, strict_o, (Some (TUnion [TClass 1; TObject])), john, (VDict DkDict []),
         (str_dict [("name", VStr "John"); ("age", VInt 30)]).
  split; [reflexivity|]. split; [vm_compute; reflexivity|]. split.
  - intros [w H]. vm_compute in H. repeat destruct H as [H|H]; discriminate || exact H.
  - split; [vm_compute; reflexivity|]. discriminate.
Qed.

(** ** Load
    On documents without ambiguities: no string without a type, no unions but optionals, and
    failing elements of lists are not to be dropped. *)
Theorem C69_load_complete_or_fails : forall E cut n o cls j v,
  default_deserializers E 0 -> plain_options o -> plain_input j -> firm (e_ct E) (lo_strict o) cls j ->
  snd (user_load E cut n 0 o cls j) = Done v -> load E (S n) 0 o cls j = user_load E cut n 0 o cls j.
Proof. intros E cut n o cls j v HD. exact (user_load_same E HD cut n o cls j v). Qed.
(** On all documents: load ends, and only JsonsErrors are raised, whatever the exceptions are that
    happen inside (for '-meta' sections, strange names and forward references see C40, C34 and
    C63). *)
Theorem C69_load_errors : forall E cut n f o cls j,
  no_meta_entry j -> (j = VNone -> ~ odd_name (e_ct E) cls) ->
  (forall s e', cls = Some (TFwd s) -> e_resolve E f s = Err e' -> is_jsons (e_kind e') = true) ->
  (exists v, snd (user_load E cut n f o cls j) = Done v) \/
  (exists e, snd (user_load E cut n f o cls j) = Fail e /\ is_jsons (e_kind e) = true).
Proof. exact user_load_outcome. Qed.
Theorem C69_load_ends : forall E cut n f o cls j, snd (user_load E cut n f o cls j) <> Oof.
Proof. exact user_load_ends. Qed.
(** Documents that are nested too deeply *)
Theorem C69_load_too_deep : forall E cut n o cls j,
  default_deserializers E 0 -> plain_options o -> plain_input j -> firm (e_ct E) (lo_strict o) cls j ->
  (j = VNone -> ~ odd_name (e_ct E) cls) ->
  snd (load E (S n) 0 o cls j) = Oof ->
  exists e, snd (user_load E cut n 0 o cls j) = Fail e /\ is_jsons (e_kind e) = true.
Proof. exact user_load_too_deep. Qed.

(** *** Cases *)
Lemma john_doc_firm s : firm demo_ct s (Some (TClass 1)) john_doc.
Proof.
  apply fm_object; [apply demo_ordinary|reflexivity| |].
  - intros p x [<-|[<-|[]]] _; apply fm_leaf; exact I.
  - intros a x [H|[H|[]]] Hn; injection H as <- <-; exfalso; apply Hn; cbn; auto.
Qed.
Example C69_load_case :
  firm demo_ct false (Some (TApp true HList [TUnion [TClass 1; TNoneT]])) (VList [john_doc; VNone]) /\
  snd (user_load demo_env no_load_cut 3 0 lopts0 (Some (TApp true HList [TUnion [TClass 1; TNoneT]]))
         (VList [john_doc; VNone])) = Done (VList [john; VNone]) /\
  (exists e, snd (user_load demo_env no_load_cut 2 0 lopts0 (Some (TApp true HList [TUnion [TClass 1; TNoneT]]))
         (VList [john_doc; VNone])) = Fail e /\ is_jsons (e_kind e) = true).
Proof.
  split; [|split].
  - apply fm_list; [exact I|]. constructor; [|constructor; [|constructor]].
    + apply fm_optional; [discriminate|]. apply john_doc_firm.
    + apply fm_optional_none.
      * exact (fun H => H).
      * intros (t & Ht & _ & _ & Hn). injection Ht as <-. apply union_like_occurs in Hn. discriminate.
  - vm_compute. reflexivity.
  - eexists. split; vm_compute; reflexivity.
Qed.
(** *** What does not hold
    Falling back on another alternative of a Union: here, Dict[str, Dict[str, date]] is too deep
    for the limit, and the result is that of the alternative dict, without any warning. *)
Definition dict_of (t : ty) : ty := TApp true HDict [TPrim PStr; t].
Definition dates_doc : value := str_dict [("a", str_dict [("b", VStr "2020-01-01")])].
Theorem C69_load_union_refuted :
  let cls := Some (TUnion [dict_of (dict_of (TLeaf LkDate)); TApp false HDict []]) in
  user_load demo_env no_load_cut 2 0 lopts0 cls dates_doc = ([], Done dates_doc) /\
  exists v, snd (load demo_env 4 0 lopts0 cls dates_doc) = Done v /\ v <> dates_doc.
Proof. cbv zeta. split; [vm_compute; reflexivity|]. eexists. split; [vm_compute; reflexivity|]. discriminate. Qed.
(** A string without a type: the attempt to load it as a datetime fails, and it stays a string. *)
Definition no_datetimes : load_cut := fun _ _ _ cls _ =>
  match cls with Some (TLeaf LkDatetime) => Some (exn_of KDeser) | _ => None end.
Theorem C69_load_string_refuted :
  let j := VStr "2020-01-01T00:00:00Z" in
  user_load demo_env no_datetimes 1 0 lopts0 None j = ([], Done j) /\
  exists v, snd (load demo_env 2 0 lopts0 None j) = Done v /\ v <> j.
Proof. cbv zeta. split; [vm_compute; reflexivity|]. eexists. split; [vm_compute; reflexivity|]. discriminate. Qed.
(** With warn_on_fail, elements that are nested too deeply are dropped, with a warning. *)
Theorem C69_load_elements_refuted :
  let cls := Some (TApp true HList [TApp true HList [TLeaf LkDate]]) in
  let j := VList [VList [VStr "2020-01-01"]] in
  user_load demo_env no_load_cut 1 0 (set_warn true lopts0) cls j =
    ([EvWarn 0 "element-not-deserialized"], Done (VList [])) /\
  snd (load demo_env 3 0 (set_warn true lopts0) cls j) =
    Done (VList [VList [VLeaf (LDate (mkDate 2020 1 1))]]).
Proof. vm_compute. auto. Qed.

(** Elements whose own call is beyond the limit are not dropped: a RecursionError is no
    DeserializationError where the elements are loaded, and the whole load fails. *)
Theorem C69_load_elements_at_the_limit : forall E f o t x l,
  default_deserializers E f ->
  user_load E no_load_cut 0 f o (Some (TApp true HList [t])) (VList (x :: l)) = ([], Fail (exn_of KDeser)).
Proof.
  intros E f o t x l HD. unfold user_load, load_step. cbn. rewrite Bool.andb_false_r. cbn.
  assert (Hp : determine_precedence (Some (TApp true HList [t])) None (Some (TApp false HList [])) (lo_inferred o) =
               Some (TApp true HList [t])) by now destruct (lo_inferred o).
  rewrite Hp, HD, (deser_head (e_ct E) true HList [t]). reflexivity.
Qed.
Print Assumptions C69_dump_complete_or_reported.
Print Assumptions C69_strict_dump.
Print Assumptions C69_dump_errors.
Print Assumptions C69_too_deep.
Print Assumptions C69_lenient_refuted.
Print Assumptions C69_union_refuted.
Print Assumptions C69_load_complete_or_fails.
Print Assumptions C69_load_errors.
Print Assumptions C69_load_ends.
Print Assumptions C69_load_too_deep.
Print Assumptions C69_load_union_refuted.
Print Assumptions C69_load_string_refuted.
Print Assumptions C69_load_elements_refuted.
Print Assumptions C69_load_elements_at_the_limit.
