(** * C72: what texts of datetimes, dates and times mean

    Model: DatetimeModel.v, EngineDeser.v.  Specification: DateTextSpec.v: [says s d t off] says
    which date, time and offset (in microseconds) the text [s] denotes. *)
From Coq Require Import Lia.
From Verif Require Import PyBase PyBaseFacts DatetimeModel DatetimeProofs EngineEnv DumpSpec LoadSpec LoadFacts LoadLaws LoadObject LoadTypes LeafLaws PropLoad.
From Verif Require Export DateTextProofs.
Local Close Scope Z_scope.
Local Open Scope string_scope.

(** ** Datetimes
    A text is loaded as a datetime exactly if it says one, and the datetime is the one that it
    says; every other text is a DeserializationError. *)
Theorem C72_datetime : forall E n f o s v,
  default_deserializers E f ->
  (snd (load E (S n) f o (Some (TLeaf LkDatetime)) (VStr s)) = Done v <->
   exists d t tz off, says s d t off /\ tz = fixed_tz off /\ v = VLeaf (LDatetime (mkDt d t (Some tz))) /\ accepts E f (TLeaf LkDatetime) v).
Proof.
  intros E n f o s v HD. rewrite load_leaf by (assumption || discriminate || reflexivity || (intros ? ? ? H; discriminate)).
  cbn [leaf_handler]. cbn [deser_step]. rewrite wrap_lift. split.
  - destruct (load_datetime s) as [dt|e] eqn:Hs; cbn [rbind]; [|discriminate]. intros H. apply load_result_ok in H as [<- Ha].
    apply load_datetime_says in Hs as (off & Htz & Hs). destruct dt as [d t otz]. cbn [dt_tz dt_date dt_time] in *. subst otz. eauto 8.
  - intros (d & t & tz & off & Hs & -> & -> & Ha). apply says_load_datetime in Hs. rewrite Hs. cbn [rbind]. now apply load_result_ok.
Qed.
(** The offset of the result *)
Theorem C72_offset : forall off, tz_off (fixed_tz off) = Some off.
Proof. exact fixed_tz_off. Qed.
Theorem C72_no_datetime : forall E n f o s,
  default_deserializers E f -> (forall d t off, ~ says s d t off) ->
  snd (load E (S n) f o (Some (TLeaf LkDatetime)) (VStr s)) = Fail (exn_of KDeser).
Proof.
  intros E n f o s HD Hn. rewrite load_leaf by (assumption || discriminate || reflexivity || (intros ? ? ? H; discriminate)).
  cbn [leaf_handler]. cbn [deser_step]. rewrite wrap_lift. pose proof (load_datetime_sound s) as HS.
  destruct (load_datetime s) as [dt|e] eqn:Hs; cbn [rbind].
  - exfalso. apply load_datetime_says in Hs as (off & _ & Hs). exact (Hn _ _ _ Hs).
  - unfold load_result. destruct HS as [[-> | ->]|[[-> _]|[-> _]]]; reflexivity.
Qed.
(** A text says one thing at most. *)
Theorem C72_one_meaning : forall s d t off d' t' off', says s d t off -> says s d' t' off' -> d = d' /\ t = t' /\ off = off'.
Proof.
  intros s d t off d' t' off' H H'. apply says_load_datetime in H. apply says_load_datetime in H'. rewrite H in H'.
  injection H' as -> -> H'. split; [reflexivity|]. split; [reflexivity|].
  apply (f_equal tz_off) in H'. rewrite !fixed_tz_off in H'. congruence.
Qed.
(** Without a type, a text that says a datetime becomes that datetime and every other text stays
    what it is. *)
Theorem C72_untyped : forall E n f o s v,
  default_deserializers E f ->
  (forall x, accepts E f (TLeaf LkDatetime) (VLeaf (LDatetime x))) -> (forall x, accepts E f (TPrim PStr) x) ->
  (snd (load E (S (S n)) f o None (VStr s)) = Done v <->
   (exists d t off, says s d t off /\ v = VLeaf (LDatetime (mkDt d t (Some (fixed_tz off))))) \/
   ((forall d t off, ~ says s d t off) /\ v = VStr s)).
Proof.
  intros E n f o s v HD HA HB. rewrite (C38_untyped_str E n f o s HD HA HB). split.
  - destruct (load_datetime s) as [[d t otz]|e] eqn:Hs; intros [= <-].
    + left. apply load_datetime_says in Hs as (off & Htz & Hs). cbn [dt_tz dt_date dt_time] in *. subst otz. eauto.
    + right. split; [|reflexivity]. intros d t off H. apply says_load_datetime in H. congruence.
  - intros [(d & t & off & Hs & ->)|[Hn ->]].
    + apply says_load_datetime in Hs. now rewrite Hs.
    + destruct (load_datetime s) as [dt|e] eqn:Hs; [|reflexivity]. exfalso. apply load_datetime_says in Hs as (off & _ & Hs). exact (Hn _ _ _ Hs).
Qed.

(** ** Dates and times
    A "Z" at the end is allowed and has no meaning. *)
Theorem C72_date : forall E n f o s v,
  default_deserializers E f ->
  (snd (load E (S n) f o (Some (TLeaf LkDate)) (VStr s)) = Done v <->
   exists a d, says_date a d /\ (s = a \/ s = a ++ "Z") /\ v = VLeaf (LDate d) /\ accepts E f (TLeaf LkDate) v).
Proof.
  intros E n f o s v HD. rewrite load_leaf by (assumption || discriminate || reflexivity || (intros ? ? ? H; discriminate)).
  cbn [leaf_handler]. cbn [deser_step]. rewrite wrap_lift. split.
  - destruct (load_date s) as [d|e] eqn:Hs; cbn [rbind].
    + intros H. apply load_result_ok in H as [<- Ha]. apply load_date_iff in Hs as (a & H1 & H2). eauto 6.
    + discriminate.
  - intros (a & d & H1 & H2 & -> & Ha). rewrite (proj2 (load_date_iff s d)) by eauto. cbn [rbind]. now apply load_result_ok.
Qed.
Theorem C72_time : forall E n f o s v,
  default_deserializers E f ->
  (snd (load E (S n) f o (Some (TLeaf LkTime)) (VStr s)) = Done v <->
   exists a t, says_clock a t /\ (s = a \/ s = a ++ "Z") /\ v = VLeaf (LTime t) /\ accepts E f (TLeaf LkTime) v).
Proof.
  intros E n f o s v HD. rewrite load_leaf by (assumption || discriminate || reflexivity || (intros ? ? ? H; discriminate)).
  cbn [leaf_handler]. cbn [deser_step]. rewrite wrap_lift. split.
  - destruct (load_time s) as [d|e] eqn:Hs; cbn [rbind].
    + intros H. apply load_result_ok in H as [<- Ha]. apply load_time_iff in Hs as (a & H1 & H2). eauto 6.
    + discriminate.
  - intros (a & d & H1 & H2 & -> & Ha). rewrite (proj2 (load_time_iff s d)) by eauto. cbn [rbind]. now apply load_result_ok.
Qed.

(** *** Cases *)
Example C72_case :
  says "2024-2-9t1:02:3.5Z" (mkDate 2024 2 9) (mkTime 1 2 3 500000) 0 /\
  snd (load demo_env 1 0 lopts0 (Some (TLeaf LkDatetime)) (VStr "2024-2-9t1:02:3.5Z")) =
    Done (VLeaf (LDatetime (mkDt (mkDate 2024 2 9) (mkTime 1 2 3 500000) (Some utc)))) /\
  (forall d t off, ~ says "2024-02-30T00:00:00Z" d t off) /\
  snd (load demo_env 2 0 lopts0 None (VStr "2024-02-30T00:00:00Z")) = Done (VStr "2024-02-30T00:00:00Z") /\
  says_date "2024-2- 9" (mkDate 2024 2 9).
Proof.
  assert (L : load_datetime "2024-2-9t1:02:3.5Z" = Ok (mkDt (mkDate 2024 2 9) (mkTime 1 2 3 500000) (Some utc))) by (vm_compute; reflexivity).
  split; [|split; [vm_compute; reflexivity|split; [|split; [vm_compute; reflexivity|]]]].
  - apply load_datetime_says in L as (off & H1 & H2). cbn [dt_date dt_time dt_tz] in *. replace 0%Z with off; [exact H2|].
    injection H1 as H1. apply (f_equal tz_off) in H1. rewrite fixed_tz_off in H1. cbn in H1. congruence.
  - intros d t off H. apply says_load_datetime in H.
    assert (L' : is_ok (load_datetime "2024-02-30T00:00:00Z") = false) by (vm_compute; reflexivity). rewrite H in L'. discriminate.
  - assert (H : load_date "2024-2- 9" = Ok (mkDate 2024 2 9)) by (vm_compute; reflexivity).
    apply load_date_iff in H as (a & H & [<-|E]); [exact H|]. exfalso. apply (f_equal slast) in E. rewrite slast_app in E by discriminate. discriminate.
Qed.

(** ** Offsets that are not what RFC 3339 allows
    Signs inside of offsets, more than 59 minutes, white space and underscores are accepted. *)
Theorem C72_offsets_refuted : exists s1 s2 s3 d t,
  s1 = "2024-01-01T00:00:00+-05:30" /\ says s1 d t (hm (-5) 30) /\
  s2 = "2024-01-01T00:00:00-05:99" /\ says s2 d t (- hm 6 39) /\
  s3 = "2024-01-01T00:00:00+1_0: 0" /\ says s3 d t (hm 10 0).
Proof.
  exists "2024-01-01T00:00:00+-05:30", "2024-01-01T00:00:00-05:99", "2024-01-01T00:00:00+1_0: 0", (mkDate 2024 1 1), (mkTime 0 0 0 0).
  assert (Q : forall s d t off, load_datetime s = Ok (mkDt d t (Some (fixed_tz off))) -> says s d t off).
  { intros s d t off H. apply load_datetime_says in H as (off' & H1 & H2). cbn [dt_date dt_time dt_tz] in *. replace off with off'; [exact H2|].
    injection H1 as H1. apply (f_equal tz_off) in H1. rewrite !fixed_tz_off in H1. congruence. }
  split; [reflexivity|]. split; [apply Q; vm_compute; reflexivity|]. split; [reflexivity|]. split; [apply Q; vm_compute; reflexivity|].
  split; [reflexivity|]. apply Q; vm_compute; reflexivity.
Qed.
Print Assumptions C72_datetime.
Print Assumptions C72_offset.
Print Assumptions C72_no_datetime.
Print Assumptions C72_one_meaning.
Print Assumptions C72_untyped.
Print Assumptions C72_date.
Print Assumptions C72_time.
Print Assumptions C72_offsets_refuted.
