(** * transform: proofs *)
From Verif Require Import PyBaseFacts ApiSpec DumpLaws LoadFacts LoadObject ConformProofs RoundTripLaws.
Local Close Scope Z_scope.
Local Open Scope string_scope.

Lemma transform_done E fd n so fl m lo mapper dc cls obj v :
  snd (transform E fd n so fl m lo mapper dc [] cls obj) = Done v <->
  exists j j', snd (dump E fd n so dc obj) = Done j /\ mapped mapper j = Ok j' /\ snd (load E m fl lo cls j') = Done v.
Proof.
  cbn [transform]. rewrite bind_done. split.
  - intros (j & H1 & H2). apply bind_done in H2 as (j' & H2 & H3). apply lift_done in H2. eauto.
  - intros (j & j' & H1 & H2 & H3). exists j. split; [exact H1|]. apply bind_done. exists j'. split; [now apply lift_done|exact H3].
Qed.
Lemma transform_fail E fd n so fl m lo mapper dc cls obj e :
  snd (transform E fd n so fl m lo mapper dc [] cls obj) = Fail e <->
  snd (dump E fd n so dc obj) = Fail e \/
  (exists j, snd (dump E fd n so dc obj) = Done j /\ mapped mapper j = Err e) \/
  exists j j', snd (dump E fd n so dc obj) = Done j /\ mapped mapper j = Ok j' /\ snd (load E m fl lo cls j') = Fail e.
Proof.
  cbn [transform]. rewrite bind_fail. split.
  - intros [H|(j & H1 & H2)]; [now left|]. right. apply bind_fail in H2 as [H2|(j' & H2 & H3)].
    + left. exists j. apply lift_fail in H2. auto.
    + right. apply lift_done in H2. eauto.
  - intros [H|[(j & H1 & H2)|(j & j' & H1 & H2 & H3)]]; [now left| |]; right; exists j; (split; [exact H1|]); apply bind_fail.
    + left. now apply lift_fail.
    + right. exists j'. split; [now apply lift_done|exact H3].
Qed.
Lemma transform_events E fd n so fl m lo mapper dc cls obj j j' :
  snd (dump E fd n so dc obj) = Done j -> mapped mapper j = Ok j' ->
  fst (transform E fd n so fl m lo mapper dc [] cls obj) = (fst (dump E fd n so dc obj) ++ fst (load E m fl lo cls j'))%list.
Proof.
  intros H1 H2. cbn [transform]. rewrite (bind_events _ _ j H1). f_equal. unfold mapped in H2. rewrite H2. cbn [lift].
  now rewrite bind_ret_l.
Qed.
Lemma transform_stops E fd n so fl m lo mapper dc cls obj e :
  snd (dump E fd n so dc obj) = Fail e \/ (exists j, snd (dump E fd n so dc obj) = Done j /\ mapped mapper j = Err e) ->
  transform E fd n so fl m lo mapper dc [] cls obj = (fst (dump E fd n so dc obj), Fail e).
Proof.
  cbn [transform]. intros [H|(j & H1 & H2)].
  - now apply bind_failed.
  - unfold mbind at 1. rewrite H1. unfold mapped in H2. rewrite H2. cbn. now rewrite app_nil_r.
Qed.
(** To its own type: a copy *)
Lemma transform_same E fd fl so t v :
  default_serializers E fd -> default_deserializers E fl -> exact_dump so -> has_type E fl so t v ->
  exists N, forall n m dc lo, N <= n -> N <= m -> dc = None \/ dc = Some t -> exact_load lo ->
    snd (transform E fd n so fl m lo None dc [] (Some t) v) = Done v.
Proof.
  intros HS HD He Ht. destruct (roundtrip E fd fl so t v HS HD He Ht) as (j & N & _ & HN).
  exists N. intros n m dc lo Hn Hm Hc Hl. destruct (HN n m dc lo Hn Hm Hc Hl) as [H1 H2].
  apply transform_done. exists j, j. auto.
Qed.
(** To another class with the same parameters: the same attributes *)
Lemma transform_class E fd fl so c c' attrs :
  default_serializers E fd -> default_deserializers E fl -> exact_dump so ->
  record_like (e_ct E) so c -> record_like (e_ct E) so c' ->
  map signature (ci_params (e_ct E c')) = map signature (ci_params (e_ct E c)) ->
  has_type E fl so (TClass c) (VObj c attrs) -> accepts E fl (TClass c') (VObj c' attrs) ->
  exists N, forall n m dc lo, N <= n -> N <= m -> dc = None \/ dc = Some (TClass c) -> exact_load lo ->
    snd (transform E fd n so fl m lo None dc [] (Some (TClass c')) (VObj c attrs)) = Done (VObj c' attrs).
Proof.
  intros HS HD He HR HR' Hsig Ht Ha.
  inversion Ht as [| |x Hx| | | | | | | | |c0 attrs0 HR0 Hat Hin Ha0]; subst.
  destruct (pass_object_as E fd fl so HS HD c c' attrs HR HR' Hsig Hat) as (j & _ & _ & N & HN); auto.
    { intros p t x Hpx Hp. apply has_type_passes; eauto. }
    exists N. intros n m dc lo Hn Hm Hc Hl. apply transform_done. exists j, j. split; [|split; [reflexivity|]].
    + apply exact_near in He as [He Hq]. apply (proj1 (HN n Hn)); auto. repeat split.
    + now apply (proj2 (HN m Hm)).
Qed.
Lemma transform_conforms E fd n so fl m lo mapper dc t obj v :
  default_deserializers E fl -> plain_classes (e_ct E) -> no_hints lo -> lo_getters lo = [] -> string_keys lo ->
  (forall j j', snd (dump E fd n so dc obj) = Done j -> mapped mapper j = Ok j' -> plain_input j') ->
  snd (transform E fd n so fl m lo mapper dc [] (Some t) obj) = Done v -> conforms E fl t v.
Proof.
  intros HD HC Hh Hg Hk Hp H. apply transform_done in H as (j & j' & H1 & H2 & H3).
  apply (load_conforms E fl HD HC m lo t j' v); eauto.
Qed.
