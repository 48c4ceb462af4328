(** * loads, loadb, dumps and dumpb: proofs *)
From Verif Require Import PyBaseFacts JsonTextSpec JsonTextProofs DumpLaws LoadFacts RoundTripLaws.
Local Close Scope Z_scope.
Local Open Scope string_scope.

(** ** loads *)
Lemma loads_text_document E T n f o cls s j : json_document T s j -> loads_text E T n f o cls s = load E n f o cls j.
Proof. intros H. apply json_loads_iff in H. unfold loads_text. now rewrite H. Qed.
Lemma loads_text_malformed E T n f o cls s : (forall j, ~ json_document T s j) ->
  loads_text E T n f o cls s = fail (exn_of KDecode).
Proof.
  intros H. unfold loads_text. destruct (json_loads T s) as [j|] eqn:Hj; [|reflexivity].
  apply json_loads_iff in Hj. now apply H in Hj.
Qed.
Lemma loads_document E T n f o cls s j : json_document T (codes s) j ->
  loads E T n f o cls (OVal (VStr s)) = load E n f o cls j.
Proof. apply loads_text_document. Qed.
Lemma loads_malformed E T n f o cls s : (forall j, ~ json_document T (codes s) j) ->
  loads E T n f o cls (OVal (VStr s)) = fail (exn_of KDecode).
Proof. apply loads_text_malformed. Qed.
Lemma loads_done E T n f o cls s v : snd (loads E T n f o cls (OVal (VStr s))) = Done v <->
  exists j, json_document T (codes s) j /\ snd (load E n f o cls j) = Done v.
Proof.
  split.
  - cbn [loads]. unfold loads_text. destruct (json_loads T (codes s)) as [j|] eqn:Hj; [|discriminate].
    intros H. exists j. split; [now apply json_loads_iff|exact H].
  - intros (j & Hj & H). now rewrite (loads_document _ _ _ _ _ _ _ _ Hj).
Qed.
Lemma loads_other E T n f o cls v : (forall s, v <> VStr s) -> loads E T n f o cls (OVal v) = fail (exn_of KType).
Proof. intros H. destruct v as [| | | |s| | | | | | | |]; try reflexivity. now elim (H s). Qed.

(** ** dumps *)
Lemma dumps_done E T f n o cls v s : snd (dumps E T f n o cls v) = Done s <->
  exists j, snd (dump E f n o cls v) = Done j /\ json_dumps T (e_ct E) j = Ok s.
Proof.
  unfold dumps. rewrite bind_done. split; intros (j & H1 & H2); exists j; split; auto; now apply lift_done.
Qed.
Lemma dumps_succeeds E T f n o cls v :
  (exists s, snd (dumps E T f n o cls v) = Done s) <->
  exists j, snd (dump E f n o cls v) = Done j /\ writable (e_ct E) j.
Proof.
  split.
  - intros (s & H). apply dumps_done in H as (j & H1 & H2). exists j. split; [exact H1|].
    apply (json_dumps_iff T). eauto.
  - intros (j & H1 & H2). apply (json_dumps_iff T) in H2 as (s & H2). exists s. apply dumps_done. eauto.
Qed.
Lemma dumps_fails E T f n o cls v e : snd (dumps E T f n o cls v) = Fail e <->
  snd (dump E f n o cls v) = Fail e \/
  exists j, snd (dump E f n o cls v) = Done j /\ ~ writable (e_ct E) j /\ e = exn_of KType.
Proof.
  unfold dumps. destruct (dump E f n o cls v) as [ev [j|e'|]] eqn:Hd; cbn [snd].
  - split.
    + intros H. right. exists j. split; [reflexivity|]. unfold mbind, lift in H. cbn [snd] in H.
      destruct (json_dumps T (e_ct E) j) as [s|e'] eqn:Hs; [discriminate|]. injection H as <-. split.
      * intros Hw. apply (json_dumps_iff T) in Hw as (s & Hw). congruence.
      * now apply json_dumps_error in Hs.
    + intros [H|(j' & H1 & H2 & ->)]; [discriminate|]. injection H1 as <-. unfold mbind, lift. cbn [snd].
      destruct (json_dumps T (e_ct E) j) as [s|e'] eqn:Hs.
      * elim H2. apply (json_dumps_iff T). eauto.
      * cbn. f_equal. now apply json_dumps_error in Hs.
  - split; [intros H; left; injection H as <-; reflexivity|].
    intros [H|(j' & H1 & _)]; [injection H as <-; reflexivity|discriminate].
  - split; [discriminate|]. intros [H|(j' & H1 & _)]; discriminate.
Qed.
Lemma dumps_events E T f n o cls v : fst (dumps E T f n o cls v) = fst (dump E f n o cls v).
Proof.
  unfold dumps. destruct (dump E f n o cls v) as [ev [j|e'|]]; cbn; try reflexivity.
  unfold lift. destruct (json_dumps T (e_ct E) j); cbn; now rewrite app_nil_r.
Qed.
(** Writing and reading *)
Lemma dumps_written E T f n o cls v s j : snd (dump E f n o cls v) = Done j -> floats_read_back T (e_ct E) j ->
  snd (dumps E T f n o cls v) = Done s -> json_document T (codes s) (json_image T (e_ct E) j).
Proof.
  intros Hd Hf Hs. apply dumps_done in Hs as (j' & Hd' & Hs). rewrite Hd in Hd'. injection Hd' as <-.
  apply json_loads_iff. now apply json_round.
Qed.
Lemma loads_dumps E T f n o cls v j s : snd (dump E f n o cls v) = Done j -> floats_read_back T (e_ct E) j ->
  snd (dumps E T f n o cls v) = Done s ->
  forall E' m g lo cls', loads E' T m g lo cls' (OVal (VStr s)) = load E' m g lo cls' (json_image T (e_ct E) j).
Proof. intros Hd Hf Hs E' m g lo cls'. apply loads_document. now apply dumps_written with f n o cls v. Qed.
Lemma loads_dumps_data E T f n o cls v j : snd (dump E f n o cls v) = Done j -> json_data j -> floats_read_back T (e_ct E) j ->
  exists s, snd (dumps E T f n o cls v) = Done s /\
    forall E' m g lo cls', loads E' T m g lo cls' (OVal (VStr s)) = load E' m g lo cls' j.
Proof.
  intros Hd Hj Hf. destruct (proj2 (dumps_succeeds E T f n o cls v)) as (s & Hs).
  { exists j. split; [exact Hd|now apply json_data_writable]. }
  exists s. split; [exact Hs|]. intros E' m g lo cls'. rewrite (loads_dumps E T f n o cls v j s Hd Hf Hs).
  now rewrite json_image_data.
Qed.
(** Typed values *)
Lemma text_roundtrip E T f g o t v :
  default_serializers E f -> default_deserializers E g -> exact_dump o -> has_type E g o t v ->
  (forall j, (exists N, forall n, N <= n -> snd (dump E f n o None v) = Done j) -> floats_read_back T (e_ct E) j) ->
  exists s N, forall n m cls lo, N <= n -> N <= m -> cls = None \/ cls = Some t -> exact_load lo ->
    snd (dumps E T f n o cls v) = Done s /\ snd (loads E T m g lo (Some t) (OVal (VStr s))) = Done v.
Proof.
  intros HS HD He Ht Hf. destruct (roundtrip E f g o t v HS HD He Ht) as (j & N & [_ Hj] & HN).
  assert (Hd : forall n cls, N <= n -> cls = None \/ cls = Some t -> snd (dump E f n o cls v) = Done j).
  { intros n cls Hn Hc. apply (HN n N cls lopts0 Hn (le_n _) Hc exact_lopts0). }
  assert (Hfj : floats_read_back T (e_ct E) j) by (apply Hf; exists N; intros n Hn; apply Hd; auto).
  destruct (loads_dumps_data E T f N o None v j (Hd N None (le_n _) (or_introl eq_refl)) Hj Hfj) as (s & Hs & _).
  exists s, N. intros n m cls lo Hn Hm Hc Hl.
  assert (Hs' : snd (dumps E T f n o cls v) = Done s).
  { apply dumps_done. exists j. split; [now apply Hd|]. apply dumps_done in Hs as (j' & Hj' & Hs).
    rewrite (Hd N None (le_n _) (or_introl eq_refl)) in Hj'. now injection Hj' as <-. }
  split; [exact Hs'|]. rewrite (loads_dumps E T f n o cls v j s (Hd n cls Hn Hc) Hfj Hs'), json_image_data by exact Hj.
  now apply (HN n m cls lo).
Qed.

(** ** Bytes *)
Lemma codes_nonneg b : Forall (fun x => (0 <= x)%Z) (codes b).
Proof. eapply Forall_impl; [|apply codes_range]. cbv beta. intros a H. apply H. Qed.
Lemma decode_valid T b s : Forall scalar_value s -> codes b = flat_map utf8 s -> decode_bytes T "utf-8" b = Ok s.
Proof. intros Hs Hb. unfold decode_bytes. cbn [String.eqb Ascii.eqb Bool.eqb]. rewrite Hb, utf8_decode_complete; auto. Qed.
Lemma decode_invalid T b : (forall s, Forall scalar_value s -> codes b <> flat_map utf8 s) ->
  decode_bytes T "utf-8" b = raise KUnicode.
Proof.
  intros H. unfold decode_bytes. cbn [String.eqb Ascii.eqb Bool.eqb].
  destruct (utf8_decode (codes b)) as [s|] eqn:Hs; [|reflexivity].
  apply utf8_decode_sound in Hs as [H1 H2]; [|apply codes_nonneg]. now elim (H s).
Qed.
Lemma loadb_document E T n f o cls b s j : Forall scalar_value s -> codes b = flat_map utf8 s -> json_document T s j ->
  loadb E T n f o "utf-8" cls (OBytes b) = load E n f o cls j.
Proof.
  intros Hs Hb Hj. cbn [loadb]. rewrite (decode_valid T b s Hs Hb). cbn [lift]. rewrite bind_ret_l.
  now apply loads_text_document.
Qed.
Lemma loadb_malformed E T n f o cls b s : Forall scalar_value s -> codes b = flat_map utf8 s -> (forall j, ~ json_document T s j) ->
  loadb E T n f o "utf-8" cls (OBytes b) = fail (exn_of KDecode).
Proof.
  intros Hs Hb Hj. cbn [loadb]. rewrite (decode_valid T b s Hs Hb). cbn [lift]. rewrite bind_ret_l.
  now apply loads_text_malformed.
Qed.
Lemma loadb_invalid E T n f o cls b : (forall s, Forall scalar_value s -> codes b <> flat_map utf8 s) ->
  loadb E T n f o "utf-8" cls (OBytes b) = fail (exn_of KUnicode).
Proof. intros H. cbn [loadb]. now rewrite (decode_invalid T b H). Qed.
Lemma loadb_encoded E T n f o cls s :
  loadb E T n f o "utf-8" cls (OBytes (utf8_encode s)) = loads E T n f o cls (OVal (VStr s)).
Proof.
  cbn [loadb loads]. unfold decode_bytes. cbn [String.eqb Ascii.eqb Bool.eqb]. rewrite utf8_round. cbn [lift]. apply bind_ret_l.
Qed.
Lemma dumpb_done E T f n o cls v b : snd (dumpb E T f n o "utf-8" cls v) = Done b <->
  exists s, snd (dumps E T f n o cls v) = Done s /\ codes b = flat_map utf8 (codes s).
Proof.
  unfold dumpb, encode_text. cbn [String.eqb Ascii.eqb Bool.eqb lift]. rewrite bind_done. split; intros (s & H1 & H2); exists s; (split; [exact H1|]).
  - injection H2 as <-. apply utf8_encode_codes.
  - rewrite <- utf8_encode_codes in H2. cbn. f_equal. symmetry.
    rewrite <- (string_of_codes (mkTrt (fun _ => "") (fun _ => FNan) (fun _ => "") (fun _ _ => raise KOverflow) (fun _ _ => raise KOverflow) (fun _ => raise KOverflow)) b), H2.
    apply string_of_codes.
Qed.
Lemma loadb_dumpb E T f n o cls v b : snd (dumpb E T f n o "utf-8" cls v) = Done b ->
  exists s, snd (dumps E T f n o cls v) = Done s /\
  forall E' m g lo cls', loadb E' T m g lo "utf-8" cls' (OBytes b) = loads E' T m g lo cls' (OVal (VStr s)).
Proof.
  intros H. unfold dumpb, encode_text in H. cbn [String.eqb Ascii.eqb Bool.eqb lift] in H.
  apply bind_done in H as (s & H1 & H2). injection H2 as <-. exists s. split; [exact H1|]. intros. apply loadb_encoded.
Qed.
Lemma dumpb_fails E T f n o cls v e : snd (dumpb E T f n o "utf-8" cls v) = Fail e <-> snd (dumps E T f n o cls v) = Fail e.
Proof.
  unfold dumpb, encode_text. cbn [String.eqb Ascii.eqb Bool.eqb lift]. unfold mbind, ret.
  destruct (dumps E T f n o cls v) as [ev [s|e'|]]; cbn; split; try discriminate; intros H; injection H as <-; reflexivity.
Qed.
Lemma bytes_roundtrip E T f g o t v :
  default_serializers E f -> default_deserializers E g -> exact_dump o -> has_type E g o t v ->
  (forall j, (exists N, forall n, N <= n -> snd (dump E f n o None v) = Done j) -> floats_read_back T (e_ct E) j) ->
  exists b N, forall n m cls lo, N <= n -> N <= m -> cls = None \/ cls = Some t -> exact_load lo ->
    snd (dumpb E T f n o "utf-8" cls v) = Done b /\ snd (loadb E T m g lo "utf-8" (Some t) (OBytes b)) = Done v.
Proof.
  intros HS HD He Ht Hf. destruct (text_roundtrip E T f g o t v HS HD He Ht Hf) as (s & N & HN).
  exists (utf8_encode s), N. intros n m cls lo Hn Hm Hc Hl. destruct (HN n m cls lo Hn Hm Hc Hl) as [H1 H2]. split.
  - apply dumpb_done. exists s. split; [exact H1|apply utf8_encode_codes].
  - now rewrite loadb_encoded.
Qed.
