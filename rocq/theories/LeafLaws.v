(** * Dumping and loading UUIDs, timedeltas and timezones *)
From Coq Require Import Lia.
From Verif Require Import PyBaseFacts LeafSpec LeafProofs DatetimeProofs DumpSpec DumpLaws LoadSpec LoadFacts LoadLaws LoadObject LoadTypes.
Local Close Scope Z_scope.
Local Open Scope string_scope.

Definition leaf_ser (k : leafk) : shandler :=
  match k with
  | LkDatetime => SDatetime | LkDate => SDate | LkTime => STime | LkTimedelta => STimedelta
  | LkTimezone => STimezone | LkUUID => SUUID | LkDecimal => SDecimal | LkComplex => SComplex
  | LkPath => SPath | LkZone => SZone
  end.
Lemma default_ser_leaf CT k : default_ser CT (TLeaf k) = Some (leaf_ser k).
Proof. rewrite default_ser_eq. destruct k; vm_compute; reflexivity. Qed.
(** The type under which a leaf is dumped: none, or its own *)
Definition own_type (k : leafk) (cls : option ty) : Prop := cls = None \/ cls = Some (TLeaf k).
Lemma serializer_leaf E f cls x : default_serializers E f -> own_type (leaf_kind x) cls ->
  serializer E f cls (VLeaf x) = Some (leaf_ser (leaf_kind x)).
Proof.
  intros HD [-> | ->]; unfold serializer; rewrite HD; cbn [tyof class_of]; apply default_ser_leaf.
Qed.
Lemma dump_uuid E f n o cls k : default_serializers E f -> own_type LkUUID cls ->
  snd (dump E f (S n) o cls (VLeaf (LUUID k))) = Done (VStr (uuid_str k)).
Proof. intros HD Hc. unfold dump. apply dump_done_iff. now rewrite serializer_leaf. Qed.
Lemma dump_timedelta E f n o cls us : default_serializers E f -> own_type LkTimedelta cls ->
  snd (dump E f (S n) o cls (VLeaf (LTimedelta us))) = Done (VFloat (total_seconds us)).
Proof. intros HD Hc. unfold dump. apply dump_done_iff. now rewrite serializer_leaf. Qed.
Lemma dump_timezone E f n o off name : default_serializers E f ->
  snd (dump E f (S (S n)) o None (VLeaf (LTimezone off name))) =
  Done (str_dict [("name", VStr (timezone_name off name)); ("offset", VFloat (total_seconds off))]).
Proof.
  intros HD. unfold dump. apply dump_done_iff. rewrite serializer_leaf by (try assumption; now left).
  cbn [leaf_kind leaf_ser]. cbn [serialize]. cbn [ser_step]. apply bind_done. exists (VFloat (total_seconds off)). split; [|reflexivity].
  apply dump_done_iff. rewrite serializer_leaf by (try assumption; now left). reflexivity.
Qed.
(** With the class given explicitly, the offset is dumped as if it were a timezone. *)
Lemma dump_timezone_typed E f n o off name : default_serializers E f ->
  exists e, snd (dump E f (S (S n)) o (Some (TLeaf LkTimezone)) (VLeaf (LTimezone off name))) = Fail e /\ e_kind e = KSer.
Proof.
  intros HD.
  assert (H : exists e, snd (dump E f (S (S n)) o (Some (TLeaf LkTimezone)) (VLeaf (LTimezone off name))) = Fail e).
  { unfold dump. apply dump_fail_iff. rewrite serializer_leaf by (try assumption; now right).
    cbn [leaf_kind leaf_ser]. cbn [serialize]. cbn [ser_step].
    assert (G : exists e, snd (dump_ E f (serialize E f (S n)) o (Some (TLeaf LkTimezone)) (VLeaf (LTimedelta off))) = Fail e).
    { apply dump_fail_iff. unfold serializer. rewrite HD. cbn [tyof]. rewrite default_ser_leaf.
      cbn [leaf_ser]. cbn [serialize]. cbn [ser_step]. eexists. reflexivity. }
    destruct G as (e & G). exists e. apply bind_fail. left. exact G. }
  destruct H as (e & H). exists e. split; [exact H|]. now apply dump_fails_ser in H.
Qed.

(** ** Decorations of UUIDs *)
Lemma decorated_trans a b c : decorated a b -> decorated b c -> decorated a c.
Proof. intros H. induction 1; [exact H|]. now constructor. Qed.
Lemma decorated_cons c h s : decorated h s -> decorated (String c h) (String c s).
Proof. induction 1 as [|a p b H IH Hp]; [constructor|]. exact (dec_put _ (String c a) p b IH Hp). Qed.
Lemma decorated_app a h s : decorated h s -> decorated (a ++ h) (a ++ s).
Proof. induction a as [|c a IH]; [auto|]. intros H. cbn [append]. apply decorated_cons. auto. Qed.
Lemma sreplace_go_skip p r : forall k s, sreplace_go p r k s = sreplace_go p r 0 (sdrop k s).
Proof. induction k as [|k IH]; intros [|c s]; try reflexivity. cbn [sreplace_go sdrop]. apply IH. Qed.
Lemma sdrop_app_length a b : sdrop (String.length a) (a ++ b) = b.
Proof. induction a as [|c a IH]; [now destruct b|]. exact IH. Qed.
Lemma decorated_replace p : p <> "" -> In p ["-"; "{"; "}"; "urn:"; "uuid:"] -> forall s, decorated (sreplace p "" s) s.
Proof.
  intros Hne Hp. unfold sreplace.
  assert (H : forall n s, String.length s < n -> decorated (sreplace_go p "" 0 s) s).
  { induction n as [|n IH]; intros s Hs; [lia|]. destruct s as [|c s]; [constructor|].
    cbn [sreplace_go]. destruct (prefix p (String c s)) eqn:Epx.
    - apply prefix_app in Epx as (b & Hb). rewrite Hb. cbn [append]. rewrite sreplace_go_skip.
      assert (Hd : sdrop (String.length p - 1) s = b).
      { destruct p as [|x p]; [congruence|]. injection Hb as <- ->. cbn [String.length]. rewrite Nat.sub_succ, Nat.sub_0_r.
        apply sdrop_app_length. }
      rewrite Hd. apply (decorated_trans _ b).
      + apply IH. apply (f_equal String.length) in Hb. rewrite slength_app in Hb. destruct p; [congruence|]. cbn in Hb, Hs. lia.
      + apply (dec_put b "" p b); [constructor|exact Hp].
    - apply decorated_cons. apply IH. cbn in Hs. lia. }
  intros s. apply (H (S (String.length s))). lia.
Qed.
Lemma decorated_drop c s : In (String c "") ["-"; "{"; "}"; "urn:"; "uuid:"] -> decorated s (String c s).
Proof. intros H. apply (dec_put s "" (String c "") s); [constructor|exact H]. Qed.
Lemma decorated_lstrip s : decorated (slstrip is_brace s) s.
Proof.
  induction s as [|c s IH]; [constructor|]. cbn [slstrip]. destruct (is_brace c) eqn:Eb; [|constructor].
  apply (decorated_trans _ s); [exact IH|]. apply decorated_drop.
  unfold is_brace in Eb. apply orb_true_iff in Eb as [Eb|Eb]; apply Ascii.eqb_eq in Eb; subst; cbn; tauto.
Qed.
Lemma srev_cons c s : srev (String c s) = srev s ++ String c "".
Proof.
  unfold srev. cbn [srev_app].
  assert (H : forall s a, srev_app s a = srev_app s "" ++ a).
  { induction s0 as [|x s0 IH]; intros a; [reflexivity|]. cbn [srev_app]. rewrite IH, (IH (String x "")), sapp_assoc. reflexivity. }
  now rewrite H.
Qed.
Lemma decorated_rstrip s : decorated (srstrip is_brace s) s.
Proof.
  unfold srstrip. rewrite <- (srev_srev s) at 2. generalize (srev s). clear s. induction s as [|c s IH]; [constructor|].
  cbn [slstrip]. destruct (is_brace c) eqn:Eb; [|constructor]. apply (decorated_trans _ _ _ IH).
  rewrite srev_cons. rewrite <- (sapp_nil_r (String c "")). apply dec_put; [rewrite sapp_nil_r; constructor|].
  unfold is_brace in Eb. apply orb_true_iff in Eb as [Eb|Eb]; apply Ascii.eqb_eq in Eb; subst; cbn; tauto.
Qed.
Lemma decorated_hyphens s : decorated (sremove is_hyphen s) s.
Proof.
  induction s as [|c s IH]; [constructor|]. cbn [sremove]. destruct (is_hyphen c) eqn:Eh; [|now apply decorated_cons].
  apply (decorated_trans _ _ _ IH). apply decorated_drop. apply Ascii.eqb_eq in Eh. subst. now left.
Qed.
Lemma uuid_decorated s n : uuid_parse s = Ok n ->
  is_uuid n /\ exists h, decorated h s /\ String.length h = 32 /\ sforall literal_char h = true.
Proof.
  intros H. apply uuid_parse_ok in H as (Hl & Hp & Hn). split; [exact Hn|]. exists (uuid_clean s).
  split; [|split; [exact Hl|now apply py_int16_literal in Hp]].
  unfold uuid_clean, sstrip.
  eapply decorated_trans; [apply decorated_hyphens|]. eapply decorated_trans; [apply decorated_rstrip|].
  eapply decorated_trans; [apply decorated_lstrip|].
  eapply decorated_trans; [apply (decorated_replace "uuid:")|apply (decorated_replace "urn:")]; try discriminate; cbn; tauto.
Qed.

(** ** Loading *)
Definition load_result (E : env) (f : nat) (t : ty) (r : res value) : outcome value :=
  match r with
  | Ok v => match validate E f v t with Ok _ => Done v | Err e => Fail e end
  | Err e => Fail (if is_jsons (e_kind e) then e else exn_of KDeser)
  end.
Lemma wrap_lift E f t r :
  snd (wrap_deser (dom x <- lift r; dom _ <- lift (validate E f x t); ret x)) = load_result E f t r.
Proof.
  destruct r as [v|e]; [|reflexivity]. rewrite bind_lift_ok. unfold load_result.
  destruct (validate E f v t) as [[]|e] eqn:Ev; [reflexivity|]. apply validate_err in Ev as [_ ->]. reflexivity.
Qed.
Lemma load_result_ok E f t v w : load_result E f t (Ok v) = Done w <-> v = w /\ accepts E f t v.
Proof.
  unfold load_result. destruct (validate E f v t) as [[]|e] eqn:Ev.
  - apply validate_ok in Ev. split; [intros [= <-]; auto|intros [-> _]; reflexivity].
  - apply validate_err in Ev as [[p [Hp Hr]] _]. split; [discriminate|]. intros [_ Ha]. unfold accepts in Ha. rewrite Hp in Ha. contradiction.
Qed.
Lemma load_leaf E n f o k j : default_deserializers E f -> no_meta_entry j -> j <> VNone -> valid_type j = true ->
  load E (S n) f o (Some (TLeaf k)) j =
  wrap_deser (dom r <- deser_step E (load E n) f (child_opts o) (leaf_handler k) (TLeaf k) j;
              dom _ <- lift (validate E f r (TLeaf k));
              ret r).
Proof.
  intros HD Hm Hn Hv. apply load_run; try assumption; [exact I| |].
  - right. intros Hc. destruct j as [| | | | | | | | |x| | |]; cbn in Hc; try discriminate; try (destruct k0; discriminate).
  - rewrite HD. apply deser_leaf.
Qed.
Lemma load_uuid E n f o s : default_deserializers E f ->
  snd (load E (S n) f o (Some (TLeaf LkUUID)) (VStr s)) =
  load_result E f (TLeaf LkUUID) (dor k <- uuid_parse s; Ok (VLeaf (LUUID k))).
Proof.
  intros HD. rewrite load_leaf by (assumption || discriminate || reflexivity || (intros ? ? ? H; discriminate)).
  cbn [leaf_handler]. cbn [deser_step]. apply wrap_lift.
Qed.
Lemma load_uuid_done E n f o s v : default_deserializers E f ->
  (snd (load E (S n) f o (Some (TLeaf LkUUID)) (VStr s)) = Done v <->
   exists k, uuid_parse s = Ok k /\ v = VLeaf (LUUID k) /\ accepts E f (TLeaf LkUUID) v).
Proof.
  intros HD. rewrite load_uuid by assumption. destruct (uuid_parse s) as [k|e]; cbn [rbind].
  - rewrite load_result_ok. split; [intros [<- H]; eauto|]. intros (k' & [= <-] & -> & H). auto.
  - split; [discriminate|]. intros (k & H & _). discriminate.
Qed.
Lemma load_timedelta E n f o x : default_deserializers E f ->
  snd (load E (S n) f o (Some (TLeaf LkTimedelta)) (VFloat x)) =
  load_result E f (TLeaf LkTimedelta) (dor us <- td_of_float x; Ok (VLeaf (LTimedelta us))).
Proof.
  intros HD. rewrite load_leaf by (assumption || discriminate || reflexivity || (intros ? ? ? H; discriminate)).
  cbn [leaf_handler]. cbn [deser_step]. apply wrap_lift.
Qed.
Lemma load_timedelta_back E n f o us : default_deserializers E f -> short_timedelta us ->
  accepts E f (TLeaf LkTimedelta) (VLeaf (LTimedelta us)) ->
  snd (load E (S n) f o (Some (TLeaf LkTimedelta)) (VFloat (total_seconds us))) = Done (VLeaf (LTimedelta us)).
Proof.
  intros HD Hs Ha. rewrite load_timedelta by assumption. rewrite timedelta_roundtrip by assumption. cbn [rbind].
  apply load_result_ok. auto.
Qed.
Lemma load_timedelta_integer E n f o j z : default_deserializers E f ->
  (j = VInt z \/ exists b : bool, j = VBool b /\ z = if b then 1%Z else 0%Z) ->
  snd (load E (S n) f o (Some (TLeaf LkTimedelta)) j) =
  load_result E f (TLeaf LkTimedelta) (dor us <- td_of_int z; Ok (VLeaf (LTimedelta us))).
Proof.
  intros HD [-> | (b & -> & ->)]; rewrite load_leaf by (assumption || discriminate || reflexivity || (intros ? ? ? H; discriminate));
    cbn [leaf_handler]; cbn [deser_step]; unfold deser_timedelta; apply wrap_lift.
Qed.
Lemma timezone_ok_short us : timezone_ok us = true -> short_timedelta us.
Proof. unfold timezone_ok, short_timedelta, us_per_day. intros H. apply andb_true_iff in H as [H1 H2]. lia. Qed.
Lemma load_timezone_back E n f o off name : default_deserializers E f -> default_deserializers E 0 ->
  timezone_ok off = true ->
  accepts E 0 (TLeaf LkTimedelta) (VLeaf (LTimedelta off)) ->
  accepts E f (TLeaf LkTimezone) (VLeaf (LTimezone off (Some name))) ->
  snd (load E (S (S n)) f o (Some (TLeaf LkTimezone))
            (str_dict [("name", VStr name); ("offset", VFloat (total_seconds off))])) =
  Done (VLeaf (LTimezone off (Some name))).
Proof.
  intros HD HD0 Hok A0 Af.
  rewrite load_leaf; [|assumption| |discriminate|reflexivity].
  2:{ intros k d x H Hin. injection H as <- <-. cbn in Hin. destruct Hin as [Hin|[Hin|[]]]; discriminate. }
  cbn [leaf_handler]. cbn [deser_step]. apply try_done. left. apply bind_done.
  exists (VLeaf (LTimezone off (Some name))). split.
  - unfold deser_timezone. apply bind_done. exists (VFloat (total_seconds off)). split; [reflexivity|].
    apply bind_done. exists (VLeaf (LTimedelta off)). split; [apply load_timedelta_back; try assumption; now apply timezone_ok_short|].
    apply bind_done. exists (VStr name). split; [reflexivity|]. rewrite Hok. reflexivity.
  - apply bind_done. exists tt. split; [apply lift_done; now apply validate_ok|reflexivity].
Qed.

Lemma timezone_ok_iff off : timezone_ok off = true <-> offset_ok off.
Proof. unfold timezone_ok, offset_ok, us_per_day. rewrite andb_true_iff, !Z.ltb_lt. lia. Qed.
Lemma timezone_name_shown off name : offset_ok off -> shown_name off name (timezone_name off name).
Proof.
  intros Ho. unfold shown_name, timezone_name. destruct name as [own|]; [reflexivity|].
  destruct (Z.eqb_spec off 0) as [->|Hz]; [left; auto|]. right. split; [exact Hz|].
  unfold auto_name. cbv zeta. set (a := Z.abs off). unfold offset_ok in Ho. assert (Ha : (0 <= a < 86400000000)%Z) by lia.
  exists (a / us_per_hour)%Z, (a / us_per_min mod 60)%Z, (a / 1000000 mod 60)%Z, (a mod 1000000)%Z.
  change us_per_hour with (1000000 * 60 * 60)%Z. change us_per_min with (1000000 * 60)%Z.
  pose proof (Z.mod_pos_bound (a / (1000000 * 60)) 60 ltac:(lia)) as Hm.
  pose proof (Z.mod_pos_bound (a / 1000000) 60 ltac:(lia)) as Hs.
  pose proof (Z.mod_pos_bound a 1000000 ltac:(lia)) as Hu.
  split.
  - rewrite <- !Z.div_div by lia.
    pose proof (Z.div_mod a 1000000 ltac:(lia)). pose proof (Z.div_mod (a / 1000000) 60 ltac:(lia)).
    pose proof (Z.div_mod (a / 1000000 / 60) 60 ltac:(lia)). lia.
  - split; [exact Hm|]. split; [exact Hs|]. split; [exact Hu|].
    rewrite !pad2_digits, pad6_digits; try lia; [reflexivity|].
    split; [apply Z.div_pos; lia|]. assert (a / (1000000 * 60 * 60) < 100)%Z by (apply Z.div_lt_upper_bound; lia). lia.
Qed.
(** Offsets of a day or more are refused. *)
Lemma load_timezone_range E n f o off name : default_deserializers E f -> default_deserializers E 0 ->
  short_timedelta off -> ~ offset_ok off ->
  accepts E 0 (TLeaf LkTimedelta) (VLeaf (LTimedelta off)) ->
  snd (load E (S (S n)) f o (Some (TLeaf LkTimezone))
            (str_dict [("name", VStr name); ("offset", VFloat (total_seconds off))])) = Fail (exn_of KDeser).
Proof.
  intros HD HD0 Hs Hok A0. rewrite load_leaf; [|assumption| |discriminate|reflexivity].
  2:{ intros k d x H Hin. injection H as <- <-. cbn in Hin. destruct Hin as [Hin|[Hin|[]]]; discriminate. }
  cbn [leaf_handler]. cbn [deser_step]. apply try_fail. exists (exn_of KValue). split; [|reflexivity].
  apply bind_fail. left. unfold deser_timezone. apply bind_fail. right. exists (VFloat (total_seconds off)). split; [reflexivity|].
  apply bind_fail. right. exists (VLeaf (LTimedelta off)). split; [now apply load_timedelta_back|].
  apply bind_fail. right. exists (VStr name). split; [reflexivity|].
  destruct (timezone_ok off) eqn:Ht; [apply timezone_ok_iff in Ht; contradiction|reflexivity].
Qed.
