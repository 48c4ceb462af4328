(** * C49, C51: UUIDs, timedeltas and timezones

    Model: LeafModel.v, EngineSer.v, EngineDeser.v.  Specification: LeafSpec.v, LoadSpec.v. *)
From Verif Require Import PyBaseFacts LeafSpec LeafProofs DumpSpec DumpLaws LoadSpec LoadFacts LoadLaws LoadObject LoadTypes LeafLaws.
Local Close Scope Z_scope.
Local Open Scope string_scope.

(** ** C49 *)
(** Every UUID is dumped as its 36 characters and loaded back. *)
Theorem C49_round_trip :
  forall (E : env) (f g n m : nat) (o : sopts) (lo : lopts) (cls : option ty) (k : Z),
  default_serializers E f -> default_deserializers E g ->
  is_uuid k -> (cls = None \/ cls = Some (TLeaf LkUUID)) ->
  accepts E g (TLeaf LkUUID) (VLeaf (LUUID k)) ->
  exists s, uuid_text s k /\
    snd (dump E f (S n) o cls (VLeaf (LUUID k))) = Done (VStr s) /\
    snd (load E (S m) g lo (Some (TLeaf LkUUID)) (VStr s)) = Done (VLeaf (LUUID k)).
Proof.
  intros E f g n m o lo cls k HD HL Hk Hc Ha. exists (uuid_str k). split; [now apply uuid_str_text|].
  split; [now apply dump_uuid|]. apply load_uuid_done; [assumption|]. exists k. split; [now apply uuid_roundtrip|auto].
Qed.
(** Upper case digits, other ways to place hyphens, braces and the URN form are accepted too. *)
Theorem C49_plain_text_iff :
  forall (E : env) (f n : nat) (o : lopts) (s : string) (v : value),
  default_deserializers E f -> plain_uuid_text s ->
  (snd (load E (S n) f o (Some (TLeaf LkUUID)) (VStr s)) = Done v <->
   exists k, hex_text (without_hyphens s) k /\ String.length (without_hyphens s) = 32 /\
             v = VLeaf (LUUID k) /\ accepts E f (TLeaf LkUUID) v).
Proof.
  intros E f n o s v HD Hs. rewrite load_uuid_done by assumption. split.
  - intros (k & H & Hv). apply uuid_plain_iff in H as [H1 H2]; [eauto|assumption].
  - intros (k & H1 & H2 & Hv). exists k. split; [now apply uuid_plain_iff|assumption].
Qed.
Theorem C49_decorated_text :
  forall (E : env) (f n : nat) (o : lopts) (s : string) (k : Z),
  default_deserializers E f -> uuid_text s k -> accepts E f (TLeaf LkUUID) (VLeaf (LUUID k)) ->
  forall t, In t [s; "{" ++ s ++ "}"; "urn:uuid:" ++ s] ->
  snd (load E (S n) f o (Some (TLeaf LkUUID)) (VStr t)) = Done (VLeaf (LUUID k)).
Proof.
  intros E f n o s k HD Hs Ha t Ht. apply load_uuid_done; [assumption|]. exists k. split; [|auto].
  destruct Ht as [<-|[<-|[<-|[]]]]; [now apply uuid_text_parse|now apply uuid_braces|now apply uuid_urn].
Qed.
(** Whatever loads is a UUID, and its text is 32 characters that int(s, 16) tolerates, apart
    from decorations. *)
Theorem C49_only_literals :
  forall (E : env) (f n : nat) (o : lopts) (s : string) (v : value),
  default_deserializers E f ->
  snd (load E (S n) f o (Some (TLeaf LkUUID)) (VStr s)) = Done v ->
  exists k h, v = VLeaf (LUUID k) /\ is_uuid k /\ decorated h s /\ String.length h = 32 /\
              sforall literal_char h = true.
Proof.
  intros E f n o s v HD H. apply load_uuid_done in H as (k & H & -> & _); [|assumption].
  apply uuid_decorated in H as (Hk & h & H). exists k, h. auto.
Qed.
(** Text that is not a UUID fails with a DeserializationError. *)
Theorem C49_other_text_fails :
  forall (E : env) (f n : nat) (o : lopts) (s : string),
  default_deserializers E f ->
  (forall h, decorated h s -> String.length h = 32 -> sforall literal_char h = false) ->
  snd (load E (S n) f o (Some (TLeaf LkUUID)) (VStr s)) = Fail (exn_of KDeser).
Proof.
  intros E f n o s HD Hs. rewrite load_uuid by assumption.
  destruct (uuid_parse s) as [k|e] eqn:Ep.
  - apply uuid_decorated in Ep as (_ & h & H1 & H2 & H3). rewrite (Hs h H1 H2) in H3. discriminate.
  - cbn [rbind load_result]. assert (is_jsons (e_kind e) = false) as ->; [|reflexivity].
    unfold uuid_parse in Ep. destruct (Nat.eqb _ _); [|injection Ep as <-; reflexivity].
    destruct (py_int16 _) as [z|]; [|injection Ep as <-; reflexivity].
    destruct (_ && _)%bool; [discriminate|]. injection Ep as <-. reflexivity.
Qed.
(** It is not true that only 32 hexadecimal digits load: '0x', underscores, a sign and
    whitespace count as characters. *)
Theorem C49_only_hex_digits_refuted :
  exists s k, (forall h, decorated h s -> ~ hex_text h k) /\ undecorated s /\
    String.length s = 32 /\
    snd (load demo_env 1 0 lopts0 (Some (TLeaf LkUUID)) (VStr s)) = Done (VLeaf (LUUID k)).
Proof.
  exists "0x_0123456789abcdef0123456789abc", 0x123456789abcdef0123456789abc%Z.
  assert (Hd : forall a b, decorated a b -> smem "x" b = true -> smem "x" a = true).
  { intros h0. induction 1 as [|a p b H IH Hp]; intros Hx; [exact Hx|]. apply IH. revert Hx. unfold smem, sexists.
    rewrite !sforall_app, !negb_andb. destruct Hp as [<-|[<-|[<-|[<-|[<-|[]]]]]]; exact (fun H => H). }
  split; [|split; [repeat split|split; reflexivity]].
  intros h Hh Ht. apply Hd in Hh; [|reflexivity]. apply hex_text_hex in Ht as [Ht _]. revert Hh Ht. clear.
  unfold smem, sexists. induction h as [|c h IH]; cbn; [discriminate|].
  destruct (Ascii.eqb_spec c "x") as [->|]; cbn; [discriminate|]. destruct (is_hex c); [exact IH|discriminate].
Qed.
Example C49_nonvacuous :
  default_serializers demo_env 0 /\ default_deserializers demo_env 0 /\
  is_uuid 0x123456781234567812345678deadbeef /\
  accepts demo_env 0 (TLeaf LkUUID) (VLeaf (LUUID 0x123456781234567812345678deadbeef)) /\
  snd (dump demo_env 0 1 sopts0 None (VLeaf (LUUID 0x123456781234567812345678deadbeef))) =
    Done (VStr "12345678-1234-5678-1234-5678deadbeef") /\
  uuid_text "12345678-1234-5678-1234-5678deadbeef" 0x123456781234567812345678deadbeef /\
  plain_uuid_text "12345678123456781234567812345678".
Proof.
  split; [intros t; reflexivity|]. split; [intros t; reflexivity|]. split; [split; [discriminate|reflexivity]|].
  split; [exact I|]. split; [vm_compute; reflexivity|]. split.
  - change "12345678-1234-5678-1234-5678deadbeef" with (uuid_str 0x123456781234567812345678deadbeef).
    apply uuid_str_text. split; [discriminate|reflexivity].
  - assert (H : forall s, sforall is_hex s = true -> plain_uuid_text s).
    { intros s Hs c Hc. right. apply hex_digit_is. revert Hs Hc. unfold smem, sexists. induction s as [|x s IH]; cbn; [discriminate|].
      destruct (is_hex x) eqn:Ex; [|discriminate]. destruct (Ascii.eqb_spec x c) as [->|]; [intros _ _; exact Ex|exact IH]. }
    apply H. reflexivity.
Qed.
Example C49_other_text_nonvacuous :
  forall h, decorated h "not a uuid" -> String.length h = 32 -> sforall literal_char h = false.
Proof.
  assert (H : forall h s, decorated h s -> String.length h <= String.length s).
  { intros h0 s0. induction 1 as [|a p b H IH Hp]; [apply le_n|]. rewrite !slength_app in *.
    apply (Nat.le_trans _ _ _ IH). apply Nat.add_le_mono_l. apply Nat.le_add_l. }
  intros h Hh Hl. apply H in Hh. rewrite Hl in Hh. cbn in Hh. repeat apply le_S_n in Hh. inversion Hh.
Qed.

(** ** C51 *)
Theorem C51_timedelta_round_trip :
  forall (E : env) (f g n m : nat) (o : sopts) (lo : lopts) (cls : option ty) (us : Z),
  default_serializers E f -> default_deserializers E g ->
  short_timedelta us -> (cls = None \/ cls = Some (TLeaf LkTimedelta)) ->
  accepts E g (TLeaf LkTimedelta) (VLeaf (LTimedelta us)) ->
  exists x, snd (dump E f (S n) o cls (VLeaf (LTimedelta us))) = Done (VFloat x) /\
    snd (load E (S m) g lo (Some (TLeaf LkTimedelta)) (VFloat x)) = Done (VLeaf (LTimedelta us)).
Proof.
  intros E f g n m o lo cls us HD HL Hs Hc Ha. exists (total_seconds us).
  split; [now apply dump_timedelta|now apply load_timedelta_back].
Qed.
(** Integers are seconds, and True and False are 1 and 0; at most 999999999 days. *)
Theorem C51_timedelta_of_integers :
  forall (E : env) (f n : nat) (o : lopts) (j : value) (z : Z),
  default_deserializers E f -> (j = VInt z \/ exists b : bool, j = VBool b /\ z = if b then 1%Z else 0%Z) ->
  accepts E f (TLeaf LkTimedelta) (VLeaf (LTimedelta (z * 1000000))) ->
  snd (load E (S n) f o (Some (TLeaf LkTimedelta)) j) =
    (if (-999999999 * 86400 <=? z)%Z && (z <? 1000000000 * 86400)%Z
     then Done (VLeaf (LTimedelta (z * 1000000))) else Fail (exn_of KDeser)).
Proof.
  intros E f n o j z HD Hj Ha. rewrite (load_timedelta_integer E n f o j z HD Hj). unfold td_of_int, mk_td.
  replace (td_ok (z * 1000000)) with ((-999999999 * 86400 <=? z)%Z && (z <? 1000000000 * 86400)%Z).
  - destruct (_ && _); [|reflexivity]. cbn [rbind]. apply load_result_ok. auto.
  - unfold td_ok, us_per_day. apply Bool.eq_iff_eq_true. rewrite !Bool.andb_true_iff. lia.
Qed.
Example C51_timedelta_of_integers_case :
  snd (load demo_env 1 0 lopts0 (Some (TLeaf LkTimedelta)) (VBool true)) = Done (VLeaf (LTimedelta 1000000)) /\
  snd (load demo_env 1 0 lopts0 (Some (TLeaf LkTimedelta)) (VInt 86400000000000)) = Fail (exn_of KDeser).
Proof. split; vm_compute; reflexivity. Qed.
(** From 2^33 seconds on microseconds are lost. *)
Theorem C51_timedelta_refuted :
  exists us us' x, us <> us' /\ td_ok us = true /\
    snd (dump demo_env 0 1 sopts0 None (VLeaf (LTimedelta us))) = Done (VFloat x) /\
    snd (load demo_env 1 0 lopts0 (Some (TLeaf LkTimedelta)) (VFloat x)) = Done (VLeaf (LTimedelta us')).
Proof.
  exists (2 ^ 33 * 1000000 + 1)%Z, (2 ^ 33 * 1000000 + 2)%Z, (total_seconds (2 ^ 33 * 1000000 + 1)).
  split; [discriminate|]. split; [reflexivity|]. split; vm_compute; reflexivity.
Qed.
(** Timezones are dumped as their name and their offset in seconds.  They come back with the
    same offset (which is all that Python compares) and with the name they showed, made
    explicit. *)
Theorem C51_timezone_round_trip :
  forall (E : env) (f g n m : nat) (o : sopts) (lo : lopts) (off : Z) (name : option string),
  default_serializers E f -> default_deserializers E g -> default_deserializers E 0 ->
  offset_ok off ->
  accepts E 0 (TLeaf LkTimedelta) (VLeaf (LTimedelta off)) ->
  (forall nm, accepts E g (TLeaf LkTimezone) (VLeaf (LTimezone off (Some nm)))) ->
  exists nm x, shown_name off name nm /\
    snd (dump E f (S n) o None (VLeaf (LTimedelta off))) = Done (VFloat x) /\
    snd (dump E f (S (S n)) o None (VLeaf (LTimezone off name))) =
      Done (str_dict [("name", VStr nm); ("offset", VFloat x)]) /\
    snd (load E (S (S m)) g lo (Some (TLeaf LkTimezone)) (str_dict [("name", VStr nm); ("offset", VFloat x)])) =
      Done (VLeaf (LTimezone off (Some nm))).
Proof.
  intros E f g n m o lo off name HD HL HL0 Hok A0 A. exists (timezone_name off name), (total_seconds off).
  split; [now apply timezone_name_shown|]. split; [apply dump_timedelta; [exact HD|now left]|]. split; [now apply dump_timezone|].
  apply load_timezone_back; auto. now apply timezone_ok_iff.
Qed.
(** Offsets of a day or more are refused. *)
Theorem C51_timezone_range :
  forall (E : env) (g m : nat) (lo : lopts) (off : Z) (name : string),
  default_deserializers E g -> default_deserializers E 0 -> short_timedelta off -> ~ offset_ok off ->
  accepts E 0 (TLeaf LkTimedelta) (VLeaf (LTimedelta off)) ->
  snd (load E (S (S m)) g lo (Some (TLeaf LkTimezone))
            (str_dict [("name", VStr name); ("offset", VFloat (total_seconds off))])) = Fail (exn_of KDeser).
Proof. intros E g m. exact (load_timezone_range E m g). Qed.
(** With the class given, no timezone can be dumped. *)
Theorem C51_typed_timezone_refuted :
  forall (E : env) (f n : nat) (o : sopts) (off : Z) (name : option string),
  default_serializers E f ->
  exists e, snd (dump E f (S (S n)) o (Some (TLeaf LkTimezone)) (VLeaf (LTimezone off name))) = Fail e /\
            e_kind e = KSer.
Proof. exact dump_timezone_typed. Qed.
Example C51_nonvacuous :
  short_timedelta (-123456789012345)%Z /\ offset_ok (-12600000001)%Z /\ (short_timedelta 86400000000 /\ ~ offset_ok 86400000000) /\
  snd (load demo_env 1 0 lopts0 (Some (TLeaf LkTimedelta)) (VFloat (total_seconds 86399999999))) =
    Done (VLeaf (LTimedelta 86399999999)) /\
  snd (dump demo_env 0 2 sopts0 None (VLeaf (LTimezone (-12600000000) None))) =
    Done (str_dict [("name", VStr "UTC-03:30"); ("offset", VFloat (FFin (-1575) 3))]).
Proof.
  split; [reflexivity|]. split; [split; reflexivity|]. split; [split; [reflexivity|intros [_ H]; discriminate H]|].
  split; vm_compute; reflexivity.
Qed.

Print Assumptions C49_round_trip.
Print Assumptions C49_plain_text_iff.
Print Assumptions C49_decorated_text.
Print Assumptions C49_only_literals.
Print Assumptions C49_other_text_fails.
Print Assumptions C49_only_hex_digits_refuted.
Print Assumptions C51_timedelta_round_trip.
Print Assumptions C51_timedelta_of_integers.
Print Assumptions C51_timedelta_refuted.
Print Assumptions C51_timezone_round_trip.
Print Assumptions C51_timezone_range.
Print Assumptions C51_typed_timezone_refuted.
