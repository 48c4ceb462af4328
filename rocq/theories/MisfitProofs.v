(** * Dump with a type that the value does not have: proofs *)
From Verif Require Import EngineEnv EngineFacts DumpProofs RoundTripFacts LoadTypes CastLaws.
From Verif Require Export MisfitSpec.
Local Open Scope string_scope.

Lemma dump_step E f n o t v : default_serializers E f ->
  snd (dump E f (S n) o (Some t) v) =
  match snd (ser_step E f (serialize E f n) o (default_ser (e_ct E) t) (Some t) v) with
  | Done j => Done j | Fail _ => Fail (exn_of KSer) | Oof => Oof end.
Proof.
  intros DS. unfold dump, dump_. rewrite (DS _). cbn [serialize]. unfold wrap_ser, mbind, emit, mtry.
  destruct (ser_step _ _ _ _ _ _ _) as [l [j|e|]]; reflexivity.
Qed.

(** ** None *)
Lemma ser_any CT : default_ser CT TAny = None.
Proof. rewrite default_ser_eq. vm_compute. reflexivity. Qed.
Lemma ser_tobject CT : default_ser CT TObject = Some SObject.
Proof. rewrite default_ser_eq. vm_compute. reflexivity. Qed.
Definition leaf_ser (k : leafk) : shandler :=
  match k with
  | LkDatetime => SDatetime | LkDate => SDate | LkTime => STime | LkTimedelta => STimedelta
  | LkTimezone => STimezone | LkUUID => SUUID | LkDecimal => SDecimal | LkComplex => SComplex
  | LkPath => SPath | LkZone => SZone
  end.
Lemma ser_tleaf CT k : default_ser CT (TLeaf k) = Some (leaf_ser k).
Proof. rewrite default_ser_eq. destruct k; vm_compute; reflexivity. Qed.
Lemma ser_tunion CT ts : default_ser CT (TUnion ts) = Some SUnion.
Proof.
  rewrite default_ser_eq. unfold lookup, get_lizer, get_lizer_flat.
  change (lname (ty_world CT) (TUnion ts)) with (slower (if is_optional ts then "typing.Optional" else "typing.Union")).
  destruct (is_optional ts); vm_compute; reflexivity.
Qed.
Lemma filter_dunder o st l : (forall a, In a l -> prefix "__" a = true) ->
  filter_attrs [] o st (map (fun a => (a, None)) l) = Ok [].
Proof.
  induction l as [|a l IH]; intros H; [reflexivity|]. cbn [map filter_attrs]. unfold keep_attr. rewrite (H a) by now left.
  cbn [rbind]. rewrite IH by (intros b Hb; apply H; now right). reflexivity.
Qed.
Lemma object_none E f ser o t strip : bare_none (e_rt E) -> plain_dump o -> strips (so_attr o) strip ->
  snd (ser_object E f ser o (Some t) VNone) = Done (VDict DkDict []).
Proof.
  intros HB (Hs & Hc & Hd) Hst. unfold ser_object. rewrite Hs. cbn [attrs_from_object].
  unfold attrs_from_object. 
  assert (Hn : exists st, strip_names (so_attr o) = Ok st).
  { unfold strip_names, normalize_strip_attr. destruct (so_attr o) as [|s|l|l]; cbn [strips] in Hst; [eauto| |eauto|contradiction].
    destruct s; [destruct Hst; congruence|eauto]. }
  destruct Hn as [st ->]. cbn [rbind]. rewrite filter_dunder by exact (proj1 HB). cbn [lift]. rewrite bind_ret_l.
  cbn [do_serialize]. rewrite bind_ret_l. destruct (so_store_cls o); [reflexivity|].
  unfold dict_with_meta. rewrite Hc, Hd. reflexivity.
Qed.

Definition outcome_of (r : option value) : outcome value := match r with Some j => Done j | None => Fail (exn_of KSer) end.
Lemma dump_none_plain E f n o t strip : default_serializers E f -> bare_none (e_rt E) -> plain_dump o ->
  strips (so_attr o) strip -> plain_hint (e_ct E) t ->
  snd (dump E f (S n) o (Some t) VNone) = outcome_of (null_plain (e_ct E) t).
Proof.
  intros DS HB Ho Hst Ht. rewrite dump_step by exact DS. destruct Ht as [p| | | |b h args|k|c Hc].
  - rewrite ser_prim. reflexivity.
  - rewrite ser_none. reflexivity.
  - rewrite ser_any. reflexivity.
  - rewrite ser_tobject. cbn [ser_step]. rewrite (object_none E f _ o TObject strip HB Ho Hst). reflexivity.
  - rewrite ser_head. destruct h; cbn [head_ser ser_step null_plain outcome_of]; try reflexivity.
    unfold ser_tuple. destruct (raw_args (TApp b HTuple args)) as [l|]; [|reflexivity]. destruct (ty_eqb TEllipsis (last l TAny)); reflexivity.
  - rewrite ser_tleaf. destruct HB as [_ HG]. destruct k; try reflexivity; cbn [leaf_ser ser_step]; unfold get_attr.
    + destruct (HG "real" eq_refl) as [e ->]. reflexivity.
    + destruct (HG "key" eq_refl) as [e ->]. reflexivity.
  - destruct (ci_kind (e_ct E c)) as [|m l|l] eqn:Hk; cbn [null_plain outcome_of]; rewrite Hk.
    + rewrite (ser_object_class _ _ Hc Hk). cbn [ser_step]. rewrite (object_none E f _ o (TClass c) strip HB Ho Hst). reflexivity.
    + rewrite (ser_enumeration _ _ Hc _ _ Hk). cbn [ser_step]. unfold get_attr.
      destruct HB as [_ HG]. destruct (so_enum_name o); [destruct (HG "name" eq_refl) as [e ->]|destruct (HG "value" eq_refl) as [e ->]]; reflexivity.
    + rewrite (ser_namedtuple_class _ _ Hc _ Hk). reflexivity.
Qed.
Lemma union_none E f n o ts strip : default_serializers E f -> bare_none (e_rt E) -> plain_dump o ->
  strips (so_attr o) strip -> Forall (plain_hint (e_ct E)) ts ->
  snd (ser_union_go E f (serialize E f (S n)) o VNone ts) = outcome_of (first_null (e_ct E) ts).
Proof.
  intros DS HB Ho Hst H. induction H as [|t ts Ht H IH]; [reflexivity|]. cbn [ser_union_go first_null]. unfold mtry.
  pose proof (dump_none_plain E f n o t strip DS HB Ho Hst Ht) as Hd. unfold dump in Hd.
  destruct (dump_ E f (serialize E f (S n)) o (Some t) VNone) as [l r]. cbn [snd] in Hd. subst r.
  destruct (null_plain (e_ct E) t) as [j|]; cbn [outcome_of]; [reflexivity|]. cbn [is_jsons e_kind exn_of].
  destruct (ser_union_go E f (serialize E f (S n)) o VNone ts) as [l' r']. exact IH.
Qed.
Lemma dump_none E f n o t strip : default_serializers E f -> bare_none (e_rt E) -> plain_dump o ->
  strips (so_attr o) strip -> hint (e_ct E) t ->
  snd (dump E f (S (S n)) o (Some t) VNone) = outcome_of (null_as (e_ct E) t).
Proof.
  intros DS HB Ho Hst [t' Ht|ts Ht].
  - rewrite (dump_none_plain _ _ _ _ _ _ DS HB Ho Hst Ht). destruct Ht; reflexivity.
  - rewrite dump_step, ser_tunion by exact DS. cbn [ser_step null_as]. unfold ser_union. cbn [raw_args is_none andb].
    destruct (existsb (ty_eqb TNoneT) ts); [reflexivity|]. rewrite (union_none _ _ _ _ _ _ DS HB Ho Hst Ht).
    now destruct (first_null (e_ct E) ts).
Qed.

(** ** Casts *)
Lemma ser_prim_value E p j : json_input j ->
  (forall v, prim_value E p j = Ok v -> ser_primitive E (Some (TPrim p)) j = Ok v) /\
  (forall e, prim_value E p j = Err e -> exists e', ser_primitive E (Some (TPrim p)) j = Err e').
Proof.
  intros Hj. destruct (json_input_facts j Hj) as (_ & Hn & _).
  assert (Hs : ser_primitive E (Some (TPrim p)) j =
    if naked_sub (e_ct E) (class_of j) (TPrim p) then Ok j
    else match cast (e_rt E) (TPrim p) j with
         | Ok r => Ok r
         | Err e => Err (if is_valueerror (e_kind e) then exn_of KSer else e)
         end) by (destruct j; try congruence; reflexivity).
  assert (Hd : deser_primitive E (TPrim p) j =
    if naked_sub (e_ct E) (class_of j) (TPrim p) then Ok j
    else match cast (e_rt E) (TPrim p) j with
         | Ok r => Ok r
         | Err e => Err (if is_valueerror (e_kind e) then exn_of KDeser else e)
         end) by (destruct j; try congruence; reflexivity).
  rewrite Hs. unfold prim_value. destruct p; try rewrite Hd.
  - assert (Hi : naked_sub (e_ct E) (class_of j) (TPrim PStr) = true -> exists s, j = VStr s).
    { destruct Hj; cbn; try discriminate; eauto. }
    destruct (naked_sub (e_ct E) (class_of j) (TPrim PStr)).
    + destruct Hi as [s ->]; [reflexivity|]. split; [|discriminate]. intros v [= <-]. reflexivity.
    + cbn [cast]. destruct (py_str (e_rt E) j) as [s|e]; cbn [rbind]; split; intros v; try discriminate; try (intros [= <-]; reflexivity); eauto.
  - destruct (naked_sub _ _ _); [split; [auto|discriminate]|]. destruct (cast _ _ _); split; intros v; try discriminate; eauto.
  - destruct (naked_sub _ _ _); [split; [auto|discriminate]|]. destruct (cast _ _ _); split; intros v; try discriminate; eauto.
  - destruct (naked_sub _ _ _); [split; [auto|discriminate]|]. destruct (cast _ _ _); split; intros v; try discriminate; eauto.
Qed.
Lemma dump_prim E f n o p j : default_serializers E f -> json_input j ->
  snd (dump E f (S n) o (Some (TPrim p)) j) = match prim_value E p j with Ok v => Done v | Err _ => Fail (exn_of KSer) end.
Proof.
  intros DS Hj. rewrite dump_step, ser_prim by exact DS. cbn [ser_step]. destruct (ser_prim_value E p j Hj) as [H1 H2].
  destruct (prim_value E p j) as [v|e]; [now rewrite (H1 v eq_refl)|]. destruct (H2 e eq_refl) as [e' ->]. reflexivity.
Qed.
Lemma dump_casts E f n o p j v : default_serializers E f -> json_input j ->
  (snd (dump E f (S n) o (Some (TPrim p)) j) = Done v -> casts (e_rt E) p j v).
Proof.
  intros DS Hj. rewrite dump_prim by assumption. destruct (prim_value E p j) as [w|e] eqn:Hp; [|discriminate].
  intros [= <-]. now apply prim_value_casts.
Qed.
Lemma dump_castable E f n o p j : default_serializers E f -> json_input j ->
  (exists v, casts (e_rt E) p j v) -> exists v, snd (dump E f (S n) o (Some (TPrim p)) j) = Done v.
Proof.
  intros DS Hj [v Hv]. rewrite dump_prim by assumption. destruct (prim_value E p j) as [w|e] eqn:Hp; [eauto|].
  exfalso. exact (prim_value_none _ _ _ _ Hj Hp _ Hv).
Qed.
Lemma dump_uncastable E f n o p j : default_serializers E f -> json_input j ->
  (forall v, ~ casts (e_rt E) p j v) -> snd (dump E f (S n) o (Some (TPrim p)) j) = Fail (exn_of KSer).
Proof.
  intros DS Hj Hv. rewrite dump_prim by assumption. destruct (prim_value E p j) as [w|e] eqn:Hp; [|reflexivity].
  exfalso. exact (Hv _ (prim_value_casts _ _ _ _ Hj Hp)).
Qed.
(** ** Any and tuple *)
Lemma dump_any E f n o v : default_serializers E f -> snd (dump E f (S n) o (Some TAny) v) = Fail (exn_of KSer).
Proof. intros DS. rewrite dump_step, ser_any by exact DS. reflexivity. Qed.
Lemma dump_bare_tuple E f n o v : default_serializers E f -> (forall c l, v <> VNT c l) ->
  snd (dump E f (S n) o (Some (TApp false HTuple [])) v) = Fail (exn_of KSer).
Proof.
  intros DS Hv. rewrite dump_step, ser_head by exact DS. cbn [head_ser ser_step]. unfold ser_tuple. cbn [raw_args].
  destruct v; try reflexivity. exfalso. now apply (Hv c l).
Qed.
