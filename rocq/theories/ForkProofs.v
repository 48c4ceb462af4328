(** * Runs with two forks that look up the same *)
From Verif Require Import PyBaseFacts LoadFacts.
From Verif Require Export HistorySpec.
Local Close Scope Z_scope.
Local Open Scope string_scope.

Notation "m ~~ m'" := (same_run m m') (at level 70).
Lemma sr_refl {A} (m : M A) : m ~~ m.
Proof. split; reflexivity. Qed.
Lemma sr_eq {A} (m m' : M A) : m = m' -> m ~~ m'.
Proof. intros ->. apply sr_refl. Qed.
Lemma sr_bind {A B} (m m' : M A) (k k' : A -> M B) : m ~~ m' -> (forall a, k a ~~ k' a) -> mbind m k ~~ mbind m' k'.
Proof.
  intros [H1 H2] H. unfold mbind. rewrite <- H1. destruct (snd m) as [a|e|]; [|split; auto..].
  destruct (H a) as [K1 K2]. split; [exact K1|]. cbn [fst]. now rewrite !map_app, H2, K2.
Qed.
Lemma sr_same {A B} (m : M A) (k k' : A -> M B) : (forall a, k a ~~ k' a) -> mbind m k ~~ mbind m k'.
Proof. intros H. apply sr_bind; [apply sr_refl|exact H]. Qed.
Lemma sr_tail {A B} (m m' : M A) (k : A -> M B) : m ~~ m' -> mbind m k ~~ mbind m' k.
Proof. intros H. apply sr_bind; [exact H|]. intros. apply sr_refl. Qed.
Lemma sr_try {A} (m m' : M A) (k k' : exn -> M A) : m ~~ m' -> (forall e, k e ~~ k' e) -> mtry m k ~~ mtry m' k'.
Proof.
  intros [H1 H2] H. unfold mtry. rewrite <- H1. destruct (snd m) as [a|e|] eqn:Em.
  - split; congruence.
  - destruct (H e) as [K1 K2]. split; [exact K1|]. cbn [fst]. now rewrite !map_app, H2, K2.
  - split; congruence.
Qed.
Lemma sr_catch {A} (m m' : M A) : m ~~ m' -> mcatch m ~~ mcatch m'.
Proof. intros [H1 H2]. unfold mcatch. rewrite <- H1. destruct (snd m); split; auto. Qed.
Lemma sr_mmap {A B} (k k' : A -> M B) l : (forall x, k x ~~ k' x) -> mmap k l ~~ mmap k' l.
Proof.
  intros H. induction l as [|x l IH]; [apply sr_refl|]. cbn [mmap].
  apply sr_bind; [apply H|]. intros y. now apply sr_tail.
Qed.
Lemma sr_fst {A B} (m m' : M A) (x : outcome B) : m ~~ m' -> ((fst m, x) : M B) ~~ (fst m', x).
Proof. intros [_ H]. split; [reflexivity|exact H]. Qed.

Section ForkLoad.
Variables (CT : classes) (R : runtime) (ob f f' : nat).
Variables (s s' : nat -> ty -> option shandler) (d d' : nat -> ty -> option dhandler).
Variables (vd vd' : nat -> ty -> option (value -> res bool)) (w w' : nat -> string -> bool).
Variables (rs rs' : nat -> string -> res ty) (cs cs' : nat -> option ty -> value -> res value).
Variables (cd cd' : nat -> ty -> value -> res value).
Let E := mkEnv CT R ob s d vd w rs cs cd.
Let E' := mkEnv CT R ob s' d' vd' w' rs' cs' cd'.
Hypothesis Hd : forall t, d f t = d' f' t.
Hypothesis Hv : forall t, vd f t = vd' f' t.
Hypothesis Hw : forall c, w f c = w' f' c.
Hypothesis Hr : forall n, rs f n = rs' f' n.
Hypothesis Hc : forall n t j, cd n t j = cd' n t j.
Variables ld ld' : nat -> lopts -> option ty -> value -> M value.
Hypothesis HL : forall o cls j, ld f o cls j ~~ ld' f' o cls j.
Hypothesis HL0 : forall cls j, ld 0 lopts0 cls j ~~ ld' 0 lopts0 cls j.

Lemma fk_warn c : warn E f c ~~ warn E' f' c.
Proof. unfold warn. cbn [e_warn E E']. rewrite <- Hw. destruct (w f c); split; reflexivity. Qed.
Lemma fk_list_go o b t l : forall i, deser_list_go E ld f o b t i l ~~ deser_list_go E' ld' f' o b t i l.
Proof.
  induction l as [|x l IH]; intros i; [apply sr_refl|]. cbn [deser_list_go].
  pose proof (HL o t x) as H. destruct H as [H1 H2] eqn:Q. clear Q. rewrite <- H1.
  destruct (snd (ld f o t x)) as [y|e|].
  - apply sr_bind; [split; [reflexivity|exact H2]|]. intros _. apply sr_tail. apply IH.
  - destruct (is_deser (e_kind e)); [destruct b|].
    + apply sr_bind; [split; [reflexivity|exact H2]|]. intros _. apply sr_bind; [apply fk_warn|]. intros _. apply IH.
    + split; [reflexivity|exact H2].
    + split; [reflexivity|exact H2].
  - split; [reflexivity|exact H2].
Qed.
Lemma fk_list o args j : deser_list E ld f o args j ~~ deser_list E' ld' f' o args j.
Proof. unfold deser_list. cbn [e_rt E E']. apply sr_same. intros l. apply fk_list_go. Qed.
Lemma fk_nt_go o j dd len fields : forall i,
  deser_nt_go E ld f o j dd len i fields ~~ deser_nt_go E' ld' f' o j dd len i fields.
Proof.
  induction fields as [|fd fields IH]; intros i; [apply sr_refl|]. cbn [deser_nt_go e_ct E E'].
  apply sr_same. intros x. apply sr_same. intros _. apply sr_bind; [apply HL|]. intros y. apply sr_tail. apply IH.
Qed.
Lemma fk_namedtuple o c j : deser_namedtuple E ld f o c j ~~ deser_namedtuple E' ld' f' o c j.
Proof.
  unfold deser_namedtuple. cbn [e_rt e_ct E E']. apply sr_same. intros dd. apply sr_same. intros l.
  apply sr_tail. apply fk_nt_go.
Qed.
Lemma fk_tuple_go o l : forall ts, deser_tuple_go ld f o l ts ~~ deser_tuple_go ld' f' o l ts.
Proof.
  induction l as [|x l IH]; intros ts; [apply sr_refl|]. cbn [deser_tuple_go].
  destruct ts as [|t ts]; [apply sr_refl|]. apply sr_bind; [apply HL|]. intros y. apply sr_tail. apply IH.
Qed.
Lemma fk_tuple o t j : deser_tuple E ld f o t j ~~ deser_tuple E' ld' f' o t j.
Proof.
  unfold deser_tuple. cbn [e_rt e_ct E E'].
  set (p := mbind _ _). set (p' := mbind _ _).
  assert (Hp : p ~~ p').
  { unfold p, p'. apply sr_same. intros l. destruct (get_args (Some t)) as [|t0 ts].
    - apply sr_tail. apply sr_mmap. intros x. apply HL.
    - apply sr_tail. apply fk_tuple_go. }
  destruct t; try exact Hp. destruct (ci_kind (CT c)); try exact Hp. apply fk_namedtuple.
Qed.
Lemma fk_union_go o j ts : deser_union_go ld f o j ts ~~ deser_union_go ld' f' o j ts.
Proof.
  induction ts as [|t ts IH]; [apply sr_refl|]. cbn [deser_union_go]. apply sr_try; [apply HL|].
  intros e. destruct (is_jsons (e_kind e)); [exact IH|apply sr_refl].
Qed.
Lemma fk_hashed_go o kt stored : forall result, hashed_go E ld f o kt stored result ~~ hashed_go E' ld' f' o kt stored result.
Proof.
  induction stored as [|[h orig] stored IH]; intros result; [apply sr_refl|]. cbn [hashed_go e_ct E E'].
  apply sr_bind; [apply HL|]. intros k. destruct (dget h result); [|apply sr_refl].
  destruct (_ && _)%bool; [apply IH|apply sr_refl].
Qed.
Lemma fk_dict_go ok ov gt kc vc dd : forall acc,
  deser_dict_go E ld f ok ov gt kc vc dd acc ~~ deser_dict_go E' ld' f' ok ov gt kc vc dd acc.
Proof.
  induction dd as [|[k x] dd IH]; intros acc; [apply sr_refl|]. cbn [deser_dict_go e_ct E E'].
  apply sr_same. intros k1. apply sr_bind; [destruct kc; [apply HL|apply sr_refl]|]. intros k2.
  apply sr_bind; [apply HL|]. intros y. destruct (hashable CT k2); [apply IH|apply sr_refl].
Qed.
Lemma fk_dict o args j : deser_dict E ld f o args j ~~ deser_dict E' ld' f' o args j.
Proof.
  unfold deser_dict. destruct j; try apply sr_refl. apply sr_bind.
  - unfold load_hashed_keys. cbn [e_rt E E']. destruct (dget (VStr "-keys") d0) as [keys|]; [|apply sr_refl].
    apply sr_same. intros ks. destruct ks; [apply sr_refl|].
    destruct args as [|kt [|? [|]]]; try apply sr_refl. destruct keys; try apply sr_refl.
    apply sr_tail. apply fk_hashed_go.
  - intros dh. destruct args as [|tk [|tv [|]]]; apply fk_dict_go.
Qed.
Lemma fk_value_from o h p x : value_from_obj E ld f o h p x ~~ value_from_obj E' ld' f' o h p x.
Proof.
  unfold value_from_obj. cbn [e_rt e_resolve E E'].
  apply sr_bind.
  - apply sr_eq. f_equal. destruct (dget (VStr ("/" ++ pa_name p)) h) as [x'|]; [|reflexivity]. destruct (truthy R x'); [|reflexivity].
    destruct x'; try reflexivity. now rewrite Hr.
  - intros mh. apply HL.
Qed.
Lemma fk_value_for o h dd gs p : value_for_attr E ld f o h dd gs p ~~ value_for_attr E' ld' f' o h dd gs p.
Proof.
  unfold value_for_attr. destruct (dget (VStr (pa_name p)) dd) as [x|]; [|apply sr_refl].
  apply sr_tail. apply fk_value_from.
Qed.
Lemma fk_constructor o h dd gs ps : constructor_args E ld f o h dd gs ps ~~ constructor_args E' ld' f' o h dd gs ps.
Proof.
  induction ps as [|p ps IH]; [apply sr_refl|]. cbn [constructor_args].
  apply sr_bind; [apply fk_value_for|]. intros x. apply sr_tail. exact IH.
Qed.
Lemma fk_remaining o ci rest : forall at_, set_remaining E ld f o ci rest at_ ~~ set_remaining E' ld' f' o ci rest at_.
Proof.
  induction rest as [|[k x] rest IH]; intros at_; [apply sr_refl|]. cbn [set_remaining].
  apply sr_bind.
  - destruct (match k with VStr a => sget a (ci_hints ci) | _ => None end); [apply sr_refl|].
    destruct (has_keys_section x); [apply fk_warn|apply sr_refl].
  - intros _. apply sr_bind; [apply HL|]. intros y. destruct k; try apply sr_refl.
    destruct (ci_set ci s0 y at_) as [a|e]; [apply IH|]. destruct (is_attributeerror (e_kind e)); [apply IH|apply sr_refl].
Qed.
Lemma fk_object o t j : deser_object E ld f o t j ~~ deser_object E' ld' f' o t j.
Proof.
  unfold deser_object, cid_of. cbn [e_ct e_object E E'].
  destruct (match t with TClass c => Some c | TObject => Some ob | _ => None end) as [c|]; [|apply sr_refl].
  apply sr_same. intros d0. apply sr_same. intros dd. apply sr_bind; [apply fk_constructor|]. intros args.
  apply sr_same. intros rest. apply sr_same. intros _. apply sr_same. intros attrs.
  apply sr_tail. apply fk_remaining.
Qed.
Lemma fk_step o h t j : deser_step E ld f o h t j ~~ deser_step E' ld' f' o h t j.
Proof.
  destruct h; cbn [deser_step]; try apply sr_refl.
  - apply sr_tail. apply fk_list.
  - apply fk_tuple.
  - unfold deser_union. destruct (raw_args t); [apply fk_union_go|apply sr_refl].
  - unfold deser_defaultdict. apply sr_same. intros args. apply sr_tail. apply HL.
  - unfold deser_timezone. apply sr_same. intros off. apply sr_bind; [apply HL0|]. intros. apply sr_refl.
  - unfold deser_string. destruct (ty_eqb t (TPrim PStr) && negb (lo_inferred o)); [apply sr_refl|].
    apply sr_try; [apply HL|]. intros. apply sr_refl.
  - unfold deser_mapping. apply sr_same. intros args. apply sr_tail. apply fk_dict.
  - unfold deser_iterable. apply sr_same. intros args. apply sr_tail. apply fk_list.
  - apply fk_object.
  - unfold deser_complex. apply sr_try; [|intros; apply sr_refl]. apply sr_same. intros re. apply sr_same. intros im.
    apply sr_bind; [apply HL0|]. intros. apply sr_refl.
  - cbn [e_cdeser E E']. rewrite Hc. apply sr_refl.
Qed.
Lemma fk_load_step o cls j : load_step E ld f o cls j ~~ load_step E' ld' f' o cls j.
Proof.
  unfold load_step. cbn [e_ct e_resolve E E'].
  assert (Hva : forall v t, validate E f v t = validate E' f' v t) by (intros v t; unfold validate; cbn; now rewrite Hv).
  assert (Hgm : get_cls_and_meta E f j = get_cls_and_meta E' f' j).
  { unfold get_cls_and_meta. cbn [e_ct e_resolve E E']. destruct j; try reflexivity. destruct (dget (VStr "-meta") d0) as [me|]; [|reflexivity].
    destruct (py_getitem CT me (VStr "classes")) as [cl|]; [|reflexivity]. cbn [rbind].
    destruct (py_getitem CT cl (VStr "/")) as [x|]; [|reflexivity].
    cbn [rbind]. destruct x; try reflexivity. destruct cl; try reflexivity. now rewrite Hr. }
  apply sr_same. intros _.
  destruct ((negb (lo_strict o) && same_type j cls) || match cls with Some TAny => true | _ => false end).
  { destruct cls; [rewrite Hva|]; apply sr_refl. }
  apply sr_bind.
  { destruct cls as [[]|]; try apply sr_refl. rewrite Hr. apply sr_refl. }
  intros cls1. destruct (negb (valid_type j)); [apply sr_refl|]. rewrite <- Hgm.
  apply sr_same. intros mh.
  destruct (determine_precedence cls1 (fst mh) (Some (class_of j)) (lo_inferred o)) as [t|]; [|apply sr_refl].
  cbn [e_deser E E']. rewrite <- Hd. destruct (d f t) as [h|]; [|apply sr_refl].
  unfold wrap_deser. apply sr_try; [|intros; apply sr_refl]. apply sr_bind; [apply fk_step|].
  intros r. rewrite Hva. apply sr_refl.
Qed.
End ForkLoad.

(** What the two forks look up for load *)
Definition fork_load (E : env) (f : nat) (E' : env) (f' : nat) : Prop :=
  e_ct E = e_ct E' /\ e_rt E = e_rt E' /\ e_object E = e_object E' /\
  (forall t, e_deser E f t = e_deser E' f' t) /\ (forall t, e_validator E f t = e_validator E' f' t) /\
  (forall c, e_warn E f c = e_warn E' f' c) /\ (forall n, e_resolve E f n = e_resolve E' f' n) /\
  (forall n t j, e_cdeser E n t j = e_cdeser E' n t j).
Theorem load_fork E f E' f' : fork_load E f E' f' -> fork_load E 0 E' 0 -> forall n o cls j,
  load E n f o cls j ~~ load E' n f' o cls j.
Proof.
  intros H H0 n.
  assert (G : forall g g', (g = f /\ g' = f' \/ g = 0 /\ g' = 0) -> forall o cls j, load E n g o cls j ~~ load E' n g' o cls j).
  2:{ intros. apply G. auto. }
  induction n as [|n IH]; intros g g' Hg o cls j; [apply sr_refl|]. cbn [load].
  assert (HG : fork_load E g E' g') by (destruct Hg as [[-> ->]|[-> ->]]; assumption).
  destruct HG as (H1 & H2 & H3 & H4 & H5 & H6 & H7 & H8).
  destruct E as [CT R ob s d vd w rs cs cd], E' as [CT' R' ob' s' d' vd' w' rs' cs' cd'].
  cbn [e_ct e_rt e_object e_deser e_validator e_warn e_resolve e_cdeser] in *. subst CT' R' ob'.
  apply fk_load_step; auto.
Qed.

(** ** Dump *)
Section ForkDump.
Variables (E E' : env) (f f' : nat).
Hypothesis Hct : e_ct E' = e_ct E.
Hypothesis Hrt : e_rt E' = e_rt E.
Hypothesis Hcs : forall n c x, e_cser E' n c x = e_cser E n c x.
Hypothesis Hsr : forall t, e_ser E' f' t = e_ser E f t.
Hypothesis Hwr : forall c, e_warn E' f' c = e_warn E f c.
Variables ser ser' : sopts -> option shandler -> option ty -> value -> M value.
Hypothesis Hser : forall o h c v, ser o h c v ~~ ser' o h c v.
Lemma fw_warn c : warn E f c ~~ warn E' f' c.
Proof. unfold warn. rewrite Hwr. destruct (e_warn E f c); split; reflexivity. Qed.
Lemma fw_announce t : emit (EvAnnounce f t) ~~ emit (EvAnnounce f' t).
Proof. split; reflexivity. Qed.
Lemma fw_dump o c v : dump_ E f ser o c v ~~ dump_ E' f' ser' o c v.
Proof.
  unfold dump_. rewrite Hsr. apply sr_bind; [apply fw_announce|]. intros _. unfold wrap_ser.
  apply sr_try; [apply Hser|]. intros. apply sr_refl.
Qed.
Lemma fw_attr v a : get_attr E' v a = get_attr E v a.
Proof. unfold get_attr. now rewrite Hct, Hrt. Qed.
Lemma fw_list o c v : ser_list E f ser o c v ~~ ser_list E' f' ser' o c v.
Proof.
  unfold ser_list. rewrite Hrt, Hct. destruct (negb _); [apply sr_refl|]. destruct (get_args c) as [|t ts].
  - destruct (so_strict o).
    + apply sr_same. intros x0. apply sr_same. intros l. apply sr_tail. apply sr_mmap. intros x. rewrite Hsr. apply Hser.
    + apply sr_same. intros l. apply sr_tail. apply sr_mmap. intros x. apply fw_dump.
  - apply sr_same. intros l. apply sr_tail. apply sr_mmap. intros x. rewrite Hsr. apply Hser.
Qed.
Lemma fw_iterable o c v : ser_iterable E f ser o c v ~~ ser_iterable E' f' ser' o c v.
Proof.
  unfold ser_iterable, determine_cls. rewrite Hrt. apply sr_same. intros l. apply sr_same. intros c'.
  apply sr_same. intros subs. apply sr_tail. apply sr_mmap. intros x. apply fw_dump.
Qed.
Lemma fw_tuple o c v : ser_tuple E f ser o c v ~~ ser_tuple E' f' ser' o c v.
Proof.
  assert (Hnt : forall i v, ser_namedtuple E f ser o i v ~~ ser_namedtuple E' f' ser' o i v).
  { intros i v'. unfold ser_namedtuple. rewrite Hct. apply sr_tail. apply sr_mmap.
    intros a. rewrite fw_attr. apply sr_same. intros x. apply sr_tail. apply fw_dump. }
  unfold ser_tuple. rewrite Hrt.
  destruct v; try apply Hnt; destruct c as [t|]; try apply fw_iterable;
    (destruct (raw_args t); [|apply sr_refl]); (destruct (ty_eqb _ _); [|apply fw_iterable]);
    apply sr_same; intros; apply fw_iterable.
Qed.
Lemma fw_store o r k : store_and_hash E f ser o r k ~~ store_and_hash E' f' ser' o r k.
Proof.
  unfold store_and_hash. rewrite Hct, Hrt. destruct (json_key (e_ct E) k); [apply sr_refl|].
  apply sr_tail. apply fw_dump.
Qed.
Lemma fw_dict_go o v ks : forall acc, ser_dict_go E f ser o v ks acc ~~ ser_dict_go E' f' ser' o v ks acc.
Proof.
  induction ks as [|k ks IH]; intros acc; cbn [ser_dict_go]; [apply sr_refl|].
  rewrite Hct. apply sr_same. intros x. apply sr_bind; [apply fw_store|]. intros rk.
  apply sr_bind; [apply fw_dump|]. intros d. destruct (_ && _); [apply IH|]. apply sr_same. intros k'. apply IH.
Qed.
Lemma fw_union_go o v ts : ser_union_go E f ser o v ts ~~ ser_union_go E' f' ser' o v ts.
Proof.
  induction ts as [|t ts IH]; cbn [ser_union_go]; [apply sr_refl|]. apply sr_try; [apply fw_dump|].
  intros e. destruct (is_jsons _); [apply IH|apply sr_refl].
Qed.
Lemma fw_do o p v attrs : forall r, do_serialize E f ser o p v attrs r ~~ do_serialize E' f' ser' o p v attrs r.
Proof.
  induction attrs as [|[a c] attrs IH]; intros r; cbn [do_serialize]; [apply sr_refl|].
  rewrite fw_attr. apply sr_same. intros x. apply sr_bind; [apply fw_announce|]. intros u.
  apply sr_bind.
  - apply sr_catch. rewrite Hsr. apply sr_bind; [apply Hser|]. intros d.
    unfold store_cls_info, type_name_of. rewrite Hct, Hrt. apply sr_refl.
  - intros [d|e].
    + destruct (_ && _); [apply IH|]. rewrite Hct. apply sr_same. intros k. apply IH.
    + destruct (so_strict o); [apply sr_refl|]. destruct (e_noargs e); [apply sr_refl|]. apply sr_tail. apply fw_warn.
Qed.
Lemma fw_object o c v : ser_object E f ser o c v ~~ ser_object E' f' ser' o c v.
Proof.
  unfold ser_object, attrs_from_class, attrs_from_object, dict_with_meta. rewrite Hct, Hrt.
  apply sr_same. intros attrs. apply sr_tail. apply fw_do.
Qed.
Lemma fw_step o h c v : ser_step E f ser o h c v ~~ ser_step E' f' ser' o h c v.
Proof.
  unfold ser_step. destruct h as [h|]; [|apply sr_refl].
  assert (Ht : forall b p, ser_time_like E f b p v ~~ ser_time_like E' f' b p v).
  { intros b p. unfold ser_time_like. rewrite Hrt. apply sr_same. intros sw. apply sr_tail.
    destruct (snd sw); [apply fw_warn|apply sr_refl]. }
  destruct h; rewrite ?fw_attr, ?Hrt, ?Hcs; auto using fw_tuple, fw_list, fw_iterable, fw_object, sr_refl.
  - destruct v as [| | | | | | | | |x| | |]; try apply sr_refl. destruct x; try apply sr_refl. apply sr_tail. apply fw_dump.
  - unfold ser_primitive. rewrite Hct, Hrt. apply sr_refl.
  - unfold ser_dict. rewrite Hrt. apply sr_same. intros ks. apply sr_tail. apply fw_dict_go.
  - unfold ser_union. destruct (match c with Some t => raw_args t | None => None end); [|apply sr_refl].
    destruct (_ && _); [apply sr_refl|]. apply fw_union_go.
Qed.
End ForkDump.
Theorem dump_fork E f E' f' : e_ct E' = e_ct E -> e_rt E' = e_rt E ->
  (forall n c x, e_cser E' n c x = e_cser E n c x) -> (forall t, e_ser E' f' t = e_ser E f t) ->
  (forall c, e_warn E' f' c = e_warn E f c) -> forall n o cls v,
  dump E f n o cls v ~~ dump E' f' n o cls v.
Proof.
  intros H1 H2 H3 H4 H5 n o cls v. unfold dump. apply fw_dump; auto.
  induction n as [|n IH]; intros o1 h c x; [apply sr_refl|]. cbn [serialize]. now apply fw_step.
Qed.
