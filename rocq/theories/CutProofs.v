(** * Dumps that are cut short: proofs *)
From Verif Require Import PyBaseFacts DumpProofs.
From Verif Require Export CutSpec DumpLaws AttrFacts.
Local Open Scope string_scope.

(** [m]: cut short; [m']: not *)
Definition kept {A} (q : list ev -> Prop) (m m' : M A) : Prop :=
  forall a, snd m = Done a -> q (fst m) -> m' = m.
Section Kept.
Variable q : list ev -> Prop.
Hypothesis q_app : forall l l', q (l ++ l') -> q l /\ q l'.
Lemma kept_same {A} (m : M A) : kept q m m.
Proof. intros a _ _. reflexivity. Qed.
Lemma kept_fail {A} e (m' : M A) : kept q (fail e) m'.
Proof. intros a H. discriminate. Qed.
Lemma kept_bind {A B} (m m' : M A) (k k' : A -> M B) :
  kept q m m' -> (forall a, snd m = Done a -> kept q (k a) (k' a)) -> kept q (mbind m k) (mbind m' k').
Proof.
  intros Hm Hk b H Hq. unfold mbind in *. destruct (snd m) as [a|e|] eqn:Em; try discriminate.
  cbn [fst snd] in *. apply q_app in Hq as [Hq1 Hq2].
  rewrite (Hm a Em Hq1). rewrite Em. now rewrite (Hk a eq_refl b H Hq2).
Qed.
Lemma kept_bind_same {A B} (m : M A) (k k' : A -> M B) :
  (forall a, snd m = Done a -> kept q (k a) (k' a)) -> kept q (mbind m k) (mbind m k').
Proof. intros H. apply kept_bind; [apply kept_same|exact H]. Qed.
Lemma kept_map {A B} (g g' : A -> M B) l :
  (forall x, In x l -> kept q (g x) (g' x)) -> kept q (mmap g l) (mmap g' l).
Proof.
  induction l as [|x l IH]; intros H; [apply kept_same|]. cbn [mmap].
  apply kept_bind; [apply H; now left|]. intros y _. apply kept_bind; [apply IH; intros; apply H; now right|].
  intros ys _. apply kept_same.
Qed.
Lemma kept_try {A} (m m' : M A) h h' :
  kept q m m' -> (forall e a, snd (h e) <> Done a) -> kept q (mtry m h) (mtry m' h').
Proof.
  intros Hm Hh a H Hq. unfold mtry in *. destruct (snd m) as [b|e|] eqn:Em.
  - rewrite (Hm b Em Hq). now rewrite Em.
  - cbn [snd] in H. now apply Hh in H.
  - rewrite Em in H. discriminate.
Qed.
End Kept.

Section Dump.
Variables (E : env) (f : nat) (o0 : sopts).
Let CT := e_ct E.
Hypothesis Hnoticed : noticed E f o0.
Definition quiet (l : list ev) : Prop := so_strict o0 = true \/ ~ In (left_out f) l.
Lemma quiet_app l l' : quiet (l ++ l') -> quiet l /\ quiet l'.
Proof. intros [H|H]; [split; now left|]. split; right; intros X; apply H; apply in_or_app; auto. Qed.
Notation kept := (kept quiet).
Variable V : option ty -> value -> Prop.
Notation sr := (serializer E f).
Hypothesis Velem : forall c x l y t, V c x -> iterates (sr c x) ->
  py_iter (e_rt E) x = Ok l -> In y l -> elem_type E o0 c x t -> V t y.
Hypothesis Vvalue : forall c x k y t, V c x -> sr c x = Some SDict -> py_getitem CT x k = Ok y ->
  (t = None \/ exists k' u, t = Some u /\ In (k', u) (so_types o0)) -> V t y.
Hypothesis Vattr : forall c x a y t, V c x ->
  (sr c x = Some SObject \/ sr c x = Some STuple) -> get_attr E x a = Ok y ->
  (t = None \/ exists i u, (c = Some (TClass i) \/ class_of x = TClass i) /\ t = Some u /\
                           In (a, u) (ci_hints (CT i))) -> V t y.
Hypothesis Voff : forall c off name, V c (VLeaf (LTimezone off name)) ->
  sr c (VLeaf (LTimezone off name)) = Some STimezone -> V c (VLeaf (LTimedelta off)).
Hypothesis Vunion : forall c x, V c x -> sr c x <> Some SUnion.
Definition okc (o : sopts) : Prop :=
  so_strict o = so_strict o0 /\ forall k t, In (k, t) (so_types o) -> In (k, t) (so_types o0).
Lemma okc_store o b : okc o -> okc (set_store b o).
Proof. intros H. exact H. Qed.
Lemma okc_types o : okc o -> okc (no_types o).
Proof. intros [H _]. split; [exact H|]. intros k t []. Qed.

Variables ser ser' : sopts -> option shandler -> option ty -> value -> M value.
Hypothesis Hser : forall o cls v, okc o -> V cls v ->
  kept (ser o (sr cls v) cls v) (ser' o (sr cls v) cls v).
Ltac kb := apply (kept_bind _ quiet_app).
Ltac kbs := apply (kept_bind_same _ quiet_app).

Lemma dump_kept o cls v : okc o -> V cls v -> kept (dump_ E f ser o cls v) (dump_ E f ser' o cls v).
Proof.
  intros Ho Hq. unfold dump_. kbs. intros u _. apply kept_try; [apply (Hser o cls v Ho Hq)|]. intros e a. discriminate.
Qed.
Lemma list_kept {A} (g g' : A -> M value) l : (forall x, In x l -> kept (g x) (g' x)) ->
  kept (dom r <- mmap g l; ret (VList r)) (dom r <- mmap g' l; ret (VList r)).
Proof. intros H. kb; [apply (kept_map _ quiet_app); exact H|]. intros a _. apply kept_same. Qed.
Lemma ser_list_kept o cls v : okc o -> V cls v -> sr cls v = Some SList ->
  kept (ser_list E f ser o cls v) (ser_list E f ser' o cls v).
Proof.
  intros Ho Hq Hs. assert (Hit : iterates (sr cls v)) by (now left).
  unfold ser_list. destruct (negb (truthy (e_rt E) v)); [apply kept_same|].
  cbv zeta. destruct (get_args cls) as [|t ts] eqn:Ea.
  - destruct (so_strict o) eqn:Est.
    + kbs. intros x0 H0. apply lift_done in H0.
      kbs. intros l Hl. apply lift_done in Hl. apply list_kept. intros x Hx.
      apply (Hser (set_store false o) (Some (class_of x0)) x); [now apply okc_store|].
      eapply Velem; [eassumption..|]. eapply et_first; [|exact H0]. destruct Ho as [<- _]. exact Est.
    + kbs. intros l Hl. apply lift_done in Hl. apply list_kept. intros x Hx.
      apply (dump_kept (set_store false o) None x); [now apply okc_store|].
      eapply Velem; [eassumption..|]. constructor.
  - kbs. intros l Hl. apply lift_done in Hl. apply list_kept. intros x Hx.
    apply (Hser (set_store false o) (Some t) x); [now apply okc_store|].
    eapply Velem; [eassumption..|]. apply et_arg. rewrite Ea. now left.
Qed.
Lemma ser_iterable_kept o c cls v : okc o -> V c v -> iterates (sr c v) ->
  (forall t, In t (get_args cls) -> In t (get_args c)) ->
  kept (ser_iterable E f ser o cls v) (ser_iterable E f ser' o cls v).
Proof.
  intros Ho Hq Hit Hc. unfold ser_iterable. cbv zeta.
  kbs. intros l Hl. apply lift_done in Hl. kbs. intros cls_ Hcls. apply lift_done in Hcls.
  kbs. intros subs Hsubs. apply lift_done in Hsubs.
  assert (Hc' : forall t, In t (get_args cls_) -> elem_type E o0 c v (Some t)).
  { destruct (so_strict o) eqn:Est; [|inversion Hcls; subst; intros t []].
    assert (Est0 : so_strict o0 = true) by (destruct Ho as [<- _]; exact Est).
    unfold determine_cls in Hcls.
    destruct cls as [c'|]; [inversion Hcls; subst; intros; apply et_arg; auto|].
    assert (Ht : forall y, slice1 v y -> forall t, In t (get_args (Some (rt_type (e_rt E) y))) ->
                   elem_type E o0 c v (Some t)) by (intros y Hy t Ht; eapply et_typish; eassumption).
    destruct v as [| | | |[|ch s]|[|x l1]|[|x l1]|[] [|x l1]|k [|x l1]| | |c' [|x l1]|];
      inversion Hcls; subst; try (intros t []); apply Ht; constructor. }
  apply list_kept. intros [x c1] Hin. cbn [fst snd].
  apply (dump_kept (set_store false o) c1 x); [now apply okc_store|].
  eapply Velem; [eassumption..| |].
  - apply in_combine_l in Hin. exact Hin.
  - apply in_combine_r in Hin. destruct c1 as [t|]; [|constructor].
    unfold get_subclasses in Hsubs. destruct (get_args cls_) as [|t1 [|t2 ts]] eqn:Ea.
    + inversion Hsubs; subst. apply repeat_spec in Hin. discriminate.
    + inversion Hsubs; subst. apply repeat_spec in Hin. inversion Hin; subst. apply Hc'. now left.
    + destruct (Nat.eqb _ _); [|discriminate]. inversion Hsubs; subst.
      change (Some t1 :: Some t2 :: map Some ts) with (map Some (t1 :: t2 :: ts)) in Hin.
      apply in_map_iff in Hin as (t' & Et & Hin). inversion Et; subst. apply Hc'. exact Hin.
Qed.
Lemma ser_tuple_kept o cls v : okc o -> V cls v -> sr cls v = Some STuple ->
  kept (ser_tuple E f ser o cls v) (ser_tuple E f ser' o cls v).
Proof.
  intros Ho Hq Hs. assert (Hit : iterates (sr cls v)) by (now right; right; left).
  assert (Hn : kept (ser_iterable E f ser o None v) (ser_iterable E f ser' o None v))
    by (eapply ser_iterable_kept; [exact Ho|exact Hq|exact Hit|intros t []]).
  assert (Hnt : forall i, kept (ser_namedtuple E f ser o i v) (ser_namedtuple E f ser' o i v)).
  { intros i. unfold ser_namedtuple. kb; [|intros r _; apply kept_same].
    apply (kept_map _ quiet_app). intros a Ha. kbs. intros x Hx. apply lift_done in Hx.
    kb; [|intros d _; apply kept_same]. apply dump_kept; [exact Ho|].
    eapply Vattr; [exact Hq|now right|exact Hx|now left]. }
  assert (Ht : forall t, cls = Some t -> kept
     (match raw_args t with
      | None => fail (exn_of KAttribute)
      | Some args =>
          if ty_eqb TEllipsis (last args TAny) then
            dom l <- lift (py_iter (e_rt E) v);
            ser_iterable E f ser o (Some (TApp true HTuple (repeat (hd TAny args) (length l)))) v
          else ser_iterable E f ser o (Some t) v
      end)
     (match raw_args t with
      | None => fail (exn_of KAttribute)
      | Some args =>
          if ty_eqb TEllipsis (last args TAny) then
            dom l <- lift (py_iter (e_rt E) v);
            ser_iterable E f ser' o (Some (TApp true HTuple (repeat (hd TAny args) (length l)))) v
          else ser_iterable E f ser' o (Some t) v
      end)).
  { intros t ->. destruct (raw_args t) as [args|] eqn:Ea; [|apply kept_same].
    destruct (ty_eqb TEllipsis (last args TAny)) eqn:El.
    - kbs. intros l Hl. eapply ser_iterable_kept; [exact Ho|exact Hq|exact Hit|].
      intros t' Ht'. assert (t' = hd TAny args) as ->.
      { cbn in Ht'. destruct (repeat (hd TAny args) (length l)) eqn:Er; [destruct Ht'|].
        rewrite <- Er in Ht'. now apply repeat_spec in Ht'. }
      cbn. rewrite Ea. destruct args; [discriminate|]. now left.
    - eapply ser_iterable_kept; [exact Ho|exact Hq|exact Hit|]. auto. }
  unfold ser_tuple. destruct v; destruct cls as [t|];
    first [exact Hn | exact (Ht t eq_refl) | apply Hnt].
Qed.
Lemma ser_dict_go_kept o c v : okc o -> V c v -> sr c v = Some SDict -> forall keys acc,
  (forall k, In k keys -> V None k) ->
  kept (ser_dict_go E f ser o v keys acc) (ser_dict_go E f ser' o v keys acc).
Proof.
  intros Ho Hq Hs. induction keys as [|key keys IH]; intros acc Hk; cbn [ser_dict_go]; [apply kept_same|].
  assert (Hk' : forall k, In k keys -> V None k) by (intros; apply Hk; now right).
  kbs. intros x Hx. apply lift_done in Hx. kb.
  { unfold store_and_hash. destruct (json_key (e_ct E) key); [apply kept_same|].
    kb; [apply dump_kept; [exact Ho|apply Hk; now left]|]. intros dk _. apply kept_same. }
  intros [res1 k1] _. cbn [fst snd]. kb.
  { apply dump_kept; [now apply okc_types|]. eapply Vvalue; [exact Hq|exact Hs|exact Hx|].
    destruct (aget py_eqb key (so_types o)) as [u|] eqn:Et; [right|now left].
    apply aget_In' in Et as [k' Hin]. exists k', u. split; [reflexivity|]. now apply (proj2 Ho). }
  intros d _. destruct (so_strip_nulls o && is_none d); [now apply IH|].
  kbs. intros k2 _. now apply IH.
Qed.
Lemma ser_dict_kept o c v : okc o -> V c v -> sr c v = Some SDict ->
  kept (ser_dict E f ser o v) (ser_dict E f ser' o v).
Proof.
  intros Ho Hq Hs. unfold ser_dict. kbs. intros keys Hk. apply lift_done in Hk.
  kb; [|intros d _; apply kept_same]. eapply ser_dict_go_kept; [exact Ho|exact Hq|exact Hs|].
  intros k Hin. eapply Velem; [exact Hq|right; right; now right|exact Hk|exact Hin|constructor].
Qed.
Lemma do_serialize_kept o public v : okc o -> forall attrs acc,
  (forall a t x, In (a, t) attrs -> get_attr E v a = Ok x -> V t x) ->
  kept (do_serialize E f ser o public v attrs acc) (do_serialize E f ser' o public v attrs acc).
Proof.
  intros Ho. induction attrs as [|[a c] attrs IH]; intros acc Ha; cbn [do_serialize]; [apply kept_same|].
  kbs. intros x Hx. apply lift_done in Hx. cbv zeta. kbs. intros u _.
  assert (Ha' : forall a t x, In (a, t) attrs -> get_attr E v a = Ok x -> V t x)
    by (intros a' t' x' Hin; apply (Ha a'); now right).
  assert (Hx' : kept (ser o (sr c x) c x) (ser' o (sr c x) c x))
    by (apply (Hser o c x Ho); eapply (Ha a); [now left|exact Hx]).
  change (e_ser E f match c with Some t => t | None => class_of x end) with (sr c x).
  intros r H Hq. unfold mbind at 1 in H. unfold mcatch in H.
  assert (Hcase : forall m : M value, snd (dom d <- m; ret (store_cls_info E (so_store_cls o) d x)) =
    match snd m with
    | Done d => Done (store_cls_info E (so_store_cls o) d x) | Fail e => Fail e | Oof => Oof end)
    by (intros m; unfold mbind; destruct (snd m); reflexivity).
  destruct (snd (ser o (sr c x) c x)) as [d|e|] eqn:Es.
  - (* the attribute is dumped *)
    assert (Hk : kept
      (dom r0 <- mcatch (dom d <- ser o (sr c x) c x; ret (store_cls_info E (so_store_cls o) d x));
       match r0 with
       | inl d0 => let name := if public then strip_us a else a in
           if so_strip_nulls o && is_none d0 then do_serialize E f ser o public v attrs acc
           else dom k <- lift (apply_kt (e_ct E) (so_kt o) (VStr name));
                do_serialize E f ser o public v attrs (dset k d0 acc)
       | inr e => if so_strict o then fail (exn_of (if e_noargs e then KIndex else KSer))
                  else if e_noargs e then fail (exn_of KIndex)
                  else dom _ <- warn E f "attribute-not-serialized"; ret acc
       end)
      (dom r0 <- mcatch (dom d <- ser' o (sr c x) c x; ret (store_cls_info E (so_store_cls o) d x));
       match r0 with
       | inl d0 => let name := if public then strip_us a else a in
           if so_strip_nulls o && is_none d0 then do_serialize E f ser' o public v attrs acc
           else dom k <- lift (apply_kt (e_ct E) (so_kt o) (VStr name));
                do_serialize E f ser' o public v attrs (dset k d0 acc)
       | inr e => if so_strict o then fail (exn_of (if e_noargs e then KIndex else KSer))
                  else if e_noargs e then fail (exn_of KIndex)
                  else dom _ <- warn E f "attribute-not-serialized"; ret acc
       end)).
    { kb.
      - intros r1 H1 Hq1. unfold mcatch in *. rewrite Hcase, Es in H1. rewrite !Hcase, Es. cbn [fst] in *.
        rewrite Hcase, Es in Hq1. cbn [fst] in Hq1.
        assert (Hq2 : quiet (fst (ser o (sr c x) c x))).
        { unfold mbind in Hq1. rewrite Es in Hq1. cbn [fst] in Hq1. now apply quiet_app in Hq1. }
        rewrite (Hx' d Es Hq2), Es. reflexivity.
      - intros [d1|e1] _; [|apply kept_same]. cbv zeta.
        destruct (so_strip_nulls o && is_none d1); [now apply IH|]. kbs. intros k2 _. now apply IH. }
    apply (Hk r); [|exact Hq]. unfold mbind at 1, mcatch. exact H.
  - (* the attribute fails *)
    exfalso. unfold mbind at 1, mcatch in Hq. rewrite !Hcase, Es in H, Hq. cbn [snd fst] in H, Hq.
    destruct (so_strict o) eqn:Est; [discriminate|]. destruct (e_noargs e); [discriminate|].
    destruct Hq as [Hq|Hq]; [destruct Ho as [Ho _]; congruence|]. apply Hq.
    destruct Hnoticed as [Hst|Hw]; [destruct Ho as [Ho _]; congruence|].
    apply in_or_app. right. unfold warn. rewrite Hw. left. reflexivity.
  - rewrite !Hcase, Es in H. discriminate.
Qed.
Lemma ser_object_kept o cls v : okc o -> V cls v -> sr cls v = Some SObject ->
  kept (ser_object E f ser o cls v) (ser_object E f ser' o cls v).
Proof.
  intros Ho Hq Hs. unfold ser_object. kbs. intros attrs Ha. apply lift_done in Ha. cbv zeta.
  kb; [|intros d _; apply kept_same]. apply do_serialize_kept.
  - exact Ho.
  - eapply (object_attrs_visited E f V Vattr); eassumption.
Qed.
Lemma ser_step_kept o cls v : okc o -> V cls v ->
  kept (ser_step E f ser o (sr cls v) cls v) (ser_step E f ser' o (sr cls v) cls v).
Proof.
  intros Ho Hq. unfold ser_step. destruct (sr cls v) as [h|] eqn:Eh; [|apply kept_same].
  destruct h; try apply kept_same; eauto using ser_list_kept, ser_tuple_kept, ser_dict_kept, ser_object_kept.
  - destruct v as [| | | | | | | | |x| | |]; try apply kept_same. destruct x; try apply kept_same.
    kb; [|intros d _; apply kept_same]. apply dump_kept; [exact Ho|eauto].
  - eapply ser_iterable_kept; [exact Ho|exact Hq| |auto]. rewrite Eh. right. now left.
  - exfalso. eapply Vunion; eassumption.
Qed.
End Dump.

Lemma cut_serialize_kept E f o0 cls0 v0 cut : noticed E f o0 -> no_unions E f o0 cls0 v0 ->
  forall n o cls v, okc o0 o -> visits E f o0 cls0 v0 cls v ->
  kept (quiet f o0) (cut_serialize E f cut n o (serializer E f cls v) cls v)
       (serialize E f n o (serializer E f cls v) cls v).
Proof.
  intros Hn Hu. induction n as [|n IH]; intros o cls v Ho Hq; cbn [cut_serialize serialize]; [apply kept_fail|].
  destruct (cut n o (serializer E f cls v) cls v); [apply kept_fail|].
  apply (ser_step_kept E f o0 Hn (visits E f o0 cls0 v0)); eauto using visits.
Qed.
Lemma cut_dump_kept E f cut n o cls v d :
  noticed E f o -> no_unions E f o cls v ->
  snd (cut_dump E f cut n o cls v) = Done d ->
  so_strict o = true \/ ~ In (left_out f) (fst (cut_dump E f cut n o cls v)) ->
  dump E f n o cls v = cut_dump E f cut n o cls v.
Proof.
  intros Hn Hu H Hq. unfold cut_dump in *. unfold dump.
  refine (dump_kept E f o (visits E f o cls v) (cut_serialize E f cut n) (serialize E f n) _ o cls v _ _ d H Hq).
  - intros o' c x Ho Hx. now apply (cut_serialize_kept E f o cls v).
  - split; [reflexivity|auto].
  - apply visit_root.
Qed.
Lemma cut_dump_strict E f cut n o cls v d :
  so_strict o = true -> no_unions E f o cls v ->
  snd (cut_dump E f cut n o cls v) = Done d -> snd (dump E f n o cls v) = Done d.
Proof. intros Hs Hu H. rewrite <- H. f_equal. eapply cut_dump_kept; eauto. now left. Qed.

(** ** Outcomes *)
Definition ends {A} (m : M A) : Prop := snd m <> Oof.
Lemma ends_bind {A B} (m : M A) (k : A -> M B) : ends m -> (forall a, ends (k a)) -> ends (mbind m k).
Proof. unfold ends, mbind. intros H Hk. destruct (snd m); [apply Hk|discriminate|contradiction]. Qed.
Lemma ends_lift {A} (r : res A) : ends (lift r).
Proof. destruct r; discriminate. Qed.
Lemma ends_try {A} (m : M A) h : ends m -> (forall e, ends (h e)) -> ends (mtry m h).
Proof. unfold ends, mtry. intros H Hh. destruct (snd m) eqn:Em; [rewrite Em; exact H|apply Hh|contradiction]. Qed.
Lemma ends_catch {A} (m : M A) : ends m -> ends (mcatch m).
Proof. unfold ends, mcatch. intros H. destruct (snd m); [discriminate..|contradiction]. Qed.
Lemma ends_map {A B} (g : A -> M B) l : (forall x, ends (g x)) -> ends (mmap g l).
Proof.
  intros H. induction l as [|x l IH]; cbn [mmap]; [discriminate|].
  apply ends_bind; [apply H|]. intros y. apply ends_bind; [exact IH|]. discriminate.
Qed.
Lemma ends_warn E f c : ends (warn E f c).
Proof. unfold warn. destruct (e_warn E f c); discriminate. Qed.
Ltac fin := repeat match goal with
  | |- ends (mbind _ _) => apply ends_bind; [|intros]
  | |- ends (lift _) => apply ends_lift
  | |- ends (mmap _ _) => apply ends_map; intros
  | |- ends (warn _ _ _) => apply ends_warn
  | |- ends (ret _) => discriminate
  | |- ends (fail _) => discriminate
  | |- ends (match ?x with _ => _ end) => destruct x
  end.
Section Ends.
Variables (E : env) (f : nat) (ser : sopts -> option shandler -> option ty -> value -> M value).
Hypothesis Hser : forall o h c v, ends (ser o h c v).
Lemma ends_dump o c v : ends (dump_ E f ser o c v).
Proof. unfold dump_. apply ends_bind; [discriminate|]. intros _. apply ends_try; [apply Hser|]. discriminate. Qed.
Lemma ends_iterable o c v : ends (ser_iterable E f ser o c v).
Proof. unfold ser_iterable. cbv zeta. fin. apply ends_dump. Qed.
Lemma ends_step o h c v : ends (ser_step E f ser o h c v).
Proof.
  destruct h as [h|]; [|discriminate]. destruct h; cbn [ser_step]; try (unfold ser_time_like; fin; fail).
  - assert (Hnt : forall i, ends (ser_namedtuple E f ser o i v)) by (intros i; unfold ser_namedtuple; fin; apply ends_dump).
    unfold ser_tuple. destruct v; destruct c as [t|]; fin; try apply Hnt; apply ends_iterable.
  - destruct v as [| | | | | | | | |x| | |]; fin. apply ends_dump.
  - unfold ser_dict. apply ends_bind; [apply ends_lift|]. intros keys. apply ends_bind; [|discriminate].
    generalize (@nil (value * value)). induction keys as [|k keys IH]; intros acc; cbn [ser_dict_go]; [discriminate|].
    apply ends_bind; [apply ends_lift|]. intros x. apply ends_bind.
    { unfold store_and_hash. destruct (json_key (e_ct E) k); [discriminate|]. apply ends_bind; [apply ends_dump|]. intros dk. cbv zeta. fin. }
    intros rk. apply ends_bind; [apply ends_dump|]. intros d. destruct (so_strip_nulls o && is_none d); [apply IH|].
    apply ends_bind; [apply ends_lift|]. intros k'. apply IH.
  - unfold ser_list. cbv zeta. fin; first [apply Hser | apply ends_dump].
  - apply ends_iterable.
  - unfold ser_object. apply ends_bind; [apply ends_lift|]. intros attrs. cbv zeta. apply ends_bind; [|intros; fin].
    generalize (@nil (value * value)).
    induction attrs as [|[a c1] attrs IH]; intros acc; cbn [do_serialize]; [discriminate|].
    apply ends_bind; [apply ends_lift|]. intros x. cbv zeta. apply ends_bind; [discriminate|]. intros u.
    apply ends_bind; [apply ends_catch; apply ends_bind; [apply Hser|discriminate]|].
    intros [d|e]; [|fin].
    match goal with |- ends (if ?x then _ else _) => destruct x end; [apply IH|].
    apply ends_bind; [apply ends_lift|]. intros k'. apply IH.
  - unfold ser_union. destruct (match c with Some t => raw_args t | None => None end) as [ts|]; [|discriminate].
    destruct (is_none v && existsb (ty_eqb TNoneT) ts); [discriminate|].
    induction ts as [|t ts IH]; cbn [ser_union_go]; [discriminate|]. apply ends_try; [apply ends_dump|].
    intros e. destruct (is_jsons (e_kind e)); [exact IH|discriminate].
Qed.
End Ends.
Lemma cut_serialize_ends E f cut n : forall o h c v, ends (cut_serialize E f cut n o h c v).
Proof.
  induction n as [|n IH]; intros o h c v; cbn [cut_serialize]; [discriminate|].
  destruct (cut n o h c v); [discriminate|]. now apply ends_step.
Qed.
Lemma cut_dump_outcome E f cut n o cls v :
  (exists d, snd (cut_dump E f cut n o cls v) = Done d) \/ snd (cut_dump E f cut n o cls v) = Fail (exn_of KSer).
Proof.
  pose proof (ends_dump E f _ (cut_serialize_ends E f cut n) o cls v) as He. fold (cut_dump E f cut n o cls v) in He.
  destruct (snd (cut_dump E f cut n o cls v)) as [d|e|] eqn:Es; [left; eauto| |contradiction].
  right. unfold cut_dump, dump_ in Es. unfold mbind in Es. cbn [snd emit] in Es. unfold wrap_ser, mtry in Es.
  destruct (snd (cut_serialize _ _ _ _ _ _ _ _)) as [a|e'|] eqn:Ec; cbn [snd] in Es; try congruence.
  now injection Es as <-.
Qed.
Lemma cut_dump_too_deep E f cut n o cls v :
  so_strict o = true -> no_unions E f o cls v -> snd (dump E f n o cls v) = Oof ->
  snd (cut_dump E f cut n o cls v) = Fail (exn_of KSer).
Proof.
  intros Hs Hu Ho. destruct (cut_dump_outcome E f cut n o cls v) as [[d Hd]|H]; [|exact H].
  apply cut_dump_strict in Hd; auto. congruence.
Qed.
(** ** Both cases together *)
Lemma in_dec_events (e : ev) l : {In e l} + {~ In e l}.
Proof.
  apply in_dec. intros x y. decide equality; try apply string_dec; try apply Nat.eq_dec.
  destruct (ty_eqb t t0) eqn:Et; [left; now apply ty_eqb_eq|right; now apply ty_eqb_neq].
Qed.
Lemma cut_dump_or_warning E f cut n o cls v d :
  noticed E f o -> no_unions E f o cls v -> snd (cut_dump E f cut n o cls v) = Done d ->
  dump E f n o cls v = cut_dump E f cut n o cls v \/
  (so_strict o = false /\ In (left_out f) (fst (cut_dump E f cut n o cls v))).
Proof.
  intros Hn Hu H. destruct (so_strict o) eqn:Es; [left; eapply cut_dump_kept; eauto|].
  destruct (in_dec_events (left_out f) (fst (cut_dump E f cut n o cls v))) as [Hi|Hi]; [now right|].
  left. eapply cut_dump_kept; eauto.
Qed.
Lemma cut_dump_deep_or_warning E f cut n o cls v :
  noticed E f o -> no_unions E f o cls v -> snd (dump E f n o cls v) = Oof ->
  snd (cut_dump E f cut n o cls v) = Fail (exn_of KSer) \/
  (so_strict o = false /\ In (left_out f) (fst (cut_dump E f cut n o cls v))).
Proof.
  intros Hn Hu H. destruct (cut_dump_outcome E f cut n o cls v) as [[d Hd]|Hf]; [|now left].
  destruct (cut_dump_or_warning E f cut n o cls v d Hn Hu Hd) as [X|X]; [congruence|now right].
Qed.
