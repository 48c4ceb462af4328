(** * Dumping with several tasks: proofs *)
From Coq Require Import Lia.
From Verif Require Import PyBaseFacts MultitaskProofs ParallelProofs.
From Verif Require Export ParallelDumpSpec DumpLaws AttrFacts.
Local Open Scope string_scope.

(** ** Two runs with the same outcome
    [any]: the schedules are arbitrary, so that the second may be unfinished. *)
Definition par {A} (any : bool) (m m' : M A) : Prop :=
  snd m' = snd m \/ (any = true /\ snd m' = Oof).
Lemma par_same {A} any (m : M A) : par any m m.
Proof. now left. Qed.
Lemma par_bind {A B} any (m m' : M A) (k k' : A -> M B) :
  par any m m' -> (forall a, snd m = Done a -> par any (k a) (k' a)) -> par any (mbind m k) (mbind m' k').
Proof.
  intros [H|[Ha H]] Hk; unfold mbind; rewrite H.
  - destruct (snd m) as [a|e|] eqn:Em; [|left; reflexivity|left; reflexivity].
    destruct (Hk a eq_refl) as [H'|[Ha H']]; [left|right; split; [exact Ha|]]; exact H'.
  - right. split; [exact Ha|reflexivity].
Qed.
Lemma par_bind_same {A B} any (m : M A) (k k' : A -> M B) :
  (forall a, snd m = Done a -> par any (k a) (k' a)) -> par any (mbind m k) (mbind m k').
Proof. intros H. apply par_bind; [apply par_same|exact H]. Qed.
Lemma par_try {A} any (m m' : M A) h h' :
  par any m m' -> (forall e, par any (h e) (h' e)) -> par any (mtry m h) (mtry m' h').
Proof.
  intros [H|[Ha H]] Hh; unfold mtry; rewrite H.
  - destruct (snd m) as [a|e|] eqn:Em.
    + left. rewrite Em. exact H.
    + destruct (Hh e) as [H'|[Ha H']]; [left|right; split; [exact Ha|]]; exact H'.
    + left. rewrite Em. exact H.
  - right. split; [exact Ha|exact H].
Qed.
Lemma par_catch {A} any (m m' : M A) : par any m m' -> par any (mcatch m) (mcatch m').
Proof.
  intros [H|[Ha H]]; unfold mcatch; rewrite H.
  - left. now destruct (snd m).
  - right. split; [exact Ha|reflexivity].
Qed.
Lemma par_map {A B} any (g g' : A -> M B) l :
  (forall x, In x l -> par any (g x) (g' x)) -> par any (mmap g l) (mmap g' l).
Proof.
  induction l as [|x l IH]; intros H; [apply par_same|]. cbn [mmap].
  apply par_bind; [apply H; now left|]. intros y _. apply par_bind; [apply IH; intros; apply H; now right|].
  intros ys _. apply par_same.
Qed.

(** ** Sharing out a list *)
Section Share.
Context {A : Type}.
Variable call : A -> M value.
Variables (k : Z) (K : nat) (s : list action) (any : bool) (zs : list A).
Hypothesis Hk : (1 < k <= Z.of_nat K)%Z.
Hypothesis Hs : any = false -> fair_schedule K (2 * length zs + K) s.
Let shared : M (list value) :=
  if existsb (fun z => is_oof (call z)) zs then oof
  else match multi_task (fun _ z => to_res (call z)) (VInt 0) zs (Z.to_nat k) s with
       | Some r => lift r
       | None => oof
       end.
Lemma mmap_oof (g : A -> M value) l : snd (mmap g l) = Oof -> exists z, In z l /\ snd (g z) = Oof.
Proof.
  induction l as [|z l IH]; cbn [mmap]; [discriminate|]. unfold mbind.
  destruct (snd (g z)) as [a|e|] eqn:Ez; [|discriminate|intros _; exists z; split; [now left|exact Ez]].
  destruct (snd (mmap g l)) as [a'|e|] eqn:El; cbn; try discriminate.
  intros _. destruct (IH eq_refl) as (z' & Hin & Hz). exists z'. split; [now right|exact Hz].
Qed.
Lemma share_par : zs <> [] -> (forall e, snd (mmap call zs) <> Fail e) -> par any (mmap call zs) shared.
Proof.
  intros Hz Hf. unfold shared. destruct (snd (mmap call zs)) as [ys|e|] eqn:Em; [|now elim (Hf e)|].
  - apply mmap_done in Em as Hys.
    assert (Hdone : forall z, In z zs -> exists y, snd (call z) = Done y).
    { clear -Hys. intros z Hin. induction Hys as [|z' y l l' H HH IH]; [destruct Hin|].
      destruct Hin as [->|Hin]; [eauto|auto]. }
    assert (Eo : existsb (fun z => is_oof (call z)) zs = false).
    { apply not_true_iff_false. intros X. apply existsb_exists in X as (z & Hin & X).
      destruct (Hdone z Hin) as (y & Hy). unfold is_oof in X. rewrite Hy in X. discriminate. }
    rewrite Eo.
    assert (Hmap : map (fun z => match snd (call z) with Done y => y | _ => VNone end) zs = ys).
    { clear -Hys. induction Hys as [|z y l l' H HH IH]; [reflexivity|]. cbn [map]. rewrite H. congruence. }
    assert (Hfin : any = false -> exists r,
              multi_task (fun _ z => to_res (call z)) (VInt 0) zs (Z.to_nat k) s = Some (Ok r)).
    { intros Ha. apply (fair_finishes _ _ _ _ K); [lia|exact Hz|auto]. }
    destruct (multi_task (fun _ z => to_res (call z)) (VInt 0) zs (Z.to_nat k) s) as [[r|e]|] eqn:Er.
    + left. cbn. rewrite Em. f_equal. rewrite <- Hmap. eapply multi_task_correct; [|exact Er].
      intros t z Hin. cbn beta. destruct (Hdone z Hin) as (y & Hy). unfold to_res. now rewrite Hy.
    + apply multi_task_never_fails in Er as [[H|H] _]; [contradiction|lia].
    + right. split; [|reflexivity]. destruct any; [reflexivity|]. destruct (Hfin eq_refl) as (r & Hr). discriminate.
  - left. rewrite Em. apply mmap_oof in Em as (z & Hin & Hzo).
    replace (existsb (fun z => is_oof (call z)) zs) with true; [reflexivity|].
    symmetry. apply existsb_exists. exists z. split; [exact Hin|]. unfold is_oof. now rewrite Hzo.
Qed.
End Share.

(** ** Options *)
Lemma normalize_twice a : normalize_strip_attr (normalize_strip_attr a) = normalize_strip_attr a.
Proof. destruct a as [|s|l|l]; try reflexivity; [destruct s; reflexivity|destruct l; reflexivity]. Qed.
Lemma variant_refl o : variant o o.
Proof. exists (so_store_cls o), (so_types o), (so_attr o). split; [now left|]. split; [now left|]. now destruct o. Qed.
Lemma variant_types o o' : variant o o' -> variant o (no_types o').
Proof.
  intros (s & t & a & Ht & Ha & ->). exists s, [], a. split; [now right|]. split; [exact Ha|]. reflexivity.
Qed.
Lemma variant_store o o' b : variant o o' -> variant o (set_store b o').
Proof.
  intros (s & t & a & Ht & Ha & ->). exists b, t, a. split; [exact Ht|]. split; [exact Ha|]. reflexivity.
Qed.
Lemma variant_attr o o' : variant o o' -> variant o (set_attr_opt (normalize_strip_attr (so_attr o')) o').
Proof.
  intros (s & t & a & Ht & Ha & ->). exists s, t, (normalize_strip_attr a). split; [exact Ht|].
  split; [|reflexivity]. right. destruct Ha as [-> | ->]; [reflexivity|apply normalize_twice].
Qed.
Lemma variant_strict o o' : variant o o' -> so_strict o' = so_strict o.
Proof. intros (s & t & a & _ & _ & ->). reflexivity. Qed.
Lemma variant_In o o' k t : variant o o' -> In (k, t) (so_types o') -> In (k, t) (so_types o).
Proof. intros (s & ts & a & [-> | ->] & _ & ->); [auto|intros []]. Qed.

(** ** One step, apart from what is shared out *)
Section Step.
Variables (E : env) (f : nat) (o0 : sopts) (any : bool).
Let CT := e_ct E.
Variable V : option ty -> value -> Prop.
Notation sr := (serializer E f).
Hypothesis Velem : forall c x l y t, V c x -> sr c x = Some SList \/ sr c x = Some SDict ->
  py_iter (e_rt E) x = Ok l -> In y l -> elem_type E o0 c x t -> V t y.
Hypothesis Vvalue : forall c x k y t, V c x -> sr c x = Some SDict -> py_getitem CT x k = Ok y ->
  (t = None \/ exists k' u, t = Some u /\ In (k', u) (so_types o0)) -> V t y.
Hypothesis Vattr : forall c x a y t, V c x ->
  (sr c x = Some SObject \/ sr c x = Some STuple /\ exists i l, x = VNT i l) -> get_attr E x a = Ok y ->
  (t = None \/ exists i u, (c = Some (TClass i) \/ class_of x = TClass i) /\ t = Some u /\
                           In (a, u) (ci_hints (CT i))) -> V t y.
Hypothesis Valt : forall c x t, V c x -> sr c x = Some SUnion -> In t (get_args c) ->
  (x = VNone -> ~ In TNoneT (get_args c)) -> V (Some t) x.
Hypothesis Voff : forall c off name, V c (VLeaf (LTimezone off name)) ->
  sr c (VLeaf (LTimezone off name)) = Some STimezone -> V c (VLeaf (LTimedelta off)).

Variables ser ser' : sopts -> option shandler -> option ty -> value -> M value.
Hypothesis Hser : forall o cls v, variant o0 o -> V cls v ->
  par any (ser o (sr cls v) cls v) (ser' o (sr cls v) cls v).

Lemma dump_par o cls v : variant o0 o -> V cls v -> par any (dump_ E f ser o cls v) (dump_ E f ser' o cls v).
Proof.
  intros Ho Hq. unfold dump_. apply par_bind_same. intros u _.
  apply par_try; [apply (Hser o cls v Ho Hq)|]. intros e. apply par_same.
Qed.
Lemma list_par {A} (g g' : A -> M value) l : (forall x, In x l -> par any (g x) (g' x)) ->
  par any (dom r <- mmap g l; ret (VList r)) (dom r <- mmap g' l; ret (VList r)).
Proof. intros H. apply par_bind; [apply par_map; exact H|]. intros a _. apply par_same. Qed.
Lemma ser_list_par o cls v : variant o0 o -> V cls v -> sr cls v = Some SList ->
  par any (ser_list E f ser o cls v) (ser_list E f ser' o cls v).
Proof.
  intros Ho Hq Hs. unfold ser_list. destruct (negb (truthy (e_rt E) v)); [apply par_same|].
  cbv zeta. pose proof (variant_store _ _ false Ho) as Ho'. destruct (get_args cls) as [|t ts] eqn:Ea.
  - destruct (so_strict o) eqn:Est.
    + apply par_bind_same. intros x0 H0. apply lift_done in H0.
      apply par_bind_same. intros l Hl. apply lift_done in Hl. apply list_par. intros x Hx.
      apply (Hser (set_store false o) (Some (class_of x0)) x); [exact Ho'|].
      eapply Velem; [exact Hq|now left|exact Hl|exact Hx|]. eapply et_first; [|exact H0].
      rewrite <- (variant_strict _ _ Ho). exact Est.
    + apply par_bind_same. intros l Hl. apply lift_done in Hl. apply list_par. intros x Hx.
      apply (dump_par (set_store false o) None x); [exact Ho'|].
      eapply Velem; [exact Hq|now left|exact Hl|exact Hx|]. constructor.
  - apply par_bind_same. intros l Hl. apply lift_done in Hl. apply list_par. intros x Hx.
    apply (Hser (set_store false o) (Some t) x); [exact Ho'|].
    eapply Velem; [exact Hq|now left|exact Hl|exact Hx|]. apply et_arg. rewrite Ea. now left.
Qed.
Lemma ser_namedtuple_par o cls i l : variant o0 o -> V cls (VNT i l) -> sr cls (VNT i l) = Some STuple ->
  par any (ser_namedtuple E f ser o i (VNT i l)) (ser_namedtuple E f ser' o i (VNT i l)).
Proof.
  intros Ho Hq Hs. unfold ser_namedtuple. apply par_bind; [|intros r _; apply par_same].
  apply par_map. intros a Ha. apply par_bind_same. intros x Hx. apply lift_done in Hx.
  apply par_bind; [|intros d _; apply par_same]. apply dump_par; [exact Ho|].
  eapply Vattr; [exact Hq|right; split; [exact Hs|eauto]|exact Hx|now left].
Qed.
Lemma ser_dict_go_par o c v : variant o0 o -> V c v -> sr c v = Some SDict -> forall keys acc,
  (forall k, In k keys -> V None k) ->
  par any (ser_dict_go E f ser o v keys acc) (ser_dict_go E f ser' o v keys acc).
Proof.
  intros Ho Hq Hs. induction keys as [|key keys IH]; intros acc Hk; cbn [ser_dict_go]; [apply par_same|].
  assert (Hk' : forall k, In k keys -> V None k) by (intros; apply Hk; now right).
  apply par_bind_same. intros x Hx. apply lift_done in Hx. apply par_bind.
  { unfold store_and_hash. destruct (json_key (e_ct E) key); [apply par_same|].
    apply par_bind; [apply dump_par; [exact Ho|apply Hk; now left]|]. intros dk _. apply par_same. }
  intros [res1 k1] _. cbn [fst snd]. apply par_bind.
  { apply dump_par; [now apply variant_types|]. eapply Vvalue; [exact Hq|exact Hs|exact Hx|].
    destruct (aget py_eqb key (so_types o)) as [u|] eqn:Et; [right|now left].
    apply aget_In' in Et as [k' Hin]. exists k', u. split; [reflexivity|]. eapply variant_In; eassumption. }
  intros d _. destruct (so_strip_nulls o && is_none d); [now apply IH|].
  apply par_bind_same. intros k2 _. now apply IH.
Qed.
Lemma ser_dict_par o c v : variant o0 o -> V c v -> sr c v = Some SDict ->
  par any (ser_dict E f ser o v) (ser_dict E f ser' o v).
Proof.
  intros Ho Hq Hs. unfold ser_dict. apply par_bind_same. intros keys Hk. apply lift_done in Hk.
  apply par_bind; [|intros d _; apply par_same]. eapply ser_dict_go_par; [exact Ho|exact Hq|exact Hs|].
  intros k Hin. eapply Velem; [exact Hq|now right|exact Hk|exact Hin|constructor].
Qed.
Lemma ser_union_par o cls v : variant o0 o -> V cls v -> sr cls v = Some SUnion ->
  par any (ser_union E f ser o cls v) (ser_union E f ser' o cls v).
Proof.
  intros Ho Hq Hs. unfold ser_union. destruct cls as [t|]; [|apply par_same].
  destruct (raw_args t) as [ts|] eqn:Ea; [|apply par_same].
  destruct (is_none v && existsb (ty_eqb TNoneT) ts) eqn:En; [apply par_same|].
  assert (Ht : forall t', In t' ts -> V (Some t') v)
    by (intros t' Hin; eapply Valt; [exact Hq|exact Hs|cbn; now rewrite Ea|];
        intros ->; cbn [get_args]; rewrite Ea; intros Hn; apply existsb_ty_In in Hn; cbn [is_none andb] in En; congruence).
  clear Ea En. induction ts as [|t1 ts IH]; cbn [ser_union_go]; [apply par_same|].
  apply par_try; [apply dump_par; [exact Ho|apply Ht; now left]|].
  intros e. destruct (is_jsons (e_kind e)); [|apply par_same]. apply IH. intros; apply Ht; now right.
Qed.
Lemma do_serialize_par o public v : variant o0 o -> forall attrs acc,
  (forall a t x, In (a, t) attrs -> get_attr E v a = Ok x -> V t x) ->
  par any (do_serialize E f ser o public v attrs acc) (do_serialize E f ser' o public v attrs acc).
Proof.
  intros Ho. induction attrs as [|[a c] attrs IH]; intros acc Ha; cbn [do_serialize]; [apply par_same|].
  apply par_bind_same. intros x Hx. apply lift_done in Hx. cbv zeta. apply par_bind_same. intros u _.
  apply par_bind.
  { apply par_catch. apply par_bind; [|intros d _; apply par_same].
    apply (Hser o c x Ho). eapply (Ha a); [now left|exact Hx]. }
  assert (Ha' : forall a t x, In (a, t) attrs -> get_attr E v a = Ok x -> V t x)
    by (intros a' t' x' Hin; apply (Ha a'); now right).
  intros [d|e] _; [|apply par_same]. destruct (so_strip_nulls o && is_none d); [now apply IH|].
  apply par_bind_same. intros k2 _. now apply IH.
Qed.
Lemma ser_object_par o cls v : variant o0 o -> V cls v -> sr cls v = Some SObject ->
  par any (ser_object E f ser o cls v) (ser_object E f ser' o cls v).
Proof.
  intros Ho Hq Hs. unfold ser_object. apply par_bind_same. intros attrs Ha. apply lift_done in Ha. cbv zeta.
  apply par_bind; [|intros d _; apply par_same]. apply do_serialize_par.
  - now apply variant_store, variant_attr.
  - intros a t x Hin Hx. eapply Vattr; [exact Hq|now left|exact Hx|].
    destruct t as [t|]; [right|now left].
    assert (X : attrs_from_object E o v = Ok attrs -> exists i u,
       (cls = Some (TClass i) \/ class_of v = TClass i) /\ Some t = Some u /\ In (a, u) (ci_hints (CT i))).
    { intros H'. destruct (attrs_from_object_hint _ _ _ _ _ _ H' Hin) as (i & Hi & Hh). exists i, t. auto. }
    destruct cls as [t0|]; [destruct (so_strict o)|]; auto.
    destruct (attrs_from_class_hint _ _ _ _ _ _ Ha Hin) as (i & -> & Hh). exists i, t. auto.
Qed.
Lemma ser_step_par o cls v : variant o0 o -> V cls v -> ~ shared_out (sr cls v) v ->
  par any (ser_step E f ser o (sr cls v) cls v) (ser_step E f ser' o (sr cls v) cls v).
Proof.
  intros Ho Hq Hn. unfold ser_step. destruct (sr cls v) as [h|] eqn:Eh; [|apply par_same].
  destruct h; try apply par_same; eauto using ser_list_par, ser_union_par, ser_dict_par, ser_object_par.
  - destruct v; try (exfalso; apply Hn; right; split; [reflexivity|discriminate]).
    cbn [ser_tuple]. eapply ser_namedtuple_par; eassumption.
  - destruct v as [| | | | | | | | |x| | |]; try apply par_same. destruct x; try apply par_same.
    apply par_bind; [|intros d _; apply par_same]. apply dump_par; [exact Ho|eauto].
  - exfalso. apply Hn. now left.
Qed.
End Step.

(** ** One task *)
Lemma tser_iterable_one E f ser sched k o c v : (k < 2)%Z ->
  tser_iterable E f ser sched k o c v = ser_iterable E f (ser 1%Z) o c v.
Proof. intros Hk. unfold tser_iterable. destruct (Z.ltb_spec k 2) as [_|H]; [reflexivity|lia]. Qed.
Lemma tser_step_one E f ser sched k o h c v : (k < 2)%Z ->
  tser_step E f ser sched k o h c v = ser_step E f (ser k) o h c v \/
  tser_step E f ser sched k o h c v = ser_step E f (ser 1%Z) o h c v.
Proof.
  intros Hk. destruct h as [h|]; [|now left]. destruct h; try (now left).
  - destruct v; try (now left); right; cbn [tser_step tser_tuple ser_step ser_tuple];
      destruct c as [t|]; rewrite ?tser_iterable_one by exact Hk; try reflexivity;
      destruct (raw_args t) as [args|]; try reflexivity;
      destruct (ty_eqb TEllipsis (last args TAny)); rewrite ?tser_iterable_one by exact Hk; try reflexivity;
      unfold tser_iterable; destruct (Z.ltb_spec k 2) as [_|H]; try lia; reflexivity.
  - right. cbn [tser_step ser_step]. now rewrite tser_iterable_one.
Qed.
Lemma tserialize_one_both E f sch n : forall k o h c v, (k < 2)%Z ->
  mle (tserialize E f sch n k o h c v) (serialize E f n o h c v) /\
  mle (serialize E f n o h c v) (tserialize E f sch n k o h c v).
Proof.
  induction n as [|n IH]; intros k o h c v Hk; [split; apply mle_oof|]. cbn [tserialize serialize].
  destruct (tser_step_one E f (tserialize E f sch n) (sch n) k o h c v Hk) as [-> | ->];
    split; apply ser_step_mono; intros; apply IH; lia.
Qed.
Lemma tserialize_one E f sch n k o h c v : (k < 2)%Z ->
  snd (tserialize E f sch n k o h c v) = snd (serialize E f n o h c v).
Proof. intros Hk. destruct (tserialize_one_both E f sch n k o h c v Hk) as [[H|H] [H'|H']]; congruence. Qed.
Lemma tdump_one E sch f n k o c v : (k < 2)%Z ->
  snd (tdump E sch f n k o c v) = snd (dump E f n o c v).
Proof.
  intros Hk. unfold tdump, dump.
  destruct (dump_mono E f _ _ (fun o h c v => proj1 (tserialize_one_both E f sch n k o h c v Hk)) o c v) as [H|H];
  destruct (dump_mono E f _ _ (fun o h c v => proj2 (tserialize_one_both E f sch n k o h c v Hk)) o c v) as [H'|H'];
  congruence.
Qed.

(** ** Several tasks *)
Lemma subclasses_length n c l : get_subclasses n c = Ok l -> length l = n.
Proof.
  unfold get_subclasses. destruct (get_args c) as [|t [|t2 ts]].
  - intros [= <-]. apply repeat_length.
  - intros [= <-]. apply repeat_length.
  - destruct (Nat.eqb (length (t :: t2 :: ts)) n) eqn:En; [|discriminate]. apply Nat.eqb_eq in En.
    intros [= <-]. cbn [length] in *. now rewrite map_length.
Qed.
Section Several.
Variables (E : env) (f : nat) (o0 : sopts) (cls0 : option ty) (v0 : value).
Variables (sch : nat -> value -> list action) (any : bool) (k : Z).
Hypothesis Hk : (1 < k)%Z.
Hypothesis Hfair : any = false -> fair_dump E (Z.to_nat k) sch.
Hypothesis Hst : steady E f o0 cls0 v0.
Notation sr := (serializer E f).

Lemma iterable_par n o c v l : py_iter (e_rt E) v = Ok l -> l <> [] ->
  (forall e, snd (ser_iterable E f (serialize E f n) o c v) <> Fail e) ->
  par any (ser_iterable E f (serialize E f n) o c v)
          (tser_iterable E f (tserialize E f sch n) (sch n) k o c v).
Proof.
  intros Hl Hne Hf. unfold ser_iterable, tser_iterable in *. cbv zeta in *. rewrite Hl in *.
  rewrite !bind_lift_ok in *.
  destruct (if so_strict o then determine_cls E c v else Ok None) as [c1|e]; [|now left].
  rewrite !bind_lift_ok in *. destruct (get_subclasses (length l) c1) as [subs|e] eqn:Es; [|now left].
  rewrite !bind_lift_ok in *. apply subclasses_length in Es.
  destruct (Z.ltb_spec k 2) as [H|_]; [lia|]. apply par_bind; [|intros r _; apply par_same].
  set (zs := combine l subs) in *. set (o' := set_store false o) in *.
  assert (Hz : length zs = length l) by (unfold zs; rewrite combine_length; lia).
  assert (Hm : par false (mmap (fun xc => dump_ E f (serialize E f n) o' (snd xc) (fst xc)) zs)
                         (mmap (do_dump E f (tserialize E f sch n) o' 0) zs)).
  { apply par_map. intros xc _. left. apply (tdump_one E sch f n 1 o' (snd xc) (fst xc)). lia. }
  destruct Hm as [Hm|[H _]]; [|discriminate].
  assert (P : par any (mmap (do_dump E f (tserialize E f sch n) o' 0) zs)
                (parallel_dump E f (tserialize E f sch n) k o' zs (sch n v))).
  { apply (share_par (do_dump E f (tserialize E f sch n) o' 0) k (Z.to_nat k) (sch n v) any zs).
    - lia.
    - intros Ha. rewrite Hz. now apply Hfair.
    - destruct zs; [|discriminate]. destruct l; [congruence|discriminate Hz].
    - intros e. rewrite Hm. intros X. apply (Hf e). unfold mbind. now rewrite X. }
  unfold par in *. rewrite <- Hm. exact P.
Qed.
Lemma dump_of_ser n o c v : snd (dump E f n o c v) = snd (wrap_ser (serialize E f n o (sr c v) c v)).
Proof. reflexivity. Qed.
Lemma shared_no_fail o c v l : variant o0 o -> outer E f o0 cls0 v0 c v -> shared_out (sr c v) v ->
  py_iter (e_rt E) v = Ok l -> forall n e, snd (serialize E f n o (sr c v) c v) <> Fail e.
Proof.
  intros Ho Hq Hsh Hl n e He. destruct (Hst c v l Hq Hsh Hl) as [_ H]. destruct (H o Ho) as (n0 & d & Hd).
  assert (Hn : exists e', snd (dump E f n o c v) = Fail e').
  { rewrite dump_of_ser. unfold wrap_ser, mtry. rewrite He. cbn [snd]. eexists. reflexivity. }
  destruct Hn as [e' Hn]. destruct (Nat.le_ge_cases n n0) as [Hle|Hle].
  - rewrite (dump_stable E f n n0 o c v Hle) in Hd; congruence.
  - rewrite (dump_stable E f n0 n o c v Hle) in Hn; congruence.
Qed.
Lemma serialize_par n : forall o c v, variant o0 o -> outer E f o0 cls0 v0 c v ->
  par any (serialize E f n o (sr c v) c v) (tserialize E f sch n k o (sr c v) c v).
Proof.
  induction n as [|n IH]; intros o c v Ho Hq; [apply par_same|].
  assert (Hplain : ~ shared_out (sr c v) v ->
    par any (serialize E f (S n) o (sr c v) c v) (ser_step E f (tserialize E f sch n k) o (sr c v) c v)).
  { intros Hn. cbn [serialize].
    apply (ser_step_par E f o0 any (outer E f o0 cls0 v0)); eauto using outer. }
  assert (Hit : shared_out (sr c v) v -> forall c',
    (forall l, py_iter (e_rt E) v = Ok l -> forall e, snd (ser_iterable E f (serialize E f n) o c' v) <> Fail e) ->
    par any (ser_iterable E f (serialize E f n) o c' v)
            (tser_iterable E f (tserialize E f sch n) (sch n) k o c' v)).
  { intros Hsh c' Hf. destruct (py_iter (e_rt E) v) as [l|e] eqn:Hl.
    - apply (iterable_par n o c' v l Hl); [|now apply (Hf l)]. exact (proj1 (Hst c v l Hq Hsh Hl)).
    - unfold ser_iterable, tser_iterable. cbv zeta. rewrite Hl. now left. }
  assert (Hno : shared_out (sr c v) v -> forall l, py_iter (e_rt E) v = Ok l -> forall e,
            snd (ser_step E f (serialize E f n) o (sr c v) c v) <> Fail e).
  { intros Hsh l Hl e. exact (shared_no_fail o c v l Ho Hq Hsh Hl (S n) e). }
  cbn [tserialize serialize] in *.
  destruct (sr c v) as [h|] eqn:Eh; [|apply Hplain; intros [H|[H _]]; discriminate].
  destruct h; try (apply Hplain; intros [H|[H _]]; discriminate).
  - cbn [tser_step ser_step] in *.
    assert (Htup : (forall i l, v <> VNT i l) -> par any
       (match c with
        | None => ser_iterable E f (serialize E f n) o None v
        | Some t => match raw_args t with
          | None => fail (exn_of KAttribute)
          | Some args =>
            if ty_eqb TEllipsis (last args TAny) then
              dom l <- lift (py_iter (e_rt E) v);
              ser_iterable E f (serialize E f n) o (Some (TApp true HTuple (repeat (hd TAny args) (length l)))) v
            else ser_iterable E f (serialize E f n) o (Some t) v
          end
        end)
       (match c with
        | None => tser_iterable E f (tserialize E f sch n) (sch n) k o None v
        | Some t => match raw_args t with
          | None => fail (exn_of KAttribute)
          | Some args =>
            if ty_eqb TEllipsis (last args TAny) then
              dom l <- lift (py_iter (e_rt E) v);
              tser_iterable E f (tserialize E f sch n) (sch n) k o (Some (TApp true HTuple (repeat (hd TAny args) (length l)))) v
            else tser_iterable E f (tserialize E f sch n) (sch n) k o (Some t) v
          end
        end)).
    { intros Hv. assert (Hsh : shared_out (Some STuple) v) by (right; split; [reflexivity|exact Hv]).
      specialize (Hit Hsh). specialize (Hno Hsh).
      assert (Htu : ser_tuple E f (serialize E f n) o c v =
        match c with
        | None => ser_iterable E f (serialize E f n) o None v
        | Some t => match raw_args t with
          | None => fail (exn_of KAttribute)
          | Some args =>
            if ty_eqb TEllipsis (last args TAny) then
              dom l <- lift (py_iter (e_rt E) v);
              ser_iterable E f (serialize E f n) o (Some (TApp true HTuple (repeat (hd TAny args) (length l)))) v
            else ser_iterable E f (serialize E f n) o (Some t) v
          end
        end) by (destruct v; try reflexivity; exfalso; eapply Hv; reflexivity).
      rewrite Htu in Hno. destruct c as [t|]; [|apply Hit; exact Hno].
      destruct (raw_args t) as [args|]; [|apply par_same].
      destruct (ty_eqb TEllipsis (last args TAny)); [|apply Hit; exact Hno].
      destruct (py_iter (e_rt E) v) as [l|e] eqn:Hl; [|now left]. rewrite !bind_lift_ok in *.
      apply Hit. intros l' [= <-] e. exact (Hno l eq_refl e). }
    destruct v; first [exact (Htup ltac:(discriminate)) | idtac].
    apply Hplain. intros [H|[_ H]]; [discriminate|eapply H; reflexivity].
  - cbn [tser_step ser_step] in *. apply Hit; [now left|]. exact (Hno (or_introl eq_refl)).
Qed.
Lemma several_par n : par any (dump E f n o0 cls0 v0) (tdump E sch f n k o0 cls0 v0).
Proof.
  unfold dump, tdump.
  apply (dump_par E f o0 any (outer E f o0 cls0 v0)); [|apply variant_refl|apply outer_root].
  intros o c v Ho Hq. now apply serialize_par.
Qed.
End Several.
Lemma dump_fair E sch f n k o c v : steady E f o c v -> fair_dump E (Z.to_nat k) sch ->
  snd (tdump E sch f n k o c v) = snd (dump E f n o c v).
Proof.
  intros Hs Hf. destruct (Z.ltb_spec k 2) as [Hk|Hk]; [now apply tdump_one|].
  destruct (several_par E f o c v sch false k ltac:(lia) (fun _ => Hf) Hs n) as [H|[H _]]; [exact H|discriminate].
Qed.
Lemma dump_any E sch f n k o c v : steady E f o c v ->
  snd (tdump E sch f n k o c v) = snd (dump E f n o c v) \/ snd (tdump E sch f n k o c v) = Oof.
Proof.
  intros Hs. destruct (Z.ltb_spec k 2) as [Hk|Hk]; [left; now apply tdump_one|].
  destruct (several_par E f o c v sch true k ltac:(lia) ltac:(discriminate) Hs n) as [H|[_ H]]; auto.
Qed.
Lemma fair_dump_exists E k : exists sch, fair_dump E k sch.
Proof.
  exists (fun _ x => match py_iter (e_rt E) x with Ok l => round_robin k (2 * length l + k) | Err _ => [] end).
  intros n x l Hl. rewrite Hl. apply round_robin_fair.
Qed.

(** ** Nothing is shared out *)
Lemma steady_none E f o c v : (forall c' x, outer E f o c v c' x -> ~ shared_out (serializer E f c' x) x) ->
  steady E f o c v.
Proof. intros H c' x l Hx Hs. now elim (H c' x Hx). Qed.
Lemma dump_unshared E sch f n k o c v :
  (forall c' x, outer E f o c v c' x -> ~ shared_out (serializer E f c' x) x) ->
  snd (tdump E sch f n k o c v) = snd (dump E f n o c v).
Proof.
  intros H. destruct (fair_dump_exists E (Z.to_nat k)) as [sch' Hf].
  rewrite <- (dump_fair E sch' f n k o c v (steady_none _ _ _ _ _ H) Hf). clear Hf.
  unfold tdump.
  assert (X : forall m, forall o' c' x', variant o o' -> outer E f o c v c' x' ->
     par false (tserialize E f sch' m k o' (serializer E f c' x') c' x') (tserialize E f sch m k o' (serializer E f c' x') c' x')).
  { induction m as [|m IH]; intros o' c' x' Ho Hq; [apply par_same|]. cbn [tserialize].
    assert (Hn := H c' x' Hq).
    assert (Y : forall s sc, tser_step E f s sc k o' (serializer E f c' x') c' x' = ser_step E f (s k) o' (serializer E f c' x') c' x').
    { intros s sc. unfold tser_step. destruct (serializer E f c' x') as [h|]; [|reflexivity].
      destruct h; try reflexivity; [|exfalso; apply Hn; now left].
      destruct x'; try (exfalso; apply Hn; right; split; [reflexivity|discriminate]). reflexivity. }
    rewrite !Y. apply (ser_step_par E f o false (outer E f o c v)); eauto using outer. }
  destruct (dump_par E f o false (outer E f o c v) _ _ (X n) o c v (variant_refl o) (outer_root E f o c v)) as [Z|[Z _]];
    [exact Z|discriminate].
Qed.

(** ** Failures *)
Lemma combine_none (l : list value) : combine l (repeat (@None ty) (length l)) = map (fun x : value => (x, @None ty)) l.
Proof. induction l as [|x l IH]; [reflexivity|]. cbn [length repeat combine map]. now rewrite IH. Qed.
Lemma shared_run E sch f n k o v l : shared_out (serializer E f None v) v -> so_strict o = false ->
  py_iter (e_rt E) v = Ok l -> (1 < k)%Z ->
  snd (tdump E sch f (S n) k o None v) =
  snd (wrap_ser (dom r <- parallel_dump E f (tserialize E f sch n) k (set_store false o) (map (fun x : value => (x, @None ty)) l) (sch n v);
                 ret (VList r))).
Proof.
  intros Hsh Hs Hl Hk.
  assert (Hit : snd (wrap_ser (tser_iterable E f (tserialize E f sch n) (sch n) k o None v)) =
     snd (wrap_ser (dom r <- parallel_dump E f (tserialize E f sch n) k (set_store false o) (map (fun x : value => (x, @None ty)) l) (sch n v);
                 ret (VList r)))).
  { unfold tser_iterable. cbv zeta. rewrite Hl, bind_lift_ok, Hs, bind_lift_ok. unfold get_subclasses. cbn [get_args].
    rewrite bind_lift_ok. destruct (Z.ltb_spec k 2) as [H|_]; [lia|]. rewrite combine_none. reflexivity. }
  rewrite <- Hit. unfold tdump, dump_. change (e_ser E f (class_of v)) with (serializer E f None v).
  unfold mbind. cbn [snd emit]. cbn [tserialize]. destruct Hsh as [Hh|[Hh Hv]]; rewrite Hh; cbn [tser_step].
  - reflexivity.
  - replace (tser_tuple E f (tserialize E f sch n) (sch n) k o None v)
      with (tser_iterable E f (tserialize E f sch n) (sch n) k o None v); [reflexivity|].
    destruct v; try reflexivity. exfalso. eapply Hv. reflexivity.
Qed.
Lemma shared_filled E sch f n k o v l : shared_out (serializer E f None v) v ->
  so_strict o = false -> so_store_cls o = false -> py_iter (e_rt E) v = Ok l -> l <> [] -> (1 < k)%Z ->
  let outs := map (fun x => snd (dump E f n o None x)) l in
  ~ In Oof outs -> fair_schedule (Z.to_nat k) (2 * length l + Z.to_nat k) (sch n v) ->
  exists ys, snd (tdump E sch f (S n) k o None v) = Done (VList ys) /\ filled (Z.to_nat k) outs ys.
Proof.
  intros Hsh Hs Hst Hl Hne Hk outs Ho Hf. rewrite (shared_run E sch f n k o v l Hsh Hs Hl Hk).
  replace (set_store false o) with o by (destruct o; cbn in Hst; subst; reflexivity).
  set (call := fun x : value => do_dump E f (tserialize E f sch n) o 0 (x, None)).
  assert (Hcall : forall x, snd (call x) = snd (dump E f n o None x))
    by (intros x; apply (tdump_one E sch f n 1 o None x); lia).
  unfold parallel_dump. cbv zeta.
  assert (Eo : existsb (fun xc => is_oof (do_dump E f (tserialize E f sch n) o
                 (tasks_left (Z.to_nat k) (length (map (fun x : value => (x, @None ty)) l))) xc)) (map (fun x : value => (x, @None ty)) l) = false).
  { apply not_true_iff_false. intros X. apply existsb_exists in X as (xc & Hin & X).
    apply in_map_iff in Hin as (x & <- & Hin). apply Ho. unfold outs. apply in_map_iff. exists x. split; [|exact Hin].
    rewrite <- Hcall. unfold is_oof in X. unfold call. change (do_dump E f (tserialize E f sch n) o 0 (x, None)) with
      (do_dump E f (tserialize E f sch n) o (tasks_left (Z.to_nat k) (length (map (fun x : value => (x, @None ty)) l))) (x, None)).
    destruct (snd _); congruence. }
  rewrite Eo. clear Eo.
  set (func := fun (k0 : nat) xc => to_res (do_dump E f (tserialize E f sch n) o k0 xc)).
  destruct (fair_finishes func (VInt 0) (map (fun x : value => (x, @None ty)) l) (Z.to_nat k) (Z.to_nat k) (sch n v)) as (ys & Hy).
  - lia.
  - destruct l; [congruence|discriminate].
  - now rewrite map_length.
  - rewrite Hy. exists ys. split; [reflexivity|]. apply multi_task_slots in Hy as [Hlen Hslot].
    rewrite map_length in *. assert (Hol : length outs = length l) by (unfold outs; now rewrite map_length).
    split; [congruence|]. intros i y Hiy. rewrite Hol. cbv zeta.
    assert (Hil : i < length l) by (apply nth_error_len in Hiy; lia).
    assert (Hnth : forall m, m < length l -> exists x, nth_error l m = Some x).
    { intros m Hm. destruct (nth_error l m) eqn:E'; [eauto|]. apply nth_error_None in E'. lia. }
    set (left := tasks_left (Z.to_nat k) (length l)) in *.
    assert (Hfo : forall m x w, nth_error l m = Some x -> (func left (x, None) = Ok w <-> nth_error outs m = Some (Done w))).
    { intros m x w Hm. unfold outs. rewrite (map_nth_error _ _ _ Hm). unfold func, to_res.
      change (do_dump E f (tserialize E f sch n) o left (x, None)) with (call x). rewrite Hcall.
      destruct (snd (dump E f n o None x)); split; intros X; try discriminate; congruence. }
    destruct (Hnth i Hil) as [x Hx].
    destruct (Hslot i (x, None)) as [Hg Hb]; [exact (map_nth_error (fun x : value => (x, @None ty)) _ _ Hx)|].
    set (lo := part_start (Nat.min (Z.to_nat k) (length l)) (length l) i) in *.
    assert (Hiff : all_ok (func left) (map (fun x : value => (x, @None ty)) l) lo i <-> all_loaded outs lo i).
    { split.
      - intros H m Hm. destruct (Hnth m ltac:(lia)) as [z Hz].
        destruct (H m (z, None) Hm (map_nth_error (fun x : value => (x, @None ty)) _ _ Hz)) as (w & Hw). exists w.
        now apply (Hfo m z).
      - intros H m xc Hm Hxm. destruct (Hnth m ltac:(lia)) as [z Hz].
        rewrite (map_nth_error (fun x : value => (x, @None ty)) _ _ Hz) in Hxm. injection Hxm as <-.
        destruct (H m Hm) as (w & Hw). exists w. now apply (Hfo m z). }
    rewrite <- Hiff. split.
    + intros H. destruct (Hg H) as (w & Hv & Hr). apply (Hfo i x); [exact Hx|]. fold left in Hv. congruence.
    + intros H. specialize (Hb H). congruence.
Qed.
Lemma shared_empty E sch f n k o v : shared_out (serializer E f None v) v -> so_strict o = false ->
  py_iter (e_rt E) v = Ok [] -> (1 < k)%Z ->
  snd (tdump E sch f (S n) k o None v) = Fail (exn_of KSer) /\
  snd (dump E f (S n) o None v) = Done (VList []).
Proof.
  intros Hsh Hs Hl Hk. split.
  - rewrite (shared_run E sch f n k o v [] Hsh Hs Hl Hk). unfold parallel_dump. cbn [map length existsb]. cbv zeta.
    now rewrite multi_task_empty.
  - assert (Hit : snd (wrap_ser (ser_iterable E f (serialize E f n) o None v)) = Done (VList [])).
    { unfold ser_iterable. cbv zeta. rewrite Hl, bind_lift_ok, Hs, bind_lift_ok. reflexivity. }
    unfold dump, dump_. change (e_ser E f (class_of v)) with (serializer E f None v).
    unfold mbind. cbn [snd emit]. cbn [serialize]. destruct Hsh as [Hh|[Hh Hv]]; rewrite Hh; cbn [ser_step].
    + exact Hit.
    + replace (ser_tuple E f (serialize E f n) o None v)
        with (ser_iterable E f (serialize E f n) o None v); [exact Hit|].
      destruct v; try reflexivity. exfalso. eapply Hv. reflexivity.
Qed.
