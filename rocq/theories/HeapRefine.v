(** * Dumping objects of a heap is dumping their trees *)
From Coq Require Import Lia.
From Verif Require Import PyBaseFacts EngineFacts DumpProofs CutModel HeapTrees HeapSims.
From Verif Require Export HeapSpec HeapProofs.
Local Open Scope string_scope.

(** ** Reading inputs *)
Lemma rd_kind H x v F : rd H x v F -> kind H x = class_of v.
Proof.
  intros Hr. unfold kind. destruct Hr as [v _|l vs F _|c l vs F _|a l vs F Ha _|a k l vs F Ha _|a k d ds F Ha _|a c l vs F Ha _];
    cbn [shallow]; rewrite ?Ha; reflexivity.
Qed.
Lemma rd_class H x v F : rd H x v F -> class_of (shallow H x) = class_of v.
Proof. apply rd_kind. Qed.
Lemma rd_is_none H x v F : rd H x v F -> is_none (shallow H x) = is_none v.
Proof.
  intros Hr. destruct Hr as [v _|l vs F _|c l vs F _|a l vs F Ha _|a k l vs F Ha _|a k d ds F Ha _|a c l vs F Ha _];
    cbn [shallow]; rewrite ?Ha; reflexivity.
Qed.
Lemma rd_flat H x v F : rd H x v F -> flatv v = true -> x = OAtom v /\ F = [].
Proof. intros Hr Hv. destruct Hr; try discriminate; auto. Qed.
Lemma rd_none H x v F : rd H x v F -> match x with OAtom VNone => true | _ => false end = is_none v.
Proof. intros Hr. now destruct Hr. Qed.
Lemma json_key_class CT v w : class_of v = class_of w -> json_key CT v = json_key CT w.
Proof. intros Ec. unfold json_key. now rewrite Ec. Qed.
Lemma is_instance_class CT v w t : class_of v = class_of w -> is_instance CT v t = is_instance CT w t.
Proof. intros Ec. unfold is_instance. now rewrite Ec. Qed.

Lemma sim_at {A B} m' P (Q : heap -> A -> B -> Prop) H m t : m H = m' H -> sim P Q H m' t -> sim P Q H m t.
Proof. unfold sim. now intros ->. Qed.
Lemma sim_done {A B} P (Q : heap -> A -> B -> Prop) H m t : sim P Q H m t ->
  sim P (fun H' a b => t = Done b /\ Q H' a b) H m t.
Proof. intros [Hk Hm]. split; [assumption|]. destruct (snd (m H)), t; try contradiction; auto. Qed.

Section Refine.
Variables (E : env) (K : henv) (f : nat) (H0 : heap).
Hypothesis HS : default_serializers E f.
Hypothesis W : wf_supers (e_ct E).
Hypothesis PE : plain_env E.
Hypothesis AE : agree_env E K H0.
Let CT := e_ct E.
Let R := e_rt E.

Definition inp (P : nat -> Prop) (H : heap) (x : obj) (v : value) : Prop :=
  plain_value CT v = true /\ exists F, rd H x v F /\ forall a, In a F -> P a.
Record st (P : nat -> Prop) (H : heap) : Prop := {
  st_below : forall a, P a -> a < length H;
  st_base : forall a, a < length H0 -> P a;
  st_keep : keeps (below H0) H0 H }.
Lemma st_step P H H' : st P H -> keeps P H H' -> st P H'.
Proof.
  intros [S1 S2 [S3 S4]] [K1 K2]. constructor; [|assumption|].
  - intros a Ha. apply S1 in Ha. lia.
  - split; [lia|]. intros a Ha. rewrite K2 by auto. auto.
Qed.
Lemma st_here P H : st P H -> st (below H) H.
Proof. intros [S1 S2 [S3 S4]]. constructor; [auto| |split; assumption]. unfold below. intros; lia. Qed.
Lemma inp_weak (P Q : nat -> Prop) H x v : (forall a, P a -> Q a) -> inp P H x v -> inp Q H x v.
Proof. intros HPQ (Hp & F & HF & Ha). split; [assumption|]. exists F. auto. Qed.
Lemma inp_here P H x v : st P H -> inp P H x v -> inp (below H) H x v.
Proof. intros Hs. apply inp_weak. apply (st_below _ _ Hs). Qed.
Lemma inp_keep P H H' x v : keeps P H H' -> inp P H x v -> inp P H' x v.
Proof.
  intros [_ Hk] (Hp & F & HF & Ha). split; [assumption|]. exists F. split; [|assumption].
  eapply rd_frame; [eassumption|]. auto.
Qed.
Lemma inps_keep P H H' l vs : keeps P H H' -> Forall2 (inp P H) l vs -> Forall2 (inp P H') l vs.
Proof. intros Hk. apply Forall2_imp. intros a b. now apply inp_keep. Qed.
Lemma out_inp P H x v : out P H x v -> plain_value CT v = true -> inp (below H) H x v.
Proof. intros (F & HF & _ & _) Hp. split; [assumption|]. exists F. split; [assumption|]. intros a Ha. exact (rd_bound _ _ _ _ _ HF Ha). Qed.
Definition since (H H' : heap) (a : nat) : Prop := ~ below H a /\ below H' a.
Lemma out_since H H' x v : out (below H) H' x v -> plain_value CT v = true -> inp (since H H') H' x v.
Proof.
  intros (F & HF & _ & Ho) Hp. split; [assumption|]. exists F. split; [assumption|]. intros a Ha. split; [auto|].
  exact (rd_bound _ _ _ _ _ HF Ha).
Qed.
Lemma inp_flat P H v : flatv v = true -> inp P H (OAtom v) v.
Proof. intros Hv. split; [destruct v; try discriminate; reflexivity|]. exists []. split; [now constructor|]. intros a []. Qed.
Lemma inp_view P H x v : inp P H x v -> view H x = v.
Proof. intros (_ & F & HF & _). eapply rd_view; eassumption. Qed.
Lemma inp_kind P H x v : inp P H x v -> kind H x = class_of v.
Proof. intros (_ & F & HF & _). eapply rd_kind; eassumption. Qed.
Lemma inp_out P Q H x v : inp P H x v -> flatv v = true -> out Q H x v.
Proof. intros (_ & F & HF & _) Hv. destruct (rd_flat _ _ _ _ HF Hv) as [-> _]. now apply out_atom. Qed.

(** The parts of plain trees *)
Lemma rds_inp (P : nat -> Prop) H l vs F : rds H l vs F -> forallb (plain_value CT) vs = true -> (forall a, In a F -> P a) ->
  Forall2 (inp P H) l vs.
Proof.
  induction 1 as [|x v F l vs G Hx Hl IH]; intros Hp Ha; constructor.
  - cbn in Hp. apply andb_prop in Hp as [Hp _]. split; [assumption|]. exists F. split; [assumption|].
    intros a Hin. apply Ha. apply in_or_app. now left.
  - cbn in Hp. apply andb_prop in Hp as [_ Hp]. apply IH; [assumption|]. intros a Hin. apply Ha. apply in_or_app. now right.
Qed.
Lemma rdd_inp (P : nat -> Prop) H d ds F : rdd H d ds F ->
  forallb (fun kx => plain_value CT (fst kx) && plain_value CT (snd kx)) ds = true -> (forall a, In a F -> P a) ->
  Forall2 (fun kx kv => inp P H (fst kx) (fst kv) /\ inp P H (snd kx) (snd kv)) d ds.
Proof.
  induction 1 as [|k kv F1 x v F2 d ds G Hk Hx Hl IH]; intros Hp Ha; constructor.
  - cbn in Hp. apply andb_prop in Hp as [Hp _]. apply andb_prop in Hp as [Hp1 Hp2]. split; (split; [assumption|]).
    + exists F1. split; [assumption|]. intros a Hin. apply Ha. rewrite !in_app_iff. tauto.
    + exists F2. split; [assumption|]. intros a Hin. apply Ha. rewrite !in_app_iff. tauto.
  - cbn in Hp. apply andb_prop in Hp as [_ Hp]. apply IH; [assumption|]. intros a Hin. apply Ha. rewrite !in_app_iff. tauto.
Qed.
Lemma rda_inp (P : nat -> Prop) H d ds F : rda H d ds F ->
  forallb (fun ax => plain_value CT (snd ax)) ds = true -> (forall a, In a F -> P a) ->
  Forall2 (fun ax av => fst ax = fst av /\ inp P H (snd ax) (snd av)) d ds.
Proof.
  induction 1 as [|n x v F l vs G Hx Hl IH]; intros Hp Ha; constructor.
  - cbn in Hp. apply andb_prop in Hp as [Hp _]. split; [reflexivity|]. split; [assumption|].
    exists F. split; [assumption|]. intros a Hin. apply Ha. rewrite !in_app_iff. tauto.
  - cbn in Hp. apply andb_prop in Hp as [_ Hp]. apply IH; [assumption|]. intros a Hin. apply Ha. rewrite !in_app_iff. tauto.
Qed.
Lemma dict_inp P H a v : inp P H (ORef a) v -> forall k d, nth_error H a = Some (NDict k d) ->
  exists ds, v = VDict k ds /\ Forall2 (fun kx kv => inp P H (fst kx) (fst kv) /\ inp P H (snd kx) (snd kv)) d ds.
Proof.
  intros (Hp & F & HF & Ha) k d Hc. inversion HF; subst; try congruence. rewrite Hc in H2. injection H2 as <- <-.
  exists ds. split; [reflexivity|]. eapply rdd_inp; [eassumption|exact Hp|]. intros b Hb. apply Ha. now right.
Qed.

(** ** Iteration *)
Lemma sim_places H l : forallb (plain_value CT) l = true ->
  sim (below H) (fun H' xs vs => Forall2 (inp (since H H') H') xs vs) H (hmap place l) (Done l).
Proof.
  revert H. induction l as [|v l IH]; intros H Hp; cbn [hmap].
  - apply sim_ret. constructor.
  - cbn in Hp. apply andb_prop in Hp as [Hv Hp].
    change (Done (v :: l)) with (obind (Done v) (fun w => obind (Done l) (fun ws => Done (w :: ws)))).
    eapply sim_bind with (P1 := below H); [auto|apply sim_done, sim_place|].
    intros H1 x w Hk [Ew Hx]. injection Ew as <-.
    eapply sim_bind with (P1 := below H1); [now apply below_keep|now apply IH|].
    intros H2 xs ws Hk2 Hxs. apply sim_ret. constructor.
    + apply out_since; [eapply out_keep; eassumption|assumption].
    + eapply Forall2_imp; [|exact Hxs]. intros a b. apply inp_weak. intros c [C1 C2]. split; [|assumption].
      intros Hc. apply C1. exact (below_keep _ _ Hk _ Hc).
Qed.
Lemma sim_placed P H r : st P H -> (forall l, r = Ok l -> forallb (plain_value CT) l = true) ->
  sim P (fun H' xs vs => Forall2 (inp (since H H') H') xs vs) H (hbind (hlift r) (hmap place)) (ores r).
Proof.
  intros Hs Hp. destruct r as [l|e]; cbn [hlift ores].
  - change (hbind (hret l) (hmap place)) with (hmap place l).
    eapply sim_weak; [| |apply sim_places; auto]; [apply (st_below _ _ Hs)|auto].
  - split; [apply keeps_refl|reflexivity].
Qed.
Lemma plain_chars s : forallb (plain_value CT) (str_chars s) = true.
Proof. unfold str_chars. induction (list_ascii_of_string s); auto. Qed.
Lemma flat_iter v l : flatv v = true -> py_iter R v = Ok l -> forallb (plain_value CT) l = true.
Proof.
  intros Hv. destruct v; try discriminate; cbn [py_iter]; try (intros Eq; discriminate Eq).
  - intros Eq. injection Eq as <-. apply plain_chars.
  - apply (pe_iter _ PE).
  - apply (pe_iter _ PE).
Qed.
Lemma Forall2_fst {A B C D} (R1 : A -> B -> Prop) (R2 : C -> D -> Prop) l m :
  Forall2 (fun x y => R1 (fst x) (fst y) /\ R2 (snd x) (snd y)) l m -> Forall2 R1 (map fst l) (map fst m).
Proof. induction 1 as [|x y l m [H1 _] _ IH]; constructor; auto. Qed.
Lemma sim_iter P H x v : st P H -> inp P H x v ->
  sim P (fun H' xs vs => Forall2 (inp (fun a => P a \/ since H H' a) H') xs vs) H (hiter R x) (ores (py_iter R v)).
Proof.
  intros Hs (Hp & F & HF & Ha).
  assert (Hpl : forall r, (forall l, r = Ok l -> forallb (plain_value CT) l = true) ->
     sim P (fun H' xs vs => Forall2 (inp (fun a => P a \/ since H H' a) H') xs vs) H (hbind (hlift r) (hmap place)) (ores r)).
  { intros r Hr. eapply sim_weak; [| |apply (sim_placed P H r Hs Hr)]; [auto|]. intros H' xs vs _. apply Forall2_imp.
    intros a b. apply inp_weak. auto. }
  assert (Hl : forall l vs G, rds H l vs G -> forallb (plain_value CT) vs = true -> (forall a, In a G -> P a) ->
     Forall2 (inp (fun a => P a \/ since H H a) H) l vs).
  { intros l vs G HG Hpl' HaG. eapply rds_inp; eauto. }
  destruct HF as [v Hv|l vs F HF|c l vs F HF|a l vs F Hc HF|a k l vs F Hc HF|a k d ds F Hc HF|a c l vs F Hc HF];
    cbn [py_iter ores].
  - apply (Hpl (py_iter R v)). intros l. now apply flat_iter.
  - apply (sim_at (hret l)); [reflexivity|]. apply sim_ret. eapply Hl; eauto.
  - apply (sim_at (hret l)); [reflexivity|]. apply sim_ret.
    cbn [plain_value] in Hp. apply andb_prop in Hp as [Hp _]. apply andb_prop in Hp as [_ Hp]. eapply Hl; eauto.
  - apply (sim_at (hret l)); [unfold hiter; now rewrite Hc|]. apply sim_ret. eapply Hl; eauto. intros b Hb. apply Ha. now right.
  - apply (sim_at (hret l)); [unfold hiter; now rewrite Hc|]. apply sim_ret. eapply Hl; eauto. intros b Hb. apply Ha. now right.
  - apply (sim_at (hret (map fst d))); [unfold hiter; now rewrite Hc|]. apply sim_ret.
    eapply (Forall2_fst _ (fun _ _ => True)). eapply Forall2_imp; [|eapply rdd_inp; [eassumption|exact Hp|]].
    + intros a0 b [I1 _]. split; [exact I1|exact I].
    + intros b Hb. left. apply Ha. now right.
  - apply (sim_at (hbind (hlift (rt_iter R (VObj c vs))) (hmap place))).
    + unfold hiter. rewrite Hc. replace (view H (ORef a)) with (VObj c vs); [reflexivity|].
      symmetry. eapply rd_view; econstructor; eassumption.
    + apply (Hpl (rt_iter R (VObj c vs))). intros l0. apply (pe_iter _ PE).
Qed.

(** ** Items and attributes *)
Definition got (P : nat -> Prop) (H H' : heap) (x : obj) (v : value) : Prop := inp (fun a => P a \/ since H H' a) H' x v.
Lemma inp_got P H H' x v : inp P H' x v -> got P H H' x v.
Proof. apply inp_weak. auto. Qed.
Lemma sim_place_in P H r : st P H -> (forall v, r = Ok v -> plain_value CT v = true) ->
  sim P (got P H) H (place_res r) (ores r).
Proof.
  intros Hs Hp. destruct r as [v|e]; cbn [place_res ores]; [|apply sim_fail].
  eapply sim_weak; [| |apply sim_done, sim_place]; [apply (st_below _ _ Hs)|]. intros H' x w _ [Ew Ho]. injection Ew as <-.
  eapply inp_weak; [|apply out_since; [eassumption|auto]]. auto.
Qed.
Lemma sim_place_out P H r : st P H -> sim P (out P) H (place_res r) (ores r).
Proof.
  intros Hs. destruct r as [v|e]; cbn [place_res ores]; [|apply sim_fail].
  eapply sim_weak; [| |apply sim_place]; [apply (st_below _ _ Hs)|]. intros H' x w _. apply own_weak. apply (st_below _ _ Hs).
Qed.
Lemma Forall2_len {A B} (Q : A -> B -> Prop) l m : Forall2 Q l m -> length l = length m.
Proof. induction 1; cbn; auto. Qed.
Lemma nth_Forall2 {A B} (Q : A -> B -> Prop) l m n : Forall2 Q l m ->
  match nth_error l n, nth_error m n with Some x, Some y => Q x y | None, None => True | _, _ => False end.
Proof. intros Hl. revert n. induction Hl as [|x y l m Hx _ IH]; intros [|n]; cbn; try exact I; [assumption|apply IH]. Qed.
Lemma item_at_rel {A B} (Q : A -> B -> Prop) l m k : Forall2 Q l m ->
  match item_at l k, item_at m k with Ok x, Ok y => Q x y | Err e, Err e' => e = e' | _, _ => False end.
Proof.
  intros Hl. pose proof (Forall2_len _ _ _ Hl) as El. destruct k; cbn [item_at]; try reflexivity.
  - pose proof (nth_Forall2 Q l m (if b then 1 else 0) Hl) as Hn.
    destruct (nth_error l (if b then 1 else 0)), (nth_error m (if b then 1 else 0)); try contradiction; auto; reflexivity.
  - rewrite El. set (i := (if (z <? 0)%Z then (z + Z.of_nat (length m))%Z else z)).
    destruct ((0 <=? i)%Z && (i <? Z.of_nat (length m))%Z); [|reflexivity].
    pose proof (nth_Forall2 Q l m (Z.to_nat i) Hl) as Hn.
    destruct (nth_error l (Z.to_nat i)), (nth_error m (Z.to_nat i)); try contradiction; auto; reflexivity.
Qed.
Lemma item_at_eq (l : list value) k : py_getitem CT (VList l) k = item_at l k.
Proof. reflexivity. Qed.
Lemma flat_item v k w : flatv v = true -> py_getitem CT v k = Ok w -> plain_value CT w = true.
Proof.
  intros Hv. destruct v; try discriminate. change (py_getitem CT (VStr s) k) with (item_at (str_chars s) k).
  intros Hi. apply item_at_in in Hi. exact (proj1 (forallb_forall _ _) (plain_chars s) w Hi).
Qed.
Lemma sim_getitem P H x v k kv : st P H -> inp P H x v -> inp P H k kv ->
  sim P (got P H) H (hgetitem CT x k) (ores (py_getitem CT v kv)).
Proof.
  intros Hs Hx Hk. pose proof (inp_view _ _ _ _ Hk) as Ek. destruct Hx as (Hp & F & HF & Ha).
  assert (Hl : forall l vs G, rds H l vs G -> forallb (plain_value CT) vs = true -> (forall a, In a G -> P a) ->
     sim P (got P H) H (hlift (item_at l kv)) (ores (item_at vs kv))).
  { intros l vs G HG Hpl HaG. apply sim_lift. apply item_at_rel. eapply rds_inp; eauto. }
  destruct HF as [v Hv|l vs F HF|c l vs F HF|a l vs F Hc HF|a kd l vs F Hc HF|a kd d ds F Hc HF|a c l vs F Hc HF].
  - apply (sim_at (place_res (py_getitem CT v kv))); [unfold hgetitem; now rewrite Ek|].
    apply (sim_place_in P H (py_getitem CT v kv) Hs). intros w. now apply flat_item.
  - apply (sim_at (hlift (item_at l kv))); [unfold hgetitem; now rewrite Ek|]. eapply Hl; eauto.
  - apply (sim_at (hlift (item_at l kv))); [unfold hgetitem; now rewrite Ek|].
    cbn [plain_value] in Hp. apply andb_prop in Hp as [Hp _]. apply andb_prop in Hp as [_ Hp]. eapply Hl; eauto.
  - apply (sim_at (hlift (item_at l kv))); [unfold hgetitem; now rewrite Ek, Hc|].
    eapply Hl; eauto. intros b Hb. apply Ha. now right.
  - destruct kd.
    + apply (sim_at (hfail (exn_of KType))); [unfold hgetitem; now rewrite Hc|]. apply sim_fail.
    + apply (sim_at (hfail (exn_of KType))); [unfold hgetitem; now rewrite Hc|]. apply sim_fail.
    + apply (sim_at (hlift (item_at l kv))); [unfold hgetitem; now rewrite Ek, Hc|].
      eapply Hl; eauto. intros b Hb. apply Ha. now right.
  - cbn [py_getitem]. destruct (hashable CT kv) eqn:Eh.
    2: { apply (sim_at (hfail (exn_of KType))); [unfold hgetitem; now rewrite Hc, Ek, Eh|]. apply sim_fail. }
    destruct Hk as (_ & Fk & HFk & _).
    destruct (rdd_find _ _ _ _ _ _ _ HFk HF) as [I1 I2 _ _|d1 k' y d2 D1 kv' yv D2 F1 F' Fy F2 E1 E2 E3 R1 R2 R3 R4 I1 I2 _ _ _];
      rewrite I2.
    { apply (sim_at (hfail (exn_of KKey))); [unfold hgetitem; now rewrite Hc, Ek, Eh, I1|]. apply sim_fail. }
    apply (sim_at (hret y)); [unfold hgetitem; now rewrite Hc, Ek, Eh, I1|]. subst. apply sim_ret. split.
    + cbn [plain_value] in Hp. rewrite forallb_app in Hp. apply andb_prop in Hp as [_ Hp]. cbn [forallb fst snd] in Hp.
      apply andb_prop in Hp as [Hp _]. now apply andb_prop in Hp as [_ Hp].
    + exists Fy. split; [assumption|]. intros b Hb. left. apply Ha. right. rewrite !in_app_iff. tauto.
  - apply (sim_at (hfail (exn_of KType))); [unfold hgetitem; now rewrite Hc|]. apply sim_fail.
Qed.
Definition got_attr (P : nat -> Prop) (H : heap) (a : string) (H' : heap) (x : obj) (v : value) : Prop :=
  got P H H' x v /\ (In a copied_names -> out P H' x v).
Lemma sim_place_attr P H a r : st P H -> (forall v, r = Ok v -> plain_value CT v = true) ->
  sim P (got_attr P H a) H (place_res r) (ores r).
Proof.
  intros Hs Hp. destruct r as [v|e]; cbn [place_res ores]; [|apply sim_fail].
  eapply sim_weak; [| |apply sim_done, sim_place]; [apply (st_below _ _ Hs)|]. intros H' x w _ [Ew Ho]. injection Ew as <-.
  split.
  - eapply inp_weak; [|apply out_since; [eassumption|auto]]. auto.
  - intros _. eapply own_weak; [|exact Ho]. apply (st_below _ _ Hs).
Qed.
Lemma flat_attr v a w : flatv v = true -> match v with VEnum _ _ => a <> "value" | _ => True end ->
  get_attr E v a = Ok w -> plain_value CT w = true.
Proof.
  intros Hv Ha. pose proof (pe_getattr _ PE) as Hg.
  destruct v as [| | | | | | | | |[]|c n| |]; try discriminate; cbn [get_attr];
    repeat match goal with |- context [String.eqb ?x ?y] => destruct (String.eqb_spec x y); [try contradiction|] end;
    try (intros Eq; injection Eq as <-; reflexivity); apply Hg.
Qed.
Lemma sget_rel {A B} (Q : A -> B -> Prop) l m a : Forall2 (fun x y => fst x = fst y /\ Q (snd x) (snd y)) l m ->
  match sget a l, sget a m with Some x, Some y => Q x y /\ In (a, y) m | None, None => True | _, _ => False end.
Proof.
  unfold sget. induction 1 as [|[n x] [n' y] l m [E1 H1] _ IH]; cbn [aget]; [exact I|]. cbn [fst snd] in *. subst n'.
  destruct (String.eqb_spec a n) as [->|Hne]; [split; [assumption|now left]|].
  destruct (aget String.eqb a l), (aget String.eqb a m); try contradiction; auto. split; [apply IH|]. right. apply IH.
Qed.
Lemma flat_copied_in l a v : flat_copied l = true -> In (a, v) l -> In a copied_names -> flatv v = true.
Proof.
  intros Hf Hin Ha. pose proof (proj1 (forallb_forall _ _) Hf _ Hin) as Hx. cbn [fst snd] in Hx.
  apply mem_str_In in Ha. rewrite Ha in Hx. exact Hx.
Qed.
Lemma got_attr_here P H a x v : inp P H x v -> (In a copied_names -> flatv v = true) -> got_attr P H a H x v.
Proof. intros Hx Hf. split; [now apply inp_got|]. intros Ha. eapply inp_out; eauto. Qed.
Lemma sim_get_attr P H x v a : st P H -> inp P H x v ->
  sim P (got_attr P H a) H (hget_attr E K x a) (ores (get_attr E v a)).
Proof.
  intros Hs Hx. pose proof (inp_view _ _ _ _ Hx) as Ev. destruct Hx as (Hp & F & HF & Ha).
  pose proof (pe_getattr _ PE) as Hg.
  destruct HF as [v Hv|l vs F HF|c l vs F HF|r l vs F Hc HF|r kd l vs F Hc HF|r kd d ds F Hc HF|r c l vs F Hc HF].
  - assert (Hgo : match v with VEnum _ _ => a <> "value" | _ => True end ->
       sim P (got_attr P H a) H (place_res (get_attr E v a)) (ores (get_attr E v a))).
    { intros Hav. apply sim_place_attr; [assumption|]. intros w. now apply flat_attr. }
    destruct v as [| | | | | | | | | |c n| |]; try (apply Hgo; exact I).
    unfold hget_attr. destruct (String.eqb_spec a "value") as [->|Hne]; [|now apply Hgo].
    cbn [get_attr String.eqb Ascii.eqb Bool.eqb]. destruct (sget n (enum_members (e_ct E) c)) as [v|] eqn:Em.
    + apply (sim_at (hret (OAtom v))); [now rewrite (proj1 (ag_member _ _ _ AE _ _ _ Em))|]. apply sim_ret.
      pose proof (proj2 (ag_member _ _ _ AE _ _ _ Em)). apply got_attr_here; [now apply inp_flat|auto].
    + apply sim_fail.
  - apply (sim_at (place_res (rt_getattr (e_rt E) (VTuple vs) a))); [unfold hget_attr; now rewrite Ev|].
    apply sim_place_attr; eauto.
  - cbn [plain_value] in Hp. apply andb_prop in Hp as [Hp Hf]. apply andb_prop in Hp as [_ Hp].
    assert (Hl : Forall2 (fun x y => fst x = fst y /\ inp P H (snd x) (snd y))
                  (combine (map nf_name (nt_fields CT c)) l) (combine (map nf_name (nt_fields CT c)) vs)).
    { pose proof (rds_inp P H l vs F HF Hp Ha) as Hl. clear -Hl. revert l vs Hl.
      induction (map nf_name (nt_fields CT c)) as [|n ns IH]; intros l vs Hl; [constructor|].
      destruct Hl; cbn [combine]; constructor; auto. }
    pose proof (sget_rel _ _ _ a Hl) as Hr. cbn [get_attr]. unfold nt_get. fold CT.
    destruct (sget a (combine (map nf_name (nt_fields CT c)) l)) as [y|] eqn:E1,
             (sget a (combine (map nf_name (nt_fields CT c)) vs)) as [w|] eqn:E2; try contradiction; cbn [opt_res ores].
    + apply (sim_at (hret y)); [unfold hget_attr; fold CT; now rewrite E1|]. apply sim_ret. destruct Hr as [Hr Hin].
      apply got_attr_here; [assumption|]. eauto using flat_copied_in.
    + apply (sim_at (place_res (rt_getattr (e_rt E) (VNT c vs) a))); [unfold hget_attr; fold CT; now rewrite E1, Ev|].
      apply sim_place_attr; eauto.
  - apply (sim_at (place_res (rt_getattr (e_rt E) (VList vs) a))); [unfold hget_attr; now rewrite Hc, Ev|].
    apply sim_place_attr; eauto.
  - apply (sim_at (place_res (rt_getattr (e_rt E) (VColl kd vs) a))); [unfold hget_attr; now rewrite Hc, Ev|].
    apply sim_place_attr; eauto.
  - apply (sim_at (place_res (rt_getattr (e_rt E) (VDict kd ds) a))); [unfold hget_attr; now rewrite Hc, Ev|].
    apply sim_place_attr; eauto.
  - cbn [plain_value] in Hp. apply andb_prop in Hp as [Hp Hf]. apply andb_prop in Hp as [_ Hp].
    pose proof (rda_inp P H l vs F HF Hp (fun b Hb => Ha b (or_intror Hb))) as Hl.
    pose proof (sget_rel _ _ _ a Hl) as Hr. cbn [get_attr].
    assert (Eat : map (fun ax => (fst ax, view H (snd ax))) l = vs).
    { clear -Hl. induction Hl as [|[n x] [n' w] l m [E1 H1] _ IH]; [reflexivity|]. cbn [map fst snd] in *. subst n'.
      now rewrite IH, (inp_view _ _ _ _ H1). }
    destruct (sget a (ci_members (e_ct E c))) as [m|] eqn:Em.
    + assert (Hgo : m <> MProp -> (forall mv, m <> MVar mv) -> forall e, 
         (sget a l = None -> hget_attr E K (ORef r) a H = hfail e H) ->
         sim P (got_attr P H a) H (hget_attr E K (ORef r) a) (ores (match sget a vs with Some w => Ok w | None => Err e end))).
      { intros Hm1 Hm2 e He. destruct (sget a l) as [y|] eqn:E1, (sget a vs) as [w|] eqn:E2; try contradiction; cbn [ores].
        - apply (sim_at (hret y)); [unfold hget_attr; rewrite Hc, Em, E1; now destruct m|]. apply sim_ret. destruct Hr as [Hr Hin].
          apply got_attr_here; [assumption|]. eauto using flat_copied_in.
        - apply (sim_at (hfail e)); [now apply He|]. apply sim_fail. }
      destruct m as [| | |mi|mv].
      * apply (sim_at (place_res (ci_prop (e_ct E c) a vs))).
        { unfold hget_attr. rewrite Hc. cbn [shallow]. rewrite Em. now rewrite Eat. }
        apply sim_place_attr; [assumption|]. intros w. apply (pe_prop _ PE).
      * apply Hgo; try discriminate. intros E1. unfold hget_attr. now rewrite Hc, Em, E1.
      * apply Hgo; try discriminate. intros E1. unfold hget_attr. now rewrite Hc, Em, E1.
      * apply Hgo; try discriminate. intros E1. unfold hget_attr. now rewrite Hc, Em, E1.
      * clear Hgo. destruct (sget a l) as [y|] eqn:E1, (sget a vs) as [w|] eqn:E2; try contradiction; cbn [ores].
        -- apply (sim_at (hret y)); [unfold hget_attr; now rewrite Hc, Em, E1|]. apply sim_ret. destruct Hr as [Hr Hin].
           apply got_attr_here; [assumption|]. eauto using flat_copied_in.
        -- apply (sim_at (hret (he_var K c a))); [unfold hget_attr; now rewrite Hc, Em, E1|]. apply sim_ret.
           destruct (ag_var _ _ _ AE _ _ _ Em) as (Hrd & Hpv & Hfv). apply read_rd in Hrd as (G & HG).
           apply got_attr_here; [|assumption]. split; [assumption|]. exists G. split.
           ++ eapply rd_frame; [eassumption|]. intros b Hb. apply (st_keep _ _ Hs). exact (rd_bound _ _ _ _ _ HG Hb).
           ++ intros b Hb. apply (st_base _ _ Hs). exact (rd_bound _ _ _ _ _ HG Hb).
    + destruct (sget a l) as [y|] eqn:E1, (sget a vs) as [w|] eqn:E2; try contradiction; cbn [ores].
      * apply (sim_at (hret y)); [unfold hget_attr; now rewrite Hc, Em, E1|]. apply sim_ret. destruct Hr as [Hr Hin].
        apply got_attr_here; [assumption|]. eauto using flat_copied_in.
      * apply (sim_at (hfail (exn_of KAttribute))); [unfold hget_attr; now rewrite Hc, Em, E1|]. apply sim_fail.
Qed.

(** ** Values that are returned as they are *)
Lemma prim_flat v p : plain_value CT v = true -> naked_sub CT (class_of v) (TPrim p) = true -> flatv v = true.
Proof.
  intros Hp Hn. destruct v as [| | | | |l|l|k l|k d|x|c n|c l|c l]; try reflexivity; exfalso.
  - destruct p; vm_compute in Hn; discriminate.
  - destruct p; vm_compute in Hn; discriminate.
  - destruct k, p; vm_compute in Hn; discriminate.
  - destruct k, p; vm_compute in Hn; discriminate.
  - cbn [class_of] in Hn. unfold naked_sub in Hn. cbn [is_class andb] in Hn. apply existsb_ty_In in Hn.
    cbn [supers plain_value] in *. destruct (ci_kind (CT c)) eqn:Ek; try discriminate.
    destruct Hn as [Hn|Hn]; [discriminate|]. apply in_app_or in Hn as [Hn|Hn].
    + vm_compute in Hn. intuition discriminate.
    + apply W in Hn. destruct Hn.
  - cbn [class_of] in Hn. unfold naked_sub in Hn. cbn [is_class andb] in Hn. apply existsb_ty_In in Hn.
    cbn [supers plain_value] in *. destruct (ci_kind (CT c)) eqn:Ek; try discriminate.
    destruct Hn as [Hn|Hn]; [discriminate|]. apply W in Hn. destruct Hn.
Qed.
Lemma none_flat v : plain_value CT v = true -> naked_sub CT (class_of v) TNoneT = true -> flatv v = true.
Proof.
  intros Hp Hn. destruct v as [| | | | |l|l|k l|k d|x|c n|c l|c l]; try reflexivity; exfalso.
  - vm_compute in Hn; discriminate.
  - vm_compute in Hn; discriminate.
  - destruct k; vm_compute in Hn; discriminate.
  - destruct k; vm_compute in Hn; discriminate.
  - cbn [class_of] in Hn. unfold naked_sub in Hn. cbn [is_class andb] in Hn. apply existsb_ty_In in Hn.
    cbn [supers plain_value] in *. destruct (ci_kind (CT c)) eqn:Ek; try discriminate.
    destruct Hn as [Hn|Hn]; [discriminate|]. apply in_app_or in Hn as [Hn|Hn].
    + vm_compute in Hn. intuition discriminate.
    + apply W in Hn. destruct Hn.
  - cbn [class_of] in Hn. unfold naked_sub in Hn. cbn [is_class andb] in Hn. apply existsb_ty_In in Hn.
    cbn [supers plain_value] in *. destruct (ci_kind (CT c)) eqn:Ek; try discriminate.
    destruct Hn as [Hn|Hn]; [discriminate|]. apply W in Hn. destruct Hn.
Qed.
Lemma json_key_flat v : plain_value CT v = true -> json_key CT v = true -> flatv v = true.
Proof.
  intros Hp Hk. unfold json_key in Hk. rewrite !orb_true_iff in Hk.
  destruct Hk as [[[[Hk|Hk]|Hk]|Hk]|Hk]; eauto using prim_flat, none_flat.
Qed.

(** ** Serializers of parts *)
Variable hser : sopts -> option shandler -> option ty -> obj -> hM obj.
Variable ser : sopts -> option shandler -> option ty -> value -> M value.
Definition target (cls : option ty) (v : value) : ty := match cls with Some t => t | None => class_of v end.
Definition base (H : heap) : Prop := st (below H) H.
Definition inn (H : heap) : obj -> value -> Prop := inp (below H) H.
Hypothesis HR : forall o cls x v H, base H -> inn H x v ->
  sim (below H) (out (below H)) H (hser o (e_ser E f (target cls v)) cls x) (snd (ser o (e_ser E f (target cls v)) cls v)).

Lemma base_keep H H' : base H -> keeps (below H) H H' -> base H'.
Proof. intros Hb Hk. eapply st_here, st_step; eassumption. Qed.
Lemma inn_keep H H' x v : keeps (below H) H H' -> inn H x v -> inn H' x v.
Proof. intros Hk Hi. eapply inp_weak; [|eapply inp_keep; eassumption]. now apply below_keep. Qed.
Lemma inns_keep H H' l vs : keeps (below H) H H' -> Forall2 (inn H) l vs -> Forall2 (inn H') l vs.
Proof. intros Hk. apply Forall2_imp. intros x v. now apply inn_keep. Qed.
Lemma got_inn H H' x v : keeps (below H) H H' -> got (below H) H H' x v -> inn H' x v.
Proof. intros Hk. apply inp_weak. intros a [Ha|[_ Ha]]; [exact (below_keep _ _ Hk _ Ha)|exact Ha]. Qed.
Lemma inn_rd H x v : inn H x v -> exists F, rd H x v F.
Proof. intros (_ & F & HF & _). eauto. Qed.
Lemma sim_iter_ H x v : base H -> inn H x v ->
  sim (below H) (fun H' => Forall2 (inn H')) H (hiter R x) (ores (py_iter R v)).
Proof.
  intros Hb Hx. eapply sim_weak; [| |apply sim_iter; eassumption]; [auto|]. intros H' l vs Hk. apply Forall2_imp.
  intros a b. now apply got_inn.
Qed.
Lemma sim_item_ H x v k kv : base H -> inn H x v -> inn H k kv ->
  sim (below H) inn H (hgetitem CT x k) (ores (py_getitem CT v kv)).
Proof.
  intros Hb Hx Hkv. eapply sim_weak; [| |apply sim_getitem; eassumption]; [auto|]. intros H' l vs Hk. now apply got_inn.
Qed.
Lemma sim_attr_ H x v a : base H -> inn H x v ->
  sim (below H) (fun H' y w => inn H' y w /\ (In a copied_names -> out (below H) H' y w)) H (hget_attr E K x a) (ores (get_attr E v a)).
Proof.
  intros Hb Hx. eapply sim_weak; [| |apply sim_get_attr; eassumption]; [auto|]. intros H' y w Hk [I1 I2]. split; [|assumption].
  now apply got_inn in I1.
Qed.
Lemma sim_dump o cls x v H : base H -> inn H x v ->
  sim (below H) (out (below H)) H (hdump_ E f hser o cls x) (snd (dump_ E f ser o cls v)).
Proof.
  intros Hb Hx.
  apply (sim_at (htry (hser o (e_ser E f (target cls v)) cls x) (fun _ => hfail (exn_of KSer)))).
  { unfold hdump_, target. now rewrite (inp_kind _ _ _ _ Hx). }
  unfold dump_, wrap_ser. rewrite snd_bind. cbn [emit snd obind]. rewrite snd_try.
  apply sim_try.
  - apply HR; assumption.
  - intros H' e _. apply sim_fail.
Qed.
Lemma sim_maps g k H l vs : (forall H x v, base H -> inn H x v -> sim (below H) (out (below H)) H (g x) (snd (k v))) ->
  base H -> Forall2 (inn H) l vs -> sim (below H) (outs (below H)) H (hmap g l) (snd (mmap k vs)).
Proof.
  intros Hg Hb Hl. rewrite snd_mmap.
  apply (sim_map rd rds rd_frame rd_bound rds_nil rds_cons inn g (fun v => snd (k v)) (fun H H' x v Hk => inn_keep H H' x v Hk) base); auto.
  apply base_keep.
Qed.
Lemma sim_to_list H (m : hM (list obj)) t : sim (below H) (outs (below H)) H m t ->
  sim (below H) (out (below H)) H (hbind m (fun r => alloc (NList r))) (obind t (fun r => Done (VList r))).
Proof.
  intros Hm. eapply sim_bind with (P1 := below H); [auto|exact Hm|]. intros H' l vs Hk Hl. apply sim_alloc_list; [|assumption].
  apply (below_keep _ _ Hk).
Qed.
Lemma sim_next {A B A' B'} (Q1 : heap -> A -> B -> Prop) (Q : heap -> A' -> B' -> Prop) H m t g k :
  sim (below H) Q1 H m t ->
  (forall H' a b, keeps (below H) H H' -> Q1 H' a b -> sim (below H) Q H' (g a) (k b)) ->
  sim (below H) Q H (hbind m g) (obind t k).
Proof. intros Hm Hg. now apply sim_bind with (P1 := below H) (Q1 := Q1). Qed.
Lemma sim_deep {A B} (Q : heap -> A -> B -> Prop) H H' m t : keeps (below H) H H' -> (forall H2 a b, Q H2 a b -> Q H2 a b) ->
  sim (below H') Q H' m t -> sim (below H) Q H' m t.
Proof. intros Hk _. apply sim_weak; [now apply below_keep|auto]. Qed.
Lemma sim_deep_out H H' m t : keeps (below H) H H' -> sim (below H') (out (below H')) H' m t -> sim (below H) (out (below H)) H' m t.
Proof. intros Hk. apply sim_weak; [now apply below_keep|]. intros H2 x v _. apply own_weak. now apply below_keep. Qed.

(** ** Each serializer *)
Lemma truthy_rel H x v : inn H x v -> htruthy R H x = truthy R v.
Proof.
  intros Hx. pose proof (inp_view _ _ _ _ Hx) as Ev. destruct (inn_rd _ _ _ Hx) as (F & HF). unfold htruthy.
  assert (Hl : forall l vs G, rds H l vs G -> length l = length vs) by (induction 1; cbn; auto).
  assert (Hd : forall l vs G, rdd H l vs G -> length l = length vs) by (induction 1; cbn; auto).
  destruct HF as [v Hv|l vs F HF|c l vs F HF|a l vs F Hc HF|a k l vs F Hc HF|a k d ds F Hc HF|a c l vs F Hc HF];
    rewrite ?Hc; cbn [truthy]; try (now rewrite (Hl _ _ _ HF)); try (now rewrite (Hd _ _ _ HF)); try reflexivity.
  now rewrite Ev.
Qed.
Lemma sim_primitive cls x v H : base H -> inn H x v -> e_ser E f (target cls v) = Some SPrimitive ->
  sim (below H) (out (below H)) H (hser_primitive E cls x) (ores (ser_primitive E cls v)).
Proof.
  intros Hb Hx Hh. rewrite HS in Hh. apply (ser_prim_types _ _ W) in Hh.
  pose proof (inp_view _ _ _ _ Hx) as Ev. destruct (inn_rd _ _ _ Hx) as (F & HF).
  pose proof (rd_class _ _ _ _ HF) as Ec. pose proof (rd_is_none _ _ _ _ HF) as En. pose proof (proj1 Hx) as Hp.
  assert (Hret : flatv v = true -> sim (below H) (out (below H)) H (hret x) (Done v)).
  { intros Hv. apply sim_ret. eapply inp_out; eassumption. }
  assert (Hinst : forall t, prim_ty t -> naked_sub CT (class_of v) t = true -> flatv v = true).
  { intros t [-> |[p ->]] Hn; eauto using none_flat, prim_flat. }
  assert (Hgo : forall t, prim_ty t -> sim (below H) (out (below H)) H (fun H =>
      if is_none (shallow H x) then hret x H
      else match is_instance CT (shallow H x) t with
           | Err e => hfail e H
           | Ok true => hret x H
           | Ok false => place_res (match cast R t (view H x) with
                                 | Ok r => Ok r
                                 | Err e => Err (if is_valueerror (e_kind e) then exn_of KSer else e)
                                 end) H
           end)
      (ores (match v with VNone => Ok v | _ => dor b <- is_instance CT v t;
        if b then Ok v else match cast R t v with Ok r => Ok r
           | Err e => Err (if is_valueerror (e_kind e) then exn_of KSer else e) end end))).
  { intros t Ht. destruct (is_none v) eqn:Enn.
    - destruct v; try discriminate. apply (sim_at (hret x)); [now rewrite En|]. now apply Hret.
    - replace (ores (match v with VNone => Ok v | _ => _ end)) with
        (ores (dor b <- is_instance CT v t;
          if b then Ok v else match cast R t v with Ok r => Ok r
           | Err e => Err (if is_valueerror (e_kind e) then exn_of KSer else e) end)) by (destruct v; try discriminate; reflexivity).
      assert (Hi : is_instance CT (shallow H x) t = Ok (naked_sub CT (class_of v) t)).
      { rewrite (is_instance_class _ _ _ _ Ec). destruct Ht as [-> |[p ->]]; reflexivity. }
      assert (Hi' : is_instance CT v t = Ok (naked_sub CT (class_of v) t)) by (destruct Ht as [-> |[p ->]]; reflexivity).
      rewrite Hi'. cbn [rbind]. destruct (naked_sub CT (class_of v) t) eqn:Es.
      + apply (sim_at (hret x)); [now rewrite En, Hi|]. apply Hret. eauto.
      + match goal with |- sim _ _ _ _ (ores ?r) => apply (sim_at (place_res r)); [now rewrite En, Hi, Ev|] end.
        apply sim_place_out. exact Hb. }
  unfold hser_primitive, ser_primitive. fold CT R. destruct cls as [t|].
  - cbn [target] in Hh. destruct Hh as [Hh|(m & n & s & -> & Hh)].
    + destruct Hh as [-> |[p ->]]; apply Hgo; unfold prim_ty; eauto.
    + apply Hgo. assumption.
  - cbn [target] in Hh. apply (sim_at (hret x)); [reflexivity|]. apply Hret.
    assert (Hc : prim_ty (class_of v)).
    { destruct Hh as [Hh|(m & n & s & Hh & _)]; [assumption|].
      destruct v as [| | | | | | |[]|[]| | | |]; discriminate. }
    destruct v as [| | | | | | |[]|[]| | | |]; try reflexivity; destruct Hc as [Hc|[p Hc]]; discriminate.
Qed.
Lemma sim_list o cls x v H : base H -> inn H x v ->
  sim (below H) (out (below H)) H (hser_list E f hser o cls x) (snd (ser_list E f ser o cls v)).
Proof.
  intros Hb Hx. unfold ser_list. fold CT R. pose proof (truthy_rel _ _ _ Hx) as Et. destruct (truthy R v) eqn:Etv; cbn [negb].
  2: { apply (sim_at (alloc (NList []))); [unfold hser_list; fold R; now rewrite Et|]. apply sim_alloc_list; [auto|apply outs_nil]. }
  assert (Hgo : forall (g : obj -> hM obj) (k : value -> M value) H', keeps (below H) H H' ->
    (forall H x v, base H -> inn H x v -> sim (below H) (out (below H)) H (g x) (snd (k v))) ->
    sim (below H) (out (below H)) H' (doh l <- hiter R x; doh r <- hmap g l; alloc (NList r))
        (snd (dom l <- lift (py_iter R v); dom r <- mmap k l; ret (VList r)))).
  { intros g k H' K1 Hg. apply sim_deep_out; [assumption|]. rewrite snd_bind, snd_lift.
    eapply sim_next; [apply sim_iter_; [eapply base_keep; eassumption|eapply inn_keep; eassumption]|].
    intros H2 l vs K2 Hl. rewrite snd_bind. apply sim_deep_out; [assumption|]. apply sim_to_list. apply sim_maps; auto.
    eapply base_keep; [eapply base_keep; eassumption|assumption]. }
  destruct (get_args cls) as [|t ts] eqn:Ea.
  - destruct (so_strict o) eqn:Es.
    + apply (sim_at (doh x0 <- hgetitem CT x (OAtom (VInt 0));
           doh t <- hread (fun H => kind H x0);
           doh l <- hiter R x;
           doh r <- hmap (hser (set_store false o) (e_ser E f t) (Some t)) l;
           alloc (NList r))); [unfold hser_list; fold R CT; now rewrite Et, Ea, Es|].
      rewrite snd_bind, snd_lift. eapply sim_next; [apply sim_item_; [assumption|assumption|now apply inp_flat]|].
      intros H1 x0 w K1 Hw. pose proof (inp_kind _ _ _ _ Hw) as Ek.
      match goal with |- sim _ _ _ (hbind (hread _) ?g) _ => apply (sim_at (g (class_of w))) end.
      { unfold hbind, hread. now rewrite Ek. }
      apply (Hgo (hser (set_store false o) (e_ser E f (class_of w)) (Some (class_of w)))
                 (ser (set_store false o) (e_ser E f (class_of w)) (Some (class_of w)))); [assumption|].
      intros H2 y u Hb2 Hy. exact (HR (set_store false o) (Some (class_of w)) y u H2 Hb2 Hy).
    + apply (sim_at (doh l <- hiter R x; doh r <- hmap (hdump_ E f hser (set_store false o) None) l; alloc (NList r)));
        [unfold hser_list; fold R CT; now rewrite Et, Ea, Es|].
      apply Hgo; [apply keeps_refl|]. intros. now apply sim_dump.
  - apply (sim_at (doh l <- hiter R x; doh r <- hmap (hser (set_store false o) (e_ser E f t) (Some t)) l; alloc (NList r)));
      [unfold hser_list; fold R CT; now rewrite Et, Ea|].
    apply Hgo; [apply keeps_refl|]. intros H2 y u Hb2 Hy. exact (HR (set_store false o) (Some t) y u H2 Hb2 Hy).
Qed.
Lemma determine_rel cls H x v : inn H x v -> hdetermine_cls E cls H x = determine_cls E cls v.
Proof.
  intros Hx. destruct cls as [t|]; [reflexivity|]. destruct (inn_rd _ _ _ Hx) as (F & HF). unfold hdetermine_cls, determine_cls.
  destruct HF as [v Hv|l vs F HF|c l vs F HF|a l vs F Hc HF|a k l vs F Hc HF|a k d ds F Hc HF|a c l vs F Hc HF]; rewrite ?Hc.
  - destruct v; try discriminate; try reflexivity.
  - destruct HF as [|y w F1 l vs F2 Hy]; [reflexivity|]. now rewrite (rd_view _ _ _ _ Hy).
  - destruct HF as [|y w F1 l vs F2 Hy]; [reflexivity|]. now rewrite (rd_view _ _ _ _ Hy).
  - destruct HF as [|y w F1 l vs F2 Hy]; [reflexivity|]. now rewrite (rd_view _ _ _ _ Hy).
  - destruct k, HF; reflexivity.
  - destruct HF; reflexivity.
  - reflexivity.
Qed.
Lemma sim_pure {A A' B'} P (Q : heap -> A' -> B' -> Prop) H (r : res A) g k :
  (forall a, r = Ok a -> sim P Q H (g a) (k a)) -> sim P Q H (hbind (hlift r) g) (obind (ores r) k).
Proof. intros Hg. destruct r as [a|e]; [now apply (sim_at (g a)), Hg|]. apply (sim_at (hfail e)); [reflexivity|]. apply sim_fail. Qed.
Lemma sim_iterable o cls x v H : base H -> inn H x v ->
  sim (below H) (out (below H)) H (hser_iterable E f hser o cls x) (snd (ser_iterable E f ser o cls v)).
Proof.
  intros Hb Hx. unfold hser_iterable, ser_iterable. fold CT R. rewrite snd_bind, snd_lift.
  eapply sim_next; [now apply sim_iter_|]. intros H1 l vs K1 Hl. apply sim_deep_out; [assumption|].
  pose proof (inn_keep _ _ _ _ K1 Hx) as Hx1. pose proof (base_keep _ _ Hb K1) as Hb1. cbn beta in Hl.
  rewrite snd_bind, snd_lift.
  match goal with |- sim _ _ _ (hbind _ ?g) _ => 
    apply (sim_at (hbind (hlift (if so_strict o then determine_cls E cls v else Ok None)) g)) end.
  { unfold hbind. now rewrite (determine_rel cls H1 x v Hx1). }
  apply sim_pure. intros cls_ _. rewrite snd_bind, snd_lift, (Forall2_len _ _ _ Hl). apply sim_pure. intros subs _.
  rewrite snd_bind. apply sim_to_list. rewrite snd_mmap.
  apply (sim_map rd rds rd_frame rd_bound rds_nil rds_cons (fun H xc vc => inn H (fst xc) (fst vc) /\ snd xc = snd vc)
    (fun xc => hdump_ E f hser (set_store false o) (snd xc) (fst xc))
    (fun xc => snd (dump_ E f ser (set_store false o) (snd xc) (fst xc)))
    (fun H H' x v Hk Hi => conj (inn_keep H H' _ _ Hk (proj1 Hi)) (proj2 Hi)) base); [apply base_keep| |assumption|].
  - intros H2 [y c] [w c'] Hb2 _ [Hy Ec]. cbn [fst snd] in *. subst c'. now apply sim_dump.
  - clear -Hl. revert subs. induction Hl as [|y w l vs Hy _ IH]; intros [|s subs]; cbn [combine]; constructor; auto.
Qed.
Lemma sim_namedtuple o c x v H : base H -> inn H x v ->
  sim (below H) (out (below H)) H (hser_namedtuple E K f hser o c x) (snd (ser_namedtuple E f ser o c v)).
Proof.
  intros Hb Hx. unfold hser_namedtuple, ser_namedtuple. fold CT. rewrite snd_bind, snd_mmap.
  eapply sim_next with (Q1 := outd (below H)).
  - apply (sim_map pair_rd rdd pair_frame pair_bound rdd_nil pair_cons (fun _ a b => a = b)
      (fun a => doh y <- hget_attr E K x a; doh d <- hdump_ E f hser o None y; hret (atom a, d))
      (fun a => snd (dom x <- lift (get_attr E v a); dom d <- dump_ E f ser o None x; ret (VStr a, d)))
      (fun _ _ _ _ _ Eq => Eq) (fun H => base H /\ inn H x v)); [| |auto|].
    + intros H1 H2 [B1 I1] Hk. split; [eapply base_keep; eassumption|eapply inn_keep; eassumption].
    + intros H1 a b [B1 I1] _ ->. rewrite snd_bind, snd_lift. eapply sim_next; [now apply sim_attr_|].
      intros H2 y w K2 [Hy _]. rewrite snd_bind. eapply sim_bind with (P1 := below H2); [now apply below_keep|apply sim_dump; [|assumption]|].
      { eapply base_keep; eassumption. }
      intros H3 d dv K3 (F & HF & Hn & HP). apply sim_ret. exists F. split; [|split; [assumption|]].
      * exists [], F. split; [now constructor|]. split; [exact HF|reflexivity].
      * intros z Hz Hz'. exact (HP z Hz (below_keep _ _ K2 _ Hz')).
    + induction (map nf_name (nt_fields CT c)); constructor; auto.
  - intros H1 d dv K1 Hd. apply sim_alloc_dict; [|assumption]. apply (below_keep _ _ K1).
Qed.
Lemma sim_tuple o cls x v H : base H -> inn H x v ->
  sim (below H) (out (below H)) H (hser_tuple E K f hser o cls x) (snd (ser_tuple E f ser o cls v)).
Proof.
  intros Hb Hx.
  assert (Hgo : sim (below H) (out (below H)) H
     (match cls with None => hser_iterable E f hser o None x
      | Some t =>
      match raw_args t with
      | None => hfail (exn_of KAttribute)
      | Some args =>
          if ty_eqb TEllipsis (last args TAny) then
            doh l <- hiter R x;
            hser_iterable E f hser o (Some (TApp true HTuple (repeat (List.hd TAny args) (length l)))) x
          else hser_iterable E f hser o (Some t) x
      end end)
     (snd (match cls with None => ser_iterable E f ser o None v
      | Some t =>
      match raw_args t with
      | None => fail (exn_of KAttribute)
      | Some args =>
          if ty_eqb TEllipsis (last args TAny) then
            dom l <- lift (py_iter R v);
            ser_iterable E f ser o (Some (TApp true HTuple (repeat (List.hd TAny args) (length l)))) v
          else ser_iterable E f ser o (Some t) v
      end end))).
  { destruct cls as [t|]; [|now apply sim_iterable]. destruct (raw_args t) as [args|]; [|apply sim_fail].
    destruct (ty_eqb TEllipsis (last args TAny)); [|now apply sim_iterable].
    rewrite snd_bind, snd_lift. eapply sim_next; [now apply sim_iter_|]. intros H1 l vs K1 Hl. cbn beta in Hl.
    apply sim_deep_out; [assumption|]. rewrite (Forall2_len _ _ _ Hl).
    apply sim_iterable; [eapply base_keep; eassumption|eapply inn_keep; eassumption]. }
  destruct (inn_rd _ _ _ Hx) as (F & HF). unfold hser_tuple, ser_tuple. fold CT R.
  destruct HF as [v Hv|l vs F HF|c l vs F HF|a l vs F Hc HF|a k l vs F Hc HF|a k d ds F Hc HF|a c l vs F Hc HF];
    try exact Hgo.
  - destruct v; try discriminate; exact Hgo.
  - now apply sim_namedtuple.
Qed.
Lemma sim_union_go o x v ts : forall H, base H -> inn H x v ->
  sim (below H) (out (below H)) H (hser_union_go E f hser o x ts) (snd (ser_union_go E f ser o v ts)).
Proof.
  induction ts as [|t ts IH]; intros H Hb Hx; cbn [hser_union_go ser_union_go]; [apply sim_fail|].
  rewrite snd_try. apply sim_try; [now apply sim_dump|]. intros H1 e K1.
  destruct (is_jsons (e_kind e)); [|apply sim_fail]. apply sim_deep_out; [assumption|].
  apply IH; [eapply base_keep; eassumption|eapply inn_keep; eassumption].
Qed.
Lemma sim_union o cls x v H : base H -> inn H x v ->
  sim (below H) (out (below H)) H (hser_union E f hser o cls x) (snd (ser_union E f ser o cls v)).
Proof.
  intros Hb Hx. unfold hser_union, ser_union. destruct (match cls with Some t => raw_args t | None => None end) as [ts|]; [|apply sim_fail].
  destruct (inn_rd _ _ _ Hx) as (F & HF). pose proof (rd_is_none _ _ _ _ HF) as En.
  destruct (is_none v && existsb (ty_eqb TNoneT) ts) eqn:Eb.
  - apply (sim_at (hret x)); [now rewrite En, Eb|]. destruct v; try discriminate. apply sim_ret.
    eapply inp_out; [exact Hx|reflexivity].
  - apply (sim_at (hser_union_go E f hser o x ts)); [now rewrite En, Eb|]. now apply sim_union_go.
Qed.

(** ** Dicts *)
Lemma sim_and {A B} (P P' : nat -> Prop) (Q Q' : heap -> A -> B -> Prop) H m t : sim P Q H m t -> sim P' Q' H m t ->
  sim P' (fun H' a b => Q H' a b /\ Q' H' a b) H m t.
Proof. intros [K1 S1] [K2 S2]. split; [assumption|]. destruct (snd (m H)), t; try contradiction; auto. Qed.
Lemma sim_kt (P : nat -> Prop) H kt k kv l vs : (forall a, P a -> a < length H) -> outs P H (k :: l) (kv :: vs) ->
  sim P (fun H' k' kv' => outs P H' (k' :: l) (kv' :: vs)) H (happly_kt E kt k) (ores (apply_kt CT kt kv)).
Proof.
  intros HP Ho. assert (Ev : view H k = kv).
  { destruct Ho as (F & HF & _). inversion HF; subst. eapply rd_view; eassumption. }
  unfold apply_kt. destruct kt as [g|]; cbn [rbind].
  - destruct (g kv) as [k'|e] eqn:Eg; cbn [rbind].
    2: { apply (sim_at (hfail e)); [unfold happly_kt; now rewrite Ev, Eg|]. apply sim_fail. }
    destruct (hashable CT k') eqn:Eh.
    2: { apply (sim_at (hfail (exn_of KType))); [unfold happly_kt; fold CT; now rewrite Ev, Eg, Eh|]. apply sim_fail. }
    apply (sim_at (place k')); [unfold happly_kt; fold CT; now rewrite Ev, Eg, Eh|].
    destruct (sim_place k' H) as [K1 S1]. split; [eapply keeps_weak; [exact HP|exact K1]|].
    cbn [ores]. destruct (snd (place k' H)) as [y|e|]; try contradiction. eapply outs_add; [eapply outs_drop; eassumption|eassumption|assumption|assumption].
  - destruct (hashable CT kv) eqn:Eh.
    + apply (sim_at (hret k)); [unfold happly_kt; fold CT; now rewrite Ev, Eh|]. now apply sim_ret.
    + apply (sim_at (hfail (exn_of KType))); [unfold happly_kt; fold CT; now rewrite Ev, Eh|]. apply sim_fail.
Qed.
Lemma sim_copy (P : nat -> Prop) H r k d D l vs : (forall a, P a -> a < length H) ->
  outs P H (ORef r :: l) (VDict k D :: vs) -> nth_error H r = Some (NDict k d) ->
  sim P (fun H' _ _ => keeps (below H) H H' /\ outs P H' (ORef (length H) :: l) (VDict k D :: vs) /\
           forall s y, hdget H (atom s) d = Some y -> slot H' (length H) s y) H (alloc (NDict k d)) (Done tt).
Proof.
  intros HP (F & HF & Hn & Ha) Hc. inversion HF as [|? ? Fr ? ? G Hr Hl]; subst. inversion Hr as [| | | | |? ? d0 ? Fd Hc0 Hd|]; subst.
  rewrite Hc in Hc0. injection Hc0 as <-.
  assert (Hk : keeps (below H) H (H ++ [NDict k d])%list) by (apply keeps_app; auto).
  assert (Hd' : rdd (H ++ [NDict k d])%list d D Fd).
  { eapply rdd_frame; [eassumption|]. intros b Hb. apply Hk. exact (rdd_bound _ _ _ _ _ Hd Hb). }
  assert (Hnew : nth_error (H ++ [NDict k d])%list (length H) = Some (NDict k d)).
  { rewrite nth_error_app2 by lia. now rewrite Nat.sub_diag. }
  split; [eapply keeps_weak; [exact HP|exact Hk]|]. cbn [alloc fst snd]. split; [assumption|]. split.
  - exists ((length H :: Fd) ++ G)%list. split.
    { apply rds_cons; [eapply rd_dict; eassumption|]. eapply rds_frame; [eassumption|]. intros b Hb. apply Hk. exact (rds_bound _ _ _ _ _ Hl Hb). }
    split.
    + inversion Hn; subst. cbn [app]. constructor; [|assumption]. intros Hin. apply in_app_or in Hin as [Hin|Hin].
      * apply (rdd_bound _ _ _ _ _ Hd) in Hin. lia.
      * apply (rds_bound _ _ _ _ _ Hl) in Hin. lia.
    + intros b [<- |Hb] Hp; [apply HP in Hp; lia|]. exact (Ha b (or_intror Hb) Hp).
  - intros s y Hy. exists k, d. split; [assumption|]. rewrite <- Hy. eapply keys_same; eauto.
Qed.
Lemma sim_hash o P H r D key kv : st P H -> inp P H key kv -> outs P H [ORef r] [VDict DkDict D] ->
  sim P (fun H' rk dk => outs P H' [snd rk; ORef (fst rk)] [snd dk; VDict DkDict (fst dk)])
      H (hstore_and_hash E f hser o r key) (snd (store_and_hash E f ser o D kv)).
Proof.
  intros Hs Hk Ho. destruct (inn_rd _ _ _ (inp_here _ _ _ _ Hs Hk)) as (F & HF). pose proof (rd_class _ _ _ _ HF) as Ec.
  unfold store_and_hash. fold CT R. destruct (json_key CT kv) eqn:Ej.
  { apply (sim_at (hret (r, key))); [unfold hstore_and_hash; fold CT; now rewrite (json_key_class _ _ _ Ec), Ej|].
    apply sim_ret. cbn [fst snd]. pose proof (json_key_flat kv (proj1 Hk) Ej) as Hfl.
    destruct (rd_flat _ _ _ _ HF Hfl) as [-> _]. now apply outs_atom. }
  match goal with |- sim _ _ _ _ (snd ?t) => set (rhs := t) end.
  unfold hstore_and_hash. fold CT R.
  match goal with |- sim _ _ _ (fun H => if _ then _ else hbind ?m ?g H) _ => apply (sim_at (hbind m g));
    [now rewrite (json_key_class _ _ _ Ec), Ej|] end.
  unfold rhs. rewrite snd_bind.
  eapply sim_bind with (P1 := below H); [apply (st_below _ _ Hs)|apply sim_dump; [eapply st_here; eassumption|eapply inp_here; eassumption]|].
  intros H1 dk dv K1 Hdk.
  assert (O1 : outs P H1 [dk; ORef r] [dv; VDict DkDict D]) by (eapply outs_add; eauto using (st_below _ _ Hs)).
  destruct Hdk as (Fk & HFk & _ & _). pose proof (rd_class _ _ _ _ HFk) as Ec1.
  destruct (json_key CT dv) eqn:Ej1.
  { apply (sim_at (hret (r, dk))); [now rewrite (json_key_class _ _ _ Ec1), Ej1|]. apply sim_ret. exact O1. }
  assert (HP1 : forall a, P a -> a < length H1).
  { intros a Ha. apply (st_below _ _ Hs) in Ha. destruct K1. lia. }
  assert (Ek : view H1 key = kv).
  { eapply inp_view, inp_keep; [|exact Hk]. eapply keeps_weak; [|exact K1]. apply (st_below _ _ Hs). }
  pose proof (outs_swap _ _ _ _ _ _ _ _ O1) as O1s.
  assert (Hcell : exists d Fd, nth_error H1 r = Some (NDict DkDict d) /\ rdd H1 d D Fd).
  { destruct O1s as (G & HG & _). inversion HG as [|? ? ? ? ? ? Hr _]; subst. inversion Hr; subst; eauto. }
  destruct Hcell as (d & Fd & Hc & Hd).
  match goal with |- sim _ _ _ (fun H => if _ then _ else _) (snd ?t) => set (t0 := t) end.
  set (h := VInt (rt_hash R kv)) in *.
  apply (sim_at (hbind (alloc (NDict DkDict d)) (fun _ => 
            match hdget H1 (atom "-keys") d with
            | None =>
                fun H2 =>
                let i := length H2 in
                (doh inner <- alloc (NDict DkDict []);
                 doh _ <- set_item (length H1) (atom "-keys") inner;
                 doh _ <- set_item i (OAtom h) dk;
                 hret (length H1, OAtom h)) H2
            | Some (ORef i) => doh _ <- set_item i (OAtom h) dk; hret (length H1, OAtom h)
            | Some _ => hfail (exn_of KType)
            end))).
  { now rewrite (json_key_class _ _ _ Ec1), Ej1, Hc, Ek. }
  change (snd t0) with (obind (Done tt) (fun _ => snd t0)). unfold t0. clear t0 rhs.
  eapply sim_bind with (P1 := P); [auto|eapply sim_copy; [exact HP1|exact O1s|exact Hc]|].
  intros H2 _ _ K2 (Kb & O2 & S2). set (r' := length H1) in *.
  assert (HP2 : forall a, P a -> a < length H2).
  { intros a Ha. apply HP1 in Ha. destruct K2. lia. }
  assert (Hfk : rd H1 (atom "-keys") (VStr "-keys") []) by (constructor; reflexivity).
  destruct (rdd_find _ _ _ _ _ _ _ Hfk Hd) as [I1 I2 _ _|d1 k' y d2 D1 kv' yv D2 F1 F' Fy F2 E1 E2 E3 R1 R2 R3 R4 I1 I2 _ _ _];
    rewrite I1, I2.
  - set (i := length H2).
    match goal with |- sim _ _ _ _ ?t => change t with (obind (Done (VDict DkDict [])) (fun _ => t)) end.
    eapply sim_bind with (P1 := P); [auto|exact (outs_new P H2 DkDict HP2 _ _ O2)|].
    intros H3 z zv K3 (-> & -> & K3' & O3). fold i in O3 |- *.
    match goal with |- sim _ _ _ _ ?t => change t with (obind (Done tt) (fun _ => t)) end.
    eapply sim_bind with (P1 := P); [auto|apply sim_set_slot; exact O3|]. intros H4 _ _ K4 [O4 S4].
    match goal with |- sim _ _ _ _ ?t => change t with (obind (Done tt) (fun _ => t)) end.
    eapply sim_bind with (P1 := P); [auto|eapply sim_inner; [|exact S4|apply dget_dset]|].
    { apply (outs_atom P H4 h); [reflexivity|]. apply outs_swap. exact O4. }
    intros H5 _ _ K5 [O5 _]. apply sim_ret. cbn [fst snd]. rewrite dset_dset in O5. apply (outs_atom P H5 h); [reflexivity|exact O5].
  - assert (Hbad : forall i, y = ORef i -> (forall kk dd, nth_error H1 i <> Some (NDict kk dd)) -> nth_error H1 i <> None ->
       sim P (fun H' rk dk => outs P H' [snd rk; ORef (fst rk)] [snd dk; VDict DkDict (fst dk)]) H2
         (doh _ <- set_item i (OAtom h) dk; hret (r', OAtom h)) (Fail (exn_of KType))).
    { intros i -> Hi Hi'. apply (sim_at (hfail (exn_of KType))); [|apply sim_fail].
      unfold hbind, set_item. rewrite (proj2 Kb i) by (apply nth_error_Some; assumption).
      destruct (nth_error H1 i) as [[l|k l|k l|c l]|] eqn:Ei; try reflexivity. now elim (Hi k l). }
    pose proof (S2 _ _ I1) as S2'.
    destruct R3 as [w Hw|l vs G HG|c l vs G HG|b l vs G Hb HG|b k l vs G Hb HG|b k dd ds G Hb HG|b c l vs G Hb HG];
      try (apply (Hbad b); [reflexivity|congruence|congruence]); try apply sim_fail.
    + destruct w; try discriminate; apply sim_fail.
    + match goal with |- sim _ _ _ _ ?t => change t with (obind (Done tt) (fun _ => t)) end.
      eapply sim_bind with (P1 := P); [auto|eapply sim_inner; [|exact S2'|exact I2]|].
      { apply (outs_atom P H2 h); [reflexivity|]. apply outs_swap. exact O2. }
      intros H5 _ _ K5 [O5 _]. apply sim_ret. cbn [fst snd]. apply (outs_atom P H5 h); [reflexivity|exact O5].
Qed.
Lemma outs_more P H H' l vs : outs P H l vs -> keeps (below H) H H' -> outs (fun a => P a \/ since H H' a) H' l vs.
Proof.
  intros (F & HF & Hn & HP) Hk. exists F. split; [|split; [assumption|]].
  - eapply rds_frame; [eassumption|]. intros a Ha. apply Hk. exact (rds_bound _ _ _ _ _ HF Ha).
  - intros a Ha [Hp|[Hs _]]; [exact (HP a Ha Hp)|]. apply Hs. exact (rds_bound _ _ _ _ _ HF Ha).
Qed.
Lemma st_more P H H' : st P H -> keeps (below H) H H' -> st (fun a => P a \/ since H H' a) H'.
Proof.
  intros Hs Hk. pose proof (st_step _ _ _ Hs (keeps_weak _ _ _ _ (st_below _ _ Hs) Hk)) as [S1 S2 S3].
  constructor; [|auto|assumption]. intros a [Ha|[_ Ha]]; [now apply S1|exact Ha].
Qed.
Lemma sim_dict_go o x v kvs : forall P H r D keys, st P H -> inp P H x v -> Forall2 (inp P H) keys kvs ->
  outs P H [ORef r] [VDict DkDict D] ->
  sim P (out P) H (hser_dict_go E f hser o x keys r) (obind (snd (ser_dict_go E f ser o v kvs D)) (fun d => Done (VDict DkDict d))).
Proof.
  induction kvs as [|kv kvs IH]; intros P H r D keys Hs Hx Hks Ho; inversion Hks as [|key ? keys' ? Hk Hks']; subst;
    cbn [hser_dict_go ser_dict_go].
  { apply sim_ret. eapply outs_head; eassumption. }
  fold CT. rewrite snd_bind, snd_lift.
  pose proof (sim_and _ _ _ _ _ _ _ (sim_getitem P H x v key kv Hs Hx Hk)
    (sim_item_ H x v key kv (st_here _ _ Hs) (inp_here _ _ _ _ Hs Hx) (inp_here _ _ _ _ Hs Hk))) as Hg.
  match goal with |- sim _ _ _ _ (obind (obind ?a ?b) ?c) => change (obind (obind a b) c) with (obind (obind a b) c);
    replace (obind (obind a b) c) with (obind a (fun z => obind (b z) c)) by (now destruct a) end.
  eapply sim_bind with (P1 := below H); [apply (st_below _ _ Hs)|exact Hg|]. clear Hg. intros H1 y w K1 [Hy _].
  set (P1 := fun a => P a \/ since H H1 a) in *.
  assert (HPP : forall a, P a -> P1 a) by (unfold P1; auto).
  pose proof (keeps_weak _ _ _ _ (st_below _ _ Hs) K1) as K1P.
  assert (Hs1 : st P1 H1) by (now apply st_more).
  assert (Hx1 : inp P1 H1 x v) by (eapply inp_weak; [exact HPP|eapply inp_keep; eassumption]).
  assert (Hk1 : inp P1 H1 key kv) by (eapply inp_weak; [exact HPP|eapply inp_keep; eassumption]).
  assert (Hks1 : Forall2 (inp P1 H1) keys' kvs).
  { eapply Forall2_imp; [|exact Hks']. intros a b Hab. eapply inp_weak; [exact HPP|eapply inp_keep; eassumption]. }
  assert (Hy1 : inp P1 H1 y w) by exact Hy. clear Hy. rename Hy1 into Hy.
  assert (Ho1 : outs P1 H1 [ORef r] [VDict DkDict D]) by (now apply outs_more).
  apply sim_weak with (P1 := P1) (Q1 := out P1); [exact HPP|intros ? ? ? _; now apply own_weak|].
  clear K1P K1 Hks Ho Hs Hx Hk Hks' HPP. clearbody P1. clear H P. rename P1 into P.
  rewrite snd_bind.
  match goal with |- sim _ _ _ _ (obind (obind ?a ?b) ?c) =>
    replace (obind (obind a b) c) with (obind a (fun z => obind (b z) c)) by (now destruct a) end.
  eapply sim_bind with (P1 := P); [auto|apply sim_hash; eassumption|].
  intros H2 rk [D' dk] K2 O2. cbn [fst snd] in *.
  pose proof (st_step _ _ _ Hs1 K2) as Hs2. pose proof (inp_keep _ _ _ _ _ K2 Hk1) as Hk2.
  pose proof (inp_keep _ _ _ _ _ K2 Hx1) as Hx2. pose proof (inp_keep _ _ _ _ _ K2 Hy) as Hy2.
  pose proof (inps_keep _ _ _ _ _ K2 Hks1) as Hks2.
  match goal with |- sim _ _ _ (hbind (hread _) ?g) _ => apply (sim_at (g (aget py_eqb kv (so_types o)))) end.
  { unfold hbind at 1, hread. now rewrite (inp_view _ _ _ _ Hk2). }
  rewrite snd_bind.
  match goal with |- sim _ _ _ _ (obind (obind ?a ?b) ?c) =>
    replace (obind (obind a b) c) with (obind a (fun z => obind (b z) c)) by (now destruct a) end.
  eapply sim_bind with (P1 := below H2); [apply (st_below _ _ Hs2)|apply sim_dump; [eapply st_here; eassumption|eapply inp_here; eassumption]|].
  intros H3 d dv K3 Hd. pose proof (keeps_weak _ _ _ _ (st_below _ _ Hs2) K3) as K3P.
  assert (O3 : outs P H3 (d :: [snd rk; ORef (fst rk)]) (dv :: [dk; VDict DkDict D'])) by (eapply outs_add; eauto using (st_below _ _ Hs2)).
  pose proof (st_step _ _ _ Hs2 K3P) as Hs3. pose proof (inp_keep _ _ _ _ _ K3P Hx2) as Hx3. pose proof (inps_keep _ _ _ _ _ K3P Hks2) as Hks3.
  destruct Hd as (Fd & HFd & _ & _). rewrite (rd_none _ _ _ _ HFd).
  destruct (so_strip_nulls o && is_none dv).
  { apply IH; auto. exact (outs_drop _ _ _ _ _ _ (outs_drop _ _ _ _ _ _ O3)). }
  rewrite snd_bind, snd_lift.
  match goal with |- sim _ _ _ _ (obind (obind ?a ?b) ?c) =>
    replace (obind (obind a b) c) with (obind a (fun z => obind (b z) c)) by (now destruct a) end.
  eapply sim_bind with (P1 := P); [auto|apply sim_kt; [apply (st_below _ _ Hs3)|apply outs_swap; exact O3]|].
  intros H4 k kv' K4 O4. cbn beta in O4.
  match goal with |- sim _ _ _ _ ?t => change t with (obind (Done tt) (fun _ => t)) end.
  eapply sim_bind with (P1 := P); [auto|eapply sim_set_item; exact O4|]. intros H5 ? ? K5 O5. cbn beta in O5.
  apply IH; [|eapply inp_keep; [exact K5|eapply inp_keep; [exact K4|assumption]]|eapply inps_keep; [exact K5|eapply inps_keep; [exact K4|assumption]]|exact O5].
  eapply st_step; [eapply st_step; eassumption|eassumption].
Qed.
Lemma sim_dict o x v H : base H -> inn H x v ->
  sim (below H) (out (below H)) H (hser_dict E f hser o x) (snd (ser_dict E f ser o v)).
Proof.
  intros Hb Hx.
  apply (sim_at (hbind (alloc (NDict DkDict [])) (fun _ => doh keys <- hiter R x; hser_dict_go E f hser o x keys (length H)))); [reflexivity|].
  unfold ser_dict. fold R. rewrite snd_bind, snd_lift.
  match goal with |- sim _ _ _ _ ?t => change t with (obind (Done (VDict DkDict [])) (fun _ => t)) end.
  eapply sim_bind with (P1 := below H); [auto|exact (outs_new (below H) H DkDict (fun a Ha => Ha) _ _ (outs_nil _ _))|].
  intros H1 z zv K1 (-> & -> & _ & O1).
  pose proof (st_step _ _ _ Hb K1) as Hs1. pose proof (inp_keep _ _ _ _ _ K1 Hx) as Hx1.
  pose proof (sim_and _ _ _ _ _ _ _ (sim_iter _ H1 x v Hs1 Hx1) (sim_iter_ H1 x v (st_here _ _ Hs1) (inp_here _ _ _ _ Hs1 Hx1))) as Hi.
  eapply sim_bind with (P1 := below H1); [now apply below_keep|exact Hi|]. intros H2 keys kvs K2 [Hks _]. cbn beta in Hks.
  rewrite snd_bind.
  set (P := fun a => below H a \/ since H1 H2 a) in *.
  apply sim_weak with (P1 := P) (Q1 := out P); [unfold P; auto|intros ? ? ? _; apply own_weak; unfold P; auto|].
  assert (K2' : keeps (below H) H1 H2) by (eapply keeps_weak; [exact (below_keep _ _ K1)|exact K2]).
  assert (Hx2 : inp P H2 x v) by (eapply inp_weak; [|exact (inp_keep _ _ _ _ _ K2' Hx1)]; unfold P; auto).
  apply sim_dict_go; [now apply st_more|exact Hx2| |].
  - exact Hks.
  - now apply outs_more.
Qed.

(** ** Objects *)
Lemma type_name_rel H x v : inn H x v -> htype_name_of E H x = type_name_of E v.
Proof.
  intros Hx. pose proof (inp_view _ _ _ _ Hx) as Ev. destruct (inn_rd _ _ _ Hx) as (F & HF). unfold htype_name_of. rewrite Ev.
  destruct HF as [v Hv|l vs F HF|c l vs F HF|a l vs F Hc HF|a k l vs F Hc HF|a k d ds F Hc HF|a c l vs F Hc HF];
    cbn [shallow]; rewrite ?Hc; reflexivity.
Qed.
Lemma sim_store P H store d dv y w : inn H y w -> out P H d dv ->
  sim P (fun H' _ _ => out P H' d (store_cls_info E store dv w)) H (hstore_cls_info E store d y) (Done tt).
Proof.
  intros Hy Ho. destruct (Ho) as (F & HF & _). unfold hstore_cls_info, store_cls_info.
  destruct HF as [v Hv|l vs F HF|c l vs F HF|a l vs F Hc HF|a k l vs F Hc HF|a k e ds F Hc HF|a c l vs F Hc HF];
    try (apply (sim_at (hret tt)); [now rewrite ?Hc|]; now apply sim_ret).
  - apply (sim_at (hret tt)); [reflexivity|]. apply sim_ret. destruct v; try discriminate; assumption.
  - destruct store.
    + apply (sim_at (set_item a (atom "-cls") (atom (type_name_of E w)))); [now rewrite Hc, (type_name_rel _ _ _ Hy)|].
      eapply sim_weak; [| |eapply sim_set_item; apply outs_atom; [|apply outs_atom; [|exact (out_outs _ _ _ _ Ho)]]]; try reflexivity; [auto|].
      intros H' ? ? _ O'. cbn beta in O'. exact (outs_head _ _ _ _ _ _ O').
    + apply (sim_at (hret tt)); [now rewrite Hc|]. now apply sim_ret.
Qed.
Lemma sim_do o public x v attrs : forall P H r D, st P H -> inp P H x v -> outs P H [ORef r] [VDict DkDict D] ->
  sim P (fun H' _ D' => outs P H' [ORef r] [VDict DkDict D']) H (hdo_serialize E K f hser o public x attrs r)
      (snd (do_serialize E f ser o public v attrs D)).
Proof.
  induction attrs as [|[a cls_] attrs IH]; intros P H r D Hs Hx Ho; cbn [hdo_serialize do_serialize].
  { now apply sim_ret. }
  rewrite snd_bind, snd_lift. fold CT.
  pose proof (sim_and _ _ _ _ _ _ _ (sim_get_attr P H x v a Hs Hx)
    (sim_attr_ H x v a (st_here _ _ Hs) (inp_here _ _ _ _ Hs Hx))) as Hg.
  eapply sim_bind with (P1 := below H); [apply (st_below _ _ Hs)|exact Hg|]. clear Hg. intros H1 y w K1 [[Hy _] _].
  set (P1 := fun a => P a \/ since H H1 a) in *.
  assert (HPP : forall a, P a -> P1 a) by (unfold P1; auto).
  pose proof (keeps_weak _ _ _ _ (st_below _ _ Hs) K1) as K1P.
  assert (Hs1 : st P1 H1) by (now apply st_more).
  assert (Hx1 : inp P1 H1 x v) by (eapply inp_weak; [exact HPP|eapply inp_keep; eassumption]).
  assert (Ho1 : outs P1 H1 [ORef r] [VDict DkDict D]) by (now apply outs_more).
  assert (Hy1 : inp P1 H1 y w) by exact Hy. clear Hy. rename Hy1 into Hy.
  apply sim_weak with (P1 := P1) (Q1 := fun H' _ D' => outs P1 H' [ORef r] [VDict DkDict D']); [exact HPP|intros ? ? ? _; now apply own_weak|].
  clear K1P K1 Ho Hs Hx HPP. clearbody P1. clear H P. rename P1 into P.
  match goal with |- sim _ _ _ (hbind (hread _) ?g) _ => apply (sim_at (g (target cls_ w))) end.
  { unfold hbind at 1, hread, target. destruct cls_; [reflexivity|]. now rewrite (inp_kind _ _ _ _ Hy). }
  rewrite snd_bind. cbn [emit snd obind]. rewrite snd_bind, snd_catch, snd_bind. fold (target cls_ w).
  eapply sim_bind with (P1 := below H1); [apply (st_below _ _ Hs1)|apply sim_catch with (Q := out (below H1))|].
  { eapply sim_next; [apply HR; [eapply st_here; eassumption|eapply inp_here; eassumption]|].
    intros H2 d dv K2 Hd.
    match goal with |- sim _ _ _ _ ?t => change t with (obind (Done tt) (fun _ => t)) end.
    eapply sim_bind with (P1 := below H1); [auto|eapply sim_store; [|exact Hd]|].
    - eapply inn_keep; [exact K2|eapply inp_here; eassumption].
    - intros H3 ? ? K3 O3. cbn beta in O3. apply sim_ret. exact O3. }
  intros H2 d dv K2 Hd. pose proof (keeps_weak _ _ _ _ (st_below _ _ Hs1) K2) as K2P.
  pose proof (st_step _ _ _ Hs1 K2P) as Hs2. pose proof (inp_keep _ _ _ _ _ K2P Hx1) as Hx2.
  destruct d as [d|e], dv as [dv|e']; try contradiction.
  2: { subst e'. destruct (so_strict o); [apply sim_fail|]. destruct (e_noargs e); [apply sim_fail|].
       rewrite snd_bind, snd_warn. cbn [obind]. apply sim_ret. eapply outs_keep; eassumption. }
  assert (O2 : outs P H2 [d; ORef r] [dv; VDict DkDict D]) by (eapply outs_add; eauto using (st_below _ _ Hs1)).
  destruct Hd as (Fd & HFd & _ & _). rewrite (rd_none _ _ _ _ HFd).
  destruct (so_strip_nulls o && is_none dv).
  { apply IH; auto. exact (outs_drop _ _ _ _ _ _ O2). }
  rewrite snd_bind, snd_lift.
  eapply sim_bind with (P1 := P); [auto|apply sim_kt; [apply (st_below _ _ Hs2)|apply outs_atom; [|exact O2]; reflexivity]|].
  intros H4 k kv' K4 O4. cbn beta in O4.
  match goal with |- sim _ _ _ _ ?t => change t with (obind (Done tt) (fun _ => t)) end.
  eapply sim_bind with (P1 := P); [auto|eapply sim_set_item; exact O4|]. intros H5 ? ? K5 O5. cbn beta in O5.
  apply IH; [|eapply inp_keep; [exact K5|eapply inp_keep; [exact K4|assumption]]|exact O5].
  eapply st_step; [eapply st_step; eassumption|eassumption].
Qed.
Lemma attrs_rel o H x v : inn H x v -> hattrs_from_object E o H x = attrs_from_object E o v.
Proof.
  intros Hx. pose proof (inp_view _ _ _ _ Hx) as Ev. destruct (inn_rd _ _ _ Hx) as (F & HF). unfold hattrs_from_object. rewrite Ev.
  destruct HF as [v Hv|l vs F HF|c l vs F HF|a l vs F Hc HF|a k l vs F Hc HF|a k d ds F Hc HF|a c l vs F Hc HF];
    rewrite ?Hc; try reflexivity.
  unfold attrs_from_object, py_dir. assert (Em : map fst (map (fun ax : string * obj => (fst ax, VNone)) l) = map fst vs).
  { clear -HF. induction HF; cbn [map fst]; [reflexivity|]. now f_equal. }
  now rewrite Em.
Qed.
Lemma sim_object o cls x v H : base H -> inn H x v ->
  sim (below H) (out (below H)) H (hser_object E K f hser o cls x) (snd (ser_object E f ser o cls v)).
Proof.
  intros Hb Hx. unfold ser_object. fold CT.
  set (fc := match cls with Some t => if so_strict o then Some t else None | None => None end).
  set (t := match fc with Some t => t | None => class_of v end).
  set (o' := set_store (so_class_info o) (set_attr_opt (normalize_strip_attr (so_attr o)) o)).
  set (public := match t with TClass c => ci_attrs (CT c) | _ => false end && negb (so_privates o)).
  set (ra := match fc with Some t => attrs_from_class E o t | None => attrs_from_object E o v end).
  apply (sim_at (doh attrs <- hlift ra;
   doh _ <- alloc (NDict DkDict []);
   doh _ <- hdo_serialize E K f hser o' public x attrs (length H);
   if so_store_cls o then hret (ORef (length H))
   else hdict_with_meta E o (class_name CT t) (length H))).
  { unfold hser_object. fold CT fc o'. rewrite (inp_kind _ _ _ _ Hx), (attrs_rel o _ _ _ Hx). fold t public ra. reflexivity. }
  rewrite snd_bind, snd_lift. apply sim_pure. intros attrs _.
  match goal with |- sim _ _ _ _ ?t => change t with (obind (Done (VDict DkDict [])) (fun _ => t)) end.
  eapply sim_bind with (P1 := below H); [auto|exact (outs_new (below H) H DkDict (fun a Ha => Ha) _ _ (outs_nil _ _))|].
  intros H1 z zv K1 (-> & -> & _ & O1).
  pose proof (st_step _ _ _ Hb K1) as Hs1. pose proof (inp_keep _ _ _ _ _ K1 Hx) as Hx1.
  rewrite snd_bind. eapply sim_bind with (P1 := below H); [auto|apply sim_do; [exact Hs1|exact Hx1|exact O1]|].
  intros H2 u D K2 O2. cbn beta in O2. clear u.
  pose proof (outs_head _ _ _ _ _ _ O2) as O2h.
  destruct (so_store_cls o); [now apply sim_ret|]. rewrite snd_lift. apply sim_meta; [|exact O2h].
  pose proof (st_step _ _ _ Hs1 K2) as Hs2. apply (st_below _ _ Hs2).
Qed.

(** ** One step *)
Lemma sim_time strip p x v H : base H -> inn H x v ->
  sim (below H) (out (below H)) H (hser_time_like E strip p x) (snd (ser_time_like E f strip p v)).
Proof.
  intros Hb Hx. unfold ser_time_like. fold R. rewrite snd_bind, snd_lift.
  assert (Es : to_str (rt_local R) strip p (shallow H x) = to_str (rt_local R) strip p v).
  { destruct (inn_rd _ _ _ Hx) as (F & HF).
    destruct HF as [v Hv|l vs F HF|c l vs F HF|a l vs F Hc HF|a k l vs F Hc HF|a k d ds F Hc HF|a c l vs F Hc HF];
      cbn [shallow]; rewrite ?Hc; reflexivity. }
  apply (sim_at (hbind (hlift (to_str (rt_local R) strip p v)) (fun sw => hret (atom (fst sw))))).
  { unfold hser_time_like. fold R. rewrite Es. destruct (to_str (rt_local R) strip p v); reflexivity. }
  apply sim_pure. intros sw _. rewrite snd_bind.
  destruct (snd sw); rewrite ?snd_warn;
    apply (sim_ret (below H) (out (below H)) H (atom (fst sw)) (VStr (fst sw))); now apply out_atom.
Qed.
Lemma outs_dict P H names l vs : outs P H l vs -> length names = length l ->
  outd P H (combine (map atom names) l) (combine (map VStr names) vs).
Proof.
  intros (F & HF & Hn & HP) Hl. exists F. split; [|auto]. clear - HF Hl. revert names Hl.
  induction HF as [|x v F l vs G Hx Hl IH]; intros [|s names] He; try discriminate; cbn [map combine]; [constructor|].
  change (F ++ G)%list with ([] ++ F ++ G)%list. constructor; [now constructor|assumption|]. apply IH. now injection He.
Qed.
Lemma sim_step o cls x v H : base H -> inn H x v ->
  sim (below H) (out (below H)) H (hser_step E K f hser o (e_ser E f (target cls v)) cls x)
      (snd (ser_step E f ser o (e_ser E f (target cls v)) cls v)).
Proof.
  intros Hb Hx. destruct (e_ser E f (target cls v)) as [h|] eqn:Eh; [|apply sim_fail].
  assert (Hstr : sim (below H) (out (below H)) H (fun H => hlift (dor s <- py_str R (view H x); Ok (atom s)) H)
                     (snd (lift (dor s <- py_str R v; Ok (VStr s))))).
  { rewrite snd_lift. apply (sim_at (hlift (dor s <- py_str R v; Ok (atom s)))); [now rewrite (inp_view _ _ _ _ Hx)|].
    apply sim_lift. destruct (py_str R v) as [s|]; cbn [rbind]; [|reflexivity]. now apply (out_atom (below H) H (VStr s)). }
  destruct (inn_rd _ _ _ Hx) as (F & HF).
  destruct h; cbn [hser_step ser_step]; fold R.
  - now apply sim_tuple.
  - rewrite snd_bind, snd_lift. eapply sim_next; [now apply sim_attr_|]. intros H1 re rv K1 [_ Hre].
    assert (Ore : out (below H) H1 re rv) by (apply Hre; cbn; tauto). clear Hre.
    rewrite snd_bind, snd_lift. eapply sim_bind with (P1 := below H1); [now apply below_keep|apply sim_attr_|].
    { eapply base_keep; eassumption. }
    { eapply inn_keep; eassumption. }
    intros H2 im iv K2 [_ Him]. assert (Oim : out (below H1) H2 im iv) by (apply Him; cbn; tauto). clear Him.
    assert (O2 : outs (below H) H2 [re; im] [rv; iv]).
    { apply outs_swap. eapply outs_add; [apply out_outs; exact Ore|exact K2|exact Oim|now apply below_keep]. }
    apply (sim_alloc_dict (below H) H2 DkDict _ [(VStr "real", rv); (VStr "imag", iv)]).
    + intros a Ha. exact (below_keep _ _ K2 _ (below_keep _ _ K1 _ Ha)).
    + exact (outs_dict _ _ ["real"; "imag"] _ _ O2 eq_refl).
  - now apply sim_time.
  - now apply sim_time.
  - now apply sim_time.
  - destruct HF as [v Hv|l vs F HF|c l vs F HF|a l vs F Hc HF|a k l vs F Hc HF|a k d ds F Hc HF|a c l vs F Hc HF]; try apply sim_fail.
    destruct v as [| | | | | | | | |[]| | |]; try discriminate; try apply sim_fail.
    rewrite snd_bind. eapply sim_next; [apply sim_dump; [assumption|now apply inp_flat]|]. intros H1 d dv K1 Hd.
    apply (sim_alloc_dict (below H) H1 DkDict _ [(VStr "name", VStr (timezone_name off name)); (VStr "offset", dv)]).
    + apply (below_keep _ _ K1).
    + refine (outs_dict _ _ ["name"; "offset"] [_; _] [_; _] _ eq_refl). apply outs_atom; [reflexivity|]. now apply out_outs.
  - destruct HF as [v Hv|l vs F HF|c l vs F HF|a l vs F Hc HF|a k l vs F Hc HF|a k d ds F Hc HF|a c l vs F Hc HF]; try apply sim_fail.
    destruct v as [| | | | | | | | |[]| | |]; try discriminate; try apply sim_fail. apply sim_ret. now apply out_atom.
  - rewrite snd_lift. now apply sim_primitive.
  - rewrite snd_lift. eapply sim_weak; [| |now apply sim_attr_]; [auto|]. intros H1 y w K1 [_ Hy]. apply Hy.
    destruct (so_enum_name o); cbn; tauto.
  - now apply sim_dict.
  - now apply sim_list.
  - now apply sim_iterable.
  - now apply sim_object.
  - exact Hstr.
  - exact Hstr.
  - now apply sim_union.
  - destruct HF as [v Hv|l vs F HF|c l vs F HF|a l vs F Hc HF|a k l vs F Hc HF|a k d ds F Hc HF|a c l vs F Hc HF]; try apply sim_fail.
    destruct v as [| | | | | | | | |[]| | |]; try discriminate; try apply sim_fail. apply sim_ret. now apply out_atom.
  - rewrite snd_bind, snd_lift. eapply sim_next; [now apply sim_attr_|]. intros H1 k kv K1 [_ Hk].
    assert (Ok1 : out (below H) H1 k kv) by (apply Hk; cbn; tauto).
    apply (sim_alloc_dict (below H) H1 DkDict _ [(VStr "key", kv)]).
    + apply (below_keep _ _ K1).
    + exact (outs_dict _ _ ["key"] [_] [_] (out_outs _ _ _ _ Ok1) eq_refl).
  - exfalso. rewrite HS in Eh. now apply ser_no_custom in Eh.
Qed.
End Refine.


(** ** dump *)
Section Dump.
Variables (E : env) (K : henv) (f : nat) (H : heap).
Hypothesis HS : default_serializers E f.
Hypothesis W : wf_supers (e_ct E).
Hypothesis PE : plain_env E.
Hypothesis AE : agree_env E K H.
Lemma sim_serialize n : forall o cls x v H', base H H' -> inn E H' x v ->
  sim (below H') (out (below H')) H' (hserialize E K f None n o (e_ser E f (target cls v)) cls x)
      (snd (serialize E f n o (e_ser E f (target cls v)) cls v)).
Proof.
  induction n as [|n IH]; intros o cls x v H' Hb Hx; cbn [hserialize serialize].
  - split; [apply keeps_refl|exact I].
  - now apply (sim_step E K f H HS W PE AE).
Qed.
Lemma sim_cut n : forall o cls x v H', base H H' -> inn E H' x v ->
  sim (below H') (out (below H')) H' (hserialize E K f (Some CutModel.recursion_error) n o (e_ser E f (target cls v)) cls x)
      (snd (cut_serialize E f no_cut n o (e_ser E f (target cls v)) cls v)).
Proof.
  induction n as [|n IH]; intros o cls x v H' Hb Hx; cbn [hserialize cut_serialize].
  - split; [apply keeps_refl|reflexivity].
  - cbn [no_cut]. now apply (sim_step E K f H HS W PE AE).
Qed.
Lemma start_base : base H H.
Proof. constructor; [auto|auto|apply keeps_refl]. Qed.
Lemma start_inn x v : read H x = Some v -> plain_value (e_ct E) v = true -> inn E H x v.
Proof.
  intros Hr Hp. split; [assumption|]. apply read_rd in Hr as (F & HF). exists F. split; [assumption|].
  intros a Ha. exact (rd_bound _ _ _ _ _ HF Ha).
Qed.
Lemma hdump_sim n o cls x v : read H x = Some v -> plain_value (e_ct E) v = true ->
  sim (below H) (out (below H)) H (hdump E K f None n o cls x) (snd (dump E f n o cls v)).
Proof.
  intros Hr Hp. apply (sim_dump E f H _ _ (sim_serialize n)); [apply start_base|now apply start_inn].
Qed.
Lemma hdump_cut_sim n o cls x v : read H x = Some v -> plain_value (e_ct E) v = true ->
  sim (below H) (out (below H)) H (hdump E K f (Some CutModel.recursion_error) n o cls x) (snd (cut_dump E f no_cut n o cls v)).
Proof.
  intros Hr Hp. apply (sim_dump E f H _ _ (sim_cut n)); [apply start_base|now apply start_inn].
Qed.
Lemma sim_same m t : sim (below H) (out (below H)) H m t -> same_result (m H) t.
Proof.
  intros [_ Hm]. unfold same_result. destruct (snd (m H)), t; try contradiction; auto.
  destruct Hm as (F & HF & _). eapply rd_read; eassumption.
Qed.
End Dump.

(** ** Ways *)
Definition parts (H : heap) (l : list obj) (Fs : list (list nat)) : Prop :=
  Forall2 (fun y G => exists w, rd H y w G) l Fs.
Lemma rd_children H x v F : rd H x v F ->
  exists Fs, parts H (children H x) Fs /\ F = (match x with ORef a => [a] | _ => [] end ++ concat Fs)%list.
Proof.
  assert (Hs : forall l vs F, rds H l vs F -> exists Fs, parts H l Fs /\ F = concat Fs).
  { induction 1 as [|x0 v0 F0 l vs G Hx Hl (Fs & I1 & ->)]; [exists []; split; [constructor|reflexivity]|].
    exists (F0 :: Fs). split; [constructor; eauto|reflexivity]. }
  assert (Hd : forall l vs F, rdd H l vs F -> exists Fs, parts H (flat_map (fun kx => [fst kx; snd kx]) l) Fs /\ F = concat Fs).
  { induction 1 as [|k kv F1 x0 v0 F2 l vs G Hk Hx Hl (Fs & I1 & ->)]; [exists []; split; [constructor|reflexivity]|].
    exists (F1 :: F2 :: Fs). split; [constructor; [eauto|constructor; eauto]|reflexivity]. }
  assert (Ha : forall l vs F, rda H l vs F -> exists Fs, parts H (map snd l) Fs /\ F = concat Fs).
  { induction 1 as [|n x0 v0 F0 l vs G Hx Hl (Fs & I1 & ->)]; [exists []; split; [constructor|reflexivity]|].
    exists (F0 :: Fs). split; [constructor; eauto|reflexivity]. }
  intros Hr. destruct Hr as [v Hv|l vs F HF|c l vs F HF|a l vs F Hc HF|a k l vs F Hc HF|a k d ds F Hc HF|a c l vs F Hc HF];
    cbn [children]; rewrite ?Hc;
    try (destruct (Hs _ _ _ HF) as (Fs & I1 & ->)); try (destruct (Hd _ _ _ HF) as (Fs & I1 & ->));
    try (destruct (Ha _ _ _ HF) as (Fs & I1 & ->)); eauto.
  exists []. split; [constructor|reflexivity].
Qed.
Lemma follow_in H p : forall x v F a, rd H x v F -> follow H x p = Some (ORef a) -> In a F.
Proof.
  induction p as [|i p IH]; intros x v F a Hr Hf; cbn [follow] in Hf.
  - injection Hf as ->. destruct (rd_children _ _ _ _ Hr) as (Fs & _ & ->). now left.
  - destruct (rd_children _ _ _ _ Hr) as (Fs & Hp & ->). pose proof (nth_Forall2 _ _ _ i Hp) as Hn.
    destruct (nth_error (children H x) i) as [y|]; [|discriminate]. destruct (nth_error Fs i) as [G|] eqn:EG; [|contradiction].
    destruct Hn as (w & Hw). apply in_or_app. right. apply in_concat. exists G. split; [eapply nth_error_In; eassumption|eauto].
Qed.
Lemma concat_once (Fs : list (list nat)) a : NoDup (concat Fs) -> forall i j G G', nth_error Fs i = Some G -> nth_error Fs j = Some G' ->
  In a G -> In a G' -> i = j.
Proof.
  induction Fs as [|F Fs IH]; intros Hn i j G G' Hi Hj Ha Hb; [destruct i; discriminate|]. cbn [concat] in Hn.
  assert (Hcross : forall n G, nth_error Fs n = Some G -> In a G -> In a F -> False).
  { intros n G0 HG HaG HaF. apply (NoDup_app_dis _ _ a Hn HaF). apply in_concat. exists G0. split; [eapply nth_error_In; eassumption|assumption]. }
  destruct i as [|i], j as [|j]; cbn [nth_error] in *.
  - reflexivity.
  - injection Hi as <-. destruct (Hcross _ _ Hj Hb Ha).
  - injection Hj as <-. destruct (Hcross _ _ Hi Ha Hb).
  - f_equal. eapply IH; eauto. eapply NoDup_app_r; eassumption.
Qed.
Lemma follow_once H p : forall q x v F a, rd H x v F -> NoDup F ->
  follow H x p = Some (ORef a) -> follow H x q = Some (ORef a) -> p = q.
Proof.
  assert (Hself : forall j q a v F, rd H (ORef a) v F -> NoDup F -> follow H (ORef a) (j :: q) = Some (ORef a) -> False).
  { intros j q a v F Hr Hn Hf. destruct (rd_children _ _ _ _ Hr) as (Fs & Hp & ->). cbn [follow] in Hf.
    pose proof (nth_Forall2 _ _ _ j Hp) as Hj.
    destruct (nth_error (children H (ORef a)) j) as [y|]; [|discriminate]. destruct (nth_error Fs j) as [G|] eqn:EG; [|contradiction].
    destruct Hj as (w & Hw). inversion Hn as [|? ? Hni _]; subst. apply Hni. apply in_concat. exists G.
    split; [eapply nth_error_In; eassumption|]. eapply follow_in; eassumption. }
  induction p as [|i p IH]; intros [|j q] x v F a Hr Hn Hp Hq.
  - reflexivity.
  - cbn [follow] in Hp. injection Hp as ->. destruct (Hself _ _ _ _ _ Hr Hn Hq).
  - cbn [follow] in Hq. injection Hq as ->. destruct (Hself _ _ _ _ _ Hr Hn Hp).
  - destruct (rd_children _ _ _ _ Hr) as (Fs & Hps & ->). cbn [follow] in Hp, Hq.
    pose proof (nth_Forall2 _ _ _ i Hps) as Hi. pose proof (nth_Forall2 _ _ _ j Hps) as Hj.
    destruct (nth_error (children H x) i) as [y|] eqn:Ey; [|discriminate]. destruct (nth_error Fs i) as [G|] eqn:EG; [|contradiction].
    destruct (nth_error (children H x) j) as [z|] eqn:Ez; [|discriminate]. destruct (nth_error Fs j) as [G'|] eqn:EG'; [|contradiction].
    destruct Hi as (w & Hw), Hj as (w' & Hw').
    assert (Hnc : NoDup (concat Fs)) by (eapply NoDup_app_r; eassumption).
    assert (i = j) by (eapply concat_once; [exact Hnc|exact EG|exact EG'| |]; eapply follow_in; eassumption). subst j.
    rewrite Ey in Ez. injection Ez as <-. rewrite EG in EG'. injection EG' as <-. f_equal.
    eapply IH; [exact Hw| |exact Hp|exact Hq].
    clear -Hnc EG. revert i EG. induction Fs as [|F Fs IH]; intros [|i] EG; try discriminate; cbn [nth_error concat] in *.
    + injection EG as ->. eapply NoDup_app_l; eassumption.
    + eapply IH; [eapply NoDup_app_r; eassumption|eassumption].
Qed.

(** ** The theorems *)
Lemma dump_of_tree E K f n o cls x v H :
  default_serializers E f -> wf_supers (e_ct E) -> plain_env E -> agree_env E K H ->
  read H x = Some v -> plain_value (e_ct E) v = true ->
  same_result (hdump E K f None n o cls x H) (snd (dump E f n o cls v)).
Proof. intros HS W PE AE Hr Hp. now apply sim_same, hdump_sim. Qed.
Lemma dump_of_tree_limited E K f n o cls x v H :
  default_serializers E f -> wf_supers (e_ct E) -> plain_env E -> agree_env E K H ->
  read H x = Some v -> plain_value (e_ct E) v = true ->
  same_result (hdump E K f (Some CutModel.recursion_error) n o cls x H) (snd (cut_dump E f no_cut n o cls v)).
Proof. intros HS W PE AE Hr Hp. now apply sim_same, hdump_cut_sim. Qed.
Lemma dump_unshared E K f n o cls x v H H' y a p q :
  default_serializers E f -> wf_supers (e_ct E) -> plain_env E -> agree_env E K H ->
  read H x = Some v -> plain_value (e_ct E) v = true ->
  hdump E K f None n o cls x H = (H', Done y) ->
  follow H' y p = Some (ORef a) -> length H <= a /\ (follow H' y q = Some (ORef a) -> q = p).
Proof.
  intros HS W PE AE Hr Hp Hd Hf. destruct (hdump_sim E K f H HS W PE AE n o cls x v Hr Hp) as [_ Hs]. rewrite Hd in Hs. cbn [fst snd] in Hs.
  destruct (snd (dump E f n o cls v)) as [w|e|]; try contradiction. destruct Hs as (F & HF & Hn & Ho). split.
  - pose proof (Ho a (follow_in _ _ _ _ _ _ HF Hf)) as Hb. unfold below in Hb. lia.
  - intros Hq. eapply follow_once; eassumption.
Qed.
