(** * Loading with several tasks: proofs *)
From Coq Require Import Lia.
From Verif Require Import PyBaseFacts EngineFacts MultitaskSpec MultitaskProofs DumpLaws LoadSpec LoadFacts
  LoadLaws LoadObject LoadTypes LoadMeta ConformSpec ConformProofs RoundTripFacts ParallelSpec.
Local Open Scope string_scope.

(** ** Fair schedules finish *)
Section Fair.
Context {A B : Type}.
Variable func : nat -> A -> res B.
Variable filler : B.
Variable obj : list A.
Variable left : nat.
Variable sl : list (nat * nat).
Hypothesis Hc : chain 0 sl (length obj).
Let step := mstep func obj left.
Let inv := Inv func filler obj left sl.

Lemma weight_le sched : forall st, inv st -> weight (fold_left step sched st) <= weight st.
Proof.
  induction sched as [|a r IH]; intros st I; cbn [fold_left]; [lia|].
  specialize (IH _ (inv_step func filler obj left sl Hc st a I)). fold step in IH.
  destruct (enabled st a) eqn:Ha.
  - pose proof (enabled_decreases func filler obj left sl Hc _ _ I Ha). fold step in H. lia.
  - pose proof (disabled_stutters func obj left _ _ Ha) as X. fold step in X. rewrite X in *. lia.
Qed.
Lemma effective_turn a r : forall st, inv st -> enabled st a = true -> In a r ->
  weight (fold_left step r st) < weight st.
Proof.
  induction r as [|b r IH]; intros st I Ha Hin; [contradiction|]. cbn [fold_left].
  destruct (enabled st b) eqn:Hb.
  - pose proof (enabled_decreases func filler obj left sl Hc _ _ I Hb). fold step in H.
    pose proof (weight_le r _ (inv_step func filler obj left sl Hc st b I)). fold step in H0. lia.
  - pose proof (disabled_stutters func obj left _ _ Hb) as X. fold step in X. rewrite X.
    destruct Hin as [->|Hin]; [congruence|]. now apply IH.
Qed.
Lemma finished_disabled (st : mstate B) a : finished st = true -> enabled st a = false.
Proof.
  unfold finished. destruct (m_todo st) as [|p r] eqn:Et; [|discriminate]. intros H.
  destruct a as [|k]; cbn [enabled]; [now rewrite Et|].
  destruct (nth_error (m_workers st) k) as [w|] eqn:Ew; [|reflexivity].
  rewrite forallb_forall in H. now rewrite (H w (nth_error_In _ _ Ew)).
Qed.
Lemma finished_stays sched : forall st, finished st = true -> fold_left step sched st = st.
Proof.
  induction sched as [|a r IH]; intros st H; [reflexivity|]. cbn [fold_left].
  pose proof (disabled_stutters func obj left _ _ (finished_disabled _ a H)) as X. fold step in X.
  rewrite X. now apply IH.
Qed.
Lemma inv_sched sched st : inv st -> inv (fold_left step sched st).
Proof. intros I. now apply inv_fold. Qed.
Lemma rounds_finish k rs : length sl <= k -> Forall (round k) rs -> forall st, inv st ->
  weight st <= length rs -> finished (fold_left step (concat rs) st) = true.
Proof.
  intros Hk. induction rs as [|r rs IH]; intros Hr st I Hw; cbn [concat length] in *.
  - cbn [fold_left]. destruct (finished st) eqn:Ef; [reflexivity|].
    destruct (unfinished_enabled _ Ef) as (a & Ha).
    pose proof (enabled_decreases func filler obj left sl Hc _ _ I Ha). lia.
  - inversion Hr as [|? ? [Hm Hs] Hr']; subst. rewrite fold_left_app.
    destruct (finished st) eqn:Ef.
    { rewrite !finished_stays; auto. now rewrite finished_stays. }
    destruct (unfinished_enabled _ Ef) as (a & Ha).
    assert (Hin : In a r).
    { destruct a as [|i]; [exact Hm|]. apply Hs. cbn [enabled] in Ha.
      destruct (nth_error (m_workers st) i) eqn:Ei; [|discriminate]. apply nth_error_len in Ei.
      pose proof (inv_count _ _ _ _ _ _ I). lia. }
    pose proof (effective_turn a r st I Ha Hin). apply IH; [exact Hr'|now apply inv_sched|lia].
Qed.
End Fair.
Lemma fair_finishes {A B} (func : nat -> A -> res B) filler obj tasks k s :
  0 < tasks <= k -> obj <> [] -> fair_schedule k (2 * length obj + k) s ->
  exists l, multi_task func filler obj tasks s = Some (Ok l).
Proof.
  intros Ht Ho (rs & -> & Hr & Hl).
  assert (Hn : 0 < length obj) by (destruct obj; [congruence|cbn; lia]).
  destruct (slices_defined tasks _ ltac:(lia) Hn) as [sl Hs].
  destruct (slices_ok _ _ _ Hs) as [Hc [Hlen _]]. unfold multi_task. rewrite Hs. unfold mrun.
  rewrite (rounds_finish func filler obj _ sl Hc k rs); [eauto|lia|exact Hr|now apply inv_init|].
  unfold weight; simpl. rewrite (chain_sweight _ _ _ Hc). lia.
Qed.

(** ** One task *)
Lemma tload_step_one E ld sched f o cls j :
  tload_step E ld sched 1 f o cls j = load_step E (ld 1%Z) f o cls j.
Proof.
  unfold tload_step, load_step.
  assert (X : forall o h t, tdeser_step E ld sched 1 f o h t j = deser_step E (ld 1%Z) f o h t j)
    by (intros o' [] t; reflexivity).
  destruct (is_none j); [destruct (can_match_none (e_ct E) cls) as [[]|]|]; try reflexivity;
    destruct (negb (lo_strict o) && same_type j cls || match cls with Some TAny => true | _ => false end);
    try reflexivity;
    destruct (match cls with Some (TFwd s) => dor t <- e_resolve E f s; Ok (Some t) | _ => Ok cls end) as [c1|];
    try reflexivity; rewrite ?bind_lift_ok; destruct (negb (valid_type j)); try reflexivity;
    destruct (get_cls_and_meta E f j) as [mh|]; try reflexivity; rewrite ?bind_lift_ok;
    destruct (determine_precedence c1 (fst mh) (Some (class_of j)) (lo_inferred o)) as [t|]; try reflexivity;
    destruct (e_deser E f t) as [h|]; try reflexivity; cbv zeta; now rewrite X.
Qed.
Lemma tload_one_both E sch n : forall f o cls j,
  mle (tload E sch n 1 f o cls j) (load E n f o cls j) /\ mle (load E n f o cls j) (tload E sch n 1 f o cls j).
Proof.
  induction n as [|n IH]; intros f o cls j.
  - split; apply mle_oof.
  - cbn [tload load]. rewrite tload_step_one.
    split; apply load_step_mono; intros; apply IH.
Qed.
Lemma tload_one E sch n f o cls j : snd (tload E sch n 1 f o cls j) = snd (load E n f o cls j).
Proof. destruct (tload_one_both E sch n f o cls j) as [[H|H] [H'|H']]; congruence. Qed.

(** ** Simulation
    [any]: the schedules are arbitrary, so that the call may be unfinished. *)
Definition sim {A} (any : bool) (m : M A) (a : A) : Prop :=
  snd m = Done a \/ (any = true /\ snd m = Oof).
Lemma sim_done {A} any (m : M A) a : snd m = Done a -> sim any m a.
Proof. now left. Qed.
Lemma sim_bind {A B} any (m : M A) (k : A -> M B) a b :
  sim any m a -> sim any (k a) b -> sim any (mbind m k) b.
Proof.
  intros [H|[Ha H]] [H'|[Hb H']].
  - left. apply bind_done. eauto.
  - right. split; [exact Hb|]. rewrite (bind_events _ _ _ H). exact H'.
  - right. split; [exact Ha|]. unfold mbind. now rewrite H.
  - right. split; [exact Ha|]. unfold mbind. now rewrite H.
Qed.
Lemma sim_try {A} any (m : M A) h a : sim any m a -> sim any (mtry m h) a.
Proof.
  intros [H|[Ha H]].
  - left. apply try_done. now left.
  - right. split; [exact Ha|]. unfold mtry. now rewrite H.
Qed.

Lemma getitem_nth CT l i x : nth_error l i = Some x -> py_getitem CT (VList l) (VInt (Z.of_nat i)) = Ok x.
Proof.
  intros H. pose proof (nth_error_len _ _ _ H). cbn [py_getitem].
  destruct (Z.ltb_spec (Z.of_nat i) 0); [lia|].
  destruct (Z.leb_spec 0 (Z.of_nat i)); [|lia]. destruct (Z.ltb_spec (Z.of_nat i) (Z.of_nat (length l))); [|lia].
  cbn [andb]. now rewrite Nat2Z.id, H.
Qed.
Definition ok_opts (s : bool) (o : lopts) : Prop :=
  no_hints o /\ (forall g k, lo_kt o = Some g -> g k = Ok k) /\ lo_warn o = false /\ lo_strict o = s.
Definition inner (o : lopts) (t : ty) (cls : option ty) : lopts :=
  set_inferred (changed t cls) (set_hints (Some (match lo_hints o with Some h => h | None => [] end)) o).
Lemma ok_inner s o t cls : ok_opts s o -> ok_opts s (inner o t cls) /\ lo_hints (inner o t cls) = Some [].
Proof.
  intros (H1 & H2 & H3 & H4). unfold inner, set_inferred, set_hints. cbn.
  assert (X : match lo_hints o with Some h => h | None => [] end = []) by (destruct H1 as [->| ->]; reflexivity).
  rewrite X. split; [|reflexivity]. unfold ok_opts, no_hints. cbn. repeat split; auto.
Qed.
Definition target (cls : option ty) (j : value) : ty := match cls with Some t => t | None => class_of j end.
Definition not_fwd (cls : option ty) : Prop := match cls with Some (TFwd _) => False | _ => True end.
Definition pure_handler (h : dhandler) : bool :=
  match h with
  | DDatetime | DDate | DTime | DTimedelta | DNone | DPrimitive | DEnum | DUUID | DDecimal | DPath | DZone
  | DCustom _ => true
  | _ => false
  end.

Section Sim.
Variable E : env.
Variable any s : bool.
Variable K : nat.
Variable sch : nat -> value -> list action.
Let CT := e_ct E.
Hypothesis HD : default_deserializers E 0.
Hypothesis HF : any = false -> fair K sch.

Lemma step_sim n k o cls j v : not_fwd cls -> no_meta_entry j ->
  snd (load E (S n) 0 o cls j) = Done v ->
  (forall h, skips o cls j = false -> e_deser E 0 (target cls j) = Some h ->
     snd (deser_step E (load E n) 0 (inner o (target cls j) cls) h (target cls j) j) = Done v ->
     sim any (tdeser_step E (tload E sch n) (sch n) k 0 (inner o (target cls j) cls) h (target cls j) j) v) ->
  sim any (tload E sch (S n) k 0 o cls j) v.
Proof.
  intros Hf Hm H Hs. apply load_done in H as [Hn H]. cbn [tload]. unfold tload_step.
  apply (sim_bind _ _ _ tt).
  { left. destruct j; cbn [is_none]; try reflexivity. now rewrite (Hn eq_refl). }
  unfold skips in H, Hs.
  destruct (negb (lo_strict o) && same_type j cls || match cls with Some TAny => true | _ => false end).
  - destruct H as [-> Ha]. apply (sim_bind _ _ _ tt); [|now left]. left. apply lift_done.
    destruct cls as [t|]; [|reflexivity]. now apply validate_ok, Ha.
  - destruct H as (c1 & tm & hints & t & h & Hc & Hv & Hg & Hp & Hh & Hr & Ha).
    assert (Ec : c1 = cls) by (destruct cls as [[]|]; try exact Hc; contradiction). subst c1.
    assert (El : match cls with Some (TFwd s) => dor t <- e_resolve E 0 s; Ok (Some t) | _ => Ok cls end = Ok cls)
      by (destruct cls as [[]|]; try reflexivity; contradiction).
    rewrite El, bind_lift_ok, Hv. cbn [negb].
    rewrite (no_meta_get _ _ _ Hm) in Hg. injection Hg as <- <-.
    rewrite (no_meta_get _ _ _ Hm), bind_lift_ok. cbn [fst snd].
    assert (Et : t = target cls j).
    { unfold target. unfold determine_precedence in Hp. destruct cls as [u|], (lo_inferred o); cbn in Hp; congruence. }
    subst t. rewrite Hp, Hh. cbv zeta. apply sim_try. apply (sim_bind _ _ _ v).
    + apply (Hs h eq_refl Hh Hr).
    + apply (sim_bind _ _ _ tt); [|now left]. left. now apply lift_done, validate_ok.
Qed.
Lemma pure_same n k cls j o h : not_fwd cls -> no_meta_entry j ->
  e_deser E 0 (target cls j) = Some h -> pure_handler h = true ->
  tload E sch n k 0 o cls j = load E n 0 o cls j.
Proof.
  intros Hf Hm Hh Hp. destruct n as [|n]; [reflexivity|]. cbn [tload load]. unfold tload_step, load_step.
  assert (El : match cls with Some (TFwd s) => dor t <- e_resolve E 0 s; Ok (Some t) | _ => Ok cls end = Ok cls)
    by (destruct cls as [[]|]; try reflexivity; contradiction).
  rewrite El, (no_meta_get _ _ _ Hm). cbn [fst snd].
  assert (Et : determine_precedence cls None (Some (class_of j)) (lo_inferred o) = Some (target cls j)).
  { unfold determine_precedence. destruct cls as [u|], (lo_inferred o); reflexivity. }
  rewrite !bind_lift_ok. cbn [fst snd]. rewrite Et, Hh. cbv zeta.
  assert (X : forall o', tdeser_step E (tload E sch n) (sch n) k 0 o' h (target cls j) j =
                         deser_step E (load E n) 0 o' h (target cls j) j)
    by (intros o'; destruct h; try discriminate Hp; reflexivity).
  now rewrite X.
Qed.

Section Step.
Variable n : nat.
Hypothesis IH : forall k o t j v, (1 <= k <= Z.of_nat K)%Z -> ok_opts s o -> plain_input j -> tidy CT s t j ->
  snd (load E n 0 o t j) = Done v -> sim any (tload E sch n k 0 o t j) v.
Variable k : Z.
Hypothesis Hk : (1 < k <= Z.of_nat K)%Z.
Let ld := load E n.
Let tl := tload E sch n k.

Lemma parallel_sim o t l ys : ok_opts s o -> l <> [] -> Forall plain_input l -> Forall (tidy CT s t) l ->
  Forall2 (fun x y => snd (load E n 0 o t x) = Done y) l ys ->
  sim any (parallel_list E (tload E sch n) (sch n) k o t (VList l)) ys.
Proof.
  intros Ho Hl Hp Ht Hy. unfold parallel_list. cbn [py_iter]. rewrite bind_lift_ok. cbv zeta.
  set (left := tasks_left (Z.to_nat k) (length l)).
  assert (Hleft : (1 <= Z.of_nat left <= Z.of_nat K)%Z).
  { unfold left, tasks_left. destruct (Z.to_nat k - tasks_used (Z.to_nat k) (length l)) eqn:El; lia. }
  set (call := fun (k0 : nat) i => dom x <- lift (py_getitem (e_ct E) (VList l) (VInt (Z.of_nat i)));
                      tload E sch n (Z.of_nat k0) 0 o t x).
  assert (Hcall : forall i y, nth_error ys i = Some y -> sim any (call left i) y).
  { intros i y Hi. destruct (nth_error l i) as [x|] eqn:Hx.
    2:{ apply nth_error_None in Hx. apply nth_error_len in Hi. pose proof (Forall2_len _ _ _ Hy). lia. }
    unfold call. fold CT. rewrite (getitem_nth _ _ _ _ Hx), bind_lift_ok.
    assert (Hxin := nth_error_In _ _ Hx). rewrite Forall_forall in Hp, Ht.
    apply IH; auto. clear -Hy Hx Hi. revert i Hx Hi. induction Hy as [|x' y' l ys H HH IHl]; intros [|i] Hx Hi; try discriminate.
    - cbn in *. congruence.
    - eapply IHl; eauto. }
  change (sim any (if existsb (fun i => is_oof (call left i)) (seq 0 (length l)) then oof
                   else match multi_task (fun k0 i => to_res (call k0 i)) (VInt 0) (seq 0 (length l))
                                         (Z.to_nat k) (sch n (VList l)) with
                        | Some r => lift r
                        | None => oof
                        end) ys).
  destruct (existsb (fun i => is_oof (call left i)) (seq 0 (length l))) eqn:Eo.
  { apply existsb_exists in Eo as (i & Hi & Eo). apply in_seq in Hi. right. split; [|reflexivity].
    destruct (nth_error ys i) as [y|] eqn:Ey.
    2:{ apply nth_error_None in Ey. pose proof (Forall2_len _ _ _ Hy). lia. }
    destruct (Hcall _ _ Ey) as [H|[H _]]; [|exact H]. unfold is_oof in Eo. rewrite H in Eo. discriminate. }
  assert (Hok : forall i y, nth_error ys i = Some y -> to_res (call left i) = Ok y).
  { intros i y Hi. destruct (Hcall _ _ Hi) as [H|[_ H]]; [unfold to_res; now rewrite H|].
    exfalso. rewrite <- not_true_iff_false in Eo. apply Eo. apply existsb_exists. exists i. split.
    - apply in_seq. apply nth_error_len in Hi. pose proof (Forall2_len _ _ _ Hy). lia.
    - unfold is_oof. now rewrite H. }
  assert (Hfin : any = false -> exists r,
            multi_task (fun k0 i => to_res (call k0 i)) (VInt 0) (seq 0 (length l)) (Z.to_nat k) (sch n (VList l)) = Some (Ok r)).
  { intros Ha. apply (fair_finishes _ _ _ _ K); [lia| |].
    - destruct l; [congruence|discriminate].
    - rewrite seq_length. now apply HF. }
  destruct (multi_task (fun k0 i => to_res (call k0 i)) (VInt 0) (seq 0 (length l)) (Z.to_nat k) (sch n (VList l)))
    as [[r|e]|] eqn:Em.
  - left. cbn [lift ret snd]. f_equal. apply multi_task_slots in Em as [Hlen Hslot]. rewrite seq_length in *.
    apply nth_error_ext_full. intros i. destruct (nth_error ys i) as [y|] eqn:Ey.
    + assert (Hi : i < length l) by (apply nth_error_len in Ey; pose proof (Forall2_len _ _ _ Hy); lia).
      assert (Hs : nth_error (seq 0 (length l)) i = Some i).
      { rewrite (nth_error_nth' _ 0) by (rewrite seq_length; lia). now rewrite seq_nth. }
      destruct (Hslot i i Hs) as [Hg _]. cbv zeta in Hg.
      destruct Hg as (v & Hv & Hr).
      { intros j x Hj Hx. assert (x = j).
        { pose proof (nth_error_len _ _ _ Hx). rewrite seq_length in *. rewrite (nth_error_nth' _ 0) in Hx by (rewrite seq_length; lia).
          rewrite seq_nth in Hx by lia. cbn in Hx. congruence. }
        subst x. destruct (nth_error ys j) as [z|] eqn:Ez.
        - exists z. now apply Hok.
        - apply nth_error_None in Ez. pose proof (Forall2_len _ _ _ Hy). lia. }
      rewrite Hr. f_equal. apply Hok in Ey. fold left in Hv. congruence.
    + apply nth_error_None in Ey. apply nth_error_None. pose proof (Forall2_len _ _ _ Hy). lia.
  - apply multi_task_never_fails in Em as [[H|H] _]; [|lia]. destruct l; [congruence|discriminate].
  - right. split; [|reflexivity]. destruct any; [reflexivity|]. destruct (Hfin eq_refl) as (r & Hr). discriminate.
Qed.
Lemma k_range : (1 <= k <= Z.of_nat K)%Z. Proof. lia. Qed.
Lemma list_sim o args l ys : ok_opts s o -> l <> [] -> Forall plain_input l -> Forall (tidy CT s (hd_error args)) l ->
  snd (deser_list E (load E n) 0 o args (VList l)) = Done ys ->
  sim any (tdeser_list E (tload E sch n) (sch n) k 0 o args (VList l)) ys.
Proof.
  intros Ho Hl Hp Ht H. unfold deser_list in H. cbn [py_iter] in H. rewrite bind_lift_ok in H. cbv zeta in H.
  destruct Ho as (H1 & H2 & H3 & H4). rewrite H3 in H. apply list_go_plain in H.
  unfold tdeser_list. cbv zeta. destruct (Z.eqb_spec k 1) as [Hk1|_]; [lia|]. destruct (Z.ltb_spec 1 k); [|lia].
  apply parallel_sim; auto. destruct args; cbn; unfold ok_opts, no_hints; cbn; tauto.
Qed.
Lemma iterable_sim o b h args l v : list_head h -> args = [] \/ (exists t, args = [t]) ->
  ok_opts s o -> l <> [] -> Forall plain_input l -> Forall (tidy CT s (hd_error args)) l ->
  snd (deser_iterable E (load E n) 0 o (TApp b h args) (VList l)) = Done v ->
  sim any (tdeser_iterable E (tload E sch n) (sch n) k 0 o (TApp b h args) (VList l)) v.
Proof.
  intros Hh Ha Ho Hl Hp Ht H. unfold deser_iterable in H. unfold tdeser_iterable.
  assert (Ea : match raw_args (TApp b h args) with None => Ok [] | Some [a] => Ok [a] | Some _ => raise KType end = Ok args)
    by (destruct Ha as [->|(t & ->)]; reflexivity).
  rewrite Ea, bind_lift_ok in H. rewrite Ea, bind_lift_ok. apply bind_done in H as (ys & Hy & H).
  apply (sim_bind _ _ _ ys); [now apply list_sim|]. now left.
Qed.
Lemma mmap_sim o t l : ok_opts s o -> Forall plain_input l -> Forall (tidy CT s t) l -> forall ys,
  snd (mmap (load E n 0 o t) l) = Done ys -> sim any (mmap (tload E sch n k 0 o t) l) ys.
Proof.
  intros Ho. induction l as [|x l IHl]; intros Hp Ht ys H; [now left|]. cbn [mmap] in *.
  inversion Hp; subst. inversion Ht; subst.
  apply bind_done in H as (y & Hy & H). apply bind_done in H as (ys' & Hys & H).
  apply (sim_bind _ _ _ y); [apply IH; auto; lia|]. apply (sim_bind _ _ _ ys'); [now apply IHl|]. now left.
Qed.
Lemma tuple_go_sim o : ok_opts s o -> forall l ts, Forall plain_input l ->
  Forall2 (fun t x => tidy CT s (Some t) x) ts l -> forall ys,
  snd (deser_tuple_go (load E n) 0 o l ts) = Done ys -> sim any (deser_tuple_go (tload E sch n k) 0 o l ts) ys.
Proof.
  intros Ho. induction l as [|x l IHl]; intros ts Hp Ht ys H; [now left|]. cbn [deser_tuple_go] in *.
  inversion Ht as [|t ? ts' ? Hx Hts]; subst. inversion Hp; subst.
  apply bind_done in H as (y & Hy & H). apply bind_done in H as (ys' & Hys & H).
  apply (sim_bind _ _ _ y); [apply IH; auto; lia|]. apply (sim_bind _ _ _ ys'); [now apply IHl|]. now left.
Qed.
Lemma ok_kt_none o : ok_opts s o -> ok_opts s (set_kt None o).
Proof. intros (H1 & H2 & H3 & H4). unfold ok_opts, no_hints, set_kt. cbn. repeat split; auto. discriminate. Qed.
Definition the_kt (o : lopts) : value -> res value := match lo_kt o with Some g => g | None => fun k => Ok k end.
Lemma the_kt_id o x : ok_opts s o -> the_kt o x = Ok x.
Proof. intros (_ & H & _). unfold the_kt. destruct (lo_kt o); [now apply H|reflexivity]. Qed.
Lemma ok_kt_some o : ok_opts s o -> ok_opts s (set_kt (Some (the_kt o)) o).
Proof.
  intros Ho. pose proof (fun x => the_kt_id o x Ho) as X. destruct Ho as (H1 & H2 & H3 & H4).
  unfold ok_opts, no_hints, set_kt. cbn. repeat split; auto. intros g x Hg. injection Hg as <-. apply X.
Qed.
Lemma dict_go_sim ok ov g kc vc : ok_opts s ok -> ok_opts s ov -> (forall x, g x = Ok x) -> forall d,
  Forall (fun kx => plain_input (fst kx) /\ plain_input (snd kx)) d ->
  Forall (fun kx => (forall tk, kc = Some tk -> tidy CT s (Some tk) (fst kx)) /\ tidy CT s vc (snd kx)) d ->
  forall acc r, snd (deser_dict_go E (load E n) 0 ok ov g kc vc d acc) = Done r ->
  sim any (deser_dict_go E (tload E sch n k) 0 ok ov g kc vc d acc) r.
Proof.
  intros H1 H2 Hg. induction d as [|[key x] d IHd]; intros Hp Ht acc r H; [now left|]. cbn [deser_dict_go] in *.
  inversion Hp as [|? ? [P1 P2] Hp']; subst. inversion Ht as [|? ? [T1 T2] Ht']; subst. cbn [fst snd] in *.
  rewrite Hg, bind_lift_ok in H. rewrite Hg, bind_lift_ok.
  apply bind_done in H as (k2 & Hk2 & H). apply bind_done in H as (y & Hy & H).
  apply (sim_bind _ _ _ k2).
  { destruct kc as [tk|]; [|now left]. apply IH; auto; lia. }
  apply (sim_bind _ _ _ y); [apply IH; auto; lia|].
  destruct (hashable (e_ct E) k2); [now apply IHd|discriminate].
Qed.
Lemma pi_dict_entries d : plain_input (VDict DkDict d) ->
  Forall (fun kx => plain_input (fst kx) /\ plain_input (snd kx)) d /\ dget (VStr "-keys") d = None.
Proof.
  intros H. inversion H as [| | | | | | |d' H1 H2]; subst. rewrite Forall_forall in H1, H2. split.
  - apply Forall_forall. intros kx Hin. split; [|now apply H2]. destruct (H1 _ Hin) as (s0 & -> & _). constructor.
  - destruct (dget (VStr "-keys") d) eqn:Eg; [|reflexivity]. apply dget_In in Eg. apply H1 in Eg as (s0 & Hs & _ & Hn).
    cbn in Hs. congruence.
Qed.
Lemma dict_sim o args d r : ok_opts s o -> plain_input (VDict DkDict d) ->
  (args = [] /\ Forall (fun kx => tidy CT s None (snd kx)) d) \/
  (exists tk tv, args = [tk; tv] /\ Forall (fun kx => tidy CT s (Some tk) (fst kx) /\ tidy CT s (Some tv) (snd kx)) d) ->
  snd (deser_dict E (load E n) 0 o args (VDict DkDict d)) = Done r ->
  sim any (deser_dict E (tload E sch n k) 0 o args (VDict DkDict d)) r.
Proof.
  intros Ho Hp Ha H. apply pi_dict_entries in Hp as [Hp Hkeys]. cbn [deser_dict] in *.
  unfold load_hashed_keys in *. rewrite Hkeys in *. rewrite bind_ret_l in H. rewrite bind_ret_l. cbv zeta in *.
  cbn [fst snd] in *. fold (the_kt o) in *.
  pose proof (ok_kt_none _ Ho). pose proof (ok_kt_some _ Ho). pose proof (fun x => the_kt_id o x Ho).
  destruct Ha as [[-> Ht]|(tk & tv & -> & Ht)].
  - apply dict_go_sim; auto. eapply Forall_impl; [|exact Ht]. intros kx Hx. split; [discriminate|exact Hx].
  - apply dict_go_sim; auto. eapply Forall_impl; [|exact Ht]. intros kx [Hx Hy]. split; [|exact Hy].
    intros t' Et. now injection Et as <-.
Qed.

(** *** Objects *)
Lemma value_from_obj_sim o p x y : ok_opts s o -> plain_input x -> tidy CT s (pa_hint p) x ->
  snd (value_from_obj E (load E n) 0 o [] p x) = Done y ->
  sim any (value_from_obj E (tload E sch n k) 0 o [] p x) y.
Proof.
  intros Ho Hp Ht H. unfold value_from_obj in *. cbn [dget aget] in *. cbv zeta in *.
  change (dget (VStr ("/" ++ pa_name p)) []) with (@None value) in *.
  rewrite bind_lift_ok in H. rewrite bind_lift_ok. cbn [fst snd] in *.
  assert (Ed : determine_precedence (pa_hint p) None None true = pa_hint p)
    by (unfold determine_precedence; cbn; now destruct (pa_hint p)).
  rewrite Ed in *. apply IH; auto; [lia|]. destruct Ho as (H1 & H2 & H3 & H4). unfold ok_opts, no_hints, set_hints. cbn. auto.
Qed.
Lemma constructor_args_sim o d gs : ok_opts s o -> forall ps,
  (forall p x, In p ps -> In (VStr (pa_name p), x) d -> plain_input x /\ tidy CT s (pa_hint p) x) -> forall args,
  snd (constructor_args E (load E n) 0 o [] d gs ps) = Done args ->
  sim any (constructor_args E (tload E sch n k) 0 o [] d gs ps) args.
Proof.
  intros Ho. induction ps as [|p ps IHp]; intros Ht args H; [now left|]. cbn [constructor_args] in *.
  apply bind_done in H as (x & Hx & H). apply bind_done in H as (rest & Hrest & H).
  apply (sim_bind _ _ _ x).
  2:{ apply (sim_bind _ _ _ rest); [|now left]. apply IHp; [|exact Hrest]. intros; apply Ht; auto. now right. }
  unfold value_for_attr in *. destruct (dget (VStr (pa_name p)) d) as [j|] eqn:Eg; [|now left].
  apply bind_done in Hx as (y & Hy & Hx). apply dget_In in Eg.
  destruct (Ht p j (or_introl eq_refl) Eg) as [Hp Hj].
  apply (sim_bind _ _ _ y); [now apply value_from_obj_sim|now left].
Qed.
Lemma constructor_args_has d gs o : forall ps args,
  snd (constructor_args E (load E n) 0 o [] d gs ps) = Done args ->
  forall p x, In p ps -> dget (VStr (pa_name p)) d = Some x -> shas (pa_name p) args = true.
Proof.
  induction ps as [|q ps IHp]; intros args H p x Hin Hx; [contradiction|]. cbn [constructor_args] in H.
  apply bind_done in H as (y & Hy & H). apply bind_done in H as (rest & Hrest & H). injection H as <-.
  destruct Hin as [->|Hin].
  - unfold value_for_attr in Hy. rewrite Hx in Hy. apply bind_done in Hy as (z & _ & Hz). injection Hz as <-.
    unfold shas, amem. cbn [aget]. now rewrite String.eqb_refl.
  - pose proof (IHp _ Hrest p x Hin Hx) as Hr. destruct y as [y|]; [|exact Hr].
    unfold shas, amem in *. cbn [aget]. destruct (String.eqb (pa_name p) (pa_name q)); [reflexivity|exact Hr].
Qed.
Lemma set_remaining_sim o ci : ok_opts s o -> forall rest,
  (forall key x, In (key, x) rest -> exists a, key = VStr a /\ plain_input x /\
      tidy CT s (Some (extra_type ci a x)) x) -> forall at_ r,
  snd (set_remaining E (load E n) 0 o ci rest at_) = Done r ->
  sim any (set_remaining E (tload E sch n k) 0 o ci rest at_) r.
Proof.
  intros Ho. induction rest as [|[key x] rest IHr]; intros Ht at_ r H; [now left|]. cbn [set_remaining] in *.
  destruct (Ht key x (or_introl eq_refl)) as (a & -> & Hp & Hx). cbv zeta in *.
  apply bind_done in H as ([] & Hw & H). apply (sim_bind _ _ _ tt); [now left|].
  apply bind_done in H as (y & Hy & H). apply (sim_bind _ _ _ y); [apply IH; auto; lia|].
  assert (Ht' : forall key x, In (key, x) rest -> exists a, key = VStr a /\ plain_input x /\
      tidy CT s (Some (extra_type ci a x)) x) by (intros; apply Ht; now right).
  destruct (ci_set ci a y at_) as [at1|e]; [now apply IHr|].
  destruct (is_attributeerror (e_kind e)); [now apply IHr|discriminate].
Qed.
Lemma transform_entries g d : (forall x, g x = Ok x) -> (forall kx, In kx d -> exists a, fst kx = VStr a) -> forall acc d',
  (forall kx, In kx acc -> exists a, fst kx = VStr a) ->
  transform_keys CT g d acc = Ok d' ->
  forall kx, In kx d' -> In kx d \/ In kx acc.
Proof.
  intros Hg. induction d as [|[key x] d IHd]; intros Hs acc d' Ha H kx Hin; cbn [transform_keys] in H.
  - injection H as <-. now right.
  - rewrite Hg in H. cbn [rbind] in H. destruct (hashable CT key); [|discriminate].
    destruct (Hs _ (or_introl eq_refl)) as (a & Hka). cbn [fst] in Hka. subst key.
    assert (X : forall kx, In kx (dset (VStr a) x acc) -> kx = (VStr a, x) \/ In kx acc).
    { clear -Ha. unfold dset. induction acc as [|[k' x'] acc IHa]; intros kx Hin; cbn [aset] in Hin.
      - destruct Hin as [<-|[]]. now left.
      - destruct (py_eqb (VStr a) k') eqn:Ek.
        + apply py_eqb_str in Ek as ->. destruct Hin as [<-|Hin]; [now left|right; now right].
        + destruct Hin as [<-|Hin]; [right; now left|]. destruct (IHa (fun kx h => Ha kx (or_intror h)) _ Hin) as [->|Hi].
          * now left. * right; now right. }
    destruct (IHd (fun kx h => Hs kx (or_intror h)) (dset (VStr a) x acc) d') with (kx := kx) as [Hi|Hi]; auto.
    + intros kx' Hi. apply X in Hi as [->|Hi]; [now exists a|now apply Ha].
    + left; now right.
    + apply X in Hi as [->|Hi]; [left; now left|now right].
Qed.
Lemma pi_dict_keys d : plain_input (VDict DkDict d) -> forall kx, In kx d -> exists a, fst kx = VStr a.
Proof.
  intros H kx Hin. inversion H as [| | | | | | |d' H1 H2]; subst. rewrite Forall_forall in H1.
  destruct (H1 _ Hin) as (a & Ha & _). now exists a.
Qed.
Lemma dget_str_some a x (d : list (value * value)) : (forall kx, In kx d -> exists b, fst kx = VStr b) ->
  In (VStr a, x) d -> exists y, dget (VStr a) d = Some y.
Proof.
  unfold dget. induction d as [|[k' y] d IHd]; intros Hs Hin; [contradiction|]. cbn [aget].
  destruct (py_eqb (VStr a) k') eqn:Ek; [now exists y|]. destruct Hin as [Hin|Hin].
  - injection Hin as -> ->. rewrite py_eqb_refl in Ek. discriminate.
  - apply IHd; auto. intros kx Hi. apply Hs. now right.
Qed.
Lemma object_sim o c d v : ok_opts s o -> lo_hints o = Some [] -> plain_input (VDict DkDict d) ->
  (forall p x, In p (ci_params (CT c)) -> In (VStr (pa_name p), x) d -> tidy CT s (pa_hint p) x) ->
  (forall a x, In (VStr a, x) d -> ~ In a (map pa_name (ci_params (CT c))) ->
     tidy CT s (Some (extra_type (CT c) a x)) x) ->
  snd (deser_object E (load E n) 0 o (TClass c) (VDict DkDict d)) = Done v ->
  sim any (deser_object E (tload E sch n k) 0 o (TClass c) (VDict DkDict d)) v.
Proof.
  intros Ho Hh Hp Ht1 Ht2 H. unfold deser_object in *. cbn [cid_of obj_items] in *. cbv zeta in *.
  rewrite bind_lift_ok in H. rewrite bind_lift_ok. rewrite Hh in *.
  destruct (pi_dict_entries _ Hp) as [Hpl _]. pose proof (pi_dict_keys _ Hp) as Hks.
  apply bind_done in H as (d1 & Hd1 & H). apply (sim_bind _ _ _ d1); [now left|]. apply lift_done in Hd1.
  assert (Hd : forall kx, In kx d1 -> In kx d).
  { intros kx Hin. pose proof (fun x => the_kt_id o x Ho) as Hid. unfold the_kt in Hid.
    destruct (lo_kt o) as [g|]; [|injection Hd1 as <-; exact Hin].
    destruct (transform_entries g d Hid Hks [] d1) with (kx := kx) as [Hi|[]]; auto. intros ? []. }
  assert (Ho' : ok_opts s (set_getters [] o))
    by (destruct Ho as (H1 & H2 & H3 & H4); unfold ok_opts, no_hints, set_getters; cbn; auto).
  rewrite Forall_forall in Hpl.
  apply bind_done in H as (args & Hargs & H). apply (sim_bind _ _ _ args).
  { apply constructor_args_sim; auto. intros p x Hin Hx. apply Hd in Hx. split; [exact (proj2 (Hpl _ Hx))|auto]. }
  apply bind_done in H as (rest & Hrest & H). apply (sim_bind _ _ _ rest); [now left|].
  apply bind_done in H as (u & Hu & H). apply (sim_bind _ _ _ u); [now left|].
  apply bind_done in H as (at0 & Hat & H). apply (sim_bind _ _ _ at0); [now left|].
  apply bind_done in H as (at1 & Hat1 & H). apply (sim_bind _ _ _ at1); [|now left].
  apply set_remaining_sim; auto. intros key x Hin. apply lift_done in Hrest. unfold remaining_args in Hrest.
  assert (Hf : In (key, x) (filter (fun kv => negb (has_arg (fst kv) args) && negb (py_eqb (VStr "-meta") (fst kv))) d1)).
  { destruct (filter _ d1) as [|[k1 x1] r1]; [injection Hrest as <-; contradiction|].
    destruct (lo_strict o); [discriminate|]. injection Hrest as <-. exact Hin. }
  apply filter_In in Hf as [Hf Hb]. cbn [fst] in Hb. apply andb_true_iff in Hb as [Hb _].
  pose proof (Hd _ Hf) as Hfd. destruct (Hks _ Hfd) as (a & Ha). cbn [fst] in Ha. subst key.
  exists a. split; [reflexivity|]. split; [exact (proj2 (Hpl _ Hfd))|]. apply Ht2; [exact Hfd|].
  intros Hin'. apply in_map_iff in Hin' as (p & Hpn & Hpi). subst a.
  assert (Hks1 : forall kx, In kx d1 -> exists b, fst kx = VStr b) by (intros kx Hi; apply Hks; now apply Hd).
  destruct (dget_str_some _ _ _ Hks1 Hf) as (y & Hy).
  pose proof (constructor_args_has _ _ _ _ _ Hargs p y Hpi Hy) as Hhas. cbn [has_arg] in Hb. now rewrite Hhas in Hb.
Qed.

(** *** Named tuples *)
Lemma nt_go_sim o j d len : ok_opts s o -> forall fields i,
  (forall m fd x, nth_error fields m = Some fd ->
     (i + m < len -> match d with
                     | Some d => dget (VStr (nf_name fd)) d = Some x
                     | None => py_getitem CT j (VInt (Z.of_nat (i + m))) = Ok x
                     end -> plain_input x /\ tidy CT s (nf_hint fd) x) /\ i + m < len) -> forall ys,
  snd (deser_nt_go E (load E n) 0 o j d len i fields) = Done ys ->
  sim any (deser_nt_go E (tload E sch n k) 0 o j d len i fields) ys.
Proof.
  intros Ho. induction fields as [|fd fields IHf]; intros i Ht ys H; [now left|]. cbn [deser_nt_go] in *.
  apply bind_done in H as (x & Hx & H). apply (sim_bind _ _ _ x); [now left|].
  apply bind_done in H as (u & Hu & H). apply (sim_bind _ _ _ u); [now left|].
  apply bind_done in H as (y & Hy & H). apply lift_done in Hx.
  destruct (Ht 0 fd x eq_refl) as [H0 Hlen]. rewrite Nat.add_0_r in *.
  apply (sim_bind _ _ _ y).
  { destruct H0 as [P T].
    - lia.
    - assert (Nat.ltb i len = true) as El by (apply Nat.ltb_lt; lia). rewrite El in Hx.
      destruct d as [d|]; [|exact Hx]. destruct (dget (VStr (nf_name fd)) d); [congruence|discriminate].
    - apply IH; auto; lia. }
  apply bind_done in H as (ys' & Hys & H). apply (sim_bind _ _ _ ys'); [|now left].
  apply IHf; [|exact Hys]. intros m fd' x' Hm. specialize (Ht (S m) fd' x' Hm).
  replace (S i + m) with (i + S m) by lia. exact Ht.
Qed.
Lemma namedtuple_list_sim o c fields l v : ok_opts s o -> ci_kind (CT c) = CkNT fields -> Forall plain_input l ->
  Forall2 (fun fd x => tidy CT s (nf_hint fd) x) fields l ->
  snd (deser_namedtuple E (load E n) 0 o c (VList l)) = Done v ->
  sim any (deser_namedtuple E (tload E sch n k) 0 o c (VList l)) v.
Proof.
  intros Ho Hc Hp Ht H. unfold deser_namedtuple in *. rewrite bind_ret_l in H. rewrite bind_ret_l.
  cbn [py_iter] in *. rewrite bind_lift_ok in H. rewrite bind_lift_ok.
  apply bind_done in H as (vs & Hvs & H). apply (sim_bind _ _ _ vs); [|now left].
  apply nt_go_sim; auto. unfold nt_fields. fold CT. rewrite Hc. intros m fd x Hm. cbn [Nat.add].
  pose proof (nth_error_len _ _ _ Hm) as Hl. pose proof (Forall2_len _ _ _ Ht) as Hl'. split; [|lia].
  intros _ Hx. destruct (nth_error l m) as [x'|] eqn:Ex.
  2:{ apply nth_error_None in Ex. lia. }
  rewrite (getitem_nth _ _ _ _ Ex) in Hx. injection Hx as <-.
  rewrite Forall_forall in Hp. split; [apply Hp; eapply nth_error_In; eauto|].
  clear -Ht Hm Ex. revert m Hm Ex. induction Ht as [|f1 x1 fs l Hf Hfs IHt]; intros [|m] Hm Ex; try discriminate.
  - cbn in *. congruence.
  - eapply IHt; eauto.
Qed.
Lemma namedtuple_dict_sim o c fields d v : ok_opts s o -> ci_kind (CT c) = CkNT fields -> plain_input (VDict DkDict d) ->
  length fields <= length d ->
  (forall fd x, In fd fields -> In (VStr (nf_name fd), x) d -> tidy CT s (nf_hint fd) x) ->
  snd (deser_namedtuple E (load E n) 0 o c (VDict DkDict d)) = Done v ->
  sim any (deser_namedtuple E (tload E sch n k) 0 o c (VDict DkDict d)) v.
Proof.
  intros Ho Hc Hp Hlen Ht H. unfold deser_namedtuple in *. cbv zeta in *. fold (the_kt o) in *.
  apply bind_done in H as (d1 & Hd1 & H). apply (sim_bind _ _ _ d1); [now left|].
  apply bind_done in Hd1 as (d' & Hd' & Hd1). injection Hd1 as <-. apply lift_done in Hd'.
  apply bind_done in H as (l & Hl & H). apply (sim_bind _ _ _ l); [now left|]. apply lift_done in Hl.
  cbn [py_iter] in Hl. injection Hl as <-.
  apply bind_done in H as (vs & Hvs & H). apply (sim_bind _ _ _ vs); [|now left].
  destruct (pi_dict_entries _ Hp) as [Hpl _]. rewrite Forall_forall in Hpl. pose proof (pi_dict_keys _ Hp) as Hks.
  apply nt_go_sim; auto. unfold nt_fields. fold CT. rewrite Hc. intros m fd x Hm. cbn [Nat.add].
  pose proof (nth_error_len _ _ _ Hm) as Hl. split.
  - intros _ Hx. apply dget_In in Hx.
    destruct (transform_entries (the_kt o) d (fun x => the_kt_id o x Ho) Hks [] d') with (kx := (VStr (nf_name fd), x)) as [Hi|[]]; auto.
    { intros ? []. }
    split; [exact (proj2 (Hpl _ Hi))|]. apply Ht; [eapply nth_error_In; eauto|exact Hi].
  - rewrite map_length. lia.
Qed.

(** *** The handlers that call load without passing tasks on *)
Lemma mle_snd {A} (m m' : M A) v : mle m m' -> snd m = Done v -> snd m' = Done v.
Proof. intros [H|H] Hv; congruence. Qed.
Lemma one_task_step o h t j v :
  snd (deser_step E (load E n) 0 o h t j) = Done v ->
  snd (deser_step E (tload E sch n 1) 0 o h t j) = Done v.
Proof. apply mle_snd, deser_step_mono. intros. apply tload_one_both. Qed.
Lemma string_sim o t j v : no_meta_entry j ->
  snd (deser_string E (load E n) 0 o t j) = Done v -> sim any (deser_string E (tload E sch n k) 0 o t j) v.
Proof.
  intros Hm H. left. unfold deser_string in *. destruct (ty_eqb t (TPrim PStr) && negb (lo_inferred o)); [exact H|].
  rewrite (pure_same n k (Some (TLeaf LkDatetime)) j o DDatetime); [exact H|exact I|exact Hm| |reflexivity].
  cbn [target]. rewrite HD. apply deser_leaf.
Qed.
Lemma leaf_sim o t j h v : no_meta_entry j -> leaf_type CT t -> e_deser E 0 t = Some h ->
  snd (deser_step E (load E n) 0 o h t j) = Done v ->
  sim any (tdeser_step E (tload E sch n) (sch n) k 0 o h t j) v.
Proof.
  intros Hm Ht Hh H. rewrite HD in Hh. fold CT in Hh.
  assert (Hc : pure_handler h = true \/ h = DString \/ h = DTimezone \/ h = DComplex).
  { destruct t; try contradiction.
    - rewrite deser_prim in Hh. injection Hh as <-. destruct p; auto.
    - rewrite deser_none in Hh. injection Hh as <-. now left.
    - rewrite deser_leaf in Hh. injection Hh as <-. destruct k0; auto.
    - destruct Ht as [Ho (m & l & Hc)]. rewrite (deser_enumeration CT c Ho m l Hc) in Hh. injection Hh as <-. now left. }
  destruct Hc as [Hp|[->|[->| ->]]].
  - left. destruct h; try discriminate Hp; exact H.
  - apply string_sim; assumption.
  - left. apply one_task_step. exact H.
  - left. apply one_task_step. exact H.
Qed.
Lemma union_sim o t j v : ok_opts s o -> plain_input j -> tidy CT s (Some t) j -> j <> VNone ->
  snd (deser_union_go (load E n) 0 o j [t; TNoneT]) = Done v ->
  sim any (deser_union_go (tload E sch n k) 0 o j [t; TNoneT]) v.
Proof.
  intros Ho Hp Ht Hj H. cbn [deser_union_go] in *. apply sim_try. apply try_done in H as [H|(e & _ & H)].
  - apply IH; auto; lia.
  - exfalso. destruct (is_jsons (e_kind e)); [|discriminate].
    apply try_done in H as [H|(e' & _ & H)].
    + destruct n as [|m]; [discriminate|]. apply load_typed in H; [|exact I|now apply pi_no_meta].
      destruct H as [_ H]. destruct (negb (lo_strict o) && ty_eqb (class_of j) TNoneT) eqn:Es.
      * apply andb_true_iff in Es as [_ Es]. apply ty_eqb_eq in Es. inversion Hp; subst; try discriminate Es; now apply Hj.
      * destruct H as (_ & h & Hh & H & _). rewrite HD, deser_none in Hh. injection Hh as <-.
        cbn [deser_step] in H. destruct j; try discriminate H. now apply Hj.
    + destruct (is_jsons (e_kind e')); discriminate.
Qed.
Lemma union_none_sim o t v : ~ may_be_none (Some t) -> ~ odd_name CT (Some t) ->
  snd (deser_union_go (load E n) 0 o VNone [t; TNoneT]) = Done v ->
  sim any (deser_union_go (tload E sch n k) 0 o VNone [t; TNoneT]) v.
Proof.
  intros H1 H2 H. destruct n as [|m]; [discriminate|]. cbn [deser_union_go] in *.
  rewrite (load_none_rejected E m 0 o (Some t) H2 H1) in H.
  assert (X : tload E sch (S m) k 0 o (Some t) VNone = ([], Fail (exn_of KDeser))).
  { cbn [tload]. unfold tload_step. cbn [is_none].
    destruct (can_match_spec _ _ H2) as [[Hm _]|[_ Hm]]; [contradiction|]. fold CT. now rewrite Hm. }
  rewrite X. left. rewrite (pure_same (S m) k (Some TNoneT) VNone o DNone); [exact H|exact I| | |reflexivity].
  - intros ? ? ? Hx. discriminate.
  - cbn [target]. rewrite HD. apply deser_none.
Qed.
End Step.

Lemma tidy_not_fwd t j : tidy CT s t j -> not_fwd t.
Proof.
  intros H. inversion H; subst; try exact I.
  - destruct j; try exact I;
      match goal with |- context [class_of (VColl ?c _)] => destruct c | |- context [class_of (VDict ?c _)] => destruct c end; exact I.
  - destruct t0; try contradiction; exact I.
Qed.
Lemma sim_load n : forall k o t j v, (1 <= k <= Z.of_nat K)%Z -> ok_opts s o -> plain_input j -> tidy CT s t j ->
  snd (load E n 0 o t j) = Done v -> sim any (tload E sch n k 0 o t j) v.
Proof.
  induction n as [|n IH]; intros k o t j v Hk Ho Hp Ht H; [discriminate|].
  destruct (Z.eq_dec k 1) as [->|Hk1]; [left; now rewrite tload_one|].
  assert (Hk' : (1 < k <= Z.of_nat K)%Z) by lia. clear Hk Hk1.
  pose proof (pi_no_meta _ Hp) as Hm. pose proof (tidy_not_fwd _ _ Ht) as Hf.
  apply (step_sim n k o t j v Hf Hm H). intros h Hsk Hh Hr.
  destruct (ok_inner s o (target t j) t Ho) as [Hi Hih]. set (o' := inner o (target t j) t) in *.
  assert (Hpl : forall l, j = VList l -> Forall plain_input l) by (intros l ->; now inversion Hp).
  inversion Ht as [?|? Hs|? ? Hl|? Hl|l Hl Hx|d Hx|b hd u l Hd Hl Hx|b hd l Hd Hl Hx|b hd tk tv d Hd Hx|b hd d Hd Hx
                  |b u us l Hd Hx|b u l Hx|b l Hx|u ? Hn Hx|u Hn Hx|c fields l Hc Hx Hy|c fields d Hc Hx Hl Hy
                  |c d Hc Hx Hy Hz]; subst; cbn [target class_of] in *.
  - rewrite HD, deser_any in Hh. discriminate.
  - exfalso. unfold skips in Hsk. destruct Ho as (_ & _ & _ & Hs'). rewrite Hs' in Hsk. cbn [negb same_type] in Hsk.
    rewrite ty_eqb_refl in Hsk. discriminate.
  - now apply leaf_sim with (k := k).
  - apply (leaf_sim n k); auto. destruct j; try contradiction; exact I.
  - rewrite HD, deser_head in Hh. injection Hh as <-. cbn [head_handler tdeser_step deser_step get_args raw_args] in *.
    apply bind_done in Hr as (ys & Hys & Hr). apply (sim_bind _ _ _ ys); [|now left].
    apply (list_sim n IH k Hk'); auto.
  - rewrite HD, deser_head in Hh. injection Hh as <-. cbn [head_handler tdeser_step deser_step] in *.
    unfold deser_mapping in *. cbn [get_args raw_args] in *. rewrite bind_lift_ok in Hr. rewrite bind_lift_ok.
    apply bind_done in Hr as (r & Hd & Hr). apply (sim_bind _ _ _ r); [|now left].
    apply (dict_sim n IH k Hk'); auto.
  - rewrite HD, deser_head in Hh. injection Hh as <-.
    destruct hd; try contradiction; cbn [head_handler tdeser_step deser_step get_args raw_args] in *;
      [|apply (iterable_sim n IH k Hk'); eauto; now right; exists u..].
    apply bind_done in Hr as (ys & Hys & Hr). apply (sim_bind _ _ _ ys); [|now left].
    apply (list_sim n IH k Hk'); auto.
  - rewrite HD, deser_head in Hh. injection Hh as <-.
    destruct hd; try contradiction; cbn [head_handler tdeser_step deser_step get_args raw_args] in *;
      [|apply (iterable_sim n IH k Hk'); eauto; now left..].
    apply bind_done in Hr as (ys & Hys & Hr). apply (sim_bind _ _ _ ys); [|now left].
    apply (list_sim n IH k Hk'); auto.
  - rewrite HD, deser_head in Hh. injection Hh as <-. destruct (Bool.bool_dec (match hd with HDefaultDict => true | _ => false end) true) as [Edd|Edd].
    + destruct hd; try discriminate Edd. cbn [head_handler tdeser_step deser_step] in *. unfold deser_defaultdict in *.
      cbn [get_args raw_args] in *. rewrite bind_lift_ok in Hr. rewrite bind_lift_ok.
      apply bind_done in Hr as (r & Hd' & Hr). apply (sim_bind _ _ _ r); [|now left].
      apply IH; auto; [lia|]. constructor; [exact I|exact Hx].
    + assert (Eh : head_handler hd = DMapping) by (destruct hd; try contradiction; try reflexivity; now elim Edd).
      rewrite Eh in *. cbn [tdeser_step deser_step] in *. unfold deser_mapping in *. cbn [get_args raw_args] in *.
      rewrite bind_lift_ok in Hr. rewrite bind_lift_ok.
      apply bind_done in Hr as (r & Hd' & Hr). apply (sim_bind _ _ _ r); [|now left].
      apply (dict_sim n IH k Hk'); auto. right. exists tk, tv. auto.
  - rewrite HD, deser_head in Hh. injection Hh as <-. destruct (Bool.bool_dec (match hd with HDefaultDict => true | _ => false end) true) as [Edd|Edd].
    + destruct hd; try discriminate Edd. cbn [head_handler tdeser_step deser_step] in *. unfold deser_defaultdict in *.
      cbn [get_args raw_args] in *. rewrite bind_lift_ok in Hr. rewrite bind_lift_ok.
      apply bind_done in Hr as (r & Hd' & Hr). apply (sim_bind _ _ _ r); [|now left].
      apply IH; auto; [lia|]. apply td_bare_dict; [exact I|exact Hx].
    + assert (Eh : head_handler hd = DMapping) by (destruct hd; try contradiction; try reflexivity; now elim Edd).
      rewrite Eh in *. cbn [tdeser_step deser_step] in *. unfold deser_mapping in *. cbn [get_args raw_args] in *.
      rewrite bind_lift_ok in Hr. rewrite bind_lift_ok.
      apply bind_done in Hr as (r & Hd' & Hr). apply (sim_bind _ _ _ r); [|now left].
      apply (dict_sim n IH k Hk'); auto.
  - rewrite HD, deser_head in Hh. injection Hh as <-. cbn [head_handler tdeser_step deser_step] in *.
    unfold deser_tuple in *. cbv zeta in *. cbn [py_iter get_args raw_args] in *. rewrite bind_lift_ok in Hr. rewrite bind_lift_ok.
    assert (El : ty_eqb TEllipsis (last (u :: us) TAny) = false) by (apply ty_eqb_neq; congruence).
    rewrite El in *. apply bind_done in Hr as (ys & Hys & Hr). apply (sim_bind _ _ _ ys); [|now left].
    apply (tuple_go_sim n IH k Hk'); auto. now apply ok_kt_none.
  - rewrite HD, deser_head in Hh. injection Hh as <-. cbn [head_handler tdeser_step deser_step] in *.
    unfold deser_tuple in *. cbv zeta in *. cbn [py_iter get_args raw_args last ty_eqb] in *. rewrite bind_lift_ok in Hr. rewrite bind_lift_ok.
    apply bind_done in Hr as (ys & Hys & Hr). apply (sim_bind _ _ _ ys); [|now left].
    apply (tuple_go_sim n IH k Hk'); auto; [now apply ok_kt_none|]. clear -Hx.
    induction Hx; cbn; constructor; auto.
  - rewrite HD, deser_head in Hh. injection Hh as <-. cbn [head_handler tdeser_step deser_step] in *.
    unfold deser_tuple in *. cbv zeta in *. cbn [py_iter get_args raw_args] in *. rewrite bind_lift_ok in Hr. rewrite bind_lift_ok.
    apply bind_done in Hr as (ys & Hys & Hr). apply (sim_bind _ _ _ ys); [|now left].
    apply (mmap_sim n IH k Hk'); auto. now apply ok_kt_none.
  - rewrite HD, deser_tunion in Hh. injection Hh as <-. cbn [tdeser_step deser_step] in *. unfold deser_union in *.
    cbn [raw_args] in *. now apply (union_sim n IH k Hk').
  - rewrite HD, deser_tunion in Hh. injection Hh as <-. cbn [tdeser_step deser_step] in *. unfold deser_union in *.
    cbn [raw_args] in *. now apply (union_none_sim n IH k).
  - rewrite HD in Hh. fold CT in Hh. rewrite (deser_namedtuple_class CT c Hc fields Hx) in Hh. injection Hh as <-.
    cbn [tdeser_step deser_step] in *. unfold deser_tuple in *. fold CT in Hr. fold CT. rewrite Hx in Hr. rewrite Hx.
    apply (namedtuple_list_sim n IH k Hk') with (fields := fields); auto.
  - rewrite HD in Hh. fold CT in Hh. rewrite (deser_namedtuple_class CT c Hc fields Hx) in Hh. injection Hh as <-.
    cbn [tdeser_step deser_step] in *. unfold deser_tuple in *. fold CT in Hr. fold CT. rewrite Hx in Hr. rewrite Hx.
    apply (namedtuple_dict_sim n IH k Hk') with (fields := fields); auto.
  - rewrite HD in Hh. fold CT in Hh. rewrite (deser_object_class CT c Hc Hx) in Hh. injection Hh as <-.
    cbn [tdeser_step deser_step] in *. apply (object_sim n IH k Hk'); auto.
Qed.
End Sim.

Lemma same_result_any E sch n k o t j v :
  default_deserializers E 0 -> (1 <= k)%Z -> plain_options o -> plain_input j -> tidy (e_ct E) (lo_strict o) t j ->
  snd (load E n 0 o t j) = Done v ->
  snd (tload E sch n k 0 o t j) = Done v \/ snd (tload E sch n k 0 o t j) = Oof.
Proof.
  intros HD Hk (H1 & H2 & H3) Hp Ht H.
  destruct (sim_load E true (lo_strict o) (Z.to_nat k) sch HD ltac:(discriminate) n k o t j v) as [X|[_ X]]; auto.
  - lia.
  - repeat split; auto.
Qed.
Lemma same_result_fair E sch n k o t j v :
  default_deserializers E 0 -> (1 <= k)%Z -> plain_options o -> plain_input j -> tidy (e_ct E) (lo_strict o) t j ->
  fair (Z.to_nat k) sch ->
  snd (load E n 0 o t j) = Done v ->
  snd (tload E sch n k 0 o t j) = Done v.
Proof.
  intros HD Hk (H1 & H2 & H3) Hp Ht HF H.
  destruct (sim_load E false (lo_strict o) (Z.to_nat k) sch HD (fun _ => HF) n k o t j v) as [X|[X _]]; auto.
  - lia.
  - repeat split; auto.
  - discriminate.
Qed.

(** ** A list with several tasks *)
Lemma tload_list_run E sch n k f o b t j :
  e_deser E f (TApp b HList [t]) = Some DList -> no_hints o -> no_meta_entry j -> j <> VNone -> valid_type j = true ->
  class_of j <> TApp b HList [t] -> (1 < k)%Z ->
  tload E sch (S n) k f o (Some (TApp b HList [t])) j =
  wrap_deser (dom r <- (dom l <- parallel_list E (tload E sch n) (sch n) k (elem_opts o true) (Some t) j; ret (VList l));
              dom _ <- lift (validate E f r (TApp b HList [t])); ret r).
Proof.
  intros Hh Ho Hm Hn Hv Hc Hk. cbn [tload]. unfold tload_step.
  assert (is_none j = false) as -> by (destruct j; congruence || reflexivity). rewrite bind_ret_l.
  cbn [same_type]. apply ty_eqb_neq in Hc. rewrite Hc, andb_false_r. cbn [orb]. rewrite bind_lift_ok, Hv. cbn [negb].
  rewrite (no_meta_get _ _ _ Hm), bind_lift_ok. cbn [fst snd].
  assert (Hp : forall i, determine_precedence (Some (TApp b HList [t])) None (Some (class_of j)) i = Some (TApp b HList [t]))
    by (intros []; reflexivity).
  rewrite Hp, Hh. cbv zeta. rewrite changed_same. cbn [tdeser_step get_args raw_args]. unfold tdeser_list. cbv zeta.
  destruct (Z.eqb_spec k 1) as [Hk1|_]; [lia|]. destruct (Z.ltb_spec 1 k); [|lia].
  cbn [hd_error]. replace (set_warn false (set_inferred true (set_inferred false _))) with (elem_opts o true); [reflexivity|].
  unfold elem_opts, set_warn, set_inferred, set_hints. cbn. destruct Ho as [-> | ->]; reflexivity.
Qed.
Lemma parallel_run E (ld : Z -> nat -> lopts -> option ty -> value -> M value) sched k o t j xs :
  (1 < k)%Z -> xs <> [] -> py_iter (e_rt E) j = Ok xs ->
  let left := tasks_left (Z.to_nat k) (length xs) in
  let call i := dom x <- lift (py_getitem (e_ct E) j (VInt (Z.of_nat i))); ld (Z.of_nat left) 0 o t x in
  let outs := map (fun i => snd (call i)) (seq 0 (length xs)) in
  ~ In Oof outs ->
  fair_schedule (Z.to_nat k) (2 * length xs + Z.to_nat k) (sched j) ->
  exists ys, snd (parallel_list E ld sched k o t j) = Done ys /\ filled (Z.to_nat k) outs ys.
Proof.
  intros Hk Hx Hi left call outs Ho Hf. unfold parallel_list. rewrite Hi, bind_lift_ok. cbv zeta. fold left.
  assert (Eo : existsb (fun i => is_oof (call i)) (seq 0 (length xs)) = false).
  { apply not_true_iff_false. intros X. apply existsb_exists in X as (i & Hin & X). apply Ho. unfold outs.
    apply in_map_iff. exists i. split; [|exact Hin]. unfold is_oof in X. destruct (snd (call i)); congruence. }
  unfold call in Eo. rewrite Eo.
  set (func := fun k0 i : nat => to_res (dom x <- lift (py_getitem (e_ct E) j (VInt (Z.of_nat i))); ld (Z.of_nat k0) 0 o t x)).
  destruct (fair_finishes func (VInt 0) (seq 0 (length xs)) (Z.to_nat k) (Z.to_nat k) (sched j)) as (ys & Hy).
  - lia.
  - destruct xs; [congruence|discriminate].
  - now rewrite seq_length.
  - rewrite Hy. exists ys. split; [reflexivity|]. apply multi_task_slots in Hy as [Hlen Hslot].
    rewrite seq_length in *. assert (Hol : length outs = length xs) by (unfold outs; now rewrite map_length, seq_length).
    split; [congruence|]. intros i y Hiy. rewrite Hol. cbv zeta.
    assert (Hil : i < length xs) by (apply nth_error_len in Hiy; lia).
    assert (Hnth : forall m, m < length xs -> nth_error (seq 0 (length xs)) m = Some m).
    { intros m Hm. rewrite (nth_error_nth' _ 0) by (rewrite seq_length; lia). now rewrite seq_nth. }
    assert (Hout : forall m, m < length xs -> nth_error outs m = Some (snd (call m))).
    { intros m Hm. unfold outs. exact (map_nth_error (fun i => snd (call i)) _ _ (Hnth m Hm)). }
    assert (Hfo : forall m v, m < length xs -> (func left m = Ok v <-> nth_error outs m = Some (Done v))).
    { intros m v Hm. rewrite (Hout m Hm). change (func left m) with (to_res (call m)). unfold to_res.
      destruct (snd (call m)); split; intros X; try discriminate; congruence. }
    destruct (Hslot i i (Hnth i Hil)) as [Hg Hb]. cbv zeta in Hg, Hb. fold left in Hg, Hb.
    set (lo := part_start (Nat.min (Z.to_nat k) (length xs)) (length xs) i) in *.
    assert (Hiff : all_ok (func left) (seq 0 (length xs)) lo i <-> all_loaded outs lo i).
    { split.
      - intros H m Hm. destruct (H m m Hm (Hnth m ltac:(lia))) as (v & Hv). exists v. apply Hfo; [lia|exact Hv].
      - intros H m x Hm Hxm. rewrite (Hnth m ltac:(lia)) in Hxm. injection Hxm as <-.
        destruct (H m Hm) as (v & Hv). exists v. apply Hfo; [lia|exact Hv]. }
    rewrite <- Hiff. split.
    + intros H. destruct (Hg H) as (v & Hv & Hr). apply Hfo; [exact Hil|]. congruence.
    + intros H. specialize (Hb H). congruence.
Qed.
Lemma list_call_outs E (ld : Z -> nat -> lopts -> option ty -> value -> M value) z o t l :
  map (fun i => snd (dom x <- lift (py_getitem (e_ct E) (VList l) (VInt (Z.of_nat i))); ld z 0 o t x)) (seq 0 (length l)) =
  map (fun x => snd (ld z 0 o t x)) l.
Proof.
  apply nth_error_ext_full. intros i. destruct (Nat.lt_ge_cases i (length l)) as [Hi|Hi].
  - destruct (nth_error l i) as [x|] eqn:Hx; [|apply nth_error_None in Hx; lia].
    assert (Hs : nth_error (seq 0 (length l)) i = Some i).
    { rewrite (nth_error_nth' _ 0) by (rewrite seq_length; lia). now rewrite seq_nth. }
    rewrite (map_nth_error _ _ _ Hx), (map_nth_error _ _ _ Hs). cbn beta. rewrite (getitem_nth _ _ _ _ Hx). now rewrite bind_lift_ok.
  - transitivity (@None (outcome value)); [|symmetry]; apply nth_error_None; rewrite map_length, ?seq_length; exact Hi.
Qed.
Lemma list_filled E sch n k f o b t l :
  e_deser E f (TApp b HList [t]) = Some DList -> e_validator E f (TApp b HList [t]) = None ->
  no_hints o -> (1 < k)%Z -> l <> [] ->
  let left := Z.of_nat (tasks_left (Z.to_nat k) (length l)) in
  let outs := map (fun x => snd (tload E sch n left 0 (elem_opts o true) (Some t) x)) l in
  ~ In Oof outs ->
  fair_schedule (Z.to_nat k) (2 * length l + Z.to_nat k) (sch n (VList l)) ->
  exists ys, snd (tload E sch (S n) k f o (Some (TApp b HList [t])) (VList l)) = Done (VList ys) /\
             filled (Z.to_nat k) outs ys.
Proof.
  intros Hh Hv Ho Hk Hl left outs Hoof Hf.
  rewrite tload_list_run; auto; try (discriminate || (intros ? ? ? X; discriminate X)).
  destruct (parallel_run E (tload E sch n) (sch n) k (elem_opts o true) (Some t) (VList l) l Hk Hl eq_refl) as (ys & Hy & Hfi); auto.
  - fold left. rewrite list_call_outs. exact Hoof.
  - exists ys. fold left in Hfi. rewrite list_call_outs in Hfi. split; [|exact Hfi].
    apply wrap_step_done; [exact Hy|]. unfold accepts. now rewrite Hv.
Qed.
Lemma set_zeros E sch n k f o b t l :
  e_deser E f (TApp b HList [t]) = Some DList -> e_validator E f (TApp b HList [t]) = None ->
  no_hints o -> (1 < k)%Z -> l <> [] ->
  fair_schedule (Z.to_nat k) (2 * length l + Z.to_nat k) (sch n (VColl CSet l)) ->
  snd (tload E sch (S n) k f o (Some (TApp b HList [t])) (VColl CSet l)) = Done (VList (repeat (VInt 0) (length l))).
Proof.
  intros Hh Hv Ho Hk Hl Hf.
  rewrite tload_list_run; auto; try (discriminate || (intros ? ? ? X; discriminate X)).
  destruct (parallel_run E (tload E sch n) (sch n) k (elem_opts o true) (Some t) (VColl CSet l) l Hk Hl eq_refl) as (ys & Hy & Hlen & Hfi); auto.
  - intros H. apply in_map_iff in H as (i & X & _). discriminate X.
  - rewrite map_length, seq_length in *. rewrite (wrap_step_done _ E f (TApp b HList [t]) VList ys Hy).
    + do 2 f_equal. apply nth_error_ext_full. intros i. destruct (nth_error ys i) as [y|] eqn:Ey.
      * pose proof (nth_error_len _ _ _ Ey). rewrite nth_error_repeat by lia. f_equal.
        apply (proj2 (Hfi i y Ey)). intros Ha. unfold all_loaded in Ha.
        assert (Hp : part_start (Nat.min (Z.to_nat k) (length l)) (length l) i <= i).
        { unfold part_start. set (q := length l / Nat.min (Z.to_nat k) (length l)).
          destruct (Nat.eq_dec q 0) as [->|Hq]; [lia|].
          etransitivity; [apply Nat.mul_le_mono_r, Nat.le_min_l|]. rewrite Nat.mul_comm. now apply Nat.mul_div_le. }
        destruct (Ha i) as (v & Hv'); [lia|].
        assert (Hs : nth_error (seq 0 (length l)) i = Some i).
        { rewrite (nth_error_nth' _ 0) by (rewrite seq_length; lia). rewrite seq_nth; [reflexivity|lia]. }
        rewrite (map_nth_error _ _ _ Hs) in Hv'. discriminate Hv'.
      * apply nth_error_None in Ey. symmetry. apply nth_error_None. rewrite repeat_length. lia.
    + unfold accepts. now rewrite Hv.
Qed.
Lemma empty_list_fails E sch n k f o b t :
  e_deser E f (TApp b HList [t]) = Some DList -> no_hints o -> (1 < k)%Z ->
  snd (tload E sch (S n) k f o (Some (TApp b HList [t])) (VList [])) = Fail (exn_of KDeser).
Proof.
  intros Hh Ho Hk. rewrite tload_list_run; auto; try (discriminate || (intros ? ? ? X; discriminate X)).
  unfold parallel_list. cbn [py_iter]. rewrite bind_lift_ok. cbn [length seq existsb]. cbv zeta.
  rewrite multi_task_empty. reflexivity.
Qed.
Lemma no_tasks_fails E sch n k f o b t l :
  e_deser E f (TApp b HList [t]) = Some DList -> (k < 1)%Z ->
  snd (tload E sch (S n) k f o (Some (TApp b HList [t])) (VList l)) = Fail (exn_of KJsons).
Proof.
  intros Hh Hk. cbn [tload]. unfold tload_step. cbn [is_none]. rewrite bind_ret_l. cbn [same_type].
  assert (X : ty_eqb (class_of (VList l)) (TApp b HList [t]) = false) by (apply ty_eqb_neq; discriminate).
  rewrite X, andb_false_r. cbn [orb].
  rewrite bind_lift_ok; cbn [valid_type negb get_cls_and_meta]; rewrite bind_lift_ok; cbn [fst snd];
    unfold determine_precedence; destruct (lo_inferred o); cbv zeta; rewrite Hh; cbn [tdeser_step];
    unfold tdeser_list; cbv zeta; destruct (Z.eqb_spec k 1) as [Hk1|_]; try lia; destruct (Z.ltb_spec 1 k); try lia; reflexivity.
Qed.

(** ** Fair schedules exist *)
Definition round_robin (k m : nat) : list action := concat (repeat (AMain :: map AWorker (seq 0 k)) m).
Lemma round_robin_fair k m : fair_schedule k m (round_robin k m).
Proof.
  exists (repeat (AMain :: map AWorker (seq 0 k)) m). split; [reflexivity|]. split; [|rewrite repeat_length; lia].
  apply Forall_forall. intros r Hr. apply repeat_spec in Hr as ->. split; [now left|].
  intros i Hi. right. apply in_map. apply in_seq. lia.
Qed.
Lemma fair_exists k : exists sch, fair k sch.
Proof.
  exists (fun _ j => match j with VList l => round_robin k (2 * length l + k) | _ => [] end).
  intros n l. apply round_robin_fair.
Qed.
