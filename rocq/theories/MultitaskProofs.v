(** * Proofs about parallel list processing *)
From Verif Require Import PyBase PyBaseFacts MultitaskModel MultitaskSpec.
From Coq Require Import Permutation.

(** ** Lists *)
Lemma lset_length {B} i (v : B) l : length (lset i v l) = length l.
Proof. revert i; induction l as [|x l IH]; intros [|i]; simpl; auto. Qed.
Lemma lset_same {B} i (v : B) l : i < length l -> nth_error (lset i v l) i = Some v.
Proof. revert i; induction l as [|x l IH]; intros [|i]; simpl; intros; auto; try lia. apply IH; lia. Qed.
Lemma lset_other {B} i j (v : B) l : i <> j -> nth_error (lset i v l) j = nth_error l j.
Proof. revert i j; induction l as [|x l IH]; intros [|i] [|j]; simpl; intros; auto; try lia. Qed.
Lemma nth_error_len {B} (l : list B) k x : nth_error l k = Some x -> k < length l.
Proof. intros H. apply nth_error_Some. congruence. Qed.

Lemma nth_error_ext_full {B} (l l' : list B) :
  (forall j, nth_error l j = nth_error l' j) -> l = l'.
Proof.
  revert l'; induction l as [|x l IH]; intros [|y l'] H; auto.
  - specialize (H 0); discriminate.
  - specialize (H 0); discriminate.
  - pose proof (H 0) as H0. injection H0 as <-. f_equal. apply IH. intros j. exact (H (S j)).
Qed.

(** ** Slices *)
Fixpoint chain (lo : nat) (sl : list (nat * nat)) (hi : nat) : Prop :=
  match sl with
  | [] => lo = hi
  | (s, e) :: r => s = lo /\ s < e /\ chain e r hi
  end.

Lemma chain_le lo sl hi : chain lo sl hi -> lo <= hi.
Proof.
  revert lo; induction sl as [|[s e] r IH]; simpl; intros lo; [lia|].
  intros [-> [Hlt H]]. apply IH in H. lia.
Qed.

Lemma chain_bounds lo sl hi k s e :
  chain lo sl hi -> nth_error sl k = Some (s, e) -> lo <= s /\ s < e /\ e <= hi.
Proof.
  revert lo k; induction sl as [|[s0 e0] r IH]; intros lo [|k]; simpl; try discriminate.
  - intros [-> [Hlt H]] [= <- <-]. apply chain_le in H. lia.
  - intros [-> [Hlt H]] Hk. destruct (IH _ _ H Hk). lia.
Qed.

Lemma chain_disjoint lo sl hi k k' s e s' e' j :
  chain lo sl hi -> nth_error sl k = Some (s, e) -> nth_error sl k' = Some (s', e') ->
  s <= j < e -> s' <= j < e' -> k = k'.
Proof.
  revert lo k k'; induction sl as [|[s0 e0] r IH]; intros lo [|k] [|k']; simpl; try discriminate; auto.
  - intros [-> [Hlt H]] [= <- <-] Hk' Hj Hj'. destruct (chain_bounds _ _ _ _ _ _ H Hk'). lia.
  - intros [-> [Hlt H]] Hk [= <- <-] Hj Hj'. destruct (chain_bounds _ _ _ _ _ _ H Hk). lia.
  - intros [-> [Hlt H]] Hk Hk' Hj Hj'. f_equal. eapply IH; eauto.
Qed.

Lemma chain_cover lo sl hi j :
  chain lo sl hi -> lo <= j < hi -> exists k s e, nth_error sl k = Some (s, e) /\ s <= j < e.
Proof.
  revert lo; induction sl as [|[s0 e0] r IH]; intros lo; simpl; [lia|].
  intros [-> [Hlt H]] Hj. destruct (Nat.lt_ge_cases j e0).
  - exists 0, lo, e0. simpl. split; [reflexivity|lia].
  - destruct (IH e0 H) as [k [s [e [Hk Hb]]]]; [lia|]. exists (S k), s, e. auto.
Qed.

Lemma chain_range lo sl hi : chain lo sl hi -> concat (map range sl) = seq lo (hi - lo).
Proof.
  revert lo; induction sl as [|[s e] r IH]; intros lo; simpl.
  - intros ->. now rewrite Nat.sub_diag.
  - intros [-> [Hlt H]]. pose proof (chain_le _ _ _ H). rewrite (IH _ H).
    unfold range; simpl. replace (hi - lo) with ((e - lo) + (hi - e)) by lia.
    rewrite seq_app. do 2 f_equal. lia.
Qed.

Lemma slice_chain tasks n i m :
  let used := tasks_used tasks n in
  0 < used -> i + m = used ->
  chain (i * (n / used)) (map (slice_bounds tasks n) (seq i m))
        (if m =? 0 then i * (n / used) else n).
Proof.
  intros used Hpos. revert i; induction m as [|m IH]; intros i Him; simpl; [reflexivity|].
  assert (Hun : used <= n) by (unfold used, tasks_used; lia).
  set (q := n / used) in *.
  assert (Hq : 1 <= q) by (apply Nat.div_le_lower_bound; lia).
  assert (Hdiv : n = used * q + n mod used) by (apply Nat.div_mod; lia).
  specialize (IH (S i)). unfold slice_bounds at 1. fold used. fold q.
  destruct (Nat.eqb_spec i (used - 1)) as [Hlast|Hmid].
  - assert (m = 0) by lia. subst m. simpl. split; [reflexivity|]. nia.
  - split; [reflexivity|]. split; [nia|].
    assert (Hm : m <> 0) by lia.
    replace ((i + 1) * q) with (S i * q) by lia.
    replace (if m =? 0 then S i * q else n) with n in IH
      by (apply Nat.eqb_neq in Hm; now rewrite Hm).
    apply IH; lia.
Qed.

Lemma slices_ok tasks n sl :
  slices tasks n = Ok sl ->
  chain 0 sl n /\ length sl = Nat.min tasks n /\ 0 < Nat.min tasks n /\
  sl = map (slice_bounds tasks n) (seq 0 (tasks_used tasks n)).
Proof.
  unfold slices. destruct (Nat.eqb_spec (tasks_used tasks n) 0) as [E|E]; [discriminate|].
  intros [= <-]. rewrite map_length, seq_length.
  assert (Hpos : 0 < tasks_used tasks n) by lia.
  split; [|unfold tasks_used in *; repeat split; lia].
  pose proof (slice_chain tasks n 0 (tasks_used tasks n) Hpos eq_refl) as H.
  cbv zeta in H. apply Nat.eqb_neq in E. rewrite E in H. exact H.
Qed.

(** ** The invariant *)
Section Inv.
  Context {A B : Type}.
  Variable func : nat -> A -> res B.
  Variable filler : B.
  Variable obj : list A.
  Variable left : nat.
  Variable sl : list (nat * nat).
  Hypothesis Hchain : chain 0 sl (length obj).

  Notation step := (mstep func obj left).

  Definition good (st : mstate B) (j : nat) : Prop :=
    exists x v, nth_error obj j = Some x /\ func left x = Ok v /\
                nth_error (m_result st) j = Some v.
  Definition blank (st : mstate B) (j : nat) : Prop :=
    nth_error (m_result st) j = Some filler.

  Definition busy (w : worker B) : nat :=
    match w_loaded w with Some _ => 1 | None => if w_dead w then 1 else 0 end.

  Record wok (st : mstate B) (s e : nat) (w : worker B) : Prop := mkWok {
    wok_end : w_end w = e;
    wok_lo : s <= w_i w;
    wok_hi : w_i w + busy w <= e;
    wok_done : forall j, s <= j < w_i w -> good st j;
    wok_blank : forall j, w_i w <= j < e -> blank st j;
    wok_loaded : forall v, w_loaded w = Some v ->
       w_dead w = false /\ exists x, nth_error obj (w_i w) = Some x /\ func left x = Ok v;
    wok_dead : w_dead w = true ->
       exists x err, nth_error obj (w_i w) = Some x /\ func left x = Err err }.

  Record Inv (st : mstate B) : Prop := mkInv {
    inv_len : length (m_result st) = length obj;
    inv_todo : m_todo st = skipn (length (m_workers st)) sl;
    inv_count : length (m_workers st) <= length sl;
    inv_w : forall k w, nth_error (m_workers st) k = Some w ->
      exists s e, nth_error sl k = Some (s, e) /\ wok st s e w;
    inv_fresh : forall k s e j, nth_error sl k = Some (s, e) ->
      length (m_workers st) <= k -> s <= j < e -> blank st j;
    inv_nodup : NoDup (m_calls st);
    inv_calls : forall j, In j (m_calls st) <->
      exists k w s e, nth_error (m_workers st) k = Some w /\
        nth_error sl k = Some (s, e) /\ s <= j < w_i w + busy w }.

  Lemma nth_error_repeat (n j : nat) (x : B) : j < n -> nth_error (repeat x n) j = Some x.
  Proof. revert j; induction n as [|n IH]; intros [|j]; simpl; intros; auto; try lia. apply IH; lia. Qed.

  Lemma inv_init : Inv (minit filler obj sl).
  Proof.
    split; simpl.
    - apply repeat_length.
    - reflexivity.
    - lia.
    - intros [|k] w; discriminate.
    - intros k s e j Hk _ Hj. unfold blank; simpl. apply nth_error_repeat.
      destruct (chain_bounds _ _ _ _ _ _ Hchain Hk). lia.
    - constructor.
    - intros j; split; [tauto|]. intros [[|k] [w [s [e [H _]]]]]; discriminate.
  Qed.

  Lemma skipn_cons (l : list (nat * nat)) n x r : skipn n l = x :: r ->
    nth_error l n = Some x /\ skipn (S n) l = r /\ n < length l.
  Proof.
    revert n; induction l as [|y l IH]; intros [|n]; simpl; try discriminate.
    - intros [= -> ->]. repeat split; lia.
    - intros H. destruct (IH _ H) as [H1 [H2 H3]]. repeat split; auto; lia.
  Qed.

  Lemma wok_same_result st st' s e w :
    m_result st' = m_result st -> wok st s e w -> wok st' s e w.
  Proof.
    intros Hr [H1 H2 H3 H4 H5 H6 H7].
    split; auto; unfold good, blank in *; rewrite Hr; auto.
  Qed.

  Lemma inv_main st : Inv st -> Inv (step st AMain).
  Proof.
    intros I. unfold mstep. destruct (m_todo st) as [|[s e] r] eqn:Et; [assumption|].
    destruct I as [I1 I2 I3 I4 I5 I6 I7]. rewrite Et in I2. symmetry in I2.
    apply skipn_cons in I2 as [Hn [Hsk Hlt]].
    destruct (chain_bounds _ _ _ _ _ _ Hchain Hn) as [Hb1 [Hb2 Hb3]].
    split; simpl; auto.
    - rewrite app_length; simpl. now rewrite Nat.add_1_r.
    - rewrite app_length; simpl. lia.
    - intros k w Hk. destruct (Nat.lt_ge_cases k (length (m_workers st))) as [Hkl|Hkl].
      + rewrite nth_error_app1 in Hk by assumption. destruct (I4 _ _ Hk) as [s' [e' [Hs Hw]]].
        exists s', e'. split; [assumption|]. eapply wok_same_result; [|eassumption]. reflexivity.
      + pose proof (nth_error_len _ _ _ Hk) as Hkl2. rewrite app_length in Hkl2; simpl in Hkl2.
        assert (k = length (m_workers st)) by lia. subst k.
        rewrite nth_error_app2, Nat.sub_diag in Hk by lia. injection Hk as <-.
        exists s, e. split; [assumption|]. split; simpl; try (unfold busy; simpl; lia); try discriminate; try (intros; exfalso; lia).
        intros j Hj. exact (I5 _ _ _ j Hn (le_n _) Hj).
    - intros k s' e' j Hk Hl Hj. rewrite app_length in Hl; simpl in Hl.
      apply (I5 k s' e' j); auto. lia.
    - intros j. rewrite I7. split.
      + intros [k [w [s' [e' [H1 [H2 H3]]]]]]. exists k, w, s', e'.
        rewrite nth_error_app1 by (eapply nth_error_len; eauto). auto.
      + intros [k [w [s' [e' [H1 [H2 H3]]]]]].
        destruct (Nat.lt_ge_cases k (length (m_workers st))) as [Hkl|Hkl].
        * rewrite nth_error_app1 in H1 by assumption. eauto 8.
        * rewrite nth_error_app2 in H1 by assumption.
          destruct (k - length (m_workers st)) as [|z] eqn:Ez; simpl in H1; [|now destruct z].
          injection H1 as <-. simpl in H3. unfold busy in H3; simpl in H3.
          assert (k = length (m_workers st)) by lia. subst k.
          rewrite Hn in H2. injection H2 as <- <-. lia.
  Qed.

  (** Replace worker [k] by [w'], same slice. *)
  Lemma inv_update st k w w' s e res' calls' :
    Inv st ->
    nth_error (m_workers st) k = Some w -> nth_error sl k = Some (s, e) ->
    length res' = length (m_result st) ->
    (forall j, ~ (s <= j < e) -> nth_error res' j = nth_error (m_result st) j) ->
    wok (mkM res' (lset k w' (m_workers st)) (m_todo st) calls') s e w' ->
    NoDup calls' ->
    (forall j, In j calls' <-> In j (m_calls st) \/ (s <= j < w_i w' + busy w')) ->
    (w_i w + busy w <= w_i w' + busy w') ->
    Inv (mkM res' (lset k w' (m_workers st)) (m_todo st) calls').
  Proof.
    intros I Hw Hs Hlen Hout Hwok Hnd Hcalls Hprog.
    destruct I as [I1 I2 I3 I4 I5 I6 I7].
    pose proof (nth_error_len _ _ _ Hw) as Hkl.
    assert (Hdis : forall k2 s2 e2 j, k2 <> k -> nth_error sl k2 = Some (s2, e2) ->
               s2 <= j < e2 -> nth_error res' j = nth_error (m_result st) j).
    { intros k2 s2 e2 j Hne Hk2 Hj. apply Hout. intros Hj'. apply Hne.
      eapply chain_disjoint; [exact Hchain|exact Hk2|exact Hs|exact Hj|exact Hj']. }
    split; simpl.
    - congruence.
    - now rewrite lset_length.
    - now rewrite lset_length.
    - intros k2 w2 Hk2. destruct (Nat.eq_dec k k2) as [<-|Hne].
      + rewrite lset_same in Hk2 by assumption. injection Hk2 as <-. eauto.
      + rewrite lset_other in Hk2 by assumption.
        destruct (I4 _ _ Hk2) as [s2 [e2 [Hs2 [W1 W2 W3 W4 W5 W6 W7]]]].
        exists s2, e2. split; [assumption|]. split; auto.
        * intros j Hj. destruct (W4 j Hj) as [x [v [G1 [G2 G3]]]].
          exists x, v. repeat split; auto. simpl. rewrite (Hdis k2 s2 e2); auto; lia.
        * intros j Hj. unfold blank; simpl. rewrite (Hdis k2 s2 e2); auto; try lia.
          now apply W5.
    - rewrite lset_length. intros k2 s2 e2 j Hk2 Hl Hj. unfold blank; simpl.
      rewrite (Hdis k2 s2 e2); auto; [|lia]. eapply I5; eauto.
    - assumption.
    - intros j. rewrite Hcalls, I7. split.
      + intros [[k2 [w2 [s2 [e2 [H1 [H2 H3]]]]]]|Hj].
        * destruct (Nat.eq_dec k k2) as [<-|Hne].
          -- exists k, w', s, e. rewrite lset_same by assumption. repeat split; auto.
             ++ rewrite Hs in H2. injection H2 as <- <-. lia.
             ++ rewrite Hs in H2. injection H2 as <- <-.
                rewrite Hw in H1. injection H1 as <-. lia.
          -- exists k2, w2, s2, e2. rewrite lset_other by assumption. auto.
        * exists k, w', s, e. rewrite lset_same by assumption. auto.
      + intros [k2 [w2 [s2 [e2 [H1 [H2 H3]]]]]]. destruct (Nat.eq_dec k k2) as [<-|Hne].
        * rewrite lset_same in H1 by assumption. injection H1 as <-.
          rewrite Hs in H2. injection H2 as <- <-. now right.
        * rewrite lset_other in H1 by assumption. left. eauto 8.
  Qed.

  Lemma inv_worker st k : Inv st -> Inv (worker_step func obj left st k).
  Proof.
    intros I. unfold worker_step. destruct (nth_error (m_workers st) k) as [w|] eqn:Hw; [|assumption].
    destruct (w_dead w) eqn:Hdead; [assumption|].
    pose proof (inv_w _ I _ _ Hw) as [s [e [Hs W]]].
    pose proof W as [W1 W2 W3 W4 W5 W6 W7].
    destruct (chain_bounds _ _ _ _ _ _ Hchain Hs) as [_ [Hse Hen]].
    destruct (w_loaded w) as [v|] eqn:Hl.
    - (* write *)
      destruct (W6 _ eq_refl) as [_ [x [Hx Hf]]].
      assert (Hb : busy w = 1) by (unfold busy; now rewrite Hl).
      assert (Hi : w_i w < length (m_result st)) by (rewrite (inv_len _ I); lia).
      eapply inv_update with (w := w) (s := s) (e := e); eauto.
      + apply lset_length.
      + intros j Hj. apply lset_other. lia.
      + split; simpl; try (unfold busy; simpl; lia); try discriminate.
        * intros j Hj. unfold good; simpl. destruct (Nat.eq_dec j (w_i w)) as [->|Hne].
          -- exists x, v. repeat split; auto. now apply lset_same.
          -- destruct (W4 j) as [x' [v' [G1 [G2 G3]]]]; [lia|].
             exists x', v'. repeat split; auto. rewrite lset_other by lia. assumption.
        * intros j Hj. unfold blank; simpl. rewrite lset_other by lia. apply W5. lia.
      + apply (inv_nodup _ I).
      + intros j. simpl. unfold busy at 1; simpl. split; [tauto|]. intros [H|H]; [assumption|].
        apply (inv_calls _ I). exists k, w, s, e. repeat split; auto; lia.
      + simpl. unfold busy at 2; simpl. lia.
    - assert (Hb : busy w = 0) by (unfold busy; now rewrite Hl, Hdead).
      destruct (Nat.ltb_spec (w_i w) (w_end w)) as [Hlt|Hge]; [|assumption].
      rewrite W1 in Hlt.
      destruct (nth_error obj (w_i w)) as [x|] eqn:Hx.
      2:{ apply nth_error_None in Hx. lia. }
      assert (Hnin : ~ In (w_i w) (m_calls st)).
      { intros Hin. apply (inv_calls _ I) in Hin as [k2 [w2 [s2 [e2 [H1 [H2 H3]]]]]].
        pose proof (inv_w _ I _ _ H1) as [s2' [e2' [Hs2 W']]].
        rewrite H2 in Hs2. injection Hs2 as <- <-. pose proof (wok_hi _ _ _ _ W') as Hhi.
        assert (k = k2).
        { apply (chain_disjoint _ _ _ _ _ _ _ _ _ (w_i w) Hchain Hs H2); lia. }
        subst k2. rewrite Hw in H1. injection H1 as <-. lia. }
      destruct (func left x) as [v|err] eqn:Hf.
      + eapply inv_update with (w := w) (s := s) (e := e); eauto.
        * split; simpl; auto; try (unfold busy; simpl; lia); try discriminate.
          intros v' [= <-]. split; [reflexivity|]. eauto.
        * constructor; [assumption|apply (inv_nodup _ I)].
        * intros j. simpl. unfold busy; simpl. split.
          -- intros [<-|H]; [right; lia|now left].
          -- intros [H|H]; [now right|]. destruct (Nat.eq_dec (w_i w) j) as [<-|Hne]; [now left|right].
             apply (inv_calls _ I). exists k, w, s, e. repeat split; auto; lia.
        * simpl. lia.
      + eapply inv_update with (w := w) (s := s) (e := e); eauto.
        * split; simpl; auto; try (unfold busy; simpl; lia); try discriminate. eauto.
        * constructor; [assumption|apply (inv_nodup _ I)].
        * intros j. simpl. unfold busy; simpl. split.
          -- intros [<-|H]; [right; lia|now left].
          -- intros [H|H]; [now right|]. destruct (Nat.eq_dec (w_i w) j) as [<-|Hne]; [now left|right].
             apply (inv_calls _ I). exists k, w, s, e. repeat split; auto; lia.
        * simpl. lia.
  Qed.

  Lemma inv_step st a : Inv st -> Inv (step st a).
  Proof. destruct a as [|k]; [apply inv_main | apply inv_worker]. Qed.

  Lemma inv_fold sched st : Inv st -> Inv (fold_left step sched st).
  Proof. revert st; induction sched as [|a r IH]; simpl; intros st I; [assumption|]. apply IH, inv_step, I. Qed.

  Lemma inv_run sched : Inv (mrun func filler obj left sl sched).
  Proof. apply inv_fold, inv_init. Qed.

  (** ** Finished states *)
  Lemma finished_worker st k s e :
    Inv st -> finished st = true -> nth_error sl k = Some (s, e) ->
    exists w, nth_error (m_workers st) k = Some w /\ stopped w = true /\ wok st s e w.
  Proof.
    intros I Hf Hk. unfold finished in Hf. destruct (m_todo st) as [|p r] eqn:Et; [|discriminate].
    pose proof (inv_todo _ I) as Htd. rewrite Et in Htd.
    assert (Hlen : length sl <= length (m_workers st)).
    { destruct (Nat.le_gt_cases (length sl) (length (m_workers st))) as [H|H]; [assumption|].
      apply (f_equal (@length _)) in Htd. rewrite skipn_length in Htd. simpl in Htd. lia. }
    pose proof (nth_error_len _ _ _ Hk).
    destruct (nth_error (m_workers st) k) as [w|] eqn:Hw.
    2:{ apply nth_error_None in Hw. lia. }
    exists w. split; [reflexivity|]. split.
    - rewrite forallb_forall in Hf. apply Hf. eapply nth_error_In; eauto.
    - destruct (inv_w _ I _ _ Hw) as [s' [e' [Hs W]]]. rewrite Hk in Hs. injection Hs as <- <-. assumption.
  Qed.

  (** In a finished state, a slot holds its result if no element of its part up to
      it fails, and the filler otherwise. *)
  Lemma finished_slot st k s e j x :
    Inv st -> finished st = true -> nth_error sl k = Some (s, e) -> s <= j < e ->
    nth_error obj j = Some x ->
    (all_ok (func left) obj s j -> exists v, func left x = Ok v /\ nth_error (m_result st) j = Some v) /\
    (~ all_ok (func left) obj s j -> nth_error (m_result st) j = Some filler).
  Proof.
    intros I Hf Hk Hj Hx.
    destruct (finished_worker _ _ _ _ I Hf Hk) as [w [Hw [Hst [W1 W2 W3 W4 W5 W6 W7]]]].
    assert (Hstop : (w_dead w = true) \/ (w_loaded w = None /\ w_dead w = false /\ e <= w_i w)).
    { unfold stopped in Hst. destruct (w_dead w); [now left|right]. simpl in Hst.
      destruct (w_loaded w); [discriminate|]. apply Nat.leb_le in Hst. rewrite W1 in Hst. auto. }
    assert (Hok : forall i, s <= i < w_i w -> exists y, nth_error obj i = Some y /\ exists v, func left y = Ok v).
    { intros i Hi. destruct (W4 i Hi) as [y [v [G1 [G2 _]]]]. eauto. }
    destruct (Nat.lt_ge_cases j (w_i w)) as [Hlt|Hge].
    - destruct (W4 j) as [y [v [G1 [G2 G3]]]]; [lia|]. rewrite Hx in G1. injection G1 as <-.
      split; [eauto|]. intros Hn. exfalso. apply Hn. intros i y Hi Hy.
      destruct (Hok i) as [y' [Hy' Hv]]; [lia|]. rewrite Hy in Hy'. injection Hy' as <-. exact Hv.
    - destruct Hstop as [Hd|[_ [_ Hend]]]; [|lia].
      destruct (W7 Hd) as [y [err [Hy He]]].
      split; [|intros _; apply W5; lia]. intros Hall.
      destruct (Hall (w_i w) y) as [v Hv]; [lia|assumption|]. congruence.
  Qed.

  Lemma finished_all_ok st (g : A -> B) :
    Inv st -> finished st = true ->
    (forall x, In x obj -> func left x = Ok (g x)) ->
    m_result st = map g obj /\ Permutation (m_calls st) (seq 0 (length obj)).
  Proof.
    intros I Hf Hg. split.
    - apply nth_error_ext_full.
      intros j. rewrite nth_error_map. destruct (nth_error obj j) as [x|] eqn:Hx; simpl.
      + pose proof (nth_error_len _ _ _ Hx) as Hj.
        destruct (chain_cover _ _ _ j Hchain) as [k [s [e [Hk Hb]]]]; [lia|].
        destruct (finished_slot st k s e j x I Hf Hk Hb Hx) as [H _].
        destruct H as [v [Hv Hr]].
        { intros i y _ Hy. exists (g y). apply Hg. eapply nth_error_In; eauto. }
        rewrite Hr. f_equal. rewrite (Hg x) in Hv by (eapply nth_error_In; eauto). congruence.
      + apply nth_error_None. rewrite (inv_len _ I). now apply nth_error_None.
    - apply NoDup_Permutation; [apply (inv_nodup _ I)|apply seq_NoDup|].
      intros j. rewrite (inv_calls _ I), in_seq. split.
      + intros [k [w [s [e [H1 [H2 H3]]]]]].
        destruct (inv_w _ I _ _ H1) as [s' [e' [Hs W]]]. rewrite H2 in Hs. injection Hs as <- <-.
        pose proof (wok_hi _ _ _ _ W). destruct (chain_bounds _ _ _ _ _ _ Hchain H2). lia.
      + intros Hj. destruct (chain_cover _ _ _ j Hchain) as [k [s [e [Hk Hb]]]]; [lia|].
        destruct (finished_worker _ _ _ _ I Hf Hk) as [w [Hw [Hst [W1 W2 W3 W4 W5 W6 W7]]]].
        exists k, w, s, e. repeat split; auto; try lia.
        unfold stopped in Hst. destruct (w_dead w) eqn:Hd.
        * destruct (W7 eq_refl) as [x [err [Hx He]]].
          rewrite Hg in He by (eapply nth_error_In; eauto). discriminate.
        * simpl in Hst. destruct (w_loaded w); [discriminate|]. apply Nat.leb_le in Hst. lia.
  Qed.

  (** ** Termination *)
  Definition wweight (w : worker B) : nat :=
    if w_dead w then 0
    else match w_loaded w with
         | Some _ => 2 * (w_end w - w_i w) - 1
         | None => 2 * (w_end w - w_i w)
         end.
  Definition sweight (p : nat * nat) : nat := S (2 * (snd p - fst p)).
  Definition weight (st : mstate B) : nat :=
    list_sum (map wweight (m_workers st)) + list_sum (map sweight (m_todo st)).

  Lemma list_sum_lset k (w w' : worker B) ws :
    nth_error ws k = Some w -> wweight w' < wweight w ->
    list_sum (map wweight (lset k w' ws)) < list_sum (map wweight ws).
  Proof.
    revert k; induction ws as [|x ws IH]; intros [|k]; simpl; try discriminate.
    - intros [= ->] H. lia.
    - intros Hk H. specialize (IH _ Hk H). lia.
  Qed.

  Definition enabled (st : mstate B) (a : action) : bool :=
    match a with
    | AMain => match m_todo st with [] => false | _ => true end
    | AWorker k => match nth_error (m_workers st) k with
                   | Some w => negb (stopped w)
                   | None => false
                   end
    end.

  Lemma enabled_decreases st a : Inv st -> enabled st a = true -> weight (step st a) < weight st.
  Proof.
    intros I. destruct a as [|k]; simpl.
    - destruct (m_todo st) as [|[s e] r] eqn:Et; [discriminate|]. intros _.
      unfold weight; simpl. rewrite Et, map_app, list_sum_app. cbn [map list_sum fold_right].
      change (wweight (mkWorker s e None false)) with (2 * (e - s)).
      change (sweight (s, e)) with (S (2 * (e - s))). unfold list_sum. lia.
    - destruct (nth_error (m_workers st) k) as [w|] eqn:Hw; [|discriminate].
      intros Hs. apply negb_true_iff in Hs. unfold worker_step; rewrite Hw.
      unfold stopped in Hs. destruct (w_dead w) eqn:Hd; [discriminate|]. simpl in Hs.
      pose proof (inv_w _ I _ _ Hw) as [s [e [Hsl [W1 W2 W3 W4 W5 W6 W7]]]].
      destruct (chain_bounds _ _ _ _ _ _ Hchain Hsl) as [_ [_ Hen]].
      destruct (w_loaded w) as [v|] eqn:Hl.
      + unfold weight; simpl. apply Nat.add_lt_mono_r. eapply list_sum_lset; [eassumption|].
        unfold wweight; simpl. rewrite Hd, Hl. unfold busy in W3. rewrite Hl in W3. lia.
      + apply Nat.leb_gt in Hs. destruct (Nat.ltb_spec (w_i w) (w_end w)); [|lia].
        destruct (nth_error obj (w_i w)) as [x|] eqn:Hx;
          [|apply nth_error_None in Hx; lia].
        unfold weight; simpl. apply Nat.add_lt_mono_r. eapply list_sum_lset; [eassumption|].
        unfold wweight at 2. rewrite Hd, Hl.
        destruct (func left x); unfold wweight; simpl; lia.
  Qed.

  Lemma disabled_stutters st a : enabled st a = false -> step st a = st.
  Proof.
    destruct a as [|k]; simpl.
    - destruct (m_todo st); [reflexivity|discriminate].
    - unfold worker_step. destruct (nth_error (m_workers st) k) as [w|]; [|reflexivity].
      intros H. apply negb_false_iff in H. unfold stopped in H.
      destruct (w_dead w); [reflexivity|]. simpl in H.
      destruct (w_loaded w); [discriminate|]. apply Nat.leb_le in H.
      destruct (Nat.ltb_spec (w_i w) (w_end w)); [lia|reflexivity].
  Qed.

  Lemma unfinished_enabled st : finished st = false -> exists a, enabled st a = true.
  Proof.
    unfold finished. destruct (m_todo st) as [|p r] eqn:Et.
    - intros H. assert (exists w, In w (m_workers st) /\ stopped w = false) as [w [Hin Hs]].
      { induction (m_workers st) as [|w ws IH]; simpl in *; [discriminate|].
        destruct (stopped w) eqn:E; [|eauto]. destruct (IH H) as [w' [? ?]]; eauto. }
      apply In_nth_error in Hin as [k Hk]. exists (AWorker k). simpl. now rewrite Hk, Hs.
    - intros _. exists AMain. simpl. now rewrite Et.
  Qed.

  Lemma can_finish st : Inv st -> exists sched, finished (fold_left step sched st) = true.
  Proof.
    remember (weight st) as n eqn:En. revert st En.
    induction n as [n IH] using lt_wf_ind. intros st -> I.
    destruct (finished st) eqn:Hf; [exists []; exact Hf|].
    destruct (unfinished_enabled _ Hf) as [a Ha].
    pose proof (enabled_decreases _ _ I Ha) as Hd.
    destruct (IH _ Hd _ eq_refl (inv_step _ a I)) as [sched H].
    exists (a :: sched). exact H.
  Qed.

  (** Number of actions of a schedule that do something. *)
  Fixpoint effective (st : mstate B) (sched : list action) : nat :=
    match sched with
    | [] => 0
    | a :: r => (if enabled st a then 1 else 0) + effective (step st a) r
    end.

  Lemma effective_bound sched st : Inv st -> effective st sched <= weight st.
  Proof.
    revert st; induction sched as [|a r IH]; simpl; intros st I; [lia|].
    specialize (IH _ (inv_step _ a I)). destruct (enabled st a) eqn:Ha.
    - pose proof (enabled_decreases _ _ I Ha). lia.
    - rewrite (disabled_stutters _ _ Ha) in *. lia.
  Qed.
End Inv.

Lemma chain_sweight lo sl hi :
  chain lo sl hi -> list_sum (map sweight sl) = length sl + 2 * (hi - lo).
Proof.
  revert lo; induction sl as [|[s e] r IH]; intros lo; simpl; [lia|].
  intros [-> [Hlt H]]. rewrite (IH _ H). pose proof (chain_le _ _ _ H). lia.
Qed.

Lemma all_ok_dec {A B} (f : A -> res B) l s j : all_ok f l s j \/ ~ all_ok f l s j.
Proof.
  induction j as [|j IH].
  - destruct (nth_error l 0) as [y|] eqn:Hy.
    + destruct (f y) as [v|err] eqn:E.
      * left. intros i x Hi Hx. assert (i = 0) by lia. subst i. rewrite Hy in Hx.
        injection Hx as <-. eauto.
      * destruct s as [|s].
        -- right. intros H. destruct (H 0 y) as [v Hv]; [lia|assumption|congruence].
        -- left. intros i x Hi. lia.
    + left. intros i x Hi Hx. assert (i = 0) by lia. subst i. congruence.
  - destruct IH as [IH|IH].
    + destruct (Nat.le_gt_cases s (S j)) as [Hs|Hs].
      2:{ left. intros i x Hi. lia. }
      destruct (nth_error l (S j)) as [y|] eqn:Hy.
      * destruct (f y) as [v|err] eqn:E.
        -- left. intros i x Hi Hx. destruct (Nat.eq_dec i (S j)) as [->|Hne].
           ++ rewrite Hy in Hx. injection Hx as <-. eauto.
           ++ apply (IH i x); [lia|assumption].
        -- right. intros H. destruct (H (S j) y) as [v Hv]; [lia|assumption|congruence].
      * left. intros i x Hi Hx. destruct (Nat.eq_dec i (S j)) as [->|Hne]; [congruence|].
        apply (IH i x); [lia|assumption].
    + right. intros H. apply IH. intros i x Hi. apply H. lia.
Qed.

(** ** The theorems about [multi_task] *)

Lemma slices_ranges tasks n sl : slices tasks n = Ok sl ->
  length sl = Nat.min tasks n /\ concat (map range sl) = seq 0 n /\
  Forall (fun p => fst p < snd p) sl.
Proof.
  intros H. destruct (slices_ok _ _ _ H) as [Hc [Hl _]]. split; [assumption|]. split.
  - rewrite (chain_range _ _ _ Hc). now rewrite Nat.sub_0_r.
  - apply Forall_forall. intros [s e] Hin. apply In_nth_error in Hin as [k Hk].
    destruct (chain_bounds _ _ _ _ _ _ Hc Hk). simpl. lia.
Qed.

Lemma slices_defined tasks n : 0 < tasks -> 0 < n -> exists sl, slices tasks n = Ok sl.
Proof.
  intros Ht Hn. unfold slices, tasks_used.
  destruct (Nat.eqb_spec (Nat.min tasks n) 0); [lia|eauto].
Qed.

Lemma part_start_slice tasks n sl k s e i :
  slices tasks n = Ok sl -> nth_error sl k = Some (s, e) -> s <= i < e ->
  part_start (Nat.min tasks n) n i = s.
Proof.
  intros H Hk Hi. destruct (slices_ok _ _ _ H) as [Hc [Hl [Hpos Heq]]].
  pose proof (nth_error_len _ _ _ Hk) as Hkl. rewrite Hl in Hkl.
  destruct (chain_bounds _ _ _ _ _ _ Hc Hk) as [_ [_ Hen]].
  rewrite Heq in Hk. rewrite nth_error_map in Hk.
  assert (Hs : nth_error (seq 0 (tasks_used tasks n)) k = Some k).
  { rewrite (nth_error_nth' _ 0) by (rewrite seq_length; exact Hkl). f_equal. apply seq_nth. exact Hkl. }
  rewrite Hs in Hk. simpl in Hk. unfold slice_bounds in Hk. unfold tasks_used in Hk.
  set (t := Nat.min tasks n) in *. unfold part_start.
  assert (Htn : t <= n) by lia.
  set (q := n / t) in *.
  assert (Hq : 1 <= q) by (apply Nat.div_le_lower_bound; lia).
  destruct (Nat.eqb_spec k (t - 1)) as [->|Hne]; injection Hk as <- <-.
  - assert (t - 1 <= i / q) by (apply Nat.div_le_lower_bound; nia).
    rewrite Nat.min_r by assumption. reflexivity.
  - assert (i / q = k).
    { symmetry. apply (Nat.div_unique i q k (i - k * q)); nia. }
    rewrite H0, Nat.min_l by lia. reflexivity.
Qed.

Section Final.
  Context {A B : Type}.
  Variable func : nat -> A -> res B.
  Variable filler : B.

  Lemma multi_task_ok obj tasks sched l :
    multi_task func filler obj tasks sched = Some (Ok l) ->
    exists sl, slices tasks (length obj) = Ok sl /\
      let st := mrun func filler obj (tasks_left tasks (length obj)) sl sched in
      finished st = true /\ l = m_result st.
  Proof.
    unfold multi_task. destruct (slices tasks (length obj)) as [sl|e] eqn:E; [|discriminate].
    destruct (finished _) eqn:Hf; [|discriminate]. intros [= <-]. exists sl. auto.
  Qed.

  Lemma multi_task_correct obj g tasks sched l :
    (forall t x, In x obj -> func t x = Ok (g x)) ->
    multi_task func filler obj tasks sched = Some (Ok l) -> l = map g obj.
  Proof.
    intros Hg H. apply multi_task_ok in H as [sl [Hs [Hf ->]]].
    destruct (slices_ok _ _ _ Hs) as [Hc _].
    apply (finished_all_ok func filler obj (tasks_left tasks (length obj)) sl Hc); auto. now apply inv_run.
  Qed.

  Lemma seq_list_correct obj g :
    (forall t x, In x obj -> func t x = Ok (g x)) -> seq_list func obj = Ok (map g obj).
  Proof.
    induction obj as [|x r IH]; simpl; intros H; [reflexivity|].
    rewrite H by now left. simpl. rewrite IH by auto. reflexivity.
  Qed.

  Lemma multi_task_never_fails obj tasks sched e :
    multi_task func filler obj tasks sched = Some (Err e) ->
    (obj = [] \/ tasks = 0) /\ e = exn_of KZeroDiv.
  Proof.
    unfold multi_task, slices, tasks_used.
    destruct (Nat.eqb_spec (Nat.min tasks (length obj)) 0) as [E|E].
    - simpl. intros [= <-]. split; [|reflexivity]. destruct obj; [now left|]. simpl in E. right. lia.
    - destruct (finished _); discriminate.
  Qed.

  Lemma multi_task_empty tasks sched :
    multi_task func filler [] tasks sched = Some (Err (exn_of KZeroDiv)).
  Proof. unfold multi_task, slices, tasks_used. simpl. now rewrite Nat.min_0_r. Qed.

  (** Whatever has been scheduled so far, the work can still be completed, and no
      schedule can keep it busy for more than 2 n + min(tasks, n) actions. *)
  Lemma multi_task_completes obj tasks sched :
    0 < tasks -> obj <> [] ->
    exists more l, multi_task func filler obj tasks (sched ++ more) = Some (Ok l).
  Proof.
    intros Ht Ho. assert (Hn : 0 < length obj) by (destruct obj; [congruence|simpl; lia]).
    destruct (slices_defined _ _ Ht Hn) as [sl Hs].
    destruct (slices_ok _ _ _ Hs) as [Hc _].
    pose proof (inv_run func filler obj (tasks_left tasks (length obj)) sl Hc sched) as I.
    destruct (can_finish func filler obj _ sl Hc _ I) as [more Hm].
    exists more. unfold multi_task. rewrite Hs. unfold mrun. rewrite fold_left_app.
    fold (mrun func filler obj (tasks_left tasks (length obj)) sl sched). rewrite Hm. eauto.
  Qed.

  Lemma multi_task_bound obj tasks sl sched :
    slices tasks (length obj) = Ok sl ->
    effective func obj (tasks_left tasks (length obj)) (minit filler obj sl) sched
      <= 2 * length obj + Nat.min tasks (length obj).
  Proof.
    intros Hs. destruct (slices_ok _ _ _ Hs) as [Hc [Hl _]].
    etransitivity; [apply (effective_bound func filler obj _ sl Hc), inv_init, Hc|].
    unfold weight; simpl. rewrite (chain_sweight _ _ _ Hc). lia.
  Qed.

  Lemma multi_task_slots obj tasks sched l :
    multi_task func filler obj tasks sched = Some (Ok l) ->
    length l = length obj /\
    forall i x, nth_error obj i = Some x ->
      let f := func (tasks_left tasks (length obj)) in
      let lo := part_start (Nat.min tasks (length obj)) (length obj) i in
      (all_ok f obj lo i -> exists v, f x = Ok v /\ nth_error l i = Some v) /\
      (~ all_ok f obj lo i -> nth_error l i = Some filler).
  Proof.
    intros H. apply multi_task_ok in H as [sl [Hs [Hf ->]]].
    destruct (slices_ok _ _ _ Hs) as [Hc _].
    pose proof (inv_run func filler obj (tasks_left tasks (length obj)) sl Hc sched) as I.
    split; [apply (inv_len _ _ _ _ _ _ I)|]. intros i x Hx.
    pose proof (nth_error_len _ _ _ Hx).
    destruct (chain_cover _ _ _ i Hc) as [k [s [e [Hk Hb]]]]; [lia|].
    cbv zeta. rewrite (part_start_slice _ _ _ _ _ _ _ Hs Hk Hb).
    exact (finished_slot func filler obj _ sl _ k s e i x I Hf Hk Hb Hx).
  Qed.

  (** Two schedules give the same list, failures or not. *)
  Lemma multi_task_deterministic obj tasks sched sched' r r' :
    multi_task func filler obj tasks sched = Some r ->
    multi_task func filler obj tasks sched' = Some r' -> r = r'.
  Proof.
    intros H H'.
    destruct r as [l|e].
    2:{ pose proof (multi_task_never_fails _ _ _ _ H) as [Hc ->].
        destruct r' as [l'|e'].
        - apply multi_task_ok in H' as [sl [Hs _]]. unfold multi_task in H. rewrite Hs in H.
          destruct (finished _); discriminate.
        - now apply multi_task_never_fails in H' as [_ ->]. }
    destruct r' as [l'|e'].
    2:{ apply multi_task_ok in H as [sl [Hs _]]. unfold multi_task in H'. rewrite Hs in H'.
        destruct (finished _); discriminate. }
    apply multi_task_ok in H as [sl [Hs [Hf ->]]].
    apply multi_task_ok in H' as [sl' [Hs' [Hf' ->]]].
    rewrite Hs in Hs'. injection Hs' as <-.
    destruct (slices_ok _ _ _ Hs) as [Hc _]. f_equal.
    set (left := tasks_left tasks (length obj)) in *.
    pose proof (inv_run func filler obj left sl Hc sched) as I.
    pose proof (inv_run func filler obj left sl Hc sched') as I'.
    apply nth_error_ext_full. intros j.
    destruct (nth_error obj j) as [x|] eqn:Hx.
    - pose proof (nth_error_len _ _ _ Hx).
      destruct (chain_cover _ _ _ j Hc) as [k [s [e [Hk Hb]]]]; [lia|].
      destruct (finished_slot func filler obj _ sl _ k s e j x I Hf Hk Hb Hx) as [P Q].
      destruct (finished_slot func filler obj _ sl _ k s e j x I' Hf' Hk Hb Hx) as [P' Q'].
      assert (D : all_ok (func left) obj s j \/ ~ all_ok (func left) obj s j).
      { apply all_ok_dec. }
      destruct D as [D|D].
      + destruct (P D) as [v [Hv ->]]. destruct (P' D) as [v' [Hv' ->]]. congruence.
      + rewrite (Q D), (Q' D). reflexivity.
    - apply nth_error_None in Hx. 
      assert (E1 : nth_error (m_result (mrun func filler obj left sl sched)) j = None)
        by (apply nth_error_None; now rewrite (inv_len _ _ _ _ _ _ I)).
      assert (E2 : nth_error (m_result (mrun func filler obj left sl sched')) j = None)
        by (apply nth_error_None; now rewrite (inv_len _ _ _ _ _ _ I')).
      congruence.
  Qed.
End Final.


Section Dispatch.
  Context {A B : Type}.
  Variable func : nat -> A -> res B.
  Variable filler : B.

  Lemma list_with_tasks_correct obj g tasks sched r :
    obj <> [] -> (1 <= tasks)%Z ->
    (forall t x, In x obj -> func t x = Ok (g x)) ->
    list_with_tasks func filler obj tasks sched = Some r -> r = Ok (map g obj).
  Proof.
    intros Ho Ht Hg. unfold list_with_tasks.
    destruct (Z.eqb_spec tasks 1) as [->|Hne].
    - intros [= <-]. now apply seq_list_correct.
    - destruct (Z.ltb_spec 1 tasks) as [Hlt|Hge]; [|lia]. intros H.
      destruct r as [l|e].
      + f_equal. eapply multi_task_correct; eauto.
      + apply multi_task_never_fails in H as [[H|H] _]; [congruence|lia].
  Qed.

  Lemma list_with_tasks_completes obj tasks sched :
    obj <> [] ->
    exists more r, list_with_tasks func filler obj tasks (sched ++ more) = Some r.
  Proof.
    intros Ho. unfold list_with_tasks.
    destruct (Z.eqb_spec tasks 1) as [->|Hne]; [exists []; eauto|].
    destruct (Z.ltb_spec 1 tasks) as [Hlt|Hge]; [|exists []; eauto].
    destruct (multi_task_completes func filler obj (Z.to_nat tasks) sched) as [more [l H]];
      [lia|assumption|]. exists more. rewrite H. eauto.
  Qed.

  Lemma list_with_tasks_invalid obj tasks sched :
    (tasks < 1)%Z -> list_with_tasks func filler obj tasks sched = Some (raise KJsons).
  Proof.
    intros Ht. unfold list_with_tasks.
    destruct (Z.eqb_spec tasks 1); [lia|]. destruct (Z.ltb_spec 1 tasks); [lia|reflexivity].
  Qed.

  Lemma list_with_tasks_empty tasks sched :
    (1 < tasks)%Z -> list_with_tasks func filler [] tasks sched = Some (raise KZeroDiv).
  Proof.
    intros Ht. unfold list_with_tasks.
    destruct (Z.eqb_spec tasks 1); [lia|]. destruct (Z.ltb_spec 1 tasks); [|lia].
    apply multi_task_empty.
  Qed.

  (** Each element is handed to [func] exactly once. *)
  Lemma calls_once obj g tasks sl sched :
    (forall t x, In x obj -> func t x = Ok (g x)) ->
    slices tasks (length obj) = Ok sl ->
    let st := mrun func filler obj (tasks_left tasks (length obj)) sl sched in
    finished st = true -> Permutation (m_calls st) (seq 0 (length obj)).
  Proof.
    intros Hg Hs st Hf. destruct (slices_ok _ _ _ Hs) as [Hc _].
    apply (finished_all_ok func filler obj (tasks_left tasks (length obj)) sl Hc st g); auto.
    now apply inv_run.
  Qed.

  (** ... and never more than once, whatever fails and however far the tasks got. *)
  Lemma calls_nodup obj tasks sl sched :
    slices tasks (length obj) = Ok sl ->
    NoDup (m_calls (mrun func filler obj (tasks_left tasks (length obj)) sl sched)).
  Proof.
    intros Hs. destruct (slices_ok _ _ _ Hs) as [Hc _].
    eapply inv_nodup. now apply (inv_run func filler obj _ sl Hc).
  Qed.
End Dispatch.
