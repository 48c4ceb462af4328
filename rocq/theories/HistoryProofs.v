(** * Proofs for C79 *)
From Verif Require Import PyBaseFacts RegistryProofs LoadSame DumpLaws FrameProofs.
From Verif Require Export ForkProofs HistorySpec RegistrySpec.
Local Close Scope Z_scope.
Local Open Scope string_scope.
From Coq Require Import Lia.

(** ** Announcements *)
Lemma ann_eruns W tr : (forall g c, ~ In (EAnnounce g c) tr) -> forall h, h_ann (fst (eruns W h tr)) = h_ann h.
Proof.
  induction tr as [|e r IH]; intros H h; [reflexivity|]. cbn [eruns].
  destruct (estep W h e) as [h1 o1] eqn:Es. destruct (eruns W h1 r) as [h2 o2] eqn:Er. cbn [fst].
  assert (H2 : h_ann h2 = h_ann h1).
  { change h2 with (fst (h2, o2)). rewrite <- Er. apply IH. intros g c Hin. apply (H g c). now right. }
  rewrite H2. destruct e; cbn [estep] in Es.
  - unfold cached_get in Es. destruct (aget _ _ _); [now injection Es as <- _|].
    destruct (raw_get W k h f c); now injection Es as <- _.
  - exfalso. apply (H f c). now left.
  - now injection Es as <- _.
  - now injection Es as <- _.
Qed.
Lemma ann_cached_get W k fm h f c : h_ann (fst (cached_get W k fm h f c)) = h_ann h.
Proof. unfold cached_get. destruct (aget _ _ _); [reflexivity|]. destruct (raw_get W k h f c); reflexivity. Qed.
Lemma ann_step W h o : ~ shared_effect o -> h_ann (fst (step W h o)) = h_ann h.
Proof.
  intros H. destruct o; cbn [step fst].
  - unfold do_set. destruct (resolve _ _ _); [|reflexivity]. destruct k; reflexivity.
  - unfold do_fork. destruct (table_of Ser h p), (table_of Deser h p), (resolve p_codes (h_classes h) p),
      (resolve p_all (h_classes h) p), (resolve p_counter (h_classes h) p); try reflexivity.
    destruct (nth_error _ _); reflexivity.
  - unfold do_subclass. destruct (Nat.ltb _ _); reflexivity.
  - exfalso. apply H. exact I.
  - reflexivity.
  - unfold do_suppress. destruct (resolve _ _ _); reflexivity.
  - pose proof (ann_cached_get W k fm h f c) as A. destruct (cached_get W k fm h f c). exact A.
  - pose proof (ann_eruns W tr) as A. specialize (A (fun g c Hin => H (ex_intro _ g (ex_intro _ c Hin))) h).
    destruct (eruns W h tr). exact A.
  - pose proof (ann_cached_get W Val FPos h f c) as A. destruct (cached_get W Val FPos h f c). exact A.
  - pose proof (ann_cached_get W Deser FPos h f c) as A. destruct (cached_get W Deser FPos h f c) as [h' r].
    destruct r as [[g|]|e]; exact A.
  - reflexivity.
Qed.
Lemma announcements_step W ops f o : exists_in ops f -> ~ shared_effect o ->
  announcements (run W (ops ++ [o])) f = announcements (run W ops) f.
Proof.
  intros Hf H. unfold announcements.
  rewrite (r_ann _ _ _ (rel_run W ops) f Hf), (r_ann _ _ _ (rel_run W (ops ++ [o])) f (exists_snoc ops o f Hf)).
  rewrite run_snoc. now rewrite ann_step.
Qed.
Lemma val_step ops f o : ~ shared_effect o -> visible Val (ops ++ [o]) f = visible Val ops f.
Proof.
  intros H. unfold visible. rewrite a_run_snoc. destruct (a_run ops) as [n ow ba se de va co fl].
  destruct o as [[| |] g a hi v| p | p | | | | | | | |]; cbn [a_step]; try reflexivity.
  1,2: destruct (Nat.ltb g n); reflexivity.
  - exfalso. apply H. exact I.
  - destruct (Nat.ltb p n); reflexivity.
  - destruct (Nat.ltb p n); reflexivity.
  - destruct (Nat.ltb f0 n); reflexivity.
  - destruct (Nat.ltb f0 n); reflexivity.
Qed.

(** ** What a fork looks up *)
Lemma registered_visible {H} P k (mean : fn -> H) ops f t : exists_in ops f ->
  registered P k mean (run (pr_world P) ops) f t =
  option_map mean (lookup (pr_world P) (visible k ops f) (pr_cls P t)).
Proof. intros Hf. unfold registered. rewrite RegistryProofs.get_correct by exact Hf. now destruct (lookup _ _ _). Qed.
Lemma registered_same {H} P k (mean : fn -> H) ops more f t : exists_in ops f -> exists_in more f ->
  visible k more f = visible k ops f ->
  registered P k mean (run (pr_world P) more) f t = registered P k mean (run (pr_world P) ops) f t.
Proof. intros H1 H2 H3. rewrite !registered_visible by assumption. now rewrite H3. Qed.

Lemma spare_facts P f : forall more ops, exists_in ops f -> spare ops f more ->
  exists_in (ops ++ more) f /\ (forall k, k <> Val -> visible k (ops ++ more) f = visible k ops f) /\
  (forall c, warns (run (pr_world P) (ops ++ more)) f c = warns (run (pr_world P) ops) f c) /\
  (Forall (fun o => ~ shared_effect o) more ->
   visible Val (ops ++ more) f = visible Val ops f /\
   announcements (run (pr_world P) (ops ++ more)) f = announcements (run (pr_world P) ops) f).
Proof.
  induction more as [|o r IH]; intros ops Hf Hs; [rewrite app_nil_r; auto|].
  destruct Hs as [[H1 H2] Hr]. pose proof (exists_snoc ops o f Hf) as Hf'.
  replace (ops ++ o :: r)%list with ((ops ++ [o]) ++ r)%list by now rewrite <- app_assoc.
  destruct (IH _ Hf' Hr) as (A & B & C & D). split; [exact A|]. split; [|split].
  - intros k Hk. rewrite B by exact Hk. now apply visible_isolated.
  - intros c. rewrite C. now apply warns_isolated.
  - intros HF. inversion HF as [|x l Ho HF']; subst. destruct (D HF') as [D1 D2]. rewrite D1, D2.
    split; [now apply val_step|now apply announcements_step].
Qed.

Theorem dump_isolated P ops more f : exists_in ops f -> spare ops f more ->
  forall n o cls v, dump (after P (ops ++ more)) f n o cls v = dump (after P ops) f n o cls v.
Proof.
  intros Hf Hs n o cls v. destruct (spare_facts P f more ops Hf Hs) as (A & B & C & _). apply dump_same.
  unfold same_for_dump. cbn [e_ct e_rt e_ser e_warn e_cser after]. repeat split; auto.
  intros t. apply registered_same; auto. apply B. discriminate.
Qed.
Lemma spare_load P ops more f : exists_in ops f -> spare ops f more -> Forall (fun o => ~ shared_effect o) more ->
  same_for_load (after P (ops ++ more)) (after P ops) f.
Proof.
  intros Hf Hs HF. destruct (spare_facts P f more ops Hf Hs) as (A & B & C & D). destruct (D HF) as [D1 D2].
  unfold same_for_load. cbn [e_ct e_rt e_object e_deser e_validator e_warn e_resolve e_cdeser after]. repeat split; auto.
  - intros t. apply registered_same; auto. apply B. discriminate.
  - intros t. apply registered_same; auto.
  - intros nm. now rewrite D2.
Qed.
Lemma default_exists ops : exists_in ops 0.
Proof.
  unfold exists_in. induction ops as [|o ops IH] using rev_ind; [cbn; lia|].
  pose proof (size_mono ops o). lia.
Qed.
Theorem load_isolated P ops more f : exists_in ops f -> spare ops f more -> spare ops 0 more ->
  Forall (fun o => ~ shared_effect o) more ->
  forall n o cls j, load (after P (ops ++ more)) n f o cls j = load (after P ops) n f o cls j.
Proof.
  intros Hf Hs H0 HF n o cls j. apply load_same; apply spare_load; auto. apply default_exists.
Qed.
Theorem load_isolated_own P ops more f : exists_in ops f -> spare ops f more ->
  Forall (fun o => ~ shared_effect o) more ->
  (forall t, e_deser (after P ops) f t <> Some DTimezone /\ e_deser (after P ops) f t <> Some DComplex) ->
  forall n o cls j, load (after P (ops ++ more)) n f o cls j = load (after P ops) n f o cls j.
Proof.
  intros Hf Hs HF Ht n o cls j. symmetry. apply load_same_own; auto.
  destruct (spare_load P ops more f Hf Hs HF) as (A1 & A2 & A3 & A4 & A5 & A6 & A7 & A8).
  unfold same_for_load. repeat split; intros; symmetry; auto.
Qed.

(** ** Registering for classes that are not concerned *)
Lemma find_prefix {X} (p : X -> bool) l r : (forall x, In x l -> p x = false) -> find p (l ++ r)%list = find p r.
Proof.
  induction l as [|x l IH]; intros H; [reflexivity|]. cbn [app find]. rewrite (H x) by now left.
  apply IH. intros y Hy. apply H. now right.
Qed.
Lemma find_suffix {X} (p : X -> bool) l r : (forall x, In x r -> p x = false) -> find p (l ++ r)%list = find p l.
Proof.
  intros H. induction l as [|x l IH]; cbn [app find].
  - induction r as [|x r IH]; [reflexivity|]. cbn [find]. rewrite (H x) by now left. apply IH. intros y Hy. apply H. now right.
  - now rewrite IH.
Qed.
Lemma classes_of_app a b : classes_of (a ++ b) = (classes_of a ++ classes_of b)%list.
Proof. apply flat_map_app. Qed.
Lemma classes_of_In x l : In x (classes_of l) -> exists r, In r l /\ rg_cls r = Some x.
Proof.
  intros H. apply in_flat_map in H as (r & Hr & Hx). exists r. split; [exact Hr|].
  destruct (rg_cls r); [destruct Hx as [->|[]]; reflexivity|destruct Hx].
Qed.
Lemma find_mid {X} (p : X -> bool) l m r : (forall x, In x m -> p x = false) -> find p (l ++ m ++ r)%list = find p (l ++ r)%list.
Proof.
  intros H. induction l as [|x l IH]; cbn [app find]; [now apply find_prefix|now rewrite IH].
Qed.
Lemma handler_unconcerned W regs rs c :
  (forall r, In r rs -> ~ named_or_below W (reg_name W r) c) ->
  handler W (regs ++ rs) c = handler W regs c.
Proof.
  intros H. unfold handler. rewrite latest_app_other.
  2:{ intros r Hr Q. apply (H r Hr). left. congruence. }
  destruct (latest W regs (slower (w_name W c))); [reflexivity|].
  assert (Hf : first_ancestor W (regs ++ rs) c = first_ancestor W regs c).
  { assert (Hn : forall q x, In x (classes_of (filter q rs)) -> w_sub W c x = false).
    { intros q x Hx. apply classes_of_In in Hx as (r & Hr & Hc). apply filter_In in Hr as [Hr _].
      destruct (w_sub W c x) eqn:Ew; [|reflexivity]. exfalso. apply (H r Hr). right. exists x. split; [exact Ew|].
      unfold reg_name. now rewrite Hc. }
    unfold first_ancestor, priority. rewrite !filter_app, !classes_of_app, rev_app_distr, <- app_assoc.
    rewrite find_prefix by (intros x Hx; apply in_rev in Hx; now apply Hn in Hx).
    rewrite !app_assoc. apply find_suffix. intros x Hx. now apply Hn in Hx. }
  rewrite Hf. destruct (first_ancestor W regs c) as [p|] eqn:Ef; [|reflexivity].
  apply latest_app_other. intros r Hr Q. apply (H r Hr). right. exists p. split; [|congruence].
  unfold first_ancestor in Ef. now apply find_some in Ef.
Qed.
Lemma lookup_unconcerned P regs a hi g t : ~ concerned P a t ->
  lookup (pr_world P) (regs ++ regs_of_arg a hi g) (pr_cls P t) = lookup (pr_world P) regs (pr_cls P t).
Proof.
  intros H.
  assert (Hn : forall r, In r (regs_of_arg a hi g) -> In (reg_name (pr_world P) r) (names_of (pr_world P) a)).
  { intros r Hr. apply regs_of_arg_In in Hr as (c & Hc & ->). unfold names_of, reg_name. cbn [rg_cls].
    apply in_map_iff. exists c. split; [reflexivity|exact Hc]. }
  unfold lookup. rewrite handler_unconcerned.
  2:{ intros r Hr Q. apply H. exists (reg_name (pr_world P) r). auto. }
  destruct (handler (pr_world P) regs (pr_cls P t)); [reflexivity|].
  destruct (w_super (pr_world P) (pr_cls P t)) as [s|] eqn:Es; [|reflexivity].
  apply handler_unconcerned. intros r Hr Q. apply H. exists (reg_name (pr_world P) r). split; [auto|]. right. eauto.
Qed.
Lemma resolve_none {X} (sel : pyclass -> option X) cs f : length cs <= f -> resolve sel cs f = None.
Proof.
  induction cs as [|c r IH]; intros H; [reflexivity|]. cbn [resolve length] in *.
  destruct (Nat.eqb_spec f (length r)); [lia|]. apply IH. lia.
Qed.
Lemma registered_none {H} P k (mean : fn -> H) ops f t : ~ exists_in ops f ->
  registered P k mean (run (pr_world P) ops) f t = None.
Proof.
  intros Hf. unfold registered, raw_get, table_of. rewrite resolve_none; [reflexivity|].
  rewrite (r_size _ _ _ (rel_run (pr_world P) ops)). unfold exists_in in Hf. lia.
Qed.
Lemma set_size k ops f a hi g : a_size (a_run (ops ++ [OSet k f a hi g])) = a_size (a_run ops).
Proof.
  rewrite a_run_snoc. destruct (a_run ops) as [n ow ba se de va co fl].
  destruct k; cbn [a_step a_size]; destruct (Nat.ltb f n); reflexivity.
Qed.
Lemma registered_unconcerned {H} P k k' (mean : fn -> H) ops f a hi g x t : (k = k' -> ~ concerned P a t) ->
  registered P k mean (run (pr_world P) (ops ++ [OSet k' f a hi g])) x t =
  registered P k mean (run (pr_world P) ops) x t.
Proof.
  intros Hc. destruct (Nat.lt_ge_cases x (a_size (a_run ops))) as [Hx|Hx].
  2:{ rewrite !registered_none; [reflexivity| |]; unfold exists_in; rewrite ?set_size; lia. }
  rewrite !registered_visible by (exact Hx || (unfold exists_in; rewrite set_size; exact Hx)).
  f_equal. destruct (kind_eqb k k') eqn:Ek.
  - assert (k = k') by (destruct k, k'; (reflexivity || discriminate)). subst k'.
    destruct (Nat.lt_ge_cases f (a_size (a_run ops))) as [Hf|Hf].
    + rewrite visible_set by assumption. specialize (Hc eq_refl).
      destruct k; [destruct (Nat.eqb _ _)|destruct (Nat.eqb _ _)|]; try reflexivity; now apply lookup_unconcerned.
    + f_equal. unfold visible. rewrite a_run_snoc. apply Nat.ltb_ge in Hf.
      destruct (a_run ops) as [n ow ba se de va co fl]. cbn [a_size] in Hf.
      destruct k; cbn [a_step]; rewrite Hf; reflexivity.
  - f_equal. unfold visible. rewrite a_run_snoc. destruct (a_run ops) as [n ow ba se de va co fl].
    destruct k, k'; try discriminate Ek; cbn [a_step]; destruct (Nat.ltb f n); reflexivity.
Qed.
Lemma classes_set W k f a hi g h : h_classes (do_set W k f a hi g h) = h_classes h /\
  h_ann (do_set W k f a hi g h) = h_ann h /\ h_codes (do_set W k f a hi g h) = h_codes h.
Proof. unfold do_set. destruct (resolve _ _ _); [|auto]. destruct k; auto. Qed.
Lemma set_warns W ops k f a hi g x c :
  warns (run W (ops ++ [OSet k f a hi g])) x c = warns (run W ops) x c.
Proof.
  rewrite run_snoc. cbn [step fst]. unfold warns.
  destruct (classes_set W k f a hi g (run W ops)) as (A & _ & B). now rewrite A, B.
Qed.
Lemma set_announcements W ops k f a hi g x :
  announcements (run W (ops ++ [OSet k f a hi g])) x = announcements (run W ops) x.
Proof.
  rewrite run_snoc. cbn [step fst]. unfold announcements.
  destruct (classes_set W k f a hi g (run W ops)) as (A & B & _). now rewrite A, B.
Qed.
Theorem load_unconcerned P ops k f a hi g : particular (concerned P a) -> nameless_defaults (pr_classes P) ->
  forall n x o cls j, no_hints o -> nameless_transformer o -> nameless j ->
  (forall t, cls = Some t -> ~ involves (after P ops) (concerned P a) t) ->
  load (after P (ops ++ [OSet k f a hi g])) n x o cls j = load (after P ops) n x o cls j.
Proof.
  intros HX Hd n x o cls j Hh Hk Hj Hc. symmetry. apply (load_frame _ _ (concerned P a)); auto.
  split; try reflexivity; cbn [after e_warn e_resolve e_deser e_validator].
  - intros. apply set_warns.
  - intros. now rewrite set_announcements.
  - intros. now apply registered_unconcerned.
  - intros. now apply registered_unconcerned.
Qed.
Theorem dump_unconcerned P ops k f a hi g n x o cls v :
  (forall c y, visits (after P ops) x o cls v c y -> ~ concerned P a (tyof c y)) ->
  dump (after P (ops ++ [OSet k f a hi g])) x n o cls v = dump (after P ops) x n o cls v.
Proof.
  intros H. symmetry. apply (dump_frame _ _ (concerned P a)); auto.
  split; try reflexivity; cbn [after e_warn e_ser].
  - intros. apply set_warns.
  - intros. now apply registered_unconcerned.
Qed.
(** Deserializers and validators do not matter for dump, serializers not for load. *)
Theorem dump_other_kinds P ops k f a hi g n x o cls v : k <> Ser ->
  dump (after P (ops ++ [OSet k f a hi g])) x n o cls v = dump (after P ops) x n o cls v.
Proof.
  intros H. apply dump_same. unfold same_for_dump. cbn [after e_ct e_rt e_warn e_ser e_cser]. repeat split; auto.
  - intros. apply registered_unconcerned. intros <-. contradiction.
  - intros. apply set_warns.
Qed.
Theorem load_other_kinds P ops f a hi g n x o cls j :
  load (after P (ops ++ [OSet Ser f a hi g])) n x o cls j = load (after P ops) n x o cls j.
Proof.
  apply load_same; unfold same_for_load; cbn [after e_ct e_rt e_object e_deser e_validator e_warn e_resolve e_cdeser];
    repeat split; intros; try (apply registered_unconcerned; discriminate); try apply set_warns; now rewrite set_announcements.
Qed.

(** ** New forks and subclasses *)
Lemma child_facts P ops p c : exists_in ops p -> c = OFork p \/ c = OSubclass p ->
  (forall (H : Type) k (mean : fn -> H) t,
     registered P k mean (run (pr_world P) (ops ++ [c])) (next_id ops) t = registered P k mean (run (pr_world P) ops) p t) /\
  (forall code, warns (run (pr_world P) (ops ++ [c])) (next_id ops) code = warns (run (pr_world P) ops) p code) /\
  announcements (run (pr_world P) (ops ++ [c])) (next_id ops) = announcements (run (pr_world P) ops) p.
Proof.
  intros Hp [-> | ->].
  - repeat split.
    + intros H k mean t. rewrite !registered_visible by (assumption || now apply fork_size). now rewrite fresh_fork_visible.
    + intros code. now apply fresh_fork_warns.
    + unfold announcements. rewrite (r_ann _ _ _ (rel_run (pr_world P) ops) p Hp).
      rewrite (r_ann _ _ _ (rel_run (pr_world P) (ops ++ [OFork p])) (next_id ops)) by now apply fork_size.
      rewrite run_snoc. rewrite ann_step by (intros []). reflexivity.
  - assert (Hs : forall X (sel : pyclass -> option X), sel (mkPy (Some p) None None None None None None None) = None ->
      resolve sel (h_classes (run (pr_world P) (ops ++ [OSubclass p]))) (next_id ops) =
      resolve sel (h_classes (run (pr_world P) ops)) p).
    { intros X sel Hn. rewrite run_snoc. cbn [step fst]. unfold do_subclass.
      pose proof (r_size _ _ _ (rel_run (pr_world P) ops)) as Hsz. unfold exists_in in Hp.
      destruct (Nat.ltb_spec p (length (h_classes (run (pr_world P) ops)))); [|lia].
      cbn [h_classes with_classes resolve]. unfold next_id. rewrite Hsz, Nat.eqb_refl, Hn. reflexivity. }
    assert (Hh : forall k, tables_of k (run (pr_world P) (ops ++ [OSubclass p])) = tables_of k (run (pr_world P) ops) /\
      h_codes (run (pr_world P) (ops ++ [OSubclass p])) = h_codes (run (pr_world P) ops) /\
      h_ann (run (pr_world P) (ops ++ [OSubclass p])) = h_ann (run (pr_world P) ops)).
    { intros k. rewrite run_snoc. cbn [step fst]. unfold do_subclass.
      destruct (Nat.ltb _ _); destruct k; auto. }
    repeat split.
    + intros H k mean t. unfold registered, raw_get, table_of. rewrite Hs by (destruct k; reflexivity).
      now rewrite (proj1 (Hh k)).
    + intros code. unfold warns. rewrite !Hs by reflexivity. now rewrite (proj1 (proj2 (Hh Ser))).
    + unfold announcements. rewrite Hs by reflexivity. now rewrite (proj2 (proj2 (Hh Ser))).
Qed.
Theorem dump_child P ops p c : exists_in ops p -> c = OFork p \/ c = OSubclass p -> forall n o cls v,
  same_run (dump (after P (ops ++ [c])) (next_id ops) n o cls v) (dump (after P ops) p n o cls v).
Proof.
  intros Hp Hc n o cls v. destruct (child_facts P ops p c Hp Hc) as (A & B & _). apply dump_fork; auto.
  - intros t. cbn [after e_ser]. symmetry. apply A.
  - intros code. cbn [after e_warn]. symmetry. apply B.
Qed.
Theorem load_child P ops p c : exists_in ops p -> c = OFork p \/ c = OSubclass p -> forall n o cls j,
  same_run (load (after P (ops ++ [c])) n (next_id ops) o cls j) (load (after P ops) n p o cls j).
Proof.
  intros Hp Hc n o cls j. destruct (child_facts P ops p c Hp Hc) as (A & B & C). apply load_fork.
  - unfold fork_load. cbn [after e_ct e_rt e_object e_deser e_validator e_warn e_resolve e_cdeser]. repeat split; auto.
    intros nm. now rewrite C.
  - apply spare_load.
    + apply default_exists.
    + cbn [spare]. destruct Hc as [-> | ->]; repeat split.
    + constructor; [|constructor]. destruct Hc as [-> | ->]; intros [].
Qed.
