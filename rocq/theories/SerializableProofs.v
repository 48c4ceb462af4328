(** * Proofs about JsonSerializable classes *)
From Verif Require Import PyBaseFacts RegistrySpec RegistryProofs EngineFacts LoadObject SerializableModel SerializableSpec.
Local Open Scope string_scope.

(** ** Class tables, by class number *)
Fixpoint at_ {X} (l : list X) (f : nat) : option X :=
  match l with
  | [] => None
  | x :: r => if Nat.eqb f (length r) then Some x else at_ r f
  end.
Fixpoint find_par (sel : jattrs -> option jmethod) (ps : list (option nat)) (ms : list jattrs) (f : nat)
  : option jmethod :=
  match ps, ms with
  | c :: r, m :: s =>
      if Nat.eqb f (length r)
      then match sel m with
           | Some x => Some x
           | None => match c with Some p => find_par sel r s p | None => None end
           end
      else find_par sel r s f
  | _, _ => None
  end.
Lemma find_method_par sel : forall cs ms f,
  find_method sel cs ms f = find_par sel (map p_parent cs) ms f.
Proof.
  induction cs as [|c r IH]; intros [|m s] f; cbn [find_method find_par map]; try reflexivity.
  rewrite map_length, IH. destruct (p_parent c) as [p|]; [rewrite IH|]; reflexivity.
Qed.
Lemma at_lt {X} : forall (l : list X) f x, at_ l f = Some x -> f < length l.
Proof.
  induction l as [|y l IH]; intros f x; cbn [at_ length]; [discriminate|].
  destruct (Nat.eqb_spec f (length l)); [lia|]. intros H. apply IH in H. lia.
Qed.
Lemma at_some {X} : forall (l : list X) f, f < length l -> exists x, at_ l f = Some x.
Proof.
  induction l as [|y l IH]; intros f; cbn [at_ length]; [lia|].
  destruct (Nat.eqb_spec f (length l)); [eauto|]. intros H. apply IH. lia.
Qed.
Lemma at_push {X} (x : X) l f : at_ (x :: l) f = if Nat.eqb f (length l) then Some x else at_ l f.
Proof. reflexivity. Qed.
Lemma upd_attrs_length f g ms : length (upd_attrs f g ms) = length ms.
Proof. induction ms as [|m s IH]; cbn [upd_attrs length]; [reflexivity|]. destruct (Nat.eqb f (length s)); cbn [length]; congruence. Qed.
Lemma at_upd f g : forall ms x,
  at_ (upd_attrs f g ms) x = if Nat.eqb x f then option_map g (at_ ms x) else at_ ms x.
Proof.
  induction ms as [|m s IH]; intros x; cbn [upd_attrs at_]; [now destruct (Nat.eqb x f)|].
  destruct (Nat.eqb_spec f (length s)) as [->|Hne]; cbn [at_].
  - destruct (Nat.eqb_spec x (length s)); reflexivity.
  - rewrite upd_attrs_length, IH. destruct (Nat.eqb_spec x (length s)) as [->|]; [|reflexivity].
    destruct (Nat.eqb_spec (length s) f); [congruence|reflexivity].
Qed.
Lemma find_par_out sel : forall ps ms f, length ps <= f -> find_par sel ps ms f = None.
Proof.
  induction ps as [|c r IH]; intros [|m s] f H; cbn [find_par length] in *; try reflexivity.
  destruct (Nat.eqb_spec f (length r)); [lia|]. apply IH. lia.
Qed.
Lemma find_par_push sel c m ps ms f : f < length ps ->
  find_par sel (c :: ps) (m :: ms) f = find_par sel ps ms f.
Proof. intros H. cbn [find_par]. destruct (Nat.eqb_spec f (length ps)); [lia|reflexivity]. Qed.
Lemma find_par_step sel : forall ps ms f par m,
  length ps = length ms -> at_ ps f = Some par -> at_ ms f = Some m ->
  (forall p, par = Some p -> p < f) ->
  find_par sel ps ms f =
  match sel m with
  | Some x => Some x
  | None => match par with Some p => find_par sel ps ms p | None => None end
  end.
Proof.
  induction ps as [|c r IH]; intros [|m' s] f par m HL HP HM Hlt; cbn [at_ length] in *; try discriminate.
  injection HL as HL. cbn [find_par]. rewrite <- HL in HM.
  destruct (Nat.eqb_spec f (length r)) as [E|E].
  - injection HP as ->. injection HM as ->. subst f. destruct (sel m); [reflexivity|].
    destruct par as [p|]; [|reflexivity]. specialize (Hlt p eq_refl).
    destruct (Nat.eqb_spec p (length r)); [lia|reflexivity].
  - rewrite (IH s f par m HL HP HM Hlt). destruct (sel m); [reflexivity|].
    destruct par as [p|]; [|reflexivity]. specialize (Hlt p eq_refl). apply at_lt in HP.
    destruct (Nat.eqb_spec p (length r)); [lia|reflexivity].
Qed.

(** ** Bases *)
Lemma upd_class_parents f g : (forall c, p_parent (g c) = p_parent c) -> forall cs,
  map p_parent (upd_class f g cs) = map p_parent cs.
Proof.
  intros Hp. induction cs as [|c r IH]; cbn [upd_class map]; [reflexivity|].
  destruct (Nat.eqb f (length r)); cbn [map]; congruence.
Qed.
Lemma cached_get_classes W k fm h f c : h_classes (fst (cached_get W k fm h f c)) = h_classes h.
Proof. unfold cached_get. destruct (aget _ _ _); [reflexivity|]. destruct (raw_get W k h f c); reflexivity. Qed.
Lemma cached_announce_classes W fm h f c n : h_classes (cached_announce W fm h f c n) = h_classes h.
Proof. unfold cached_announce. destruct (aget _ _ _); [reflexivity|]. destruct (resolve _ _ _); reflexivity. Qed.
Lemma estep_classes W h e : h_classes (fst (estep W h e)) = h_classes h.
Proof.
  destruct e; cbn [estep fst]; try reflexivity.
  - pose proof (cached_get_classes W k FPos h f c) as H. destruct (cached_get W k FPos h f c). exact H.
  - apply cached_announce_classes.
Qed.
Lemma eruns_classes W : forall tr h, h_classes (fst (eruns W h tr)) = h_classes h.
Proof.
  induction tr as [|e tr IH]; intros h; cbn [eruns fst]; [reflexivity|].
  pose proof (estep_classes W h e) as H. destruct (estep W h e) as [h1 o1]. cbn [fst] in H.
  specialize (IH h1). destruct (eruns W h1 tr). cbn [fst] in *. congruence.
Qed.
Lemma do_set_classes W k f a hi g h : h_classes (do_set W k f a hi g h) = h_classes h.
Proof. unfold do_set. destruct (resolve _ _ _); [|reflexivity]. destruct k; reflexivity. Qed.
Lemma do_suppress_parents f code h : map p_parent (h_classes (do_suppress f code h)) = map p_parent (h_classes h).
Proof.
  unfold do_suppress. destruct (resolve _ _ _); [|reflexivity]. cbn [h_classes].
  apply upd_class_parents. reflexivity.
Qed.
Lemma step_parents W h s o : Rel W h s ->
  map p_parent (h_classes (fst (step W h o))) =
  match o with
  | OFork p | OSubclass p =>
      if Nat.ltb p (a_size s) then Some p :: map p_parent (h_classes h) else map p_parent (h_classes h)
  | _ => map p_parent (h_classes h)
  end.
Proof.
  intros HR. destruct o; cbn [step fst].
  - now rewrite do_set_classes.
  - pose proof HR as [H1 H2 H3 H4 H5 H6 H7 H8 H9 H10 H11 H12].
    unfold do_fork, table_of, sel_of, tables_of. destruct (Nat.ltb_spec p (a_size s)) as [Hp|Hp].
    2:{ rewrite resolve_out by lia. reflexivity. }
    destruct (at_loc _ _ _ _ _ _ _ H4 p Hp) as [ls [ts [Rs [Ns Os]]]]. rewrite Rs, Ns.
    destruct (at_loc _ _ _ _ _ _ _ H5 p Hp) as [ld [td [Rd [Nd Od]]]]. rewrite Rd, Nd.
    destruct (at_loc _ _ _ _ _ _ _ H6 p Hp) as [lc [tc [Rc [Nc Oc]]]]. rewrite Rc.
    rewrite (flag_resolved _ _ _ _ HR Hp).
    destruct (H12 p Hp) as [n EC]. rewrite EC.
    rewrite Nc. cbn [h_classes map p_parent]. f_equal. now apply upd_class_parents.
  - unfold do_subclass. rewrite (r_size _ _ _ HR). destruct (Nat.ltb p (a_size s)); reflexivity.
  - now rewrite cached_announce_classes.
  - unfold do_suppress_all, with_classes. cbn [h_classes]. now apply upd_class_parents.
  - apply do_suppress_parents.
  - pose proof (cached_get_classes W k fm h f c) as H. destruct (cached_get W k fm h f c). cbn [fst] in *. now rewrite H.
  - pose proof (eruns_classes W tr h) as H. destruct (eruns W h tr). cbn [fst do_clear with_cache h_classes] in *. now rewrite H.
  - pose proof (cached_get_classes W Val FPos h f c) as H. destruct (cached_get W Val FPos h f c). cbn [fst] in *. now rewrite H.
  - pose proof (cached_get_classes W Deser FPos h f c) as H. destruct (cached_get W Deser FPos h f c) as [h' r]. cbn [fst] in *.
    destruct r as [[g|]|e]; cbn [fst do_clear with_cache h_classes]; now rewrite H.
  - reflexivity.
Qed.

(** ** The invariant *)
Definition meth (set : nat -> option kwargs) (f : nat) : option jmethod :=
  match set f with Some kw => Some (MWrapped kw) | None => if Nat.eqb f JS then Some MStd else None end.
Record bases (ps : list (option nat)) (s : abs) : Prop := mkBases {
  bs_len : length ps = a_size s;
  bs_at : forall f, f < a_size s -> at_ ps f = Some (if Nat.eqb f 0 then None else Some (a_base s f));
  bs_lt : forall f, f < a_size s -> 0 < f -> a_base s f < f;
  bs_two : 2 <= a_size s;
  bs_js : a_base s JS = 0;
  bs_out : forall f, a_size s <= f -> a_base s f = 0 }.
Record JInv (W : world) (s : jstate) (a : jabs) : Prop := mkJInv {
  ji_heap : js_heap s = run W (j_regs a);
  ji_len : length (js_attrs s) = a_size (a_run (j_regs a));
  ji_bases : bases (map p_parent (h_classes (js_heap s))) (a_run (j_regs a));
  ji_attrs : forall f, f < a_size (a_run (j_regs a)) -> exists m, at_ (js_attrs s) f = Some m /\ ja_dump m = meth (j_dump a) f /\ ja_load m = meth (j_load a) f;
  ji_none : forall f, a_size (a_run (j_regs a)) <= f \/ f = 0 -> j_dump a f = None /\ j_load a f = None;
  ji_set : forall f kw, j_dump a f = Some kw \/ j_load a f = Some kw ->
     up_to f (a_base (a_run (j_regs a))) f JS = true }.

Lemma a_step_sizes s o :
  a_size (a_step s o) =
  match o with OFork p | OSubclass p => if Nat.ltb p (a_size s) then S (a_size s) else a_size s | _ => a_size s end /\ a_base (a_step s o) =
  match o with OFork p | OSubclass p => if Nat.ltb p (a_size s) then upd (a_base s) (a_size s) p else a_base s | _ => a_base s end.
Proof.
  destruct s as [n ow ba se de va co fl]; destruct o; cbn [a_step a_size a_base]; try (split; reflexivity).
  - destruct k; destruct (Nat.ltb f n); split; reflexivity.
  - destruct (Nat.ltb p n); split; reflexivity.
  - destruct (Nat.ltb p n); split; reflexivity.
  - destruct (Nat.ltb f n); split; reflexivity.
  - destruct (Nat.ltb f n); split; reflexivity.
Qed.
Lemma bases_push ps s s' p : bases ps s -> p < a_size s ->
  a_size s' = S (a_size s) -> a_base s' = upd (a_base s) (a_size s) p -> bases (Some p :: ps) s'.
Proof.
  intros [HL HA HB H2 HJ HO] Hp ES EB. split; rewrite ?ES, ?EB.
  - cbn [length]. congruence.
  - intros f Hf. rewrite at_push, HL. destruct (Nat.eqb_spec f (a_size s)) as [->|Hne].
    + rewrite upd_eq. destruct (Nat.eqb_spec (a_size s) 0); [lia|reflexivity].
    + rewrite HA by lia. now rewrite upd_neq.
  - intros f Hf H0. destruct (Nat.eq_dec f (a_size s)) as [->|Hne]; [rewrite upd_eq; lia|].
    rewrite upd_neq by assumption. apply HB; lia.
  - lia.
  - rewrite upd_neq; [assumption|unfold JS; lia].
  - intros f Hf. rewrite upd_neq by lia. apply HO. lia.
Qed.
Lemma bases_step W h s o : Rel W h s -> bases (map p_parent (h_classes h)) s ->
  bases (map p_parent (h_classes (fst (step W h o)))) (a_step s o).
Proof.
  intros HR HB. pose proof (step_parents W h s o HR) as HP. destruct (a_step_sizes s o) as [ES EB].
  assert (Hsame : map p_parent (h_classes (fst (step W h o))) = map p_parent (h_classes h) ->
                  a_size (a_step s o) = a_size s -> a_base (a_step s o) = a_base s ->
                  bases (map p_parent (h_classes (fst (step W h o)))) (a_step s o)).
  { intros E1 E2 E3. rewrite E1. destruct HB as [HL HA HB H2 HJ HO]. split; rewrite ?E2, ?E3; auto. }
  destruct o; try (apply Hsame; assumption).
  - destruct (Nat.ltb_spec p (a_size s)); [|apply Hsame; assumption]. rewrite HP. eapply bases_push; eassumption.
  - destruct (Nat.ltb_spec p (a_size s)); [|apply Hsame; assumption]. rewrite HP. eapply bases_push; eassumption.
Qed.

Lemma jinv_init W : JInv W (jinit W) j_init.
Proof.
  split.
  - reflexivity.
  - reflexivity.
  - split; cbn; try reflexivity; try lia.
    + intros [|[|f]] Hf; [reflexivity|reflexivity|lia].
    + intros [|[|f]] Hf; cbn; lia.
    + intros [|[|f]] Hf; cbn; [reflexivity|lia|reflexivity].
  - intros [|[|f]] Hf; cbn in Hf; [eexists; repeat split; reflexivity|eexists; repeat split; reflexivity|lia].
  - intros f _. split; reflexivity.
  - intros f kw [H|H]; discriminate.
Qed.

Lemma base_zero : forall l, a_base (a_run l) 0 = 0.
Proof.
  intros l. induction l as [|o l IH] using rev_ind; [reflexivity|].
  rewrite a_run_snoc. destruct (a_step_sizes (a_run l) o) as [_ ->].
  destruct o; auto; destruct (Nat.ltb_spec p (a_size (a_run l))); auto; rewrite upd_neq; auto; lia.
Qed.
Lemma up_to_ext base base' d : forall n f,
  (forall g, g <= f -> base g = base' g) -> (forall g, 0 < g -> g <= f -> base g < g) -> base 0 = 0 ->
  up_to n base f d = up_to n base' f d.
Proof.
  induction n as [|n IH]; intros f He Hb H0; cbn [up_to]; [reflexivity|]. f_equal. rewrite <- (He f (le_n f)).
  apply IH; [| |exact H0].
  - intros g Hg. apply He. destruct f as [|f]; [lia|]. specialize (Hb (S f)). lia.
  - intros g Hg Hg'. apply Hb; [exact Hg|]. destruct f as [|f]; [lia|]. specialize (Hb (S f)). lia.
Qed.
Lemma nearest_ext {X} (set set' : nat -> option X) base base' : forall n f,
  (forall g, g <= f -> set g = set' g) ->
  (forall g, g <= f -> base g = base' g) -> (forall g, 0 < g -> g <= f -> base g < g) -> base 0 = 0 ->
  nearest n set base f = nearest n set' base' f.
Proof.
  induction n as [|n IH]; intros f Hs He Hb H0; cbn [nearest]; rewrite <- (Hs f (le_n f)); destruct (set f); try reflexivity.
  rewrite <- (He f (le_n f)).
  assert (Hf : forall g, g <= base f -> g <= f).
  { intros g Hg. destruct f as [|f]; [lia|]. specialize (Hb (S f)). lia. }
  apply IH; auto.
Qed.
(** The abstract steps that add a class leave the older ones alone. *)
Lemma base_old s o g : g < a_size s -> a_base (a_step s o) g = a_base s g.
Proof.
  intros Hg. destruct (a_step_sizes s o) as [_ ->]. destruct o; auto;
    destruct (Nat.ltb_spec p (a_size s)); auto; rewrite upd_neq; auto; lia.
Qed.

Lemma jinv_reg W s a o : JInv W s a -> JInv W (jreg W o s) (mkJabs (j_regs a ++ [o]) (j_dump a) (j_load a)).
Proof.
  intros [H1 H2 H3 H4 H5 H6]. pose proof (rel_run W (j_regs a)) as HR. rewrite <- H1 in HR.
  pose proof (bases_step W _ _ o HR H3) as HB.
  pose proof (a_step_sizes (a_run (j_regs a)) o) as [ES _].
  assert (Hcase : a_size (a_step (a_run (j_regs a)) o) = a_size (a_run (j_regs a)) \/
                  a_size (a_step (a_run (j_regs a)) o) = S (a_size (a_run (j_regs a)))).
  { rewrite ES. destruct o; auto; destruct (Nat.ltb p _); auto. }
  assert (HL : length (h_classes (fst (step W (js_heap s) o))) = a_size (a_step (a_run (j_regs a)) o)).
  { rewrite <- (map_length p_parent). apply (bs_len _ _ HB). }
  unfold jreg. split; cbn [js_heap js_attrs j_regs j_dump j_load]; rewrite ?a_run_snoc.
  - now rewrite run_snoc, H1.
  - unfold jgrow. rewrite HL, H2. destruct Hcase as [E|E]; rewrite E.
    + now rewrite Nat.ltb_irrefl.
    + rewrite (proj2 (Nat.ltb_lt _ _) (Nat.lt_succ_diag_r _)). cbn [length]. congruence.
  - exact HB.
  - unfold jgrow. rewrite HL, H2. intros f Hf. destruct Hcase as [E|E]; rewrite E in *.
    + rewrite Nat.ltb_irrefl. now apply H4.
    + rewrite (proj2 (Nat.ltb_lt _ _) (Nat.lt_succ_diag_r _)). rewrite at_push, H2.
      destruct (Nat.eqb_spec f (a_size (a_run (j_regs a)))) as [->|Hne].
      * eexists. split; [reflexivity|]. cbn [ja_dump ja_load]. unfold meth.
        destruct (H5 _ (or_introl (le_n (a_size (a_run (j_regs a)))))) as [-> ->].
        pose proof (bs_two _ _ H3). unfold JS. destruct (Nat.eqb_spec (a_size (a_run (j_regs a))) 1); [lia|].
        split; reflexivity.
      * apply H4. lia.
  - intros f Hf. apply H5. destruct Hf as [Hf|Hf]; [left|now right]. destruct Hcase as [E|E]; lia.
  - intros f kw Hf. rewrite <- (H6 f kw Hf).
    assert (Hlt : f < a_size (a_run (j_regs a))).
    { destruct (Nat.lt_ge_cases f (a_size (a_run (j_regs a)))) as [?|Hge]; [assumption|].
      destruct (H5 f (or_introl Hge)) as [E1 E2]. rewrite E1, E2 in Hf. destruct Hf; discriminate. }
    apply up_to_ext.
    + intros g Hg. apply base_old. lia.
    + intros g Hg Hg'. apply (bs_lt _ _ HB); [|exact Hg]. destruct Hcase as [E|E]; lia.
    + rewrite <- a_run_snoc. apply base_zero.
Qed.

(** Methods are found along the bases. *)
Lemma nearest_fuel {X} (set : nat -> option X) base : forall f n,
  (forall g, 0 < g -> g <= f -> base g < g) -> base 0 = 0 -> set 0 = None -> f <= n ->
  nearest n set base f = nearest f set base f.
Proof.
  intros f. induction f as [f IH] using lt_wf_ind. intros n Hb H0 HS Hn.
  destruct f as [|f].
  - clear IH Hb Hn. assert (H : forall k, nearest k set base 0 = None).
    { induction k as [|k IHk]; cbn [nearest]; rewrite HS; [reflexivity|]. now rewrite H0. }
    now rewrite !H.
  - destruct n as [|n]; [lia|]. cbn [nearest]. destruct (set (S f)); [reflexivity|].
    assert (Hlt : base (S f) < S f) by (apply Hb; lia).
    rewrite (IH (base (S f)) Hlt n), (IH (base (S f)) Hlt f); auto; try lia; intros g Hg Hg'; apply Hb; lia.
Qed.
Lemma up_to_fuel base d : forall f n,
  (forall g, 0 < g -> g <= f -> base g < g) -> base 0 = 0 -> f <= n ->
  up_to n base f d = up_to f base f d.
Proof.
  intros f. induction f as [f IH] using lt_wf_ind. intros n Hb H0 Hn.
  destruct f as [|f].
  - clear IH Hb Hn. induction n as [|n IHn]; [reflexivity|].
    cbn [up_to] in *. rewrite H0, IHn. now destruct (Nat.eqb 0 d).
  - destruct n as [|n]; [lia|]. cbn [up_to]. destruct (Nat.eqb (S f) d); [reflexivity|]. cbn [orb].
    assert (Hlt : base (S f) < S f) by (apply Hb; lia).
    rewrite (IH (base (S f)) Hlt n), (IH (base (S f)) Hlt f); auto; try lia; intros g Hg Hg'; apply Hb; lia.
Qed.
Lemma find_spec W s a (sel : jattrs -> option jmethod) (set : nat -> option kwargs) : JInv W s a ->
  (forall f, f < a_size (a_run (j_regs a)) -> exists m, at_ (js_attrs s) f = Some m /\ sel m = meth set f) ->
  set 0 = None ->
  forall c, c < a_size (a_run (j_regs a)) ->
  find_method sel (h_classes (js_heap s)) (js_attrs s) c =
  match nearest c set (a_base (a_run (j_regs a))) c with
  | Some kw => Some (MWrapped kw)
  | None => if up_to c (a_base (a_run (j_regs a))) c JS then Some MStd else None
  end.
Proof.
  intros [H1 H2 H3 H4 H5 H6] HS H0 c. rewrite find_method_par.
  induction c as [c IH] using lt_wf_ind. intros Hc.
  destruct (HS c Hc) as [m [HM Hsel]].
  pose proof (bs_at _ _ H3 c Hc) as HA.
  rewrite (find_par_step sel _ _ c (if Nat.eqb c 0 then None else Some (a_base (a_run (j_regs a)) c)) m); [|rewrite (bs_len _ _ H3); congruence|exact HA|exact HM|].
  2:{ intros p. destruct (Nat.eqb_spec c 0); [discriminate|]. intros [= <-]. apply (bs_lt _ _ H3); lia. }
  rewrite Hsel. unfold meth.
  pose proof (base_zero (j_regs a)) as B0.
  destruct (Nat.eqb_spec c 0) as [->|Hne].
  - rewrite H0. cbn [nearest]. rewrite H0. reflexivity.
  - destruct c as [|c]; [congruence|]. cbn [nearest up_to]. destruct (set (S c)) as [kw|]; [reflexivity|].
    assert (Hlt : a_base (a_run (j_regs a)) (S c) < S c) by (apply (bs_lt _ _ H3); lia).
    rewrite (nearest_fuel set (a_base (a_run (j_regs a))) (a_base (a_run (j_regs a)) (S c)) c);
      [|intros g Hg Hg'; apply (bs_lt _ _ H3); lia|exact B0|exact H0|lia].
    rewrite (up_to_fuel (a_base (a_run (j_regs a))) JS (a_base (a_run (j_regs a)) (S c)) c);
      [|intros g Hg Hg'; apply (bs_lt _ _ H3); lia|exact B0|lia].
    destruct (Nat.eqb_spec (S c) JS) as [E1|E1]; cbn [orb].
    + rewrite E1, (bs_js _ _ H3). cbn [nearest]. now rewrite H0.
    + apply IH; [exact Hlt|lia].
Qed.
Lemma dump_of_spec W s a c : JInv W s a -> c < a_size (a_run (j_regs a)) ->
  dump_of s c =
  match nearest c (j_dump a) (a_base (a_run (j_regs a))) c with
  | Some kw => Some (MWrapped kw)
  | None => if up_to c (a_base (a_run (j_regs a))) c JS then Some MStd else None
  end.
Proof.
  intros HI Hc. unfold dump_of. apply (find_spec W); auto.
  - intros f Hf. destruct (ji_attrs _ _ _ HI f Hf) as [m [HM [HD _]]]. eauto.
  - apply (ji_none _ _ _ HI). now right.
Qed.
Lemma load_of_spec W s a c : JInv W s a -> c < a_size (a_run (j_regs a)) ->
  load_of s c =
  match nearest c (j_load a) (a_base (a_run (j_regs a))) c with
  | Some kw => Some (MWrapped kw)
  | None => if up_to c (a_base (a_run (j_regs a))) c JS then Some MStd else None
  end.
Proof.
  intros HI Hc. unfold load_of. apply (find_spec W); auto.
  - intros f Hf. destruct (ji_attrs _ _ _ HI f Hf) as [m [HM [_ HD]]]. eauto.
  - apply (ji_none _ _ _ HI). now right.
Qed.

Section Chain.
Variable base : nat -> nat.
Variable size : nat.
Hypothesis Hlt : forall f, f < size -> 0 < f -> base f < f.
Hypothesis H0 : base 0 = 0.

Lemma up_to_unfold c d : c < size ->
  up_to c base c d = Nat.eqb c d || (negb (Nat.eqb c 0) && up_to (base c) base (base c) d).
Proof.
  intros Hc. destruct c as [|c]; [cbn [up_to Nat.eqb negb andb]; reflexivity|].
  cbn [up_to Nat.eqb negb andb]. f_equal. apply up_to_fuel; [|exact H0|].
  - intros g Hg Hg'. apply Hlt; [|exact Hg]. specialize (Hlt (S c) Hc). lia.
  - specialize (Hlt (S c) Hc). lia.
Qed.
Lemma nearest_unfold {X} (set : nat -> option X) c : c < size -> set 0 = None ->
  nearest c set base c =
  match set c with
  | Some x => Some x
  | None => if Nat.eqb c 0 then None else nearest (base c) set base (base c)
  end.
Proof.
  intros Hc HS. destruct c as [|c]; [cbn [nearest Nat.eqb]; now rewrite HS|].
  cbn [nearest Nat.eqb]. destruct (set (S c)); [reflexivity|]. apply nearest_fuel; [|exact H0|exact HS|].
  - intros g Hg Hg'. apply Hlt; [|exact Hg]. specialize (Hlt (S c) Hc). lia.
  - specialize (Hlt (S c) Hc). lia.
Qed.
Lemma nearest_up_to {X} (set : nat -> option X) d : set 0 = None ->
  (forall f x, set f = Some x -> up_to f base f d = true) ->
  forall c x, c < size -> nearest c set base c = Some x -> up_to c base c d = true.
Proof.
  intros HS Hset c. induction c as [c IH] using lt_wf_ind. intros x Hc HN.
  rewrite (nearest_unfold set c Hc HS) in HN. destruct (set c) as [y|] eqn:Es; [now apply Hset with y|].
  destruct (Nat.eqb_spec c 0) as [|Hne]; [discriminate|]. rewrite up_to_unfold by exact Hc.
  assert (Hb : base c < c) by (apply Hlt; lia). rewrite (IH (base c) Hb x); [|lia|exact HN].
  destruct (Nat.eqb_spec c 0); [congruence|]. apply orb_true_r.
Qed.
Lemma up_to_refl c : up_to c base c c = true.
Proof. destruct c; cbn [up_to]; now rewrite Nat.eqb_refl. Qed.
(** Setting something on [t] changes what is nearest only below [t]. *)
Lemma nearest_upd_other {X} (set : nat -> option X) t x : forall c, c < size -> set 0 = None -> t <> 0 ->
  up_to c base c t = false -> nearest c (upd set t x) base c = nearest c set base c.
Proof.
  intros c. induction c as [c IH] using lt_wf_ind. intros Hc HS Ht HU.
  rewrite up_to_unfold in HU by exact Hc. apply orb_false_iff in HU as [HU1 HU2]. apply Nat.eqb_neq in HU1.
  assert (HS' : upd set t x 0 = None) by (rewrite upd_neq; auto).
  rewrite (nearest_unfold (upd set t x) c Hc HS'), (nearest_unfold set c Hc HS).
  rewrite upd_neq by exact HU1. destruct (set c); [reflexivity|].
  destruct (Nat.eqb_spec c 0) as [|Hne]; [reflexivity|].
  assert (Hb : base c < c) by (apply Hlt; lia). cbn [negb andb] in HU2. apply IH; auto. lia.
Qed.
Lemma nearest_upd_below {X} (set : nat -> option X) t x : forall c, c < size -> set 0 = None -> t <> 0 ->
  up_to c base c t = true ->
  (forall m, up_to c base c m = true -> up_to m base m t = true -> m <> t -> set m = None) ->
  nearest c (upd set t (Some x)) base c = Some x.
Proof.
  intros c. induction c as [c IH] using lt_wf_ind. intros Hc HS Ht HU Hbetween.
  assert (HS' : upd set t (Some x) 0 = None) by (rewrite upd_neq; auto).
  rewrite nearest_unfold by assumption. destruct (Nat.eq_dec c t) as [->|Hne]; [now rewrite upd_eq|].
  rewrite upd_neq by exact Hne. rewrite (Hbetween c (up_to_refl c) HU Hne).
  pose proof HU as HU'. rewrite up_to_unfold in HU' by exact Hc.
  destruct (Nat.eqb_spec c t); [congruence|]. cbn [orb] in HU'. apply andb_prop in HU' as [Hc0 HU'].
  apply negb_true_iff in Hc0. rewrite Hc0. apply Nat.eqb_neq in Hc0.
  assert (Hb : base c < c) by (apply Hlt; lia). apply IH; auto; [lia|].
  intros m Hm. apply Hbetween. rewrite up_to_unfold by exact Hc. rewrite Hm.
  destruct (Nat.eqb_spec c 0); [congruence|]. apply orb_true_r.
Qed.
End Chain.

Lemma is_js_spec W s a p : JInv W s a -> is_js s p = j_valid a p.
Proof.
  intros HI. unfold is_js, j_valid, j_exists, j_derives.
  change (find_method ja_dump (h_classes (js_heap s)) (js_attrs s) p) with (dump_of s p).
  destruct (Nat.ltb_spec p (a_size (a_run (j_regs a)))) as [Hp|Hp]; cbn [andb].
  - rewrite (dump_of_spec W s a p HI Hp).
    destruct (nearest p (j_dump a) (a_base (a_run (j_regs a))) p) as [kw|] eqn:EN.
    + symmetry. eapply (nearest_up_to _ (a_size (a_run (j_regs a)))); [apply (bs_lt _ _ (ji_bases _ _ _ HI))|apply base_zero| | |exact Hp|exact EN].
      * apply (ji_none _ _ _ HI). now right.
      * intros f x Hf. apply (ji_set _ _ _ HI f x). now left.
    + now destruct (up_to _ _ _ _).
  - unfold dump_of. rewrite find_method_par, find_par_out; [reflexivity|]. rewrite (bs_len _ _ (ji_bases _ _ _ HI)). exact Hp.
Qed.

Lemma forked_inv W s a p (fork : bool) : JInv W s a ->
  JInv W (fst (target W p fork s)) (j_forked a p fork).
Proof. intros HI. destruct fork; cbn [target fst j_forked]; [now apply jinv_reg|exact HI]. Qed.
Lemma target_id W s a p (fork : bool) : JInv W s a -> snd (target W p fork s) = j_target a p fork.
Proof.
  intros HI. destruct fork; cbn [target snd j_target]; [|reflexivity]. unfold next_id.
  rewrite (ji_heap _ _ _ HI). apply (r_size _ _ _ (rel_run W (j_regs a))).
Qed.
(** The class that was asked for or made: it exists and derives from JsonSerializable. *)
Lemma target_valid W s a p (fork : bool) : JInv W s a -> j_valid a p = true ->
  j_valid (j_forked a p fork) (j_target a p fork) = true.
Proof.
  intros HI Hv. destruct fork; cbn [j_forked j_target]; [|exact Hv].
  pose proof (jinv_reg W s a (OFork p) HI) as HI'. unfold j_valid, j_exists, j_derives in *. cbn [j_regs] in *.
  apply andb_prop in Hv as [Hp HU]. pose proof Hp as Hp'. apply Nat.ltb_lt in Hp'.
  unfold next_id. pose proof (a_step_sizes (a_run (j_regs a)) (OFork p)) as [ES EB]. rewrite <- a_run_snoc in ES, EB.
  rewrite Hp in ES, EB. rewrite ES, EB. rewrite (proj2 (Nat.ltb_lt _ _) (Nat.lt_succ_diag_r _)). cbn [andb].
  rewrite (up_to_unfold _ (S (a_size (a_run (j_regs a))))); [| | |lia].
  - rewrite upd_eq. pose proof (bs_two _ _ (ji_bases _ _ _ HI)).
    destruct (Nat.eqb_spec (a_size (a_run (j_regs a))) 0); [lia|]. cbn [negb andb].
    rewrite (up_to_ext _ (a_base (a_run (j_regs a)))); [rewrite HU; apply orb_true_r| | |].
    + intros g Hg. rewrite upd_neq; [reflexivity|lia].
    + intros g Hg Hg'. rewrite upd_neq by lia. apply (bs_lt _ _ (ji_bases _ _ _ HI)); lia.
    + rewrite upd_neq by lia. apply base_zero.
  - intros f Hf Hf0. rewrite <- EB. apply (bs_lt _ _ (ji_bases _ _ _ HI')); [|exact Hf0]. cbn [j_regs]. lia.
  - rewrite <- EB. apply base_zero.
Qed.

Lemma jinv_set_dump W s a t kw : JInv W s a -> j_valid a t = true ->
  JInv W (mkJstate (js_heap s) (upd_attrs t (fun m => mkJattrs (Some (MWrapped kw)) (ja_load m)) (js_attrs s)))
         (mkJabs (j_regs a) (upd (j_dump a) t (Some kw)) (j_load a)).
Proof.
  intros [H1 H2 H3 H4 H5 H6] Hv. apply andb_prop in Hv as [Ht HU]. apply Nat.ltb_lt in Ht.
  assert (Ht0 : t <> 0).
  { intros ->. unfold j_derives in HU. cbn [up_to Nat.eqb JS orb] in HU. discriminate. }
  split; cbn [js_heap js_attrs j_regs j_dump j_load]; auto.
  - now rewrite upd_attrs_length.
  - intros f Hf. destruct (H4 f Hf) as [m [HM [HD HL]]]. rewrite at_upd, HM.
    destruct (Nat.eqb_spec f t) as [->|Hne]; cbn [option_map].
    + eexists. split; [reflexivity|]. cbn [ja_dump ja_load]. unfold meth. rewrite upd_eq. split; [reflexivity|exact HL].
    + exists m. split; [reflexivity|]. split; [|exact HL]. unfold meth. rewrite upd_neq by assumption. exact HD.
  - intros f Hf. rewrite upd_neq; [now apply H5|]. intros ->. destruct Hf as [Hf|Hf]; [lia|congruence].
  - intros f kw' Hf. destruct (Nat.eq_dec f t) as [->|Hne]; [exact HU|].
    apply (H6 f kw'). rewrite upd_neq in Hf by assumption. exact Hf.
Qed.
Lemma jinv_set_load W s a t kw : JInv W s a -> j_valid a t = true ->
  JInv W (mkJstate (js_heap s) (upd_attrs t (fun m => mkJattrs (ja_dump m) (Some (MWrapped kw))) (js_attrs s)))
         (mkJabs (j_regs a) (j_dump a) (upd (j_load a) t (Some kw))).
Proof.
  intros [H1 H2 H3 H4 H5 H6] Hv. apply andb_prop in Hv as [Ht HU]. apply Nat.ltb_lt in Ht.
  assert (Ht0 : t <> 0).
  { intros ->. unfold j_derives in HU. cbn [up_to Nat.eqb JS orb] in HU. discriminate. }
  split; cbn [js_heap js_attrs j_regs j_dump j_load]; auto.
  - now rewrite upd_attrs_length.
  - intros f Hf. destruct (H4 f Hf) as [m [HM [HD HL]]]. rewrite at_upd, HM.
    destruct (Nat.eqb_spec f t) as [->|Hne]; cbn [option_map].
    + eexists. split; [reflexivity|]. cbn [ja_dump ja_load]. unfold meth. rewrite upd_eq. split; [exact HD|reflexivity].
    + exists m. split; [reflexivity|]. split; [exact HD|]. unfold meth. rewrite upd_neq by assumption. exact HL.
  - intros f Hf. rewrite upd_neq; [now apply H5|]. intros ->. destruct Hf as [Hf|Hf]; [lia|congruence].
  - intros f kw' Hf. destruct (Nat.eq_dec f t) as [->|Hne]; [exact HU|].
    apply (H6 f kw'). rewrite upd_neq in Hf by assumption. exact Hf.
Qed.
Lemma accepted_spec kw : (shas "cls" kw || shas "fork" kw) = negb (accepted kw).
Proof. unfold accepted. now destruct (shas "cls" kw), (shas "fork" kw). Qed.
Lemma jinv_step W s a o : JInv W s a -> JInv W (fst (jstep W s o)) (j_step a o).
Proof.
  intros HI. destruct o as [o|p fork kw|p fork kw|k p x hi fork g]; cbn [jstep j_step fst].
  - now apply jinv_reg.
  - rewrite (is_js_spec W s a p HI), accepted_spec. destruct (j_valid a p) eqn:Hv; cbn [negb andb fst]; [|exact HI].
    destruct (accepted kw); cbn [negb fst]; [|exact HI].
    pose proof (forked_inv W s a p fork HI) as HF. pose proof (target_id W s a p fork HI) as HT.
    pose proof (target_valid W s a p fork HI Hv) as HV.
    destruct (target W p fork s) as [s' t]. cbn [fst snd] in *. subst t. now apply jinv_set_dump.
  - rewrite (is_js_spec W s a p HI), accepted_spec. destruct (j_valid a p) eqn:Hv; cbn [negb andb fst]; [|exact HI].
    destruct (accepted kw); cbn [negb fst]; [|exact HI].
    pose proof (forked_inv W s a p fork HI) as HF. pose proof (target_id W s a p fork HI) as HT.
    pose proof (target_valid W s a p fork HI Hv) as HV.
    destruct (target W p fork s) as [s' t]. cbn [fst snd] in *. subst t. now apply jinv_set_load.
  - rewrite (is_js_spec W s a p HI). destruct (j_valid a p) eqn:Hv; cbn [negb orb andb fst]; [|exact HI].
    destruct (kind_eqb k Val); cbn [negb fst]; [exact HI|].
    pose proof (forked_inv W s a p fork HI) as HF. pose proof (target_id W s a p fork HI) as HT.
    destruct (target W p fork s) as [s' t]. cbn [fst snd] in *. subst t. now apply jinv_reg.
Qed.
Lemma jrun_snoc W ops o : jrun W (ops ++ [o]) = fst (jstep W (jrun W ops) o).
Proof. unfold jrun. now rewrite fold_left_app. Qed.
Lemma j_run_snoc ops o : j_run (ops ++ [o]) = j_step (j_run ops) o.
Proof. unfold j_run. now rewrite fold_left_app. Qed.
Theorem jinv_run W ops : JInv W (jrun W ops) (j_run ops).
Proof.
  induction ops as [|o ops IH] using rev_ind; [apply jinv_init|].
  rewrite jrun_snoc, j_run_snoc. now apply jinv_step.
Qed.
