(** * Theorems about JsonSerializable classes, for PropSerializable.v *)
From Verif Require Import PyBaseFacts RegistrySpec RegistryProofs EngineFacts LoadObject CallSpec CallProofs
  SerializableModel SerializableSpec SerializableProofs.
Local Close Scope Z_scope.
Local Open Scope string_scope.

Definition W0 : world := mkWorld (fun _ => "") (fun _ _ => false) (fun _ => None).
Lemma js_exists ops c : js_class ops c -> exists_in (reg_history ops) c.
Proof. unfold js_class, j_valid. intros H. apply andb_prop in H as [H _]. now apply Nat.ltb_lt in H. Qed.
Lemma js_up ops c : js_class ops c -> up_to c (a_base (a_run (reg_history ops))) c JS = true.
Proof. unfold js_class, j_valid. intros H. now apply andb_prop in H as [_ H]. Qed.
Lemma js_nonzero ops c : js_class ops c -> c <> 0.
Proof. intros H ->. apply js_up in H. discriminate. Qed.

(** ** What a method does *)
Lemma dump_std W ops c : js_class ops c -> dump_setting ops c = None -> dump_of (jrun W ops) c = Some MStd.
Proof.
  intros Hc Hs. rewrite (dump_of_spec W _ _ c (jinv_run W ops) (js_exists _ _ Hc)).
  unfold dump_setting, reg_history in Hs. rewrite Hs. pose proof (js_up _ _ Hc) as HU. unfold reg_history in HU. now rewrite HU.
Qed.
Lemma load_std W ops c : js_class ops c -> load_setting ops c = None -> load_of (jrun W ops) c = Some MStd.
Proof.
  intros Hc Hs. rewrite (load_of_spec W _ _ c (jinv_run W ops) (js_exists _ _ Hc)).
  unfold load_setting, reg_history in Hs. rewrite Hs. pose proof (js_up _ _ Hc) as HU. unfold reg_history in HU. now rewrite HU.
Qed.
Lemma dump_set W ops c kw0 : js_class ops c -> dump_setting ops c = Some kw0 ->
  dump_of (jrun W ops) c = Some (MWrapped kw0).
Proof.
  intros Hc Hs. rewrite (dump_of_spec W _ _ c (jinv_run W ops) (js_exists _ _ Hc)).
  unfold dump_setting, reg_history in Hs. now rewrite Hs.
Qed.
Lemma load_set W ops c kw0 : js_class ops c -> load_setting ops c = Some kw0 ->
  load_of (jrun W ops) c = Some (MWrapped kw0).
Proof.
  intros Hc Hs. rewrite (load_of_spec W _ _ c (jinv_run W ops) (js_exists _ _ Hc)).
  unfold load_setting, reg_history in Hs. now rewrite Hs.
Qed.

Lemma keywords_ok {A} own kw (k : M A) : (forall x, In x own -> not_named x kw) -> keywords own kw k = k.
Proof.
  intros H. unfold keywords. destruct (existsb (fun p : string * arg => mem_str (fst p) own) kw) eqn:EX; [|reflexivity].
  apply existsb_exists in EX as [p [Hp Hm]]. apply mem_str_In in Hm. exfalso. apply (H _ Hm). now apply in_map.
Qed.
Lemma with_fork_ok {A} c kw (k : kwargs -> M A) : not_named "fork_inst" kw ->
  with_fork c kw k = k (("fork_inst", AFork c) :: kw).
Proof.
  intros H. unfold with_fork. rewrite with_kw_ok; [reflexivity|]. intros x [<-|[]]. exact H.
Qed.
Lemma with_fork_clash {A} c kw (k : kwargs -> M A) : In "fork_inst" (map fst kw) ->
  with_fork c kw k = fail (exn_of KType).
Proof. intros H. unfold with_fork. rewrite (with_kw_clash _ _ "fork_inst"); [reflexivity|now left|exact H]. Qed.

Theorem method_dump W E n ops c v kw : js_class ops c -> dump_setting ops c = None ->
  not_named "self" kw -> not_named "fork_inst" kw ->
  m_dump E n (jrun W ops) c v kw = call_dump E n [AVal v] (("fork_inst", AFork c) :: kw).
Proof.
  intros Hc Hs H1 H2. unfold m_dump. rewrite (dump_std W _ _ Hc Hs), keywords_ok, with_fork_ok; auto. intros x [<-|[]]. exact H1.
Qed.
Theorem method_json W E n ops c v : js_class ops c -> dump_setting ops c = None ->
  m_json E n (jrun W ops) c v = dump E c n sopts0 None v.
Proof.
  intros Hc Hs. unfold m_json. rewrite method_dump by (auto; intros []). apply call_dump_plain.
Qed.
Theorem method_load W E n tys ops c j kw : js_class ops c -> load_setting ops c = None ->
  not_named "cls" kw -> not_named "json_obj" kw -> not_named "fork_inst" kw ->
  m_load E n tys (jrun W ops) c j kw = call_load E n [AVal j; AType (tys c)] (("fork_inst", AFork c) :: kw).
Proof.
  intros Hc Hs H1 H2 H3. unfold m_load. rewrite (load_std W _ _ Hc Hs), keywords_ok, with_fork_ok; auto.
  intros x [<-|[<-|[]]]; assumption.
Qed.
Theorem method_from_json W E n tys ops c j kw : not_named "cls" kw -> not_named "json_obj" kw ->
  m_from_json E n tys (jrun W ops) c j kw = m_load E n tys (jrun W ops) c j kw.
Proof. intros H1 H2. unfold m_from_json. rewrite keywords_ok; auto. intros x [<-|[<-|[]]]; assumption. Qed.
Theorem method_load_plain W E n tys ops c j : js_class ops c -> load_setting ops c = None ->
  m_from_json E n tys (jrun W ops) c j [] = load E n c lopts0 (Some (tys c)) j.
Proof.
  intros Hc Hs. rewrite method_from_json, method_load by (auto; intros []). apply call_load_plain.
Qed.
Theorem method_dumps E T n c v kw : not_named "self" kw -> not_named "fork_inst" kw ->
  m_dumps E T n c v kw = call_dumps E T n [AVal v] (("fork_inst", AFork c) :: kw).
Proof. intros H1 H2. unfold m_dumps. rewrite keywords_ok, with_fork_ok; auto. intros x [<-|[]]. exact H1. Qed.
Theorem method_dumpb E T n c v kw : not_named "self" kw -> not_named "fork_inst" kw ->
  m_dumpb E T n c v kw = call_dumpb E T n [AVal v] (("fork_inst", AFork c) :: kw).
Proof. intros H1 H2. unfold m_dumpb. rewrite keywords_ok, with_fork_ok; auto. intros x [<-|[]]. exact H1. Qed.
Theorem method_loads E T n tys c x kw : not_named "cls" kw -> not_named "json_obj" kw -> not_named "fork_inst" kw ->
  m_loads E T n tys c x kw = call_loads E T n [x; AType (tys c)] (("fork_inst", AFork c) :: kw).
Proof. intros H1 H2 H3. unfold m_loads. rewrite keywords_ok, with_fork_ok; auto. intros y [<-|[<-|[]]]; assumption. Qed.
Theorem method_loadb E T n tys c x kw : not_named "cls" kw -> not_named "json_obj" kw -> not_named "fork_inst" kw ->
  m_loadb E T n tys c x kw = call_loadb E T n [x; AType (tys c)] (("fork_inst", AFork c) :: kw).
Proof. intros H1 H2 H3. unfold m_loadb. rewrite keywords_ok, with_fork_ok; auto. intros y [<-|[<-|[]]]; assumption. Qed.
Theorem method_str E T n c v : m_str E T n c v = dumps E T c n sopts0 None v.
Proof. unfold m_str. rewrite method_dumps by (intros []). apply call_dumps_plain. Qed.

(** A caller cannot choose the fork. *)
Lemma keywords_fail {A} own kw e (k : M A) : k = fail e -> e = exn_of KType -> keywords own kw k = fail (exn_of KType).
Proof. intros -> ->. unfold keywords. now destruct (existsb _ _). Qed.
Theorem method_dump_fork W E n ops c v kw : js_class ops c -> dump_setting ops c = None ->
  In "fork_inst" (map fst kw) -> m_dump E n (jrun W ops) c v kw = fail (exn_of KType).
Proof.
  intros Hc Hs H. unfold m_dump. rewrite (dump_std W _ _ Hc Hs). eapply keywords_fail; [|reflexivity]. now apply with_fork_clash.
Qed.
Theorem method_load_fork W E n tys ops c j kw : js_class ops c -> load_setting ops c = None ->
  In "fork_inst" (map fst kw) -> m_load E n tys (jrun W ops) c j kw = fail (exn_of KType).
Proof.
  intros Hc Hs H. unfold m_load. rewrite (load_std W _ _ Hc Hs). eapply keywords_fail; [|reflexivity]. now apply with_fork_clash.
Qed.

(** ** With settings *)
Theorem method_dump_set W E n ops c v kw0 kw kw' : js_class ops c -> dump_setting ops c = Some kw0 ->
  distinct_names kw0 -> distinct_names kw -> distinct_names kw' -> not_named "inst" kw -> over kw0 kw kw' ->
  m_dump E n (jrun W ops) c v kw = call_dump E n [AVal v] kw'.
Proof.
  intros Hc Hs D0 D D' HN HO. unfold m_dump. rewrite (dump_set W _ _ _ Hc Hs), keywords_ok.
  - apply call_dump_ext; [now apply merge_distinct|exact D'|]. intros k. rewrite merge_get by assumption. symmetry. apply HO.
  - intros x [<-|[]]. exact HN.
Qed.
Theorem method_load_set W E n tys ops c j kw0 kw kw' : js_class ops c -> load_setting ops c = Some kw0 ->
  distinct_names kw0 -> distinct_names kw -> distinct_names kw' -> not_named "inst" kw -> not_named "cls_" kw ->
  not_named "fork_inst" kw0 -> not_named "fork_inst" kw -> over kw0 kw kw' ->
  m_load E n tys (jrun W ops) c j kw = call_load E n [AVal j; AType (tys c)] (("fork_inst", AFork c) :: kw').
Proof.
  intros Hc Hs D0 D D' HN HN' HF HF' HO. unfold m_load. rewrite (load_set W _ _ _ Hc Hs), keywords_ok.
  - assert (HS : same_kw (merge_kw kw kw0) kw') by (intros k; rewrite merge_get by assumption; symmetry; apply HO).
    assert (HM : not_named "fork_inst" (merge_kw kw kw0)).
    { apply not_named_get. rewrite merge_get by assumption. apply not_named_get in HF, HF'. now rewrite HF, HF'. }
    assert (HM' : not_named "fork_inst" kw') by (apply not_named_get; rewrite <- (HS "fork_inst"); now apply not_named_get).
    rewrite with_fork_ok by exact HM. apply call_load_ext.
    + constructor; [exact HM|now apply merge_distinct].
    + constructor; [exact HM'|exact D'].
    + intros k. unfold sget. cbn [aget fst snd]. destruct (String.eqb k "fork_inst"); [reflexivity|apply HS].
  - intros x [<-|[<-|[]]]; assumption.
Qed.

(** ** Which classes a setting is for *)
Lemma regs_snoc ops o : reg_history (ops ++ [o]) = j_regs (j_step (j_run ops) o).
Proof. unfold reg_history. now rewrite j_run_snoc. Qed.
Lemma bases_run ops : bases (map p_parent (h_classes (js_heap (jrun W0 ops)))) (a_run (reg_history ops)).
Proof. exact (ji_bases _ _ _ (jinv_run W0 ops)). Qed.
Lemma base_lt ops f : exists_in (reg_history ops) f -> 0 < f -> a_base (a_run (reg_history ops)) f < f.
Proof. intros H. exact (bs_lt _ _ (bases_run ops) f H). Qed.
Lemma own_none ops f : f = 0 \/ ~ exists_in (reg_history ops) f -> own_dump ops f = None /\ own_load ops f = None.
Proof.
  intros H. apply (ji_none _ _ _ (jinv_run W0 ops)). destruct H as [->|H]; [now right|left]. unfold exists_in in H.
  unfold reg_history in H. lia.
Qed.
(** A longer history of registry calls. *)
Lemma old_base regs more g : g < a_size (a_run regs) -> a_base (a_run (regs ++ more)) g = a_base (a_run regs) g /\
  g < a_size (a_run (regs ++ more)).
Proof.
  induction more as [|o more IH] using rev_ind; intros H; [rewrite app_nil_r; auto|].
  destruct (IH H) as [I1 I2]. rewrite app_assoc, a_run_snoc. split.
  - rewrite base_old by exact I2. exact I1.
  - destruct (a_step_sizes (a_run (regs ++ more)) o) as [-> _]. destruct o; try exact I2; destruct (Nat.ltb _ _); lia.
Qed.
Lemma nearest_old (set set' : nat -> option kwargs) ops more c :
  exists_in (reg_history ops) c -> (forall g, g <= c -> set' g = set g) ->
  nearest c set' (a_base (a_run (reg_history ops ++ more))) c = nearest c set (a_base (a_run (reg_history ops))) c.
Proof.
  intros Hc HS. symmetry. unfold exists_in in Hc. apply nearest_ext.
  - intros g Hg. symmetry. now apply HS.
  - intros g Hg. symmetry. apply old_base. lia.
  - intros g H0 Hg. apply base_lt; [unfold exists_in; lia|exact H0].
  - apply base_zero.
Qed.
Lemma valid_target ops p (fork : bool) : js_class ops p ->
  j_valid (j_forked (j_run ops) p fork) (j_target (j_run ops) p fork) = true.
Proof. intros H. exact (target_valid W0 _ _ p fork (jinv_run W0 ops) H). Qed.
Lemma forked_regs ops p fork : j_regs (j_forked (j_run ops) p fork) = (reg_history ops ++ if fork : bool then [OFork p] else [])%list.
Proof. destruct fork; cbn [j_forked j_regs]; [reflexivity|now rewrite app_nil_r]. Qed.
Lemma forked_dump a p fork : j_dump (j_forked a p fork) = j_dump a /\ j_load (j_forked a p fork) = j_load a.
Proof. destruct fork; split; reflexivity. Qed.

Definition with_call (dumping : bool) (p : nat) (fork : bool) (kw : kwargs) : jop :=
  if dumping then JWithDump p fork kw else JWithLoad p fork kw.
Lemma with_step b ops p fork kw : js_class ops p -> accepted kw = true ->
  reg_history (ops ++ [with_call b p fork kw]) = (reg_history ops ++ if fork : bool then [OFork p] else [])%list /\
  j_dump (j_run (ops ++ [with_call b p fork kw])) =
    (if b : bool then upd (j_dump (j_run ops)) (j_target (j_run ops) p fork) (Some kw) else j_dump (j_run ops)) /\
  j_load (j_run (ops ++ [with_call b p fork kw])) =
    (if b then j_load (j_run ops) else upd (j_load (j_run ops)) (j_target (j_run ops) p fork) (Some kw)).
Proof.
  intros Hp Ha. unfold reg_history, own_dump, own_load. rewrite j_run_snoc. unfold js_class in Hp.
  destruct (forked_dump (j_run ops) p fork) as [FD FL]. pose proof (forked_regs ops p fork) as FR. unfold reg_history in FR.
  destruct b; cbn [with_call j_step]; rewrite Hp, Ha; cbn [andb j_regs j_dump j_load]; rewrite FD, FL, FR; auto.
Qed.

(** A class that does not derive from the one the call was made on. *)
Theorem with_dump_others ops p kw c : js_class ops p -> accepted kw = true -> exists_in (reg_history ops) c ->
  ~ js_derives ops c p ->
  dump_setting (ops ++ [JWithDump p false kw]) c = dump_setting ops c.
Proof.
  intros Hp Ha Hc Hd. destruct (with_step true ops p false kw Hp Ha) as [R1 [R2 _]]. cbn [with_call] in *.
  unfold dump_setting, own_dump in *. rewrite R1, R2, app_nil_r. cbn [j_target].
  apply nearest_upd_other with (size := a_size (a_run (reg_history ops))).
  - apply base_lt.
  - apply base_zero.
  - exact Hc.
  - now apply own_none; left.
  - now apply (js_nonzero ops).
  - unfold js_derives, j_derives in Hd. now apply not_true_is_false.
Qed.
Theorem with_load_others ops p kw c : js_class ops p -> accepted kw = true -> exists_in (reg_history ops) c ->
  ~ js_derives ops c p ->
  load_setting (ops ++ [JWithLoad p false kw]) c = load_setting ops c.
Proof.
  intros Hp Ha Hc Hd. destruct (with_step false ops p false kw Hp Ha) as [R1 [_ R2]]. cbn [with_call] in *.
  unfold load_setting, own_load in *. rewrite R1, R2, app_nil_r. cbn [j_target].
  apply nearest_upd_other with (size := a_size (a_run (reg_history ops))).
  - apply base_lt.
  - apply base_zero.
  - exact Hc.
  - now apply own_none; left.
  - now apply (js_nonzero ops).
  - unfold js_derives, j_derives in Hd. now apply not_true_is_false.
Qed.
(** A class that derives from it, with nothing set in between. *)
Theorem with_dump_below ops p kw c : js_class ops p -> accepted kw = true -> exists_in (reg_history ops) c ->
  js_derives ops c p ->
  (forall m, js_derives ops c m -> js_derives ops m p -> m <> p -> own_dump ops m = None) ->
  dump_setting (ops ++ [JWithDump p false kw]) c = Some kw.
Proof.
  intros Hp Ha Hc Hd HM. destruct (with_step true ops p false kw Hp Ha) as [R1 [R2 _]]. cbn [with_call] in *.
  unfold dump_setting, own_dump in *. rewrite R1, R2, app_nil_r. cbn [j_target].
  apply nearest_upd_below with (size := a_size (a_run (reg_history ops))).
  - apply base_lt.
  - apply base_zero.
  - exact Hc.
  - now apply own_none; left.
  - now apply (js_nonzero ops).
  - exact Hd.
  - exact HM.
Qed.
Theorem with_load_below ops p kw c : js_class ops p -> accepted kw = true -> exists_in (reg_history ops) c ->
  js_derives ops c p ->
  (forall m, js_derives ops c m -> js_derives ops m p -> m <> p -> own_load ops m = None) ->
  load_setting (ops ++ [JWithLoad p false kw]) c = Some kw.
Proof.
  intros Hp Ha Hc Hd HM. destruct (with_step false ops p false kw Hp Ha) as [R1 [_ R2]]. cbn [with_call] in *.
  unfold load_setting, own_load in *. rewrite R1, R2, app_nil_r. cbn [j_target].
  apply nearest_upd_below with (size := a_size (a_run (reg_history ops))).
  - apply base_lt.
  - apply base_zero.
  - exact Hc.
  - now apply own_none; left.
  - now apply (js_nonzero ops).
  - exact Hd.
  - exact HM.
Qed.
(** with_dump leaves load alone, and with_load leaves dump alone. *)
Theorem with_other_kind b ops p fork kw c : js_class ops p -> accepted kw = true -> exists_in (reg_history ops) c ->
  if b : bool then load_setting (ops ++ [JWithDump p fork kw]) c = load_setting ops c
  else dump_setting (ops ++ [JWithLoad p fork kw]) c = dump_setting ops c.
Proof.
  intros Hp Ha Hc. destruct (with_step b ops p fork kw Hp Ha) as [R1 [R2 R3]].
  destruct b; cbn [with_call] in *; unfold load_setting, dump_setting, own_load, own_dump in *; rewrite R1;
    [rewrite R3|rewrite R2]; apply nearest_old; auto.
Qed.
(** fork=True: nothing changes for existing classes. *)
Theorem with_fork_old b ops p kw c : js_class ops p -> accepted kw = true -> exists_in (reg_history ops) c ->
  dump_setting (ops ++ [with_call b p true kw]) c = dump_setting ops c /\
  load_setting (ops ++ [with_call b p true kw]) c = load_setting ops c.
Proof.
  intros Hp Ha Hc. destruct (with_step b ops p true kw Hp Ha) as [R1 [R2 R3]].
  unfold load_setting, dump_setting, own_load, own_dump in *. rewrite R1, R2, R3.
  assert (HU : forall (set : nat -> option kwargs) g, g <= c -> upd set (j_target (j_run ops) p true) (Some kw) g = set g).
  { intros set g Hg. cbn [j_target]. rewrite upd_neq; [reflexivity|]. unfold exists_in in Hc. unfold next_id, reg_history in *. lia. }
  split; apply nearest_old; auto; intros g Hg; destruct b; auto.
Qed.
Lemma nearest_new (set : nat -> option kwargs) regs p : 
  (forall f, f < a_size (a_run regs) -> 0 < f -> a_base (a_run regs) f < f) ->
  p < a_size (a_run regs) -> set 0 = None -> forall mk, mk = OFork p \/ mk = OSubclass p ->
  nearest (next_id regs) set (a_base (a_run (regs ++ [mk]))) (next_id regs) =
  match set (next_id regs) with
  | Some x => Some x
  | None => nearest p set (a_base (a_run regs)) p
  end.
Proof.
  intros HB Hp HS mk HK. pose proof (a_step_sizes (a_run regs) mk) as [ES EB]. rewrite <- a_run_snoc in ES, EB.
  assert (ES' : a_size (a_run (regs ++ [mk])) = S (a_size (a_run regs))) by (destruct HK; subst mk; rewrite (proj2 (Nat.ltb_lt _ _) Hp) in ES; exact ES).
  assert (EB' : a_base (a_run (regs ++ [mk])) = upd (a_base (a_run regs)) (a_size (a_run regs)) p) by (destruct HK; subst mk; rewrite (proj2 (Nat.ltb_lt _ _) Hp) in EB; exact EB).
  clear ES EB. unfold next_id.
  rewrite (nearest_unfold _ (S (a_size (a_run regs)))); [| | |lia|exact HS].
  - rewrite EB', upd_eq. destruct (Nat.eqb_spec (a_size (a_run regs)) 0); [lia|].
    destruct (set (a_size (a_run regs))); [reflexivity|]. apply nearest_ext; auto.
    + intros g Hg. rewrite upd_neq; [reflexivity|lia].
    + intros g Hg Hg'. rewrite upd_neq by lia. apply HB; lia.
    + rewrite upd_neq by lia. apply base_zero.
  - intros f Hf H0. rewrite EB'. destruct (Nat.eq_dec f (a_size (a_run regs))) as [->|Hne]; [now rewrite upd_eq|].
    rewrite upd_neq by assumption. apply HB; lia.
  - apply base_zero.
Qed.
(** ... and the class returned has the arguments; the other method is the base's. *)
Theorem with_dump_new ops p kw : js_class ops p -> accepted kw = true ->
  let ops' := (ops ++ [JWithDump p true kw])%list in
  js_class ops' (new_class ops) /\ dump_setting ops' (new_class ops) = Some kw /\
  load_setting ops' (new_class ops) = load_setting ops p.
Proof.
  intros Hp Ha ops'. destruct (with_step true ops p true kw Hp Ha) as [R1 [R2 R3]]. cbn [with_call] in *. subst ops'.
  pose proof (js_exists _ _ Hp) as He. unfold exists_in in He.
  split; [|split].
  - pose proof (valid_target ops p true Hp) as HV. unfold js_class. rewrite j_run_snoc. cbn [j_step]. unfold js_class in Hp. rewrite Hp, Ha.
    exact HV.
  - unfold dump_setting, own_dump, new_class in *. rewrite R1, R2. rewrite (nearest_new _ _ p); auto; [|apply base_lt|].
    + cbn [j_target]. unfold reg_history. now rewrite upd_eq.
    + cbn [j_target]. rewrite upd_neq; [now apply own_none; left|]. unfold next_id. unfold reg_history in He. lia.
  - unfold load_setting, own_load, new_class in *. rewrite R1, R3. rewrite (nearest_new _ _ p); auto; [|apply base_lt|now apply own_none; left].
    destruct (own_none ops (next_id (reg_history ops))) as [_ HN]; [right; unfold exists_in, next_id; lia|]. unfold own_load in HN. now rewrite HN.
Qed.
Theorem with_load_new ops p kw : js_class ops p -> accepted kw = true ->
  let ops' := (ops ++ [JWithLoad p true kw])%list in
  js_class ops' (new_class ops) /\ load_setting ops' (new_class ops) = Some kw /\
  dump_setting ops' (new_class ops) = dump_setting ops p.
Proof.
  intros Hp Ha ops'. destruct (with_step false ops p true kw Hp Ha) as [R1 [R2 R3]]. cbn [with_call] in *. subst ops'.
  pose proof (js_exists _ _ Hp) as He. unfold exists_in in He.
  split; [|split].
  - pose proof (valid_target ops p true Hp) as HV. unfold js_class. rewrite j_run_snoc. cbn [j_step]. unfold js_class in Hp. rewrite Hp, Ha.
    exact HV.
  - unfold load_setting, own_load, new_class in *. rewrite R1, R3. rewrite (nearest_new _ _ p); auto; [|apply base_lt|].
    + cbn [j_target]. unfold reg_history. now rewrite upd_eq.
    + cbn [j_target]. rewrite upd_neq; [now apply own_none; left|]. unfold next_id. unfold reg_history in He. lia.
  - unfold dump_setting, own_dump, new_class in *. rewrite R1, R2. rewrite (nearest_new _ _ p); auto; [|apply base_lt|now apply own_none; left].
    destruct (own_none ops (next_id (reg_history ops))) as [HN _]; [right; unfold exists_in, next_id; lia|]. unfold own_dump in HN. now rewrite HN.
Qed.
(** A class made by a class statement or by fork() starts with the settings of its base. *)
Theorem subclass_settings ops p mk : js_class ops p -> mk = OFork p \/ mk = OSubclass p ->
  let ops' := (ops ++ [JReg mk])%list in
  js_class ops' (new_class ops) /\ dump_setting ops' (new_class ops) = dump_setting ops p /\
  load_setting ops' (new_class ops) = load_setting ops p.
Proof.
  intros Hp HK ops'. subst ops'. pose proof (js_exists _ _ Hp) as He. unfold exists_in in He.
  assert (R : j_run (ops ++ [JReg mk]) = mkJabs (reg_history ops ++ [mk]) (own_dump ops) (own_load ops)) by apply j_run_snoc.
  assert (HNone : own_dump ops (next_id (reg_history ops)) = None /\ own_load ops (next_id (reg_history ops)) = None).
  { apply own_none. right. unfold exists_in, next_id. lia. }
  split; [|split].
  - pose proof (valid_target ops p true Hp) as HV. unfold js_class. rewrite R.
    assert (HE : forall d, j_valid (mkJabs (reg_history ops ++ [mk]) (own_dump ops) (own_load ops)) d = j_valid (j_forked (j_run ops) p true) d).
    { intros d. unfold j_valid, j_exists, j_derives. cbn [j_regs j_forked]. unfold reg_history. rewrite !a_run_snoc.
      destruct (a_step_sizes (a_run (j_regs (j_run ops))) mk) as [-> ->]. destruct (a_step_sizes (a_run (j_regs (j_run ops))) (OFork p)) as [-> ->].
      destruct HK; subst mk; reflexivity. }
    rewrite HE. exact HV.
  - unfold dump_setting, reg_history. rewrite R. cbn [j_regs j_dump]. unfold new_class.
    rewrite (nearest_new _ _ p); auto; [|apply base_lt|now apply own_none; left]. now rewrite (proj1 HNone).
  - unfold load_setting, reg_history. rewrite R. cbn [j_regs j_load]. unfold new_class.
    rewrite (nearest_new _ _ p); auto; [|apply base_lt|now apply own_none; left]. now rewrite (proj2 HNone).
Qed.
(** All other calls leave all settings as they are. *)
Definition sets_nothing (o : jop) : Prop := match o with JReg _ | JSet _ _ _ _ _ _ => True | _ => False end.
Theorem settings_kept ops o c : sets_nothing o -> exists_in (reg_history ops) c ->
  dump_setting (ops ++ [o]) c = dump_setting ops c /\ load_setting (ops ++ [o]) c = load_setting ops c.
Proof.
  intros Ho Hc. unfold dump_setting, load_setting. unfold reg_history at 1 3. rewrite j_run_snoc.
  destruct o as [o| | |k p a hi fork g]; try contradiction.
  - cbn [j_step j_regs j_dump j_load]. split; apply nearest_old; auto.
  - cbn [j_step]. destruct (j_valid (j_run ops) p && negb (kind_eqb k Val)).
    + cbn [j_regs j_dump j_load]. destruct (forked_dump (j_run ops) p fork) as [-> ->]. rewrite forked_regs, <- app_assoc.
      split; apply nearest_old; auto.
    + split; reflexivity.
Qed.
(** A call that is refused. *)
Theorem with_refused W b ops p fork kw : js_class ops p -> accepted kw = false ->
  jstep W (jrun W ops) (with_call b p fork kw) = (jrun W ops, raise KType).
Proof.
  intros Hp Ha. destruct b; cbn [with_call jstep]; rewrite (is_js_spec W _ _ p (jinv_run W ops)), Hp; cbn [negb];
    rewrite accepted_spec, Ha; reflexivity.
Qed.

(** ** Registrations *)
Theorem js_registries W ops : js_heap (jrun W ops) = run W (reg_history ops).
Proof. exact (ji_heap _ _ _ (jinv_run W ops)). Qed.
Theorem js_result W ops o t : snd (jstep W (jrun W ops) o) = Ok t ->
  match o with
  | JReg _ => True
  | JWithDump p fork _ | JWithLoad p fork _ | JSet _ p _ _ fork _ => t = if fork then new_class ops else p
  end.
Proof.
  assert (HT : forall p (fork : bool), snd (target W p fork (jrun W ops)) = if fork then new_class ops else p).
  { intros p fork. rewrite (target_id W _ _ p fork (jinv_run W ops)). destruct fork; reflexivity. }
  destruct o as [o|p fork kw|p fork kw|k p a hi fork g]; cbn [jstep]; auto.
  - destruct (negb _); [discriminate|]. destruct (_ || _); [discriminate|]. specialize (HT p fork).
    destruct (target W p fork (jrun W ops)) as [s' t']. cbn [snd] in *. intros [= <-]. exact HT.
  - destruct (negb _); [discriminate|]. destruct (_ || _); [discriminate|]. specialize (HT p fork).
    destruct (target W p fork (jrun W ops)) as [s' t']. cbn [snd] in *. intros [= <-]. exact HT.
  - destruct (_ || _); [discriminate|]. specialize (HT p fork).
    destruct (target W p fork (jrun W ops)) as [s' t']. cbn [snd] in *. intros [= <-]. exact HT.
Qed.
Lemma set_history ops k p a hi (fork : bool) g : js_class ops p -> k <> Val ->
  reg_history (ops ++ [JSet k p a hi fork g]) =
  (reg_history ops ++ (if fork then [OFork p; OSet k (new_class ops) a hi g] else [OSet k p a hi g]))%list.
Proof.
  intros Hp Hk. unfold reg_history. rewrite j_run_snoc. cbn [j_step]. unfold js_class in Hp. rewrite Hp.
  assert (HK : kind_eqb k Val = false) by (destruct k; [reflexivity|reflexivity|congruence]). rewrite HK. cbn [andb negb j_regs].
  rewrite forked_regs. destruct fork; cbn [j_target]; unfold reg_history; rewrite <- app_assoc; reflexivity.
Qed.
(** p.set_serializer(g, a): the class and those that share its registries. *)
Theorem set_here W ops k p a hi g c d : js_class ops p -> k <> Val ->
  exists_in (reg_history ops) d -> same_fork (reg_history ops) d p ->
  In (slower (w_name W c)) (names_of W a) ->
  raw_get W k (js_heap (jrun W (ops ++ [JSet k p a hi false g]))) d c = Ok (Some g).
Proof.
  intros Hp Hk Hd HF HI. rewrite js_registries, set_history by assumption.
  pose proof (js_exists _ _ Hp) as He. set (rs := reg_history ops) in *.
  rewrite <- (set_get_same W k rs p a hi g c He HI).
  assert (HF' : same_fork (rs ++ [OSet k p a hi g]) d p).
  { unfold same_fork in *. rewrite a_run_snoc. unfold exists_in in *. destruct (a_run rs) as [sz ow ba se de va co fl]. cbn [a_size] in *.
    apply Nat.ltb_lt in He. destruct k; cbn [a_step]; rewrite He; exact HF. }
  rewrite !RegistryProofs.get_correct; [|now apply exists_snoc|now apply exists_snoc]. unfold visible, same_fork in *. now rewrite HF'.
Qed.
(** p.set_serializer(g, a, fork=True): the new class only. *)
Theorem set_fork_new W ops k p a hi g c : js_class ops p -> k <> Val ->
  In (slower (w_name W c)) (names_of W a) ->
  raw_get W k (js_heap (jrun W (ops ++ [JSet k p a hi true g]))) (new_class ops) c = Ok (Some g).
Proof.
  intros Hp Hk HI. rewrite js_registries, set_history by assumption.
  pose proof (js_exists _ _ Hp) as He.
  change [OFork p; OSet k (new_class ops) a hi g] with ([OFork p] ++ [OSet k (new_class ops) a hi g])%list.
  rewrite app_assoc. apply set_get_same; [|exact HI]. now apply fork_size.
Qed.
Theorem set_fork_old W ops k k' p a hi g c d : js_class ops p -> k <> Val -> k' <> Val ->
  exists_in (reg_history ops) d ->
  raw_get W k' (js_heap (jrun W (ops ++ [JSet k p a hi true g]))) d c = raw_get W k' (js_heap (jrun W ops)) d c.
Proof.
  intros Hp Hk Hk' Hd. rewrite !js_registries, set_history by assumption.
  pose proof (js_exists _ _ Hp) as He. apply isolation; [exact Hk'|exact Hd|].
  cbn [all_leave_alone leaves_alone]. split; [exact I|]. split; [|exact I].
  destruct k; try exact I; intros _; apply fresh_fork_own; auto.
Qed.
(** with_dump and with_load register nothing. *)
Theorem with_registers_nothing W b ops p fork kw k d c : js_class ops p -> accepted kw = true -> k <> Val ->
  exists_in (reg_history ops) d ->
  raw_get W k (js_heap (jrun W (ops ++ [with_call b p fork kw]))) d c = raw_get W k (js_heap (jrun W ops)) d c.
Proof.
  intros Hp Ha Hk Hd. rewrite !js_registries. destruct (with_step b ops p fork kw Hp Ha) as [-> _].
  destruct fork; [|now rewrite app_nil_r]. apply isolation; [exact Hk|exact Hd|]. cbn. auto.
Qed.

(** ** The serializer that the registries name is the one that is called *)
Theorem json_registered W E hs tys ops n c d v g i : js_class ops d -> dump_setting ops d = None ->
  shows_serializers W (js_heap (jrun W ops)) E tys hs -> class_of v = tys c ->
  raw_get W Ser (js_heap (jrun W ops)) d c = Ok (Some g) -> hs g = SCustom i ->
  forall r, snd (m_json E (S n) (jrun W ops) d v) = Done r <-> e_cser E i None v = Ok r.
Proof.
  intros Hd Hs HE HC HR Hh r. rewrite method_json by assumption. unfold dump, dump_. rewrite HC, (HE d c), HR, Hh.
  cbn [serialize ser_step]. unfold mbind, emit, wrap_ser, mtry. cbn [fst snd lift].
  destruct (e_cser E i None v) as [x|e]; cbn.
  - split; congruence.
  - split; [|discriminate]. destruct e; cbn; discriminate.
Qed.
