(** * Loading documents of a heap is loading their trees *)
From Coq Require Import Lia.
From Verif Require Export HeapTreeSpec.
From Verif Require Import PyBaseFacts EngineFacts LoadTypes HeapTrees HeapSims HeapRefine.
Local Open Scope string_scope.

(** ** Objects and trees *)
Definition stands (H : heap) (x : obj) (v : value) : Prop := exists F, rd H x v F.
Definition inn (H : heap) (x : obj) (v : value) : Prop := stands H x v /\ plain_doc v.
Definition grows (H H' : heap) : Prop := keeps (below H) H H'.
Lemma grows_refl H : grows H H.
Proof. apply keeps_refl. Qed.
Lemma grows_trans H H1 H2 : grows H H1 -> grows H1 H2 -> grows H H2.
Proof. intros K1 K2. eapply keeps_trans; [exact K1|]. eapply keeps_weak; [|exact K2]. now apply below_keep. Qed.
Lemma stands_keep H H' x v : grows H H' -> stands H x v -> stands H' x v.
Proof. intros [_ K] (F & HF). exists F. eapply rd_frame; [exact HF|]. intros a Ha. apply K. exact (rd_bound _ _ _ _ _ HF Ha). Qed.
Lemma inn_keep H H' x v : grows H H' -> inn H x v -> inn H' x v.
Proof. intros K [S1 S2]. split; [now apply (stands_keep H)|assumption]. Qed.
Lemma all_keep H H' l vs : grows H H' -> Forall2 (inn H) l vs -> Forall2 (inn H') l vs.
Proof. intros K. apply Forall2_imp. intros a b. now apply inn_keep. Qed.
Lemma alls_keep H H' l vs : grows H H' -> Forall2 (stands H) l vs -> Forall2 (stands H') l vs.
Proof. intros K. apply Forall2_imp. intros a b. now apply stands_keep. Qed.
Lemma stands_read H x v : stands H x v <-> read H x = Some v.
Proof. split; [intros (F & HF); eapply rd_read; eassumption|apply read_rd]. Qed.
Lemma stands_view H x v : stands H x v -> view H x = v.
Proof. intros (F & HF). eapply rd_view; eassumption. Qed.
Lemma stands_atom H v : flatv v = true -> stands H (OAtom v) v.
Proof. intros Hv. exists []. now constructor. Qed.
Lemma inn_atom H v : flatv v = true -> inn H (OAtom v) v.
Proof. intros Hv. split; [now apply stands_atom|now constructor]. Qed.
Lemma stands_all H l vs F : rds H l vs F -> Forall2 (stands H) l vs.
Proof. induction 1; constructor; auto. eexists; eassumption. Qed.
Lemma all_stands H l vs : Forall2 (stands H) l vs -> exists F, rds H l vs F.
Proof.
  induction 1 as [|x v l vs (F & HF) _ (G & HG)]; [exists []; constructor|]. exists (F ++ G)%list. now constructor.
Qed.
Definition pstands (H : heap) (kx : obj * obj) (kv : value * value) : Prop :=
  stands H (fst kx) (fst kv) /\ stands H (snd kx) (snd kv).
Lemma stands_dict H d D F : rdd H d D F -> Forall2 (pstands H) d D.
Proof. induction 1; constructor; auto. split; eexists; eassumption. Qed.
Lemma dict_stands H d D : Forall2 (pstands H) d D -> exists F, rdd H d D F.
Proof.
  induction 1 as [|[k x] [kv v] d D [(F1 & H1) (F2 & H2)] _ (G & HG)]; [exists []; constructor|].
  exists (F1 ++ F2 ++ G)%list. now constructor.
Qed.
Definition astands (H : heap) (ax : string * obj) (av : string * value) : Prop := fst ax = fst av /\ stands H (snd ax) (snd av).
Lemma attrs_stands H l vs : Forall2 (astands H) l vs -> exists F, rda H l vs F.
Proof.
  induction 1 as [|[a x] [b v] l vs [E1 (F & HF)] _ (G & HG)]; [exists []; constructor|]. cbn [fst snd] in *. subst b.
  exists (F ++ G)%list. now constructor.
Qed.
Lemma attrs_reads H l vs : Forall2 (astands H) l vs <-> reads H l vs.
Proof. split; apply Forall2_imp; intros a b [E1 S1]; (split; [exact E1|now apply stands_read]). Qed.
Lemma attrs_keep H H' l vs : grows H H' -> Forall2 (astands H) l vs -> Forall2 (astands H') l vs.
Proof. intros K. apply Forall2_imp. intros a b [E1 S1]. split; [assumption|now apply (stands_keep H)]. Qed.
Lemma pairs_keep H H' l vs : grows H H' -> Forall2 (pstands H) l vs -> Forall2 (pstands H') l vs.
Proof. intros K. apply Forall2_imp. intros a b [S1 S2]. split; now apply (stands_keep H). Qed.
Lemma reads_dict H d D : Forall2 (pstands H) d D -> map (fun kx => (view H (fst kx), view H (snd kx))) d = D.
Proof.
  induction 1 as [|[k x] [kv v] d D [S1 S2] _ IH]; [reflexivity|]. cbn [map fst snd] in *. rewrite IH.
  now rewrite (stands_view _ _ _ S1), (stands_view _ _ _ S2).
Qed.
Lemma views H l vs : Forall2 (stands H) l vs -> map (view H) l = vs.
Proof. induction 1 as [|x v l vs S1 _ IH]; [reflexivity|]. cbn [map]. now rewrite IH, (stands_view _ _ _ S1). Qed.

(** Looking up and setting *)
Lemma get_rel H k kv d D : stands H k kv -> Forall2 (pstands H) d D ->
  match hdget H k d, dget kv D with
  | Some x, Some v => stands H x v /\ exists key, In (key, v) D /\ py_eqb kv key = true
  | None, None => True
  | _, _ => False
  end.
Proof.
  intros Sk. unfold hdget, dget. induction 1 as [|[k1 x1] [kv1 v1] d D [S1 S2] _ IH]; [exact I|]. cbn [fst snd] in *. cbn [aget].
  unfold key_eqb at 1. rewrite (stands_view _ _ _ Sk), (stands_view _ _ _ S1). destruct (py_eqb kv kv1) eqn:Ep.
  - split; [assumption|]. exists kv1. split; [now left|assumption].
  - destruct (aget (key_eqb H) k d), (aget py_eqb kv D); auto. destruct IH as (I1 & key & I2 & I3). split; [assumption|].
    exists key. split; [now right|assumption].
Qed.
Lemma set_rel H k kv x v d D : stands H k kv -> stands H x v -> Forall2 (pstands H) d D ->
  Forall2 (pstands H) (hdset H k x d) (dset kv v D).
Proof.
  intros Sk Sx. unfold hdset, dset. induction 1 as [|[k1 x1] [kv1 v1] d D [S1 S2] Hd IH]; cbn [aset].
  - constructor; [now split|constructor].
  - cbn [fst snd] in *. unfold key_eqb at 1. rewrite (stands_view _ _ _ Sk), (stands_view _ _ _ S1). destruct (py_eqb kv kv1).
    + constructor; [now split|assumption].
    + constructor; [now split|assumption].
Qed.

(** ** Simulation *)
Definition sg {A B} (Q : heap -> A -> B -> Prop) (H : heap) (m : hM A) (t : outcome B) : Prop := sim (below H) Q H m t.
Lemma sg_bind {A B A' B'} (Q1 : heap -> A -> B -> Prop) (Q : heap -> A' -> B' -> Prop) H m t g k :
  sg Q1 H m t -> (forall H' a b, grows H H' -> Q1 H' a b -> sg Q H' (g a) (k b)) -> sg Q H (hbind m g) (obind t k).
Proof.
  intros Hm Hg. apply sim_bind with (P1 := below H) (Q1 := Q1); [auto|exact Hm|].
  intros H' a b K HQ. eapply sim_weak; [| |apply (Hg H' a b K HQ)]; [now apply below_keep|auto].
Qed.
Lemma sg_try {A B} (Q : heap -> A -> B -> Prop) H m t h k :
  sg Q H m t -> (forall H' e, grows H H' -> sg Q H' (h e) (k e)) -> sg Q H (htry m h) (otry t k).
Proof.
  intros Hm Hg. apply sim_try; [exact Hm|]. intros H' e K. eapply sim_weak; [| |apply (Hg H' e K)]; [now apply below_keep|auto].
Qed.
Lemma sg_catch {A B} (Q : heap -> A -> B -> Prop) H m t : sg Q H m t ->
  sg (fun H' a b => match a, b with inl x, inl y => Q H' x y | inr e, inr e' => e = e' | _, _ => False end) H (hcatch m) (ocatch t).
Proof. apply sim_catch. Qed.
Lemma sg_ret {A B} (Q : heap -> A -> B -> Prop) H a b : Q H a b -> sg Q H (hret a) (Done b).
Proof. apply sim_ret. Qed.
Lemma sg_fail {A B} (Q : heap -> A -> B -> Prop) H e : sg Q H (hfail e) (Fail e).
Proof. apply sim_fail. Qed.
Lemma sg_at {A B} m' (Q : heap -> A -> B -> Prop) H m t : m H = m' H -> sg Q H m' t -> sg Q H m t.
Proof. apply sim_at. Qed.
Lemma sg_pure {A A' B'} (Q : heap -> A' -> B' -> Prop) H (r : res A) g k :
  (forall a, r = Ok a -> sg Q H (g a) (k a)) -> sg Q H (hbind (hlift r) g) (obind (ores r) k).
Proof. apply sim_pure. Qed.
Lemma sg_read {A A' B'} (Q : heap -> A' -> B' -> Prop) H (r : heap -> A) g t :
  sg Q H (g (r H)) t -> sg Q H (hbind (hread r) g) t.
Proof. intros Hg. apply (sg_at (g (r H))); [reflexivity|exact Hg]. Qed.
Lemma sg_lift {A B} (Q : heap -> A -> B -> Prop) H r r' :
  match r, r' with Ok a, Ok b => Q H a b | Err e, Err e' => e = e' | _, _ => False end -> sg Q H (hlift r) (ores r').
Proof. apply sim_lift. Qed.
Lemma sg_place H r : sg stands H (place_res r) (ores r).
Proof.
  destruct r as [v|e]; cbn [place_res ores]; [|apply sg_fail]. eapply sim_weak; [| |apply sim_place]; [auto|].
  intros H' x w _ (F & HF & _). now exists F.
Qed.
Lemma sg_place_in H r : (forall v, r = Ok v -> plain_doc v) -> sg inn H (place_res r) (ores r).
Proof.
  intros Hp. destruct r as [v|e]; cbn [place_res ores]; [|apply sg_fail].
  eapply sim_weak; [| |apply sim_done, sim_place]; [auto|]. intros H' x w _ [Ew (F & HF & _)]. injection Ew as <-.
  split; [now exists F|auto].
Qed.
Lemma sg_new H c v : (forall H' a, grows H H' -> nth_error H' a = Some c -> stands H' (ORef a) v) -> sg stands H (alloc c) (Done v).
Proof.
  intros Hc. assert (K : grows H (H ++ [c])%list) by (apply keeps_app; auto). split; [exact K|]. cbn [alloc fst snd].
  apply Hc; [exact K|]. rewrite nth_error_app2 by lia. now rewrite Nat.sub_diag.
Qed.
Lemma sg_new_list H l vs : Forall2 (stands H) l vs -> sg stands H (alloc (NList l)) (Done (VList vs)).
Proof.
  intros Hl. apply sg_new. intros H' a K Ha. destruct (all_stands _ _ _ (alls_keep _ _ _ _ K Hl)) as (F & HF).
  exists (a :: F). econstructor; eassumption.
Qed.
Lemma sg_new_coll H k l vs : Forall2 (stands H) l vs -> sg stands H (alloc (NColl k l)) (Done (VColl k vs)).
Proof.
  intros Hl. apply sg_new. intros H' a K Ha. destruct (all_stands _ _ _ (alls_keep _ _ _ _ K Hl)) as (F & HF).
  exists (a :: F). econstructor; eassumption.
Qed.
Lemma sg_new_dict H k l vs : Forall2 (pstands H) l vs -> sg stands H (alloc (NDict k l)) (Done (VDict k vs)).
Proof.
  intros Hl. apply sg_new. intros H' a K Ha. destruct (dict_stands _ _ _ (pairs_keep _ _ _ _ K Hl)) as (F & HF).
  exists (a :: F). econstructor; eassumption.
Qed.
Lemma sg_new_obj H c l vs : Forall2 (astands H) l vs -> sg stands H (alloc (NObj c l)) (Done (VObj c vs)).
Proof.
  intros Hl. apply sg_new. intros H' a K Ha. destruct (attrs_stands _ _ _ (attrs_keep _ _ _ _ K Hl)) as (F & HF).
  exists (a :: F). econstructor; eassumption.
Qed.
Lemma sg_adds {A B} (Q : heap -> A -> B -> Prop) H m (r : res B) : only_adds m ->
  match snd (m H), r with Done a, Ok b => Q (fst (m H)) a b | Fail e, Err e' => e = e' | _, _ => False end -> sg Q H m (ores r).
Proof.
  intros Ho Hm. split.
  - destruct (Ho H) as (new & ->). split; [rewrite app_length; lia|]. intros a Ha. now apply nth_error_app1.
  - destruct (snd (m H)), r; cbn [ores]; try contradiction; auto.
Qed.

(** Parts of plain documents *)
Lemma plain_list l : plain_doc (VList l) -> forall x, In x l -> plain_doc x.
Proof. intros Hp. inversion Hp; [discriminate|assumption]. Qed.
Lemma plain_tuple l : plain_doc (VTuple l) -> forall x, In x l -> plain_doc x.
Proof. intros Hp. inversion Hp; [discriminate|assumption]. Qed.
Lemma plain_coll k l : plain_doc (VColl k l) -> forall x, In x l -> plain_doc x.
Proof. intros Hp. inversion Hp; [discriminate|assumption]. Qed.
Lemma plain_nt c l : plain_doc (VNT c l) -> forall x, In x l -> plain_doc x.
Proof. intros Hp. inversion Hp; [discriminate|assumption]. Qed.
Lemma plain_dict k d : plain_doc (VDict k d) ->
  string_dict d /\ (forall x, ~ In (VStr "-keys", x) d) /\ (forall key x, In (key, x) d -> plain_doc x).
Proof. intros Hp. inversion Hp; [discriminate|auto]. Qed.
Lemma all_inn H l vs : Forall2 (stands H) l vs -> (forall x, In x vs -> plain_doc x) -> Forall2 (inn H) l vs.
Proof.
  induction 1 as [|x v l vs Hx _ IH]; intros Hp; constructor.
  - split; [assumption|]. apply Hp. now left.
  - apply IH. intros y Hy. apply Hp. now right.
Qed.
Lemma inn_all H l vs : Forall2 (inn H) l vs -> Forall2 (stands H) l vs.
Proof. apply Forall2_imp. now intros a b [S1 _]. Qed.
Lemma plain_chars s x : In x (str_chars s) -> plain_doc x.
Proof. unfold str_chars. intros Hin. apply in_map_iff in Hin as (c & <- & _). now constructor. Qed.
Lemma sg_places H l : (forall x, In x l -> plain_doc x) -> sg (fun H' => Forall2 (inn H')) H (hmap place l) (Done l).
Proof.
  revert H. induction l as [|v l IH]; intros H Hp; cbn [hmap].
  - apply sg_ret. constructor.
  - change (Done (v :: l)) with (obind (ores (Ok v)) (fun w => obind (Done l) (fun ws => Done (w :: ws)))).
    eapply sg_bind; [apply (sg_place_in H (Ok v)); intros w E1; injection E1 as <-; apply Hp; now left|].
    intros H1 x w K1 Hx. eapply sg_bind; [apply IH; intros y Hy; apply Hp; now right|].
    intros H2 xs ws K2 Hxs. apply sg_ret. constructor; [now apply (inn_keep H1)|assumption].
Qed.

Section Refine.
Variables (E : env) (L : lenv) (H0 : heap).
Hypothesis QL : quiet L.
Hypothesis AL : agree_lenv E L H0.
Let CT := e_ct E.
Let R := e_rt E.
Definition base (H : heap) : Prop := grown H0 H.
Lemma grows_grown H H' : grows H H' -> grown H H'.
Proof.
  intros [Hl Hk]. revert H' Hl Hk. induction H as [|c H IH]; intros H' Hl Hk; [now exists H'|].
  pose proof (Hk 0 ltac:(unfold below; cbn; lia)) as E0. destruct H' as [|c' H']; [discriminate|]. injection E0 as ->.
  destruct (IH H') as (new & ->); [cbn in Hl; lia| |now exists new].
  intros a Ha. apply (Hk (S a)). unfold below in *. cbn. lia.
Qed.
Lemma grown_grows H H' : grown H H' -> grows H H'.
Proof. intros (new & ->). split; [rewrite app_length; lia|]. intros a Ha. now apply nth_error_app1. Qed.
Lemma base_keep H H' : base H -> grows H H' -> base H'.
Proof. intros (n1 & ->) K. apply grows_grown in K as (n2 & ->). exists (n1 ++ n2)%list. now rewrite app_assoc. Qed.

(** Iteration and items *)
Lemma sg_iter H x v : inn H x v -> valid_type v = true -> sg (fun H' => Forall2 (inn H')) H (hiter R x) (ores (py_iter R v)).
Proof.
  intros [(F & HF) Hp] Hv.
  destruct HF as [v Hf|l vs F HF|c l vs F HF|a l vs F Hc HF|a k l vs F Hc HF|a k d ds F Hc HF|a c l vs F Hc HF];
    cbn [py_iter ores]; try discriminate Hv.
  - destruct v; try discriminate Hf; try discriminate Hv; try (apply (sg_at (hfail (exn_of KType))); [reflexivity|apply sg_fail]).
    apply (sg_at (hmap place (str_chars s))); [reflexivity|]. apply sg_places. apply plain_chars.
  - apply (sg_at (hret l)); [reflexivity|]. apply sg_ret. apply all_inn; [eapply stands_all; eassumption|now apply plain_tuple].
  - apply (sg_at (hret l)); [unfold hiter; now rewrite Hc|]. apply sg_ret. apply all_inn; [eapply stands_all; eassumption|now apply plain_list].
  - apply (sg_at (hret l)); [unfold hiter; now rewrite Hc|]. apply sg_ret. apply all_inn; [eapply stands_all; eassumption|now apply (plain_coll k)].
  - apply (sg_at (hret (map fst d))); [unfold hiter; now rewrite Hc|]. apply sg_ret.
    apply plain_dict in Hp as ([Hs _] & _). apply stands_dict in HF. apply all_inn.
    + eapply (Forall2_fst (stands H) (fun _ _ => True)). eapply Forall2_imp; [|exact HF]. intros a0 b0 [S1 _]. now split.
    + intros y Hy. apply in_map_iff in Hy as ((k0 & x0) & <- & Hin). destruct (Hs _ _ Hin) as (s & E1). cbn [fst]. rewrite E1. now constructor.
Qed.
Lemma flat_item v k w : flatv v = true -> py_getitem CT v k = Ok w -> plain_doc w.
Proof.
  intros Hv. destruct v; try discriminate. change (py_getitem CT (VStr s) k) with (item_at (str_chars s) k).
  intros Hi. apply item_at_in in Hi. exact (plain_chars s w Hi).
Qed.
Lemma sg_getitem H x v k kv : inn H x v -> stands H k kv -> sg inn H (hgetitem CT x k) (ores (py_getitem CT v kv)).
Proof.
  intros [(F & HF) Hp] Hk. pose proof (stands_view _ _ _ Hk) as Ek.
  assert (Hl : forall l vs G, rds H l vs G -> (forall x, In x vs -> plain_doc x) -> sg inn H (hlift (item_at l kv)) (ores (item_at vs kv))).
  { intros l vs G HG Hpl. apply sg_lift. apply item_at_rel. apply all_inn; [eapply stands_all; eassumption|assumption]. }
  destruct HF as [v Hv|l vs F HF|c l vs F HF|a l vs F Hc HF|a kd l vs F Hc HF|a kd d ds F Hc HF|a c l vs F Hc HF].
  - apply (sg_at (place_res (py_getitem CT v kv))); [unfold hgetitem; now rewrite Ek|]. apply sg_place_in. intros w. now apply flat_item.
  - apply (sg_at (hlift (item_at l kv))); [unfold hgetitem; now rewrite Ek|]. eapply Hl; [eassumption|now apply plain_tuple].
  - apply (sg_at (hlift (item_at l kv))); [unfold hgetitem; now rewrite Ek|]. eapply Hl; [eassumption|now apply (plain_nt c)].
  - apply (sg_at (hlift (item_at l kv))); [unfold hgetitem; now rewrite Ek, Hc|]. eapply Hl; [eassumption|now apply plain_list].
  - destruct kd.
    + apply (sg_at (hfail (exn_of KType))); [unfold hgetitem; now rewrite Hc|]. apply sg_fail.
    + apply (sg_at (hfail (exn_of KType))); [unfold hgetitem; now rewrite Hc|]. apply sg_fail.
    + apply (sg_at (hlift (item_at l kv))); [unfold hgetitem; now rewrite Ek, Hc|]. eapply Hl; [eassumption|now apply (plain_coll CDeque)].
  - cbn [py_getitem]. destruct (hashable CT kv) eqn:Eh.
    2: { apply (sg_at (hfail (exn_of KType))); [unfold hgetitem; now rewrite Hc, Ek, Eh|]. apply sg_fail. }
    pose proof (get_rel H k kv d ds Hk (stands_dict _ _ _ _ HF)) as Hg.
    apply (sg_at (match hdget H k d with Some y => hret y | None => hfail (exn_of KKey) end)).
    { unfold hgetitem. rewrite Hc, Ek, Eh. now destruct (hdget H k d). }
    destruct (hdget H k d), (dget kv ds); try contradiction; [|apply sg_fail].
    apply sg_ret. destruct Hg as (S1 & key & Hin & _). split; [assumption|]. apply plain_dict in Hp as (_ & _ & Hp). eauto.
  - apply (sg_at (hfail (exn_of KType))); [unfold hgetitem; now rewrite Hc|]. apply sg_fail.
Qed.

(** ** The deserializers *)
Variable hload : nat -> lopts -> option ty -> obj -> hM obj.
Variable load : nat -> lopts -> option ty -> value -> M value.
Definition oko (o : lopts) : Prop := agree_opts L H0 o.
Hypothesis HR : forall f o cls x v H, base H -> oko o -> inn H x v -> sg stands H (hload f o cls x) (snd (load f o cls v)).
Variable f : nat.
Lemma oko_like o o' : lo_getters o' = lo_getters o \/ lo_getters o' = [] ->
  lo_kt o' = lo_kt o \/ lo_kt o' = None \/ lo_kt o' = Some (fun k => Ok k) -> oko o -> oko o'.
Proof.
  intros Hg Hk [A1 A2]. constructor.
  - intros a r H' Hb Hin. destruct Hg as [Hg|Hg]; rewrite Hg in Hin; [eauto|contradiction].
  - intros g k r Eg Hp. destruct Hk as [Hk|[Hk|Hk]]; rewrite Hk in Eg; [eauto|discriminate|]. injection Eg as <-. intros E1. now injection E1 as <-.
Qed.
Ltac okos := eapply oko_like; [| |eassumption]; cbn; auto.

Lemma sg_list_go o w t : oko o -> forall l vs i H, base H -> Forall2 (inn H) l vs ->
  sg (fun H' => Forall2 (stands H')) H (hdeser_list_go hload f o w t i l) (snd (deser_list_go E load f o w t i vs)).
Proof.
  intros Ho l vs. revert l. induction vs as [|v vs IH]; intros l i H Hb Hl; inversion Hl as [|x ? l' ? Hx Hl']; subst; cbn [hdeser_list_go deser_list_go].
  - apply sg_ret. constructor.
  - match goal with |- sg _ _ _ ?tr => replace tr with
      (obind (ocatch (snd (load f o t v))) (fun c => match c with
        | inl y => obind (snd (deser_list_go E load f o w t (S i) vs)) (fun ys => Done (y :: ys))
        | inr e => if is_deser (e_kind e) then
                     if w then snd (deser_list_go E load f o w t (S i) vs)
                     else Fail (mkExn KDeser (e_arg e) (i :: e_idx e) false (e_msg e))
                   else Fail e
        end)) end.
    2: { cbv zeta. destruct (load f o t v) as [ev [y|e|]]; cbn [fst snd ocatch obind].
         - rewrite !snd_bind. reflexivity.
         - destruct (is_deser (e_kind e)); [|reflexivity]. destruct w; [|reflexivity]. now rewrite !snd_bind, snd_warn.
         - reflexivity. }
    eapply sg_bind; [apply sg_catch; now apply HR|]. intros H1 [y|e] [d|e'] K1 HQ; try contradiction.
    + eapply sg_bind; [apply IH; [now apply (base_keep H)|now apply (all_keep H)]|]. intros H2 ys ds K2 Hys. apply sg_ret.
      constructor; [now apply (stands_keep H1)|assumption].
    + subst e'. destruct (is_deser (e_kind e)); [|apply sg_fail]. destruct w; [|apply sg_fail].
      apply IH; [now apply (base_keep H)|now apply (all_keep H)].
Qed.
Lemma sg_list o args x v H : base H -> oko o -> inn H x v -> valid_type v = true ->
  sg (fun H' => Forall2 (stands H')) H (hdeser_list E hload f o args x) (snd (deser_list E load f o args v)).
Proof.
  intros Hb Ho Hx Hv. unfold hdeser_list, deser_list. fold R. rewrite snd_bind, snd_lift.
  eapply sg_bind; [now apply sg_iter|]. intros H1 l vs K1 Hl. apply sg_list_go; [destruct args; okos|now apply (base_keep H)|assumption].
Qed.
Lemma hashables H l vs : Forall2 (stands H) l vs -> forallb (fun y => hashable CT (view H y)) l = forallb (hashable CT) vs.
Proof. induction 1 as [|x v l vs S1 _ IH]; [reflexivity|]. cbn [forallb]. now rewrite IH, (stands_view _ _ _ S1). Qed.
Lemma Forall2_reversed {A B} (Q : A -> B -> Prop) l m : Forall2 Q l m -> Forall2 Q (rev l) (rev m).
Proof. induction 1; cbn [rev]; [constructor|]. apply Forall2_app; [assumption|]. constructor; [assumption|constructor]. Qed.
Lemma dedups H l vs : Forall2 (stands H) l vs -> forall acc accv, Forall2 (stands H) acc accv ->
  Forall2 (stands H) (hdedup H l acc) (dedup vs accv).
Proof.
  assert (Hex : forall x v acc accv, stands H x v -> Forall2 (stands H) acc accv -> existsb (key_eqb H x) acc = existsb (py_eqb v) accv).
  { intros x v acc accv Sx. induction 1 as [|y w acc accv S1 _ IH]; [reflexivity|]. cbn [existsb]. rewrite IH. unfold key_eqb.
    now rewrite (stands_view _ _ _ S1), (stands_view _ _ _ Sx). }
  induction 1 as [|x v l vs S1 _ IH]; intros acc accv Ha; cbn [hdedup dedup]; [now apply Forall2_reversed|].
  rewrite (Hex x v acc accv S1 Ha). destruct (existsb (py_eqb v) accv); [now apply IH|]. apply IH. now constructor.
Qed.
Lemma sg_new_set H k l vs : Forall2 (stands H) l vs ->
  sg stands H (hnew_set E k l) (if forallb (hashable CT) vs then Done (VColl k (dedup vs [])) else Fail (exn_of KType)).
Proof.
  intros Hl. apply (sg_at (if forallb (hashable CT) vs then alloc (NColl k (hdedup H l [])) else hfail (exn_of KType))).
  { unfold hnew_set. fold CT. rewrite (hashables H l vs Hl). now destruct (forallb (hashable CT) vs). }
  destruct (forallb (hashable CT) vs); [|apply sg_fail]. apply sg_new_coll. apply dedups; [assumption|constructor].
Qed.
Lemma sg_iterable o t x v H : base H -> oko o -> inn H x v -> valid_type v = true ->
  sg stands H (hdeser_iterable E hload f o t x) (snd (deser_iterable E load f o t v)).
Proof.
  intros Hb Ho Hx Hv. unfold hdeser_iterable, deser_iterable. fold R CT. rewrite snd_bind, snd_lift. apply sg_pure. intros args _.
  rewrite snd_bind. eapply sg_bind; [now apply sg_list|]. intros H1 l vs K1 Hl. cbn beta in Hl.
  assert (Hc : sg stands H1 (fun H => place_res (rt_cast R t (VList (map (view H) l))) H) (snd (lift (rt_cast R t (VList vs))))).
  { rewrite snd_lift. apply (sg_at (place_res (rt_cast R t (VList vs)))); [now rewrite (views _ _ _ Hl)|]. apply sg_place. }
  destruct t as [p| | | |b h a|a| | | | |k|c|m n s| |s]; try exact Hc. destruct h; try exact Hc.
  - now apply sg_new_list.
  - apply sg_ret. destruct (all_stands _ _ _ Hl) as (F & HF). exists F. now constructor.
  - pose proof (sg_new_set H1 CSet l vs Hl) as Hs. destruct (forallb (hashable CT) vs); exact Hs.
  - pose proof (sg_new_set H1 CFrozen l vs Hl) as Hs. destruct (forallb (hashable CT) vs); exact Hs.
  - now apply sg_new_coll.
  - now apply sg_new_list.
Qed.

(** Dicts with plain values *)
Definition dinn (H : heap) (d : list (obj * obj)) (D : list (value * value)) : Prop :=
  Forall2 (pstands H) d D /\ forall k x, In (k, x) D -> plain_doc x.
Lemma dinn_keep H H' d D : grows H H' -> dinn H d D -> dinn H' d D.
Proof. intros K [D1 D2]. split; [now apply (pairs_keep H)|assumption]. Qed.
Lemma dinn_nil H : dinn H [] [].
Proof. split; [constructor|]. intros k x []. Qed.
Lemma dinn_set H k kv x v d D : stands H k kv -> inn H x v -> dinn H d D -> dinn H (hdset H k x d) (dset kv v D).
Proof.
  intros Sk [Sx Px] [D1 D2]. split; [now apply set_rel|]. intros k0 x0 Hin. apply aset_in in Hin as [Hin|[-> _]]; eauto.
Qed.
Lemma dinn_get H k kv d D : stands H k kv -> dinn H d D ->
  match hdget H k d, dget kv D with Some x, Some v => inn H x v | None, None => True | _, _ => False end.
Proof.
  intros Sk [D1 D2]. pose proof (get_rel H k kv d D Sk D1) as Hg. destruct (hdget H k d), (dget kv D); auto.
  destruct Hg as (S1 & key & Hin & _). split; [assumption|eauto].
Qed.
Lemma sg_transform g d D : forall H acc accD, dinn H d D -> dinn H acc accD ->
  sg dinn H (htransform_keys CT g d acc) (ores (transform_keys CT g D accD)).
Proof.
  revert d. induction D as [|[kv v] D IH]; intros d H acc accD [Hd Hp] Ha; inversion Hd as [|[k x] ? d' ? [S1 S2] Hd']; subst; cbn [htransform_keys transform_keys].
  - now apply sg_ret.
  - cbn [fst snd] in S1, S2. destruct (g kv) as [k1|e] eqn:Eg; cbn [rbind].
    2: { apply (sg_at (hfail e)); [unfold hbind; rewrite (stands_view _ _ _ S1), Eg; reflexivity|apply sg_fail]. }
    match goal with |- sg _ _ (hbind _ ?c) _ => apply (sg_at (c k1)); [unfold hbind; rewrite (stands_view _ _ _ S1), Eg; reflexivity|] end.
    cbv beta. destruct (hashable CT k1); [|apply sg_fail].
    replace (ores (transform_keys CT g D (dset k1 v accD))) with (obind (ores (Ok k1)) (fun k => ores (transform_keys CT g D (dset k v accD)))) by reflexivity.
    eapply sg_bind; [apply (sg_place H (Ok k1))|]. intros H1 k2 w K1 S3. apply sg_read. apply IH.
    + apply (dinn_keep H); [assumption|]. split; [assumption|]. intros k3 x3 Hin. apply (Hp k3). now right.
    + apply dinn_set; [assumption| |now apply (dinn_keep H)]. split; [now apply (stands_keep H)|]. apply (Hp kv). now left.
Qed.

(** Named tuples *)
Definition din (H : heap) (d : option (list (obj * obj))) (D : option (list (value * value))) : Prop :=
  match d, D with Some d, Some D => dinn H d D | None, None => True | _, _ => False end.
Lemma din_keep H H' d D : grows H H' -> din H d D -> din H' d D.
Proof. intros K. destruct d, D; auto. now apply dinn_keep. Qed.
Lemma stands_none H x v : stands H x v -> is_none (shallow H x) = is_none v.
Proof. intros (F & HF). eapply rd_is_none; eassumption. Qed.
Lemma sg_nt_go o c x v d D len : oko o -> forall fields i H, incl fields (nt_fields CT c) -> base H -> inn H x v -> din H d D ->
  sg (fun H' => Forall2 (stands H')) H (hdeser_nt_go E L hload f o c x d len i fields) (snd (deser_nt_go E load f o v D len i fields)).
Proof.
  intros Ho. induction fields as [|fd fields IH]; intros i H Hf Hb Hx Hd; cbn [hdeser_nt_go deser_nt_go].
  - apply sg_ret. constructor.
  - rewrite snd_bind, snd_lift. eapply (sg_bind inn).
    + destruct (Nat.ltb i len).
      * destruct d as [d|], D as [D|]; try contradiction.
        -- pose proof (dinn_get H (atom (nf_name fd)) (VStr (nf_name fd)) d D (stands_atom H (VStr _) eq_refl) Hd) as Hg.
           apply (sg_at (match hdget H (atom (nf_name fd)) d with Some y => hret y | None => hfail (exn_of KKey) end)).
           { now destruct (hdget H (atom (nf_name fd)) d). }
           destruct (hdget H (atom (nf_name fd)) d), (dget (VStr (nf_name fd)) D); try contradiction; [now apply sg_ret|apply sg_fail].
        -- apply sg_getitem; [assumption|]. now apply stands_atom.
      * apply sg_ret. destruct (nf_default fd) as [w|] eqn:Ed; [|now apply inn_atom].
        destruct (al_field _ _ _ AL c fd w (Hf fd (or_introl eq_refl)) Ed) as [R1 R2]. split; [|assumption].
        apply (stands_keep H0); [now apply grown_grows|]. now apply stands_read.
    + intros H1 y w K1 Hy. cbn beta. apply sg_read. rewrite (stands_none H1 y w (proj1 Hy)), snd_bind.
      match goal with |- sg _ _ (hbind (if ?b then _ else _) _) _ => destruct b end.
      * apply (sg_at (hfail (exn_arg KUnfulfilled (nf_name fd)))); [reflexivity|apply sg_fail].
      * match goal with |- sg _ _ (hbind _ ?g) _ => apply (sg_at (g tt)); [reflexivity|] end. cbn [ret snd obind]. rewrite snd_bind.
        eapply sg_bind; [apply HR; [now apply (base_keep H)|assumption..]|]. intros H2 z zv K2 Hz. rewrite snd_bind.
        pose proof (grows_trans _ _ _ K1 K2) as K.
        eapply sg_bind; [apply IH; [intros a Ha; apply Hf; now right|now apply (base_keep H)|now apply (inn_keep H)|now apply (din_keep H)]|].
        intros H3 zs zvs K3 Hzs. apply sg_ret. constructor; [now apply (stands_keep H2)|assumption].
Qed.
Lemma sg_namedtuple o c x v H : base H -> oko o -> inn H x v -> valid_type v = true ->
  sg stands H (hdeser_namedtuple E L hload f o c x) (snd (deser_namedtuple E load f o c v)).
Proof.
  intros Hb Ho Hx Hv. unfold hdeser_namedtuple, deser_namedtuple. fold CT R. rewrite snd_bind.
  eapply (sg_bind din).
  - destruct Hx as [(F & HF) Hp].
    destruct HF as [v Hf|l vs F HF|c0 l vs F HF|a l vs F Hc HF|a k l vs F Hc HF|a k d ds F Hc HF|a c0 l vs F Hc HF];
      try (apply (sg_at (hret None)); [rewrite ?Hc; reflexivity|]; apply sg_ret; exact I).
    + apply (sg_at (hret None)); [reflexivity|]. destruct v; try discriminate Hf; now apply sg_ret.
    + rewrite snd_bind, snd_lift. pose proof (plain_dict _ _ Hp) as (Hs & _ & Hpd).
      assert (Hdd : dinn H d ds) by (split; [eapply stands_dict; eassumption|assumption]).
      destruct (lo_kt o) as [g|].
      * apply (sg_at (hbind (htransform_keys CT g d []) (fun d' => hret (Some d')))); [now rewrite Hc|].
        eapply sg_bind; [apply sg_transform; [assumption|apply dinn_nil]|]. intros H1 d1 D1 _ Hd1. now apply sg_ret.
      * apply (sg_at (hret (Some d))); [now rewrite Hc|]. rewrite (transform_id CT ds Hs). now apply sg_ret.
  - intros H1 d D K1 Hd. rewrite snd_bind, snd_lift. pose proof (inn_keep _ _ _ _ K1 Hx) as Hx1.
    eapply sg_bind; [now apply sg_iter|]. intros H2 l vs K2 Hl. cbn beta in Hl. rewrite snd_bind, (Forall2_len _ _ _ Hl).
    pose proof (grows_trans _ _ _ K1 K2) as K.
    eapply sg_bind; [apply sg_nt_go; [assumption|apply incl_refl|now apply (base_keep H)|now apply (inn_keep H)|now apply (din_keep H1)]|].
    intros H3 ys ds _ Hys. apply sg_ret. destruct (all_stands _ _ _ Hys) as (F & HF). exists F. now constructor.
Qed.
Lemma sg_tuple_go o : oko o -> forall l vs ts H, base H -> Forall2 (inn H) l vs ->
  sg (fun H' => Forall2 (stands H')) H (hdeser_tuple_go hload f o l ts) (snd (deser_tuple_go load f o vs ts)).
Proof.
  intros Ho l vs. revert l. induction vs as [|v vs IH]; intros l ts H Hb Hl; inversion Hl as [|x ? l' ? Hx Hl']; subst; cbn [hdeser_tuple_go deser_tuple_go].
  - apply sg_ret. constructor.
  - destruct ts as [|t ts]; [apply sg_fail|]. rewrite snd_bind. eapply sg_bind; [now apply HR|]. intros H1 y d K1 Hy. rewrite snd_bind.
    eapply sg_bind; [apply IH; [now apply (base_keep H)|now apply (all_keep H)]|]. intros H2 ys ds K2 Hys. apply sg_ret.
    constructor; [now apply (stands_keep H1)|assumption].
Qed.
Lemma sg_map g k : (forall x v H, base H -> inn H x v -> sg stands H (g x) (snd (k v))) -> forall l vs H, base H -> Forall2 (inn H) l vs ->
  sg (fun H' => Forall2 (stands H')) H (hmap g l) (snd (mmap k vs)).
Proof.
  intros Hg l vs. revert l. induction vs as [|v vs IH]; intros l H Hb Hl; inversion Hl as [|x ? l' ? Hx Hl']; subst; cbn [hmap mmap].
  - apply sg_ret. constructor.
  - rewrite snd_bind. eapply sg_bind; [now apply Hg|]. intros H1 y d K1 Hy. rewrite snd_bind.
    eapply sg_bind; [apply IH; [now apply (base_keep H)|now apply (all_keep H)]|]. intros H2 ys ds K2 Hys. apply sg_ret.
    constructor; [now apply (stands_keep H1)|assumption].
Qed.
Lemma sg_to_tuple H m t : sg (fun H' => Forall2 (stands H')) H m t ->
  sg stands H (hbind m (fun ys => hret (OTuple ys))) (obind t (fun vs => Done (VTuple vs))).
Proof.
  intros Hm. eapply sg_bind; [exact Hm|]. intros H1 ys ds _ Hys. apply sg_ret.
  destruct (all_stands _ _ _ Hys) as (F & HF). exists F. now constructor.
Qed.
Lemma sg_tuple o t x v H : base H -> oko o -> inn H x v -> valid_type v = true ->
  sg stands H (hdeser_tuple E L hload f o t x) (snd (deser_tuple E load f o t v)).
Proof.
  intros Hb Ho Hx Hv. unfold hdeser_tuple, deser_tuple. fold CT R. cbv zeta.
  assert (Ho' : oko (set_kt None o)) by okos.
  assert (Hpl : sg stands H
    (hbind (hiter R x) (fun l => match get_args (Some t) with
       | [] => hbind (hmap (hload f (set_kt None o) None) l) (fun ys => hret (OTuple ys))
       | (t0 :: _) as ts =>
           hbind (hdeser_tuple_go hload f (set_kt None o) l (if ty_eqb TEllipsis (last ts TAny) then repeat t0 (length l) else ts))
                 (fun ys => hret (OTuple ys))
       end))
    (snd (mbind (lift (py_iter R v)) (fun l => match get_args (Some t) with
       | [] => mbind (mmap (load f (set_kt None o) None) l) (fun vs => ret (VTuple vs))
       | (t0 :: _) as ts =>
           mbind (deser_tuple_go load f (set_kt None o) l (if ty_eqb TEllipsis (last ts TAny) then repeat t0 (length l) else ts))
                 (fun vs => ret (VTuple vs))
       end)))).
  { rewrite snd_bind, snd_lift. eapply sg_bind; [now apply sg_iter|]. intros H1 l vs K1 Hl. cbn beta in Hl.
    pose proof (base_keep _ _ Hb K1) as Hb1. rewrite (Forall2_len _ _ _ Hl). destruct (get_args (Some t)) as [|t0 ts]; rewrite snd_bind.
    - apply sg_to_tuple. apply sg_map; [|assumption..]. intros y w H2 Hb2 Hy. now apply HR.
    - apply sg_to_tuple. now apply sg_tuple_go. }
  destruct t; try exact Hpl. destruct (ci_kind (CT c)); try exact Hpl. now apply sg_namedtuple.
Qed.

(** Unions *)
Lemma sg_union_go o x v ts : oko o -> forall H, base H -> inn H x v ->
  sg stands H (hdeser_union_go hload f o x ts) (snd (deser_union_go load f o v ts)).
Proof.
  intros Ho. induction ts as [|t ts IH]; intros H Hb Hx; cbn [hdeser_union_go deser_union_go]; [apply sg_fail|].
  rewrite snd_try. apply sg_try; [now apply HR|]. intros H1 e K1. destruct (is_jsons (e_kind e)); [|apply sg_fail].
  apply IH; [now apply (base_keep H)|now apply (inn_keep H)].
Qed.

(** Dicts *)
Lemma sg_dict_go ok ov g key_cls val_cls : oko ok -> oko ov ->
  (forall g' k r, g = Some g' -> plain_doc k -> g' k = Ok r -> plain_doc r) ->
  forall d D H acc accD, base H -> dinn H d D -> string_dict D -> Forall2 (pstands H) acc accD ->
  sg (fun H' => Forall2 (pstands H')) H (hdeser_dict_go E hload f ok ov g key_cls val_cls d acc)
     (snd (deser_dict_go E load f ok ov (match g with Some g => g | None => fun k => Ok k end) key_cls val_cls D accD)).
Proof.
  intros Hok Hov Hg d D. revert d. induction D as [|[kv v] D IH]; intros d H acc accD Hb [Hd Hp] Hs Ha;
    inversion Hd as [|[k x] ? d' ? [S1 S2] Hd']; subst; cbn [hdeser_dict_go deser_dict_go].
  - now apply sg_ret.
  - cbn [fst snd] in S1, S2. destruct (proj1 Hs kv v (or_introl eq_refl)) as (a & Ea).
    assert (Pk : plain_doc kv) by (rewrite Ea; now constructor).
    rewrite snd_bind, snd_lift. eapply (sg_bind inn).
    { destruct g as [g|]; [|now apply sg_ret]. apply (sg_at (place_res (g kv))); [now rewrite (stands_view _ _ _ S1)|].
      apply sg_place_in. intros w. now apply (Hg g kv w). }
    intros H1 k1 kv1 K1 Hk1. rewrite snd_bind. eapply (sg_bind stands).
    { destruct key_cls as [t|]; [apply HR; [now apply (base_keep H)|assumption..]|]. apply sg_ret. apply Hk1. }
    intros H2 k2 kv2 K2 Hk2. pose proof (grows_trans _ _ _ K1 K2) as K. rewrite snd_bind. eapply sg_bind.
    { apply HR; [now apply (base_keep H)|assumption|]. split; [now apply (stands_keep H)|]. apply (Hp kv). now left. }
    intros H3 y yv K3 Hy. pose proof (grows_trans _ _ _ K K3) as K'. pose proof (stands_keep _ _ _ _ K3 Hk2) as Hk3.
    change (e_ct E) with CT. destruct (hashable CT kv2) eqn:Eh.
    + apply (sg_at (hdeser_dict_go E hload f ok ov g key_cls val_cls d' (hdset H3 k2 y acc))); [now rewrite (stands_view _ _ _ Hk3), Eh|].
      apply IH.
      * now apply (base_keep H).
      * apply (dinn_keep H); [assumption|]. split; [assumption|]. intros k3 x3 Hin. apply (Hp k3). now right.
      * destruct Hs as [Hs1 Hs2]. split; [intros k3 x3 Hin; apply (Hs1 k3 x3); now right|]. now inversion Hs2.
      * apply set_rel; [assumption..|]. now apply (pairs_keep H).
    + apply (sg_at (hfail (exn_of KType))); [now rewrite (stands_view _ _ _ Hk3), Eh|]. apply sg_fail.
Qed.
Lemma keys_none H d D : dinn H d D -> string_dict D -> (forall x, ~ In (VStr "-keys", x) D) ->
  hdget H (atom "-keys") d = None /\ dget (VStr "-keys") D = None.
Proof.
  intros [Hd _] Hs Hk. pose proof (get_rel H (atom "-keys") (VStr "-keys") d D (stands_atom H (VStr _) eq_refl) Hd) as Hg.
  destruct (dget (VStr "-keys") D) as [w|] eqn:Eg; [|destruct (hdget H (atom "-keys") d); auto; contradiction].
  exfalso. destruct (hdget H (atom "-keys") d); [|contradiction]. destruct Hg as (_ & key & Hin & Ep).
  apply py_eqb_str in Ep. subst key. exact (Hk w Hin).
Qed.
Lemma sg_dict o args x v H : base H -> oko o -> inn H x v ->
  sg (fun H' => Forall2 (pstands H')) H (hdeser_dict E hload f o args x) (snd (deser_dict E load f o args v)).
Proof.
  intros Hb Ho [(F & HF) Hp]. unfold hdeser_dict, deser_dict.
  destruct HF as [v Hf|l vs F HF|c0 l vs F HF|a l vs F Hc HF|a k l vs F Hc HF|a k d ds F Hc HF|a c0 l vs F Hc HF];
    try (apply sg_read; rewrite ?Hc; apply sg_fail).
  - apply sg_read. destruct v; try discriminate Hf; apply sg_fail.
  - apply sg_read. rewrite Hc. pose proof (plain_dict _ _ Hp) as (Hs & Hk & Hpd).
    assert (Hdd : dinn H d ds) by (split; [eapply stands_dict; eassumption|assumption]).
    destruct (keys_none H d ds Hdd Hs Hk) as [N1 N2].
    match goal with |- sg _ _ (hbind _ ?g) _ => apply (sg_at (g (d, false))); [unfold hbind, hload_hashed_keys; now rewrite N1|] end.
    unfold load_hashed_keys. rewrite N2, snd_bind. cbn [ret snd obind fst]. cbv zeta.
    assert (Hgo : forall kc vc, sg (fun H' => Forall2 (pstands H')) H
      (hdeser_dict_go E hload f (set_kt None o) (set_kt (Some (match lo_kt o with Some g => g | None => fun k => Ok k end)) o) (lo_kt o) kc vc d [])
      (snd (deser_dict_go E load f (set_kt None o) (set_kt (Some (match lo_kt o with Some g => g | None => fun k => Ok k end)) o)
              (match lo_kt o with Some g => g | None => fun k => Ok k end) kc vc ds []))).
    { intros kc vc. apply sg_dict_go; [okos| |intros g k0 r; apply (ao_keys _ _ _ Ho)|assumption..|constructor].
      destruct (lo_kt o) eqn:Ek; okos. }
    destruct args as [|tk [|tv [|]]]; apply Hgo.
Qed.
Lemma sg_mapping o t x v H : base H -> oko o -> inn H x v ->
  sg stands H (hdeser_mapping E hload f o t x) (snd (deser_mapping E load f o t v)).
Proof.
  intros Hb Ho Hx. unfold hdeser_mapping, deser_mapping. fold R CT. rewrite snd_bind, snd_lift. apply sg_pure. intros args _.
  rewrite snd_bind. eapply sg_bind; [now apply sg_dict|]. intros H1 d D K1 Hd. cbn beta in Hd.
  assert (Hc : sg stands H1 (fun H => place_res (rt_cast R t (VDict DkDict (map (fun kx => (view H (fst kx), view H (snd kx))) d))) H)
                  (snd (lift (rt_cast R t (VDict DkDict D))))).
  { rewrite snd_lift. apply (sg_at (place_res (rt_cast R t (VDict DkDict D)))); [now rewrite (reads_dict _ _ _ Hd)|]. apply sg_place. }
  destruct t as [p| | | |b h a|a| | | | |k|c|m n s| |s]; try exact Hc; [now apply sg_new_dict|]. destruct h; try exact Hc; now apply sg_new_dict.
Qed.
Lemma sg_defaultdict o t x v H : base H -> oko o -> inn H x v ->
  sg stands H (hdeser_defaultdict hload f o t x) (snd (deser_defaultdict load f o t v)).
Proof.
  intros Hb Ho Hx. unfold hdeser_defaultdict, deser_defaultdict. rewrite snd_bind, snd_lift. apply sg_pure. intros t' _.
  rewrite snd_bind. eapply sg_bind; [now apply HR|]. intros H1 y w K1 (F & HF).
  destruct HF as [w Hf|l vs F HF|c0 l vs F HF|a l vs F Hc HF|a k l vs F Hc HF|a k d ds F Hc HF|a c0 l vs F Hc HF];
    try (apply (sg_at (hfail (exn_of KType))); [rewrite ?Hc; reflexivity|apply sg_fail]).
  - apply (sg_at (hfail (exn_of KType))); [reflexivity|]. destruct w; try discriminate Hf; apply sg_fail.
  - apply (sg_at (alloc (NDict DkDefault d))); [now rewrite Hc|]. apply sg_new_dict. eapply stands_dict; eassumption.
Qed.

(** Primitive values and strings *)
Lemma stands_class H x v : stands H x v -> class_of (shallow H x) = class_of v.
Proof. intros (F & HF). eapply rd_class; eassumption. Qed.
Lemma sg_primitive t x v H : stands H x v -> sg stands H (hdeser_primitive E t x) (ores (deser_primitive E t v)).
Proof.
  intros Hx. unfold hdeser_primitive, deser_primitive. fold CT R.
  pose proof (stands_none _ _ _ Hx) as En. pose proof (is_instance_class CT (shallow H x) v t (stands_class _ _ _ Hx)) as Ei.
  pose proof (stands_view _ _ _ Hx) as Ev.
  assert (Hr : is_none v = false -> sg stands H
    (fun H => match is_instance CT (shallow H x) t with
              | Err e => hfail e H
              | Ok true => hret x H
              | Ok false => place_res (match cast R t (view H x) with
                             | Ok r => Ok r
                             | Err e => Err (if is_valueerror (e_kind e) then exn_of KDeser else e)
                             end) H
              end)
    (ores (dor b <- is_instance CT v t;
           if b then Ok v else match cast R t v with
              | Ok r => Ok r
              | Err e => Err (if is_valueerror (e_kind e) then exn_of KDeser else e)
              end))).
  { intros _. destruct (is_instance CT v t) as [[]|e]; cbn [rbind ores].
    - apply (sg_at (hret x)); [now rewrite Ei|]. now apply sg_ret.
    - match goal with |- sg _ _ _ (ores ?r) => apply (sg_at (place_res r)); [now rewrite Ei, Ev|] end. apply sg_place.
    - apply (sg_at (hfail e)); [now rewrite Ei|]. apply sg_fail. }
  destruct (is_none v) eqn:Eq.
  - assert (v = VNone) as -> by now destruct v. apply (sg_at (hret x)); [now rewrite En|]. now apply sg_ret.
  - specialize (Hr eq_refl). match goal with |- sg _ _ _ (ores ?r) => match type of Hr with sg _ _ ?m (ores ?r') =>
      replace r with r' by (destruct v; try discriminate Eq; reflexivity); apply (sg_at m); [now rewrite En|exact Hr] end end.
Qed.
Lemma sg_string o t x v H : base H -> oko o -> inn H x v ->
  sg stands H (hdeser_string E hload f o t x) (snd (deser_string E load f o t v)).
Proof.
  intros Hb Ho Hx. unfold hdeser_string, deser_string. fold R. destruct (ty_eqb t (TPrim PStr) && negb (lo_inferred o)).
  - rewrite snd_lift. apply (sg_at (hlift (dor s <- py_str R v; Ok (atom s)))); [now rewrite (stands_view _ _ _ (proj1 Hx))|].
    apply sg_lift. destruct (py_str R v); cbn [rbind]; [|reflexivity]. now apply stands_atom.
  - rewrite snd_try. apply sg_try; [now apply HR|]. intros H1 e K1. destruct (is_deser (e_kind e)); [|apply sg_fail].
    rewrite snd_lift. apply sg_primitive. apply (stands_keep H); [assumption|apply Hx].
Qed.

(** Time zones and complex numbers *)
Lemma oko0 : oko lopts0.
Proof. constructor; [intros a r H' _ []|discriminate]. Qed.
Lemma stands_flat H x v : stands H x v -> flatv v = true -> x = OAtom v.
Proof. intros (F & HF) Hv. now destruct (rd_flat _ _ _ _ HF Hv). Qed.
Lemma stands_deep H x v w : stands H x v -> x = OAtom w -> v = w.
Proof. intros (F & HF) ->. now inversion HF. Qed.
Lemma sg_timezone x v H : base H -> inn H x v -> sg stands H (hdeser_timezone E hload x) (snd (deser_timezone E load v)).
Proof.
  intros Hb Hx. unfold hdeser_timezone, deser_timezone. fold CT. rewrite snd_bind, snd_lift.
  eapply sg_bind; [apply sg_getitem; [assumption|now apply stands_atom]|]. intros H1 off offv K1 Hoff. rewrite snd_bind.
  eapply sg_bind; [apply HR; [now apply (base_keep H)|apply oko0|assumption]|]. intros H2 td tdv K2 Htd. rewrite snd_bind, snd_lift.
  pose proof (grows_trans _ _ _ K1 K2) as K.
  eapply sg_bind; [apply sg_getitem; [now apply (inn_keep H)|now apply stands_atom]|]. intros H3 nm nmv K3 [Hnm _].
  pose proof (stands_keep _ _ _ _ K3 Htd) as Htd3.
  assert (Hfl : forall y w, stands H3 y w -> (exists u, y = OAtom u /\ w = u /\ flatv u = true) \/ ((forall u, y <> OAtom u) /\ flatv w = false)).
  { intros y w (F & HF). destruct HF as [w Hf| | | | | |]; [left; eauto|right..]; (split; [discriminate|reflexivity]). }
  destruct (Hfl td tdv Htd3) as [(u & -> & -> & Fu)|[Nu Fu]].
  2: { assert (Hn : snd (match tdv, nmv with VLeaf (LTimedelta us), VStr n => if timezone_ok us then ret (VLeaf (LTimezone us (Some n))) else fail (exn_of KValue) | _, _ => fail (exn_of KType) end : M value) = Fail (exn_of KType)).
       { destruct tdv; try discriminate Fu; reflexivity. }
       rewrite Hn. destruct td as [u|l|c l|a]; try (apply sg_fail). destruct (Nu u eq_refl). }
  destruct u; try apply sg_fail.
  destruct x0; try apply sg_fail.
  destruct (Hfl nm nmv Hnm) as [(u & -> & -> & Fn)|[Nn Fn]].
  2: { destruct nm as [u|l|c l|a]; [destruct (Nn u eq_refl)|..]; destruct nmv; try discriminate Fn; apply sg_fail. }
  destruct u; try apply sg_fail. destruct (timezone_ok us); [|apply sg_fail]. apply sg_ret. now apply stands_atom.
Qed.
Lemma sg_item H x v k kv : stands H x v -> stands H k kv -> sg stands H (hgetitem CT x k) (ores (py_getitem CT v kv)).
Proof.
  intros (F & HF) Hk. pose proof (stands_view _ _ _ Hk) as Ek.
  assert (Hl : forall l vs G, rds H l vs G -> sg stands H (hlift (item_at l kv)) (ores (item_at vs kv))).
  { intros l vs G HG. apply sg_lift. apply item_at_rel. eapply stands_all; eassumption. }
  destruct HF as [v Hv|l vs F HF|c l vs F HF|a l vs F Hc HF|a kd l vs F Hc HF|a kd d ds F Hc HF|a c l vs F Hc HF].
  - apply (sg_at (place_res (py_getitem CT v kv))); [unfold hgetitem; now rewrite Ek|]. apply sg_place.
  - apply (sg_at (hlift (item_at l kv))); [unfold hgetitem; now rewrite Ek|]. eapply Hl; eassumption.
  - apply (sg_at (hlift (item_at l kv))); [unfold hgetitem; now rewrite Ek|]. eapply Hl; eassumption.
  - apply (sg_at (hlift (item_at l kv))); [unfold hgetitem; now rewrite Ek, Hc|]. eapply Hl; eassumption.
  - destruct kd.
    + apply (sg_at (hfail (exn_of KType))); [unfold hgetitem; now rewrite Hc|]. apply sg_fail.
    + apply (sg_at (hfail (exn_of KType))); [unfold hgetitem; now rewrite Hc|]. apply sg_fail.
    + apply (sg_at (hlift (item_at l kv))); [unfold hgetitem; now rewrite Ek, Hc|]. eapply Hl; eassumption.
  - cbn [py_getitem]. destruct (hashable CT kv) eqn:Eh.
    2: { apply (sg_at (hfail (exn_of KType))); [unfold hgetitem; now rewrite Hc, Ek, Eh|]. apply sg_fail. }
    pose proof (get_rel H k kv d ds Hk (stands_dict _ _ _ _ HF)) as Hg.
    apply (sg_at (match hdget H k d with Some y => hret y | None => hfail (exn_of KKey) end)).
    { unfold hgetitem. rewrite Hc, Ek, Eh. now destruct (hdget H k d). }
    destruct (hdget H k d), (dget kv ds); try contradiction; [|apply sg_fail]. apply sg_ret. apply Hg.
  - apply (sg_at (hfail (exn_of KType))); [unfold hgetitem; now rewrite Hc|]. apply sg_fail.
Qed.
Lemma stands_cases H y w : stands H y w -> (exists u, y = OAtom u /\ w = u /\ flatv u = true) \/ ((forall u, y <> OAtom u) /\ flatv w = false).
Proof. intros (F & HF). destruct HF as [w Hf| | | | | |]; [left; eauto|right..]; (split; [discriminate|reflexivity]). Qed.
Lemma sg_complex x v H : base H -> inn H x v -> sg stands H (hdeser_complex E hload x) (snd (deser_complex E load v)).
Proof.
  intros Hb Hx. unfold hdeser_complex, deser_complex. fold CT. rewrite snd_try. apply sg_try.
  2: { intros H1 e _. destruct (is_keyerror (e_kind e) || is_deser (e_kind e)); apply sg_fail. }
  rewrite snd_bind, snd_lift. eapply sg_bind; [apply sg_getitem; [assumption|now apply stands_atom]|]. intros H1 re rev K1 Hre.
  rewrite snd_bind, snd_lift. eapply sg_bind; [apply sg_getitem; [now apply (inn_keep H)|now apply stands_atom]|]. intros H2 im imv K2 Him.
  pose proof (grows_trans _ _ _ K1 K2) as K. pose proof (inn_keep _ _ _ _ K2 Hre) as Hre2.
  match goal with |- sg _ _ _ (snd ?m) => replace (snd m) with (obind (Done (str_dict [("real", rev); ("imag", imv)]))
    (fun j => snd (dom d <- load 0 lopts0 (Some (TApp true HDict [TPrim PStr; TPrim PFloat])) j;
                   dom re' <- lift (py_getitem CT d (VStr "real"));
                   dom im' <- lift (py_getitem CT d (VStr "imag"));
                   match re', im' with
                   | VFloat x, VFloat y => ret (VLeaf (LComplex x y))
                   | _, _ => fail (exn_of KType)
                   end))) by reflexivity end.
  eapply (sg_bind inn).
  { assert (Hn : sg stands H2 (alloc (NDict DkDict [(atom "real", re); (atom "imag", im)])) (Done (str_dict [("real", rev); ("imag", imv)]))).
    { apply sg_new_dict. constructor; [split; [now apply stands_atom|apply Hre2]|]. constructor; [split; [now apply stands_atom|apply Him]|constructor]. }
    apply sim_done in Hn. eapply sim_weak; [| |exact Hn]; [auto|]. intros H3 y w _ [Ew Sy]. injection Ew as <-. split; [exact Sy|].
    apply pd_dict.
    - split; [intros k y0 [Ek|[Ek|[]]]; injection Ek as <- _; eexists; reflexivity|]. cbn. constructor; [cbn; intuition discriminate|].
      constructor; [auto|constructor].
    - intros y0 [Ek|[Ek|[]]]; discriminate.
    - intros k y0 [Ek|[Ek|[]]]; injection Ek as _ <-; [apply Hre|apply Him]. }
  intros H3 ps psv K3 Hps. rewrite snd_bind. eapply sg_bind; [apply HR; [|apply oko0|assumption]|].
  { apply (base_keep H); [assumption|]. now apply (grows_trans _ H2). }
  intros H4 d dv K4 Hd. rewrite snd_bind, snd_lift. eapply sg_bind; [apply sg_item; [exact Hd|now apply stands_atom]|].
  intros H5 a av K5 Ha. rewrite snd_bind, snd_lift. eapply sg_bind; [apply sg_item; [now apply (stands_keep H4)|now apply stands_atom]|].
  intros H6 b bv K6 Hbv. pose proof (stands_keep _ _ _ _ K6 Ha) as Ha6.
  destruct (stands_cases _ _ _ Ha6) as [(u & -> & -> & Fu)|[Nu Fu]].
  2: { destruct a as [u|l|c l|r]; [destruct (Nu u eq_refl)|..]; destruct av; try discriminate Fu; apply sg_fail. }
  destruct u; try apply sg_fail.
  destruct (stands_cases _ _ _ Hbv) as [(u & -> & -> & Fw)|[Nw Fw]].
  2: { destruct b as [u|l|c l|r]; [destruct (Nw u eq_refl)|..]; destruct bv; try discriminate Fw; apply sg_fail. }
  destruct u; try apply sg_fail. apply sg_ret. now apply stands_atom.
Qed.

(** Objects *)
Lemma sg_value_from_obj o hints q x v H : base H -> oko o -> inn H x v ->
  sg stands H (hvalue_from_obj E hload f o hints q x) (snd (value_from_obj E load f o hints q v)).
Proof.
  intros Hb Ho Hx. unfold hvalue_from_obj, value_from_obj. fold R. cbv zeta. rewrite snd_bind, snd_lift. apply sg_pure. intros [t hs] _.
  apply HR; [assumption|okos|assumption].
Qed.
Definition sopt (H : heap) (x : option obj) (v : option value) : Prop :=
  match x, v with Some x, Some v => stands H x v | None, None => True | _, _ => False end.
Definition gets (g : list (string * res value)) : Prop := forall a r H', base H' -> In (a, r) g -> same_obj (le_getter L a H') r.
Lemma sg_getter g a r H : gets g -> base H -> In (a, r) g -> sg stands H (le_getter L a) (ores r).
Proof.
  intros Hg Hb Hin. apply sg_adds; [apply (qu_getter _ QL)|]. pose proof (Hg a r H Hb Hin) as Hs. unfold same_obj in Hs.
  destruct (snd (le_getter L a H)), r; auto. now apply stands_read.
Qed.
Lemma sget_some {V} a (l : list (string * V)) x : sget a l = Some x -> In (a, x) l.
Proof.
  unfold sget. induction l as [|[b y] l IH]; cbn [aget]; [discriminate|]. destruct (String.eqb a b) eqn:Eb.
  - intros E1. injection E1 as <-. apply String.eqb_eq in Eb. subst. now left.
  - intros E1. right. auto.
Qed.
Lemma sg_value_for_attr o c hints d D getters q H : In q (ci_params (CT c)) -> base H -> oko o -> gets getters -> dinn H d D ->
  sg sopt H (hvalue_for_attr E L hload f o c hints d getters q) (snd (value_for_attr E load f o hints D getters q)).
Proof.
  intros Hq Hb Ho Hg Hd. unfold value_for_attr. fold CT.
  pose proof (dinn_get H (atom (pa_name q)) (VStr (pa_name q)) d D (stands_atom H (VStr _) eq_refl) Hd) as Hget.
  destruct (hdget H (atom (pa_name q)) d) as [x|] eqn:Eh, (dget (VStr (pa_name q)) D) as [v|]; try contradiction.
  - apply (sg_at (hbind (hvalue_from_obj E hload f o hints q x) (fun y => hret (Some y)))); [unfold hvalue_for_attr; now rewrite Eh|].
    rewrite snd_bind. eapply sg_bind; [now apply sg_value_from_obj|]. intros H1 y w _ Hy. now apply sg_ret.
  - destruct (sget (pa_name q) getters) as [r|] eqn:Eg.
    + apply (sg_at (hbind (le_getter L (pa_name q)) (fun y => hret (Some y)))); [unfold hvalue_for_attr; now rewrite Eh, Eg|].
      rewrite snd_bind. cbn [emit snd obind]. rewrite snd_bind, snd_lift.
      eapply sg_bind; [apply (sg_getter getters); [assumption..|now apply sget_some]|]. intros H1 y w _ Hy. now apply sg_ret.
    + destruct (pa_default q) as [w|] eqn:Ed.
      * apply (sg_at (hret (Some (le_default L c (pa_name q))))); [unfold hvalue_for_attr; now rewrite Eh, Eg, Ed|].
        apply sg_ret. cbn. apply (stands_keep H0); [now apply grown_grows|]. apply stands_read. now apply (al_default _ _ _ AL).
      * destruct (pa_var q) eqn:Ev.
        -- apply (sg_at (hret None)); [unfold hvalue_for_attr; now rewrite Eh, Eg, Ed, Ev|]. now apply sg_ret.
        -- apply (sg_at (hbind (hlift (can_match_none CT (pa_hint q)))
                          (fun b : bool => if b then hret (Some (OAtom VNone)) else hfail (exn_arg KUnfulfilled (pa_name q)))));
             [unfold hvalue_for_attr; now rewrite Eh, Eg, Ed, Ev|].
           rewrite snd_bind, snd_lift. apply sg_pure. intros [] _; [|apply sg_fail]. apply sg_ret. now apply stands_atom.
Qed.
Lemma sg_constructor_args o c hints d D getters : oko o -> gets getters -> forall ps H, incl ps (ci_params (CT c)) -> base H -> dinn H d D ->
  sg (fun H' => Forall2 (astands H')) H (hconstructor_args E L hload f o c hints d getters ps)
     (snd (constructor_args E load f o hints D getters ps)).
Proof.
  intros Ho Hg. induction ps as [|q ps IH]; intros H Hi Hb Hd; cbn [hconstructor_args constructor_args].
  - apply sg_ret. constructor.
  - rewrite snd_bind. eapply sg_bind; [apply sg_value_for_attr; [apply Hi; now left|assumption..]|]. intros H1 x v K1 Hx. rewrite snd_bind.
    eapply sg_bind; [apply IH; [intros a Ha; apply Hi; now right|now apply (base_keep H)|now apply (dinn_keep H)]|].
    intros H2 l vs K2 Hl. apply sg_ret. destruct x as [x|], v as [v|]; try contradiction; [|exact Hl].
    constructor; [|exact Hl]. split; [reflexivity|]. now apply (stands_keep H1).
Qed.
Lemma key_str_rel H k kv : stands H k kv -> key_str k = match kv with VStr a => Some a | _ => None end.
Proof. intros (F & HF). now destruct HF as [w Hf| | | | | |]. Qed.
Lemma shas_rel H a l vs : Forall2 (astands H) l vs -> shas a l = shas a vs.
Proof.
  intros Hl. induction Hl as [|[b x] [b' v] l vs [E1 _] _ IH]; [reflexivity|]. cbn [fst] in E1. subst b'.
  unfold shas, amem in *. cbn [existsb aget fst]. now destruct (String.eqb a b).
Qed.
Lemma sg_remaining strict d D args vs H : dinn H d D -> Forall2 (astands H) args vs ->
  sg dinn H (hremaining_args strict d args) (ores (remaining_args strict D vs)).
Proof.
  intros [Hd Hp] Ha. unfold remaining_args. cbv zeta.
  set (P := fun kv : value * value => negb (has_arg (fst kv) vs) && negb (py_eqb (VStr "-meta") (fst kv))).
  set (P' := fun kv : obj * obj => negb (match key_str (fst kv) with Some a => shas a args | None => false end) && negb (key_eqb H (atom "-meta") (fst kv))).
  assert (Hf : Forall2 (pstands H) (filter P' d) (filter P D)).
  { clear Hp. induction Hd as [|[k x] [kv v] d D [S1 S2] _ IH]; [constructor|]. cbn [filter fst snd] in *.
    assert (P' (k, x) = P (kv, v)) as ->.
    { unfold P, P', has_arg, key_eqb. cbn [fst]. rewrite (key_str_rel _ _ _ S1), (stands_view _ _ _ S1).
      rewrite (stands_view H (atom "-meta") (VStr "-meta")) by now apply stands_atom. f_equal. f_equal.
      destruct kv; try reflexivity. now apply (shas_rel H). }
    destruct (P (kv, v)); [constructor; [now split|assumption]|assumption]. }
  assert (Hpf : forall k x, In (k, x) (filter P D) -> plain_doc x) by (intros k x Hin; apply filter_In in Hin as [Hin _]; eauto).
  apply (sg_at (match filter P' d with
                | (k, _) :: _ => if strict then hfail (match key_str k with Some a => exn_arg KSignature a | None => exn_of KSignature end)
                                 else hret (filter P' d)
                | [] => hret [] end)).
  { unfold hremaining_args. fold P'. destruct (filter P' d) as [|[k x] r]; [reflexivity|]. now destruct strict. }
  destruct (filter P D) as [|[kv v] r] eqn:Ef; inversion Hf as [|[k x] ? d' ? [S1 S2] Hr]; subst.
  - apply sg_ret. apply dinn_nil.
  - destruct strict; [cbn [ores]|apply sg_ret; split; [constructor; [now split|assumption]|assumption]].
    cbn [fst] in S1. rewrite (key_str_rel _ _ _ S1). destruct kv; apply sg_fail.
Qed.
Lemma sg_setattr c a x v l vs H : base H -> stands H x v -> Forall2 (astands H) l vs ->
  sg (fun H' => Forall2 (astands H')) H (le_set L c a x l) (ores (ci_set (CT c) a v vs)).
Proof.
  intros Hb Hx Hl. apply sg_adds; [apply (qu_set _ QL)|].
  pose proof (al_set _ _ _ AL c a x v l vs H Hb (proj1 (stands_read _ _ _) Hx) (proj1 (attrs_reads _ _ _) Hl)) as Hs.
  unfold same_attrs in Hs. fold CT in Hs. destruct (snd (le_set L c a x l H)), (ci_set (CT c) a v vs); auto. now apply attrs_reads.
Qed.
Lemma sg_set_remaining o c : oko o -> forall d D l vs H, base H -> dinn H d D -> Forall2 (astands H) l vs ->
  sg (fun H' => Forall2 (astands H')) H (hset_remaining E L hload f o c d l) (snd (set_remaining E load f o (CT c) D vs)).
Proof.
  intros Ho d D. revert d. induction D as [|[kv v] D IH]; intros d l vs H Hb [Hd Hp] Hl; inversion Hd as [|[k x] ? d' ? [S1 S2] Hd'];
    subst; cbn [hset_remaining set_remaining].
  - now apply sg_ret.
  - cbn [fst snd] in S1, S2. apply sg_read. rewrite (key_str_rel _ _ _ S1). cbv zeta. fold CT.
    assert (Hd1 : dinn H d' D) by (split; [assumption|]; intros k3 x3 Hin; apply (Hp k3); now right).
    assert (Hxv : inn H x v) by (split; [assumption|]; apply (Hp kv); now left).
    assert (Hk : kind H x = class_of v) by exact (stands_class _ _ _ S2).
    rewrite snd_bind.
    match goal with |- sg _ _ _ (obind ?w _) => replace w with (@Done unit tt)
      by (destruct (match kv with VStr a => sget a (ci_hints (CT c)) | _ => None end); [reflexivity|];
          destruct (has_keys_section v); [now rewrite snd_warn|reflexivity]) end.
    cbn [obind]. rewrite snd_bind.
    replace (match kv with VStr a => Some a | _ => None end) with (key_str k) by now apply (key_str_rel H).
    replace (match match key_str k with Some a => sget a (ci_hints (CT c)) | None => None end with Some t => t | None => kind H x end)
      with (match match kv with VStr a => sget a (ci_hints (CT c)) | _ => None end with Some t => t | None => class_of v end)
      by (rewrite (key_str_rel _ _ _ S1), Hk; now destruct kv).
    eapply sg_bind; [now apply HR|]. intros H1 y w K1 Hy. rewrite (key_str_rel _ _ _ S1).
    destruct kv; try apply sg_fail.
    pose proof (base_keep _ _ Hb K1) as Hb1. pose proof (attrs_keep _ _ _ _ K1 Hl) as Hl1. pose proof (dinn_keep _ _ _ _ K1 Hd1) as Hd2.
    match goal with |- sg _ _ _ ?tr => replace tr with (obind (ocatch (ores (ci_set (CT c) s w vs))) (fun r => match r with
       | inl vs' => snd (set_remaining E load f o (CT c) D vs')
       | inr e => if is_attributeerror (e_kind e) then snd (set_remaining E load f o (CT c) D vs) else Fail e end)) end.
    2: { destruct (ci_set (CT c) s w vs) as [vs'|e]; cbn [ores ocatch obind]; [reflexivity|]. now destruct (is_attributeerror (e_kind e)). }
    eapply sg_bind; [apply sg_catch; now apply sg_setattr|]. intros H2 [l'|e] [vs'|e'] K2 Hr; try contradiction.
    + apply IH; [now apply (base_keep H1)|now apply (dinn_keep H1)|assumption].
    + subst e'. destruct (is_attributeerror (e_kind e)); [|apply sg_fail].
      apply IH; [now apply (base_keep H1)|now apply (dinn_keep H1)|now apply (attrs_keep H1)].
Qed.
Lemma sg_set_getters c gs : gets gs -> forall l vs H, base H -> Forall2 (astands H) l vs ->
  sg (fun H' => Forall2 (astands H')) H (hset_getter_attrs L c gs l) (snd (set_getter_attrs (CT c) gs vs)).
Proof.
  induction gs as [|[a r] gs IH]; intros Hg l vs H Hb Hl; cbn [hset_getter_attrs set_getter_attrs]; [now apply sg_ret|].
  rewrite snd_bind. cbn [emit snd obind]. rewrite snd_bind, snd_lift.
  eapply sg_bind; [apply (sg_getter ((a, r) :: gs)); [assumption..|now left]|]. intros H1 y w K1 Hy. rewrite snd_bind, snd_lift.
  eapply sg_bind; [apply sg_setattr; [now apply (base_keep H)|assumption|now apply (attrs_keep H)]|]. intros H2 l' vs' K2 Hl'.
  apply IH; [intros b r' H' Hb' Hin; apply Hg; [assumption|now right]| |exact Hl'].
  apply (base_keep H); [assumption|]. now apply (grows_trans _ H1).
Qed.
Lemma items_rel H x v : inn H x v -> match hobj_items H x, obj_items v with Ok d, Ok D => dinn H d D | Err e, Err e' => e = e' | _, _ => False end.
Proof.
  intros [(F & HF) Hp].
  destruct HF as [v Hf|l vs F HF|c l vs F HF|a l vs F Hc HF|a k l vs F Hc HF|a k d ds F Hc HF|a c l vs F Hc HF]; cbn [hobj_items obj_items]; rewrite ?Hc.
  - destruct v; try discriminate Hf; try reflexivity. destruct s; [apply dinn_nil|reflexivity].
  - destruct HF; [apply dinn_nil|reflexivity].
  - destruct HF; [apply dinn_nil|reflexivity].
  - destruct HF; [apply dinn_nil|reflexivity].
  - destruct HF; [apply dinn_nil|reflexivity].
  - split; [eapply stands_dict; eassumption|now apply plain_dict in Hp].
  - reflexivity.
Qed.
Lemma sg_object o t x v H : base H -> oko o -> inn H x v ->
  sg stands H (hdeser_object E L hload f o t x) (snd (deser_object E load f o t v)).
Proof.
  intros Hb Ho Hx. unfold hdeser_object, deser_object. destruct (cid_of E t) as [c|]; [|apply sg_fail]. fold CT. cbv zeta.
  assert (Ho' : oko (set_getters [] o)) by okos.
  assert (Hg : gets (lo_getters o)) by (intros a r H' Hb' Hin; now apply (ao_getter _ _ _ Ho)).
  rewrite snd_bind, snd_lift. eapply (sg_bind dinn).
  { apply (sg_at (hlift (hobj_items H x))); [reflexivity|]. apply sg_lift. now apply items_rel. }
  intros H1 d0 D0 K1 Hd0. rewrite snd_bind, snd_lift. eapply (sg_bind dinn).
  { destruct (lo_kt o) as [g|]; [apply sg_transform; [assumption|apply dinn_nil]|now apply sg_ret]. }
  intros H2 d D K2 Hd. pose proof (grows_trans _ _ _ K1 K2) as K02. rewrite snd_bind.
  eapply sg_bind; [apply sg_constructor_args; [assumption..|apply incl_refl|now apply (base_keep H)|assumption]|].
  intros H3 args vs K3 Ha. cbn beta in Ha. pose proof (grows_trans _ _ _ K02 K3) as K03. rewrite snd_bind, snd_lift.
  eapply sg_bind; [apply sg_remaining; [now apply (dinn_keep H2)|exact Ha]|]. intros H4 rest Rest K4 Hrest.
  pose proof (grows_trans _ _ _ K03 K4) as K04. rewrite snd_bind. cbn [emit snd obind]. rewrite snd_bind, snd_lift.
  eapply (sg_bind (fun H' => Forall2 (astands H'))).
  { apply sg_adds; [apply (qu_init _ QL)|].
    pose proof (al_init _ _ _ AL c args vs H4 (base_keep _ _ Hb K04) (proj1 (attrs_reads _ _ _) (attrs_keep _ _ _ _ K4 Ha))) as Hs.
    unfold same_attrs in Hs. fold CT in Hs. destruct (snd (le_init L c args H4)), (ci_init (CT c) vs); auto. now apply attrs_reads. }
  intros H5 at0 av0 K5 Hat. pose proof (grows_trans _ _ _ K04 K5) as K05. rewrite snd_bind.
  eapply sg_bind; [apply sg_set_remaining; [assumption|now apply (base_keep H)|now apply (dinn_keep H4)|exact Hat]|].
  intros H6 at1 av1 K6 Hat1. pose proof (grows_trans _ _ _ K05 K6) as K06. rewrite snd_bind.
  eapply sg_bind; [apply sg_set_getters; [assumption|now apply (base_keep H)|exact Hat1]|].
  intros H7 at2 av2 K7 Hat2. now apply sg_new_obj.
Qed.

(** ** The dispatch and load *)
Lemma sg_text g e x v H : stands H x v -> (forall s y, g s = Ok y -> flatv y = true) ->
  sg stands H (hdeser_text g e x) (match v with VStr s => ores (g s) | _ => Fail e end).
Proof.
  intros Hx Hg. unfold hdeser_text. destruct (stands_cases _ _ _ Hx) as [(u & -> & -> & Fu)|[Nu Fu]].
  - destruct u; try apply sg_fail. apply sg_lift. destruct (g s) as [y|e'] eqn:Eg; cbn [rbind]; [|reflexivity]. apply stands_atom. eauto.
  - destruct x as [u|l|c l|r]; [destruct (Nu u eq_refl)|..]; destruct v; try discriminate Fu; apply sg_fail.
Qed.
Lemma timedelta_rel H x v : stands H x v -> deser_timedelta (shallow H x) = deser_timedelta v.
Proof.
  intros (F & HF). destruct HF as [v Hf|l vs F HF|c l vs F HF|a l vs F Hc HF|a k l vs F Hc HF|a k d ds F Hc HF|a c l vs F Hc HF];
    cbn [shallow]; rewrite ?Hc; reflexivity.
Qed.
Lemma sg_step o h t x v H : base H -> oko o -> inn H x v -> valid_type v = true ->
  sg stands H (hdeser_step E L hload f o h t x) (snd (deser_step E load f o h t v)).
Proof.
  intros Hb Ho Hx Hv. pose proof (proj1 Hx) as Sx. pose proof (stands_view _ _ _ Sx) as Ev. destruct h; cbn [hdeser_step deser_step]; fold CT R.
  - rewrite snd_bind. eapply sg_bind; [now apply sg_list|]. intros H1 l vs _ Hl. now apply sg_new_list.
  - now apply sg_tuple.
  - unfold hdeser_union, deser_union. destruct (raw_args t); [now apply sg_union_go|apply sg_fail].
  - now apply sg_defaultdict.
  - pose proof (sg_text (fun s => dor y <- load_datetime s; Ok (VLeaf (LDatetime y))) (exn_of KType) x v H Sx) as Ht.
    destruct v; rewrite ?snd_lift; apply Ht; intros s0 y; destruct (load_datetime s0); intros E1; try discriminate E1; now injection E1 as <-.
  - pose proof (sg_text (fun s => dor y <- load_date s; Ok (VLeaf (LDate y))) (exn_of KType) x v H Sx) as Ht.
    destruct v; rewrite ?snd_lift; apply Ht; intros s0 y; destruct (load_date s0); intros E1; try discriminate E1; now injection E1 as <-.
  - pose proof (sg_text (fun s => dor y <- load_time s; Ok (VLeaf (LTime y))) (exn_of KType) x v H Sx) as Ht.
    destruct v; rewrite ?snd_lift; apply Ht; intros s0 y; destruct (load_time s0); intros E1; try discriminate E1; now injection E1 as <-.
  - now apply sg_timezone.
  - rewrite snd_lift. apply (sg_at (place_res (deser_timedelta v))); [now rewrite (timedelta_rel _ _ _ Sx)|]. apply sg_place.
  - now apply sg_string.
  - apply (sg_at (if is_none v then hret x else hfail (exn_of KDeser))); [rewrite (stands_none _ _ _ Sx); now destruct (is_none v)|].
    destruct v; try apply sg_fail. now apply sg_ret.
  - rewrite snd_lift. now apply sg_primitive.
  - rewrite snd_lift. apply (sg_at (place_res (deser_enum CT (lo_enum_name o) t v))); [now rewrite Ev|]. apply sg_place.
  - now apply sg_mapping.
  - now apply sg_iterable.
  - now apply sg_object.
  - pose proof (sg_text (fun s => dor n <- uuid_parse s; Ok (VLeaf (LUUID n))) (exn_of KAttribute) x v H Sx) as Ht.
    destruct v; rewrite ?snd_lift; apply Ht; intros s0 y; destruct (uuid_parse s0); intros E1; try discriminate E1; now injection E1 as <-.
  - now apply sg_complex.
  - rewrite snd_lift. apply (sg_at (hlift (dor s <- rt_decimal R v; Ok (OAtom (VLeaf (LDecimal s)))))); [now rewrite Ev|].
    apply sg_lift. destruct (rt_decimal R v); cbn [rbind]; [|reflexivity]. now apply stands_atom.
  - rewrite snd_lift. apply (sg_at (hlift (dor s <- rt_path R v; Ok (OAtom (VLeaf (LPath s)))))); [now rewrite Ev|].
    apply sg_lift. destruct (rt_path R v); cbn [rbind]; [|reflexivity]. now apply stands_atom.
  - rewrite snd_bind, snd_lift. eapply sg_bind; [apply sg_item; [exact Sx|now apply stands_atom]|]. intros H1 k kv _ Hk. rewrite snd_lift.
    apply (sg_at (hlift (dor s <- rt_zone R kv; Ok (OAtom (VLeaf (LZone s)))))); [now rewrite (stands_view _ _ _ Hk)|].
    apply sg_lift. destruct (rt_zone R kv); cbn [rbind]; [|reflexivity]. now apply stands_atom.
  - rewrite snd_lift. apply sg_adds; [apply (qu_cdeser _ QL)|].
    pose proof (al_cdeser _ _ _ AL n t x v H Hb (proj1 (stands_read _ _ _) Sx)) as Hs. unfold same_obj in Hs.
    destruct (snd (le_cdeser L n t x H)), (e_cdeser E n t v); auto. now apply stands_read.
Qed.
Lemma valid_rel H x v : stands H x v -> valid_type (shallow H x) = valid_type v.
Proof.
  intros (F & HF). destruct HF as [v Hf|l vs F HF|c l vs F HF|a l vs F Hc HF|a k l vs F Hc HF|a k d ds F Hc HF|a c l vs F Hc HF];
    cbn [shallow]; rewrite ?Hc; reflexivity.
Qed.
Lemma meta_rel H x v : stands H x v -> hcls_and_meta E f x H = hlift (get_cls_and_meta E f v) H.
Proof.
  intros (F & HF). destruct HF as [v Hf|l vs F HF|c l vs F HF|a l vs F Hc HF|a k l vs F Hc HF|a k d ds F Hc HF|a c l vs F Hc HF];
    cbn [hcls_and_meta]; rewrite ?Hc; try reflexivity; [now destruct v|].
  pose proof (get_rel H (atom "-meta") (VStr "-meta") d ds (stands_atom H (VStr _) eq_refl) (stands_dict _ _ _ _ HF)) as Hg.
  unfold get_cls_and_meta. destruct (hdget H (atom "-meta") d) as [y|], (dget (VStr "-meta") ds) as [w|]; try contradiction; [|reflexivity].
  destruct Hg as [Sy _]. rewrite (stands_view _ _ _ Sy). reflexivity.
Qed.
Lemma sg_validate H x v t : stands H x v -> sg (fun _ _ _ => True) H (hvalidate E f x t) (ores (validate E f v t)).
Proof.
  intros Sx. apply (sg_at (hlift (validate E f v t))); [unfold hvalidate; now rewrite (stands_view _ _ _ Sx)|].
  apply sg_lift. now destruct (validate E f v t).
Qed.
Lemma sg_load_step o cls x v H : base H -> oko o -> inn H x v ->
  sg stands H (hload_step E L hload f o cls x) (snd (load_step E load f o cls v)).
Proof.
  intros Hb Ho Hx. pose proof (proj1 Hx) as Sx. unfold hload_step, load_step. fold CT. apply sg_read.
  rewrite (stands_none _ _ _ Sx), (valid_rel _ _ _ Sx), (stands_class _ _ _ Sx).
  replace (same_type (shallow H x) cls) with (same_type v cls) by (destruct cls; cbn [same_type]; [now rewrite (stands_class _ _ _ Sx)|reflexivity]).
  rewrite snd_bind. eapply (sg_bind (fun _ _ _ => True)).
  { destruct (is_none v); [|now apply sg_ret]. rewrite snd_bind, snd_lift. apply sg_pure. intros [] _; [now apply sg_ret|apply sg_fail]. }
  intros H1 _ _ K1 _. pose proof (inn_keep _ _ _ _ K1 Hx) as Hx1. pose proof (base_keep _ _ Hb K1) as Hb1. clear Sx.
  pose proof (proj1 Hx1) as Sx.
  destruct ((negb (lo_strict o) && same_type v cls) || match cls with Some TAny => true | _ => false end).
  - rewrite snd_bind, snd_lift. eapply (sg_bind (fun _ _ _ => True)).
    + destruct cls as [t|]; [now apply sg_validate|now apply sg_ret].
    + intros H2 _ _ K2 _. apply sg_ret. now apply (stands_keep H1).
  - rewrite snd_bind, snd_lift. apply sg_pure. intros cls1 _. destruct (valid_type v) eqn:Ev; cbn [negb]; [|apply sg_fail].
    rewrite snd_bind, snd_lift.
    match goal with |- sg _ _ (hbind _ ?g) _ => apply (sg_at (hbind (hlift (get_cls_and_meta E f v)) g)); [unfold hbind; now rewrite (meta_rel _ _ _ Sx)|] end.
    apply sg_pure. intros mh _. destruct (determine_precedence cls1 (fst mh) (Some (class_of v)) (lo_inferred o)) as [t|]; [|apply sg_fail].
    destruct (e_deser E f t) as [h|]; [|apply sg_fail]. cbv zeta. unfold hwrap_deser, wrap_deser. rewrite snd_try.
    apply sg_try; [|intros H2 e _; apply sg_fail]. rewrite snd_bind.
    eapply sg_bind; [apply sg_step; [assumption|okos|assumption..]|]. intros H2 y w K2 Hy. rewrite snd_bind, snd_lift.
    eapply (sg_bind (fun _ _ _ => True)); [now apply sg_validate|]. intros H3 _ _ K3 _. apply sg_ret. now apply (stands_keep H2).
Qed.
End Refine.

(** ** The statement *)
Lemma hload_sim E L H : quiet L -> agree_lenv E L H -> forall n f o cls x v H', grown H H' -> agree_opts L H o -> inn H' x v ->
  sg stands H' (hload E L n f o cls x) (snd (load E n f o cls v)).
Proof.
  intros QL AL. induction n as [|n IH]; intros f o cls x v H' Hb Ho Hx; cbn [hload load].
  - split; [apply keeps_refl|exact I].
  - now apply (sg_load_step E L H QL AL (hload E L n) (load E n) IH).
Qed.
Lemma hload_refines E L H n f o cls x v : quiet L -> agree_lenv E L H -> agree_opts L H o -> read H x = Some v -> plain_doc v ->
  same_result (hload E L n f o cls x H) (snd (load E n f o cls v)) /\ grown H (fst (hload E L n f o cls x H)).
Proof.
  intros QL AL Ho Hr Hp. assert (Hb : grown H H) by (exists []; now rewrite app_nil_r).
  assert (Hx : inn H x v) by (split; [now apply stands_read|assumption]).
  destruct (hload_sim E L H QL AL n f o cls x v H Hb Ho Hx) as [K Hs]. split; [|now apply grows_grown].
  unfold same_result. destruct (snd (hload E L n f o cls x H)), (snd (load E n f o cls v)); auto. now apply stands_read.
Qed.
