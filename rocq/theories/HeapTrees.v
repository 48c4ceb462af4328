(** * The trees that objects stand for *)
From Coq Require Import Lia.
From Verif Require Import PyBaseFacts EngineFacts.
From Verif Require Export HeapModel.
Local Open Scope string_scope.

(** [x] stands for [v]; the list has the cells that are read, as often as they are read. *)
Inductive rd (H : heap) : obj -> value -> list nat -> Prop :=
| rd_atom v : flatv v = true -> rd H (OAtom v) v []
| rd_tuple l vs F : rds H l vs F -> rd H (OTuple l) (VTuple vs) F
| rd_nt c l vs F : rds H l vs F -> rd H (ONT c l) (VNT c vs) F
| rd_list a l vs F : nth_error H a = Some (NList l) -> rds H l vs F -> rd H (ORef a) (VList vs) (a :: F)
| rd_coll a k l vs F : nth_error H a = Some (NColl k l) -> rds H l vs F -> rd H (ORef a) (VColl k vs) (a :: F)
| rd_dict a k d ds F : nth_error H a = Some (NDict k d) -> rdd H d ds F -> rd H (ORef a) (VDict k ds) (a :: F)
| rd_obj a c l vs F : nth_error H a = Some (NObj c l) -> rda H l vs F -> rd H (ORef a) (VObj c vs) (a :: F)
with rds (H : heap) : list obj -> list value -> list nat -> Prop :=
| rds_nil : rds H [] [] []
| rds_cons x v F l vs G : rd H x v F -> rds H l vs G -> rds H (x :: l) (v :: vs) (F ++ G)
with rdd (H : heap) : list (obj * obj) -> list (value * value) -> list nat -> Prop :=
| rdd_nil : rdd H [] [] []
| rdd_cons k kv F1 x v F2 d ds G : rd H k kv F1 -> rd H x v F2 -> rdd H d ds G ->
    rdd H ((k, x) :: d) ((kv, v) :: ds) (F1 ++ F2 ++ G)
with rda (H : heap) : list (string * obj) -> list (string * value) -> list nat -> Prop :=
| rda_nil : rda H [] [] []
| rda_cons n x v F l vs G : rd H x v F -> rda H l vs G -> rda H ((n, x) :: l) ((n, v) :: vs) (F ++ G).
Scheme rd_mut := Induction for rd Sort Prop
with rds_mut := Induction for rds Sort Prop
with rdd_mut := Induction for rdd Sort Prop
with rda_mut := Induction for rda Sort Prop.
Combined Scheme rd_all from rd_mut, rds_mut, rdd_mut, rda_mut.

(** Only the cells that are read matter. *)
Lemma rd_frame_all H H' :
  (forall x v F, rd H x v F -> (forall a, In a F -> nth_error H' a = nth_error H a) -> rd H' x v F) /\
  (forall l vs F, rds H l vs F -> (forall a, In a F -> nth_error H' a = nth_error H a) -> rds H' l vs F) /\
  (forall d ds F, rdd H d ds F -> (forall a, In a F -> nth_error H' a = nth_error H a) -> rdd H' d ds F) /\
  (forall l vs F, rda H l vs F -> (forall a, In a F -> nth_error H' a = nth_error H a) -> rda H' l vs F).
Proof.
  apply (rd_all H
    (fun x v F _ => (forall a, In a F -> nth_error H' a = nth_error H a) -> rd H' x v F)
    (fun l vs F _ => (forall a, In a F -> nth_error H' a = nth_error H a) -> rds H' l vs F)
    (fun d ds F _ => (forall a, In a F -> nth_error H' a = nth_error H a) -> rdd H' d ds F)
    (fun l vs F _ => (forall a, In a F -> nth_error H' a = nth_error H a) -> rda H' l vs F)); intros.
  - now constructor.
  - constructor. auto.
  - constructor. auto.
  - econstructor; [rewrite H1; [eassumption|now left]|]. apply H0. intros; apply H1; now right.
  - econstructor; [rewrite H1; [eassumption|now left]|]. apply H0. intros; apply H1; now right.
  - econstructor; [rewrite H1; [eassumption|now left]|]. apply H0. intros; apply H1; now right.
  - econstructor; [rewrite H1; [eassumption|now left]|]. apply H0. intros; apply H1; now right.
  - constructor.
  - constructor; [apply H0|apply H1]; intros; apply H2; apply in_or_app; auto.
  - constructor.
  - constructor; [apply H0|apply H1|apply H2]; intros; apply H3; rewrite !in_app_iff; auto.
  - constructor.
  - constructor; [apply H0|apply H1]; intros; apply H2; apply in_or_app; auto.
Qed.
Lemma rd_frame H H' x v F : rd H x v F -> (forall a, In a F -> nth_error H' a = nth_error H a) -> rd H' x v F.
Proof. apply rd_frame_all. Qed.
Lemma rds_frame H H' l vs F : rds H l vs F -> (forall a, In a F -> nth_error H' a = nth_error H a) -> rds H' l vs F.
Proof. apply rd_frame_all. Qed.
Lemma rdd_frame H H' l vs F : rdd H l vs F -> (forall a, In a F -> nth_error H' a = nth_error H a) -> rdd H' l vs F.
Proof. apply rd_frame_all. Qed.
Lemma rda_frame H H' l vs F : rda H l vs F -> (forall a, In a F -> nth_error H' a = nth_error H a) -> rda H' l vs F.
Proof. apply rd_frame_all. Qed.
(** The cells that are read exist. *)
Lemma rd_bound_all H :
  (forall x v F, rd H x v F -> forall a, In a F -> a < length H) /\
  (forall l vs F, rds H l vs F -> forall a, In a F -> a < length H) /\
  (forall d ds F, rdd H d ds F -> forall a, In a F -> a < length H) /\
  (forall l vs F, rda H l vs F -> forall a, In a F -> a < length H).
Proof.
  apply (rd_all H
    (fun x v F _ => forall a, In a F -> a < length H)
    (fun l vs F _ => forall a, In a F -> a < length H)
    (fun d ds F _ => forall a, In a F -> a < length H)
    (fun l vs F _ => forall a, In a F -> a < length H)); intros;
    repeat match goal with
           | H : In _ [] |- _ => destruct H
           | H : In _ (_ ++ _) |- _ => apply in_app_or in H as [H|H]
           | H : In _ (_ :: _) |- _ => destruct H as [<- |H]
           end; auto; apply nth_error_Some; congruence.
Qed.
Lemma rd_bound H x v F a : rd H x v F -> In a F -> a < length H.
Proof. intros Hr. now apply (proj1 (rd_bound_all H) x v F Hr). Qed.
Lemma rds_bound H x v F a : rds H x v F -> In a F -> a < length H.
Proof. intros Hr. now apply (proj1 (proj2 (rd_bound_all H)) x v F Hr). Qed.
Lemma rdd_bound H x v F a : rdd H x v F -> In a F -> a < length H.
Proof. intros Hr. now apply (proj1 (proj2 (proj2 (rd_bound_all H))) x v F Hr). Qed.

(** ** Reading them *)
Definition tot {A} (g : A -> nat) (l : list A) : nat := fold_right (fun x n => g x + n) 0 l.
Fixpoint vsize (v : value) : nat :=
  match v with
  | VList l | VTuple l | VColl _ l | VNT _ l => S (tot vsize l)
  | VDict _ d => S (tot (fun kx => vsize (fst kx) + vsize (snd kx)) d)
  | VObj _ l => S (tot (fun ax => vsize (snd ax)) l)
  | _ => 1
  end.
Lemma tot_in {A} (g : A -> nat) l x : In x l -> g x <= tot g l.
Proof.
  induction l as [|y l IH]; [intros []|]. change (tot g (y :: l)) with (g y + tot g l).
  intros [->|Hx]; [lia|]. specialize (IH Hx). lia.
Qed.
Lemma omap_imp {A B} (g h : A -> option B) l r : (forall x y, In x l -> In y r -> g x = Some y -> h x = Some y) ->
  omap g l = Some r -> omap h l = Some r.
Proof.
  revert r. induction l as [|x l IH]; intros r Hgh; cbn [omap]; [auto|].
  destruct (g x) as [y|] eqn:Ex; [|discriminate]. destruct (omap g l) as [ys|] eqn:El; [|discriminate].
  intros Eq. injection Eq as <-. rewrite (Hgh x y); [|now left|now left|assumption].
  rewrite (IH ys); [reflexivity| |reflexivity]. intros x' y' Hx Hy. apply Hgh; now right.
Qed.
Lemma omap_all {A B} (g : A -> option B) l r : omap g l = Some r -> Forall2 (fun x y => g x = Some y) l r.
Proof.
  revert r. induction l as [|x l IH]; intros r; cbn [omap].
  - intros Eq. injection Eq as <-. constructor.
  - destruct (g x) as [y|] eqn:Ex; [|discriminate]. destruct (omap g l) as [ys|]; [|discriminate].
    intros Eq. injection Eq as <-. constructor; auto.
Qed.
Lemma all_omap {A B} (g : A -> option B) l r : Forall2 (fun x y => g x = Some y) l r -> omap g l = Some r.
Proof. induction 1 as [|x y l r Hx _ IH]; cbn [omap]; [reflexivity|]. now rewrite Hx, IH. Qed.
Section ObjInd.
Variable P : obj -> Prop.
Hypothesis (HA : forall v, P (OAtom v)) (HT : forall l, Forall P l -> P (OTuple l))
  (HN : forall c l, Forall P l -> P (ONT c l)) (HR : forall a, P (ORef a)).
Fixpoint obj_ind' (x : obj) : P x :=
  let all := fix all (l : list obj) : Forall P l :=
               match l with [] => Forall_nil _ | y :: r => Forall_cons _ (obj_ind' y) (all r) end in
  match x with
  | OAtom v => HA v
  | OTuple l => HT l (all l)
  | ONT c l => HN c l (all l)
  | ORef a => HR a
  end.
End ObjInd.
(** Reading with a better way to follow references *)
Lemma read_with_imp D D' b x v : (forall a w, D a = Some w -> vsize w <= b -> D' a = Some w) ->
  read_with D x = Some v -> vsize v <= b -> read_with D' x = Some v.
Proof.
  intros HD. revert v. induction x as [u|l IH|c l IH|a] using obj_ind'; intros v; cbn [read_with]; auto.
  - destruct (omap (read_with D) l) as [vs|] eqn:El; cbn [option_map]; [|discriminate].
    intros Eq. injection Eq as <-. cbn [vsize]. intros Hb. rewrite (omap_imp (read_with D) (read_with D') l vs); auto.
    intros x y Hx Hy Hg. apply (proj1 (Forall_forall _ _) IH x Hx); auto. pose proof (tot_in vsize vs y Hy). lia.
  - destruct (omap (read_with D) l) as [vs|] eqn:El; cbn [option_map]; [|discriminate].
    intros Eq. injection Eq as <-. cbn [vsize]. intros Hb. rewrite (omap_imp (read_with D) (read_with D') l vs); auto.
    intros x y Hx Hy Hg. apply (proj1 (Forall_forall _ _) IH x Hx); auto. pose proof (tot_in vsize vs y Hy). lia.
Qed.
(** One step of [read_ref] *)
Definition step_ref (H : heap) (D : nat -> option value) (a : nat) : option value :=
  match nth_error H a with
  | Some (NList l) => option_map VList (omap (read_with D) l)
  | Some (NColl k l) => option_map (VColl k) (omap (read_with D) l)
  | Some (NDict k d) => option_map (VDict k) (omap (fun kx => opair (read_with D (fst kx)) (read_with D (snd kx))) d)
  | Some (NObj c l) => option_map (VObj c) (omap (fun ax => opair (Some (fst ax)) (read_with D (snd ax))) l)
  | None => None
  end.
Lemma read_ref_S H n a : read_ref H (S n) a = step_ref H (read_ref H n) a.
Proof. reflexivity. Qed.
Lemma step_imp H D D' a v : step_ref H D a = Some v ->
  (forall c w, D c = Some w -> vsize w < vsize v -> D' c = Some w) -> step_ref H D' a = Some v.
Proof.
  unfold step_ref. intros Hs HD.
  assert (Hr : forall x w, read_with D x = Some w -> vsize w < vsize v -> read_with D' x = Some w).
  { intros x w Hx Hw. apply (read_with_imp D D' (vsize v - 1) x w); [|assumption|lia].
    intros c u Hc Hu. apply HD; [assumption|lia]. }
  destruct (nth_error H a) as [[l|k l|k d|c l]|]; [| | | |discriminate].
  - destruct (omap (read_with D) l) as [vs|] eqn:El; cbn in Hs; [|discriminate]. injection Hs as <-.
    rewrite (omap_imp (read_with D) (read_with D') l vs); auto. intros x y _ Hy Hx. apply Hr; [assumption|].
    cbn [vsize]. pose proof (tot_in vsize vs y Hy). lia.
  - destruct (omap (read_with D) l) as [vs|] eqn:El; cbn in Hs; [|discriminate]. injection Hs as <-.
    rewrite (omap_imp (read_with D) (read_with D') l vs); auto. intros x y _ Hy Hx. apply Hr; [assumption|].
    cbn [vsize]. pose proof (tot_in vsize vs y Hy). lia.
  - destruct (omap _ d) as [vs|] eqn:El in Hs; cbn in Hs; [|discriminate]. injection Hs as <-.
    rewrite (omap_imp (fun kx => opair (read_with D (fst kx)) (read_with D (snd kx)))
      (fun kx => opair (read_with D' (fst kx)) (read_with D' (snd kx))) d vs); auto.
    intros [x1 x2] [y1 y2] _ Hy. cbn [fst snd]. pose proof (tot_in (fun kx => vsize (fst kx) + vsize (snd kx)) vs _ Hy) as Hl.
    cbn [fst snd] in Hl. cbn [vsize] in Hr.
    destruct (read_with D x1) as [z1|] eqn:E1; [|discriminate]. destruct (read_with D x2) as [z2|] eqn:E2; [|discriminate].
    cbn [opair]. intros Eq. injection Eq as -> ->. rewrite (Hr x1 y1), (Hr x2 y2); auto; lia.
  - destruct (omap _ l) as [vs|] eqn:El in Hs; cbn in Hs; [|discriminate]. injection Hs as <-.
    rewrite (omap_imp (fun ax => opair (Some (fst ax)) (read_with D (snd ax)))
      (fun ax => opair (Some (fst ax)) (read_with D' (snd ax))) l vs); auto.
    intros [x1 x2] [y1 y2] _ Hy. cbn [fst snd]. pose proof (tot_in (fun ax => vsize (snd ax)) vs _ Hy) as Hl.
    cbn [fst snd] in Hl. cbn [vsize] in Hr.
    destruct (read_with D x2) as [z2|] eqn:E2; [|discriminate].
    cbn [opair]. intros Eq. injection Eq as -> ->. rewrite (Hr x2 y2); auto; lia.
Qed.
Lemma read_ref_more H n : forall m a v, n <= m -> read_ref H n a = Some v -> read_ref H m a = Some v.
Proof.
  induction n as [|n IH]; intros [|m] a v Hm; try discriminate; [lia|].
  rewrite !read_ref_S. intros Hs. eapply step_imp; [exact Hs|]. intros c w Hc _. apply IH; [lia|assumption].
Qed.
Lemma read_ref_same H n m a v w : read_ref H n a = Some v -> read_ref H m a = Some w -> v = w.
Proof.
  intros Hv Hw. apply (read_ref_more _ _ (max n m)) in Hv; [|lia]. apply (read_ref_more _ _ (max n m)) in Hw; [|lia].
  congruence.
Qed.
(** There are no more cells on a path than in the heap. *)
Lemma read_ref_short H : forall n a v S, read_ref H n a = Some v -> NoDup S ->
  (forall s, In s S -> s < length H /\ exists k w, read_ref H k s = Some w /\ vsize v < vsize w) ->
  read_ref H (length H - length S) a = Some v.
Proof.
  induction n as [|n IH]; intros a v S Hr Hd HS; [discriminate|].
  assert (Ha : ~ In a S).
  { intros Hin. destruct (HS a Hin) as (_ & k & w & Hw & Hlt). rewrite (read_ref_same _ _ _ _ _ _ Hr Hw) in Hlt. lia. }
  assert (Hla : a < length H).
  { rewrite read_ref_S in Hr. unfold step_ref in Hr. apply nth_error_Some. intros En. rewrite En in Hr. discriminate. }
  assert (Hlen : length (a :: S) <= length H).
  { rewrite <- (seq_length (length H) 0). apply NoDup_incl_length; [now constructor|].
    intros s [<- |Hs]; apply in_seq; [lia|]. destruct (HS s Hs). lia. }
  cbn [length] in Hlen. destruct (length H - length S) as [|m] eqn:Em; [lia|].
  rewrite read_ref_S in *. eapply step_imp; [exact Hr|]. intros c w Hc Hw.
  specialize (IH c w (a :: S) Hc). cbn [length] in IH. replace (length H - Datatypes.S (length S)) with m in IH by lia.
  apply IH; [now constructor|]. intros s [<- |Hs].
  - split; [assumption|]. exists (Datatypes.S n), v. split; [rewrite read_ref_S; exact Hr|exact Hw].
  - destruct (HS s Hs) as (Hl & k & u & Hu & Hlt). split; [assumption|]. exists k, u. split; [assumption|lia].
Qed.
Lemma read_enough H n x v : read_with (read_ref H n) x = Some v -> read H x = Some v.
Proof.
  intros Hx. unfold read. apply (read_with_imp (read_ref H n) _ (vsize v) x v); [|assumption|lia].
  intros a w Ha _. pose proof (read_ref_short H n a w [] Ha (NoDup_nil _)) as Hs. cbn in Hs.
  rewrite Nat.sub_0_r in Hs. apply Hs. intros s [].
Qed.

(** ** [rd] and [read] *)
Lemma rd_read_all H :
  (forall x v F, rd H x v F -> exists n, read_with (read_ref H n) x = Some v) /\
  (forall l vs F, rds H l vs F -> exists n, omap (read_with (read_ref H n)) l = Some vs) /\
  (forall d ds F, rdd H d ds F -> exists n,
     omap (fun kx => opair (read_with (read_ref H n) (fst kx)) (read_with (read_ref H n) (snd kx))) d = Some ds) /\
  (forall l vs F, rda H l vs F -> exists n,
     omap (fun ax => opair (Some (fst ax)) (read_with (read_ref H n) (snd ax))) l = Some vs).
Proof.
  assert (Hmore : forall n m x v, n <= m -> read_with (read_ref H n) x = Some v -> read_with (read_ref H m) x = Some v).
  { intros n m x v Hnm Hx. eapply (read_with_imp (read_ref H n)); [|exact Hx|exact (le_n _)].
    intros a w Ha _. eapply read_ref_more; eauto. }
  apply (rd_all H
    (fun x v F _ => exists n, read_with (read_ref H n) x = Some v)
    (fun l vs F _ => exists n, omap (read_with (read_ref H n)) l = Some vs)
    (fun d ds F _ => exists n,
       omap (fun kx => opair (read_with (read_ref H n) (fst kx)) (read_with (read_ref H n) (snd kx))) d = Some ds)
    (fun l vs F _ => exists n,
       omap (fun ax => opair (Some (fst ax)) (read_with (read_ref H n) (snd ax))) l = Some vs)).
  - intros v Hv. exists 0. cbn [read_with]. now rewrite Hv.
  - intros l vs F _ (n & Hn). exists n. cbn [read_with]. now rewrite Hn.
  - intros c l vs F _ (n & Hn). exists n. cbn [read_with]. now rewrite Hn.
  - intros a l vs F Ha _ (n & Hn). exists (S n). cbn [read_with]. rewrite read_ref_S. unfold step_ref. now rewrite Ha, Hn.
  - intros a k l vs F Ha _ (n & Hn). exists (S n). cbn [read_with]. rewrite read_ref_S. unfold step_ref. now rewrite Ha, Hn.
  - intros a k l vs F Ha _ (n & Hn). exists (S n). cbn [read_with]. rewrite read_ref_S. unfold step_ref. now rewrite Ha, Hn.
  - intros a c l vs F Ha _ (n & Hn). exists (S n). cbn [read_with]. rewrite read_ref_S. unfold step_ref. now rewrite Ha, Hn.
  - now exists 0.
  - intros x v F l vs G _ (n & Hn) _ (m & Hm). exists (max n m). cbn [omap].
    rewrite (Hmore n _ _ _ (Nat.le_max_l n m) Hn).
    rewrite (omap_imp (read_with (read_ref H m)) (read_with (read_ref H (max n m))) l vs); [reflexivity| |exact Hm].
    intros y w _ _. apply Hmore. lia.
  - now exists 0.
  - intros k kv F1 x v F2 d ds G _ (n & Hn) _ (m & Hm) _ (p & Hp). exists (max n (max m p)). cbn [omap fst snd].
    rewrite (Hmore n _ k kv) by (assumption || lia). rewrite (Hmore m _ x v) by (assumption || lia). cbn [opair].
    rewrite (omap_imp (fun kx => opair (read_with (read_ref H p) (fst kx)) (read_with (read_ref H p) (snd kx)))
      (fun kx => opair (read_with (read_ref H (max n (max m p))) (fst kx))
      (read_with (read_ref H (max n (max m p))) (snd kx))) d ds); [reflexivity| |exact Hp].
    intros [y1 y2] [w1 w2] _ _. cbn [fst snd].
    destruct (read_with (read_ref H p) y1) as [z1|] eqn:E1; [|discriminate].
    destruct (read_with (read_ref H p) y2) as [z2|] eqn:E2; [|discriminate]. cbn [opair]. intros Eq. injection Eq as -> ->.
    rewrite (Hmore p _ y1 w1), (Hmore p _ y2 w2) by (assumption || lia). reflexivity.
  - now exists 0.
  - intros nm x v F l vs G _ (n & Hn) _ (m & Hm). exists (max n m). cbn [omap fst snd].
    rewrite (Hmore n _ _ _ (Nat.le_max_l n m) Hn).
    rewrite (omap_imp (fun ax => opair (Some (fst ax)) (read_with (read_ref H m) (snd ax)))
      (fun ax => opair (Some (fst ax)) (read_with (read_ref H (max n m)) (snd ax))) l vs); [reflexivity| |exact Hm].
    intros [y1 y2] [w1 w2] _ _. cbn [fst snd].
    destruct (read_with (read_ref H m) y2) as [z2|] eqn:E2; [|discriminate]. cbn [opair]. intros Eq. injection Eq as -> ->.
    rewrite (Hmore m _ y2 w2) by (assumption || lia). reflexivity.
Qed.
Lemma rd_read H x v F : rd H x v F -> read H x = Some v.
Proof. intros Hr. destruct (proj1 (rd_read_all H) _ _ _ Hr) as (n & Hn). eapply read_enough; eauto. Qed.
Lemma rd_view H x v F : rd H x v F -> view H x = v.
Proof. intros Hr. unfold view. now rewrite (rd_read _ _ _ _ Hr). Qed.
Lemma with_rd H D (HD : forall a v, D a = Some v -> exists F, rd H (ORef a) v F) x :
  forall v, read_with D x = Some v -> exists F, rd H x v F.
Proof.
  assert (Hl : forall l, Forall (fun x => forall v, read_with D x = Some v -> exists F, rd H x v F) l ->
    forall vs, omap (read_with D) l = Some vs -> exists F, rds H l vs F).
  { induction 1 as [|y l Hy _ IH]; intros vs; cbn [omap].
    - intros Eq. injection Eq as <-. exists []. constructor.
    - destruct (read_with D y) as [w|] eqn:Ey; [|discriminate]. destruct (omap (read_with D) l) as [ws|]; [|discriminate].
      intros Eq. injection Eq as <-. destruct (Hy _ eq_refl) as (F & HF). destruct (IH _ eq_refl) as (G & HG).
      exists (F ++ G)%list. now constructor. }
  induction x as [u|l IH|c l IH|a] using obj_ind'; intros v; cbn [read_with].
  - destruct (flatv u) eqn:Eu; [|discriminate]. intros Eq. injection Eq as <-. exists []. now constructor.
  - destruct (omap (read_with D) l) as [vs|] eqn:El; cbn [option_map]; [|discriminate]. intros Eq. injection Eq as <-.
    destruct (Hl l IH vs El) as (F & HF). exists F. now constructor.
  - destruct (omap (read_with D) l) as [vs|] eqn:El; cbn [option_map]; [|discriminate]. intros Eq. injection Eq as <-.
    destruct (Hl l IH vs El) as (F & HF). exists F. now constructor.
  - auto.
Qed.
Lemma ref_rd H n : forall a v, read_ref H n a = Some v -> exists F, rd H (ORef a) v F.
Proof.
  induction n as [|n IH]; intros a v; [discriminate|]. rewrite read_ref_S. unfold step_ref.
  pose proof (with_rd H (read_ref H n) IH) as Hw.
  assert (Hl : forall l vs, omap (read_with (read_ref H n)) l = Some vs -> exists F, rds H l vs F).
  { intros l vs Ho. apply omap_all in Ho. induction Ho as [|y w l vs Hy _ IHl]; [exists []; constructor|].
    destruct (Hw _ _ Hy) as (F & HF), IHl as (G & HG). exists (F ++ G)%list. now constructor. }
  destruct (nth_error H a) as [[l|k l|k d|c l]|] eqn:Ea; [| | | |discriminate].
  - destruct (omap _ l) as [vs|] eqn:El; cbn [option_map]; [|discriminate]. intros Eq. injection Eq as <-.
    destruct (Hl _ _ El) as (F & HF). exists (a :: F). econstructor; eauto.
  - destruct (omap _ l) as [vs|] eqn:El; cbn [option_map]; [|discriminate]. intros Eq. injection Eq as <-.
    destruct (Hl _ _ El) as (F & HF). exists (a :: F). econstructor; eauto.
  - destruct (omap _ d) as [vs|] eqn:El; cbn [option_map]; [|discriminate]. intros Eq. injection Eq as <-.
    assert (Hd : exists F, rdd H d vs F).
    { clear Ea. apply omap_all in El. induction El as [|[y1 y2] [w1 w2] d vs Hy _ IHl]; [exists []; constructor|].
      cbn [fst snd] in Hy. destruct (read_with (read_ref H n) y1) as [z1|] eqn:E1; [|discriminate].
      destruct (read_with (read_ref H n) y2) as [z2|] eqn:E2; [|discriminate]. cbn [opair] in Hy. injection Hy as -> ->.
      destruct (Hw _ _ E1) as (F1 & HF1), (Hw _ _ E2) as (F2 & HF2), IHl as (G & HG).
      exists (F1 ++ F2 ++ G)%list. now constructor. }
    destruct Hd as (F & HF). exists (a :: F). econstructor; eauto.
  - destruct (omap _ l) as [vs|] eqn:El; cbn [option_map]; [|discriminate]. intros Eq. injection Eq as <-.
    assert (Hd : exists F, rda H l vs F).
    { clear Ea. apply omap_all in El. induction El as [|[y1 y2] [w1 w2] d vs Hy _ IHl]; [exists []; constructor|].
      cbn [fst snd] in Hy.
      destruct (read_with (read_ref H n) y2) as [z2|] eqn:E2; [|discriminate]. cbn [opair] in Hy. injection Hy as -> ->.
      destruct (Hw _ _ E2) as (F2 & HF2), IHl as (G & HG).
      exists (F2 ++ G)%list. now constructor. }
    destruct Hd as (F & HF). exists (a :: F). econstructor; eauto.
Qed.
Lemma read_rd H x v : read H x = Some v -> exists F, rd H x v F.
Proof. unfold read. apply with_rd. apply ref_rd. Qed.
