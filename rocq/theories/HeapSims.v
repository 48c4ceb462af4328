(** * Dumping objects of a heap is dumping their trees *)
From Coq Require Import Lia.
From Verif Require Import PyBaseFacts EngineFacts DumpProofs HeapTrees.
From Verif Require Export HeapSpec HeapProofs.
Local Open Scope string_scope.

(** ** Outcomes of the computations with trees *)
Definition obind {A B} (m : outcome A) (k : A -> outcome B) : outcome B :=
  match m with Done a => k a | Fail e => Fail e | Oof => Oof end.
Lemma snd_bind {A B} (m : M A) (k : A -> M B) : snd (mbind m k) = obind (snd m) (fun a => snd (k a)).
Proof. unfold mbind. now destruct (snd m). Qed.
Definition otry {A} (m : outcome A) (k : exn -> outcome A) : outcome A :=
  match m with Done a => Done a | Fail e => k e | Oof => Oof end.
Definition ocatch {A} (m : outcome A) : outcome (A + exn) :=
  match m with Done a => Done (inl a) | Fail e => Done (inr e) | Oof => Oof end.
Lemma snd_try {A} (m : M A) h : snd (mtry m h) = otry (snd m) (fun e => snd (h e)).
Proof. unfold mtry. destruct (snd m) eqn:Em; [exact Em|reflexivity|exact Em]. Qed.
Lemma snd_catch {A} (m : M A) : snd (mcatch m) = ocatch (snd m).
Proof. unfold mcatch. now destruct (snd m). Qed.
Lemma snd_warn E f c : snd (warn E f c) = Done tt.
Proof. unfold warn. now destruct (e_warn E f c). Qed.
Definition ores {A} (r : res A) : outcome A := match r with Ok a => Done a | Err e => Fail e end.
Lemma snd_lift {A} (r : res A) : snd (lift r) = ores r.
Proof. now destruct r. Qed.

(** ** Preservation of cells *)
Definition below (H : heap) (a : nat) : Prop := a < length H.
Definition keeps (P : nat -> Prop) (H H' : heap) : Prop :=
  length H <= length H' /\ forall a, P a -> nth_error H' a = nth_error H a.
Lemma keeps_refl P H : keeps P H H.
Proof. split; auto. Qed.
Lemma keeps_trans P H H1 H2 : keeps P H H1 -> keeps P H1 H2 -> keeps P H H2.
Proof. intros [L1 K1] [L2 K2]. split; [lia|]. intros a Ha. rewrite K2, K1; auto. Qed.
Lemma keeps_weak (P Q : nat -> Prop) H H' : (forall a, Q a -> P a) -> keeps P H H' -> keeps Q H H'.
Proof. intros HQ [L K1]. split; auto. Qed.
Lemma keeps_app (P : nat -> Prop) (H : heap) c : (forall a, P a -> a < length H) -> keeps P H (H ++ [c])%list.
Proof. intros HP. split; [rewrite app_length; lia|]. intros a Ha. apply nth_error_app1. auto. Qed.
Lemma keeps_put (P : nat -> Prop) H a c : ~ P a -> keeps P H (put a c H).
Proof. intros Ha. split; [now rewrite put_length|]. intros b Hb. apply put_other. congruence. Qed.

(** ** Simulation *)
Definition sim {A B} (P : nat -> Prop) (Q : heap -> A -> B -> Prop) (H : heap) (m : hM A) (t : outcome B) : Prop :=
  keeps P H (fst (m H)) /\
  match snd (m H), t with
  | Done a, Done b => Q (fst (m H)) a b
  | Fail e, Fail e' => e = e'
  | Oof, Oof => True
  | _, _ => False
  end.
Lemma sim_ret {A B} P (Q : heap -> A -> B -> Prop) H a b : Q H a b -> sim P Q H (hret a) (Done b).
Proof. split; [apply keeps_refl|assumption]. Qed.
Lemma sim_fail {A B} P (Q : heap -> A -> B -> Prop) H e : sim P Q H (hfail e) (Fail e).
Proof. split; [apply keeps_refl|reflexivity]. Qed.
Lemma sim_bind {A B A' B'} (P1 P : nat -> Prop) (Q1 : heap -> A -> B -> Prop) (Q : heap -> A' -> B' -> Prop) H m t g k :
  (forall a, P a -> P1 a) -> sim P1 Q1 H m t ->
  (forall H' a b, keeps P1 H H' -> Q1 H' a b -> sim P Q H' (g a) (k b)) ->
  sim P Q H (hbind m g) (obind t k).
Proof.
  intros HP [Hk Hm] Hg. unfold sim, hbind. destruct (m H) as [H' [a|e|]]; cbn [fst snd] in *; destruct t as [b|e'|];
    try contradiction; cbn [obind fst snd].
  - destruct (Hg H' a b Hk Hm) as [Hk' Hq]. split; [|assumption].
    eapply keeps_trans; [eapply keeps_weak; eassumption|assumption].
  - subst. split; [|reflexivity]. eapply keeps_weak; eassumption.
  - split; [|exact I]. eapply keeps_weak; eassumption.
Qed.
Lemma sim_weak {A B} (P1 P : nat -> Prop) (Q1 Q : heap -> A -> B -> Prop) H m t :
  (forall a, P a -> P1 a) -> (forall H' a b, keeps P1 H H' -> Q1 H' a b -> Q H' a b) -> sim P1 Q1 H m t -> sim P Q H m t.
Proof.
  intros HP HQ [Hk Hm]. split; [eapply keeps_weak; eassumption|].
  destruct (snd (m H)), t; try contradiction; auto.
Qed.
Lemma sim_lift {A B} P (Q : heap -> A -> B -> Prop) H r r' :
  match r, r' with Ok a, Ok b => Q H a b | Err e, Err e' => e = e' | _, _ => False end ->
  sim P Q H (hlift r) (ores r').
Proof.
  destruct r, r'; try contradiction; cbn [hlift ores].
  - apply sim_ret.
  - intros ->. apply sim_fail.
Qed.
Lemma sim_lift_same {A} P (Q : heap -> A -> A -> Prop) H r : (forall a, r = Ok a -> Q H a a) -> sim P Q H (hlift r) (ores r).
Proof. intros HQ. apply sim_lift. destruct r; auto. Qed.
Lemma sim_try {A B} P (Q : heap -> A -> B -> Prop) H m t h k :
  sim P Q H m t -> (forall H' e, keeps P H H' -> sim P Q H' (h e) (k e)) ->
  sim P Q H (htry m h) (otry t k).
Proof.
  intros [Hk Hm] Hh. unfold sim, htry. destruct (m H) as [H' [a|e|]]; cbn [fst snd] in *; destruct t as [b|e'|];
    try contradiction; auto.
  subst. destruct (Hh H' e' Hk) as [Hk' Hq]. split; [|assumption]. eapply keeps_trans; eassumption.
Qed.
Lemma sim_catch {A B} P (Q : heap -> A -> B -> Prop) H m t :
  sim P Q H m t ->
  sim P (fun H' a b => match a, b with inl x, inl y => Q H' x y | inr e, inr e' => e = e' | _, _ => False end)
      H (hcatch m) (ocatch t).
Proof.
  intros [Hk Hm]. unfold sim, hcatch. destruct (m H) as [H' [a|e|]]; cbn [fst snd] in *; destruct t as [b|e'|];
    try contradiction; auto.
Qed.

(** ** What is read and what is owned *)
Section Owned.
Context {Y D : Type} (S : heap -> Y -> D -> list nat -> Prop).
Hypothesis Sframe : forall H H' y d F, S H y d F -> (forall a, In a F -> nth_error H' a = nth_error H a) -> S H' y d F.
Hypothesis Sbound : forall H y d F a, S H y d F -> In a F -> a < length H.
Definition own (P : nat -> Prop) (H : heap) (y : Y) (d : D) : Prop :=
  exists F, S H y d F /\ NoDup F /\ forall a, In a F -> ~ P a.
Lemma own_weak (P Q : nat -> Prop) H y d : (forall a, Q a -> P a) -> own P H y d -> own Q H y d.
Proof. intros HQ (F & HF & Hn & HP). exists F. split; [assumption|]. split; [assumption|]. intros a Ha Hq. exact (HP a Ha (HQ a Hq)). Qed.
Lemma own_keep P H H' y d : keeps (below H) H H' -> own P H y d -> own P H' y d.
Proof.
  intros [_ Hk] (F & HF & Hn & HP). exists F. split; [|auto]. eapply Sframe; [eassumption|].
  intros a Ha. apply Hk. eapply Sbound; eassumption.
Qed.
End Owned.
Arguments own {Y D}.
Section Join.
Context {Y D Y' D' : Type} (S : heap -> Y -> D -> list nat -> Prop) (S' : heap -> Y' -> D' -> list nat -> Prop).
Hypothesis Sframe : forall H H' y d F, S H y d F -> (forall a, In a F -> nth_error H' a = nth_error H a) -> S H' y d F.
Hypothesis Sbound : forall H y d F a, S H y d F -> In a F -> a < length H.
(** What was owned before and what was built since do not overlap. *)
Lemma own_join P H H' y d y' d' : own S P H y d -> keeps (below H) H H' -> own S' (below H) H' y' d' ->
  (forall a, P a -> a < length H) ->
  exists F F', S H' y d F /\ S' H' y' d' F' /\ NoDup (F ++ F') /\ NoDup (F' ++ F) /\
    (forall a, In a F -> ~ P a) /\ (forall a, In a F' -> ~ P a).
Proof.
  intros (F & HF & Hn & HP) [Hl Hk] (F' & HF' & Hn' & HP') HPb. exists F, F'.
  assert (Hb : forall a, In a F -> a < length H) by (intros; eapply Sbound; eassumption).
  split; [eapply Sframe; [eassumption|]; intros a Ha; apply Hk; now apply Hb|]. split; [assumption|].
  assert (Hdis : forall a, In a F -> ~ In a F') by (intros a Ha Ha'; apply (HP' a Ha'); now apply Hb).
  assert (Happ : forall l l' : list nat, NoDup l -> NoDup l' -> (forall a, In a l -> ~ In a l') -> NoDup (l ++ l')).
  { induction l as [|b l IH]; intros l' N1 N2 Hd; cbn; [assumption|]. inversion N1; subst. constructor.
    - rewrite in_app_iff. intros [Hin|Hin]; [contradiction|]. apply (Hd b); [now left|assumption].
    - apply IH; auto. intros a Ha. apply Hd. now right. }
  split; [apply Happ; auto|]. split; [apply Happ; auto; intros a Ha Ha'; exact (Hdis a Ha' Ha)|].
  split; [assumption|]. intros a Ha Hp. apply (HP' a Ha). now apply HPb.
Qed.
End Join.
Definition out : (nat -> Prop) -> heap -> obj -> value -> Prop := own rd.
Definition outs : (nat -> Prop) -> heap -> list obj -> list value -> Prop := own rds.

Lemma out_atom P H v : flatv v = true -> out P H (OAtom v) v.
Proof. intros Hv. exists []. split; [now constructor|]. split; [constructor|]. intros a []. Qed.
Lemma out_outs P H y d : out P H y d -> outs P H [y] [d].
Proof. intros (F & HF & Hn & HP). exists (F ++ [])%list. rewrite app_nil_r. split; [|auto]. rewrite <- (app_nil_r F). constructor; [assumption|constructor]. Qed.
Lemma outs_nil P H : outs P H [] [].
Proof. exists []. split; [constructor|]. split; [constructor|]. intros a []. Qed.
Lemma outs_add P H H' l vs y d : outs P H l vs -> keeps (below H) H H' -> out (below H) H' y d ->
  (forall a, P a -> a < length H) -> outs P H' (y :: l) (d :: vs).
Proof.
  intros Hl Hk Hy HP.
  destruct (own_join rds rd rds_frame rds_bound P H H' l vs y d Hl Hk Hy HP) as (F & F' & H1 & H2 & _ & Hn & P1 & P2).
  exists (F' ++ F)%list. split; [now constructor|]. split; [assumption|].
  intros a Ha. apply in_app_or in Ha as [Ha|Ha]; auto.
Qed.
Lemma outs_front P H H' l vs y d : out P H y d -> keeps (below H) H H' -> outs (below H) H' l vs ->
  (forall a, P a -> a < length H) -> outs P H' (y :: l) (d :: vs).
Proof.
  intros Hl Hk Hy HP.
  destruct (own_join rd rds rd_frame rd_bound P H H' y d l vs Hl Hk Hy HP) as (F & F' & H1 & H2 & Hn & _ & P1 & P2).
  exists (F ++ F')%list. split; [now constructor|]. split; [assumption|].
  intros a Ha. apply in_app_or in Ha as [Ha|Ha]; auto.
Qed.
Lemma NoDup_app_r {A} (l m : list A) : NoDup (l ++ m) -> NoDup m.
Proof. induction l as [|a l IH]; cbn; [auto|]. intros Hn. inversion Hn; auto. Qed.
Lemma NoDup_app_l {A} (l m : list A) : NoDup (l ++ m) -> NoDup l.
Proof.
  induction l as [|a l IH]; cbn; [intros; constructor|]. intros Hn. inversion Hn; subst. constructor; [|auto].
  intros Hin. apply H1. apply in_or_app. now left.
Qed.
Lemma NoDup_app_dis {A} (l m : list A) a : NoDup (l ++ m) -> In a l -> ~ In a m.
Proof.
  induction l as [|b l IH]; cbn; [intros _ []|]. intros Hn. inversion Hn; subst. intros [->|Hin] Hm; [|now apply IH].
  apply H1. apply in_or_app. now right.
Qed.
Lemma NoDup_app_i {A} (l m : list A) : NoDup l -> NoDup m -> (forall a, In a l -> ~ In a m) -> NoDup (l ++ m).
Proof.
  induction l as [|b l IH]; intros N1 N2 Hd; cbn; [assumption|]. inversion N1; subst. constructor.
  - rewrite in_app_iff. intros [Hin|Hin]; [contradiction|]. apply (Hd b); [now left|assumption].
  - apply IH; auto. intros a Ha. apply Hd. now right.
Qed.
Lemma outs_drop P H y d l vs : outs P H (y :: l) (d :: vs) -> outs P H l vs.
Proof.
  intros (F & HF & Hn & HP). inversion HF; subst. exists G. split; [assumption|].
  split; [eapply NoDup_app_r; eassumption|]. intros a Ha. apply HP. apply in_or_app. now right.
Qed.
Lemma outs_head P H y d l vs : outs P H (y :: l) (d :: vs) -> out P H y d.
Proof.
  intros (F & HF & Hn & HP). inversion HF; subst. exists F0. split; [assumption|].
  split; [eapply NoDup_app_l; eassumption|]. intros a Ha. apply HP. apply in_or_app. now left.
Qed.
Lemma outs_swap P H x v y d l vs : outs P H (x :: y :: l) (v :: d :: vs) -> outs P H (y :: x :: l) (d :: v :: vs).
Proof.
  intros (F & HF & Hn & HP). inversion HF as [|? ? F1 ? ? G1 Hx Hr]; subst. inversion Hr as [|? ? F2 ? ? G2 Hy Hl]; subst.
  exists (F2 ++ F1 ++ G2)%list. split; [constructor; [assumption|now constructor]|]. split.
  - apply NoDup_app_i.
    + eapply NoDup_app_l. eapply NoDup_app_r. eassumption.
    + apply NoDup_app_i; [eapply NoDup_app_l; eassumption|eapply NoDup_app_r; eapply NoDup_app_r; eassumption|].
      intros a Ha Hb. eapply (NoDup_app_dis F1); [eassumption..|]. apply in_or_app. now right.
    + intros a Ha Hb. apply in_app_or in Hb as [Hb|Hb].
      * eapply (NoDup_app_dis F1); [eassumption..|]. apply in_or_app. now left.
      * eapply (NoDup_app_dis F2); [eapply NoDup_app_r; eassumption|eassumption..].
  - intros a Ha. apply HP. rewrite !in_app_iff in *. tauto.
Qed.
Lemma outs_keep P H H' l vs : keeps (below H) H H' -> outs P H l vs -> outs P H' l vs.
Proof. apply (own_keep rds rds_frame rds_bound). Qed.
Lemma out_keep P H H' l vs : keeps (below H) H H' -> out P H l vs -> out P H' l vs.
Proof. apply (own_keep rd rd_frame rd_bound). Qed.
Lemma outs_atom P H v l vs : flatv v = true -> outs P H l vs -> outs P H (OAtom v :: l) (v :: vs).
Proof.
  intros Hv (F & HF & Hn & HP). exists ([] ++ F)%list. split; [constructor; [now constructor|assumption]|]. auto.
Qed.
Lemma put_keep P H l vs a c : outs P H l vs -> (forall F, rds H l vs F -> ~ In a F) -> outs P (put a c H) l vs.
Proof.
  intros (F & HF & Hn & HP) Ha. exists F. split; [|auto]. eapply rds_frame; [eassumption|]. intros b Hb. apply put_other.
  intros ->. exact (Ha F HF Hb).
Qed.

(** ** Building objects *)
Lemma Forall2_imp {A B} (R R' : A -> B -> Prop) l m : (forall a b, R a b -> R' a b) -> Forall2 R l m -> Forall2 R' l m.
Proof. intros Hi. induction 1; constructor; auto. Qed.
Section MapOwned.
Context {A B Y D : Type} (S : heap -> Y -> D -> list nat -> Prop) (Ss : heap -> list Y -> list D -> list nat -> Prop).
Hypothesis Sframe : forall H H' y d F, S H y d F -> (forall a, In a F -> nth_error H' a = nth_error H a) -> S H' y d F.
Hypothesis Sbound : forall H y d F a, S H y d F -> In a F -> a < length H.
Hypothesis Snil : forall H, Ss H [] [] [].
Hypothesis Scons : forall H y d F ys ds G, S H y d F -> Ss H ys ds G -> Ss H (y :: ys) (d :: ds) (F ++ G).
Variables (R : heap -> A -> B -> Prop) (g : A -> hM Y) (k : B -> outcome D).
Hypothesis Rkeep : forall H H' x v, keeps (below H) H H' -> R H x v -> R H' x v.
Fixpoint omapm (l : list B) : outcome (list D) :=
  match l with
  | [] => Done []
  | x :: r => obind (k x) (fun y => obind (omapm r) (fun ys => Done (y :: ys)))
  end.
Lemma sim_map (C : heap -> Prop) : (forall H H', C H -> keeps (below H) H H' -> C H') -> forall l vs,
  (forall H x v, C H -> In v vs -> R H x v -> sim (below H) (own S (below H)) H (g x) (k v)) ->
  forall H, C H -> Forall2 (R H) l vs -> sim (below H) (own Ss (below H)) H (hmap g l) (omapm vs).
Proof.
  intros HC l vs. revert l. induction vs as [|v vs IH]; intros l Hg H HH Hl; inversion Hl as [|x ? l' ? Hx Hl']; subst; cbn [hmap omapm].
  - apply sim_ret. exists []. split; [auto|]. split; [constructor|]. intros a [].
  - eapply sim_bind with (P1 := below H); [auto|apply Hg; [assumption|now left|assumption]|].
    intros H1 y d Hk1 Hy. eapply sim_bind with (P1 := below H1); [destruct Hk1; unfold below; intros; lia| |].
    + apply IH; [intros; apply Hg; auto; now right|eauto|]. eapply Forall2_imp; [|exact Hl']. intros a b. apply Rkeep. assumption.
    + intros H2 ys ds Hk2 Hys. apply sim_ret.
      destruct (own_join S Ss Sframe Sbound (below H) H1 H2 y d ys ds Hy Hk2 Hys) as (F & F' & S1 & S2 & Hn & _ & P1 & P2).
      { destruct Hk1; unfold below; intros; lia. }
      exists (F ++ F')%list. split; [auto|]. split; [assumption|]. intros a Ha. apply in_app_or in Ha as [Ha|Ha]; auto.
Qed.
End MapOwned.
Lemma snd_mmap {B D} (k : B -> M D) l : snd (mmap k l) = omapm (fun x => snd (k x)) l.
Proof. induction l as [|x l IH]; cbn [mmap omapm]; [reflexivity|].
  rewrite snd_bind, <- IH. destruct (snd (k x)); cbn [obind]; auto. now rewrite snd_bind.
Qed.
Lemma omapm_pure {B} (l : list B) : omapm (fun x => Done x) l = Done l.
Proof. induction l as [|x l IH]; cbn [omapm obind]; [reflexivity|]. now rewrite IH. Qed.

Definition pair_rd (H : heap) (y : obj * obj) (d : value * value) (F : list nat) : Prop :=
  exists F1 F2, rd H (fst y) (fst d) F1 /\ rd H (snd y) (snd d) F2 /\ F = (F1 ++ F2)%list.
Definition attr_rd (H : heap) (y : string * obj) (d : string * value) (F : list nat) : Prop :=
  fst y = fst d /\ rd H (snd y) (snd d) F.
Lemma pair_frame H H' y d F : pair_rd H y d F -> (forall a, In a F -> nth_error H' a = nth_error H a) -> pair_rd H' y d F.
Proof.
  intros (F1 & F2 & H1 & H2 & ->) Ha. exists F1, F2.
  split; [eapply rd_frame; [eassumption|]; intros; apply Ha; apply in_or_app; now left|].
  split; [eapply rd_frame; [eassumption|]; intros; apply Ha; apply in_or_app; now right|reflexivity].
Qed.
Lemma pair_bound H y d F a : pair_rd H y d F -> In a F -> a < length H.
Proof.
  intros (F1 & F2 & H1 & H2 & ->) Ha. apply in_app_or in Ha as [Ha|Ha].
  - exact (rd_bound _ _ _ _ _ H1 Ha).
  - exact (rd_bound _ _ _ _ _ H2 Ha).
Qed.
Lemma attr_frame H H' y d F : attr_rd H y d F -> (forall a, In a F -> nth_error H' a = nth_error H a) -> attr_rd H' y d F.
Proof. intros [Hn Hr] Ha. split; [assumption|]. eapply rd_frame; eassumption. Qed.
Lemma attr_bound H y d F a : attr_rd H y d F -> In a F -> a < length H.
Proof. intros [_ Hr] Ha. exact (rd_bound _ _ _ _ _ Hr Ha). Qed.
Lemma pair_cons H y d F ys ds G : pair_rd H y d F -> rdd H ys ds G -> rdd H (y :: ys) (d :: ds) (F ++ G).
Proof.
  destruct y as [k x], d as [kv v]. intros (F1 & F2 & H1 & H2 & ->) Hr. cbn [fst snd] in *.
  rewrite <- app_assoc. apply rdd_cons; assumption.
Qed.
Lemma attr_cons H y d F ys ds G : attr_rd H y d F -> rda H ys ds G -> rda H (y :: ys) (d :: ds) (F ++ G).
Proof. destruct y as [n x], d as [m v]. intros [E Hr] Hl. cbn [fst snd] in *. subst. apply rda_cons; assumption. Qed.
Lemma rda_bound H x v F a : rda H x v F -> In a F -> a < length H.
Proof. intros Hr. now apply (proj2 (proj2 (proj2 (rd_bound_all H))) x v F Hr). Qed.

Lemma sim_alloc {Y D} (Ss : heap -> Y -> D -> list nat -> Prop)
  (Sframe : forall H H' y d F, Ss H y d F -> (forall a, In a F -> nth_error H' a = nth_error H a) -> Ss H' y d F)
  (Sbound : forall H y d F a, Ss H y d F -> In a F -> a < length H)
  (P : nat -> Prop) H (mk : Y -> cell) (mv : D -> value) y d
  (Hmk : forall H a F, nth_error H a = Some (mk y) -> Ss H y d F -> rd H (ORef a) (mv d) (a :: F)) :
  (forall a, P a -> a < length H) -> own Ss P H y d ->
  sim P (out P) H (alloc (mk y)) (Done (mv d)).
Proof.
  intros HP (F & HF & Hn & HFP). unfold sim, alloc. cbn [fst snd]. split; [now apply keeps_app|].
  exists (length H :: F). split.
  - apply Hmk.
    + rewrite nth_error_app2 by lia. now rewrite Nat.sub_diag.
    + eapply Sframe; [eassumption|]. intros a Ha. apply nth_error_app1. eapply Sbound; eassumption.
  - split.
    + constructor; [|assumption]. intros Hin. apply (Sbound _ _ _ _ _ HF) in Hin. lia.
    + intros a [<- |Ha]; [|auto]. intros Hp. apply HP in Hp. lia.
Qed.
Lemma sim_alloc_list (P : nat -> Prop) H l vs : (forall a, P a -> a < length H) -> outs P H l vs ->
  sim P (out P) H (alloc (NList l)) (Done (VList vs)).
Proof. intros HP Hl. apply (sim_alloc rds rds_frame rds_bound P H NList VList l vs); auto. intros; econstructor; eassumption. Qed.
Definition outd : (nat -> Prop) -> heap -> list (obj * obj) -> list (value * value) -> Prop := own rdd.
Lemma sim_alloc_dict (P : nat -> Prop) H k l vs : (forall a, P a -> a < length H) -> outd P H l vs ->
  sim P (out P) H (alloc (NDict k l)) (Done (VDict k vs)).
Proof. intros HP Hl. apply (sim_alloc rdd rdd_frame rdd_bound P H (NDict k) (VDict k) l vs); auto. intros; econstructor; eassumption. Qed.

Lemma below_keep H H' : keeps (below H) H H' -> forall a, below H a -> below H' a.
Proof. intros [Hl _] a Ha. unfold below in *. lia. Qed.
(** An object built from scratch stands for the tree. *)
Lemma sim_place v : forall H, sim (below H) (out (below H)) H (place v) (Done v).
Proof.
  assert (Hlist : forall l, Forall (fun v => forall H, sim (below H) (out (below H)) H (place v) (Done v)) l ->
            forall H, sim (below H) (outs (below H)) H (hmap place l) (Done l)).
  { intros l Hl H. rewrite <- omapm_pure. eapply (sim_map rd rds rd_frame rd_bound rds_nil rds_cons
      (fun _ x v => x = v) place _ (fun _ _ _ _ _ E => E) (fun _ => True)); auto.
    - intros H' x w _ Hv ->. apply (proj1 (Forall_forall _ _) Hl w Hv).
    - clear Hl. induction l; constructor; auto. }
  induction v using value_ind'; intros HH; cbn [place]; try (apply sim_ret; now apply out_atom).
  - change (Done (VList l)) with (obind (Done l) (fun l => Done (VList l))).
    eapply sim_bind with (P1 := below HH); [auto|now apply Hlist|]. intros H1 ys ds Hk Hys.
    now apply sim_alloc_list; [apply below_keep|].
  - change (Done (VTuple l)) with (obind (Done l) (fun l => Done (VTuple l))).
    eapply sim_bind with (P1 := below HH); [auto|now apply Hlist|]. intros H1 ys ds Hk (F & HF & Hn & HP).
    apply sim_ret. exists F. split; [now constructor|auto].
  - change (Done (VColl k l)) with (obind (Done l) (fun l => Done (VColl k l))).
    eapply sim_bind with (P1 := below HH); [auto|now apply Hlist|]. intros H1 ys ds Hk Hys.
    apply (sim_alloc rds rds_frame rds_bound _ H1 (NColl k) (VColl k) ys ds); auto; [|now apply below_keep].
    intros; econstructor; eassumption.
  - change (Done (VDict k d)) with (obind (Done d) (fun d => Done (VDict k d))).
    eapply sim_bind with (P1 := below HH) (Q1 := outd (below HH)); [auto| |].
    + rewrite <- omapm_pure. eapply (sim_map pair_rd rdd pair_frame pair_bound rdd_nil pair_cons
        (fun _ x v => x = v) _ _ (fun _ _ _ _ _ E => E) (fun _ => True)); auto.
      * intros H' x v _ Hv ->. destruct (proj1 (Forall_forall _ _) H v Hv) as [I1 I2]. destruct v as [v1 v2].
        cbn [fst snd] in *.
        change (Done (v1, v2)) with (obind (Done v1) (fun w1 => obind (Done v2) (fun w2 => Done (w1, w2)))).
        eapply sim_bind with (P1 := below H'); [auto|apply I1|]. intros H1 y1 d1 K1 O1.
        eapply sim_bind with (P1 := below H1); [now apply below_keep|apply I2|]. intros H2 y2 d2 K2 O2.
        apply sim_ret.
        destruct (own_join rd rd rd_frame rd_bound (below H') H1 H2 y1 d1 y2 d2 O1 K2 O2 (below_keep _ _ K1))
          as (F & F' & S1 & S2 & Hn & _ & P1 & P2).
        exists (F ++ F')%list. split; [exists F, F'; auto|]. split; [assumption|].
        intros a Ha. apply in_app_or in Ha as [Ha|Ha]; auto.
      * clear. induction d; constructor; auto.
    + intros H1 ys ds Hk Hys. now apply sim_alloc_dict; [apply below_keep|].
  - change (Done (VNT c l)) with (obind (Done l) (fun l => Done (VNT c l))).
    eapply sim_bind with (P1 := below HH); [auto|now apply Hlist|]. intros H1 ys ds Hk (F & HF & Hn & HP).
    apply sim_ret. exists F. split; [now constructor|auto].
  - rename a into l. change (Done (VObj c l)) with (obind (Done l) (fun l => Done (VObj c l))).
    eapply sim_bind with (P1 := below HH) (Q1 := own rda (below HH)); [auto| |].
    + rewrite <- omapm_pure. eapply (sim_map attr_rd rda attr_frame attr_bound rda_nil attr_cons
        (fun _ x v => x = v) _ _ (fun _ _ _ _ _ E => E) (fun _ => True)); auto.
      * intros H' x v _ Hv ->. pose proof (proj1 (Forall_forall _ _) H v Hv) as I2. destruct v as [n v2].
        cbn [fst snd] in *. change (Done (n, v2)) with (obind (Done v2) (fun w2 => Done (n, w2))).
        eapply sim_bind with (P1 := below H'); [auto|apply I2|]. intros H1 y1 d1 K1 (F & HF & Hn & HP).
        apply sim_ret. exists F. split; [now split|auto].
      * clear. induction l; constructor; auto.
    + intros H1 ys ds Hk Hys.
      apply (sim_alloc rda rda_frame rda_bound _ H1 (NObj c) (VObj c) ys ds); auto; [|now apply below_keep].
      intros; econstructor; eassumption.
Qed.

(** ** Dicts *)
Definition cnt (l : list nat) (z : nat) : nat := count_occ Nat.eq_dec l z.
Lemma cnt_app l m z : cnt (l ++ m) z = cnt l z + cnt m z.
Proof. apply count_occ_app. Qed.
Lemma cnt_cons a l z : cnt (a :: l) z = (if Nat.eq_dec a z then 1 else 0) + cnt l z.
Proof. unfold cnt. cbn. destruct (Nat.eq_dec a z); lia. Qed.
Lemma cnt_nil z : cnt [] z = 0.
Proof. reflexivity. Qed.
Lemma nodup_cnt l : NoDup l <-> forall z, cnt l z <= 1.
Proof. apply NoDup_count_occ. Qed.
Lemma in_cnt l z : In z l <-> 0 < cnt l z.
Proof. unfold cnt. rewrite (count_occ_In Nat.eq_dec). lia. Qed.
Ltac cnts := repeat (rewrite ?cnt_app, ?cnt_cons, ?cnt_nil in * ); try lia.
(** [l] is part of [m], with multiplicity *)
Definition within (l m : list nat) : Prop := forall z, cnt l z <= cnt m z.
Lemma within_nodup l m : within l m -> NoDup m -> NoDup l.
Proof. rewrite !nodup_cnt. intros Hw Hm z. specialize (Hw z). specialize (Hm z). lia. Qed.
Lemma within_in l m a : within l m -> In a l -> In a m.
Proof. rewrite !in_cnt. intros Hw. specialize (Hw a). lia. Qed.

Lemma rdd_app H d1 D1 F1 d2 D2 F2 : rdd H d1 D1 F1 -> rdd H d2 D2 F2 -> rdd H (d1 ++ d2) (D1 ++ D2) (F1 ++ F2).
Proof.
  intros H1 H2. induction H1; cbn [app]; [assumption|]. rewrite <- !app_assoc. now constructor.
Qed.
Lemma rdd_one H k kv F x v G : rd H k kv F -> rd H x v G -> rdd H [(k, x)] [(kv, v)] (F ++ G).
Proof. intros H1 H2. rewrite <- (app_nil_r G). constructor; [assumption..|constructor]. Qed.
Lemma key_view H a v F b w G : rd H a v F -> rd H b w G -> key_eqb H a b = py_eqb v w.
Proof. intros Ha Hb. unfold key_eqb. now rewrite (rd_view _ _ _ _ Ha), (rd_view _ _ _ _ Hb). Qed.
(** Looking up a key finds entries at the same position. *)
Inductive found (H : heap) (k : obj) (kv : value) (d : list (obj * obj)) (D : list (value * value)) (F : list nat) : Prop :=
| found_no : hdget H k d = None -> dget kv D = None ->
    (forall x, hdset H k x d = (d ++ [(k, x)])%list) -> (forall xv, dset kv xv D = (D ++ [(kv, xv)])%list) ->
    found H k kv d D F
| found_at d1 k' y d2 D1 kv' yv D2 F1 F' Fy F2 :
    d = (d1 ++ (k', y) :: d2)%list -> D = (D1 ++ (kv', yv) :: D2)%list -> F = (F1 ++ F' ++ Fy ++ F2)%list ->
    rdd H d1 D1 F1 -> rd H k' kv' F' -> rd H y yv Fy -> rdd H d2 D2 F2 ->
    hdget H k d = Some y -> dget kv D = Some yv -> py_eqb kv kv' = true ->
    (forall x, hdset H k x d = (d1 ++ (k', x) :: d2)%list) ->
    (forall xv, dset kv xv D = (D1 ++ (kv', xv) :: D2)%list) ->
    found H k kv d D F.
Lemma rdd_find H k kv Fk d D F : rd H k kv Fk -> rdd H d D F -> found H k kv d D F.
Proof.
  intros Hk. induction 1 as [|k1 kv1 G1 x1 v1 G2 d D G H1 H2 H3 IH].
  - apply found_no; reflexivity.
  - pose proof (key_view _ _ _ _ _ _ _ Hk H1) as Ek. destruct (py_eqb kv kv1) eqn:Ep.
    + apply (found_at H k kv _ _ _ [] k1 x1 d [] kv1 v1 D [] G1 G2 G); auto.
      * constructor.
      * unfold hdget. cbn [aget]. now rewrite Ek.
      * unfold dget. cbn [aget]. now rewrite Ep.
      * intros x. unfold hdset. cbn [aset app]. now rewrite Ek.
      * intros x. unfold dset. cbn [aset app]. now rewrite Ep.
    + destruct IH as [I1 I2 I3 I4|d1 k' y d2 D1 kv' yv D2 F1 F' Fy F2 -> -> -> R1 R2 R3 R4 I1 I2 I5 I3 I4].
      * apply found_no.
        -- unfold hdget in *. cbn [aget]. now rewrite Ek.
        -- unfold dget in *. cbn [aget]. now rewrite Ep.
        -- intros x. unfold hdset in *. cbn [aset app]. now rewrite Ek, I3.
        -- intros x. unfold dset in *. cbn [aset app]. now rewrite Ep, I4.
      * apply (found_at H k kv _ _ _ ((k1, x1) :: d1) k' y d2 ((kv1, v1) :: D1) kv' yv D2 (G1 ++ G2 ++ F1) F' Fy F2); auto.
        -- now rewrite <- !app_assoc.
        -- now constructor.
        -- unfold hdget in *. cbn [aget]. now rewrite Ek.
        -- unfold dget in *. cbn [aget]. now rewrite Ep.
        -- intros x. unfold hdset in *. cbn [aset app]. now rewrite Ek, I3.
        -- intros x. unfold dset in *. cbn [aset app]. now rewrite Ep, I4.
Qed.
Lemma set_item_run H r kd d D F k kv Fk x xv Fx :
  nth_error H r = Some (NDict kd d) -> rdd H d D F -> rd H k kv Fk -> rd H x xv Fx ->
  ~ In r (F ++ Fk ++ Fx) ->
  exists d' F', set_item r k x H = (put r (NDict kd d') H, Done tt) /\
    rdd (put r (NDict kd d') H) d' (dset kv xv D) F' /\ within F' (F ++ Fk ++ Fx).
Proof.
  intros Hr Hd Hk Hx Hn. exists (hdset H k x d).
  assert (Hgo : exists F', rdd H (hdset H k x d) (dset kv xv D) F' /\ within F' (F ++ Fk ++ Fx)).
  { destruct (rdd_find _ _ _ _ _ _ _ Hk Hd) as [_ _ I3 I4|d1 k' y d2 D1 kv' yv D2 F1 F' Fy F2 -> -> -> R1 R2 R3 R4 _ _ _ I3 I4].
    - rewrite I3, I4. exists (F ++ Fk ++ Fx)%list. split; [apply rdd_app; [assumption|now apply rdd_one]|]. intros z. lia.
    - rewrite I3, I4. exists (F1 ++ F' ++ Fx ++ F2)%list. split.
      + apply rdd_app; [assumption|]. now constructor.
      + intros z. cnts. }
  destruct Hgo as (F' & HF & Hw). exists F'. split; [|split; [|assumption]].
  - unfold set_item. rewrite Hr. reflexivity.
  - eapply rdd_frame; [eassumption|]. intros a Ha. apply put_other. intros <-. apply Hn. eapply within_in; eassumption.
Qed.
Lemma hit {A} (l : list A) a c : nth_error l a = Some c -> a < length l.
Proof. intros Ha. apply nth_error_Some. congruence. Qed.
Lemma sim_set_item P H r k kv x xv kd D l vs :
  outs P H (k :: x :: ORef r :: l) (kv :: xv :: VDict kd D :: vs) ->
  sim P (fun H' _ _ => outs P H' (ORef r :: l) (VDict kd (dset kv xv D) :: vs)) H (set_item r k x) (Done tt).
Proof.
  intros (F & HF & Hn & HP). inversion HF as [|? ? Fk ? ? G1 Hk HF1]; subst. inversion HF1 as [|? ? Fx ? ? G2 Hx HF2]; subst.
  inversion HF2 as [|? ? Fr ? ? G Hr HF3]; subst. inversion Hr as [| | | | |? ? d ? Fd Hc Hd|]; subst.
  assert (Hdis : ~ In r (Fd ++ Fk ++ Fx)).
  { rewrite in_cnt. pose proof (proj1 (nodup_cnt _) Hn r) as Hz. cnts. destruct (Nat.eq_dec r r); [lia|congruence]. }
  destruct (set_item_run H r kd d D Fd k kv Fk x xv Fx Hc Hd Hk Hx Hdis) as (d' & F' & Es & Hd' & Hw).
  unfold sim. rewrite Es. cbn [fst snd]. split.
  - apply keeps_put. apply HP. rewrite !in_app_iff. cbn [In]. tauto.
  - exists ((r :: F') ++ G)%list. split.
    + constructor; [econstructor; [|eassumption]|].
      * apply put_same. eapply hit; eassumption.
      * eapply rds_frame; [eassumption|]. intros a Ha. apply put_other. intros <-.
        pose proof (proj1 (nodup_cnt _) Hn r) as Hz. apply in_cnt in Ha. cnts. destruct (Nat.eq_dec r r); [lia|congruence].
    + split.
      * eapply within_nodup; [|exact Hn]. intros z. specialize (Hw z). cnts.
      * intros a Ha. apply HP. eapply within_in; [|exact Ha]. intros z. specialize (Hw z). cnts.
Qed.
(** An update of a dict that is the value of an entry of a dict *)
Lemma sim_set_inner P H r i k kv x xv kd kd' D D' s d l vs :
  outs P H (k :: x :: ORef r :: l) (kv :: xv :: VDict kd D :: vs) ->
  nth_error H r = Some (NDict kd d) -> hdget H (atom s) d = Some (ORef i) ->
  dget (VStr s) D = Some (VDict kd' D') ->
  sim P (fun H' _ _ => nth_error H' r = Some (NDict kd d) /\
    outs P H' (ORef r :: l) (VDict kd (dset (VStr s) (VDict kd' (dset kv xv D')) D) :: vs)) H (set_item i k x) (Done tt).
Proof.
  intros (F & HF & Hn & HP) Hcell Hget Htree.
  inversion HF as [|? ? Fk ? ? G1 Hk HF1]; subst. inversion HF1 as [|? ? Fx ? ? G2 Hx HF2]; subst.
  inversion HF2 as [|? ? Fr ? ? G Hr HF3]; subst. inversion Hr as [| | | | |? ? d0 ? Fd Hc Hd|]; subst.
  rewrite Hcell in Hc. injection Hc as <-.
  destruct (rdd_find H (atom s) (VStr s) [] d D Fd (rd_atom H (VStr s) eq_refl) Hd)
    as [I1 _ _ _|d1 k' y d2 D1 kv' yv D2 F1 F' Fy F2 -> -> -> R1 R2 R3 R4 I1 I2 Ieq I3 I4]; [congruence|].
  rewrite Hget in I1. injection I1 as <-. rewrite Htree in I2. injection I2 as <-.
  inversion R3 as [| | | | |? ? di ? Fi Hci Hdi|]; subst.
  assert (Hdis : ~ In i (Fi ++ Fk ++ Fx)).
  { rewrite in_cnt. pose proof (proj1 (nodup_cnt _) Hn i) as Hz. cnts. destruct (Nat.eq_dec i i); [lia|congruence]. }
  destruct (set_item_run H i kd' di D' Fi k kv Fk x xv Fx Hci Hdi Hk Hx Hdis) as (di' & Fi' & Es & Hdi' & Hw).
  assert (Hir : i <> r).
  { intros ->. pose proof (proj1 (nodup_cnt _) Hn r) as Hz. cnts. destruct (Nat.eq_dec r r); [lia|congruence]. }
  assert (Hoth : forall a, In a (F1 ++ F' ++ F2 ++ G) -> nth_error (put i (NDict kd' di') H) a = nth_error H a).
  { intros a Ha. apply put_other. intros <-. pose proof (proj1 (nodup_cnt _) Hn i) as Hz. apply in_cnt in Ha. cnts.
    destruct (Nat.eq_dec i i); [lia|congruence]. }
  unfold sim. rewrite Es. cbn [fst snd]. split.
  - apply keeps_put. apply HP. rewrite !in_app_iff. cbn [In]. rewrite !in_app_iff. cbn [In]. tauto.
  - split; [rewrite put_other by assumption; exact Hcell|].
    exists ((r :: F1 ++ F' ++ (i :: Fi') ++ F2) ++ G)%list. split.
    + constructor; [econstructor; [rewrite put_other by assumption; exact Hcell|]|].
      * rewrite I4. apply rdd_app; [|constructor].
        -- eapply rdd_frame; [eassumption|]. intros a Ha. apply Hoth. rewrite !in_app_iff. tauto.
        -- eapply rd_frame; [eassumption|]. intros a Ha. apply Hoth. rewrite !in_app_iff. tauto.
        -- econstructor; [apply put_same; eapply hit; eassumption|assumption].
        -- eapply rdd_frame; [eassumption|]. intros a Ha. apply Hoth. rewrite !in_app_iff. tauto.
      * eapply rds_frame; [eassumption|]. intros a Ha. apply Hoth. rewrite !in_app_iff. tauto.
    + split.
      * eapply within_nodup; [|exact Hn]. intros z. specialize (Hw z). cnts.
      * intros a Ha. apply HP. eapply within_in; [|exact Ha]. intros z. specialize (Hw z). cnts.
Qed.

(** ** Meta data *)

Lemma apart X L M b : NoDup X -> within (L ++ M) X -> In b L -> ~ In b M.
Proof. rewrite nodup_cnt, !in_cnt. intros Hn Hw. specialize (Hn b). specialize (Hw b). cnts. Qed.
Lemma str_key_not H k kv F s : rd H k kv F -> py_eqb (VStr s) kv = key_eqb H (atom s) k.
Proof. intros Hr. symmetry. eapply key_view; [now constructor|eassumption]. Qed.
Definition not_cls (kx : value * value) : bool := negb (py_eqb (VStr "-cls") (fst kx)).
Lemma rdd_del H d D F : rdd H d D F ->
  exists G Fy, rdd H (hddel H (atom "-cls") d) (filter not_cls D) G /\
    rd H (match hdget H (atom "-cls") d with Some y => y | None => OAtom VNone end)
         (match dget (VStr "-cls") D with Some y => y | None => VNone end) Fy /\ within (Fy ++ G) F.
Proof.
  induction 1 as [|k kv F1 x v F2 d D F H1 H2 H3 (G & Fy & I1 & I2 & I3)].
  - exists [], []. split; [constructor|]. split; [now constructor|]. intros z. cnts.
  - unfold hddel, hdget, dget, not_cls in *. cbn [filter aget fst snd]. rewrite <- (str_key_not _ _ _ _ "-cls" H1).
    destruct (py_eqb (VStr "-cls") kv); cbn [negb].
    + exists G, F2. split; [assumption|]. split; [assumption|]. intros z. specialize (I3 z). cnts.
    + exists (F1 ++ F2 ++ G)%list, Fy. split; [now constructor|]. split; [assumption|]. intros z. specialize (I3 z). cnts.
Qed.
Lemma fill_go_filter p : forall D A, fill_go fill_value p D A = fill_go fill_value p (filter not_cls D) A.
Proof.
  induction D as [|[key x] D IH]; intros A; [reflexivity|]. unfold not_cls in *. cbn [filter fst].
  destruct (py_eqb (VStr "-cls") key) eqn:Ek; cbn [negb fill_go]; rewrite Ek; [apply IH|].
  destruct key, x; rewrite <- ?IH; try reflexivity. destruct (String.eqb s "-meta"); [reflexivity|].
  destruct (fill_value (p ++ s ++ "/") A (VDict k d)) as [[[x' n] A']|e]; cbn [rbind]; [|reflexivity]. now rewrite <- IH.
Qed.
Definition hfill_go (n : nat) (prefix : string) (acc : nat) : list (obj * obj) -> hM unit :=
  fix go (l : list (obj * obj)) : hM unit :=
    match l with
    | [] => hret tt
    | (key, x) :: r =>
        hbind (fun H1 =>
          match dict_at H1 x with
          | None => hret tt H1
          | Some b =>
              match key with
              | OAtom (VStr s) =>
                  if String.eqb s "-meta" then hret tt H1
                  else hbind (hfill n (prefix ++ s ++ "/") acc b)
                             (fun y => set_item acc (atom (prefix ++ s)) y) H1
              | _ => hfail (exn_of KType) H1
              end
          end) (fun _ => go r)
    end.
Lemma hfill_S n prefix acc a H k d : nth_error H a = Some (NDict k d) ->
  hfill (S n) prefix acc a H =
  hbind (write a (NDict k (hddel H (atom "-cls") d))) (fun _ =>
  hbind (hfill_go n prefix acc (hddel H (atom "-cls") d)) (fun _ =>
  hret (match hdget H (atom "-cls") d with Some y => y | None => OAtom VNone end))) H.
Proof. intros Ha. cbn [hfill]. rewrite Ha. reflexivity. Qed.

Definition fill_post (H : heap) (acc a : nat) (k : dkind) (d : list (obj * obj)) (Fa F : list nat)
           (r : heap * outcome obj) (t : res (value * value * types_acc)) : Prop :=
  length (fst r) = length H /\ (forall b, ~ In b (acc :: Fa ++ a :: F) -> nth_error (fst r) b = nth_error H b) /\
  match t with
  | Ok (v', nm, A') => exists y D' dacc' F' Fa' Fy, snd r = Done y /\ v' = VDict k D' /\
      nth_error (fst r) a = Some (NDict k (hddel H (atom "-cls") d)) /\ rdd (fst r) (hddel H (atom "-cls") d) D' F' /\
      nth_error (fst r) acc = Some (NDict DkDict dacc') /\ rdd (fst r) dacc' A' Fa' /\ rd (fst r) y nm Fy /\
      within (F' ++ Fa' ++ Fy) (Fa ++ F)
  | Err e => snd r = Fail e
  end.
Definition go_post (H : heap) (acc : nat) (l : list (obj * obj)) (Fa G : list nat)
           (r : heap * outcome unit) (t : res (list (value * value) * types_acc)) : Prop :=
  length (fst r) = length H /\ (forall b, ~ In b (acc :: Fa ++ G) -> nth_error (fst r) b = nth_error H b) /\
  match t with
  | Ok (L', A') => exists dacc' G' Fa', snd r = Done tt /\
      rdd (fst r) l L' G' /\ nth_error (fst r) acc = Some (NDict DkDict dacc') /\ rdd (fst r) dacc' A' Fa' /\
      within (G' ++ Fa') (Fa ++ G)
  | Err e => snd r = Fail e
  end.
Lemma dict_at_rd H x v F : rd H x v F ->
  match dict_at H x with
  | Some b => exists k d D G, x = ORef b /\ v = VDict k D /\ F = b :: G /\ nth_error H b = Some (NDict k d) /\ rdd H d D G
  | None => match v with VDict _ _ => False | _ => True end
  end.
Proof.
  intros Hr. destruct Hr as [v Hv|l vs F _|c l vs F _|a l vs F Ha _|a k l vs F Ha _|a k d ds F Ha Hd|a c l vs F Ha _];
    cbn [dict_at]; rewrite ?Ha; try exact I; [destruct v; try discriminate; exact I|]. exists k, d, ds, F. auto.
Qed.
Lemma hbind_run {A B} (m : hM A) (g : A -> hM B) H H' a : m H = (H', Done a) -> hbind m g H = g a H'.
Proof. unfold hbind. now intros ->. Qed.
Lemma hbind_stop {A B} (m : hM A) (g : A -> hM B) H e : snd (m H) = Fail e -> hbind m g H = (fst (m H), Fail e).
Proof. unfold hbind. destruct (m H) as [H' [a|e'|]]; cbn; congruence. Qed.
Lemma fill_run n : forall prefix acc a H k d D F A Fa dacc,
  nth_error H a = Some (NDict k d) -> rdd H d D F ->
  nth_error H acc = Some (NDict DkDict dacc) -> rdd H dacc A Fa ->
  NoDup (acc :: Fa ++ a :: F) -> length F < n ->
  fill_post H acc a k d Fa F (hfill n prefix acc a H) (fill_value prefix A (VDict k D)).
Proof.
  induction n as [|n IHn]; intros prefix acc a H k d D F A Fa dacc Ha Hd Hacc HA Hn Hlen; [lia|].
  assert (Hgo : forall l L G H A Fa dacc, rdd H l L G -> forallb not_cls L = true -> nth_error H acc = Some (NDict DkDict dacc) ->
     rdd H dacc A Fa -> NoDup (acc :: Fa ++ G) -> length G <= n ->
     go_post H acc l Fa G (hfill_go n prefix acc l H) (fill_go fill_value prefix L A)).
  { clear - IHn. intros l L G H A Fa dacc Hl. revert A Fa dacc.
    induction l as [|[key x] l IH] in H, L, G, Hl |- *; intros A Fa dacc HL Hacc HA Hn Hlen.
    - inversion Hl; subst. cbn [hfill_go fill_go]. split; [reflexivity|]. split; [reflexivity|].
      exists dacc, [], Fa. cbn [hret fst snd]. split; [reflexivity|]. split; [constructor|]. split; [assumption|].
      split; [assumption|]. intros z. cnts.
    - inversion Hl as [|? kv F1 ? v F2 ? L' G' Hk Hx Hr]; subst. cbn [forallb] in HL. apply andb_prop in HL as [HL1 HL2].
      unfold not_cls in HL1. cbn [fst] in HL1. apply negb_true_iff in HL1.
      assert (Hsk : NoDup (acc :: Fa ++ G') /\ length G' <= n).
      { split; [eapply within_nodup; [|exact Hn]; intros z; cnts|]. rewrite !app_length in Hlen. lia. }
      (* the entry stays *)
      assert (Hplain : go_post H acc ((key, x) :: l) Fa (F1 ++ F2 ++ G') (hfill_go n prefix acc l H)
                (dor ra <- fill_go fill_value prefix L' A; Ok ((kv, v) :: fst ra, snd ra))).
      { destruct (IH _ _ H Hr A Fa dacc HL2 Hacc HA (proj1 Hsk) (proj2 Hsk)) as (P1 & P2 & P3). split; [assumption|]. split.
        - intros b Hb. apply P2. intros Hin. apply Hb. eapply within_in; [|exact Hin]. intros z. cnts.
        - destruct (fill_go fill_value prefix L' A) as [[L1 A1]|e]; cbn [rbind fst snd]; [|assumption].
          destruct P3 as (dacc' & G1 & Fa' & S1 & S2 & S3 & S4 & S5). exists dacc', (F1 ++ F2 ++ G1)%list, Fa'.
          assert (Hfr : forall b, In b (F1 ++ F2) -> nth_error (fst (hfill_go n prefix acc l H)) b = nth_error H b).
          { intros b Hb. apply P2. eapply apart; [exact Hn| |exact Hb]. intros z. cnts. }
          split; [assumption|]. split.
          + constructor; [| |assumption].
            * eapply rd_frame; [eassumption|]. intros b Hb. apply Hfr. apply in_or_app. now left.
            * eapply rd_frame; [eassumption|]. intros b Hb. apply Hfr. apply in_or_app. now right.
          + split; [assumption|]. split; [assumption|]. intros z. specialize (S5 z). cnts. }
      cbn [hfill_go fill_go]. rewrite HL1. pose proof (dict_at_rd _ _ _ _ Hx) as Hat.
      destruct (dict_at H x) as [b|] eqn:Eb.
      2: { unfold hbind at 1. rewrite Eb. cbn [hret].
           destruct v; try contradiction; destruct kv; exact Hplain. }
      destruct Hat as (k2 & d2 & D2 & Fb & -> & -> & -> & Hb & Hd2).
      assert (Hkey : match key with OAtom (VStr s) => kv = VStr s | _ => match kv with VStr _ => False | _ => True end end).
      { destruct Hk as [w Hw| | | | | |]; try exact I. destruct w; try discriminate; auto. }
      assert (Hbad : match kv with VStr _ => False | _ => True end -> hfill_go n prefix acc ((key, ORef b) :: l) H = (H, Fail (exn_of KType)) ->
        go_post H acc ((key, ORef b) :: l) Fa (F1 ++ (b :: Fb) ++ G') (hfill_go n prefix acc ((key, ORef b) :: l) H)
          (fill_go fill_value prefix ((kv, VDict k2 D2) :: L') A)).
      { intros Hkv ->. split; [reflexivity|]. split; [reflexivity|]. cbn [fill_go]. rewrite HL1. destruct kv; try contradiction; reflexivity. }
      assert (Hbad' : match kv with VStr _ => False | _ => True end -> match key with OAtom (VStr _) => False | _ => True end ->
        go_post H acc ((key, ORef b) :: l) Fa (F1 ++ (b :: Fb) ++ G') (hfill_go n prefix acc ((key, ORef b) :: l) H)
          (fill_go fill_value prefix ((kv, VDict k2 D2) :: L') A)).
      { intros Hkv Hkey'. apply Hbad; [assumption|]. cbn [hfill_go]. unfold hbind at 1. rewrite Eb.
        destruct key as [w| | |]; try reflexivity. destruct w; try reflexivity. contradiction. }
      assert (Hcase : (exists s, key = OAtom (VStr s) /\ kv = VStr s) \/
         (match kv with VStr _ => False | _ => True end /\ match key with OAtom (VStr _) => False | _ => True end)).
      { destruct key as [w| | |]; auto. destruct w; auto. left. eauto. }
      destruct Hcase as [(s & -> & ->)|[Hc1 Hc2]].
      2: { specialize (Hbad' Hc1 Hc2). cbn [hfill_go fill_go] in Hbad'. rewrite HL1 in Hbad'. exact Hbad'. }
      clear Hbad Hbad' Hkey.
      destruct (String.eqb s "-meta") eqn:Es.
      { unfold hbind at 1. rewrite Eb. cbn [hret]. exact Hplain. }
      clear Hplain.
      assert (Hsub : fill_post H acc b k2 d2 Fa Fb (hfill n (prefix ++ s ++ "/") acc b H)
                       (fill_value (prefix ++ s ++ "/") A (VDict k2 D2))).
      { apply (IHn _ acc b H k2 d2 D2 Fb A Fa dacc); auto.
        - eapply within_nodup; [|exact Hn]. intros z. cnts.
        - rewrite !app_length in Hlen. cbn [length] in Hlen. lia. }
      destruct Hsub as (P1 & P2 & P3).
      destruct (fill_value (prefix ++ s ++ "/") A (VDict k2 D2)) as [[[v' nm] A1]|e] eqn:Efv; cbn [rbind].
      2: { assert (Er : hbind (hfill n (prefix ++ s ++ "/") acc b) (fun y => set_item acc (atom (prefix ++ s)) y) H
                 = (fst (hfill n (prefix ++ s ++ "/") acc b H), Fail e)) by now apply hbind_stop.
           unfold hbind at 1. rewrite Eb, Er. split; [assumption|]. split; [|reflexivity]. cbn [fst].
           intros c Hc. apply P2. intros Hin. apply Hc. eapply within_in; [|exact Hin]. intros z. cnts. }
      destruct P3 as (y & D2' & dacc1 & F' & Fa1 & Fy & S1 & -> & S2 & S3 & S4 & S5 & S6 & S7).
      destruct (hfill n (prefix ++ s ++ "/") acc b H) as [H1 o1] eqn:Ef. cbn [fst snd] in *. subst o1.
      assert (Hnacc : ~ In acc (Fa1 ++ [] ++ Fy)).
      { apply (apart (acc :: Fa ++ F1 ++ (b :: Fb) ++ G') [acc]); [assumption| |now left]. intros z. specialize (S7 z). cnts. }
      destruct (set_item_run H1 acc DkDict dacc1 A1 Fa1 (atom (prefix ++ s)) (VStr (prefix ++ s)) [] y nm Fy S4 S5
                  (rd_atom _ (VStr (prefix ++ s)) eq_refl) S6 Hnacc) as (dacc2 & Fa2 & Es2 & S8 & S9).
      set (H2 := put acc (NDict DkDict dacc2) H1) in *.
      assert (Hfr2 : forall c, c <> acc -> nth_error H2 c = nth_error H1 c).
      { intros c Hc. apply put_other. congruence. }
      assert (HlA : acc < length H1) by (eapply hit; eassumption).
      assert (Hbacc : b <> acc).
      { intros ->. apply (apart (acc :: Fa ++ F1 ++ (acc :: Fb) ++ G') [acc] [acc] acc Hn); [|now left|now left]. intros z. cnts. }
      assert (Hn2 : NoDup (acc :: Fa2 ++ G')).
      { eapply within_nodup; [|exact Hn]. intros z. specialize (S7 z). specialize (S9 z). cnts. }
      assert (Hr2 : rdd H2 l L' G').
      { eapply rdd_frame; [eassumption|]. intros c Hc. rewrite Hfr2.
        - apply P2. eapply apart; [exact Hn| |exact Hc]. intros z. cnts.
        - intros ->. apply (apart (acc :: Fa ++ F1 ++ (b :: Fb) ++ G') [acc] G' acc Hn); [|now left|assumption]. intros z. cnts. }
      assert (Hacc2 : nth_error H2 acc = Some (NDict DkDict dacc2)) by (now apply put_same).
      destruct (IH _ _ H2 Hr2 (dset (VStr (prefix ++ s)) nm A1) Fa2 dacc2 HL2 Hacc2 S8 Hn2 (proj2 Hsk)) as (Q1 & Q2 & Q3).
      assert (Erun : hbind (fun H1 =>
          match dict_at H1 (ORef b) with
          | None => hret tt H1
          | Some b => if String.eqb s "-meta" then hret tt H1
                  else hbind (hfill n (prefix ++ s ++ "/") acc b)
                             (fun y => set_item acc (atom (prefix ++ s)) y) H1
          end) (fun _ => hfill_go n prefix acc l) H = hfill_go n prefix acc l H2).
      { rewrite (hbind_run _ (fun _ => hfill_go n prefix acc l) H H2 tt); [reflexivity|].
        rewrite Eb, Es. rewrite (hbind_run _ _ _ _ _ Ef). exact Es2. }
      rewrite Es in Erun. unfold go_post. rewrite Erun. clear Erun.
      assert (Hlen2 : length H2 = length H) by (unfold H2; rewrite put_length; exact P1).
      split; [congruence|]. split.
      + intros c Hc. rewrite Q2.
        * rewrite Hfr2; [|intros ->; apply Hc; now left]. apply P2. intros Hin. apply Hc. eapply within_in; [|exact Hin]. intros z. cnts.
        * intros Hin. apply Hc. eapply within_in; [|exact Hin]. intros z. specialize (S7 z). specialize (S9 z). cnts.
      + destruct (fill_go fill_value prefix L' (dset (VStr (prefix ++ s)) nm A1)) as [[L1 A2]|e]; cbn [rbind fst snd]; [|assumption].
        destruct Q3 as (dacc' & G1 & Fa' & T1 & T2 & T3 & T4 & T5).
        exists dacc', (F1 ++ (b :: F') ++ G1)%list, Fa'. split; [assumption|].
        assert (Hfr3 : forall c, In c (F1 ++ b :: F') -> nth_error (fst (hfill_go n prefix acc l H2)) c = nth_error H1 c).
        { intros c Hc. rewrite Q2.
          - apply Hfr2. intros ->. revert Hc. apply (apart (acc :: Fa ++ F1 ++ (b :: Fb) ++ G') [acc]); [assumption| |now left].
            intros z. specialize (S7 z). cnts.
          - revert Hc. apply (apart (acc :: Fa ++ F1 ++ (b :: Fb) ++ G') (F1 ++ b :: F')); [assumption|].
            intros z. specialize (S7 z). specialize (S9 z). cnts. }
        split; [constructor; [| |assumption]|].
        * eapply rd_frame; [eapply rd_frame; [exact Hk|]|]; intros c Hc.
          -- apply P2. revert Hc. apply (apart (acc :: Fa ++ F1 ++ (b :: Fb) ++ G') F1); [assumption|]. intros z. cnts.
          -- apply Hfr3. apply in_or_app. now left.
        * econstructor.
          -- rewrite Hfr3; [exact S2|]. rewrite in_app_iff. right. now left.
          -- eapply rdd_frame; [exact S3|]. intros c Hc. apply Hfr3. rewrite in_app_iff. right. now right.
        * split; [assumption|]. split; [assumption|]. intros z. specialize (S7 z). specialize (S9 z). specialize (T5 z). cnts. }
  destruct (rdd_del _ _ _ _ Hd) as (G & Fy & R1 & R2 & R3).
  unfold fill_post. rewrite (hfill_S _ _ _ _ _ _ _ Ha).
  set (d' := hddel H (atom "-cls") d) in *. set (H1 := put a (NDict k d') H).
  set (y := match hdget H (atom "-cls") d with Some y => y | None => OAtom VNone end) in *.
  assert (Haacc : a <> acc).
  { intros ->. apply (apart (acc :: Fa ++ acc :: F) [acc] [acc] acc Hn); [|now left|now left]. intros z. cnts. }
  assert (Hfr1 : forall c, c <> a -> nth_error H1 c = nth_error H c) by (intros c Hc; apply put_other; congruence).
  assert (HnaG : forall c, In c (Fa ++ Fy ++ G) -> c <> a).
  { intros c Hc ->. revert Hc. apply (apart (acc :: Fa ++ a :: F) [a]); [assumption| |now left]. intros z. specialize (R3 z). cnts. }
  assert (Hl1 : length H1 = length H) by apply put_length.
  assert (HG1 : rdd H1 d' (filter not_cls D) G).
  { eapply rdd_frame; [eassumption|]. intros c Hc. apply Hfr1, HnaG. rewrite !in_app_iff. tauto. }
  destruct (Hgo d' (filter not_cls D) G H1 A Fa dacc HG1) as (Q1 & Q2 & Q3).
  { apply forallb_forall. intros kx Hkx. apply filter_In in Hkx. tauto. }
  { rewrite Hfr1 by congruence. assumption. }
  { eapply rdd_frame; [eassumption|]. intros c Hc. apply Hfr1, HnaG. rewrite !in_app_iff. tauto. }
  { eapply within_nodup; [|exact Hn]. intros z. specialize (R3 z). cnts. }
  { assert (Hle : length G <= length F); [|lia]. apply NoDup_incl_length.
    - eapply within_nodup; [|exact Hn]. intros z. specialize (R3 z). cnts.
    - intros c Hc. eapply within_in; [|exact Hc]. intros z. specialize (R3 z). cnts. }
  clear Hgo. rewrite fill_value_dict, fill_go_filter.
  replace (fst (strip_cls None D)) with (match dget (VStr "-cls") D with Some y => y | None => VNone end) by reflexivity.
  assert (Erun : hbind (write a (NDict k d')) (fun _ => hbind (hfill_go n prefix acc d') (fun _ => hret y)) H
      = hbind (hfill_go n prefix acc d') (fun _ => hret y) H1) by reflexivity.
  rewrite Erun. clear Erun.
  assert (Hframe : forall c, ~ In c (acc :: Fa ++ a :: F) -> nth_error (fst (hfill_go n prefix acc d' H1)) c = nth_error H c).
  { intros c Hc. rewrite Q2; [apply Hfr1|].
    - intros ->. apply Hc. right. rewrite in_app_iff. right. now left.
    - intros Hin. apply Hc. eapply within_in; [|exact Hin]. intros z. specialize (R3 z). cnts. }
  destruct (fill_go fill_value prefix (filter not_cls D) A) as [[D' A']|e]; cbn [rbind fst snd].
  2: { rewrite (hbind_stop _ _ _ _ Q3). cbn [fst snd]. split; [congruence|]. split; [assumption|reflexivity]. }
  destruct Q3 as (dacc' & G' & Fa' & T1 & T2 & T3 & T4 & T5).
  destruct (hfill_go n prefix acc d' H1) as [H2 o2] eqn:Eg. cbn [fst snd] in *. subst o2.
  rewrite (hbind_run _ _ _ _ _ Eg). cbn [hret fst snd]. split; [congruence|]. split; [assumption|].
  exists y, D', dacc', G', Fa', Fy. split; [reflexivity|]. split; [reflexivity|]. split.
  - rewrite Q2; [apply put_same; eapply hit; eassumption|].
    apply (apart (acc :: Fa ++ a :: F) [a]); [assumption| |now left]. intros z. specialize (R3 z). cnts.
  - split; [assumption|]. split; [assumption|]. split; [assumption|]. split.
    + eapply rd_frame; [eassumption|]. intros c Hc. rewrite Q2; [apply Hfr1, HnaG; rewrite !in_app_iff; tauto|].
      revert Hc. apply (apart (acc :: Fa ++ a :: F) Fy); [assumption|]. intros z. specialize (R3 z). cnts.
    + intros z. specialize (R3 z). specialize (T5 z). cnts.
Qed.

Lemma keys_same H H' s : forall d D F D' F', rdd H d D F -> rdd H' d D' F' -> map fst D = map fst D' ->
  hdget H' (atom s) d = hdget H (atom s) d.
Proof.
  intros d D F D' F' Hd. revert D' F'. induction Hd as [|k kv F1 x v F2 d D F H1 H2 H3 IH]; intros D' F' Hd' Em; [reflexivity|].
  inversion Hd' as [|? kv' G1 ? v' G2 ? D1 G H1' H2' H3']; subst. cbn [map fst] in Em. injection Em as <- Em.
  unfold hdget in *. cbn [aget]. rewrite <- (str_key_not _ _ _ _ s H1), <- (str_key_not _ _ _ _ s H1').
  destruct (py_eqb (VStr s) kv); [reflexivity|]. eapply IH; eassumption.
Qed.
Lemma dset_keys s x D y : dget (VStr s) D = Some y -> map fst (dset (VStr s) x D) = map fst D.
Proof.
  unfold dget, dset. induction D as [|[k v] D IH]; cbn [aget aset]; [discriminate|].
  destruct (py_eqb (VStr s) k); cbn [map fst]; [reflexivity|]. intros Hy. now rewrite IH.
Qed.
Lemma dget_dset s x D : dget (VStr s) (dset (VStr s) x D) = Some x.
Proof.
  unfold dget, dset. induction D as [|[k v] D IH]; cbn [aset aget].
  - now rewrite (proj2 (py_eqb_str s _) eq_refl).
  - destruct (py_eqb (VStr s) k) eqn:Ek; cbn [aget]; rewrite Ek; [reflexivity|assumption].
Qed.
Lemma dset_dset s x y D : dset (VStr s) x (dset (VStr s) y D) = dset (VStr s) x D.
Proof.
  unfold dset. induction D as [|[k v] D IH]; cbn [aset].
  - now rewrite (proj2 (py_eqb_str s _) eq_refl).
  - destruct (py_eqb (VStr s) k) eqn:Ek; cbn [aset]; rewrite Ek; [reflexivity|now rewrite IH].
Qed.
(** The entry of a string in a dict is the object [y]. *)
Definition slot (H : heap) (r : nat) (s : string) (y : obj) : Prop :=
  exists kd d, nth_error H r = Some (NDict kd d) /\ hdget H (atom s) d = Some y.
Lemma sim_set_slot P H r s x xv kd D l vs :
  outs P H (x :: ORef r :: l) (xv :: VDict kd D :: vs) ->
  sim P (fun H' _ _ => outs P H' (ORef r :: l) (VDict kd (dset (VStr s) xv D) :: vs) /\ slot H' r s x)
      H (set_item r (atom s) x) (Done tt).
Proof.
  intros Ho. pose proof (sim_set_item P H r (atom s) (VStr s) x xv kd D l vs (outs_atom P H (VStr s) _ _ eq_refl Ho)) as Hs.
  destruct Ho as (F & HF & Hn & HP). inversion HF as [|? ? Fx ? ? G1 Hx HF1]; subst.
  inversion HF1 as [|? ? Fr ? ? G Hr HF2]; subst. inversion Hr as [| | | | |? ? d ? Fd Hc Hd|]; subst.
  unfold sim in *. replace (set_item r (atom s) x H) with (put r (NDict kd (hdset H (atom s) x d)) H, Done tt) in *
    by (unfold set_item; now rewrite Hc). cbn [fst snd] in *. destruct Hs as [Hk Hs]. split; [assumption|]. split; [assumption|].
  exists kd, (hdset H (atom s) x d). split; [apply put_same; eapply hit; eassumption|].
  set (H' := put r _ H). assert (Hd' : exists G, rdd H' d D G).
  { exists Fd. eapply rdd_frame; [eassumption|]. intros a Ha. apply put_other. intros <-. revert Ha.
    apply (apart (Fx ++ (r :: Fd) ++ G) [r]); [assumption| |now left]. intros z. cnts. }
  clearbody H'. clear - Hd Hd'. revert Hd'.
  induction Hd as [|k kv F1 y v F2 d D F H1 H2 H3 IH]; intros (G & Hd'); unfold hdset, hdget in *; cbn [aset aget].
  - rewrite <- (str_key_not H' (atom s) (VStr s) [] s) by (now constructor). now rewrite (proj2 (py_eqb_str s _) eq_refl).
  - inversion Hd' as [|? kv' G1 ? v' G2 ? D1 G3 H1' H2' H3']; subst. rewrite <- (str_key_not _ _ _ _ s H1).
    destruct (py_eqb (VStr s) kv) eqn:Ek; cbn [aget]; rewrite <- (str_key_not _ _ _ _ s H1'), Ek; [reflexivity|].
    apply IH. eauto.
Qed.
Lemma sim_inner P H r i k kv x xv kd kd' D D' s l vs :
  outs P H (k :: x :: ORef r :: l) (kv :: xv :: VDict kd D :: vs) -> slot H r s (ORef i) ->
  dget (VStr s) D = Some (VDict kd' D') ->
  sim P (fun H' _ _ => outs P H' (ORef r :: l) (VDict kd (dset (VStr s) (VDict kd' (dset kv xv D')) D) :: vs) /\ slot H' r s (ORef i)) H (set_item i k x) (Done tt).
Proof.
  intros Ho (kd0 & d & Hc & Hg) Ht.
  assert (kd0 = kd).
  { destruct Ho as (F & HF & _ & _). inversion HF as [|? ? ? ? ? ? _ HF1]; subst. inversion HF1 as [|? ? ? ? ? ? _ HF2]; subst.
    inversion HF2 as [|? ? ? ? ? ? Hr _]; subst. inversion Hr; subst. congruence. }
  subst kd0. eapply sim_weak; [| |eapply sim_set_inner; eassumption]; [auto|]. intros H' _ _ _ [Hc' Ho']. split; [assumption|].
  exists kd, d. split; [assumption|]. rewrite <- Hg.
  destruct Ho as (F & HF & _ & _). inversion HF as [|? ? ? ? ? ? _ HF1]; subst. inversion HF1 as [|? ? ? ? ? ? _ HF2]; subst.
  inversion HF2 as [|? ? ? ? ? ? Hr _]; subst. inversion Hr as [| | | | |? ? d1 ? Fd Hc1 Hd|]; subst.
  rewrite Hc in Hc1. injection Hc1 as <-.
  destruct Ho' as (F' & HF' & _ & _). inversion HF' as [|? ? ? ? ? ? Hr' _]; subst. inversion Hr' as [| | | | |? ? d2 ? Fd' Hc2 Hd'|]; subst.
  rewrite Hc' in Hc2. injection Hc2 as <-. eapply keys_same; [exact Hd|exact Hd'|]. symmetry. eapply dset_keys. eassumption.
Qed.
Lemma fill_go_keys p : forall D A D' A', fill_go fill_value p D A = Ok (D', A') -> map fst D' = map fst (filter not_cls D).
Proof.
  induction D as [|[key x] D IH]; intros A D' A'.
  - cbn. intros Eq. injection Eq as <- <-. reflexivity.
  - unfold not_cls in *. cbn [filter fst fill_go]. destruct (py_eqb (VStr "-cls") key); cbn [negb]; [apply IH|].
    assert (Hplain : forall x' A1, (dor ra <- fill_go fill_value p D A1; Ok ((key, x') :: fst ra, snd ra)) = Ok (D', A') ->
       map fst D' = key :: map fst (filter not_cls D)).
    { intros x' A1 Hr. apply rbind_ok in Hr as ([D1 A2] & Hr & Eq). injection Eq as <- <-. cbn [map fst]. f_equal. eapply IH; eauto. }
    destruct x as [| | | | | | | |kd dd| | | |]; try (destruct key; apply Hplain).
    destruct key; try discriminate. destruct (String.eqb s "-meta"); [apply Hplain|].
    intros Hr. apply rbind_ok in Hr as ([[x' n] A1] & _ & Hr). eapply Hplain. exact Hr.
Qed.
Lemma fill_go_meta p y : forall D A D' A', fill_go fill_value p D A = Ok (D', A') ->
  dget (VStr "-meta") D = Some y -> dget (VStr "-meta") D' = Some y.
Proof.
  induction D as [|[key x] D IH]; intros A D' A'; [discriminate|]. unfold dget in *. cbn [aget fill_go].
  destruct (py_eqb (VStr "-cls") key) eqn:Ec.
  - apply py_eqb_str in Ec. subst key. cbn. apply IH.
  - assert (Hplain : forall A1, (dor ra <- fill_go fill_value p D A1; Ok ((key, x) :: fst ra, snd ra)) = Ok (D', A') ->
       (if py_eqb (VStr "-meta") key then Some x else aget py_eqb (VStr "-meta") D) = Some y ->
       aget py_eqb (VStr "-meta") D' = Some y).
    { intros A1 Hr. apply rbind_ok in Hr as ([D1 A2] & Hr & Eq). injection Eq as <- <-. cbn [aget fst].
      destruct (py_eqb (VStr "-meta") key); [auto|]. eapply IH; eauto. }
    destruct x as [| | | | | | | |kd dd| | | |]; try (destruct key; apply Hplain).
    destruct key; try discriminate. destruct (String.eqb s "-meta") eqn:Es; [apply Hplain|].
    intros Hr. apply rbind_ok in Hr as ([[x' n] A1] & _ & Hr). apply rbind_ok in Hr as ([D1 A2] & Hr & Eq).
    injection Eq as <- <-. cbn [aget fst py_eqb]. rewrite String.eqb_sym, Es. eapply IH; eauto.
Qed.
Lemma get_del H s d : s <> "-cls" -> hdget H (atom s) (hddel H (atom "-cls") d) = hdget H (atom s) d.
Proof.
  intros Hs. unfold hdget, hddel. induction d as [|[k x] d IH]; [reflexivity|]. cbn [filter aget fst].
  destruct (key_eqb H (atom "-cls") k) eqn:Ek; cbn [negb aget]; [|now rewrite IH].
  assert (Hk : key_eqb H (atom s) k = false).
  { unfold key_eqb, atom in *. change (view H (OAtom (VStr "-cls"))) with (VStr "-cls") in Ek.
    change (view H (OAtom (VStr s))) with (VStr s). apply py_eqb_str in Ek. rewrite Ek. apply not_true_iff_false.
    rewrite py_eqb_str. congruence. }
  now rewrite Hk.
Qed.
Lemma sim_to {A B B'} P (Q1 : heap -> A -> B -> Prop) (Q : heap -> A -> B' -> Prop) H m b b' :
  sim P Q1 H m (Done b) -> (forall H' a, keeps P H H' -> Q1 H' a b -> Q H' a b') -> sim P Q H m (Done b').
Proof. intros [Hk Hm] HQ. split; [assumption|]. destruct (snd (m H)); try contradiction. auto. Qed.
Lemma outd_nil P H : outd P H [] [].
Proof. exists []. split; [apply rdd_nil|]. split; [apply NoDup_nil|]. intros a []. Qed.
Lemma ores_bind {A B} (r : res A) (g : A -> res B) : ores (rbind r g) = obind (ores r) (fun a => ores (g a)).
Proof. now destruct r. Qed.
Lemma outs_new (P : nat -> Prop) H k : (forall a, P a -> a < length H) -> forall l vs, outs P H l vs ->
  sim P (fun H' x v => v = VDict k [] /\ x = ORef (length H) /\ keeps (below H) H H' /\ outs P H' (x :: l) (v :: vs))
      H (alloc (NDict k [])) (Done (VDict k [])).
Proof.
  intros HP l vs Ho.
  assert (Hnew : sim (below H) (out (below H)) H (alloc (NDict k [])) (Done (VDict k []))).
  { apply sim_alloc_dict; [unfold below; auto|]. apply outd_nil. }
  destruct Hnew as [Hk Hn]. split; [eapply keeps_weak; [exact HP|eassumption]|]. cbn [alloc fst snd] in *.
  split; [reflexivity|]. split; [reflexivity|]. split; [assumption|]. eapply outs_add; eauto.
Qed.
Lemma slot_same H H' r s y k D F F' : nth_error H' r = nth_error H r -> rd H (ORef r) (VDict k D) F -> rd H' (ORef r) (VDict k D) F' ->
  slot H r s y -> slot H' r s y.
Proof.
  intros He Hr Hr' (kd & d & Hc & Hg). exists kd, d. split; [congruence|]. rewrite <- Hg.
  inversion Hr as [| | | | |? ? d1 ? Fd Hc1 Hd|]; subst. inversion Hr' as [| | | | |? ? d2 ? Fd' Hc2 Hd'|]; subst.
  assert (d1 = d) by congruence. assert (d2 = d) by congruence. subst. eapply keys_same; eauto.
Qed.
Lemma sim_set_other P H t r k kv x xv kd D kr Dr l vs s y :
  outs P H (k :: x :: ORef t :: ORef r :: l) (kv :: xv :: VDict kd D :: VDict kr Dr :: vs) -> slot H r s y ->
  sim P (fun H' _ _ => outs P H' (ORef t :: ORef r :: l) (VDict kd (dset kv xv D) :: VDict kr Dr :: vs) /\ slot H' r s y)
      H (set_item t k x) (Done tt).
Proof.
  intros Ho Hs. pose proof (sim_set_item _ _ _ _ _ _ _ _ _ _ _ Ho) as Hi.
  destruct Ho as (F & HF & Hn & HP). inversion HF as [|? ? Fk ? ? G1 Hk HF1]; subst.
  inversion HF1 as [|? ? Fx ? ? G2 Hx HF2]; subst. inversion HF2 as [|? ? Ft ? ? G3 Ht HF3]; subst.
  inversion HF3 as [|? ? Fr ? ? G4 Hr HF4]; subst. inversion Ht as [| | | | |? ? d ? Fd Hc Hd|]; subst.
  assert (Htr : t <> r).
  { intros <-. inversion Hr; subst. revert Hn. rewrite nodup_cnt. intros Hn. specialize (Hn t). revert Hn. cnts.
    destruct (Nat.eq_dec t t); [|congruence]. lia. }
  unfold sim in *. replace (set_item t k x H) with (put t (NDict kd (hdset H k x d)) H, Done tt) in *
    by (unfold set_item; now rewrite Hc). cbn [fst snd] in *. destruct Hi as [Hkp Hi]. split; [assumption|]. split; [assumption|].
  destruct Hi as (G & HG & _ & _). inversion HG as [|? ? ? ? ? ? _ HG1]; subst. inversion HG1 as [|? ? ? ? ? ? Hr' _]; subst.
  eapply slot_same; [apply put_other; congruence|eassumption|eassumption|assumption].
Qed.
Lemma sim_fill P H p t a k A D s y m : s <> "-cls" ->
  outs P H [ORef t; ORef a] [VDict DkDict A; VDict k D] -> slot H a s (ORef m) ->
  (forall D' A', fill_go fill_value p D A = Ok (D', A') -> dget (VStr s) D' = Some y) ->
  sim P (fun H' _ r => exists D' nm A', r = (VDict k D', nm, A') /\ outs P H' [ORef t; ORef a] [VDict DkDict A'; VDict k D'] /\
           slot H' a s (ORef m) /\ dget (VStr s) D' = Some y)
      H (fun H => hfill (length H) p t a H) (ores (fill_value p A (VDict k D))).
Proof.
  intros Hsc (F & HF & Hn & HP) Hs Hgo. inversion HF as [|? ? Ft ? ? G1 Ht HF1]; subst. inversion HF1 as [|? ? Fr ? ? G2 Ha HF2]; subst.
  inversion HF2; subst. inversion Ht as [| | | | |? ? dacc ? Fa Hacc HA|]; subst. inversion Ha as [| | | | |? ? d ? Fd Hc Hd|]; subst.
  assert (Hn' : NoDup (t :: Fa ++ a :: Fd)%list) by (rewrite app_nil_r in Hn; exact Hn).
  assert (Hlen : length Fd < length H).
  { assert (Hl : length (a :: Fd) <= length (seq 0 (length H))).
    { apply NoDup_incl_length; [apply NoDup_app_r with (l := t :: Fa); exact Hn'|]. intros b Hb. apply in_seq.
      pose proof (rd_bound _ _ _ _ _ Ha Hb). lia. }
    rewrite seq_length in Hl. cbn [length] in Hl. lia. }
  pose proof (fill_run (length H) p t a H k d D Fd A Fa dacc Hc Hd Hacc HA Hn' Hlen) as (L1 & L2 & L3).
  unfold sim. destruct (hfill (length H) p t a H) as [H' r] eqn:Er. cbn [fst snd] in *.
  split. { split; [lia|]. intros b Hb. apply L2. intros Hin. apply (HP b); [|assumption]. rewrite app_nil_r. exact Hin. }
  rewrite fill_value_dict in *. destruct (fill_go fill_value p D A) as [[D1 A1]|e] eqn:Eg; cbn [rbind fst snd] in *; cbn [ores] in *.
  2: { now rewrite L3. }
  destruct L3 as (y0 & D' & dacc' & F' & Fa' & Fy & -> & Eq & C1 & C2 & C3 & C4 & C5 & Hw). injection Eq as <-.
  exists D1, (fst (strip_cls None D)), A1. split; [reflexivity|]. split.
  - exists ((t :: Fa') ++ (a :: F') ++ [])%list. split.
    { apply rds_cons; [eapply rd_dict; eassumption|]. apply rds_cons; [eapply rd_dict; eassumption|]. apply rds_nil. }
    assert (Hw' : within ((t :: Fa') ++ (a :: F') ++ [])%list (t :: Fa ++ a :: Fd)%list).
    { intros z. specialize (Hw z). revert Hw. cnts. }
    split; [eapply within_nodup; eassumption|]. intros b Hb. apply HP. rewrite app_nil_r. eapply within_in; [exact Hw'|exact Hb].
  - split; [|eapply Hgo; reflexivity]. destruct Hs as (kd0 & d0 & Cs1 & Cs2). rewrite Hc in Cs1. injection Cs1 as <- <-.
    exists k, (hddel H (atom "-cls") d). split; [assumption|]. rewrite <- Cs2, <- (get_del H s d Hsc).
    destruct (rdd_del _ _ _ _ Hd) as (G & Fy0 & I1 & _). eapply keys_same; [exact I1|exact C2|]. symmetry. eapply fill_go_keys. eassumption.
Qed.
Lemma sim_meta E (P : nat -> Prop) H o name a D : (forall b, P b -> b < length H) -> out P H (ORef a) (VDict DkDict D) ->
  sim P (out P) H (hdict_with_meta E o name a) (ores (dict_with_meta E o name D)).
Proof.
  intros HP Ho. unfold hdict_with_meta, dict_with_meta.
  destruct (negb (so_class_info o) && negb (so_dump_time o)); [now apply sim_ret|].
  set (D1 := dset (VStr "-meta") (VDict DkDict []) D).
  match goal with |- sim _ _ _ _ (ores ?t) => change (ores t) with (obind (Done (VDict DkDict [])) (fun _ => ores t)) end.
  eapply sim_bind with (P1 := P); [auto|exact (outs_new P H DkDict HP _ _ (out_outs _ _ _ _ Ho))|].
  intros H1 x xv K1 (-> & -> & K1' & O1). set (m := length H) in *.
  match goal with |- sim _ _ _ _ (ores ?t) => change (ores t) with (obind (Done tt) (fun _ => ores t)) end.
  eapply sim_bind with (P1 := P); [auto|apply sim_set_slot; exact O1|]. intros H2 _ _ K2 [O2 S2]. fold D1 in O2.
  assert (HP2 : forall b, P b -> b < length H2) by (intros b Hb; destruct K1, K2; apply HP in Hb; lia).
  match goal with |- sim _ _ _ (hbind ?u _) (ores (rbind ?t _)) =>
    assert (Hcls : sim P (fun H' _ da => exists M, outs P H' [ORef a] [VDict DkDict (dset (VStr "-meta") (VDict DkDict (snd da)) (fst da))] /\
       slot H' a "-meta" (ORef m) /\ dget (VStr "dump_time") (snd da) = None /\ dget (VStr "-meta") (fst da) = Some M) H2 u (ores t))
  end.
  { assert (Hm1 : dget (VStr "-meta") D1 = Some (VDict DkDict [])) by (apply dget_dset).
    destruct (so_class_info o).
    2: { apply sim_ret. exists (VDict DkDict []). cbn [fst snd]. unfold D1. rewrite dset_dset. fold D1. auto. }
    match goal with |- sim _ _ _ _ (ores ?t) => change (ores t) with (obind (Done (VDict DkDict [])) (fun _ => ores t)) end.
    eapply sim_bind with (P1 := P); [auto|exact (outs_new P H2 DkDict HP2 _ _ O2)|].
    intros H3 x xv K3 (-> & -> & K3' & O3). set (t := length H2) in *.
    assert (S3 : slot H3 a "-meta" (ORef m)).
    { destruct O2 as (F & HF & _). inversion HF as [|? ? ? ? ? ? Ha _]; subst. destruct O3 as (F' & HF' & _).
      inversion HF' as [|? ? ? ? ? ? _ HF1]; subst. inversion HF1 as [|? ? ? ? ? ? Ha' _]; subst.
      eapply slot_same; [|exact Ha|exact Ha'|exact S2]. apply K3'. destruct S2 as (? & ? & Hc & _). eapply hit; eassumption. }
    rewrite ores_bind. eapply sim_bind with (P1 := P); [auto|eapply sim_fill with (s := "-meta") (y := VDict DkDict []); [discriminate|exact O3|exact S3|]|].
    { intros D' A' Hg. eapply fill_go_meta; eassumption. }
    intros H4 z zv K4 (D' & nm & A' & -> & O4 & S4 & M4).
    match goal with |- sim _ _ _ _ (ores ?t) => change (ores t) with (obind (Done tt) (fun _ => ores t)) end.
    eapply sim_bind with (P1 := P); [auto|eapply sim_set_other; [apply (outs_atom P H4 (VStr "/")); [reflexivity|]; apply (outs_atom P H4 (VStr name)); [reflexivity|exact O4]|exact S4]|].
    intros H5 _ _ K5 [O5 S5].
    cbn [ores]. eapply sim_to; [eapply sim_inner; [|exact S5|exact M4]|].
    { apply (outs_atom P H5 (VStr "classes")); [reflexivity|exact O5]. }
    intros H6 [] K6 [O6 S6]. exists (VDict DkDict []). cbn [fst snd]. auto. }
  rewrite ores_bind. eapply sim_bind with (P1 := P); [auto|exact Hcls|]. clear Hcls.
  intros H3 [] [D2 M] K3 (M0 & O3 & S3 & T3 & M3). cbn [fst snd] in *.
  destruct (so_dump_time o).
  2: { match goal with |- sim _ _ _ _ (ores ?t) => change (ores t) with (obind (Done tt) (fun _ => ores t)) end.
       eapply sim_bind with (P1 := P) (Q1 := fun H' _ _ => H' = H3); [auto|now apply sim_ret|].
       intros H' _ _ _ ->. apply sim_ret. rewrite app_nil_r. exact (outs_head _ _ _ _ _ _ O3). }
  match goal with |- sim _ _ _ _ (ores ?t) => change (ores t) with (obind (Done tt) (fun _ => ores t)) end.
  eapply sim_bind with (P1 := P); [auto|eapply sim_inner; [|exact S3|apply dget_dset]|].
  { apply (outs_atom P H3 (VStr "dump_time")); [reflexivity|]. apply (outs_atom P H3 (VStr (rt_now (e_rt E)))); [reflexivity|exact O3]. }
  intros H4 _ _ K4 [O4 _]. apply sim_ret. rewrite dset_dset in O4.
  assert (Hap : dset (VStr "dump_time") (VStr (rt_now (e_rt E))) M = (M ++ [(VStr "dump_time", VStr (rt_now (e_rt E)))])%list).
  { clear - T3. unfold dset, dget in *. induction M as [|[k x] M IH]; [reflexivity|]. cbn [aget aset app] in *.
    destruct (py_eqb (VStr "dump_time") k); [discriminate|]. now rewrite IH. }
  rewrite Hap in O4. exact (outs_head _ _ _ _ _ _ O4).
Qed.
