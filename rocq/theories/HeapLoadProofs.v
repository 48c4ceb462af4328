(** * What load does to the heap *)
From Coq Require Import Lia.
From Verif Require Import PyBaseFacts EngineFacts LoadTypes EngineEnv.
From Verif Require Export HeapLoadSpec HeapProofs.
Local Open Scope string_scope.

Lemma view_text H k s : view H k = VStr s -> k = atom s.
Proof.
  unfold view, read, atom. destruct k as [v|l|c l|a]; cbn [read_with].
  - destruct (flatv v); [congruence|discriminate].
  - destruct (omap _ l); discriminate.
  - destruct (omap _ l); discriminate.
  - destruct (length H) as [|n]; cbn [read_ref]; [discriminate|].
    destruct (nth_error H a) as [[l|k l|k d|c l]|]; try discriminate;
      match goal with |- context [omap ?g ?l] => destruct (omap g l); discriminate end.
Qed.
Lemma hdget_text H s d y : hdget H (atom s) d = Some y -> In (atom s, y) d.
Proof.
  unfold hdget. induction d as [|[k x] d IH]; cbn [aget]; [discriminate|].
  destruct (key_eqb H (atom s) k) eqn:Ek; [|right; auto]. intros [= ->]. left. f_equal.
  unfold key_eqb in Ek. replace (view H (atom s)) with (VStr s) in Ek by reflexivity.
  apply py_eqb_str in Ek. now apply view_text in Ek.
Qed.
Lemma inside_ref a b : inside (ORef a) (ORef b) -> a = b.
Proof. inversion 1; reflexivity. Qed.
Lemma reaches_ref H a : reaches H (ORef a) a.
Proof. apply reach_here. constructor. Qed.
Lemma reaches_inside H x y a : inside x y -> reaches H y a -> reaches H x a.
Proof.
  intros Hi Hr. induction Hr as [a Ha|a b c z Hr IH Hn Hh Hb]; [apply reach_here; eapply inside_trans; eauto|].
  eapply reach_next; eauto.
Qed.
Lemma reaches_held H x a c y b : reaches H x a -> nth_error H a = Some c -> holds c y -> reaches H y b -> reaches H x b.
Proof.
  intros Hx Hn Hh Hr. induction Hr as [b Hb|b b' c' z Hr IH Hn' Hh' Hb']; [eapply reach_next; eauto|].
  eapply reach_next; eauto.
Qed.
Lemma reaches_atom H v a : ~ reaches H (OAtom v) a.
Proof. intros Hr. induction Hr as [a Ha|]; [inversion Ha|assumption]. Qed.
Lemma reaches_tuple H l a : reaches H (OTuple l) a -> exists x, In x l /\ reaches H x a.
Proof.
  intros Hr. induction Hr as [a Ha|a b c z Hr (x & Hi & Hx) Hn Hh Hb].
  - inversion Ha; subst. eauto using reach_here.
  - exists x. eauto using reach_next.
Qed.
Lemma reaches_nt H c0 l a : reaches H (ONT c0 l) a -> exists x, In x l /\ reaches H x a.
Proof.
  intros Hr. induction Hr as [a Ha|a b c z Hr (x & Hi & Hx) Hn Hh Hb].
  - inversion Ha; subst. eauto using reach_here.
  - exists x. eauto using reach_next.
Qed.
Lemma reaches_cell H a b : reaches H (ORef a) b -> b = a \/ exists c y, nth_error H a = Some c /\ holds c y /\ reaches H y b.
Proof.
  intros Hr. induction Hr as [b Hb|b b' c z Hr IH Hn Hh Hb].
  - left. symmetry. now apply inside_ref.
  - right. destruct IH as [-> |(c' & y & H1 & H2 & H3)]; [exists c, z; repeat split; try assumption; now apply reach_here|]. exists c', y. eauto using reach_next.
Qed.

Section Region.
Variables (E : env) (L : lenv) (f : nat) (H0 : heap).
(** [K]: the cells that may lose entries.  [G]: the cells of the program. *)
Variables (K G : nat -> Prop).
(** [J]: the results matter. *)
Variable J : Prop.
Let N := length H0.
Let CT := e_ct E.
Let R := e_rt E.
Hypothesis KN : forall a, N <= a -> K a.

(** ** Heaps grow, and some dicts lose entries *)
Definition ext (H H' : heap) : Prop :=
  forall a c, nth_error H a = Some c -> nth_error H' a = Some c \/ (K a /\ exists c', nth_error H' a = Some c' /\ lost_entries c c').
Lemma ext_refl H : ext H H.
Proof. intros a c Ha. auto. Qed.
Lemma ext_trans H H' H'' : ext H H' -> ext H' H'' -> ext H H''.
Proof.
  intros A B a c Ha. destruct (A _ _ Ha) as [Ha'|(Ka & c' & Ha' & k & d & d' & -> & -> & Hd)]; [auto|].
  right. split; [assumption|]. destruct (B _ _ Ha') as [Ha''|(_ & c' & Ha'' & k2 & d2 & d2' & Eq & -> & Hd2)].
  - eexists. split; [eassumption|]. exists k, d, d'. auto.
  - injection Eq as <- <-. eexists. split; [eassumption|]. exists k, d, d2'. split; [reflexivity|]. split; [reflexivity|]. eapply incl_tran; eauto.
Qed.
Lemma ext_app H new : ext H (H ++ new)%list.
Proof. intros a c Ha. left. rewrite nth_error_app1; [assumption|]. apply nth_error_Some. congruence. Qed.
Lemma ext_length H H' : ext H H' -> length H <= length H'.
Proof.
  intros A. destruct (le_lt_dec (length H) (length H')) as [?|Hlt]; [assumption|]. exfalso.
  destruct (nth_error H (length H')) as [c|] eqn:Ec; [|apply nth_error_None in Ec; lia].
  destruct (A _ _ Ec) as [Hc|(_ & c' & Hc & _)]; assert (Hs : nth_error H' (length H') <> None) by congruence; apply nth_error_Some in Hs; lia.
Qed.
Lemma lost_holds c c' y : lost_entries c c' -> holds c' y -> holds c y.
Proof. intros (k & d & d' & -> & -> & Hd) (k1 & x1 & Hin & Hy). cbn. exists k1, x1. auto. Qed.
Lemma ext_cell H H' a c' : ext H H' -> a < length H -> nth_error H' a = Some c' ->
  exists c, nth_error H a = Some c /\ (c' = c \/ lost_entries c c').
Proof.
  intros A Ha Hc. destruct (nth_error H a) as [c|] eqn:Ec; [|apply nth_error_None in Ec; lia].
  exists c. split; [reflexivity|]. destruct (A _ _ Ec) as [Hc'|(_ & c2 & Hc' & Hl)]; [left; congruence|right; congruence].
Qed.
(** What can be reached afterwards could be reached before. *)
Lemma reach_back H H' x a : ext H H' -> valid H x -> reaches H' x a -> reaches H x a.
Proof.
  intros A V Hr. induction Hr as [a Ha|a b c' y Hr IH Hn Hh Hb]; [now apply reach_here|].
  destruct (ext_cell _ _ _ _ A (V _ IH) Hn) as (c & Hc & [Eq|Hl]); [subst|]; eapply reach_next; eauto using lost_holds.
Qed.
Lemma valid_ext H H' x : ext H H' -> valid H x -> valid H' x.
Proof. intros A V a Ha. pose proof (ext_length _ _ A). specialize (V _ (reach_back _ _ _ _ A V Ha)). lia. Qed.

(** ** Objects of the program and objects that can be given to load *)
Definition owned (H : heap) (x : obj) : Prop := forall a, reaches H x a -> a < length H /\ (N <= a \/ G a).
Record loadable (H : heap) (x : obj) : Prop := {
  lb_valid : valid H x;
  lb_sect : forall b k d a, reaches H x b -> nth_error H b = Some (NDict k d) -> In (atom "-keys", ORef a) d -> K a;
  lb_keys : J -> forall b k d key y, reaches H x b -> nth_error H b = Some (NDict k d) -> In (key, y) d -> owned H key }.
(** Documents without meta data *)
Definition pure (H : heap) (x : obj) : Prop := without_meta H x /\ flat_atoms H x.
Lemma owned_valid H x : owned H x -> valid H x.
Proof. intros O a Ha. now apply O. Qed.
Lemma owned_ext H H' x : ext H H' -> owned H x -> owned H' x.
Proof.
  intros A O a Ha. apply (reach_back H) in Ha; [|assumption|now apply owned_valid]. destruct (O _ Ha) as [H1 H2].
  pose proof (ext_length _ _ A). split; [lia|assumption].
Qed.
Lemma loadable_ext H H' x : ext H H' -> loadable H x -> loadable H' x.
Proof.
  intros A [V S1 S2].
  assert (D : forall b k d key y, reaches H' x b -> nth_error H' b = Some (NDict k d) -> In (key, y) d ->
              exists d0, reaches H x b /\ nth_error H b = Some (NDict k d0) /\ In (key, y) d0).
  { intros b k d key y Hr Hn Hin. pose proof (reach_back _ _ _ _ A V Hr) as Hr'.
    destruct (ext_cell _ _ _ _ A (V _ Hr') Hn) as (c & Hc & [<- |(k1 & d1 & d2 & -> & Eq & Hd)]); [eauto|].
    injection Eq as -> ->. exists d1. auto. }
  constructor.
  - eapply valid_ext; eauto.
  - intros b k d a Hr Hn Hin. destruct (D _ _ _ _ _ Hr Hn Hin) as (d0 & H1 & H2 & H3). eauto.
  - intros HJ b k d key y Hr Hn Hin. destruct (D _ _ _ _ _ Hr Hn Hin) as (d0 & H1 & H2 & H3). eapply owned_ext; [eassumption|]. eauto.
Qed.
Lemma pure_ext H H' x : ext H H' -> valid H x -> pure H x -> pure H' x.
Proof.
  intros A V (P1 & P2 & P3). split; [|split; [assumption|]].
  - intros b k d y Hr Hn Hin. pose proof (reach_back _ _ _ _ A V Hr) as Hr'.
    destruct (ext_cell _ _ _ _ A (V _ Hr') Hn) as (c & Hc & [<- |(k1 & d1 & d2 & -> & Eq & Hd)]); [eapply P1; eauto|].
    injection Eq as -> ->. eapply P1; eauto.
  - intros b c y v Hr Hn Hh Hi. pose proof (reach_back _ _ _ _ A V Hr) as Hr'.
    destruct (ext_cell _ _ _ _ A (V _ Hr') Hn) as (c' & Hc & [<- |Hl]); eauto using lost_holds.
Qed.
Lemma pure_inside H x y : pure H x -> inside x y -> pure H y.
Proof.
  intros (P1 & P2 & P3) Hi. split; [|split].
  - intros b k d z Hr. apply P1. eauto using reaches_inside.
  - intros v Hv. apply P2. eapply inside_trans; eauto.
  - intros b c z v Hr. apply P3. eauto using reaches_inside.
Qed.
Lemma pure_held H a c y : pure H (ORef a) -> nth_error H a = Some c -> holds c y -> pure H y.
Proof.
  intros (P1 & P2 & P3) Hn Hh. split; [|split].
  - intros b k d z Hr. apply P1. eauto using reaches_held, reaches_ref.
  - intros v Hv. eauto using reaches_ref.
  - intros b c' z v Hr. apply P3. eauto using reaches_held, reaches_ref.
Qed.
Lemma pure_atom H v : flatv v = true -> pure H (OAtom v).
Proof.
  intros Hv. split; [|split].
  - intros b k d y Hr. destruct (reaches_atom _ _ _ Hr).
  - intros w Hw. inversion Hw; subst; assumption.
  - intros b c y w Hr. destruct (reaches_atom _ _ _ Hr).
Qed.
Lemma owned_atom H v : owned H (OAtom v).
Proof. intros a Ha. destruct (reaches_atom _ _ _ Ha). Qed.
Lemma loadable_atom H v : loadable H (OAtom v).
Proof.
  constructor.
  - intros a Ha. destruct (reaches_atom _ _ _ Ha).
  - intros b k d a Hb. destruct (reaches_atom _ _ _ Hb).
  - intros _ b k d key y Hb. destruct (reaches_atom _ _ _ Hb).
Qed.
Lemma loadable_sub H x y : loadable H x -> (forall a, reaches H y a -> reaches H x a) -> loadable H y.
Proof. intros [V S1 S2] A. constructor; eauto. intros a Ha. eauto. Qed.
Lemma loadable_inside H x y : loadable H x -> inside x y -> loadable H y.
Proof. intros Hx Hi. eapply loadable_sub; eauto using reaches_inside. Qed.
Lemma loadable_held H a c y : loadable H (ORef a) -> nth_error H a = Some c -> holds c y -> loadable H y.
Proof. intros Hx Hn Hh. eapply loadable_sub; eauto using reaches_held, reaches_ref. Qed.
Lemma owned_tuple H l : Forall (owned H) l -> owned H (OTuple l).
Proof. intros Hl a Ha. apply reaches_tuple in Ha as (x & Hx & Ha). exact (proj1 (Forall_forall _ _) Hl _ Hx _ Ha). Qed.
Lemma owned_nt H c l : Forall (owned H) l -> owned H (ONT c l).
Proof. intros Hl a Ha. apply reaches_nt in Ha as (x & Hx & Ha). exact (proj1 (Forall_forall _ _) Hl _ Hx _ Ha). Qed.
Lemma owned_held H a c y : owned H (ORef a) -> nth_error H a = Some c -> holds c y -> owned H y.
Proof. intros O Hn Hh b Hb. apply O. eauto using reaches_held, reaches_ref. Qed.
Lemma holds_list l y : holds (NList l) y -> In y l.
Proof. auto. Qed.
Lemma owned_new H c : N <= length H -> (forall y, holds c y -> owned H y) -> owned (H ++ [c])%list (ORef (length H)).
Proof.
  intros Hn Hc a Ha. rewrite app_length. cbn [length].
  apply reaches_cell in Ha as [-> |(c' & y & Hc' & Hh & Ha)]; [split; [lia|auto]|].
  rewrite nth_error_app2, Nat.sub_diag in Hc' by lia. injection Hc' as <-.
  destruct (owned_ext _ _ _ (ext_app H [c]) (Hc _ Hh) _ Ha) as [H1 H2]. rewrite app_length in H1. cbn in H1. auto.
Qed.

(** ** Computations *)
Definition inv (H : heap) : Prop := ext H0 H.
Definition okr {A} (P : heap -> A -> Prop) (H : heap) (r : heap * outcome A) : Prop :=
  ext H (fst r) /\ (forall a, snd r = Done a -> P (fst r) a).
Notation okat P m H := (okr P H (m H)).
Lemma inv_ext H H' : inv H -> ext H H' -> inv H'.
Proof. unfold inv. intros. eapply ext_trans; eauto. Qed.
Lemma inv_length H : inv H -> N <= length H.
Proof. apply ext_length. Qed.
Lemma ok_eq {A} (P : heap -> A -> Prop) (m m' : hM A) H : m H = m' H -> okat P m' H -> okat P m H.
Proof. now intros ->. Qed.
Lemma ok_ret {A} (P : heap -> A -> Prop) a H : P H a -> okat P (hret a) H.
Proof. intros Hp. split; [apply ext_refl|]. intros b [= <-]. exact Hp. Qed.
Lemma ok_fail {A} (P : heap -> A -> Prop) e H : okat P (hfail e) H.
Proof. split; [apply ext_refl|discriminate]. Qed.
Lemma ok_lift {A} (P : heap -> A -> Prop) (r : res A) H : (forall a, r = Ok a -> P H a) -> okat P (hlift r) H.
Proof. destruct r as [a|e]; intros Hp; [apply ok_ret; auto|apply ok_fail]. Qed.
Lemma ok_bind {A B} (P : heap -> A -> Prop) (Q : heap -> B -> Prop) m g H :
  okat P m H -> (forall H' a, ext H H' -> P H' a -> okat Q (g a) H') -> okat Q (hbind m g) H.
Proof.
  intros [A1 A2] Hg. unfold okr, hbind. destruct (m H) as [H' [a|e|]]; cbn [fst snd] in *.
  - destruct (Hg H' a A1 (A2 _ eq_refl)) as [B1 B2]. split; [eapply ext_trans; eauto|assumption].
  - split; [assumption|discriminate].
  - split; [assumption|discriminate].
Qed.
Lemma ok_weaken {A} (P Q : heap -> A -> Prop) m H : okat P m H -> (forall H' a, ext H H' -> P H' a -> Q H' a) -> okat Q m H.
Proof. intros [A1 A2] Hp. split; [assumption|]. intros a Ha. apply Hp; auto. Qed.
Lemma ok_try {A} (P : heap -> A -> Prop) m h H :
  okat P m H -> (forall H' e, ext H H' -> okat P (h e) H') -> okat P (htry m h) H.
Proof.
  intros [A1 A2] Hh. unfold okr, htry. destruct (m H) as [H' [a|e|]] eqn:Em; cbn [fst snd] in *; auto.
  destruct (Hh H' e A1) as [B1 B2]. split; [eapply ext_trans; eauto|assumption].
Qed.
Lemma ok_catch {A} (P : heap -> A -> Prop) m H :
  okat P m H -> okat (fun H' r => match r with inl a => P H' a | inr _ => True end) (hcatch m) H.
Proof.
  intros [A1 A2]. unfold okr, hcatch. destruct (m H) as [H' [a|e|]] eqn:Em; cbn [fst snd] in *.
  - split; [assumption|]. intros b [= <-]. auto.
  - split; [assumption|]. intros b [= <-]. exact I.
  - split; [assumption|discriminate].
Qed.
Lemma ok_read {A} (g : heap -> A) (P : heap -> A -> Prop) H : P H (g H) -> okat P (hread g) H.
Proof. intros Hp. split; [apply ext_refl|]. intros a [= <-]. exact Hp. Qed.
Lemma ok_alloc c H (P : heap -> obj -> Prop) : P (H ++ [c])%list (ORef (length H)) -> okat P (alloc c) H.
Proof. intros Hp. split; [apply ext_app|]. intros a [= <-]. exact Hp. Qed.
Lemma ok_adds {A} (m : hM A) H : only_adds m -> okat (fun _ _ => True) m H.
Proof. intros Hm. destruct (Hm H) as (new & Hn). split; [rewrite Hn; apply ext_app|auto]. Qed.
(** Lists of results stay what they are while the heap grows. *)
Definition stable (P : heap -> obj -> Prop) : Prop := forall H H' x, ext H H' -> P H x -> P H' x.
Lemma Forall_ext (P : heap -> obj -> Prop) H H' l : stable P -> ext H H' -> Forall (P H) l -> Forall (P H') l.
Proof. intros St A Hl. eapply Forall_impl; [|exact Hl]. intros x. apply St. exact A. Qed.
Lemma ok_map {A} (P : heap -> obj -> Prop) (g : A -> hM obj) (l : list A) H : stable P ->
  (forall H' x, ext H H' -> In x l -> okat P (g x) H') -> okat (fun H' ys => Forall (P H') ys) (hmap g l) H.
Proof.
  intros St. revert H. induction l as [|x l IH]; intros H Hg; [now apply ok_ret|].
  change (hmap g (x :: l)) with (hbind (g x) (fun y => hbind (hmap g l) (fun ys => hret (y :: ys)))).
  eapply ok_bind; [apply Hg; [apply ext_refl|now left]|]. intros H1 y A1 Hy.
  eapply ok_bind; [apply IH; intros H' z A' Hz; apply Hg; [eapply ext_trans; eauto|now right]|].
  intros H2 ys A2 Hys. apply ok_ret. constructor; [eapply St; eauto|assumption].
Qed.

(** ** New objects *)
Definition fresh (n : nat) (H : heap) (x : obj) : Prop := forall a, reaches H x a -> n <= a < length H.
Lemma fresh_ext n : stable (fresh n).
Proof.
  intros H H' x A F a Ha. apply (reach_back H) in Ha; [|assumption|intros b Hb; now apply F].
  pose proof (ext_length _ _ A). specialize (F _ Ha). lia.
Qed.
Lemma fresh_atom n H v : fresh n H (OAtom v).
Proof. intros a Ha. destruct (reaches_atom _ _ _ Ha). Qed.
Lemma fresh_new n c H : n <= length H -> (forall y, holds c y -> fresh n H y) -> okat (fresh n) (alloc c) H.
Proof.
  intros Hn Hc. apply ok_alloc. intros a Ha. rewrite app_length. cbn [length].
  apply reaches_cell in Ha as [-> |(c' & y & Hc' & Hh & Ha)]; [lia|].
  rewrite nth_error_app2, Nat.sub_diag in Hc' by lia. injection Hc' as <-.
  pose proof (fresh_ext n _ _ _ (ext_app H [c]) (Hc _ Hh) _ Ha) as F. rewrite app_length in F. cbn in F. lia.
Qed.
Lemma ok_map_gen {A B} (P : heap -> B -> Prop) (g : A -> hM B) (l : list A) H :
  (forall H H' x, ext H H' -> P H x -> P H' x) ->
  (forall H' x, ext H H' -> In x l -> okat P (g x) H') -> okat (fun H' ys => Forall (P H') ys) (hmap g l) H.
Proof.
  intros St. revert H. induction l as [|x l IH]; intros H Hg; [now apply ok_ret|].
  change (hmap g (x :: l)) with (hbind (g x) (fun y => hbind (hmap g l) (fun ys => hret (y :: ys)))).
  eapply ok_bind; [apply Hg; [apply ext_refl|now left]|]. intros H1 y A1 Hy.
  eapply ok_bind; [apply IH; intros H' z A' Hz; apply Hg; [eapply ext_trans; eauto|now right]|].
  intros H2 ys A2 Hys. apply ok_ret. constructor; [eapply St; eauto|assumption].
Qed.
Lemma fresh_place n v : forall H, n <= length H -> okat (fresh n) (place v) H.
Proof.
  assert (ML : forall l H, Forall (fun v => forall H, n <= length H -> okat (fresh n) (place v) H) l -> n <= length H ->
               okat (fun H' ys => Forall (fresh n H') ys) (hmap place l) H).
  { intros l H Hl Hn. apply ok_map; [apply fresh_ext|]. intros H' x A Hx.
    apply (proj1 (Forall_forall _ _) Hl _ Hx). pose proof (ext_length _ _ A). lia. }
  induction v using value_ind'; intros HH Hn; cbn [place]; try (apply ok_ret; apply fresh_atom).
  - eapply ok_bind; [apply ML; eassumption|]. intros G1 xs A1 Hxs. pose proof (ext_length _ _ A1).
    apply fresh_new; [lia|]. cbn. now apply Forall_forall.
  - eapply ok_bind; [apply ML; eassumption|]. intros G1 xs A1 Hxs. apply ok_ret.
    intros a Ha. apply reaches_tuple in Ha as (x & Hx & Ha). exact (proj1 (Forall_forall _ _) Hxs _ Hx _ Ha).
  - eapply ok_bind; [apply ML; eassumption|]. intros G1 xs A1 Hxs. pose proof (ext_length _ _ A1).
    apply fresh_new; [lia|]. cbn. now apply Forall_forall.
  - eapply ok_bind.
    + apply ok_map_gen with (P := fun H kx => fresh n H (fst kx) /\ fresh n H (snd kx)).
      * intros Ha Hb [k1 x1] A [F1 F2]. split; eapply fresh_ext; eauto.
      * intros H' [k1 x1] A Hin. match goal with HF : Forall _ d |- _ => pose proof (proj1 (Forall_forall _ _) HF _ Hin) as [I1 I2] end.
        cbn [fst snd] in *. pose proof (ext_length _ _ A).
        eapply ok_bind; [apply I1; lia|]. intros G1 y1 A1 Y1. pose proof (ext_length _ _ A1).
        eapply ok_bind; [apply I2; lia|]. intros G2 y2 A2 Y2. apply ok_ret. split; [eapply fresh_ext; eauto|assumption].
    + intros G1 d' A1 Hd'. pose proof (ext_length _ _ A1). apply fresh_new; [lia|]. intros y (k1 & x1 & Hin & Hy).
      destruct (proj1 (Forall_forall _ _) Hd' _ Hin) as [F1 F2]. cbn in *. destruct Hy as [-> | ->]; assumption.
  - eapply ok_bind; [apply ML; eassumption|]. intros G1 xs A1 Hxs. apply ok_ret.
    intros a Ha. apply reaches_nt in Ha as (x & Hx & Ha). exact (proj1 (Forall_forall _ _) Hxs _ Hx _ Ha).
  - eapply ok_bind.
    + apply ok_map_gen with (P := fun H ax => fresh n H (snd ax)).
      * intros Ha Hb [k1 x1] A F. eapply fresh_ext; eauto.
      * intros H' [k1 x1] A Hin. lazymatch goal with HF : Forall _ ?l0, Hin : In _ ?l0 |- _ => pose proof (proj1 (Forall_forall _ _) HF _ Hin) as I1 end.
        cbn [fst snd] in *. pose proof (ext_length _ _ A).
        eapply ok_bind; [apply I1; lia|]. intros G1 y1 A1 Y1. apply ok_ret. exact Y1.
    + intros G1 d' A1 Hd'. pose proof (ext_length _ _ A1). apply fresh_new; [lia|]. intros y (a1 & Hin).
      exact (proj1 (Forall_forall _ _) Hd' _ Hin).
Qed.
Lemma fresh_owned n H x : N <= n -> fresh n H x -> owned H x.
Proof. intros Hn F a Ha. specialize (F _ Ha). split; [|left]; lia. Qed.
Lemma fresh_loadable n H x : N <= n -> fresh n H x -> loadable H x.
Proof.
  intros Hn F. constructor.
  - intros a Ha. now apply F.
  - intros b k d a Hb Hd Hin. apply KN. enough (n <= a) by lia. apply F. eapply reach_next; eauto; [cbn; eauto|constructor].
  - intros _ b k d key y Hb Hd Hin a Ha. enough (n <= a < length H) by (split; [|left]; lia). apply F.
    eapply reaches_held; eauto. cbn. eauto.
Qed.
Definition both (H : heap) (x : obj) : Prop := loadable H x /\ owned H x.
Lemma both_place v H : inv H -> okat both (place v) H.
Proof.
  intros I. pose proof (inv_length _ I). eapply ok_weaken; [apply (fresh_place (length H)); lia|].
  intros H' y A F. split; [eapply fresh_loadable|eapply fresh_owned]; eauto.
Qed.
Lemma ok_place_res r H : inv H -> okat both (place_res r) H.
Proof. intros I. destruct r; [now apply both_place|apply ok_fail]. Qed.
Lemma owned_place_res r H : inv H -> okat owned (place_res r) H.
Proof. intros I. eapply ok_weaken; [now apply ok_place_res|]. intros H' y _ [_ O]. exact O. Qed.
Lemma stable_owned : stable owned.
Proof. intros H H' x. apply owned_ext. Qed.
Lemma stable_loadable : stable loadable.
Proof. intros H H' x. apply loadable_ext. Qed.

(** ** Iteration and items *)
Lemma ok_placed (r : res (list value)) H : inv H -> okat (fun H' l => Forall (loadable H') l) (hbind (hlift r) (hmap place)) H.
Proof.
  intros I. eapply ok_bind; [apply ok_lift with (P := fun _ _ => True); auto|]. intros H1 l A1 _.
  apply ok_map; [apply stable_loadable|]. intros H2 x A2 _. eapply ok_weaken; [apply both_place; eauto using inv_ext|].
  intros H3 y _ [Ly _]. exact Ly.
Qed.
Lemma ok_iter x H : inv H -> loadable H x ->
  okat (fun H' l => Forall (loadable H') l /\ (pure H x -> valid_type (shallow H x) = true -> Forall (pure H') l)) (hiter R x) H.
Proof.
  intros I Hx. unfold hiter.
  assert (Hp : forall m : hM (list obj), okat (fun H' l => Forall (loadable H') l) m H -> (valid_type (shallow H x) = true -> False) ->
             okat (fun H' l => Forall (loadable H') l /\ (pure H x -> valid_type (shallow H x) = true -> Forall (pure H') l)) m H).
  { intros m Hm Hv. eapply ok_weaken; [exact Hm|]. intros H' l _ Hl. split; [assumption|]. intros _ V. destruct (Hv V). }
  destruct x as [v|l|c l|a].
  - destruct v as [|b|z|fl|s| | | | | | | |]; cbn [py_iter].
    1-4: apply ok_fail.
    { apply (ok_eq _ _ (hmap place (str_chars s)) H eq_refl).
      assert (Hs : forall v, In v (str_chars s) -> flatv v = true).
      { clear. unfold str_chars. intros v Hv. apply in_map_iff in Hv as (c & <- & _). reflexivity. }
      eapply ok_weaken; [apply ok_map with (P := fun H' y => loadable H' y /\ exists v, y = OAtom v /\ flatv v = true)|].
      - intros Ha Hb y A (L1 & L2). split; [eauto using loadable_ext|assumption].
      - intros H1 v A1 Hv. specialize (Hs _ Hv). destruct v; try discriminate; cbn [place]; apply ok_ret;
          (split; [apply loadable_atom|eexists; split; [reflexivity|reflexivity]]).
      - intros H1 l A1 Hl. split; [|intros _ _]; eapply Forall_impl; try exact Hl; cbn; intros y [L1 (v & -> & Fv)]; [assumption|now apply pure_atom]. }
    all: cbn [shallow valid_type].
    all: try (apply Hp; [now apply ok_placed|]; intros V; discriminate).
    all: eapply ok_weaken; [now apply ok_placed|]; intros H' l' _ Hl; split; [assumption|]; intros (_ & Fl & _) _;
         specialize (Fl _ (in_self _)); discriminate.
  - apply ok_ret. split; [|intros P _]; apply Forall_forall; intros y Hy; [eapply loadable_inside|eapply pure_inside]; try eassumption;
      econstructor; try eassumption; constructor.
  - apply ok_ret. split; [|intros P _]; apply Forall_forall; intros y Hy; [eapply loadable_inside|eapply pure_inside]; try eassumption;
      econstructor; try eassumption; constructor.
  - destruct (nth_error H a) as [[l|k l|k d|c l]|] eqn:En.
    + apply ok_ret. split; [|intros P _]; apply Forall_forall; intros y Hy; [eapply loadable_held|eapply pure_held]; eauto.
    + apply ok_ret. split; [|intros P _]; apply Forall_forall; intros y Hy; [eapply loadable_held|eapply pure_held]; eauto.
    + apply ok_ret. split; [|intros P _]; apply Forall_forall; intros y Hy; apply in_map_iff in Hy as ([k1 x1] & <- & Hin);
        [eapply loadable_held|eapply pure_held]; eauto; cbn; eauto.
    + apply Hp; [now apply ok_placed|]. intros V. cbn [shallow] in V. rewrite En in V. discriminate.
    + exfalso. apply nth_error_None in En. pose proof (lb_valid _ _ Hx a (reaches_ref _ _)). lia.
Qed.
Lemma ok_getitem x k H : inv H -> loadable H x -> okat loadable (hgetitem CT x k) H.
Proof.
  intros I Hx. unfold hgetitem. destruct x as [v|l|c l|a].
  - eapply ok_weaken; [apply ok_place_res; assumption|]. intros H' y _ [Ly _]. exact Ly.
  - apply ok_lift. intros y Hy. eapply loadable_inside; [eassumption|]. econstructor; [eapply item_at_in; eassumption|constructor].
  - apply ok_lift. intros y Hy. eapply loadable_inside; [eassumption|]. econstructor; [eapply item_at_in; eassumption|constructor].
  - destruct (nth_error H a) as [[l|k' l|k' d|c l]|] eqn:En; try apply ok_fail.
    + apply ok_lift. intros y Hy. eapply loadable_held; eauto using item_at_in. cbn. eauto using item_at_in.
    + destruct k'; try apply ok_fail. apply ok_lift. intros y Hy. eapply loadable_held; eauto. cbn. eauto using item_at_in.
    + destruct (hashable _ _); [|apply ok_fail]. destruct (hdget H k d) as [y|] eqn:Eg; [|apply ok_fail].
      apply ok_ret. apply aget_in in Eg as (k2 & Hin). eapply loadable_held; eauto. cbn. eauto.
Qed.
(** Items of dicts *)
Definition item_ok (H : heap) (kx : obj * obj) : Prop := loadable H (fst kx) /\ loadable H (snd kx) /\ (J -> owned H (fst kx)).
Lemma item_ext H H' kx : ext H H' -> item_ok H kx -> item_ok H' kx.
Proof. intros A (I1 & I2 & I3). split; [|split]; eauto using loadable_ext, owned_ext. Qed.
Lemma items_ext H H' d : ext H H' -> Forall (item_ok H) d -> Forall (item_ok H') d.
Proof. intros A. apply Forall_impl. intros kx. now apply item_ext. Qed.
Lemma cell_items H a k d : loadable H (ORef a) -> nth_error H a = Some (NDict k d) -> Forall (item_ok H) d.
Proof.
  intros Hl Hn. apply Forall_forall. intros [k1 x1] Hin. split; [|split]; cbn [fst snd].
  - eapply loadable_held; eauto. cbn. eauto.
  - eapply loadable_held; eauto. cbn. eauto.
  - intros HJ. eapply lb_keys; eauto using reaches_ref.
Qed.
Lemma Forall_aset (P : obj * obj -> Prop) eqb k x d : (forall k0 x0, P (k0, x0) -> P (k0, x)) -> P (k, x) -> Forall P d -> Forall P (aset eqb k x d).
Proof.
  intros HP Hk Hd. induction Hd as [|[k1 x1] d H1 Hd IH]; cbn [aset]; [auto|].
  destruct (eqb k k1); constructor; eauto.
Qed.
Lemma items_set H H' k x d : item_ok H (k, x) -> Forall (item_ok H) d -> Forall (item_ok H) (hdset H' k x d).
Proof.
  intros Hk Hd. apply Forall_aset; [|assumption|assumption]. intros k0 x0 (A1 & A2 & A3). destruct Hk as (B1 & B2 & B3).
  split; [|split]; assumption.
Qed.
Lemma Forall_del H k d (P : obj * obj -> Prop) : Forall P d -> Forall P (hddel H k d).
Proof. intros Hd. apply Forall_forall. intros kx Hin. apply filter_In in Hin as [Hin _]. exact (proj1 (Forall_forall _ _) Hd _ Hin). Qed.
Lemma ok_transform g : forall d acc H, inv H -> Forall (item_ok H) d -> Forall (item_ok H) acc ->
  okat (fun H' d' => Forall (item_ok H') d') (htransform_keys CT g d acc) H.
Proof.
  induction d as [|[k x] d IH]; intros acc H I Hd Ha; [now apply ok_ret|].
  cbn [htransform_keys]. inversion Hd as [|? ? (D1 & D2 & D3) Hd']; subst.
  eapply ok_bind with (P := fun _ _ => True); [apply ok_lift; auto|]. intros H1 k1 A1 _.
  destruct (hashable CT k1); [|apply ok_fail].
  eapply ok_bind; [apply both_place; eauto using inv_ext|]. intros H2 k2 A2 [B1 B2].
  assert (A02 : ext H H2) by eauto using ext_trans.
  eapply ok_bind with (P := fun H' acc' => Forall (item_ok H') acc').
  - apply ok_read. apply items_set; [|eauto using items_ext].
    split; [|split]; cbn [fst snd] in *; auto. eauto using loadable_ext.
  - intros H3 acc' A3 Ha'. apply IH; eauto using inv_ext, items_ext, ext_trans.
Qed.

(** ** The deserializers *)
Variable ld : nat -> lopts -> option ty -> obj -> hM obj.
Definition copies (H : heap) (strict : bool) (cls : option ty) (x : obj) : Prop :=
  J /\ ((strict = true /\ any_free cls = true) \/ (pure H x /\ (cls = None \/ cls = Some (TLeaf LkDatetime)))).
Definition copies_l (H : heap) (strict : bool) (cls : option ty) (l : list obj) : Prop :=
  J /\ ((strict = true /\ any_free cls = true) \/ (Forall (pure H) l /\ cls = None)).
Lemma copies_ext H H' s cls x : ext H H' -> loadable H x -> copies H s cls x -> copies H' s cls x.
Proof. intros A [V _ _] (j & [C|(C1 & C2)]); (split; [assumption|]); [auto|]. right. eauto using pure_ext. Qed.
Lemma copies_hd H s cls x l : copies_l H s cls (x :: l) -> copies H s cls x.
Proof. intros (j & [C|(Hl & ->)]); (split; [assumption|]); [auto|]. inversion Hl; auto. Qed.
Lemma copies_tl H H' s cls x l : ext H H' -> Forall (loadable H) (x :: l) -> copies_l H s cls (x :: l) -> copies_l H' s cls l.
Proof.
  intros A L0 (j & [C|(Hl & ->)]); (split; [assumption|]); [auto|]. right. split; [|reflexivity].
  inversion L0 as [|? ? ? L1]; inversion Hl as [|? ? ? Hl1]; subst. clear - A L1 Hl1.
  induction Hl1 as [|y l Hy Hl IH]; [constructor|]. inversion L1 as [|? ? [V _ _] ?]; subst. constructor; eauto using pure_ext.
Qed.
Hypothesis LD : forall g o cls x H, inv H -> loadable H x ->
  okat (fun H' y => g = f -> copies H (lo_strict o) cls x -> owned H' y) (ld g o cls x) H.
Hypothesis QL : quiet L.
Hypothesis DD : J -> default_deserializers E f.
Hypothesis HJ : J -> any_free_hints E f /\ owns G L H0.
Hypothesis HF : forall c n, loadable H0 (le_field L c n).

Lemma ok_ld o cls x H : inv H -> loadable H x ->
  okat (fun H' y => copies H (lo_strict o) cls x -> owned H' y) (ld f o cls x) H.
Proof. intros I Hx. eapply ok_weaken; [apply LD; eauto|]. cbn. auto. Qed.
Lemma ok_list_go o w t : forall l i H, inv H -> Forall (loadable H) l ->
  okat (fun H' ys => copies_l H (lo_strict o) t l -> Forall (owned H') ys) (hdeser_list_go ld f o w t i l) H.
Proof.
  induction l as [|x l IH]; intros i H I Hl; [apply ok_ret; auto|]. cbn [hdeser_list_go]. inversion Hl as [|? ? Hx Hl']; subst.
  eapply ok_bind; [apply ok_catch; apply ok_ld; eauto|]. intros H1 [y|e] A1 Hy.
  - eapply ok_bind; [apply IH; eauto using inv_ext, Forall_ext, stable_loadable|]. intros H2 ys A2 Hys.
    apply ok_ret. intros C. constructor; [|eauto using copies_tl]. eapply owned_ext; [eassumption|]. eauto using copies_hd.
  - destruct (is_deser _); [|apply ok_fail]. destruct w; [|apply ok_fail]. eapply ok_weaken; [apply IH; eauto using inv_ext, Forall_ext, stable_loadable|].
    cbn. eauto using copies_tl.
Qed.
(** The elements of a document *)
Definition copies_in (H : heap) (strict : bool) (cls : option ty) (x : obj) : Prop :=
  J /\ ((strict = true /\ any_free cls = true) \/ (pure H x /\ valid_type (shallow H x) = true /\ cls = None)).
Lemma shallow_ext H H' x : ext H H' -> valid H x -> shallow H' x = shallow H x.
Proof.
  intros A V. destruct x as [| | |a]; try reflexivity. cbn [shallow].
  destruct (nth_error H a) as [c|] eqn:En; [|apply nth_error_None in En; specialize (V a (reaches_ref _ _)); lia].
  destruct (A _ _ En) as [-> |(_ & c' & -> & k & d & d' & -> & -> & _)]; reflexivity.
Qed.
Lemma copies_in_ext H H' s cls x : ext H H' -> loadable H x -> copies_in H s cls x -> copies_in H' s cls x.
Proof.
  intros A [V _ _] (j & [C|(C1 & C2 & C3)]); (split; [assumption|]); [auto|]. right. erewrite shallow_ext by eauto. eauto using pure_ext.
Qed.
Lemma ok_list o args x H : inv H -> loadable H x ->
  okat (fun H' ys => copies_in H (lo_strict o) (hd_error args) x -> Forall (owned H') ys) (hdeser_list E ld f o args x) H.
Proof.
  intros I Hx. unfold hdeser_list. eapply ok_bind; [apply ok_iter; assumption|]. intros H1 l A1 [Hl Pl].
  eapply ok_weaken; [apply ok_list_go; eauto using inv_ext|]. cbn. intros H2 ys A2 Hys (j & C). apply Hys. split; [assumption|].
  destruct C as [C|(C1 & C2 & C3)]; [left|right]; destruct args; auto; discriminate.
Qed.
Lemma owned_alloc c H P : inv H -> (P -> forall y, holds c y -> owned H y) -> okat (fun H' y => P -> owned H' y) (alloc c) H.
Proof. intros I Hc. apply ok_alloc. intros p. apply owned_new; [now apply inv_length|auto]. Qed.
Lemma hdedup_in H : forall l acc y, In y (hdedup H l acc) -> In y l \/ In y acc.
Proof.
  induction l as [|x l IH]; intros acc y; cbn [hdedup]; [rewrite <- in_rev; auto|].
  destruct (existsb _ acc); intros Hy; apply IH in Hy; cbn in *; tauto.
Qed.
Lemma ok_new_set k l H (P : Prop) : inv H -> (P -> Forall (owned H) l) -> okat (fun H' y => P -> owned H' y) (hnew_set E k l) H.
Proof.
  intros I Hl. unfold hnew_set. destruct (forallb _ l); [|apply ok_fail]. apply owned_alloc; [assumption|].
  cbn. intros p y Hy. apply hdedup_in in Hy as [Hy|[]]. exact (proj1 (Forall_forall _ _) (Hl p) _ Hy).
Qed.
Lemma ok_iterable o t x H : inv H -> loadable H x ->
  okat (fun H' y => copies_in H (lo_strict o) (hd_error (get_args (Some t))) x -> owned H' y) (hdeser_iterable E ld f o t x) H.
Proof.
  intros I Hx. unfold hdeser_iterable.
  eapply ok_bind with (P := fun _ args => args = get_args (Some t)).
  { apply ok_lift. unfold get_args. destruct (raw_args t) as [[|a [|]]|]; intros args; try discriminate; now intros [= <-]. }
  intros H1 args A1 ->. eapply ok_bind; [apply ok_list; eauto using inv_ext, loadable_ext|]. intros H2 l A2 Hl.
  assert (I2 : inv H2) by eauto using inv_ext.
  assert (Hl' : copies_in H (lo_strict o) (hd_error (get_args (Some t))) x -> Forall (owned H2) l).
  { intros C. apply Hl. eapply copies_in_ext; eauto. }
  assert (Hd : okat (fun H' y => copies_in H (lo_strict o) (hd_error (get_args (Some t))) x -> owned H' y)
                    (fun H => place_res (rt_cast (e_rt E) t (VList (map (view H) l))) H) H2).
  { cbv beta. eapply ok_weaken; [apply owned_place_res; assumption|]. auto. }
  destruct t as [| | | |b h args0| | | | | | | | | |]; try exact Hd.
  assert (Ho : copies_in H (lo_strict o) (hd_error (get_args (Some (TApp b h args0)))) x -> forall y, In y l -> owned H2 y).
  { intros C. apply Forall_forall. auto. }
  destruct h; try exact Hd; try (apply owned_alloc; assumption); try (apply ok_new_set; assumption).
  apply ok_ret. intros C. apply owned_tuple. auto.
Qed.
(** Named tuples and tuples *)
Lemma ok_nt_go o c x len : forall fields d i H, inv H -> loadable H x -> (forall d', d = Some d' -> Forall (item_ok H) d') ->
  incl fields (nt_fields CT c) ->
  okat (fun H' ys => J -> lo_strict o = true -> Forall (owned H') ys)
       (hdeser_nt_go E L ld f o c x d len i fields) H.
Proof.
  induction fields as [|fd fields IH]; intros d i H I Hx Hd Hf; [apply ok_ret; auto|]. cbn [hdeser_nt_go].
  eapply ok_bind with (P := loadable).
  { destruct (Nat.ltb i len).
    - destruct d as [d|]; [|apply ok_getitem; assumption]. cbv beta.
      destruct (hdget H (atom (nf_name fd)) d) as [y|] eqn:Eg; [|apply ok_fail]. apply ok_ret.
      apply aget_in in Eg as (k2 & Hin). exact (proj1 (proj2 (proj1 (Forall_forall _ _) (Hd _ eq_refl) _ Hin))).
    - apply ok_ret. destruct (nf_default fd); [eapply loadable_ext; [exact I|apply HF]|apply loadable_atom]. }
  intros H1 y A1 Hy. eapply ok_bind with (P := fun _ _ => True); [apply ok_read; exact Logic.I|]. intros H2 b A2 _.
  eapply ok_bind with (P := fun _ _ => True); [destruct (b && _); [apply ok_fail|now apply ok_ret]|]. intros H3 [] A3 _.
  assert (A03 : ext H H3) by eauto using ext_trans.
  eapply ok_bind; [apply ok_ld; eauto using inv_ext, loadable_ext, ext_trans|]. intros H4 z A4 Hz.
  assert (A04 : ext H H4) by eauto using ext_trans.
  eapply ok_bind; [apply IH; eauto using inv_ext, loadable_ext|].
  { intros d' ->. eauto using items_ext. }
  { intros y' Hy'. apply Hf. now right. }
  intros H5 zs A5 Hzs. apply ok_ret. intros j S. constructor; [|auto]. eapply owned_ext; [eassumption|]. apply Hz.
  split; [assumption|]. left. split; [assumption|]. apply (af_fields _ _ (proj1 (HJ j)) c). apply Hf. now left.
Qed.
Lemma ok_namedtuple o c x H : inv H -> loadable H x ->
  okat (fun H' y => J -> lo_strict o = true -> owned H' y) (hdeser_namedtuple E L ld f o c x) H.
Proof.
  intros I Hx. unfold hdeser_namedtuple.
  eapply ok_bind with (P := fun H' d => forall d', d = Some d' -> Forall (item_ok H') d').
  { cbv beta. destruct x as [v|l|c' l|a]; try (apply ok_ret; discriminate).
    destruct (nth_error H a) as [[l|k l|k d|c' l]|] eqn:En; try (apply ok_ret; discriminate).
    pose proof (cell_items _ _ _ _ Hx En) as Hd. destruct (lo_kt o) as [g|].
    - eapply ok_bind; [apply ok_transform; [assumption..|constructor]|]. intros H1 d1 A1 Hd1. apply ok_ret. now intros d' [= <-].
    - apply ok_ret. now intros d' [= <-]. }
  intros H1 d A1 Hd. eapply ok_bind; [apply ok_iter; eauto using inv_ext, loadable_ext|]. intros H2 l A2 _.
  eapply ok_bind; [apply ok_nt_go; eauto using inv_ext, loadable_ext, ext_trans|].
  { intros d' Hd'. eapply items_ext; eauto. }
  { apply incl_refl. }
  intros H3 ys A3 Hys. apply ok_ret. intros C S. apply owned_nt. auto.
Qed.
Lemma ok_tuple_go o : forall l ts H, inv H -> Forall (loadable H) l ->
  okat (fun H' ys => J /\ lo_strict o = true /\ (forall t, In t ts -> any_free (Some t) = true) -> Forall (owned H') ys) (hdeser_tuple_go ld f o l ts) H.
Proof.
  induction l as [|x l IH]; intros ts H I Hl; [apply ok_ret; auto|]. cbn [hdeser_tuple_go]. inversion Hl as [|? ? Hx Hl']; subst.
  destruct ts as [|t ts]; [apply ok_fail|].
  eapply ok_bind; [apply ok_ld; eauto|]. intros H1 y A1 Hy.
  eapply ok_bind; [apply IH; eauto using inv_ext, Forall_ext, stable_loadable|]. intros H2 ys A2 Hys. apply ok_ret.
  intros (j & S & C). constructor; [|apply Hys; split; [|split]; auto; intros t' Ht'; apply C; now right].
  eapply owned_ext; [eassumption|]. apply Hy. split; [assumption|]. left. split; [assumption|]. apply C. now left.
Qed.
Lemma any_free_args t a : any_free (Some t) = true -> In a (get_args (Some t)) -> any_free (Some a) = true.
Proof.
  cbn [any_free]. unfold get_args, raw_args. intros Ht Ha. apply negb_true_iff in Ht.
  assert (Hl : forall l, existsb has_any l = false -> In a l -> negb (has_any a) = true).
  { intros l Hl Hin. apply negb_true_iff. destruct (has_any a) eqn:Ea; [|reflexivity]. rewrite <- Hl. symmetry. apply existsb_exists. eauto. }
  destruct t as [| | | |b h [|a0 args0]|args0| | | | | | | | |]; cbn [has_any] in *; try destruct Ha as []; eauto.
  all: try (apply (Hl (a0 :: args0)); [exact Ht|cbn; auto]). 
Qed.
Definition strictly (o : lopts) (t : ty) : Prop := J /\ lo_strict o = true /\ any_free (Some t) = true.
(** A document that is loaded as what it is *)
Definition as_it_is (H : heap) (t : ty) (x : obj) : Prop :=
  J /\ pure H x /\ valid_type (shallow H x) = true /\ get_args (Some t) = [] /\ forall c, t <> TClass c.
Lemma ok_tuple o t x H : inv H -> loadable H x ->
  okat (fun H' y => strictly o t \/ as_it_is H t x -> owned H' y) (hdeser_tuple E L ld f o t x) H.
Proof.
  intros I Hx. unfold hdeser_tuple.
  match goal with |- context [hbind (hiter ?r x) ?g] => assert (Hp : okat (fun H' y => strictly o t \/ as_it_is H t x -> owned H' y) (hbind (hiter r x) g) H) end.
  { eapply ok_bind; [apply ok_iter; assumption|]. intros H1 l A1 [Hl Pl]. assert (I1 : inv H1) by eauto using inv_ext.
    destruct (get_args (Some t)) as [|t0 ts] eqn:Ea.
    - eapply ok_bind; [apply ok_map with (P := fun H' y => strictly o t \/ as_it_is H t x -> owned H' y)|].
      + intros Ha Hb y A O C. eapply owned_ext; eauto.
      + intros H2 y A2 Hy. eapply ok_weaken; [apply (ok_ld (set_kt None o)); [eauto using inv_ext|]|].
        * eapply loadable_ext; [eassumption|]. exact (proj1 (Forall_forall _ _) Hl _ Hy).
        * cbn. intros H3 z A3 Hz C. apply Hz. destruct C as [(j & S & Af)|(j & P & V & _)]; (split; [assumption|]); [auto|].
          right. split; [|auto]. eapply pure_ext; [eassumption| |].
          -- exact (lb_valid _ _ (proj1 (Forall_forall _ _) Hl _ Hy)).
          -- exact (proj1 (Forall_forall _ _) (Pl P V) _ Hy).
      + intros H2 ys A2 Hys. apply ok_ret. intros C. apply owned_tuple. eapply Forall_impl; [|exact Hys]. auto.
    - cbv zeta. eapply ok_bind; [apply ok_tuple_go; assumption|]. intros H2 ys A2 Hys. apply ok_ret.
      intros [(j & S & Af)|(_ & _ & _ & Hbad & _)]; [|congruence]. apply owned_tuple. apply Hys. split; [assumption|]. split; [exact S|]. intros t' Ht'.
      apply (any_free_args t); [assumption|]. rewrite Ea. destruct (ty_eqb _ _); [|assumption]. apply repeat_spec in Ht' as ->. now left. }
  destruct t as [| | | | | | | | | | |c| | |]; try exact Hp. destruct (ci_kind (e_ct E c)); try exact Hp.
  eapply ok_weaken; [apply ok_namedtuple; assumption|]. cbn. intros H' y A O [(j & S & Af)|(_ & _ & _ & _ & Hbad)]; [|now destruct (Hbad c)].
  apply O; assumption.
Qed.
Lemma ok_union_go o x : forall ts H, inv H -> loadable H x ->
  okat (fun H' y => (forall t, In t ts -> strictly o t) -> owned H' y) (hdeser_union_go ld f o x ts) H.
Proof.
  induction ts as [|t ts IH]; intros H I Hx; [apply ok_fail|]. cbn [hdeser_union_go]. apply ok_try.
  - eapply ok_weaken; [apply ok_ld; assumption|]. cbn. intros H' y A O C. apply O. destruct (C t (or_introl eq_refl)) as (j & S & Af). split; auto.
  - intros H' e A. destruct (is_jsons _); [|apply ok_fail]. eapply ok_weaken; [apply IH; eauto using inv_ext, loadable_ext|].
    cbn. intros H'' y A' O C. apply O. intros t' Ht'. apply C. now right.
Qed.
Lemma ok_union o t x H : inv H -> loadable H x ->
  okat (fun H' y => strictly o t -> owned H' y) (hdeser_union ld f o t x) H.
Proof.
  intros I Hx. unfold hdeser_union. destruct (raw_args t) as [ts|] eqn:Ea; [|apply ok_fail].
  eapply ok_weaken; [apply ok_union_go; assumption|]. cbn -[any_free]. intros H' y A O (j & S & Af). apply O. intros t' Ht'.
  split; [assumption|]. split; [assumption|]. apply (any_free_args t); [assumption|]. unfold get_args. now rewrite Ea.
Qed.
(** Dicts *)
Lemma ok_del_item a k H : K a -> okat (fun _ _ => True) (del_item a k) H.
Proof.
  intros Ka. unfold del_item. destruct (nth_error H a) as [[l|k' l|k' d|c l]|] eqn:En; try apply ok_fail.
  destruct (hdget H k d); [|apply ok_fail]. split; [|auto].
  unfold write. cbn [fst snd]. intros b c Hb. destruct (Nat.eq_dec a b) as [<-|Hn].
  - right. split; [assumption|]. eexists. split; [apply put_same; apply nth_error_Some; congruence|].
    rewrite En in Hb. injection Hb as <-. exists k', d, (hddel H k d). split; [reflexivity|]. split; [reflexivity|]. apply incl_filter.
  - left. now rewrite put_other.
Qed.
Definition entry_ok (H : heap) (P : Prop) (kx : obj * obj) : Prop := loadable H (snd kx) /\ (P -> owned H (fst kx)).
Lemma entry_ext P H H' d : ext H H' -> Forall (entry_ok H P) d -> Forall (entry_ok H' P) d.
Proof. intros A. apply Forall_impl. intros kx (I1 & I2). split; eauto using loadable_ext, owned_ext. Qed.
Lemma ok_hashed_go o kt section : K section -> forall stored result H, inv H -> loadable H (ORef section) ->
  Forall (entry_ok H (strictly o kt)) result ->
  okat (fun H' d => Forall (entry_ok H' (strictly o kt)) d) (hhashed_go E ld f o kt section stored result) H.
Proof.
  intros Ks. induction stored as [|h stored IH]; intros result H I Hs Hr; cbn [hhashed_go].
  - destruct (hdget H (atom "-keys") result); [|apply ok_fail]. apply ok_ret. now apply Forall_del.
  - eapply ok_bind; [apply ok_getitem; assumption|]. intros H1 orig A1 Ho.
    eapply ok_bind; [apply ok_ld; eauto using inv_ext|]. intros H2 k A2 Hk.
    assert (A02 : ext H H2) by eauto using ext_trans. cbv beta.
    destruct (hdget H2 h result) as [x|] eqn:Eg; [|apply ok_fail].
    destruct (hashable _ _ && _); [|apply ok_fail].
    eapply ok_bind; [apply ok_del_item; assumption|]. intros H3 [] A3 _.
    assert (A03 : ext H H3) by eauto using ext_trans. apply (entry_ext _ _ _ _ A03) in Hr.
    eapply ok_bind with (P := fun H' d => Forall (entry_ok H' (strictly o kt)) d).
    + apply ok_read. apply Forall_del.
      assert (Hx : loadable H3 x).
      { apply aget_in in Eg as (k2 & Hin). destruct (proj1 (Forall_forall _ _) Hr _ Hin) as [Hx _]. exact Hx. }
      apply Forall_aset; [|split; cbn [fst snd]|assumption].
      * intros k0 x0 [_ R2]. split; assumption.
      * assumption.
      * intros (j & S & Af). eapply owned_ext; [exact A3|]. apply Hk. split; auto.
    + intros H4 result' A4 Hr4. apply IH; eauto using inv_ext, loadable_ext, ext_trans.
Qed.
(** All the types given are free of [Any]. *)
Definition free_args (args : list ty) : Prop := forallb (fun a => negb (has_any a)) args = true.
Lemma ok_hashed o args a k d H : inv H -> loadable H (ORef a) -> nth_error H a = Some (NDict k d) ->
  okat (fun H' dh => Forall (entry_ok H' (J /\ lo_strict o = true /\ free_args args)) (fst dh) /\ (snd dh = false -> fst dh = d) /\ (args = [] -> snd dh = false))
       (hload_hashed_keys E ld f o args d) H.
Proof.
  intros I Hx En. pose proof (cell_items _ _ _ _ Hx En) as Hd. unfold hload_hashed_keys.
  assert (Hplain : forall (P : Prop) H', (P -> J) -> ext H H' -> Forall (entry_ok H' P) d).
  { intros P H' HP A. eapply Forall_impl; [|exact Hd]. intros kx (I1 & I2 & I3).
    split; [eauto using loadable_ext|]. intros p. eauto using owned_ext. }
  destruct (hdget H (atom "-keys") d) as [keys|] eqn:Eg; [|apply ok_ret; split; [apply Hplain; [tauto|apply ext_refl]|auto]].
  pose proof (hdget_text _ _ _ _ Eg) as Hin.
  assert (Hk : loadable H keys) by (eapply loadable_held; eauto; cbn; eauto).
  eapply ok_bind; [apply ok_iter; assumption|]. intros H1 ks A1 [Hks _]. cbv beta.
  destruct ks as [|h ks]; [apply ok_ret; split; [apply Hplain; [tauto|assumption]|auto]|].
  destruct args as [|kt [|vt [|]]]; try apply ok_fail.
  destruct (dict_at H1 keys) as [s|] eqn:Es; [|apply ok_fail].
  assert (keys = ORef s) as -> by (unfold dict_at in Es; destruct keys as [| | |a']; try discriminate; destruct (nth_error H1 a') as [[]|]; congruence).
  eapply ok_bind; [apply ok_hashed_go; eauto using inv_ext, loadable_ext|].
  - exact (lb_sect _ _ Hx a k d s (reaches_ref _ _) En Hin).
  - apply Hplain; [intros (j & _); exact j|assumption].
  - intros H2 d' A2 Hd'. apply ok_ret. cbn [fst snd]. split; [|split; discriminate]. eapply Forall_impl; [|exact Hd']. intros kx [D1 D2].
    split; [assumption|]. intros (j & S & Af). apply D2. split; [assumption|]. split; [assumption|].
    unfold free_args in Af. cbn in *. now apply andb_true_iff in Af as [-> _].
Qed.
Lemma ok_dict_go ok ov g kc vc (P : Prop) :
  forall d acc H, inv H ->
  Forall (fun kx => entry_ok H P kx /\ (P -> copies H (lo_strict ov) vc (snd kx)) /\
                    (forall t, kc = Some t -> loadable H (fst kx) /\ (P -> strictly ok t))) d ->
  (P -> Forall (fun kx => owned H (fst kx) /\ owned H (snd kx)) acc) ->
  okat (fun H' d' => P -> Forall (fun kx => owned H' (fst kx) /\ owned H' (snd kx)) d') (hdeser_dict_go E ld f ok ov g kc vc d acc) H.
Proof.
  induction d as [|[k x] d IH]; intros acc H I Hd Ha; [now apply ok_ret|]. cbn [hdeser_dict_go].
  inversion Hd as [|? ? ([D1 D2] & D3 & D4) Hd']; subst. cbn [fst snd] in *.
  eapply ok_bind with (P := fun H' k1 => (forall t, kc = Some t -> loadable H' k1) /\ (P -> owned H' k1)).
  { destruct g as [g|].
    - eapply ok_weaken; [apply ok_place_res; assumption|]. intros H' y A [B1 B2]. auto.
    - apply ok_ret. split; [|assumption]. intros t Ht. exact (proj1 (D4 _ Ht)). }
  intros H1 k1 A1 [K1 K2].
  eapply ok_bind with (P := fun H' k2 => P -> owned H' k2).
  { destruct kc as [t|]; [|now apply ok_ret]. destruct (D4 _ eq_refl) as [_ Hc].
    eapply ok_weaken; [apply ok_ld; eauto using inv_ext|]. cbn. intros H' y A O p. apply O. destruct (Hc p) as (j & S & Af). split; auto. }
  intros H2 k2 A2 K3. assert (A02 : ext H H2) by eauto using ext_trans.
  eapply ok_bind; [apply ok_ld; eauto using inv_ext, loadable_ext|]. intros H3 y A3 Hy.
  assert (A03 : ext H H3) by eauto using ext_trans. cbv beta.
  destruct (hashable _ _); [|apply ok_fail]. apply IH.
  - eauto using inv_ext.
  - eapply Forall_impl; [|exact Hd']. intros kx ([E1 E2] & E3 & E4).
    split; [split; eauto using loadable_ext, owned_ext|]. split.
    + intros p. eapply copies_ext; eauto.
    + intros t Ht. destruct (E4 _ Ht). eauto using loadable_ext.
  - intros p. apply (Forall_aset (fun kx => owned H3 (fst kx) /\ owned H3 (snd kx))); cbn [fst snd].
    + intros k0 x0 [O1 _]. split; [assumption|]. apply Hy. eapply copies_ext; eauto.
    + split; [eauto using owned_ext|]. apply Hy. eapply copies_ext; eauto.
    + eapply Forall_impl; [|exact (Ha p)]. intros kx [O1 O2]. split; eauto using owned_ext.
Qed.
Definition dict_copies (H : heap) (o : lopts) (args : list ty) (x : obj) : Prop :=
  J /\ (lo_strict o = true /\ free_args args \/ pure H x /\ args = []).
Lemma ok_dict o args x H : inv H -> loadable H x ->
  okat (fun H' d => dict_copies H o args x -> Forall (fun kx => owned H' (fst kx) /\ owned H' (snd kx)) d) (hdeser_dict E ld f o args x) H.
Proof.
  intros I Hx. unfold hdeser_dict.
  eapply ok_bind with (P := fun H' od => H' = H /\ forall d, od = Some d -> exists a k, x = ORef a /\ nth_error H a = Some (NDict k d)).
  { apply ok_read. split; [reflexivity|]. intros d. destruct x as [| | |a]; try discriminate.
    destruct (nth_error H a) as [[]|] eqn:En; try discriminate. intros [= ->]. eauto. }
  intros H1 od A1 [-> Hod]. destruct od as [d|]; [|apply ok_fail]. destruct (Hod _ eq_refl) as (a & k & -> & En).
  eapply ok_bind; [eapply ok_hashed; eassumption|]. intros H2 [d2 b] A2 (Hd & Hsame & Hargs). cbn [fst snd] in *. cbv zeta.
  assert (I2 : inv H2) by eauto using inv_ext.
  pose proof (cell_items _ _ _ _ Hx En) as Hitems.
  assert (Hentry : Forall (entry_ok H2 (dict_copies H o args (ORef a))) d2).
  { apply Forall_forall. intros kx Hin. destruct (proj1 (Forall_forall _ _) Hd _ Hin) as [E1 E2]. split; [assumption|].
    intros (j & [[S Af]|[P ->]]); [auto|]. rewrite (Hsame (Hargs eq_refl)) in Hin.
    destruct (proj1 (Forall_forall _ _) Hitems _ Hin) as (_ & _ & I3). eauto using owned_ext. }
  assert (Hpure : forall kx, In kx d2 -> pure H (ORef a) -> args = [] -> pure H2 (snd kx)).
  { intros [k1 x1] Hin P Ha. rewrite (Hsame (Hargs Ha)) in Hin.
    destruct (proj1 (Forall_forall _ _) Hitems _ Hin) as (_ & I2' & _). eapply pure_ext; [exact A2|exact (lb_valid _ _ I2')|].
    eapply pure_held; eauto. cbn. eauto. }
  match goal with |- context [hdeser_dict_go E ld f ?ok ?ov ?g None None d2 []] =>
    assert (Hplain : okat (fun H' d0 => dict_copies H o args (ORef a) -> Forall (fun kx => owned H' (fst kx) /\ owned H' (snd kx)) d0)
                          (hdeser_dict_go E ld f ok ov g None None d2 []) H2) end.
  { apply ok_dict_go; [assumption| |auto]. apply Forall_forall. intros kx Hin. split; [exact (proj1 (Forall_forall _ _) Hentry _ Hin)|].
    split; [|discriminate]. intros (j & [[S Af]|[P Ha]]); (split; [assumption|]); [left; auto|right; auto]. }
  destruct args as [|tk [|tv [|]]]; try exact Hplain.
  apply ok_dict_go; [assumption| |auto]. apply Forall_forall. intros kx Hin. split; [exact (proj1 (Forall_forall _ _) Hentry _ Hin)|]. split.
  - intros (j & [[S Af]|[_ Hbad]]); [|discriminate]. unfold free_args in Af. cbn in Af. rewrite !andb_true_iff in Af. split; [assumption|]. left. cbn. tauto.
  - intros t Ht. destruct b; [discriminate|]. injection Ht as <-. split.
    + rewrite Hsame in Hin by reflexivity. destruct (proj1 (Forall_forall _ _) Hitems _ Hin) as (I1 & _ & _). eauto using loadable_ext.
    + intros (j & [[S Af]|[_ Hbad]]); [|discriminate]. unfold free_args in Af. cbn in Af. rewrite !andb_true_iff in Af. split; [assumption|]. cbn. tauto.
Qed.
Lemma ok_mapping o t x H : inv H -> loadable H x ->
  okat (fun H' y => dict_copies H o (get_args (Some t)) x -> owned H' y) (hdeser_mapping E ld f o t x) H.
Proof.
  intros I Hx. unfold hdeser_mapping.
  eapply ok_bind with (P := fun _ args => args = get_args (Some t)).
  { apply ok_lift. destruct (get_args (Some t)) as [|a [|b [|]]]; intros args; try discriminate; now intros [= <-]. }
  intros H1 args A1 ->. eapply ok_bind; [apply ok_dict; eauto using inv_ext, loadable_ext|]. intros H2 d A2 Hd.
  assert (I2 : inv H2) by eauto using inv_ext.
  assert (Hd' : dict_copies H o (get_args (Some t)) x -> Forall (fun kx => owned H2 (fst kx) /\ owned H2 (snd kx)) d).
  { intros (j & [C|[P Ha]]); apply Hd; (split; [assumption|]); [auto|]. right. split; [|assumption]. eapply pure_ext; [exact A1|exact (lb_valid _ _ Hx)|exact P]. }
  assert (Hc : okat (fun H' y => dict_copies H o (get_args (Some t)) x -> owned H' y)
                    (fun H => place_res (rt_cast (e_rt E) t (VDict DkDict (map (fun kx => (view H (fst kx), view H (snd kx))) d))) H) H2).
  { cbv beta. eapply ok_weaken; [apply owned_place_res; assumption|]. auto. }
  assert (Ha : forall k, okat (fun H' y => dict_copies H o (get_args (Some t)) x -> owned H' y) (alloc (NDict k d)) H2).
  { intros k. apply owned_alloc; [assumption|]. intros C y (k1 & x1 & Hin & Hy).
    destruct (proj1 (Forall_forall _ _) (Hd' C) _ Hin) as [O1 O2]. cbn in *. destruct Hy as [-> | ->]; assumption. }
  destruct t as [| | | |b h args0| | | | | | | | | |]; try exact Hc; try apply Ha. destruct h; try exact Hc; apply Ha.
Qed.
Lemma ok_defaultdict o t x H : inv H -> loadable H x ->
  okat (fun H' y => strictly o t -> owned H' y) (hdeser_defaultdict ld f o t x) H.
Proof.
  intros I Hx. unfold hdeser_defaultdict.
  eapply ok_bind with (P := fun _ t' => any_free (Some t) = true -> any_free (Some t') = true).
  { apply ok_lift. intros t' Ht Af. pose proof (any_free_args t) as Ha.
    destruct (get_args (Some t)) as [|a [|b [|]]]; try discriminate; injection Ht as <-; [reflexivity|].
    pose proof (Ha a Af (or_introl eq_refl)) as H1. pose proof (Ha b Af (or_intror (or_introl eq_refl))) as H2. cbn [any_free] in *.
    apply negb_true_iff in H1, H2. apply negb_true_iff. cbn [has_any existsb]. now rewrite H1, H2. }
  intros H1 t' A1 Ht'. eapply ok_bind; [apply ok_ld; eauto using inv_ext, loadable_ext|]. intros H2 r A2 Hr. cbv beta.
  assert (I2 : inv H2) by eauto using inv_ext.
  destruct r as [| | |a]; try apply ok_fail. destruct (nth_error H2 a) as [[]|] eqn:En; try apply ok_fail.
  apply owned_alloc; [assumption|]. intros (j & S & Af) y Hy. eapply owned_held; [apply Hr; split; auto|eassumption|exact Hy].
Qed.
(** Values without parts *)
Lemma shallow_atom H x : loadable H x -> valid_type (shallow H x) = true ->
  match shallow H x with VList _ | VTuple _ | VColl _ _ | VDict _ _ => False | _ => True end -> exists v, x = OAtom v.
Proof.
  intros Hx Hv Hs. destruct x as [v|l|c l|a]; cbn [shallow] in *; [eauto|contradiction|discriminate|].
  destruct (nth_error H a) as [[]|] eqn:En; try contradiction; try discriminate.
  exfalso. apply nth_error_None in En. pose proof (lb_valid _ _ Hx a (reaches_ref _ _)). lia.
Qed.
Lemma ok_primitive t x H : J -> inv H -> loadable H x -> valid_type (shallow H x) = true ->
  (exists p, t = TPrim p) \/ e_deser E f t = Some DPrimitive -> okat owned (hdeser_primitive E t x) H.
Proof.
  intros j I Hx Hv Ht. unfold hdeser_primitive.
  assert (Hat : match shallow H x with VList _ | VTuple _ | VColl _ _ | VDict _ _ => False | _ => True end -> okat owned (hret x) H).
  { intros Hs. destruct (shallow_atom _ _ Hx Hv Hs) as (v & ->). apply ok_ret. apply owned_atom. }
  assert (Hno : forall h, naked_sub CT (TApp false h []) t = true -> False).
  { intros h Hn. unfold naked_sub in Hn. cbn [is_class andb] in Hn.
    assert (Ht2 : t = TObject \/ exists b h' args, t = TApp b h' args).
    { destruct t; eauto; exfalso; apply existsb_exists in Hn as (u & Hu & Eu); destruct h; cbn in Hu;
        repeat (destruct Hu as [<-|Hu]; [discriminate Eu|]); destruct Hu. }
    destruct Ht as [(p & ->)|Ht]; [destruct Ht2 as [Eq|(b & h' & args & Eq)]; discriminate|].
    rewrite (DD j) in Ht. destruct Ht2 as [-> |(b & h' & args & ->)]; [rewrite deser_tobject in Ht|rewrite deser_head in Ht; destruct h']; discriminate. }
  destruct (is_none (shallow H x)) eqn:En; [apply Hat; destruct (shallow H x); try discriminate; exact Logic.I|].
  destruct (is_instance (e_ct E) (shallow H x) t) as [[]|e] eqn:Ei; [|apply owned_place_res; assumption|apply ok_fail].
  apply Hat. unfold is_instance in Ei.
  assert (Hn : naked_sub CT (class_of (shallow H x)) t = true).
  { destruct t as [| | | |b h [|]| | | | | | | | | |]; try discriminate; now injection Ei. }
  destruct (shallow H x) as [| | | | |l|l|k l|k d| | | |] eqn:Es; try exact Logic.I; try discriminate Hv.
  - exact (Hno _ Hn).
  - exact (Hno _ Hn).
  - destruct k; try discriminate. exact (Hno _ Hn).
  - destruct k; try discriminate. exact (Hno _ Hn).
Qed.
Lemma ok_any {A} (P : heap -> A -> Prop) m H : okat P m H -> okat (fun _ _ => True) m H.
Proof. intros Hm. eapply ok_weaken; eauto. Qed.
(** ** Strings, time zones, complex numbers *)
Lemma ok_place_any v H : okat (fun _ _ => True) (place v) H.
Proof. eapply ok_any, (fresh_place 0). lia. Qed.
Lemma ok_place_res_any r H : okat (fun _ _ => True) (place_res r) H.
Proof. destruct r; [apply ok_place_any|apply ok_fail]. Qed.
Lemma ok_getitem_any x k H : okat (fun _ _ => True) (hgetitem CT x k) H.
Proof.
  unfold hgetitem. destruct x as [v|l|c l|a]; [apply ok_place_res_any|now apply ok_lift|now apply ok_lift|].
  destruct (nth_error H a) as [[l|[] l|k' d|c l]|]; try apply ok_fail; try (now apply ok_lift).
  destruct (hashable _ _); [|apply ok_fail]. destruct (hdget H k d); [now apply ok_ret|apply ok_fail].
Qed.
Lemma ok_imp {A} (Q : Prop) (P : heap -> A -> Prop) m H :
  okat (fun _ _ => True) m H -> (Q -> okat P m H) -> okat (fun H' y => Q -> P H' y) m H.
Proof. intros [A1 _] HP. split; [assumption|]. intros a Ha q. now apply HP. Qed.
Lemma ok_primitive_any t x H : okat (fun _ _ => True) (hdeser_primitive E t x) H.
Proof.
  unfold hdeser_primitive. destruct (is_none _); [now apply ok_ret|].
  destruct (is_instance _ _ _) as [[]|]; [now apply ok_ret|apply ok_place_res_any|apply ok_fail].
Qed.
Lemma ok_string o t x H : inv H -> loadable H x -> valid_type (shallow H x) = true ->
  okat (fun H' y => J /\ (lo_strict o = true \/ exists s, x = atom s) -> owned H' y) (hdeser_string E ld f o t x) H.
Proof.
  intros I Hx Hv. unfold hdeser_string. destruct (ty_eqb t (TPrim PStr) && negb (lo_inferred o)).
  - apply ok_lift. destruct (py_str _ _); intros y; try discriminate. intros [= <-] _. apply owned_atom.
  - apply ok_try.
    + eapply ok_weaken; [apply ok_ld; eassumption|]. cbn. intros H' y A O (j & C). apply O. split; [assumption|].
      destruct C as [S|(s & ->)]; [left; auto|right]. split; [now apply pure_atom|auto].
    + intros H' e A. destruct (is_deser _); [|apply ok_fail]. eapply ok_weaken; [apply (ok_imp J owned); [apply ok_primitive_any|intros j; apply ok_primitive]|].
      * assumption.
      * eauto using inv_ext.
      * eauto using loadable_ext.
      * now rewrite (shallow_ext _ _ _ A (lb_valid _ _ Hx)).
      * left. eauto.
      * cbn. intros H'' y A' O (j & _). auto.
Qed.
Lemma ok_timezone x H : inv H -> loadable H x -> okat owned (hdeser_timezone E ld x) H.
Proof.
  intros I Hx. unfold hdeser_timezone. eapply ok_bind; [apply ok_getitem; assumption|]. intros H1 off A1 Ho.
  eapply ok_bind; [apply LD; eauto using inv_ext|]. intros H2 td A2 _.
  eapply ok_bind; [apply ok_getitem_any|]. intros H3 nm A3 _.
  destruct td as [[| | | | | | | | |lf| | |]| | |]; try apply ok_fail. destruct lf; try apply ok_fail. destruct nm as [[]| | |]; try apply ok_fail.
  destruct (timezone_ok us); [apply ok_ret, owned_atom|apply ok_fail].
Qed.
Lemma loadable_new H k d : inv H -> Forall (item_ok H) d -> (forall y, ~ In (atom "-keys", y) d) ->
  loadable (H ++ [NDict k d])%list (ORef (length H)).
Proof.
  intros I Hd Hk. pose proof (ext_app H [NDict k d]) as A.
  assert (Hn : nth_error (H ++ [NDict k d])%list (length H) = Some (NDict k d)) by (rewrite nth_error_app2, Nat.sub_diag by lia; reflexivity).
  assert (Hr : forall b, reaches (H ++ [NDict k d])%list (ORef (length H)) b ->
               b = length H \/ exists y, loadable (H ++ [NDict k d])%list y /\ reaches (H ++ [NDict k d])%list y b).
  { intros b Hb. apply reaches_cell in Hb as [-> |(c & y & Hc & Hh & Hb)]; [auto|]. right. exists y. split; [|assumption].
    rewrite Hn in Hc. injection Hc as <-. destruct Hh as (k1 & x1 & Hin & Hy).
    destruct (proj1 (Forall_forall _ _) Hd _ Hin) as (I1 & I2 & _). cbn in *. destruct Hy as [-> | ->]; eauto using loadable_ext. }
  constructor.
  - intros b Hb. destruct (Hr _ Hb) as [-> |(y & [V _ _] & Hy)]; [rewrite app_length; cbn; lia|auto].
  - intros b k1 d1 a Hb Hc Hin. destruct (Hr _ Hb) as [-> |(y & [_ S1 _] & Hy)]; [|eauto].
    rewrite Hn in Hc. injection Hc as <- <-. destruct (Hk _ Hin).
  - intros j b k1 d1 key y0 Hb Hc Hin. destruct (Hr _ Hb) as [-> |(y & [_ _ S2] & Hy)]; [|eauto].
    rewrite Hn in Hc. injection Hc as <- <-. destruct (proj1 (Forall_forall _ _) Hd _ Hin) as (_ & _ & I3). eauto using owned_ext.
Qed.
Lemma ok_complex x H : inv H -> loadable H x -> okat owned (hdeser_complex E ld x) H.
Proof.
  intros I Hx. unfold hdeser_complex. apply ok_try; [|intros H' e A; destruct (_ || _); apply ok_fail].
  eapply ok_bind; [apply ok_getitem; assumption|]. intros H1 re A1 Hre.
  eapply ok_bind; [apply ok_getitem; eauto using inv_ext, loadable_ext|]. intros H2 im A2 Him.
  eapply ok_bind with (P := loadable).
  { apply ok_alloc. apply loadable_new.
    - eauto using inv_ext.
    - apply Forall_cons; [|apply Forall_cons; [|constructor]]; (split; [|split]); cbn [fst snd];
        try (intros _; apply owned_atom); try apply loadable_atom; eauto using loadable_ext.
    - intros y [Hy|[Hy|[]]]; discriminate. }
  intros H3 parts A3 Hp. eapply ok_bind; [apply LD; eauto using inv_ext|]. intros H4 d A4 _.
  eapply ok_bind; [apply ok_getitem_any|]. intros H5 re' A5 _.
  eapply ok_bind; [apply ok_getitem_any|]. intros H6 im' A6 _.
  destruct re' as [[]| | |]; try apply ok_fail. destruct im' as [[]| | |]; try apply ok_fail. apply ok_ret, owned_atom.
Qed.
(** ** Objects *)
Lemma made_owned H H' args y : J -> inv H -> ext H H' -> Forall (owned H) args -> made_of G H H' args y -> owned H' y.
Proof.
  intros j I A Ha Hm a Hr. pose proof (inv_length _ I). pose proof (ext_length _ _ A).
  destruct (Hm _ Hr) as [Hn|[Hg|(x & Hx & Hxa)]].
  - split; [|left]; lia.
  - pose proof (ow_cells _ _ _ (proj2 (HJ j)) a Hg). split; [unfold N in *; lia|auto].
  - destruct (proj1 (Forall_forall _ _) Ha _ Hx _ Hxa) as [B1 B2]. split; [lia|assumption].
Qed.
Lemma default_owned H c a : J -> inv H -> owned H (le_default L c a).
Proof.
  intros j I b Hr. destruct (HJ j) as [_ O]. pose proof (inv_length _ I). enough (Hg : G b).
  { pose proof (ow_cells _ _ _ O b Hg). split; [unfold N in *; lia|auto]. }
  induction Hr as [b Hb|b b' cl y Hr IH Hn Hh Hi]; [exact (ow_default _ _ _ O _ _ _ Hb)|].
  pose proof (ow_cells _ _ _ O b IH) as Hlt. destruct (ext_cell _ _ _ _ I Hlt Hn) as (c0 & Hc0 & [-> |Hl]).
  - exact (ow_closed _ _ _ O _ _ _ _ IH Hc0 Hh Hi).
  - exact (ow_closed _ _ _ O _ _ _ _ IH Hc0 (lost_holds _ _ _ Hl Hh) Hi).
Qed.
Lemma ok_getter a H : inv H -> okat (fun H' y => J -> owned H' y) (le_getter L a) H.
Proof.
  intros I. destruct (ok_adds _ H (qu_getter _ QL a)) as [A _]. split; [assumption|]. intros y Hy j.
  destruct (le_getter L a H) as [H' r] eqn:Eg. cbn [fst snd] in *. subst r.
  apply (made_owned H H' []); auto. exact (ow_getter _ _ _ (proj2 (HJ j)) _ _ _ _ Eg).
Qed.
Definition owned_l (H : heap) (attrs : list (string * obj)) : Prop := Forall (fun ax => owned H (snd ax)) attrs.
Lemma owned_l_snd H attrs : owned_l H attrs -> Forall (owned H) (map snd attrs).
Proof. intros Ha. apply Forall_forall. intros y Hy. apply in_map_iff in Hy as (ax & <- & Hin). exact (proj1 (Forall_forall _ _) Ha _ Hin). Qed.
Lemma owned_l_ext H H' attrs : ext H H' -> owned_l H attrs -> owned_l H' attrs.
Proof. intros A. apply Forall_impl. intros ax. now apply owned_ext. Qed.
Lemma ok_init c args H : inv H -> forall P : Prop, (P -> J /\ owned_l H args) ->
  okat (fun H' attrs => P -> owned_l H' attrs) (le_init L c args) H.
Proof.
  intros I P HP. destruct (ok_adds _ H (qu_init _ QL c args)) as [A _]. split; [assumption|]. intros attrs Hy p. destruct (HP p) as [j Ha].
  destruct (le_init L c args H) as [H' r] eqn:Eg. cbn [fst snd] in *. subst r. apply Forall_forall. intros [a y] Hin.
  apply (made_owned H H' (map snd args)); auto using owned_l_snd. exact (ow_init _ _ _ (proj2 (HJ j)) _ _ _ _ _ _ _ Eg Hin).
Qed.
Lemma ok_set c a x old H : inv H -> forall P : Prop, (P -> J /\ owned H x /\ owned_l H old) ->
  okat (fun H' attrs => P -> owned_l H' attrs) (le_set L c a x old) H.
Proof.
  intros I P HP. destruct (ok_adds _ H (qu_set _ QL c a x old)) as [A _]. split; [assumption|]. intros attrs Hy p. destruct (HP p) as (j & Hx & Ha).
  destruct (le_set L c a x old H) as [H' r] eqn:Eg. cbn [fst snd] in *. subst r. apply Forall_forall. intros [b y] Hin.
  apply (made_owned H H' (x :: map snd old)); auto using owned_l_snd. exact (ow_set _ _ _ (proj2 (HJ j)) _ _ _ _ _ _ _ _ _ Eg Hin).
Qed.
Lemma first_free a b s : any_free a = true -> (forall t, b = Some t -> has_any t = false) -> any_free (determine_precedence a b None s) = true.
Proof.
  intros Ha Hb. unfold determine_precedence. destruct a as [t|], b as [u|], s; cbn [any_free] in *; auto; rewrite (Hb _ eq_refl); reflexivity.
Qed.
Lemma ok_value_from_obj o hints p x c H : inv H -> loadable H x -> In p (ci_params (CT c)) ->
  okat (fun H' y => J /\ lo_strict o = true -> owned H' y) (hvalue_from_obj E ld f o hints p x) H.
Proof.
  intros I Hx Hp. unfold hvalue_from_obj.
  eapply ok_bind with (P := fun _ mh => J -> forall t, fst mh = Some t -> has_any t = false).
  { apply ok_lift. intros [m h] Hm j. cbn [fst]. intros t ->. 
    destruct (dget (VStr ("/" ++ pa_name p)) hints) as [s|]; [|discriminate]. destruct (truthy _ s); [|discriminate].
    destruct s as [| | | |s| | | | | | | |]; try discriminate. destruct (e_resolve E f s) as [u|e] eqn:Er; [|discriminate]. cbn [rbind] in Hm.
    destruct (shift_hints _ hints []); [|discriminate]. injection Hm as -> _. exact (af_names _ _ (proj1 (HJ j)) _ _ Er). }
  intros H1 mh A1 Hm. eapply ok_weaken; [apply (ok_ld (set_hints (Some (snd mh)) o)); eauto using inv_ext, loadable_ext|].
  cbn. intros H2 y A2 O (j & S). apply O. split; [assumption|]. left. split; [assumption|]. apply (first_free (pa_hint p) (fst mh) true); [|auto].
  exact (af_params _ _ (proj1 (HJ j)) c _ Hp).
Qed.
Lemma items_get H d k y : Forall (item_ok H) d -> hdget H k d = Some y -> loadable H y.
Proof. intros Hd Hg. apply aget_in in Hg as (k2 & Hin). destruct (proj1 (Forall_forall _ _) Hd _ Hin) as (_ & Hy & _). exact Hy. Qed.
Lemma ok_value_for_attr o c hints d getters p H : inv H -> Forall (item_ok H) d -> In p (ci_params (CT c)) ->
  okat (fun H' r => J /\ lo_strict o = true -> forall y, r = Some y -> owned H' y) (hvalue_for_attr E L ld f o c hints d getters p) H.
Proof.
  intros I Hd Hp. unfold hvalue_for_attr. destruct (hdget H (atom (pa_name p)) d) as [x|] eqn:Eg.
  - eapply ok_bind; [eapply ok_value_from_obj; eauto using items_get|]. intros H1 y A1 Hy. apply ok_ret. intros C z [= <-]. auto.
  - destruct (sget (pa_name p) getters).
    { eapply ok_bind; [now apply ok_getter|]. intros H1 y A1 Hy. apply ok_ret. intros [j _] z [= <-]. auto. }
    destruct (pa_default p); [apply ok_ret; intros [j _] z [= <-]; now apply default_owned|].
    destruct (pa_var p); [apply ok_ret; discriminate|].
    eapply ok_bind with (P := fun _ _ => True); [now apply ok_lift|]. intros H1 [] A1 _; [|apply ok_fail]. apply ok_ret. intros _ z [= <-]. apply owned_atom.
Qed.
Lemma ok_constructor_args o c hints d getters : forall ps H, inv H -> Forall (item_ok H) d -> incl ps (ci_params (CT c)) ->
  okat (fun H' args => J /\ lo_strict o = true -> owned_l H' args) (hconstructor_args E L ld f o c hints d getters ps) H.
Proof.
  induction ps as [|p ps IH]; intros H I Hd Hp; [apply ok_ret; constructor|]. cbn [hconstructor_args].
  eapply ok_bind; [apply ok_value_for_attr; auto; apply Hp; now left|]. intros H1 r A1 Hr.
  eapply ok_bind; [apply IH; eauto using inv_ext, items_ext|].
  { intros q Hq. apply Hp. now right. }
  intros H2 rest A2 Hrest. apply ok_ret. intros C. destruct r as [y|]; [|auto]. constructor; [|now apply Hrest]. cbn. eapply owned_ext; [exact A2|]. apply Hr; auto.
Qed.
Lemma ok_remaining strict d args H : Forall (item_ok H) d ->
  okat (fun H' rest => Forall (item_ok H') rest /\ (strict = true -> rest = [])) (hremaining_args strict d args) H.
Proof.
  intros Hd. unfold hremaining_args. cbv beta zeta.
  match goal with |- context [filter ?g d] => assert (Hf : Forall (item_ok H) (filter g d)) end.
  { apply Forall_forall. intros kx Hin. apply filter_In in Hin as [Hin _]. exact (proj1 (Forall_forall _ _) Hd _ Hin). }
  destruct (filter _ d) as [|[k x] rest]; [now apply ok_ret|]. destruct strict; [apply ok_fail|]. apply ok_ret. split; [assumption|discriminate].
Qed.
Lemma ok_set_remaining o c : forall rest attrs H, inv H -> Forall (item_ok H) rest ->
  okat (fun _ attrs' => rest = [] -> attrs' = attrs) (hset_remaining E L ld f o c rest attrs) H.
Proof.
  induction rest as [|[k x] rest IH]; intros attrs H I Hr; [now apply ok_ret|]. cbn [hset_remaining].
  inversion Hr as [|? ? (R1 & R2 & R3) Hr']; subst. cbn [fst snd] in *.
  eapply ok_bind with (P := fun _ _ => True); [now apply ok_read|]. intros H1 t A1 _.
  eapply ok_bind; [apply ok_ld; eauto using inv_ext, loadable_ext|]. intros H2 y A2 _.
  assert (A02 : ext H H2) by eauto using ext_trans. destruct (key_str k) as [a|]; [|apply ok_fail].
  eapply ok_bind; [apply ok_catch; apply ok_adds; apply (qu_set _ QL)|]. intros H3 [attrs'|e] A3 _.
  - eapply ok_weaken; [apply IH; eauto using inv_ext, items_ext, ext_trans|]. discriminate.
  - destruct (is_attributeerror _); [|apply ok_fail]. eapply ok_weaken; [apply IH; eauto using inv_ext, items_ext, ext_trans|]. discriminate.
Qed.
Lemma ok_set_getter_attrs c (P : Prop) : (P -> J) -> forall gs attrs H, inv H -> (P -> owned_l H attrs) ->
  okat (fun H' attrs' => P -> owned_l H' attrs') (hset_getter_attrs L c gs attrs) H.
Proof.
  intros HP. induction gs as [|[a r] gs IH]; intros attrs H I Ha; [now apply ok_ret|]. cbn [hset_getter_attrs].
  eapply ok_bind; [now apply ok_getter|]. intros H1 y A1 Hy.
  eapply ok_bind; [apply (ok_set c a y attrs) with (P := P); [eauto using inv_ext|]|].
  { intros p. split; [auto|]. split; [auto|]. eapply owned_l_ext; eauto. }
  intros H2 attrs' A2 Ha'. apply IH; [eauto using inv_ext, ext_trans|assumption].
Qed.
Lemma items_nil H : Forall (item_ok H) [].
Proof. constructor. Qed.
Lemma ok_object o t x H : inv H -> loadable H x ->
  okat (fun H' y => J /\ lo_strict o = true -> owned H' y) (hdeser_object E L ld f o t x) H.
Proof.
  intros I Hx. unfold hdeser_object. destruct (cid_of E t) as [c|]; [|apply ok_fail].
  eapply ok_bind with (P := fun H' d => Forall (item_ok H') d).
  { apply ok_lift. unfold hobj_items. intros d. destruct x as [v|[|]|c' [|]|a]; try discriminate; try (intros [= <-]; apply items_nil).
    - destruct v as [| | | |[|]| | | | | | | |]; try discriminate. intros [= <-]. apply items_nil.
    - destruct (nth_error H a) as [[[|]|k [|]|k d'|c' l]|] eqn:En; try discriminate; intros [= <-]; try apply items_nil.
      eapply cell_items; eauto. }
  intros H1 d0 A1 Hd0. eapply ok_bind with (P := fun H' d => Forall (item_ok H') d).
  { destruct (lo_kt o); [apply ok_transform; eauto using inv_ext, items_nil|now apply ok_ret]. }
  intros H2 d A2 Hd. cbv zeta. assert (I2 : inv H2) by eauto using inv_ext.
  eapply ok_bind; [apply (ok_constructor_args (set_getters [] o)); [assumption..|apply incl_refl]|]. intros H3 args A3 Hargs. cbn [lo_strict set_getters] in Hargs.
  eapply ok_bind; [apply ok_remaining; eauto using items_ext|]. intros H4 rest A4 [Hrest Hstrict].
  assert (A24 : ext H2 H4) by eauto using ext_trans. assert (I4 : inv H4) by eauto using inv_ext.
  eapply ok_bind; [apply ok_init with (P := J /\ lo_strict o = true); [assumption|]|].
  { intros C. split; [tauto|]. eapply owned_l_ext; [exact A4|auto]. }
  intros H5 attrs A5 Hattrs. assert (I5 : inv H5) by eauto using inv_ext.
  eapply ok_bind; [apply ok_set_remaining; eauto using items_ext|]. intros H6 attrs1 A6 Hattrs1.
  eapply ok_bind; [apply ok_set_getter_attrs with (P := J /\ lo_strict o = true); [tauto|eauto using inv_ext|]|].
  { intros C. rewrite Hattrs1 by (apply Hstrict; tauto). eapply owned_l_ext; [exact A6|auto]. }
  intros H7 attrs2 A7 Hattrs2. apply owned_alloc; [eauto using inv_ext|].
  intros C y (a & Hin). exact (proj1 (Forall_forall _ _) (Hattrs2 C) _ Hin).
Qed.
(** ** The dispatch *)
Lemma get_lizer_in (W : gworld ty) (T : gtable ty dhandler) t h : lookup W T t = Some h -> exists s, In (s, h) (t_map T).
Proof.
  unfold lookup, get_lizer.
  assert (Hf : forall c r, get_lizer_flat W c T = Ok (Some r) -> exists s, In (s, r) (t_map T)).
  { intros c r. unfold get_lizer_flat, get_lizer_by_parents. destruct (sget (lname W c) (t_map T)) as [g|] eqn:Eg.
    - intros [= <-]. apply sget_in in Eg. eauto.
    - destruct (get_parents W c (t_classes T)) as [|[p|] ps]; try discriminate.
      destruct (sget (lname W p) (t_map T)) as [g|] eqn:Ep; [|discriminate]. intros [= <-]. apply sget_in in Ep. eauto. }
  destruct (get_lizer_flat W t T) as [[g|]|e] eqn:Ef; cbn [rbind]; try discriminate.
  - intros [= <-]. eauto.
  - destruct (w_super W t) as [s|]; [|discriminate]. destruct (get_lizer_flat W s T) as [[g|]|e] eqn:Es; try discriminate.
    intros [= <-]. eauto.
Qed.
Lemma no_custom t n : J -> e_deser E f t <> Some (DCustom n).
Proof.
  intros j. rewrite (DD j), default_deser_eq. intros Hl. apply get_lizer_in in Hl as (s & Hin). cbn in Hin.
  repeat (destruct Hin as [Hin|Hin]; [discriminate Hin|]). exact Hin.
Qed.
(** A document loaded as what it is, or as a datetime *)
Definition natural (H : heap) (t : ty) (x : obj) : Prop :=
  J /\ pure H x /\ (t = class_of (shallow H x) \/ t = TLeaf LkDatetime).
Lemma natural_handler H t x h : loadable H x -> valid_type (shallow H x) = true -> natural H t x -> e_deser E f t = Some h ->
  In h [DDatetime; DNone; DPrimitive] \/ (h = DString /\ exists s, x = atom s) \/
  (In h [DList; DTuple; DIterable; DMapping] /\ as_it_is H t x).
Proof.
  intros Hx Hv (j & P & Ht) He. rewrite (DD j) in He. destruct Ht as [-> | ->].
  - assert (As : forall c, (forall k, class_of (shallow H x) <> TClass k) -> get_args (Some (class_of (shallow H x))) = [] -> c = h -> as_it_is H (class_of (shallow H x)) x).
    { intros c H1 H2 _. split; [|split; [|split; [|split]]]; assumption. }
    destruct (shallow H x) as [| | | |s|l|l|k l|k d| | | |] eqn:Es; try discriminate Hv; cbn [class_of] in *.
    + rewrite deser_none in He. injection He as <-. left. cbn. auto.
    + rewrite deser_prim in He. injection He as <-. left. cbn. auto.
    + rewrite deser_prim in He. injection He as <-. left. cbn. auto.
    + rewrite deser_prim in He. injection He as <-. left. cbn. auto.
    + rewrite deser_prim in He. injection He as <-. right. left. split; [reflexivity|]. exists s.
      destruct x as [v| | |a]; cbn [shallow] in Es; try discriminate; [now rewrite Es|].
      destruct (nth_error H a) as [[]|]; discriminate.
    + rewrite deser_head in He. injection He as <-. right. right. split; [cbn; auto|]. eapply As; [discriminate|reflexivity..].
    + rewrite deser_head in He. injection He as <-. right. right. split; [cbn; auto|]. eapply As; [discriminate|reflexivity..].
    + destruct k; try discriminate Hv. rewrite deser_head in He. injection He as <-. right. right. split; [cbn; auto|]. eapply As; [discriminate|reflexivity..].
    + destruct k; try discriminate Hv. rewrite deser_head in He. injection He as <-. right. right. split; [cbn; auto|]. eapply As; [discriminate|reflexivity..].
  - rewrite deser_leaf in He. injection He as <-. left. cbn. auto.
Qed.
Lemma owned_text g e x H : okat owned (hdeser_text g e x) H.
Proof.
  unfold hdeser_text. destruct x as [[]| | |]; try apply ok_fail. apply ok_lift. intros y. destruct (g s); [|discriminate]. intros [= <-]. apply owned_atom.
Qed.
Lemma free_of t : any_free (Some t) = true -> free_args (get_args (Some t)).
Proof. intros Af. apply forallb_forall. intros a Ha. exact (any_free_args t a Af Ha). Qed.
Lemma hd_free t : any_free (Some t) = true -> any_free (hd_error (get_args (Some t))) = true.
Proof. intros Af. pose proof (any_free_args t) as Ha. destruct (get_args (Some t)) as [|a l]; [reflexivity|]. apply Ha; [assumption|now left]. Qed.
Lemma in_elements H o t x : strictly o t \/ as_it_is H t x -> copies_in H (lo_strict o) (hd_error (get_args (Some t))) x.
Proof.
  intros [(j & S & Af)|(j & P & V & Ha & _)]; (split; [assumption|]); [left; auto using hd_free|]. right. rewrite Ha. auto.
Qed.
Lemma in_dict H o t x : strictly o t \/ as_it_is H t x -> dict_copies H o (get_args (Some t)) x.
Proof. intros [(j & S & Af)|(j & P & V & Ha & _)]; (split; [assumption|]); [left; auto using free_of|auto]. Qed.
Lemma ok_step o h t x H : inv H -> loadable H x -> valid_type (shallow H x) = true ->
  okat (fun H' y => e_deser E f t = Some h -> strictly o t \/ natural H t x -> owned H' y) (hdeser_step E L ld f o h t x) H.
Proof.
  intros I Hx Hv.
  assert (Nat : forall h', h = h' -> ~ In h' [DDatetime; DNone; DPrimitive] -> h' <> DString -> e_deser E f t = Some h ->
                strictly o t \/ natural H t x -> strictly o t \/ (In h' [DList; DTuple; DIterable; DMapping] /\ as_it_is H t x)).
  { intros h' <- N1 N2 He [S|Na]; [auto|]. right. destruct (natural_handler _ _ _ _ Hx Hv Na He) as [Hb|[[Hb _]|Hb]]; tauto. }
  assert (Two : forall m : hM obj, okat owned m H -> okat (fun H' y => e_deser E f t = Some h -> strictly o t \/ natural H t x -> owned H' y) m H).
  { intros m Hm. eapply ok_weaken; [exact Hm|]. auto. }
  assert (Two0 : forall m : hM obj, okat owned m H -> okat (fun H' y => strictly o t \/ natural H t x -> owned H' y) m H).
  { intros m Hm. eapply ok_weaken; [exact Hm|]. auto. }
  destruct h; cbn [hdeser_step];
    try (apply Two; first [apply owned_text|now apply ok_timezone|now apply ok_complex]).
  all: try (pose proof (Nat _ eq_refl ltac:(cbn; intuition discriminate) ltac:(discriminate)) as Nat').
  - (* DList *) eapply ok_bind; [apply ok_list; assumption|]. intros H1 l A1 Hl. eapply ok_weaken; [apply owned_alloc with (P := Forall (owned H1) l); [eauto using inv_ext|]|].
    + intros Ho y Hy. exact (proj1 (Forall_forall _ _) Ho _ Hy).
    + cbn. intros H2 y A2 O He C. apply O, Hl. apply in_elements. destruct (Nat' He C) as [S|[_ A]]; auto.
  - (* DTuple *) eapply ok_weaken; [apply ok_tuple; assumption|]. cbn. intros H2 y A2 O He C. apply O. destruct (Nat' He C) as [S|[_ A]]; auto.
  - (* DUnion *) eapply ok_weaken; [apply ok_union; assumption|]. cbn. intros H2 y A2 O He C. apply O. destruct (Nat' He C) as [S|[Hin _]]; [assumption|].
    cbn in Hin. intuition discriminate.
  - (* DDefaultDict *) eapply ok_weaken; [apply ok_defaultdict; assumption|]. cbn. intros H2 y A2 O He C. apply O. destruct (Nat' He C) as [S|[Hin _]]; [assumption|].
    cbn in Hin. intuition discriminate.
  - (* DTimedelta *) apply (Two (fun H => place_res (deser_timedelta (shallow H x)) H)). now apply owned_place_res.
  - (* DString *) eapply ok_weaken; [apply ok_string; assumption|]. cbn. intros H2 y A2 O He C. apply O.
    destruct C as [(j & S & _)|Na]; [auto|]. split; [exact (proj1 Na)|]. right.
    destruct (natural_handler _ _ _ _ Hx Hv Na He) as [Hb|[[_ Hb]|[Hb _]]]; [|assumption|]; cbn in Hb; intuition discriminate.
  - (* DNone *) destruct (is_none (shallow H x)) eqn:En; [|apply ok_fail]. apply (Two (hret x)). apply ok_ret.
    destruct (shallow_atom _ _ Hx Hv) as (v & ->); [destruct (shallow H x); try discriminate; exact Logic.I|apply owned_atom].
  - (* DPrimitive *) apply ok_imp; [apply ok_primitive_any|]. intros He. eapply ok_weaken; [apply (ok_imp J owned); [apply ok_primitive_any|intros j; apply ok_primitive; auto]|].
    cbn. intros H2 y A2 O [(j & _)|(j & _)]; auto.
  - (* DEnum *) apply (Two (fun H => place_res (deser_enum (e_ct E) (lo_enum_name o) t (view H x)) H)). now apply owned_place_res.
  - (* DMapping *) eapply ok_weaken; [apply ok_mapping; assumption|]. cbn. intros H2 y A2 O He C. apply O. apply in_dict. destruct (Nat' He C) as [S|[_ A]]; auto.
  - (* DIterable *) eapply ok_weaken; [apply ok_iterable; assumption|]. cbn. intros H2 y A2 O He C. apply O. apply in_elements. destruct (Nat' He C) as [S|[_ A]]; auto.
  - (* DObject *) eapply ok_weaken; [apply ok_object; assumption|]. cbn. intros H2 y A2 O He C. apply O. destruct (Nat' He C) as [(j & S & _)|[Hin _]]; [auto|].
    cbn in Hin. intuition discriminate.
  - (* DDecimal *) apply (Two (fun H => hlift _ H)). apply ok_lift. intros y. destruct (rt_decimal _ _); [|discriminate]. intros [= <-]. apply owned_atom.
  - (* DPath *) apply (Two (fun H => hlift _ H)). apply ok_lift. intros y. destruct (rt_path _ _); [|discriminate]. intros [= <-]. apply owned_atom.
  - (* DZone *) apply Two. eapply ok_bind; [apply ok_getitem_any|]. intros H1 k A1 _. cbv beta.
    apply ok_lift. intros y. destruct (rt_zone _ _); [|discriminate]. intros [= <-]. apply owned_atom.
  - (* DCustom *) eapply ok_weaken; [apply ok_adds; apply (qu_cdeser _ QL)|]. cbn. intros H2 y A2 _ He [(j & _)|(j & _)]; destruct (no_custom _ _ j He).
Qed.
(** ** One call of load *)
Lemma class_free v : has_any (class_of v) = false.
Proof. destruct v as [| | | | | | |[]|[]| | | |]; reflexivity. Qed.
Lemma ok_validate x t H : okat (fun _ _ => True) (hvalidate E f x t) H.
Proof. unfold hvalidate. now apply ok_lift. Qed.
Lemma ok_meta x H : loadable H x ->
  okat (fun H' mh => H' = H /\ (pure H x -> fst mh = None) /\ (J -> forall t, fst mh = Some t -> has_any t = false)) (hcls_and_meta E f x) H.
Proof.
  intros Hx. unfold hcls_and_meta.
  assert (Hn : okat (fun H' (mh : option ty * list (value * value)) => H' = H /\ (pure H x -> fst mh = None) /\ (J -> forall t, fst mh = Some t -> has_any t = false)) (hret (None, [])) H).
  { apply ok_ret. cbn. split; [reflexivity|]. split; [reflexivity|discriminate]. }
  destruct x as [| | |a]; try exact Hn. destruct (nth_error H a) as [[| |k d|]|] eqn:En; try exact Hn.
  destruct (hdget H (atom "-meta") d) as [y|] eqn:Eg; [|exact Hn]. apply hdget_text in Eg. apply ok_lift. intros mh Hm. split; [reflexivity|]. split.
  - intros (P & _). destruct (P _ _ _ _ (reaches_ref _ _) En Eg).
  - intros j t Ht. destruct (HJ j) as [Af _]. unfold get_cls_and_meta in Hm.
    change (dget (VStr "-meta") [(VStr "-meta", view H y)]) with (Some (view H y)) in Hm. cbv beta iota in Hm.
    destruct (py_getitem (e_ct E) (view H y) (VStr "classes")) as [cl|]; [|discriminate]. cbn [rbind] in Hm.
    destruct (py_getitem (e_ct E) cl (VStr "/")) as [s|]; [|discriminate]. cbn [rbind] in Hm.
    destruct s as [| | | |s| | | | | | | |]; try discriminate. destruct cl; try discriminate.
    destruct (e_resolve E f s) as [u|] eqn:Er; [|discriminate]. cbn [rbind] in Hm. injection Hm as <-. cbn in Ht. injection Ht as <-. exact (af_names _ _ Af _ _ Er).
Qed.
Lemma ok_load_step o cls x H : inv H -> loadable H x ->
  okat (fun H' y => copies H (lo_strict o) cls x -> owned H' y) (hload_step E L ld f o cls x) H.
Proof.
  intros I Hx. unfold hload_step.
  eapply ok_bind with (P := fun H' sh => H' = H /\ sh = shallow H x); [now apply ok_read|]. intros H1 sh A1 [-> ->].
  eapply ok_bind with (P := fun H' _ => H' = H).
  { destruct (is_none _); [|now apply ok_ret]. eapply ok_bind with (P := fun H' _ => H' = H); [now apply ok_lift|].
    intros H1 [] _ ->; [now apply ok_ret|apply ok_fail]. }
  intros H1 [] _ ->.
  destruct ((negb (lo_strict o) && same_type (shallow H x) cls) || match cls with Some TAny => true | _ => false end) eqn:Es.
  - eapply ok_bind with (P := fun H' _ => H' = H).
    { destruct cls as [t|]; [|now apply ok_ret]. unfold hvalidate. now apply ok_lift. }
    intros H1 [] _ ->. apply ok_ret. intros (j & [[S Af]|[P [-> | ->]]]).
    + rewrite S in Es. cbn in Es. destruct cls as [[]|]; discriminate.
    + rewrite andb_false_r in Es. discriminate.
    + rewrite orb_false_r in Es. apply andb_true_iff in Es as [_ Es]. cbn [same_type] in Es.
      destruct x as [v|l|c l|a]; [apply owned_atom|discriminate|discriminate|]. cbn [shallow] in Es.
      destruct (nth_error H a) as [[|[] l|[] d|]|]; discriminate.
  - apply orb_false_iff in Es as [_ Eany].
    eapply ok_bind with (P := fun H' cls1 => H' = H /\ (copies H (lo_strict o) cls x -> copies H (lo_strict o) cls1 x)).
    { apply ok_lift. intros cls1 Hc. split; [reflexivity|]. intros (j & [[S Af]|[P Hd]]).
      - split; [assumption|]. left. split; [assumption|]. destruct cls as [t|]; [|injection Hc as <-; assumption].
        destruct t; try (injection Hc as <-; assumption). destruct (e_resolve E f s) as [u|] eqn:Er; [|discriminate]. injection Hc as <-.
        cbn. now rewrite (af_names _ _ (proj1 (HJ j)) _ _ Er).
      - split; [assumption|]. right. split; [assumption|]. destruct Hd as [-> | ->]; injection Hc as <-; auto. }
    intros H1 cls1 _ [-> Hc]. destruct (negb (valid_type (shallow H x))) eqn:Ev; [apply ok_fail|]. apply negb_false_iff in Ev.
    eapply ok_bind; [now apply ok_meta|]. intros H1 [m hm] _ (-> & Hm1 & Hm2). cbn [fst snd] in *.
    destruct (determine_precedence cls1 m (Some (class_of (shallow H x))) (lo_inferred o)) as [t|] eqn:Et; [|apply ok_fail].
    destruct (e_deser E f t) as [h|] eqn:Eh; [|apply ok_fail]. cbv zeta. unfold hwrap_deser.
    apply ok_try; [|intros H' e A; apply ok_fail].
    match goal with |- context [hdeser_step E L ld f ?o' h t x] => set (o1 := o') end.
    eapply ok_bind; [apply (ok_step o1); assumption|]. intros H1 r A11 Hr. specialize (Hr Eh).
    eapply ok_bind; [apply ok_validate|]. intros H2 [] A2 _. apply ok_ret. intros C. apply Hc in C. eapply owned_ext; [exact A2|].
    apply Hr. destruct C as (j & [[S Af]|[P Hd]]).
    + left. split; [assumption|]. split; [exact S|]. cbn. apply negb_true_iff. unfold determine_precedence in Et.
      pose proof (class_free (shallow H x)). destruct (lo_inferred o), m as [u|], cls1 as [w|]; injection Et as <-; auto;
        cbn in Af; now apply negb_true_iff in Af.
    + right. split; [assumption|]. split; [assumption|]. rewrite (Hm1 P) in Et. unfold determine_precedence in Et.
      destruct Hd as [-> | ->]; destruct (lo_inferred o); injection Et as <-; auto.
Qed.
End Region.

(** ** load *)
Lemma loadable_no_results H0 K G J H x : loadable H0 K G J H x -> loadable H0 K G False H x.
Proof. intros [V S1 S2]. constructor; auto. intros []. Qed.
Section Load.
Variables (E : env) (L : lenv) (H0 : heap) (K G : nat -> Prop).
Hypothesis KN : forall a, length H0 <= a -> K a.
Hypothesis QL : quiet L.
Notation okat' P m H := (okr K P H (m H)).
Lemma load_grows : (forall c n, loadable H0 K G False H0 (le_field L c n)) ->
  forall n f o cls x H, inv H0 K H -> loadable H0 K G False H x -> okat' (fun _ _ => True) (hload E L n f o cls x) H.
Proof.
  intros HF. induction n as [|n IH]; intros f o cls x H I Hx; [split; [apply ext_refl|discriminate]|]. cbn [hload].
  eapply ok_weaken; [apply (ok_load_step E L f H0 K G False KN (hload E L n)); auto|auto].
  - intros g o' cls' y H' I' Hy. eapply ok_weaken; [now apply IH|]. intros H'' z _ _ _ [[] _].
  - intros [].
  - intros [].
Qed.
Lemma load_owned f : (forall c n, loadable H0 K G True H0 (le_field L c n)) ->
  default_deserializers E f -> any_free_hints E f -> owns G L H0 ->
  forall n o cls x H, inv H0 K H -> loadable H0 K G True H x ->
  okat' (fun H' y => copies True H (lo_strict o) cls x -> owned H0 G H' y) (hload E L n f o cls x) H.
Proof.
  intros HF DD HA HO. induction n as [|n IH]; intros o cls x H I Hx; [split; [apply ext_refl|discriminate]|]. cbn [hload].
  apply (ok_load_step E L f H0 K G True KN (hload E L n)); auto.
  intros g o' cls' y H' I' Hy. destruct (Nat.eq_dec g f) as [-> |Hg].
  - eapply ok_weaken; [now apply IH|]. cbn. auto.
  - eapply ok_weaken; [apply load_grows; eauto using loadable_no_results|]. intros H'' z _ _ Eq. contradiction.
Qed.
End Load.

(** ** The statements of C73 *)
Section Statements.
Variables (E : env) (L : lenv) (H : heap).
Definition sections (x : obj) (a : nat) : Prop :=
  length H <= a \/ keys_section H x a \/ exists c n, keys_section H (le_field L c n) a.
Lemma load_argument n f o cls x H' r :
  quiet L -> valid H x -> (forall c m, valid H (le_field L c m)) ->
  hload E L n f o cls x H = (H', r) ->
  forall a c, nth_error H a = Some c ->
  nth_error H' a = Some c \/
  ((keys_section H x a \/ exists i m, keys_section H (le_field L i m) a) /\ exists c', nth_error H' a = Some c' /\ lost_entries c c').
Proof.
  intros QL V VF Hl a c Ha.
  assert (Hx : forall y, valid H y -> (forall b, keys_section H y b -> sections x b) -> loadable H (sections x) (fun _ => True) False H y).
  { intros y Vy Sy. constructor; [assumption| |intros []]. intros b k d s Hb Hn Hin. apply Sy. exists b, k, d. auto. }
  destruct (load_grows E L H (sections x) (fun _ => True)) with (n := n) (f := f) (o := o) (cls := cls) (x := x) (H := H) as [A _].
  - intros b Hb. now left.
  - assumption.
  - intros i m. apply Hx; [auto|]. intros b Hb. right. right. eauto.
  - apply ext_refl.
  - apply Hx; [assumption|]. intros b Hb. right. now left.
  - rewrite Hl in A. cbn [fst] in A. destruct (A _ _ Ha) as [?|([Hlt|Hs] & Hc)]; [auto| |auto].
    assert (nth_error H a <> None) as Hs by congruence. apply nth_error_Some in Hs. lia.
Qed.
Lemma single_owned G H1 y : single y -> owned H G H1 y.
Proof. intros (v & ->). apply owned_atom. Qed.
Lemma load_result G n f o cls x H' y :
  quiet L -> valid H x -> simple_keys H x -> (forall c m, valid H (le_field L c m) /\ simple_keys H (le_field L c m)) ->
  default_deserializers E f -> any_free_hints E f -> owns G L H ->
  (lo_strict o = true /\ any_free cls = true) \/ (cls = None /\ without_meta H x /\ flat_atoms H x) ->
  hload E L n f o cls x H = (H', Done y) ->
  forall a, reaches H' y a -> a < length H' /\ (length H <= a \/ G a).
Proof.
  intros QL V SK VF DD HA HO C Hl.
  assert (Hx : forall z, valid H z -> simple_keys H z -> loadable H (fun _ => True) G True H z).
  { intros z Vz Sz. constructor; [assumption|auto|]. intros _ b k d key w Hb Hn Hin. apply single_owned. eapply Sz; eauto. }
  destruct (load_owned E L H (fun _ => True) G) with (f := f) (n := n) (o := o) (cls := cls) (x := x) (H := H) as [_ O]; auto.
  - intros c m. destruct (VF c m). auto.
  - apply ext_refl.
  - rewrite Hl in O. apply (O _ eq_refl). split; [exact Logic.I|]. destruct C as [C|(-> & C)]; [auto|]. right. auto.
Qed.
(** A list or dict of the wanted type is returned as it is. *)
Lemma load_same n f o t x :
  lo_strict o = false -> kind H x = t -> e_validator E f t = None -> is_none (shallow H x) = false ->
  hload E L (S n) f o (Some t) x H = (H, Done x).
Proof.
  intros S Hk Hv Hn. cbn [hload]. unfold hload_step, hbind at 1, hread. rewrite Hn. unfold hbind at 1, hret at 1.
  unfold same_type. unfold kind in Hk. rewrite Hk, S.
  rewrite ty_eqb_refl. cbn [negb andb orb]. unfold hbind, hvalidate, validate. now rewrite Hv.
Qed.
End Statements.
