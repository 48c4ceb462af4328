(** * Facts about equality of keys and about dicts with distinct keys *)
From Verif Require Import PyBaseFacts EngineFacts DumpProofs DumpLaws LoadFacts.
From Verif Require Export HashedSpec.
Local Close Scope Z_scope.
Local Open Scope string_scope.

(** ** Equality of keys is symmetric *)
Lemma num_eqb_sym a b : num_eqb a b = num_eqb b a.
Proof. unfold num_eqb. rewrite (Z.min_comm (snd b)). apply Z.eqb_sym. Qed.
Lemma list_eqb_sym {X} (eqb : X -> X -> bool) l : Forall (fun x => forall y, eqb x y = eqb y x) l ->
  forall m, list_eqb eqb l m = list_eqb eqb m l.
Proof.
  induction 1 as [|x l Hx _ IH]; intros [|y m]; cbn; try reflexivity. now rewrite Hx, IH.
Qed.
Lemma coll_eqb_sym a b : coll_eqb a b = coll_eqb b a.
Proof. now destruct a, b. Qed.
Lemma leaf_dec_sym (x y : leaf) : (if leaf_eq_dec x y then true else false) = (if leaf_eq_dec y x then true else false).
Proof. destruct (leaf_eq_dec x y), (leaf_eq_dec y x); congruence || reflexivity. Qed.
Lemma py_eqb_sym : forall a b, py_eqb a b = py_eqb b a.
Proof.
  induction a as [|b1|z1|x1|s1|l1 H1|l1 H1|k1 l1 H1|k1 d1 H1|x1|c1 m1|c1 l1 H1|c1 d1 H1] using value_ind';
    intros [|b2|z2|x2|s2|l2|l2|k2 l2|k2 d2|x2|c2 m2|c2 l2|c2 d2]; try reflexivity;
    try (destruct x1; reflexivity); try (destruct x2; reflexivity);
    try (cbn [py_eqb num_of]; apply num_eqb_sym);
    try (destruct x1; try reflexivity; cbn [py_eqb num_of]; apply num_eqb_sym);
    try (destruct x2; try reflexivity; cbn [py_eqb num_of]; apply num_eqb_sym); cbn [py_eqb].
  - destruct x1, x2; try reflexivity; cbn [py_eqb num_of]; try apply num_eqb_sym. now destruct neg, neg0.
  - apply String.eqb_sym.
  - now apply list_eqb_sym.
  - now apply list_eqb_sym.
  - rewrite coll_eqb_sym. f_equal. now apply list_eqb_sym.
  - apply list_eqb_sym. eapply Forall_impl; [|exact H1]. intros [a x] [Ha Hx] [b y]. cbn in *. now rewrite Ha, Hx.
  - apply leaf_dec_sym.
  - now rewrite Nat.eqb_sym, String.eqb_sym.
  - rewrite Nat.eqb_sym. f_equal. now apply list_eqb_sym.
  - rewrite Nat.eqb_sym. f_equal. apply list_eqb_sym. eapply Forall_impl; [|exact H1]. intros [a x] Hx [b y].
    cbn in *. now rewrite String.eqb_sym, Hx.
Qed.

(** ** Distinct keys *)
Lemma distinct_perm l l' : Permutation l l' -> distinct l -> distinct l'.
Proof.
  unfold distinct. induction 1 as [|x l l' HP IH|x y l|l l' l'' HP1 IH1 HP2 IH2]; intros H; auto.
  - inversion H as [|? ? Hx Hl]; subst. constructor; [|auto]. rewrite Forall_forall in *. intros z Hz.
    apply Hx. now apply Permutation_in with l'; [apply Permutation_sym|].
  - inversion H as [|? ? Hx Hl]; subst. inversion Hl as [|? ? Hy Hl']; subst. inversion Hx as [|? ? Hxy Hx']; subst.
    constructor; [constructor; [now rewrite py_eqb_sym|exact Hy]|constructor; auto].
Qed.
Lemma distinct_app_mid l k m : distinct (l ++ k :: m) ->
  (forall k', In k' (l ++ m) -> py_eqb k k' = false) /\ distinct (l ++ m).
Proof.
  intros H. apply (distinct_perm _ (k :: l ++ m)) in H; [|symmetry; apply Permutation_middle].
  inversion H as [|? ? Hx Hl]; subst. rewrite Forall_forall in Hx. auto.
Qed.
Lemma distinct_cons k l : (forall k', In k' l -> py_eqb k k' = false) -> distinct l -> distinct (k :: l).
Proof. intros H1 H2. constructor; [now apply Forall_forall|exact H2]. Qed.
Lemma distinct_snoc l k : distinct (l ++ [k]) <-> distinct l /\ (forall k', In k' l -> py_eqb k k' = false).
Proof.
  split.
  - intros H. apply distinct_app_mid in H as [H1 H2]. rewrite app_nil_r in *. auto.
  - intros [H1 H2]. apply distinct_perm with (k :: l); [apply Permutation_cons_append|]. now apply distinct_cons.
Qed.
Lemma distinct_app_l l m : distinct (l ++ m) -> distinct l.
Proof.
  induction l as [|a l IH]; intros H; [constructor|]. inversion H as [|? ? Ha Hl]; subst.
  apply Forall_app in Ha as [Ha _]. constructor; [exact Ha|]. now apply IH.
Qed.
Lemma distinct_app_r l m : distinct (l ++ m) -> distinct m.
Proof. induction l as [|a l IH]; intros H; [exact H|]. inversion H; subst. now apply IH. Qed.
Lemma distinct_NoDup l : distinct l -> NoDup l.
Proof.
  induction 1 as [|x l Hx Hl IH]; constructor; auto. intros Hin. rewrite Forall_forall in Hx.
  specialize (Hx _ Hin). now rewrite py_eqb_refl in Hx.
Qed.

(** ** Dicts with distinct keys *)
Notation keys d := (map (@fst value value) d).
Lemma fresh_left (k : value) (x : value) pre post : distinct (keys (pre ++ (k, x) :: post)) ->
  forall k', In k' (keys pre) -> py_eqb k k' = false.
Proof.
  rewrite map_app. cbn [map fst]. intros H. apply distinct_app_mid in H as [H _].
  intros k' Hin. apply H. apply in_or_app. now left.
Qed.
Lemma dget_distinct d k x : distinct (keys d) -> In (k, x) d -> dget k d = Some x.
Proof.
  intros Hd Hin. apply in_split in Hin as (pre & post & ->). apply dget_app. now apply fresh_left with x post.
Qed.
Lemma dget_fresh d k : (forall k', In k' (keys d) -> py_eqb k k' = false) -> dget k d = None.
Proof.
  unfold dget. induction d as [|[k' y] d IH]; intros H; [reflexivity|]. cbn [aget].
  rewrite (H k') by now left. apply IH. intros; apply H; now right.
Qed.
Lemma ddel_app k x pre post : (forall k', In k' (keys pre) -> py_eqb k k' = false) ->
  ddel k (pre ++ (k, x) :: post) = (pre ++ post)%list.
Proof.
  unfold ddel. induction pre as [|[k' y] pre IH]; cbn [adel map fst app]; intros H.
  - now rewrite py_eqb_refl.
  - rewrite (H k') by now left. f_equal. apply IH. intros; apply H; now right.
Qed.
Lemma dset_app k x y pre post : (forall k', In k' (keys pre) -> py_eqb k k' = false) ->
  dset k y (pre ++ (k, x) :: post) = (pre ++ (k, y) :: post)%list.
Proof.
  unfold dset. induction pre as [|[k' z] pre IH]; cbn [aset map fst app]; intros H.
  - now rewrite py_eqb_refl.
  - rewrite (H k') by now left. f_equal. apply IH. intros; apply H; now right.
Qed.
Lemma ddel_perm d k x d' : distinct (keys d) -> Permutation d ((k, x) :: d') -> Permutation (ddel k d) d'.
Proof.
  intros Hd HP. assert (Hin : In (k, x) d) by (apply Permutation_in with ((k, x) :: d'); [now apply Permutation_sym|now left]).
  apply in_split in Hin as (pre & post & ->). rewrite (ddel_app k x pre post (fresh_left _ _ _ _ Hd)).
  apply Permutation_sym. apply Permutation_cons_app_inv with (k, x). now apply Permutation_sym.
Qed.
Lemma dset_perm d k x : (forall k', In k' (keys d) -> py_eqb k k' = false) -> Permutation (dset k x d) ((k, x) :: d).
Proof. intros H. rewrite dset_fresh by exact H. apply Permutation_sym, Permutation_cons_append. Qed.

(** ** Sizes *)
Lemma dset_length d k x : length (dset k x d) <= S (length d) /\ length d <= length (dset k x d).
Proof. unfold dset. induction d as [|[k' y] d IH]; cbn [aset length]; [lia|]. destruct (py_eqb k k'); cbn [length]; lia. Qed.
Lemma dset_present d k x : dhas k d = true -> length (dset k x d) = length d.
Proof.
  unfold dset, dhas, amem. induction d as [|[k' y] d IH]; cbn [aset aget length]; [discriminate|].
  destruct (py_eqb k k'); cbn [length]; [reflexivity|]. intros H. now rewrite IH.
Qed.
Lemma ddel_present d k : dhas k d = true -> S (length (ddel k d)) = length d.
Proof.
  unfold ddel, dhas, amem. induction d as [|[k' y] d IH]; cbn [adel aget length]; [discriminate|].
  destruct (py_eqb k k'); cbn [length]; [reflexivity|]. intros H. now rewrite IH.
Qed.
Lemma dhas_dset_same d k x : dhas k (dset k x d) = true.
Proof.
  unfold dset, dhas, amem. induction d as [|[k' y] d IH]; cbn [aset aget]; [now rewrite py_eqb_refl|].
  destruct (py_eqb k k') eqn:He; cbn [aget]; rewrite He; [reflexivity|exact IH].
Qed.
Lemma dhas_dset d k k' x : dhas k d = true -> dhas k (dset k' x d) = true.
Proof.
  unfold dset, dhas, amem. induction d as [|[k2 y] d IH]; cbn [aset aget]; [discriminate|].
  destruct (py_eqb k' k2) eqn:He; cbn [aget]; destruct (py_eqb k k2); auto.
Qed.
