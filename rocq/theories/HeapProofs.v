(** * Dump leaves everything as it is and returns something new *)
From Coq Require Import Lia.
From Verif Require Import PyBaseFacts EngineFacts DumpProofs.
From Verif Require Export HeapSpec.
Local Open Scope string_scope.

Lemma put_length a c H : length (put a c H) = length H.
Proof. revert a. induction H as [|d H IH]; intros [|a]; cbn; auto. Qed.
Lemma put_same a c H : a < length H -> nth_error (put a c H) a = Some c.
Proof. revert a. induction H as [|d H IH]; intros [|a] Ha; cbn in *; try lia; auto. apply IH. lia. Qed.
Lemma put_other a b c H : a <> b -> nth_error (put a c H) b = nth_error H b.
Proof. revert a b. induction H as [|d H IH]; intros [|a] [|b] Hn; cbn; auto; try congruence. Qed.

Lemma inside_trans x y z : inside x y -> inside y z -> inside x z.
Proof. induction 1; intros Hz; [assumption|econstructor; eauto..]. Qed.
Lemma aget_in {K V} (eqb : K -> K -> bool) k (d : list (K * V)) x :
  aget eqb k d = Some x -> exists k', In (k', x) d.
Proof.
  induction d as [|[k' y] d IH]; cbn; [discriminate|]. destruct (eqb k k').
  - intros H; injection H as ->. eauto.
  - intros H. destruct (IH H) as (k2 & Hk). eauto.
Qed.
Lemma aset_in {K V} (eqb : K -> K -> bool) k x (d : list (K * V)) k' y :
  In (k', y) (aset eqb k x d) -> In (k', y) d \/ (y = x /\ (k' = k \/ exists z, In (k', z) d)).
Proof.
  induction d as [|[k2 z] d IH]; cbn.
  - intros [H|[]]. injection H as -> ->. auto.
  - destruct (eqb k k2); cbn; intros [H|H].
    + injection H as -> ->. right. eauto.
    + auto.
    + auto.
    + destruct (IH H) as [?|(-> & [-> |(w & Hw)])]; eauto 6.
Qed.

Section Region.
Variables (E : env) (K : henv) (f : nat) (H0 : heap).
Hypothesis HS : default_serializers E f.
Hypothesis W : wf_supers (e_ct E).
Hypothesis PH : plain_heap E K H0.
Let b := length H0.
Let CT := e_ct E.

Definition clean (x : obj) : Prop := forall a, inside x (ORef a) -> b <= a.
Definition good (x : obj) : Prop := clean x \/ plain_obj CT x.
Record inv (H : heap) : Prop := {
  inv_len : b <= length H;
  inv_old : forall a, a < b -> nth_error H a = nth_error H0 a;
  inv_new : forall a c y, b <= a -> nth_error H a = Some c -> holds c y -> clean y }.
Definition okat {A} (P : A -> Prop) (m : hM A) (H : heap) : Prop :=
  inv (fst (m H)) /\ (forall a, snd (m H) = Done a -> P a).
Definition safe {A} (P : A -> Prop) (m : hM A) : Prop := forall H, inv H -> okat P m H.

Lemma clean_atom v : clean (OAtom v).
Proof. intros a Ha. inversion Ha. Qed.
Lemma clean_single x : single x -> clean x.
Proof. intros (v & ->). apply clean_atom. Qed.
Lemma clean_str s : clean (atom s).
Proof. apply clean_atom. Qed.
Lemma clean_ref a : b <= a -> clean (ORef a).
Proof. intros Hb a' Ha. now inversion Ha; subst. Qed.
Lemma clean_ref_inv a : clean (ORef a) -> b <= a.
Proof. intros Hc. apply Hc. constructor. Qed.
Lemma clean_tuple l : (forall x, In x l -> clean x) -> clean (OTuple l).
Proof. intros Hl a Ha. inversion Ha; subst. eapply Hl; eauto. Qed.
Lemma clean_nt c l : (forall x, In x l -> clean x) -> clean (ONT c l).
Proof. intros Hl a Ha. inversion Ha; subst. eapply Hl; eauto. Qed.
Lemma tuple_clean l x : clean (OTuple l) -> In x l -> clean x.
Proof. intros Hc Hx a Ha. apply Hc. econstructor; eauto. Qed.
Lemma nt_clean c l x : clean (ONT c l) -> In x l -> clean x.
Proof. intros Hc Hx a Ha. apply Hc. econstructor; eauto. Qed.
Lemma good_clean x : clean x -> good x.
Proof. now left. Qed.
Lemma good_tuple l x : good (OTuple l) -> In x l -> good x.
Proof.
  intros [Hc|Hp] Hx; [left; eapply tuple_clean; eauto|right]. intros c l' Hi. apply Hp. econstructor; eauto.
Qed.
Lemma good_nt c l x : good (ONT c l) -> In x l -> good x.
Proof.
  intros [Hc|Hp] Hx; [left; eapply nt_clean; eauto|right]. intros c' l' Hi. apply Hp. econstructor; eauto.
Qed.
(** What a cell refers to *)
Lemma cell_good H a c y : inv H -> nth_error H a = Some c -> holds c y -> good y.
Proof.
  intros I Ha Hy. destruct (Nat.lt_ge_cases a b) as [Hlt|Hge].
  - right. rewrite (inv_old _ I _ Hlt) in Ha. exact (proj1 (ph_cells _ _ _ PH _ _ Ha) _ Hy).
  - left. eapply inv_new; eauto.
Qed.

Lemma safe_ret {A} (P : A -> Prop) a : P a -> safe P (hret a).
Proof. intros Ha H I. split; [exact I|]. cbn. intros a' Eq. now injection Eq as <-. Qed.
Lemma safe_fail {A} (P : A -> Prop) e : safe P (hfail e).
Proof. intros H I. split; [exact I|]. cbn. discriminate. Qed.
Lemma safe_lift {A} (P : A -> Prop) (r : res A) : (forall a, r = Ok a -> P a) -> safe P (hlift r).
Proof. intros Hr. destruct r; cbn; [apply safe_ret; auto|apply safe_fail]. Qed.
Lemma safe_bind {A B} (P : A -> Prop) (Q : B -> Prop) m g :
  safe P m -> (forall a, P a -> safe Q (g a)) -> safe Q (hbind m g).
Proof.
  intros Hm Hg H I. destruct (Hm H I) as [I1 P1]. unfold okat, hbind.
  destruct (m H) as [H1 [a|e|]]; cbn in *; [|split; [exact I1|discriminate]..].
  apply Hg; auto.
Qed.
Lemma okat_bind {A B} (P : A -> Prop) (Q : B -> Prop) m g H :
  okat P m H -> (forall a, P a -> safe Q (g a)) -> okat Q (hbind m g) H.
Proof.
  intros [I1 P1] Hg. unfold okat, hbind.
  destruct (m H) as [H1 [a|e|]]; cbn in *; [|split; [exact I1|discriminate]..].
  apply Hg; auto.
Qed.
Lemma safe_weaken {A} (P Q : A -> Prop) m : (forall a, P a -> Q a) -> safe P m -> safe Q m.
Proof. intros HPQ Hm H I. destruct (Hm H I). split; auto. Qed.
Lemma safe_try {A} (P : A -> Prop) m h : safe P m -> (forall e, safe P (h e)) -> safe P (htry m h).
Proof.
  intros Hm Hh H I. destruct (Hm H I) as [I1 P1]. unfold okat, htry.
  destruct (m H) as [H1 [a|e|]]; cbn in *; [auto|apply Hh; auto|auto].
Qed.
Lemma okat_try {A} (P : A -> Prop) m h H : okat P m H -> (forall e, safe P (h e)) -> okat P (htry m h) H.
Proof.
  intros [I1 P1] Hh. unfold okat, htry.
  destruct (m H) as [H1 [a|e|]]; cbn in *; [split; auto|apply Hh; auto|split; auto].
Qed.
Lemma okat_catch {A} (P : A -> Prop) m H : okat P m H ->
  okat (fun r => match r with inl a => P a | inr _ => True end) (hcatch m) H.
Proof.
  intros [I1 P1]. unfold okat, hcatch.
  destruct (m H) as [H1 [a|e|]]; cbn in *; (split; [exact I1|]); intros r Eq; inversion Eq; auto.
Qed.
Lemma safe_map {A B} (Q : A -> Prop) (P : B -> Prop) g l :
  (forall x, Q x -> safe P (g x)) -> Forall Q l -> safe (Forall P) (hmap g l).
Proof.
  intros Hg. induction 1 as [|x l Hx _ IH]; cbn [hmap].
  - apply safe_ret. constructor.
  - eapply safe_bind; [now apply Hg|]. intros y Hy. eapply safe_bind; [exact IH|].
    intros ys Hys. apply safe_ret. now constructor.
Qed.
Lemma safe_alloc c : (forall y, holds c y -> clean y) -> safe clean (alloc c).
Proof.
  intros Hc H I. pose proof (inv_len _ I) as Hl. split; cbn.
  - constructor.
    + rewrite app_length. lia.
    + intros a Ha. rewrite nth_error_app1 by lia. now apply (inv_old _ I).
    + intros a c' y Ha Hn Hy. destruct (Nat.lt_ge_cases a (length H)) as [Hlt|Hge].
      * rewrite nth_error_app1 in Hn by lia. eapply inv_new; eauto.
      * rewrite nth_error_app2 in Hn by lia. destruct (a - length H) as [|k]; cbn in Hn; [|destruct k; discriminate].
        injection Hn as <-. auto.
  - intros a Eq. injection Eq as <-. apply clean_ref. lia.
Qed.
Lemma safe_write a c : b <= a -> (forall y, holds c y -> clean y) -> safe (fun _ => True) (write a c).
Proof.
  intros Ha Hc H I. split; [|auto]. cbn. constructor.
  - rewrite put_length. apply (inv_len _ I).
  - intros a' Hl. rewrite put_other by lia. now apply (inv_old _ I).
  - intros a' c' y Hl Hn Hy. destruct (Nat.eq_dec a a') as [<-|Hne].
    + assert (Hlt : a < length H).
      { rewrite <- (put_length a c H). apply nth_error_Some. congruence. }
      rewrite put_same in Hn by assumption. injection Hn as <-. auto.
    + rewrite put_other in Hn by assumption. eapply inv_new; eauto.
Qed.
Lemma safe_read {A} (g : heap -> A) (P : A -> Prop) : (forall H, inv H -> P (g H)) -> safe P (hread g).
Proof. intros Hg H I. split; [exact I|]. cbn. intros a Eq. injection Eq as <-. auto. Qed.
Lemma safe_set_item a k x : b <= a -> clean k -> clean x -> safe (fun _ => True) (set_item a k x).
Proof.
  intros Ha Hk Hx H I. unfold okat, set_item.
  destruct (nth_error H a) as [[l|kk l|kd d|c l]|] eqn:En; try (apply safe_fail; assumption).
  apply safe_write; [assumption| |assumption]. intros y (k' & x' & Hin & Hy).
  apply aset_in in Hin.
  assert (Hd : forall k' z, In (k', z) d -> clean k' /\ clean z).
  { intros k2 z Hz. split; eapply (inv_new _ I); eauto; cbn; eauto 6. }
  destruct Hin as [Hin|(-> & [-> |(z & Hz)])].
  - destruct (Hd _ _ Hin). destruct Hy as [-> | ->]; auto.
  - destruct Hy as [-> | ->]; auto.
  - destruct (Hd _ _ Hz). destruct Hy as [-> | ->]; auto.
Qed.
Lemma safe_place v : safe clean (place v).
Proof.
  induction v using value_ind'; cbn [place]; try (apply safe_ret; apply clean_atom).
  - eapply safe_bind with (P := Forall clean);
      [apply safe_map with (Q := fun v => safe clean (place v)); [intros x Hx; exact Hx|assumption]|].
    intros xs Hxs. apply safe_alloc. cbn. now apply Forall_forall.
  - eapply safe_bind with (P := Forall clean);
      [apply safe_map with (Q := fun v => safe clean (place v)); [intros x Hx; exact Hx|assumption]|].
    intros xs Hxs. apply safe_ret. apply clean_tuple. now apply Forall_forall.
  - eapply safe_bind with (P := Forall clean);
      [apply safe_map with (Q := fun v => safe clean (place v)); [intros x Hx; exact Hx|assumption]|].
    intros xs Hxs. apply safe_alloc. cbn. now apply Forall_forall.
  - eapply safe_bind.
    + apply safe_map with (Q := fun kx => safe clean (place (fst kx)) /\ safe clean (place (snd kx)))
                          (P := fun kx => clean (fst kx) /\ clean (snd kx)); [|eassumption].
      intros [k1 x1] [Hk Hx]. cbn [fst snd] in *. eapply safe_bind; [exact Hk|]. intros y1 Hy1.
      eapply safe_bind; [exact Hx|]. intros y2 Hy2. apply safe_ret. auto.
    + intros d' Hd'. apply safe_alloc. intros y (k1 & x1 & Hin & Hy).
      pose proof (proj1 (Forall_forall _ _) Hd' _ Hin) as [Hc1 Hc2]. cbn in *. destruct Hy as [-> | ->]; auto.
  - eapply safe_bind with (P := Forall clean);
      [apply safe_map with (Q := fun v => safe clean (place v)); [intros x Hx; exact Hx|assumption]|].
    intros xs Hxs. apply safe_ret. apply clean_nt. now apply Forall_forall.
  - eapply safe_bind.
    + apply safe_map with (Q := fun ax => safe clean (place (snd ax)))
                          (P := fun ax => clean (snd ax)); [|eassumption].
      intros [k1 x1] Hx. cbn [fst snd] in *. eapply safe_bind; [exact Hx|]. intros y1 Hy1. apply safe_ret. auto.
    + intros d' Hd'. apply safe_alloc. intros y (a1 & Hin).
      exact (proj1 (Forall_forall _ _) Hd' _ Hin).
Qed.
Lemma safe_place_res r : safe clean (place_res r).
Proof. destruct r; cbn; [apply safe_place|apply safe_fail]. Qed.
Lemma safe_placed (r : res (list value)) : safe (Forall good) (hbind (hlift r) (hmap place)).
Proof.
  eapply safe_bind; [apply safe_lift with (P := fun _ => True); auto|]. intros l _.
  apply safe_map with (Q := fun _ => True); [|apply Forall_forall; auto].
  intros x _. eapply safe_weaken; [apply good_clean|apply safe_place].
Qed.
Lemma safe_iter x : good x -> safe (Forall good) (hiter (e_rt E) x).
Proof.
  intros Hx H I. unfold hiter, okat. destruct x as [v|l|c l|a].
  - apply safe_placed; assumption.
  - apply safe_ret; [|assumption]. apply Forall_forall. intros y Hy. eapply good_tuple; eauto.
  - apply safe_ret; [|assumption]. apply Forall_forall. intros y Hy. eapply good_nt; eauto.
  - destruct (nth_error H a) as [[l|k l|k d|c l]|] eqn:En; try (apply safe_placed; assumption).
    + apply safe_ret; [|assumption]. apply Forall_forall. intros y Hy. eapply cell_good; eauto.
    + apply safe_ret; [|assumption]. apply Forall_forall. intros y Hy. eapply cell_good; eauto.
    + apply safe_ret; [|assumption]. apply Forall_forall. intros y Hy.
      apply in_map_iff in Hy as ([k1 x1] & <- & Hin). eapply cell_good; eauto. cbn. eauto.
Qed.
Lemma item_at_in {A} (l : list A) k x : item_at l k = Ok x -> In x l.
Proof.
  unfold item_at. destruct k as [|b1|z| | | | | | | | | |]; try discriminate.
  - destruct (nth_error l (if b1 then 1 else 0)) eqn:En; [|discriminate]. intros Eq; injection Eq as <-.
    eapply nth_error_In; eauto.
  - cbv zeta. destruct (_ && _)%bool; [|discriminate].
    destruct (nth_error l _) eqn:En; [|discriminate]. intros Eq; injection Eq as <-. eapply nth_error_In; eauto.
Qed.
Lemma safe_getitem x k : good x -> safe good (hgetitem CT x k).
Proof.
  intros Hx H I. unfold hgetitem, okat. destruct x as [v|l|c l|a].
  - eapply safe_weaken; [apply good_clean|apply safe_place_res|assumption].
  - apply safe_lift; [|assumption]. intros y Hy. eapply good_tuple; eauto using item_at_in.
  - apply safe_lift; [|assumption]. intros y Hy. eapply good_nt; eauto using item_at_in.
  - destruct (nth_error H a) as [[l|k' l|k' d|c l]|] eqn:En; try (apply safe_fail; assumption).
    + apply safe_lift; [|assumption]. intros y Hy. eapply cell_good; eauto using item_at_in. cbn. eauto using item_at_in.
    + destruct k'; try (apply safe_fail; assumption).
      apply safe_lift; [|assumption]. intros y Hy. eapply cell_good; eauto. cbn. eauto using item_at_in.
    + destruct (hashable _ _); [|apply safe_fail; assumption].
      destruct (hdget H k d) as [y|] eqn:Eg; [|apply safe_fail; assumption].
      apply safe_ret; [|assumption]. apply aget_in in Eg as (k2 & Hin). eapply cell_good; eauto. cbn. eauto.
Qed.
(** getattr: what is copied has no containers. *)
Lemma sget_in {V} a (l : list (string * V)) x : sget a l = Some x -> In (a, x) l.
Proof.
  unfold sget. induction l as [|[k y] l IH]; cbn; [discriminate|]. destruct (String.eqb_spec a k) as [->|].
  - intros Eq; injection Eq as ->. auto.
  - auto.
Qed.
Definition copied (a : string) (y : obj) : Prop := good y /\ (In a copied_names -> clean y).
Lemma clean_copied a y : clean y -> copied a y.
Proof. split; [now left|auto]. Qed.
Lemma safe_get_attr x a : good x -> safe (copied a) (hget_attr E K x a).
Proof.
  intros Hx H I. unfold hget_attr, okat.
  assert (Hp : forall r, okat (copied a) (place_res r) H).
  { intros r. eapply safe_weaken; [apply clean_copied|apply safe_place_res|assumption]. }
  destruct x as [v|l|c l|r]; [| |destruct (sget a (combine _ l)) as [y|] eqn:Eg|].
  - destruct v; try apply Hp. destruct (String.eqb a "value"); [|apply Hp].
    destruct (sget _ _); [|apply safe_fail; assumption]. apply safe_ret; [|assumption].
    apply clean_copied, clean_single. apply (ph_members _ _ _ PH).
  - apply Hp.
  - apply sget_in in Eg. apply safe_ret; [|assumption]. split.
    + eapply good_nt; [eassumption|]. eapply in_combine_r; eauto.
    + intros Ha. destruct Hx as [Hc|Hpl].
      * eapply nt_clean; [eassumption|]. eapply in_combine_r; eauto.
      * apply clean_single. eapply (proj2 (Hpl _ _ (in_self _))); eauto.
  - apply Hp.
  - destruct (nth_error H r) as [[l|k l|k d|c attrs]|] eqn:En; try apply Hp.
    assert (Hgo : okat (copied a)
      (match sget a attrs, sget a (ci_members (e_ct E c)) with
       | Some y, _ => hret y
       | None, Some (MVar _) => hret (he_var K c a)
       | None, Some MCallable | None, Some (MClass _) => hfail (exn_of (KOther 0))
       | None, _ => hfail (exn_of KAttribute)
       end) H).
    { destruct (sget a attrs) as [y|] eqn:Eg.
      - apply sget_in in Eg. apply safe_ret; [|assumption]. split; [eapply cell_good; eauto; cbn; eauto|].
        intros Ha. destruct (Nat.lt_ge_cases r b) as [Hlt|Hge].
        + rewrite (inv_old _ I _ Hlt) in En. apply clean_single.
          eapply (proj2 (proj2 (ph_cells _ _ _ PH _ _ En))); eauto.
        + eapply (inv_new _ I); eauto. cbn. eauto.
      - destruct (sget a (ci_members (e_ct E c))) as [[| | |i|v]|]; try (apply safe_fail; assumption).
        apply safe_ret; [|assumption]. destruct (ph_vars _ _ _ PH c a) as [Hpl Hs]. split; [now right|].
        intros Ha. apply clean_single. auto. }
    destruct (sget a (ci_members (e_ct E c))) as [[| | |i|v]|]; try apply Hp;
      destruct (sget a attrs); exact Hgo.
Qed.
Lemma safe_copied_attr x a : good x -> In a copied_names -> safe clean (hget_attr E K x a).
Proof. intros Hx Ha. eapply safe_weaken; [|apply safe_get_attr; exact Hx]. intros y [_ Hy]. auto. Qed.
Lemma safe_attr x a : good x -> safe good (hget_attr E K x a).
Proof. intros Hx. eapply safe_weaken; [|apply safe_get_attr; exact Hx]. intros y [Hy _]. auto. Qed.

(** ** Meta data *)
Lemma safe_store_cls store dumped attr : clean dumped -> safe (fun _ => True) (hstore_cls_info E store dumped attr).
Proof.
  intros Hd H I. unfold hstore_cls_info, okat. destruct dumped as [v|l|c l|a]; try (apply safe_ret; auto).
  destruct (nth_error H a) as [[l|k l|k d|c l]|]; try (apply safe_ret; auto).
  destruct store; [|apply safe_ret; auto].
  apply safe_set_item; auto using clean_str, clean_atom, clean_ref_inv.
Qed.
Lemma dict_at_ref H x a : dict_at H x = Some a -> x = ORef a.
Proof. destruct x as [| | |a']; cbn; try discriminate. destruct (nth_error H a') as [[]|]; congruence. Qed.
Lemma safe_fill n : forall prefix acc a, b <= acc -> b <= a -> safe clean (hfill n prefix acc a).
Proof.
  induction n as [|n IH]; intros prefix acc a Hacc Ha H I; [split; [exact I|cbn; discriminate]|].
  cbn [hfill]. unfold okat.
  destruct (nth_error H a) as [[l|k l|k d|c l]|] eqn:En; try (apply safe_fail; assumption).
  assert (Hd : forall k' z, In (k', z) d -> clean k' /\ clean z).
  { intros k2 z Hz. split; eapply (inv_new _ I); eauto; cbn; eauto 6. }
  assert (Hd' : forall k' z, In (k', z) (hddel H (atom "-cls") d) -> clean k' /\ clean z).
  { intros k2 z Hz. apply filter_In in Hz as [Hz _]. auto. }
  eapply safe_bind; [apply safe_write; [assumption|]| |assumption].
  { intros y (k2 & x2 & Hin & Hy). destruct (Hd' _ _ Hin). destruct Hy as [-> | ->]; auto. }
  intros _ _. eapply safe_bind with (P := fun _ => True).
  - revert Hd'. generalize (hddel H (atom "-cls") d) as l. clear - IH Hacc.
    induction l as [|[key x] r IHr]; intros Hl; [apply safe_ret; auto|].
    eapply safe_bind with (P := fun _ => True); [|intros _ _; apply IHr; intros; apply Hl; now right].
    intros H1 I1. unfold okat. destruct (dict_at H1 x) as [b1|] eqn:Eb; [|apply safe_ret; auto].
    apply dict_at_ref in Eb. subst x. destruct (Hl key (ORef b1) (or_introl eq_refl)) as [_ Hb].
    apply clean_ref_inv in Hb.
    destruct key as [[| | | |s| | | | | | | |]|l|c l|a2]; try (apply safe_fail; assumption).
    destruct (String.eqb s "-meta"); [apply safe_ret; auto|].
    eapply safe_bind; [apply IH; assumption| |assumption]. intros y Hy.
    apply safe_set_item; auto using clean_str, clean_atom.
  - intros _ _. apply safe_ret. destruct (hdget H (atom "-cls") d) as [y|] eqn:Eg; [|apply clean_atom].
    apply aget_in in Eg as (k2 & Hin). now apply (Hd k2).
Qed.
Lemma safe_new_dict : safe (fun x => exists a, x = ORef a /\ b <= a) (alloc (NDict DkDict [])).
Proof.
  intros H I. destruct (safe_alloc (NDict DkDict []) (fun y (h : holds (NDict DkDict []) y) =>
    match h with ex_intro _ _ (ex_intro _ _ (conj F _)) => match F with end end) H I) as [I1 _].
  split; [exact I1|]. cbn. intros x Eq. injection Eq as <-. exists (length H). split; [reflexivity|apply (inv_len _ I)].
Qed.
Lemma safe_dict_with_meta o name a : b <= a -> safe clean (hdict_with_meta E o name a).
Proof.
  intros Ha. unfold hdict_with_meta. destruct (_ && _)%bool; [now apply safe_ret, clean_ref|].
  eapply safe_bind; [apply safe_new_dict|]. intros meta (m & -> & Hm).
  eapply safe_bind; [apply safe_set_item; auto using clean_str, clean_atom, clean_ref|]. intros _ _.
  eapply safe_bind with (P := fun _ => True).
  - destruct (so_class_info o); [|apply safe_ret; auto].
    eapply safe_bind; [apply safe_new_dict|]. intros types (t & -> & Ht).
    eapply safe_bind; [intros H I; now apply (safe_fill (length H))|]. intros _ _.
    eapply safe_bind; [apply safe_set_item; auto using clean_str, clean_atom, clean_ref|]. intros _ _.
    apply safe_set_item; auto using clean_str, clean_atom, clean_ref.
  - intros _ _. eapply safe_bind with (P := fun _ => True).
    + destruct (so_dump_time o); [|apply safe_ret; auto]. apply safe_set_item; auto using clean_str, clean_atom.
    + intros _ _. now apply safe_ret, clean_ref.
Qed.

(** ** The serializers *)
Definition ktype (cls : option ty) (H : heap) (x : obj) : ty :=
  match cls with Some t => t | None => kind H x end.
Lemma shallow_single H x : inv H -> good x -> (exists p, naked_sub CT (class_of (shallow H x)) (TPrim p) = true) ->
  clean x.
Proof.
  intros I Hx [p Hp]. destruct x as [v|l|c l|a]; [apply clean_atom|..].
  - exfalso. destruct p; vm_compute in Hp; discriminate.
  - destruct Hx as [|Hpl]; [assumption|]. exfalso.
    destruct (Hpl c l (in_self _)) as [(fields & Ef) _]. cbn [shallow class_of] in Hp.
    unfold naked_sub in Hp. cbn [is_class andb] in Hp. apply existsb_ty_In in Hp. cbn [supers] in Hp.
    unfold CT in *. rewrite Ef in Hp. destruct Hp as [Hp|Hp]; [discriminate|]. apply in_app_or in Hp as [Hp|Hp].
    + vm_compute in Hp. intuition discriminate.
    + apply W in Hp. destruct Hp.
  - destruct (Nat.lt_ge_cases a b) as [Hlt|Hge]; [|now apply clean_ref]. exfalso. cbn [shallow] in Hp.
    destruct (nth_error H a) as [[l|k l|k d|c l]|] eqn:En; try (destruct p; vm_compute in Hp; discriminate).
    + destruct k, p; vm_compute in Hp; discriminate.
    + destruct k, p; vm_compute in Hp; discriminate.
    + rewrite (inv_old _ I _ Hlt) in En. destruct (proj2 (ph_cells _ _ _ PH _ _ En)) as [Ek _].
      cbn [class_of] in Hp. unfold naked_sub in Hp. cbn [is_class andb] in Hp. apply existsb_ty_In in Hp.
      cbn [supers] in Hp. unfold CT in *. rewrite Ek in Hp. destruct Hp as [Hp|Hp]; [discriminate|]. cbn [app] in Hp.
      apply W in Hp. destruct Hp.
Qed.
Lemma shallow_none H x : inv H -> good x -> naked_sub CT (class_of (shallow H x)) TNoneT = true -> clean x.
Proof.
  intros I Hx Hp. destruct x as [v|l|c l|a]; [apply clean_atom|..].
  - exfalso. vm_compute in Hp. discriminate.
  - destruct Hx as [|Hpl]; [auto|]. exfalso.
    destruct (Hpl c l (in_self _)) as [(fields & Ef) _]. cbn [shallow class_of] in Hp.
    unfold naked_sub in Hp. cbn [is_class andb] in Hp. apply existsb_ty_In in Hp. cbn [supers] in Hp.
    unfold CT in *. rewrite Ef in Hp. destruct Hp as [Hp|Hp]; [discriminate|]. apply in_app_or in Hp as [Hp|Hp].
    + vm_compute in Hp. intuition discriminate.
    + apply W in Hp. destruct Hp.
  - destruct (Nat.lt_ge_cases a b) as [Hlt|Hge]; [|now apply clean_ref]. cbn [shallow] in Hp. exfalso.
    destruct (nth_error H a) as [[l|k l|k d|c l]|] eqn:En; try (vm_compute in Hp; discriminate).
    + destruct k; vm_compute in Hp; discriminate.
    + destruct k; vm_compute in Hp; discriminate.
    + rewrite (inv_old _ I _ Hlt) in En. destruct (proj2 (ph_cells _ _ _ PH _ _ En)) as [Ek _].
      cbn [class_of] in Hp. unfold naked_sub in Hp. cbn [is_class andb] in Hp. apply existsb_ty_In in Hp.
      cbn [supers] in Hp. unfold CT in *. rewrite Ek in Hp. destruct Hp as [Hp|Hp]; [discriminate|]. cbn [app] in Hp.
      apply W in Hp. destruct Hp.
    + apply nth_error_None in En. pose proof (inv_len _ I). lia.
Qed.
Lemma json_key_clean H x : inv H -> good x -> json_key CT (shallow H x) = true -> clean x.
Proof.
  intros I Hx Hk. unfold json_key in Hk. rewrite !orb_true_iff in Hk.
  destruct Hk as [[[[Hk|Hk]|Hk]|Hk]|Hk]; [eapply shallow_single; eauto..|eapply shallow_none; eauto].
Qed.
Lemma is_none_clean H x : inv H -> good x -> is_none (shallow H x) = true -> clean x.
Proof.
  intros I Hx Hn. apply (shallow_none H); auto. destruct (shallow H x); try discriminate. reflexivity.
Qed.

Section Step.
Variable hser : sopts -> option shandler -> option ty -> obj -> hM obj.
Hypothesis Hser : forall o cls x H, inv H -> good x -> okat clean (hser o (e_ser E f (ktype cls H x)) cls x) H.

Lemma safe_ser_typed o t x : good x -> safe clean (hser o (e_ser E f t) (Some t) x).
Proof. intros Hx H I. exact (Hser o (Some t) x H I Hx). Qed.
Lemma safe_dump o cls x : good x -> safe clean (hdump_ E f hser o cls x).
Proof.
  intros Hx H I. unfold hdump_, okat. apply okat_try; [|intros e; apply safe_fail].
  exact (Hser o cls x H I Hx).
Qed.
Lemma safe_primitive cls x H : inv H -> good x -> e_ser E f (ktype cls H x) = Some SPrimitive ->
  okat clean (hser_primitive E cls x) H.
Proof.
  intros I Hx He. rewrite HS in He. apply (ser_prim_types _ _ W) in He. unfold hser_primitive, okat.
  assert (Hgo : forall t, prim_ty t -> okat clean (fun H =>
     if is_none (shallow H x) then hret x H
     else
        match is_instance (e_ct E) (shallow H x) t with
        | Err e => hfail e H
        | Ok true => hret x H
        | Ok false => place_res (match cast (e_rt E) t (view H x) with
                                 | Ok r => Ok r
                                 | Err e => Err (if is_valueerror (e_kind e) then exn_of KSer else e)
                                 end) H
        end) H).
  { intros t Ht. unfold okat. destruct (is_none (shallow H x)) eqn:En.
    - apply safe_ret; [|assumption]. eapply is_none_clean; eauto.
    - destruct (is_instance (e_ct E) (shallow H x) t) as [[|]|e] eqn:Ei; [|apply safe_place_res; assumption|apply safe_fail; assumption].
      apply safe_ret; [|assumption]. destruct Ht as [->|[p ->]]; cbn [is_instance] in Ei; injection Ei as Ei.
      + eapply shallow_none; eauto.
      + eapply shallow_single; eauto. }
  destruct cls as [t|]; cbn [ktype] in He.
  - destruct He as [Hp|(m & n & s & -> & Hp)].
    + destruct Hp as [->|[p ->]]; [apply (Hgo TNoneT)|apply (Hgo (TPrim p))]; unfold prim_ty; eauto.
    + apply (Hgo s Hp).
  - apply safe_ret; [|assumption]. unfold kind in He. destruct He as [[He|[p He]]|(m & n & s & He & _)].
    + eapply shallow_none; eauto. unfold CT. rewrite He. reflexivity.
    + eapply shallow_single; eauto. exists p. unfold CT. rewrite He. destruct p; reflexivity.
    + exfalso. destruct (shallow H x) as [| | | | | | |k l|k d|y| | |]; try discriminate He; destruct k; discriminate.
Qed.
Lemma clean_list l : Forall clean l -> forall y, holds (NList l) y -> clean y.
Proof. intros Hl y Hy. exact (proj1 (Forall_forall _ _) Hl y Hy). Qed.
Lemma safe_list o cls x : good x -> safe clean (hser_list E f hser o cls x).
Proof.
  intros Hx H I. unfold hser_list, okat. destruct (negb _); [apply safe_alloc; [intros y []|assumption]|].
  cbv zeta. destruct (get_args cls) as [|t ts].
  - destruct (so_strict o).
    + eapply safe_bind; [apply safe_getitem; exact Hx| |assumption]. intros x0 _.
      eapply safe_bind; [apply safe_read with (P := fun _ => True); auto|]. intros t _.
      eapply safe_bind; [apply safe_iter; exact Hx|]. intros l Hl.
      eapply safe_bind with (P := Forall clean); [eapply safe_map; [|exact Hl]; intros y Hy; now apply safe_ser_typed|].
      intros r Hr. apply safe_alloc. now apply clean_list.
    + eapply safe_bind; [apply safe_iter; exact Hx| |assumption]. intros l Hl.
      eapply safe_bind with (P := Forall clean); [eapply safe_map; [|exact Hl]; intros y Hy; now apply safe_dump|].
      intros r Hr. apply safe_alloc. now apply clean_list.
  - eapply safe_bind; [apply safe_iter; exact Hx| |assumption]. intros l Hl.
    eapply safe_bind with (P := Forall clean); [eapply safe_map; [|exact Hl]; intros y Hy; now apply safe_ser_typed|].
    intros r Hr. apply safe_alloc. now apply clean_list.
Qed.
Lemma safe_iterable o cls x : good x -> safe clean (hser_iterable E f hser o cls x).
Proof.
  intros Hx. unfold hser_iterable. cbv zeta.
  eapply safe_bind; [apply safe_iter; exact Hx|]. intros l Hl.
  eapply safe_bind with (P := fun _ => True); [intros H I; apply safe_lift; auto|]. intros cls_ _.
  eapply safe_bind with (P := fun _ => True); [apply safe_lift; auto|]. intros subs _.
  eapply safe_bind with (P := Forall clean).
  - eapply safe_map with (Q := fun xc => good (fst xc)).
    + intros [y c] Hy. now apply safe_dump.
    + apply Forall_forall. intros [y c] Hy. apply in_combine_l in Hy. exact (proj1 (Forall_forall _ _) Hl y Hy).
  - intros r Hr. apply safe_alloc. now apply clean_list.
Qed.
Lemma clean_dict k d : Forall (fun kx => clean (fst kx) /\ clean (snd kx)) d -> forall y, holds (NDict k d) y -> clean y.
Proof.
  intros Hd y (k1 & x1 & Hin & Hy). destruct (proj1 (Forall_forall _ _) Hd _ Hin) as [H1 H2].
  destruct Hy as [-> | ->]; assumption.
Qed.
Lemma safe_namedtuple o c x : good x -> safe clean (hser_namedtuple E K f hser o c x).
Proof.
  intros Hx. unfold hser_namedtuple.
  eapply safe_bind with (P := Forall (fun kx => clean (fst kx) /\ clean (snd kx))).
  - eapply safe_map with (Q := fun _ => True); [|apply Forall_forall; auto]. intros a _.
    eapply safe_bind; [apply safe_attr; exact Hx|]. intros y Hy.
    eapply safe_bind; [now apply safe_dump|]. intros d Hd. apply safe_ret. split; [apply clean_atom|exact Hd].
  - intros r Hr. apply safe_alloc. now apply clean_dict.
Qed.
Lemma safe_tuple o cls x : good x -> safe clean (hser_tuple E K f hser o cls x).
Proof.
  intros Hx. unfold hser_tuple.
  assert (Hgo : safe clean (match cls with
     | None => hser_iterable E f hser o None x
     | Some t =>
       match raw_args t with
       | None => hfail (exn_of KAttribute)
       | Some args =>
          if ty_eqb TEllipsis (last args TAny) then
            doh l <- hiter (e_rt E) x;
            hser_iterable E f hser o (Some (TApp true HTuple (repeat (hd TAny args) (length l)))) x
          else hser_iterable E f hser o (Some t) x
       end end)).
  { destruct cls as [t|]; [|now apply safe_iterable]. destruct (raw_args t) as [args|]; [|apply safe_fail].
    destruct (ty_eqb _ _); [|now apply safe_iterable].
    eapply safe_bind; [apply safe_iter; exact Hx|]. intros l _. now apply safe_iterable. }
  destruct x; try exact Hgo. now apply safe_namedtuple.
Qed.
Lemma safe_store_and_hash o result key : b <= result -> good key ->
  safe (fun rk => b <= fst rk /\ clean (snd rk)) (hstore_and_hash E f hser o result key).
Proof.
  intros Hr Hk H I. unfold hstore_and_hash, okat.
  destruct (json_key (e_ct E) (shallow H key)) eqn:Ej.
  { apply safe_ret; [|assumption]. split; [assumption|]. eapply json_key_clean; eauto. }
  eapply safe_bind; [apply safe_dump; exact Hk| |assumption]. intros dk Hdk H1 I1. unfold okat.
  destruct (json_key (e_ct E) (shallow H1 dk)); [apply safe_ret; auto|]. cbv zeta.
  destruct (nth_error H1 result) as [[l|k l|k d|c l]|] eqn:En; try (apply safe_fail; assumption).
  assert (Hd : forall y, holds (NDict DkDict d) y -> clean y).
  { intros y (k1 & x1 & Hin & Hy). eapply (inv_new _ I1); eauto. cbn. eauto. }
  eapply safe_bind; [now apply safe_alloc| |assumption]. intros _ _.
  pose proof (inv_len _ I1) as Hl1.
  destruct (hdget H1 (atom "-keys") d) as [[v|l|c l|i]|] eqn:Eg; try apply safe_fail.
  - apply aget_in in Eg as (k2 & Hin).
    assert (Hi : b <= i) by (apply clean_ref_inv, Hd; cbn; eauto).
    eapply safe_bind; [apply safe_set_item; auto using clean_str, clean_atom|]. intros _ _. apply safe_ret.
    split; [exact Hl1|apply clean_atom].
  - intros H2 I2. unfold okat. cbv zeta. pose proof (inv_len _ I2) as Hl2.
    eapply safe_bind; [apply safe_new_dict| |assumption]. intros inner (i & -> & Hi).
    eapply safe_bind; [apply safe_set_item; auto using clean_str, clean_atom, clean_ref|]. intros _ _.
    eapply safe_bind; [apply safe_set_item; auto using clean_str, clean_atom, clean_ref|]. intros _ _.
    apply safe_ret. split; [exact Hl1|apply clean_atom].
Qed.
Lemma safe_apply_kt kt k : clean k -> safe clean (happly_kt E kt k).
Proof.
  intros Hk H I. unfold happly_kt, okat. destruct kt as [g|].
  - destruct (g (view H k)) as [k'|e]; [|apply safe_fail; assumption].
    destruct (hashable _ _); [apply safe_place; assumption|apply safe_fail; assumption].
  - destruct (hashable _ _); [apply safe_ret; auto|apply safe_fail; assumption].
Qed.
Lemma safe_dict_go o x keys : good x -> Forall good keys -> forall result, b <= result ->
  safe clean (hser_dict_go E f hser o x keys result).
Proof.
  intros Hx. induction 1 as [|key rest Hk _ IH]; intros result Hr; cbn [hser_dict_go].
  - apply safe_ret. now apply clean_ref.
  - eapply safe_bind; [apply safe_getitem; exact Hx|]. intros y Hy.
    eapply safe_bind; [now apply safe_store_and_hash|]. intros [r k] [Hr' Hk']. cbn [fst snd] in *.
    eapply safe_bind with (P := fun _ => True); [apply safe_read; auto|]. intros c _.
    eapply safe_bind; [now apply safe_dump|]. intros d Hd.
    destruct (_ && _)%bool; [now apply IH|].
    eapply safe_bind; [now apply safe_apply_kt|]. intros k' Hk2.
    eapply safe_bind; [now apply safe_set_item|]. intros _ _. now apply IH.
Qed.
Lemma safe_dict o x : good x -> safe clean (hser_dict E f hser o x).
Proof.
  intros Hx H I. unfold hser_dict, okat. pose proof (inv_len _ I) as Hl.
  eapply safe_bind; [apply safe_new_dict| |assumption]. intros _ _.
  eapply safe_bind; [apply safe_iter; exact Hx|]. intros keys Hk. now apply safe_dict_go.
Qed.
Lemma safe_union_go o x ts : good x -> safe clean (hser_union_go E f hser o x ts).
Proof.
  intros Hx. induction ts as [|t ts IH]; cbn [hser_union_go]; [apply safe_fail|].
  apply safe_try; [now apply safe_dump|]. intros e. destruct (is_jsons _); [exact IH|apply safe_fail].
Qed.
Lemma safe_union o cls x : good x -> safe clean (hser_union E f hser o cls x).
Proof.
  intros Hx. unfold hser_union. destruct (match cls with Some t => raw_args t | None => None end) as [ts|];
    [|apply safe_fail].
  intros H I. unfold okat. destruct (is_none (shallow H x) && _)%bool eqn:Eq.
  - apply andb_true_iff in Eq as [En _]. apply safe_ret; [|assumption]. eapply is_none_clean; eauto.
  - now apply safe_union_go.
Qed.
Lemma safe_do_serialize o public x result attrs : good x -> b <= result ->
  safe (fun _ => True) (hdo_serialize E K f hser o public x attrs result).
Proof.
  intros Hx Hr. induction attrs as [|[a cls_] rest IH]; cbn [hdo_serialize]; [apply safe_ret; auto|].
  eapply safe_bind; [apply safe_attr; exact Hx|]. intros y Hy H I.
  unfold okat, hbind at 1, hread. cbn [fst snd].
  eapply (okat_bind (fun r => match r with inl d => clean d | inr _ => True end)).
  - apply (okat_catch clean). eapply okat_bind; [exact (Hser o cls_ y H I Hy)|]. intros d Hd.
    eapply safe_bind; [now apply safe_store_cls|]. intros _ _. apply safe_ret. exact Hd.
  - intros [d|e] Hd.
    + cbv zeta. destruct (_ && _)%bool; [exact IH|].
      eapply safe_bind; [apply safe_apply_kt, clean_atom|]. intros k Hk.
      eapply safe_bind; [now apply safe_set_item|]. intros _ _. exact IH.
    + destruct (so_strict o); [apply safe_fail|]. destruct (e_noargs e); [apply safe_fail|apply safe_ret; auto].
Qed.
Lemma safe_object o cls x : good x -> safe clean (hser_object E K f hser o cls x).
Proof.
  intros Hx H I. unfold hser_object, okat. cbv zeta. pose proof (inv_len _ I) as Hl.
  eapply safe_bind with (P := fun _ => True); [apply safe_lift; auto| |assumption]. intros attrs _.
  eapply safe_bind; [apply safe_new_dict|]. intros _ _.
  eapply safe_bind; [now apply safe_do_serialize|]. intros _ _.
  destruct (so_store_cls o); [apply safe_ret; now apply clean_ref|now apply safe_dict_with_meta].
Qed.
Lemma clean_entries l : Forall clean (map snd l) ->
  forall y, holds (NDict DkDict (map (fun ax => (atom (fst ax), snd ax)) l)) y -> clean y.
Proof.
  intros Hl y (k1 & x1 & Hin & Hy). apply in_map_iff in Hin as ([a z] & Eq & Hin). injection Eq as <- <-.
  destruct Hy as [-> | ->]; [apply clean_atom|]. apply (proj1 (Forall_forall _ _) Hl). apply in_map_iff. exists (a, z). auto.
Qed.
Lemma safe_lift_atom (r : res string) : safe clean (hlift (dor s <- r; Ok (atom s))).
Proof. apply safe_lift. intros y Hy. apply rbind_ok in Hy as (s & _ & Eq). injection Eq as <-. apply clean_atom. Qed.
Lemma safe_time_like strip p x : safe clean (hser_time_like E strip p x).
Proof.
  intros H I. unfold hser_time_like, okat. apply safe_lift; [|assumption].
  intros y Hy. apply rbind_ok in Hy as (s & _ & Eq). injection Eq as <-. apply clean_atom.
Qed.
Lemma safe_step o cls x H : inv H -> good x ->
  okat clean (hser_step E K f hser o (e_ser E f (ktype cls H x)) cls x) H.
Proof.
  intros I Hx. destruct (e_ser E f (ktype cls H x)) as [h|] eqn:He; cbn [hser_step]; [|now apply safe_fail].
  destruct h; try (apply safe_time_like; assumption).
  - now apply safe_tuple.
  - eapply safe_bind; [apply safe_copied_attr; [exact Hx|cbn; tauto]| |assumption]. intros re Hre.
    eapply safe_bind; [apply safe_copied_attr; [exact Hx|cbn; tauto]|]. intros im Him.
    apply safe_alloc. apply (clean_entries [("real", re); ("imag", im)]). repeat constructor; assumption.
  - destruct x as [[| | | | | | | | |[]| | |]| | |]; try (now apply safe_fail).
    eapply safe_bind; [apply safe_dump; left; apply clean_atom| |assumption]. intros d Hd.
    apply safe_alloc. apply (clean_entries [("name", _); ("offset", d)]). repeat constructor; [apply clean_atom|exact Hd].
  - destruct x as [[| | | | | | | | |[]| | |]| | |]; try (now apply safe_fail).
    apply safe_ret; [apply clean_atom|assumption].
  - now apply safe_primitive.
  - apply safe_copied_attr; [exact Hx| |assumption]. destruct (so_enum_name o); cbn; tauto.
  - now apply safe_dict.
  - now apply safe_list.
  - now apply safe_iterable.
  - now apply safe_object.
  - now apply safe_lift_atom.
  - now apply safe_lift_atom.
  - now apply safe_union.
  - destruct x as [[| | | | | | | | |[]| | |]| | |]; try (now apply safe_fail).
    apply safe_ret; [apply clean_atom|assumption].
  - eapply safe_bind; [apply safe_copied_attr; [exact Hx|cbn; tauto]| |assumption]. intros k Hk.
    apply safe_alloc. apply (clean_entries [("key", k)]). repeat constructor; assumption.
  - exfalso. rewrite HS in He. now apply ser_no_custom in He.
Qed.
End Step.

Lemma safe_serialize limit n : forall o cls x H, inv H -> good x ->
  okat clean (hserialize E K f limit n o (e_ser E f (ktype cls H x)) cls x) H.
Proof.
  induction n as [|n IH]; intros o cls x H I Hx; cbn [hserialize].
  - split; [exact I|]. destruct limit; discriminate.
  - now apply safe_step.
Qed.
Lemma inv_start : inv H0.
Proof.
  constructor; auto. intros a c y Ha Hn. exfalso. assert (Hl : a < length H0) by (apply nth_error_Some; congruence).
  unfold b in Ha. lia.
Qed.
Lemma inv_reach H x a : inv H -> clean x -> reaches H x a -> b <= a.
Proof.
  intros I Hx. induction 1 as [a Ha|a b' c y _ IH Hn Hy Hb]; [now apply Hx|]. eapply (inv_new _ I); eauto.
Qed.
End Region.

Theorem dump_unchanged E K f limit n o cls x H H' r a c :
  default_serializers E f -> wf_supers (e_ct E) -> plain_heap E K H -> plain_obj (e_ct E) x ->
  hdump E K f limit n o cls x H = (H', r) ->
  nth_error H a = Some c -> nth_error H' a = Some c.
Proof.
  intros HS W PH Hx Hd Ha. unfold hdump in Hd.
  pose proof (safe_dump E f H _ (fun o cls x H1 => safe_serialize E K f H HS W PH limit n o cls x H1)
                o cls x (or_intror Hx) H (inv_start H)) as [I _].
  rewrite Hd in I. cbn in I. rewrite (inv_old _ _ I a); [exact Ha|]. apply nth_error_Some. congruence.
Qed.
Theorem dump_new E K f limit n o cls x H H' y a :
  default_serializers E f -> wf_supers (e_ct E) -> plain_heap E K H -> plain_obj (e_ct E) x ->
  hdump E K f limit n o cls x H = (H', Done y) -> reaches H' y a -> length H <= a.
Proof.
  intros HS W PH Hx Hd Hr. unfold hdump in Hd.
  pose proof (safe_dump E f H _ (fun o cls x H1 => safe_serialize E K f H HS W PH limit n o cls x H1)
                o cls x (or_intror Hx) H (inv_start H)) as [I Hc].
  rewrite Hd in I, Hc. cbn in I, Hc. eapply inv_reach; eauto.
Qed.
