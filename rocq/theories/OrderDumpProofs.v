(** * Dump and the order of dict entries and attributes: proofs *)
From Coq Require Import Lia Sorting.Sorted.
From Verif Require Import PyBaseFacts EngineFacts EngineEnv AttrFacts DumpProofs DumpLaws RoundTripSpec RoundTripFacts OrderProofs OrderDumpSpec.
Local Close Scope Z_scope.
Local Open Scope string_scope.

(** ** Outcomes that agree *)
Definition agr {A} (Q : A -> A -> Prop) (m m' : M A) : Prop :=
  match snd m, snd m' with
  | Done a, Done b => Q a b
  | Fail e, Fail e' => e_noargs e = e_noargs e'
  | Oof, _ | _, Oof => True
  | _, _ => False
  end.
Lemma agr_refl {A} (Q : A -> A -> Prop) m : (forall a, Q a a) -> agr Q m m.
Proof. intros H. unfold agr. destruct (snd m); auto. Qed.
Lemma agr_bind {A B} (Q : A -> A -> Prop) (Q' : B -> B -> Prop) m m' k k' :
  agr Q m m' -> (forall a b, snd m = Done a -> snd m' = Done b -> Q a b -> agr Q' (k a) (k' b)) ->
  agr Q' (mbind m k) (mbind m' k').
Proof.
  unfold agr, mbind. intros H Hk.
  destruct (snd m) as [a|e|] eqn:Ea, (snd m') as [b|e'|] eqn:Eb; cbn [snd]; try exact I; try contradiction.
  - now apply Hk.
  - now destruct (snd (k a)).
  - exact H.
Qed.
Lemma agr_bind_eq {A B} (Q : B -> B -> Prop) (m : M A) k k' :
  (forall a, snd m = Done a -> agr Q (k a) (k' a)) -> agr Q (mbind m k) (mbind m k').
Proof. intros H. apply (agr_bind eq); [now apply agr_refl|]. intros a b Ha _ <-. now apply H. Qed.
Lemma agr_ret {A} (Q : A -> A -> Prop) a b : Q a b -> agr Q (ret a) (ret b).
Proof. intros H. exact H. Qed.
Lemma agr_fail {A} (Q : A -> A -> Prop) e e' : e_noargs e = e_noargs e' -> agr Q (fail e) (fail e').
Proof. intros H. exact H. Qed.
Lemma agr_try {A} (Q : A -> A -> Prop) (m m' : M A) h h' : agr Q m m' ->
  (forall e e', snd m = Fail e -> snd m' = Fail e' -> agr Q (h e) (h' e')) -> agr Q (mtry m h) (mtry m' h').
Proof.
  unfold agr, mtry. intros H Hh. destruct (snd m) as [a|e|] eqn:E1, (snd m') as [b|e'|] eqn:E2; cbn [snd]; rewrite ?E1, ?E2; try contradiction; auto.
  - exact (Hh e e' eq_refl eq_refl).
  - now destruct (snd (h e)).
Qed.
Lemma mmap_agr {A B} (R : A -> A -> Prop) (Q : B -> B -> Prop) g g' l l' :
  Forall2 R l l' -> (forall x x', In x l -> R x x' -> agr Q (g x) (g' x')) -> agr (Forall2 Q) (mmap g l) (mmap g' l').
Proof.
  induction 1 as [|x x' l l' Hx Hl IH]; intros H; cbn [mmap]; [apply agr_ret; constructor|].
  apply (agr_bind Q); [apply H; [now left|exact Hx]|]. intros y y' _ _ Hy.
  apply (agr_bind (Forall2 Q)); [apply IH; intros z z' Hz; apply H; now right|]. intros r r' _ _ Hr.
  apply agr_ret. now constructor.
Qed.

(** ** Options *)
Lemma opts_store CT b o : orderless_options CT o -> b = false -> orderless_options CT (set_store b o).
Proof. intros (H1 & H2 & H3 & H4) ->. repeat split; assumption. Qed.
Lemma opts_types CT o : orderless_options CT o -> orderless_options CT (no_types o).
Proof. intros (H1 & H2 & H3 & H4). repeat split; assumption. Qed.
Lemma opts_attr CT a o : orderless_options CT o -> orderless_options CT (set_attr_opt a o).
Proof. intros (H1 & H2 & H3 & H4). repeat split; assumption. Qed.

(** ** Values up to order *)
Lemma same_tuple l v : same (VTuple l) v -> exists l', v = VTuple l' /\ Forall2 same l l'.
Proof. intros H. inversion H; subst; [exists l; split; [reflexivity|apply Forall2_same]|eauto]. Qed.
Lemma same_deque l v : same (VColl CDeque l) v -> exists l', v = VColl CDeque l' /\ Forall2 same l l'.
Proof. intros H. inversion H; subst; [exists l; split; [reflexivity|apply Forall2_same]|eauto]. Qed.
Lemma same_nt c l v : same (VNT c l) v -> exists l', v = VNT c l' /\ Forall2 same l l'.
Proof. intros H. inversion H; subst; [exists l; split; [reflexivity|apply Forall2_same]|eauto]. Qed.
Lemma same_obj c l v : same (VObj c l) v -> exists l', v = VObj c l' /\ same_entries l l'.
Proof.
  intros H. inversion H; subst.
  - exists l. split; [reflexivity|apply same_entries_refl].
  - eexists. split; [reflexivity|]. eexists. eauto.
Qed.
Lemma F2_length {A B} (R : A -> B -> Prop) l l' : Forall2 R l l' -> length l = length l'.
Proof. induction 1; cbn; congruence. Qed.
Definition apart (a b : value) : Prop := py_eqb a b = false /\ py_eqb b a = false.
Lemma apart_perm l l' : Permutation l l' -> ForallOrdPairs apart l -> ForallOrdPairs apart l'.
Proof.
  induction 1 as [|x l l' Hp IH|x y l|l l' l'' Hp IH Hp' IH']; intros Hf; auto.
  - inversion Hf as [|? ? Hx Hl]; subst. constructor; [|now apply IH]. rewrite Forall_forall in *. intros z Hz. apply Hx.
    now apply (Permutation_in z (Permutation_sym Hp)).
  - inversion Hf as [|? ? Hx Hl]; subst. inversion Hl as [|? ? Hy Hl']; subst. inversion Hx as [|? ? Hxy Hx']; subst.
    constructor; [constructor; [destruct Hxy; now split|exact Hy]|]. constructor; assumption.
Qed.
Lemma apart_get d k x : ForallOrdPairs apart (map fst d) -> In (k, x) d -> dget k d = Some x.
Proof.
  intros Hf Hin. apply in_split in Hin as (pre & post & ->). apply dget_app. intros k' Hk'.
  rewrite map_app in Hf. clear -Hf Hk'. induction pre as [|[a y] pre IH]; [destruct Hk'|].
  cbn [map fst app] in Hf. inversion Hf as [|? ? Ha Hl]; subst. destruct Hk' as [<-|Hk']; [|now apply IH].
  rewrite Forall_forall in Ha. apply (Ha k). apply in_or_app. right. now left.
Qed.

Section Agree.
Variables (E : env) (f : nat).
Let CT := e_ct E.
Let R := e_rt E.
Hypothesis HS : default_serializers E f.
Hypothesis HP : fair_properties E.

Lemma get_attr_same c attrs attrs' a : NoDup (map fst attrs) -> same_entries attrs attrs' ->
  match get_attr E (VObj c attrs) a, get_attr E (VObj c attrs') a with
  | Ok x, Ok x' => same x x'
  | Err e, Err e' => e_noargs e = e_noargs e'
  | _, _ => False
  end.
Proof.
  intros Hn He. pose proof (lookups_of_entries _ _ Hn He a) as Hl. pose proof (HP c a _ _ He) as Hp. cbn [get_attr]. cbv zeta.
  destruct (sget a (ci_members (e_ct E c))) as [m|].
  - destruct m; try exact Hp; destruct (sget a attrs) as [x|], (sget a attrs') as [x'|]; try contradiction; try exact Hl; try reflexivity; apply sm_refl.
  - destruct (sget a attrs) as [x|], (sget a attrs') as [x'|]; try contradiction; [exact Hl|reflexivity].
Qed.

Section Step.
Variable ser : sopts -> option shandler -> option ty -> value -> M value.
Hypothesis HI : forall o cls v v', orderless_options CT o -> same v v' -> orderless E (so_strict o) cls v ->
  agr same (ser o (serializer E f cls v) cls v) (ser o (serializer E f cls v) cls v').

Lemma dump_agr o cls v v' : orderless_options CT o -> same v v' -> orderless E (so_strict o) cls v ->
  agr same (dump_ E f ser o cls v) (dump_ E f ser o cls v').
Proof.
  intros Ho Hs Hv. pose proof (HI o cls v v' Ho Hs Hv) as H. unfold dump_.
  assert (Ht : match cls with Some t => t | None => class_of v' end = tyof cls v) by (destruct cls; [reflexivity|]; now apply same_class).
  rewrite Ht. fold (tyof cls v). fold (serializer E f cls v). apply agr_bind_eq. intros _ _. unfold wrap_ser, agr, mtry in H |- *.
  destruct (snd (ser o (serializer E f cls v) cls v)) eqn:E1, (snd (ser o (serializer E f cls v) cls v')) eqn:E2; try contradiction; cbn [snd fst fail]; rewrite ?E1, ?E2; first [exact H | exact I | reflexivity].
Qed.
Lemma dump_raises o cls v e : snd (dump_ E f ser o cls v) = Fail e -> e = exn_of KSer.
Proof.
  intros H. unfold dump_ in H. apply bind_fail in H as [H|(u & _ & H)]; [discriminate|]. unfold wrap_ser, mtry in H.
  destruct (snd (ser _ _ _ _)) eqn:E1; [congruence| |congruence]. cbn in H. now injection H as <-.
Qed.
Lemma list_agr o t l l' : orderless_options CT o -> Forall2 same l l' ->
  Forall (orderless E (so_strict o) (element_type (so_strict o) t l)) l ->
  agr same (ser_list E f ser o t (VList l)) (ser_list E f ser o t (VList l')).
Proof.
  intros Ho Hl Hf. unfold ser_list. cbn [truthy]. rewrite <- (F2_length _ _ _ Hl).
  destruct (Nat.eqb (length l) 0) eqn:El; cbn [negb]; [apply agr_ret, sm_refl|].
  pose proof (opts_store CT false o Ho eq_refl) as Ho'. rewrite Forall_forall in Hf.
  assert (Hty : forall u, element_type (so_strict o) t l = Some u -> agr (Forall2 same) (mmap (ser (set_store false o) (e_ser E f u) (Some u)) l) (mmap (ser (set_store false o) (e_ser E f u) (Some u)) l')).
  { intros u Hu. apply (mmap_agr same); [exact Hl|]. intros x x' Hx Hs. rewrite Hu in Hf. apply (HI (set_store false o) (Some u) x x' Ho' Hs). now apply Hf. }
  unfold element_type in Hty, Hf. destruct (get_args t) as [|u us] eqn:Ea.
  - destruct l as [|x0 l]; [discriminate|]. inversion Hl as [|? x0' ? l1 Hx0 Hl1]; subst. destruct (so_strict o) eqn:Es.
    + assert (H0 : forall y m, py_getitem CT (VList (y :: m)) (VInt 0) = Ok y) by reflexivity.
      fold CT. rewrite !H0. cbn [py_iter]. rewrite !bind_lift_ok.
      rewrite (same_class _ _ Hx0). eapply agr_bind; [apply (Hty _ eq_refl)|]. intros r r' _ _ Hr. apply agr_ret. now constructor.
    + cbn [py_iter lift]. rewrite !bind_ret_l. eapply agr_bind; [apply (mmap_agr same); [exact Hl|]|].
      * intros x x' Hx Hs. apply dump_agr; [exact Ho'|exact Hs|]. cbn [so_strict set_store]. rewrite Es. now apply Hf.
      * intros r r' _ _ Hr. apply agr_ret. now constructor.
  - cbn [py_iter lift]. rewrite !bind_ret_l. eapply agr_bind; [apply (Hty _ eq_refl)|]. intros r r' _ _ Hr. apply agr_ret. now constructor.
Qed.
Lemma combine_agr o l l' : orderless_options CT o -> Forall2 same l l' -> forall subs,
  (forall i x u, nth_error l i = Some x -> nth_error subs i = Some u -> orderless E (so_strict o) u x) ->
  agr (Forall2 same) (mmap (fun xc => dump_ E f ser o (snd xc) (fst xc)) (combine l subs))
                     (mmap (fun xc => dump_ E f ser o (snd xc) (fst xc)) (combine l' subs)).
Proof.
  intros Ho. induction 1 as [|x x' l l' Hx Hl IH]; intros subs H; cbn [combine]; [apply agr_ret; constructor|].
  destruct subs as [|u subs]; cbn [mmap]; [apply agr_ret; constructor|]. cbn [fst snd].
  eapply agr_bind; [apply (dump_agr o u x x' Ho Hx); apply (H 0); reflexivity|]. intros y y' _ _ Hy.
  eapply agr_bind; [apply IH; intros i z w Hi Hw; now apply (H (S i))|]. intros r r' _ _ Hr. apply agr_ret. now constructor.
Qed.
Lemma iterable_agr o cls v v' l l' : orderless_options CT o -> Forall2 same l l' -> py_iter R v = Ok l -> py_iter R v' = Ok l' ->
  (so_strict o = true -> cls <> None) ->
  (forall subs, get_subclasses (length l) (if so_strict o then cls else None) = Ok subs ->
     forall i x u, nth_error l i = Some x -> nth_error subs i = Some u -> orderless E (so_strict o) u x) ->
  agr same (ser_iterable E f ser o cls v) (ser_iterable E f ser o cls v').
Proof.
  intros Ho Hl Hv Hv' Hc H. unfold ser_iterable. fold R. rewrite Hv, Hv'. cbn [lift]. rewrite !bind_ret_l.
  assert (Hd : forall w, (if so_strict o then determine_cls E cls w else Ok None) = Ok (if so_strict o then cls else None)).
  { intros w. destruct (so_strict o); [|reflexivity]. destruct cls; [reflexivity|]. now elim (Hc eq_refl). }
  rewrite !Hd. cbn [lift]. rewrite !bind_ret_l. rewrite <- (F2_length _ _ _ Hl).
  apply agr_bind_eq. intros subs Hsubs. apply lift_done in Hsubs.
  eapply agr_bind; [apply combine_agr; [apply opts_store; auto|exact Hl|]|].
  - intros i x u Hx Hu. cbn [so_strict set_store]. now apply (H subs Hsubs i x u).
  - intros r r' _ _ Hr. apply agr_ret. now constructor.
Qed.
Lemma repeat_nth {A} (x : A) n i y : nth_error (repeat x n) i = Some y -> y = x.
Proof. intros H. apply nth_error_In in H. now apply repeat_spec in H. Qed.
Lemma lenient_agr o cls v v' l l' : orderless_options CT o -> so_strict o = false -> Forall2 same l l' -> py_iter R v = Ok l -> py_iter R v' = Ok l' ->
  Forall (orderless E false None) l -> agr same (ser_iterable E f ser o cls v) (ser_iterable E f ser o cls v').
Proof.
  intros Ho Hs Hl Hv Hv' Hf. eapply iterable_agr; eauto; [congruence|]. rewrite Hs. cbn [get_subclasses get_args].
  intros subs [= <-] i x u Hx Hu. apply repeat_nth in Hu as ->. rewrite Forall_forall in Hf. apply Hf. now apply nth_error_In in Hx.
Qed.
Lemma namedtuple_agr o c l l' : orderless_options CT o -> Forall2 same l l' -> length l = length (nt_fields CT c) ->
  Forall (orderless E (so_strict o) None) l ->
  agr same (ser_namedtuple E f ser o c (VNT c l)) (ser_namedtuple E f ser o c (VNT c l')).
Proof.
  intros Ho Hl Hlen Hf. unfold ser_namedtuple. eapply (agr_bind (Forall2 (fun a b : value * value => fst a = fst b /\ same (snd a) (snd b)))).
  - apply (mmap_agr eq). { fold CT. generalize (map nf_name (nt_fields CT c)). intros names. induction names; constructor; auto. }
    intros a b Ha <-. fold CT in Ha.
    assert (Hg : exists x x', get_attr E (VNT c l) a = Ok x /\ get_attr E (VNT c l') a = Ok x' /\ In x l /\ same x x').
    { cbn [get_attr]. unfold nt_get. fold CT. clear Hf. assert (Hlen' : length l = length (map nf_name (nt_fields CT c))) by now rewrite map_length.
      revert Ha Hlen'. generalize (map nf_name (nt_fields CT c)) as names. clear Hlen. revert l' Hl.
      assert (Hgen : forall l l', Forall2 same l l' -> forall names, In a names -> length l = length names ->
         exists x x', sget a (combine names l) = Some x /\ sget a (combine names l') = Some x' /\ In x l /\ same x x').
      { clear. induction 1 as [|x x' l l' Hx Hl IH]; intros [|n names] Ha Hlen; try discriminate; [destruct Ha|].
        cbn [combine]. unfold sget in *. cbn [aget]. destruct (String.eqb a n) eqn:En.
        - exists x, x'. repeat split; auto. now left.
        - destruct Ha as [->|Ha]; [now rewrite String.eqb_refl in En|]. injection Hlen as Hlen.
          destruct (IH names Ha Hlen) as (y & y' & H1 & H2 & H3 & H4). exists y, y'. repeat split; auto. now right. }
      intros l' Hl names Ha Hlen. destruct (Hgen l l' Hl names Ha Hlen) as (x & x' & -> & -> & H3 & H4). exists x, x'. repeat split; auto. }
    destruct Hg as (x & x' & -> & -> & Hin & Hs). cbn [lift]. rewrite !bind_ret_l.
    eapply agr_bind; [apply (dump_agr o None x x' Ho Hs); rewrite Forall_forall in Hf; now apply Hf|].
    intros d d' _ _ Hd. apply agr_ret. now split.
  - intros r r' _ _ Hr. apply agr_ret. apply same_of_entries. exists r. split; [reflexivity|exact Hr].
Qed.

(** Dicts *)
Definition new_key (o : sopts) (k k' : value) : Prop := apply_kt CT (so_kt o) k = Ok k'.
Lemma key_made o k : keys_kept_apart CT o -> plain_scalar k -> exists k', new_key o k k' /\ plain_scalar k'.
Proof.
  unfold keys_kept_apart, new_key, apply_kt. intros Hk Hp. destruct (so_kt o) as [g|].
  - destruct Hk as (g' & H1 & _). destruct (H1 k Hp) as [-> Hp']. cbn [rbind]. rewrite (plain_hashable CT _ Hp'). eauto.
  - cbn [rbind]. rewrite (plain_hashable CT _ Hp). eauto.
Qed.
Lemma key_apart o k1 k2 k1' k2' : keys_kept_apart CT o -> plain_scalar k1 -> plain_scalar k2 ->
  new_key o k1 k1' -> new_key o k2 k2' -> py_eqb k1 k2 = false -> py_eqb k1' k2' = false.
Proof.
  unfold keys_kept_apart, new_key, apply_kt. intros Hk H1 H2 E1 E2 Hn. destruct (so_kt o) as [g|].
  - destruct Hk as (g' & Hg & Hi). destruct (Hg k1 H1) as [Eg1 P1], (Hg k2 H2) as [Eg2 P2]. rewrite Eg1 in E1. rewrite Eg2 in E2. cbn [rbind] in *.
    rewrite (plain_hashable CT _ P1) in E1. rewrite (plain_hashable CT _ P2) in E2. injection E1 as <-. injection E2 as <-.
    apply Bool.not_true_is_false. intros X. apply Hi in X; auto. congruence.
  - cbn [rbind] in *. rewrite (plain_hashable CT _ H1) in E1. rewrite (plain_hashable CT _ H2) in E2. congruence.
Qed.
Definition made (o : sopts) (kx : value * value) (r : option (value * value)) : Prop :=
  exists k' y, new_key o (fst kx) k' /\ snd (dump_ E f ser (no_types o) None (snd kx)) = Done y /\
    r = if (so_strip_nulls o && is_none y)%bool then None else Some (k', y).
Definition kept (l : list (option (value * value))) : list (value * value) :=
  flat_map (fun r => match r with Some e => [e] | None => [] end) l.
Lemma dict_go_done o k d : so_types o = [] -> keys_kept_apart CT o -> Forall (fun kx => plain_scalar (fst kx)) d ->
  ForallOrdPairs apart (map fst d) -> forall d1 d2 acc r, d = (d1 ++ d2)%list ->
  (forall a, In a (map fst acc) -> exists kx, In kx d1 /\ new_key o (fst kx) a) ->
  snd (ser_dict_go E f ser o (VDict k d) (map fst d2) acc) = Done r ->
  exists rs, Forall2 (made o) d2 rs /\ r = (acc ++ kept rs)%list.
Proof.
  intros Hty Hka Hpl Hap d1 d2. revert d1. induction d2 as [|[key x] d2 IH]; intros d1 acc r Heq Hacc H; cbn [map fst ser_dict_go] in H.
  - injection H as <-. exists []. split; [constructor|]. cbn. now rewrite app_nil_r.
  - assert (Hin : In (key, x) d) by (rewrite Heq; apply in_or_app; right; now left).
    assert (Hkp : plain_scalar key) by (rewrite Forall_forall in Hpl; exact (Hpl _ Hin)).
    cbn [py_getitem] in H. rewrite (plain_hashable (e_ct E) _ Hkp) in H. rewrite (apart_get _ _ _ Hap Hin) in H. cbn [lift] in H. rewrite bind_ret_l in H.
    unfold store_and_hash in H. fold CT in H. rewrite (scalar_key CT _ Hkp) in H. rewrite bind_ret_l in H. cbn [fst snd] in H. rewrite Hty in H. cbn [aget] in H.
    apply bind_done in H as (y & Hy & H). destruct (key_made o key Hka Hkp) as (k' & Hk' & _).
    assert (Hd1 : d = ((d1 ++ [(key, x)]) ++ d2)%list) by now rewrite <- app_assoc.
    destruct (so_strip_nulls o && is_none y)%bool eqn:En.
    + destruct (IH (d1 ++ [(key, x)])%list acc r Hd1) as (rs & Hrs & ->); [|exact H|].
      { intros a Ha. destruct (Hacc a Ha) as (kx & Hkx & Hn). exists kx. split; [apply in_or_app; now left|exact Hn]. }
      exists (None :: rs). split; [|reflexivity]. constructor; [|exact Hrs]. exists k', y. repeat split; auto. now rewrite En.
    + unfold new_key in Hk'. fold CT in H. rewrite Hk' in H. cbn [lift] in H. rewrite bind_ret_l in H.
      assert (Hfresh : dset k' y acc = (acc ++ [(k', y)])%list).
      { apply dset_fresh. intros a Ha. destruct (Hacc a Ha) as ([k2 x2] & Hkx & Hn). cbn [fst] in Hn.
        assert (Hk2 : plain_scalar k2) by (rewrite Forall_forall in Hpl; apply (Hpl (k2, x2)); rewrite Heq; apply in_or_app; now left).
        apply (key_apart o key k2 k' a Hka Hkp Hk2 Hk' Hn).
        rewrite Heq in Hap. rewrite map_app in Hap. clear -Hap Hkx. induction d1 as [|[a y] d1 IH]; [destruct Hkx|].
        cbn [map fst app] in Hap. inversion Hap as [|? ? Ha Hl]; subst. destruct Hkx as [[= -> ->]|Hkx]; [|now apply IH].
        rewrite Forall_forall in Ha. apply (Ha key). apply in_or_app. right. now left. }
      rewrite Hfresh in H. destruct (IH (d1 ++ [(key, x)])%list (acc ++ [(k', y)])%list r Hd1) as (rs & Hrs & ->); [|exact H|].
      { intros a Ha. rewrite map_app in Ha. apply in_app_or in Ha as [Ha|[<-|[]]].
        - destruct (Hacc a Ha) as (kx & Hkx & Hn). exists kx. split; [apply in_or_app; now left|exact Hn].
        - exists (key, x). split; [apply in_or_app; right; now left|exact Hk']. }
      exists (Some (k', y) :: rs). split; [|now rewrite <- app_assoc]. constructor; [|exact Hrs]. exists k', y. repeat split; auto. now rewrite En.
Qed.
Lemma dict_go_fail o k d : so_types o = [] -> keys_kept_apart CT o -> Forall (fun kx => plain_scalar (fst kx)) d ->
  ForallOrdPairs apart (map fst d) -> forall d2 acc e, (forall kx, In kx d2 -> In kx d) ->
  snd (ser_dict_go E f ser o (VDict k d) (map fst d2) acc) = Fail e ->
  e_noargs e = false /\ exists kx e', In kx d2 /\ snd (dump_ E f ser (no_types o) None (snd kx)) = Fail e'.
Proof.
  intros Hty Hka Hpl Hap d2. induction d2 as [|[key x] d2 IH]; intros acc e Hsub H; cbn [map fst ser_dict_go] in H; [discriminate|].
  assert (Hin : In (key, x) d) by (apply Hsub; now left).
  assert (Hkp : plain_scalar key) by (rewrite Forall_forall in Hpl; exact (Hpl _ Hin)).
  cbn [py_getitem] in H. rewrite (plain_hashable (e_ct E) _ Hkp) in H. rewrite (apart_get _ _ _ Hap Hin) in H. cbn [lift] in H. rewrite bind_ret_l in H.
  unfold store_and_hash in H. fold CT in H. rewrite (scalar_key CT _ Hkp) in H. rewrite bind_ret_l in H. cbn [fst snd] in H. rewrite Hty in H. cbn [aget] in H.
  assert (Hrest : forall acc', snd (ser_dict_go E f ser o (VDict k d) (map fst d2) acc') = Fail e ->
     e_noargs e = false /\ exists kx e', In kx ((key, x) :: d2) /\ snd (dump_ E f ser (no_types o) None (snd kx)) = Fail e').
  { intros acc' H'. destruct (IH acc' e (fun kx Hk => Hsub kx (or_intror Hk)) H') as (Hn & kx & e' & Hkx & He'). split; [exact Hn|]. exists kx, e'. split; [now right|exact He']. }
  apply bind_fail in H as [H|(y & Hy & H)].
  - split; [|exists (key, x), e; split; [now left|exact H]]. now rewrite (dump_raises _ _ _ _ H).
  - destruct (so_strip_nulls o && is_none y)%bool; [now apply Hrest in H|]. destruct (key_made o key Hka Hkp) as (k' & Hk' & _).
    unfold new_key in Hk'. fold CT in H. rewrite Hk' in H. cbn [lift] in H. rewrite bind_ret_l in H. now apply Hrest in H.
Qed.
Lemma dict_agr o k d d' : orderless_options CT o -> same_entries d d' -> Forall (fun kx => plain_scalar (fst kx)) d ->
  ForallOrdPairs apart (map fst d) -> Forall (fun kx => orderless E (so_strict o) None (snd kx)) d ->
  agr same (ser_dict E f ser o (VDict k d)) (ser_dict E f ser o (VDict k d')).
Proof.
  intros Ho He Hpl Hap Hol. pose proof Ho as (_ & _ & Hty & Hka).
  assert (Hap' : ForallOrdPairs apart (map fst d')) by (eapply apart_perm; [apply (entries_keys _ _ He)|exact Hap]).
  assert (Hpl' : Forall (fun kx => plain_scalar (fst kx)) d').
  { rewrite Forall_forall in *. intros [a x'] Hin. destruct (entries_in_rev _ _ _ _ He Hin) as (x & Hx & _). exact (Hpl _ Hx). }
  unfold ser_dict. cbn [py_iter lift]. rewrite !bind_ret_l.
  assert (Hone : forall a x x', In (a, x) d -> same x x' -> agr same (dump_ E f ser (no_types o) None x) (dump_ E f ser (no_types o) None x')).
  { intros a x x' Hin Hs. apply dump_agr; [now apply opts_types|exact Hs|]. rewrite Forall_forall in Hol. exact (Hol _ Hin). }
  apply (agr_bind same_entries); [|intros r r' _ _ Hr; apply agr_ret; now apply same_of_entries].
  unfold agr. destruct (snd (ser_dict_go E f ser o (VDict k d) (map fst d) [])) as [r|e|] eqn:Er;
    destruct (snd (ser_dict_go E f ser o (VDict k d') (map fst d') [])) as [r'|e'|] eqn:Er'; try exact I.
  - destruct (dict_go_done o k d Hty Hka Hpl Hap [] d [] r eq_refl (fun a Ha => match Ha with end) Er) as (rs & Hrs & ->).
    destruct (dict_go_done o k d' Hty Hka Hpl' Hap' [] d' [] r' eq_refl (fun a Ha => match Ha with end) Er') as (rs' & Hrs' & ->).
    cbn [app]. destruct He as (d1 & Hp & Hf). destruct (Permutation_Forall2 Hp Hrs) as (rs1 & Hp1 & Hrs1).
    exists (kept rs1). split; [now apply Permutation_flat_map|].
    assert (Hone1 : forall a x x', In (a, x) d1 -> same x x' -> agr same (dump_ E f ser (no_types o) None x) (dump_ E f ser (no_types o) None x')).
    { intros a x x' Hin. apply (Hone a). now apply (Permutation_in _ (Permutation_sym Hp)). }
    clear -Hf Hrs1 Hrs' Hone1. revert rs1 rs' Hrs1 Hrs'. induction Hf as [|[a x] [a' x'] d1 d' [Ha Hx] Hf IH]; intros rs1 rs' Hrs1 Hrs'.
    { inversion Hrs1; inversion Hrs'; subst. constructor. }
    inversion Hrs1 as [|? e1 ? rs2 Hm1 Hr1]; subst. inversion Hrs' as [|? e2 ? rs2' Hm2 Hr2]; subst.
    specialize (IH (fun a x x' Hin => Hone1 a x x' (or_intror Hin)) _ _ Hr1 Hr2). cbn [fst snd] in *. subst a'.
    destruct Hm1 as (k1 & y1 & Hk1 & Hy1 & ->), Hm2 as (k2 & y2 & Hk2 & Hy2 & ->). cbn [fst snd] in *.
    unfold new_key in *. rewrite Hk1 in Hk2. injection Hk2 as <-.
    pose proof (Hone1 a x x' (or_introl eq_refl) Hx) as Hag. unfold agr in Hag. rewrite Hy1, Hy2 in Hag.
    unfold kept in *. cbn [flat_map]. rewrite <- (same_none _ _ Hag). destruct (so_strip_nulls o && is_none y2)%bool; [exact IH|].
    cbn [app]. constructor; [now split|exact IH].
  - destruct (dict_go_fail o k d' Hty Hka Hpl' Hap' d' [] e' (fun kx H => H) Er') as (_ & [a x'] & e1 & Hin & He1).
    destruct (dict_go_done o k d Hty Hka Hpl Hap [] d [] r eq_refl (fun a Ha => match Ha with end) Er) as (rs & Hrs & _).
    destruct (entries_in_rev _ _ _ _ He Hin) as (x & Hx & Hs). destruct (Forall2_pick _ _ _ _ Hrs Hx) as (rr & _ & k' & y & _ & Hy & _).
    cbn [snd] in *. pose proof (Hone a x x' Hx Hs) as Hag. unfold agr in Hag. now rewrite Hy, He1 in Hag.
  - destruct (dict_go_fail o k d Hty Hka Hpl Hap d [] e (fun kx H => H) Er) as (_ & [a x] & e1 & Hin & He1).
    destruct (dict_go_done o k d' Hty Hka Hpl' Hap' [] d' [] r' eq_refl (fun a Ha => match Ha with end) Er') as (rs & Hrs & _).
    destruct (entries_in _ _ _ _ He Hin) as (x' & Hx & Hs). destruct (Forall2_pick _ _ _ _ Hrs Hx) as (rr & _ & k' & y & _ & Hy & _).
    cbn [snd] in *. pose proof (Hone a x x' Hin Hs) as Hag. unfold agr in Hag. now rewrite Hy, He1 in Hag.
  - destruct (dict_go_fail o k d Hty Hka Hpl Hap d [] e (fun kx H => H) Er) as (-> & _).
    now destruct (dict_go_fail o k d' Hty Hka Hpl' Hap' d' [] e' (fun kx H => H) Er') as (-> & _).
Qed.
Lemma union_agr o v v' ts : orderless_options CT o -> same v v' -> Forall (fun u => orderless E (so_strict o) (Some u) v) ts ->
  agr same (ser_union_go E f ser o v ts) (ser_union_go E f ser o v' ts).
Proof.
  intros Ho Hs. induction 1 as [|u ts Hu Hts IH]; cbn [ser_union_go]; [now apply agr_fail|].
  pose proof (dump_agr o (Some u) v v' Ho Hs Hu) as H.
  assert (Hk : forall w e, snd (dump_ E f ser o (Some u) w) = Fail e -> is_jsons (e_kind e) = true).
  { intros w e He. now rewrite (dump_raises _ _ _ _ He). }
  apply agr_try; [exact H|]. intros e e' He He'. rewrite (Hk _ _ He), (Hk _ _ He'). exact IH.
Qed.

(** Objects *)
Notation entries_same := (Forall2 (fun a b : value * value => fst a = fst b /\ same (snd a) (snd b))).
Lemma dset_entries k x x' d d' : entries_same d d' -> same x x' -> entries_same (dset k x d) (dset k x' d').
Proof.
  intros Hd Hx. unfold dset. induction Hd as [|[a y] [a' y'] d d' [Ha Hy] Hd IH]; cbn [aset].
  - constructor; [now split|constructor].
  - cbn [fst snd] in *. subst a'. destruct (py_eqb k a); constructor; auto; now split.
Qed.
Lemma do_serialize_agr o public c attrs attrs' : orderless_options CT o -> NoDup (map fst attrs) -> same_entries attrs attrs' -> forall l r r',
  (forall a t x, In (a, t) l -> get_attr E (VObj c attrs) a = Ok x -> orderless E (so_strict o) t x) -> entries_same r r' ->
  agr entries_same (do_serialize E f ser o public (VObj c attrs) l r) (do_serialize E f ser o public (VObj c attrs') l r').
Proof.
  intros Ho Hn He. induction l as [|[a t] l IH]; intros r r' Hl Hr; cbn [do_serialize]; [exact Hr|].
  pose proof (get_attr_same c attrs attrs' a Hn He) as Hg.
  destruct (get_attr E (VObj c attrs) a) as [x|e] eqn:Ex, (get_attr E (VObj c attrs') a) as [x'|e'] eqn:Ex'; try contradiction; cbn [lift]; [|now apply agr_fail].
  rewrite !bind_ret_l. assert (Hox : orderless E (so_strict o) t x) by (apply (Hl a t x); [now left|exact Ex]).
  pose proof (HI o t x x' Ho Hg Hox) as H.
  assert (Ht : match t with Some u => u | None => class_of x' end = tyof t x) by (destruct t; [reflexivity|]; now apply same_class).
  rewrite Ht. fold (tyof t x). fold (serializer E f t x). apply agr_bind_eq. intros _ _.
  specialize (IH) as IHl. assert (Hl' : forall a t x, In (a, t) l -> get_attr E (VObj c attrs) a = Ok x -> orderless E (so_strict o) t x) by (intros b u y Hb; apply (Hl b u y); now right).
  destruct Ho as (_ & Hst & _ & _). rewrite Hst.
  set (m := ser o (serializer E f t x) t x) in *. set (m' := ser o (serializer E f t x) t x') in *.
  assert (Hc : forall w (k : M value), mcatch (dom d <- k; ret (store_cls_info E false d w)) =
     (fst k, match snd k with Done d => Done (inl d) | Fail e => Done (inr e) | Oof => Oof end)).
  { intros w [lg [d|e|]]; unfold mcatch, mbind; cbn; try (rewrite app_nil_r); try reflexivity. destruct d; cbn; now rewrite ?app_nil_r. }
  rewrite !Hc. unfold agr in H |- *. unfold mbind. cbn [snd fst].
  destruct (snd m) as [d|e|], (snd m') as [d'|e'|]; try contradiction; cbn [snd]; try exact I.
  - fold (agr entries_same (A := list (value * value))).
    rewrite <- (same_none _ _ H). destruct (so_strip_nulls o && is_none d')%bool.
    + apply (IH r r' Hl' Hr).
    + destruct (apply_kt (e_ct E) (so_kt o) (VStr (if public then strip_us a else a))) as [k|e]; cbn [lift]; [|reflexivity].
      pose proof (IH (dset k d r) (dset k d' r') Hl' (dset_entries k d d' r r' Hr H)) as X. unfold agr in X. cbn. exact X.
  - match goal with |- match ?s with _ => _ end => destruct s; exact I end.
  - rewrite <- H. destruct (so_strict o); [reflexivity|]. destruct (e_noargs e); [reflexivity|]. unfold warn. destruct (e_warn E f _); exact Hr.
  - match goal with |- match ?s with _ => _ end => destruct s; exact I end.
Qed.
Lemma hints_NoDup c : NoDup (declared_names (CT c)) -> NoDup (map fst (attrs_and_types (CT c))).
Proof.
  intros Hdn. unfold attrs_and_types. unfold declared_names in Hdn.
  set (base := match ci_slots (CT c) with Some l => _ | None => _ end).
  assert (Hb : NoDup (map fst base)).
  { unfold base. destruct (ci_slots (CT c)); rewrite map_map; cbn; [rewrite map_id|]; exact Hdn. }
  revert Hb. generalize base. generalize (class_props (ci_members (CT c)) ++ other_class_vars (ci_members (CT c)))%list.
  induction l as [|b l IH]; intros base' Hb; cbn [fold_left]; [exact Hb|]. apply IH. now apply sset_NoDup.
Qed.
Lemma dir_same ci attrs attrs' : same_entries attrs attrs' -> py_dir ci attrs = py_dir ci attrs'.
Proof.
  intros He. unfold py_dir. apply sorted_unique; try apply sort_names_sorted. intros a. rewrite !sort_names_In, !in_app_iff.
  pose proof (entries_keys _ _ He) as Hp. split; intros [H|H]; auto; right; [now apply (Permutation_in a Hp)|now apply (Permutation_in a (Permutation_sym Hp))].
Qed.
Lemma meta_agr o name d d' : so_class_info o = false -> entries_same d d' ->
  agr same (lift (dict_with_meta E o name d)) (lift (dict_with_meta E o name d')).
Proof.
  intros Hc Hd. unfold dict_with_meta. rewrite Hc. cbn [negb andb]. destruct (so_dump_time o); cbn [negb rbind lift fst snd app].
  - apply agr_ret, same_of_entries. eexists. split; [reflexivity|]. apply dset_entries; [|apply sm_refl]. now apply dset_entries; [|apply sm_refl].
  - apply agr_ret, same_of_entries. exists d. split; [reflexivity|exact Hd].
Qed.
Lemma object_agr o t c attrs attrs' : orderless_options CT o -> no_or (an_object CT) t -> NoDup (map fst attrs) -> same_entries attrs attrs' ->
  (forall a x, get_attr E (VObj c attrs) a = Ok x -> orderless E (so_strict o) (attr_hint (CT (declaring (so_strict o) t c)) a) x) ->
  agr same (ser_object E f ser o t (VObj c attrs)) (ser_object E f ser o t (VObj c attrs')).
Proof.
  intros Ho Ht Hn He Hx. unfold ser_object. pose proof Ho as (Hci & Hst & _ & _).
  set (from := match t with Some u => if so_strict o then Some u else None | None => None end).
  assert (Hl : match from with Some u => attrs_from_class E o u | None => attrs_from_object E o (VObj c attrs') end =
               match from with Some u => attrs_from_class E o u | None => attrs_from_object E o (VObj c attrs) end).
  { destruct from; [reflexivity|]. unfold attrs_from_object. now rewrite (dir_same _ _ _ He). }
  rewrite Hl. apply agr_bind_eq. intros l Hll. apply lift_done in Hll. cbn [class_of].
  assert (Hin : forall a u, In (a, u) l -> u = attr_hint (CT (declaring (so_strict o) t c)) a).
  { intros a u Hin. destruct from as [w|] eqn:Ef; unfold from in Ef.
    - destruct t as [t|]; [|discriminate]. destruct (so_strict o); [|discriminate]. injection Ef as <-.
      destruct Ht as (c' & -> & _ & _ & Hdn). cbn [declaring]. unfold attrs_from_class in Hll. destruct (strip_names (so_attr o)); [|discriminate]. cbn [rbind] in Hll.
      apply (filter_attrs_In _ _ _ _ _ _ _ Hll) in Hin. rewrite <- attrs_and_types_get.
      change (e_ct E) with CT in Hin. now rewrite (NoDup_sget _ _ _ (hints_NoDup c' Hdn) Hin).
    - assert (Hdc : declaring (so_strict o) t c = c) by (destruct t as [[]|]; try reflexivity; cbn [declaring]; destruct (so_strict o); [discriminate|reflexivity]).
      rewrite Hdc. unfold attrs_from_object in Hll. destruct (strip_names (so_attr o)); [|discriminate]. cbn [rbind] in Hll.
      apply (filter_attrs_In _ _ _ _ _ _ _ Hll) in Hin. apply in_map_iff in Hin as (b & Hb & _). injection Hb as -> <-. apply attrs_and_types_get. }
  eapply (agr_bind entries_same).
  - apply do_serialize_agr; auto; [rewrite Hci; apply opts_store; auto; now apply opts_attr|].
    intros a u x Hau Hget. rewrite (Hin a u Hau). cbn [so_strict set_store set_attr_opt]. now apply Hx.
  - intros d d' _ _ Hd. rewrite Hst. now apply meta_agr.
Qed.
Lemma ser_of o t v h : serializer E f t v = Some h -> ser_step E f ser o (serializer E f t v) t v = ser_step E f ser o (Some h) t v.
Proof. now intros ->. Qed.
Lemma step_agr o cls v v' : orderless_options CT o -> same v v' -> orderless E (so_strict o) cls v ->
  agr same (ser_step E f ser o (serializer E f cls v) cls v) (ser_step E f ser o (serializer E f cls v) cls v').
Proof.
  intros Ho Hs Hv. destruct Hv as [t v Hf|t l Ht Hl|t l Hst Ht Hl|b ts l Hst He H1 Hlen Hl|b u l Hst Hu Hl|t l Hst Ht Hl|t c l Ht Hc Hlen Hl
    |t k d Ht Hp Ha Hl|ts v Hts|t c attrs Ht Hc Hn Hx].
  - rewrite (Hf v' Hs). apply agr_refl, sm_refl.
  - apply same_list in Hs as (l' & -> & Hl').
    assert (Hh : serializer E f t (VList l) = Some SList).
    { unfold serializer. rewrite HS. destruct t as [t|]; [destruct Ht as (b & ts & ->)|]; cbn [tyof class_of]; now rewrite ser_head. }
    rewrite Hh. cbn [ser_step]. now apply list_agr.
  - apply same_tuple in Hs as (l' & -> & Hl').
    assert (Hh : serializer E f t (VTuple l) = Some STuple).
    { unfold serializer. rewrite HS. destruct t as [t|]; [destruct Ht as (b & ts & ->)|]; cbn [tyof class_of]; now rewrite ser_head. }
    rewrite Hh. cbn [ser_step ser_tuple]. rewrite Hst in Hl. destruct t as [t|]; [|eapply lenient_agr; eauto; reflexivity].
    destruct (raw_args t) as [args|]; [|now apply agr_fail]. destruct (ty_eqb TEllipsis (last args TAny)); [|eapply lenient_agr; eauto; reflexivity].
    cbn [py_iter lift]. rewrite !bind_ret_l. rewrite <- (F2_length _ _ _ Hl'). eapply lenient_agr; eauto; reflexivity.
  - apply same_tuple in Hs as (l' & -> & Hl').
    assert (Hh : serializer E f (Some (TApp b HTuple ts)) (VTuple l) = Some STuple) by (unfold serializer; rewrite HS; cbn [tyof]; now rewrite ser_head).
    rewrite Hh. cbn [ser_step ser_tuple]. cbn [raw_args]. destruct ts as [|t1 ts1]; [now apply agr_fail|].
    assert (Hne : ty_eqb TEllipsis (last (t1 :: ts1) TAny) = false) by (apply ty_eqb_neq; congruence). rewrite Hne.
    eapply iterable_agr; eauto; try reflexivity; [congruence|]. rewrite Hst. intros subs Hsubs i x u Hx Hu.
    assert (Hg : subs = map Some (t1 :: ts1)).
    { unfold get_subclasses in Hsubs. cbn [get_args raw_args] in Hsubs. destruct ts1 as [|t2 ts2]; [now elim H1|].
      rewrite Hlen, Nat.eqb_refl in Hsubs. now injection Hsubs as <-. }
    subst subs. rewrite Hst in Hl. rewrite nth_error_map in Hu. destruct (nth_error (t1 :: ts1) i) as [w|] eqn:Ew; [|discriminate]. injection Hu as <-. now apply (Hl i w x).
  - apply same_tuple in Hs as (l' & -> & Hl').
    assert (Hh : serializer E f (Some (TApp b HTuple [u; TEllipsis])) (VTuple l) = Some STuple) by (unfold serializer; rewrite HS; cbn [tyof]; now rewrite ser_head).
    rewrite Hh. cbn [ser_step ser_tuple raw_args last]. rewrite ty_eqb_refl. cbn [py_iter lift hd]. rewrite !bind_ret_l. rewrite <- (F2_length _ _ _ Hl').
    eapply iterable_agr; eauto; try reflexivity; [congruence|]. rewrite Hst. intros subs Hsubs i x w Hx Hw.
    assert (Hwu : w = Some u).
    { unfold get_subclasses in Hsubs. destruct l as [|x1 [|x2 l]].
      - now destruct i.
      - cbn [repeat length get_args raw_args] in Hsubs. injection Hsubs as <-. destruct i as [|[|i]]; cbn in Hw; congruence.
      - assert (Hga : get_args (Some (TApp true HTuple (repeat u (length (x1 :: x2 :: l))))) = repeat u (length (x1 :: x2 :: l))) by reflexivity.
        rewrite Hga in Hsubs. cbn [repeat length] in Hsubs. rewrite repeat_length, Nat.eqb_refl in Hsubs.
        injection Hsubs as <-. change (Some u :: Some u :: map Some (repeat u (length l))) with (map Some (repeat u (S (S (length l))))) in Hw.
        rewrite nth_error_map in Hw. destruct (nth_error (repeat u _) i) as [w'|] eqn:Ew; [|discriminate]. apply repeat_nth in Ew. subst w'. now injection Hw as <-. }
    subst w. rewrite Hst in Hl. rewrite Forall_forall in Hl. apply Hl. now apply nth_error_In in Hx.
  - apply same_deque in Hs as (l' & -> & Hl').
    assert (Hh : serializer E f t (VColl CDeque l) = Some SIterable).
    { unfold serializer. rewrite HS. destruct t as [t|]; [destruct Ht as (b & ts & ->)|]; cbn [tyof class_of]; now rewrite ser_head. }
    rewrite Hh. cbn [ser_step]. rewrite Hst in Hl. eapply lenient_agr; eauto; reflexivity.
  - apply same_nt in Hs as (l' & -> & Hl').
    assert (Hh : serializer E f t (VNT c l) = Some STuple).
    { assert (Hone : forall u, a_namedtuple CT c u -> default_ser CT u = Some STuple).
      { intros u [(b & ts & ->)|(c' & fs & -> & Hc1 & Hc2)]; [now rewrite ser_head|now apply (ser_namedtuple_class CT c' Hc1 fs)]. }
      unfold serializer. rewrite HS. destruct t as [t|]; cbn [tyof class_of]; now apply Hone. }
    rewrite Hh. cbn [ser_step ser_tuple]. destruct t; now apply namedtuple_agr.
  - apply same_dict in Hs as (d' & -> & Hd').
    assert (Hh : serializer E f t (VDict k d) = Some SDict).
    { unfold serializer. rewrite HS. destruct t as [t|]; [destruct Ht as (b & h & ts & Hh & ->)|destruct k]; cbn [tyof class_of]; rewrite ser_head; [|reflexivity..].
      destruct h; try destruct Hh; reflexivity. }
    rewrite Hh. cbn [ser_step]. now apply dict_agr.
  - assert (Hh : serializer E f (Some (TUnion ts)) v = Some SUnion) by (unfold serializer; rewrite HS; apply default_ser_union).
    rewrite Hh. cbn [ser_step]. unfold ser_union. cbn [raw_args]. rewrite (same_none _ _ Hs).
    destruct (is_none v && existsb (ty_eqb TNoneT) ts)%bool; [apply agr_ret, sm_refl|]. now apply union_agr.
  - apply same_obj in Hs as (attrs' & -> & He).
    assert (Hh : serializer E f t (VObj c attrs) = Some SObject).
    { assert (Hone : forall u, an_object CT u -> default_ser CT u = Some SObject).
      { intros u (c' & -> & Hc1 & Hc2 & _). now apply (ser_object_class CT c' Hc1). }
      unfold serializer. rewrite HS. destruct t as [t|]; cbn [tyof class_of]; now apply Hone. }
    rewrite Hh. cbn [ser_step]. now apply object_agr.
Qed.
End Step.
Theorem serialize_agr n : forall o cls v v', orderless_options CT o -> same v v' -> orderless E (so_strict o) cls v ->
  agr same (serialize E f n o (serializer E f cls v) cls v) (serialize E f n o (serializer E f cls v) cls v').
Proof.
  induction n as [|n IH]; intros o cls v v' Ho Hs Hv; cbn [serialize]; [exact I|]. now apply step_agr.
Qed.
Theorem dump_agrees n o cls v v' : orderless_options CT o -> same v v' -> orderless E (so_strict o) cls v ->
  agr same (dump E f n o cls v) (dump E f n o cls v').
Proof. intros Ho Hs Hv. unfold dump. apply dump_agr; auto. intros. now apply serialize_agr. Qed.
End Agree.
