(** * The order of keys: proofs *)
From Coq Require Import Lia.
From Verif Require Import PyBaseFacts EngineFacts DumpLaws LoadSpec LoadFacts LoadLaws LoadObject LoadTypes LoadMeta
  ConformSpec ConformProofs RoundTripFacts RoundTripProofs ParallelSpec MultitaskProofs ParallelProofs OrderSpec.
Local Open Scope string_scope.

(** ** Values up to order *)
Notation entry_same := (fun a b => fst a = fst b /\ same (snd a) (snd b)).
Lemma Forall2_same l : Forall2 same l l.
Proof. induction l; constructor; [apply sm_refl|assumption]. Qed.
Lemma Forall2_entry {K} (d : list (K * value)) : Forall2 entry_same d d.
Proof. induction d; constructor; [split; [reflexivity|apply sm_refl]|assumption]. Qed.
Lemma same_entries_refl {K} (d : list (K * value)) : same_entries d d.
Proof. exists d. split; [reflexivity|apply Forall2_entry]. Qed.
Lemma same_list l v : same (VList l) v -> exists l', v = VList l' /\ Forall2 same l l'.
Proof. intros H. inversion H; subst; [exists l; split; [reflexivity|apply Forall2_same]|eauto]. Qed.
Lemma same_dict k d v : same (VDict k d) v -> exists d', v = VDict k d' /\ same_entries d d'.
Proof.
  intros H. inversion H; subst.
  - exists d. split; [reflexivity|apply same_entries_refl].
  - eexists. split; [reflexivity|]. eexists. eauto.
Qed.
Lemma same_of_entries k d d' : same_entries d d' -> same (VDict k d) (VDict k d').
Proof. intros (d1 & Hp & Hf). econstructor; eauto. Qed.
Lemma same_scalar j v : scalar j -> same j v -> v = j.
Proof. intros Hs H. inversion H; subst; try contradiction. reflexivity. Qed.
Lemma same_none j v : same j v -> is_none v = is_none j.
Proof. intros H. inversion H; subst; reflexivity. Qed.
Lemma same_class j v : same j v -> class_of v = class_of j.
Proof. intros H. inversion H; subst; reflexivity. Qed.
Lemma same_valid j v : same j v -> valid_type v = valid_type j.
Proof. intros H. inversion H; subst; reflexivity. Qed.
Lemma same_rigid j v : rigid j -> same j v -> v = j.
Proof.
  revert v. induction j using value_ind'; intros w Hr Hs;
    try (inversion Hr as [? Hc|? ?|? ? ?]; subst; try contradiction; now apply same_scalar).
  - apply same_list in Hs as (l' & -> & H'). f_equal. inversion Hr as [? Hc|? Hl|]; subst; [contradiction|].
    clear Hr. revert l' H'. induction l as [|x l IHl]; intros l' H'; inversion H'; subst; [reflexivity|].
    inversion H; subst. inversion Hl; subst. f_equal; auto.
  - inversion Hr as [? Hc| |? Hlen Hl]; subst; [contradiction|]. apply same_dict in Hs as (d' & -> & d1 & Hp & Hf). f_equal.
    destruct d as [|[k1 x1] [|? ?]]; [|..|cbn in Hlen; lia].
    + apply Permutation_nil in Hp. subst. now inversion Hf.
    + apply Permutation_length_1_inv in Hp. subst. inversion Hf as [|? [k2 x2] ? ? [Hk Hx] Hf']; subst. inversion Hf'; subst.
      cbn in Hk, Hx. subst. f_equal. f_equal. inversion Hl; subst. inversion H as [|? ? [? Hi]]; subst. now apply Hi.
Qed.
Lemma entries_in {K} (d d' : list (K * value)) k x : same_entries d d' -> In (k, x) d ->
  exists x', In (k, x') d' /\ same x x'.
Proof.
  intros (d1 & Hp & Hf) Hin. apply (Permutation_in _ Hp) in Hin. clear Hp.
  induction Hf as [|[a y] [b z] d1 d' [Hk Hs] Hf IH]; [contradiction|]. cbn in Hk, Hs. subst b.
  destruct Hin as [E|Hin].
  - injection E as -> ->. exists z. split; [now left|exact Hs].
  - destruct (IH Hin) as (x' & H1 & H2). exists x'. split; [now right|exact H2].
Qed.
Lemma entries_in_rev {K} (d d' : list (K * value)) k x' : same_entries d d' -> In (k, x') d' ->
  exists x, In (k, x) d /\ same x x'.
Proof.
  intros (d1 & Hp & Hf) Hin. cut (exists x, In (k, x) d1 /\ same x x').
  { intros (x & H1 & H2). exists x. split; [apply (Permutation_in _ (Permutation_sym Hp)), H1|exact H2]. }
  clear Hp. induction Hf as [|[a y] [b z] d1 d' [Hk Hs] Hf IH]; [contradiction|]. cbn in Hk, Hs. subst b.
  destruct Hin as [E|Hin].
  - injection E as -> ->. exists y. split; [now left|exact Hs].
  - destruct (IH Hin) as (x & H1 & H2). exists x. split; [now right|exact H2].
Qed.
Lemma entries_keys {K} (d d' : list (K * value)) : same_entries d d' -> Permutation (map fst d) (map fst d').
Proof.
  intros (d1 & Hp & Hf). rewrite (Permutation_map fst Hp). clear Hp. induction Hf as [|a b d1 d' [Hk _] Hf IH]; [constructor|].
  cbn. rewrite Hk. now constructor.
Qed.
Lemma entries_NoDup {K} (d d' : list (K * value)) : same_entries d d' -> NoDup (map fst d) -> NoDup (map fst d').
Proof. intros H. apply Permutation_NoDup, entries_keys, H. Qed.
Lemma entries_length {K} (d d' : list (K * value)) : same_entries d d' -> length d' = length d.
Proof. intros H. apply entries_keys in H. apply Permutation_length in H. rewrite !map_length in H. lia. Qed.

(** ** Documents *)
Lemma document_plain j : document j -> plain_input j.
Proof.
  induction j using value_ind'; intros Hd; inversion Hd as [? Hc|? Hl|? H1 H2 H3]; subst; try contradiction; try constructor.
  - clear Hd. induction Hl; constructor; inversion H; subst; auto.
  - exact H1.
  - clear H1 H2 Hd. induction H3; constructor; inversion H as [|? ? [_ Hx]]; subst; auto.
Qed.
Lemma document_same j : forall v, document j -> same j v -> document v.
Proof.
  induction j using value_ind'; intros w Hd Hs;
    try (match type of Hs with same ?a ?b => rewrite (same_scalar a b I Hs); exact Hd end);
    try (inversion Hd as [? Hc|? Hl|? ? ? ?]; subst; contradiction).
  - apply same_list in Hs as (l' & -> & H'). inversion Hd as [? Hc|? Hl|]; subst; [contradiction|]. apply dc_list.
    clear Hd. induction H'; constructor; inversion H; subst; inversion Hl; subst; auto.
  - inversion Hd as [? Hc|? Hl|? H1 H2 H3]; subst; [contradiction|]. apply same_dict in Hs as (d' & -> & He).
    rewrite Forall_forall in *. apply dc_dict.
    + rewrite Forall_forall. intros [k' x'] Hin. destruct (entries_in_rev _ _ _ _ He Hin) as (x & Hx & _).
      exact (H1 _ Hx).
    + eapply entries_NoDup; eauto.
    + rewrite Forall_forall. intros [k' x'] Hin. destruct (entries_in_rev _ _ _ _ He Hin) as (x & Hx & Hs).
      destruct (H _ Hx) as [_ Hi]. apply Hi; [exact (H3 _ Hx)|exact Hs].
Qed.
Lemma document_dict d : document (VDict DkDict d) ->
  str_keys d /\ NoDup (map fst d) /\ (forall k x, In (k, x) d -> document x) /\
  dget (VStr "-keys") d = None /\ dget (VStr "-meta") d = None.
Proof.
  intros H. inversion H as [? Hc|? Hl|? H1 H2 H3]; subst; [contradiction|]. rewrite Forall_forall in H1, H3. repeat split; auto.
  - intros k Hin. apply in_map_iff in Hin as (kx & <- & Hin). destruct (H1 _ Hin) as (s & Hs & _). now exists s.
  - intros k x Hin. exact (H3 _ Hin).
  - destruct (dget (VStr "-keys") d) eqn:Eg; [|reflexivity]. apply dget_In in Eg. apply H1 in Eg as (s & Hs & _ & Hn). cbn in Hs. congruence.
  - destruct (dget (VStr "-meta") d) eqn:Eg; [|reflexivity]. apply dget_In in Eg. apply H1 in Eg as (s & Hs & Hn & _). cbn in Hs. congruence.
Qed.
(** Lookups *)
Definition orel {A} (Q : A -> A -> Prop) (a b : option A) : Prop :=
  match a, b with Some x, Some y => Q x y | None, None => True | _, _ => False end.
Lemma dget_entries d d' k : same_entries d d' -> str_keys d -> str_keys d' -> NoDup (map fst d) ->
  orel same (dget (VStr k) d) (dget (VStr k) d').
Proof.
  intros He Hk Hk' Hn. pose proof (entries_NoDup _ _ He Hn) as Hn'.
  destruct (dget (VStr k) d) as [x|] eqn:Ex.
  - apply dget_In in Ex. destruct (entries_in _ _ _ _ He Ex) as (x' & Hx' & Hs).
    now rewrite (dget_string _ _ _ Hk' Hn' Hx').
  - destruct (dget (VStr k) d') as [x'|] eqn:Ex'; [|exact I]. apply dget_In in Ex'.
    destruct (entries_in_rev _ _ _ _ He Ex') as (x & Hx & _). rewrite (dget_string _ _ _ Hk Hn Hx) in Ex. discriminate.
Qed.

(** ** Outcomes that agree *)
Definition agree {A} (Q : A -> A -> Prop) (m m' : M A) : Prop :=
  match snd m, snd m' with
  | Done a, Done b => Q a b
  | Fail _, Fail _ => True
  | Oof, _ | _, Oof => True
  | _, _ => False
  end.
Lemma agree_refl {A} (Q : A -> A -> Prop) m : (forall a, Q a a) -> agree Q m m.
Proof. intros H. unfold agree. destruct (snd m); auto. Qed.
Lemma agree_impl {A} (Q Q' : A -> A -> Prop) m m' : (forall a b, Q a b -> Q' a b) -> agree Q m m' -> agree Q' m m'.
Proof. intros H. unfold agree. destruct (snd m), (snd m'); auto. Qed.
Lemma agree_bind {A B} (Q : A -> A -> Prop) (Q' : B -> B -> Prop) m m' k k' :
  agree Q m m' -> (forall a b, snd m = Done a -> snd m' = Done b -> Q a b -> agree Q' (k a) (k' b)) ->
  agree Q' (mbind m k) (mbind m' k').
Proof.
  unfold agree, mbind. intros H Hk.
  destruct (snd m) as [a|e|] eqn:Ea, (snd m') as [b|e'|] eqn:Eb; cbn [snd]; try exact I; try contradiction.
  - now apply Hk.
  - now destruct (snd (k a)).
Qed.
Lemma agree_bind_eq {A B} (Q : B -> B -> Prop) (m : M A) k k' :
  (forall a, snd m = Done a -> agree Q (k a) (k' a)) -> agree Q (mbind m k) (mbind m k').
Proof.
  intros H. apply (agree_bind eq); [now apply agree_refl|]. intros a b Ha _ <-. now apply H.
Qed.
Lemma agree_ret {A} (Q : A -> A -> Prop) a b : Q a b -> agree Q (ret a) (ret b).
Proof. intros H. exact H. Qed.
Lemma agree_fail {A} (Q : A -> A -> Prop) e e' : agree Q (fail e) (fail e').
Proof. exact I. Qed.

Section Agree.
Variable E : env.
Variable f : nat.
Variable s : bool.
Let CT := e_ct E.
Hypothesis HD : default_deserializers E f.
Hypothesis HV : fair_validators E f.
Hypothesis HR : forall c, regular (CT c).

Lemma validate_same t v v' : same v v' -> agree eq (lift (validate E f v t)) (lift (validate E f v' t)).
Proof.
  intros H. unfold validate. destruct (e_validator E f t) as [p|] eqn:Ep; [|reflexivity].
  pose proof (HV t p v v' Ep H) as X. destruct (p v) as [[]|e], (p v') as [[]|e']; try exact I; try reflexivity;
    exfalso; destruct X as [X1 X2]; try (specialize (X1 eq_refl); discriminate); specialize (X2 eq_refl); discriminate.
Qed.
Lemma wrap_agree (m m' : M value) : agree same m m' -> outcomes_agree (snd (wrap_deser m)) (snd (wrap_deser m')).
Proof.
  unfold agree, wrap_deser, mtry. intros H. destruct (snd m) as [a|e|] eqn:Ea, (snd m') as [b|e'|] eqn:Eb; cbn [snd];
    rewrite ?Ea, ?Eb; try exact I; try contradiction; try exact H.
  assert (X : forall e, is_jsons (e_kind (if is_jsons (e_kind e) then e else exn_of KDeser)) = true).
  { intros e0. destruct (is_jsons (e_kind e0)) eqn:E0; [exact E0|reflexivity]. }
  cbn. now rewrite !X.
Qed.
Lemma document_no_meta j : document j -> no_meta_entry j.
Proof. intros H. apply pi_no_meta, document_plain, H. Qed.
Lemma same_container j j' : container j -> same j j' -> container j'.
Proof. intros Hc H. inversion H; subst; (assumption || contradiction || exact I). Qed.
Lemma step_agree n o cls j j' : not_fwd cls -> document j -> container j -> same j j' ->
  (forall h, skips o cls j = false -> e_deser E f (target cls j) = Some h ->
     agree same (deser_step E (load E n) f (inner o (target cls j) cls) h (target cls j) j)
                (deser_step E (load E n) f (inner o (target cls j) cls) h (target cls j) j')) ->
  outcomes_agree (snd (load E (S n) f o cls j)) (snd (load E (S n) f o cls j')).
Proof.
  intros Hf Hd Hc Hs Hstep. pose proof (document_same _ _ Hd Hs) as Hd'.
  assert (Hn : is_none j = false) by (destruct j; try contradiction; reflexivity).
  cbn [load]. unfold load_step. rewrite (same_none _ _ Hs), Hn. rewrite !bind_ret_l.
  assert (Est : same_type j' cls = same_type j cls) by (unfold same_type; now rewrite (same_class _ _ Hs)).
  rewrite Est. unfold skips in Hstep.
  destruct (negb (lo_strict o) && same_type j cls || match cls with Some TAny => true | _ => false end).
  - destruct cls as [t|]; [|exact Hs]. pose proof (validate_same t _ _ Hs) as X. unfold agree in X.
    unfold mbind. unfold validate in *. destruct (e_validator E f t) as [p|]; [|exact Hs].
    destruct (p j) as [[]|], (p j') as [[]|]; cbn in *; try contradiction; try reflexivity; exact Hs.
  - assert (El : match cls with Some (TFwd s) => dor t <- e_resolve E f s; Ok (Some t) | _ => Ok cls end = Ok cls)
      by (destruct cls as [[]|]; try reflexivity; contradiction).
    rewrite El, !bind_lift_ok, (same_valid _ _ Hs). destruct (negb (valid_type j)); [reflexivity|].
    rewrite (no_meta_get _ _ _ (document_no_meta _ Hd)), (no_meta_get _ _ _ (document_no_meta _ Hd')), !bind_lift_ok.
    cbn [fst snd]. rewrite (same_class _ _ Hs).
    assert (Et : determine_precedence cls None (Some (class_of j)) (lo_inferred o) = Some (target cls j)).
    { unfold determine_precedence. destruct cls as [u|], (lo_inferred o); reflexivity. }
    rewrite Et. destruct (e_deser E f (target cls j)) as [h|] eqn:Eh; [|reflexivity]. cbv zeta.
    apply wrap_agree. apply (agree_bind same); [now apply Hstep|]. intros a b _ _ Hab.
    apply (agree_bind eq); [now apply validate_same|]. intros _ _ _ _ _. exact Hab.
Qed.

Section Step.
Variable n : nat.
Hypothesis IH : forall o t j j', ok_opts s o -> document j -> same j j' -> by_key CT s t j ->
  outcomes_agree (snd (load E n f o t j)) (snd (load E n f o t j')).
Lemma IHa o t j j' : ok_opts s o -> document j -> same j j' -> by_key CT s t j ->
  agree same (load E n f o t j) (load E n f o t j').
Proof.
  intros Ho Hd Hs Hb. pose proof (IH o t j j' Ho Hd Hs Hb) as X. unfold outcomes_agree, agree in *.
  destruct (snd (load E n f o t j)), (snd (load E n f o t j')); auto.
Qed.

(** *** Lists and tuples *)
Lemma list_go_agree o t : ok_opts s o -> forall l l' i, Forall2 same l l' -> Forall document l -> Forall (by_key CT s t) l ->
  agree (Forall2 same) (deser_list_go E (load E n) f o false t i l) (deser_list_go E (load E n) f o false t i l').
Proof.
  intros Ho l l' i H. revert i. induction H as [|x x' l l' Hx H IHl]; intros i Hd Hb; [constructor|].
  inversion Hd; subst. inversion Hb; subst. cbn [deser_list_go]. cbv zeta.
  pose proof (IHa o t x x' Ho ltac:(assumption) Hx ltac:(assumption)) as X.
  specialize (IHl (S i) ltac:(assumption) ltac:(assumption)). unfold agree in X.
  destruct (snd (load E n f o t x)) as [y|e|], (snd (load E n f o t x')) as [y'|e'|]; try contradiction.
  - apply (agree_bind eq); [reflexivity|]. intros _ _ _ _ _. eapply agree_bind; [exact IHl|].
    intros ys ys' _ _ Hys. apply agree_ret. now constructor.
  - unfold agree. cbn [snd]. destruct (snd _); exact I.
  - destruct (is_deser (e_kind e)), (is_deser (e_kind e')); exact I.
  - destruct (is_deser (e_kind e)); exact I.
  - exact I.
  - exact I.
  - exact I.
Qed.

Lemma list_agree o args l l' : ok_opts s o -> Forall2 same l l' -> Forall document l -> Forall (by_key CT s (hd_error args)) l ->
  agree (Forall2 same) (deser_list E (load E n) f o args (VList l)) (deser_list E (load E n) f o args (VList l')).
Proof.
  intros Ho Hl Hd Hb. unfold deser_list. cbn [py_iter]. rewrite !bind_lift_ok. cbv zeta.
  destruct Ho as (H1 & H2 & H3 & H4). rewrite H3. apply list_go_agree; auto.
  destruct args; cbn; unfold ok_opts, no_hints; cbn; tauto.
Qed.
Lemma mmap_agree o t : ok_opts s o -> forall l l', Forall2 same l l' -> Forall document l -> Forall (by_key CT s t) l ->
  agree (Forall2 same) (mmap (load E n f o t) l) (mmap (load E n f o t) l').
Proof.
  intros Ho l l' H. induction H as [|x x' l l' Hx H IHl]; intros Hd Hb; [constructor|].
  inversion Hd; subst. inversion Hb; subst. cbn [mmap].
  eapply agree_bind; [apply IHa; eassumption|]. intros y y' _ _ Hy. eapply agree_bind; [now apply IHl|].
  intros ys ys' _ _ Hys. apply agree_ret. now constructor.
Qed.
Lemma tuple_go_agree o : ok_opts s o -> forall l l', Forall2 same l l' -> Forall document l -> forall ts,
  (forall i t x, nth_error ts i = Some t -> nth_error l i = Some x -> by_key CT s (Some t) x) ->
  agree (Forall2 same) (deser_tuple_go (load E n) f o l ts) (deser_tuple_go (load E n) f o l' ts).
Proof.
  intros Ho l l' H. induction H as [|x x' l l' Hx H IHl]; intros Hd ts Hb; [constructor|].
  inversion Hd; subst. cbn [deser_tuple_go]. destruct ts as [|t ts]; [apply agree_fail|].
  eapply agree_bind; [apply IHa; auto; exact (Hb 0 t x eq_refl eq_refl)|]. intros y y' _ _ Hy.
  eapply agree_bind; [apply IHl; [assumption|]; intros i u z Hu Hz; exact (Hb (S i) u z Hu Hz)|].
  intros ys ys' _ _ Hys. apply agree_ret. now constructor.
Qed.

(** *** Dicts *)
Lemma Forall2_pick {A B} (P : A -> B -> Prop) l m a : Forall2 P l m -> In a l -> exists b, In b m /\ P a b.
Proof.
  induction 1 as [|x y l m H HH IHl]; intros [].
  - subst. exists y. split; [now left|exact H].
  - destruct (IHl H0) as (b & Hb & Hp). exists b. split; [now right|exact Hp].
Qed.
Definition key_call (ok : lopts) (kc : option ty) (k : value) : M value :=
  match kc with Some t => load E n f ok (Some t) k | None => ret k end.
Definition text_keys (kc : option ty) : Prop := kc = None \/ kc = Some (TPrim PStr).
Lemma key_call_same ok kc a k : text_keys kc -> ok_opts s ok -> snd (key_call ok kc (VStr a)) = Done k -> k = VStr a.
Proof.
  intros [-> | ->] Ho H; cbn [key_call] in H; [now injection H as <-|].
  destruct n as [|m]; [discriminate|]. apply load_typed in H; [|exact I|intros ? ? ? Hx; discriminate].
  destruct H as [_ H]. cbn [class_of] in H. rewrite ty_eqb_refl in H. destruct (lo_strict ok); cbn [negb andb] in H.
  - destruct H as (_ & h & Hh & H & _). rewrite HD, deser_prim in Hh. injection Hh as <-. cbn [deser_step] in H.
    unfold deser_string in H. cbn in H. now injection H as <-.
  - now destruct H as [-> _].
Qed.
Lemma dict_go_done ok ov g kc vc : text_keys kc -> ok_opts s ok -> (forall x, g x = Ok x) -> forall d acc r,
  str_keys d -> str_keys acc -> NoDup (map fst acc ++ map fst d) ->
  snd (deser_dict_go E (load E n) f ok ov g kc vc d acc) = Done r ->
  exists l, r = (acc ++ l)%list /\
    Forall2 (fun kx ky => fst kx = fst ky /\ (exists k, snd (key_call ok kc (fst kx)) = Done k) /\
                          snd (load E n f ov vc (snd kx)) = Done (snd ky)) d l.
Proof.
  intros Hkc Hok Hg. induction d as [|[k x] d IHd]; intros acc r Hs Ha Hn H; cbn [deser_dict_go] in H.
  { injection H as <-. exists []. split; [symmetry; apply app_nil_r|constructor]. }
  rewrite Hg, bind_lift_ok in H. apply bind_done in H as (k2 & Hk2 & H). apply bind_done in H as (y & Hy & H).
  destruct (Hs k (or_introl eq_refl)) as (a & ->). pose proof Hk2 as Hk3. apply key_call_same in Hk3; auto. subst k2.
  destruct (hashable (e_ct E) (VStr a)); [|discriminate].
  assert (Hnin : ~ In (VStr a) (map fst acc)).
  { intros Hin. cbn [map fst] in Hn. apply NoDup_remove_2 in Hn. apply Hn. apply in_or_app. now left. }
  rewrite (dset_string _ _ _ Ha Hnin) in H. apply IHd in H.
  - destruct H as (l & -> & Hl). exists ((VStr a, y) :: l). split; [now rewrite <- app_assoc|].
    constructor; [|exact Hl]. cbn [fst snd]. split; [reflexivity|]. split; [now exists (VStr a)|exact Hy].
  - intros k' Hk'. apply Hs. now right.
  - intros k' Hk'. rewrite map_app in Hk'. apply in_app_or in Hk' as [Hk'|[<-|[]]]; [now apply Ha|now exists a].
  - rewrite map_app, <- app_assoc. exact Hn.
Qed.
Lemma dict_go_fail ok ov g kc vc : text_keys kc -> ok_opts s ok -> (forall x, g x = Ok x) -> forall d acc e,
  str_keys d ->
  snd (deser_dict_go E (load E n) f ok ov g kc vc d acc) = Fail e ->
  exists k x, In (k, x) d /\ ((exists e', snd (key_call ok kc k) = Fail e') \/ (exists e', snd (load E n f ov vc x) = Fail e')).
Proof.
  intros Hkc Hok Hg. induction d as [|[k x] d IHd]; intros acc e Hs H; cbn [deser_dict_go] in H; [discriminate|].
  rewrite Hg, bind_lift_ok in H. apply bind_fail in H as [H|(k2 & Hk2 & H)].
  { exists k, x. split; [now left|]. left. now exists e. }
  apply bind_fail in H as [H|(y & Hy & H)].
  { exists k, x. split; [now left|]. right. now exists e. }
  destruct (Hs k (or_introl eq_refl)) as (a & ->). apply (key_call_same ok kc) in Hk2; auto. subst k2. cbn [hashable] in H.
  apply IHd in H as (k' & x' & Hin & H').
  - exists k', x'. split; [now right|exact H'].
  - intros k' Hk'. apply Hs. now right.
Qed.
Lemma dict_go_agree ok ov g kc vc d d' : text_keys kc -> ok_opts s ok -> ok_opts s ov -> (forall x, g x = Ok x) ->
  document (VDict DkDict d) -> document (VDict DkDict d') -> same_entries d d' ->
  (forall k x, In (k, x) d -> by_key CT s vc x) ->
  agree same_entries (deser_dict_go E (load E n) f ok ov g kc vc d []) (deser_dict_go E (load E n) f ok ov g kc vc d' []).
Proof.
  intros Hkc Hok Hov Hg Hd Hd' He Hb.
  destruct (document_dict _ Hd) as (Hs & Hn & Hdoc & _). destruct (document_dict _ Hd') as (Hs' & Hn' & Hdoc' & _).
  assert (Hvals : forall k x x', In (k, x) d -> same x x' -> agree same (load E n f ov vc x) (load E n f ov vc x')).
  { intros k x x' Hin Hx. apply IHa; eauto. }
  destruct (snd (deser_dict_go E (load E n) f ok ov g kc vc d [])) as [r|e|] eqn:E1,
           (snd (deser_dict_go E (load E n) f ok ov g kc vc d' [])) as [r'|e'|] eqn:E2;
    unfold agree; rewrite E1, ?E2; try exact I.
  - apply dict_go_done in E1 as (l & -> & Hl); auto; [|intros ? []]. apply dict_go_done in E2 as (l' & -> & Hl'); auto; [|intros ? []].
    cbn [app]. destruct He as (d1 & Hp & Hf). destruct (Permutation_Forall2 Hp Hl) as (l1 & Hp1 & Hl1).
    exists l1. split; [exact Hp1|].
    assert (Hin : forall kx, In kx d1 -> In kx d) by (intros kx; apply (Permutation_in _ (Permutation_sym Hp))).
    clear -Hf Hl1 Hl' Hvals Hin. revert l1 l' Hl1 Hl'.
    induction Hf as [|[k x] [k' x'] d1 d' [Hk Hx] Hf IHf]; intros l1 l' H1 H2; inversion H1 as [|? [k1 y] ? ? (K1 & _ & L1) H1'];
      subst; inversion H2 as [|? [k2 y'] ? ? (K2 & _ & L2) H2']; subst; constructor.
    + cbn [fst snd] in *. split; [congruence|]. pose proof (Hvals k x x' (Hin _ (or_introl eq_refl)) Hx) as X.
      unfold agree in X. rewrite L1, L2 in X. exact X.
    + apply IHf; auto. intros kx Hkx. apply Hin. now right.
  - apply dict_go_done in E1 as (l & -> & Hl); auto; [|intros ? []]. apply dict_go_fail in E2 as (k & x' & Hin & Hor); auto.
    destruct (entries_in_rev _ _ _ _ He Hin) as (x & Hx & Hxx).
    destruct (Forall2_pick _ _ _ _ Hl Hx) as ([k1 y] & _ & K1 & (k3 & K2) & K3). cbn [fst snd] in *.
    destruct Hor as [(e2 & Hk)|(e2 & Hk)]; [congruence|]. pose proof (Hvals k x x' Hx Hxx) as X. unfold agree in X.
    now rewrite K3, Hk in X.
  - apply dict_go_done in E2 as (l & -> & Hl); auto; [|intros ? []]. apply dict_go_fail in E1 as (k & x & Hin & Hor); auto.
    destruct (entries_in _ _ _ _ He Hin) as (x' & Hx & Hxx).
    destruct (Forall2_pick _ _ _ _ Hl Hx) as ([k1 y] & _ & K1 & (k3 & K2) & K3). cbn [fst snd] in *.
    destruct Hor as [(e2 & Hk)|(e2 & Hk)]; [congruence|]. pose proof (Hvals k x x' Hin Hxx) as X. unfold agree in X.
    now rewrite K3, Hk in X.
Qed.
Lemma dict_agree o args d d' : ok_opts s o -> document (VDict DkDict d) -> document (VDict DkDict d') -> same_entries d d' ->
  (args = [] /\ (forall k x, In (k, x) d -> by_key CT s None x)) \/
  (exists t, args = [TPrim PStr; t] /\ (forall k x, In (k, x) d -> by_key CT s (Some t) x)) ->
  agree same_entries (deser_dict E (load E n) f o args (VDict DkDict d)) (deser_dict E (load E n) f o args (VDict DkDict d')).
Proof.
  intros Ho Hd Hd' He Ha. destruct (document_dict _ Hd) as (_ & _ & _ & K & _). destruct (document_dict _ Hd') as (_ & _ & _ & K' & _).
  cbn [deser_dict]. unfold load_hashed_keys. rewrite K, K', !bind_ret_l. cbv zeta. cbn [fst snd]. fold (the_kt o).
  pose proof (ok_kt_none s _ Ho). pose proof (ok_kt_some s _ Ho). pose proof (fun x => the_kt_id s o x Ho).
  destruct Ha as [[-> Hb]|(t & -> & Hb)]; apply dict_go_agree; auto; [now left|now right].
Qed.

(** *** Objects *)
Lemma value_from_obj_agree o p x x' : ok_opts s o -> document x -> same x x' -> by_key CT s (pa_hint p) x ->
  agree same (value_from_obj E (load E n) f o [] p x) (value_from_obj E (load E n) f o [] p x').
Proof.
  intros Ho Hd Hs Hb. unfold value_from_obj. cbn [dget aget]. cbv zeta.
  change (dget (VStr ("/" ++ pa_name p)) []) with (@None value). cbv iota. rewrite !bind_lift_ok. cbn [fst snd].
  assert (Ed : determine_precedence (pa_hint p) None None true = pa_hint p)
    by (unfold determine_precedence; cbn; now destruct (pa_hint p)).
  rewrite Ed. apply IHa; auto. destruct Ho as (H1 & H2 & H3 & H4). unfold ok_opts, no_hints, set_hints. cbn. auto.
Qed.
Lemma constructor_args_agree o d d' gs : ok_opts s o -> (forall k, orel same (dget (VStr k) d) (dget (VStr k) d')) -> forall ps,
  (forall p x, In p ps -> In (VStr (pa_name p), x) d -> document x /\ by_key CT s (pa_hint p) x) ->
  agree (Forall2 entry_same) (constructor_args E (load E n) f o [] d gs ps) (constructor_args E (load E n) f o [] d' gs ps).
Proof.
  intros Ho Hg. induction ps as [|p ps IHp]; intros Hb; [constructor|]. cbn [constructor_args].
  apply (agree_bind (orel same)).
  - unfold value_for_attr. specialize (Hg (pa_name p)).
    destruct (dget (VStr (pa_name p)) d) as [x|] eqn:Ex, (dget (VStr (pa_name p)) d') as [x'|] eqn:Ex'; try contradiction.
    + apply dget_In in Ex. destruct (Hb p x (or_introl eq_refl) Ex) as [Hd Hx].
      eapply agree_bind; [now apply value_from_obj_agree|]. intros y y' _ _ Hy. exact Hy.
    + apply agree_refl. intros [y|]; [apply sm_refl|exact I].
  - intros y y' _ _ Hy. eapply agree_bind; [apply IHp; intros; apply Hb; auto; now right|]. intros r r' _ _ Hr.
    apply agree_ret. destruct y as [y|], y' as [y'|]; try contradiction; [|exact Hr]. now constructor.
Qed.
Lemma shas_entries a args args' : Forall2 entry_same args args' -> @shas value a args' = shas a args.
Proof.
  intros H. unfold shas, amem. induction H as [|[k x] [k' x'] r r' [Hk _] H IHr]; [reflexivity|]. cbn [fst] in Hk. subst k'.
  cbn [aget]. destruct (String.eqb a k); [reflexivity|exact IHr].
Qed.
Lemma Permutation_filter {A} (p : A -> bool) l l' : Permutation l l' -> Permutation (filter p l) (filter p l').
Proof.
  induction 1; cbn.
  - constructor.
  - destruct (p x); [now constructor|assumption].
  - destruct (p x), (p y); try apply Permutation_refl. apply perm_swap.
  - etransitivity; eassumption.
Qed.
Lemma entries_filter {K} (p p' : K * value -> bool) d d' :
  (forall k x x', p (k, x) = p' (k, x')) -> same_entries d d' -> same_entries (filter p d) (filter p' d').
Proof.
  intros Hp (d1 & H1 & H2). exists (filter p d1). split; [now apply Permutation_filter|]. clear H1.
  induction H2 as [|[k x] [k' x'] r r' [Hk Hx] H IHr]; [constructor|]. cbn [fst] in Hk. subst k'. cbn [filter].
  rewrite (Hp k x x'). destruct (p' (k, x')); [|exact IHr]. constructor; [split; auto|exact IHr].
Qed.
Lemma entries_nil {K} (d : list (K * value)) : same_entries [] d -> d = [].
Proof. intros H. apply entries_length in H. now destruct d. Qed.
Lemma entries_nil_r {K} (d : list (K * value)) : same_entries d [] -> d = [].
Proof. intros H. apply entries_length in H. now destruct d. Qed.
Lemma remaining_agree strict d d' args args' : same_entries d d' -> Forall2 entry_same args args' ->
  agree same_entries (lift (remaining_args strict d args)) (lift (remaining_args strict d' args')).
Proof.
  intros He Ha. unfold remaining_args.
  set (p := fun kv : value * value => negb (has_arg (fst kv) args) && negb (py_eqb (VStr "-meta") (fst kv))).
  set (p' := fun kv : value * value => negb (has_arg (fst kv) args') && negb (py_eqb (VStr "-meta") (fst kv))).
  assert (Hp : forall k x x', p (k, x) = p' (k, x')).
  { intros k x x'. unfold p, p'. cbn [fst]. f_equal. f_equal. unfold has_arg. destruct k; auto. symmetry. now apply shas_entries. }
  pose proof (entries_filter p p' d d' Hp He) as Hf.
  destruct (filter p d) as [|[k x] r]; [rewrite (entries_nil _ Hf); apply agree_ret, same_entries_refl|].
  destruct (filter p' d') as [|[k' x'] r']; [apply entries_nil_r in Hf; discriminate|].
  destruct strict; [apply agree_fail|]. exact Hf.
Qed.
(** Attributes by their names *)
Lemma entries_of_lookups at_ at' : NoDup (map fst at_) -> NoDup (map fst at') ->
  (forall a, orel same (sget a at_) (sget a at')) -> same_entries at_ at'.
Proof.
  intros Hn Hn' Hl. exists (map (fun b => (fst b, match sget (fst b) at_ with Some x => x | None => snd b end)) at'). split.
  - apply NoDup_Permutation.
    + now apply NoDup_map_inv in Hn.
    + apply (NoDup_map_inv fst). rewrite map_map. cbn [fst]. exact Hn'.
    + intros [a x]. split; intros Hin.
      * pose proof (sget_NoDup _ _ _ Hn Hin) as Hg. specialize (Hl a). rewrite Hg in Hl.
        destruct (sget a at') as [x'|] eqn:Ex; [|contradiction]. apply sget_In in Ex. apply in_map_iff. exists (a, x').
        split; [|exact Ex]. cbn [fst]. now rewrite Hg.
      * apply in_map_iff in Hin as ([b x'] & Heq & Hin). cbn [fst snd] in Heq. injection Heq as -> <-.
        pose proof (sget_NoDup _ _ _ Hn' Hin) as Hg. specialize (Hl a). rewrite Hg in Hl.
        destruct (sget a at_) as [x|] eqn:Ex; [|contradiction]. now apply sget_In in Ex.
  - assert (X : forall b, In b at' -> same (match sget (fst b) at_ with Some x => x | None => snd b end) (snd b)).
    { intros [b x'] Hin. cbn [fst snd]. pose proof (sget_NoDup _ _ _ Hn' Hin) as Hg. specialize (Hl b). rewrite Hg in Hl.
      destruct (sget b at_); [exact Hl|contradiction]. }
    clear Hn' Hl. induction at' as [|b at' IHat]; [constructor|]. cbn [map]. constructor.
    + split; [reflexivity|]. apply X. now left.
    + apply IHat. intros b' Hb. apply X. now right.
Qed.
Lemma lookups_of_entries (at_ at' : list (string * value)) : NoDup (map fst at_) -> same_entries at_ at' -> forall a, orel same (sget a at_) (sget a at').
Proof.
  intros Hn He a. pose proof (entries_NoDup _ _ He Hn) as Hn'.
  destruct (sget a at_) as [x|] eqn:Ex.
  - apply sget_In in Ex. destruct (entries_in _ _ _ _ He Ex) as (x' & Hx' & Hs). now rewrite (sget_NoDup _ _ _ Hn' Hx').
  - destruct (sget a at') as [x'|] eqn:Ex'; [|exact I]. apply sget_In in Ex'.
    destruct (entries_in_rev _ _ _ _ He Ex') as (x & Hx & _). rewrite (sget_NoDup _ _ _ Hn Hx) in Ex. discriminate.
Qed.
Definition set1 (ci : cinfo) (at_ : list (string * value)) (ay : string * value) : list (string * value) :=
  match ci_set ci (fst ay) (snd ay) at_ with Ok at' => at' | Err _ => at_ end.
Lemma set1_NoDup c at_ ay : NoDup (map fst at_) -> NoDup (map fst (set1 (CT c) at_ ay)).
Proof.
  intros H. unfold set1. destruct (HR c) as [_ Hset]. destruct (Hset (fst ay)) as [Hs|Hs].
  - rewrite Hs. apply (aset_NoDup _ streqb_spec), H.
  - destruct (Hs (snd ay) at_) as (e & -> & _). exact H.
Qed.
Lemma set1_lookups c at_ at' a y y' : (forall b, orel same (sget b at_) (sget b at')) -> same y y' ->
  forall b, orel same (sget b (set1 (CT c) at_ (a, y))) (sget b (set1 (CT c) at' (a, y'))).
Proof.
  intros Hl Hy b. unfold set1. destruct (HR c) as [_ Hset]. cbn [fst snd]. destruct (Hset a) as [Hs|Hs].
  - rewrite !Hs. destruct (String.eqb_spec b a) as [->|Hne].
    + rewrite !sget_sset_same. exact Hy.
    + rewrite !sget_sset_other by congruence. apply Hl.
  - destruct (Hs y at_) as (e & -> & _). destruct (Hs y' at') as (e' & -> & _). apply Hl.
Qed.
(* The attribute [b] after all are set *)
Lemma fold_set1 c : forall l at_ b, NoDup (map fst l) ->
  sget b (fold_left (set1 (CT c)) l at_) = match sget b l with Some y => sget b (set1 (CT c) at_ (b, y)) | None => sget b at_ end.
Proof.
  destruct (HR c) as [_ Hset].
  assert (Hother : forall at_ a y b, a <> b -> sget b (set1 (CT c) at_ (a, y)) = sget b at_).
  { intros at_ a y b Hne. unfold set1. cbn [fst snd]. destruct (Hset a) as [Hs|Hs].
    - rewrite Hs. apply sget_sset_other. congruence.
    - now destruct (Hs y at_) as (e & -> & _). }
  assert (Hsame : forall at_ at' b y, sget b at_ = sget b at' -> sget b (set1 (CT c) at_ (b, y)) = sget b (set1 (CT c) at' (b, y))).
  { intros at_ at' b y H. unfold set1. cbn [fst snd]. destruct (Hset b) as [Hs|Hs].
    - rewrite !Hs. now rewrite !sget_sset_same.
    - destruct (Hs y at_) as (e & -> & _). now destruct (Hs y at') as (e' & -> & _). }
  induction l as [|[a y] l IHl]; intros at_ b Hn; [reflexivity|]. cbn [fold_left]. cbn [map fst] in Hn. inversion Hn; subst.
  rewrite IHl by assumption. unfold sget at 4. cbn [aget]. destruct (String.eqb_spec b a) as [->|Hne].
  - destruct (sget a l) as [z|] eqn:Ez; [|reflexivity]. apply sget_In in Ez. exfalso. apply H1. now apply (in_map fst) in Ez.
  - fold (sget b l). destruct (sget b l) as [z|]; [|now apply Hother; congruence]. apply Hsame. apply Hother. congruence.
Qed.
Definition attrs_rel (at_ at' : list (string * value)) : Prop :=
  NoDup (map fst at_) /\ NoDup (map fst at') /\ forall b, orel same (sget b at_) (sget b at').
Lemma attrs_rel_init c args args' : Forall2 entry_same args args' ->
  agree attrs_rel (lift (ci_init (CT c) args)) (lift (ci_init (CT c) args')).
Proof.
  intros H. destruct (HR c) as [Hi _]. specialize (Hi args args' H).
  destruct (ci_init (CT c) args) as [at_|e], (ci_init (CT c) args') as [at'|e']; try contradiction; try exact I.
  destruct Hi as [Hn He]. split; [exact Hn|]. split; [eapply entries_NoDup; eauto|]. now apply lookups_of_entries.
Qed.
(** The attributes that are not parameters *)
Lemma remaining_done o c : ok_opts s o -> forall rest at_ r, str_keys rest ->
  snd (set_remaining E (load E n) f o (CT c) rest at_) = Done r ->
  exists l, Forall2 (fun kx ay => fst kx = VStr (fst ay) /\
                       snd (load E n f o (Some (extra_type (CT c) (fst ay) (snd kx))) (snd kx)) = Done (snd ay)) rest l /\
            r = fold_left (set1 (CT c)) l at_.
Proof.
  intros Ho. induction rest as [|[k x] rest IHr]; intros at_ r Hs H; cbn [set_remaining] in H.
  { injection H as <-. exists []. split; [constructor|reflexivity]. }
  destruct (Hs k (or_introl eq_refl)) as (a & ->). cbv zeta in H.
  apply bind_done in H as ([] & _ & H). apply bind_done in H as (y & Hy & H).
  assert (Hs' : str_keys rest) by (intros k Hk; apply Hs; now right).
  assert (Hnext : snd (set_remaining E (load E n) f o (CT c) rest (set1 (CT c) at_ (a, y))) = Done r).
  { unfold set1. cbn [fst snd]. destruct (ci_set (CT c) a y at_) as [at1|e]; [exact H|].
    destruct (is_attributeerror (e_kind e)); [exact H|discriminate]. }
  apply IHr in Hnext as (l & Hl & ->); auto. exists ((a, y) :: l). split; [|reflexivity]. constructor; [|exact Hl].
  cbn [fst snd]. split; [reflexivity|exact Hy].
Qed.
Lemma remaining_fail o c : ok_opts s o -> forall rest at_ e, str_keys rest ->
  snd (set_remaining E (load E n) f o (CT c) rest at_) = Fail e ->
  exists a x e', In (VStr a, x) rest /\ snd (load E n f o (Some (extra_type (CT c) a x)) x) = Fail e'.
Proof.
  intros Ho. induction rest as [|[k x] rest IHr]; intros at_ e Hs H; cbn [set_remaining] in H; [discriminate|].
  destruct (Hs k (or_introl eq_refl)) as (a & ->). cbv zeta in H.
  apply bind_fail in H as [H|([] & _ & H)].
  { exfalso. destruct (sget a (ci_hints (CT c))); [discriminate|]. destruct (has_keys_section x); [|discriminate].
    unfold warn in H. destruct (e_warn E f _); discriminate. }
  apply bind_fail in H as [H|(y & Hy & H)].
  { exists a, x, e. split; [now left|exact H]. }
  assert (Hs' : str_keys rest) by (intros k Hk; apply Hs; now right).
  destruct (HR c) as [_ Hset].
  assert (exists at1, snd (set_remaining E (load E n) f o (CT c) rest at1) = Fail e) as (at1 & H1).
  { destruct (Hset a) as [X|X].
    - rewrite X in H. eauto.
    - destruct (X y at_) as (e1 & Ee & Ha). rewrite Ee, Ha in H. eauto. }
  apply IHr in H1 as (a' & x' & e' & Hin & Hx); auto. exists a', x', e'. split; [now right|exact Hx].
Qed.
Lemma remaining_rel o c rest rest' at_ at' : ok_opts s o -> str_keys rest -> str_keys rest' -> NoDup (map fst rest) ->
  same_entries rest rest' -> attrs_rel at_ at' ->
  (forall a x, In (VStr a, x) rest -> document x /\ by_key CT s (Some (extra_type (CT c) a x)) x) ->
  agree attrs_rel (set_remaining E (load E n) f o (CT c) rest at_) (set_remaining E (load E n) f o (CT c) rest' at').
Proof.
  intros Ho Hs Hs' Hn He Hat Hb.
  assert (Hvals : forall a x x', In (VStr a, x) rest -> same x x' ->
            agree same (load E n f o (Some (extra_type (CT c) a x)) x) (load E n f o (Some (extra_type (CT c) a x')) x')).
  { intros a x x' Hin Hx. destruct (Hb _ _ Hin) as [Hd Hk].
    assert (Ee : extra_type (CT c) a x' = extra_type (CT c) a x)
      by (unfold extra_type; destruct (sget a (ci_hints (CT c))); [reflexivity|now apply same_class]).
    rewrite Ee. now apply IHa. }
  destruct (snd (set_remaining E (load E n) f o (CT c) rest at_)) as [r|e|] eqn:E1,
           (snd (set_remaining E (load E n) f o (CT c) rest' at')) as [r'|e'|] eqn:E2;
    unfold agree; rewrite E1, ?E2; try exact I.
  - apply remaining_done in E1 as (l & Hl & ->); auto. apply remaining_done in E2 as (l' & Hl' & ->); auto.
    assert (Hk : forall l0 rest0, Forall2 (fun kx ay => fst kx = VStr (fst ay) /\
              snd (load E n f o (Some (extra_type (CT c) (fst ay) (snd kx))) (snd kx)) = Done (snd ay)) rest0 l0 ->
              map fst rest0 = map VStr (map fst l0)).
    { induction 1 as [|kx ay r0 l0 [Hka _] _ IHk]; [reflexivity|]. cbn [map]. now rewrite Hka, IHk. }
    assert (Hnl : NoDup (map fst l)) by (apply (NoDup_map_inv VStr); rewrite <- (Hk _ _ Hl); exact Hn).
    assert (Hll : same_entries l l').
    { destruct He as (r1 & Hp & Hf). destruct (Permutation_Forall2 Hp Hl) as (l1 & Hp1 & Hl1).
      exists l1. split; [exact Hp1|].
      assert (Hin : forall kx, In kx r1 -> In kx rest) by (intros kx; apply (Permutation_in _ (Permutation_sym Hp))).
      clear -Hf Hl1 Hl' Hvals Hin. revert l1 l' Hl1 Hl'.
      induction Hf as [|[k x] [k' x'] r1 r' [Hk Hx] Hf IHf]; intros l1 l' H1 H2; inversion H1 as [|? [a1 y] ? ? (K1 & L1) H1'];
        subst; inversion H2 as [|? [a2 y'] ? ? (K2 & L2) H2']; subst; constructor.
      + cbn [fst snd] in *. subst. injection K2 as <-. split; [reflexivity|].
        pose proof (Hvals a1 x x' (Hin _ (or_introl eq_refl)) Hx) as X. unfold agree in X. rewrite L1, L2 in X. exact X.
      + apply IHf; auto. intros kx Hkx. apply Hin. now right. }
    pose proof (entries_NoDup _ _ Hll Hnl) as Hnl'. destruct Hat as (A1 & A2 & A3).
    assert (Hfold : forall l0 at0, NoDup (map fst at0) -> NoDup (map fst (fold_left (set1 (CT c)) l0 at0))).
    { induction l0 as [|ay l0 IHl0]; intros at0 H0; [exact H0|]. cbn [fold_left]. apply IHl0. now apply set1_NoDup. }
    split; [now apply Hfold|]. split; [now apply Hfold|]. intros b. rewrite !fold_set1 by assumption.
    pose proof (lookups_of_entries _ _ Hnl Hll b) as Hlb. destruct (sget b l) as [y|], (sget b l') as [y'|]; try contradiction.
    + now apply set1_lookups.
    + apply A3.
  - apply remaining_done in E1 as (l & Hl & ->); auto. apply remaining_fail in E2 as (a & x' & e2 & Hin & Hx'); auto.
    destruct (entries_in_rev _ _ _ _ He Hin) as (x & Hx & Hxx).
    destruct (Forall2_pick _ _ _ _ Hl Hx) as ([a1 y] & _ & K1 & K2). cbn [fst snd] in *. injection K1 as <-.
    pose proof (Hvals a x x' Hx Hxx) as X. unfold agree in X. now rewrite K2, Hx' in X.
  - apply remaining_done in E2 as (l & Hl & ->); auto. apply remaining_fail in E1 as (a & x & e2 & Hin & Hx'); auto.
    destruct (entries_in _ _ _ _ He Hin) as (x' & Hx & Hxx).
    destruct (Forall2_pick _ _ _ _ Hl Hx) as ([a1 y] & _ & K1 & K2). cbn [fst snd] in *. injection K1 as <-.
    pose proof (Hvals a x x' Hin Hxx) as X. unfold agree in X. now rewrite K2, Hx' in X.
Qed.
Lemma getter_attrs_rel c : forall gs at_ at', attrs_rel at_ at' ->
  agree attrs_rel (set_getter_attrs (CT c) gs at_) (set_getter_attrs (CT c) gs at').
Proof.
  induction gs as [|[a g] gs IHg]; intros at_ at' H; [exact H|]. cbn [set_getter_attrs].
  apply agree_bind_eq. intros _ _. apply agree_bind_eq. intros y _.
  apply (agree_bind attrs_rel); [|intros; now apply IHg].
  pose proof (set1_NoDup c at_ (a, y)) as N1. pose proof (set1_NoDup c at' (a, y)) as N2.
  destruct H as (A1 & A2 & A3). pose proof (set1_lookups c at_ at' a y y A3 (sm_refl y)) as L.
  destruct (HR c) as [_ Hset]. unfold set1 in *. cbn [fst snd] in *. destruct (Hset a) as [X|X].
  - rewrite !X in *. split; [auto|split; auto].
  - destruct (X y at_) as (e & -> & _). destruct (X y at') as (e' & -> & _). apply agree_fail.
Qed.
Lemma transform_kt o d d1 : ok_opts s o -> document (VDict DkDict d) ->
  match lo_kt o with Some g => transform_keys CT g d [] | None => Ok d end = Ok d1 -> d1 = d.
Proof.
  intros Ho Hd. pose proof (fun x => the_kt_id s o x Ho) as Hid. unfold the_kt in Hid.
  destruct (document_dict _ Hd) as (Hs & Hn & _). destruct (lo_kt o) as [g|]; [|congruence].
  assert (X : forall d acc, str_keys d -> str_keys acc -> NoDup (map fst acc ++ map fst d) ->
             transform_keys CT g d acc = Ok (acc ++ d)%list).
  { clear -Hid. induction d as [|[k x] d IHd]; intros acc Hs Ha Hn; cbn [transform_keys]; [now rewrite app_nil_r|].
    rewrite Hid. cbn [rbind]. destruct (Hs k (or_introl eq_refl)) as (a & ->). cbn [hashable].
    assert (Hnin : ~ In (VStr a) (map fst acc)).
    { intros Hin. cbn [map fst] in Hn. apply NoDup_remove_2 in Hn. apply Hn. apply in_or_app. now left. }
    rewrite (dset_string _ _ _ Ha Hnin). rewrite IHd.
    - now rewrite <- app_assoc.
    - intros k' Hk'. apply Hs. now right.
    - intros k' Hk'. rewrite map_app in Hk'. apply in_app_or in Hk' as [Hk'|[<-|[]]]; [now apply Ha|now exists a].
    - rewrite map_app, <- app_assoc. exact Hn. }
  rewrite X; auto; [cbn; congruence|intros ? []].
Qed.
Lemma transform_kt_ok o d : ok_opts s o -> document (VDict DkDict d) ->
  match lo_kt o with Some g => transform_keys CT g d [] | None => Ok d end = Ok d.
Proof.
  intros Ho Hd. destruct (match lo_kt o with Some g => transform_keys CT g d [] | None => Ok d end) as [d1|e] eqn:Et.
  - now rewrite (transform_kt _ _ _ Ho Hd Et).
  - exfalso. pose proof (fun x => the_kt_id s o x Ho) as Hid. unfold the_kt in Hid.
    destruct (document_dict _ Hd) as (Hs & _). destruct (lo_kt o) as [g|]; [|discriminate].
    clear -Et Hid Hs. revert Et. generalize (@nil (value * value)). induction d as [|[k x] d IHd]; intros acc Et; cbn [transform_keys] in Et; [discriminate|].
    rewrite Hid in Et. cbn [rbind] in Et. destruct (Hs k (or_introl eq_refl)) as (a & ->). cbn [hashable] in Et.
    eapply IHd; [|exact Et]. intros k' Hk'. apply Hs. now right.
Qed.
Lemma remaining_filter strict d args r : remaining_args strict d args = Ok r ->
  r = filter (fun kv => negb (has_arg (fst kv) args) && negb (py_eqb (VStr "-meta") (fst kv))) d.
Proof.
  unfold remaining_args. destruct (filter _ d) as [|[k1 x1] r1]; [congruence|]. destruct strict; [discriminate|congruence].
Qed.
Lemma object_agree o c d d' : ok_opts s o -> lo_hints o = Some [] -> document (VDict DkDict d) -> document (VDict DkDict d') ->
  same_entries d d' ->
  (forall p x, In p (ci_params (CT c)) -> In (VStr (pa_name p), x) d -> by_key CT s (pa_hint p) x) ->
  (forall a x, In (VStr a, x) d -> ~ In a (map pa_name (ci_params (CT c))) ->
     by_key CT s (Some (extra_type (CT c) a x)) x) ->
  agree same (deser_object E (load E n) f o (TClass c) (VDict DkDict d)) (deser_object E (load E n) f o (TClass c) (VDict DkDict d')).
Proof.
  intros Ho Hh Hd Hd' He Hb1 Hb2. unfold deser_object. cbn [cid_of obj_items]. cbv zeta. rewrite !bind_lift_ok, Hh.
  fold CT. rewrite (transform_kt_ok _ _ Ho Hd), (transform_kt_ok _ _ Ho Hd'), !bind_lift_ok.
  destruct (document_dict _ Hd) as (Hs & Hn & Hdoc & _). destruct (document_dict _ Hd') as (Hs' & Hn' & Hdoc' & _).
  assert (Ho' : ok_opts s (set_getters [] o))
    by (destruct Ho as (H1 & H2 & H3 & H4); unfold ok_opts, no_hints, set_getters; cbn; auto).
  eapply agree_bind.
  { apply constructor_args_agree; [exact Ho'|intros k; now apply dget_entries|].
    intros p x Hp Hx. split; [eauto|auto]. }
  intros args args' Hargs _ Ha. apply (agree_bind same_entries); [now apply remaining_agree|].
  intros rest rest' Hrest Hrest' Hr. apply (agree_bind eq); [reflexivity|]. intros _ _ _ _ _.
  eapply agree_bind; [now apply attrs_rel_init|]. intros at_ at' _ _ Hat.
  apply lift_done, remaining_filter in Hrest. apply lift_done, remaining_filter in Hrest'.
  eapply agree_bind.
  - apply remaining_rel with (c := c); eauto.
    + subst rest. intros k Hk. apply in_map_iff in Hk as (kx & <- & Hk). apply filter_In in Hk as [Hk _]. apply Hs. now apply in_map.
    + subst rest'. intros k Hk. apply in_map_iff in Hk as (kx & <- & Hk). apply filter_In in Hk as [Hk _]. apply Hs'. now apply in_map.
    + subst rest. clear -Hn. induction d as [|[k x] d IHd]; [constructor|]. cbn [map fst] in Hn. inversion Hn; subst. cbn [filter].
      destruct (negb _ && negb _); [|now apply IHd]. cbn [map fst]. constructor; [|now apply IHd].
      intros Hin. apply H1. apply in_map_iff in Hin as (kx & <- & Hk). apply filter_In in Hk as [Hk _]. now apply in_map.
    + intros a x Hin. subst rest. apply filter_In in Hin as [Hin Hq]. split; [eauto|]. apply Hb2; [exact Hin|].
      intros Hpin. apply in_map_iff in Hpin as (p & <- & Hp). cbn [fst] in Hq. apply andb_true_iff in Hq as [Hq _].
      pose proof (dget_string _ _ _ Hs Hn Hin) as Hg. rewrite negb_true_iff in Hq. cbn [has_arg] in Hq.
      clear -Hargs Hg Hq Hp. revert args Hargs Hq. revert Hp. generalize (ci_params (CT c)).
      induction l as [|q ps IHp]; intros Hp args Hargs Hq; [contradiction|]. cbn [constructor_args] in Hargs.
      apply bind_done in Hargs as (y & Hy & Hargs). apply bind_done in Hargs as (r & Hr & Hargs). injection Hargs as <-.
      destruct Hp as [->|Hp].
      * unfold value_for_attr in Hy. rewrite Hg in Hy. apply bind_done in Hy as (z & _ & Hz). injection Hz as <-.
        unfold shas, amem in Hq. cbn [aget] in Hq. now rewrite String.eqb_refl in Hq.
      * apply (IHp Hp _ Hr). destruct y as [y|]; [|exact Hq]. unfold shas, amem in *. cbn [aget] in Hq.
        destruct (String.eqb (pa_name p) (pa_name q)); [discriminate|exact Hq].
  - intros at1 at1' _ _ Hat1. eapply agree_bind; [now apply getter_attrs_rel|]. intros at2 at2' _ _ (A1 & A2 & A3).
    apply agree_ret. destruct (entries_of_lookups _ _ A1 A2 A3) as (at3 & P1 & P2). econstructor; eauto.
Qed.

(** *** Named tuples *)
Definition nt_get (j : value) (d : option (list (value * value))) (i : nat) (fd : ntfield) : res value :=
  match d with
  | Some d => match dget (VStr (nf_name fd)) d with Some x => Ok x | None => raise KKey end
  | None => py_getitem CT j (VInt (Z.of_nat i))
  end.
Lemma nt_go_agree o j j' d d' len : ok_opts s o -> forall fields i,
  (forall m fd, nth_error fields m = Some fd -> i + m < len ->
     match nt_get j d (i + m) fd, nt_get j' d' (i + m) fd with
     | Ok x, Ok x' => same x x' /\ document x /\ by_key CT s (nf_hint fd) x
     | Err _, Err _ => True
     | _, _ => False
     end) ->
  agree (Forall2 same) (deser_nt_go E (load E n) f o j d len i fields) (deser_nt_go E (load E n) f o j' d' len i fields).
Proof.
  intros Ho. induction fields as [|fd fields IHf]; intros i Hb; [constructor|]. cbn [deser_nt_go].
  assert (Hnext : agree (Forall2 same) (deser_nt_go E (load E n) f o j d len (S i) fields) (deser_nt_go E (load E n) f o j' d' len (S i) fields)).
  { apply IHf. intros m fd' Hm Hl. specialize (Hb (S m) fd' Hm). replace (i + S m) with (S i + m) in Hb by lia. apply Hb. lia. }
  destruct (Nat.ltb_spec i len) as [Hlt|Hge].
  - specialize (Hb 0 fd eq_refl). rewrite Nat.add_0_r in Hb. specialize (Hb Hlt).
    apply (agree_bind (fun x x' => same x x' /\ document x /\ by_key CT s (nf_hint fd) x)).
    { change (agree (fun x x' => same x x' /\ document x /\ by_key CT s (nf_hint fd) x)
                (lift (nt_get j d i fd)) (lift (nt_get j' d' i fd))).
      destruct (nt_get j d i fd) as [x|e], (nt_get j' d' i fd) as [x'|e']; try contradiction; [exact Hb|apply agree_fail]. }
    intros x x' _ _ (Hs & Hd & Hk). rewrite (same_none _ _ Hs).
    apply agree_bind_eq. intros [] _. eapply agree_bind; [now apply IHa|]. intros y y' _ _ Hy.
    eapply agree_bind; [exact Hnext|]. intros ys ys' _ _ Hys. apply agree_ret. now constructor.
  - apply agree_bind_eq. intros x _. apply agree_bind_eq. intros [] _. apply agree_bind_eq. intros y _.
    eapply agree_bind; [exact Hnext|]. intros ys ys' _ _ Hys. apply agree_ret. constructor; [apply sm_refl|exact Hys].
Qed.
Lemma Forall2_nth {A B} (P : A -> B -> Prop) l m i x : Forall2 P l m -> nth_error l i = Some x -> exists y, nth_error m i = Some y /\ P x y.
Proof.
  intros H. revert i. induction H as [|a b l m Hab H IHl]; intros [|i] Hi; try discriminate.
  - injection Hi as ->. exists b. split; [reflexivity|exact Hab].
  - apply IHl, Hi.
Qed.
Lemma namedtuple_list_agree o c fields l l' : ok_opts s o -> ci_kind (CT c) = CkNT fields -> Forall document l -> Forall2 same l l' ->
  (forall i fd x, nth_error fields i = Some fd -> nth_error l i = Some x -> by_key CT s (nf_hint fd) x) ->
  agree same (deser_namedtuple E (load E n) f o c (VList l)) (deser_namedtuple E (load E n) f o c (VList l')).
Proof.
  intros Ho Hc Hd Hl Hb. unfold deser_namedtuple. rewrite !bind_ret_l. cbn [py_iter]. rewrite !bind_lift_ok.
  rewrite <- (Forall2_len _ _ _ Hl). eapply agree_bind.
  - apply nt_go_agree with (d := None) (d' := None); [exact Ho|]. unfold nt_fields. fold CT. rewrite Hc.
    intros m fd Hm Hlt. cbn [Nat.add nt_get] in *. destruct (nth_error l m) as [x|] eqn:Ex; [|apply nth_error_None in Ex; lia].
    destruct (Forall2_nth _ _ _ _ _ Hl Ex) as (x' & Ex' & Hx). rewrite (getitem_nth _ _ _ _ Ex), (getitem_nth _ _ _ _ Ex').
    split; [exact Hx|]. split; [|eauto]. rewrite Forall_forall in Hd. eapply Hd, nth_error_In, Ex.
  - intros vs vs' _ _ Hvs. apply agree_ret. now constructor.
Qed.
Lemma namedtuple_dict_agree o c fields d d' : ok_opts s o -> ci_kind (CT c) = CkNT fields ->
  document (VDict DkDict d) -> document (VDict DkDict d') -> same_entries d d' ->
  (forall fd x, In fd fields -> In (VStr (nf_name fd), x) d -> by_key CT s (nf_hint fd) x) ->
  agree same (deser_namedtuple E (load E n) f o c (VDict DkDict d)) (deser_namedtuple E (load E n) f o c (VDict DkDict d')).
Proof.
  intros Ho Hc Hd Hd' He Hb. unfold deser_namedtuple. cbv zeta. fold (the_kt o). fold CT.
  pose proof (transform_kt_ok _ _ (ok_kt_some s _ Ho) Hd) as T1. pose proof (transform_kt_ok _ _ (ok_kt_some s _ Ho) Hd') as T2.
  cbn [set_kt lo_kt] in T1, T2. rewrite T1, T2, !bind_lift_ok, !bind_ret_l. cbn [py_iter]. rewrite !bind_lift_ok.
  rewrite !map_length, (entries_length _ _ He).
  destruct (document_dict _ Hd) as (Hs & Hn & Hdoc & _). destruct (document_dict _ Hd') as (Hs' & Hn' & Hdoc' & _).
  eapply agree_bind.
  - apply nt_go_agree with (d := Some d) (d' := Some d'); [exact Ho|]. unfold nt_fields. rewrite Hc.
    intros m fd Hm Hlt. cbn [nt_get]. pose proof (dget_entries _ _ (nf_name fd) He Hs Hs' Hn) as X.
    destruct (dget (VStr (nf_name fd)) d) as [x|] eqn:Ex, (dget (VStr (nf_name fd)) d') as [x'|]; try contradiction; [|exact I].
    apply dget_In in Ex. split; [exact X|]. split; [eauto|]. apply Hb; [eapply nth_error_In, Hm|exact Ex].
  - intros vs vs' _ _ Hvs. apply agree_ret. now constructor.
Qed.

(** *** Unions and leaves *)
Lemma union_agree o j j' : ok_opts s o -> document j -> same j j' -> forall ts, Forall (fun t => by_key CT s (Some t) j) ts ->
  agree same (deser_union_go (load E n) f o j ts) (deser_union_go (load E n) f o j' ts).
Proof.
  intros Ho Hd Hs. induction ts as [|t ts IHt]; intros Hb; [exact I|]. inversion Hb as [|? ? Ht Hts]; subst. specialize (IHt Hts).
  cbn [deser_union_go]. pose proof (IH o (Some t) j j' Ho Hd Hs Ht) as X. unfold mtry, agree in *.
  destruct (snd (load E n f o (Some t) j)) as [a|e|] eqn:E1, (snd (load E n f o (Some t) j')) as [b|e'|] eqn:E2;
    cbn [snd outcomes_agree] in *; rewrite ?E1, ?E2; try contradiction; try exact I; try exact X.
  - rewrite <- X. destruct (is_jsons (e_kind e)); [exact IHt|exact I].
  - destruct (is_jsons (e_kind e)); [|exact I]. now destruct (snd (deser_union_go _ _ _ _ _)).
Qed.
Lemma misfit_agree o h t j j' : scalar_type t -> container j -> same j j' -> e_deser E f t = Some h ->
  agree same (deser_step E (load E n) f o h t j) (deser_step E (load E n) f o h t j').
Proof.
  intros Ht Hc Hs Hh. rewrite HD in Hh.
  destruct t; try contradiction.
  - rewrite deser_prim in Hh. destruct p; try contradiction; injection Hh as <-;
      destruct j; try contradiction;
      first [apply same_list in Hs as (l' & -> & Hl)|apply same_dict in Hs as (d' & -> & Hl); destruct k]; try exact I;
      cbn; rewrite ?(entries_length _ _ Hl), <- ?(Forall2_len _ _ _ Hl); apply sm_refl.
  - rewrite deser_none in Hh. injection Hh as <-. destruct j; try contradiction;
      first [apply same_list in Hs as (l' & -> & Hl)|apply same_dict in Hs as (d' & -> & Hl)]; exact I.
  - rewrite deser_leaf in Hh. injection Hh as <-. destruct j; try contradiction;
      first [apply same_list in Hs as (l' & -> & Hl)|apply same_dict in Hs as (d' & -> & Hl)];
      match goal with |- context [leaf_handler ?k] => destruct k; try contradiction; exact I end.
Qed.
Lemma dict_leaf_agree o h t d d' : dict_leaf t -> Forall (fun kx => rigid (snd kx)) d ->
  document (VDict DkDict d) -> document (VDict DkDict d') -> same_entries d d' -> e_deser E f t = Some h ->
  agree same (deser_step E (load E n) f o h t (VDict DkDict d)) (deser_step E (load E n) f o h t (VDict DkDict d')).
Proof.
  intros Ht Hr Hd Hd' He Hh. rewrite HD in Hh.
  destruct (document_dict _ Hd) as (Hs & Hn & _). destruct (document_dict _ Hd') as (Hs' & Hn' & _).
  assert (X : forall a, py_getitem CT (VDict DkDict d') (VStr a) = py_getitem CT (VDict DkDict d) (VStr a)).
  { intros a. cbn [py_getitem hashable]. pose proof (dget_entries _ _ a He Hs Hs' Hn) as X.
    destruct (dget (VStr a) d) as [x|] eqn:Ex, (dget (VStr a) d') as [x'|]; try contradiction; [|reflexivity].
    apply dget_In in Ex. rewrite Forall_forall in Hr. apply Hr in Ex. cbn [snd] in Ex. now rewrite (same_rigid _ _ Ex X). }
  destruct t; try contradiction. rewrite deser_leaf in Hh. injection Hh as <-.
  match goal with |- context [leaf_handler ?k] => destruct k; try contradiction end; cbn [leaf_handler deser_step].
  - unfold deser_timezone. fold CT. rewrite !X. apply agree_refl, sm_refl.
  - unfold deser_complex. fold CT. rewrite !X. apply agree_refl, sm_refl.
  - fold CT. rewrite !X. apply agree_refl, sm_refl.
Qed.
End Step.

Lemma by_key_not_fwd t j : by_key CT s t j -> rigid j \/ not_fwd t.
Proof.
  intros H. inversion H; subst; try (right; exact I).
  - now left.
  - right. destruct j; try exact I;
      match goal with |- context [class_of (VColl ?c _)] => destruct c | |- context [class_of (VDict ?c _)] => destruct c end; exact I.
  - right. destruct t0; try contradiction; exact I.
  - right. destruct t0; try contradiction; exact I.
Qed.
Lemma outcomes_refl r : outcomes_agree r r.
Proof. destruct r; cbn; try exact I; [apply sm_refl|reflexivity]. Qed.
Lemma load_agree n : forall o t j j', ok_opts s o -> document j -> same j j' -> by_key CT s t j ->
  outcomes_agree (snd (load E n f o t j)) (snd (load E n f o t j')).
Proof.
  induction n as [|n IH]; intros o t j j' Ho Hd Hs Hb; [exact I|].
  destruct (by_key_not_fwd _ _ Hb) as [Hr|Hf]; [rewrite (same_rigid _ _ Hr Hs); apply outcomes_refl|].
  assert (Hsc : scalar j \/ container j) by (inversion Hd; subst; auto; right; exact I).
  destruct Hsc as [Hsc|Hc]; [rewrite (same_scalar _ _ Hsc Hs); apply outcomes_refl|].
  apply step_agree; auto. intros h Hsk Hh. pose proof (document_same _ _ Hd Hs) as Hd'.
  destruct (ok_inner s o (target t j) t Ho) as [Hi Hih]. set (o' := inner o (target t j) t) in *.
  assert (Hlist : forall l, j = VList l -> exists l', j' = VList l' /\ Forall2 same l l' /\ Forall document l).
  { intros l ->. apply same_list in Hs as (l' & -> & Hl). exists l'. split; [reflexivity|]. split; [exact Hl|].
    inversion Hd as [? Hx|? Hx|]; subst; [contradiction|exact Hx]. }
  assert (Hdict : forall d, j = VDict DkDict d -> exists d', j' = VDict DkDict d' /\ same_entries d d').
  { intros d ->. now apply same_dict in Hs. }
  assert (Hin : forall (P : value -> Prop) (d : list (value * value)), Forall (fun kx => P (snd kx)) d -> forall k x, In (k, x) d -> P x).
  { intros P d H k x Hx. rewrite Forall_forall in H. exact (H _ Hx). }
  inversion Hb as [? ? Hx|?|? Hx|? ? Hx Hy|? d Hx Hy|l Hx|d Hx|b hd u l Hx Hy|b hd l Hx Hy|b hd u d Hx Hy|b hd d Hx Hy
                  |b us l Hx Hy Hz|b u l Hx|us ? Hx|c fields l Hx Hy Hz|c fields d Hx Hy Hz|c d Hx Hy Hz Hw];
    subst; cbn [target class_of] in *.
  - rewrite (same_rigid _ _ Hx Hs). apply agree_refl, sm_refl.
  - rewrite HD, deser_any in Hh. discriminate.
  - exfalso. unfold skips in Hsk. destruct Ho as (_ & _ & _ & Hs'). rewrite Hs' in Hsk. cbn [negb same_type] in Hsk.
    rewrite ty_eqb_refl in Hsk. discriminate.
  - now apply misfit_agree.
  - destruct (Hdict _ eq_refl) as (d' & -> & He). now apply dict_leaf_agree.
  - destruct (Hlist _ eq_refl) as (l' & -> & Hl & Hdl). rewrite HD, deser_head in Hh. injection Hh as <-.
    cbn [head_handler deser_step get_args raw_args]. eapply agree_bind; [now apply (list_agree n IH)|].
    intros ys ys' _ _ Hys. apply agree_ret. now constructor.
  - destruct (Hdict _ eq_refl) as (d' & -> & He). rewrite HD, deser_head in Hh. injection Hh as <-.
    cbn [head_handler deser_step]. unfold deser_mapping. cbn [get_args raw_args]. rewrite !bind_lift_ok.
    eapply agree_bind; [apply (dict_agree n IH); auto; left; split; [reflexivity|exact (Hin (by_key CT s None) d Hx)]|]. intros r r' _ _ Hr. now apply agree_ret, same_of_entries.
  - destruct (Hlist _ eq_refl) as (l' & -> & Hl & Hdl). rewrite HD, deser_head in Hh. injection Hh as <-.
    destruct hd; try contradiction; cbn [head_handler deser_step]; unfold deser_iterable; cbn [get_args raw_args];
      rewrite ?bind_lift_ok; (eapply agree_bind; [now apply (list_agree n IH)|]);
      intros ys ys' _ _ Hys; apply agree_ret; now constructor.
  - destruct (Hlist _ eq_refl) as (l' & -> & Hl & Hdl). rewrite HD, deser_head in Hh. injection Hh as <-.
    destruct hd; try contradiction; cbn [head_handler deser_step]; unfold deser_iterable; cbn [get_args raw_args];
      rewrite ?bind_lift_ok; (eapply agree_bind; [now apply (list_agree n IH)|]);
      intros ys ys' _ _ Hys; apply agree_ret; now constructor.
  - destruct (Hdict _ eq_refl) as (d' & -> & He). rewrite HD, deser_head in Hh. injection Hh as <-.
    destruct (Bool.bool_dec (match hd with HDefaultDict => true | _ => false end) true) as [Edd|Edd].
    + destruct hd; try discriminate Edd. cbn [head_handler deser_step]. unfold deser_defaultdict.
      cbn [get_args raw_args]. rewrite !bind_lift_ok.
      eapply agree_bind; [apply IHa with (n := n); eauto; apply bk_dict; [exact I|exact Hy]|].
      intros v v' _ _ Hv. destruct v; try (inversion Hv; subst; apply agree_fail).
      apply same_dict in Hv as (d2 & -> & Hv). now apply agree_ret, same_of_entries.
    + assert (Eh : head_handler hd = DMapping) by (destruct hd; try contradiction; try reflexivity; now elim Edd).
      rewrite Eh. cbn [deser_step]. unfold deser_mapping. cbn [get_args raw_args]. rewrite !bind_lift_ok.
      eapply agree_bind; [apply (dict_agree n IH); auto; right; exists u; split; [reflexivity|exact (Hin (by_key CT s (Some u)) d Hy)]|]. intros r r' _ _ Hr.
      destruct hd; try contradiction; try (now elim Edd); now apply agree_ret, same_of_entries.
  - destruct (Hdict _ eq_refl) as (d' & -> & He). rewrite HD, deser_head in Hh. injection Hh as <-.
    destruct (Bool.bool_dec (match hd with HDefaultDict => true | _ => false end) true) as [Edd|Edd].
    + destruct hd; try discriminate Edd. cbn [head_handler deser_step]. unfold deser_defaultdict.
      cbn [get_args raw_args]. rewrite !bind_lift_ok.
      eapply agree_bind; [apply IHa with (n := n); eauto; apply bk_bare_dict; [exact I|exact Hy]|].
      intros v v' _ _ Hv. destruct v; try (inversion Hv; subst; apply agree_fail).
      apply same_dict in Hv as (d2 & -> & Hv). now apply agree_ret, same_of_entries.
    + assert (Eh : head_handler hd = DMapping) by (destruct hd; try contradiction; try reflexivity; now elim Edd).
      rewrite Eh. cbn [deser_step]. unfold deser_mapping. cbn [get_args raw_args]. rewrite !bind_lift_ok.
      eapply agree_bind; [apply (dict_agree n IH); auto; left; split; [reflexivity|exact (Hin (by_key CT s None) d Hy)]|]. intros r r' _ _ Hr.
      destruct hd; try contradiction; try (now elim Edd); now apply agree_ret, same_of_entries.
  - destruct (Hlist _ eq_refl) as (l' & -> & Hl & Hdl). rewrite HD, deser_head in Hh. injection Hh as <-.
    cbn [head_handler deser_step]. unfold deser_tuple. cbv zeta. cbn [py_iter get_args raw_args]. rewrite !bind_lift_ok.
    destruct us as [|u us].
    + eapply agree_bind; [apply (mmap_agree n IH); auto; now apply ok_kt_none|]. intros ys ys' _ _ Hys. apply agree_ret. now constructor.
    + assert (El : ty_eqb TEllipsis (last (u :: us) TAny) = false) by (apply ty_eqb_neq; congruence).
      rewrite El. eapply agree_bind; [apply (tuple_go_agree n IH); auto; now apply ok_kt_none|].
      intros ys ys' _ _ Hys. apply agree_ret. now constructor.
  - destruct (Hlist _ eq_refl) as (l' & -> & Hl & Hdl). rewrite HD, deser_head in Hh. injection Hh as <-.
    cbn [head_handler deser_step]. unfold deser_tuple. cbv zeta. cbn [py_iter get_args raw_args last ty_eqb]. rewrite !bind_lift_ok.
    rewrite <- (Forall2_len _ _ _ Hl). eapply agree_bind; [apply (tuple_go_agree n IH); auto; [now apply ok_kt_none|]|].
    + intros i t x Ht Hxi. apply nth_error_In, repeat_spec in Ht. subst t. rewrite Forall_forall in Hx. apply Hx. eapply nth_error_In, Hxi.
    + intros ys ys' _ _ Hys. apply agree_ret. now constructor.
  - rewrite HD, deser_tunion in Hh. injection Hh as <-. cbn [deser_step]. unfold deser_union. cbn [raw_args].
    now apply (union_agree n IH).
  - destruct (Hlist _ eq_refl) as (l' & -> & Hl & Hdl). rewrite HD in Hh. fold CT in Hh.
    rewrite (deser_namedtuple_class CT c Hx fields Hy) in Hh. injection Hh as <-. cbn [deser_step]. unfold deser_tuple.
    fold CT. rewrite Hy. apply (namedtuple_list_agree n IH) with (fields := fields); auto.
  - destruct (Hdict _ eq_refl) as (d' & -> & He). rewrite HD in Hh. fold CT in Hh.
    rewrite (deser_namedtuple_class CT c Hx fields Hy) in Hh. injection Hh as <-. cbn [deser_step]. unfold deser_tuple.
    fold CT. rewrite Hy. apply (namedtuple_dict_agree n IH) with (fields := fields); auto.
  - destruct (Hdict _ eq_refl) as (d' & -> & He). rewrite HD in Hh. fold CT in Hh.
    rewrite (deser_object_class CT c Hx Hy) in Hh. injection Hh as <-. cbn [deser_step].
    apply (object_agree n IH); auto.
Qed.
End Agree.
