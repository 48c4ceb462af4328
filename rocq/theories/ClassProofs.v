(** * Proofs about class statements *)
From Verif Require Import PyBaseFacts EngineFacts ClassSpec.
Local Close Scope Z_scope.
Local Open Scope string_scope.

(** ** Unions *)
Lemma dedup_firsts l : forall seen,
  firsts seen l (filter (fun u => negb (existsb (ty_eqb u) seen)) (distinct_types l)).
Proof.
  induction l as [|t l IH]; intros seen; [constructor|]. cbn [distinct_types filter].
  assert (Hin : existsb (ty_eqb t) seen = true <-> In t seen).
  { rewrite existsb_exists. split; [intros (u & H & He); apply ty_eqb_eq in He as ->; exact H|intros H; exists t; split; [exact H|apply ty_eqb_refl]]. }
  assert (Hff : forall (f g h : ty -> bool) (m : list ty), (forall u, f u && g u = h u) -> filter f (filter g m) = filter h m).
  { intros f g h m H. induction m as [|u m IHm]; [reflexivity|]. cbn [filter]. rewrite <- H.
    destruct (g u); cbn [filter]; [rewrite andb_true_r; destruct (f u); now rewrite IHm|now rewrite andb_false_r]. }
  destruct (existsb (ty_eqb t) seen) eqn:He; cbn [negb].
  - apply fi_again; [now apply Hin|]. rewrite (Hff _ _ (fun u => negb (existsb (ty_eqb u) seen))); [apply IH|].
    intros u. destruct (ty_eqb t u) eqn:Hu; cbn [negb]; [|now rewrite andb_true_r].
    apply ty_eqb_eq in Hu as <-. now rewrite He.
  - apply fi_first; [rewrite <- Hin; congruence|].
    rewrite (Hff _ _ (fun u => negb (existsb (ty_eqb u) (t :: seen)))); [apply IH|].
    intros u. cbn [existsb]. destruct (ty_eqb t u) eqn:Hu; cbn [negb].
    + apply ty_eqb_eq in Hu as <-. now rewrite ty_eqb_refl, andb_false_r.
    + rewrite andb_true_r. destruct (ty_eqb u t) eqn:Hu'; [|reflexivity]. apply ty_eqb_eq in Hu' as ->. now rewrite ty_eqb_refl in Hu.
Qed.
Lemma firsts_unique seen l us vs : firsts seen l us -> firsts seen l vs -> us = vs.
Proof.
  intros H. revert vs. induction H as [seen|seen t l us Hin _ IH|seen t l us Hin _ IH]; intros vs Hv; inversion Hv; subst; auto; try contradiction.
  f_equal. auto.
Qed.
Lemma firsts_nil l us : firsts [] l us <-> us = distinct_types l.
Proof.
  assert (H : filter (fun u => negb (existsb (ty_eqb u) [])) (distinct_types l) = distinct_types l).
  { induction (distinct_types l) as [|u m IH]; [reflexivity|]. change (u :: filter (fun u => negb (existsb (ty_eqb u) [])) m = u :: m). now rewrite IH. }
  pose proof (dedup_firsts l []) as Hd. rewrite H in Hd. split; [|intros ->; exact Hd].
  intros Hu. exact (firsts_unique _ _ _ _ Hu Hd).
Qed.
Lemma union_of_make l u : union_of l u <-> make_union l = u.
Proof.
  unfold make_union. replace (flat_map _ l) with (concat (map alternatives l)).
  2: { rewrite flat_map_concat_map. f_equal. }
  split.
  - intros [t H|us H Hl]; apply firsts_nil in H; rewrite <- H; [reflexivity|].
    destruct us as [|x [|y us]]; [reflexivity|now elim Hl|reflexivity].
  - intros <-. destruct (distinct_types _) as [|x [|y us]] eqn:He.
    + apply un_more; [now apply firsts_nil|discriminate].
    + apply un_one. now apply firsts_nil.
    + apply un_more; [now apply firsts_nil|discriminate].
Qed.

(** ** Annotations *)
Section Eval.
  Variable ev : string -> res ty.
  Let R s t := ev s = Ok t.
  Lemma eval_type_stands : forall t u, eval_type ev t = Ok u <-> stands R t u.
  Proof.
    assert (Hother : forall t, (forall s, t <> TFwd s) -> (forall b h l, t <> TApp b h l) -> (forall l, t <> TUnion l) ->
                     forall u, Ok t = Ok u <-> stands R t u).
    { intros t H1 H2 H3 u. split.
      - intros [= <-]. now apply st_other.
      - intros H. inversion H; subst; try reflexivity; exfalso; [eapply H1|eapply H2|eapply H2|eapply H3]; reflexivity. }
    induction t using ty_ind'; intros u; try (apply Hother; intros; discriminate).
    - (* TApp *)
      cbn [eval_type].
      set (go := fix go (l : list ty) : res (list ty) :=
                   match l with
                   | [] => Ok []
                   | x :: r =>
                       dor y <- match b, x with false, TFwd _ => Ok x | _, _ => eval_type ev x end;
                       dor ys <- go r; Ok (y :: ys)
                   end).
      assert (Hgo : forall l', go l = Ok l' <-> if b then all_stand R l l' else args_stand R l l').
      { induction H as [|x r Hx _ IH]; intros l'.
        - cbn. destruct b; (split; [intros [= <-]; constructor|intros Hs; inversion Hs; reflexivity]).
        - cbn [go]. destruct b.
          + split.
            * intros H. destruct (eval_type ev x) as [y|] eqn:Hy; [|discriminate]. cbn [rbind] in H.
              fold go in H. destruct (go r) as [ys|] eqn:Hys; [|discriminate]. injection H as <-.
              constructor; [now apply Hx|now apply IH].
            * intros Hs. inversion Hs; subst. match goal with K : stands _ x _ |- _ => apply Hx in K; rewrite K end. cbn [rbind]. fold go.
              match goal with K : all_stand _ r _ |- _ => apply IH in K; rewrite K; reflexivity end.
          + assert (Hn : (exists s, x = TFwd s) \/ (forall s, x <> TFwd s)) by (destruct x; eauto; right; discriminate).
            destruct Hn as [[s ->]|Hn].
            * cbn [rbind]. fold go. split.
              -- intros H. destruct (go r) as [ys|] eqn:Hys; [|discriminate]. injection H as <-. constructor. now apply IH.
              -- intros Hs. inversion Hs; subst; [|match goal with K : forall s, TFwd _ <> TFwd s |- _ => now elim (K s) end].
                 match goal with K : args_stand _ r _ |- _ => apply IH in K; rewrite K; reflexivity end.
            * replace (match x with TFwd _ => Ok x | _ => eval_type ev x end) with (eval_type ev x) by (destruct x; try reflexivity; now elim (Hn s)).
              split.
              -- intros H. destruct (eval_type ev x) as [y|] eqn:Hy; [|discriminate]. cbn [rbind] in H.
                 fold go in H. destruct (go r) as [ys|] eqn:Hys; [|discriminate]. injection H as <-.
                 constructor; [exact Hn|now apply Hx|now apply IH].
              -- intros Hs. inversion Hs; subst; [now elim (Hn s)|].
                 match goal with K : stands _ x _ |- _ => apply Hx in K; rewrite K end. cbn [rbind]. fold go.
                 match goal with K : args_stand _ r _ |- _ => apply IH in K; rewrite K; reflexivity end. }
      split.
      + intros Hu. destruct (go l) as [l'|] eqn:Hl; [|discriminate]. injection Hu as <-. pose proof (proj1 (Hgo l') eq_refl) as Hs.
        destruct b; [now apply st_generic|now apply st_builtin].
      + intros Hs. inversion Hs; subst; try (match goal with K : forall b h l, TApp _ _ _ <> _ |- _ => now elim (K _ _ _ eq_refl) end);
          (match goal with K : _ |- _ => apply Hgo in K; rewrite K; reflexivity end).
    - (* TUnion *)
      cbn [eval_type].
      set (go := fix go (l : list ty) : res (list ty) :=
                   match l with
                   | [] => Ok []
                   | x :: r => dor y <- eval_type ev x; dor ys <- go r; Ok (y :: ys)
                   end).
      assert (Hgo : forall l', go l = Ok l' <-> all_stand R l l').
      { induction H as [|x r Hx _ IH]; intros l'.
        - cbn. split; [intros [= <-]; constructor|intros Hs; inversion Hs; reflexivity].
        - cbn [go]. split.
          * intros H. destruct (eval_type ev x) as [y|] eqn:Hy; [|discriminate]. cbn [rbind] in H.
            fold go in H. destruct (go r) as [ys|] eqn:Hys; [|discriminate]. injection H as <-.
            constructor; [now apply Hx|now apply IH].
          * intros Hs. inversion Hs; subst. match goal with K : stands _ x _ |- _ => apply Hx in K; rewrite K end. cbn [rbind]. fold go.
            match goal with K : all_stand _ r _ |- _ => apply IH in K; rewrite K; reflexivity end. }
      split.
      + intros Hu. destruct (go l) as [l'|] eqn:Hl; [|discriminate]. injection Hu as <-. pose proof (proj1 (Hgo l') eq_refl) as Hs.
        econstructor; [exact Hs|now apply union_of_make].
      + intros Hs. inversion Hs; subst; [|match goal with K : forall l, TUnion _ <> TUnion l |- _ => now elim (K l) end].
        match goal with K : all_stand _ l _ |- _ => apply Hgo in K; rewrite K end. cbn [rbind]. f_equal. now apply union_of_make.
    - destruct t; try contradiction; try (apply Hother; intros; discriminate). cbn [eval_type].
      split; [intros Hu; now constructor|]. intros Hs. inversion Hs; subst; [assumption|match goal with K : forall s, TFwd _ <> TFwd s |- _ => now elim (K s) end].
  Qed.
End Eval.
Scheme stands_min := Minimality for stands Sort Prop
  with all_stand_min := Minimality for all_stand Sort Prop
  with args_stand_min := Minimality for args_stand Sort Prop.
Lemma stands_mono (R R' : string -> ty -> Prop) : (forall s t, R s t -> R' s t) ->
  forall t u, stands R t u -> stands R' t u.
Proof.
  intros HR. apply (stands_min R (stands R') (all_stand R') (args_stand R')); intros; try (constructor; auto; fail).
  econstructor; eassumption.
Qed.
Lemma look_some scopes s t : look scopes s = Some t <->
  exists pre sc post, scopes = (pre ++ sc :: post)%list /\ (forall sc', In sc' pre -> sc' s = None) /\ sc s = Some t.
Proof.
  induction scopes as [|sc scopes IH]; cbn [look].
  - split; [discriminate|]. intros (pre & sc & post & H & _). now destruct pre.
  - destruct (sc s) as [u|] eqn:Hs.
    + split.
      * intros [= <-]. exists [], sc, scopes. repeat split; [|exact Hs]. intros sc' [].
      * intros (pre & sc' & post & H & Hp & Ht). destruct pre as [|p pre]; injection H as -> ->; [congruence|].
        rewrite (Hp p) in Hs; [discriminate|now left].
    + rewrite IH. split.
      * intros (pre & sc' & post & -> & Hp & Ht). exists (sc :: pre), sc', post. repeat split; [|exact Ht].
        intros x [<-|Hx]; auto.
      * intros (pre & sc' & post & H & Hp & Ht). destruct pre as [|p pre]; injection H as -> ->; [congruence|].
        exists pre, sc', post. repeat split; [|exact Ht]. intros x Hx. apply Hp. now right.
Qed.
Definition all_chars : list ascii := map ascii_of_nat (seq 0 256).
Lemma all_chars_in c : In c all_chars.
Proof.
  rewrite <- (ascii_nat_embedding c). apply in_map, in_seq. pose proof (nat_ascii_bounded c) as H. revert H. generalize (nat_of_ascii c).
  intros m H. split; [apply Nat.le_0_l|exact H].
Qed.
Definition amongb (s : string) (c : ascii) : bool := existsb (Ascii.eqb c) (list_ascii_of_string s).
Lemma amongb_ok s c : amongb s c = true <-> among s c.
Proof.
  unfold amongb, among. rewrite existsb_exists. split; [intros (x & Hx & H); apply Ascii.eqb_eq in H; now subst|].
  intros H. exists c. split; [exact H|apply Ascii.eqb_refl].
Qed.
Lemma name_chars c : name_char c = amongb name_starts c || amongb name_digits c /\
  negb (is_digit c) && name_char c = amongb name_starts c.
Proof.
  assert (H : forallb (fun c => Bool.eqb (name_char c) (amongb name_starts c || amongb name_digits c) &&
                                Bool.eqb (negb (is_digit c) && name_char c) (amongb name_starts c)) all_chars = true)
    by (vm_compute; reflexivity).
  rewrite forallb_forall in H. specialize (H c (all_chars_in c)). apply andb_prop in H as [H1 H2].
  now apply Bool.eqb_prop in H1, H2.
Qed.
Lemma identifier_name s : identifier s = true <-> is_name s.
Proof.
  destruct s as [|c r]; cbn [identifier]; [split; [discriminate|intros H; inversion H]|].
  cbn [sforall]. rewrite andb_assoc, (proj2 (name_chars c)), andb_true_iff, amongb_ok, sforall_In.
  assert (Hc : forall c', name_char c' = true <-> among name_starts c' \/ among name_digits c').
  { intros c'. rewrite (proj1 (name_chars c')), orb_true_iff, !amongb_ok. reflexivity. }
  split.
  - intros [H1 H2]. constructor; [exact H1|]. intros c' H. apply Hc. now apply H2.
  - intros H. inversion H as [c0 r0 H1 H2]; subst. split; [exact H1|]. intros c' Hc'. apply Hc. now apply H2.
Qed.
Lemma eval_str_denotes P scopes s t : eval_str P scopes s = Ok t <-> denotes_in P scopes s t.
Proof.
  unfold eval_str. destruct (identifier s) eqn:Hi; [apply identifier_name in Hi|rewrite <- not_true_iff_false, identifier_name in Hi].
  - split.
    + intros H. destruct (look scopes s) as [u|] eqn:Hl; [|discriminate]. injection H as <-.
      apply look_some in Hl as (pre & sc & post & -> & Hp & Ht). now apply (de_identifier P _ s pre sc post).
    + intros [pre sc post u _ -> Hp Ht|u H]; [|contradiction].
      assert (Hl : look (pre ++ sc :: post) s = Some u) by (apply look_some; exists pre, sc, post; auto). now rewrite Hl.
  - split; [intros H; now apply de_expression|]. intros [pre sc post u H|u _ H]; [contradiction|exact H].
Qed.
Lemma eval_ann_means P scopes a t : eval_ann P scopes a = Ok t <-> means P scopes a t.
Proof.
  destruct a as [x|]; cbn [eval_ann].
  - rewrite eval_type_stands. split.
    + intros H. constructor. eapply stands_mono; [|exact H]. intros s u. apply eval_str_denotes.
    + intros H. inversion H; subst. eapply stands_mono; [|eassumption]. intros s u. apply eval_str_denotes.
  - split; [intros [= <-]; constructor|]. intros H. now inversion H.
Qed.

(** ** Dicts *)
Lemma sget_update {V} (new : list (string * V)) : NoDup (map fst new) -> forall d a,
  sget a (update d new) = match sget a new with Some x => Some x | None => sget a d end.
Proof.
  induction new as [|[k v] new IH]; intros Hn d a; [reflexivity|]. inversion Hn as [|k' l' Hk Hn']; subst. cbn [fst] in *.
  change (update d ((k, v) :: new)) with (update (sset k v d) new). rewrite IH by assumption.
  unfold sget at 3. cbn [aget]. destruct (String.eqb_spec a k) as [->|Hne].
  - assert (Hg : sget k new = None) by now apply sget_None. rewrite Hg. apply sget_sset_same.
  - fold (sget a new). destruct (sget a new); [reflexivity|]. now apply sget_sset_other.
Qed.
Lemma update_keys {V} (new : list (string * V)) : forall d a,
  In a (map fst (update d new)) <-> In a (map fst new) \/ In a (map fst d).
Proof.
  induction new as [|[k v] new IH]; intros d a; [cbn; tauto|].
  change (update d ((k, v) :: new)) with (update (sset k v d) new). rewrite IH. unfold sset.
  rewrite (aset_keys_In _ streqb_spec). cbn [map fst In]. intuition.
Qed.
Lemma update_NoDup {V} (new : list (string * V)) : forall d, NoDup (map fst d) -> NoDup (map fst (update d new)).
Proof.
  induction new as [|[k v] new IH]; intros d Hd; [exact Hd|].
  change (update d ((k, v) :: new)) with (update (sset k v d) new). apply IH. unfold sset. now apply (aset_NoDup _ streqb_spec).
Qed.

(** ** The bodies *)
Lemma eval_anns_ok P scopes l ts : eval_anns P scopes l = Ok ts ->
  Forall2 (fun ax at_ => fst at_ = fst ax /\ means P scopes (snd ax) (snd at_)) l ts.
Proof.
  revert ts. induction l as [|[a x] l IH]; intros ts H; cbn [eval_anns] in H; [injection H as <-; constructor|].
  destruct (eval_ann P scopes x) as [t|] eqn:Ht; [|discriminate]. cbn [rbind] in H.
  destruct (eval_anns P scopes l) as [ts'|]; [|discriminate]. injection H as <-.
  constructor; [|now apply IH]. split; [reflexivity|]. now apply eval_ann_means.
Qed.
Lemma eval_anns_total P scopes l : (forall a x, In (a, x) l -> exists t, means P scopes x t) ->
  exists ts, eval_anns P scopes l = Ok ts.
Proof.
  induction l as [|[a x] l IH]; intros H; [eexists; reflexivity|]. cbn [eval_anns].
  destruct (H a x) as [t Ht]; [now left|]. apply eval_ann_means in Ht. rewrite Ht. cbn [rbind].
  destruct IH as [ts Hts]; [intros; eapply H; right; eassumption|]. rewrite Hts. eexists. reflexivity.
Qed.
Lemma means_unique P scopes a t u : means P scopes a t -> means P scopes a u -> t = u.
Proof. rewrite <- !eval_ann_means. congruence. Qed.
Lemma Forall2_sget P scopes (l : list (string * annotation)) (ts : list (string * ty)) a : Forall2 (fun ax at_ => fst at_ = fst ax /\ means P scopes (snd ax) (snd at_)) l ts ->
  match sget a l with
  | Some x => exists t, sget a ts = Some t /\ means P scopes x t
  | None => sget a ts = None
  end.
Proof.
  induction 1 as [|[k x] [k' t] l ts [Hk Hm] _ IH]; [reflexivity|]. cbn [fst snd] in *. subst k'. unfold sget. cbn [aget].
  destruct (String.eqb a k); [now exists t|exact IH].
Qed.
Lemma Forall2_keys P scopes (l : list (string * annotation)) (ts : list (string * ty)) : Forall2 (fun ax at_ => fst at_ = fst ax /\ means P scopes (snd ax) (snd at_)) l ts ->
  map fst ts = map fst l.
Proof. induction 1 as [|x y l ts [Hk _] _ IH]; [reflexivity|]. cbn [map]. now rewrite Hk, IH. Qed.

Lemma nearest_cons {X} (has : nat -> option X) b r b0 x :
  nearest has (b :: r) b0 x <-> (b0 = b /\ has b = Some x) \/ (has b = None /\ nearest has r b0 x).
Proof.
  split.
  - intros (pre & post & H & Hx & Hp). destruct pre as [|p pre]; injection H as <- ->; [now left|].
    right. split; [apply Hp; now left|]. exists pre, post. repeat split; [exact Hx|]. intros b' Hb. apply Hp. now right.
  - intros [[-> Hx]|[Hn (pre & post & -> & Hx & Hp)]].
    + exists [], r. repeat split; [exact Hx|]. intros b' [].
    + exists (b :: pre), post. repeat split; [exact Hx|]. intros b' [<-|Hb]; auto.
Qed.
Lemma nearest_nil {X} (has : nat -> option X) b x : ~ nearest has [] b x.
Proof. intros (pre & post & H & _). now destruct pre. Qed.
Lemma nearest_unique {X} (has : nat -> option X) mro b x b' x' :
  nearest has mro b x -> nearest has mro b' x' -> b = b' /\ x = x'.
Proof.
  induction mro as [|b0 mro IH]; [intros H; now apply nearest_nil in H|]. rewrite !nearest_cons.
  intros [[-> H]|[H H']] [[-> K]|[K K']]; try congruence; [split; congruence|auto].
Qed.
Lemma nearest_or {X} (has : nat -> option X) mro :
  (exists b x, nearest has mro b x) \/ (forall b, In b mro -> has b = None).
Proof.
  induction mro as [|b mro IH]; [right; intros b []|].
  destruct (has b) as [x|] eqn:Hb; [left; exists b, x; apply nearest_cons; now left|].
  destruct IH as [(b' & x & H)|H]; [left; exists b', x; apply nearest_cons; now right|].
  right. intros b' [<-|Hi]; auto.
Qed.
Lemma nearest_in {X} (has : nat -> option X) mro b x : nearest has mro b x -> In b mro /\ has b = Some x.
Proof. intros (pre & post & -> & H & _). split; [apply in_or_app; right; now left|exact H]. Qed.

(** Going over the MRO from its end, nearer classes override. *)
Lemma class_hints_app P bs bs' hs : class_hints P (bs ++ bs') hs = rbind (class_hints P bs hs) (class_hints P bs').
Proof.
  revert hs. induction bs as [|b bs IH]; intros hs; [reflexivity|]. cbn [app class_hints].
  destruct (eval_anns _ _ _) as [ts|]; [cbn [rbind]; apply IH|reflexivity].
Qed.
Lemma class_hints_ok P mro h : (forall b, NoDup (map fst (de_ann (pr_decl P b)))) -> class_hints P (rev mro) [] = Ok h ->
  NoDup (map fst h) /\
  forall a t, sget a h = Some t <->
    exists b x, nearest (fun b => sget a (de_ann (pr_decl P b))) mro b x /\ means P (body_scopes P b) x t.
Proof.
  intros Hn. revert h. induction mro as [|b mro IH]; intros h H.
  - cbn in H. injection H as <-. split; [constructor|]. intros a t. split; [discriminate|].
    intros (b & x & Hx & _). now apply nearest_nil in Hx.
  - cbn [rev] in H. rewrite class_hints_app in H. destruct (class_hints P (rev mro) []) as [h0|]; [|discriminate].
    destruct (IH h0 eq_refl) as [IHn IHh]. cbn [rbind class_hints] in H.
    destruct (eval_anns _ _ _) as [ts|] eqn:He; [|discriminate]. cbn [rbind] in H. injection H as <-.
    apply eval_anns_ok in He. split; [now apply update_NoDup|]. intros a t.
    rewrite sget_update by (rewrite (Forall2_keys _ _ _ _ He); apply Hn).
    pose proof (Forall2_sget _ _ _ _ a He) as Hg. change (class_scopes P (pr_decl P b)) with (body_scopes P b) in Hg.
    destruct (sget a (de_ann (pr_decl P b))) as [x|] eqn:Hx.
    + destruct Hg as (u & -> & Hu). split.
      * intros [= <-]. exists b, x. split; [apply nearest_cons; now left|exact Hu].
      * intros (b' & x' & Hb & Hm). apply nearest_cons in Hb as [[-> Hb]|[Hb _]]; [|congruence].
        rewrite Hx in Hb. injection Hb as <-. f_equal. eapply means_unique; eassumption.
    + rewrite Hg, IHh. split; intros (b' & x' & Hb & Hm); exists b', x'; (split; [|exact Hm]).
      * apply nearest_cons. now right.
      * apply nearest_cons in Hb as [[-> Hb]|[_ Hb]]; [congruence|exact Hb].
Qed.
Lemma class_hints_total P mro : (forall b a x, In b mro -> In (a, x) (de_ann (pr_decl P b)) -> exists t, means P (body_scopes P b) x t) ->
  exists h, class_hints P (rev mro) [] = Ok h.
Proof.
  induction mro as [|b mro IH]; intros H; [eexists; reflexivity|]. cbn [rev]. rewrite class_hints_app.
  destruct IH as [h Hh]; [intros; eapply H; [right|]; eassumption|]. rewrite Hh. cbn [rbind class_hints].
  destruct (eval_anns_total P (class_scopes P (pr_decl P b)) (de_ann (pr_decl P b))) as [ts Hts].
  { intros a x Hx. eapply H; [now left|exact Hx]. }
  rewrite Hts. eexists. reflexivity.
Qed.

(** ** The constructor *)
Lemma find_init_nearest P mro fn : find_init (pr_decl P) mro = Some fn <-> exists b, nearest (fun b => de_init (pr_decl P b)) mro b fn.
Proof.
  induction mro as [|b mro IH]; cbn [find_init].
  - split; [discriminate|]. intros [b H]. now apply nearest_nil in H.
  - destruct (de_init (pr_decl P b)) as [fn'|] eqn:Hb.
    + split; [intros [= <-]; exists b; apply nearest_cons; now left|].
      intros [b' H]. apply nearest_cons in H as [[_ H]|[H _]]; congruence.
    + rewrite IH. split; intros [b' H]; exists b'.
      * apply nearest_cons. now right.
      * apply nearest_cons in H as [[_ H]|[_ H]]; [congruence|exact H].
Qed.
Lemma constructor_find P c fn : constructor P c fn <-> find_init (pr_decl P) (de_mro (pr_decl P c)) = Some fn.
Proof. unfold constructor. now rewrite find_init_nearest. Qed.
Lemma constructor_unique P c fn fn' : constructor P c fn -> constructor P c fn' -> fn = fn'.
Proof. rewrite !constructor_find. congruence. Qed.

Lemma implicit_optional_type P m p a t : fp_ann p = Some a -> means P (signature_scopes P m) a t ->
  forall u, param_type P m p u <-> u = implicit_optional (fp_default p) t.
Proof.
  intros Ha Ht u. split.
  - intros [a' t' Ha' Hd Ht'|a' t' u' Ha' Hd Ht' Hu]; rewrite Ha in Ha'; injection Ha' as <-;
      assert (t' = t) as -> by (eapply means_unique; eassumption).
    + unfold implicit_optional. destruct (fp_default p) as [[]|]; congruence.
    + rewrite Hd. cbn. symmetry. now apply union_of_make.
  - intros ->. assert (Hc : fp_default p = Some VNone \/ fp_default p <> Some VNone).
    { destruct (fp_default p) as [[]|]; try (right; discriminate). now left. }
    destruct Hc as [Hd|Hd].
    + rewrite Hd. eapply pt_none; try eassumption. now apply union_of_make.
    + replace (implicit_optional (fp_default p) t) with t; [eapply pt_plain; eassumption|].
      unfold implicit_optional. destruct (fp_default p) as [[]|]; congruence.
Qed.
Lemma params_hints_ok P m ps ts : NoDup (map fp_name ps) -> params_hints P (signature_scopes P m) ps = Ok ts ->
  NoDup (map fst ts) /\ (forall a, In a (map fst ts) -> exists p, In p ps /\ fp_name p = a /\ fp_ann p <> None) /\
  forall a t, sget a ts = Some t <-> exists p, In p ps /\ fp_name p = a /\ param_type P m p t.
Proof.
  revert ts. induction ps as [|p ps IH]; intros ts Hn H; cbn [params_hints] in H.
  - injection H as <-. split; [constructor|]. split; [intros a []|]. intros a t. split; [discriminate|]. intros (p & [] & _).
  - inversion Hn as [|x l Hp Hn']; subst. destruct (fp_ann p) as [x|] eqn:Ha.
    + destruct (eval_ann _ _ x) as [t0|] eqn:Ht; [|discriminate]. cbn [rbind] in H.
      destruct (params_hints _ _ ps) as [ts'|]; [|discriminate]. injection H as <-.
      destruct (IH ts' Hn' eq_refl) as (I1 & I2 & I3). apply eval_ann_means in Ht.
      pose proof (implicit_optional_type P m p x t0 Ha Ht) as Hi.
      assert (Hk : ~ In (fp_name p) (map fst ts')).
      { intros Hin. apply I2 in Hin as (q & Hq & Hqn & _). apply Hp. rewrite <- Hqn. now apply in_map. }
      split; [now constructor|]. split.
      * intros a [<-|Hin]; [exists p; repeat split; [now left|congruence]|].
        apply I2 in Hin as (q & Hq & Hqn & Hqa). exists q. split; [now right|auto].
      * intros a t. unfold sget. cbn [aget]. destruct (String.eqb_spec a (fp_name p)) as [->|Hne].
        -- split.
           ++ intros [= <-]. exists p. split; [now left|]. split; [reflexivity|]. now apply Hi.
           ++ intros (q & [<-|Hq] & Hqn & Ht'); [f_equal; symmetry; now apply Hi|].
              exfalso. apply Hp. rewrite <- Hqn. now apply in_map.
        -- fold (sget a ts'). rewrite I3. split; intros (q & Hq & Hqn & Ht'); exists q; (split; [|auto]).
           ++ now right.
           ++ destruct Hq as [<-|Hq]; [congruence|exact Hq].
    + destruct (IH ts Hn' H) as (I1 & I2 & I3). split; [exact I1|]. split.
      * intros a Hin. apply I2 in Hin as (q & Hq & Hqn). exists q. split; [now right|auto].
      * intros a t. rewrite I3. split; intros (q & Hq & Hqn & Ht'); exists q; (split; [|auto]).
        -- now right.
        -- destruct Hq as [<-|Hq]; [|exact Hq]. inversion Ht'; congruence.
Qed.
Lemma params_hints_total P scopes ps : (forall p x, In p ps -> fp_ann p = Some x -> exists t, means P scopes x t) ->
  exists ts, params_hints P scopes ps = Ok ts.
Proof.
  induction ps as [|p ps IH]; intros H; [eexists; reflexivity|]. cbn [params_hints].
  destruct IH as [ts Hts]; [intros; eapply H; [right|]; eassumption|].
  destruct (fp_ann p) as [x|] eqn:Ha; [|eauto].
  destruct (H p x) as [t Ht]; [now left|exact Ha|]. apply eval_ann_means in Ht. rewrite Ht, Hts. eexists. reflexivity.
Qed.
Lemma sdel_last {V} k (x : V) d : ~ In k (map fst d) -> sdel k (d ++ [(k, x)])%list = d.
Proof.
  intros H. unfold sdel. induction d as [|[k' y] d IH]; cbn [app adel].
  - now rewrite String.eqb_refl.
  - destruct (String.eqb_spec k k') as [->|_]; [elim H; now left|]. rewrite IH; [reflexivity|]. intros Hin. apply H. now right.
Qed.
Lemma sdel_fresh {V} k (d : list (string * V)) : ~ In k (map fst d) -> sdel k d = d.
Proof.
  intros H. unfold sdel. induction d as [|[k' y] d IH]; cbn [adel]; [reflexivity|].
  destruct (String.eqb_spec k k') as [->|_]; [elim H; now left|]. rewrite IH; [reflexivity|]. intros Hin. apply H. now right.
Qed.
Lemma sget_snoc {V} k k' (x : V) d : k <> k' -> sget k (d ++ [(k', x)])%list = sget k d.
Proof.
  intros H. unfold sget. induction d as [|[k0 y] d IH]; cbn [app aget].
  - now destruct (String.eqb_spec k k').
  - now rewrite IH.
Qed.
Lemma func_hints_ok P m fn h : NoDup (map fp_name (fn_params fn)) -> ~ In "return" (map fp_name (fn_params fn)) ->
  func_hints P m fn = Ok h ->
  (NoDup (map fst (sdel "return" h)) /\
   (forall a, In a (map fst (sdel "return" h)) -> exists p, In p (fn_params fn) /\ fp_name p = a /\ fp_ann p <> None) /\
   forall a t, sget a (sdel "return" h) = Some t <-> exists p, In p (fn_params fn) /\ fp_name p = a /\ param_type P m p t) /\
  forall a, a <> "return" -> sget a h = sget a (sdel "return" h).
Proof.
  intros Hn Hr. unfold func_hints. change [pr_module P m; pr_builtin P] with (signature_scopes P m).
  destruct (params_hints _ _ _) as [ts|] eqn:Hts; [|discriminate]. cbn [rbind].
  destruct (params_hints_ok P m _ ts Hn Hts) as (I1 & I2 & I3).
  assert (Hf : ~ In "return" (map fst ts)).
  { intros Hin. apply I2 in Hin as (p & Hp & He & _). apply Hr. rewrite <- He. now apply in_map. }
  destruct (fn_returns fn) as [x|].
  - destruct (eval_ann _ _ x) as [t|]; [|discriminate]. cbn [rbind]. intros [= <-].
    rewrite sdel_last by assumption. split; [auto|]. intros a Ha. now apply sget_snoc.
  - intros [= <-]. rewrite sdel_fresh by assumption. split; [auto|reflexivity].
Qed.
Lemma func_hints_total P m fn : signature_understood P m fn -> exists h, func_hints P m fn = Ok h.
Proof.
  intros [Hp Hr]. unfold func_hints. change [pr_module P m; pr_builtin P] with (signature_scopes P m).
  destruct (params_hints_total P (signature_scopes P m) (fn_params fn) Hp) as [ts Hts]. rewrite Hts. cbn [rbind].
  destruct (fn_returns fn) as [x|] eqn:Hx; [|eauto]. destruct (Hr x eq_refl) as [t Ht].
  apply eval_ann_means in Ht. rewrite Ht. eexists. reflexivity.
Qed.

(** ** The hints of a class *)
Lemma hints_of_class_ok P c : wellformed P -> understood P c ->
  exists h, hints_of_class P c = Ok h /\ NoDup (map fst h) /\
    forall a t, sget a h = Some t <-> attribute_type P c a t.
Proof.
  intros W [Hb Hi]. unfold hints_of_class.
  destruct (class_hints_total P (de_mro (pr_decl P c))) as [h0 Hh0].
  { intros b a x Hin Hx. eapply Hb; eassumption. }
  rewrite Hh0. cbn [rbind]. destruct (class_hints_ok P _ h0 (wf_ann P W) Hh0) as [Hn0 Hh].
  assert (Hbody : forall a t, sget a h0 = Some t <-> body_type P c a t).
  { intros a t. rewrite Hh. split; [intros (b & x & H & H'); econstructor; eassumption|intros [b x t' H H']; eauto]. }
  destruct (de_type (pr_decl P c)) eqn:Ht.
  - unfold init_hints. destruct (find_init (pr_decl P) (de_mro (pr_decl P c))) as [fn|] eqn:Hf.
    + assert (Hcf : constructor P c fn) by now apply constructor_find.
      destruct (func_hints_total P (fn_module fn) fn (Hi fn Hcf)) as [hi Hhi]. rewrite Hhi. cbn [rbind].
      apply find_init_nearest in Hf as [bf Hf]. apply nearest_in in Hf as [_ Hf].
      destruct (wf_init P W bf fn Hf) as [Hnp Hr].
      destruct (func_hints_ok P _ fn hi Hnp Hr Hhi) as ((J1 & J2 & J3) & J4).
      eexists. split; [reflexivity|]. split; [now apply update_NoDup|]. intros a t. rewrite sget_update by assumption.
      destruct (sget a (sdel "return" hi)) as [u|] eqn:Hu.
      * apply J3 in Hu as Hp. destruct Hp as (p & Hp & Hpa & Hpt). split.
        -- intros [= <-]. econstructor; eassumption.
        -- intros [fn' p' t' _ Hc' Hp' Hpa' Hpt'|t' Hno _].
           ++ assert (fn' = fn) as -> by (eapply constructor_unique; eassumption).
              assert (Hg : sget a (sdel "return" hi) = Some t') by (apply J3; eauto). congruence.
           ++ exfalso. specialize (Hno Ht fn p Hcf Hp Hpa). inversion Hpt; congruence.
      * rewrite Hbody. split.
        -- intros H. apply at_body; [|exact H]. intros _ fn' p' Hc' Hp' Hpa'.
           assert (fn' = fn) as -> by (eapply constructor_unique; eassumption).
           destruct (fp_ann p') as [x|] eqn:Hx; [|reflexivity]. exfalso.
           destruct (proj1 (Hi fn Hcf) p' x Hp' Hx) as [u Hm].
           assert (Hg : sget a (sdel "return" hi) = Some (implicit_optional (fp_default p') u)).
           { apply J3. exists p'. repeat split; [exact Hp'|exact Hpa'|]. now apply (implicit_optional_type P (fn_module fn) p' x u). }
           congruence.
        -- intros [fn' p' t' _ Hc' Hp' Hpa' Hpt'|t' Hno H]; [|exact H]. exfalso.
           assert (fn' = fn) as -> by (eapply constructor_unique; eassumption).
           assert (Hg : sget a (sdel "return" hi) = Some t') by (apply J3; eauto). congruence.
    + cbn [rbind sdel adel]. exists h0. split; [reflexivity|]. split; [exact Hn0|]. intros a t. rewrite Hbody. split.
      * intros H. apply at_body; [|exact H]. intros _ fn p Hc. apply constructor_find in Hc. congruence.
      * intros [fn' p' t' _ Hc'|t' _ H]; [|exact H]. apply constructor_find in Hc'. congruence.
  - exists h0. split; [reflexivity|]. split; [exact Hn0|]. intros a t. rewrite Hbody. split.
    + intros H. apply at_body; [congruence|exact H].
    + intros [fn' p' t' H'|t' _ H]; [congruence|exact H].
Qed.

(** ** The constructor's hints, and its fallback *)
Lemma init_hints_find P c fn m : constructor P c fn ->
  init_hints P c m = func_hints P (match m with Some m => m | None => fn_module fn end) fn.
Proof. intros H. apply constructor_find in H. unfold init_hints. now rewrite H. Qed.
Lemma signature_find P c fn : constructor P c fn -> signature_of P c = fn_params fn.
Proof. intros H. apply constructor_find in H. unfold signature_of. now rewrite H. Qed.
Lemma constructor_wf P c fn : wellformed P -> constructor P c fn ->
  NoDup (map fp_name (fn_params fn)) /\ ~ In "return" (map fp_name (fn_params fn)).
Proof. intros W [b H]. apply nearest_in in H as [_ H]. exact (wf_init P W b fn H). Qed.
Lemma typed_params P m fn h : NoDup (map fp_name (fn_params fn)) -> ~ In "return" (map fp_name (fn_params fn)) ->
  func_hints P m fn = Ok h -> Forall2 (typed_as P m) (fn_params fn) (map (typed_param h) (fn_params fn)).
Proof.
  intros Hn Hr Hh. destruct (func_hints_ok P m fn h Hn Hr Hh) as ((J1 & J2 & J3) & J4).
  assert (G : forall ps, incl ps (fn_params fn) -> Forall2 (typed_as P m) ps (map (typed_param h) ps)).
  { induction ps as [|p ps IH]; intros Hi; [constructor|]. cbn [map]. constructor; [|apply IH; intros q Hq; apply Hi; now right].
    assert (Hp : In p (fn_params fn)) by (apply Hi; now left).
    repeat split; unfold typed_param; cbn [pa_hint].
    - rewrite J4, J3. 2: { intros He. apply Hr. rewrite <- He. now apply in_map. }
      intros (q & Hq & Hqn & Ht). assert (q = p) as ->; [|exact Ht].
      clear - Hn Hq Hp Hqn. induction (fn_params fn) as [|x l IH]; [destruct Hp|]. inversion Hn as [|y l' Hx Hn']; subst.
      destruct Hq as [->|Hq], Hp as [->|Hp]; auto; elim Hx; [rewrite Hqn|rewrite <- Hqn]; now apply in_map.
    - intros Ht. rewrite J4, J3; [eauto|]. intros He. apply Hr. rewrite <- He. now apply in_map. }
  apply G. apply incl_refl.
Qed.
Lemma hints_of_init_ok P c fn : wellformed P -> constructor P c fn -> signature_understood P (fn_module fn) fn ->
  exists h, hints_of_init P c = Ok h /\ Forall2 (typed_as P (fn_module fn)) (fn_params fn) (map (typed_param h) (signature_of P c)).
Proof.
  intros W Hc Hu. unfold hints_of_init. rewrite (init_hints_find P c fn None Hc), (signature_find P c fn Hc).
  destruct (func_hints_total P _ fn Hu) as [h Hh]. rewrite Hh. exists h. split; [reflexivity|].
  destruct (constructor_wf P c fn W Hc). now apply typed_params.
Qed.
(** Only strings raise. *)
Lemma eval_type_err ev t e : eval_type ev t = Err e -> exists s, ev s = Err e.
Proof.
  revert e. induction t using ty_ind'; intros e He; try discriminate.
  - cbn [eval_type] in He.
    match type of He with rbind (?f l) _ = _ => set (go := f) in * end.
    assert (Hgo : go l = Err e -> exists s, ev s = Err e).
    { clear He. induction H as [|x r Hx _ IH]; intros He; [discriminate|]. cbn [go] in He. fold go in He.
      assert (Hy : match b, x with false, TFwd _ => Ok x | _, _ => eval_type ev x end = Ok x \/
                   match b, x with false, TFwd _ => Ok x | _, _ => eval_type ev x end = eval_type ev x).
      { destruct b; [now right|]. destruct x; auto. }
      destruct (match b, x with false, TFwd _ => Ok x | _, _ => eval_type ev x end) as [y|e'] eqn:Hm.
      - cbn [rbind] in He. destruct (go r) as [ys|]; [discriminate|]. apply IH. cbn [rbind] in He. congruence.
      - cbn [rbind] in He. destruct Hy as [Hy|Hy]; [discriminate|]. apply Hx. congruence. }
    destruct (go l) as [l'|e'] eqn:Hl; [discriminate|]. cbn [rbind] in He. apply Hgo. congruence.
  - cbn [eval_type] in He.
    match type of He with rbind (?f l) _ = _ => set (go := f) in * end.
    assert (Hgo : go l = Err e -> exists s, ev s = Err e).
    { clear He. induction H as [|x r Hx _ IH]; intros He; [discriminate|]. cbn [go] in He. fold go in He.
      destruct (eval_type ev x) as [y|e'] eqn:Hm.
      - cbn [rbind] in He. destruct (go r) as [ys|]; [discriminate|]. apply IH. cbn [rbind] in He. congruence.
      - cbn [rbind] in He. apply Hx. congruence. }
    destruct (go l) as [l'|e'] eqn:Hl; [discriminate|]. cbn [rbind] in He. apply Hgo. congruence.
  - destruct t; try contradiction; try discriminate. cbn [eval_type] in He. eauto.
Qed.
Lemma eval_ann_err P scopes x e : only_names P -> eval_ann P scopes x = Err e -> e_kind e = KName.
Proof.
  intros Ho H. destruct x as [t|]; [|discriminate]. apply eval_type_err in H as [s H]. unfold eval_str in H.
  destruct (identifier s); [|eapply Ho; exact H]. destruct (look scopes s); [discriminate|]. injection H as <-. reflexivity.
Qed.
Lemma params_hints_err P scopes ps e : only_names P -> params_hints P scopes ps = Err e -> e_kind e = KName.
Proof.
  intros Ho. revert e. induction ps as [|p ps IH]; intros e H; [discriminate|]. cbn [params_hints] in H.
  destruct (fp_ann p) as [x|]; [|now apply IH]. destruct (eval_ann P scopes x) as [t|e'] eqn:Ht.
  - cbn [rbind] in H. destruct (params_hints P scopes ps) as [ts|e']; [discriminate|]. cbn [rbind] in H. apply IH. congruence.
  - cbn [rbind] in H. injection H as ->. eapply eval_ann_err; eassumption.
Qed.
Lemma func_hints_err P m fn e : only_names P -> func_hints P m fn = Err e -> e_kind e = KName.
Proof.
  intros Ho H. unfold func_hints in H. destruct (params_hints _ _ _) as [ts|e'] eqn:Hts.
  - cbn [rbind] in H. destruct (fn_returns fn) as [x|]; [|discriminate]. destruct (eval_ann _ _ x) as [t|e'] eqn:Ht; [discriminate|].
    injection H as ->. eapply eval_ann_err; eassumption.
  - injection H as ->. eapply params_hints_err; eassumption.
Qed.
Lemma eval_anns_err P scopes l e : only_names P -> eval_anns P scopes l = Err e -> e_kind e = KName.
Proof.
  intros Ho. revert e. induction l as [|[a x] l IH]; intros e H; [discriminate|]. cbn [eval_anns] in H.
  destruct (eval_ann P scopes x) as [t|e'] eqn:Ht.
  - cbn [rbind] in H. destruct (eval_anns P scopes l) as [ts|e']; [discriminate|]. cbn [rbind] in H. apply IH. congruence.
  - injection H as ->. eapply eval_ann_err; eassumption.
Qed.
Lemma class_hints_err P bs h e : only_names P -> class_hints P bs h = Err e -> e_kind e = KName.
Proof.
  intros Ho. revert h e. induction bs as [|b bs IH]; intros h e H; [discriminate|]. cbn [class_hints] in H.
  destruct (eval_anns _ _ _) as [ts|e'] eqn:Ht; [now apply (IH _ _ H)|]. injection H as ->. eapply eval_anns_err; eassumption.
Qed.
(** Success means that everything stands for something. *)
Lemma params_hints_inv P scopes ps ts : params_hints P scopes ps = Ok ts ->
  forall p x, In p ps -> fp_ann p = Some x -> exists t, means P scopes x t.
Proof.
  revert ts. induction ps as [|p ps IH]; intros ts H q x Hq Hx; [destruct Hq|]. cbn [params_hints] in H.
  destruct (fp_ann p) as [y|] eqn:Hy.
  - destruct (eval_ann P scopes y) as [t|] eqn:Ht; [|discriminate]. cbn [rbind] in H.
    destruct (params_hints P scopes ps) as [ts'|]; [|discriminate]. destruct Hq as [<-|Hq]; [|eapply IH; eauto].
    rewrite Hy in Hx. injection Hx as <-. exists t. now apply eval_ann_means.
  - destruct Hq as [<-|Hq]; [congruence|eapply IH; eauto].
Qed.
Lemma func_hints_inv P m fn h : func_hints P m fn = Ok h -> signature_understood P m fn.
Proof.
  unfold func_hints. change [pr_module P m; pr_builtin P] with (signature_scopes P m).
  destruct (params_hints _ _ _) as [ts|] eqn:Hts; [|discriminate]. cbn [rbind]. intros H. split.
  - eapply params_hints_inv; eassumption.
  - intros x Hx. rewrite Hx in H. destruct (eval_ann _ _ x) as [t|] eqn:Ht; [|discriminate]. exists t. now apply eval_ann_means.
Qed.
Lemma eval_anns_inv P scopes l ts : eval_anns P scopes l = Ok ts -> forall a x, In (a, x) l -> exists t, means P scopes x t.
Proof.
  intros H a x Hin. apply eval_anns_ok in H. induction H as [|[k y] [k' t] l ts [_ Hm] _ IH]; [destruct Hin|].
  destruct Hin as [[= <- <-]|Hin]; [eauto|auto].
Qed.
Lemma class_hints_inv P bs h h' : class_hints P bs h = Ok h' ->
  forall b a x, In b bs -> In (a, x) (de_ann (pr_decl P b)) -> exists t, means P (body_scopes P b) x t.
Proof.
  revert h. induction bs as [|b bs IH]; intros h H b' a x Hb Hx; [destruct Hb|]. cbn [class_hints] in H.
  destruct (eval_anns _ _ _) as [ts|] eqn:Ht; [|discriminate]. cbn [rbind] in H.
  destruct Hb as [<-|Hb]; [|eapply IH; eassumption]. eapply eval_anns_inv in Ht; eassumption.
Qed.
Lemma hints_of_init_fallback P c fn : wellformed P -> only_names P -> constructor P c fn ->
  ~ signature_understood P (fn_module fn) fn -> signature_understood P (de_module (pr_decl P c)) fn ->
  exists h, hints_of_init P c = Ok h /\
    Forall2 (typed_as P (de_module (pr_decl P c))) (fn_params fn) (map (typed_param h) (signature_of P c)).
Proof.
  intros W Ho Hc Hu Hu'. unfold hints_of_init. rewrite !(init_hints_find P c fn _ Hc), (signature_find P c fn Hc).
  destruct (func_hints P (fn_module fn) fn) as [h|e] eqn:Hh; [elim Hu; now apply func_hints_inv in Hh|].
  apply func_hints_err in Hh; [|exact Ho]. rewrite Hh. cbn.
  destruct (func_hints_total P _ fn Hu') as [h Hh']. rewrite Hh'. exists h. split; [reflexivity|].
  destruct (constructor_wf P c fn W Hc). now apply typed_params.
Qed.
(** Dump has no fallback: without an annotation's meaning there is a NameError. *)
Lemma hints_of_class_fails P c : only_names P ->
  (~ body_understood P c \/ (de_type (pr_decl P c) = true /\ exists fn, constructor P c fn /\ ~ signature_understood P (fn_module fn) fn)) ->
  exists e, hints_of_class P c = Err e /\ is_nameerror (e_kind e) = true.
Proof.
  intros Ho H. unfold hints_of_class.
  destruct (class_hints P (rev (de_mro (pr_decl P c))) []) as [h|e] eqn:Hh.
  - destruct H as [H|(Ht & fn & Hc & Hu)].
    + elim H. intros b a x Hb Hx. eapply class_hints_inv; [exact Hh| |exact Hx]. now apply -> in_rev.
    + rewrite Ht. cbn [rbind]. rewrite (init_hints_find P c fn None Hc).
      destruct (func_hints P (fn_module fn) fn) as [h'|e] eqn:Hf; [elim Hu; now apply func_hints_inv in Hf|].
      exists e. split; [reflexivity|]. apply func_hints_err in Hf; [|exact Ho]. now rewrite Hf.
  - apply class_hints_err in Hh; [|exact Ho]. rewrite Hh. cbn [is_attributeerror is_nameerror KName rbind].
    destruct (de_type (pr_decl P c)); [|eexists; split; reflexivity].
    unfold init_hints. destruct (find_init _ _) as [fn|]; [|eexists; split; reflexivity].
    destruct (func_hints P (fn_module fn) fn) as [h'|e'] eqn:Hf; [eexists; split; reflexivity|].
    exists e'. split; [reflexivity|]. apply func_hints_err in Hf; [|exact Ho]. now rewrite Hf.
Qed.

(** ** Members *)
Lemma fold_update_app P bs : forall bs' d,
  fold_left (fun d b => update d (de_dict (pr_decl P b))) (bs ++ bs') d =
  fold_left (fun d b => update d (de_dict (pr_decl P b))) bs' (fold_left (fun d b => update d (de_dict (pr_decl P b))) bs d).
Proof. intros. apply fold_left_app. Qed.
Lemma complete_dict_nearest P mro a m : (forall b, NoDup (map fst (de_dict (pr_decl P b)))) ->
  sget a (complete_dict (pr_decl P) mro) = Some m <-> exists b, nearest (fun b => sget a (de_dict (pr_decl P b))) mro b m.
Proof.
  intros Hn. unfold complete_dict. induction mro as [|b mro IH].
  - cbn. split; [discriminate|]. intros [b H]. now apply nearest_nil in H.
  - cbn [rev]. rewrite fold_update_app. cbn [fold_left]. rewrite sget_update by apply Hn.
    destruct (sget a (de_dict (pr_decl P b))) as [m'|] eqn:Hb.
    + split; [intros [= <-]; exists b; apply nearest_cons; now left|].
      intros [b' H]. apply nearest_cons in H as [[_ H]|[H _]]; congruence.
    + rewrite IH. split; intros [b' H]; exists b'.
      * apply nearest_cons. now right.
      * apply nearest_cons in H as [[_ H]|[_ H]]; [congruence|exact H].
Qed.
Lemma complete_dict_NoDup P mro : NoDup (map fst (complete_dict (pr_decl P) mro)).
Proof.
  unfold complete_dict. assert (G : forall bs d, NoDup (map fst d) -> NoDup (map fst (fold_left (fun d b => update d (de_dict (pr_decl P b))) bs d))).
  { induction bs as [|b bs IH]; intros d Hd; [exact Hd|]. apply IH. now apply update_NoDup. }
  apply G. constructor.
Qed.
Lemma complete_dict_in P mro a m : (forall b, NoDup (map fst (de_dict (pr_decl P b)))) ->
  In (a, m) (complete_dict (pr_decl P) mro) -> exists b, In b mro /\ In (a, m) (de_dict (pr_decl P b)).
Proof.
  intros Hn H. apply sget_NoDup in H; [|apply complete_dict_NoDup].
  apply complete_dict_nearest in H as [b H]; [|exact Hn]. apply nearest_in in H as [Hb H]. exists b. split; [exact Hb|]. now apply sget_In.
Qed.

(** ** What the engine gets to know *)
Lemma class_info_ok P c : wellformed P -> understood P c -> exists ci, class_info P c = Ok ci /\
  ci_name ci = de_module (pr_decl P c) ++ "." ++ de_name (pr_decl P c) /\
  (forall a t, sget a (ci_hints ci) = Some t <-> attribute_type P c a t) /\
  (forall fn, constructor P c fn -> Forall2 (typed_as P (fn_module fn)) (fn_params fn) (ci_params ci)) /\
  (forall a m, sget a (ci_members ci) = Some m <->
     exists b, nearest (fun b => sget a (de_dict (pr_decl P b))) (de_mro (pr_decl P c)) b m).
Proof.
  intros W U. destruct (hints_of_class_ok P c W U) as (hc & Hhc & _ & Hat).
  assert (Hi : exists hi, hints_of_init P c = Ok hi /\ forall fn, constructor P c fn ->
                Forall2 (typed_as P (fn_module fn)) (fn_params fn) (map (typed_param hi) (signature_of P c))).
  { destruct (find_init (pr_decl P) (de_mro (pr_decl P c))) as [fn|] eqn:Hf.
    - assert (Hcf : constructor P c fn) by now apply constructor_find.
      destruct (hints_of_init_ok P c fn W Hcf (proj2 U fn Hcf)) as (h & Hh & Hp). exists h. split; [exact Hh|].
      intros fn' Hc'. assert (fn' = fn) as -> by (eapply constructor_unique; eassumption). exact Hp.
    - exists []. unfold hints_of_init, init_hints. rewrite Hf. split; [reflexivity|].
      intros fn Hc. apply constructor_find in Hc. congruence. }
  destruct Hi as (hi & Hhi & Hp). unfold class_info. rewrite Hhi, Hhc. cbn [rbind]. eexists. split; [reflexivity|].
  cbn [ci_hints ci_params ci_members ci_name]. split; [reflexivity|]. split; [exact Hat|]. split; [exact Hp|].
  intros a m. apply complete_dict_nearest. apply (wf_dict P W).
Qed.

(** ** Records *)
Lemma stores_record P o c fn CT : wellformed P -> understood P c -> stores_parameters P o c fn ->
  class_info P c = Ok (CT c) -> fresh_name (CT c) ->
  (forall p t, In p (fn_params fn) -> param_type P (fn_module fn) p t -> ~ odd_name CT (Some t)) ->
  record_like CT o c.
Proof.
  intros W U Hs Hci Hfresh Hodd.
  destruct (class_info_ok P c W U) as (ci & Hci' & _ & Hh & Hp & Hm). rewrite Hci in Hci'. injection Hci' as <-.
  pose proof (sp_constructor _ _ _ _ Hs) as Hc. specialize (Hp fn Hc). destruct (constructor_wf P c fn W Hc) as [Hnd _].
  assert (Hnames : map pa_name (ci_params (CT c)) = map fp_name (fn_params fn)).
  { clear - Hp. induction Hp as [|p q l l' (Hq & _) _ IH]; [reflexivity|]. cbn [map]. now rewrite Hq, IH. }
  assert (Hin : forall q, In q (ci_params (CT c)) -> exists p, In p (fn_params fn) /\ typed_as P (fn_module fn) p q).
  { intros q Hq. clear - Hp Hq. induction Hp as [|p q' l l' Ht _ IH]; [destruct Hq|].
    destruct Hq as [<-|Hq]; [exists p; split; [now left|exact Ht]|]. destruct (IH Hq) as (p' & Hp' & Ht'). exists p'. split; [now right|exact Ht']. }
  unfold class_info in Hci. destruct (hints_of_init P c) as [hi|]; [|discriminate]. cbn [rbind] in Hci.
  destruct (hints_of_class P c) as [hc|]; [|discriminate]. cbn [rbind] in Hci. injection Hci as Hci.
  assert (Hmem : ci_members (CT c) = complete_dict (pr_decl P) (de_mro (pr_decl P c))) by now rewrite <- Hci.
  assert (Hmi : forall a m, In (a, m) (ci_members (CT c)) -> exists b, In b (de_mro (pr_decl P c)) /\ In (a, m) (de_dict (pr_decl P b))).
  { intros a m. rewrite Hmem. apply complete_dict_in. apply (wf_dict P W). }
  assert (Hcases : forall a m, In (a, m) (ci_members (CT c)) ->
            (m = MCallable \/ m = MClass (Some true) \/ (m = MProp /\ so_properties o = true)) \/ exists x p, m = MVar x /\ In p (fn_params fn) /\ fp_name p = a /\ so_class_vars o = false).
  { intros a m H. apply Hmi in H as (b & Hb & H).
    destruct (in_dec string_dec a (map fp_name (fn_params fn))) as [Ha|Ha]; [|left; eapply (sp_methods _ _ _ _ Hs); eassumption].
    right. apply in_map_iff in Ha as (p & <- & Hpin).
    destruct (sp_defaults _ _ _ _ Hs b p m Hb Hpin H) as ((x & ->) & Hd). eauto 6. }
  assert (Hdef : forall p m, In p (fn_params fn) -> In (fp_name p, m) (ci_members (CT c)) -> (exists x, m = MVar x) /\ so_class_vars o = false).
  { intros p m Hpin H. apply Hmi in H as (b & Hb & H). exact (sp_defaults _ _ _ _ Hs b p m Hb Hpin H). }
  constructor.
  - now rewrite <- Hci.
  - split; [exact Hfresh|]. rewrite <- Hci. cbn [ci_supers]. intros t Ht. apply in_map_iff in Ht as (i & <- & _). eauto.
  - rewrite <- Hci. exact (sp_attrs _ _ _ _ Hs).
  - intros a H. apply sget_In in H. apply Hcases in H as [[H|[H|[H _]]]|(x & p & H & _)]; discriminate.
  - now rewrite Hnames.
  - intros args Ha. rewrite <- Hci. cbn [ci_init]. apply (sp_call _ _ _ _ Hs). now rewrite Ha, Hnames.
  - intros a Ha Hv. apply in_map_iff in Ha as ((a' & m) & <- & Ha). cbn [fst] in *.
    apply Hcases in Ha as Hc'. destruct Hc' as [Hc'|(x & p & _ & Hpin & <- & _)]; [|rewrite Hnames; now apply in_map].
    exfalso. destruct Hv as (_ & _ & V3 & _ & _ & _ & _ & V8 & V9).
    assert (Hg : sget a' (ci_members (CT c)) = Some m) by (apply sget_NoDup; [rewrite Hmem; apply complete_dict_NoDup|exact Ha]).
    destruct Hc' as [->|[->|[-> Hop]]]; [now apply V8|now apply V9|now apply (V3 Hop)].
  - intros q Hq. apply Hin in Hq as (p & Hpin & (Hqn & Hqd & Hqv & Hqt)).
    destruct (sp_names _ _ _ _ Hs p Hpin) as (N1 & N2 & N3 & N5 & N6).
    destruct (sp_annotated _ _ _ _ Hs p Hpin) as [Hann Hvar].
    rewrite Hqn. split; [|split; [exact N2|split; [|split; [congruence|]]]].
    + split; [exact N1|]. split; [exact N3|]. split; [|split; [|split; [|split; [exact N5|split; [exact N6|split]]]]].
      * intros _ H. destruct (Hdef p _ Hpin H) as ((x & Hx) & _). discriminate.
      * intros Hcv m H. destruct (Hdef p _ Hpin H) as (_ & Hd). congruence.
      * intros [].
      * intros H. apply sget_In in H. destruct (Hdef p _ Hpin H) as ((x & Hx) & _). discriminate.
      * intros H. apply sget_In in H. destruct (Hdef p _ Hpin H) as ((x & Hx) & _). discriminate.
    + intros H. apply sget_In in H. destruct (Hdef p _ Hpin H) as ((x & Hx) & _). discriminate.
    + destruct (fp_ann p) as [x|] eqn:Hx; [|now elim Hann].
      destruct (proj1 (proj2 U fn Hc) p x Hpin Hx) as [u Hu].
      pose proof (implicit_optional_type P (fn_module fn) p x u Hx Hu) as Hi.
      exists (implicit_optional (fp_default p) u). assert (Hpt : param_type P (fn_module fn) p (implicit_optional (fp_default p) u)) by now apply Hi.
      split; [now apply Hqt|]. split; [eapply Hodd; eassumption|].
      unfold attr_hint. destruct (ci_slots (CT c)); [now left|]. destruct (mem_str _ _); [now left|]. right.
      apply Hh. eapply at_param; [exact (sp_type _ _ _ _ Hs)|exact Hc|exact Hpin|reflexivity|exact Hpt].
Qed.
Lemma stores_has_type P E g o c fn attrs : wellformed P -> understood P c -> stores_parameters P o c fn ->
  class_info P c = Ok (e_ct E c) -> fresh_name (e_ct E c) ->
  (forall p t, In p (fn_params fn) -> param_type P (fn_module fn) p t -> ~ odd_name (e_ct E) (Some t)) ->
  map fst attrs = map fp_name (fn_params fn) ->
  (forall p t x, In (p, x) (combine (fn_params fn) (map snd attrs)) -> param_type P (fn_module fn) p t -> has_type E g o t x) ->
  accepts E g (TClass c) (VObj c attrs) -> has_type E g o (TClass c) (VObj c attrs).
Proof.
  intros W U Hs Hci Hfresh Hodd Hn Ht Ha.
  destruct (class_info_ok P c W U) as (ci & Hci' & _ & _ & Hp & _). rewrite Hci in Hci'. injection Hci' as <-.
  specialize (Hp fn (sp_constructor _ _ _ _ Hs)).
  assert (Hnames : map pa_name (ci_params (e_ct E c)) = map fp_name (fn_params fn)).
  { clear - Hp. induction Hp as [|p q l l' (Hq & _) _ IH]; [reflexivity|]. cbn [map]. now rewrite Hq, IH. }
  apply ht_object; [now apply (stores_record P o c fn)|congruence| |exact Ha].
  intros q t x Hin Hq. clear Hn Hnames Ha Hodd Hs. revert Hin Ht. generalize (map snd attrs).
  induction Hp as [|p q' l l' (_ & _ & _ & Hqt) _ IH]; intros xs Hin Ht; [destruct xs; destruct Hin|].
  destruct xs as [|y xs]; [destruct Hin|]. cbn [combine In] in Hin. destruct Hin as [[= -> ->]|Hin].
  - apply (Ht p); [now left|]. now apply Hqt.
  - apply (IH xs Hin). intros p0 t0 x0 H0 H1. apply (Ht p0); [now right|exact H1].
Qed.

(** ** Classes that add nothing *)
Lemma bare_same P s b cb : wellformed P -> understood P b -> bare_subclass P s b -> class_info P b = Ok cb ->
  exists cs, class_info P s = Ok cs /\ ci_params cs = ci_params cb /\ ci_hints cs = ci_hints cb /\ ci_members cs = ci_members cb.
Proof.
  intros W U B Hb. unfold class_info in *.
  assert (Hf : find_init (pr_decl P) (de_mro (pr_decl P s)) = find_init (pr_decl P) (de_mro (pr_decl P b))).
  { rewrite (ba_mro P s b B). cbn [find_init]. now rewrite (ba_init P s b B). }
  assert (Hin : init_hints P s None = init_hints P b None) by (unfold init_hints; now rewrite Hf).
  assert (Hi : hints_of_init P s = hints_of_init P b).
  { unfold hints_of_init. rewrite Hin. destruct (init_hints P b None) as [h|e] eqn:He; [reflexivity|]. exfalso.
    unfold init_hints in He. destruct (find_init (pr_decl P) (de_mro (pr_decl P b))) as [fn|] eqn:Hfn; [|discriminate].
    assert (Hc : constructor P b fn) by now apply constructor_find.
    destruct (func_hints_total P (fn_module fn) fn (proj2 U fn Hc)) as [h Hh]. congruence. }
  assert (Hc : hints_of_class P s = hints_of_class P b).
  { unfold hints_of_class. rewrite (ba_type P s b B), Hin, (ba_mro P s b B). cbn [rev]. rewrite class_hints_app.
    destruct (class_hints P (rev (de_mro (pr_decl P b))) []) as [h|e]; [|reflexivity].
    cbn [rbind class_hints]. rewrite (ba_ann P s b B). reflexivity. }
  rewrite Hi, Hc. destruct (hints_of_init P b) as [hi|]; [|discriminate]. cbn [rbind] in *.
  destruct (hints_of_class P b) as [hc|]; [|discriminate]. cbn [rbind] in *. injection Hb as <-.
  eexists. split; [reflexivity|]. cbn [ci_params ci_hints ci_members]. split; [|split; [reflexivity|]].
  - f_equal. unfold signature_of. now rewrite Hf.
  - rewrite (ba_mro P s b B). unfold complete_dict. cbn [rev]. rewrite fold_update_app. cbn [fold_left].
    now rewrite (ba_dict P s b B).
Qed.

(** ** Other spellings *)
Lemma same_meaning_eval P P' sc sc' x x' t : same_meaning P P' sc sc' x x' -> eval_ann P sc x = Ok t -> eval_ann P' sc' x' = Ok t.
Proof. intros H. rewrite !eval_ann_means. apply H. Qed.
Lemma respelled_anns P P' sc sc' l l' ts :
  Forall2 (fun ax ax' => fst ax = fst ax' /\ same_meaning P P' sc sc' (snd ax) (snd ax')) l l' ->
  eval_anns P sc l = Ok ts -> eval_anns P' sc' l' = Ok ts.
Proof.
  intros H. revert ts. induction H as [|[a x] [a' x'] l l' [Ha Hx] _ IH]; intros ts Ht; [exact Ht|].
  cbn [eval_anns fst snd] in *. subst a'. destruct (eval_ann P sc x) as [t|] eqn:He; [|discriminate].
  apply (same_meaning_eval P P' sc sc' x x' t Hx) in He. rewrite He. cbn [rbind] in *.
  destruct (eval_anns P sc l) as [ts'|]; [|discriminate]. rewrite (IH ts' eq_refl). exact Ht.
Qed.
Lemma respelled_func_hints P P' fn fn' h : respelled_func P P' fn fn' ->
  func_hints P (fn_module fn) fn = Ok h -> func_hints P' (fn_module fn') fn' = Ok h.
Proof.
  intros (Hm & Hp & Hr). unfold func_hints.
  change [pr_module P (fn_module fn); pr_builtin P] with (signature_scopes P (fn_module fn)).
  change [pr_module P' (fn_module fn'); pr_builtin P'] with (signature_scopes P' (fn_module fn')). rewrite <- Hm.
  assert (G : forall ts, params_hints P (signature_scopes P (fn_module fn)) (fn_params fn) = Ok ts ->
                         params_hints P' (signature_scopes P' (fn_module fn)) (fn_params fn') = Ok ts).
  { clear Hr. induction Hp as [|p p' l l' (H1 & H2 & H3 & H4) _ IH]; intros ts Ht; [exact Ht|].
    cbn [params_hints] in *. rewrite <- H1, <- H2. destruct (fp_ann p) as [x|], (fp_ann p') as [x'|]; try contradiction; [|auto].
    destruct (eval_ann P _ x) as [t|] eqn:He; [|discriminate].
    apply (same_meaning_eval P P' _ _ x x' t H4) in He. rewrite He. cbn [rbind] in *.
    destruct (params_hints P _ l) as [ts'|]; [|discriminate]. rewrite (IH ts' eq_refl). exact Ht. }
  intros H. destruct (params_hints P _ _) as [ts|]; [|discriminate]. rewrite (G ts eq_refl). cbn [rbind] in *.
  destruct (fn_returns fn) as [x|], (fn_returns fn') as [x'|]; try contradiction; [|exact H].
  destruct (eval_ann P _ x) as [t|] eqn:He; [|discriminate]. apply (same_meaning_eval P P' _ _ x x' t Hr) in He. rewrite He. exact H.
Qed.
Lemma respelled_same P P' c : respelled P P' -> understood P c -> class_info P' c = class_info P c.
Proof.
  intros R [Ub Ui]. destruct (re_same P P' R c) as (E1 & E2 & E3 & E4 & E5 & E6 & E7 & E8 & E9 & E10 & E11).
  assert (Hfind : forall mro, match find_init (pr_decl P) mro, find_init (pr_decl P') mro with
            | None, None => True | Some fn, Some fn' => respelled_func P P' fn fn' | _, _ => False end).
  { induction mro as [|b mro IH]; [exact I|]. cbn [find_init]. pose proof (re_init P P' R b) as Hi.
    destruct (de_init (pr_decl P b)), (de_init (pr_decl P' b)); try contradiction; [exact Hi|exact IH]. }
  specialize (Hfind (de_mro (pr_decl P c))).
  assert (Hin : exists h, init_hints P c None = Ok h /\ init_hints P' c None = Ok h).
  { unfold init_hints. rewrite <- E3. destruct (find_init (pr_decl P) _) as [fn|] eqn:Hf, (find_init (pr_decl P') _) as [fn'|]; try contradiction.
    - assert (Hc : constructor P c fn) by now apply constructor_find.
      destruct (func_hints_total P (fn_module fn) fn (Ui fn Hc)) as [h Hh]. exists h. split; [exact Hh|].
      eapply respelled_func_hints; eassumption.
    - exists []. split; reflexivity. }
  destruct Hin as (hi & Hh1 & Hh2).
  destruct (class_hints_total P (de_mro (pr_decl P c))) as [h0 Hh0]; [intros b a x Hb Hx; eapply Ub; eassumption|].
  assert (Hh0' : forall bs hs h, class_hints P bs hs = Ok h -> class_hints P' bs hs = Ok h).
  { induction bs as [|b bs IH]; intros hs h H; [exact H|]. cbn [class_hints] in *.
    destruct (eval_anns P _ _) as [ts|] eqn:Ht; [|discriminate].
    apply (respelled_anns P P' _ (class_scopes P' (pr_decl P' b)) _ (de_ann (pr_decl P' b))) in Ht; [|apply (re_ann P P' R)].
    rewrite Ht. cbn [rbind] in *. now apply IH. }
  assert (Hsig : forall h, map (typed_param h) (signature_of P' c) = map (typed_param h) (signature_of P c)).
  { intros h. unfold signature_of. rewrite <- E3.
    destruct (find_init (pr_decl P) _) as [fn|], (find_init (pr_decl P') _) as [fn'|]; try contradiction; [|reflexivity].
    destruct Hfind as (_ & Hp & _). clear - Hp. induction Hp as [|p p' l l' (H1 & H2 & H3 & _) _ IH]; [reflexivity|].
    cbn [map]. rewrite IH. unfold typed_param. now rewrite H1, H2, H3. }
  assert (Hd : forall bs d, fold_left (fun d b => update d (de_dict (pr_decl P' b))) bs d =
                            fold_left (fun d b => update d (de_dict (pr_decl P b))) bs d).
  { induction bs as [|b bs IH]; intros d; [reflexivity|]. cbn [fold_left]. rewrite IH.
    destruct (re_same P P' R b) as (_ & _ & _ & _ & _ & Hdb & _). now rewrite Hdb. }
  unfold class_info, hints_of_init, hints_of_class. rewrite Hh1, Hh2. cbn [rbind].
  rewrite <- E3, Hh0, (Hh0' _ _ _ Hh0). cbn [rbind]. rewrite <- E4.
  destruct (de_type (pr_decl P c)); cbn [rbind]; rewrite <- E1, <- E2, <- E5, <- E7, <- E8, <- E9, <- E10, <- E11, Hsig;
    unfold complete_dict; now rewrite Hd.
Qed.

(** ** Classes without a constructor *)
Lemma no_constructor_params P c ci : (forall fn, ~ constructor P c fn) -> class_info P c = Ok ci ->
  ci_params ci = [mkParam "args" None None true; mkParam "kwargs" None None true] /\ ci_init ci = de_call (pr_decl P c).
Proof.
  intros Hn Hc.
  assert (Hf : find_init (pr_decl P) (de_mro (pr_decl P c)) = None).
  { destruct (find_init (pr_decl P) (de_mro (pr_decl P c))) as [fn|] eqn:Q; [|reflexivity].
    exfalso. apply (Hn fn). now apply constructor_find. }
  unfold class_info, hints_of_init, init_hints, signature_of in Hc. rewrite Hf in Hc.
  cbn [rbind] in Hc. apply rbind_ok in Hc as (hc & _ & Hc). injection Hc as <-. split; reflexivity.
Qed.
