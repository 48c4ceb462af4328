(** * The caches of annotations: proofs *)
From Verif Require Import PyBaseFacts DumpLaws.
From Verif Require Import CacheModel LoadHints.
Local Close Scope Z_scope.
Local Open Scope string_scope.

Definition written (ci : cinfo) : hdict := map (fun at_ => (fst at_, Some (snd at_))) (ci_hints ci).
Definition blanked (l : list string) (d : hdict) : hdict := fold_left (fun d a => sset a None d) l d.
Definition all_members (ci : cinfo) : list string := (class_props (ci_members ci) ++ other_class_vars (ci_members ci))%list.

Lemma sset_id a (d : hdict) : sget a d = Some None -> sset a None d = d.
Proof.
  unfold sget, sset. induction d as [|[b x] d IH]; [discriminate|]. cbn [aget aset].
  destruct (String.eqb a b) eqn:Hab; [|intros H; now rewrite IH].
  intros H. injection H as ->. reflexivity.
Qed.
Lemma blanked_get l : forall d a, In a l -> sget a (blanked l d) = Some None.
Proof.
  assert (G : forall l d a, sget a d = Some None -> sget a (blanked l d) = Some None).
  { induction l0 as [|b l0 IH]; intros d a H; [exact H|]. cbn [blanked fold_left]. apply IH.
    destruct (String.eqb_spec a b) as [->|Hn]; [apply sget_sset_same|now rewrite sget_sset_other]. }
  induction l as [|b l IH]; intros d a []; [|now apply IH]. subst b. cbn [blanked fold_left]. apply G, sget_sset_same.
Qed.
Lemma blanked_id l : forall d, (forall a, In a l -> sget a d = Some None) -> blanked l d = d.
Proof.
  induction l as [|b l IH]; intros d H; [reflexivity|]. cbn [blanked fold_left]. rewrite sset_id by (apply H; now left).
  apply IH. intros a Ha. apply H. now right.
Qed.
Lemma blanked_twice l d : blanked l (blanked l d) = blanked l d.
Proof. apply blanked_id. intros a. apply blanked_get. Qed.
(** What load makes of it *)
Lemma annotated_written ci : annotated (written ci) = ci_hints ci.
Proof. unfold annotated, written. induction (ci_hints ci) as [|[a t] l IH]; [reflexivity|]. cbn. now rewrite IH. Qed.
Lemma annotated_sset_other a b d : a <> b -> sget a (annotated (sset b None d)) = sget a (annotated d).
Proof.
  intros Hn. apply String.eqb_neq in Hn. unfold sset, sget, annotated.
  induction d as [|[k x] d IH]; [reflexivity|]. cbn [aset]. destruct (String.eqb_spec b k) as [->|Hk].
  - cbn. destruct x as [t|]; [|reflexivity]. cbn. now rewrite Hn.
  - cbn [flat_map fst snd]. destruct x as [t|]; cbn [app aget]; [|exact IH]. now rewrite IH.
Qed.
Lemma annotated_sset_none a d : sget a (annotated d) = None -> sget a (annotated (sset a None d)) = None.
Proof.
  unfold sset, sget, annotated. induction d as [|[k x] d IH]; [reflexivity|]. cbn [aset flat_map fst snd].
  destruct x as [t|]; cbn [app aget].
  - destruct (String.eqb_spec a k) as [->|Hk]; [discriminate|]. intros H. cbn [flat_map fst snd app aget].
    apply String.eqb_neq in Hk. rewrite Hk. now apply IH.
  - destruct (String.eqb a k); intros H; [exact H|now apply IH].
Qed.
Lemma annotated_blanked a l : forall d, ~ In a l -> sget a (annotated (blanked l d)) = sget a (annotated d).
Proof.
  induction l as [|b l IH]; intros d Hn; [reflexivity|]. cbn [blanked fold_left]. rewrite <- (annotated_sset_other a b d).
  - apply IH. intros H. apply Hn. now right.
  - intros ->. apply Hn. now left.
Qed.
Lemma annotated_blanked_none a l : forall d, sget a (annotated d) = None -> sget a (annotated (blanked l d)) = None.
Proof.
  induction l as [|b l IH]; intros d H; [exact H|]. cbn [blanked fold_left]. apply IH.
  destruct (String.eqb_spec a b) as [<-|Hn]; [now apply annotated_sset_none|now rewrite annotated_sset_other].
Qed.

(** ** The heap *)
Lemma set_nth_length {X} (x : X) l : forall n, length (set_nth n x l) = length l.
Proof. induction l as [|y l IH]; intros [|n]; cbn; auto. Qed.
Lemma set_nth_same {X} (x : X) d l : forall n, n < length l -> nth n (set_nth n x l) d = x.
Proof. induction l as [|y l IH]; intros [|n] H; cbn in *; try lia; auto. apply IH. lia. Qed.
Lemma set_nth_other {X} (x : X) d l : forall n m, n <> m -> nth m (set_nth n x l) d = nth m l d.
Proof. induction l as [|y l IH]; intros [|n] [|m] H; cbn; auto; try lia. Qed.

Section Proofs.
Variable CT : classes.
(** Every dict in a cache belongs to one class; it has the annotations as they were written,
    or those that remain; the attributes are always complete. *)
Definition inv (st : hcache) : Prop := exists own : nat -> nat,
  (forall c r, hc_hints st c = Some r -> r < length (hc_heap st) /\ own r = c /\
     (deref st r = written (CT c) \/ (ci_slots (CT c) = None /\ deref st r = attrs_and_types (CT c)))) /\
  (forall s c r, hc_attrs st s c = Some r -> r < length (hc_heap st) /\ own r = c /\ deref st r = attrs_and_types (CT c)).
Lemma inv_empty : inv empty_cache.
Proof. exists (fun _ => 0). split; discriminate. Qed.
Lemma deref_alloc d st r : r < length (hc_heap st) -> deref (snd (alloc d st)) r = deref st r.
Proof. intros H. unfold deref, alloc. cbn. now rewrite app_nth1. Qed.
Lemma deref_new d st : deref (snd (alloc d st)) (fst (alloc d st)) = d.
Proof. unfold deref, alloc. cbn. rewrite app_nth2, Nat.sub_diag by lia. reflexivity. Qed.
(** [own] after a dict was made for class [c] *)
Definition own_new (own : nat -> nat) (n c r : nat) : nat := if Nat.eqb r n then c else own r.
Lemma own_old own n c r : r < n -> own_new own n c r = own r.
Proof. intros H. unfold own_new. destruct (Nat.eqb_spec r n); [lia|reflexivity]. Qed.

Lemma get_hints_inv c st : inv st -> inv (snd (get_hints CT c st)) /\
  hc_hints (snd (get_hints CT c st)) c = Some (fst (get_hints CT c st)) /\
  hc_attrs (snd (get_hints CT c st)) = hc_attrs st.
Proof.
  intros (own & Hh & Ha). unfold get_hints. destruct (hc_hints st c) as [r|] eqn:Hc.
  { cbn. split; [exists own; auto|auto]. }
  cbn [alloc fst snd put_hints hc_hints hc_attrs]. rewrite Nat.eqb_refl. split; [|auto].
  exists (own_new own (length (hc_heap st)) c). cbn [put_hints hc_hints hc_attrs hc_heap]. rewrite app_length. cbn [length]. split.
  - intros c' r. destruct (Nat.eqb_spec c' c) as [->|Hn].
    + intros H. injection H as <-. split; [lia|]. split; [unfold own_new; now rewrite Nat.eqb_refl|]. left.
      exact (deref_new (written (CT c)) st).
    + intros H. destruct (Hh c' r H) as (Hr & Ho & Hd). split; [lia|]. rewrite own_old by exact Hr. split; [exact Ho|].
      unfold deref in *. cbn [put_hints hc_heap]. rewrite app_nth1 by exact Hr. exact Hd.
  - intros s c' r H. destruct (Ha s c' r H) as (Hr & Ho & Hd). split; [lia|]. rewrite own_old by exact Hr. split; [exact Ho|].
    unfold deref in *. cbn [put_hints hc_heap]. rewrite app_nth1 by exact Hr. exact Hd.
Qed.
(** Writing the attributes of class [c] into one of its dicts *)
Lemma store_inv st s c r : r < length (hc_heap st) ->
  (exists own, own r = c /\
    (forall c' r', hc_hints st c' = Some r' -> r' < length (hc_heap st) /\ own r' = c' /\
      (deref st r' = written (CT c') \/ (ci_slots (CT c') = None /\ deref st r' = attrs_and_types (CT c')))) /\
    (forall s' c' r', hc_attrs st s' c' = Some r' -> r' < length (hc_heap st) /\ own r' = c' /\ deref st r' = attrs_and_types (CT c'))) ->
  (hc_hints st c = Some r -> ci_slots (CT c) = None) ->
  inv (put_attrs s c (Some r) (store r (attrs_and_types (CT c)) st)).
Proof.
  intros Hr (own & Hc & Hh & Ha) Hs. exists own. unfold deref in *. cbn [put_attrs store hc_hints hc_attrs hc_heap]. rewrite set_nth_length. split.
  - intros c' r' H. destruct (Hh c' r' H) as (Hr' & Ho & Hd). split; [exact Hr'|]. split; [exact Ho|].
    destruct (Nat.eq_dec r r') as [<-|Hn].
    + assert (Heq : c' = c) by congruence. rewrite Heq in *. right. split; [now apply Hs|]. now apply set_nth_same.
    + rewrite set_nth_other by exact Hn. exact Hd.
  - intros s' c' r'. destruct (Bool.eqb s' s && Nat.eqb c' c) eqn:Hk.
    + intros H. injection H as <-. apply andb_true_iff in Hk as [_ Hk]. apply Nat.eqb_eq in Hk as ->.
      split; [exact Hr|]. split; [exact Hc|]. now apply set_nth_same.
    + intros H. destruct (Ha s' c' r' H) as (Hr' & Ho & Hd). split; [exact Hr'|]. split; [exact Ho|].
      destruct (Nat.eq_dec r r') as [<-|Hn].
      * assert (Heq : c' = c) by congruence. rewrite Heq in *. now apply set_nth_same.
      * rewrite set_nth_other by exact Hn. exact Hd.
Qed.
Lemma get_attrs_inv s c st : inv st -> inv (snd (get_attrs CT s c st)) /\
  deref (snd (get_attrs CT s c st)) (fst (get_attrs CT s c st)) = attrs_and_types (CT c).
Proof.
  intros Hi. unfold get_attrs. destruct (hc_attrs st s c) as [r|] eqn:Hc.
  { split; [exact Hi|]. destruct Hi as (own & _ & Ha). now apply (Ha s c r). }
  destruct (ci_slots (CT c)) as [l|] eqn:Hs.
  - destruct Hi as (own & Hh & Ha). set (d0 := map (fun a => (a, None)) l).
    pose proof (deref_new d0 st) as Hd. cbn [alloc fst snd] in *. rewrite Hd.
    set (st1 := mkHcache (hc_heap st ++ [d0]) (hc_hints st) (hc_attrs st)) in *.
    assert (Hlen : length (hc_heap st) < length (hc_heap st1)) by (cbn; rewrite app_length; cbn; lia).
    assert (Heq : fold_left (fun d a => sset a None d) (class_props (ci_members (CT c)) ++ other_class_vars (ci_members (CT c)))%list d0
                  = attrs_and_types (CT c)) by (unfold attrs_and_types; now rewrite Hs).
    rewrite Heq. split; [|unfold deref; cbn [put_attrs store hc_heap]; now apply set_nth_same].
    apply store_inv; auto.
    + exists (own_new own (length (hc_heap st)) c). split; [unfold own_new; now rewrite Nat.eqb_refl|]. split.
      * intros c' r H. destruct (Hh c' r H) as (Hr & Ho & Hx). split; [exact (Nat.lt_trans _ _ _ Hr Hlen)|]. rewrite own_old by exact Hr. split; [exact Ho|].
        unfold deref in *. cbn [hc_heap st1]. rewrite app_nth1 by exact Hr. exact Hx.
      * intros s' c' r H. destruct (Ha s' c' r H) as (Hr & Ho & Hx). split; [exact (Nat.lt_trans _ _ _ Hr Hlen)|]. rewrite own_old by exact Hr. split; [exact Ho|].
        unfold deref in *. cbn [hc_heap st1]. rewrite app_nth1 by exact Hr. exact Hx.
    + intros H. destruct (Hh c _ H) as (Hr & _). lia.
  - destruct (get_hints_inv c st Hi) as (Hi1 & Hc1 & _). destruct (get_hints CT c st) as [r st1]. cbn [fst snd] in *.
    destruct Hi1 as (own & Hh & Ha). destruct (Hh c r Hc1) as (Hr & Ho & Hd).
    assert (Heq : fold_left (fun d a => sset a None d) (class_props (ci_members (CT c)) ++ other_class_vars (ci_members (CT c)))%list (deref st1 r)
                  = attrs_and_types (CT c)).
    { destruct Hd as [-> |[_ ->]]; unfold attrs_and_types; rewrite Hs; [reflexivity|]. apply blanked_twice. }
    rewrite Heq. split; [|unfold deref; cbn [put_attrs store hc_heap]; now apply set_nth_same].
    apply store_inv; auto. exists own. auto.
Qed.
Lemma cstep_inv e st : inv st -> inv (cstep CT e st).
Proof.
  destruct e as [s c|c|c|s c|]; cbn [cstep]; intros Hi.
  - now apply get_attrs_inv.
  - now apply get_hints_inv.
  - destruct Hi as (own & Hh & Ha). exists own. split; [|exact Ha]. intros c' r. cbn [put_hints hc_hints].
    destruct (Nat.eqb c' c); [discriminate|apply Hh].
  - destruct Hi as (own & Hh & Ha). exists own. split; [exact Hh|]. intros s' c' r. cbn [put_attrs hc_attrs].
    destruct (Bool.eqb s' s && Nat.eqb c' c); [discriminate|apply Ha].
  - exists (fun _ => 0). split; discriminate.
Qed.
Lemma crun_inv l : forall st, inv st -> inv (crun CT l st).
Proof. induction l as [|e l IH]; intros st Hi; [exact Hi|]. apply IH. now apply cstep_inv. Qed.
Lemma ccall_inv k st : inv st -> inv (ccall CT k st).
Proof. destruct k; cbn [ccall]; intros Hi; [apply cstep_inv|]; now apply crun_inv. Qed.
Lemma ccalls_inv l : forall st, inv st -> inv (ccalls CT l st).
Proof. induction l as [|k l IH]; intros st Hi; [exact Hi|]. apply IH. now apply ccall_inv. Qed.

(** ** States in which load sees everything *)
Definition fresh (st : hcache) : Prop := forall c r, hc_hints st c = Some r -> r < length (hc_heap st) /\ deref st r = written (CT c).
Lemma fresh_empty st : (forall c, hc_hints st c = None) -> fresh st.
Proof. intros H c r Hc. now rewrite H in Hc. Qed.
Lemma fresh_hints c st : fresh st -> fresh (snd (get_hints CT c st)) /\
  deref (snd (get_hints CT c st)) (fst (get_hints CT c st)) = written (CT c).
Proof.
  intros Hf. unfold get_hints. destruct (hc_hints st c) as [r|] eqn:Hc; [split; [exact Hf|now apply Hf]|].
  cbn [alloc fst snd]. split; [|exact (deref_new (written (CT c)) st)].
  intros c' r. cbn [put_hints hc_hints hc_heap]. rewrite app_length. cbn [length]. destruct (Nat.eqb_spec c' c) as [->|Hn].
  - intros H. injection H as <-. split; [lia|]. exact (deref_new (written (CT c)) st).
  - intros H. destruct (Hf c' r H) as (Hr & Hd). split; [lia|]. unfold deref in *. cbn [put_hints hc_heap]. now rewrite app_nth1.
Qed.
Lemma seen_fresh st c : fresh st -> seen_hints CT st c = ci_hints (CT c).
Proof.
  intros Hf. destruct (fresh_hints c st Hf) as [_ Hd]. unfold seen_hints. destruct (get_hints CT c st) as [r st1].
  cbn [fst snd] in Hd. rewrite Hd. apply annotated_written.
Qed.
(** Whatever the state, load sees what was written for all names besides those of members. *)
Lemma seen_inv st c a : inv st -> (In a (map fst (ci_members (CT c))) -> sget a (ci_hints (CT c)) = None) ->
  sget a (seen_hints CT st c) = sget a (ci_hints (CT c)).
Proof.
  intros Hi Hm. destruct (get_hints_inv c st Hi) as (Hi1 & Hc & _). unfold seen_hints. destruct (get_hints CT c st) as [r st1].
  cbn [fst snd] in *. destruct Hi1 as (own & Hh & _). destruct (Hh c r Hc) as (_ & _ & [-> |[Hs ->]]); [now rewrite annotated_written|].
  unfold attrs_and_types. rewrite Hs. change (map _ (ci_hints (CT c))) with (written (CT c)).
  change (fold_left _ _ _) with (blanked (class_props (ci_members (CT c)) ++ other_class_vars (ci_members (CT c)))%list (written (CT c))).
  destruct (in_dec string_dec a (class_props (ci_members (CT c)) ++ other_class_vars (ci_members (CT c)))%list) as [Hin|Hn].
  - assert (Hmem : In a (map fst (ci_members (CT c)))).
    { apply in_app_or in Hin. unfold class_props, other_class_vars in Hin.
      destruct Hin as [Hin|Hin]; apply in_map_iff in Hin as (x & <- & Hx); apply filter_In in Hx as [Hx _]; now apply in_map. }
    rewrite (Hm Hmem). apply annotated_blanked_none. rewrite annotated_written. auto.
  - rewrite annotated_blanked by exact Hn. now rewrite annotated_written.
Qed.
End Proofs.
