(** * Proofs about the registries *)
From Verif Require Import PyBase PyBaseFacts RegistryModel RegistrySpec.

(** ** Tables refine lists of registrations *)

Definition somes (l : list (option cls)) : list cls :=
  flat_map (fun o => match o with Some c => [c] | None => [] end) l.

Lemma somes_app a b : somes (a ++ b) = somes a ++ somes b.
Proof. apply flat_map_app. Qed.

Record tab (W : world) (t : table) (regs : list reg) : Prop := mkTab {
  tab_map : forall n, sget n (t_map t) = latest W regs n;
  tab_cls : somes (t_classes t) = priority regs }.

Lemma latest_snoc W regs r n :
  latest W (regs ++ [r]) n =
  if String.eqb n (reg_name W r) then Some (rg_fn r) else latest W regs n.
Proof.
  unfold latest. rewrite rev_app_distr. simpl. now destruct (String.eqb n (reg_name W r)).
Qed.

Lemma sget_sset {V} k k' (v : V) d :
  sget k (sset k' v d) = if String.eqb k k' then Some v else sget k d.
Proof.
  destruct (String.eqb_spec k k') as [->|Hne]; [apply sget_sset_same | now apply sget_sset_other].
Qed.

Lemma filter_snoc {X} (p : X -> bool) l x :
  filter p (l ++ [x]) = filter p l ++ (if p x then [x] else []).
Proof. rewrite filter_app. simpl. now destruct (p x). Qed.

Lemma classes_of_app a b : classes_of (a ++ b) = classes_of a ++ classes_of b.
Proof. apply flat_map_app. Qed.

Lemma priority_snoc regs r :
  priority (regs ++ [r]) =
  match rg_cls r with
  | None => priority regs
  | Some c => if rg_high r then c :: priority regs else priority regs ++ [c]
  end.
Proof.
  unfold priority. rewrite !filter_snoc. destruct r as [[c|] [|] g]; simpl;
    rewrite ?app_nil_r, ?classes_of_app; simpl; rewrite ?app_nil_r, ?rev_app_distr; simpl;
    rewrite ?app_assoc; reflexivity.
Qed.

Lemma insert_at_0 {X} (x : X) l : insert_at 0 x l = x :: l.
Proof. reflexivity. Qed.
Lemma insert_at_end {X} (x : X) l : insert_at (length l) x l = l ++ [x].
Proof. unfold insert_at. now rewrite firstn_all, skipn_all. Qed.

Lemma tab_set_one W t regs g hi a :
  tab W t regs -> tab W (set_one W g hi a t) (regs ++ [mkReg a hi g]).
Proof.
  intros [Hm Hc]. destruct a as [c|]; simpl; split; simpl.
  - intros n. rewrite latest_snoc, sget_sset, Hm. reflexivity.
  - rewrite priority_snoc. simpl. destruct hi; simpl.
    + now rewrite Hc.
    + rewrite insert_at_end, somes_app, Hc. reflexivity.
  - intros n. rewrite latest_snoc, sget_sset, Hm. reflexivity.
  - rewrite priority_snoc. simpl. exact Hc.
Qed.

Lemma tab_set_val_one W t regs g a :
  tab W t regs -> tab W (set_val_one W g a t) (regs ++ [mkReg a false g]).
Proof.
  intros [Hm Hc]. split; simpl.
  - intros n. rewrite latest_snoc, sget_sset, Hm. destruct a; reflexivity.
  - rewrite priority_snoc, somes_app, Hc. simpl. destruct a as [c|]; simpl; [reflexivity|].
    apply app_nil_r.
Qed.

Lemma set_each_fold (one : option cls -> table -> table) : forall (a : clsarg) (t : table),
  set_each one a t = fold_left (fun t c => one c t) (targets a) t.
Proof.
  fix IH 1. intros [c| |l] t; [reflexivity|reflexivity|].
  cbn [set_each targets]. revert t. induction l as [|x l IHl]; intros t; [reflexivity|].
  cbn [flat_map]. rewrite fold_left_app, <- IH. apply IHl.
Qed.

Lemma tab_set_each W (one : option cls -> table -> table) hi g a t regs :
  (forall c t regs, tab W t regs -> tab W (one c t) (regs ++ [mkReg c hi g])) ->
  tab W t regs -> tab W (set_each one a t) (regs ++ regs_of_arg a hi g).
Proof.
  intros Hone. rewrite set_each_fold. unfold regs_of_arg. generalize (targets a). intros l.
  revert t regs; induction l as [|c l IH]; intros t regs H; simpl; [now rewrite app_nil_r|].
  replace (regs ++ mkReg c hi g :: map (fun c => mkReg c hi g) l)
    with ((regs ++ [mkReg c hi g]) ++ map (fun c => mkReg c hi g) l)
    by now rewrite <- app_assoc.
  apply IH, Hone, H.
Qed.

Lemma tab_empty W : tab W (mkTable [] []) [].
Proof. split; reflexivity. Qed.

(** ** Lookup *)
Lemma find_somes p l :
  find p (somes l) =
  match filter (fun o => match o with Some c => p c | None => false end) l with
  | Some c :: _ => Some c
  | _ => None
  end.
Proof.
  induction l as [|[c|] l IH]; simpl; [reflexivity| |exact IH].
  destruct (p c); [reflexivity|exact IH].
Qed.

Lemma filter_head_some p l :
  match filter (fun o : option cls => match o with Some c => p c | None => false end) l with
  | None :: _ => False
  | _ => True
  end.
Proof.
  induction l as [|[c|] l IH]; simpl; [exact I| |exact IH]. now destruct (p c).
Qed.

Lemma classes_of_In regs c : In c (classes_of regs) -> exists r, In r regs /\ rg_cls r = Some c.
Proof.
  unfold classes_of. rewrite in_flat_map. intros [r [Hr Hc]]. exists r. split; [assumption|].
  destruct (rg_cls r) as [c'|]; simpl in Hc; [|contradiction]. destruct Hc as [->|[]]. reflexivity.
Qed.

Lemma priority_In regs c : In c (priority regs) -> exists r, In r regs /\ rg_cls r = Some c.
Proof.
  unfold priority. rewrite in_app_iff, <- in_rev. intros [H|H];
    apply classes_of_In in H as [r [Hr Hc]]; apply filter_In in Hr as [Hr _]; eauto.
Qed.

Lemma latest_registered W regs r : In r regs -> exists g, latest W regs (reg_name W r) = Some g.
Proof.
  intros H. unfold latest. destruct (find _ (rev regs)) as [r'|] eqn:E; [eauto|].
  exfalso. eapply find_none in E; [|apply -> in_rev; exact H].
  now rewrite String.eqb_refl in E.
Qed.

Lemma get_lizer_flat_correct W t regs c :
  tab W t regs -> get_lizer_flat W c t = Ok (handler W regs c).
Proof.
  intros [Hm Hc]. unfold get_lizer_flat, handler, lname. rewrite Hm.
  destruct (latest W regs (slower (w_name W c))) as [g|]; [reflexivity|].
  unfold get_lizer_by_parents, get_parents, first_ancestor. rewrite <- Hc, find_somes.
  pose proof (filter_head_some (w_sub W c) (t_classes t)) as Hh.
  destruct (filter _ (t_classes t)) as [|[p|] r] eqn:E; [reflexivity| |contradiction].
  unfold lname. rewrite Hm.
  assert (Hin : In p (priority regs)).
  { rewrite <- Hc. unfold somes. apply in_flat_map. exists (Some p). split; [|now left].
    eapply proj1. apply filter_In. rewrite E. now left. }
  apply priority_In in Hin as [r0 [Hr0 Hrc]].
  destruct (latest_registered W regs r0 Hr0) as [g Hg].
  unfold reg_name in Hg. rewrite Hrc in Hg. now rewrite Hg.
Qed.

Lemma get_lizer_correct W t regs c : tab W t regs -> get_lizer W c t = Ok (lookup W regs c).
Proof.
  intros H. unfold get_lizer, lookup. rewrite (get_lizer_flat_correct _ _ _ _ H). simpl.
  destruct (handler W regs c) as [g|]; [reflexivity|].
  destruct (w_super W c) as [s|]; [|reflexivity]. now rewrite (get_lizer_flat_correct _ _ _ _ H).
Qed.

(** ** Class table *)
Lemma upd_class_length f g cs : length (upd_class f g cs) = length cs.
Proof. induction cs as [|c r IH]; simpl; [reflexivity|]. destruct (Nat.eqb f (length r)); simpl; auto. Qed.

Lemma resolve_out {X} (sel : pyclass -> option X) cs f : length cs <= f -> resolve sel cs f = None.
Proof.
  induction cs as [|c r IH]; simpl; intros H; [reflexivity|].
  destruct (Nat.eqb_spec f (length r)); [lia|]. apply IH. lia.
Qed.

Lemma resolve_push_old {X} (sel : pyclass -> option X) c cs f :
  f < length cs -> resolve sel (c :: cs) f = resolve sel cs f.
Proof. intros H. simpl. destruct (Nat.eqb_spec f (length cs)); [lia|reflexivity]. Qed.

Lemma resolve_push_new {X} (sel : pyclass -> option X) c cs :
  resolve sel (c :: cs) (length cs) =
  match sel c with
  | Some x => Some x
  | None => match p_parent c with Some p => resolve sel cs p | None => None end
  end.
Proof. simpl. now rewrite Nat.eqb_refl. Qed.

Lemma resolve_upd_same {X} (sel : pyclass -> option X) f g cs x :
  (forall c, p_parent (g c) = p_parent c) -> (forall c, sel (g c) = sel c) ->
  resolve sel (upd_class f g cs) x = resolve sel cs x.
Proof.
  intros Hp Hs. revert x; induction cs as [|c r IH]; intros x; simpl; [reflexivity|].
  destruct (Nat.eqb f (length r)); simpl.
  - now rewrite Hp, Hs.
  - rewrite upd_class_length. destruct (Nat.eqb x (length r)); [|apply IH].
    destruct (sel c); [reflexivity|]. destruct (p_parent c); [apply IH|reflexivity].
Qed.

(** Binding an attribute to the value it already resolves to changes nothing. *)
Lemma resolve_upd_bind {X} (sel : pyclass -> option X) f g cs v x :
  (forall c, p_parent (g c) = p_parent c) -> (forall c, sel (g c) = Some v) ->
  resolve sel cs f = Some v ->
  resolve sel (upd_class f g cs) x = resolve sel cs x.
Proof.
  intros Hp Hs. revert x; induction cs as [|c r IH]; intros x; simpl; [reflexivity|].
  destruct (Nat.eqb_spec f (length r)) as [->|Hne]; simpl.
  - intros Hv. rewrite Hp, Hs. destruct (Nat.eqb x (length r)); [|reflexivity].
    destruct (sel c); now rewrite Hv.
  - intros Hv. rewrite upd_class_length. destruct (Nat.eqb x (length r)); [|now apply IH].
    destruct (sel c); [reflexivity|]. destruct (p_parent c); [now apply IH|reflexivity].
Qed.

Lemma resolve_upd_some {X} (sel : pyclass -> option X) f g cs x :
  (forall c, p_parent (g c) = p_parent c) -> (forall c, sel (g c) <> None) ->
  resolve sel cs x <> None -> resolve sel (upd_class f g cs) x <> None.
Proof.
  intros Hp Hs. revert x; induction cs as [|c r IH]; intros x; simpl; [auto|].
  destruct (Nat.eqb_spec f (length r)) as [->|Hne]; simpl.
  - specialize (Hs c). destruct (Nat.eqb x (length r)); [|auto].
    intros _. destruct (sel (g c)); congruence.
  - rewrite upd_class_length. destruct (Nat.eqb x (length r)); [|apply IH].
    destruct (sel c); [auto|]. destruct (p_parent c); [apply IH|auto].
Qed.

Lemma upd_nth_length {X} i (g : X -> X) l : length (upd_nth i g l) = length l.
Proof. revert i; induction l as [|x l IH]; intros [|i]; simpl; auto. Qed.
Lemma upd_nth_same {X} i (g : X -> X) l x :
  nth_error l i = Some x -> nth_error (upd_nth i g l) i = Some (g x).
Proof. revert i; induction l as [|y l IH]; intros [|i]; simpl; try discriminate; [now intros [= ->]|apply IH]. Qed.
Lemma upd_nth_other {X} i j (g : X -> X) l : i <> j -> nth_error (upd_nth i g l) j = nth_error l j.
Proof. revert i j; induction l as [|y l IH]; intros [|i] [|j] H; simpl; auto; try lia. Qed.

Lemma upd_eq {X} (f : nat -> X) k v : upd f k v k = v.
Proof. unfold upd. now rewrite Nat.eqb_refl. Qed.
Lemma upd_neq {X} (f : nat -> X) k v x : x <> k -> upd f k v x = f x.
Proof. unfold upd. intros H. apply Nat.eqb_neq in H. now rewrite H. Qed.

#[local] Arguments nth_error : simpl never.
#[local] Arguments upd_nth : simpl never.

(** ** The suppress_warnings flag along base classes *)
Lemma in_force_fuel flag base f n :
  (forall g, g <= f -> flag g = None -> base g < g) -> f <= n ->
  in_force n flag base f = in_force f flag base f.
Proof.
  revert n; induction f as [f IH] using lt_wf_ind. intros n Hb Hn.
  destruct n as [|n]; destruct f as [|f]; simpl; try lia; [reflexivity| |].
  - destruct (flag 0) eqn:E; [reflexivity|]. specialize (Hb 0 (le_n _) E). lia.
  - destruct (flag (S f)) eqn:E; [reflexivity|].
    assert (Hlt : base (S f) < S f) by (apply Hb; auto).
    rewrite (IH (base (S f))); [|lia| |lia].
    + symmetry. apply IH; try lia. intros g Hg. apply Hb. lia.
    + intros g Hg. apply Hb. lia.
Qed.

(** ** Refinement *)

(** One attribute that is copied by fork and shared by plain subclasses. *)
Record attr_ok {T R} (sel : pyclass -> option nat) (cs : list pyclass) (heap_ : list T)
    (ow : nat -> nat) (n : nat) (ab : nat -> R) (ok : T -> R -> Prop) : Prop := mkAttr {
  at_loc : forall f, f < n -> exists l t,
     resolve sel cs f = Some l /\ nth_error heap_ l = Some t /\ ok t (ab (ow f));
  at_inj : forall f g, f < n -> g < n ->
     (resolve sel cs f = resolve sel cs g <-> ow f = ow g) }.

Definition codes_ok (s : list string) (a : list string) : Prop :=
  forall c, mem_str c s = mem_str c a.

Record Rel (W : world) (h : heap) (s : abs) : Prop := mkRel {
  r_size : length (h_classes h) = a_size s;
  r_owner : forall f, f < a_size s -> a_owner s f < a_size s;
  r_base : forall f, f < a_size s -> a_flag s f = None -> a_base s f < f;
  r_ser : attr_ok p_ser (h_classes h) (h_ser h) (a_owner s) (a_size s) (a_ser s) (tab W);
  r_deser : attr_ok p_deser (h_classes h) (h_deser h) (a_owner s) (a_size s) (a_deser s) (tab W);
  r_codes : attr_ok p_codes (h_classes h) (h_codes h) (a_owner s) (a_size s) (a_codes s) codes_ok;
  r_val : forall f, f < a_size s -> resolve p_val (h_classes h) f = Some 0;
  r_valt : exists t, nth_error (h_val h) 0 = Some t /\ tab W t (a_val s);
  r_ann : forall f, f < a_size s -> resolve p_ann (h_classes h) f = Some 0;
  r_annt : exists m, nth_error (h_ann h) 0 = Some m;
  r_flag : forall f, f < a_size s -> exists c, resolve (@Some _) (h_classes h) f = Some c /\
     p_all c = a_flag s f /\ (a_flag s f = None -> p_parent c = Some (a_base s f));
  r_counter : forall f, f < a_size s -> exists n, resolve p_counter (h_classes h) f = Some n }.

Lemma resolve_step {X} (sel : pyclass -> option X) cs f c :
  resolve (@Some _) cs f = Some c ->
  resolve sel cs f =
  match sel c with
  | Some x => Some x
  | None => match p_parent c with
            | Some p => if Nat.ltb p f then resolve sel cs p
                        else resolve sel (skipn (length cs - f) cs) p
            | None => None
            end
  end.
Proof.
  induction cs as [|c0 r IH]; [discriminate|]. cbn [resolve length].
  destruct (Nat.eqb_spec f (length r)) as [->|Hne].
  - intros [= ->]. destruct (sel c); [reflexivity|]. destruct (p_parent c) as [p|]; [|reflexivity].
    destruct (Nat.ltb_spec p (length r)).
    + destruct (Nat.eqb_spec p (length r)); [lia|reflexivity].
    + replace (S (length r) - length r) with 1 by lia. reflexivity.
  - intros H. rewrite (IH H). destruct (sel c); [reflexivity|].
    destruct (p_parent c) as [p|]; [|reflexivity].
    assert (f < length r).
    { destruct (Nat.lt_ge_cases f (length r)) as [|Hge]; [assumption|].
      rewrite resolve_out in H by assumption. discriminate. }
    destruct (Nat.ltb_spec p f).
    + destruct (Nat.eqb_spec p (length r)); [lia|reflexivity].
    + replace (S (length r) - f) with (S (length r - f)) by lia. reflexivity.
Qed.

Lemma resolve_self_upd f g cs x :
  resolve (@Some _) (upd_class f g cs) x =
  if Nat.eqb x f then option_map g (resolve (@Some _) cs x) else resolve (@Some _) cs x.
Proof.
  induction cs as [|c r IH]; simpl; [now destruct (Nat.eqb x f)|].
  destruct (Nat.eqb_spec f (length r)) as [->|Hne]; simpl.
  - destruct (Nat.eqb_spec x (length r)); reflexivity.
  - rewrite upd_class_length, IH. destruct (Nat.eqb_spec x (length r)) as [->|]; [|reflexivity].
    destruct (Nat.eqb_spec (length r) f); [congruence|reflexivity].
Qed.

Lemma flag_resolved W h s f : Rel W h s -> f < a_size s ->
  resolve p_all (h_classes h) f = Some (silenced s f).
Proof.
  intros R. induction f as [f IH] using lt_wf_ind. intros Hf.
  destruct (r_flag _ _ _ R f Hf) as [c [Hc [Hall Hpar]]].
  rewrite (resolve_step _ _ _ _ Hc), Hall. unfold silenced.
  destruct (a_flag s f) as [b|] eqn:E; [destruct f; simpl; now rewrite E|].
  rewrite Hpar by reflexivity. pose proof (r_base _ _ _ R f Hf E) as Hb.
  apply Nat.ltb_lt in Hb as Hb'. rewrite Hb', IH by lia. f_equal.
  destruct f as [|f]; [lia|]. cbn [in_force]. rewrite E. unfold silenced. symmetry.
  apply in_force_fuel; [|lia]. intros g Hg. apply (r_base _ _ _ R). lia.
Qed.

Lemma attr_update {T R} sel cs (hp : list T) ow n (ab : nat -> R) ok f l (g : T -> T) (r' : R) :
  attr_ok sel cs hp ow n ab ok -> f < n -> resolve sel cs f = Some l ->
  (forall t, ok t (ab (ow f)) -> ok (g t) r') ->
  attr_ok sel cs (upd_nth l g hp) ow n (upd ab (ow f) r') ok.
Proof.
  intros [Hl Hi] Hf Hr Hg. split; [|assumption]. intros x Hx.
  destruct (Hl x Hx) as [lx [tx [Rx [Nx Ox]]]].
  destruct (Nat.eq_dec (ow x) (ow f)) as [E|E].
  - apply (Hi x f Hx Hf) in E as E'. rewrite Rx, Hr in E'. injection E' as ->.
    exists l, (g tx). split; [assumption|]. split; [now apply upd_nth_same|].
    rewrite E, upd_eq. apply Hg. now rewrite <- E.
  - exists lx, tx. split; [assumption|]. rewrite upd_neq by assumption. split; [|assumption].
    rewrite upd_nth_other; [assumption|]. intros <-. apply E. apply Hi; auto. congruence.
Qed.

Lemma attr_classes {T R} sel cs cs' (hp : list T) ow n (ab : nat -> R) ok :
  (forall x, resolve sel cs' x = resolve sel cs x) ->
  attr_ok sel cs hp ow n ab ok -> attr_ok sel cs' hp ow n ab ok.
Proof.
  intros E [Hl Hi]. split; intros; rewrite ?E; auto.
Qed.

Lemma attr_fork {T R} sel cs (hp : list T) ow n (ab : nat -> R) ok p t c :
  attr_ok sel cs hp ow n ab ok -> length cs = n -> p < n ->
  (forall f, f < n -> ow f < n) ->
  ok t (ab (ow p)) -> sel c = Some (length hp) ->
  attr_ok sel (c :: cs) (hp ++ [t]) (upd ow n n) (S n) (upd ab n (ab (ow p))) ok.
Proof.
  intros [Hl Hi] Hlen Hp Hown Hok Hsel.
  assert (Hnew : resolve sel (c :: cs) n = Some (length hp)).
  { rewrite <- Hlen, resolve_push_new, Hsel. reflexivity. }
  assert (Hold : forall f, f < n -> resolve sel (c :: cs) f = resolve sel cs f).
  { intros f Hf. apply resolve_push_old. lia. }
  split.
  - intros f Hf. destruct (Nat.eq_dec f n) as [->|Hne].
    + exists (length hp), t. split; [assumption|]. rewrite !upd_eq.
      rewrite nth_error_app2, Nat.sub_diag by lia. auto.
    + assert (Hf' : f < n) by lia. destruct (Hl f Hf') as [l [t' [R1 [N1 O1]]]].
      exists l, t'. rewrite Hold by assumption. split; [assumption|].
      rewrite (upd_neq ow) by assumption. rewrite upd_neq by (specialize (Hown f Hf'); lia).
      split; [|assumption]. rewrite nth_error_app1; [assumption|]. apply nth_error_Some. congruence.
  - assert (Hne : forall f, f < n -> resolve sel (c :: cs) f <> Some (length hp)).
    { intros f Hf. rewrite Hold by assumption. destruct (Hl f Hf) as [l [t' [R1 [N1 _]]]].
      rewrite R1. intros [= ->]. assert (length hp < length hp) by (apply nth_error_Some; congruence). lia. }
    intros f g Hf Hg. destruct (Nat.eq_dec f n) as [->|Hfn]; destruct (Nat.eq_dec g n) as [->|Hgn].
    + tauto.
    + rewrite upd_eq, upd_neq, Hnew by assumption. specialize (Hown g).
      split; [intros H; exfalso; apply (Hne g); [lia|congruence] | lia].
    + rewrite upd_eq, upd_neq, Hnew by assumption. specialize (Hown f).
      split; [intros H; exfalso; apply (Hne f); [lia|congruence] | lia].
    + rewrite !upd_neq, !Hold by lia. apply Hi; lia.
Qed.

Lemma attr_subclass {T R} sel cs (hp : list T) ow n (ab : nat -> R) ok p c :
  attr_ok sel cs hp ow n ab ok -> length cs = n -> p < n ->
  sel c = None -> p_parent c = Some p ->
  attr_ok sel (c :: cs) hp (upd ow n (ow p)) (S n) ab ok.
Proof.
  intros [Hl Hi] Hlen Hp Hsel Hpar.
  assert (Hnew : resolve sel (c :: cs) n = resolve sel cs p).
  { rewrite <- Hlen, resolve_push_new, Hsel, Hpar. reflexivity. }
  assert (Hold : forall f, f < n -> resolve sel (c :: cs) f = resolve sel cs f).
  { intros f Hf. apply resolve_push_old. lia. }
  split.
  - intros f Hf. destruct (Nat.eq_dec f n) as [->|Hne].
    + rewrite upd_eq, Hnew. auto.
    + rewrite upd_neq, Hold by lia. apply Hl. lia.
  - intros f g Hf Hg. destruct (Nat.eq_dec f n) as [->|Hfn]; destruct (Nat.eq_dec g n) as [->|Hgn].
    + tauto.
    + rewrite upd_eq, upd_neq, Hnew, Hold by lia. apply Hi; lia.
    + rewrite upd_eq, upd_neq, Hnew, Hold by lia. apply Hi; lia.
    + rewrite !upd_neq, !Hold by lia. apply Hi; lia.
Qed.

Lemma rel_init W : Rel W init a_init.
Proof.
  assert (H0 : forall f, f < 1 -> f = 0) by lia.
  split; simpl; auto.
  - intros f Hf. apply H0 in Hf as ->. discriminate.
  - split.
    + intros f Hf. apply H0 in Hf as ->. exists 0, (mkTable [] []). do 2 (split; [reflexivity|]). apply tab_empty.
    + intros f g Hf Hg. apply H0 in Hf as ->. apply H0 in Hg as ->. tauto.
  - split.
    + intros f Hf. apply H0 in Hf as ->. exists 0, (mkTable [] []). do 2 (split; [reflexivity|]). apply tab_empty.
    + intros f g Hf Hg. apply H0 in Hf as ->. apply H0 in Hg as ->. tauto.
  - split.
    + intros f Hf. apply H0 in Hf as ->. exists 0, []. do 2 (split; [reflexivity|]). intros c. reflexivity.
    + intros f g Hf Hg. apply H0 in Hf as ->. apply H0 in Hg as ->. tauto.
  - intros f Hf. apply H0 in Hf as ->. reflexivity.
  - eexists. split; [reflexivity|apply tab_empty].
  - intros f Hf. apply H0 in Hf as ->. reflexivity.
  - eexists; reflexivity.
  - intros f Hf. apply H0 in Hf as ->. eexists. repeat split; discriminate.
  - intros f Hf. apply H0 in Hf as ->. simpl. eauto.
Qed.

Lemma rel_cache W h s ca : Rel W h s -> Rel W (with_cache h ca) s.
Proof. intros [H1 H2 H3 H4 H5 H6 H7 H8 H9 H10 H11 H12]. split; assumption. Qed.

Lemma rel_set W h s k f a hi g :
  Rel W h s -> Rel W (do_set W k f a hi g h) (a_step s (OSet k f a hi g)).
Proof.
  intros R. pose proof R as [H1 H2 H3 H4 H5 H6 H7 H8 H9 H10 H11 H12].
  unfold do_set, sel_of, tables_of, with_tables. destruct s as [n ow ba se de va co fl]; simpl in *.
  destruct (Nat.ltb_spec f n) as [Hf|Hf].
  2:{ rewrite resolve_out by lia. destruct k; assumption. }
  destruct k; simpl.
  - destruct (at_loc _ _ _ _ _ _ _ H4 f Hf) as [l [t [Rl [Nl Ol]]]]. rewrite Rl.
    split; simpl; auto. eapply attr_update; eauto.
    intros t' Ht'. apply tab_set_each; auto. intros; now apply tab_set_one.
  - destruct (at_loc _ _ _ _ _ _ _ H5 f Hf) as [l [t [Rl [Nl Ol]]]]. rewrite Rl.
    split; simpl; auto. eapply attr_update; eauto.
    intros t' Ht'. apply tab_set_each; auto. intros; now apply tab_set_one.
  - rewrite (H7 f Hf). split; simpl; auto.
    destruct H8 as [t [Nt Tt]]. exists (set_each (set_val_one W g) a t).
    split; [now apply upd_nth_same|]. apply tab_set_each; auto. intros; now apply tab_set_val_one.
Qed.

Lemma rel_announce W h s fm f c n : Rel W h s -> Rel W (cached_announce W fm h f c n) s.
Proof.
  intros R. unfold cached_announce. destruct (aget _ _ _); [assumption|].
  destruct (resolve p_ann (h_classes h) f) as [l|]; [|assumption].
  destruct R as [H1 H2 H3 H4 H5 H6 H7 H8 H9 H10 H11 H12]. split; simpl; auto.
  destruct H10 as [m Hm]. destruct l as [|l].
  - eexists. apply upd_nth_same. exact Hm.
  - exists m. rewrite upd_nth_other; auto.
Qed.

Lemma rel_fork W h s p : Rel W h s -> Rel W (do_fork p h) (a_step s (OFork p)).
Proof.
  intros R. pose proof R as [H1 H2 H3 H4 H5 H6 H7 H8 H9 H10 H11 H12].
  unfold do_fork, table_of, sel_of, tables_of. destruct s as [n ow ba se de va co fl]; simpl in *.
  destruct (Nat.ltb_spec p n) as [Hp|Hp].
  2:{ rewrite resolve_out by lia. assumption. }
  destruct (at_loc _ _ _ _ _ _ _ H4 p Hp) as [ls [ts [Rs [Ns Os]]]]. rewrite Rs, Ns.
  destruct (at_loc _ _ _ _ _ _ _ H5 p Hp) as [ld [td [Rd [Nd Od]]]]. rewrite Rd, Nd.
  destruct (at_loc _ _ _ _ _ _ _ H6 p Hp) as [lc [codes [Rc [Nc Oc]]]]. pose proof (flag_resolved _ _ _ _ R Hp) as Hfl. rewrite Rc, Hfl.
  destruct (H12 p Hp) as [cnt Hcnt]. rewrite Hcnt, Nc.
  set (g := fun c => mkPy (p_parent c) (p_ser c) (p_deser c) (p_val c)
                       (p_ann c) (p_codes c) (p_all c) (Some (cnt + 1))).
  assert (Hlen : length (upd_class p g (h_classes h)) = n) by now rewrite upd_class_length.
  assert (Hres : forall X (sel : pyclass -> option X), (forall c, sel (g c) = sel c) ->
            forall x, resolve sel (upd_class p g (h_classes h)) x = resolve sel (h_classes h) x).
  { intros X sel Hsel x. apply resolve_upd_same; auto. }
  assert (Hold : forall X (sel : pyclass -> option X) c0 f, f < n ->
      resolve sel (c0 :: upd_class p g (h_classes h)) f = resolve sel (upd_class p g (h_classes h)) f).
  { intros X sel c0 f Hf. apply resolve_push_old. lia. }
  assert (Hnew : forall X (sel : pyclass -> option X) c0,
      resolve sel (c0 :: upd_class p g (h_classes h)) n =
      match sel c0 with
      | Some x => Some x
      | None => match p_parent c0 with
                | Some q => resolve sel (upd_class p g (h_classes h)) q | None => None end
      end).
  { intros X sel c0. pose proof (resolve_push_new sel c0 (upd_class p g (h_classes h))) as E.
    rewrite Hlen in E. exact E. }
  split; simpl a_size; simpl a_owner; simpl a_ser; simpl a_deser; simpl a_val; simpl a_codes;
    simpl a_flag; simpl a_base; cbn [h_classes h_ser h_deser h_val h_ann h_codes].
  - simpl. now rewrite Hlen.
  - intros f Hf. destruct (Nat.eq_dec f n) as [->|Hne]; [rewrite upd_eq; lia|].
    rewrite upd_neq by assumption. specialize (H2 f). lia.
  - intros f Hf. destruct (Nat.eq_dec f n) as [->|Hne]; [rewrite upd_eq; discriminate|].
    rewrite !upd_neq by assumption. apply H3. lia.
  - apply attr_fork; auto. eapply attr_classes; [apply Hres; reflexivity|assumption].
  - apply attr_fork; auto. eapply attr_classes; [apply Hres; reflexivity|assumption].
  - apply attr_fork; auto. eapply attr_classes; [apply Hres; reflexivity|assumption].
  - intros f Hf. destruct (Nat.eq_dec f n) as [->|Hne].
    + rewrite Hnew. simpl. rewrite Hres by reflexivity. auto.
    + rewrite Hold, Hres by (reflexivity || lia). apply H7. lia.
  - assumption.
  - intros f Hf. destruct (Nat.eq_dec f n) as [->|Hne].
    + rewrite Hnew. simpl. rewrite Hres by reflexivity. auto.
    + rewrite Hold, Hres by (reflexivity || lia). apply H9. lia.
  - assumption.
  - intros f Hf. destruct (Nat.eq_dec f n) as [->|Hne].
    + eexists. rewrite Hnew, !upd_eq. repeat split; discriminate.
    + rewrite Hold, resolve_self_upd, !upd_neq by lia. destruct (H11 f) as [c [Hc [Ha Hb]]]; [lia|].
      rewrite Hc. destruct (Nat.eqb f p); simpl; eexists; repeat split; assumption.
  - intros f Hf. destruct (Nat.eq_dec f n) as [->|Hne].
    + exists 0. rewrite Hnew. reflexivity.
    + rewrite Hold by lia. destruct (H12 f) as [c0 Hc0]; [lia|].
      assert (Hsome : resolve p_counter (upd_class p g (h_classes h)) f <> None).
      { apply resolve_upd_some; [reflexivity|discriminate|congruence]. }
      destruct (resolve p_counter (upd_class p g (h_classes h)) f); [eauto|congruence].
Qed.

Lemma rel_subclass W h s p : Rel W h s -> Rel W (do_subclass p h) (a_step s (OSubclass p)).
Proof.
  intros R. pose proof R as [H1 H2 H3 H4 H5 H6 H7 H8 H9 H10 H11 H12].
  unfold do_subclass. destruct s as [n ow ba se de va co fl]; simpl in *. rewrite H1.
  destruct (Nat.ltb_spec p n) as [Hp|Hp]; [|assumption].
  set (c0 := mkPy (Some p) None None None None None None None).
  assert (Hnew : forall X (sel : pyclass -> option X), sel c0 = None ->
            resolve sel (c0 :: h_classes h) n = resolve sel (h_classes h) p).
  { intros X sel Hs. rewrite <- H1 at 1. rewrite resolve_push_new, Hs. reflexivity. }
  assert (Hold : forall X (sel : pyclass -> option X) f, f < n ->
      resolve sel (c0 :: h_classes h) f = resolve sel (h_classes h) f).
  { intros X sel f Hf. apply resolve_push_old. lia. }
  split; cbn [with_classes h_classes h_ser h_deser h_val h_ann h_codes a_size a_owner a_ser a_deser
              a_val a_codes a_flag a_base].
  - simpl. now rewrite H1.
  - intros f Hf. destruct (Nat.eq_dec f n) as [->|Hne]; [rewrite upd_eq; specialize (H2 p Hp); lia|].
    rewrite upd_neq by assumption. specialize (H2 f). lia.
  - intros f Hf. destruct (Nat.eq_dec f n) as [->|Hne]; [rewrite !upd_eq; lia|].
    rewrite !upd_neq by assumption. apply H3. lia.
  - eapply attr_subclass; eauto.
  - eapply attr_subclass; eauto.
  - eapply attr_subclass; eauto.
  - intros f Hf. destruct (Nat.eq_dec f n) as [->|Hne]; [rewrite Hnew by reflexivity; auto|].
    rewrite Hold by lia. apply H7. lia.
  - assumption.
  - intros f Hf. destruct (Nat.eq_dec f n) as [->|Hne]; [rewrite Hnew by reflexivity; auto|].
    rewrite Hold by lia. apply H9. lia.
  - assumption.
  - intros f Hf. destruct (Nat.eq_dec f n) as [->|Hne].
    + exists c0. rewrite <- H1 at 1. rewrite resolve_push_new, !upd_eq. repeat split.
    + rewrite Hold, !upd_neq by lia. apply H11. lia.
  - intros f Hf. destruct (Nat.eq_dec f n) as [->|Hne]; [rewrite Hnew by reflexivity; auto|].
    rewrite Hold by lia. apply H12. lia.
Qed.

Lemma rel_suppress_all W h s f b :
  Rel W h s -> Rel W (do_suppress_all f b h) (a_step s (OSuppressAll f b)).
Proof.
  intros R. pose proof R as [H1 H2 H3 H4 H5 H6 H7 H8 H9 H10 H11 H12].
  unfold do_suppress_all. destruct s as [n ow ba se de va co fl]; simpl in *.
  set (g := fun c => mkPy (p_parent c) (p_ser c) (p_deser c) (p_val c)
                     (p_ann c) (p_codes c) (Some b) (p_counter c)).
  assert (Hres : forall X (sel : pyclass -> option X), (forall c, sel (g c) = sel c) ->
            forall x, resolve sel (upd_class f g (h_classes h)) x = resolve sel (h_classes h) x).
  { intros X sel Hsel x. apply resolve_upd_same; auto. }
  destruct (Nat.ltb_spec f n) as [Hf|Hf].
  - split; cbn [with_classes h_classes h_ser h_deser h_val h_ann h_codes a_size a_owner a_ser a_deser
                a_val a_codes a_flag a_base]; auto.
    + now rewrite upd_class_length.
    + intros x Hx. destruct (Nat.eq_dec x f) as [->|Hne]; [rewrite upd_eq; discriminate|].
      rewrite upd_neq by assumption. auto.
    + eapply attr_classes; [apply Hres; reflexivity|assumption].
    + eapply attr_classes; [apply Hres; reflexivity|assumption].
    + eapply attr_classes; [apply Hres; reflexivity|assumption].
    + intros x Hx. rewrite Hres by reflexivity. auto.
    + intros x Hx. rewrite Hres by reflexivity. auto.
    + intros x Hx. destruct (H11 x Hx) as [c [Hc [Ha Hb]]]. rewrite resolve_self_upd, Hc.
      destruct (Nat.eqb_spec x f) as [->|Hne].
      * eexists. repeat split; rewrite ?upd_eq; [reflexivity|discriminate].
      * eexists. rewrite upd_neq by assumption. repeat split; assumption.
    + intros x Hx. rewrite Hres by reflexivity. auto.
  - assert (E : upd_class f g (h_classes h) = h_classes h).
    { rewrite <- H1 in Hf. clear -Hf. revert Hf. induction (h_classes h) as [|c r IH]; simpl; intros Hf;
        [reflexivity|]. destruct (Nat.eqb_spec f (length r)); [lia|]. rewrite IH; [reflexivity|lia]. }
    rewrite E. destruct h; exact R.
Qed.

Lemma mem_str_add code s c :
  mem_str c (if mem_str code s then s else s ++ [code])%list = String.eqb c code || mem_str c s.
Proof.
  destruct (mem_str code s) eqn:E.
  - destruct (String.eqb_spec c code) as [->|]; [now rewrite E|reflexivity].
  - unfold mem_str in *. rewrite existsb_app. simpl. rewrite orb_false_r. apply orb_comm.
Qed.

Lemma rel_suppress W h s f code :
  Rel W h s -> Rel W (do_suppress f code h) (a_step s (OSuppress f code)).
Proof.
  intros R. pose proof R as [H1 H2 H3 H4 H5 H6 H7 H8 H9 H10 H11 H12].
  unfold do_suppress. destruct s as [n ow ba se de va co fl]; simpl in *.
  destruct (Nat.ltb_spec f n) as [Hf|Hf].
  2:{ rewrite resolve_out by lia. assumption. }
  destruct (at_loc _ _ _ _ _ _ _ H6 f Hf) as [l [cs [Rl [Nl Ol]]]]. rewrite Rl.
  set (g := fun c => mkPy (p_parent c) (p_ser c) (p_deser c) (p_val c)
                     (p_ann c) (Some l) (p_all c) (p_counter c)).
  assert (Hres : forall X (sel : pyclass -> option X), (forall c, sel (g c) = sel c) ->
            forall x, resolve sel (upd_class f g (h_classes h)) x = resolve sel (h_classes h) x).
  { intros X sel Hsel x. apply resolve_upd_same; auto. }
  split; cbn [with_classes h_classes h_ser h_deser h_val h_ann h_codes a_size a_owner a_ser a_deser
                a_val a_codes a_flag a_base]; auto.
  - now rewrite upd_class_length.
  - eapply attr_classes; [apply Hres; reflexivity|assumption].
  - eapply attr_classes; [apply Hres; reflexivity|assumption].
  - eapply attr_classes.
    + intros x. apply resolve_upd_bind with (v := l); auto.
    + eapply attr_update; eauto. intros t Ht c. rewrite mem_str_add, Ht. reflexivity.
  - intros x Hx. rewrite Hres by reflexivity. auto.
  - intros x Hx. rewrite Hres by reflexivity. auto.
  - intros x Hx. destruct (H11 x Hx) as [c [Hc [Ha Hb]]]. rewrite resolve_self_upd, Hc.
    destruct (Nat.eqb_spec x f) as [->|Hne]; eexists; repeat split; assumption.
  - intros x Hx. rewrite Hres by reflexivity. auto.
Qed.

Lemma rel_cached_get W k fm h f c s : Rel W h s -> Rel W (fst (cached_get W k fm h f c)) s.
Proof.
  intros R. unfold cached_get. destruct (aget _ _ _); [assumption|].
  destruct (raw_get W k h f c); simpl; [now apply rel_cache|assumption].
Qed.

Lemma rel_estep W h s e : Rel W h s -> Rel W (fst (estep W h e)) s.
Proof.
  intros R. destruct e; simpl.
  - pose proof (rel_cached_get W k FPos h f c s R) as H. destruct (cached_get W k FPos h f c). exact H.
  - now apply rel_announce.
  - now apply rel_cache.
  - now apply rel_cache.
Qed.

Lemma rel_eruns W tr : forall h s, Rel W h s -> Rel W (fst (eruns W h tr)) s.
Proof.
  induction tr as [|e tr IH]; intros h s R; simpl; [assumption|].
  pose proof (rel_estep W h s e R) as R1. destruct (estep W h e) as [h1 o1]. simpl in R1.
  specialize (IH h1 s R1). destruct (eruns W h1 tr). exact IH.
Qed.

Lemma rel_step W h s o : Rel W h s -> Rel W (fst (step W h o)) (a_step s o).
Proof.
  intros R.
  assert (Hid : forall o', match o' with OSet _ _ _ _ _ | OFork _ | OSubclass _ | OSuppressAll _ _
     | OSuppress _ _ => False | _ => True end -> a_step s o' = s).
  { intros o' Ho. destruct s, o'; simpl in *; try contradiction; reflexivity. }
  destruct o; cbn [step fst].
  - now apply rel_set.
  - now apply rel_fork.
  - now apply rel_subclass.
  - rewrite Hid by exact I. now apply rel_announce.
  - now apply rel_suppress_all.
  - now apply rel_suppress.
  - rewrite Hid by exact I. pose proof (rel_cached_get W k fm h f c s R) as H.
    destruct (cached_get W k fm h f c). exact H.
  - rewrite Hid by exact I. pose proof (rel_eruns W tr h s R) as H.
    destruct (eruns W h tr). now apply rel_cache.
  - rewrite Hid by exact I. pose proof (rel_cached_get W Val FPos h f c s R) as H.
    destruct (cached_get W Val FPos h f c). exact H.
  - rewrite Hid by exact I. pose proof (rel_cached_get W Deser FPos h f c s R) as H.
    destruct (cached_get W Deser FPos h f c) as [h' r]. destruct r as [[g|]|e]; simpl in *;
      [now apply rel_cache|assumption|now apply rel_cache].
  - rewrite Hid by exact I. now apply rel_cache.
Qed.

Lemma run_snoc W ops o : run W (ops ++ [o]) = fst (step W (run W ops) o).
Proof. unfold run. now rewrite fold_left_app. Qed.
Lemma a_run_snoc ops o : a_run (ops ++ [o]) = a_step (a_run ops) o.
Proof. unfold a_run. now rewrite fold_left_app. Qed.

Lemma rel_run W ops : Rel W (run W ops) (a_run ops).
Proof.
  induction ops as [|o ops IH] using rev_ind; [apply rel_init|].
  rewrite run_snoc, a_run_snoc. now apply rel_step.
Qed.

Lemma raw_get_rel W h s k f c :
  Rel W h s -> f < a_size s ->
  raw_get W k h f c = Ok (lookup W (match k with Ser => a_ser s (a_owner s f)
                                    | Deser => a_deser s (a_owner s f) | Val => a_val s end) c).
Proof.
  intros R Hf. unfold raw_get, table_of. destruct k; simpl.
  - destruct (at_loc _ _ _ _ _ _ _ (r_ser _ _ _ R) f Hf) as [l [t [-> [-> Ht]]]].
    now apply get_lizer_correct.
  - destruct (at_loc _ _ _ _ _ _ _ (r_deser _ _ _ R) f Hf) as [l [t [-> [-> Ht]]]].
    now apply get_lizer_correct.
  - rewrite (r_val _ _ _ R f Hf). destruct (r_valt _ _ _ R) as [t [-> Ht]].
    now apply get_lizer_correct.
Qed.

Theorem get_correct W k ops f c :
  exists_in ops f -> raw_get W k (run W ops) f c = Ok (lookup W (visible k ops f) c).
Proof. intros H. rewrite (raw_get_rel _ _ _ _ _ _ (rel_run W ops) H). destruct k; reflexivity. Qed.

(** ** Consequences for lookups *)
Lemma lookup_exact W regs c g : latest W regs (slower (w_name W c)) = Some g -> lookup W regs c = Some g.
Proof. intros H. unfold lookup, handler. now rewrite H. Qed.

Lemma latest_app_same W regs rs n g :
  (forall r, In r rs -> rg_fn r = g) -> (exists r, In r rs /\ reg_name W r = n) ->
  latest W (regs ++ rs) n = Some g.
Proof.
  intros Hf Hex. induction rs as [|r rs IH] using rev_ind; [destruct Hex as [r [[] _]]|].
  rewrite app_assoc, latest_snoc. destruct (String.eqb_spec n (reg_name W r)) as [E|E].
  - f_equal. apply Hf. apply in_or_app. right. now left.
  - apply IH.
    + intros x Hx. apply Hf. apply in_or_app. now left.
    + destruct Hex as [x [Hx Hn]]. apply in_app_or in Hx as [Hx|[<-|[]]]; [eauto|congruence].
Qed.

Lemma latest_app_other W regs rs n :
  (forall r, In r rs -> reg_name W r <> n) -> latest W (regs ++ rs) n = latest W regs n.
Proof.
  intros H. induction rs as [|r rs IH] using rev_ind; [now rewrite app_nil_r|].
  rewrite app_assoc, latest_snoc. destruct (String.eqb_spec n (reg_name W r)) as [E|E].
  - exfalso. apply (H r); [apply in_or_app; right; now left|congruence].
  - apply IH. intros x Hx. apply H. apply in_or_app. now left.
Qed.

Lemma size_mono ops o : a_size (a_run ops) <= a_size (a_run (ops ++ [o])).
Proof.
  rewrite a_run_snoc. destruct (a_run ops) as [n ow ba se de va co fl].
  destruct o as [[| |]| | | | | | | | | |]; simpl; try destruct (Nat.ltb _ n); simpl; lia.
Qed.

Lemma exists_snoc ops o f : exists_in ops f -> exists_in (ops ++ [o]) f.
Proof. unfold exists_in. pose proof (size_mono ops o). lia. Qed.

Lemma visible_set ops k f a hi g x :
  exists_in ops f -> exists_in ops x ->
  visible k (ops ++ [OSet k f a hi g]) x =
  match k with
  | Val => visible k ops x ++ regs_of_arg a false g
  | _ => if Nat.eqb (a_owner (a_run ops) x) (a_owner (a_run ops) f)
         then visible k ops x ++ regs_of_arg a hi g else visible k ops x
  end.
Proof.
  unfold exists_in, visible. rewrite a_run_snoc. intros Hf Hx.
  destruct (a_run ops) as [n ow ba se de va co fl]. cbn [a_size] in *.
  apply Nat.ltb_lt in Hf. destruct k; cbn [a_step]; rewrite Hf;
    cbn [a_ser a_deser a_val a_owner]; [| |reflexivity].
  all: unfold upd; destruct (Nat.eqb_spec (ow x) (ow f)) as [->|]; reflexivity.
Qed.

Lemma regs_of_arg_In a hi g r : In r (regs_of_arg a hi g) <->
  exists c, In c (targets a) /\ r = mkReg c hi g.
Proof. unfold regs_of_arg. rewrite in_map_iff. firstorder. Qed.

Lemma set_get_same W k ops f a hi g c :
  exists_in ops f -> In (slower (w_name W c)) (names_of W a) ->
  raw_get W k (run W (ops ++ [OSet k f a hi g])) f c = Ok (Some g).
Proof.
  intros Hf Hin. rewrite get_correct by now apply exists_snoc. f_equal.
  apply lookup_exact. rewrite visible_set, Nat.eqb_refl by assumption.
  apply in_map_iff in Hin as [o [Ho Hin]].
  destruct k; apply latest_app_same.
  all: try (intros r Hr; apply regs_of_arg_In in Hr as [? [_ ->]]; reflexivity).
  all: eexists; split; [apply regs_of_arg_In; exists o; split; [assumption|reflexivity]|].
  all: unfold reg_name; simpl; assumption.
Qed.

(** A handler found by the class's own name survives registrations under other names. *)
Lemma set_get_other W k k' ops f a hi g x c v :
  exists_in ops f -> exists_in ops x ->
  ~ In (slower (w_name W c)) (names_of W a) ->
  latest W (visible k ops x) (slower (w_name W c)) = Some v ->
  raw_get W k (run W (ops ++ [OSet k' f a hi g])) x c = Ok (Some v).
Proof.
  intros Hf Hx Hin Hl. rewrite get_correct by now apply exists_snoc. f_equal. apply lookup_exact.
  assert (Hno : forall h r, In r (regs_of_arg a h g) -> reg_name W r <> slower (w_name W c)).
  { intros h r Hr E. apply regs_of_arg_In in Hr as [o [Ho ->]]. apply Hin. unfold names_of.
    apply in_map_iff. exists o. split; [exact E|assumption]. }
  destruct (kind_eqb k k') eqn:E.
  - assert (k' = k) as -> by (destruct k, k'; simpl in E; congruence).
    rewrite visible_set by assumption. destruct k.
    + destruct (Nat.eqb _ _); [rewrite latest_app_other by apply Hno|]; assumption.
    + destruct (Nat.eqb _ _); [rewrite latest_app_other by apply Hno|]; assumption.
    + rewrite latest_app_other by apply Hno. assumption.
  - rewrite <- Hl. f_equal. unfold visible. rewrite a_run_snoc.
    destruct (a_run ops) as [n ow ba se de va co fl].
    destruct k, k'; simpl in E; try discriminate; simpl; destruct (Nat.ltb f n); reflexivity.
Qed.

Lemma handler_not_own W regs c :
  latest W regs (slower (w_name W c)) = None ->
  handler W regs c = match first_ancestor W regs c with
                     | Some p => latest W regs (slower (w_name W p))
                     | None => None
                     end.
Proof. intros H. unfold handler. now rewrite H. Qed.

Lemma find_split {X} (p : X -> bool) l x :
  find p l = Some x <-> exists a b, l = a ++ x :: b /\ p x = true /\ forall y, In y a -> p y = false.
Proof.
  induction l as [|y l IH]; simpl.
  - split; [discriminate|]. intros [a [b [H _]]]. destruct a; discriminate.
  - destruct (p y) eqn:E.
    + split.
      * intros [= ->]. exists [], l. repeat split; [assumption|]. intros ? [].
      * intros [[|z a] [b [H [Hx Ha]]]]; simpl in H; injection H as -> ->; [reflexivity|].
        specialize (Ha z (or_introl eq_refl)). congruence.
    + rewrite IH. split.
      * intros [a [b [-> [Hx Ha]]]]. exists (y :: a), b. repeat split; [assumption|].
        intros z [<-|Hz]; auto.
      * intros [[|z a] [b [H [Hx Ha]]]]; simpl in H; injection H as -> ->; [congruence|].
        exists a, b. repeat split; [assumption|]. intros; apply Ha; now right.
Qed.

Lemma get_inherited W k ops f c l1 p l2 :
  exists_in ops f -> w_super W c = None ->
  latest W (visible k ops f) (slower (w_name W c)) = None ->
  priority (visible k ops f) = l1 ++ p :: l2 ->
  w_sub W c p = true -> (forall q, In q l1 -> w_sub W c q = false) ->
  raw_get W k (run W ops) f c = Ok (latest W (visible k ops f) (slower (w_name W p))) /\
  latest W (visible k ops f) (slower (w_name W p)) <> None.
Proof.
  intros Hf Hs Hl Hp Hsub Hfirst. rewrite get_correct by assumption. unfold lookup.
  rewrite handler_not_own by assumption. unfold first_ancestor.
  assert (Hfind : find (w_sub W c) (priority (visible k ops f)) = Some p).
  { apply find_split. exists l1, l2. auto. }
  rewrite Hfind. split.
  - destruct (latest W _ (slower (w_name W p))); [reflexivity|]. now rewrite Hs.
  - assert (Hin : In p (priority (visible k ops f))) by (rewrite Hp; apply in_elt).
    apply priority_In in Hin as [r [Hr Hc]]. destruct (latest_registered W _ _ Hr) as [g Hg].
    unfold reg_name in Hg. rewrite Hc in Hg. congruence.
Qed.

Lemma get_nothing W k ops f c :
  exists_in ops f -> w_super W c = None ->
  latest W (visible k ops f) (slower (w_name W c)) = None ->
  (forall p, In p (priority (visible k ops f)) -> w_sub W c p = false) ->
  raw_get W k (run W ops) f c = Ok None.
Proof.
  intros Hf Hs Hl Hno. rewrite get_correct by assumption. unfold lookup.
  rewrite handler_not_own by assumption. unfold first_ancestor.
  destruct (find _ _) as [p|] eqn:E.
  - apply find_some in E as [Hin Hsub]. rewrite Hno in Hsub by assumption. discriminate.
  - now rewrite Hs.
Qed.

(** ** Isolation *)
Lemma owner_lt ops f : exists_in ops f -> a_owner (a_run ops) f < a_size (a_run ops).
Proof. apply (r_owner _ _ _ (rel_run (mkWorld (fun _ => ""%string) (fun _ _ => false) (fun _ => None)) ops)). Qed.

Lemma visible_isolated ops f o k :
  k <> Val -> exists_in ops f -> leaves_alone ops f o ->
  visible k (ops ++ [o]) f = visible k ops f.
Proof.
  intros Hk Hf Ho. pose proof (owner_lt ops f Hf) as Hown.
  unfold leaves_alone in Ho. unfold exists_in, visible, same_fork in *. rewrite a_run_snoc.
  destruct (a_run ops) as [n ow ba se de va co fl]. cbn [a_size a_owner] in *.
  destruct o as [[| |] g a hi v| p | p | | | | | | | |]; cbn [a_step]; try (destruct k; reflexivity).
  - destruct (Nat.ltb_spec g n); [|reflexivity]. specialize (Ho H).
    destruct k; [|reflexivity|congruence]. cbn [a_ser a_owner]. apply upd_neq. congruence.
  - destruct (Nat.ltb_spec g n); [|reflexivity]. specialize (Ho H).
    destruct k; [reflexivity| |congruence]. cbn [a_deser a_owner]. apply upd_neq. congruence.
  - destruct (Nat.ltb g n); [|reflexivity]. destruct k; [reflexivity|reflexivity|congruence].
  - destruct (Nat.ltb p n); [|reflexivity]. destruct k; cbn [a_ser a_deser a_owner]; [| |congruence].
    all: rewrite (upd_neq ow) by lia; apply upd_neq; lia.
  - destruct (Nat.ltb p n); [|reflexivity]. destruct k; cbn [a_ser a_deser a_owner]; [| |congruence].
    all: rewrite (upd_neq ow) by lia; reflexivity.
  - destruct (Nat.ltb f0 n); destruct k; reflexivity.
  - destruct (Nat.ltb f0 n); destruct k; reflexivity.
Qed.

Lemma visible_isolated_seq more : forall ops f k,
  k <> Val -> exists_in ops f -> all_leave_alone ops f more ->
  visible k (ops ++ more) f = visible k ops f /\ exists_in (ops ++ more) f.
Proof.
  induction more as [|o r IH]; intros ops f k Hk Hf H; [now rewrite app_nil_r|].
  destruct H as [Ho Hr]. replace (ops ++ o :: r) with ((ops ++ [o]) ++ r) by now rewrite <- app_assoc.
  destruct (IH (ops ++ [o]) f k Hk (exists_snoc _ _ _ Hf) Hr) as [E Hx]. split; [|assumption].
  rewrite E. now apply visible_isolated.
Qed.

Lemma isolation W k ops more f c :
  k <> Val -> exists_in ops f -> all_leave_alone ops f more ->
  raw_get W k (run W (ops ++ more)) f c = raw_get W k (run W ops) f c.
Proof.
  intros Hk Hf H. destruct (visible_isolated_seq more ops f k Hk Hf H) as [E Hx].
  rewrite !get_correct by assumption. now rewrite E.
Qed.

Lemma fork_size ops p : exists_in ops p -> exists_in (ops ++ [OFork p]) (next_id ops).
Proof.
  unfold exists_in, next_id. rewrite a_run_snoc. destruct (a_run ops). simpl. intros H.
  apply Nat.ltb_lt in H. rewrite H. simpl. lia.
Qed.
Lemma subclass_size ops p : exists_in ops p -> exists_in (ops ++ [OSubclass p]) (next_id ops).
Proof.
  unfold exists_in, next_id. rewrite a_run_snoc. destruct (a_run ops). simpl. intros H.
  apply Nat.ltb_lt in H. rewrite H. simpl. lia.
Qed.

Lemma fresh_fork_visible ops p k : exists_in ops p ->
  visible k (ops ++ [OFork p]) (next_id ops) = visible k ops p.
Proof.
  unfold exists_in, next_id, visible. rewrite a_run_snoc. destruct (a_run ops). simpl. intros H.
  apply Nat.ltb_lt in H. rewrite H. destruct k; simpl; rewrite ?upd_eq; reflexivity.
Qed.
Lemma fresh_fork_own ops p f : exists_in ops p -> exists_in ops f ->
  ~ same_fork (ops ++ [OFork p]) (next_id ops) f.
Proof.
  intros Hp Hf. pose proof (owner_lt ops f Hf) as Hown. revert Hp Hf Hown.
  unfold exists_in, next_id, same_fork. rewrite a_run_snoc. destruct (a_run ops). simpl. intros H.
  apply Nat.ltb_lt in H. rewrite H. simpl. rewrite upd_eq. intros Hf Hown. rewrite upd_neq by lia. lia.
Qed.
Lemma subclass_same ops p : exists_in ops p -> same_fork (ops ++ [OSubclass p]) (next_id ops) p.
Proof.
  unfold exists_in, next_id, same_fork. rewrite a_run_snoc. destruct (a_run ops). simpl. intros Hp.
  apply Nat.ltb_lt in Hp as H. rewrite H. simpl. rewrite upd_eq, upd_neq by lia. reflexivity.
Qed.

Lemma fresh_fork W k ops p c : exists_in ops p ->
  raw_get W k (run W (ops ++ [OFork p])) (next_id ops) c = raw_get W k (run W ops) p c.
Proof.
  intros H. rewrite !get_correct by (assumption || now apply fork_size).
  now rewrite fresh_fork_visible.
Qed.

(** ** Shared state *)
Lemma validators_shared W ops f g c : exists_in ops f -> exists_in ops g ->
  raw_get W Val (run W ops) f c = raw_get W Val (run W ops) g c.
Proof. intros Hf Hg. now rewrite !get_correct. Qed.

Lemma announced_shared W ops f g n : exists_in ops f -> exists_in ops g ->
  announced (run W ops) f n = announced (run W ops) g n.
Proof.
  intros Hf Hg. unfold announced. pose proof (rel_run W ops) as R.
  now rewrite (r_ann _ _ _ R f Hf), (r_ann _ _ _ R g Hg).
Qed.

(** ** Cache *)
Definition fresh_entries (W : world) (k : kind) (h : heap) : Prop :=
  forall f c r, aget ckey_eqb (CKGet k FPos c f) (h_cache h) = Some r -> raw_get W k h f c = Ok r.

Lemma kind_eqb_eq a b : kind_eqb a b = true <-> a = b.
Proof. destruct a, b; simpl; split; congruence. Qed.
Lemma form_eqb_eq a b : form_eqb a b = true <-> a = b.
Proof. destruct a, b; simpl; split; congruence. Qed.
Lemma ostr_eqb_eq a b : ostr_eqb a b = true <-> a = b.
Proof.
  destruct a, b; simpl; split; try congruence.
  - intros H. apply String.eqb_eq in H. congruence.
  - intros [= ->]. apply String.eqb_refl.
Qed.
Lemma ckey_eqb_eq a b : ckey_eqb a b = true <-> a = b.
Proof.
  destruct a, b; simpl; try (split; congruence).
  - rewrite !andb_true_iff, kind_eqb_eq, form_eqb_eq, !Nat.eqb_eq. split; [|now intros [= -> -> -> ->]].
    intros [[[-> ->] ->] ->]. reflexivity.
  - rewrite !andb_true_iff, form_eqb_eq, ostr_eqb_eq, !Nat.eqb_eq. split; [|now intros [= -> -> -> ->]].
    intros [[[-> ->] ->] ->]. reflexivity.
Qed.

(** No entry for positional lookups of kind [k]. *)
Definition no_entries (k : kind) (h : heap) : Prop :=
  forall f c r, ~ In (CKGet k FPos c f, r) (h_cache h).

(** Every such entry is what an uncached lookup returns now. *)
Definition true_entries (W : world) (k : kind) (h : heap) : Prop :=
  forall f c r, In (CKGet k FPos c f, r) (h_cache h) -> raw_get W k h f c = Ok r.

Lemma raw_get_cache W k h ca f c : raw_get W k (with_cache h ca) f c = raw_get W k h f c.
Proof. destruct k; reflexivity. Qed.

Lemma in_drop_nth {X} n (l : list X) x : In x (drop_nth n l) -> In x l.
Proof.
  revert n; induction l as [|y l IH]; intros [|n]; simpl; auto. intros [->|H]; eauto.
Qed.

Lemma aget_ckey_In key (ca : list (ckey * option fn)) r : aget ckey_eqb key ca = Some r -> In (key, r) ca.
Proof.
  intros H. apply aget_In in H; [assumption|exact ckey_eqb_eq].
Qed.

Lemma true_cached_get W k k' fm h f c :
  true_entries W k h -> true_entries W k (fst (cached_get W k' fm h f c)).
Proof.
  intros H. unfold cached_get. destruct (aget _ _ _); [assumption|].
  destruct (raw_get W k' h f c) eqn:E; simpl; [|assumption].
  intros f' c' r'. simpl. rewrite raw_get_cache. intros [[= -> -> -> -> ->]|Hin]; [assumption|auto].
Qed.

Lemma get_true W k h f c : true_entries W k h ->
  snd (cached_get W k FPos h f c) = raw_get W k h f c.
Proof.
  intros H. unfold cached_get. destruct (aget _ _ _) eqn:E.
  - simpl. symmetry. apply H. now apply aget_ckey_In.
  - destruct (raw_get W k h f c); reflexivity.
Qed.

Lemma raw_get_cached_get W k k' fm h f c f' c' :
  raw_get W k (fst (cached_get W k' fm h f c)) f' c' = raw_get W k h f' c'.
Proof.
  unfold cached_get. destruct (aget _ _ _); [reflexivity|].
  destruct (raw_get W k' h f c); simpl; [apply raw_get_cache|reflexivity].
Qed.

Lemma raw_get_announce W k fm h f c n f' c' :
  raw_get W k (cached_announce W fm h f c n) f' c' = raw_get W k h f' c'.
Proof.
  unfold cached_announce. destruct (aget _ _ _); [reflexivity|].
  destruct (resolve _ _ _); [|reflexivity]. destruct k; reflexivity.
Qed.

Lemma true_announce W k fm h f c n :
  true_entries W k h -> true_entries W k (cached_announce W fm h f c n).
Proof.
  intros H f' c' r' Hin. rewrite raw_get_announce. apply H. revert Hin.
  unfold cached_announce. destruct (aget _ _ _); [auto|].
  destruct (resolve _ _ _); [|auto]. simpl. intros [[=]|?]; assumption.
Qed.

Lemma estep_true W k h e : true_entries W k h ->
  true_entries W k (fst (estep W h e)) /\
  (forall f c, raw_get W k (fst (estep W h e)) f c = raw_get W k h f c) /\
  (forall f c r, In (k, f, c, r) (snd (estep W h e)) -> r = raw_get W k h f c).
Proof.
  intros H. destruct e as [k' f c|f c|n|]; simpl.
  - pose proof (true_cached_get W k k' FPos h f c H) as H1.
    pose proof (fun f' c' => raw_get_cached_get W k k' FPos h f c f' c') as H2.
    assert (H3 : k = k' -> snd (cached_get W k' FPos h f c) = raw_get W k h f c).
    { intros <-. now apply get_true. }
    destruct (cached_get W k' FPos h f c) as [h' r]. simpl in *. split; [assumption|]. split; [assumption|].
    intros f' c' r' [[= -> -> -> ->]|[]]. now apply H3.
  - split; [now apply true_announce|]. split; [intros; apply raw_get_announce|]. intros ? ? ? [].
  - split.
    + intros f c r Hin. rewrite raw_get_cache. apply H. simpl in Hin. now apply in_drop_nth in Hin.
    + split; [intros; apply raw_get_cache|intros ? ? ? []].
  - split; [intros ? ? ? []|]. split; [intros; apply raw_get_cache|intros ? ? ? []].
Qed.

Lemma eruns_true W k tr : forall h, true_entries W k h ->
  forall f c r, In (k, f, c, r) (snd (eruns W h tr)) -> r = raw_get W k h f c.
Proof.
  induction tr as [|e tr IH]; intros h H f c r; simpl; [intros []|].
  destruct (estep_true W k h e H) as [H1 [H2 H3]]. destruct (estep W h e) as [h1 o1]. simpl in *.
  specialize (IH h1 H1 f c r). destruct (eruns W h1 tr) as [h2 o2]. simpl in *.
  rewrite in_app_iff. intros [Hin|Hin]; [now apply H3|]. rewrite <- H2. now apply IH.
Qed.

Lemma no_true W k h : no_entries k h -> true_entries W k h.
Proof. intros H f c r Hin. exfalso. eapply H; eauto. Qed.

Lemma no_cached_get W k k' fm h f c :
  fm <> FPos \/ k' <> k -> no_entries k h -> no_entries k (fst (cached_get W k' fm h f c)).
Proof.
  intros Hk H. unfold cached_get. destruct (aget _ _ _); [assumption|].
  destruct (raw_get W k' h f c); simpl; [|assumption].
  intros f' c' r'. simpl. intros [[= -> -> -> -> ->]|Hin]; [destruct Hk; congruence|]. eapply H; eauto.
Qed.

Lemma no_step W k h o : calm k o -> no_entries k h -> no_entries k (fst (step W h o)).
Proof.
  intros Hc H. destruct o; cbn [step fst].
  - unfold do_set. destruct (resolve _ _ _); [|assumption]. destruct k0; exact H.
  - unfold do_fork. repeat (match goal with |- context [match ?x with _ => _ end] => destruct x end;
      try assumption).
  - unfold do_subclass. destruct (Nat.ltb _ _); exact H.
  - unfold cached_announce. destruct (aget _ _ _); [assumption|]. destruct (resolve _ _ _); [|assumption].
    intros f' c' r' [[=]|Hin]. eapply H; eauto.
  - exact H.
  - unfold do_suppress. destruct (resolve _ _ _); exact H.
  - simpl in Hc. pose proof (no_cached_get W k k0 fm h f c) as Hn.
    assert (Hf : fm <> FPos \/ k0 <> k) by (destruct fm; [now right|left; discriminate|left; discriminate]).
    specialize (Hn Hf H). destruct (cached_get W k0 fm h f c). exact Hn.
  - destruct (eruns W h tr). intros ? ? ? [].
  - simpl in Hc. pose proof (no_cached_get W k Val FPos h f c) as Hn.
    assert (Hf : FPos <> FPos \/ Val <> k) by (right; congruence).
    specialize (Hn Hf H). destruct (cached_get W Val FPos h f c). exact Hn.
  - simpl in Hc. pose proof (no_cached_get W k Deser FPos h f c) as Hn.
    assert (Hf : FPos <> FPos \/ Deser <> k) by (right; congruence).
    specialize (Hn Hf H). destruct (cached_get W Deser FPos h f c) as [h' [[g|]|e]]; simpl in *;
      [intros ? ? ? []|assumption|intros ? ? ? []].
  - intros f' c' r' Hin. apply in_drop_nth in Hin. eapply H; eauto.
Qed.

Lemma no_run W k ops : Forall (calm k) ops -> no_entries k (run W ops).
Proof.
  induction ops as [|o ops IH] using rev_ind; intros H; [intros ? ? ? []|].
  apply Forall_app in H as [H1 H2]. inversion H2; subst. rewrite run_snoc. apply no_step; auto.
Qed.

Lemma cache_transparent W k ops tr f c r :
  Forall (calm k) ops -> exists_in ops f ->
  In (k, f, c, r) (snd (step W (run W ops) (OCall tr))) -> r = Ok (lookup W (visible k ops f) c).
Proof.
  intros Hc Hf Hin. rewrite <- get_correct by assumption. cbn [step] in Hin.
  pose proof (eruns_true W k tr (run W ops) (no_true _ _ _ (no_run W k ops Hc)) f c r) as H.
  destruct (eruns W (run W ops) tr). now apply H.
Qed.

(** A direct lookup through the public form is transparent as long as nothing was
    registered or forked since the cache was last cleared. *)
Lemma call_clears W h tr : h_cache (fst (step W h (OCall tr))) = [].
Proof. cbn [step]. destruct (eruns W h tr). reflexivity. Qed.

Lemma get_after_call W k fm ops tr f c :
  exists_in ops f ->
  snd (step W (run W (ops ++ [OCall tr])) (OGet k fm f c)) =
  [(k, f, c, Ok (lookup W (visible k ops f) c))].
Proof.
  intros Hf. cbn [step]. unfold cached_get.
  assert (E : h_cache (run W (ops ++ [OCall tr])) = []) by (rewrite run_snoc; apply call_clears).
  rewrite E. cbn [aget]. rewrite get_correct by now apply exists_snoc. cbn [snd].
  assert (V : visible k (ops ++ [OCall tr]) f = visible k ops f).
  { unfold visible. rewrite a_run_snoc. destruct (a_run ops); reflexivity. }
  now rewrite V.
Qed.

(** ** Announced classes *)
Lemma announce_after_call W fm ops tr f g c name n :
  exists_in ops f -> exists_in ops g ->
  announced (run W (ops ++ [OCall tr; OAnnounce fm f c name])) g n =
  if String.eqb n (match name with Some s => s | None => w_name W c end) then Some c
  else announced (run W (ops ++ [OCall tr])) g n.
Proof.
  intros Hf Hg. replace (ops ++ [OCall tr; OAnnounce fm f c name])
    with ((ops ++ [OCall tr]) ++ [OAnnounce fm f c name]) by now rewrite <- app_assoc.
  rewrite run_snoc. cbn [step fst].
  assert (E : h_cache (run W (ops ++ [OCall tr])) = []) by (rewrite run_snoc; apply call_clears).
  pose proof (rel_run W (ops ++ [OCall tr])) as R.
  apply (exists_snoc _ (OCall tr)) in Hf. apply (exists_snoc _ (OCall tr)) in Hg.
  unfold cached_announce. rewrite E. cbn [aget]. rewrite (r_ann _ _ _ R f Hf).
  unfold announced. cbn [h_classes h_ann]. rewrite (r_ann _ _ _ R g Hg).
  destruct (r_annt _ _ _ R) as [m Hm]. rewrite Hm, (upd_nth_same _ _ _ _ Hm). apply sget_sset.
Qed.

(** ** Warnings *)
Lemma warns_exact W ops f code :
  exists_in ops f ->
  warns (run W ops) f code = negb (all_suppressed ops f) && negb (code_suppressed ops f code).
Proof.
  intros Hf. pose proof (rel_run W ops) as R. unfold warns.
  rewrite (flag_resolved _ _ _ _ R Hf).
  destruct (at_loc _ _ _ _ _ _ _ (r_codes _ _ _ R) f Hf) as [l [s [-> [-> Hs]]]].
  unfold all_suppressed, code_suppressed. now rewrite (Hs code).
Qed.

(** A class object without a setting of its own belongs to its base's fork. *)
Definition chain_ok (s : abs) : Prop :=
  forall x, x < a_size s -> a_flag s x = None -> a_base s x < x /\ a_owner s (a_base s x) = a_owner s x.

Lemma chain_run ops : chain_ok (a_run ops).
Proof.
  induction ops as [|o ops IH] using rev_ind.
  - intros x Hx. simpl in *. assert (x = 0) as -> by lia. discriminate.
  - rewrite a_run_snoc. destruct (a_run ops) as [n ow ba se de va co fl].
    unfold chain_ok in *. cbn [a_size a_flag a_base a_owner] in IH.
    destruct o as [[| |] f a hi v| p | p | | f b | f code | | | | |]; cbn [a_step]; try assumption.
    + destruct (Nat.ltb f n); assumption.
    + destruct (Nat.ltb f n); assumption.
    + destruct (Nat.ltb f n); assumption.
    + destruct (Nat.ltb_spec p n); [|assumption]. cbn [a_size a_flag a_base a_owner]. intros x Hx.
      destruct (Nat.eq_dec x n) as [->|Hne]; [rewrite upd_eq; discriminate|].
      rewrite (upd_neq fl), (upd_neq ba), (upd_neq ow n n x) by assumption. intros Hfl.
      destruct (IH x) as [H1 H2]; [lia|assumption|]. rewrite upd_neq by lia. auto.
    + destruct (Nat.ltb_spec p n); [|assumption]. cbn [a_size a_flag a_base a_owner]. intros x Hx.
      destruct (Nat.eq_dec x n) as [->|Hne].
      * rewrite !upd_eq, upd_neq by lia. auto.
      * rewrite (upd_neq fl), (upd_neq ba), (upd_neq ow n _ x) by assumption. intros Hfl.
        destruct (IH x) as [H1 H2]; [lia|assumption|]. rewrite upd_neq by lia. auto.
    + destruct (Nat.ltb f n); [|assumption]. cbn [a_size a_flag a_base a_owner]. intros x Hx.
      unfold upd. destruct (Nat.eqb x f); [discriminate|]. now apply IH.
    + destruct (Nat.ltb f n); assumption.
Qed.

Lemma silenced_same s s' f :
  chain_ok s -> f < a_size s ->
  (forall g, g < a_size s -> a_owner s g = a_owner s f -> a_flag s' g = a_flag s g) ->
  (forall g, g < a_size s -> a_base s' g = a_base s g) ->
  silenced s' f = silenced s f.
Proof.
  unfold silenced. intros Hch Hf Hfl Hba. generalize f at 1 3 as m. intros m. revert f Hf Hfl.
  induction m as [|m IH]; intros f Hf Hfl; cbn [in_force];
    rewrite (Hfl f) by auto; destruct (a_flag s f) eqn:E; auto.
  rewrite (Hba f) by assumption. destruct (Hch f Hf E) as [Hlt Hown].
  apply IH; [lia|]. intros g Hg Ho. apply Hfl; congruence.
Qed.

Lemma warns_isolated W ops f o code :
  exists_in ops f -> leaves_warnings_alone ops f o ->
  warns (run W (ops ++ [o])) f code = warns (run W ops) f code.
Proof.
  intros Hf Ho. rewrite !warns_exact by (assumption || now apply exists_snoc).
  pose proof (chain_run ops) as Hch. pose proof (owner_lt ops f Hf) as Hown.
  assert (H : all_suppressed (ops ++ [o]) f = all_suppressed ops f /\
              code_suppressed (ops ++ [o]) f code = code_suppressed ops f code).
  2:{ destruct H as [-> ->]. reflexivity. }
  unfold all_suppressed, code_suppressed. unfold leaves_warnings_alone in Ho.
  unfold exists_in, same_fork in *. rewrite a_run_snoc. revert Hf Ho Hch Hown.
  generalize (a_run ops) as s. intros s Hf Ho Hch Hown.
  destruct s as [n ow ba se de va co fl] eqn:Es. cbn [a_size a_owner] in *.
  destruct o as [[| |] g a hi v| p | p | | g b | g c' | | | | |]; cbn [a_step].
  all: try (split; reflexivity).
  all: try (destruct (Nat.ltb_spec g n) as [Hg|]; [|split; reflexivity]).
  all: try (destruct (Nat.ltb_spec p n) as [Hg|]; [|split; reflexivity]).
  all: try (split; reflexivity).
  - split.
    + apply silenced_same; cbn [a_size a_owner a_flag a_base]; auto; intros; rewrite upd_neq by lia; reflexivity.
    + cbn [a_codes a_owner]. rewrite (upd_neq ow) by lia. rewrite upd_neq by lia. reflexivity.
  - split.
    + apply silenced_same; cbn [a_size a_owner a_flag a_base]; auto; intros; rewrite upd_neq by lia; reflexivity.
    + cbn [a_codes a_owner]. rewrite (upd_neq ow) by lia. reflexivity.
  - specialize (Ho Hg). split; [|reflexivity].
    apply silenced_same; cbn [a_size a_owner a_flag a_base]; auto. intros x Hx Ex.
    apply upd_neq. congruence.
  - specialize (Ho Hg). split; [reflexivity|]. cbn [a_codes a_owner]. rewrite upd_neq by congruence.
    reflexivity.
Qed.

Lemma suppress_all_effect W ops f b code :
  exists_in ops f ->
  warns (run W (ops ++ [OSuppressAll f b])) f code = negb b && negb (code_suppressed ops f code).
Proof.
  intros Hf. rewrite warns_exact by now apply exists_snoc. f_equal.
  - f_equal. unfold all_suppressed, exists_in in *. rewrite a_run_snoc. destruct (a_run ops). simpl in *.
    apply Nat.ltb_lt in Hf. rewrite Hf. unfold silenced. cbn [RegistrySpec.a_flag RegistrySpec.a_base].
    destruct f; cbn [in_force]; now rewrite upd_eq.
  - f_equal. unfold code_suppressed. rewrite a_run_snoc. destruct (a_run ops). simpl.
    destruct (Nat.ltb f a_size); reflexivity.
Qed.

Lemma suppress_effect W ops f code g code' :
  exists_in ops f -> exists_in ops g -> same_fork ops f g ->
  warns (run W (ops ++ [OSuppress f code])) g code' =
  negb (String.eqb code' code) && warns (run W ops) g code'.
Proof.
  intros Hf Hg Hs. rewrite !warns_exact by (assumption || now apply exists_snoc).
  assert (H : all_suppressed (ops ++ [OSuppress f code]) g = all_suppressed ops g /\
              code_suppressed (ops ++ [OSuppress f code]) g code' =
              String.eqb code' code || code_suppressed ops g code').
  { unfold all_suppressed, code_suppressed, exists_in, same_fork in *. rewrite a_run_snoc.
    destruct (a_run ops). simpl in *. apply Nat.ltb_lt in Hf. rewrite Hf. split; [reflexivity|].
    simpl. rewrite <- Hs, upd_eq. reflexivity. }
  destruct H as [-> ->]. destruct (String.eqb code' code), (all_suppressed ops g); reflexivity.
Qed.

Lemma fresh_fork_warns W ops p code : exists_in ops p ->
  warns (run W (ops ++ [OFork p])) (next_id ops) code = warns (run W ops) p code.
Proof.
  intros Hp. rewrite !warns_exact by (assumption || now apply fork_size).
  unfold all_suppressed, code_suppressed, exists_in, next_id in *. rewrite a_run_snoc.
  destruct (a_run ops) as [n ow ba se de va co fl]. simpl in *. apply Nat.ltb_lt in Hp. rewrite Hp.
  simpl. rewrite !upd_eq. f_equal. f_equal. unfold silenced at 1.
  cbn [a_flag a_base]. destruct n; cbn [in_force]; now rewrite upd_eq.
Qed.
