(** * Constructor calls: no more than the document has places for objects *)
From Verif Require Import PyBaseFacts LoadFacts LoadTypes LoadObject InitSpec InitProofs.
From Coq Require Import Lia.
Local Close Scope Z_scope.
Local Open Scope string_scope.

Lemma constructions_app a b : constructions (a ++ b) = constructions a + constructions b.
Proof. unfold constructions. now rewrite filter_app, app_length. Qed.

(** ** Documents *)
Lemma within_below x y v : within x y -> inside y v -> within x v.
Proof. intros H Hv. induction H as [y|x z y Hi Hw IH]; [apply wi_inside with v; [exact Hv|constructor]|]. apply wi_inside with z; auto. Qed.
Lemma ordinary_inside x v : inside x v -> ordinary v -> ordinary x.
Proof. intros Hi Hn k d Hw. apply (Hn k d). eapply within_below; eauto. Qed.
Lemma within_top x v : within x v -> x = v \/ exists y, inside y v /\ within x y.
Proof.
  intros H. induction H as [v|x y v Hi Hw [-> |(z & Hz & Hw')]]; [now left| |].
  - right. exists x. split; [exact Hi|constructor].
  - right. exists z. split; [exact Hz|]. apply wi_inside with y; auto.
Qed.
Lemma ordinary_dict k d : dget (VStr "-meta") d = None -> NoDup (map fst d) -> (forall a x, In (a, x) d -> ordinary a /\ ordinary x) -> ordinary (VDict k d).
Proof.
  intros Hd Hnd Hp k' d' Hw. apply within_top in Hw as [Eq|(y & Hy & Hw)]; [now injection Eq as -> ->|].
  inversion Hy; subst; match goal with H : In _ d |- _ => destruct (Hp _ _ H) as [Ha Hx] end; [apply (Ha k' d' Hw)|apply (Hx k' d' Hw)].
Qed.
Lemma ordinary_atom v : atom v -> ordinary v.
Proof. intros Ha k d Hw. apply within_top in Hw as [<-|(y & Hy & _)]; [destruct Ha|]. inversion Hy; subst; destruct Ha. Qed.

Definition lplaces (l : list value) : nat := list_sum (map places l).
Definition vplaces (d : list (value * value)) : nat := list_sum (map (fun kx => places (snd kx)) d).
Definition kplaces (d : list (value * value)) : nat := list_sum (map (fun kx => places (fst kx)) d).
Lemma lplaces_cons x l : lplaces (x :: l) = places x + lplaces l.
Proof. reflexivity. Qed.
Lemma vplaces_cons k x d : vplaces ((k, x) :: d) = places x + vplaces d.
Proof. reflexivity. Qed.
Lemma kplaces_cons k x d : kplaces ((k, x) :: d) = places k + kplaces d.
Proof. reflexivity. Qed.
Lemma places_dict k d : places (VDict k d) = S (kplaces d + vplaces d).
Proof.
  cbn [places]. change (S (list_sum (map (fun kx => places (fst kx) + places (snd kx)) d)) = S (kplaces d + vplaces d)). f_equal.
  induction d as [|[a x] d IH]; [reflexivity|]. cbn [map fst snd]. rewrite sum_cons, IH, kplaces_cons, vplaces_cons. lia.
Qed.
Lemma sum_in {A} (w : A -> nat) l x : In x l -> w x <= list_sum (map w l).
Proof. induction l as [|y l IH]; [intros []|]. cbn [map]. rewrite sum_cons. intros [<-|H]; [lia|]. specialize (IH H). lia. Qed.
Lemma dset_v k x d : vplaces (dset k x d) <= vplaces d + places x.
Proof.
  unfold dset. induction d as [|[k' x'] d IH]; cbn [aset]; [rewrite vplaces_cons; cbn; lia|].
  destruct (py_eqb k k'); rewrite !vplaces_cons; lia.
Qed.
Lemma char_places s x : In x (str_chars s) -> places x = 0 /\ atom x.
Proof. unfold str_chars. intros H. apply in_map_iff in H as (a & <- & _). split; [reflexivity|exact I]. Qed.
Lemma sum_le_zero {A} (w : A -> nat) l : (forall x, In x l -> w x = 0) -> list_sum (map w l) = 0.
Proof. apply zero_sum. Qed.
Lemma iter_places R j l : valid_type j = true -> py_iter R j = Ok l -> lplaces l <= places j.
Proof.
  intros Hv H. destruct j; try discriminate; cbn [py_iter] in H; injection H as <-.
  - unfold lplaces. rewrite zero_sum; [lia|]. intros x Hx. now apply char_places in Hx.
  - cbn [places]. destruct l0; [cbn; lia|reflexivity].
  - cbn [places]. destruct l0; [cbn; lia|reflexivity].
  - cbn [places]. destruct l0; [cbn; lia|reflexivity].
  - rewrite places_dict. unfold lplaces, kplaces. rewrite map_map. lia.
Qed.
Lemma iter_ordinary R j l x : valid_type j = true -> ordinary j -> py_iter R j = Ok l -> In x l -> ordinary x.
Proof.
  intros Hv Hn H Hx. destruct j; try discriminate; cbn [py_iter] in H; injection H as <-.
  - apply char_places in Hx. now apply ordinary_atom.
  - eapply ordinary_inside; [|exact Hn]. now constructor.
  - eapply ordinary_inside; [|exact Hn]. now constructor.
  - eapply ordinary_inside; [|exact Hn]. now constructor.
  - apply in_map_iff in Hx as ([a y] & <- & Hin). eapply ordinary_inside; [|exact Hn]. eapply in_key; eauto.
Qed.
Lemma dget_in a d x : dget (VStr a) d = Some x -> In (VStr a, x) d.
Proof.
  unfold dget. induction d as [|[k y] d IH]; cbn [aget]; [discriminate|]. destruct (py_eqb (VStr a) k) eqn:Ek.
  - apply py_eqb_str in Ek as ->. intros [= ->]. now left.
  - intros H. right. now apply IH.
Qed.
(** The items of a sequence *)
Lemma item_nth CT R j l i x : valid_type j = true -> (forall k d, j <> VDict k d) -> py_iter R j = Ok l ->
  py_getitem CT j (VInt (Z.of_nat i)) = Ok x -> nth_error l i = Some x.
Proof.
  intros Hv Hd Hl H.
  assert (G : forall l, (if ((0 <=? (if Z.of_nat i <? 0 then Z.of_nat i + Z.of_nat (length l) else Z.of_nat i)) &&
                             ((if Z.of_nat i <? 0 then Z.of_nat i + Z.of_nat (length l) else Z.of_nat i) <? Z.of_nat (length l)))%Z
     then match nth_error l (Z.to_nat (if (Z.of_nat i <? 0)%Z then Z.of_nat i + Z.of_nat (length l) else Z.of_nat i)%Z) with Some y => Ok y | None => raise KIndex end
     else raise KIndex) = Ok x -> nth_error l i = Some x).
  { intros m. assert (Hz : (Z.of_nat i <? 0)%Z = false) by (apply Z.ltb_ge; lia). rewrite Hz, Nat2Z.id.
    destruct (_ && _)%bool; [|discriminate]. destruct (nth_error m i); [|discriminate]. now intros [= ->]. }
  destruct j; try discriminate; cbn [py_iter] in Hl; injection Hl as <-; cbn [py_getitem] in H.
  - now apply G.
  - now apply G.
  - now apply G.
  - destruct k; try discriminate. 
  - now destruct (Hd k d).
Qed.

(** ** Values under names *)
Definition at_name (d : list (value * value)) (a : string) : nat :=
  match dget (VStr a) d with Some x => places x | None => 0 end.
Definition nameable (names : list string) (k : value) : bool :=
  match k with VStr a => mem_str a names | _ => false end.
Lemma at_cons k x d a : at_name ((k, x) :: d) a = if py_eqb (VStr a) k then places x else at_name d a.
Proof. unfold at_name, dget. cbn [aget]. now destruct (py_eqb (VStr a) k). Qed.
Lemma names_head k x d names : NoDup names ->
  list_sum (map (at_name ((k, x) :: d)) names) <= (if nameable names k then places x else 0) + list_sum (map (at_name d) names).
Proof.
  intros Hn. induction Hn as [|a names Ha Hn IH]; [cbn; lia|]. cbn [map]. rewrite !sum_cons, at_cons.
  destruct (py_eqb (VStr a) k) eqn:Ek.
  - apply py_eqb_str in Ek as ->. cbn [nameable mem_str existsb]. rewrite String.eqb_refl. cbn [orb].
    assert (Hz : nameable names (VStr a) = false).
    { cbn [nameable]. unfold mem_str. apply Bool.not_true_is_false. intros Hex. apply existsb_exists in Hex as (b & Hb & Eb).
      apply String.eqb_eq in Eb as <-. now apply Ha. }
    rewrite Hz in IH. lia.
  - assert (Hm : nameable (a :: names) k = nameable names k).
    { destruct k; try reflexivity. cbn [nameable mem_str existsb]. destruct (String.eqb s a) eqn:Es; [|reflexivity].
      apply String.eqb_eq in Es as ->. cbn in Ek. now rewrite String.eqb_refl in Ek. }
    rewrite Hm. lia.
Qed.
Lemma names_split names : NoDup names -> forall d,
  list_sum (map (at_name d) names) + vplaces (filter (fun kx => negb (nameable names (fst kx))) d) <= vplaces d.
Proof.
  intros Hn. induction d as [|[k x] d IH].
  - cbn [filter]. rewrite zero_sum; [cbn; lia|reflexivity].
  - pose proof (names_head k x d names Hn). cbn [filter fst]. rewrite vplaces_cons.
    destruct (nameable names k); cbn [negb]; [lia|]. rewrite vplaces_cons. lia.
Qed.
Lemma names_sum names d : NoDup names -> list_sum (map (at_name d) names) <= vplaces d.
Proof. intros Hn. pose proof (names_split names Hn d). lia. Qed.
Lemma transform_v CT g d acc d' : transform_keys CT g d acc = Ok d' -> vplaces d' <= vplaces acc + vplaces d.
Proof.
  revert acc. induction d as [|[k x] d IH]; intros acc; cbn [transform_keys]; [intros [= <-]; change (vplaces []) with 0; lia|].
  destruct (g k) as [k'|]; [cbn [rbind]|discriminate]. destruct (hashable CT k'); [|discriminate].
  intros H. apply IH in H. pose proof (dset_v k' x acc). rewrite vplaces_cons. lia.
Qed.
(** All values are documents without meta data. *)
Definition ord_values (d : list (value * value)) : Prop := forall k x, In (k, x) d -> ordinary x.
Lemma dset_ord_values k x d : ord_values d -> ordinary x -> ord_values (dset k x d).
Proof.
  intros Hd Hx a y. unfold dset. revert Hd. induction d as [|[k' x'] d IH]; intros Hd; cbn [aset].
  - intros [[= <- <-]|[]]. exact Hx.
  - destruct (py_eqb k k'); intros [[= <- <-]|Hin]; try exact Hx.
    + apply (Hd a y). now right.
    + apply (Hd k' x'). now left.
    + apply IH; [|exact Hin]. intros b z Hb. apply (Hd b z). now right.
Qed.
Lemma ddel_ord_values k d : ord_values d -> ord_values (ddel k d).
Proof.
  intros Hd a y. unfold ddel. induction d as [|[k' x'] d IH]; cbn [adel]; [intros []|].
  destruct (py_eqb k k').
  - intros Hin. apply (Hd a y). now right.
  - intros [[= <- <-]|Hin]; [apply (Hd k' x'); now left|]. apply IH; [|exact Hin]. intros b z Hb. apply (Hd b z). now right.
Qed.
Lemma transform_ord_values CT g d acc d' : ord_values d -> ord_values acc -> transform_keys CT g d acc = Ok d' -> ord_values d'.
Proof.
  revert acc. induction d as [|[k x] d IH]; intros acc Hd Ha; cbn [transform_keys]; [now intros [= <-]|].
  destruct (g k) as [k'|]; [cbn [rbind]|discriminate]. destruct (hashable CT k'); [|discriminate].
  apply IH; [intros b z Hb; apply (Hd b z); now right|]. apply dset_ord_values; [exact Ha|]. apply (Hd k x). now left.
Qed.
Lemma dget_ord_values k d x : ord_values d -> dget k d = Some x -> ordinary x.
Proof. intros Hd H. apply aget_in in H as (k' & Hin). exact (Hd _ _ Hin). Qed.
Lemma dict_ord_values k d : ordinary (VDict k d) -> ord_values d.
Proof. intros Hn a x Hin. eapply ordinary_inside; [|exact Hn]. eapply in_value; eauto. Qed.
Lemma item_meta CT j a x : ordinary j -> py_getitem CT j (VStr a) = Ok x -> exists k d, j = VDict k d /\ dget (VStr a) d = Some x.
Proof.
  intros Hn H. destruct j; try discriminate; [destruct k; discriminate|]. cbn [py_getitem hashable] in H.
  destruct (dget (VStr a) d) eqn:Ed; [|discriminate]. injection H as <-. eauto.
Qed.

(** Moving a value to another key *)
Lemma ddel_v h d x : dget h d = Some x -> vplaces (ddel h d) + places x = vplaces d.
Proof.
  unfold dget, ddel. induction d as [|[k y] d IH]; cbn [aget adel]; [discriminate|]. rewrite vplaces_cons. destruct (py_eqb h k).
  - intros [= ->]. lia.
  - intros H. specialize (IH H). rewrite vplaces_cons. lia.
Qed.
Lemma dget_dset_moved h k x d : dget h d = Some x -> dget h (dset k x d) = Some x.
Proof.
  unfold dget, dset. induction d as [|[k' y] d IH]; cbn [aget aset]; [discriminate|]. destruct (py_eqb k k'); cbn [aget].
  - now destruct (py_eqb h k').
  - destruct (py_eqb h k'); [now intros [= ->]|exact IH].
Qed.
Lemma moved_v h k x d : dget h d = Some x -> vplaces (ddel h (dset k x d)) <= vplaces d.
Proof. intros H. pose proof (ddel_v h _ x (dget_dset_moved h k x d H)). pose proof (dset_v k x d). lia. Qed.
(** The '-keys' entries *)
Notation KEYS := (VStr "-keys").
Definition sections (d : list (value * value)) : list (value * value) := filter (fun kx => py_eqb KEYS (fst kx)) d.
Lemma sections_get d : dget KEYS d = option_map snd (hd_error (sections d)).
Proof.
  unfold dget, sections. induction d as [|[k y] d IH]; cbn [aget filter fst]; [reflexivity|].
  destruct (py_eqb KEYS k); [reflexivity|exact IH].
Qed.
Lemma eqb_text_right v s : py_eqb v (VStr s) = true -> v = VStr s.
Proof. destruct v; cbn; try discriminate; [destruct f; discriminate|]. intros H. apply String.eqb_eq in H. now subst. Qed.
Lemma sections_dset k x d : py_eqb KEYS k = false -> sections (dset k x d) = sections d.
Proof.
  intros Hk. unfold dset, sections. induction d as [|[k' y] d IH]; cbn [aset filter fst]; [now rewrite Hk|].
  destruct (py_eqb k k') eqn:Ek; cbn [filter fst].
  - destruct (py_eqb KEYS k') eqn:Es; [|reflexivity]. apply py_eqb_str in Es as ->. apply eqb_text_right in Ek as ->. cbn in Hk; discriminate.
  - now rewrite IH.
Qed.
Lemma sections_ddel h d : sections (ddel h d) = sections d \/
  exists a e b, sections d = (a ++ e :: b)%list /\ sections (ddel h d) = (a ++ b)%list.
Proof.
  unfold ddel, sections. induction d as [|[k' y] d IH]; cbn [adel filter fst]; [now left|].
  destruct (py_eqb h k') eqn:Eh; cbn [filter fst].
  - destruct (py_eqb KEYS k'); [|now left]. right. exists [], (k', y), (filter (fun kx => py_eqb KEYS (fst kx)) d). now split.
  - destruct IH as [IH|(a & e & b & IH1 & IH2)].
    + left. now rewrite IH.
    + right. destruct (py_eqb KEYS k').
      * exists ((k', y) :: a)%list, e, b. rewrite IH1, IH2. now split.
      * exists a, e, b. now split.
Qed.
Definition section_is (keys : value) (d : list (value * value)) : Prop := sections d = [] \/ exists k, sections d = [(k, keys)].
Lemma section_ddel keys h d : section_is keys d -> section_is keys (ddel h d).
Proof.
  intros H. destruct (sections_ddel h d) as [Eq|(a & e & b & H1 & H2)]; [unfold section_is; now rewrite Eq|].
  left. destruct H as [H|[k H]]; rewrite H in H1.
  - destruct a; discriminate.
  - destruct a as [|a0 [|a1 a]]; [|discriminate|discriminate]. injection H1 as <- <-. now rewrite H2.
Qed.
Lemma section_unique d keys : NoDup (map fst d) -> dget KEYS d = Some keys -> section_is keys d.
Proof.
  intros Hn H. rewrite sections_get in H. right.
  assert (Hall : forall d, NoDup (map fst d) -> sections d = [] \/ exists kx, sections d = [kx]).
  { clear. intros d Hn. unfold sections. induction d as [|[k y] d IH]; cbn [filter fst]; [now left|].
    inversion Hn as [|? ? Hk Hn']; subst. destruct (py_eqb KEYS k) eqn:Ek; [|now apply IH]. apply py_eqb_str in Ek as ->.
    right. exists (KEYS, y). f_equal. destruct (filter _ d) as [|[k2 y2] r] eqn:Ef; [reflexivity|]. exfalso. apply Hk.
    assert (Hin : In (k2, y2) (filter (fun kx => py_eqb KEYS (fst kx)) d)) by (rewrite Ef; now left).
    apply filter_In in Hin as [Hin Hk2]. cbn [fst] in Hk2. apply py_eqb_str in Hk2 as ->.
    exact (in_map fst _ _ Hin). }
  destruct (Hall d Hn) as [Eq|[[k y] Eq]]; rewrite Eq in H; cbn in H; [discriminate|]. injection H as <-. exists k. exact Eq.
Qed.

Section Bound.
Variable E : env.
Let CT := e_ct E.
Let R := e_rt E.
Hypothesis HC : classes_choiceless E.
Hypothesis HR : classes_regular E.
Hypothesis HD : forall g, deserializers_settled E g.

Definition bounded {A} (w : nat) (m : M A) : Prop := constructions (fst m) <= w.
Lemma bounded_bind {A B} w w' (m : M A) (h : A -> M B) : bounded w m ->
  (forall a, snd m = Done a -> bounded w' (h a)) -> bounded (w + w') (mbind m h).
Proof.
  unfold bounded, mbind. intros Hm Hh. destruct (snd m) as [a|e|]; cbn [fst]; try lia.
  specialize (Hh a eq_refl). rewrite constructions_app. lia.
Qed.
Lemma bounded_le {A} w w' (m : M A) : bounded w m -> w <= w' -> bounded w' m.
Proof. unfold bounded. lia. Qed.
Lemma bounded_ret {A} w (a : A) : bounded w (ret a).
Proof. unfold bounded. cbn. lia. Qed.
Lemma bounded_fail {A} w e : bounded w (fail e : M A).
Proof. unfold bounded. cbn. lia. Qed.
Lemma bounded_lift {A} w (r : res A) : bounded w (lift r).
Proof. destruct r; [apply bounded_ret|apply bounded_fail]. Qed.
(** A step without constructor calls *)
Lemma bounded_then {A B} w (m : M A) (h : A -> M B) : bounded 0 m ->
  (forall a, snd m = Done a -> bounded w (h a)) -> bounded w (mbind m h).
Proof. apply bounded_bind. Qed.
Lemma bounded_last {A B} w (m : M A) (h : A -> M B) : bounded w m -> (forall a, bounded 0 (h a)) -> bounded w (mbind m h).
Proof. intros Hm Hh. apply (bounded_le (w + 0)); [|lia]. apply bounded_bind; auto. Qed.
Lemma bounded_try {A} w w' (m : M A) h : bounded w m -> (forall e, snd m = Fail e -> bounded w' (h e)) -> bounded (w + w') (mtry m h).
Proof.
  unfold bounded, mtry. intros Hm Hh. destruct (snd m) as [a|e|]; cbn [fst]; try lia.
  specialize (Hh e eq_refl). rewrite constructions_app. lia.
Qed.
Lemma bounded_try0 {A} w (m : M A) h : bounded w m -> (forall e, bounded 0 (h e)) -> bounded w (mtry m h).
Proof. intros Hm Hh. apply (bounded_le (w + 0)); [|lia]. apply bounded_try; auto. Qed.
Lemma bounded_warn w g code : bounded w (warn E g code).
Proof. unfold warn. destruct (e_warn E g code); unfold bounded; cbn; lia. Qed.

Lemma ktk_none o : keys_to_keys (set_kt None o).
Proof. intros g k k'. discriminate. Qed.
Lemma ktk0 : keys_to_keys lopts0.
Proof. intros g k k'. discriminate. Qed.
Lemma all_in l : (fix all l := match l with [] => True | u :: r => choiceless u /\ all r end) l -> forall u, In u l -> choiceless u.
Proof. induction l as [|v l IH]; [intros _ u []|]. intros [Hv Hl] u [<-|Hu]; auto. Qed.
Lemma args_choiceless t : choiceless t -> forall u, In u (get_args (Some t)) -> choiceless u.
Proof.
  intros Ht u Hu. unfold get_args, raw_args in Hu. destruct t; try destruct Hu.
  - cbn [choiceless] in Ht. destruct args; [destruct Hu|]. now apply (all_in (_ :: _) Ht).
  - cbn [choiceless] in Ht. now apply (all_in _ (proj1 Ht)).
Qed.
Lemma class_choiceless v : choiceless (class_of v).
Proof. destruct v as [| | | | | | |[]|[]| | | |]; exact I. Qed.

Variable ld : nat -> lopts -> option ty -> value -> M value.
Hypothesis HL : forall f o cls j, keys_to_keys o -> hint_choiceless cls -> ordinary j -> bounded (places j) (ld f o cls j).
Hypothesis HN : forall f o j, ordinary j -> bounded 0 (ld f o (Some TNoneT) j).
Variable f : nat.

Lemma list_go_bound o b t l : keys_to_keys o -> hint_choiceless t -> (forall x, In x l -> ordinary x) -> forall i,
  bounded (lplaces l) (deser_list_go E ld f o b t i l).
Proof.
  intros Ho Ht. induction l as [|x l IH]; intros Hl i; cbn [deser_list_go]; [apply bounded_ret|]. rewrite lplaces_cons.
  assert (Hx : bounded (places x) (ld f o t x)) by (apply HL; auto; apply Hl; now left).
  specialize (IH (fun y Hy => Hl y (or_intror Hy))).
  destruct (ld f o t x) as [evs [y|e|]]; cbn [fst snd] in *.
  - apply bounded_bind; [exact Hx|]. intros _ _. apply bounded_last; [apply IH|]. intros ys. apply bounded_ret.
  - assert (Hf : forall e', bounded (places x + lplaces l) ((evs, Fail e') : M (list value))) by (intros e'; eapply bounded_le; [exact Hx|lia]).
    destruct (is_deser (e_kind e)); [|apply Hf]. destruct b; [|apply Hf].
    apply bounded_bind; [exact Hx|]. intros _ _. apply bounded_then; [apply bounded_warn|]. intros _ _. apply IH.
  - eapply bounded_le; [exact Hx|lia].
Qed.
Lemma list_bound o args j : keys_to_keys o -> (forall t, In t args -> choiceless t) -> ordinary j -> valid_type j = true ->
  bounded (places j) (deser_list E ld f o args j).
Proof.
  intros Ho Ha Hj Hv. unfold deser_list. apply bounded_then; [apply bounded_lift|]. intros l Hl. apply lift_done in Hl.
  apply (bounded_le (lplaces l)); [|eapply iter_places; eauto]. apply list_go_bound.
  - destruct args; exact Ho.
  - destruct args as [|t args]; [exact I|]. apply Ha. now left.
  - intros x Hx. eapply iter_ordinary; eauto.
Qed.
Lemma nt_seq_bound o j l fields : keys_to_keys o -> ordinary j -> valid_type j = true -> (forall k d, j <> VDict k d) ->
  py_iter R j = Ok l -> (forall fd, In fd fields -> hint_choiceless (nf_hint fd)) ->
  (forall fd x, In fd fields -> nf_default fd = Some x -> atom x /\ places x = 0) -> forall i,
  bounded (lplaces (skipn i l)) (deser_nt_go E ld f o j None (length l) i fields).
Proof.
  intros Ho Hj Hv Hd Hl. induction fields as [|fd fields IH]; intros Hh Hdef i; cbn [deser_nt_go]; [apply bounded_ret|].
  apply bounded_then; [apply bounded_lift|]. intros x Hx. apply lift_done in Hx.
  apply bounded_then; [destruct (_ && _)%bool; [apply bounded_fail|apply bounded_ret]|]. intros _ _.
  assert (Hfx : ordinary x /\ places x + lplaces (skipn (S i) l) <= lplaces (skipn i l)).
  { destruct (Nat.ltb i (length l)) eqn:Ei.
    - apply (item_nth _ R _ l) in Hx; auto. split; [eapply iter_ordinary; eauto; now apply nth_error_In in Hx|].
      assert (Hs : skipn i l = x :: skipn (S i) l).
      { clear -Hx. revert i Hx. induction l as [|y l IH]; intros i Hx; [destruct i; discriminate|].
        destruct i as [|i]; [now injection Hx as ->|]. cbn [skipn nth_error] in *. rewrite (IH i Hx). reflexivity. }
      rewrite Hs, lplaces_cons. lia.
    - apply Nat.ltb_ge in Ei. rewrite !skipn_all2 by lia. change (lplaces []) with 0.
      destruct (nf_default fd) as [y|] eqn:Ey; injection Hx as <-.
      + destruct (Hdef fd y) as [Hat Hp]; [now left|exact Ey|]. rewrite Hp. split; [now apply ordinary_atom|lia].
      + split; [now apply ordinary_atom|cbn; lia]. }
  eapply bounded_le; [|exact (proj2 Hfx)]. apply bounded_bind.
  - apply HL; [exact Ho|apply Hh; now left|apply Hfx].
  - intros y _. apply bounded_last; [|intros; apply bounded_ret]. apply IH.
    + intros fd' H'. apply Hh. now right.
    + intros fd' x' H'. apply Hdef. now right.
Qed.
Lemma nt_dict_bound o j d len fields : keys_to_keys o -> ord_values d ->
  (forall fd, In fd fields -> hint_choiceless (nf_hint fd)) ->
  (forall fd x, In fd fields -> nf_default fd = Some x -> atom x /\ places x = 0) -> forall i,
  bounded (list_sum (map (at_name d) (map nf_name fields))) (deser_nt_go E ld f o j (Some d) len i fields).
Proof.
  intros Ho Hd. induction fields as [|fd fields IH]; intros Hh Hdef i; cbn [deser_nt_go]; [apply bounded_ret|].
  apply bounded_then; [apply bounded_lift|]. intros x Hx. apply lift_done in Hx.
  apply bounded_then; [destruct (_ && _)%bool; [apply bounded_fail|apply bounded_ret]|]. intros _ _.
  cbn [map]. rewrite sum_cons.
  assert (Hfx : ordinary x /\ places x <= at_name d (nf_name fd)).
  { destruct (Nat.ltb i len).
    - unfold at_name. destruct (dget _ d) as [y|] eqn:Ey; [|discriminate]. injection Hx as <-. split; [eapply dget_ord_values; eauto|lia].
    - destruct (nf_default fd) as [y|] eqn:Ey; injection Hx as <-.
      + destruct (Hdef fd y) as [Hat Hp]; [now left|exact Ey|]. rewrite Hp. split; [now apply ordinary_atom|lia].
      + split; [now apply ordinary_atom|cbn; lia]. }
  apply bounded_bind.
  - eapply bounded_le; [|apply Hfx]. apply HL; [exact Ho|apply Hh; now left|apply Hfx].
  - intros y _. apply bounded_last; [|intros; apply bounded_ret]. apply IH.
    + intros fd' H'. apply Hh. now right.
    + intros fd' x' H'. apply Hdef. now right.
Qed.
Lemma namedtuple_bound o k j : keys_to_keys o -> ordinary j -> valid_type j = true -> bounded (places j) (deser_namedtuple E ld f o k j).
Proof.
  intros Ho Hj Hv. unfold deser_namedtuple.
  assert (Hh : forall fd, In fd (nt_fields (e_ct E) k) -> hint_choiceless (nf_hint fd)) by apply (cc_fields _ HC).
  assert (Hdef : forall fd x, In fd (nt_fields (e_ct E) k) -> nf_default fd = Some x -> atom x /\ places x = 0) by apply (cr_defaults _ HR).
  assert (Hseq : (forall kd d, j <> VDict kd d) -> bounded (places j)
     (dom l <- lift (py_iter (e_rt E) j); dom vs <- deser_nt_go E ld f o j None (length l) 0 (nt_fields (e_ct E) k); ret (VNT k vs))).
  { intros Hd. apply bounded_then; [apply bounded_lift|]. intros l Hl. apply lift_done in Hl. apply bounded_last; [|intros; apply bounded_ret].
    eapply bounded_le; [apply nt_seq_bound; auto|]. cbn [skipn]. eapply iter_places; eauto. }
  destruct j as [| | | | | | | |kd d| | | |]; try (rewrite bind_ret_l; apply Hseq; discriminate).
  apply bounded_then; [apply bounded_last; [apply bounded_lift|intros; apply bounded_ret]|]. intros dd Hdd.
  apply bind_done in Hdd as (d' & Hd' & Hdd). injection Hdd as <-. apply lift_done in Hd'.
  apply bounded_then; [apply bounded_lift|]. intros l _. apply bounded_last; [|intros; apply bounded_ret].
  eapply bounded_le; [apply nt_dict_bound; auto; eapply transform_ord_values; [eapply dict_ord_values; exact Hj| |exact Hd']; intros a x []|].
  apply transform_v in Hd'. change (vplaces []) with 0 in Hd'. pose proof (names_sum (map nf_name (nt_fields (e_ct E) k)) d' (cr_fields _ HR k)).
  rewrite places_dict. lia.
Qed.
Lemma tuple_go_bound o l : keys_to_keys o -> (forall x, In x l -> ordinary x) -> forall ts, (forall t, In t ts -> choiceless t) ->
  bounded (lplaces l) (deser_tuple_go ld f o l ts).
Proof.
  intros Ho. induction l as [|x l IH]; intros Hl ts Hts; cbn [deser_tuple_go]; [apply bounded_ret|].
  destruct ts as [|t ts]; [apply bounded_fail|]. rewrite lplaces_cons. apply bounded_bind.
  - apply HL; [exact Ho|apply Hts; now left|apply Hl; now left].
  - intros y _. apply bounded_last; [|intros; apply bounded_ret]. apply IH; [intros z Hz; apply Hl; now right|intros u Hu; apply Hts; now right].
Qed.
Lemma mmap_bound o l : keys_to_keys o -> (forall x, In x l -> ordinary x) -> bounded (lplaces l) (mmap (ld f o None) l).
Proof.
  intros Ho. induction l as [|x l IH]; intros Hl; cbn [mmap]; [apply bounded_ret|]. rewrite lplaces_cons. apply bounded_bind.
  - apply HL; [exact Ho|exact I|apply Hl; now left].
  - intros y _. apply bounded_last; [|intros; apply bounded_ret]. apply IH. intros z Hz. apply Hl. now right.
Qed.
Lemma tuple_bound o t j : keys_to_keys o -> choiceless t -> ordinary j -> valid_type j = true -> bounded (places j) (deser_tuple E ld f o t j).
Proof.
  intros Ho Ht Hj Hv. unfold deser_tuple. set (p := mbind _ _).
  assert (Hp : bounded (places j) p).
  { unfold p. apply bounded_then; [apply bounded_lift|]. intros l Hl. apply lift_done in Hl.
    assert (Hol : forall x, In x l -> ordinary x) by (intros x Hx; eapply iter_ordinary; eauto).
    apply (bounded_le (lplaces l)); [|eapply iter_places; eauto].
    destruct (get_args (Some t)) as [|t0 ts] eqn:Ea.
    - apply bounded_last; [|intros; apply bounded_ret]. apply mmap_bound; [apply ktk_none|exact Hol].
    - apply bounded_last; [|intros; apply bounded_ret]. apply tuple_go_bound; [apply ktk_none|exact Hol|].
      pose proof (args_choiceless t Ht) as Hc. rewrite Ea in Hc. intros u Hu. destruct (ty_eqb TEllipsis _); [|now apply Hc].
      apply repeat_spec in Hu as ->. apply Hc. now left. }
  destruct t; try exact Hp. destruct (ci_kind (e_ct E c)); try exact Hp. now apply namedtuple_bound.
Qed.
Lemma union_go_bound o j ts : keys_to_keys o -> ordinary j -> (forall t, In t ts -> choiceless t) ->
  bounded (length (filter (fun u => negb (ty_eqb u TNoneT)) ts) * places j) (deser_union_go ld f o j ts).
Proof.
  intros Ho Hj. induction ts as [|t ts IH]; intros Hts; cbn [deser_union_go filter]; [apply bounded_fail|].
  assert (Hr : forall e, bounded (length (filter (fun u => negb (ty_eqb u TNoneT)) ts) * places j)
     (if is_jsons (e_kind e) then deser_union_go ld f o j ts else fail e)).
  { intros e. destruct (is_jsons (e_kind e)); [|apply bounded_fail]. apply IH. intros u Hu. apply Hts. now right. }
  destruct (ty_eqb t TNoneT) eqn:Et; cbn [negb].
  - apply ty_eqb_eq in Et as ->. change (length (filter (fun u => negb (ty_eqb u TNoneT)) ts) * places j) with (0 + length (filter (fun u => negb (ty_eqb u TNoneT)) ts) * places j).
    apply bounded_try; [now apply HN|]. intros e _. apply Hr.
  - cbn [length Nat.mul]. apply bounded_try; [|intros e _; apply Hr]. apply HL; [exact Ho|apply Hts; now left|exact Hj].
Qed.

(** ** Dicts *)
Lemma hashed_go_bound o kt stored keys : keys_to_keys o -> choiceless kt -> ord_values stored -> forall result,
  ord_values result -> section_is keys result ->
  bounded (vplaces stored) (hashed_go E ld f o kt stored result) /\
  forall d', snd (hashed_go E ld f o kt stored result) = Done d' -> vplaces d' + places keys <= vplaces result /\ ord_values d'.
Proof.
  intros Ho Hk. induction stored as [|[h orig] stored IH]; intros Hs result Hr Hsec; cbn [hashed_go].
  - split; [destruct (dhas _ result); [apply bounded_ret|apply bounded_fail]|]. intros d'.
    destruct (dhas KEYS result) eqn:Ed; [|discriminate]. intros [= <-].
    assert (Hg : dget KEYS result = Some keys).
    { unfold dhas, amem in Ed. fold (dget KEYS result) in Ed. rewrite sections_get in *.
      destruct Hsec as [Eq|[k Eq]]; rewrite Eq in *; [discriminate|reflexivity]. }
    split; [rewrite (ddel_v _ _ _ Hg); lia|now apply ddel_ord_values].
  - specialize (IH (fun k x Hin => Hs k x (or_intror Hin))). rewrite vplaces_cons.
    assert (Hstep : forall k x, dget h result = Some x -> (hashable (e_ct E) k && negb (py_eqb KEYS k))%bool = true ->
       ord_values (ddel h (dset k x result)) /\ section_is keys (ddel h (dset k x result))).
    { intros k x Hx Hb. apply andb_prop in Hb as [_ Hb]. apply Bool.negb_true_iff in Hb. split.
      - apply ddel_ord_values, dset_ord_values; [exact Hr|eapply dget_ord_values; eauto].
      - apply section_ddel. unfold section_is. now rewrite (sections_dset k x result Hb). }
    split.
    + apply bounded_bind; [apply HL; [exact Ho|exact Hk|apply (Hs h orig); now left]|]. intros k _.
      destruct (dget h result) as [x|] eqn:Ex; [|apply bounded_fail]. destruct (_ && _)%bool eqn:Eb; [|apply bounded_fail].
      destruct (Hstep k x eq_refl Eb) as [H1 H2]. apply (IH _ H1 H2).
    + intros d' Hd'. apply bind_done in Hd' as (k & _ & Hd'). cbn beta in Hd'.
      destruct (dget h result) as [x|] eqn:Ex; [|discriminate]. destruct (_ && _)%bool eqn:Eb in Hd'; [|discriminate].
      destruct (Hstep k x eq_refl Eb) as [H1 H2]. destruct (IH _ H1 H2) as [_ H3]. specialize (H3 d' Hd').
      pose proof (moved_v h k x result Ex). split; [lia|apply H3].
Qed.
Lemma dict_go_bound ok ov g kc vc : keys_to_keys ok -> keys_to_keys ov -> hint_choiceless kc -> hint_choiceless vc ->
  (forall k k', g k = Ok k' -> places k' <= places k /\ (ordinary k -> ordinary k')) ->
  forall d acc, ord_values d -> (kc <> None -> forall k x, In (k, x) d -> ordinary k) ->
  bounded ((match kc with Some _ => kplaces d | None => 0 end) + vplaces d) (deser_dict_go E ld f ok ov g kc vc d acc).
Proof.
  intros Hok Hov Hkc Hvc Hg. induction d as [|[k x] d IH]; intros acc Hd Hk; cbn [deser_dict_go]; [apply bounded_ret|].
  rewrite kplaces_cons, vplaces_cons. apply bounded_then; [apply bounded_lift|]. intros k1 Hk1. apply lift_done in Hk1. destruct (Hg _ _ Hk1) as [Hg1 Hg2].
  assert (IH' : forall acc, bounded ((match kc with Some _ => kplaces d | None => 0 end) + vplaces d) (deser_dict_go E ld f ok ov g kc vc d acc)).
  { intros acc'. apply IH; [intros a y Hin; apply (Hd a y); now right|]. intros Hn a y Hin. apply (Hk Hn a y). now right. }
  assert (Hrest : forall k2, bounded (places x + ((match kc with Some _ => kplaces d | None => 0 end) + vplaces d))
     (dom y <- ld f ov vc x; if hashable (e_ct E) k2 then deser_dict_go E ld f ok ov g kc vc d (dset k2 y acc) else fail (exn_of KType))).
  { intros k2. apply bounded_bind; [apply HL; [exact Hov|exact Hvc|apply (Hd k x); now left]|]. intros y _.
    destruct (hashable (e_ct E) k2); [apply IH'|apply bounded_fail]. }
  destruct kc as [t|].
  - eapply bounded_le; [apply (bounded_bind (places k)); [|intros k2 _; apply Hrest]|lia].
    eapply bounded_le; [|exact Hg1]. apply HL; [exact Hok|exact Hkc|]. apply Hg2, (Hk ltac:(discriminate) k x). now left.
  - rewrite bind_ret_l. eapply bounded_le; [apply Hrest|lia].
Qed.
Lemma dict_bound o args j : keys_to_keys o -> (forall t, In t args -> choiceless t) -> ordinary j ->
  bounded (places j) (deser_dict E ld f o args j).
Proof.
  intros Ho Ha Hj. unfold deser_dict. destruct j as [| | | | | | | |kd d| | | |]; try apply bounded_fail.
  set (g := match lo_kt o with Some g => g | None => fun k => Ok k end).
  assert (Hg : forall k k', g k = Ok k' -> places k' <= places k /\ (ordinary k -> ordinary k')).
  { intros k k' H. unfold g in H. destruct (lo_kt o) as [g'|] eqn:Eg; [eapply Ho; eauto|]. injection H as <-. split; [lia|auto]. }
  assert (Hov : keys_to_keys (set_kt (Some g) o)) by (intros g' k k' [= <-]; apply Hg).
  assert (Hd : ord_values d) by (eapply dict_ord_values; eauto).
  assert (Hkd : forall k x, In (k, x) d -> ordinary k) by (intros k x Hin; eapply ordinary_inside; [eapply in_key; exact Hin|exact Hj]).
  rewrite places_dict.
  assert (Hgo : forall dd b, ord_values dd -> (b = false -> dd = d) ->
     bounded ((if b then 0 else kplaces d) + vplaces dd)
      (match args with
       | [tk; tv] => deser_dict_go E ld f (set_kt None o) (set_kt (Some g) o) g (if b then None else Some tk) (Some tv) dd []
       | _ => deser_dict_go E ld f (set_kt None o) (set_kt (Some g) o) g None None dd []
       end)).
  { intros dd b Hdd Hb.
    assert (Hn : forall n vc, hint_choiceless vc -> bounded (n + vplaces dd) (deser_dict_go E ld f (set_kt None o) (set_kt (Some g) o) g None vc dd [])).
    { intros n vc Hvc. eapply bounded_le; [apply dict_go_bound; auto; [apply ktk_none|exact I|congruence]|cbn; lia]. }
    destruct args as [|a1 [|a2 [|a3 args]]]; try (now apply Hn).
    assert (Hc1 : choiceless a1) by (apply Ha; now left). assert (Hc2 : choiceless a2) by (apply Ha; right; now left).
    destruct b; [now apply Hn|]. rewrite (Hb eq_refl) in *. apply dict_go_bound; auto; apply ktk_none. }
  unfold load_hashed_keys.
  assert (Hplain : bounded (S (kplaces d + vplaces d)) (dom dh <- ret (d, false);
      match args with
       | [tk; tv] => deser_dict_go E ld f (set_kt None o) (set_kt (Some g) o) g (if snd dh then None else Some tk) (Some tv) (fst dh) []
       | _ => deser_dict_go E ld f (set_kt None o) (set_kt (Some g) o) g None None (fst dh) []
       end)).
  { rewrite bind_ret_l. cbn [fst snd]. eapply bounded_le; [apply (Hgo d false); auto|cbn; lia]. }
  destruct (dget KEYS d) as [keys|] eqn:Ek; [|exact Hplain].
  destruct (py_iter (e_rt E) keys) as [[|k0 ks]|e]; cbn [lift]; rewrite ?bind_ret_l; [exact Hplain| |].
  - assert (Hno : forall e, bounded (S (kplaces d + vplaces d)) (dom dh <- (fail e : M (list (value * value) * bool));
      match args with
       | [tk; tv] => deser_dict_go E ld f (set_kt None o) (set_kt (Some g) o) g (if snd dh then None else Some tk) (Some tv) (fst dh) []
       | _ => deser_dict_go E ld f (set_kt None o) (set_kt (Some g) o) g None None (fst dh) []
       end)) by (intros e; unfold bounded; cbn; lia).
    destruct args as [|a1 [|a2 [|a3 args]]]; try apply Hno. destruct keys as [| | | | | | | |kk stored| | | |]; try apply Hno.
    assert (Hst : ord_values stored) by (eapply dict_ord_values; eapply (dget_ord_values KEYS d); eauto).
    destruct (hashed_go_bound o a1 stored (VDict kk stored) Ho (Ha a1 (or_introl eq_refl)) Hst d Hd) as [H1 H2].
    { apply section_unique; [|exact Ek]. apply (Hj kd d). constructor. }
    pose proof (places_dict kk stored) as Hps.
    apply (bounded_le (places (VDict kk stored) + (vplaces d - places (VDict kk stored)))).
    2:{ pose proof (ddel_v KEYS d _ Ek). lia. }
    apply bounded_bind.
    + apply bounded_last; [|intros; apply bounded_ret]. eapply bounded_le; [exact H1|lia].
    + intros dh Hdh. apply bind_done in Hdh as (d' & Hd' & Hdh). injection Hdh as <-. cbn [fst snd].
      destruct (H2 d' Hd') as [H3 H4]. eapply bounded_le; [apply (Hgo d' true); [exact H4|discriminate]|]. lia.
  - unfold bounded. cbn. lia.
Qed.
Lemma mapping_bound o t j : keys_to_keys o -> choiceless t -> ordinary j -> bounded (places j) (deser_mapping E ld f o t j).
Proof.
  intros Ho Ht Hj. unfold deser_mapping. apply bounded_then; [apply bounded_lift|]. intros args Ha. apply lift_done in Ha.
  apply bounded_last.
  - apply dict_bound; auto. intros u Hu. apply (args_choiceless t Ht). destruct (get_args (Some t)) as [|a [|b [|c r]]]; try discriminate; injection Ha as <-; exact Hu.
  - intros d. destruct t; try apply bounded_lift; [apply bounded_ret|]. destruct h; try apply bounded_lift; apply bounded_ret.
Qed.
Lemma defaultdict_bound o t j : keys_to_keys o -> choiceless t -> ordinary j -> bounded (places j) (deser_defaultdict ld f o t j).
Proof.
  intros Ho Ht Hj. unfold deser_defaultdict. apply bounded_then; [apply bounded_lift|]. intros t' Ha. apply lift_done in Ha.
  apply bounded_last; [|intros r; destruct r; try apply bounded_fail; apply bounded_ret]. apply HL; auto.
  pose proof (args_choiceless t Ht) as Hc. destruct (get_args (Some t)) as [|a [|b [|c r]]]; try discriminate; injection Ha as <-; [exact I|].
  cbn. split; [apply Hc; now left|]. split; [apply Hc; right; now left|exact I].
Qed.
Lemma iterable_bound o t j : keys_to_keys o -> choiceless t -> ordinary j -> valid_type j = true -> bounded (places j) (deser_iterable E ld f o t j).
Proof.
  intros Ho Ht Hj Hv. unfold deser_iterable. apply bounded_then; [apply bounded_lift|]. intros args Ha. apply lift_done in Ha.
  apply bounded_last.
  - apply list_bound; auto. intros u Hu. apply (args_choiceless t Ht). unfold get_args. destruct (raw_args t) as [[|a [|b r]]|]; try discriminate; injection Ha as <-; exact Hu.
  - intros l. destruct t; try apply bounded_lift. destruct h; try apply bounded_lift; try apply bounded_ret; destruct (forallb _ l); try apply bounded_ret; apply bounded_fail.
Qed.

(** ** Objects *)
Lemma value_bound o hints p x : keys_to_keys o -> hint_choiceless (pa_hint p) -> ordinary x -> bounded (places x) (value_from_obj E ld f o hints p x).
Proof.
  intros Ho Hp Hx. unfold value_from_obj. apply bounded_then; [apply bounded_lift|]. intros mh Hmh. apply lift_done in Hmh.
  apply HL; [exact Ho| |exact Hx]. unfold determine_precedence.
  destruct (fst mh) as [t|] eqn:Em; [|destruct (pa_hint p); exact Hp]. cbn.
  destruct (dget _ hints) as [s|]; [|injection Hmh as <-; discriminate]. destruct (truthy _ s); [|injection Hmh as <-; discriminate].
  destruct s; try discriminate. destruct (e_resolve E f s) as [t'|] eqn:Et; [|discriminate]. cbn [rbind] in Hmh.
  destruct (shift_hints _ hints []); [|discriminate]. injection Hmh as <-. cbn in Em. injection Em as <-. eapply (cc_names _ HC); eauto.
Qed.
Lemma attr_bound o hints d getters p : keys_to_keys o -> hint_choiceless (pa_hint p) -> ord_values d ->
  bounded (at_name d (pa_name p)) (value_for_attr E ld f o hints d getters p).
Proof.
  intros Ho Hp Hd. unfold value_for_attr, at_name. destruct (dget _ d) as [x|] eqn:Ex.
  - apply bounded_last; [|intros; apply bounded_ret]. apply value_bound; auto. eapply dget_ord_values; eauto.
  - destruct (sget (pa_name p) getters) as [g|].
    + unfold bounded. destruct g; cbn; lia.
    + destruct (pa_default p); [apply bounded_ret|]. destruct (pa_var p); [apply bounded_ret|].
      apply bounded_then; [apply bounded_lift|]. intros b _. destruct b; [apply bounded_ret|apply bounded_fail].
Qed.
Lemma args_bound o hints d getters ps : keys_to_keys o -> (forall p, In p ps -> hint_choiceless (pa_hint p)) -> ord_values d ->
  bounded (list_sum (map (at_name d) (map pa_name ps))) (constructor_args E ld f o hints d getters ps).
Proof.
  intros Ho Hps Hd. induction ps as [|p ps IH]; cbn [constructor_args]; [apply bounded_ret|]. cbn [map]. rewrite sum_cons.
  apply bounded_bind; [apply attr_bound; auto; apply Hps; now left|]. intros x _.
  apply bounded_last; [|intros; apply bounded_ret]. apply IH. intros p' H'. apply Hps. now right.
Qed.
Lemma args_present o hints d getters ps args : snd (constructor_args E ld f o hints d getters ps) = Done args ->
  forall p, In p ps -> dget (VStr (pa_name p)) d <> None -> shas (pa_name p) args = true.
Proof.
  revert args. induction ps as [|p ps IH]; intros args; cbn [constructor_args]; [intros _ p []|].
  intros H. apply bind_done in H as (x & Hx & H). apply bind_done in H as (rest & Hrest & H). cbn in H. injection H as <-.
  assert (Hcons : forall a y (l : list (string * value)) b, shas b l = true -> shas b ((a, y) :: l) = true).
  { intros a y l b. unfold shas, amem. cbn [aget]. now destruct (String.eqb b a). }
  intros q [<-|Hq] Hd.
  - unfold value_for_attr in Hx. destruct (dget (VStr (pa_name p)) d) as [y|]; [|congruence].
    apply bind_done in Hx as (z & _ & Hx). injection Hx as <-. unfold shas, amem. cbn [aget]. now rewrite String.eqb_refl.
  - specialize (IH rest Hrest q Hq Hd). destruct x; [now apply Hcons|exact IH].
Qed.
Lemma remaining_bound o k rest : keys_to_keys o -> ord_values rest -> forall attrs,
  bounded (vplaces rest) (set_remaining E ld f o (e_ct E k) rest attrs).
Proof.
  intros Ho. induction rest as [|[a x] rest IH]; intros Hr attrs; cbn [set_remaining]; [apply bounded_ret|]. rewrite vplaces_cons.
  specialize (IH (fun b y Hin => Hr b y (or_intror Hin))).
  apply bounded_then.
  { destruct (match a with VStr s => _ | _ => _ end); [apply bounded_ret|]. destruct (has_keys_section x); [apply bounded_warn|apply bounded_ret]. }
  intros _ _. apply bounded_bind.
  - apply HL; [exact Ho| |apply (Hr a x); now left].
    destruct a; cbn; try apply class_choiceless. destruct (sget s (ci_hints (e_ct E k))) as [t|] eqn:Et; [|apply class_choiceless].
    apply (cc_hints _ HC k s). unfold sget in Et. revert Et. clear. generalize (ci_hints (e_ct E k)). intros l.
    induction l as [|[b u] l IH]; cbn [aget]; [discriminate|]. destruct (String.eqb s b) eqn:Eb.
    + apply String.eqb_eq in Eb as ->. intros [= ->]. now left.
    + intros H. right. now apply IH.
  - intros y _. destruct a; try apply bounded_fail. destruct (ci_set (e_ct E k) s y attrs); [apply IH|].
    destruct (is_attributeerror _); [apply IH|apply bounded_fail].
Qed.
Lemma getters_bound k gs : forall attrs, bounded 0 (set_getter_attrs (e_ct E k) gs attrs).
Proof.
  induction gs as [|[a g] gs IH]; intros attrs; cbn [set_getter_attrs]; [apply bounded_ret|].
  apply bounded_then; [unfold bounded; cbn; lia|]. intros _ _. apply bounded_then; [apply bounded_lift|]. intros y _.
  apply bounded_then; [apply bounded_lift|]. intros attrs' _. apply IH.
Qed.
Lemma filter_v (p q : value * value -> bool) d : (forall kx, In kx d -> p kx = true -> q kx = true) -> vplaces (filter p d) <= vplaces (filter q d).
Proof.
  induction d as [|[k x] d IH]; intros H; [cbn; lia|]. specialize (IH (fun kx Hin => H kx (or_intror Hin))).
  pose proof (H (k, x) (or_introl eq_refl)) as Hh. cbn [filter]. destruct (p (k, x)).
  - rewrite (Hh eq_refl), !vplaces_cons. lia.
  - destruct (q (k, x)); rewrite ?vplaces_cons; lia.
Qed.
Lemma object_bound o t j : keys_to_keys o -> ordinary j -> valid_type j = true -> bounded (places j) (deser_object E ld f o t j).
Proof.
  intros Ho Hj Hv. unfold deser_object. destruct (cid_of E t) as [k|]; [|apply bounded_fail].
  apply bounded_then; [apply bounded_lift|]. intros d0 Hd0. apply lift_done in Hd0.
  assert (H0 : ord_values d0 /\ S (vplaces d0) <= places j).
  { destruct j as [| | | |[|]|[|]|[|]|? [|]|? d1| | |? [|]|]; try discriminate; injection Hd0 as <-; try (split; [intros a x []|cbn; lia]).
    split; [eapply dict_ord_values; eauto|]. rewrite places_dict. lia. }
  destruct H0 as [Hm0 Hp0].
  apply bounded_then; [apply bounded_lift|]. intros d Hd. apply lift_done in Hd.
  assert (H1 : ord_values d /\ vplaces d <= vplaces d0).
  { destruct (lo_kt o) as [g|]; [|injection Hd as <-; now split]. split.
    - eapply transform_ord_values; [exact Hm0| |exact Hd]. intros a x [].
    - apply transform_v in Hd. change (vplaces []) with 0 in Hd. lia. }
  destruct H1 as [Hm Hp]. set (names := map pa_name (ci_params (e_ct E k))).
  pose proof (names_split names (cr_params _ HR k) d) as Hns.
  assert (Ho' : keys_to_keys (set_getters [] o)) by exact Ho.
  apply (bounded_le (list_sum (map (at_name d) names) + (1 + vplaces (filter (fun kx => negb (nameable names (fst kx))) d)))); [|lia].
  apply bounded_bind; [apply args_bound; auto; apply (cc_params _ HC)|]. intros args Hargs.
  apply bounded_then; [apply bounded_lift|]. intros rest Hrest. apply lift_done in Hrest.
  assert (Hr : ord_values rest /\ vplaces rest <= vplaces (filter (fun kx => negb (nameable names (fst kx))) d)).
  { assert (Hr : rest = filter (fun kv => negb (has_arg (fst kv) args) && negb (py_eqb (VStr "-meta") (fst kv)))%bool d).
    { unfold remaining_args in Hrest. cbv zeta in Hrest. revert Hrest. generalize (filter (fun kv => negb (has_arg (fst kv) args) && negb (py_eqb (VStr "-meta") (fst kv)))%bool d).
      intros [|[k1 x1] r1] Hrest; [now injection Hrest as <-|].
      destruct (lo_strict o); [discriminate|]. now injection Hrest as <-. }
    subst rest. split; [intros a x Hin; apply filter_In in Hin as [Hin _]; exact (Hm a x Hin)|].
    apply filter_v. intros [a x] Hin Hb. cbn [fst] in *. apply andb_prop in Hb as [Hb _]. apply Bool.negb_true_iff in Hb. apply Bool.negb_true_iff.
    apply Bool.not_true_is_false. intros Hnm. destruct a; try discriminate. cbn [nameable has_arg] in *.
    unfold mem_str in Hnm. apply existsb_exists in Hnm as (b & Hb' & Eb). apply String.eqb_eq in Eb as <-.
    unfold names in Hb'. apply in_map_iff in Hb' as (p & <- & Hp').
    rewrite (args_present _ _ _ _ _ _ Hargs p Hp') in Hb; [discriminate|].
    unfold dget. clear -Hin. induction d as [|[k' y] d IH]; [destruct Hin|]. cbn [aget]. destruct (py_eqb (VStr (pa_name p)) k') eqn:Ek; [discriminate|].
    destruct Hin as [[= -> ->]|Hin]; [|now apply IH]. cbn in Ek. now rewrite String.eqb_refl in Ek. }
  destruct Hr as [Hrm Hrp].
  apply bounded_bind; [unfold bounded; cbn; lia|]. intros _ _. apply bounded_then; [apply bounded_lift|]. intros attrs _.
  apply bounded_last; [eapply bounded_le; [apply remaining_bound; auto|exact Hrp]|]. intros attrs1.
  apply bounded_then; [apply getters_bound|]. intros attrs2 _. apply bounded_ret.
Qed.

Lemma step_bound o h t j : (h = DUnion -> forall b g l, t <> TApp b g l) -> keys_to_keys o -> choiceless t -> ordinary j -> valid_type j = true ->
  bounded (places j) (deser_step E ld f o h t j).
Proof.
  intros Hh Ho Ht Hj Hv. destruct h; cbn [deser_step]; try apply bounded_lift;
    try (destruct j; try apply bounded_fail; try apply bounded_lift; apply bounded_ret).
  - apply bounded_last; [|intros; apply bounded_ret]. apply list_bound; auto. now apply args_choiceless.
  - now apply tuple_bound.
  - unfold deser_union. destruct (raw_args t) as [ts|] eqn:Er; [|apply bounded_fail].
    destruct t; try discriminate; [now destruct (Hh eq_refl typing h args)|]. injection Er as <-. cbn [choiceless] in Ht.
    eapply bounded_le; [apply union_go_bound; auto; intros u Hu; apply (all_in _ (proj1 Ht) u Hu)|].
    destruct Ht as [_ Hl]. nia.
  - now apply defaultdict_bound.
  - unfold deser_timezone. apply bounded_then; [apply bounded_lift|]. intros off Hoff. apply lift_done in Hoff.
    apply item_meta in Hoff as (k & d & -> & Hoff); [|exact Hj].
    apply bounded_last.
    + eapply bounded_le; [apply HL; [apply ktk0|exact I|eapply dget_ord_values; [eapply dict_ord_values; exact Hj|exact Hoff]]|].
      pose proof (ddel_v _ _ _ Hoff). rewrite places_dict. lia.
    + intros td. apply bounded_then; [apply bounded_lift|]. intros nm _. destruct td; try apply bounded_fail. destruct x; try apply bounded_fail.
      destruct nm; try apply bounded_fail. destruct (timezone_ok us); [apply bounded_ret|apply bounded_fail].
  - unfold deser_string. destruct (_ && _)%bool; [apply bounded_lift|]. apply bounded_try0; [apply HL; auto; exact I|].
    intros e. destruct (is_deser _); [apply bounded_lift|apply bounded_fail].
  - now apply mapping_bound.
  - now apply iterable_bound.
  - now apply object_bound.
  - unfold deser_complex. apply bounded_try0.
    + apply bounded_then; [apply bounded_lift|]. intros re Hre. apply lift_done in Hre. apply bounded_then; [apply bounded_lift|]. intros im Him. apply lift_done in Him.
      apply item_meta in Hre as (k & d & -> & Hre); [|exact Hj]. apply item_meta in Him as (k' & d' & Eq & Him); [|exact Hj].
      injection Eq as <- <-. pose proof (dict_ord_values _ _ Hj) as Hd.
      apply bounded_last.
      * eapply bounded_le; [apply HL; [apply ktk0|cbn; auto|]|].
        -- apply ordinary_dict; [reflexivity| |].
           ++ cbn. repeat constructor; cbn; intuition discriminate.
           ++ intros a x [[= <- <-]|[[= <- <-]|[]]]; (split; [now apply ordinary_atom|]); eapply dget_ord_values; eauto.
        -- unfold str_dict. cbn [map]. rewrite !places_dict, !kplaces_cons, !vplaces_cons. cbn [places String.eqb]. cbn [fst snd].
           pose proof (names_sum ["real"; "imag"] d ltac:(repeat constructor; cbn; intuition discriminate)) as Hs.
           cbn [map] in Hs. rewrite !sum_cons in Hs. unfold at_name in Hs. rewrite Hre, Him in Hs. change (list_sum []) with 0 in Hs.
           change (kplaces []) with 0. change (vplaces []) with 0. cbn. lia.
      * intros r. apply bounded_then; [apply bounded_lift|]. intros re' _. apply bounded_then; [apply bounded_lift|]. intros im' _.
        destruct re'; try apply bounded_fail. destruct im'; try apply bounded_fail. apply bounded_ret.
    + intros e. destruct (_ || _)%bool; apply bounded_fail.
  - apply bounded_then; [apply bounded_lift|]. intros k _. apply bounded_lift.
Qed.
Lemma no_union_head t : (exists b g l, t = TApp b g l) -> e_deser E f t <> Some DUnion.
Proof.
  intros (b & g & l & ->). destruct (HD f (TApp b g l)) as [-> |[i ->]]; [|discriminate]. rewrite deser_head. destruct g; discriminate.
Qed.
Lemma ordinary_get j : ordinary j -> get_cls_and_meta E f j = Ok (None, []).
Proof. intros Hj. destruct j; try reflexivity. cbn [get_cls_and_meta]. destruct (Hj k d) as [-> _]; [constructor|reflexivity]. Qed.
Lemma load_step_bound o cls j : keys_to_keys o -> hint_choiceless cls -> ordinary j -> bounded (places j) (load_step E ld f o cls j).
Proof.
  intros Ho Hc Hj. unfold load_step. apply bounded_then.
  { destruct (is_none j); [|apply bounded_ret]. apply bounded_then; [apply bounded_lift|]. intros b _. destruct b; [apply bounded_ret|apply bounded_fail]. }
  intros _ _. destruct (_ || _)%bool.
  { apply bounded_then; [apply bounded_lift|]. intros _ _. apply bounded_ret. }
  apply bounded_then; [apply bounded_lift|]. intros cls1 Hcls. apply lift_done in Hcls.
  assert (Hc1 : hint_choiceless cls1).
  { destruct cls as [[]|]; try (injection Hcls as <-; exact Hc). destruct (e_resolve E f s) as [t|] eqn:Et; [|discriminate].
    injection Hcls as <-. eapply (cc_names _ HC); eauto. }
  destruct (valid_type j) eqn:Hv; cbn [negb]; [|apply bounded_fail]. rewrite (ordinary_get j Hj). cbn [lift]. rewrite bind_ret_l. cbn [fst snd].
  assert (Ht : exists t, determine_precedence cls1 None (Some (class_of j)) (lo_inferred o) = Some t /\ choiceless t).
  { unfold determine_precedence. destruct (lo_inferred o), cls1 as [t|]; eexists; (split; [reflexivity|]); try exact Hc1; apply class_choiceless. }
  destruct Ht as (t & -> & Ht). destruct (e_deser E f t) as [h|] eqn:Eh; [|apply bounded_fail].
  unfold wrap_deser. apply bounded_try0; [|intros e; apply bounded_fail]. apply bounded_last.
  - apply step_bound; auto. intros -> b g l ->. apply (no_union_head (TApp b g l)); eauto.
  - intros r. apply bounded_then; [apply bounded_lift|]. intros _ _. apply bounded_ret.
Qed.
Lemma load_none_bound o j : ordinary j -> bounded 0 (load_step E ld f o (Some TNoneT) j).
Proof.
  intros Hj. unfold load_step. apply bounded_then.
  { destruct (is_none j); [|apply bounded_ret]. apply bounded_then; [apply bounded_lift|]. intros b _. destruct b; [apply bounded_ret|apply bounded_fail]. }
  intros _ _. destruct (_ || _)%bool.
  { apply bounded_then; [apply bounded_lift|]. intros _ _. apply bounded_ret. }
  cbn [lift]. rewrite bind_ret_l. destruct (negb (valid_type j)); [apply bounded_fail|]. rewrite (ordinary_get j Hj). cbn [lift]. rewrite bind_ret_l. cbn [fst snd].
  assert (Ht : determine_precedence (Some TNoneT) None (Some (class_of j)) (lo_inferred o) = Some TNoneT) by (unfold determine_precedence; now destruct (lo_inferred o)).
  rewrite Ht. unfold wrap_deser. destruct (e_deser E f TNoneT) as [h|] eqn:Eh; [|apply bounded_fail].
  apply bounded_try0; [|intros e; apply bounded_fail]. apply bounded_last; [|intros r; apply bounded_then; [apply bounded_lift|]; intros _ _; apply bounded_ret].
  destruct (HD f TNoneT) as [H|[i H]]; rewrite H in Eh.
  - rewrite deser_none in Eh. injection Eh as <-. cbn [deser_step]. destruct j; try apply bounded_fail. apply bounded_ret.
  - injection Eh as <-. cbn [deser_step]. apply bounded_lift.
Qed.
End Bound.
Theorem load_bounded E n f o cls j : classes_choiceless E -> classes_regular E -> (forall g, deserializers_settled E g) ->
  keys_to_keys o -> hint_choiceless cls -> ordinary j -> constructions (fst (load E n f o cls j)) <= places j.
Proof.
  intros HC HR HD.
  assert (H : forall n f o, (forall cls j, keys_to_keys o -> hint_choiceless cls -> ordinary j -> bounded (places j) (load E n f o cls j)) /\
                (forall j, ordinary j -> bounded 0 (load E n f o (Some TNoneT) j))).
  { clear n f o cls j. induction n as [|n IH]; intros f o; cbn [load].
    - split; intros; unfold bounded; cbn; lia.
    - split; intros; [apply load_step_bound|apply load_none_bound]; auto; intros f' o'; intros; now apply (IH f' o'). }
  intros Ho Hc Hj. now apply H.
Qed.
