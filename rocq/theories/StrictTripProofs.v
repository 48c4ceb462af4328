(** * Round trips by way of strict dumps: proofs *)
From Coq Require Import Sorted Lia.
From Verif Require Import PyBaseFacts AttrFacts DumpProofs DumpLaws EngineFacts LoadFacts LoadLaws LoadTypes LeafLaws
  RoundTripFacts RoundTripProofs StrictTripSpec.
Local Close Scope Z_scope.
Local Open Scope string_scope.

Lemma strict_store o : exact_strict o -> exact_strict (set_store false o).
Proof. unfold exact_strict, plain_opts. cbn. intuition. Qed.
Lemma strict_types o : exact_strict o -> exact_strict (no_types o).
Proof. unfold exact_strict, plain_opts. cbn. intuition. Qed.
Lemma strict_attr o : exact_strict o -> exact_strict (set_attr_opt (SATuple []) o).
Proof. unfold exact_strict, plain_opts. cbn. intros (H & H1 & H2 & H3 & H4 & _). repeat (split; [assumption|]). reflexivity. Qed.
Definition lenient (o : sopts) : sopts :=
  mkSopts false (so_strip_nulls o) (so_kt o) (so_privates o) (so_properties o) (so_class_vars o) (so_attr o)
          (so_class_info o) (so_dump_time o) (so_store_cls o) (so_enum_name o) (so_strip_us o) (so_types o).
Lemma lenient_exact o : exact_strict o -> near_exact (lenient o) /\ quiet (lenient o).
Proof. intros (H & (H1 & H2 & H3 & H4 & H5) & H6 & H7 & H8 & H9). repeat split; auto. Qed.

Section StrictTrip.
Variables (E : env) (f g : nat) (o : sopts).
Hypothesis HS : default_serializers E f.
Hypothesis HD : default_deserializers E g.

Definition sdumps (n : nat) (k : knowledge) (t : ty) (v j : value) : Prop := forall o',
  exact_strict o' -> same_selection o o' -> snd (dump E f n o' (given k t v) v) = Done j.
Definition spasses (k : knowledge) (t : ty) (v j : value) : Prop :=
  clean j /\ (j = VNone -> v = VNone) /\
  exists N, forall n, N <= n -> sdumps n k t v j /\ loads_as E g n t j v.
Definition klist := list (knowledge * ty * value).
Definition kk (x : knowledge * ty * value) := fst (fst x).
Definition kt_ (x : knowledge * ty * value) := snd (fst x).
Lemma spasses_all (tl : klist) :
  (forall k t x, In (k, t, x) tl -> exists j, spasses k t x j) ->
  exists js, Forall clean js /\ Forall2 (fun tx j => j = VNone -> snd tx = VNone) tl js /\
    exists N, forall n, N <= n ->
      Forall2 (fun tx j => sdumps n (kk tx) (kt_ tx) (snd tx) j /\ loads_as E g n (kt_ tx) j (snd tx)) tl js.
Proof.
  induction tl as [|[[k t] x] tl IH]; intros H.
  - exists []. repeat split; auto. exists 0. auto.
  - destruct (H k t x (or_introl eq_refl)) as (j & Hp & Hn & N1 & H1).
    destruct IH as (js & Hps & Hns & N2 & H2); [intros k' t' x' Hin; apply H; now right|].
    exists (j :: js). split; [now constructor|]. split; [constructor; auto|].
    exists (Nat.max N1 N2). intros n Hle. constructor; [apply H1|apply H2]; lia.
Qed.

(** ** Atoms *)
Lemma lenient_dump n o' cls v t : atomic v -> (forall ts, t <> TUnion ts) -> has_type E g o t v -> cls = None \/ cls = Some t ->
  snd (dump E f (S n) o' cls v) = snd (dump E f (S n) (lenient o') cls v).
Proof.
  intros Ha Ht H Hc. unfold dump, dump_. cbn [serialize].
  assert (X : ser_step E f (serialize E f n) o' (serializer E f cls v) cls v =
              ser_step E f (serialize E f n) (lenient o') (serializer E f cls v) cls v).
  { inversion H; subst; try (now destruct Ha).
    - replace (serializer E f cls VNone) with (Some SPrimitive); [reflexivity|]. symmetry.
      unfold serializer. rewrite HS. destruct Hc as [-> | ->]; apply ser_none.
    - replace (serializer E f cls v) with (Some SPrimitive); [reflexivity|]. symmetry.
      unfold serializer. rewrite HS. destruct Hc as [-> | ->]; cbn [tyof]; [match goal with X : class_of v = _ |- _ => rewrite X end|]; apply ser_prim.
    - rewrite (serializer_leaf E f cls x HS Hc). destruct x; try reflexivity. now destruct H0.
    - destruct H0; now destruct Ha.
    - destruct H0; now destruct Ha.
    - now elim (Ht (pre ++ t0 :: ts)%list).
    - now elim (Ht ts).
    - replace (serializer E f cls (VEnum c n0)) with (Some SEnum); [reflexivity|]. symmetry.
      unfold serializer. rewrite !HS. destruct Hc as [-> | ->]; cbn [tyof class_of]; eapply ser_enumeration; eauto. }
  unfold serializer, tyof in X. rewrite X. reflexivity.
Qed.
Lemma atomic_class v t : atomic v -> (forall ts, t <> TUnion ts) -> has_type E g o t v -> class_of v = t.
Proof.
  intros Ha Ht H. inversion H; subst; try reflexivity; try assumption; try (now destruct Ha).
  - destruct H0; now destruct Ha.
  - destruct H0; now destruct Ha.
  - now elim (Ht (pre ++ t0 :: ts)%list).
  - now elim (Ht ts).
Qed.
Lemma spass_atomic k t v : atomic v -> (forall ts, t <> TUnion ts) -> has_type E g o t v -> exists j, spasses k t v j.
Proof.
  intros Ha Ht H. destruct (has_type_passes E f g o HS HD t v H) as (j & Hc & Hf & N & HN).
  exists j. split; [exact Hc|]. split; [apply Hf|]. exists (S N). intros [|n] Hle; [lia|].
  destruct (HN (S n) ltac:(lia)) as [Hd Hl]. split; [|exact Hl].
  intros o' He Hsel.
  assert (Hg : given k t v = None \/ given k t v = Some t).
  { destruct k; cbn [given]; auto. rewrite (atomic_class v t Ha Ht H). auto. }
  rewrite (lenient_dump n o' _ v t Ha Ht H Hg). destruct (lenient_exact o' He) as [H1 H2].
  apply Hd; auto.
Qed.

(** ** Sequences *)
Lemma load_sequence n b h t l v js lo :
  sequence_of h l v -> (h = HSet \/ h = HFrozen -> distinct_elements (e_ct E) l) -> Forall clean js ->
  Forall2 (fun x y => loads_as E g n t x y) js l -> accepts E g (TApp b h [t]) v -> exact_load lo ->
  snd (load E (S n) g lo (Some (TApp b h [t])) (VList js)) = Done v.
Proof.
  intros Hq Hdist Hps Hl2 Ha He. pose proof (deser_list_all E g n lo t js l He Hl2) as Hdl.
  apply load_by_handler with (head_handler h); auto.
  - now apply clean_list.
  - exact I.
  - discriminate.
  - discriminate.
  - apply deser_head.
  - destruct Hq; cbn [head_handler deser_step get_args raw_args].
    + apply bind_done. exists l. split; [exact Hdl|reflexivity].
    + unfold deser_iterable. cbn [raw_args lift]. rewrite bind_ret_l. apply bind_done. exists l. split; [exact Hdl|reflexivity].
    + unfold deser_iterable. cbn [raw_args lift]. rewrite bind_ret_l. apply bind_done. exists l. split; [exact Hdl|].
      destruct Hdist as [Hh Hp]; auto. rewrite Hh, dedup_distinct; [reflexivity|exact Hp|intros x y _ []].
    + unfold deser_iterable. cbn [raw_args lift]. rewrite bind_ret_l. apply bind_done. exists l. split; [exact Hdl|].
      destruct Hdist as [Hh Hp]; auto. rewrite Hh, dedup_distinct; [reflexivity|exact Hp|intros x y _ []].
    + unfold deser_iterable. cbn [raw_args lift]. rewrite bind_ret_l. apply bind_done. exists l. split; [exact Hdl|reflexivity].
Qed.
(** The elements, dumped with the types [cs] *)
Lemma iterable_strict n o' cls cls' cs v l js : exact_strict o' -> py_iter (e_rt E) v = Ok l ->
  determine_cls E cls v = Ok cls' -> get_subclasses (length l) cls' = Ok cs -> length cs = length l ->
  Forall2 (fun xc j => snd (dump E f n (set_store false o') (snd xc) (fst xc)) = Done j) (combine l cs) js ->
  snd (ser_iterable E f (serialize E f n) o' cls v) = Done (VList js).
Proof.
  intros He Hl Hd Hg Hlen H. unfold ser_iterable. rewrite Hl. cbn [lift]. rewrite bind_ret_l.
  destruct He as (-> & _). rewrite Hd. cbn [lift]. rewrite bind_ret_l, Hg. cbn [lift]. rewrite bind_ret_l.
  apply bind_done. exists js. split; [|reflexivity]. apply mmap_done. exact H.
Qed.
Lemma combine_repeat {A B} (l : list A) (c : B) : combine l (repeat c (length l)) = map (fun x => (x, c)) l.
Proof. induction l as [|x l IH]; [reflexivity|]. cbn. now rewrite IH. Qed.
Lemma F2_map_l {A B C} (P : B -> C -> Prop) (h : A -> B) l m : Forall2 (fun x y => P (h x) y) l m -> Forall2 P (map h l) m.
Proof. induction 1; constructor; auto. Qed.
Lemma iterable_one n o' cls cls' c v l js : exact_strict o' -> py_iter (e_rt E) v = Ok l ->
  determine_cls E cls v = Ok cls' -> get_subclasses (length l) cls' = Ok (repeat c (length l)) ->
  Forall2 (fun x j => snd (dump E f n (set_store false o') c x) = Done j) l js ->
  snd (ser_iterable E f (serialize E f n) o' cls v) = Done (VList js).
Proof.
  intros He Hl Hd Hg H. eapply iterable_strict; eauto; [apply repeat_length|]. rewrite combine_repeat.
  apply F2_map_l. exact H.
Qed.
Lemma list_strict n o' cls t l js : exact_strict o' -> 
  (get_args cls = [t] \/ (get_args cls = [] /\ forall x, In x l -> class_of x = t)) ->
  Forall2 (fun x j => snd (dump E f n (set_store false o') (Some t) x) = Done j) l js ->
  snd (ser_list E f (serialize E f n) o' cls (VList l)) = Done (VList js).
Proof.
  intros (Hstr & _) Hg H. unfold ser_list. cbn [truthy py_iter].
  destruct l as [|x0 l0]; [inversion H; subst; reflexivity|]. set (l := x0 :: l0) in *.
  assert (Hl : negb (negb (Nat.eqb (length l) 0)) = false) by reflexivity. rewrite Hl.
  assert (HM : snd (dom r <- mmap (serialize E f n (set_store false o') (e_ser E f t) (Some t)) l; ret (VList r)) = Done (VList js)).
  { apply bind_done. exists js. split; [|reflexivity]. apply mmap_done. eapply Forall2_impl'; [|exact H].
    intros x j Hx. now apply dump_done_iff in Hx. }
  destruct Hg as [Hg|[Hg Hc]]; rewrite Hg; cbn [lift].
  - rewrite bind_ret_l. exact HM.
  - rewrite Hstr. assert (H0 : py_getitem (e_ct E) (VList l) (VInt 0) = Ok x0) by reflexivity.
    rewrite H0. cbn [lift]. rewrite !bind_ret_l. rewrite (Hc x0 (or_introl eq_refl)). exact HM.
Qed.
Lemma all_of k t l : (forall x, In x l -> exists j, spasses k t x j) ->
  exists js, Forall clean js /\ Forall2 (fun x j => j = VNone -> x = VNone) l js /\ exists N, forall n, N <= n ->
    Forall2 (fun x j => sdumps n k t x j) l js /\ Forall2 (fun j x => loads_as E g n t j x) js l.
Proof.
  intros IH. destruct (spasses_all (map (fun x => (k, t, x)) l)) as (js & Hps & Hfs & N & HN).
  { intros k' t' x Hin. apply in_map_iff in Hin as (y & Heq & Hy). injection Heq as <- <- <-. auto. }
  exists js. split; [exact Hps|]. apply Forall2_map_l in Hfs. split; [exact Hfs|]. exists N. intros n Hn. specialize (HN n Hn).
  apply Forall2_map_l in HN. split.
  - eapply Forall2_impl'; [|exact HN]. now intros x j [].
  - clear -HN. induction HN as [|x j l js Hx HN IH]; constructor; auto. apply Hx.
Qed.
Lemma spass_sequence b h t l v :
  sequence_of h l v -> (h = HSet \/ h = HFrozen -> distinct_elements (e_ct E) l) ->
  (forall x, In x l -> exists j, spasses Known t x j) ->
  accepts E g (TApp b h [t]) v -> exists j, spasses Known (TApp b h [t]) v j.
Proof.
  intros Hq Hdist IH Ha. destruct (all_of _ _ _ IH) as (js & Hps & _ & N & HN).
  exists (VList js). split; [now apply clean_list|]. split; [discriminate|].
  exists (S N). intros [|n] Hle; [lia|]. destruct (HN n ltac:(lia)) as [Hd Hl2]. split.
  - intros o' He Hsel. cbn [given]. apply dump_done_iff.
    assert (Hel : Forall2 (fun x j => snd (dump E f n (set_store false o') (Some t) x) = Done j) l js).
    { eapply Forall2_impl'; [|exact Hd]. intros x j Hx. apply (Hx (set_store false o')); [now apply strict_store|exact Hsel]. }
    assert (Hs : serializer E f (Some (TApp b h [t])) v = Some SIterable \/ (serializer E f (Some (TApp b h [t])) v = Some SList /\ v = VList l)).
    { unfold serializer. rewrite !HS. cbn [tyof]. rewrite ser_head. destruct Hq; cbn [head_ser]; auto. }
    assert (Hit : py_iter (e_rt E) v = Ok l) by (destruct Hq; reflexivity).
    destruct Hs as [Hs|[Hs ->]]; rewrite Hs; cbn [serialize]; cbn [ser_step].
    + apply (iterable_one n o' _ (Some (TApp b h [t])) (Some t) v l js); auto.
    + apply (list_strict n o' _ t l js); auto.
  - intros lo He. eapply load_sequence; eauto.
Qed.
Lemma bare_args k b h t l v : k <> Known -> sequence_of h l v -> get_args (given k (TApp b h [t]) v) = [].
Proof. intros Hk Hq. destruct k; [now elim Hk| |reflexivity]. cbn [given]. destruct Hq; reflexivity. Qed.
Lemma spass_list k b h t l :
  k <> Known -> sequence_of h l (VList l) -> (forall x y, In x l -> In y l -> class_of x = class_of y) ->
  (forall x, In x l -> exists j, spasses Own t x j) ->
  accepts E g (TApp b h [t]) (VList l) -> exists j, spasses k (TApp b h [t]) (VList l) j.
Proof.
  intros Hk Hq Hc IH Ha. destruct (all_of _ _ _ IH) as (js & Hps & _ & N & HN).
  exists (VList js). split; [now apply clean_list|]. split; [discriminate|].
  exists (S N). intros [|n] Hle; [lia|]. destruct (HN n ltac:(lia)) as [Hd Hl2]. split.
  - intros o' He Hsel. apply dump_done_iff.
    assert (Hs : serializer E f (given k (TApp b h [t]) (VList l)) (VList l) = Some SList).
    { unfold serializer. rewrite !HS. destruct k; [now elim Hk| |]; cbn [tyof given class_of]; now rewrite ser_head. }
    rewrite Hs. cbn [serialize]. cbn [ser_step].
    destruct l as [|x0 l0]; [inversion Hd; subst; reflexivity|]. set (l := x0 :: l0) in *.
    apply (list_strict n o' _ (class_of x0)); auto.
    + right. split; [eapply bare_args; eauto|]. intros x Hin. apply Hc; [exact Hin|now left].
    + eapply Forall2_In_l; [|exact Hd]. intros x j Hin Hx.
      rewrite (Hc x0 x); [|now left|exact Hin]. apply (Hx (set_store false o')); [now apply strict_store|exact Hsel].
  - intros lo He. eapply load_sequence; eauto. inversion Hq; subst; intros [X|X]; discriminate.
Qed.
Lemma spass_unordered k b h t l v :
  k <> Known -> h = HSet \/ h = HFrozen \/ (h = HDeque /\ k = Own) -> sequence_of h l v ->
  (h = HSet \/ h = HFrozen -> distinct_elements (e_ct E) l) ->
  (forall x, In x l -> exists j, spasses Unknown t x j) ->
  accepts E g (TApp b h [t]) v -> exists j, spasses k (TApp b h [t]) v j.
Proof.
  intros Hk Hh Hq Hdist IH Ha. destruct (all_of _ _ _ IH) as (js & Hps & _ & N & HN).
  exists (VList js). split; [now apply clean_list|]. split; [discriminate|].
  exists (S N). intros [|n] Hle; [lia|]. destruct (HN n ltac:(lia)) as [Hd Hl2]. split.
  - intros o' He Hsel. apply dump_done_iff.
    assert (Hs : serializer E f (given k (TApp b h [t]) v) v = Some SIterable).
    { unfold serializer. rewrite !HS. destruct k; [now elim Hk| |]; cbn [tyof given];
        destruct Hq; cbn [class_of]; rewrite ser_head; cbn [head_ser]; try reflexivity;
        destruct Hh as [X|[X|[X _]]]; discriminate. }
    rewrite Hs. cbn [serialize]. cbn [ser_step].
    assert (Hit : py_iter (e_rt E) v = Ok l) by (destruct Hq; reflexivity).
    assert (Hdc : exists c', determine_cls E (given k (TApp b h [t]) v) v = Ok c' /\ get_args c' = []).
    { destruct k; [now elim Hk| |].
      - eexists. split; [reflexivity|]. change (get_args (given Own (TApp b h [t]) v) = []). eapply bare_args; eauto.
      - cbn [given]. exists None. split; [|reflexivity].
        destruct Hh as [X|[X|[_ X]]]; [| |discriminate]; subst h; inversion Hq; subst; reflexivity. }
    destruct Hdc as (c' & Hdc & Hga). eapply (iterable_one n o' _ c' None); eauto.
    + unfold get_subclasses. now rewrite Hga.
    + eapply Forall2_impl'; [|exact Hd]. intros x j Hx. apply (Hx (set_store false o')); [now apply strict_store|exact Hsel].
  - intros lo He. eapply load_sequence; eauto.
Qed.

(** ** Mappings *)
Lemma key_atomic t k : has_type E g o t k -> text_key (e_ct E) k ->
  exists t', has_type E g o t' k /\ (forall ts, t' <> TUnion ts) /\ atomic k.
Proof.
  intros H Ht. induction H; try (now destruct Ht).
  - exists (TPrim p). split; [now apply ht_prim|]. split; [discriminate|]. destruct v as [| | | | | | |[]|[]| | | |]; try discriminate; exact I.
  - exists (TLeaf (leaf_kind x)). split; [now apply ht_leaf|]. split; [discriminate|exact I].
  - destruct H; now destruct Ht.
  - destruct H; now destruct Ht.
  - auto.
  - exists (TClass c). split; [eapply ht_enum; eauto|]. split; [discriminate|exact I].
Qed.
Lemma ser_dict_strict n o' v : exact_strict o' -> forall d js acc,
  Forall2 (fun kx sj => key_text E f n o' (fst kx) (fst sj) /\ snd (dump E f n (no_types o') None (snd kx)) = Done (snd sj)) d js ->
  (forall k x, In (k, x) d -> py_getitem (e_ct E) v k = Ok x) ->
  NoDup (map fst (acc ++ js)) ->
  snd (ser_dict_go E f (serialize E f n) o' v (map fst d) (text_items acc)) = Done (text_items (acc ++ js)).
Proof.
  intros (_ & (Hkt & Hsn & _) & _ & _ & Hty & _) d js. intros acc H. revert acc.
  induction H as [|[k x] [s j] d js [Hk Hx] H IH]; intros acc Hg Hn.
  - cbn. now rewrite app_nil_r.
  - cbn [map fst snd ser_dict_go] in *. rewrite (Hg k x (or_introl eq_refl)). cbn [lift]. rewrite bind_ret_l.
    apply bind_done. exists (text_items acc, VStr s). split.
    { unfold store_and_hash. destruct Hk as [-> |[Hjk Hk]].
      - now rewrite (scalar_key (e_ct E) (VStr s) I).
      - rewrite Hjk. apply bind_done. exists (VStr s). split; [exact Hk|]. now rewrite (scalar_key (e_ct E) (VStr s) I). }
    rewrite Hty. cbn [aget]. apply bind_done. exists j. split; [exact Hx|].
    rewrite Hsn. cbn [andb]. rewrite Hkt. cbn [apply_kt rbind hashable lift snd fst]. rewrite bind_ret_l.
    assert (Hs : ~ In (VStr s) (map fst (text_items acc))).
    { rewrite text_items_keys. intros Hin. apply in_map_iff in Hin as (s' & Heq & Hin). injection Heq as ->.
      rewrite map_app in Hn. cbn in Hn. apply NoDup_remove_2 in Hn. apply Hn. apply in_or_app. now left. }
    rewrite (dset_exact (VStr s) j _ (exact_str s) Hs).
    change (text_items acc ++ [(VStr s, j)])%list with (text_items acc ++ text_items [(s, j)])%list.
    unfold text_items at 1 2. rewrite <- map_app. fold (text_items (acc ++ [(s, j)])). rewrite IH.
    + now rewrite <- app_assoc.
    + intros k' x' Hin. apply Hg. now right.
    + rewrite <- app_assoc. exact Hn.
Qed.
Lemma spass_mapping kn b h tk t d v :
  mapping_of h d v -> NoDup (map fst d) ->
  (forall k, In k (map fst d) -> text_key (e_ct E) k) ->
  (forall k, In k (map fst d) -> has_type E g o tk k) ->
  (forall k x, In (k, x) d -> exists j, spasses Unknown t x j) ->
  (h = HDefaultDict -> accepts E g (TApp true HDict [tk; t]) (VDict DkDict d)) ->
  accepts E g (TApp b h [tk; t]) v -> exists j, spasses kn (TApp b h [tk; t]) v j.
Proof.
  intros Hq Hnd Htk Hht IH Hdd Ha.
  assert (Hgk : forall k, In k (map fst d) -> exists s, good_key E f g o tk k s).
  { intros k Hin. apply text_passes; auto. apply has_type_passes; auto. }
  destruct (good_keys E f g o tk _ Hgk) as (ss & HG & N1 & H1).
  destruct (all_of Unknown t (map snd d)) as (js & Hps & _ & N2 & H2).
  { intros x Hin. apply in_map_iff in Hin as ([k z] & <- & Hy). eauto. }
  assert (Hlen : length ss = length js).
  { rewrite <- (Forall2_len _ _ _ HG), map_length. destruct (H2 N2 (le_n _)) as [X _]. apply Forall2_len in X. now rewrite map_length in X. }
  set (sjs := combine ss js).
  assert (Hfst : map fst sjs = ss) by now apply combine_fst.
  assert (Hsec : forall s, In s ss -> s <> "-meta" /\ s <> "-keys").
  { intros s Hin. clear -HG Hin. induction HG as [|k s' ks ss (_ & Hm & Hk & _) HG IH]; [destruct Hin|]. destruct Hin as [<-|Hin]; auto. }
  assert (Hex : forall k, In k (map fst d) -> exact_key k /\ hashable (e_ct E) k = true).
  { intros k Hin. destruct (Hgk k Hin) as (s & _ & _ & _ & H & H' & _). auto. }
  assert (Hns : NoDup ss).
  { apply (loads_distinct E g (S N1) tk (map fst d)); [|exact Hnd]. eapply Forall2_impl'; [|apply (H1 (S N1)); lia]. now intros k s []. }
  exists (VDict DkDict (text_items sjs)).
  assert (Hclean : clean (VDict DkDict (text_items sjs))).
  { apply clean_dict.
    - rewrite text_items_keys, Hfst. apply FinFun.Injective_map_NoDup; [|exact Hns]. intros s s' H. now injection H.
    - rewrite text_items_keys, Hfst. intros k Hin. apply in_map_iff in Hin as (s & <- & Hin). exists s. split; [reflexivity|]. now apply Hsec.
    - apply Forall_forall. intros [k j] Hin. unfold text_items in Hin. apply in_map_iff in Hin as ([s j'] & Heq & Hin).
      injection Heq as <- <-. apply in_combine_r in Hin. cbn. rewrite Forall_forall in Hps. auto. }
  pose proof (proj1 Hclean) as Hplain.
  split; [exact Hclean|]. split; [discriminate|].
  exists (S (S (S (Nat.max N1 N2)))). intros [|n] Hle; [lia|]. split.
  - intros o' He Hsel. apply dump_done_iff.
    assert (Hs : serializer E f (given kn (TApp b h [tk; t]) v) v = Some SDict).
    { unfold serializer. rewrite !HS. destruct kn; cbn [given tyof].
      - rewrite ser_head. destruct Hq; reflexivity.
      - destruct Hq; cbn [class_of]; rewrite ser_head; reflexivity.
      - destruct Hq; cbn [class_of]; rewrite ser_head; reflexivity. }
    rewrite Hs. cbn [serialize]. cbn [ser_step]. unfold ser_dict.
    assert (Hit : py_iter (e_rt E) v = Ok (map fst d)) by (destruct Hq; reflexivity).
    rewrite Hit. cbn [lift]. rewrite bind_ret_l. apply bind_done. exists (text_items sjs). split; [|reflexivity].
    apply (ser_dict_strict n o' v He d sjs []); auto.
    + apply (zip_items (key_text E f n o') (fun x j => snd (dump E f n (no_types o') None x) = Done j)).
      * specialize (H1 n ltac:(lia)).
        eapply Forall2_In_l with (P := fun k s => good_key E f g o tk k s /\ dumps_to E f o n tk k (VStr s)).
        2:{ clear -H1 HG. revert H1. induction HG as [|k s ks ss Hg HG IH]; intros H1; [constructor|].
            inversion H1 as [|? ? ? ? [Hd _] H1']; subst. constructor; auto. }
        intros k s Hin [Hg Hd]. destruct Hg as (_ & _ & _ & _ & _ & _ & [->|Hj]); [now left|right]. split; [exact Hj|].
        destruct n as [|n']; [lia|].
        destruct (key_atomic tk k (Hht k Hin) (Htk k Hin)) as (t' & Ht' & Hnu & Hat).
        rewrite (lenient_dump n' o' None k t' Hat Hnu Ht' (or_introl eq_refl)).
        destruct (lenient_exact o' He) as [X1 X2]. apply Hd; auto.
      * destruct (H2 n ltac:(lia)) as [X _]. eapply Forall2_impl'; [|exact X].
        intros x j Hx. apply (Hx (no_types o')); [now apply strict_types|exact Hsel].
    + intros k x Hin. destruct (Hex k (in_map fst _ _ Hin)) as [Hek Hhk].
      assert (Hg : py_getitem (e_ct E) v k = match dget k d with Some x => Ok x | None => raise KKey end)
        by (destruct Hq; cbn [py_getitem]; now rewrite Hhk).
      rewrite Hg, (dget_exact d k x Hek Hnd Hin). reflexivity.
    + cbn [app]. now rewrite Hfst.
  - intros lo He.
    assert (HL : forall m, Nat.max N1 N2 <= m ->
      Forall2 (fun sj kx => loads_as E g m tk (VStr (fst sj)) (fst kx) /\ loads_as E g m t (snd sj) (snd kx)) sjs d).
    { intros m Hm. apply Forall2_flip. apply (zip_items (fun k s => loads_as E g m tk (VStr s) k) (fun x j => loads_as E g m t j x)).
      - specialize (H1 m ltac:(lia)). eapply Forall2_impl'; [|exact H1]. now intros k s [].
      - destruct (H2 m ltac:(lia)) as [_ X]. apply Forall2_flip in X. exact X. }
    assert (HM : forall m lo' b' h', exact_load lo' -> Nat.max N1 N2 < m ->
      (h' = HDict \/ h' = HMapping \/ h' = HOrderedDict) ->
      snd (deser_step E (load E m) g lo' DMapping (TApp b' h' [tk; t]) (VDict DkDict (text_items sjs))) =
      Done (VDict (match h' with HOrderedDict => DkOrdered | _ => DkDict end) d)).
    { intros m lo' b' h' He' Hm Hh. cbn [deser_step]. unfold deser_mapping. cbn [get_args raw_args lift].
      rewrite bind_ret_l. apply bind_done. exists d. split.
      - apply pass_dict; auto; [|apply HL; lia]. rewrite Hfst. intros s Hin. now apply Hsec.
      - destruct Hh as [-> |[-> | ->]]; reflexivity. }
    apply load_by_handler with (head_handler h); auto.
    + exact I.
    + discriminate.
    + discriminate.
    + apply deser_head.
    + destruct Hq; cbn [head_handler].
      * apply (HM n (child_opts lo) b HDict); auto; [now apply exact_child|lia].
      * apply (HM n (child_opts lo) b HMapping); auto; [now apply exact_child|lia].
      * apply (HM n (child_opts lo) b HOrderedDict); auto; [now apply exact_child|lia].
      * cbn [deser_step]. unfold deser_defaultdict. cbn [get_args raw_args lift]. rewrite bind_ret_l.
        apply bind_done. exists (VDict DkDict d). split; [|reflexivity].
        destruct n as [|n]; [lia|]. apply load_by_handler with DMapping; auto.
        -- exact I.
        -- discriminate.
        -- discriminate.
        -- apply (HM n _ true HDict); auto; [apply exact_child, exact_child; exact He|lia].
Qed.

(** ** Tuples *)
Lemma subclasses_many ts n : length ts = n -> get_subclasses n (Some (TApp true HTuple ts)) = Ok (map Some ts) /\
  forall b, get_subclasses n (Some (TApp b HTuple ts)) = Ok (map Some ts).
Proof.
  assert (H : length ts = n -> forall b, get_subclasses n (Some (TApp b HTuple ts)) = Ok (map Some ts)).
  { intros <- b. destruct ts as [|t [|u ts]]; [reflexivity|reflexivity|]. unfold get_subclasses. cbn [get_args raw_args].
    rewrite Nat.eqb_refl. reflexivity. }
  intros Hn. split; auto.
Qed.
Lemma combine_some (ts : list ty) (l : list value) : combine l (map Some ts) = map (fun tx => (snd tx, Some (fst tx))) (combine ts l).
Proof. revert ts. induction l as [|x l IH]; intros [|t ts]; cbn; try reflexivity. now rewrite IH. Qed.
Lemma spass_tuple b ts l :
  ts <> [] -> ~ In TEllipsis ts -> length ts = length l ->
  (forall t x, In (t, x) (combine ts l) -> exists j, spasses Known t x j) ->
  accepts E g (TApp b HTuple ts) (VTuple l) -> exists j, spasses Known (TApp b HTuple ts) (VTuple l) j.
Proof.
  intros Hts Hel Hlen IH Ha.
  destruct (spasses_all (map (fun tx => (Known, fst tx, snd tx)) (combine ts l))) as (js & Hps & Hfs & N & HN).
  { intros k t x Hin. apply in_map_iff in Hin as ([t' x'] & Heq & Hin). injection Heq as <- <- <-. eauto. }
  exists (VList js). split; [now apply clean_list|]. split; [discriminate|].
  exists (S N). intros [|n] Hle; [lia|]. specialize (HN n ltac:(lia)). apply Forall2_map_l in HN.
  unfold kk, kt_ in HN. cbn [fst snd] in HN. split.
  - intros o' He Hsel. cbn [given]. apply dump_done_iff.
    assert (Hs : serializer E f (Some (TApp b HTuple ts)) (VTuple l) = Some STuple).
    { unfold serializer. rewrite !HS. cbn [tyof]. now rewrite ser_head. }
    rewrite Hs. cbn [serialize]. cbn [ser_step]. unfold ser_tuple.
    assert (Hr : raw_args (TApp b HTuple ts) = Some ts) by (destruct ts; [now elim Hts|reflexivity]). rewrite Hr.
    assert (Hla : ty_eqb TEllipsis (last ts TAny) = false).
    { apply ty_eqb_neq. intros Heq. apply Hel. rewrite Heq. clear -Hts. destruct (exists_last Hts) as (a & x & ->). rewrite last_last. apply in_or_app. right. now left. }
    rewrite Hla.
    apply (iterable_strict n o' _ (Some (TApp b HTuple ts)) (map Some ts) (VTuple l) l js); auto.
    + now apply subclasses_many.
    + now rewrite map_length.
    + rewrite combine_some. apply F2_map_l. cbn [fst snd]. eapply Forall2_impl'; [|exact HN].
      intros [t x] j [Hx _]. cbn [fst snd] in *. apply (Hx (set_store false o')); [now apply strict_store|exact Hsel].
  - intros lo He. apply (load_tuple_done E n g lo b ts js (VList js)); auto; [apply He|].
    exists l. split; [|split; [|auto]].
    + apply Forall2_len in HN. rewrite combine_length in HN. lia.
    + clear -HN He Hlen. revert ts Hlen js HN. induction l as [|x l IH]; intros [|t ts] Hlen js HN; try discriminate.
      * inversion HN. constructor.
      * cbn in HN. inversion HN as [|? j ? js' [_ Hx] HN']; subst. cbn. constructor.
        -- apply Hx. now apply exact_tuple.
        -- apply IH; auto.
Qed.
Lemma spass_repeated b t l :
  (forall x, In x l -> exists j, spasses Known t x j) ->
  accepts E g (TApp b HTuple [t; TEllipsis]) (VTuple l) ->
  exists j, spasses Known (TApp b HTuple [t; TEllipsis]) (VTuple l) j.
Proof.
  intros IH Ha. destruct (all_of _ _ _ IH) as (js & Hps & _ & N & HN).
  exists (VList js). split; [now apply clean_list|]. split; [discriminate|].
  exists (S N). intros [|n] Hle; [lia|]. destruct (HN n ltac:(lia)) as [Hd Hl2]. split.
  - intros o' He Hsel. cbn [given]. apply dump_done_iff.
    assert (Hs : serializer E f (Some (TApp b HTuple [t; TEllipsis])) (VTuple l) = Some STuple).
    { unfold serializer. rewrite !HS. cbn [tyof]. now rewrite ser_head. }
    rewrite Hs. cbn [serialize]. cbn [ser_step]. unfold ser_tuple. cbn [raw_args last].
    rewrite ty_eqb_refl. cbn [py_iter lift hd]. rewrite bind_ret_l.
    apply (iterable_strict n o' _ (Some (TApp true HTuple (repeat t (length l)))) (map Some (repeat t (length l))) (VTuple l) l js); auto.
    + apply subclasses_many. apply repeat_length.
    + rewrite map_length. apply repeat_length.
    + assert (Hm : map Some (repeat t (length l)) = repeat (Some t) (length l)) by (clear; induction l as [|x l IH]; [reflexivity|]; cbn; now rewrite IH).
      rewrite Hm, combine_repeat. apply F2_map_l. cbn [fst snd]. eapply Forall2_impl'; [|exact Hd].
      intros x j Hx. apply (Hx (set_store false o')); [now apply strict_store|exact Hsel].
  - intros lo He. apply (load_tuple_ellipsis E n g lo b t js (VList js)); auto; [apply He|].
    exists l. split; [|auto]. clear -Hl2 He. induction Hl2 as [|j x js l Hx HN IH]; constructor; auto.
    apply Hx. now apply exact_tuple.
Qed.

(** ** Unions *)
Lemma strictly_class k t v : strictly E g o k t v -> v <> VNone -> naked_sub (e_ct E) (class_of v) TNoneT = false.
Proof.
  assert (HC : forall c, ordinary (e_ct E c) -> naked_sub (e_ct E) (TClass c) TNoneT = false).
  { intros c [_ Hu]. unfold naked_sub. cbn [is_class andb supers existsb].
    change (ty_eqb TNoneT (TClass c)) with false. rewrite existsb_app, (supers_user _ _ Hu).
    destruct (ci_kind (e_ct E c)) as [|[[]|] ms|fs]; reflexivity. }
  induction 1; intros Hn; try (now elim Hn); cbn [class_of]; auto.
  - eapply not_nonetype; eauto.
  - match goal with X : sequence_of _ _ _ |- _ => destruct X; reflexivity end.
  - match goal with X : sequence_of _ _ v |- _ => destruct X; reflexivity end.
  - match goal with X : mapping_of _ _ _ |- _ => destruct X; reflexivity end.
  - apply HC. match goal with X : record_like _ _ _ |- _ => apply X end.
Qed.
Lemma spass_present k pre t ts v :
  (forall u, In u pre -> u = TNoneT) -> v <> VNone -> naked_sub (e_ct E) (class_of v) TNoneT = false ->
  (exists j, spasses k t v j) -> accepts E g (TUnion (pre ++ t :: ts)) v ->
  exists j, spasses k (TUnion (pre ++ t :: ts)) v j.
Proof.
  intros Hpre Hv Hsub (j & Hcl & Hn & N & HN) Ha. pose proof (proj1 Hcl) as Hp. exists j. split; [exact Hcl|]. split; [auto|].
  assert (Hj : j <> VNone) by (intros Heq; apply Hv; now apply Hn).
  exists (S (S N)). intros [|[|n]] Hle; [lia|lia|]. split.
  - intros o' He Hsel. destruct k; cbn [given].
    + apply dump_union_done; [exact HS|]. right. split; [now intros [Heq _]|].
      exists pre, t, ts. split; [reflexivity|]. split; [apply (proj1 (HN (S n) ltac:(lia))); auto|].
      apply Forall_forall. intros u Hu. rewrite (Hpre u Hu). clear u Hu.
      apply dump_fail_iff. unfold serializer. cbn [tyof]. rewrite HS, ser_none. cbn [serialize]. cbn [ser_step].
      unfold ser_primitive, is_instance. rewrite Hsub. destruct v; try (now elim Hv); cbn; eexists; reflexivity.
    + apply (proj1 (HN (S (S n)) ltac:(lia))); auto.
    + apply (proj1 (HN (S (S n)) ltac:(lia))); auto.
  - intros lo He. apply load_union_done; auto; [apply He|now apply plain_no_meta|now apply plain_valid|].
    split; [now intros Heq|]. split; [exact Ha|]. exists pre, t, ts. split; [reflexivity|].
    split; [apply HN; [lia|now apply exact_nested]|].
    apply Forall_forall. intros u Hu. rewrite (Hpre u Hu). clear u Hu.
    exists (exn_of KDeser). split; [|reflexivity].
    rewrite (load_run E n g (nested_opts lo) TNoneT j DNone); auto.
    + cbn [deser_step]. destruct j; try reflexivity. now elim Hj.
    + exact I.
    + now apply plain_no_meta.
    + now apply plain_valid.
    + right. destruct Hp; try discriminate. now elim Hj.
    + rewrite HD. apply deser_none.
Qed.
Lemma spass_absent k ts :
  In TNoneT ts -> (forall t, In t ts -> ~ odd_name (e_ct E) (Some t)) -> (forall us, ~ In (TUnion us) ts) ->
  accepts E g TNoneT VNone -> accepts E g (TUnion ts) VNone -> spasses k (TUnion ts) VNone VNone.
Proof.
  intros Hin Hodd Hnu Ha0 Ha. split; [now apply clean_scalar|]. split; [auto|]. exists 2. intros [|[|n]] Hle; [lia|lia|]. split.
  - intros o' He Hsel. destruct k; cbn [given class_of].
    + apply dump_union_done; [exact HS|]. left. auto.
    + apply dump_done_iff. unfold serializer. cbn [tyof class_of]. rewrite HS, ser_none. reflexivity.
    + apply dump_done_iff. unfold serializer. cbn [tyof class_of]. rewrite HS, ser_none. reflexivity.
  - intros lo He. apply load_none_accepted; auto; [discriminate|now intros t [= <-]|].
    intros ts' [= <-]. auto.
Qed.

(** ** Named tuples *)
Lemma spass_namedtuple k c fields l :
  ci_kind (e_ct E c) = CkNT fields -> ordinary (e_ct E c) ->
  NoDup (map nf_name fields) -> (forall fd, In fd fields -> attribute_name (nf_name fd)) ->
  length fields = length l ->
  (forall fd x, In (fd, x) (combine fields l) -> x = VNone -> none_allowed fd) ->
  (forall fd x, In (fd, x) (combine fields l) -> exists t, nf_hint fd = Some t) ->
  (forall fd x t, In (fd, x) (combine fields l) -> nf_hint fd = Some t -> exists j, spasses Unknown t x j) ->
  accepts E g (TClass c) (VNT c l) -> exists j, spasses k (TClass c) (VNT c l) j.
Proof.
  intros HK HO Hnd Hnm Hlen Hnone Hhint IH Ha.
  destruct (spasses_all (map (fun fx => (Unknown, hint_or (nf_hint (fst fx)), snd fx)) (combine fields l))) as (js & Hps & Hns & N & HN).
  { intros k' t x Hin. apply in_map_iff in Hin as ([fd y] & Heq & Hin). injection Heq as <- <- <-.
    destruct (Hhint _ _ Hin) as (t & Ht). cbn. rewrite Ht. cbn. eauto. }
  apply (Forall2_map_l (fun tx j => j = VNone -> snd tx = VNone) (fun fx => (Unknown, hint_or (nf_hint (fst fx)), snd fx))) in Hns. cbn [snd] in Hns.
  assert (Hjl : length fields = length js).
  { specialize (HN N (le_n _)). apply Forall2_len in HN. rewrite map_length, combine_length in HN. lia. }
  set (j := VDict DkDict (combine (map VStr (map nf_name fields)) js)).
  assert (Hclean : clean j).
  { apply names_clean; [exact Hnd|now rewrite map_length| |exact Hps].
    intros a Hin. apply in_map_iff in Hin as (fd & <- & Hfd). auto. }
  pose proof (proj1 Hclean) as Hplain.
  exists j. split; [exact Hclean|]. split; [discriminate|].
  exists (S N). intros [|n] Hle; [lia|]. specialize (HN n ltac:(lia)). apply Forall2_map_l in HN. unfold kk, kt_ in HN. cbn [fst snd] in HN. split.
  - intros o' He Hsel. apply dump_done_iff.
    assert (Hs : serializer E f (given k (TClass c) (VNT c l)) (VNT c l) = Some STuple).
    { unfold serializer. rewrite !HS. destruct k; cbn [given tyof class_of]; apply ser_namedtuple_class with fields; auto. }
    rewrite Hs. cbn [serialize]. cbn [ser_step]. cbn [ser_tuple].
    assert (Hn : snd (ser_namedtuple E f (serialize E f n) o' c (VNT c l)) = Done j); [|exact Hn].
    unfold ser_namedtuple. apply bind_done. exists (combine (map VStr (map nf_name fields)) js). split; [|reflexivity].
    apply mmap_done. unfold nt_fields. rewrite HK.
    assert (HG : forall fd x, In (fd, x) (combine fields l) -> get_attr E (VNT c l) (nf_name fd) = Ok x).
    { intros fd x Hin. unfold get_attr, nt_get, nt_fields. rewrite HK, (sget_combine nf_name fields l fd x Hnd Hin). reflexivity. }
    clear -HN HG Hlen He Hsel. revert HG. generalize (VNT c l) as v. intros v HG.
    revert l js Hlen HN HG. induction fields as [|fd fields IH]; intros [|x l] js Hlen HN HG; try discriminate.
    + inversion HN. constructor.
    + cbn [combine] in HN. inversion HN as [|? j ? js' [Hx _] HN']; subst. cbn [map combine]. constructor.
      * rewrite (HG fd x (or_introl eq_refl)). cbn [lift]. rewrite bind_ret_l. apply bind_done. exists j. split; [|reflexivity].
        apply (Hx o'); auto.
      * apply IH with l; auto. intros fd' x' Hin. apply HG. now right.
  - intros lo He.
    apply (load_namedtuple_done E n g lo c fields j j); auto.
    + rewrite HD. apply deser_namedtuple_class with fields; auto.
    + apply He.
    + now apply plain_no_meta.
    + cbn [field_source j]. unfold j.
      assert (Hsd : string_dict (combine (map VStr (map nf_name fields)) js)) by (apply names_string_dict; auto; now rewrite map_length).
      split; [exact Hsd|]. exists (combine (map VStr (map nf_name fields)) js). split; [now apply renamed_same|auto].
    + exists l. split; [|auto].
      assert (Hget : forall fd jx, In (fd, jx) (combine fields js) ->
                dget (VStr (nf_name fd)) (combine (map VStr (map nf_name fields)) js) = Some jx).
      { intros fd jx Hin. destruct (names_string_dict (map nf_name fields) js Hnd ltac:(now rewrite map_length)) as [Hk Hn].
        apply dget_string; [|exact Hn|].
        - intros k' Hki. apply in_map_iff in Hki as ([k'' x'] & <- & Hki). cbn. eauto.
        - clear -Hin. revert js Hin. induction fields as [|fd0 fields IH]; intros [|y js] Hin; try (now destruct Hin).
          cbn in *. destruct Hin as [Heq|Hin]; [injection Heq as <- <-; now left|right; now apply IH]. }
      assert (Hlt : forall i, i < length fields -> i < length (combine (map VStr (map nf_name fields)) js)).
      { intros i Hi. rewrite combine_length, !map_length. lia. }
      unfold j. set (d := combine (map VStr (map nf_name fields)) js) in *.
      assert (Hgen : forall fs l' js' i, length fs = length l' -> i + length fs = length fields ->
        Forall2 (fun tx jx => sdumps n Unknown (hint_or (nf_hint (fst tx))) (snd tx) jx /\
                              loads_as E g n (hint_or (nf_hint (fst tx))) jx (snd tx)) (combine fs l') js' ->
        Forall2 (fun tx jx => jx = VNone -> snd tx = VNone) (combine fs l') js' ->
        (forall fd x, In (fd, x) (combine fs l') -> In (fd, x) (combine fields l)) ->
        (forall fd x, In (fd, x) (combine fs js') -> In (fd, x) (combine fields js)) ->
        field_values E n g (nested_opts lo) (VDict DkDict d) i fs l').
      { induction fs as [|fd fs IHf]; intros [|x l'] js' i Hl1 Hl2 HF HFn Hc1 Hc2; try discriminate; [constructor|].
        cbn [combine] in HF, HFn. inversion HF as [|? jx ? js2 [_ Hx] HF']; subst. inversion HFn as [|? ? ? ? Hxn HFn']; subst.
        destruct (Hhint fd x) as (t & Ht); [apply Hc1; now left|].
        apply fv_cons with jx.
        - left. cbn [field_input]. split; [apply Hlt; cbn in Hl2; lia|]. apply Hget. apply Hc2. now left.
        - intros Heq. apply (Hnone fd x); [apply Hc1; now left|]. now apply Hxn.
        - rewrite Ht. cbn [fst snd] in Hx. rewrite Ht in Hx. apply Hx. now apply exact_nested.
        - apply IHf with js2; auto.
          + cbn in Hl2. lia.
          + intros fd' x' Hin. apply Hc1. now right.
          + intros fd' x' Hin. apply Hc2. now right. }
      apply Hgen with js; auto.
Qed.

(** ** Objects *)
Lemma selects_ext {A} (P Q : A -> Prop) l r r' : (forall x, P x <-> Q x) -> selects P l r -> selects Q l r' -> r = r'.
Proof.
  intros HPQ H. revert r'. induction H as [|x l r Hx H IH|x l r Hx H IH]; intros r' H'; inversion H'; subst; auto.
  - f_equal. auto.
  - elim H2. now apply HPQ.
  - elim Hx. now apply HPQ.
Qed.
(** The attributes that a strict dump selects, and in which order *)
Lemma object_names k c : record_like (e_ct E) o c -> (k <> Unknown -> declares_parameters (e_ct E c) o) ->
  exists names, NoDup names /\ (forall a, In a names <-> In a (map pa_name (ci_params (e_ct E c)))) /\
    forall n o' attrs ds, exact_strict o' -> same_selection o o' -> map fst attrs = map pa_name (ci_params (e_ct E c)) ->
      Forall2 (attr_dumps E f n (set_attr_opt (SATuple []) o') (VObj c attrs)) (map (fun a => (a, attr_hint (e_ct E c) a)) names) ds ->
      snd (dump E f (S n) o' (given k (TClass c) (VObj c attrs)) (VObj c attrs)) = Done (VDict DkDict (combine (map VStr names) ds)).
Proof.
  intros [HK HO Hna Hrd Hnd Hinit Hmem Hpar] Hk.
  assert (Hser : forall attrs, serializer E f (given k (TClass c) (VObj c attrs)) (VObj c attrs) = Some SObject).
  { intros attrs. unfold serializer. rewrite !HS. destruct k; cbn [given tyof class_of]; now apply ser_object_class. }
  assert (Hvis : forall o', same_selection o o' -> forall a, visible (ci_members (e_ct E c)) o [] a <-> visible (ci_members (e_ct E c)) o' [] a).
  { intros o' Hsel a. split; [now apply selection_visible|now apply selection_visible']. }
  destruct (match k with Unknown => true | _ => false end) eqn:Hu.
  - assert (k = Unknown) as -> by (now destruct k). clear Hu Hk.
    set (names := sort_names (map pa_name (ci_params (e_ct E c)))).
    assert (Hnames : forall a, In a names <-> In a (map pa_name (ci_params (e_ct E c)))) by (intros a; apply sort_names_In).
    assert (Hsorted : StronglySorted slt names) by apply sort_names_sorted.
    exists names. split; [now apply sorted_NoDup|]. split; [exact Hnames|].
    intros n o' attrs ds He Hsel Hat HF. pose proof He as (Hstr & Hplo & _ & _ & _ & Hstrip).
    destruct (dump_instance E f n o' None c attrs [] (Hser attrs) (or_introl eq_refl) Hplo Hstrip Hna Hrd) as (names' & Hs' & Hm' & _ & Hdone & _).
    assert (Heq : names' = names).
    { apply sorted_unique; auto. intros a. rewrite Hm', Hnames, Hat. split.
      - intros [[Hin|Hin] Hv]; [exact Hin|]. apply Hmem; [exact Hin|]. now apply (Hvis o' Hsel).
      - intros Hin. split; [now left|]. apply in_map_iff in Hin as (p & <- & Hp).
        apply (Hvis o' Hsel). now apply Hpar. }
    subst names'. now apply Hdone.
  - assert (Hkn : k <> Unknown) by (intros ->; discriminate). destruct (Hk Hkn) as (Hdn & Hdp & Hdv). clear Hu Hk.
    assert (Hgiven : forall attrs, given k (TClass c) (VObj c attrs) = Some (TClass c)) by (intros attrs; destruct k; [reflexivity|reflexivity|now elim Hkn]).
    destruct (filter_attrs_selects (ci_members (e_ct E c)) o [] Hrd (attrs_and_types (e_ct E c))) as (r & Hf & Hsel0).
    assert (Hnd0 : NoDup (map fst (attrs_and_types (e_ct E c)))).
    { unfold attrs_and_types. unfold declared_names in Hdn.
      set (base := match ci_slots (e_ct E c) with Some l => _ | None => _ end).
      assert (Hb : NoDup (map fst base)).
      { unfold base. destruct (ci_slots (e_ct E c)); rewrite map_map; cbn; [rewrite map_id|]; exact Hdn. }
      revert Hb. generalize base.
      generalize (class_props (ci_members (e_ct E c)) ++ other_class_vars (ci_members (e_ct E c)))%list.
      induction l as [|b l IH]; intros base' Hb; cbn [fold_left]; [exact Hb|].
      apply IH. now apply sset_NoDup. }
    assert (Hndr : NoDup (map fst r)) by (eapply filter_attrs_NoDup; [exact Hf|exact Hnd0]).
    assert (Hr : r = map (fun a => (a, attr_hint (e_ct E c) a)) (map fst r)).
    { rewrite map_map. symmetry. transitivity (map (fun x => x) r); [|apply map_id]. apply map_ext_in. intros [a t] Hin. cbn [fst].
      apply (selects_In _ _ _ _ Hsel0) in Hin as [Hin _].
      rewrite <- attrs_and_types_get, (NoDup_sget _ _ _ Hnd0 Hin). reflexivity. }
    exists (map fst r). split; [exact Hndr|]. split.
    + intros a. split.
      * intros Hin. apply in_map_iff in Hin as ([a' t] & <- & Hin). apply (selects_In _ _ _ _ Hsel0) in Hin as [Hin Hv].
        cbn [fst] in *. apply Hdv; [|exact Hv]. apply attrs_and_types_keys. now apply (in_map fst) in Hin.
      * intros Hin. apply in_map_iff in Hin as (p & <- & Hp). specialize (Hdp p Hp). apply attrs_and_types_keys in Hdp.
        apply in_map_iff in Hdp as ([a t] & Ha & Hin). cbn [fst] in Ha. apply in_map_iff. exists (a, t). split; [exact Ha|].
        apply (selects_In _ _ _ _ Hsel0). split; [exact Hin|]. cbn [fst]. rewrite Ha. now apply Hpar.
    + intros n o' attrs ds He Hsel Hat HF. pose proof He as (Hstr & Hplo & _ & _ & _ & Hstrip).
      rewrite <- Hr in HF. rewrite Hgiven.
      destruct (dump_object_fields E f n o' (Some (TClass c)) (VObj c attrs) r []) as (_ & H2 & _); auto.
      * rewrite <- (Hgiven attrs). apply Hser.
      * cbv zeta. rewrite Hstr. unfold attrs_from_class. destruct (strips_names _ _ Hstrip) as [Hsn _]. rewrite Hsn. cbn [rbind].
        split; [|exact Hna].
        destruct (filter_attrs_selects (ci_members (e_ct E c)) o' [] Hrd (attrs_and_types (e_ct E c))) as (r' & Hf' & Hsel').
        replace r with r'; [exact Hf'|]. eapply selects_ext; [|exact Hsel'|exact Hsel0]. intros x. symmetry. now apply Hvis.
Qed.
Lemma spass_object k c attrs :
  record_like (e_ct E) o c -> map fst attrs = map pa_name (ci_params (e_ct E c)) ->
  (k <> Unknown -> declares_parameters (e_ct E c) o) ->
  (forall p t x, In (p, x) (combine (ci_params (e_ct E c)) (map snd attrs)) -> pa_hint p = Some t ->
     exists j, spasses (of_attribute (e_ct E c) (pa_name p)) t x j) ->
  accepts E g (TClass c) (VObj c attrs) -> exists j, spasses k (TClass c) (VObj c attrs) j.
Proof.
  intros HR Hat Hk IH Ha. destruct (object_names k c HR Hk) as (names & Hndn & Hnames & Hdump).
  destruct HR as [HK HO Hna Hrd Hnd Hinit Hmem Hpar].
  set (ps := ci_params (e_ct E c)) in *. set (xs := map snd attrs) in *.
  assert (Hattrs : attrs = combine (map pa_name ps) xs) by (rewrite <- Hat; symmetry; apply combine_split').
  assert (Hlen : length ps = length xs).
  { unfold xs. rewrite map_length. rewrite <- (map_length fst attrs), Hat. now rewrite map_length. }
  assert (HP : forall a, In a names -> exists p x t, In p ps /\ In (p, x) (combine ps xs) /\ a = pa_name p /\
             sget a attrs = Some x /\ pa_hint p = Some t /\ val_at attrs a = x /\ ty_at ps a = t).
  { intros a Hin. apply Hnames in Hin. apply in_map_iff in Hin as (p & <- & Hp).
    destruct (combine_In ps xs p Hlen Hp) as (x & Hx). destruct (Hpar p Hp) as (_ & _ & _ & _ & t & Ht & _).
    assert (Hg : sget (pa_name p) attrs = Some x) by (rewrite Hattrs; now apply sget_combine).
    exists p, x, t. repeat (split; [assumption || reflexivity|]). split; [unfold val_at; now rewrite Hg|].
    now rewrite (ty_at_param ps p Hnd Hp), Ht. }
  destruct (spasses_all (map (fun a => (of_attribute (e_ct E c) a, ty_at ps a, val_at attrs a)) names)) as (js & Hps & _ & N & HN).
  { intros k' t x Hin. apply in_map_iff in Hin as (a & Heq & Hin). injection Heq as <- <- <-.
    destruct (HP a Hin) as (p & x & t & Hp & Hpx & -> & Hg & Ht & -> & ->). eauto. }
  assert (Hjl : length names = length js).
  { specialize (HN N (le_n _)). apply Forall2_len in HN. now rewrite map_length in HN. }
  set (d := combine (map VStr names) js).
  assert (Hclean : clean (VDict DkDict d)).
  { apply names_clean; [exact Hndn|exact Hjl| |exact Hps].
    intros a Hin. destruct (HP a Hin) as (p & x & t & Hp & _ & -> & _). now apply Hpar. }
  pose proof (proj1 Hclean) as Hplain.
  exists (VDict DkDict d). split; [exact Hclean|]. split; [discriminate|].
  exists (S N). intros [|n] Hle; [lia|]. specialize (HN n ltac:(lia)). apply Forall2_map_l in HN. unfold kk, kt_ in HN. cbn [fst snd] in HN. split.
  - intros o' He Hsel. unfold d. apply Hdump; auto. apply F2_map_l.
    eapply Forall2_In_l; [|exact HN]. intros a jx Hin [Hx _]. cbn [fst snd].
    destruct (HP a Hin) as (p & x & t & Hp & Hpx & Hap & Hg & Ht & Hv & Hty). rewrite Hv, Hty in Hx. subst a.
    destruct (Hpar p Hp) as (_ & _ & Hmp & _ & t' & Ht' & _ & Hah). rewrite Ht in Ht'. injection Ht' as <-.
    exists x. cbn [fst snd]. split.
    + unfold get_attr. destruct (sget (pa_name p) (ci_members (e_ct E c))) as [[]|]; try (now elim Hmp); now rewrite Hg.
    + specialize (Hx (set_attr_opt (SATuple []) o') (strict_attr _ He) Hsel). unfold of_attribute in Hx.
      destruct Hah as [Hah|Hah]; rewrite Hah in *; exact Hx.
  - intros lo He. apply load_object_done.
    + split; [rewrite HD; now apply deser_object_class|]. split; [apply He|]. split; [now apply plain_no_meta|].
      intros p Hp. destruct (Hpar p Hp) as (_ & _ & _ & _ & t & -> & Hodd & _). exact Hodd.
    + exists attrs. split; [|auto].
      assert (Hsd : string_dict d) by (apply names_string_dict; [exact Hndn|exact Hjl]).
      assert (Hargs : arguments ps (map Some xs) = attrs) by (rewrite Hattrs; now apply arguments_all).
      exists d, (map Some xs), [], attrs, attrs. fold ps. rewrite Hargs.
      split; [now apply renamed_same|]. split.
      { apply Forall2_map_r. apply Forall2_of_combine; [exact Hlen|]. intros p x Hpx.
        assert (Hp : In p ps) by (now apply in_combine_l in Hpx).
        assert (Hin : In (pa_name p) names) by (apply Hnames; now apply in_map).
        destruct (Hpar p Hp) as (_ & _ & _ & _ & t & Ht & _).
        destruct (combine_In names js (pa_name p) Hjl Hin) as (jx & Hjx).
        pose proof (Forall2_combine _ _ _ _ _ HN Hjx) as [_ Hl]. cbv beta in Hl.
        assert (Hv : val_at attrs (pa_name p) = x) by (unfold val_at; rewrite Hattrs, (sget_combine pa_name ps xs p x Hnd Hpx); reflexivity).
        rewrite (ty_at_param ps p Hnd Hp), Ht, Hv in Hl. cbn [hint_or] in Hl.
        apply pv_input with jx.
        - destruct Hsd as [Hkk Hn]. apply dget_string; [|exact Hn|].
          + intros k' Hki. apply in_map_iff in Hki as ([k'' x'] & <- & Hki). cbn. eauto.
          + unfold d. now apply combine_map_l.
        - rewrite Ht. apply Hl. now apply exact_attr_opts. }
      split.
      { apply no_extras. intros k' x Hin [_ Hex]. unfold d in Hin. apply in_combine_l in Hin.
        apply in_map_iff in Hin as (a & <- & Hin). destruct (HP a Hin) as (p & y & t & _ & _ & _ & Hg & _).
        apply sget_In in Hg. now apply (Hex a y eq_refl). }
      split; [reflexivity|]. split; [apply Hinit; fold ps; exact Hat|]. split; [constructor|].
      destruct He as (_ & -> & _). constructor.
Qed.

(** ** Everything *)
Theorem strictly_passes k t v : strictly E g o k t v -> exists j, spasses k t v j.
Proof.
  induction 1 as [k t v Hat Hnu H|b h t l v Hq Hd Hi IH Ha|k b h t l Hk Hq Hc Hi IH Ha|k b h t l v Hk Hh Hq Hd Hi IH Ha
    |k b h tk t d v Hq Hnd Htk Hkt Hi IH Hdd Ha|b ts l Hne Hel Hlen Hi IH Ha|b t l Hi IH Ha|k pre t ts v Hpre Hv Hi IH Ha
    |k ts Hin Hodd Hun H0 Ha|k c fields l Hk Hor Hnd Hat Hlen Hnone Hh Hi IH Ha|k c attrs HR Hat Hk Hi IH Ha].
  - now apply spass_atomic.
  - eapply spass_sequence; eauto.
  - eapply spass_list; eauto.
  - eapply spass_unordered; eauto.
  - eapply spass_mapping; eauto.
  - eapply spass_tuple; eauto.
  - eapply spass_repeated; eauto.
  - eapply spass_present; eauto. eapply strictly_class; eauto.
  - eexists. eapply spass_absent; eauto.
  - eapply spass_namedtuple; eauto.
  - eapply spass_object; eauto.
Qed.
End StrictTrip.
Theorem strict_roundtrip E f g o k t v : default_serializers E f -> default_deserializers E g -> exact_strict o ->
  strictly E g o k t v ->
  exists j N, (plain_input j /\ json_data j) /\ forall n m lo, N <= n -> N <= m -> exact_load lo ->
    snd (dump E f n o (given k t v) v) = Done j /\ snd (load E m g lo (Some t) j) = Done v.
Proof.
  intros HS HD He H. destruct (strictly_passes E f g o HS HD k t v H) as (j & Hc & _ & N & HN).
  exists j, N. split; [exact Hc|]. intros n m lo Hn Hm Hlo. split.
  - apply (proj1 (HN n Hn)); [exact He|]. repeat split.
  - now apply (HN m Hm).
Qed.
