(** * Dumping and loading again with key transformers: proofs *)
From Coq Require Import Sorted.
From Verif Require Import PyBaseFacts AttrFacts DumpProofs DumpLaws LoadFacts LoadLaws LoadTypes LeafLaws RoundTripProofs.
From Verif Require Export KeyTripSpec.
Local Close Scope Z_scope.
Local Open Scope string_scope.

(** ** Options *)
Lemma with_store d o : dump_with d o -> dump_with d (set_store false o).
Proof. unfold dump_with. cbn. intuition. Qed.
Lemma with_types d o : dump_with d o -> dump_with d (no_types o).
Proof. unfold dump_with. cbn. intuition. Qed.
Lemma with_attr d o : dump_with d o -> dump_with d (set_attr_opt (SATuple []) o).
Proof. unfold dump_with. cbn. intuition. Qed.
Lemma lwith_child l o : load_with l o -> load_with l (child_opts o).
Proof. intros (H1 & H2 & H3 & H4). unfold load_with, no_hints. cbn. destruct H1 as [-> | ->]; auto. Qed.
Lemma lwith_nested l o : load_with l o -> load_with l (nested_opts o).
Proof. intros (H1 & H2 & H3 & H4). unfold load_with, no_hints. cbn. auto. Qed.
Lemma lwith_attr_opts l o : load_with l o -> load_with l (attr_opts o).
Proof. intros (H1 & H2 & H3 & H4). unfold load_with, no_hints. cbn. auto. Qed.
Lemma lwith_tuple l o : load_with l o -> load_with keep (tuple_opts o).
Proof. intros (H1 & H2 & H3 & H4). unfold load_with, no_hints. cbn. auto. Qed.
Lemma lwith_set_kt l o g : (forall k, g k = l k) -> load_with l o -> load_with l (set_kt (Some g) o).
Proof. intros Hg (H1 & H2 & H3 & H4). unfold load_with, no_hints. cbn. auto. Qed.
Lemma lwith_set_kt0 l o : load_with l o -> load_with keep (set_kt None o).
Proof. intros (H1 & H2 & H3 & H4). unfold load_with, no_hints. cbn. auto. Qed.
Lemma lwith_exact o : load_with keep o -> exact_load o.
Proof.
  intros (H1 & H2 & H3 & H4). unfold exact_load. repeat split; auto. intros g k Hg. specialize (H4 k). now rewrite Hg in H4.
Qed.

(** ** Renaming back *)
(** [s] is written as [s']. *)
Definition written_as (d l : transformer) (s s' : string) : Prop :=
  d (VStr s) = Ok (VStr s') /\ no_section s' /\ l (VStr s') = Ok (VStr s).
Lemma all_written d l names : (forall s, In s names -> undone d l s) -> exists names', Forall2 (written_as d l) names names'.
Proof.
  induction names as [|s names IH]; intros H; [exists []; constructor|].
  destruct (H s (or_introl eq_refl)) as (s' & Hs). destruct IH as (names' & HF); [intros; apply H; now right|].
  exists (s' :: names'). now constructor.
Qed.
Lemma written_distinct d l names names' : Forall2 (written_as d l) names names' -> NoDup names -> NoDup names'.
Proof.
  induction 1 as [|s s' names names' (_ & _ & Hs) H IH]; intros Hn; [constructor|].
  inversion Hn as [|? ? Hi Hn']; subst. constructor; [|auto]. intros Hin. apply Hi. clear -Hs H Hin.
  induction H as [|t t' names names' (_ & _ & Ht) H IH]; [destruct Hin|].
  destruct Hin as [->|Hin]; [left; congruence|right; auto].
Qed.
Lemma written_plain d l names names' s' : Forall2 (written_as d l) names names' -> In s' names' -> no_section s'.
Proof. induction 1 as [|s t names names' (_ & Hs & _) H IH]; intros []; subst; auto. Qed.
Lemma written_back d l names names' : Forall2 (written_as d l) names names' ->
  Forall2 (fun s s' => l (VStr s') = Ok (VStr s)) names names'.
Proof. apply Forall2_impl'. now intros s s' (_ & _ & H). Qed.
Lemma transform_back CT gt names names' js : forall acc,
  Forall2 (fun s s' => gt (VStr s') = Ok (VStr s)) names names' -> NoDup names -> length names = length js ->
  (forall s, In s names -> ~ In (VStr s) (map fst acc)) ->
  transform_keys CT gt (combine (map VStr names') js) acc = Ok (acc ++ combine (map VStr names) js)%list.
Proof.
  intros acc H. revert js acc. induction H as [|s s' names names' Hs H IH]; intros js acc Hn Hl Hf.
  - cbn. now rewrite app_nil_r.
  - destruct js as [|j js]; [discriminate|]. cbn [map combine transform_keys]. rewrite Hs. cbn [rbind hashable].
    inversion Hn as [|? ? Hi Hn']; subst. rewrite (dset_exact (VStr s) j acc (exact_str s)) by (apply Hf; now left).
    rewrite IH; [now rewrite <- app_assoc|exact Hn'|now injection Hl|].
    intros t Ht. rewrite map_app, in_app_iff. cbn. intros [Hin|[Heq|[]]]; [now apply (Hf t (or_intror Ht))|].
    injection Heq as <-. contradiction.
Qed.
Lemma renamed_back CT l lo names names' js : load_with l lo ->
  Forall2 (fun s s' => l (VStr s') = Ok (VStr s)) names names' -> NoDup names -> length names = length js ->
  renamed CT lo (combine (map VStr names') js) (combine (map VStr names) js).
Proof.
  intros (_ & _ & _ & Hl) HF Hn Hlen. apply renamed_iff. destruct (lo_kt lo) as [gt|].
  - rewrite (transform_back CT gt names names' js []); auto. eapply Forall2_impl'; [|exact HF].
    intros s s' H. cbv beta in *. now rewrite Hl.
  - f_equal. f_equal. f_equal. clear -HF Hl. induction HF as [|s s' names names' Hs HF IH]; [reflexivity|].
    rewrite <- Hl in Hs. injection Hs as ->. now f_equal.
Qed.

Section KeyTrip.
Variables (E : env) (f g : nat) (o : sopts) (d : transformer).
Hypothesis HS : default_serializers E f.
Hypothesis HD : default_deserializers E g.

Definition kdumps (n : nat) (t : ty) (v j : value) : Prop := forall o' cls,
  dump_with d o' -> same_selection o o' -> cls = None \/ cls = Some t -> snd (dump E f n o' cls v) = Done j.
Definition kloads (l : transformer) (n : nat) (t : ty) (j v : value) : Prop := forall lo,
  load_with l lo -> snd (load E n g lo (Some t) j) = Done v.
Definition kpasses (l : transformer) (t : ty) (v j : value) : Prop :=
  clean j /\ (j = VNone -> v = VNone) /\
  exists N, forall n, N <= n -> kdumps n t v j /\ kloads l n t j v.

Lemma kpasses_all l (tl : list (ty * value)) :
  (forall t x, In (t, x) tl -> exists j, kpasses l t x j) ->
  exists js, Forall clean js /\ Forall2 (fun tx j => j = VNone -> snd tx = VNone) tl js /\
    exists N, forall n, N <= n ->
      Forall2 (fun tx j => kdumps n (fst tx) (snd tx) j /\ kloads l n (fst tx) j (snd tx)) tl js.
Proof.
  induction tl as [|[t x] tl IH]; intros H.
  - exists []. repeat split; auto. exists 0. auto.
  - destruct (H t x (or_introl eq_refl)) as (j & Hp & Hn & N1 & H1).
    destruct IH as (js & Hps & Hns & N2 & H2); [intros t' x' Hin; apply H; now right|].
    exists (j :: js). split; [now constructor|]. split; [constructor; auto|].
    exists (Nat.max N1 N2). intros n Hle. constructor; [apply H1|apply H2]; lia.
Qed.

(** ** None, primitives *)
Lemma kpass_none l : accepts E g TNoneT VNone -> kpasses l TNoneT VNone VNone.
Proof.
  intros Ha. split; [now apply clean_scalar|]. split; [auto|]. exists 1. intros [|n] Hle; [lia|]. split.
  - intros o' cls _ _ Hc. apply dump_done_iff.
    assert (Hs : serializer E f cls VNone = Some SPrimitive).
    { unfold serializer. rewrite HS. destruct Hc as [-> | ->]; apply ser_none. }
    rewrite Hs. cbn [serialize ser_step]. destruct Hc as [-> | ->]; reflexivity.
  - intros lo _. now apply load_none_nonetype.
Qed.
Lemma kpass_prim l p v : class_of v = TPrim p -> accepts E g (TPrim p) v -> kpasses l (TPrim p) v v.
Proof.
  intros Hc Ha.
  assert (Hcl : clean v)
    by (apply clean_scalar; destruct v as [| | | | |xs|xs|[]|[]|x| | |]; try discriminate; exact I).
  pose proof (proj1 Hcl) as Hpi.
  assert (Hnn : v <> VNone) by (intros ->; discriminate).
  assert (Hi : is_instance (e_ct E) v (TPrim p) = Ok true).
  { unfold is_instance. rewrite Hc. destruct p; reflexivity. }
  split; [exact Hcl|]. split; [auto|].
  exists 1. intros [|n] Hle; [lia|]. split.
  - intros o' cls _ _ Hcs. apply dump_done_iff.
    assert (Hs : serializer E f cls v = Some SPrimitive).
    { unfold serializer. rewrite HS. destruct Hcs as [-> | ->]; cbn [tyof]; [rewrite Hc|]; apply ser_prim. }
    rewrite Hs. cbn [serialize]. cbn [ser_step]. apply lift_done. destruct Hcs as [-> | ->]; [reflexivity|].
    unfold ser_primitive. rewrite Hi. destruct v; reflexivity.
  - intros lo _.
    apply (load_typed E n g lo (TPrim p) v v I (plain_no_meta _ Hpi)). split; [intros ->; discriminate|].
    rewrite Hc, ty_eqb_refl. destruct (lo_strict lo); cbn [negb andb]; [|auto].
    split; [now apply plain_valid|]. exists (prim_handler p). rewrite HD, deser_prim. split; [reflexivity|].
    split; [|exact Ha]. destruct p; cbn [prim_handler deser_step].
    2-4: apply lift_done; unfold deser_primitive; rewrite Hi; destruct v; try reflexivity; discriminate.
    destruct v as [| | | | | | |[]|[]| | | |]; try discriminate. reflexivity.
Qed.

(** ** Leaves *)
Lemma kpass_leaf l x : survives E x -> accepts E g (TLeaf (leaf_kind x)) (VLeaf x) ->
  exists j, kpasses l (TLeaf (leaf_kind x)) (VLeaf x) j.
Proof.
  intros Hx Ha. destruct (pass_leaf E f g o HS HD x Hx Ha) as (j & Hcl & [Hn _] & N & HN).
  assert (Hj : j <> VNone) by (intros Heq; specialize (Hn Heq); discriminate).
  exists j. split; [exact Hcl|]. split; [auto|]. exists (S N). intros [|n] Hle; [lia|]. destruct (HN (S n) ltac:(lia)) as [H1 H2]. split.
  - intros o' cls He Hsel Hc.
    set (o2 := mkSopts false false None (so_privates o) (so_properties o) (so_class_vars o) SANone false false false true false []).
    specialize (H1 o2 cls ltac:(repeat split) ltac:(left; repeat split) ltac:(repeat split) Hc).
    apply dump_done_iff in H1. apply dump_done_iff. rewrite (serializer_leaf E f cls x HS Hc) in *. cbn [serialize] in *.
    destruct He as (_ & _ & _ & _ & _ & _ & _ & Hus & _).
    destruct x; try (now destruct Hx); cbn [leaf_kind leaf_ser ser_step] in *; try exact H1; unfold ser_time_like in *; rewrite Hus; exact H1.
  - intros lo He. specialize (H2 (set_kt None lo) (lwith_exact _ (lwith_set_kt0 _ _ He))).
    pose proof (proj1 Hcl) as Hp.
    assert (Hc : class_of j <> TLeaf (leaf_kind x)) by (destruct Hp; discriminate).
    assert (Hh : e_deser E g (TLeaf (leaf_kind x)) = Some (leaf_handler (leaf_kind x))) by (rewrite HD; apply deser_leaf).
    rewrite (load_run E n g lo (TLeaf (leaf_kind x)) j _ I (plain_no_meta _ Hp) Hj (plain_valid _ Hp) (or_intror Hc) Hh).
    rewrite (load_run E n g (set_kt None lo) (TLeaf (leaf_kind x)) j _ I (plain_no_meta _ Hp) Hj (plain_valid _ Hp) (or_intror Hc) Hh) in H2.
    destruct x; exact H2.
Qed.

(** ** Sequences *)
Lemma kdeser_list_all k n lo t l ys : load_with k lo ->
  Forall2 (fun x y => kloads k n t x y) l ys ->
  snd (deser_list E (load E n) g (child_opts lo) [t] (VList l)) = Done ys.
Proof.
  intros He H. unfold deser_list. cbn [py_iter hd_error]. apply bind_done. exists l. split; [reflexivity|].
  apply (list_go_all E g). eapply Forall2_impl'; [|exact H]. intros x y Hx. cbv beta in *. apply Hx.
  destruct He as (H1 & H2 & H3 & H4). unfold load_with, no_hints. cbn.
  destruct H1 as [-> | ->]; auto.
Qed.
Lemma kiterable_dumps n o' cls v l js : dump_with d o' -> py_iter (e_rt E) v = Ok l ->
  Forall2 (fun x j => snd (dump E f n (set_store false o') None x) = Done j) l js ->
  snd (ser_iterable E f (serialize E f n) o' cls v) = Done (VList js).
Proof.
  intros He Hl H. unfold ser_iterable. rewrite Hl. cbn [lift]. rewrite bind_ret_l.
  destruct He as (_ & -> & _). cbn [lift]. rewrite bind_ret_l. cbn [get_subclasses get_args lift]. rewrite bind_ret_l.
  apply bind_done. exists js. split; [|reflexivity]. apply mmap_done.
  clear Hl. induction H as [|x j l js Hx H IH]; [constructor|]. cbn [repeat length combine].
  constructor; [exact Hx|exact IH].
Qed.
Lemma kpass_sequence k b h t l v :
  sequence_of h l v -> (h = HSet \/ h = HFrozen -> distinct_elements (e_ct E) l) ->
  (forall x, In x l -> exists j, kpasses k t x j) ->
  accepts E g (TApp b h [t]) v -> exists j, kpasses k (TApp b h [t]) v j.
Proof.
  intros Hq Hdist IH Ha.
  destruct (kpasses_all k (map (pair t) l)) as (js & Hps & _ & N & HN).
  { intros t' x Hin. apply in_map_iff in Hin as (y & Heq & Hy). injection Heq as <- <-. auto. }
  exists (VList js). split; [now apply clean_list|]. split; [discriminate|].
  exists (S N). intros [|n] Hle; [lia|]. specialize (HN n ltac:(lia)). split.
  - intros o' cls He Hsel Hc. apply dump_done_iff.
    assert (Hel : forall c, c = None \/ c = Some t ->
      Forall2 (fun x j => snd (dump E f n (set_store false o') c x) = Done j) l js).
    { intros c Hcc. apply Forall2_map_l in HN. eapply Forall2_impl'; [|exact HN]. intros x j [Hx _].
      apply Hx; auto. now apply with_store. }
    assert (Hs : serializer E f cls v = Some SIterable \/ (serializer E f cls v = Some SList /\ v = VList l)).
    { unfold serializer. rewrite !HS. destruct Hc as [-> | ->]; cbn [tyof].
      - destruct Hq; cbn [class_of]; rewrite ser_head; cbn [head_ser]; auto.
      - rewrite ser_head. destruct Hq; cbn [head_ser]; auto. }
    assert (Hit : py_iter (e_rt E) v = Ok l) by (destruct Hq; reflexivity).
    destruct Hs as [Hs|[Hs ->]]; rewrite Hs; cbn [serialize]; cbn [ser_step].
    + apply kiterable_dumps with l; auto.
    + unfold ser_list. cbn [truthy py_iter].
      destruct l as [|x0 l0]; [inversion HN; subst; reflexivity|]. set (l := x0 :: l0) in *.
      cbn [length Nat.eqb negb].
      assert (Hl : negb (negb (Nat.eqb (length l) 0)) = false) by reflexivity. rewrite Hl.
      destruct He as (_ & Hstr & He). destruct Hc as [-> | ->].
      * cbn [get_args]. rewrite Hstr. cbn [lift]. rewrite bind_ret_l. apply bind_done. exists js. split; [|reflexivity].
        apply mmap_done. apply (Hel None). now left.
      * cbn [get_args raw_args]. cbn [lift]. rewrite bind_ret_l. apply bind_done. exists js. split; [|reflexivity].
        apply mmap_done. eapply Forall2_impl'; [|apply (Hel (Some t)); now right].
        intros x j Hx. now apply dump_done_iff in Hx.
  - intros lo He.
    assert (Hl2 : Forall2 (fun x y => kloads k n t x y) js l).
    { apply Forall2_map_l in HN. clear -HN. induction HN as [|x j l js Hx HN IH]; constructor; auto. apply Hx. }
    pose proof (kdeser_list_all k n lo t js l He Hl2) as Hdl.
    apply (load_by_handler E g HD) with (head_handler h); auto.
    + now apply clean_list.
    + exact I.
    + discriminate.
    + discriminate.
    + apply deser_head.
    + destruct Hq; cbn [head_handler deser_step get_args raw_args].
      * apply bind_done. exists l. split; [exact Hdl|reflexivity].
      * unfold deser_iterable. cbn [raw_args lift]. rewrite bind_ret_l. apply bind_done. exists l. split; [exact Hdl|reflexivity].
      * unfold deser_iterable. cbn [raw_args lift]. rewrite bind_ret_l. apply bind_done. exists l. split; [exact Hdl|].
        destruct Hdist as [Hh Hp]; auto. rewrite Hh, dedup_distinct; [reflexivity|exact Hp|intros x y _ []].
      * unfold deser_iterable. cbn [raw_args lift]. rewrite bind_ret_l. apply bind_done. exists l. split; [exact Hdl|].
        destruct Hdist as [Hh Hp]; auto. rewrite Hh, dedup_distinct; [reflexivity|exact Hp|intros x y _ []].
      * unfold deser_iterable. cbn [raw_args lift]. rewrite bind_ret_l. apply bind_done. exists l. split; [exact Hdl|reflexivity].
Qed.

(** ** Mappings *)
(** Items with text keys, as they are written *)
Lemma kser_dict_go_all n o' v : dump_with d o' -> forall items js acc,
  Forall2 (fun kx sj => exists s, key_text E f n o' (fst kx) s /\ d (VStr s) = Ok (VStr (fst sj)) /\
                        snd (dump E f n (no_types o') None (snd kx)) = Done (snd sj)) items js ->
  (forall k x, In (k, x) items -> py_getitem (e_ct E) v k = Ok x) ->
  NoDup (map fst (acc ++ js)) ->
  snd (ser_dict_go E f (serialize E f n) o' v (map fst items) (text_items acc)) = Done (text_items (acc ++ js)).
Proof.
  intros (Hkt & _ & Hsn & _ & _ & _ & _ & _ & Hty & _) items js. intros acc H. revert acc.
  induction H as [|[k x] [s' j] items js (s & Hk & Hs & Hx) H IH]; intros acc Hg Hn.
  - cbn. now rewrite app_nil_r.
  - cbn [map fst snd ser_dict_go] in *. rewrite (Hg k x (or_introl eq_refl)). cbn [lift]. rewrite bind_ret_l.
    apply bind_done. exists (text_items acc, VStr s). split.
    { unfold store_and_hash. destruct Hk as [-> |[Hjk Hk]].
      - now rewrite (scalar_key (e_ct E) (VStr s) I).
      - rewrite Hjk. apply bind_done. exists (VStr s). split; [exact Hk|]. now rewrite (scalar_key (e_ct E) (VStr s) I). }
    rewrite Hty. cbn [aget]. apply bind_done. exists j. split; [exact Hx|].
    rewrite Hsn. cbn [andb]. rewrite Hkt. cbn [snd]. unfold apply_kt. rewrite Hs. cbn [rbind hashable lift snd fst]. rewrite bind_ret_l.
    assert (Hi : ~ In (VStr s') (map fst (text_items acc))).
    { rewrite text_items_keys. intros Hin. apply in_map_iff in Hin as (s2 & Heq & Hin). injection Heq as ->.
      rewrite map_app in Hn. cbn in Hn. apply NoDup_remove_2 in Hn. apply Hn. apply in_or_app. now left. }
    rewrite (dset_exact (VStr s') j _ (exact_str s') Hi).
    change (text_items acc ++ [(VStr s', j)])%list with (text_items acc ++ text_items [(s', j)])%list.
    unfold text_items at 1 2. rewrite <- map_app. fold (text_items (acc ++ [(s', j)])). rewrite IH.
    + now rewrite <- app_assoc.
    + intros k' x' Hin. apply Hg. now right.
    + rewrite <- app_assoc. exact Hn.
Qed.
Lemma kdeser_dict_go_all l n ok ov gt tk t : load_with keep ok -> load_with l ov -> (forall k, gt k = l k) ->
  forall js items acc,
  Forall2 (fun sj kx => exists s, l (VStr (fst sj)) = Ok (VStr s) /\ kloads keep n tk (VStr s) (fst kx) /\
                                  kloads l n t (snd sj) (snd kx)) js items ->
  (forall k, In k (map fst items) -> exact_key k /\ hashable (e_ct E) k = true) -> NoDup (map fst (acc ++ items)) ->
  snd (deser_dict_go E (load E n) g ok ov gt (Some tk) (Some t) (text_items js) acc) = Done (acc ++ items)%list.
Proof.
  intros Hok Hov Hgt js items acc H. revert acc.
  induction H as [|[s' j] [k x] js items (s & Hs & Hk & Hx) H IH]; intros acc Hex Hn.
  - cbn. now rewrite app_nil_r.
  - cbn [text_items deser_dict_go map fst snd] in *. rewrite Hgt, Hs. cbn [lift]. rewrite bind_ret_l.
    apply bind_done. exists k. split; [now apply Hk|].
    apply bind_done. exists x. split; [now apply Hx|].
    destruct (Hex k (or_introl eq_refl)) as [Hek Hhk]. rewrite Hhk.
    assert (Hi : ~ In k (map fst acc)).
    { rewrite map_app in Hn. cbn in Hn. apply NoDup_remove_2 in Hn. intros Hi. apply Hn. apply in_or_app. now left. }
    rewrite (dset_exact k x acc Hek Hi). unfold text_items in IH. rewrite IH.
    + now rewrite <- app_assoc.
    + intros k' Hin. apply Hex. now right.
    + rewrite <- app_assoc. exact Hn.
Qed.
Lemma kpass_dict l n lo tk t items js : load_with l lo -> NoDup (map fst items) ->
  (forall k, In k (map fst items) -> exact_key k /\ hashable (e_ct E) k = true) ->
  (forall s, In s (map fst js) -> s <> "-keys") ->
  Forall2 (fun sj kx => exists s, l (VStr (fst sj)) = Ok (VStr s) /\ kloads keep n tk (VStr s) (fst kx) /\
                                  kloads l n t (snd sj) (snd kx)) js items ->
  snd (deser_dict E (load E n) g lo [tk; t] (VDict DkDict (text_items js))) = Done items.
Proof.
  intros He Hn Hk Hsec HF. pose proof He as (_ & _ & _ & Hl).
  assert (Hg : forall k, match lo_kt lo with Some gt => gt | None => fun k => Ok k end k = l k).
  { intros k. rewrite <- Hl. now destruct (lo_kt lo). }
  rewrite (load_dict E g n lo).
  - apply (kdeser_dict_go_all l n _ _ _ tk t) with (acc := []); auto.
    + now apply lwith_set_kt0 with l.
    + now apply lwith_set_kt.
  - destruct (dget (VStr "-keys") (text_items js)) as [x|] eqn:Hd; [|reflexivity].
    apply dget_In in Hd. apply (in_map fst) in Hd. rewrite text_items_keys in Hd.
    apply in_map_iff in Hd as (s & Heq & Hin). injection Heq as ->. now elim (Hsec _ Hin).
Qed.
Definition kgood_key (tk : ty) (k : value) (s : string) : Prop :=
  kpasses keep tk k (VStr s) /\ exact_key k /\ hashable (e_ct E) k = true /\
  (k = VStr s \/ json_key (e_ct E) k = false).
Lemma kgood_keys l tk (ks : list value) :
  (forall k, In k ks -> exists s, kgood_key tk k s /\ undone d l s) ->
  exists ss ss', Forall2 (kgood_key tk) ks ss /\ Forall2 (written_as d l) ss ss' /\ exists N, forall n, N <= n ->
    Forall2 (fun k s => kdumps n tk k (VStr s) /\ kloads keep n tk (VStr s) k) ks ss.
Proof.
  induction ks as [|k ks IH]; intros H.
  - exists [], []. split; [constructor|]. split; [constructor|]. exists 0. constructor.
  - destruct (H k (or_introl eq_refl)) as (s & Hs & s' & Hw). destruct IH as (ss & ss' & HF & HW & N1 & H1); [intros; apply H; now right|].
    pose proof Hs as Hs'. destruct Hs' as ((_ & _ & N2 & H2) & _).
    exists (s :: ss), (s' :: ss'). split; [now constructor|]. split; [now constructor|].
    exists (Nat.max N1 N2). intros n Hn. constructor; [apply H2|apply H1]; lia.
Qed.
Lemma kloads_distinct n tk ks ss : Forall2 (fun k s => kloads keep n tk (VStr s) k) ks ss -> NoDup ks -> NoDup ss.
Proof.
  assert (H0 : load_with keep lopts0) by (split; [now left|]; split; [reflexivity|]; split; [discriminate|reflexivity]).
  induction 1 as [|k s ks ss Hk H IH]; intros Hn; [constructor|]. inversion Hn as [|? ? Hi Hn']; subst. constructor; [|auto].
  intros Hin. apply Hi. clear -Hk H Hin H0. induction H as [|k' s' ks ss Hk' H IH]; [destruct Hin|].
  destruct Hin as [->|Hin]; [left|right; auto].
  specialize (Hk lopts0 H0). specialize (Hk' lopts0 H0). congruence.
Qed.
Lemma Forall2_join {A B C} (P : A -> B -> Prop) (Q : B -> C -> Prop) l m n :
  Forall2 P l m -> Forall2 Q m n -> Forall2 (fun a c => exists b, P a b /\ Q b c) l n.
Proof.
  intros H. revert n. induction H as [|a b l m Hab H IH]; intros n H2; inversion H2; subst; constructor; eauto.
Qed.
Lemma Forall2_both {A B} (P Q : A -> B -> Prop) l m : Forall2 P l m -> Forall2 Q l m -> Forall2 (fun a b => P a b /\ Q a b) l m.
Proof. intros H. induction H; intros H2; inversion H2; subst; constructor; auto. Qed.
Lemma kpass_mapping l b h tk t items v :
  mapping_of h items v -> NoDup (map fst items) ->
  (forall k, In k (map fst items) -> exists s, kgood_key tk k s /\ undone d l s) ->
  (forall k x, In (k, x) items -> exists j, kpasses l t x j) ->
  (h = HDefaultDict -> accepts E g (TApp true HDict [tk; t]) (VDict DkDict items)) ->
  accepts E g (TApp b h [tk; t]) v -> exists j, kpasses l (TApp b h [tk; t]) v j.
Proof.
  intros Hq Hnd Hgk IH Hdd Ha.
  destruct (kgood_keys l tk _ Hgk) as (ss & ss' & HG & HW & N1 & H1).
  destruct (kpasses_all l (map (fun x => (t, x)) (map snd items))) as (js & Hps & _ & N2 & H2).
  { intros t' x Hin. apply in_map_iff in Hin as (y & Heq & Hy). injection Heq as <- <-.
    apply in_map_iff in Hy as ([k z] & <- & Hy). eauto. }
  assert (Hlen : length ss' = length js).
  { rewrite <- (Forall2_len _ _ _ HW), <- (Forall2_len _ _ _ HG), map_length. specialize (H2 N2 (le_n _)). apply Forall2_len in H2. now rewrite !map_length in H2. }
  set (sjs := combine ss' js).
  assert (Hfst : map fst sjs = ss') by now apply combine_fst.
  assert (Hsec : forall s, In s ss' -> s <> "-meta" /\ s <> "-keys") by (intros s; now apply (written_plain d l ss ss')).
  assert (Hex : forall k, In k (map fst items) -> exact_key k /\ hashable (e_ct E) k = true).
  { intros k Hin. destruct (Hgk k Hin) as (s & (_ & H & H' & _) & _). auto. }
  assert (Hns : NoDup ss).
  { apply (kloads_distinct (S N1) tk (map fst items)); [|exact Hnd]. eapply Forall2_impl'; [|apply (H1 (S N1)); lia]. now intros k s []. }
  assert (Hns' : NoDup ss') by now apply (written_distinct d l ss).
  exists (VDict DkDict (text_items sjs)).
  assert (Hclean : clean (VDict DkDict (text_items sjs))).
  { apply clean_dict.
    - rewrite text_items_keys, Hfst. apply FinFun.Injective_map_NoDup; [|exact Hns']. intros s s' H. now injection H.
    - rewrite text_items_keys, Hfst. intros k Hin. apply in_map_iff in Hin as (s & <- & Hin). exists s. split; [reflexivity|]. now apply Hsec.
    - apply Forall_forall. intros [k j] Hin. unfold text_items in Hin. apply in_map_iff in Hin as ([s j'] & Heq & Hin).
      injection Heq as <- <-. apply in_combine_r in Hin. cbn. rewrite Forall_forall in Hps. auto. }
  pose proof (proj1 Hclean) as Hplain.
  split; [exact Hclean|]. split; [discriminate|].
  exists (S (S (S (Nat.max N1 N2)))). intros [|n] Hle; [lia|]. split.
  - intros o' cls He Hsel Hc. apply dump_done_iff.
    assert (Hs : serializer E f cls v = Some SDict).
    { unfold serializer. rewrite !HS. destruct Hc as [-> | ->]; cbn [tyof].
      - destruct Hq; cbn [class_of]; rewrite ser_head; reflexivity.
      - rewrite ser_head. destruct Hq; reflexivity. }
    rewrite Hs. cbn [serialize]. cbn [ser_step]. unfold ser_dict.
    assert (Hit : py_iter (e_rt E) v = Ok (map fst items)) by (destruct Hq; reflexivity).
    rewrite Hit. cbn [lift]. rewrite bind_ret_l. apply bind_done. exists (text_items sjs). split.
    2: { pose proof He as (_ & _ & _ & _ & _ & _ & _). reflexivity. }
    apply (kser_dict_go_all n o' v He items sjs []); auto.
    + assert (HK : Forall2 (fun k s' => exists s, key_text E f n o' k s /\ d (VStr s) = Ok (VStr s')) (map fst items) ss').
      { specialize (H1 n ltac:(lia)). eapply Forall2_impl'; [|apply (Forall2_join _ _ _ _ _ (Forall2_both _ _ _ _ H1 HG) HW)].
        intros k s' (s & [[Hd _] (_ & _ & _ & Hj)] & Hw & _). exists s. split; [|exact Hw].
        destruct Hj as [->|Hj]; [now left|right]. split; [exact Hj|]. apply Hd; auto. }
      assert (HX : Forall2 (fun x j => snd (dump E f n (no_types o') None x) = Done j) (map snd items) js).
      { specialize (H2 n ltac:(lia)). apply Forall2_map_l in H2. eapply Forall2_impl'; [|exact H2].
        intros x j [Hx _]. cbn [fst snd] in *. apply Hx; auto. now apply with_types. }
      eapply Forall2_impl'; [|apply (zip_items _ _ items ss' js HK HX)].
      intros kx sj [(s & Hk & Hd) Hx]. exists s. auto.
    + intros k x Hin. destruct (Hex k (in_map fst _ _ Hin)) as [Hek Hhk].
      assert (Hg : py_getitem (e_ct E) v k = match dget k items with Some x => Ok x | None => raise KKey end)
        by (destruct Hq; cbn [py_getitem]; now rewrite Hhk).
      rewrite Hg, (dget_exact items k x Hek Hnd Hin). reflexivity.
    + cbn [app]. now rewrite Hfst.
  - intros lo He.
    assert (HL : forall m, Nat.max N1 N2 <= m ->
      Forall2 (fun sj kx => exists s, l (VStr (fst sj)) = Ok (VStr s) /\ kloads keep m tk (VStr s) (fst kx) /\
                                      kloads l m t (snd sj) (snd kx)) sjs items).
    { intros m Hm. apply Forall2_flip.
      assert (HK : Forall2 (fun k s' => exists s, l (VStr s') = Ok (VStr s) /\ kloads keep m tk (VStr s) k) (map fst items) ss').
      { specialize (H1 m ltac:(lia)). eapply Forall2_impl'; [|apply (Forall2_join _ _ _ _ _ H1 HW)].
        intros k s' (s & [_ Hl] & _ & _ & Hw). exists s. auto. }
      assert (HX : Forall2 (fun x j => kloads l m t j x) (map snd items) js).
      { specialize (H2 m ltac:(lia)). apply Forall2_map_l in H2. eapply Forall2_impl'; [|exact H2]. now intros x j []. }
      eapply Forall2_impl'; [|apply (zip_items _ _ items ss' js HK HX)].
      intros kx sj [(s & Hk & Hd) Hx]. exists s. auto. }
    assert (HM : forall m lo' b' h', load_with l lo' -> Nat.max N1 N2 < m ->
      (h' = HDict \/ h' = HMapping \/ h' = HOrderedDict) ->
      snd (deser_step E (load E m) g lo' DMapping (TApp b' h' [tk; t]) (VDict DkDict (text_items sjs))) =
      Done (VDict (match h' with HOrderedDict => DkOrdered | _ => DkDict end) items)).
    { intros m lo' b' h' He' Hm Hh. cbn [deser_step]. unfold deser_mapping. cbn [get_args raw_args lift].
      rewrite bind_ret_l. apply bind_done. exists items. split.
      - apply (kpass_dict l); auto; [|apply HL; lia]. rewrite Hfst. intros s Hin. now apply Hsec.
      - destruct Hh as [-> |[-> | ->]]; reflexivity. }
    apply (load_by_handler E g HD) with (head_handler h); auto.
    + exact I.
    + discriminate.
    + discriminate.
    + apply deser_head.
    + destruct Hq; cbn [head_handler].
      * apply (HM n (child_opts lo) b HDict); auto; [now apply lwith_child|lia].
      * apply (HM n (child_opts lo) b HMapping); auto; [now apply lwith_child|lia].
      * apply (HM n (child_opts lo) b HOrderedDict); auto; [now apply lwith_child|lia].
      * cbn [deser_step]. unfold deser_defaultdict. cbn [get_args raw_args lift]. rewrite bind_ret_l.
        apply bind_done. exists (VDict DkDict d0). split; [|reflexivity].
        destruct n as [|n]; [lia|]. apply (load_by_handler E g HD) with DMapping; auto.
        -- exact I.
        -- discriminate.
        -- discriminate.
        -- apply (HM n _ true HDict); auto; [apply lwith_child, lwith_child; exact He|lia].
Qed.

(** ** Tuples *)
Lemma ktuple_dumps n o' cls t l js : dump_with d o' -> same_selection o o' ->
  cls = None \/ cls = Some t -> (exists b ts, t = TApp b HTuple ts /\ ts <> []) ->
  Forall2 (fun x j => snd (dump E f n (set_store false o') None x) = Done j) l js ->
  snd (dump E f (S n) o' cls (VTuple l)) = Done (VList js).
Proof.
  intros He Hsel Hc (b & ts & -> & Hts) HF. apply dump_done_iff.
  assert (Hs : serializer E f cls (VTuple l) = Some STuple).
  { unfold serializer. rewrite !HS. destruct Hc as [-> | ->]; cbn [tyof class_of]; now rewrite ser_head. }
  rewrite Hs. cbn [serialize]. cbn [ser_step]. unfold ser_tuple. destruct Hc as [-> | ->].
  - apply kiterable_dumps with l; auto.
  - destruct ts as [|t0 ts]; [now elim Hts|]. cbn [raw_args].
    destruct (ty_eqb TEllipsis (last (t0 :: ts) TAny)).
    + cbn [py_iter lift]. rewrite bind_ret_l. apply kiterable_dumps with l; auto.
    + apply kiterable_dumps with l; auto.
Qed.
Lemma kpass_tuple k b ts l :
  ts <> [] -> ~ In TEllipsis ts -> length ts = length l ->
  (forall t x, In (t, x) (combine ts l) -> exists j, kpasses keep t x j) ->
  accepts E g (TApp b HTuple ts) (VTuple l) -> exists j, kpasses k (TApp b HTuple ts) (VTuple l) j.
Proof.
  intros Hts Hel Hlen IH Ha. destruct (kpasses_all keep (combine ts l) IH) as (js & Hps & _ & N & HN).
  exists (VList js). split; [now apply clean_list|]. split; [discriminate|].
  exists (S N). intros [|n] Hle; [lia|]. specialize (HN n ltac:(lia)). split.
  - intros o' cls He Hsel Hc. apply ktuple_dumps with (TApp b HTuple ts); auto; [eauto|].
    clear -HN He Hlen Hsel. revert ts Hlen js HN. induction l as [|x l IH]; intros [|t ts] Hlen js HN; try discriminate.
    + inversion HN. constructor.
    + cbn in HN. inversion HN as [|? j ? js' [Hx _] HN']; subst. constructor.
      * apply Hx; auto. now apply with_store.
      * apply IH with ts; auto.
  - intros lo He. apply (load_tuple_done E n g lo b ts js (VList js)); auto; [apply He|].
    exists l. split; [|split; [|auto]].
    + apply Forall2_len in HN. rewrite combine_length in HN. lia.
    + clear -HN He Hlen. revert ts Hlen js HN. induction l as [|x l IH]; intros [|t ts] Hlen js HN; try discriminate.
      * inversion HN. constructor.
      * cbn in HN. inversion HN as [|? j ? js' [_ Hx] HN']; subst. cbn. constructor.
        -- apply Hx. now apply lwith_tuple with k.
        -- apply IH; auto.
Qed.
Lemma kpass_repeated k b t l :
  (forall x, In x l -> exists j, kpasses keep t x j) ->
  accepts E g (TApp b HTuple [t; TEllipsis]) (VTuple l) ->
  exists j, kpasses k (TApp b HTuple [t; TEllipsis]) (VTuple l) j.
Proof.
  intros IH Ha. destruct (kpasses_all keep (map (pair t) l)) as (js & Hps & _ & N & HN).
  { intros t' x Hin. apply in_map_iff in Hin as (y & Heq & Hy). injection Heq as <- <-. auto. }
  exists (VList js). split; [now apply clean_list|]. split; [discriminate|].
  exists (S N). intros [|n] Hle; [lia|]. specialize (HN n ltac:(lia)). apply Forall2_map_l in HN. split.
  - intros o' cls He Hsel Hc. apply ktuple_dumps with (TApp b HTuple [t; TEllipsis]); auto.
    + eexists _, _. split; [reflexivity|discriminate].
    + eapply Forall2_impl'; [|exact HN]. intros x j [Hx _].
      apply Hx; auto. now apply with_store.
  - intros lo He. apply (load_tuple_ellipsis E n g lo b t js (VList js)); auto; [apply He|].
    exists l. split; [|auto]. clear -HN He. induction HN as [|x j l js [_ Hx] HN IH]; constructor; auto.
    apply Hx. now apply lwith_tuple with k.
Qed.

(** ** Unions *)
Lemma kpass_present k pre t ts v :
  (forall u, In u pre -> u = TNoneT) -> v <> VNone -> naked_sub (e_ct E) (class_of v) TNoneT = false ->
  (exists j, kpasses k t v j) -> accepts E g (TUnion (pre ++ t :: ts)) v ->
  exists j, kpasses k (TUnion (pre ++ t :: ts)) v j.
Proof.
  intros Hpre Hv Hsub (j & Hcl & Hn & N & HN) Ha. pose proof (proj1 Hcl) as Hp. exists j. split; [exact Hcl|]. split; [auto|].
  assert (Hj : j <> VNone) by (intros Heq; apply Hv; now apply Hn).
  exists (S (S N)). intros [|[|n]] Hle; [lia|lia|]. split.
  - intros o' cls He Hsel [-> | ->]; [apply HN; auto; lia|].
    apply dump_union_done; [exact HS|]. right. split; [now intros [Heq _]|].
    exists pre, t, ts. split; [reflexivity|]. split; [apply HN; auto; lia|].
    apply Forall_forall. intros u Hu. rewrite (Hpre u Hu). clear u Hu.
    apply dump_fail_iff. unfold serializer. cbn [tyof]. rewrite HS, ser_none. cbn [serialize]. cbn [ser_step].
    unfold ser_primitive, is_instance. rewrite Hsub. destruct v; try (now elim Hv); cbn; eexists; reflexivity.
  - intros lo He. apply load_union_done; auto; [apply He|now apply plain_no_meta|now apply plain_valid|].
    split; [now intros Heq|]. split; [exact Ha|]. exists pre, t, ts. split; [reflexivity|].
    split; [apply HN; [lia|now apply lwith_nested]|].
    apply Forall_forall. intros u Hu. rewrite (Hpre u Hu). clear u Hu.
    exists (exn_of KDeser). split; [|reflexivity].
    rewrite (load_run E n g (nested_opts lo) TNoneT j DNone); auto.
    + cbn [deser_step]. destruct j; try reflexivity. now elim Hj.
    + exact I.
    + now apply plain_no_meta.
    + now apply plain_valid.
    + right. destruct Hp; try discriminate. now elim Hj.
    + rewrite HD. apply deser_none.
Qed.
Lemma kpass_absent k ts :
  In TNoneT ts -> (forall t, In t ts -> ~ odd_name (e_ct E) (Some t)) -> (forall us, ~ In (TUnion us) ts) ->
  accepts E g TNoneT VNone -> accepts E g (TUnion ts) VNone -> kpasses k (TUnion ts) VNone VNone.
Proof.
  intros Hin Hodd Hnu Ha0 Ha. split; [now apply clean_scalar|]. split; [auto|]. exists 2. intros [|[|n]] Hle; [lia|lia|]. split.
  - intros o' cls He Hsel [-> | ->].
    + apply dump_done_iff. unfold serializer. cbn [tyof class_of]. rewrite HS, ser_none. reflexivity.
    + apply dump_union_done; [exact HS|]. left. auto.
  - intros lo He. apply load_none_accepted; auto; [discriminate|now intros t [= <-]|].
    intros ts' [= <-]. auto.
Qed.

(** ** Enums *)
Lemma kpass_enum k c m ms n :
  ci_kind (e_ct E c) = CkEnum m ms -> ordinary (e_ct E c) -> canonical_member ms n ->
  accepts E g (TClass c) (VEnum c n) -> kpasses k (TClass c) (VEnum c n) (VStr n).
Proof.
  intros HK HO HC Ha. split; [now apply clean_scalar|]. split; [discriminate|]. exists 1. intros [|i] Hle; [lia|]. split.
  - intros o' cls He Hsel Hc. apply dump_done_iff.
    assert (Hs : serializer E f cls (VEnum c n) = Some SEnum).
    { unfold serializer. rewrite !HS. destruct Hc as [-> | ->]; cbn [tyof class_of]; apply ser_enumeration with m ms; auto. }
    rewrite Hs. cbn [serialize]. cbn [ser_step]. destruct He as (_ & _ & _ & _ & _ & _ & -> & _). reflexivity.
  - intros lo He. apply (load_by_handler E g HD) with DEnum; auto.
    + constructor.
    + exact I.
    + discriminate.
    + discriminate.
    + apply deser_enumeration with m ms; auto.
    + cbn [deser_step]. apply lift_done. destruct (canonical_get _ _ HC) as (x & Hx & Hn).
      assert (Hb : enum_by_name (e_ct E) c (VStr n) = Ok (VEnum c n)).
      { unfold enum_by_name, enum_members. rewrite HK. cbn [hashable negb]. now rewrite Hx, Hn. }
      unfold deser_enum. destruct He as (_ & _ & Hen & _). cbn [child_opts set_inferred set_hints lo_enum_name].
      destruct (lo_enum_name lo) as [[]|]; [|now elim Hen|]; rewrite Hb; reflexivity.
Qed.

(** ** Named tuples *)
Lemma plain_names_clean names js : NoDup names -> length names = length js ->
  (forall a, In a names -> no_section a) -> Forall clean js ->
  clean (VDict DkDict (combine (map VStr names) js)).
Proof.
  intros Hn Hl Ha Hj. apply clean_dict; rewrite ?combine_fst by now rewrite map_length.
  - apply FinFun.Injective_map_NoDup; [|exact Hn]. intros a b He. now injection He.
  - intros k Hin. apply in_map_iff in Hin as (s & <- & Hs). exists s. split; [reflexivity|]. now apply Ha.
  - apply Forall_forall; intros [k x] Hin; cbn. apply in_combine_r in Hin. rewrite Forall_forall in Hj. auto.
Qed.
Lemma kpass_namedtuple k c fields l :
  ci_kind (e_ct E c) = CkNT fields -> ordinary (e_ct E c) ->
  NoDup (map nf_name fields) -> (forall fd, In fd fields -> attribute_name (nf_name fd)) ->
  (forall fd, In fd fields -> untouched k (nf_name fd)) ->
  length fields = length l ->
  (forall fd x, In (fd, x) (combine fields l) -> x = VNone -> none_allowed fd) ->
  (forall fd x, In (fd, x) (combine fields l) -> exists t, nf_hint fd = Some t) ->
  (forall fd x t, In (fd, x) (combine fields l) -> nf_hint fd = Some t -> exists j, kpasses k t x j) ->
  accepts E g (TClass c) (VNT c l) -> exists j, kpasses k (TClass c) (VNT c l) j.
Proof.
  intros HK HO Hnd Hnm Hun Hlen Hnone Hhint IH Ha.
  destruct (kpasses_all k (map (fun fx => (hint_or (nf_hint (fst fx)), snd fx)) (combine fields l))) as (js & Hps & Hns & N & HN).
  { intros t x Hin. apply in_map_iff in Hin as ([fd y] & Heq & Hin). injection Heq as <- <-.
    destruct (Hhint _ _ Hin) as (t & Ht). cbn. rewrite Ht. cbn. eauto. }
  apply (Forall2_map_l (fun tx j => j = VNone -> snd tx = VNone) (fun fx => (hint_or (nf_hint (fst fx)), snd fx))) in Hns. cbn [snd] in Hns.
  assert (Hjl : length fields = length js).
  { specialize (HN N (le_n _)). apply Forall2_len in HN. rewrite map_length, combine_length in HN. lia. }
  set (j := VDict DkDict (combine (map VStr (map nf_name fields)) js)).
  assert (Hclean : clean j).
  { apply names_clean; [exact Hnd|now rewrite map_length| |exact Hps].
    intros a Hin. apply in_map_iff in Hin as (fd & <- & Hfd). auto. }
  pose proof (proj1 Hclean) as Hplain.
  exists j. split; [exact Hclean|]. split; [discriminate|].
  exists (S N). intros [|n] Hle; [lia|]. specialize (HN n ltac:(lia)). apply Forall2_map_l in HN. cbn [fst snd] in HN. split.
  - intros o' cls He Hsel Hc. apply dump_done_iff.
    assert (Hs : serializer E f cls (VNT c l) = Some STuple).
    { unfold serializer. rewrite !HS. destruct Hc as [-> | ->]; cbn [tyof class_of]; apply ser_namedtuple_class with fields; auto. }
    rewrite Hs. cbn [serialize]. cbn [ser_step]. cbn [ser_tuple].
    assert (Hn : snd (ser_namedtuple E f (serialize E f n) o' c (VNT c l)) = Done j); [|exact Hn].
    unfold ser_namedtuple. apply bind_done. exists (combine (map VStr (map nf_name fields)) js). split; [|reflexivity].
    apply mmap_done. unfold nt_fields. rewrite HK.
    assert (HG : forall fd x, In (fd, x) (combine fields l) -> get_attr E (VNT c l) (nf_name fd) = Ok x).
    { intros fd x Hin. unfold get_attr, nt_get, nt_fields. rewrite HK, (sget_combine nf_name fields l fd x Hnd Hin). reflexivity. }
    clear -HN HG Hlen He Hsel. revert HG. generalize (VNT c l) as v. intros v HG.
    revert l js Hlen HN HG. induction fields as [|fd fields IH]; intros [|x l] js Hlen HN HG; try discriminate.
    + inversion HN. constructor.
    + cbn [combine] in HN. inversion HN as [|? j ? js' [Hx _] HN']; subst. cbn [map combine]. constructor.
      * rewrite (HG fd x (or_introl eq_refl)). cbn [lift]. rewrite bind_ret_l. apply bind_done. exists j. split; [|reflexivity].
        apply Hx; auto.
      * apply IH with l; auto. intros fd' x' Hin. apply HG. now right.
  - intros lo He.
    apply (load_namedtuple_done E n g lo c fields j j); auto.
    + rewrite HD. apply deser_namedtuple_class with fields; auto.
    + apply He.
    + now apply plain_no_meta.
    + cbn [field_source j]. unfold j.
      assert (Hsd : string_dict (combine (map VStr (map nf_name fields)) js)) by (apply names_string_dict; auto; now rewrite map_length).
      split; [exact Hsd|]. exists (combine (map VStr (map nf_name fields)) js). split; [|auto].
      apply (renamed_back (e_ct E) k lo (map nf_name fields)); auto; [|now rewrite map_length].
      clear -Hun. induction fields as [|fd fields IH]; [constructor|]. cbn [map]. constructor; [apply Hun; now left|].
      apply IH. intros fd' Hin. apply Hun. now right.
    + exists l. split; [|auto].
      assert (Hget : forall fd jx, In (fd, jx) (combine fields js) ->
                dget (VStr (nf_name fd)) (combine (map VStr (map nf_name fields)) js) = Some jx).
      { intros fd jx Hin. destruct (names_string_dict (map nf_name fields) js Hnd ltac:(now rewrite map_length)) as [Hk Hn].
        apply dget_string; [|exact Hn|].
        - intros k' Hki. apply in_map_iff in Hki as ([k2 x'] & <- & Hki). cbn. eauto.
        - clear -Hin. revert js Hin. induction fields as [|fd0 fields IH]; intros [|y js] Hin; try (now destruct Hin).
          cbn in *. destruct Hin as [Heq|Hin]; [injection Heq as <- <-; now left|right; now apply IH]. }
      assert (Hlt : forall i, i < length fields -> i < length (combine (map VStr (map nf_name fields)) js)).
      { intros i Hi. rewrite combine_length, !map_length. lia. }
      unfold j. set (dd := combine (map VStr (map nf_name fields)) js) in *.
      assert (Hgen : forall fs l' js' i, length fs = length l' -> i + length fs = length fields ->
        Forall2 (fun tx jx => kdumps n (hint_or (nf_hint (fst tx))) (snd tx) jx /\
                              kloads k n (hint_or (nf_hint (fst tx))) jx (snd tx)) (combine fs l') js' ->
        Forall2 (fun tx jx => jx = VNone -> snd tx = VNone) (combine fs l') js' ->
        (forall fd x, In (fd, x) (combine fs l') -> In (fd, x) (combine fields l)) ->
        (forall fd x, In (fd, x) (combine fs js') -> In (fd, x) (combine fields js)) ->
        field_values E n g (nested_opts lo) (VDict DkDict dd) i fs l').
      { induction fs as [|fd fs IHf]; intros [|x l'] js' i Hl1 Hl2 HF HFn Hc1 Hc2; try discriminate; [constructor|].
        cbn [combine] in HF, HFn. inversion HF as [|? jx ? js2 [_ Hx] HF']; subst. inversion HFn as [|? ? ? ? Hxn HFn']; subst.
        destruct (Hhint fd x) as (t & Ht); [apply Hc1; now left|].
        apply fv_cons with jx.
        - left. cbn [field_input]. split; [apply Hlt; cbn in Hl2; lia|]. apply Hget. apply Hc2. now left.
        - intros Heq. apply (Hnone fd x); [apply Hc1; now left|]. now apply Hxn.
        - rewrite Ht. cbn [fst snd] in Hx. rewrite Ht in Hx. apply Hx. now apply lwith_nested.
        - apply IHf with js2; auto.
          + cbn in Hl2. lia.
          + intros fd' x' Hin. apply Hc1. now right.
          + intros fd' x' Hin. apply Hc2. now right. }
      apply Hgen with js; auto.
Qed.

(** ** Objects *)
Lemma do_serialize_renamed n o' v : so_kt o' = Some d -> so_strip_nulls o' = false -> so_store_cls o' = false ->
  forall attrs names' ds acc,
  Forall2 (fun s s' => d (VStr s) = Ok (VStr s')) (map fst attrs) names' -> NoDup names' ->
  (forall s, In s names' -> ~ In (VStr s) (map fst acc)) ->
  Forall2 (attr_dumps E f n o' v) attrs ds ->
  snd (do_serialize E f (serialize E f n) o' false v attrs acc) = Done (acc ++ combine (map VStr names') ds)%list.
Proof.
  intros O1 O2 O3 attrs names' ds acc Hw Hn Hd Hf. revert names' acc Hw Hn Hd.
  induction Hf as [|[a c] x' attrs ds (x & Hx & Hdx) _ IH]; intros names' acc Hw Hn Hd; cbn [do_serialize map fst] in *.
  - inversion Hw; subst. cbn. now rewrite app_nil_r.
  - inversion Hw as [|? a' ? names2 Ha Hw']; subst. cbn [map fst snd] in *.
    inversion Hn; subst. apply bind_done. exists x. split; [now rewrite Hx|]. cbv zeta.
    apply bind_done. exists tt. split; [reflexivity|].
    apply dump_done_iff in Hdx. apply bind_done. exists (inl x'). split.
    + unfold mcatch. replace (snd (dom d0 <- _; _)) with (Done x'); [reflexivity|]. symmetry.
      apply bind_done. exists x'. split; [exact Hdx|]. rewrite O3. destruct x'; reflexivity.
    + cbv zeta. rewrite O2, O1. cbn [andb]. unfold apply_kt. rewrite Ha. cbn [rbind hashable]. rewrite bind_lift_ok.
      assert (Hi : ~ In (VStr a') (map fst acc)) by (apply Hd; now left).
      rewrite (dset_exact (VStr a') x' acc (exact_str a') Hi).
      rewrite (IH names2); auto.
      * now rewrite <- app_assoc.
      * intros s' Hs'. rewrite map_app, in_app_iff. cbn.
        intros [Hin|[Eq|[]]]; [eapply Hd; [right; exact Hs'|exact Hin]|]. injection Eq as ->. contradiction.
Qed.
Lemma dump_renamed n o' cls c attrs names names' ds :
  dump_with d o' -> serializer E f cls (VObj c attrs) = Some SObject ->
  ci_attrs (e_ct E c) = false -> readable (ci_members (e_ct E c)) ->
  StronglySorted slt names ->
  (forall a, In a names <-> (In a (map fst attrs) \/ In a (map fst (ci_members (e_ct E c)))) /\
                            visible (ci_members (e_ct E c)) o' [] a) ->
  Forall2 (fun s s' => d (VStr s) = Ok (VStr s')) names names' -> NoDup names' ->
  Forall2 (attr_dumps E f n (set_attr_opt (SATuple []) o') (VObj c attrs)) (map (fun a => (a, attr_hint (e_ct E c) a)) names) ds ->
  snd (dump E f (S n) o' cls (VObj c attrs)) = Done (VDict DkDict (combine (map VStr names') ds)).
Proof.
  intros He Hs Hna Hrd Hsort Hnm Hw Hnd Hds.
  destruct He as (O1 & Hstr & O2 & O3 & O4 & O5 & _ & _ & _ & Hst).
  destruct (instance_fields E o' c attrs [] Hst Hrd) as (names2 & Hf & Hsort2 & Hin2).
  assert (names2 = names) as ->. { apply sorted_unique; auto. intros a. now rewrite Hin2, Hnm. }
  destruct (strips_names _ _ Hst) as [_ Hno]. pose proof (sopts_eta o' [] O3 O5 Hno) as Heta.
  apply dump_done_iff. rewrite Hs. cbn [serialize]. cbn [ser_step].
  unfold ser_object. cbv zeta. rewrite Hstr.
  assert (Hc0 : match cls with Some t => if false then Some t else None | None => None end = (None : option ty)) by now destruct cls.
  rewrite Hc0, Hf. cbn [class_of]. rewrite bind_lift_ok, Hna. cbn [andb]. rewrite Heta, O5.
  apply bind_done. exists (combine (map VStr names') ds). split.
  - apply (do_serialize_renamed n (set_attr_opt (SATuple []) o') (VObj c attrs) O1 O2 O5 _ names' ds []); auto.
    rewrite map_map. cbn [fst]. now rewrite map_id.
  - unfold dict_with_meta. rewrite O3, O4. reflexivity.
Qed.
Lemma kpass_object k c attrs :
  record_like (e_ct E) o c -> map fst attrs = map pa_name (ci_params (e_ct E c)) ->
  (forall a x, In (a, x) attrs -> undone d k a) ->
  (forall p t x, In (p, x) (combine (ci_params (e_ct E c)) (map snd attrs)) -> pa_hint p = Some t -> exists j, kpasses k t x j) ->
  accepts E g (TClass c) (VObj c attrs) -> exists j, kpasses k (TClass c) (VObj c attrs) j.
Proof.
  intros HR Hat Hundone IH Ha. destruct HR as [HK HO Hna Hrd Hnd Hinit Hmem Hpar].
  set (ps := ci_params (e_ct E c)) in *. set (xs := map snd attrs) in *.
  assert (Hattrs : attrs = combine (map pa_name ps) xs) by (rewrite <- Hat; symmetry; apply combine_split').
  assert (Hlen : length ps = length xs).
  { unfold xs. rewrite map_length. rewrite <- (map_length fst attrs), Hat. now rewrite map_length. }
  set (names := sort_names (map pa_name ps)).
  assert (Hnames : forall a, In a names <-> In a (map pa_name ps)) by (intros a; apply sort_names_In).
  assert (Hsorted : StronglySorted slt names) by apply sort_names_sorted.
  assert (Hnn : NoDup names) by now apply sorted_NoDup.
  assert (HP : forall a, In a names -> exists p x t, In p ps /\ In (p, x) (combine ps xs) /\ a = pa_name p /\
             sget a attrs = Some x /\ pa_hint p = Some t /\ val_at attrs a = x /\ ty_at ps a = t).
  { intros a Hin. apply Hnames in Hin. apply in_map_iff in Hin as (p & <- & Hp).
    destruct (combine_In ps xs p Hlen Hp) as (x & Hx). destruct (Hpar p Hp) as (_ & _ & _ & _ & t & Ht & _).
    assert (Hg : sget (pa_name p) attrs = Some x) by (rewrite Hattrs; now apply sget_combine).
    exists p, x, t. repeat (split; [assumption || reflexivity|]). split; [unfold val_at; now rewrite Hg|].
    now rewrite (ty_at_param ps p Hnd Hp), Ht. }
  destruct (all_written d k names) as (names' & HW).
  { intros a Hin. destruct (HP a Hin) as (p & x & t & _ & _ & _ & Hg & _). apply sget_In in Hg. now apply (Hundone a x). }
  assert (Hnn' : NoDup names') by now apply (written_distinct d k names).
  pose proof (Forall2_len _ _ _ HW) as Hwl.
  destruct (kpasses_all k (map (fun a => (ty_at ps a, val_at attrs a)) names)) as (js & Hps & _ & N & HN).
  { intros t x Hin. apply in_map_iff in Hin as (a & Heq & Hin). injection Heq as <- <-.
    destruct (HP a Hin) as (p & x & t & Hp & Hpx & -> & Hg & Ht & -> & ->). eauto. }
  assert (Hjl : length names = length js).
  { specialize (HN N (le_n _)). apply Forall2_len in HN. now rewrite map_length in HN. }
  set (dd := combine (map VStr names') js).
  assert (Hclean : clean (VDict DkDict dd)).
  { apply plain_names_clean; [exact Hnn'|now rewrite <- Hwl| |exact Hps].
    intros a Hin. now apply (written_plain d k names names'). }
  pose proof (proj1 Hclean) as Hplain.
  exists (VDict DkDict dd). split; [exact Hclean|]. split; [discriminate|].
  exists (S N). intros [|n] Hle; [lia|]. specialize (HN n ltac:(lia)). apply Forall2_map_l in HN. cbn [fst snd] in HN. split.
  - intros o' cls He Hsel Hc.
    assert (Hs : serializer E f cls (VObj c attrs) = Some SObject).
    { unfold serializer. rewrite !HS. destruct Hc as [-> | ->]; cbn [tyof class_of]; now apply ser_object_class. }
    unfold dd. apply (dump_renamed n o' cls c attrs names names' js He Hs Hna Hrd Hsorted); auto.
    + intros a. rewrite Hnames, Hat. split.
      * intros Hin. split; [now left|]. apply in_map_iff in Hin as (p & <- & Hp).
        apply selection_visible with o; [exact Hsel|]. now apply Hpar.
      * intros [[Hin|Hin] Hv]; [exact Hin|]. apply Hmem; [exact Hin|]. now apply selection_visible' with o'.
    + eapply Forall2_impl'; [|exact HW]. now intros s s' [H _].
    + apply Forall2_map_l. eapply Forall2_In_l; [|exact HN]. intros a jx Hin [Hx _]. cbn [fst snd].
      destruct (HP a Hin) as (p & x & t & Hp & Hpx & Hap & Hg & Ht & Hv & Hty). rewrite Hv, Hty in Hx. subst a.
      destruct (Hpar p Hp) as (_ & _ & Hmp & _ & t' & Ht' & _ & Hah). rewrite Ht in Ht'. injection Ht' as <-.
      exists x. cbn [fst snd]. split.
      * unfold get_attr. destruct (sget (pa_name p) (ci_members (e_ct E c))) as [[]|]; try (now elim Hmp); now rewrite Hg.
      * apply Hx; [now apply with_attr|exact Hsel|exact Hah].
  - intros lo He. apply load_object_done.
    + split; [rewrite HD; now apply deser_object_class|]. split; [apply He|]. split; [now apply plain_no_meta|].
      intros p Hp. destruct (Hpar p Hp) as (_ & _ & _ & _ & t & -> & Hodd & _). exact Hodd.
    + exists attrs. split; [|auto].
      set (d' := combine (map VStr names) js).
      assert (Hsd : string_dict d') by now apply names_string_dict.
      assert (Hargs : arguments ps (map Some xs) = attrs) by (rewrite (arguments_all ps xs Hlen); now symmetry).
      exists d', (map Some xs), [], attrs, attrs. fold ps. rewrite Hargs.
      split; [apply (renamed_back (e_ct E) k lo names names' js He); auto; now apply (written_back d)|]. split.
      { apply Forall2_map_r. apply Forall2_of_combine; [exact Hlen|]. intros p x Hpx.
        assert (Hp : In p ps) by (now apply in_combine_l in Hpx).
        assert (Hin : In (pa_name p) names) by (apply Hnames; now apply in_map).
        destruct (Hpar p Hp) as (_ & _ & _ & _ & t & Ht & _).
        destruct (combine_In names js (pa_name p) Hjl Hin) as (jx & Hjx).
        pose proof (Forall2_combine _ _ _ _ _ HN Hjx) as [_ Hl]. cbv beta in Hl.
        assert (Hv : val_at attrs (pa_name p) = x) by (unfold val_at; rewrite Hattrs, (sget_combine pa_name ps xs p x Hnd Hpx); reflexivity).
        rewrite (ty_at_param ps p Hnd Hp), Ht, Hv in Hl. cbn [hint_or] in Hl.
        apply pv_input with jx.
        - destruct Hsd as [Hk Hn]. apply dget_string; [|exact Hn|].
          + intros k' Hki. apply in_map_iff in Hki as ([k2 x'] & <- & Hki). cbn. eauto.
          + unfold d'. now apply combine_map_l.
        - rewrite Ht. apply Hl. now apply lwith_attr_opts. }
      split.
      { apply no_extras. intros k' x Hin [_ Hex]. unfold d' in Hin. apply in_combine_l in Hin.
        apply in_map_iff in Hin as (a & <- & Hin). destruct (HP a Hin) as (p & y & t & _ & _ & _ & Hg & _).
        apply sget_In in Hg. now apply (Hex a y eq_refl). }
      split; [reflexivity|]. split; [apply Hinit; exact Hat|]. split; [constructor|].
      destruct He as (_ & -> & _). constructor.
Qed.

(** ** Keys *)
Lemma kkey_dumps n t k s o' : has_type E g o t k -> text_key (e_ct E) k -> key_name k s -> dump_with d o' ->
  snd (dump E f (S n) o' None k) = Done (VStr s) /\ exact_key k /\ hashable (e_ct E) k = true /\
  (k = VStr s \/ json_key (e_ct E) k = false).
Proof.
  intros H Ht Hk He. destruct Hk as [->|[->|[->|(c & ->)]]].
  - split; [|split; [apply exact_str|auto]]. apply dump_done_iff. unfold serializer. rewrite HS. cbn [tyof class_of].
    rewrite ser_prim. reflexivity.
  - split; [|split; [apply leaf_exact|split; [reflexivity|right; apply no_json_key; [reflexivity|intros []; reflexivity|reflexivity]]]].
    apply dump_done_iff. rewrite (serializer_leaf E f None (LPath s) HS (or_introl eq_refl)). reflexivity.
  - split; [|split; [apply leaf_exact|split; [reflexivity|right; apply no_json_key; [reflexivity|intros []; reflexivity|reflexivity]]]].
    apply dump_done_iff. rewrite (serializer_leaf E f None (LDecimal s) HS (or_introl eq_refl)). reflexivity.
  - destruct Ht as [_ (ms & Hm)].
    assert (Hor : ordinary (e_ct E c)).
    { clear -H. remember (VEnum c s) as v eqn:Hv.
      induction H as [|p v Hc|x|b h t l v Hq|b h tk t dd v Hq| | | | | | |]; subst; try discriminate; auto.
      - inversion Hq.
      - inversion Hq.
      - injection Hv as -> ->. assumption. }
    split; [|split; [apply enum_exact|split; [reflexivity|right]]].
    + apply dump_done_iff. unfold serializer. rewrite HS. cbn [tyof class_of]. rewrite (ser_enumeration (e_ct E) c Hor None ms Hm).
      cbn [serialize]. cbn [ser_step]. destruct He as (_ & _ & _ & _ & _ & _ & -> & _). reflexivity.
    + destruct Hor as [_ Hu]. apply no_json_key; cbn [class_of supers].
      * reflexivity.
      * intros p. cbn [existsb]. change (ty_eqb (TPrim p) (TClass c)) with false. rewrite Hm. cbn [app existsb].
        rewrite (existsb_user _ (ci_supers (e_ct E c))); [reflexivity|reflexivity|exact Hu].
      * cbn [existsb]. change (ty_eqb TNoneT (TClass c)) with false. rewrite Hm. cbn [app existsb].
        rewrite (existsb_user _ (ci_supers (e_ct E c))); [reflexivity|reflexivity|exact Hu].
Qed.
Lemma kgood_text t k s : has_type E g o t k -> text_key (e_ct E) k -> key_name k s ->
  (exists j, kpasses keep t k j) -> kgood_key t k s.
Proof.
  intros H Ht Hk (j & Hj).
  set (o' := mkSopts false false (Some d) (so_privates o) (so_properties o) (so_class_vars o) SANone false false false true false []).
  assert (Ho : dump_with d o') by (repeat split). assert (Hsel : same_selection o o') by (repeat split).
  pose proof Hj as (_ & _ & N & HN). destruct (HN (S N) ltac:(lia)) as [Hd _].
  specialize (Hd o' None Ho Hsel (or_introl eq_refl)).
  destruct (kkey_dumps N t k s o' H Ht Hk Ho) as (Hd' & H1 & H2 & H3).
  assert (j = VStr s) as -> by congruence. split; auto.
Qed.

(** ** Everything *)
Theorem has_type_kpasses t v : has_type E g o t v -> forall l, renamable (e_ct E) d l v -> exists j, kpasses l t v j.
Proof.
  induction 1 as [Ha|p v Hc Ha|x Hx Ha|b h t xs v Hq Hd Hi IH Ha|b h tk t items v Hq Hnd Htk Hk IHk Hi IH Hdd Ha
    |b ts xs Hne Hel Hlen Hi IH Ha|b t xs Hi IH Ha|pre t ts v Hpre Hv Hi IH Ha|ts Hin Hodd Hun H0 Ha
    |c m ms nm Hk Hor Hcan Ha|c fields xs Hk Hor Hnd Hat Hlen Hnone Hh Hi IH Ha|c attrs HR Hat Hi IH Ha]; intros l Hr.
  - exists VNone. now apply kpass_none.
  - exists v. now apply kpass_prim.
  - now apply kpass_leaf.
  - eapply kpass_sequence; eauto. intros x Hx. apply IH; [exact Hx|].
    destruct Hq; inversion Hr as [? ? Hs| | | | | | | |]; subst; (now destruct Hs) || auto.
  - assert (HN : (forall key x, In (key, x) items -> exists s, key_name key s /\ undone d l s) /\
                 (forall key x, In (key, x) items -> renamable (e_ct E) d l x)).
    { destruct Hq; inversion Hr as [? ? Hs| | | | | | | |]; subst; (now destruct Hs) || auto. }
    destruct HN as [HN1 HN2]. eapply kpass_mapping; eauto.
    intros k Hin. pose proof Hin as Hin'. apply in_map_iff in Hin' as ([k' x] & <- & Hin'). cbn [fst] in *.
    destruct (HN1 _ _ Hin') as (s & Hs & Hu). exists s. split; [|exact Hu].
    apply kgood_text; auto. apply IHk; [exact Hin|]. 
    destruct Hs as [->|[->|[->|(c & ->)]]]; constructor; exact I.
  - assert (HE : forall x, In x xs -> renamable (e_ct E) d keep x) by (inversion Hr as [? ? Hs| | | | | | | |]; subst; (now destruct Hs) || auto).
    eapply kpass_tuple; eauto. intros t x Hin. apply (IH t x Hin). apply HE. now apply in_combine_r in Hin.
  - assert (HE : forall x, In x xs -> renamable (e_ct E) d keep x) by (inversion Hr as [? ? Hs| | | | | | | |]; subst; (now destruct Hs) || auto).
    eapply kpass_repeated; eauto.
  - eapply kpass_present; eauto. eapply not_nonetype; eauto.
  - eexists. eapply kpass_absent; eauto.
  - eexists. eapply kpass_enum; eauto.
  - inversion Hr as [? ? Hs| | | | | | | |? ? fs ? Hk' Hu He]; subst; [now destruct Hs|].
    rewrite Hk in Hk'. injection Hk' as <-.
    eapply kpass_namedtuple; eauto. intros fd x t Hin Ht. apply (IH fd x t Hin Ht). apply He. now apply in_combine_r in Hin.
  - inversion Hr as [? ? Hs| | | | | | |? ? ? Hu He|]; subst; [now destruct Hs|].
    eapply kpass_object; eauto. intros p t x Hin Ht. apply (IH p t x Hin Ht).
    apply in_combine_r in Hin. apply in_map_iff in Hin as ([a y] & <- & Hin). now apply (He a).
Qed.
End KeyTrip.

Theorem key_trip E f g o t v d l :
  default_serializers E f -> default_deserializers E g -> dump_with d o -> has_type E g o t v ->
  renamable (e_ct E) d l v ->
  exists j N, (plain_input j /\ json_data j) /\
    forall n m cls lo, N <= n -> N <= m -> cls = None \/ cls = Some t -> load_with l lo ->
    snd (dump E f n o cls v) = Done j /\ snd (load E m g lo (Some t) j) = Done v.
Proof.
  intros HS HD Ho Ht Hr. destruct (has_type_kpasses E f g o d HS HD t v Ht l Hr) as (j & Hc & _ & N & HN).
  exists j, N. split; [exact Hc|]. intros n m cls lo Hn Hm Hcls Hlo. split.
  - apply (HN n Hn); auto. repeat split.
  - now apply (HN m Hm).
Qed.
