(** * Dumping and loading again: proofs *)
From Coq Require Import Sorted.
From Verif Require Import PyBaseFacts AttrFacts DatetimeProofs LeafProofs DumpProofs DumpLaws LoadFacts LoadLaws LoadTypes LeafLaws.
From Verif Require Export RoundTripFacts.
Local Close Scope Z_scope.
Local Open Scope string_scope.

(** ** Options *)
Definition same_selection (o o' : sopts) : Prop :=
  so_privates o = so_privates o' /\ so_properties o = so_properties o' /\ so_class_vars o = so_class_vars o'.
Lemma selection_visible o o' ms l a : same_selection o o' -> visible ms o l a -> visible ms o' l a.
Proof. intros (H1 & H2 & H3) H. unfold visible in *. now rewrite <- H1, <- H2, <- H3. Qed.
Lemma selection_visible' o o' ms l a : same_selection o o' -> visible ms o' l a -> visible ms o l a.
Proof. intros (H1 & H2 & H3) H. unfold visible in *. now rewrite H1, H2, H3. Qed.
Definition quiet (o : sopts) : Prop := so_class_info o = false /\ so_dump_time o = false /\ so_store_cls o = false.
Lemma exact_near o : exact_dump o <-> near_exact o /\ quiet o.
Proof. unfold exact_dump, near_exact, quiet, plain_opts. tauto. Qed.
Lemma near_store o : near_exact o -> near_exact (set_store false o).
Proof. unfold near_exact. cbn. auto. Qed.
Lemma near_types o : near_exact o -> near_exact (no_types o).
Proof. unfold near_exact. cbn. intuition. Qed.
Lemma near_attr o : near_exact o -> near_exact (set_attr_opt (SATuple []) o).
Proof. unfold near_exact. cbn. intuition. Qed.
Lemma quiet_store o : quiet o -> quiet (set_store false o).
Proof. unfold quiet. cbn. intuition. Qed.
(** What a part of a value may assume about the options *)
Lemma quiet_parts o l x : quiet o \/ forallb flat l = true -> In x l -> quiet (set_store false o) \/ flat x = true.
Proof.
  intros [H|H] Hin; [left; now apply quiet_store|right]. rewrite forallb_forall in H. auto.
Qed.
Lemma exact_child o : exact_load o -> exact_load (child_opts o).
Proof.
  intros (H1 & H2 & H3 & H4). unfold exact_load, no_hints. cbn.
  destruct H1 as [-> | ->]; auto.
Qed.
Lemma exact_nested o : exact_load o -> exact_load (nested_opts o).
Proof. intros (H1 & H2 & H3 & H4). unfold exact_load, no_hints. cbn. auto. Qed.
Lemma exact_attr_opts o : exact_load o -> exact_load (attr_opts o).
Proof. intros (H1 & H2 & H3 & H4). unfold exact_load, no_hints. cbn. auto. Qed.
Lemma exact_elem o b : exact_load o -> exact_load (elem_opts o b).
Proof. intros (H1 & H2 & H3 & H4). unfold exact_load, no_hints. cbn. auto. Qed.
Lemma exact_tuple o : exact_load o -> exact_load (tuple_opts o).
Proof. intros (H1 & H2 & H3 & H4). unfold exact_load, no_hints. cbn. intuition discriminate. Qed.
Lemma exact_set_kt o g : (forall k, g k = Ok k) -> exact_load o -> exact_load (set_kt (Some g) o).
Proof.
  intros Hg (H1 & H2 & H3 & H4). unfold exact_load, no_hints. cbn. repeat split; auto.
  intros h k [= <-]. apply Hg.
Qed.
Lemma exact_set_kt0 o : exact_load o -> exact_load (set_kt None o).
Proof. intros (H1 & H2 & H3 & H4). unfold exact_load, no_hints. cbn. repeat split; auto. discriminate. Qed.
Lemma exact_lopts0 : exact_load lopts0.
Proof. unfold exact_load, no_hints. cbn. repeat split; auto; discriminate. Qed.

Section RoundTrip.
Variables (E : env) (f g : nat) (o : sopts).
Hypothesis HS : default_serializers E f.
Hypothesis HD : default_deserializers E g.

(** A plain input that json.dumps writes and json.loads reads back as it is *)
Definition clean (j : value) : Prop := plain_input j /\ json_data j.
Lemma clean_scalar j : plain_scalar j -> clean j.
Proof. intros H. split; [destruct j; try (now destruct H); constructor|now constructor]. Qed.
Lemma clean_list js : Forall clean js -> clean (VList js).
Proof.
  intros H. split.
  - constructor. eapply Forall_impl; [|exact H]. now intros x [].
  - apply jd_list. intros x Hin. rewrite Forall_forall in H. now apply H.
Qed.
Lemma clean_dict d : NoDup (map fst d) ->
  (forall k, In k (map fst d) -> exists s, k = VStr s /\ s <> "-meta" /\ s <> "-keys") ->
  Forall (fun kx => clean (snd kx)) d -> clean (VDict DkDict d).
Proof.
  intros Hn Hk Hx. split.
  - constructor.
    + apply Forall_forall. intros [k x] Hin. apply (in_map fst) in Hin. now apply Hk.
    + eapply Forall_impl; [|exact Hx]. now intros [k x] [].
  - apply jd_dict; [exact Hn| |].
    + intros k x Hin. apply (in_map fst) in Hin. destruct (Hk _ Hin) as (s & Hs & _). eauto.
    + intros k x Hin. rewrite Forall_forall in Hx. now apply (Hx _ Hin).
Qed.
Definition dumps_to (n : nat) (t : ty) (v j : value) : Prop := forall o' cls,
  near_exact o' -> quiet o' \/ flat v = true -> same_selection o o' -> cls = None \/ cls = Some t ->
  snd (dump E f n o' cls v) = Done j.
Definition fits (v j : value) : Prop := (j = VNone -> v = VNone) /\ (flat v = true -> dictless j = true).
Definition loads_as (n : nat) (t : ty) (j v : value) : Prop := forall lo,
  exact_load lo -> snd (load E n g lo (Some t) j) = Done v.
Definition passes (t : ty) (v j : value) : Prop :=
  clean j /\ fits v j /\
  exists N, forall n, N <= n -> dumps_to n t v j /\ loads_as n t j v.

Lemma Forall2_In_l {A B} (P Q : A -> B -> Prop) l m :
  (forall x y, In x l -> P x y -> Q x y) -> Forall2 P l m -> Forall2 Q l m.
Proof. intros H HF. induction HF as [|x y l m Hx HF IH]; constructor; auto. - apply H; auto. now left. - apply IH. intros a b Hin. apply H. now right. Qed.
Lemma fits_list l js : Forall2 fits l js -> forallb flat l = true -> forallb dictless js = true.
Proof.
  induction 1 as [|x j l js [_ Hx] H IH]; intros Hf; [reflexivity|]. cbn [forallb] in *.
  apply andb_true_iff in Hf as [H1 H2]. rewrite (Hx H1), (IH H2). reflexivity.
Qed.
Lemma passes_all (tl : list (ty * value)) :
  (forall t x, In (t, x) tl -> exists j, passes t x j) ->
  exists js, Forall clean js /\ Forall2 (fun tx j => fits (snd tx) j) tl js /\
    exists N, forall n, N <= n ->
      Forall2 (fun tx j => dumps_to n (fst tx) (snd tx) j /\ loads_as n (fst tx) j (snd tx)) tl js.
Proof.
  induction tl as [|[t x] tl IH]; intros H.
  - exists []. repeat split; auto. exists 0. auto.
  - destruct (H t x (or_introl eq_refl)) as (j & Hp & Hn & N1 & H1).
    destruct IH as (js & Hps & Hns & N2 & H2); [intros t' x' Hin; apply H; now right|].
    exists (j :: js). split; [now constructor|]. split; [constructor; auto|].
    exists (Nat.max N1 N2). intros n Hle. constructor; [apply H1|apply H2]; lia.
Qed.

(** ** Loading, in terms of the handler *)
Lemma plain_no_meta j : plain_input j -> no_meta_entry j.
Proof.
  intros Hp k d x -> Hin. inversion Hp as [| | | | | | |d' Hk _]; subst.
  rewrite Forall_forall in Hk. destruct (Hk _ Hin) as (s & Hs & Hm & _). cbn in Hs. now injection Hs as <-.
Qed.
Lemma plain_valid j : plain_input j -> valid_type j = true.
Proof. destruct 1; reflexivity. Qed.
Lemma load_by_handler n lo t j h v : plain_input j -> direct t -> j <> VNone -> class_of j <> t ->
  default_deser (e_ct E) t = Some h ->
  snd (deser_step E (load E n) g (child_opts lo) h t j) = Done v -> accepts E g t v ->
  snd (load E (S n) g lo (Some t) j) = Done v.
Proof.
  intros Hp Hd Hn Hc Hh Hs Ha.
  rewrite (load_run E n g lo t j h Hd (plain_no_meta _ Hp) Hn (plain_valid _ Hp) (or_intror Hc)) by now rewrite HD.
  apply try_done. left. apply bind_done. exists v. split; [exact Hs|].
  apply bind_done. exists tt. split; [|reflexivity]. apply lift_done. now apply validate_ok.
Qed.

(** ** None, primitives *)
Lemma pass_none : accepts E g TNoneT VNone -> passes TNoneT VNone VNone.
Proof.
  intros Ha. split; [now apply clean_scalar|]. split; [now split|]. exists 1. intros [|n] Hle; [lia|]. split.
  - intros o' cls _ _ _ Hc. apply dump_done_iff.
    assert (Hs : serializer E f cls VNone = Some SPrimitive).
    { unfold serializer. rewrite HS. destruct Hc as [-> | ->]; apply ser_none. }
    rewrite Hs. cbn [serialize ser_step]. destruct Hc as [-> | ->]; reflexivity.
  - intros lo _. now apply load_none_nonetype.
Qed.
Lemma pass_prim p v : class_of v = TPrim p -> accepts E g (TPrim p) v -> passes (TPrim p) v v.
Proof.
  intros Hc Ha.
  assert (Hcl : clean v)
    by (apply clean_scalar; destruct v as [| | | | |l|l|[]|[]|x| | |]; try discriminate; exact I).
  pose proof (proj1 Hcl) as Hpi.
  assert (Hnn : v <> VNone) by (intros ->; discriminate).
  assert (Hi : is_instance (e_ct E) v (TPrim p) = Ok true).
  { unfold is_instance. rewrite Hc. destruct p; reflexivity. }
  split; [exact Hcl|]. split.
  { split; [auto|]. destruct v as [| | | | |l|l|[]|[]|x| | |]; try discriminate; reflexivity. }
  exists 1. intros [|n] Hle; [lia|]. split.
  - intros o' cls _ _ _ Hcs. apply dump_done_iff.
    assert (Hs : serializer E f cls v = Some SPrimitive).
    { unfold serializer. rewrite HS. destruct Hcs as [-> | ->]; cbn [tyof]; [rewrite Hc|]; apply ser_prim. }
    rewrite Hs. cbn [serialize]. cbn [ser_step]. apply lift_done. destruct Hcs as [-> | ->]; [reflexivity|].
    unfold ser_primitive. rewrite Hi. destruct v; reflexivity.
  - intros lo _.
    apply (load_typed E n g lo (TPrim p) v v I (plain_no_meta _ Hpi)). split; [intros ->; discriminate|].
    rewrite Hc, ty_eqb_refl. destruct (lo_strict lo); cbn [negb andb]; [|auto].
    split; [now apply plain_valid|]. exists (prim_handler p). rewrite HD, deser_prim. split; [reflexivity|].
    split; [|exact Ha]. destruct p; cbn [prim_handler deser_step].
    2-4: apply lift_done; unfold deser_primitive; rewrite Hi; destruct v; try reflexivity; discriminate.
    destruct v as [| | | | | | |[]|[]| | | |]; try discriminate. reflexivity.
Qed.

(** ** Sequences *)
Lemma list_go_all n lo w t l ys : forall i,
  Forall2 (fun x y => snd (load E n g lo t x) = Done y) l ys ->
  snd (deser_list_go E (load E n) g lo w t i l) = Done ys.
Proof.
  intros i H. revert i. induction H as [|x y l ys Hx H IH]; intros i; [reflexivity|].
  cbn [deser_list_go]. rewrite Hx. apply bind_done. exists tt. split; [reflexivity|].
  apply bind_done. exists ys. split; [apply IH|reflexivity].
Qed.
Lemma deser_list_all n lo t l ys : exact_load lo ->
  Forall2 (fun x y => loads_as n t x y) l ys ->
  snd (deser_list E (load E n) g (child_opts lo) [t] (VList l)) = Done ys.
Proof.
  intros He H. unfold deser_list. cbn [py_iter hd_error]. apply bind_done. exists l. split; [reflexivity|].
  apply list_go_all. eapply Forall2_impl'; [|exact H]. intros x y Hx. cbv beta in *. apply Hx.
  destruct He as (H1 & H2 & H3 & H4). unfold exact_load, no_hints. cbn.
  destruct H1 as [-> | ->]; auto.
Qed.
Lemma iterable_dumps n o' cls v l js : near_exact o' -> py_iter (e_rt E) v = Ok l ->
  Forall2 (fun x j => snd (dump E f n (set_store false o') None x) = Done j) l js ->
  snd (ser_iterable E f (serialize E f n) o' cls v) = Done (VList js).
Proof.
  intros He Hl H. unfold ser_iterable. rewrite Hl. cbn [lift]. rewrite bind_ret_l.
  destruct He as (-> & _). cbn [lift]. rewrite bind_ret_l. cbn [get_subclasses get_args lift]. rewrite bind_ret_l.
  apply bind_done. exists js. split; [|reflexivity]. apply mmap_done.
  clear Hl. induction H as [|x j l js Hx H IH]; [constructor|]. cbn [repeat length combine].
  constructor; [exact Hx|exact IH].
Qed.
Lemma dedup_distinct l : forall acc, ForallOrdPairs (fun a b => py_eqb b a = false) l ->
  (forall x y, In x l -> In y acc -> py_eqb x y = false) -> dedup l acc = (rev acc ++ l)%list.
Proof.
  induction l as [|x l IH]; intros acc Hp Ha; [cbn; now rewrite app_nil_r|].
  cbn [dedup]. inversion Hp as [|? ? Hx Hl]; subst.
  assert (Hex : existsb (py_eqb x) acc = false).
  { destruct (existsb (py_eqb x) acc) eqn:He; [|reflexivity].
    apply existsb_exists in He as (y & Hy & Heq). rewrite (Ha x y (or_introl eq_refl) Hy) in Heq. discriminate. }
  rewrite Hex, IH; auto.
  - cbn. now rewrite <- app_assoc.
  - intros a b Hin [<-|Hb]; [|apply Ha; auto; now right].
    rewrite Forall_forall in Hx. now apply Hx.
Qed.
Lemma pass_sequence b h t l v :
  sequence_of h l v -> (h = HSet \/ h = HFrozen -> distinct_elements (e_ct E) l) ->
  (forall x, In x l -> exists j, passes t x j) ->
  accepts E g (TApp b h [t]) v -> exists j, passes (TApp b h [t]) v j.
Proof.
  intros Hq Hdist IH Ha.
  destruct (passes_all (map (pair t) l)) as (js & Hps & Hfs & N & HN).
  { intros t' x Hin. apply in_map_iff in Hin as (y & Heq & Hy). injection Heq as <- <-. auto. }
  assert (Hfl : forallb flat l = true <-> flat v = true) by (destruct Hq; reflexivity).
  exists (VList js). split; [now apply clean_list|]. split.
  { split; [discriminate|]. intros Hf. apply Hfl in Hf. apply (Forall2_map_l _ (pair t)) in Hfs. cbn [dictless]. apply fits_list with l; [exact Hfs|exact Hf]. }
  exists (S N). intros [|n] Hle; [lia|]. specialize (HN n ltac:(lia)). split.
  - intros o' cls He Hqf Hsel Hc. apply dump_done_iff. rewrite <- Hfl in Hqf.
    assert (Hel : forall c, c = None \/ c = Some t ->
      Forall2 (fun x j => snd (dump E f n (set_store false o') c x) = Done j) l js).
    { intros c Hcc. apply Forall2_map_l in HN. eapply Forall2_In_l; [|exact HN]. intros x j Hin [Hx _].
      apply Hx; auto. now apply quiet_parts with l. }
    assert (Hs : serializer E f cls v = Some SIterable \/ (serializer E f cls v = Some SList /\ v = VList l)).
    { unfold serializer. rewrite !HS. destruct Hc as [-> | ->]; cbn [tyof].
      - destruct Hq; cbn [class_of]; rewrite ser_head; cbn [head_ser]; auto.
      - rewrite ser_head. destruct Hq; cbn [head_ser]; auto. }
    assert (Hit : py_iter (e_rt E) v = Ok l) by (destruct Hq; reflexivity).
    destruct Hs as [Hs|[Hs ->]]; rewrite Hs; cbn [serialize]; cbn [ser_step].
    + apply iterable_dumps with l; auto.
    + unfold ser_list. cbn [truthy py_iter].
      destruct l as [|x0 l0]; [inversion HN; subst; reflexivity|]. set (l := x0 :: l0) in *.
      cbn [length Nat.eqb negb].
      assert (Hl : negb (negb (Nat.eqb (length l) 0)) = false) by reflexivity. rewrite Hl.
      destruct He as (Hstr & He). destruct Hc as [-> | ->].
      * cbn [get_args]. rewrite Hstr. cbn [lift]. rewrite bind_ret_l. apply bind_done. exists js. split; [|reflexivity].
        apply mmap_done. apply (Hel None). now left.
      * cbn [get_args raw_args]. cbn [lift]. rewrite bind_ret_l. apply bind_done. exists js. split; [|reflexivity].
        apply mmap_done. eapply Forall2_impl'; [|apply (Hel (Some t)); now right].
        intros x j Hx. now apply dump_done_iff in Hx.
  - intros lo He.
    assert (Hl2 : Forall2 (fun x y => loads_as n t x y) js l).
    { apply Forall2_map_l in HN. clear -HN. induction HN as [|x j l js Hx HN IH]; constructor; auto. apply Hx. }
    pose proof (deser_list_all n lo t js l He Hl2) as Hdl.
    apply load_by_handler with (head_handler h); auto.
    + now apply clean_list.
    + exact I.
    + discriminate.
    + discriminate.
    + apply deser_head.
    + destruct Hq; cbn [head_handler deser_step get_args raw_args].
      * apply bind_done. exists l. split; [exact Hdl|reflexivity].
      * unfold deser_iterable. cbn [raw_args lift]. rewrite bind_ret_l. apply bind_done. exists l. split; [exact Hdl|reflexivity].
      * unfold deser_iterable. cbn [raw_args lift]. rewrite bind_ret_l. apply bind_done. exists l. split; [exact Hdl|].
        destruct Hdist as [Hh Hp]; auto. rewrite Hh, dedup_distinct; [reflexivity|exact Hp|intros x y _ []].
      * unfold deser_iterable. cbn [raw_args lift]. rewrite bind_ret_l. apply bind_done. exists l. split; [exact Hdl|].
        destruct Hdist as [Hh Hp]; auto. rewrite Hh, dedup_distinct; [reflexivity|exact Hp|intros x y _ []].
      * unfold deser_iterable. cbn [raw_args lift]. rewrite bind_ret_l. apply bind_done. exists l. split; [exact Hdl|reflexivity].
Qed.

(** ** Mappings *)
Lemma str_neq a b : VStr a <> VStr b -> py_eqb (VStr a) (VStr b) = false.
Proof. intros H. destruct (py_eqb (VStr a) (VStr b)) eqn:He; [|reflexivity]. apply py_eqb_str in He. now elim H. Qed.
Definition str_keys (d : list (value * value)) : Prop := forall k, In k (map fst d) -> exists s, k = VStr s.
Lemma fresh_key s d : str_keys d -> ~ In (VStr s) (map fst d) ->
  forall k', In k' (map fst d) -> py_eqb (VStr s) k' = false.
Proof.
  intros Hk Hn k' Hin. destruct (Hk _ Hin) as [s' ->]. apply str_neq. intros Heq. apply Hn. now rewrite Heq.
Qed.
Lemma dget_string d s x : str_keys d -> NoDup (map fst d) -> In (VStr s, x) d -> dget (VStr s) d = Some x.
Proof.
  intros Hk Hn Hin. apply in_split in Hin as (pre & post & ->). apply dget_app.
  apply fresh_key.
  - intros k Hkin. apply Hk. rewrite map_app. apply in_or_app. now left.
  - rewrite map_app in Hn. cbn in Hn. intros Hi. apply NoDup_remove_2 in Hn. apply Hn. apply in_or_app. now left.
Qed.
Lemma dset_string s x d : str_keys d -> ~ In (VStr s) (map fst d) -> dset (VStr s) x d = (d ++ [(VStr s, x)])%list.
Proof. intros Hk Hn. apply dset_fresh. now apply fresh_key. Qed.
(** Keys for which equality of Python is identity *)
Definition exact_key (k : value) : Prop := forall k', py_eqb k k' = true -> k' = k.
Lemma exact_fresh k l : exact_key k -> ~ In k l -> forall k', In k' l -> py_eqb k k' = false.
Proof. intros Hk Hn k' Hin. destruct (py_eqb k k') eqn:He; [|reflexivity]. apply Hk in He. subst. now elim Hn. Qed.
Lemma dget_exact d k x : exact_key k -> NoDup (map fst d) -> In (k, x) d -> dget k d = Some x.
Proof.
  intros Hk Hn Hin. apply in_split in Hin as (pre & post & ->). unfold dget.
  assert (Hf : forall k', In k' (map fst pre) -> py_eqb k k' = false).
  { apply exact_fresh; [exact Hk|]. rewrite map_app in Hn. cbn in Hn. intros Hi. apply NoDup_remove_2 in Hn. apply Hn. apply in_or_app. now left. }
  clear Hn. induction pre as [|[k' y] pre IH]; cbn [aget app].
  - now rewrite py_eqb_refl.
  - rewrite (Hf k') by now left. apply IH. intros; apply Hf; now right.
Qed.
Lemma dset_exact k x d : exact_key k -> ~ In k (map fst d) -> dset k x d = (d ++ [(k, x)])%list.
Proof. intros Hk Hn. apply dset_fresh. now apply exact_fresh. Qed.
Lemma exact_str s : exact_key (VStr s).
Proof. intros k'. apply py_eqb_str. Qed.
(** [s] is the text of a key: the key itself, or its dump. *)
Definition key_text (n : nat) (o' : sopts) (k : value) (s : string) : Prop :=
  k = VStr s \/ (json_key (e_ct E) k = false /\ snd (dump E f n o' None k) = Done (VStr s)).
Definition text_items (d : list (string * value)) : list (value * value) := map (fun sx => (VStr (fst sx), snd sx)) d.
Lemma text_items_keys d : map fst (text_items d) = map VStr (map fst d).
Proof. unfold text_items. rewrite !map_map. reflexivity. Qed.
Lemma ser_dict_go_all n o' v : near_exact o' -> forall d js acc,
  Forall2 (fun kx sj => key_text n o' (fst kx) (fst sj) /\ snd (dump E f n (no_types o') None (snd kx)) = Done (snd sj)) d js ->
  (forall k x, In (k, x) d -> py_getitem (e_ct E) v k = Ok x) ->
  NoDup (map fst (acc ++ js)) ->
  snd (ser_dict_go E f (serialize E f n) o' v (map fst d) (text_items acc)) = Done (text_items (acc ++ js)).
Proof.
  intros (_ & Hkt & Hsn & _ & _ & Hty & _) d js. intros acc H. revert acc.
  induction H as [|[k x] [s j] d js [Hk Hx] H IH]; intros acc Hg Hn.
  - cbn. now rewrite app_nil_r.
  - cbn [map fst snd ser_dict_go] in *. rewrite (Hg k x (or_introl eq_refl)). cbn [lift]. rewrite bind_ret_l.
    apply bind_done. exists (text_items acc, VStr s). split.
    { unfold store_and_hash. destruct Hk as [-> |[Hjk Hk]].
      - now rewrite (scalar_key (e_ct E) (VStr s) I).
      - rewrite Hjk. apply bind_done. exists (VStr s). split; [exact Hk|]. now rewrite (scalar_key (e_ct E) (VStr s) I). }
    rewrite Hty. cbn [aget]. apply bind_done. exists j. split; [exact Hx|].
    rewrite Hsn. cbn [andb]. rewrite Hkt. cbn [apply_kt rbind hashable lift snd fst]. rewrite bind_ret_l.
    assert (Hs : ~ In (VStr s) (map fst (text_items acc))).
    { rewrite text_items_keys. intros Hin. apply in_map_iff in Hin as (s' & Heq & Hin). injection Heq as ->.
      rewrite map_app in Hn. cbn in Hn. apply NoDup_remove_2 in Hn. apply Hn. apply in_or_app. now left. }
    rewrite (dset_exact (VStr s) j _ (exact_str s) Hs).
    change (text_items acc ++ [(VStr s, j)])%list with (text_items acc ++ text_items [(s, j)])%list.
    unfold text_items at 1 2. rewrite <- map_app. fold (text_items (acc ++ [(s, j)])). rewrite IH.
    + now rewrite <- app_assoc.
    + intros k' x' Hin. apply Hg. now right.
    + rewrite <- app_assoc. exact Hn.
Qed.
Lemma deser_dict_go_all n ok ov gt tk t : exact_load ok -> exact_load ov -> (forall k, gt k = Ok k) ->
  forall js d acc,
  Forall2 (fun sj kx => loads_as n tk (VStr (fst sj)) (fst kx) /\ loads_as n t (snd sj) (snd kx)) js d ->
  (forall k, In k (map fst d) -> exact_key k /\ hashable (e_ct E) k = true) -> NoDup (map fst (acc ++ d)) ->
  snd (deser_dict_go E (load E n) g ok ov gt (Some tk) (Some t) (text_items js) acc) = Done (acc ++ d)%list.
Proof.
  intros Hok Hov Hgt js d acc H. revert acc.
  induction H as [|[s j] [k x] js d [Hk Hx] H IH]; intros acc Hex Hn.
  - cbn. now rewrite app_nil_r.
  - cbn [text_items deser_dict_go map fst snd] in *. rewrite Hgt. cbn [lift]. rewrite bind_ret_l.
    apply bind_done. exists k. split; [now apply Hk|].
    apply bind_done. exists x. split; [now apply Hx|].
    destruct (Hex k (or_introl eq_refl)) as [Hek Hhk]. rewrite Hhk.
    assert (Hs : ~ In k (map fst acc)).
    { rewrite map_app in Hn. cbn in Hn. apply NoDup_remove_2 in Hn. intros Hi. apply Hn. apply in_or_app. now left. }
    rewrite (dset_exact k x acc Hek Hs). unfold text_items in IH. rewrite IH.
    + now rewrite <- app_assoc.
    + intros k' Hin. apply Hex. now right.
    + rewrite <- app_assoc. exact Hn.
Qed.
Lemma combine_fst {A B} (l : list A) (m : list B) : length l = length m -> map fst (combine l m) = l.
Proof. revert m. induction l as [|x l IH]; intros [|y m] H; try discriminate; [reflexivity|]. cbn. f_equal. apply IH. now injection H. Qed.
Lemma combine_snd {A B} (l : list A) (m : list B) : length l = length m -> map snd (combine l m) = m.
Proof. revert m. induction l as [|x l IH]; intros [|y m] H; try discriminate; [reflexivity|]. cbn. f_equal. apply IH. now injection H. Qed.
Lemma combine_split' {A B} (d : list (A * B)) : combine (map fst d) (map snd d) = d.
Proof. induction d as [|[a b] d IH]; [reflexivity|]. cbn. now rewrite IH. Qed.
Lemma load_dict n lo tk t d : dget (VStr "-keys") d = None ->
  deser_dict E (load E n) g lo [tk; t] (VDict DkDict d) =
  deser_dict_go E (load E n) g (set_kt None lo)
    (set_kt (Some (match lo_kt lo with Some gt => gt | None => fun k => Ok k end)) lo)
    (match lo_kt lo with Some gt => gt | None => fun k => Ok k end) (Some tk) (Some t) d [].
Proof. intros Hk. unfold deser_dict, load_hashed_keys. rewrite Hk, bind_ret_l. reflexivity. Qed.
Lemma pass_dict n lo tk t d js : exact_load lo -> NoDup (map fst d) ->
  (forall k, In k (map fst d) -> exact_key k /\ hashable (e_ct E) k = true) ->
  (forall s, In s (map fst js) -> s <> "-keys") ->
  Forall2 (fun sj kx => loads_as n tk (VStr (fst sj)) (fst kx) /\ loads_as n t (snd sj) (snd kx)) js d ->
  snd (deser_dict E (load E n) g lo [tk; t] (VDict DkDict (text_items js))) = Done d.
Proof.
  intros He Hn Hk Hsec HF.
  rewrite (load_dict n lo).
  - apply (deser_dict_go_all n _ _ _ tk t) with (acc := []); auto.
    + now apply exact_set_kt0.
    + apply exact_set_kt; [|exact He]. intros k. destruct He as (_ & _ & Hg & _).
      destruct (lo_kt lo) as [gt|]; [now apply Hg|reflexivity].
    + intros k. destruct He as (_ & _ & Hg & _). destruct (lo_kt lo) as [gt|]; [now apply Hg|reflexivity].
  - destruct (dget (VStr "-keys") (text_items js)) as [x|] eqn:Hd; [|reflexivity].
    apply dget_In in Hd. apply (in_map fst) in Hd. rewrite text_items_keys in Hd.
    apply in_map_iff in Hd as (s & Heq & Hin). injection Heq as ->. now elim (Hsec _ Hin).
Qed.
Definition good_key (tk : ty) (k : value) (s : string) : Prop :=
  passes tk k (VStr s) /\ s <> "-meta" /\ s <> "-keys" /\ exact_key k /\ hashable (e_ct E) k = true /\
  flat k = true /\ (k = VStr s \/ json_key (e_ct E) k = false).
Lemma good_keys tk (l : list value) : (forall k, In k l -> exists s, good_key tk k s) ->
  exists ss, Forall2 (good_key tk) l ss /\ exists N, forall n, N <= n ->
    Forall2 (fun k s => dumps_to n tk k (VStr s) /\ loads_as n tk (VStr s) k) l ss.
Proof.
  induction l as [|k l IH]; intros H.
  - exists []. split; [constructor|]. exists 0. constructor.
  - destruct (H k (or_introl eq_refl)) as (s & Hs). destruct IH as (ss & HF & N1 & H1); [intros; apply H; now right|].
    pose proof Hs as Hs'. destruct Hs' as ((_ & _ & N2 & H2) & _).
    exists (s :: ss). split; [now constructor|]. exists (Nat.max N1 N2). intros n Hn. constructor; [apply H2|apply H1]; lia.
Qed.
Lemma loads_distinct n tk ks ss : Forall2 (fun k s => loads_as n tk (VStr s) k) ks ss -> NoDup ks -> NoDup ss.
Proof.
  induction 1 as [|k s ks ss Hk H IH]; intros Hn; [constructor|]. inversion Hn as [|? ? Hi Hn']; subst. constructor; [|auto].
  intros Hin. apply Hi. clear -Hk H Hin. induction H as [|k' s' ks ss Hk' H IH]; [destruct Hin|].
  destruct Hin as [->|Hin]; [left|right; auto].
  specialize (Hk lopts0 exact_lopts0). specialize (Hk' lopts0 exact_lopts0). congruence.
Qed.
Lemma zip_items {A B C D} (P : A -> C -> Prop) (Q : B -> D -> Prop) (d : list (A * B)) cs ds :
  Forall2 P (map fst d) cs -> Forall2 Q (map snd d) ds ->
  Forall2 (fun x y => P (fst x) (fst y) /\ Q (snd x) (snd y)) d (combine cs ds).
Proof.
  revert cs ds. induction d as [|[a b] d IH]; cbn [map fst snd]; intros cs ds H1 H2; inversion H1; inversion H2; subst; cbn; constructor; auto.
Qed.
Lemma Forall2_flip {A B} (P : A -> B -> Prop) l m : Forall2 P l m -> Forall2 (fun b a => P a b) m l.
Proof. induction 1; constructor; auto. Qed.
Lemma pass_mapping b h tk t d v :
  mapping_of h d v -> NoDup (map fst d) ->
  (forall k, In k (map fst d) -> exists s, good_key tk k s) ->
  (forall k x, In (k, x) d -> exists j, passes t x j) ->
  (h = HDefaultDict -> accepts E g (TApp true HDict [tk; t]) (VDict DkDict d)) ->
  accepts E g (TApp b h [tk; t]) v -> exists j, passes (TApp b h [tk; t]) v j.
Proof.
  intros Hq Hnd Hgk IH Hdd Ha.
  destruct (good_keys tk _ Hgk) as (ss & HG & N1 & H1).
  destruct (passes_all (map (fun x => (t, x)) (map snd d))) as (js & Hps & _ & N2 & H2).
  { intros t' x Hin. apply in_map_iff in Hin as (y & Heq & Hy). injection Heq as <- <-.
    apply in_map_iff in Hy as ([k z] & <- & Hy). eauto. }
  assert (Hlen : length ss = length js).
  { rewrite <- (Forall2_len _ _ _ HG), map_length. specialize (H2 N2 (le_n _)). apply Forall2_len in H2. now rewrite !map_length in H2. }
  set (sjs := combine ss js).
  assert (Hfst : map fst sjs = ss) by now apply combine_fst.
  assert (Hsec : forall s, In s ss -> s <> "-meta" /\ s <> "-keys").
  { intros s Hin. clear -HG Hin. induction HG as [|k s' ks ss (_ & Hm & Hk & _) HG IH]; [destruct Hin|]. destruct Hin as [<-|Hin]; auto. }
  assert (Hex : forall k, In k (map fst d) -> exact_key k /\ hashable (e_ct E) k = true).
  { intros k Hin. destruct (Hgk k Hin) as (s & _ & _ & _ & H & H' & _). auto. }
  assert (Hns : NoDup ss).
  { apply (loads_distinct (S N1) tk (map fst d)); [|exact Hnd]. eapply Forall2_impl'; [|apply (H1 (S N1)); lia]. now intros k s []. }
  exists (VDict DkDict (text_items sjs)).
  assert (Hclean : clean (VDict DkDict (text_items sjs))).
  { apply clean_dict.
    - rewrite text_items_keys, Hfst. apply FinFun.Injective_map_NoDup; [|exact Hns]. intros s s' H. now injection H.
    - rewrite text_items_keys, Hfst. intros k Hin. apply in_map_iff in Hin as (s & <- & Hin). exists s. split; [reflexivity|]. now apply Hsec.
    - apply Forall_forall. intros [k j] Hin. unfold text_items in Hin. apply in_map_iff in Hin as ([s j'] & Heq & Hin).
      injection Heq as <- <-. apply in_combine_r in Hin. cbn. rewrite Forall_forall in Hps. auto. }
  pose proof (proj1 Hclean) as Hplain.
  assert (Hnf : flat v = false) by (destruct Hq; reflexivity).
  split; [exact Hclean|]. split; [split; [discriminate|now rewrite Hnf]|].
  exists (S (S (S (Nat.max N1 N2)))). intros [|n] Hle; [lia|]. split.
  - intros o' cls He [Hqo|Hqo] Hsel Hc; [|rewrite Hnf in Hqo; discriminate]. apply dump_done_iff.
    assert (Hs : serializer E f cls v = Some SDict).
    { unfold serializer. rewrite !HS. destruct Hc as [-> | ->]; cbn [tyof].
      - destruct Hq; cbn [class_of]; rewrite ser_head; reflexivity.
      - rewrite ser_head. destruct Hq; reflexivity. }
    rewrite Hs. cbn [serialize]. cbn [ser_step]. unfold ser_dict.
    assert (Hit : py_iter (e_rt E) v = Ok (map fst d)) by (destruct Hq; reflexivity).
    rewrite Hit. cbn [lift]. rewrite bind_ret_l. apply bind_done. exists (text_items sjs). split; [|reflexivity].
    apply (ser_dict_go_all n o' v He d sjs []); auto.
    + apply (zip_items (key_text n o') (fun x j => snd (dump E f n (no_types o') None x) = Done j)).
      * specialize (H1 n ltac:(lia)). clear -H1 HG He Hqo Hsel. revert H1.
        induction HG as [|k s ks ss Hg HG IH]; intros H1; [constructor|]. inversion H1 as [|? ? ? ? [Hd _] H1']; subst.
        constructor; [|auto]. destruct Hg as (_ & _ & _ & _ & _ & _ & [->|Hj]); [now left|right]. split; [exact Hj|]. apply Hd; auto.
      * specialize (H2 n ltac:(lia)). apply Forall2_map_l in H2. eapply Forall2_impl'; [|exact H2].
        intros x j [Hx _]. cbn [fst snd] in *. apply Hx; auto. now apply near_types.
    + intros k x Hin. destruct (Hex k (in_map fst _ _ Hin)) as [Hek Hhk].
      assert (Hg : py_getitem (e_ct E) v k = match dget k d with Some x => Ok x | None => raise KKey end)
        by (destruct Hq; cbn [py_getitem]; now rewrite Hhk).
      rewrite Hg, (dget_exact d k x Hek Hnd Hin). reflexivity.
    + cbn [app]. now rewrite Hfst.
  - intros lo He.
    assert (HL : forall m, Nat.max N1 N2 <= m ->
      Forall2 (fun sj kx => loads_as m tk (VStr (fst sj)) (fst kx) /\ loads_as m t (snd sj) (snd kx)) sjs d).
    { intros m Hm. apply Forall2_flip. apply (zip_items (fun k s => loads_as m tk (VStr s) k) (fun x j => loads_as m t j x)).
      - specialize (H1 m ltac:(lia)). eapply Forall2_impl'; [|exact H1]. now intros k s [].
      - specialize (H2 m ltac:(lia)). apply Forall2_map_l in H2. eapply Forall2_impl'; [|exact H2]. now intros x j []. }
    assert (HM : forall m lo' b' h', exact_load lo' -> Nat.max N1 N2 < m ->
      (h' = HDict \/ h' = HMapping \/ h' = HOrderedDict) ->
      snd (deser_step E (load E m) g lo' DMapping (TApp b' h' [tk; t]) (VDict DkDict (text_items sjs))) =
      Done (VDict (match h' with HOrderedDict => DkOrdered | _ => DkDict end) d)).
    { intros m lo' b' h' He' Hm Hh. cbn [deser_step]. unfold deser_mapping. cbn [get_args raw_args lift].
      rewrite bind_ret_l. apply bind_done. exists d. split.
      - apply pass_dict; auto; [|apply HL; lia]. rewrite Hfst. intros s Hin. now apply Hsec.
      - destruct Hh as [-> |[-> | ->]]; reflexivity. }
    apply load_by_handler with (head_handler h); auto.
    + exact I.
    + discriminate.
    + discriminate.
    + apply deser_head.
    + destruct Hq; cbn [head_handler].
      * apply (HM n (child_opts lo) b HDict); auto; [now apply exact_child|lia].
      * apply (HM n (child_opts lo) b HMapping); auto; [now apply exact_child|lia].
      * apply (HM n (child_opts lo) b HOrderedDict); auto; [now apply exact_child|lia].
      * cbn [deser_step]. unfold deser_defaultdict. cbn [get_args raw_args lift]. rewrite bind_ret_l.
        apply bind_done. exists (VDict DkDict d). split; [|reflexivity].
        destruct n as [|n]; [lia|]. apply load_by_handler with DMapping; auto.
        -- exact I.
        -- discriminate.
        -- discriminate.
        -- apply (HM n _ true HDict); auto; [apply exact_child, exact_child; exact He|lia].
Qed.

(** ** Tuples *)
Lemma tuple_dumps n o' cls t l js : near_exact o' -> same_selection o o' ->
  cls = None \/ cls = Some t -> (exists b ts, t = TApp b HTuple ts /\ ts <> []) ->
  Forall2 (fun x j => snd (dump E f n (set_store false o') None x) = Done j) l js ->
  snd (dump E f (S n) o' cls (VTuple l)) = Done (VList js).
Proof.
  intros He Hsel Hc (b & ts & -> & Hts) HF. apply dump_done_iff.
  assert (Hs : serializer E f cls (VTuple l) = Some STuple).
  { unfold serializer. rewrite !HS. destruct Hc as [-> | ->]; cbn [tyof class_of]; now rewrite ser_head. }
  rewrite Hs. cbn [serialize]. cbn [ser_step]. unfold ser_tuple. destruct Hc as [-> | ->].
  - apply iterable_dumps with l; auto.
  - destruct ts as [|t0 ts]; [now elim Hts|]. cbn [raw_args].
    destruct (ty_eqb TEllipsis (last (t0 :: ts) TAny)).
    + cbn [py_iter lift]. rewrite bind_ret_l. apply iterable_dumps with l; auto.
    + apply iterable_dumps with l; auto.
Qed.
Lemma pass_tuple b ts l :
  ts <> [] -> ~ In TEllipsis ts -> length ts = length l ->
  (forall t x, In (t, x) (combine ts l) -> exists j, passes t x j) ->
  accepts E g (TApp b HTuple ts) (VTuple l) -> exists j, passes (TApp b HTuple ts) (VTuple l) j.
Proof.
  intros Hts Hel Hlen IH Ha. destruct (passes_all (combine ts l) IH) as (js & Hps & Hfs & N & HN).
  exists (VList js). split; [now apply clean_list|]. split.
  { split; [discriminate|]. cbn [flat dictless]. apply fits_list. clear -Hfs Hlen.
    revert ts Hlen js Hfs. induction l as [|x l IH]; intros [|t ts] Hlen js HF; try discriminate.
    - inversion HF. constructor.
    - cbn in HF. inversion HF; subst. constructor; [assumption|]. apply IH with ts; auto. }
  exists (S N). intros [|n] Hle; [lia|]. specialize (HN n ltac:(lia)). split.
  - intros o' cls He Hqf Hsel Hc. apply tuple_dumps with (TApp b HTuple ts); auto; [eauto|].
    cbn [flat] in Hqf. pose proof (fun x => quiet_parts o' l x Hqf) as Hqx. clear Hqf.
    clear -HN He Hlen Hsel Hqx. revert ts Hlen js HN. induction l as [|x l IH]; intros [|t ts] Hlen js HN; try discriminate.
    + inversion HN. constructor.
    + cbn in HN. inversion HN as [|? j ? js' [Hx _] HN']; subst. constructor.
      * apply Hx; auto. apply Hqx. now left.
      * apply IH with ts; auto. intros y Hin. apply Hqx. now right.
  - intros lo He. apply (load_tuple_done E n g lo b ts js (VList js)); auto; [apply He|].
    exists l. split; [|split; [|auto]].
    + apply Forall2_len in HN. rewrite combine_length in HN. lia.
    + clear -HN He Hlen. revert ts Hlen js HN. induction l as [|x l IH]; intros [|t ts] Hlen js HN; try discriminate.
      * inversion HN. constructor.
      * cbn in HN. inversion HN as [|? j ? js' [_ Hx] HN']; subst. cbn. constructor.
        -- apply Hx. now apply exact_tuple.
        -- apply IH; auto.
Qed.
Lemma pass_repeated b t l :
  (forall x, In x l -> exists j, passes t x j) ->
  accepts E g (TApp b HTuple [t; TEllipsis]) (VTuple l) ->
  exists j, passes (TApp b HTuple [t; TEllipsis]) (VTuple l) j.
Proof.
  intros IH Ha. destruct (passes_all (map (pair t) l)) as (js & Hps & Hfs & N & HN).
  { intros t' x Hin. apply in_map_iff in Hin as (y & Heq & Hy). injection Heq as <- <-. auto. }
  exists (VList js). split; [now apply clean_list|]. split.
  { split; [discriminate|]. apply (Forall2_map_l _ (pair t)) in Hfs. cbn [flat dictless]. now apply fits_list. }
  exists (S N). intros [|n] Hle; [lia|]. specialize (HN n ltac:(lia)). apply Forall2_map_l in HN. split.
  - intros o' cls He Hqf Hsel Hc. apply tuple_dumps with (TApp b HTuple [t; TEllipsis]); auto.
    + eexists _, _. split; [reflexivity|discriminate].
    + eapply Forall2_In_l; [|exact HN]. intros x j Hin [Hx _].
      apply Hx; auto. now apply quiet_parts with l.
  - intros lo He. apply (load_tuple_ellipsis E n g lo b t js (VList js)); auto; [apply He|].
    exists l. split; [|auto]. clear -HN He. induction HN as [|x j l js [_ Hx] HN IH]; constructor; auto.
    apply Hx. now apply exact_tuple.
Qed.

(** ** Unions *)
Lemma supers_user (CT : classes) c : user_supers (CT c) -> existsb (ty_eqb TNoneT) (ci_supers (CT c)) = false.
Proof. intros H. now apply existsb_user. Qed.
Lemma not_nonetype t v : has_type E g o t v -> v <> VNone -> naked_sub (e_ct E) (class_of v) TNoneT = false.
Proof.
  assert (HC : forall c, ordinary (e_ct E c) -> naked_sub (e_ct E) (TClass c) TNoneT = false).
  { intros c [_ Hu]. unfold naked_sub. cbn [is_class andb supers existsb].
    change (ty_eqb TNoneT (TClass c)) with false. rewrite existsb_app, (supers_user _ _ Hu).
    destruct (ci_kind (e_ct E c)) as [|[[]|] ms|fs]; reflexivity. }
  induction 1; intros Hn; try (now elim Hn); cbn [class_of]; auto.
  - destruct v as [| | | | | | |[]|[]|x| | |]; try discriminate; injection H as <-; reflexivity.
  - destruct x; reflexivity.
  - destruct H; reflexivity.
  - destruct H; reflexivity.
  - apply HC. apply H.
Qed.
Lemma pass_present pre t ts v :
  (forall u, In u pre -> u = TNoneT) -> v <> VNone -> naked_sub (e_ct E) (class_of v) TNoneT = false ->
  (exists j, passes t v j) -> accepts E g (TUnion (pre ++ t :: ts)) v ->
  exists j, passes (TUnion (pre ++ t :: ts)) v j.
Proof.
  intros Hpre Hv Hsub (j & Hcl & Hn & N & HN) Ha. pose proof (proj1 Hcl) as Hp. exists j. split; [exact Hcl|]. split; [auto|].
  assert (Hj : j <> VNone) by (intros Heq; apply Hv; now apply (proj1 Hn)).
  exists (S (S N)). intros [|[|n]] Hle; [lia|lia|]. split.
  - intros o' cls He Hqf Hsel [-> | ->]; [apply HN; auto; lia|].
    apply dump_union_done; [exact HS|]. right. split; [now intros [Heq _]|].
    exists pre, t, ts. split; [reflexivity|]. split; [apply HN; auto; lia|].
    apply Forall_forall. intros u Hu. rewrite (Hpre u Hu). clear u Hu.
    apply dump_fail_iff. unfold serializer. cbn [tyof]. rewrite HS, ser_none. cbn [serialize]. cbn [ser_step].
    unfold ser_primitive, is_instance. rewrite Hsub. destruct v; try (now elim Hv); cbn; eexists; reflexivity.
  - intros lo He. apply load_union_done; auto; [apply He|now apply plain_no_meta|now apply plain_valid|].
    split; [now intros Heq|]. split; [exact Ha|]. exists pre, t, ts. split; [reflexivity|].
    split; [apply HN; [lia|now apply exact_nested]|].
    apply Forall_forall. intros u Hu. rewrite (Hpre u Hu). clear u Hu.
    exists (exn_of KDeser). split; [|reflexivity].
    rewrite (load_run E n g (nested_opts lo) TNoneT j DNone); auto.
    + cbn [deser_step]. destruct j; try reflexivity. now elim Hj.
    + exact I.
    + now apply plain_no_meta.
    + now apply plain_valid.
    + right. destruct Hp; try discriminate. now elim Hj.
    + rewrite HD. apply deser_none.
Qed.
Lemma pass_absent ts :
  In TNoneT ts -> (forall t, In t ts -> ~ odd_name (e_ct E) (Some t)) -> (forall us, ~ In (TUnion us) ts) ->
  accepts E g TNoneT VNone -> accepts E g (TUnion ts) VNone -> passes (TUnion ts) VNone VNone.
Proof.
  intros Hin Hodd Hnu Ha0 Ha. split; [now apply clean_scalar|]. split; [now split|]. exists 2. intros [|[|n]] Hle; [lia|lia|]. split.
  - intros o' cls He _ Hsel [-> | ->].
    + apply dump_done_iff. unfold serializer. cbn [tyof class_of]. rewrite HS, ser_none. reflexivity.
    + apply dump_union_done; [exact HS|]. left. auto.
  - intros lo He. apply load_none_accepted; auto; [discriminate|now intros t [= <-]|].
    intros ts' [= <-]. auto.
Qed.

(** ** Enums *)
Lemma canonical_get ms n : canonical_member ms n ->
  exists x, sget n ms = Some x /\ canonical ms x = Some n.
Proof.
  intros (pre & x & post & -> & Hpre). exists x. split.
  - induction pre as [|[n' y] pre IH]; [unfold sget; cbn; now rewrite String.eqb_refl|].
    destruct (Hpre n' y (or_introl eq_refl)) as [Hn _]. unfold sget in *. cbn.
    destruct (String.eqb_spec n n') as [->|_]; [now elim Hn|]. apply IH. intros a b Hin. apply Hpre. now right.
  - unfold canonical. induction pre as [|[n' y] pre IH]; [cbn; now rewrite py_eqb_refl|].
    destruct (Hpre n' y (or_introl eq_refl)) as [_ Hy]. cbn [app find snd]. rewrite Hy. apply IH.
    intros a b Hin. apply Hpre. now right.
Qed.
Lemma pass_enum c m ms n :
  ci_kind (e_ct E c) = CkEnum m ms -> ordinary (e_ct E c) -> canonical_member ms n ->
  accepts E g (TClass c) (VEnum c n) -> passes (TClass c) (VEnum c n) (VStr n).
Proof.
  intros HK HO HC Ha. split; [now apply clean_scalar|]. split; [now split|]. exists 1. intros [|k] Hle; [lia|]. split.
  - intros o' cls He _ Hsel Hc. apply dump_done_iff.
    assert (Hs : serializer E f cls (VEnum c n) = Some SEnum).
    { unfold serializer. rewrite !HS. destruct Hc as [-> | ->]; cbn [tyof class_of]; apply ser_enumeration with m ms; auto. }
    rewrite Hs. cbn [serialize]. cbn [ser_step]. destruct He as (_ & _ & _ & -> & _). reflexivity.
  - intros lo He. apply load_by_handler with DEnum; auto.
    + constructor.
    + exact I.
    + discriminate.
    + discriminate.
    + apply deser_enumeration with m ms; auto.
    + cbn [deser_step]. apply lift_done. destruct (canonical_get _ _ HC) as (x & Hx & Hn).
      assert (Hb : enum_by_name (e_ct E) c (VStr n) = Ok (VEnum c n)).
      { unfold enum_by_name, enum_members. rewrite HK. cbn [hashable negb]. now rewrite Hx, Hn. }
      unfold deser_enum. destruct He as (_ & _ & _ & Hen). cbn [child_opts set_inferred set_hints lo_enum_name].
      destruct (lo_enum_name lo) as [[]|]; [|now elim Hen|]; rewrite Hb; reflexivity.
Qed.

(** ** Dicts with attribute names as keys *)
Lemma attribute_plain a : attribute_name a -> a <> "-meta" /\ a <> "-keys".
Proof. intros H. split; intros ->; discriminate. Qed.
Lemma names_string_dict names js : NoDup names -> length names = length js ->
  string_dict (combine (map VStr names) js).
Proof.
  intros Hn Hlen. split.
  - intros k x Hin. apply in_combine_l in Hin. apply in_map_iff in Hin as (s & <- & _). eauto.
  - rewrite combine_fst by now rewrite map_length. apply FinFun.Injective_map_NoDup; [|exact Hn]. now intros a b [= ->].
Qed.
Lemma transform_ext CT gt : (forall k, gt k = Ok k) -> forall d acc,
  transform_keys CT gt d acc = transform_keys CT (fun k => Ok k) d acc.
Proof.
  intros H d. induction d as [|[k x] d IH]; intros acc; [reflexivity|]. cbn [transform_keys]. rewrite H.
  cbn [rbind]. destruct (hashable CT k); [apply IH|reflexivity].
Qed.
Lemma renamed_same CT lo d : exact_load lo -> string_dict d -> renamed CT lo d d.
Proof.
  intros (_ & _ & Hg & _) Hd. apply renamed_iff. destruct (lo_kt lo) as [gt|]; [|reflexivity].
  rewrite transform_ext; [now apply transform_id|]. intros k. now apply Hg.
Qed.
Lemma names_clean names js : NoDup names -> length names = length js ->
  (forall a, In a names -> attribute_name a) -> Forall clean js ->
  clean (VDict DkDict (combine (map VStr names) js)).
Proof.
  intros Hn Hl Ha Hj. apply clean_dict; rewrite ?combine_fst by now rewrite map_length.
  - apply FinFun.Injective_map_NoDup; [|exact Hn]. intros a b He. now injection He.
  - intros k Hin. apply in_map_iff in Hin as (s & <- & Hs). exists s. split; [reflexivity|].
    apply attribute_plain. auto.
  - apply Forall_forall; intros [k x] Hin; cbn. apply in_combine_r in Hin. rewrite Forall_forall in Hj. auto.
Qed.
Lemma combine_In {A B} (l : list A) (m : list B) a : length l = length m -> In a l -> exists b, In (a, b) (combine l m).
Proof.
  revert m. induction l as [|x l IH]; intros [|y m] Hlen Hin; try discriminate; [destruct Hin|].
  destruct Hin as [<-|Hin]; [exists y; now left|]. destruct (IH m) as (b & Hb); [now injection Hlen|exact Hin|]. exists b. now right.
Qed.

(** ** Named tuples *)
Definition hint_or (h : option ty) : ty := match h with Some t => t | None => TAny end.
Lemma sget_combine {A} (h : A -> string) (l : list A) (xs : list value) a x : NoDup (map h l) ->
  In (a, x) (combine l xs) -> sget (h a) (combine (map h l) xs) = Some x.
Proof.
  revert xs. induction l as [|a0 l IH]; intros [|y xs] Hn Hin; try (now destruct Hin).
  cbn in Hin |- *. unfold sget. cbn. inversion Hn as [|? ? Hnot Hn']; subst.
  destruct Hin as [Heq|Hin].
  - injection Heq as <- <-. now rewrite String.eqb_refl.
  - destruct (String.eqb_spec (h a) (h a0)) as [He|_]; [|now apply IH].
    exfalso. apply Hnot. rewrite <- He. apply in_map. now apply in_combine_l in Hin.
Qed.
Lemma pass_namedtuple c fields l :
  ci_kind (e_ct E c) = CkNT fields -> ordinary (e_ct E c) ->
  NoDup (map nf_name fields) -> (forall fd, In fd fields -> attribute_name (nf_name fd)) ->
  length fields = length l ->
  (forall fd x, In (fd, x) (combine fields l) -> x = VNone -> none_allowed fd) ->
  (forall fd x, In (fd, x) (combine fields l) -> exists t, nf_hint fd = Some t) ->
  (forall fd x t, In (fd, x) (combine fields l) -> nf_hint fd = Some t -> exists j, passes t x j) ->
  accepts E g (TClass c) (VNT c l) -> exists j, passes (TClass c) (VNT c l) j.
Proof.
  intros HK HO Hnd Hnm Hlen Hnone Hhint IH Ha.
  destruct (passes_all (map (fun fx => (hint_or (nf_hint (fst fx)), snd fx)) (combine fields l))) as (js & Hps & Hns & N & HN).
  { intros t x Hin. apply in_map_iff in Hin as ([fd y] & Heq & Hin). injection Heq as <- <-.
    destruct (Hhint _ _ Hin) as (t & Ht). cbn. rewrite Ht. cbn. eauto. }
  apply (Forall2_map_l (fun tx j => fits (snd tx) j) (fun fx => (hint_or (nf_hint (fst fx)), snd fx))) in Hns. cbn [snd] in Hns.
  assert (Hjl : length fields = length js).
  { specialize (HN N (le_n _)). apply Forall2_len in HN. rewrite map_length, combine_length in HN. lia. }
  set (j := VDict DkDict (combine (map VStr (map nf_name fields)) js)).
  assert (Hclean : clean j).
  { apply names_clean; [exact Hnd|now rewrite map_length| |exact Hps].
    intros a Hin. apply in_map_iff in Hin as (fd & <- & Hfd). auto. }
  pose proof (proj1 Hclean) as Hplain.
  exists j. split; [exact Hclean|]. split; [now split|].
  exists (S N). intros [|n] Hle; [lia|]. specialize (HN n ltac:(lia)). apply Forall2_map_l in HN. cbn [fst snd] in HN. split.
  - intros o' cls He [Hqo|Hqo] Hsel Hc; [|discriminate]. apply dump_done_iff.
    assert (Hs : serializer E f cls (VNT c l) = Some STuple).
    { unfold serializer. rewrite !HS. destruct Hc as [-> | ->]; cbn [tyof class_of]; apply ser_namedtuple_class with fields; auto. }
    rewrite Hs. cbn [serialize]. cbn [ser_step]. cbn [ser_tuple].
    assert (Hn : snd (ser_namedtuple E f (serialize E f n) o' c (VNT c l)) = Done j); [|exact Hn].
    unfold ser_namedtuple. apply bind_done. exists (combine (map VStr (map nf_name fields)) js). split; [|reflexivity].
    apply mmap_done. unfold nt_fields. rewrite HK.
    assert (HG : forall fd x, In (fd, x) (combine fields l) -> get_attr E (VNT c l) (nf_name fd) = Ok x).
    { intros fd x Hin. unfold get_attr, nt_get, nt_fields. rewrite HK, (sget_combine nf_name fields l fd x Hnd Hin). reflexivity. }
    clear -HN HG Hlen He Hsel Hqo. revert HG. generalize (VNT c l) as v. intros v HG.
    revert l js Hlen HN HG. induction fields as [|fd fields IH]; intros [|x l] js Hlen HN HG; try discriminate.
    + inversion HN. constructor.
    + cbn [combine] in HN. inversion HN as [|? j ? js' [Hx _] HN']; subst. cbn [map combine]. constructor.
      * rewrite (HG fd x (or_introl eq_refl)). cbn [lift]. rewrite bind_ret_l. apply bind_done. exists j. split; [|reflexivity].
        apply Hx; auto.
      * apply IH with l; auto. intros fd' x' Hin. apply HG. now right.
  - intros lo He.
    apply (load_namedtuple_done E n g lo c fields j j); auto.
    + rewrite HD. apply deser_namedtuple_class with fields; auto.
    + apply He.
    + now apply plain_no_meta.
    + cbn [field_source j]. unfold j.
      assert (Hsd : string_dict (combine (map VStr (map nf_name fields)) js)) by (apply names_string_dict; auto; now rewrite map_length).
      split; [exact Hsd|]. exists (combine (map VStr (map nf_name fields)) js). split; [now apply renamed_same|auto].
    + exists l. split; [|auto].
      assert (Hget : forall fd jx, In (fd, jx) (combine fields js) ->
                dget (VStr (nf_name fd)) (combine (map VStr (map nf_name fields)) js) = Some jx).
      { intros fd jx Hin. destruct (names_string_dict (map nf_name fields) js Hnd ltac:(now rewrite map_length)) as [Hk Hn].
        apply dget_string; [|exact Hn|].
        - intros k Hki. apply in_map_iff in Hki as ([k' x'] & <- & Hki). cbn. eauto.
        - clear -Hin. revert js Hin. induction fields as [|fd0 fields IH]; intros [|y js] Hin; try (now destruct Hin).
          cbn in *. destruct Hin as [Heq|Hin]; [injection Heq as <- <-; now left|right; now apply IH]. }
      assert (Hlt : forall i, i < length fields -> i < length (combine (map VStr (map nf_name fields)) js)).
      { intros i Hi. rewrite combine_length, !map_length. lia. }
      unfold j. set (d := combine (map VStr (map nf_name fields)) js) in *.
      assert (Hgen : forall fs l' js' i, length fs = length l' -> i + length fs = length fields ->
        Forall2 (fun tx jx => dumps_to n (hint_or (nf_hint (fst tx))) (snd tx) jx /\
                              loads_as n (hint_or (nf_hint (fst tx))) jx (snd tx)) (combine fs l') js' ->
        Forall2 (fun tx jx => fits (snd tx) jx) (combine fs l') js' ->
        (forall fd x, In (fd, x) (combine fs l') -> In (fd, x) (combine fields l)) ->
        (forall fd x, In (fd, x) (combine fs js') -> In (fd, x) (combine fields js)) ->
        field_values E n g (nested_opts lo) (VDict DkDict d) i fs l').
      { induction fs as [|fd fs IHf]; intros [|x l'] js' i Hl1 Hl2 HF HFn Hc1 Hc2; try discriminate; [constructor|].
        cbn [combine] in HF, HFn. inversion HF as [|? jx ? js2 [_ Hx] HF']; subst. inversion HFn as [|? ? ? ? Hxn HFn']; subst.
        destruct (Hhint fd x) as (t & Ht); [apply Hc1; now left|].
        apply fv_cons with jx.
        - left. cbn [field_input]. split; [apply Hlt; cbn in Hl2; lia|]. apply Hget. apply Hc2. now left.
        - intros Heq. apply (Hnone fd x); [apply Hc1; now left|]. now apply Hxn.
        - rewrite Ht. cbn [fst snd] in Hx. rewrite Ht in Hx. apply Hx. now apply exact_nested.
        - apply IHf with js2; auto.
          + cbn in Hl2. lia.
          + intros fd' x' Hin. apply Hc1. now right.
          + intros fd' x' Hin. apply Hc2. now right. }
      apply Hgen with js; auto.
Qed.

(** ** Objects *)
Lemma Forall2_combine {A B} (P : A -> B -> Prop) l m a b : Forall2 P l m -> In (a, b) (combine l m) -> P a b.
Proof. intros HF. induction HF as [|x y l m Hx HF IH]; [intros []|]. intros [Heq|Hin]; [now injection Heq as <- <-|auto]. Qed.
Lemma combine_map_l {A B C} (h : A -> B) (l : list A) (m : list C) a b : In (a, b) (combine l m) -> In (h a, b) (combine (map h l) m).
Proof. revert m. induction l as [|x l IH]; intros [|y m]; try (now intros []). intros [Heq|Hin]; [injection Heq as <- <-; now left|right; now apply IH]. Qed.
Lemma no_extras args d : (forall k x, In (k, x) d -> ~ is_extra args k) -> extras args d [].
Proof. induction d as [|[k x] d IH]; intros H; [constructor|]. apply ex_drop; [apply (H k x); now left|]. apply IH. intros k' x' Hin. apply (H k' x'). now right. Qed.
Lemma arguments_all ps : forall xs, length ps = length xs -> arguments ps (map Some xs) = combine (map pa_name ps) xs.
Proof. induction ps as [|p ps IH]; intros [|x xs] H; try discriminate; [reflexivity|]. cbn. f_equal. apply IH. now injection H. Qed.
Lemma Forall2_map_r {A B C} (P : A -> C -> Prop) (h : B -> C) l m : Forall2 (fun x y => P x (h y)) l m -> Forall2 P l (map h m).
Proof. intros H. induction H; constructor; auto. Qed.
Lemma Forall2_of_combine {A B} (P : A -> B -> Prop) l : forall m, length l = length m ->
  (forall a b, In (a, b) (combine l m) -> P a b) -> Forall2 P l m.
Proof.
  induction l as [|x l IH]; intros [|y m] Hlen H; try discriminate; constructor.
  - apply H. now left.
  - apply IH; [now injection Hlen|]. intros a b Hin. apply H. now right.
Qed.
Definition val_at (attrs : list (string * value)) (a : string) : value :=
  match sget a attrs with Some x => x | None => VNone end.
Definition ty_at (ps : list param) (a : string) : ty :=
  match find (fun p => String.eqb a (pa_name p)) ps with Some p => hint_or (pa_hint p) | None => TAny end.
Lemma ty_at_param ps p : NoDup (map pa_name ps) -> In p ps -> ty_at ps (pa_name p) = hint_or (pa_hint p).
Proof.
  unfold ty_at. induction ps as [|q ps IH]; intros Hn Hin; [destruct Hin|]. cbn [find].
  inversion Hn as [|? ? Hnot Hn']; subst. destruct Hin as [->|Hin]; [now rewrite String.eqb_refl|].
  destruct (String.eqb_spec (pa_name p) (pa_name q)) as [He|_]; [|now apply IH].
  exfalso. apply Hnot. rewrite <- He. now apply in_map.
Qed.
Lemma same_signature ps qs : map signature ps = map signature qs ->
  map pa_name ps = map pa_name qs /\ forall a, ty_at ps a = ty_at qs a.
Proof.
  revert qs. induction ps as [|p ps IH]; intros [|q qs] H; try discriminate; [auto|]. cbn in H.
  injection H as Hn Hh H. destruct (IH qs H) as [H1 H2]. split; [cbn; now rewrite Hn, H1|].
  intros a. unfold ty_at in *. cbn [find]. rewrite Hn. destruct (String.eqb a (pa_name q)); [now rewrite Hh|apply H2].
Qed.
(** An object of class [c], dumped and loaded as an object of class [c'] with the same
    parameters *)
Lemma pass_object_as c c' attrs :
  record_like (e_ct E) o c -> record_like (e_ct E) o c' ->
  map signature (ci_params (e_ct E c')) = map signature (ci_params (e_ct E c)) ->
  map fst attrs = map pa_name (ci_params (e_ct E c)) ->
  (forall p t x, In (p, x) (combine (ci_params (e_ct E c)) (map snd attrs)) -> pa_hint p = Some t -> exists j, passes t x j) ->
  accepts E g (TClass c') (VObj c' attrs) ->
  exists j, clean j /\ j <> VNone /\
    exists N, forall n, N <= n -> dumps_to n (TClass c) (VObj c attrs) j /\ loads_as n (TClass c') j (VObj c' attrs).
Proof.
  intros HR HR' Hsig Hat IH Ha. destruct HR as [HK HO Hna Hrd Hnd Hinit Hmem Hpar].
  destruct (same_signature _ _ Hsig) as [Hsn Hst].
  set (ps := ci_params (e_ct E c)) in *. set (xs := map snd attrs) in *.
  assert (Hattrs : attrs = combine (map pa_name ps) xs) by (rewrite <- Hat; symmetry; apply combine_split').
  assert (Hlen : length ps = length xs).
  { unfold xs. rewrite map_length. rewrite <- (map_length fst attrs), Hat. now rewrite map_length. }
  set (names := sort_names (map pa_name ps)).
  assert (Hnames : forall a, In a names <-> In a (map pa_name ps)) by (intros a; apply sort_names_In).
  assert (Hsorted : StronglySorted slt names) by apply sort_names_sorted.
  assert (HP : forall a, In a names -> exists p x t, In p ps /\ In (p, x) (combine ps xs) /\ a = pa_name p /\
             sget a attrs = Some x /\ pa_hint p = Some t /\ val_at attrs a = x /\ ty_at ps a = t).
  { intros a Hin. apply Hnames in Hin. apply in_map_iff in Hin as (p & <- & Hp).
    destruct (combine_In ps xs p Hlen Hp) as (x & Hx). destruct (Hpar p Hp) as (_ & _ & _ & _ & t & Ht & _).
    assert (Hg : sget (pa_name p) attrs = Some x) by (rewrite Hattrs; now apply sget_combine).
    exists p, x, t. repeat (split; [assumption || reflexivity|]). split; [unfold val_at; now rewrite Hg|].
    now rewrite (ty_at_param ps p Hnd Hp), Ht. }
  destruct (passes_all (map (fun a => (ty_at ps a, val_at attrs a)) names)) as (js & Hps & _ & N & HN).
  { intros t x Hin. apply in_map_iff in Hin as (a & Heq & Hin). injection Heq as <- <-.
    destruct (HP a Hin) as (p & x & t & Hp & Hpx & -> & Hg & Ht & -> & ->). eauto. }
  assert (Hjl : length names = length js).
  { specialize (HN N (le_n _)). apply Forall2_len in HN. now rewrite map_length in HN. }
  set (d := combine (map VStr names) js).
  assert (Hclean : clean (VDict DkDict d)).
  { apply names_clean; [now apply sorted_NoDup|exact Hjl| |exact Hps].
    intros a Hin. destruct (HP a Hin) as (p & x & t & Hp & _ & -> & _). now apply Hpar. }
  pose proof (proj1 Hclean) as Hplain.
  exists (VDict DkDict d). split; [exact Hclean|]. split; [discriminate|].
  exists (S N). intros [|n] Hle; [lia|]. specialize (HN n ltac:(lia)). apply Forall2_map_l in HN. cbn [fst snd] in HN. split.
  - intros o' cls Hne [Hqo|Hqo] Hsel Hc; [|discriminate]. assert (He : exact_dump o') by (apply exact_near; auto).
    assert (Hs : serializer E f cls (VObj c attrs) = Some SObject).
    { unfold serializer. rewrite !HS. destruct Hc as [-> | ->]; cbn [tyof class_of]; now apply ser_object_class. }
    pose proof He as (Hstr & Hplo & _ & _ & _ & Hstrip).
    destruct (dump_instance E f n o' cls c attrs [] Hs (or_intror Hstr) Hplo Hstrip Hna Hrd) as (names' & Hs' & Hm' & _ & Hdone & _).
    assert (Heq : names' = names).
    { apply sorted_unique; auto. intros a. rewrite Hm', Hnames, Hat. split.
      - intros [[Hin|Hin] Hv]; [exact Hin|]. apply Hmem; [exact Hin|]. now apply selection_visible' with o'.
      - intros Hin. split; [now left|]. apply in_map_iff in Hin as (p & <- & Hp).
        apply selection_visible with o; [exact Hsel|]. now apply Hpar. }
    subst names'. unfold d. apply Hdone. apply Forall2_map_l.
    eapply Forall2_In_l; [|exact HN]. intros a jx Hin [Hx _]. cbn [fst snd].
    destruct (HP a Hin) as (p & x & t & Hp & Hpx & Hap & Hg & Ht & Hv & Hty). rewrite Hv, Hty in Hx. subst a.
    destruct (Hpar p Hp) as (_ & _ & Hmp & _ & t' & Ht' & _ & Hah). rewrite Ht in Ht'. injection Ht' as <-.
    exists x. cbn [fst snd]. split.
    + unfold get_attr. destruct (sget (pa_name p) (ci_members (e_ct E c))) as [[]|]; try (now elim Hmp); now rewrite Hg.
    + apply Hx; [now apply near_attr|now left|exact Hsel|exact Hah].
  - clear HK HO Hna Hrd Hinit Hmem Hpar. destruct HR' as [HK HO Hna Hrd Hnd' Hinit Hmem Hpar].
    set (ps' := ci_params (e_ct E c')) in *.
    assert (Hattrs' : attrs = combine (map pa_name ps') xs) by now rewrite Hsn.
    assert (Hlen' : length ps' = length xs) by (rewrite <- Hlen, <- (map_length pa_name ps'), Hsn; apply map_length).
    intros lo He. apply load_object_done.
    + split; [rewrite HD; now apply deser_object_class|]. split; [apply He|]. split; [now apply plain_no_meta|].
      intros p Hp. destruct (Hpar p Hp) as (_ & _ & _ & _ & t & -> & Hodd & _). exact Hodd.
    + exists attrs. split; [|auto].
      assert (Hsd : string_dict d) by (apply names_string_dict; [now apply sorted_NoDup|exact Hjl]).
      assert (Hargs : arguments ps' (map Some xs) = attrs) by (rewrite Hattrs'; now apply arguments_all).
      exists d, (map Some xs), [], attrs, attrs. fold ps'. rewrite Hargs.
      split; [now apply renamed_same|]. split.
      { apply Forall2_map_r. apply Forall2_of_combine; [exact Hlen'|]. intros p x Hpx.
        assert (Hp : In p ps') by (now apply in_combine_l in Hpx).
        assert (Hin : In (pa_name p) names) by (apply Hnames; rewrite <- Hsn; now apply in_map).
        destruct (Hpar p Hp) as (_ & _ & _ & _ & t & Ht & _).
        destruct (combine_In names js (pa_name p) Hjl Hin) as (jx & Hjx).
        pose proof (Forall2_combine _ _ _ _ _ HN Hjx) as [_ Hl]. cbv beta in Hl.
        assert (Hv : val_at attrs (pa_name p) = x) by (unfold val_at; rewrite Hattrs', (sget_combine pa_name ps' xs p x Hnd' Hpx); reflexivity).
        rewrite <- Hst, (ty_at_param ps' p Hnd' Hp), Ht, Hv in Hl. cbn [hint_or] in Hl.
        apply pv_input with jx.
        - destruct Hsd as [Hk Hn]. apply dget_string; [|exact Hn|].
          + intros k Hki. apply in_map_iff in Hki as ([k' x'] & <- & Hki). cbn. eauto.
          + unfold d. now apply combine_map_l.
        - rewrite Ht. apply Hl. now apply exact_attr_opts. }
      split.
      { apply no_extras. intros k x Hin [_ Hex]. unfold d in Hin. apply in_combine_l in Hin.
        apply in_map_iff in Hin as (a & <- & Hin). destruct (HP a Hin) as (p & y & t & _ & _ & _ & Hg & _).
        apply sget_In in Hg. now apply (Hex a y eq_refl). }
      split; [reflexivity|]. split; [apply Hinit; fold ps'; now rewrite Hsn|]. split; [constructor|].
      destruct He as (_ & -> & _). constructor.
Qed.
Lemma pass_object c attrs :
  record_like (e_ct E) o c -> map fst attrs = map pa_name (ci_params (e_ct E c)) ->
  (forall p t x, In (p, x) (combine (ci_params (e_ct E c)) (map snd attrs)) -> pa_hint p = Some t -> exists j, passes t x j) ->
  accepts E g (TClass c) (VObj c attrs) -> exists j, passes (TClass c) (VObj c attrs) j.
Proof.
  intros HR Hat IH Ha. destruct (pass_object_as c c attrs HR HR eq_refl Hat IH Ha) as (j & Hp & Hn & HN).
  exists j. split; [exact Hp|]. split; [split; [contradiction|discriminate]|exact HN].
Qed.
End RoundTrip.

(** ** Leaves *)
Lemma all_minutes P : forallb P (map (fun k => (Z.of_nat k - 1440)%Z) (seq 0 2881)) = true ->
  forall m, (-1440 <= m <= 1440)%Z -> P m = true.
Proof.
  intros H m Hm. rewrite forallb_forall in H. apply H. apply in_map_iff.
  exists (Z.to_nat (m + 1440)). split; [lia|]. apply in_seq. lia.
Qed.
Lemma auto_name_not_utc off : (- us_per_day < off < us_per_day)%Z -> (off mod us_per_min = 0)%Z -> off <> 0%Z ->
  auto_name off <> "UTC" /\ auto_name off <> "UTC+00:00".
Proof.
  intros Hr Hm Hn. unfold us_per_day in *.
  assert (Hoff : off = (off / us_per_min * us_per_min)%Z).
  { pose proof (Z.div_mod off us_per_min ltac:(discriminate)). lia. }
  set (m := (off / us_per_min)%Z) in *.
  assert (Hmr : (-1440 <= m <= 1440)%Z).
  { unfold us_per_min, us_per_hour in *. lia. }
  assert (HP : (Z.eqb m 0 || (negb (String.eqb (auto_name (m * us_per_min)) "UTC")
                && negb (String.eqb (auto_name (m * us_per_min)) "UTC+00:00")))%bool = true).
  { apply (all_minutes (fun m => (Z.eqb m 0 || (negb (String.eqb (auto_name (m * us_per_min)) "UTC")
                && negb (String.eqb (auto_name (m * us_per_min)) "UTC+00:00")))%bool)); [|exact Hmr].
    vm_compute. reflexivity. }
  apply orb_true_iff in HP as [HP|HP].
  - apply Z.eqb_eq in HP. exfalso. apply Hn. rewrite Hoff, HP. reflexivity.
  - rewrite <- Hoff in HP. apply andb_true_iff in HP as [H1 H2].
    split; intros Heq; rewrite Heq in *; discriminate.
Qed.
Lemma datetime_back local dt off tz :
  real_date 1000 (dt_date dt) -> real_time (dt_time dt) -> dt_tz dt = Some tz -> new_timezone off = Ok tz ->
  exact_offset off ->
  exists s, dump_datetime local false dt = Ok (s, false) /\ load_datetime s = Ok dt.
Proof.
  intros Hd Ht Htz Hnew Hex. destruct dt as [d t tz']. cbn [dt_date dt_time dt_tz] in *. subst tz'.
  unfold new_timezone in Hnew. destruct ((- us_per_day <? off) && (off <? us_per_day))%Z eqn:Hr; [|discriminate].
  apply andb_true_iff in Hr as [Hr1 Hr2]. apply Z.ltb_lt in Hr1. apply Z.ltb_lt in Hr2.
  destruct (Z.eqb_spec off 0) as [->|Hz].
  - injection Hnew as <-. exists (wall_text d t ++ frac_text false t ++ "Z").
    split; [now apply dump_utc|]. now rewrite (load_utc false d t Hd Ht).
  - injection Hnew as <-. set (tz := mkTz (Some (auto_name off)) (Some off) None (Some off)).
    destruct Hex as [Hmod Hex]. destruct (auto_name_not_utc off (conj Hr1 Hr2) Hmod Hz) as [N1 N2].
    assert (Ho : has_offset tz off).
    { unfold has_offset, tz. cbn [tz_off tz_off_none tz_adjusted tz_name]. split; [reflexivity|]. split; [now left|].
      split; [reflexivity|]. split; congruence. }
    destruct (offset_str off (conj Hr1 Hr2)) as [_ Hok].
    exists (wall_text d t ++ frac_text false t ++ suffix_text (written off)). split.
    + apply (dump_text local false (mkDt d t (Some tz))); [exact Hd|exact Ht|].
      unfold datetime_offset_str. cbn [dt_tz]. rewrite (tz_offset_str tz off Ho (conj Hr1 Hr2)). reflexivity.
    + rewrite (load_text false d t (written off) Hd Ht Hok).
      destruct (written_exact off (conj Hr1 Hr2)) as [_ Hw]. rewrite Hw by now split.
      unfold fixed_tz. destruct (Z.eqb_spec off 0); [contradiction|]. reflexivity.
Qed.
Lemma complex_doc E n x y : survives E (LComplex x y) -> 0 < n ->
  snd (load E (S n) 0 lopts0 (Some complex_type) (str_dict [("real", VFloat x); ("imag", VFloat y)])) =
  Done (str_dict [("real", VFloat x); ("imag", VFloat y)]).
Proof.
  intros (HD & Hr & Hi & Hx & Hy & Ha) Hn.
  assert (Hp : plain_input (str_dict [("real", VFloat x); ("imag", VFloat y)])).
  { constructor; repeat constructor; cbn; eexists; (split; [reflexivity|split; discriminate]). }
  apply (load_by_handler E 0 HD n lopts0 complex_type _ DMapping _ Hp I); try discriminate; [| |exact Ha].
  - apply (deser_head (e_ct E) true HDict [TPrim PStr; TPrim PFloat]).
  - cbn [deser_step]. unfold complex_type, deser_mapping. cbn [get_args raw_args lift]. rewrite bind_ret_l.
    apply bind_done. exists [(VStr "real", VFloat x); (VStr "imag", VFloat y)]. split; [|reflexivity].
    apply (pass_dict E 0 n (child_opts lopts0) (TPrim PStr) (TPrim PFloat)
             [(VStr "real", VFloat x); (VStr "imag", VFloat y)] [("real", VFloat x); ("imag", VFloat y)]); auto.
    + apply exact_child. apply exact_lopts0.
    + repeat constructor; cbn; intuition discriminate.
    + cbn. intros k [<-|[<-|[]]]; (split; [apply exact_str|reflexivity]).
    + cbn. intros s [<-|[<-|[]]]; discriminate.
    + assert (HF : forall z, accepts E 0 (TPrim PFloat) (VFloat z) -> loads_as E 0 n (TPrim PFloat) (VFloat z) (VFloat z)).
      { intros z Hz lo _. destruct n as [|n]; [lia|]. apply load_typed; [exact I|intros ? ? ? H; discriminate|].
        split; [discriminate|]. destruct (negb (lo_strict lo) && ty_eqb (class_of (VFloat z)) (TPrim PFloat)); [auto|].
        split; [reflexivity|]. exists DPrimitive. rewrite HD, deser_prim. auto. }
      assert (HK : forall s, accepts E 0 (TPrim PStr) (VStr s) -> loads_as E 0 n (TPrim PStr) (VStr s) (VStr s)).
      { intros s Hs lo _. destruct n as [|n]; [lia|]. now apply load_str_explicit. }
      repeat constructor; cbn [fst snd]; auto.
Qed.
Section Leaves.
Variables (E : env) (f g : nat) (o : sopts).
Hypothesis HS : default_serializers E f.
Hypothesis HD : default_deserializers E g.
Lemma pass_leaf x : survives E x -> accepts E g (TLeaf (leaf_kind x)) (VLeaf x) ->
  exists j, passes E f g o (TLeaf (leaf_kind x)) (VLeaf x) j.
Proof.
  intros Hx Ha.
  assert (HP : forall j, clean j -> j <> VNone -> (flat (VLeaf x) = true -> dictless j = true) ->
    (forall n o' cls, near_exact o' -> cls = None \/ cls = Some (TLeaf (leaf_kind x)) ->
       snd (ser_step E f (serialize E f n) o' (Some (leaf_ser (leaf_kind x))) cls (VLeaf x)) = Done j) ->
    (forall n lo, exact_load lo -> 1 < n ->
       snd (deser_step E (load E n) g (child_opts lo) (leaf_handler (leaf_kind x)) (TLeaf (leaf_kind x)) j) = Done (VLeaf x)) ->
    passes E f g o (TLeaf (leaf_kind x)) (VLeaf x) j).
  { intros j Hcl Hn Hfl Hd Hl. pose proof (proj1 Hcl) as Hp. split; [exact Hcl|]. split; [split; [now intros ->|exact Hfl]|]. exists 3. intros [|n] Hle; [lia|]. split.
    - intros o' cls He _ _ Hc. apply dump_done_iff. rewrite (serializer_leaf E f cls x HS Hc). cbn [serialize]. now apply Hd.
    - intros lo He. apply (load_by_handler E g HD n lo _ j (leaf_handler (leaf_kind x))); auto; try exact I.
      + destruct Hp; discriminate.
      + apply deser_leaf.
      + apply Hl; [exact He|lia]. }
  assert (HStr : forall (k : lopts -> res value) s, VStr s <> VNone) by discriminate.
  destruct x as [dt|d|t|us|off nm|k|s|re im|s|k]; cbn [leaf_kind leaf_ser leaf_handler survives] in *.
  - destruct Hx as (Hd & Ht & off & tz & Htz & Hnew & Hex).
    destruct (datetime_back (rt_local (e_rt E)) dt off tz Hd Ht Htz Hnew Hex) as (s & Hs & Hl).
    exists (VStr s). apply HP; [now apply clean_scalar|discriminate|reflexivity| |].
    + intros n o' cls (_ & _ & _ & _ & Hus & _) _. cbn [ser_step]. unfold ser_time_like. rewrite Hus.
      change (to_str (rt_local (e_rt E)) false datetime_pattern (VLeaf (LDatetime dt)))
        with (dump_datetime (rt_local (e_rt E)) false dt).
      rewrite Hs. reflexivity.
    + intros n lo _ _. cbn [deser_step]. rewrite Hl. reflexivity.
  - exists (VStr (dump_date d)). apply HP; [now apply clean_scalar|discriminate|reflexivity| |].
    + intros n o' cls _ _. cbn [ser_step]. unfold ser_time_like. reflexivity.
    + intros n lo _ _. cbn [deser_step]. rewrite (date_roundtrip d Hx). reflexivity.
  - exists (VStr (dump_time t)). apply HP; [now apply clean_scalar|discriminate|reflexivity| |].
    + intros n o' cls _ _. cbn [ser_step]. unfold ser_time_like. reflexivity.
    + intros n lo _ _. cbn [deser_step]. rewrite (time_roundtrip t (proj1 Hx) (proj2 Hx)). reflexivity.
  - exists (VFloat (total_seconds us)). apply HP; [now apply clean_scalar|discriminate|reflexivity| |].
    + reflexivity.
    + intros n lo _ _. cbn [deser_step]. unfold deser_timedelta. rewrite (timedelta_roundtrip us Hx). reflexivity.
  - destruct Hx.
  - exists (VStr (uuid_str k)). apply HP; [now apply clean_scalar|discriminate|reflexivity| |].
    + reflexivity.
    + intros n lo _ _. cbn [deser_step]. rewrite (uuid_roundtrip k Hx). reflexivity.
  - exists (VStr s). apply HP; [now apply clean_scalar|discriminate|reflexivity| |].
    + reflexivity.
    + intros n lo _ _. cbn [deser_step]. rewrite Hx. reflexivity.
  - exists (str_dict [("real", VFloat re); ("imag", VFloat im)]). apply HP; [|discriminate|discriminate| |].
    + apply clean_dict; [repeat constructor; cbn; intuition discriminate| |repeat (constructor; [now apply clean_scalar|]); constructor].
      cbn. intros k0 Hk0. repeat destruct Hk0 as [<-|Hk0]; try destruct Hk0; eexists; (split; [reflexivity|split; discriminate]).
    + reflexivity.
    + intros n lo _ Hn. cbn [deser_step]. unfold deser_complex. apply try_done. left.
      apply bind_done. exists (VFloat re). split; [reflexivity|].
      apply bind_done. exists (VFloat im). split; [reflexivity|].
      apply bind_done. exists (str_dict [("real", VFloat re); ("imag", VFloat im)]). split; [|reflexivity].
      destruct n as [|n]; [lia|]. apply complex_doc; [exact Hx|lia].
  - exists (VStr s). apply HP; [now apply clean_scalar|discriminate|reflexivity| |].
    + reflexivity.
    + intros n lo _ _. cbn [deser_step]. rewrite Hx. reflexivity.
  - exists (str_dict [("key", VStr k)]). apply HP; [|discriminate|discriminate| |].
    + apply clean_dict; [repeat constructor; cbn; intuition discriminate| |repeat (constructor; [now apply clean_scalar|]); constructor].
      cbn. intros k0 Hk0. repeat destruct Hk0 as [<-|Hk0]; try destruct Hk0; eexists; (split; [reflexivity|split; discriminate]).
    + reflexivity.
    + intros n lo _ Hn. cbn [deser_step]. apply bind_done. exists (VStr k). split; [reflexivity|]. rewrite Hx. reflexivity.
Qed.

(** ** Keys *)
Lemma passes_unique t t' v j j' : passes E f g o t v j -> passes E f g o t' v j' -> j = j'.
Proof.
  intros (_ & _ & N & H) (_ & _ & N' & H').
  destruct (H (N + N') ltac:(lia)) as [H1 _]. destruct (H' (N + N') ltac:(lia)) as [H2 _].
  set (o' := mkSopts false false None (so_privates o) (so_properties o) (so_class_vars o) SANone false false false true false []).
  assert (Ho : near_exact o') by (repeat split).
  assert (Hq : quiet o') by (repeat split). assert (Hsel : same_selection o o') by (repeat split).
  specialize (H1 o' None Ho (or_introl Hq) Hsel (or_introl eq_refl)).
  specialize (H2 o' None Ho (or_introl Hq) Hsel (or_introl eq_refl)). congruence.
Qed.
Lemma leaf_exact x : exact_key (VLeaf x).
Proof. intros [| | | | | | | | |y| | |]; cbn; try discriminate. destruct (leaf_eq_dec x y) as [->|]; [reflexivity|discriminate]. Qed.
Lemma enum_exact c n : exact_key (VEnum c n).
Proof.
  intros [| | | | | | | | | |c' n'| |]; cbn; try discriminate. intros H. apply andb_true_iff in H as [H1 H2].
  apply Nat.eqb_eq in H1 as ->. apply String.eqb_eq in H2 as ->. reflexivity.
Qed.
Lemma leaf_text x : survives E x -> accepts E g (TLeaf (leaf_kind x)) (VLeaf x) -> text_key (e_ct E) (VLeaf x) ->
  exists s, passes E f g o (TLeaf (leaf_kind x)) (VLeaf x) (VStr s) /\ s <> "-meta" /\ s <> "-keys".
Proof.
  intros Hx Ha Ht. destruct (pass_leaf x Hx Ha) as [j Hj]. pose proof Hj as (_ & _ & N & HN).
  destruct (HN (S (S N)) ltac:(lia)) as [Hd Hl].
  set (o' := mkSopts false false None (so_privates o) (so_properties o) (so_class_vars o) SANone false false false true false []).
  specialize (Hd o' None ltac:(repeat split) ltac:(left; repeat split) ltac:(repeat split) (or_introl eq_refl)).
  specialize (Hl lopts0 exact_lopts0).
  apply dump_done_iff in Hd. rewrite (serializer_leaf E f None x HS (or_introl eq_refl)) in Hd. cbn [serialize] in Hd.
  assert (HT : forall s, j = VStr s -> s <> "-meta" /\ s <> "-keys" -> exists s, passes E f g o (TLeaf (leaf_kind x)) (VLeaf x) (VStr s) /\ s <> "-meta" /\ s <> "-keys").
  { intros s -> Hs. exists s. auto. }
  assert (HW : forall s, j = VStr s ->
    (forall sec, sec = "-meta" \/ sec = "-keys" -> snd (deser_step E (load E (S N)) g (child_opts lopts0) (leaf_handler (leaf_kind x)) (TLeaf (leaf_kind x)) (VStr sec)) <> Done (VLeaf x)) ->
    s <> "-meta" /\ s <> "-keys").
  { intros s -> Hs.
    assert (Hsec : forall sec, sec = "-meta" \/ sec = "-keys" -> s <> sec).
    { intros sec Hsec ->. apply (load_typed E (S N) g lopts0 (TLeaf (leaf_kind x)) (VStr sec)) in Hl; [|exact I|intros ? ? ? HH; discriminate].
      destruct Hl as [_ Hl]. change (ty_eqb (class_of (VStr sec)) (TLeaf (leaf_kind x))) with false in Hl. rewrite andb_false_r in Hl.
      destruct Hl as (_ & h & Hh & Hst & _). rewrite HD, deser_leaf in Hh. injection Hh as <-. now apply (Hs sec Hsec). }
    split; apply Hsec; auto. }
  destruct x as [dt|d|t|us|off nm|k|s|re im|s|k]; try (now destruct Ht); cbn [leaf_kind leaf_ser leaf_handler] in *; cbn [ser_step] in Hd.
  - unfold ser_time_like in Hd. apply bind_done in Hd as ([s w] & _ & Hd). apply bind_done in Hd as (u & _ & Hd). injection Hd as <-.
    apply (HT s eq_refl). apply (HW s eq_refl). intros sec [-> | ->]; cbn [deser_step];
      (match goal with |- context [load_datetime ?z] => let r := eval vm_compute in (load_datetime z) in change (load_datetime z) with r end); discriminate.
  - unfold ser_time_like in Hd. apply bind_done in Hd as ([s w] & _ & Hd). apply bind_done in Hd as (u & _ & Hd). injection Hd as <-.
    apply (HT s eq_refl). apply (HW s eq_refl). intros sec [-> | ->]; cbn [deser_step];
      (match goal with |- context [load_date ?z] => let r := eval vm_compute in (load_date z) in change (load_date z) with r end); discriminate.
  - unfold ser_time_like in Hd. apply bind_done in Hd as ([s w] & _ & Hd). apply bind_done in Hd as (u & _ & Hd). injection Hd as <-.
    apply (HT s eq_refl). apply (HW s eq_refl). intros sec [-> | ->]; cbn [deser_step];
      (match goal with |- context [load_time ?z] => let r := eval vm_compute in (load_time z) in change (load_time z) with r end); discriminate.
  - injection Hd as <-. apply (HT _ eq_refl). apply (HW _ eq_refl). intros sec [-> | ->]; cbn [deser_step];
      (match goal with |- context [uuid_parse ?z] => let r := eval vm_compute in (uuid_parse z) in change (uuid_parse z) with r end); discriminate.
  - injection Hd as <-. now apply (HT _ eq_refl).
  - injection Hd as <-. now apply (HT _ eq_refl).
Qed.
Lemma no_json_key v : is_class (class_of v) = true ->
  (forall p, existsb (ty_eqb (TPrim p)) (supers (e_ct E) (class_of v)) = false) ->
  existsb (ty_eqb TNoneT) (supers (e_ct E) (class_of v)) = false -> json_key (e_ct E) v = false.
Proof. intros H1 H2 H3. unfold json_key, naked_sub. rewrite H1, !H2, H3. reflexivity. Qed.
Lemma text_passes t k : has_type E g o t k -> text_key (e_ct E) k -> (exists j, passes E f g o t k j) ->
  exists s, good_key E f g o t k s.
Proof.
  intros H Ht Hp.
  assert (HK : exists t' s, passes E f g o t' k (VStr s) /\ s <> "-meta" /\ s <> "-keys" /\
                 exact_key k /\ hashable (e_ct E) k = true /\ flat k = true /\ (k = VStr s \/ json_key (e_ct E) k = false)).
  { clear Hp. induction H as [Ha|p v Hc Ha|x Hx Ha|b h t l v Hq Hd Hi IH Ha|b h tk t d v Hq Hnd Htk Hk IHk Hi IH Hdd Ha
    |b ts l Hne Hel Hlen Hi IH Ha|b t l Hi IH Ha|pre t ts v Hpre Hv Hi IH Ha|ts Hin Hodd Hun H0 Ha
    |c m ms nm Hk Hor Hcan Ha|c fields l Hk Hor Hnd Hat Hlen Hnone Hh Hi IH Ha|c attrs HR Hat Hi IH Ha]; try (now destruct Ht).
    - destruct v as [| | | |s| | |[]|[]|x| | |]; try discriminate; try (now destruct Ht). injection Hc as <-.
      exists (TPrim PStr), s. split; [now apply pass_prim|]. destruct Ht.
      split; [assumption|]. split; [assumption|]. split; [apply exact_str|]. auto.
    - destruct (leaf_text x Hx Ha Ht) as (s & Hp & H1 & H2). exists (TLeaf (leaf_kind x)), s.
      split; [exact Hp|]. split; [exact H1|]. split; [exact H2|]. split; [apply leaf_exact|]. split; [reflexivity|]. split.
      + destruct x; try reflexivity; now destruct Ht.
      + right. apply no_json_key; [destruct x; reflexivity|intros p; destruct x, p; reflexivity|destruct x; reflexivity].
    - destruct Hq; now destruct Ht.
    - destruct Hq; now destruct Ht.
    - auto.
    - exists (TClass c), nm. split; [eapply pass_enum; eauto|]. destruct Ht as [[H1 H2] (ms' & Hm)].
      split; [exact H1|]. split; [exact H2|]. split; [apply enum_exact|]. split; [reflexivity|]. split; [reflexivity|]. right.
      destruct Hor as [_ Hu].
      apply no_json_key; cbn [class_of supers].
      + reflexivity.
      + intros p. cbn [existsb]. change (ty_eqb (TPrim p) (TClass c)) with false. rewrite Hm. cbn [app existsb].
        rewrite (existsb_user _ (ci_supers (e_ct E c))); [reflexivity|reflexivity|exact Hu].
      + cbn [existsb]. change (ty_eqb TNoneT (TClass c)) with false. rewrite Hm. cbn [app existsb].
        rewrite (existsb_user _ (ci_supers (e_ct E c))); [reflexivity|reflexivity|exact Hu]. }
  destruct HK as (t' & s & Hs & H1 & H2 & H3 & H4 & H5 & H6). destruct Hp as [j Hj].
  exists s. unfold good_key. rewrite <- (passes_unique _ _ _ _ _ Hj Hs) at 1. auto 10.
Qed.

(** ** Everything *)
Theorem has_type_passes t v : has_type E g o t v -> exists j, passes E f g o t v j.
Proof.
  induction 1 as [Ha|p v Hc Ha|x Hx Ha|b h t l v Hq Hd Hi IH Ha|b h tk t d v Hq Hnd Htk Hk IHk Hi IH Hdd Ha
    |b ts l Hne Hel Hlen Hi IH Ha|b t l Hi IH Ha|pre t ts v Hpre Hv Hi IH Ha|ts Hin Hodd Hun H0 Ha
    |c m ms nm Hk Hor Hcan Ha|c fields l Hk Hor Hnd Hat Hlen Hnone Hh Hi IH Ha|c attrs HR Hat Hi IH Ha].
  - exists VNone. now apply pass_none.
  - exists v. now apply pass_prim.
  - now apply pass_leaf.
  - eapply pass_sequence; eauto.
  - eapply pass_mapping; eauto. intros k Hin. apply text_passes; auto.
  - eapply pass_tuple; eauto.
  - eapply pass_repeated; eauto.
  - eapply pass_present; eauto. eapply not_nonetype; eauto.
  - eexists. eapply pass_absent; eauto.
  - eexists. eapply pass_enum; eauto.
  - eapply pass_namedtuple; eauto.
  - eapply pass_object; eauto.
Qed.
End Leaves.
