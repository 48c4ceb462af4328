(** * Verbose dumps: the theorems *)
From Verif Require Import PyBaseFacts EngineFacts DumpProofs DumpLaws LoadFacts LoadLaws LoadTypes LoadObject LoadMeta RoundTripProofs LoadSame VerboseProofs.
Local Close Scope Z_scope.
Local Open Scope string_scope.

Lemma object_cls_ser E f cls c attrs : default_serializers E f -> ci_kind (e_ct E c) = CkObj -> ordinary (e_ct E c) ->
  object_cls (e_ct E) cls -> serializer E f cls (VObj c attrs) = Some SObject.
Proof.
  intros HS Hk Ho Hc. unfold serializer. rewrite HS. destruct Hc as [-> |(c' & -> & Hk' & Ho')]; cbn [tyof class_of]; now apply ser_object_class.
Qed.
Lemma silent_near o : near_exact o -> near_exact (silent o).
Proof. exact id. Qed.
Lemma ending_meta m : ending [(VStr "-meta", m)].
Proof. intros k x [H|[]]. injection H as <- _. now right. Qed.
Lemma root_meta E o name fs : fine (TNd name fs) -> so_class_info o = true ->
  dict_with_meta E o name (body true fs) =
  Ok (VDict DkDict (body false fs ++ [(VStr "-meta", meta_section E o (texts (hints_of name (TNd name fs))))])).
Proof.
  intros HT Hc. unfold dict_with_meta. rewrite Hc. cbn [negb andb].
  inversion HT as [|? ? _ Hf]; subst.
  assert (Hnew : forall b, ~ In (VStr "-meta") (map fst (body b fs))).
  { intros b Hin. unfold body in Hin. rewrite map_map in Hin. apply in_map_iff in Hin as ([a t] & Ha & Hin). cbn [fst] in Ha.
    injection Ha as ->. now destruct (Hf _ _ Hin). }
  rewrite (dset_new "-meta" _ (body true fs)) by apply Hnew.
  pose proof (fill_body (TNd name fs) HT "/" [] [(VStr "-meta", VDict DkDict [])] (ending_meta _)) as H. cbn iota in H.
  change (texts []) with (@nil (value * value)) in H. rewrite H. cbn [rbind]. cbn [fst snd].
  rewrite texts_set. f_equal. f_equal.
  change (kept [(VStr "-meta", VDict DkDict [])]) with [(VStr "-meta", VDict DkDict [])].
  unfold meta_section, hints_of. generalize (gather "/" (TNd name fs) []). intros hs.
  specialize (Hnew false). revert Hnew. generalize (body false fs). intros d Hnew. clear - Hnew.
  unfold dset. induction d as [|[k x] d IH]; [reflexivity|]. cbn [app aset map fst In] in *.
  destruct (py_eqb (VStr "-meta") k) eqn:Hk; [apply py_eqb_str in Hk; tauto|]. f_equal. apply IH. tauto.
Qed.

Section Laws.
Variables (E : env) (f g : nat) (o : sopts).
Hypothesis HS : default_serializers E f.
Hypothesis HD : default_deserializers E g.
Hypothesis Hdef : dictless_defaults (e_ct E).
Hypothesis Hnear : near_exact o.
Hypothesis Hinfo : so_class_info o = true.
Hypothesis Hstore : so_store_cls o = false.

(** What a verbose dump is *)
Lemma verbose_dump v : tree E g o v ->
  exists c attrs fs N, v = VObj c attrs /\ node_like (e_ct E) o c /\
    map fst attrs = map pa_name (ci_params (e_ct E c)) /\ accepts E g (TClass c) v /\
    shape (e_ct E) v (TNd (ci_name (e_ct E c)) fs) /\ fine (TNd (ci_name (e_ct E c)) fs) /\
    (forall n, N <= n -> parts E f g o n c attrs fs) /\
    forall n cls, N < n -> object_cls (e_ct E) cls ->
      snd (dump E f n o cls v) =
        Done (VDict DkDict (body false fs ++ [(VStr "-meta", meta_section E o (texts (hints_of (ci_name (e_ct E c)) (TNd (ci_name (e_ct E c)) fs))))])) /\
      snd (dump E f n (silent o) cls v) = Done (VDict DkDict (body false fs)).
Proof.
  intros Ht. destruct (tree_good E f g o HS HD Hdef v Ht) as (c & attrs & fs & N & -> & HR & Hat & Hacc & Hfs & Hsh & Hfine & HN).
  exists c, attrs, fs, N. do 6 (split; [assumption || reflexivity|]). split; [exact HN|].
  intros [|n] cls Hn Hcls; [lia|].
  assert (Hs : serializer E f cls (VObj c attrs) = Some SObject) by (apply object_cls_ser; auto; apply HR).
  destruct (HN n ltac:(lia)) as [Hp _]. split.
  - rewrite (object_dump E f o n c attrs fs o cls HR Hnear); auto; [|repeat split|].
    + rewrite Hstore, Hinfo, root_meta by assumption. reflexivity.
    + apply Hp; [exact Hnear|repeat split|]. rewrite Hinfo. discriminate.
  - rewrite (object_dump E f o n c attrs fs (silent o) cls HR); auto; [|repeat split|].
    + change (so_store_cls (silent o)) with (so_store_cls o). rewrite Hstore. reflexivity.
    + apply Hp; [exact Hnear|repeat split|reflexivity].
Qed.
Theorem verbose_document v : tree E g o v ->
  exists d hints N, lists_classes (e_ct E) v hints /\ dget (VStr "-meta") d = None /\
    forall n cls, N <= n -> object_cls (e_ct E) cls ->
      snd (dump E f n o cls v) = Done (VDict DkDict (d ++ [(VStr "-meta", meta_section E o hints)])) /\
      snd (dump E f n (silent o) cls v) = Done (VDict DkDict d).
Proof.
  intros Ht. destruct (verbose_dump v Ht) as (c & attrs & fs & N & -> & HR & Hat & _ & Hsh & Hfine & _ & Hd).
  exists (body false fs), (texts (hints_of (ci_name (e_ct E c)) (TNd (ci_name (e_ct E c)) fs))), (S N).
  split; [now apply shape_lists|]. split; [|intros n cls Hn; now apply Hd].
  apply no_meta_body. intros a Ha. inversion Hfine as [|? ? _ Hf]; subst.
  apply in_map_iff in Ha as ([a' t] & <- & Ha). now apply (Hf a' t).
Qed.
Theorem verbose_round_trip v : tree E g o v -> resolves E g v -> no_clash v ->
  exists j N, forall n m dcls lo lcls, N <= n -> N <= m -> object_cls (e_ct E) dcls ->
    exact_load lo -> lo_hints lo = None -> lcls = None \/ lcls = Some (class_of v) ->
    snd (dump E f n o dcls v) = Done j /\ snd (load E m g lo lcls j) = Done v.
Proof.
  intros Ht Hrs Hcl. destruct (verbose_dump v Ht) as (c & attrs & fs & N & -> & HR & Hat & Hacc & Hsh & Hfine & HN & Hd).
  set (T := TNd (ci_name (e_ct E c)) fs) in *. set (hs := hints_of (ci_name (e_ct E c)) T) in *.
  exists (VDict DkDict (body false fs ++ [(VStr "-meta", meta_section E o (texts hs))])), (S N).
  intros n m dcls lo lcls Hn Hm Hdc Hlo Hlh Hlc. split; [now apply Hd|].
  destruct m as [|m]; [lia|]. destruct (HN m ltac:(lia)) as [_ Hv]. specialize (Hv Hrs).
  assert (Hres : e_resolve E g (ci_name (e_ct E c)) = Ok (TClass c)) by (apply (Hrs [] c attrs); constructor).
  assert (Hsv : serves hs T).
  { apply (guides_serve T Hfine) with []; [now apply shape_clashless with (e_ct E) (VObj c attrs)|reflexivity|]. now apply guides_root. }
  inversion Hsh as [|? ? ? Hn1 Hn2 Hi Hsx]; subst.
  assert (Hmeta : forall extra, dget (VStr "-meta") (body false fs ++ [(VStr "-meta", extra)]) = Some extra).
  { intros extra. rewrite body_texts. change [(VStr "-meta", extra)] with (texts [("-meta", extra)]). rewrite <- texts_app, texts_get.
    inversion Hfine as [|? ? _ Hf]; subst. clear - Hf. unfold sget. induction fs as [|[a t] fs IH]; [reflexivity|]. cbn [map app aget fst snd].
    destruct (String.eqb_spec "-meta" a) as [<-|_].
    - destruct (Hf "-meta" t (or_introl eq_refl)) as [Ha _]. discriminate.
    - apply IH. intros a' t' Hin. apply Hf. now right. }
  set (d := (body false fs ++ _)%list).
  assert (Hcm : get_cls_and_meta E g (VDict DkDict d) = Ok (Some (TClass c), texts hs)).
  { cbn [get_cls_and_meta]. unfold d. rewrite Hmeta. unfold meta_section. cbn [py_getitem hashable].
    change (dget (VStr "classes") ((VStr "classes", VDict DkDict (texts hs)) :: if so_dump_time o then [(VStr "dump_time", VStr (rt_now (e_rt E)))] else []))
      with (Some (VDict DkDict (texts hs))).
    cbn [opt_res rbind py_getitem hashable]. rewrite texts_get. unfold hs at 1, hints_of. rewrite sget_sset_same. cbn [opt_res rbind].
    rewrite Hres. reflexivity. }
  cbn [load]. unfold load_step. cbn [is_none]. rewrite bind_ret_l.
  replace ((negb (lo_strict lo) && same_type (VDict DkDict d) lcls) || match lcls with Some TAny => true | _ => false end) with false
    by (destruct Hlc as [-> | ->]; cbn [same_type class_of]; [|change (ty_eqb (TApp false HDict []) (TClass c)) with false]; now rewrite andb_false_r).
  replace (match lcls with Some (TFwd s) => dor t <- e_resolve E g s; Ok (Some t) | _ => Ok lcls end) with (@Ok (option ty) lcls)
    by (destruct Hlc as [-> | ->]; reflexivity).
  rewrite bind_lift_ok. cbn [valid_type negb]. rewrite Hcm, bind_lift_ok. cbn [fst snd].
  replace (determine_precedence lcls (Some (TClass c)) (Some (class_of (VDict DkDict d))) (lo_inferred lo)) with (Some (TClass c))
    by (destruct Hlc as [-> | ->]; unfold determine_precedence; now destruct (lo_inferred lo)).
  cbn iota. rewrite HD, (deser_object_class (e_ct E) c) by apply HR. rewrite Hlh.
  unfold wrap_deser. apply try_done. left. apply bind_done. exists (VObj c attrs).
  split; [|rewrite (validate_ok E g _ _ Hacc), bind_lift_ok; reflexivity].
  cbn [deser_step]. set (lo' := set_inferred _ _). unfold d.
  change [(VStr "-meta", meta_section E o (texts hs))] with (texts [("-meta", meta_section E o (texts hs))]).
  destruct Hlo as (_ & Hge & Hkt & Hen).
  apply (object_deser E g o); auto; [right; eauto|].
  intros p x t Hin Hti. change (lo_hints lo') with (Some (texts hs)). cbn iota. apply Hv; auto.
  split; [now left|]. split; [reflexivity|]. split; [exact Hkt|exact Hen].
Qed.
End Laws.

(** ** Only the time of the dump *)
Lemma dget_dset_same k x d : dget (VStr k) (dset (VStr k) x d) = Some x.
Proof.
  unfold dget, dset. induction d as [|[k' y] d IH]; cbn [aset aget].
  - now rewrite (proj2 (py_eqb_str k (VStr k)) eq_refl).
  - destruct (py_eqb (VStr k) k') eqn:Hk; cbn [aget]; rewrite Hk; [reflexivity|exact IH].
Qed.
Theorem dump_time_only E f n o cls c attrs r :
  serializer E f cls (VObj c attrs) = Some SObject ->
  so_class_info o = false -> so_dump_time o = true -> so_store_cls o = false ->
  snd (dump E f n o cls (VObj c attrs)) = Done r ->
  forall m g lo lcls, lcls = None \/ (exists c', lcls = Some (TClass c')) -> 
    load E (S m) g lo lcls r = fail (exn_of KKey).
Proof.
  intros Hs Hi Ht Hst H m g lo lcls Hl. unfold dump in H. rewrite dump_done_iff, Hs in H.
  destruct n as [|n]; [discriminate|]. cbn [serialize] in H. cbn [ser_step] in H. unfold ser_object in H.
  apply bind_done in H as (fields & _ & H). apply bind_done in H as (d & _ & H).
  rewrite Hst in H. apply lift_done in H. unfold dict_with_meta in H. rewrite Hi, Ht in H. cbn [negb andb rbind fst snd app] in H.
  injection H as <-. eapply load_no_classes.
  - apply dget_dset_same.
  - reflexivity.
  - intros s Heq. destruct Hl as [-> |(c' & ->)]; discriminate.
  - destruct Hl as [-> |(c' & ->)]; discriminate.
  - right. destruct Hl as [-> |(c' & ->)]; discriminate.
Qed.
