(** * Verbose dumps: proofs *)
From Coq Require Import Sorted.
From Verif Require Import PyBaseFacts AttrFacts EngineFacts DumpProofs DumpLaws LoadFacts LoadLaws LoadTypes LoadObject LoadMeta RoundTripProofs LoadSame.
From Verif Require Export VerboseFacts.
Local Close Scope Z_scope.
Local Open Scope string_scope.

Section Verbose.
Variables (E : env) (f g : nat) (o : sopts).
Hypothesis HS : default_serializers E f.
Hypothesis HD : default_deserializers E g.
Notation CT := (e_ct E).

(** ** Dumping *)
Definition inner_opts (o' : sopts) : sopts := set_store (so_class_info o') (set_attr_opt (SATuple []) o').
Lemma do_serialize_tagged n o' v : so_kt o' = None -> so_strip_nulls o' = false ->
  forall fields ds acc,
  NoDup (map fst fields) -> (forall s, In s (map fst fields) -> ~ In (VStr s) (map fst acc)) ->
  Forall2 (fun at_ d' => exists x d, get_attr E v (fst at_) = Ok x /\
             snd (dump E f n o' (snd at_) x) = Done d /\ d' = store_cls_info E (so_store_cls o') d x) fields ds ->
  snd (do_serialize E f (serialize E f n) o' false v fields acc) = Done (acc ++ combine (map VStr (map fst fields)) ds)%list.
Proof.
  intros O1 O2 fields ds acc Hn Hd Hf. revert acc Hn Hd.
  induction Hf as [|[a c] d' attrs ds (x & d & Hx & Hdx & ->) _ IH]; intros acc Hn Hd; cbn [do_serialize map fst].
  - now rewrite app_nil_r.
  - cbn [map fst snd] in *. inversion Hn; subst. apply bind_done. exists x. split; [now rewrite Hx|]. cbv zeta.
    apply bind_done. exists tt. split; [reflexivity|].
    apply dump_done_iff in Hdx. set (d' := store_cls_info E (so_store_cls o') d x) in *. apply bind_done. exists (inl d'). split.
    + unfold mcatch. replace (snd (dom d0 <- _; _)) with (Done d'); [reflexivity|]. symmetry.
      apply bind_done. exists d. split; [exact Hdx|]. reflexivity.
    + cbv zeta. rewrite O2, O1. cbn [andb]. unfold apply_kt. cbn [rbind hashable]. rewrite bind_lift_ok.
      rewrite IH; [|assumption|].
      * rewrite dset_new by (apply Hd; now left). rewrite <- app_assoc. reflexivity.
      * intros s' Hs'. rewrite dset_new by (apply Hd; now left). rewrite map_app, in_app_iff. cbn.
        intros [Hi|[Eq|[]]]; [eapply Hd; [right; exact Hs'|exact Hi]|]. injection Eq as ->. tauto.
Qed.
Definition attrs_dump (n c : nat) (attrs : list (string * value)) (o' : sopts) (fs : list (string * tdoc)) : Prop :=
  forall a t, In (a, t) fs -> exists x d, sget a attrs = Some x /\
    snd (dump E f n (inner_opts o') (attr_hint (CT c) a) x) = Done d /\
    store_cls_info E (so_class_info o') d x = doc (so_class_info o') t.
Lemma object_dump n c attrs fs o' cls :
  node_like CT o c -> near_exact o' -> same_selection o o' -> map fst attrs = map pa_name (ci_params (CT c)) ->
  map fst fs = sort_names (map pa_name (ci_params (CT c))) ->
  serializer E f cls (VObj c attrs) = Some SObject -> attrs_dump n c attrs o' fs ->
  snd (dump E f (S n) o' cls (VObj c attrs)) =
  if so_store_cls o' then Done (VDict DkDict (body (so_class_info o') fs))
  else match dict_with_meta E o' (ci_name (CT c)) (body (so_class_info o') fs) with
       | Ok r => Done r
       | Err e => Fail (exn_of KSer)
       end.
Proof.
  intros HR Hne Hsel Hat Hfs Hs Hds. destruct HR as [HK HO Hna Hrd Hnd Hinit Hmem Hpar].
  destruct Hne as (Hstr & Hkt & Hnull & _ & _ & _ & Hstrip).
  assert (Hsorted : StronglySorted slt (map fst fs)) by (rewrite Hfs; apply sort_names_sorted).
  destruct (instance_fields E o' c attrs [] Hstrip Hrd) as (names & Hf & Hs' & Hm').
  assert (Heq : names = map fst fs).
  { apply sorted_unique; auto. intros a. rewrite Hm', Hfs, sort_names_In, Hat. split.
    - intros [[Hin|Hin] Hv]; [exact Hin|]. apply Hmem; [exact Hin|]. now apply selection_visible' with o'.
    - intros Hin. split; [now left|]. apply in_map_iff in Hin as (p & <- & Hp).
      apply selection_visible with o; [exact Hsel|]. now apply Hpar. }
  subst names. destruct (strips_names _ _ Hstrip) as [_ Hno].
  assert (Hser : snd (do_serialize E f (serialize E f n) (inner_opts o') false (VObj c attrs)
                       (map (fun a => (a, attr_hint (CT c) a)) (map fst fs)) []) = Done (body (so_class_info o') fs)).
  { rewrite (do_serialize_tagged n (inner_opts o') (VObj c attrs) Hkt Hnull _ (map (fun at_ => doc (so_class_info o') (snd at_)) fs)).
    - cbn [app]. f_equal. rewrite !map_map. cbn [fst]. unfold body. clear.
      induction fs as [|[a t] fs IH]; [reflexivity|]. cbn [map combine fst snd]. now rewrite IH.
    - rewrite map_map. cbn [fst]. rewrite map_id. now apply sorted_NoDup.
    - intros s _ [].
    - apply Forall2_map_l. apply Forall2_map_l. apply Forall2_map_r.
      assert (HF : Forall (fun at_ => In at_ fs) fs) by (apply Forall_forall; auto).
      induction HF as [|[a t] l Hin HF IH]; constructor; [|exact IH]. cbn [fst snd].
      destruct (Hds _ _ Hin) as (x & d & Hx & Hd & Hdoc). exists x, d. split; [|split; [exact Hd|now symmetry]].
      assert (Hp : In a (map pa_name (ci_params (CT c)))).
      { apply sort_names_In. rewrite <- Hfs. apply in_map_iff. now exists (a, t). }
      apply in_map_iff in Hp as (p & <- & Hp). destruct (Hpar p Hp) as (_ & _ & _ & _ & Hmp).
      unfold get_attr. destruct (sget (pa_name p) (ci_members (CT c))) as [[]|]; try (now elim Hmp); now rewrite Hx. }
  unfold dump, dump_. change (e_ser E f match cls with Some t => t | None => class_of (VObj c attrs) end) with (serializer E f cls (VObj c attrs)).
  rewrite Hs. cbn [serialize]. cbn [ser_step].
  assert (Hobj : ser_object E f (serialize E f n) o' cls (VObj c attrs) =
                 dom d <- do_serialize E f (serialize E f n) (inner_opts o') false (VObj c attrs)
                            (map (fun a => (a, attr_hint (CT c) a)) (map fst fs)) [];
                 if so_store_cls o' then ret (VDict DkDict d) else lift (dict_with_meta E o' (ci_name (CT c)) d)).
  { unfold ser_object. cbv zeta. rewrite Hstr. replace (match cls with Some _ => None | None => None end) with (@None ty) by now destruct cls.
    rewrite Hf, bind_lift_ok. cbn [class_of]. rewrite Hna. cbn [andb]. rewrite Hno. reflexivity. }
  rewrite Hobj. unfold wrap_ser, mtry, mbind. cbn [emit fst snd]. rewrite Hser.
  destruct (so_store_cls o'); [reflexivity|]. destruct (dict_with_meta _ _ _ _); reflexivity.
Qed.
(** The document of an object within another one *)
Definition dumps_inner (n : nat) (cls : option ty) (v : value) (fs : list (string * tdoc)) : Prop := forall o',
  near_exact o' -> same_selection o o' -> so_store_cls o' = so_class_info o' ->
  (so_class_info o' = false -> so_dump_time o' = false) ->
  snd (dump E f n o' cls v) = Done (VDict DkDict (body (so_class_info o') fs)).
Lemma hint_dumps t : object_hint CT t -> forall c attrs fs N,
  ordinary (CT c) ->
  (forall n cls, N <= n -> serializer E f cls (VObj c attrs) = Some SObject -> dumps_inner n cls (VObj c attrs) fs) ->
  exists N', forall n, N' <= n -> dumps_inner n (Some t) (VObj c attrs) fs.
Proof.
  intros Ht c attrs fs N Hor H. induction Ht as [c' Hk Ho|pre t ts Hpre Ht (N' & IH)].
  - exists N. intros n Hn. apply H; [exact Hn|]. unfold serializer. cbn [tyof]. rewrite HS. now apply ser_object_class.
  - exists (S (S N')). intros [|[|n]] Hn; [lia|lia|]. intros o' He Hsel Hst Htime.
    apply dump_union_done; [exact HS|]. right. split; [now intros [Heq _]|].
    exists pre, t, ts. split; [reflexivity|]. split; [apply IH; auto; lia|].
    apply Forall_forall. intros u Hu. rewrite (Hpre u Hu). clear u Hu.
    apply dump_fail_iff. unfold serializer. cbn [tyof]. rewrite HS, ser_none. cbn [serialize]. cbn [ser_step].
    assert (Hsub : naked_sub CT (TClass c) TNoneT = false).
    { destruct Hor as [_ Hu]. unfold naked_sub. cbn [is_class andb supers existsb].
      change (ty_eqb TNoneT (TClass c)) with false. rewrite existsb_app, (supers_user _ _ Hu).
      destruct (ci_kind (CT c)) as [|[[]|] ms|fs']; reflexivity. }
    unfold ser_primitive, is_instance. cbn [class_of]. rewrite Hsub. cbn. eexists. reflexivity.
Qed.

(** ** Loading *)
Definition lax_hints (lo : lopts) : Prop := exact_load (set_hints None lo).
Definition loads_inner (n c : nat) (T : tdoc) (v : value) : Prop := forall lo hs,
  lax_hints lo -> lo_hints lo = Some (texts hs) -> serves hs T ->
  snd (load E n g lo (Some (TClass c)) (doc false T)) = Done v.
Lemma body_texts fs : body false fs = texts (map (fun at_ => (fst at_, doc false (snd at_))) fs).
Proof. unfold body, texts. rewrite map_map. reflexivity. Qed.
Lemma object_deser n lo c attrs fs extra :
  node_like CT o c -> map fst attrs = map pa_name (ci_params (CT c)) ->
  lo_getters lo = [] -> (forall gt k, lo_kt lo = Some gt -> gt k = Ok k) -> NoDup (map fst fs) ->
  (forall a, In a (map fst fs) <-> In a (map fst attrs)) ->
  extra = [] \/ (exists m, extra = [("-meta", m)]) ->
  (forall p x t, In (p, x) (combine (ci_params (CT c)) (map snd attrs)) -> In (pa_name p, t) fs ->
     snd (value_from_obj E (load E n) g (set_getters [] lo) match lo_hints lo with Some h => h | None => [] end p (doc false t)) = Done x) ->
  snd (deser_object E (load E n) g lo (TClass c) (VDict DkDict (body false fs ++ texts extra))) = Done (VObj c attrs).
Proof.
  intros HR Hat Hge Hkt Hnf Hfs Hex Hv. destruct HR as [HK HO Hna Hrd Hnd Hinit Hmem Hpar].
  rewrite body_texts, <- texts_app. set (d := (map _ fs ++ extra)%list).
  assert (Hmf : map fst (map (fun at_ => (fst at_, doc false (snd at_))) fs) = map fst fs) by (rewrite map_map; reflexivity).
  assert (Hname : forall a, In a (map fst fs) -> attribute_name a).
  { intros a Ha. apply Hfs in Ha. rewrite Hat in Ha. apply in_map_iff in Ha as (p & <- & Hp). now apply Hpar. }
  assert (Hdn : NoDup (map fst d)).
  { unfold d. rewrite map_app, Hmf. destruct Hex as [->|(m & ->)]; [now rewrite app_nil_r|]. cbn [map fst].
    apply NoDup_rev in Hnf. rewrite <- (rev_involutive (map fst fs ++ ["-meta"])). apply NoDup_rev.
    rewrite rev_app_distr. cbn [rev app]. constructor; [|exact Hnf]. rewrite <- in_rev. intros Hin. apply Hname in Hin. discriminate. }
  assert (Hdd : forall a t, In (a, t) fs -> In (a, doc false t) d).
  { intros a t Hin. unfold d. apply in_or_app. left. apply in_map_iff. exists (a, t). auto. }
  unfold deser_object. cbn [cid_of obj_items]. rewrite bind_lift_ok. cbv zeta.
  assert (Hren : match lo_kt lo with Some gt => transform_keys CT gt (texts d) [] | None => Ok (texts d) end = Ok (texts d)).
  { destruct (lo_kt lo) as [gt|]; [|reflexivity]. rewrite transform_ext by (intros k; now apply Hkt). apply transform_id.
    split; [intros k x Hin; apply texts_In in Hin as (s & -> & _); eauto|].
    rewrite texts_keys. apply FinFun.Injective_map_NoDup; [congruence|exact Hdn]. }
  rewrite Hren, bind_lift_ok, Hge. set (hints := match lo_hints lo with Some h => h | None => [] end) in *.
  assert (Hlen : length (ci_params (CT c)) = length (map snd attrs)).
  { rewrite map_length, <- (map_length fst attrs), Hat. now rewrite map_length. }
  assert (Hargs : snd (constructor_args E (load E n) g (set_getters [] lo) hints (texts d) [] (ci_params (CT c))) = Done attrs).
  { assert (Hattrs : attrs = combine (map pa_name (ci_params (CT c))) (map snd attrs)) by (rewrite <- Hat; symmetry; apply combine_split').
    rewrite Hattrs at 1. generalize (map snd attrs) Hlen Hv. clear Hlen Hv. clear Hattrs.
    assert (Hfind : forall p, In p (ci_params (CT c)) -> exists t, In (pa_name p, t) fs).
    { intros p Hp. assert (Ha : In (pa_name p) (map fst fs)) by (apply Hfs; rewrite Hat; now apply in_map).
      apply in_map_iff in Ha as ([a t] & Ha & Hin). cbn [fst] in Ha. subst a. eauto. }
    revert Hfind. generalize (ci_params (CT c)). induction l as [|p ps IH]; intros Hfind [|x xs] Hlen Hv; try discriminate; [reflexivity|].
    cbn [constructor_args map combine]. destruct (Hfind p (or_introl eq_refl)) as (t & Ht).
    apply bind_done. exists (Some x). split.
    - unfold value_for_attr. rewrite texts_get, (sget_NoDup _ _ _ Hdn (Hdd _ _ Ht)). apply bind_done. exists x.
      split; [|reflexivity]. apply (Hv p x t); [now left|exact Ht].
    - apply bind_done. exists (combine (map pa_name ps) xs). split; [|reflexivity]. apply IH.
      + intros q Hq. apply Hfind. now right.
      + now injection Hlen.
      + intros q y t' Hq. apply Hv. now right. }
  apply bind_done. exists attrs. split; [exact Hargs|].
  assert (Hrem : remaining_args (lo_strict lo) (texts d) attrs = Ok []).
  { unfold remaining_args.
    assert (Hfil : filter (fun kv => negb (has_arg (fst kv) attrs) && negb (py_eqb (VStr "-meta") (fst kv))) (texts d) = []); [|now rewrite Hfil].
    assert (G : forall l : list (value * value), (forall kv, In kv l -> negb (has_arg (fst kv) attrs) && negb (py_eqb (VStr "-meta") (fst kv)) = false) ->
               filter (fun kv => negb (has_arg (fst kv) attrs) && negb (py_eqb (VStr "-meta") (fst kv))) l = []).
    { induction l as [|kv l IHl]; intros H; [reflexivity|]. cbn [filter]. rewrite (H kv) by now left. apply IHl. intros; apply H; now right. }
    apply G. intros [k x] Hin. apply texts_In in Hin as (s & -> & Hin). cbn [fst]. unfold d in Hin. apply in_app_or in Hin as [Hin|Hin].
    - apply (in_map fst) in Hin. rewrite Hmf in Hin. cbn [fst] in Hin. apply Hfs in Hin.
      assert (Hh : has_arg (VStr s) attrs = true); [|now rewrite Hh].
      cbn [has_arg]. unfold shas, amem. destruct (aget String.eqb s attrs) eqn:Hg; [reflexivity|].
      change (sget s attrs = None) in Hg. apply sget_None in Hg. contradiction.
    - destruct Hex as [->|(m & ->)]; [destruct Hin|]. destruct Hin as [Hin|[]]. injection Hin as <- _. now rewrite andb_false_r. }
  rewrite Hrem, bind_lift_ok. apply bind_done. exists tt. split; [reflexivity|].
  rewrite (Hinit attrs Hat), bind_lift_ok. reflexivity.
Qed.
(** One attribute *)
Lemma leaf_attr n lo hs p x t j : dictless_defaults CT -> lax_hints lo -> dictless j = true -> loads_as E g n t j x -> pa_hint p = Some t ->
  sget ("/" ++ pa_name p) hs = None ->
  snd (value_from_obj E (load E n) g lo (texts hs) p j) = Done x.
Proof.
  intros Hdef Hlo Hj Hl Hp Hs. unfold value_from_obj. rewrite texts_get, Hs. cbn [lift]. rewrite bind_ret_l. cbn [fst snd determine_precedence].
  rewrite Hp. rewrite load_hints by assumption. rewrite <- (load_hints E g None Hdef n lo _ _ Hj). now apply Hl.
Qed.
Lemma node_attr n lo hs p x c fs : lax_hints lo -> loads_inner n c (TNd (ci_name (CT c)) fs) x ->
  e_resolve E g (ci_name (CT c)) = Ok (TClass c) ->
  sget ("/" ++ pa_name p) hs = Some (VStr (ci_name (CT c))) ->
  serves (shift ("/" ++ pa_name p) hs []) (TNd (ci_name (CT c)) fs) ->
  snd (value_from_obj E (load E n) g lo (texts hs) p (doc false (TNd (ci_name (CT c)) fs))) = Done x.
Proof.
  intros Hlo Hl Hr Hs Hsv. unfold value_from_obj. rewrite texts_get, Hs.
  assert (Ht : truthy (e_rt E) (VStr (ci_name (CT c))) = true).
  { unfold ci_name. destruct (ci_module (CT c)); reflexivity. }
  rewrite Ht, Hr. cbn [rbind]. change (shift_hints ("/" ++ pa_name p) (texts hs) []) with (shift_hints ("/" ++ pa_name p) (texts hs) (texts [])).
  rewrite texts_shift. cbn [rbind]. rewrite bind_lift_ok. cbn [fst snd determine_precedence].
  apply (Hl _ (shift ("/" ++ pa_name p) hs [])); [exact Hlo|reflexivity|exact Hsv].
Qed.

(** ** The whole tree *)
Definition parts (n c : nat) (attrs : list (string * value)) (fs : list (string * tdoc)) : Prop :=
  (forall o', near_exact o' -> same_selection o o' -> (so_class_info o' = false -> so_dump_time o' = false) ->
     attrs_dump n c attrs o' fs) /\
  (resolves E g (VObj c attrs) ->
   forall lo hs p x t, lax_hints lo -> serves hs (TNd (ci_name (CT c)) fs) ->
     In (p, x) (combine (ci_params (CT c)) (map snd attrs)) -> In (pa_name p, t) fs ->
     snd (value_from_obj E (load E n) g lo (texts hs) p (doc false t)) = Done x).
Lemma parts_dump n c attrs fs cls :
  node_like CT o c -> map fst attrs = map pa_name (ci_params (CT c)) ->
  map fst fs = sort_names (map pa_name (ci_params (CT c))) -> parts n c attrs fs ->
  serializer E f cls (VObj c attrs) = Some SObject -> dumps_inner (S n) cls (VObj c attrs) fs.
Proof.
  intros HR Hat Hfs [Hp _] Hs o' He Hsel Hst Htime.
  rewrite (object_dump n c attrs fs o' cls HR He Hsel Hat Hfs Hs) by (apply Hp; auto).
  rewrite Hst. destruct (so_class_info o') eqn:Hc; [reflexivity|].
  unfold dict_with_meta. rewrite Hc, Htime by reflexivity. reflexivity.
Qed.
Lemma no_meta_body fs : (forall a, In a (map fst fs) -> attribute_name a) -> dget (VStr "-meta") (body false fs) = None.
Proof.
  intros H. rewrite body_texts, texts_get. apply sget_None. rewrite map_map. cbn [fst]. intros Hin. apply H in Hin. discriminate.
Qed.
Lemma validate_ok t v : accepts E g t v -> validate E g v t = Ok tt.
Proof. unfold accepts, validate. destruct (e_validator E g t); [now intros ->|reflexivity]. Qed.
Lemma parts_load n c attrs fs :
  node_like CT o c -> map fst attrs = map pa_name (ci_params (CT c)) ->
  NoDup (map fst fs) -> (forall a, In a (map fst fs) <-> In a (map fst attrs)) ->
  accepts E g (TClass c) (VObj c attrs) -> resolves E g (VObj c attrs) -> parts n c attrs fs ->
  loads_inner (S n) c (TNd (ci_name (CT c)) fs) (VObj c attrs).
Proof.
  intros HR Hat Hnf Hfs Ha Hres [_ Hp] lo hs Hlo Hh Hsv.
  assert (Hname : forall a, In a (map fst fs) -> attribute_name a).
  { intros a Hin. apply Hfs in Hin. rewrite Hat in Hin. apply in_map_iff in Hin as (p & <- & Hin). now apply HR. }
  cbn [doc]. fold (body false fs). rewrite app_nil_r. cbn [load]. unfold load_step. cbn [is_none]. rewrite bind_ret_l.
  cbn [same_type class_of]. change (ty_eqb (TApp false HDict []) (TClass c)) with false. rewrite andb_false_r. cbn [orb].
  cbn [lift]. rewrite bind_ret_l. cbn [valid_type negb get_cls_and_meta]. rewrite (no_meta_body fs Hname). cbn [lift]. rewrite bind_ret_l.
  cbn [fst snd]. replace (determine_precedence (Some (TClass c)) None (Some (TApp false HDict [])) (lo_inferred lo)) with (Some (TClass c))
    by (unfold determine_precedence; now destruct (lo_inferred lo)).
  cbn iota. rewrite HD, (deser_object_class CT c) by apply HR. rewrite Hh.
  unfold wrap_deser. apply try_done. left. apply bind_done. exists (VObj c attrs).
  split; [|rewrite (validate_ok _ _ Ha), bind_lift_ok; reflexivity].
  cbn [deser_step]. replace (body false fs) with (body false fs ++ texts [])%list by apply app_nil_r.
  set (lo' := set_inferred _ _).
  destruct Hlo as (_ & Hge & Hkt & Hen).
  apply object_deser; auto.
  intros p x t Hin Ht. change (lo_hints lo') with (Some (texts hs)). cbn iota. apply Hp; auto.
  split; [now left|]. split; [reflexivity|]. split; [exact Hkt|exact Hen].
Qed.
Definition serves_at (hs : list (string * value)) (a : string) (t : tdoc) : Prop :=
  match t with
  | TLf _ => sget ("/" ++ a) hs = None
  | TNd n' _ => sget ("/" ++ a) hs = Some (VStr n') /\ serves (shift ("/" ++ a) hs []) t
  end.
Lemma serves_attr hs n fs a t : serves hs (TNd n fs) -> In (a, t) fs -> serves_at hs a t.
Proof.
  intros H Hin. inversion H as [|? ? ? H1 H2 H3]; subst. destruct t; cbn [serves_at]; [now apply (H1 _ j)|].
  split; [now apply (H2 _ _ fs0)|now apply H3].
Qed.
Definition attr_part (n c : nat) (p : param) (x : value) (t : tdoc) : Prop :=
  (forall o', near_exact o' -> same_selection o o' -> (so_class_info o' = false -> so_dump_time o' = false) ->
     exists d, snd (dump E f n (inner_opts o') (attr_hint (CT c) (pa_name p)) x) = Done d /\
               store_cls_info E (so_class_info o') d x = doc (so_class_info o') t) /\
  (resolves E g x -> forall lo hs, lax_hints lo -> serves_at hs (pa_name p) t ->
     snd (value_from_obj E (load E n) g lo (texts hs) p (doc false t)) = Done x).
Lemma near_inner o' : near_exact o' -> near_exact (inner_opts o').
Proof. intros H. apply near_attr in H. exact H. Qed.
Lemma store_flat b j x : dictless j = true -> store_cls_info E b j x = j.
Proof. destruct j; try discriminate; reflexivity. Qed.
Definition good_tree (v : value) : Prop := exists c attrs fs N, v = VObj c attrs /\ node_like CT o c /\
  map fst attrs = map pa_name (ci_params (CT c)) /\
  accepts E g (TClass c) v /\ map fst fs = sort_names (map pa_name (ci_params (CT c))) /\
  shape CT v (TNd (ci_name (CT c)) fs) /\ fine (TNd (ci_name (CT c)) fs) /\
  forall n, N <= n -> parts n c attrs fs.
Lemma choose_docs {A} (P : nat -> A -> tdoc -> Prop) (Q : A -> tdoc -> Prop) (l : list A) :
  (forall a, In a l -> exists t N, Q a t /\ forall n, N <= n -> P n a t) ->
  exists ts N, length l = length ts /\ (forall a t, In (a, t) (combine l ts) -> Q a t /\ forall n, N <= n -> P n a t).
Proof.
  induction l as [|a l IH]; intros H.
  - exists [], 0. split; [reflexivity|]. intros a t [].
  - destruct (H a (or_introl eq_refl)) as (t & N1 & Hq & Hp). destruct IH as (ts & N2 & Hlen & IH); [intros; apply H; now right|].
    exists (t :: ts), (Nat.max N1 N2). split; [cbn; congruence|]. intros a' t' [Heq|Hin].
    + injection Heq as <- <-. split; [exact Hq|]. intros n Hn. apply Hp. lia.
    + destruct (IH _ _ Hin) as [H1 H2]. split; [exact H1|]. intros n Hn. apply H2. lia.
Qed.
Lemma combine_names p (x : value) (ps : list param) : forall xs, In (p, x) (combine ps xs) -> In (pa_name p, x) (combine (map pa_name ps) xs).
Proof.
  induction ps as [|q ps IH]; intros [|y xs] H; try (now destruct H). cbn [map combine] in *.
  destruct H as [Heq|H]; [injection Heq as -> ->; now left|right; now apply IH].
Qed.
Theorem tree_good (Hdef : dictless_defaults CT) v : tree E g o v -> good_tree v.
Proof.
  revert v. fix IHt 2. intros v [c attrs HR Hat Hparts Hacc].
  set (ps := ci_params (CT c)) in *. set (xs := map snd attrs) in *.
  assert (Hattrs : attrs = combine (map pa_name ps) xs) by (rewrite <- Hat; symmetry; apply combine_split').
  assert (Hlen : length ps = length xs).
  { unfold xs. rewrite map_length. rewrite <- (map_length fst attrs), Hat. now rewrite map_length. }
  assert (Hone : forall p x, In (p, x) (combine ps xs) -> exists t N, (shape CT x t /\ fine t) /\ forall n, N <= n -> attr_part n c p x t).
  { intros p x Hin. destruct (Hparts p x Hin) as [(Hflat & t & Hpt & Hty & Hh)|(Htree & Hh)].
    - destruct (has_type_passes E f g o HS HD t x Hty) as (j & _ & [_ Hfit] & N & HN).
      specialize (Hfit Hflat). exists (TLf j), N. split; [split; now constructor|]. intros n Hn. destruct (HN n Hn) as [Hd Hl]. split.
      + intros o' He Hsel _. exists j. split; [|now apply store_flat].
        apply Hd; [now apply near_inner|now right|exact Hsel|exact Hh].
      + intros _ lo hs Hlo Hs. now apply (leaf_attr n lo hs p x t j).
    - destruct (IHt x Htree) as (c' & attrs' & fs' & N & -> & HR' & Hat' & Hacc' & Hfs' & Hsh' & Hfine' & HN).
      clear IHt. set (T := TNd (ci_name (CT c')) fs') in *.
      assert (Hd : exists N', forall n, N' <= n -> dumps_inner n (attr_hint (CT c) (pa_name p)) (VObj c' attrs') fs').
      { assert (Hd0 : forall n cls, S N <= n -> serializer E f cls (VObj c' attrs') = Some SObject -> dumps_inner n cls (VObj c' attrs') fs').
        { intros [|n] cls Hn Hs; [lia|]. apply parts_dump; auto. apply HN. lia. }
        destruct Hh as [-> |(t & -> & Ht)].
        - exists (S N). intros n Hn. apply Hd0; [exact Hn|]. unfold serializer. cbn [tyof class_of]. rewrite HS.
          apply ser_object_class; apply HR'.
        - apply hint_dumps with (S N); auto. apply HR'. }
      destruct Hd as (N' & Hd). exists T, (Nat.max (S N) N'). split; [auto|]. intros n Hn. split.
      + intros o' He Hsel Htime. exists (VDict DkDict (body (so_class_info o') fs')). split.
        * apply (Hd n ltac:(lia) (inner_opts o')); [now apply near_inner|exact Hsel|reflexivity|exact Htime].
        * cbn [store_cls_info type_name_of doc T]. fold (body (so_class_info o') fs').
          destruct (so_class_info o'); [|now rewrite app_nil_r]. f_equal.
          apply dset_new. unfold body. rewrite map_map. cbn [fst]. intros Hk. apply in_map_iff in Hk as ([a t] & Ha & Hk).
          injection Ha as Ha. cbn [fst] in Ha. subst a. inversion_clear Hfine' as [|? ? _ Hf]. destruct (Hf _ _ Hk) as [Hname _]. discriminate.
      + intros Hres lo hs Hlo [Hs1 Hs2]. apply (node_attr n lo hs p (VObj c' attrs') c' fs'); auto; [|now apply (Hres [] c' attrs'); constructor].
        destruct n as [|n]; [lia|]. inversion_clear Hsh' as [|? ? ? Hn1 Hn2 Hi Hsx]. apply parts_load; auto. apply HN. lia. }
  clear IHt. set (names := sort_names (map pa_name ps)).
  assert (Hnames : forall a, In a names <-> In a (map pa_name ps)) by (intros a; apply sort_names_In).
  assert (Hndn : NoDup names) by (apply sorted_NoDup, sort_names_sorted).
  assert (Hnd : NoDup (map pa_name ps)) by apply HR.
  assert (HP : forall a, In a names -> exists p x, In p ps /\ In (p, x) (combine ps xs) /\ a = pa_name p /\ sget a attrs = Some x).
  { intros a Hin. apply Hnames in Hin. apply in_map_iff in Hin as (p & <- & Hp).
    destruct (combine_In ps xs p Hlen Hp) as (x & Hx). exists p, x. repeat (split; [assumption || reflexivity|]).
    rewrite Hattrs. now apply sget_combine. }
  destruct (choose_docs (fun n a t => forall p x, In (p, x) (combine ps xs) -> pa_name p = a -> attr_part n c p x t)
                        (fun a t => forall p x, In (p, x) (combine ps xs) -> pa_name p = a -> shape CT x t /\ fine t) names)
    as (ts & N & Hl & Hts).
  { intros a Ha. destruct (HP a Ha) as (p & x & Hp & Hpx & -> & Hg). destruct (Hone p x Hpx) as (t & N & Hq & HN).
    assert (Huniq : forall p' x', In (p', x') (combine ps xs) -> pa_name p' = pa_name p -> p' = p /\ x' = x).
    { intros p' x' Hin' Heq. pose proof (in_combine_l _ _ _ _ Hin') as Hp'.
      assert (Heqp : p' = p).
      { clear - Hnd Hp Hp' Heq. induction ps as [|q ps IH]; [destruct Hp|]. cbn [map] in Hnd. inversion Hnd as [|? ? Hni Hnd']; subst.
        destruct Hp as [<-|Hp], Hp' as [<-|Hp']; auto.
        - elim Hni. rewrite <- Heq. now apply in_map.
        - elim Hni. rewrite Heq. now apply in_map. }
      subst p'. split; [reflexivity|]. pose proof (sget_combine pa_name ps xs p x' Hnd Hin') as H1.
      rewrite <- Hattrs in H1. congruence. }
    exists t, N. split.
    - intros p' x' Hin' Heq. destruct (Huniq p' x' Hin' Heq) as [-> ->]. exact Hq.
    - intros n Hn p' x' Hin' Heq. destruct (Huniq p' x' Hin' Heq) as [-> ->]. now apply HN. }
  set (fs := combine names ts). assert (Hfst : map fst fs = names) by now apply combine_fst.
  assert (Hfa : forall a, In a (map fst fs) <-> In a (map fst attrs)) by (intros a; rewrite Hfst, Hat; apply Hnames).
  assert (Hnda : NoDup (map fst attrs)) by now rewrite Hat.
  assert (Hpair : forall a x, In (a, x) attrs -> exists p, In (p, x) (combine ps xs) /\ pa_name p = a).
  { intros a x Hin. assert (Ha : In a names) by (apply Hnames; rewrite <- Hat; apply in_map_iff; now exists (a, x)).
    destruct (HP a Ha) as (p & x' & _ & Hpx & -> & Hg). rewrite (sget_NoDup _ _ _ Hnda Hin) in Hg. injection Hg as ->. eauto. }
  exists c, attrs, fs, N. split; [reflexivity|]. split; [exact HR|]. split; [exact Hat|].
  split; [exact Hacc|]. split; [exact Hfst|]. split; [|split].
  - constructor; auto; [now rewrite Hfst|]. intros a x t Hx Ht. destruct (Hpair a x Hx) as (p & Hpx & Hpa).
    now apply (proj1 (Hts a t Ht) p x).
  - constructor; [now rewrite Hfst|]. intros a t Ht. assert (Ha : In a names) by (rewrite <- Hfst; apply in_map_iff; now exists (a, t)).
    destruct (HP a Ha) as (p & x & Hp & Hpx & -> & _). destruct HR as [_ _ _ _ _ _ _ Hpar].
    destruct (Hpar p Hp) as (_ & H1 & H2 & H3 & _). split; [exact H1|]. split; [split; assumption|].
    now apply (proj1 (Hts _ t Ht) p x).
  - intros n Hn. split.
    + intros o' He Hsel Htime a t Ht. assert (Ha : In a names) by (rewrite <- Hfst; apply in_map_iff; now exists (a, t)).
      destruct (HP a Ha) as (p & x & Hp & Hpx & -> & Hg).
      destruct (proj2 (Hts _ t Ht) n Hn p x Hpx eq_refl) as [Hd _]. destruct (Hd o' He Hsel Htime) as (d & H1 & H2).
      exists x, d. auto.
    + intros Hres lo hs p x t Hlo Hsv Hpx Ht. destruct (proj2 (Hts _ t Ht) n Hn p x Hpx eq_refl) as [_ Hv].
      apply Hv; [|exact Hlo|eapply serves_attr; eassumption]. intros q c' attrs' Hq. apply (Hres (pa_name p :: q) c' attrs').
      apply part_attr with x; [|exact Hq]. rewrite Hattrs. now apply combine_names.
Qed.
End Verbose.
