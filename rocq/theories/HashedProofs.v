(** * Dicts with arbitrary keys: proofs *)
From Verif Require Import PyBaseFacts EngineFacts DumpProofs DumpLaws LoadFacts LoadLaws LoadTypes RoundTripProofs RoundTripLaws.
From Verif Require Export HashedFacts.
Local Close Scope Z_scope.
Local Open Scope string_scope.

(** ** Loading *)
Section Load.
Variables (E : env) (g : nat).
Hypothesis HD : default_deserializers E g.

Lemma hashed_go_perm n lo tk : exact_load lo -> forall es loaded rest result sec,
  Permutation result (map (fun e => (fst (fst e), snd e)) es ++ (VStr "-keys", sec) :: rest) ->
  Forall2 (fun e k => always_loads E n g tk (snd (fst e)) k) es loaded ->
  distinct (keys result ++ loaded) -> forallb (hashable (e_ct E)) loaded = true ->
  exists r, snd (hashed_go E (load E n) g lo tk (map fst es) result) = Done r /\
    Permutation r (combine loaded (map snd es) ++ rest).
Proof.
  intros He. induction es as [|[[h kj] x] es IH]; intros loaded rest result sec HP HF Hd Hh.
  - inversion HF; subst. cbn [map app combine] in *. rewrite app_nil_r in Hd. exists (ddel (VStr "-keys") result). split.
    + cbn [hashed_go]. unfold dhas, amem. fold (dget (VStr "-keys") result).
      rewrite (dget_distinct result (VStr "-keys") sec Hd); [reflexivity|].
      apply Permutation_in with ((VStr "-keys", sec) :: rest); [now apply Permutation_sym|now left].
    + now apply ddel_perm with sec.
  - inversion HF as [|? k ? ks Hk HF']; subst. cbn [map app combine fst snd] in *.
    cbn [forallb] in Hh. apply andb_true_iff in Hh as [Hhk Hh].
    assert (Hd0 : distinct (keys result)).
    { now apply distinct_app_l in Hd. }
    destruct (distinct_app_mid _ _ _ Hd) as [Hfr Hd'].
    assert (Hfresh : forall k', In k' (keys result) -> py_eqb k k' = false) by (intros; apply Hfr, in_or_app; now left).
    assert (Hnk : py_eqb (VStr "-keys") k = false).
    { rewrite py_eqb_sym. apply Hfresh. apply (in_map fst _ (VStr "-keys", sec)).
      apply Permutation_in with (1 := Permutation_sym HP). right. apply in_or_app. right. now left. }
    assert (Hg : dget h result = Some x).
    { apply dget_distinct; [exact Hd0|]. apply Permutation_in with (1 := Permutation_sym HP). now left. }
    pose proof (dset_perm result k x Hfresh) as HP1.
    assert (HP2 : Permutation (ddel h (dset k x result)) ((k, x) :: map (fun e => (fst (fst e), snd e)) es ++ (VStr "-keys", sec) :: rest)).
    { apply ddel_perm with x.
      - apply distinct_perm with (keys ((k, x) :: result)); [apply Permutation_map; now apply Permutation_sym|].
        now apply distinct_cons.
      - rewrite HP1, HP. apply perm_swap. }
    destruct (IH ks ((k, x) :: rest) (ddel h (dset k x result)) sec) as (r & Hr & HPr); auto.
    + rewrite HP2. rewrite Permutation_middle. apply Permutation_app_head. apply perm_swap.
    + apply distinct_perm with (l := (keys (map (fun e => (fst (fst e), snd e)) es ++ (VStr "-keys", sec) :: rest) ++ k :: ks)%list).
      { apply Permutation_sym.
        transitivity (keys ((k, x) :: map (fun e => (fst (fst e), snd e)) es ++ (VStr "-keys", sec) :: rest) ++ ks)%list.
        - apply Permutation_app_tail. now apply Permutation_map.
        - cbn [map fst app]. apply Permutation_middle. }
      assert (Hdc : distinct (h :: keys (map (fun e => (fst (fst e), snd e)) es ++ (VStr "-keys", sec) :: rest) ++ k :: ks)).
      { apply distinct_perm with (2 := Hd). apply (Permutation_map fst) in HP. exact (Permutation_app_tail (k :: ks) HP). }
      now inversion Hdc.
    + exists r. split.
      * cbn [hashed_go]. apply bind_done. exists k. split; [now apply Hk|]. rewrite Hg, Hhk, Hnk. cbn [andb negb]. exact Hr.
      * rewrite HPr. apply Permutation_sym. apply Permutation_middle.
Qed.
Lemma deser_values n ok ov gt t : exact_load ov -> (forall k, gt k = Ok k) ->
  forall docs d acc,
  Forall2 (fun r r' => fst r = fst r' /\ always_loads E n g t (snd r) (snd r')) docs d ->
  forallb (hashable (e_ct E)) (keys d) = true -> distinct (keys (acc ++ d)) ->
  snd (deser_dict_go E (load E n) g ok ov gt None (Some t) docs acc) = Done (acc ++ d)%list.
Proof.
  intros Hov Hgt docs d acc H. revert acc.
  induction H as [|[k' j] [k x] docs d [Hk Hx] H IH]; intros acc Hh Hn.
  - cbn. now rewrite app_nil_r.
  - cbn [fst snd map forallb] in *. subst k'. apply andb_true_iff in Hh as [Hhk Hh].
    cbn [deser_dict_go]. rewrite Hgt. cbn [lift]. rewrite !bind_ret_l.
    apply bind_done. exists x. split; [now apply Hx|]. rewrite Hhk.
    assert (Hs : forall k', In k' (keys acc) -> py_eqb k k' = false).
    { rewrite map_app in Hn. cbn [map fst] in Hn. apply distinct_app_mid in Hn as [Hn _].
      intros k' Hin. apply Hn, in_or_app. now left. }
    rewrite (dset_fresh k x acc Hs). rewrite IH; [now rewrite <- app_assoc|exact Hh|now rewrite <- app_assoc].
Qed.
Definition loaded_pairs (es : list (value * value * value)) (loaded : list (value * value)) n tk t : Prop :=
  Forall2 (fun e kx => always_loads E n g tk (snd (fst e)) (fst kx) /\ always_loads E n g t (snd e) (snd kx)) es loaded.
Lemma forallb_perm {A} (p : A -> bool) l l' : Permutation l l' -> forallb p l = forallb p l'.
Proof.
  intros H. apply eq_true_iff_eq. rewrite !forallb_forall. split; intros HH x Hin; apply HH.
  - apply Permutation_in with l'; [now apply Permutation_sym|exact Hin].
  - now apply Permutation_in with l.
Qed.
Lemma Forall2_perm_l {A B} (P : A -> B -> Prop) l1 l1' l2 : Permutation l1 l1' -> Forall2 P l1 l2 ->
  exists l2', Permutation l2 l2' /\ Forall2 P l1' l2'.
Proof. intros HP HF. now apply (Permutation_Forall2 HP). Qed.
Lemma hashed_deser n lo tk t es rest doc kd loaded rest' :
  exact_load lo -> hashed_document es rest doc -> es <> [] ->
  loaded_pairs es loaded n tk t ->
  Forall2 (fun r r' => fst r = fst r' /\ always_loads E n g t (snd r) (snd r')) rest rest' ->
  distinct (keys doc ++ keys loaded) -> forallb (hashable (e_ct E)) (keys (loaded ++ rest')) = true ->
  exists d', Permutation (loaded ++ rest') d' /\
    snd (deser_dict E (load E n) g lo [tk; t] (VDict kd doc)) = Done d'.
Proof.
  intros He (k & sec & HPd & HPs) Hne HL HR Hd Hh.
  assert (Hd0 : distinct (keys doc)).
  { now apply distinct_app_l in Hd. }
  (* the order of the section *)
  destruct (Permutation_map_inv _ _ HPs) as (es' & Hsec & HPe).
  destruct (Forall2_perm_l _ _ _ _ HPe HL) as (loaded' & HPl & HL').
  assert (HPd' : Permutation doc (map (fun e => (fst (fst e), snd e)) es' ++ (VStr "-keys", VDict k sec) :: rest)).
  { rewrite HPd. apply Permutation_app_tail. now apply Permutation_map. }
  destruct (hashed_go_perm n lo tk He es' (keys loaded') rest doc (VDict k sec)) as (r & Hr & HPr); auto.
  { clear -HL'. induction HL' as [|e kx es l [H1 H2] HL IH]; constructor; auto. }
  { apply distinct_perm with (2 := Hd). apply Permutation_app_head. now apply Permutation_map. }
  { rewrite <- (forallb_perm (hashable (e_ct E)) (keys loaded)) by now apply Permutation_map.
    rewrite map_app, forallb_app in Hh. now apply andb_true_iff in Hh. }
  rewrite <- Hsec in Hr.
  assert (Hg : dget (VStr "-keys") doc = Some (VDict k sec)).
  { apply dget_distinct; [exact Hd0|]. apply Permutation_in with (1 := Permutation_sym HPd). apply in_or_app. right. now left. }
  assert (HF : Forall2 (fun r r' => fst r = fst r' /\ always_loads E n g t (snd r) (snd r'))
                 (combine (keys loaded') (map snd es') ++ rest) (loaded' ++ rest')).
  { apply Forall2_app; [|exact HR]. clear -HL'. induction HL' as [|e [k x] es l [H1 H2] HL IH]; cbn; constructor; auto. }
  destruct (Forall2_perm_l _ _ _ _ (Permutation_sym HPr) HF) as (d' & HP' & HF').
  assert (HPd2 : Permutation (loaded ++ rest') d').
  { rewrite <- HP'. now apply Permutation_app_tail. }
  exists d'. split; [exact HPd2|].
  unfold deser_dict, load_hashed_keys. rewrite Hg. cbn [py_iter lift].
  rewrite !bind_ret_l.
  destruct sec as [|s0 sec].
  { destruct es' as [|? ?]; [|discriminate]. apply Permutation_sym, Permutation_nil in HPe. now elim Hne. }
  cbn [map]. set (sec' := s0 :: sec) in *.
  apply bind_done. exists (r, true). split; [apply bind_done; exists r; split; [exact Hr|reflexivity]|].
  cbn [fst snd].
  assert (Hid : forall k0, (match lo_kt lo with Some gt => gt | None => fun k => Ok k end) k0 = Ok k0).
  { intros k0. destruct He as (_ & _ & Hgt & _). destruct (lo_kt lo) as [gt|]; [now apply Hgt|reflexivity]. }
  apply (deser_values n _ _ _ t) with (acc := []); auto.
  - now apply exact_set_kt.
  - rewrite <- (forallb_perm (hashable (e_ct E)) (keys (loaded ++ rest'))) by (now apply Permutation_map). exact Hh.
  - cbn [app]. apply distinct_perm with (keys (loaded ++ rest')); [now apply Permutation_map|].
    assert (Hkr : keys rest' = keys rest) by (clear -HR; induction HR as [|a b ? ? [H _] HR IH]; cbn; [reflexivity|now rewrite IH, H]).
    rewrite map_app, Hkr.
    assert (Hdd : distinct ((keys (map (fun e => (fst (fst e), snd e)) es) ++ VStr "-keys" :: keys rest) ++ keys loaded)).
    { apply distinct_perm with (2 := Hd). apply Permutation_app_tail. apply (Permutation_map fst) in HPd. rewrite map_app in HPd. exact HPd. }
    rewrite <- app_assoc in Hdd. apply distinct_app_r in Hdd. cbn [app] in Hdd. apply (distinct_app_r [_]) in Hdd.
    apply distinct_perm with (2 := Hdd). apply Permutation_app_comm.
Qed.
Lemma doc_no_meta doc : (forall k, In k (keys doc) -> k <> VStr "-meta") -> no_meta_entry (VDict DkDict doc).
Proof. intros H k d x [= <- <-] Hin. apply (in_map fst) in Hin. now apply (H _ Hin). Qed.
Lemma hashed_load b h tk t es rest doc loaded rest' m lo :
  exact_load lo -> hashed_document es rest doc -> es <> [] ->
  (forall n, m <= n -> loaded_pairs es loaded n tk t) ->
  (forall n, m <= n -> Forall2 (fun r r' => fst r = fst r' /\ always_loads E n g t (snd r) (snd r')) rest rest') ->
  (forall k, In k (keys doc) -> k <> VStr "-meta") ->
  distinct (keys doc ++ keys loaded) -> forallb (hashable (e_ct E)) (keys (loaded ++ rest')) = true ->
  (forall d' v', Permutation (loaded ++ rest') d' -> mapping_of h d' v' ->
     accepts E g (TApp b h [tk; t]) v' /\ (h = HDefaultDict -> accepts E g (TApp true HDict [tk; t]) (VDict DkDict d'))) ->
  (h = HDict \/ h = HMapping \/ h = HOrderedDict \/ h = HDefaultDict) ->
  forall n, S (S m) <= n ->
  exists d' v', Permutation (loaded ++ rest') d' /\ mapping_of h d' v' /\
    snd (load E n g lo (Some (TApp b h [tk; t])) (VDict DkDict doc)) = Done v'.
Proof.
  intros He Hdoc Hne HL HR Hm Hd Hh Ha Hhd [|n] Hn; [lia|].
  assert (Hcl : forall b' h', class_of (VDict DkDict doc) <> TApp b' h' [tk; t]) by (intros b' h'; discriminate).
  assert (HM : forall n' lo', m <= n' -> exact_load lo' ->
     exists d', Permutation (loaded ++ rest') d' /\ forall h' b', (h' = HDict \/ h' = HMapping \/ h' = HOrderedDict) ->
     snd (deser_step E (load E n') g lo' DMapping (TApp b' h' [tk; t]) (VDict DkDict doc)) =
      Done (VDict (match h' with HOrderedDict => DkOrdered | _ => DkDict end) d')).
  { intros n' lo' Hm' He'. destruct (hashed_deser n' lo' tk t es rest doc DkDict loaded rest') as (d' & HP & Hr); auto.
    exists d'. split; [exact HP|]. intros h' b' Hh'. cbn [deser_step]. unfold deser_mapping. cbn [get_args raw_args lift].
    rewrite bind_ret_l. apply bind_done. exists d'. split; [exact Hr|]. destruct Hh' as [-> |[-> | ->]]; reflexivity. }
  assert (HW : forall n' lo' b' h' hd d', exact_load lo' ->
     default_deser (e_ct E) (TApp b' h' [tk; t]) = Some hd ->
     snd (deser_step E (load E n') g (child_opts lo') hd (TApp b' h' [tk; t]) (VDict DkDict doc)) = Done d' ->
     accepts E g (TApp b' h' [tk; t]) d' ->
     snd (load E (S n') g lo' (Some (TApp b' h' [tk; t])) (VDict DkDict doc)) = Done d').
  { intros n' lo' b' h' hd d' He' Hhd' Hs Hacc.
    rewrite (load_run E n' g lo' (TApp b' h' [tk; t]) (VDict DkDict doc) hd I (doc_no_meta _ Hm)
               ltac:(discriminate) ltac:(reflexivity) (or_intror (Hcl b' h'))) by now rewrite HD.
    apply try_done. left. apply bind_done. exists d'. split; [exact Hs|].
    apply bind_done. exists tt. split; [|reflexivity]. apply lift_done. now apply validate_ok. }
  assert (HX : h = HDict \/ h = HMapping \/ h = HOrderedDict ->
     exists d' v', Permutation (loaded ++ rest') d' /\ mapping_of h d' v' /\
       snd (load E (S n) g lo (Some (TApp b h [tk; t])) (VDict DkDict doc)) = Done v').
  { intros Hh'. destruct (HM n (child_opts lo) ltac:(lia) (exact_child _ He)) as (d' & HP & Hr).
    exists d', (VDict (match h with HOrderedDict => DkOrdered | _ => DkDict end) d'). split; [exact HP|].
    assert (Hq : mapping_of h d' (VDict (match h with HOrderedDict => DkOrdered | _ => DkDict end) d'))
      by (destruct Hh' as [-> |[-> | ->]]; constructor).
    split; [exact Hq|]. apply HW with DMapping; auto.
    - rewrite deser_head. destruct Hh' as [-> |[-> | ->]]; reflexivity.
    - now apply (Ha d'). }
  destruct Hhd as [-> |[-> |[-> | ->]]]; auto.
  destruct n as [|n]; [lia|].
  destruct (HM n (child_opts (child_opts lo)) ltac:(lia) (exact_child _ (exact_child _ He))) as (d' & HP & Hr).
  exists d', (VDict DkDefault d'). split; [exact HP|]. split; [constructor|].
  destruct (Ha d' (VDict DkDefault d') HP (mo_default _)) as [Ha1 Ha2].
  apply HW with DDefaultDict; auto; [now rewrite deser_head|].
  cbn [deser_step]. unfold deser_defaultdict. cbn [get_args raw_args lift]. rewrite bind_ret_l.
  apply bind_done. exists (VDict DkDict d'). split; [|reflexivity].
  apply HW with DMapping; auto; [now apply exact_child|].
  rewrite Hr by now left. reflexivity.
Qed.
End Load.

(** ** Dumping *)
Section Dump.
Variables (E : env) (f g : nat) (o : sopts).
Hypothesis HS : default_serializers E f.

(** The dump of a compound key is a list or a dict. *)
Lemma list_shape n o' (v j : value) : snd (ser_iterable E f (serialize E f n) o' None v) = Done j -> exists l, j = VList l.
Proof.
  unfold ser_iterable. intros H. apply bind_done in H as (l & _ & H). apply bind_done in H as (c & _ & H).
  apply bind_done in H as (s & _ & H). apply bind_done in H as (r & _ & H). injection H as <-. eauto.
Qed.
Definition container (j : value) : Prop := (exists l, j = VList l) \/ (exists d, j = VDict DkDict d).
Lemma container_no_key j : container j -> json_key (e_ct E) j = false.
Proof. intros [[l ->]|[d ->]]; reflexivity. Qed.
Lemma class_no_key c v : user_supers (e_ct E c) -> class_of v = TClass c -> (forall m ms, ci_kind (e_ct E c) <> CkEnum m ms) ->
  json_key (e_ct E) v = false.
Proof.
  intros Hu Hv Hk.
  assert (HX : forall b, not_class b = true -> (forall t, In t (head_supers HTuple) -> ty_eqb b t = false) ->
     existsb (ty_eqb b) (supers (e_ct E) (class_of v)) = false).
  { intros b Hb Ht. rewrite Hv. cbn [supers existsb]. assert (ty_eqb b (TClass c) = false) as -> by (destruct b; (reflexivity || discriminate)).
    cbn [orb]. rewrite existsb_app, (existsb_user b _ Hb Hu), orb_false_r.
    destruct (ci_kind (e_ct E c)) as [|m ms|fs]; [reflexivity|now elim (Hk m ms)|].
    destruct (existsb (ty_eqb b) (head_supers HTuple)) eqn:He; [|reflexivity].
    apply existsb_exists in He as (t & Hin & Heq). rewrite (Ht t Hin) in Heq. discriminate. }
  apply no_json_key.
  - now rewrite Hv.
  - intros p. apply HX; [reflexivity|]. intros t Hin. cbn in Hin. repeat destruct Hin as [<-|Hin]; try reflexivity; destruct Hin.
  - apply HX; [reflexivity|]. intros t Hin. cbn in Hin. repeat destruct Hin as [<-|Hin]; try reflexivity; destruct Hin.
Qed.
Lemma tuple_shape n o' l j : snd (serialize E f (S n) o' (serializer E f None (VTuple l)) None (VTuple l)) = Done j ->
  json_key (e_ct E) (VTuple l) = false /\ container j.
Proof.
  assert (serializer E f None (VTuple l) = Some STuple) as ->
    by (unfold serializer; rewrite HS; cbn [tyof class_of]; now rewrite ser_head).
  cbn [serialize]. cbn [ser_step]. cbn [ser_tuple]. intros H. split; [reflexivity|]. left. now apply list_shape in H.
Qed.
Lemma compound_shape n o' k j t : near_exact o' -> quiet o' -> has_type E g o t k -> compound k ->
  snd (dump E f n o' None k) = Done j -> json_key (e_ct E) k = false /\ container j.
Proof.
  intros He Hq Ht Hc Hj. apply dump_done_iff in Hj. destruct n as [|n]; [discriminate|].
  induction Ht as [Ha|p v Hcl Ha|x Hx Ha|b h t l v Hsq Hd Hi IH Ha|b h tk t d v Hmq Hnd Htk Hk IHk Hi IH Hdd Ha
    |b ts l Hne Hel Hlen Hi IH Ha|b t l Hi IH Ha|pre t ts v Hpre Hv Hi IH Ha|ts Hin Hodd Hun H0 Ha
    |c m ms nm Hk Hor Hcan Ha|c fields l Hk Hor Hnd Hat Hlen Hnone Hh Hi IH Ha|c attrs HR Hat Hi IH Ha];
    try (now destruct Hc).
  - destruct v as [| | | | | | |[]|[]|x| | |]; try discriminate; try (now destruct Hc).
  - destruct x as [| | | | | | |re im| |key]; try (now destruct Hc).
    + assert (HZ : serializer E f None (VLeaf (LComplex re im)) = Some SComplex)
        by (unfold serializer; rewrite HS, default_ser_eq; vm_compute; reflexivity).
      rewrite HZ in Hj. cbn [serialize] in Hj. cbn [ser_step] in Hj. apply bind_done in Hj as (x & _ & Hj).
      apply bind_done in Hj as (y & _ & Hj). injection Hj as <-.
      split; [reflexivity|right; eexists; reflexivity].
    + assert (HZ : serializer E f None (VLeaf (LZone key)) = Some SZone)
        by (unfold serializer; rewrite HS, default_ser_eq; vm_compute; reflexivity).
      rewrite HZ in Hj. cbn [serialize] in Hj. cbn [ser_step] in Hj. apply bind_done in Hj as (x & _ & Hj). injection Hj as <-.
      split; [reflexivity|right; eexists; reflexivity].
  - destruct Hsq; try (now destruct Hc).
    assert (HZ : serializer E f None (VColl CFrozen l) = Some SIterable)
      by (unfold serializer; rewrite HS; cbn [tyof class_of]; now rewrite ser_head).
    rewrite HZ in Hj. cbn [serialize] in Hj. cbn [ser_step] in Hj. apply list_shape in Hj. split; [reflexivity|now left].
  - destruct Hmq; now destruct Hc.
  - now apply tuple_shape in Hj.
  - now apply tuple_shape in Hj.
  - auto.
  - split; [apply (class_no_key c); [apply Hor|reflexivity|intros m ms; rewrite Hk; discriminate]|].
    assert (HZ : serializer E f None (VNT c l) = Some STuple)
      by (unfold serializer; rewrite HS; cbn [tyof class_of]; now apply ser_namedtuple_class with fields).
    rewrite HZ in Hj. cbn [serialize] in Hj. cbn [ser_step] in Hj. cbn [ser_tuple] in Hj.
    assert (Hj' : snd (ser_namedtuple E f (serialize E f n) o' c (VNT c l)) = Done j) by exact Hj.
    unfold ser_namedtuple in Hj'. apply bind_done in Hj' as (r & _ & Hj'). injection Hj' as <-. right. eauto.
  - split; [apply (class_no_key c); [apply HR|reflexivity|intros m ms; rewrite (rl_kind _ _ _ HR); discriminate]|].
    assert (HZ : serializer E f None (VObj c attrs) = Some SObject).
    { unfold serializer. rewrite HS. cbn [tyof class_of]. destruct HR as [HK HO _ _ _ _ _ _]. now apply ser_object_class. }
    rewrite HZ in Hj. cbn [serialize] in Hj. cbn [ser_step] in Hj. unfold ser_object in Hj.
    apply bind_done in Hj as (at_ & _ & Hj). apply bind_done in Hj as (d & _ & Hj).
    destruct Hq as (Hq1 & Hq2 & Hq3). rewrite Hq3 in Hj. unfold dict_with_meta in Hj. rewrite Hq1, Hq2 in Hj. cbn in Hj.
    injection Hj as <-. right. eauto.
Qed.

(** The entries that are dumped: key, value, and their documents *)
Record ent := Ent { en_key : value; en_val : value; en_kdoc : value; en_doc : value }.
Definition compoundb (k : value) : bool :=
  match k with
  | VTuple _ | VNT _ _ | VObj _ _ | VColl CFrozen _ | VLeaf (LComplex _ _) | VLeaf (LZone _) => true
  | _ => false
  end.
Lemma compoundb_iff k : compoundb k = true <-> compound k.
Proof. destruct k as [| | | | | | |[]| |[]| | |]; cbn; split; intros; try discriminate; try tauto. Qed.
Definition name_of (e : ent) : value := stands_for E (en_key e).
Definition items (es : list ent) : list (value * value) := map (fun e => (name_of e, en_doc e)) es.
Definition hs (es : list ent) : list (value * value) :=
  map (fun e => (name_of e, en_kdoc e)) (filter (fun e => compoundb (en_key e)) es).
Definition stored (pre : list ent) (r : list (value * value)) : Prop :=
  (hs pre = [] /\ r = items pre) \/
  (hs pre <> [] /\ exists A B, items pre = (A ++ B)%list /\ r = (A ++ (VStr "-keys", VDict DkDict (hs pre)) :: B)%list).
Definition entry_dumps (n : nat) (o' : sopts) (v : value) (e : ent) : Prop :=
  py_getitem (e_ct E) v (en_key e) = Ok (en_val e) /\
  snd (dump E f n (no_types o') None (en_val e)) = Done (en_doc e) /\
  (if compoundb (en_key e)
   then json_key (e_ct E) (en_key e) = false /\ snd (dump E f n o' None (en_key e)) = Done (en_kdoc e) /\
        json_key (e_ct E) (en_kdoc e) = false
   else json_scalar_key (en_key e)).
Lemma stands_compound k : compoundb k = true -> stands_for E k = VInt (rt_hash (e_rt E) k).
Proof. destruct k as [| | | | | | |[]| |[]| | |]; cbn; congruence. Qed.
Lemma stands_scalar k : plain_scalar k -> stands_for E k = k.
Proof. destruct k; cbn; tauto. Qed.
Lemma name_no_section n o' v e : entry_dumps n o' v e ->
  py_eqb (VStr "-keys") (name_of e) = false /\ name_of e <> VStr "-meta" /\ hashable (e_ct E) (name_of e) = true.
Proof.
  intros (_ & _ & Hk). unfold name_of. destruct (compoundb (en_key e)) eqn:Hc.
  - rewrite (stands_compound _ Hc). split; [reflexivity|]. split; [discriminate|reflexivity].
  - destruct Hk as (Hp & Hm & Hs). rewrite (stands_scalar _ Hp). split; [|split; [exact Hm|now apply plain_hashable]].
    destruct (py_eqb (VStr "-keys") (en_key e)) eqn:He; [|reflexivity]. apply py_eqb_str in He. now elim Hs.
Qed.
Lemma items_app a b : items (a ++ b) = (items a ++ items b)%list.
Proof. apply map_app. Qed.
Lemma hs_app a b : hs (a ++ b) = (hs a ++ hs b)%list.
Proof. unfold hs. now rewrite filter_app, map_app. Qed.
Lemma hs_keys pre k : In k (keys (hs pre)) -> In k (keys (items pre)).
Proof.
  unfold hs, items. rewrite !map_map. intros H. apply in_map_iff in H as (e & <- & H). apply filter_In in H as [H _].
  apply in_map_iff. exists e. split; [reflexivity|exact H].
Qed.
Lemma stored_step n o' v pre e r : near_exact o' -> stored pre r ->
  Forall (entry_dumps n o' v) (pre ++ [e]) -> distinct (keys (items (pre ++ [e]))) ->
  exists r', snd (store_and_hash E f (serialize E f n) o' r (en_key e)) = Done (r', name_of e) /\
    stored (pre ++ [e]) (dset (name_of e) (en_doc e) r').
Proof.
  intros Hne Hst Hall Hd. apply Forall_app in Hall as [Hpre He]. inversion He as [|? ? Hen _]; subst. clear He.
  pose proof (name_no_section _ _ _ _ Hen) as (Hns & Hnm & _).
  rewrite items_app, map_app in Hd. cbn [items map fst] in Hd. apply distinct_snoc in Hd as [Hd Hfr].
  assert (HK : forall k', In k' (keys (items pre)) -> py_eqb (VStr "-keys") k' = false).
  { intros k' Hin. unfold items in Hin. rewrite map_map in Hin. apply in_map_iff in Hin as (e' & <- & Hin).
    rewrite Forall_forall in Hpre. now apply (name_no_section _ _ _ _ (Hpre _ Hin)). }
  assert (Hnk : py_eqb (name_of e) (VStr "-keys") = false) by now rewrite py_eqb_sym.
  destruct Hen as (_ & _ & Hk). unfold store_and_hash. destruct (compoundb (en_key e)) eqn:Hc.
  - destruct Hk as (Hj & Hkd & Hjd). rewrite Hj.
    assert (Hhs : hs [e] = [(name_of e, en_kdoc e)]) by (unfold hs; cbn [filter]; now rewrite Hc).
    assert (Hnm' : VInt (rt_hash (e_rt E) (en_key e)) = name_of e) by (symmetry; now apply stands_compound).
    destruct Hst as [[Hh ->]|(Hh & A & B & HAB & ->)].
    + exists (items pre ++ [(VStr "-keys", VDict DkDict [(name_of e, en_kdoc e)])])%list. split.
      * apply bind_done. exists (en_kdoc e). split; [exact Hkd|]. rewrite Hjd. cbn zeta. rewrite Hnm'.
        rewrite (dget_fresh _ _ HK), (dset_fresh _ _ _ HK). reflexivity.
      * right. rewrite hs_app, Hh, Hhs. cbn [app]. split; [discriminate|].
        exists (items pre), (items [e]). split; [apply items_app|].
        rewrite dset_fresh; [now rewrite <- app_assoc|].
        intros k' Hin. rewrite map_app in Hin. apply in_app_or in Hin as [Hin|[<-|[]]]; auto.
    + assert (HKA : forall k', In k' (keys A) -> py_eqb (VStr "-keys") k' = false).
      { intros k' Hin. apply HK. rewrite HAB, map_app. apply in_or_app. now left. }
      exists (A ++ (VStr "-keys", VDict DkDict (hs pre ++ [(name_of e, en_kdoc e)])) :: B)%list. split.
      * apply bind_done. exists (en_kdoc e). split; [exact Hkd|]. rewrite Hjd. cbn zeta. rewrite Hnm'.
        rewrite (dget_app _ _ A B HKA), (dset_app _ _ _ A B HKA). rewrite (dset_fresh (name_of e)); [reflexivity|].
        intros k' Hin. apply Hfr. now apply hs_keys.
      * right. rewrite hs_app, Hhs. split; [destruct (hs pre); discriminate|].
        exists A, (B ++ items [e])%list. split; [now rewrite items_app, HAB, app_assoc|].
        rewrite dset_fresh; [rewrite <- app_assoc; reflexivity|].
        intros k' Hin. rewrite map_app in Hin. apply in_app_or in Hin as [Hin|[<-|Hin]]; [|exact Hnk|];
          apply Hfr; rewrite HAB, map_app; apply in_or_app; auto.
  - destruct Hk as (Hp & _ & _). rewrite (scalar_key _ _ Hp). exists r. unfold name_of. rewrite (stands_scalar _ Hp). split; [reflexivity|].
    assert (Hhs : hs [e] = []) by (unfold hs; cbn [filter]; now rewrite Hc).
    assert (Hnm' : name_of e = en_key e) by now apply stands_scalar.
    rewrite <- Hnm'. destruct Hst as [[Hh ->]|(Hh & A & B & HAB & ->)].
    + left. rewrite hs_app, Hh, Hhs. split; [reflexivity|]. rewrite dset_fresh by exact Hfr. now rewrite items_app.
    + right. rewrite hs_app, Hhs, app_nil_r. split; [exact Hh|]. exists A, (B ++ items [e])%list.
      split; [now rewrite items_app, HAB, app_assoc|].
      rewrite dset_fresh; [rewrite <- app_assoc; reflexivity|].
      intros k' Hin. rewrite map_app in Hin. apply in_app_or in Hin as [Hin|[<-|Hin]]; [|exact Hnk|];
        apply Hfr; rewrite HAB, map_app; apply in_or_app; auto.
Qed.
Lemma ser_dict_stored n o' v : near_exact o' -> forall es pre r, stored pre r ->
  Forall (entry_dumps n o' v) (pre ++ es) -> distinct (keys (items (pre ++ es))) ->
  exists r', snd (ser_dict_go E f (serialize E f n) o' v (map en_key es) r) = Done r' /\ stored (pre ++ es) r'.
Proof.
  intros He. induction es as [|e es IH]; intros pre r Hst Hall Hd.
  - exists r. rewrite app_nil_r. split; [reflexivity|exact Hst].
  - assert (Heq : (pre ++ e :: es = (pre ++ [e]) ++ es)%list) by now rewrite <- app_assoc. rewrite Heq in *.
    assert (Hall' := Hall). apply Forall_app in Hall' as [Hall1 _]. assert (Hd1 := Hd).
    rewrite items_app, map_app in Hd1. apply distinct_app_l in Hd1.
    destruct (stored_step n o' v pre e r He Hst Hall1 Hd1) as (r1 & Hs & Hst').
    destruct (IH (pre ++ [e])%list _ Hst' Hall Hd) as (r' & Hr' & Hst''). exists r'. split; [|exact Hst''].
    apply Forall_app in Hall1 as [_ Hen]. inversion Hen as [|? ? Hen' _]; subst.
    pose proof (name_no_section _ _ _ _ Hen') as (_ & _ & Hh). destruct Hen' as (Hg & Hx & _).
    destruct He as (_ & Hkt & Hsn & _ & _ & Hty & _).
    cbn [map ser_dict_go]. rewrite Hg. cbn [lift]. rewrite bind_ret_l. apply bind_done. exists (r1, name_of e). split; [exact Hs|].
    rewrite Hty. cbn [aget]. apply bind_done. exists (en_doc e). split; [exact Hx|]. rewrite Hsn. cbn [andb fst snd].
    unfold apply_kt. rewrite Hkt. cbn [rbind]. rewrite Hh. cbn [lift]. rewrite bind_ret_l. exact Hr'.
Qed.
Lemma ser_dict_doc n o' v es : near_exact o' -> py_iter (e_rt E) v = Ok (map en_key es) ->
  Forall (entry_dumps n o' v) es -> distinct (keys (items es)) ->
  exists r, snd (ser_dict E f (serialize E f n) o' v) = Done (VDict DkDict r) /\ stored es r.
Proof.
  intros He Hit Hall Hd. destruct (ser_dict_stored n o' v He es [] []) as (r & Hr & Hst); auto.
  { left. split; reflexivity. }
  exists r. split; [|exact Hst]. unfold ser_dict. rewrite Hit. cbn [lift]. rewrite bind_ret_l. apply bind_done. exists r. split; [exact Hr|reflexivity].
Qed.
End Dump.

(** ** Round trips *)
Section Both.
Variables (E : env) (f g : nat) (o : sopts).
Hypothesis HS : default_serializers E f.
Hypothesis HD : default_deserializers E g.

Definition ent_passes (tk t : ty) (e : ent) : Prop :=
  passes E f g o t (en_val e) (en_doc e) /\
  (if compoundb (en_key e) then passes E f g o tk (en_key e) (en_kdoc e) /\ hashable (e_ct E) (en_key e) = true /\ has_type E g o tk (en_key e)
   else json_scalar_key (en_key e)).
Lemma entries_exist tk t d : (forall k x, In (k, x) d -> good_entry E g o tk t k x) ->
  exists es, map (fun e => (en_key e, en_val e)) es = d /\ Forall (ent_passes tk t) es.
Proof.
  induction d as [|[k x] d IH]; intros H; [exists []; split; [reflexivity|constructor]|].
  destruct IH as (es & <- & HF); [intros; apply H; now right|].
  destruct (H k x (or_introl eq_refl)) as [Hk Hx]. destruct (has_type_passes E f g o HS HD t x Hx) as (j & Hj).
  destruct Hk as [Hk|(Hc & Hh & Ht)].
  - exists (Ent k x VNone j :: es). split; [reflexivity|]. constructor; [|exact HF]. split; [exact Hj|]. cbn [en_key].
    destruct (compoundb k) eqn:Hc; [|exact Hk]. destruct Hk as (Hp & _). destruct k; try discriminate; now destruct Hp.
  - destruct (has_type_passes E f g o HS HD tk k Ht) as (kj & Hkj). exists (Ent k x kj j :: es). split; [reflexivity|].
    constructor; [|exact HF]. split; [exact Hj|]. cbn [en_key en_kdoc]. apply compoundb_iff in Hc. rewrite Hc. auto.
Qed.
Definition ent_runs (n : nat) (tk t : ty) (e : ent) : Prop :=
  dumps_to E f o n t (en_val e) (en_doc e) /\ always_loads E n g t (en_doc e) (en_val e) /\
  (compoundb (en_key e) = true -> dumps_to E f o n tk (en_key e) (en_kdoc e) /\ always_loads E n g tk (en_kdoc e) (en_key e)).
Lemma entries_run tk t es : Forall (ent_passes tk t) es -> exists N, forall n, N <= n -> Forall (ent_runs n tk t) es.
Proof.
  induction 1 as [|e es He H (N & IH)]; [exists 0; constructor|].
  destruct He as ((_ & _ & N1 & H1) & Hk).
  assert (HN2 : exists N2, forall n, N2 <= n -> compoundb (en_key e) = true ->
     dumps_to E f o n tk (en_key e) (en_kdoc e) /\ always_loads E n g tk (en_kdoc e) (en_key e)).
  { destruct (compoundb (en_key e)); [|exists 0; discriminate]. destruct Hk as ((_ & _ & N2 & H2) & _). exists N2. intros n Hn _. now apply H2. }
  destruct HN2 as (N2 & H2). exists (Nat.max N (Nat.max N1 N2)). intros n Hn. constructor; [|apply IH; lia].
  destruct (H1 n ltac:(lia)). split; [assumption|]. split; [assumption|]. intros Hc. apply H2; [lia|exact Hc].
Qed.
Lemma filter_split {A} (p : A -> bool) l : Permutation l (filter p l ++ filter (fun x => negb (p x)) l).
Proof.
  induction l as [|x l IH]; [constructor|]. cbn [filter]. destruct (p x); cbn [negb app].
  - now constructor.
  - rewrite IH at 1. apply Permutation_middle.
Qed.
Lemma compound_fresh k z : compoundb k = true -> py_eqb k (VInt z) = false.
Proof. destruct k as [| | | | | | |[]| |[]| | |]; cbn; congruence. Qed.
Lemma hashed_roundtrip b h tk t d v :
  exact_dump o -> mapping_of h d v ->
  (forall k x, In (k, x) d -> good_entry E g o tk t k x) -> (exists k, In k (keys d) /\ compound k) ->
  distinct (keys d) -> distinct (map (stands_for E) (keys d)) ->
  (forall d' v', Permutation d d' -> mapping_of h d' v' ->
     accepts E g (TApp b h [tk; t]) v' /\ (h = HDefaultDict -> accepts E g (TApp true HDict [tk; t]) (VDict DkDict d'))) ->
  exists doc N, forall n m cls lo, N <= n -> N <= m -> cls = None \/ cls = Some (TApp b h [tk; t]) -> exact_load lo ->
    snd (dump E f n o cls v) = Done (VDict DkDict doc) /\
    exists d' v', Permutation d d' /\ mapping_of h d' v' /\
      snd (load E m g lo (Some (TApp b h [tk; t])) (VDict DkDict doc)) = Done v'.
Proof.
  intros Ho Hq Hgood (kc & Hkc & Hcc) Hd Hdn Hacc.
  destruct (entries_exist tk t d Hgood) as (es & Hes & HF). destruct (entries_run tk t es HF) as (N & HN).
  assert (Hkeys : keys d = map en_key es) by (rewrite <- Hes, map_map; reflexivity).
  assert (Hnames : keys (items E es) = map (stands_for E) (keys d)) by (rewrite Hkeys; unfold items; rewrite !map_map; reflexivity).
  destruct (proj1 (exact_near o) Ho) as [Hne Hqo].
  assert (Hsame : same_selection o o) by (repeat split).
  assert (Hhk : forall k, In k (keys d) -> hashable (e_ct E) k = true).
  { intros k Hin. apply in_map_iff in Hin as ([k' x] & <- & Hin). destruct (Hgood k' x Hin) as [[(Hp & _)|(_ & Hh & _)] _]; [|exact Hh].
    now apply plain_hashable. }
  assert (Hent : Forall (entry_dumps E f N o v) es).
  { specialize (HN N (le_n _)). rewrite Forall_forall in *. intros e Hin. destruct (HN e Hin) as (H1 & _ & H3). destruct (HF e Hin) as [_ H4].
    assert (Hind : In (en_key e, en_val e) d) by (rewrite <- Hes; apply in_map_iff; exists e; split; [reflexivity|exact Hin]).
    split; [|split].
    - assert (Hg : py_getitem (e_ct E) v (en_key e) = match dget (en_key e) d with Some x => Ok x | None => raise KKey end).
      { pose proof (Hhk _ (in_map fst _ _ Hind)) as Hh. cbn in Hh. destruct Hq; cbn [py_getitem]; now rewrite Hh. }
      rewrite Hg, (dget_distinct d _ _ Hd Hind). reflexivity.
    - apply H1; auto. now apply near_types.
    - destruct (compoundb (en_key e)) eqn:Hc; [|exact H4]. destruct H4 as (_ & _ & Ht). destruct (H3 eq_refl) as [Hdk _].
      assert (Hk : snd (dump E f N o None (en_key e)) = Done (en_kdoc e)) by (apply Hdk; auto).
      assert (Hcp : compound (en_key e)) by now apply compoundb_iff.
      destruct (compound_shape E f g o HS N o (en_key e) (en_kdoc e) tk Hne Hqo Ht Hcp Hk) as [Hj Hct].
      split; [exact Hj|]. split; [exact Hk|]. now apply container_no_key. }
  assert (Hdi : distinct (keys (items E es))) by now rewrite Hnames.
  assert (Hit : py_iter (e_rt E) v = Ok (map en_key es)) by (rewrite <- Hkeys; destruct Hq; reflexivity).
  destruct (ser_dict_doc E f N o v es Hne Hit Hent Hdi) as (doc & Hdoc & Hst).
  exists doc, (S (S N)). intros n m cls lo Hn Hm Hc He. split.
  - assert (Hs : serializer E f cls v = Some SDict).
    { unfold serializer. rewrite !HS. destruct Hc as [-> | ->]; cbn [tyof].
      - destruct Hq; cbn [class_of]; rewrite ser_head; reflexivity.
      - rewrite ser_head. destruct Hq; reflexivity. }
    assert (H1 : snd (dump E f (S N) o cls v) = Done (VDict DkDict doc)).
    { apply dump_done_iff. rewrite Hs. cbn [serialize]. cbn [ser_step]. exact Hdoc. }
    pose proof (dump_fuel_mono E f (S N) n o cls v ltac:(lia)) as Hmono.
    destruct Hmono as [Hoof|Heq]; [congruence|]. rewrite <- Heq. exact H1.
  - set (ch := filter (fun e => compoundb (en_key e)) es). set (cs := filter (fun e => negb (compoundb (en_key e))) es).
    assert (HPes : Permutation es (ch ++ cs)) by apply filter_split.
    assert (Hch : In kc (map en_key ch)).
    { rewrite Hkeys in Hkc. apply in_map_iff in Hkc as (e & <- & Hin). apply in_map. apply filter_In. split; [exact Hin|]. now apply compoundb_iff. }
    assert (Hscal : forall e, In e cs -> json_scalar_key (en_key e) /\ name_of E e = en_key e).
    { intros e Hin. apply filter_In in Hin as [Hin Hn']. apply negb_true_iff in Hn'. rewrite Forall_forall in HF. destruct (HF e Hin) as [_ Hk].
      rewrite Hn' in Hk. split; [exact Hk|]. apply stands_scalar. apply Hk. }
    destruct Hst as [[Hh _]|(Hh & A & B & HAB & Hr)].
    { exfalso. unfold hs in Hh. fold ch in Hh. destruct ch; [destruct Hch|discriminate]. }
    assert (HPdoc : Permutation doc ((VStr "-keys", VDict DkDict (hs E es)) :: items E ch ++ items E cs)).
    { rewrite Hr, <- Permutation_middle. constructor. rewrite <- HAB, <- items_app. now apply Permutation_map. }
    set (trip := fun e => (name_of E e, en_kdoc e, en_doc e)).
    set (kv := fun e => (en_key e, en_val e)).
    assert (HPd : Permutation (map kv ch ++ map kv cs) d).
    { rewrite <- Hes, <- map_app. apply Permutation_map. now apply Permutation_sym. }
    destruct (hashed_load E g HD b h tk t (map trip ch) (items E cs) doc (map kv ch) (map kv cs) N lo) with (n := m) as (d' & v' & HP & Hq' & Hl); auto.
    + exists DkDict, (hs E es). split.
      * rewrite HPdoc, Permutation_middle. rewrite map_map. reflexivity.
      * rewrite map_map. reflexivity.
    + destruct ch; [destruct Hch|discriminate].
    + intros n' Hn'. specialize (HN n' Hn'). unfold loaded_pairs.
      assert (HNc : Forall (ent_runs n' tk t) ch) by (rewrite Forall_forall in *; intros e Hin; apply HN; now apply filter_In in Hin).
      assert (Hcb : Forall (fun e => compoundb (en_key e) = true) ch) by (rewrite Forall_forall; intros e Hin; now apply filter_In in Hin).
      clear -HNc Hcb. induction ch as [|e ch IH]; cbn [map]; [constructor|]. inversion HNc as [|? ? (_ & H2 & H3) HNc']; inversion Hcb as [|? ? Hc Hcb']; subst.
      constructor; [|auto]. cbn. split; [now apply H3|exact H2].
    + intros n' Hn'. specialize (HN n' Hn').
      assert (HNc : Forall (fun e => ent_runs n' tk t e /\ name_of E e = en_key e) cs).
      { rewrite Forall_forall in *; intros e Hin. split; [apply HN; now apply filter_In in Hin|]. now apply Hscal. }
      clear -HNc. induction HNc as [|e cs [(_ & H2 & _) Hnm] H IH]; cbn; constructor; auto.
    + intros k Hin. apply (Permutation_in k (Permutation_map fst HPdoc)) in Hin. cbn [map fst] in Hin.
      destruct Hin as [<-|Hin]; [discriminate|]. rewrite <- items_app in Hin. unfold items in Hin. rewrite map_map in Hin.
      apply in_map_iff in Hin as (e & <- & Hin). apply (Permutation_in e (Permutation_sym HPes)) in Hin.
      rewrite Forall_forall in Hent. now apply (name_no_section E f N o v e (Hent e Hin)).
    + (* all names and all loaded keys are distinct *)
      assert (HPk : Permutation (keys doc) (VStr "-keys" :: keys (items E es))).
      { rewrite (Permutation_map fst HPdoc). cbn [map fst]. constructor. rewrite <- items_app. apply Permutation_map, Permutation_map. now apply Permutation_sym. }
      apply distinct_perm with ((VStr "-keys" :: keys (items E es)) ++ map en_key ch)%list.
      { rewrite HPk. apply Permutation_app_head. rewrite map_map. reflexivity. }
      assert (Hdch : distinct (map en_key ch)).
      { apply distinct_app_l with (map en_key cs). rewrite <- map_app. apply distinct_perm with (map en_key es); [now apply Permutation_map|]. now rewrite <- Hkeys. }
      assert (Hfr : forall e, In e ch -> forall k', In k' (VStr "-keys" :: keys (items E es)) -> py_eqb (en_key e) k' = false).
      { intros e Hin k' Hk'. apply filter_In in Hin as [Hin Hcb]. destruct Hk' as [<-|Hk'].
        - destruct (en_key e) as [| | | | | | |[]| |[]| | |]; try discriminate; reflexivity.
        - unfold items in Hk'. rewrite map_map in Hk'. apply in_map_iff in Hk' as (e' & <- & Hin'). cbn [fst]. unfold name_of.
          destruct (compoundb (en_key e')) eqn:Hc'.
          + rewrite (stands_compound E _ Hc'). now apply compound_fresh.
          + assert (Hs' : json_scalar_key (en_key e')) by (apply Hscal; apply filter_In; rewrite Hc'; auto).
            destruct Hs' as (Hp & _). destruct (en_key e') as [| | | | | | | | | | | |]; try (now destruct Hp);
              destruct (en_key e) as [| | | | | | |[]| |[]| | |]; try discriminate; reflexivity. }
      assert (Hd1 : distinct (VStr "-keys" :: keys (items E es))).
      { apply distinct_cons; [|exact Hdi]. intros k' Hk'. unfold items in Hk'. rewrite map_map in Hk'. apply in_map_iff in Hk' as (e & <- & Hin).
        rewrite Forall_forall in Hent. now apply (name_no_section E f N o v e (Hent e Hin)). }
      revert Hd1 Hfr Hdch. generalize (VStr "-keys" :: keys (items E es)) as l. clear. intros l Hl Hfr Hdch.
      apply distinct_perm with (map en_key ch ++ l)%list; [apply Permutation_app_comm|].
      induction ch as [|e ch IH]; [exact Hl|]. cbn [map app] in *. inversion Hdch as [|? ? Hx Hdch']; subst. apply distinct_cons.
      * intros k' Hin. apply in_app_or in Hin as [Hin|Hin]; [|apply (Hfr e (or_introl eq_refl)); exact Hin].
        rewrite Forall_forall in Hx. auto.
      * apply IH; auto. intros e' Hin. apply Hfr. now right.
    + rewrite (forallb_perm (hashable (e_ct E)) _ (keys d)) by now apply Permutation_map. apply forallb_forall. exact Hhk.
    + intros d' v' HP. apply Hacc. now rewrite <- HPd.
    + destruct Hq; auto.
    + exists d', v'. split; [now rewrite <- HPd|]. auto.
Qed.
End Both.
