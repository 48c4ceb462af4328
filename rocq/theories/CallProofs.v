(** * Proofs about calls with keyword arguments *)
From Verif Require Import PyBaseFacts EngineFacts LoadObject LoadSame CallModel CallSpec.
Local Close Scope Z_scope.
Local Open Scope string_scope.

(** ** Keyword arguments *)
Lemma sget_app {V} k (a b : list (string * V)) :
  sget k (a ++ b) = match sget k a with Some x => Some x | None => sget k b end.
Proof.
  unfold sget. induction a as [|[k' x] a IH]; cbn [app aget]; [reflexivity|].
  destruct (String.eqb k k'); [reflexivity|exact IH].
Qed.
Lemma sget_none {V} k (d : list (string * V)) : ~ In k (map fst d) <-> sget k d = None.
Proof.
  unfold sget. induction d as [|[k' x] d IH]; cbn [map fst In aget]; [tauto|].
  destruct (String.eqb_spec k k') as [->|Hne]; [split; [tauto|discriminate]|].
  rewrite <- IH. split; [tauto|]. intros H [E|E]; [congruence|tauto].
Qed.
Lemma sget_some_in {V} k (d : list (string * V)) x : sget k d = Some x -> In k (map fst d).
Proof. intros H. destruct (in_dec string_dec k (map fst d)) as [|Hn]; [assumption|]. apply sget_none in Hn. congruence. Qed.
Lemma shas_sget {V} k (d : list (string * V)) : shas k d = match sget k d with Some _ => true | None => false end.
Proof.
  unfold shas, amem, sget. reflexivity.
Qed.
Lemma sget_filter {V} (P : string -> bool) k (d : list (string * V)) :
  sget k (filter (fun p => P (fst p)) d) = if P k then sget k d else None.
Proof.
  unfold sget. induction d as [|[k' x] d IH]; cbn [filter fst aget]; [now destruct (P k)|].
  destruct (P k') eqn:E; cbn [aget]; destruct (String.eqb_spec k k') as [->|Hne].
  - now rewrite E.
  - exact IH.
  - rewrite IH. now rewrite E.
  - exact IH.
Qed.
Lemma NoDup_filter_names {V} (P : string -> bool) (d : list (string * V)) :
  NoDup (map fst d) -> NoDup (map fst (filter (fun p => P (fst p)) d)).
Proof.
  induction d as [|[k x] d IH]; cbn [filter map fst]; intros H; [constructor|]. inversion H; subst.
  destruct (P k); [|now apply IH]. cbn [map fst]. constructor; [|now apply IH].
  intros Hin. apply in_map_iff in Hin as [p [E Hp]]. apply filter_In in Hp as [Hp _].
  apply H2. rewrite <- E. now apply in_map.
Qed.
Lemma merge_get kw0 : forall kw k, distinct_names kw0 ->
  sget k (merge_kw kw kw0) = match sget k kw0 with Some a => Some a | None => sget k kw end.
Proof.
  unfold merge_kw. induction kw0 as [|[k0 a0] r IH]; intros kw k Hd; cbn [fold_left fst snd]; [reflexivity|].
  inversion Hd as [|? ? Hn Hr]; subst. rewrite IH by exact Hr.
  unfold sget at 3. cbn [aget]. destruct (String.eqb_spec k k0) as [->|Hne].
  - rewrite (proj1 (sget_none k0 r) Hn). apply sget_sset_same.
  - fold (sget k r). destruct (sget k r); [reflexivity|]. now apply sget_sset_other.
Qed.
Lemma sset_names {V} k (x : V) : forall d, NoDup (map fst d) -> NoDup (map fst (sset k x d)) /\
  (forall k', In k' (map fst (sset k x d)) -> k' = k \/ In k' (map fst d)).
Proof.
  unfold sset. induction d as [|[k' y] d IH]; intros H; cbn [aset map fst].
  - split; [repeat constructor; intros []|]. intros k' [E|[]]. now left.
  - inversion H; subst. destruct (String.eqb_spec k k') as [->|Hne]; cbn [map fst].
    + split; [now constructor|]. intros q [E|E]; auto. right. now right.
    + destruct (IH H3) as [I1 I2]. split.
      * constructor; [|exact I1]. intros Hin. apply I2 in Hin as [E|E]; [congruence|contradiction].
      * intros q [E|E]; [right; now left|]. apply I2 in E as [E|E]; [now left|right; now right].
Qed.
Lemma merge_distinct kw0 : forall kw, distinct_names kw -> distinct_names (merge_kw kw kw0).
Proof.
  unfold merge_kw, distinct_names. induction kw0 as [|[k0 a0] r IH]; intros kw Hd; cbn [fold_left fst snd]; [exact Hd|].
  apply IH. now apply sset_names.
Qed.

(** ** Binding *)
Definition known (s : signature) (k : string) : bool := mem_str k (map fst (g_pos s)) || mem_str k (g_kwonly s).
Lemma bind_kws_spec s : g_varkw s = true -> forall kw named rest, distinct_names kw ->
  bind_kws s named rest kw =
  if existsb (fun p => known s (fst p) && shas (fst p) named) kw then raise KType
  else Ok (named ++ filter (fun p => known s (fst p)) kw, rest ++ filter (fun p => negb (known s (fst p))) kw)%list.
Proof.
  intros Hv. induction kw as [|[k a] r IH]; intros named rest Hd; cbn [bind_kws existsb filter fst].
  - now rewrite !app_nil_r.
  - inversion Hd as [|? ? Hn Hr]; subst. fold (known s k). rewrite Hv.
    destruct (known s k) eqn:Ek; cbn [andb negb orb].
    + destruct (shas k named) eqn:Eh; cbn [orb]; [reflexivity|].
      rewrite IH by exact Hr.
      assert (Heq : existsb (fun p => known s (fst p) && shas (fst p) (named ++ [(k, a)])%list) r =
                    existsb (fun p => known s (fst p) && shas (fst p) named) r).
      { clear IH Hd Hr. induction r as [|[k' a'] r IHr]; cbn [existsb fst]; [reflexivity|].
        rewrite IHr by (intros H; apply Hn; now right). f_equal. f_equal.
        rewrite !shas_sget, sget_app. destruct (sget k' named); [reflexivity|].
        unfold sget. cbn [aget]. destruct (String.eqb_spec k' k) as [->|]; [|reflexivity].
        exfalso. apply Hn. now left. }
      rewrite Heq. destruct (existsb (fun p => known s (fst p) && shas (fst p) named) r); [reflexivity|]. now rewrite <- !app_assoc.
    + rewrite IH by exact Hr. destruct (existsb (fun p => known s (fst p) && shas (fst p) named) r); [reflexivity|]. now rewrite <- !app_assoc.
Qed.
Lemma existsb_names (P : string -> bool) (kw kw' : kwargs) : (forall k, sget k kw = None <-> sget k kw' = None) ->
  existsb (fun p : string * arg => P (fst p)) kw = existsb (fun p => P (fst p)) kw'.
Proof.
  intros He. assert (Hdir : forall a b : kwargs, (forall k, sget k b = None -> sget k a = None) ->
      existsb (fun p => P (fst p)) a = true -> existsb (fun p => P (fst p)) b = true).
  { intros a b Hab H. apply existsb_exists in H as [[k x] [Hin HP]]. cbn [fst] in HP.
    destruct (sget k b) as [y|] eqn:Eb.
    - apply sget_some_in in Eb. apply in_map_iff in Eb as [[k' y'] [Ek Hk]]. cbn [fst] in Ek. subst k'.
      apply existsb_exists. exists (k, y'). now split.
    - apply Hab in Eb. apply sget_none in Eb. exfalso. apply Eb. apply in_map_iff. now exists (k, x). }
  destruct (existsb _ kw) eqn:E1; destruct (existsb _ kw') eqn:E2; auto.
  - rewrite (Hdir kw kw') in E2; [discriminate| |exact E1]. intros k. apply He.
  - rewrite (Hdir kw' kw) in E1; [discriminate| |exact E2]. intros k. apply He.
Qed.
(** The result of binding, read by name, depends on the keyword arguments by name only. *)
Lemma bind_call_spec s args kw : g_varkw s = true -> distinct_names kw ->
  bind_call s args kw =
  let (named, extra) := bind_pos (g_pos s) args in
  if negb (Nat.eqb (length extra) 0) && negb (g_var s) then raise KType
  else if existsb (fun p => known s (fst p) && shas (fst p) named) kw then raise KType
  else if forallb (fun p => snd p || shas (fst p) (named ++ filter (fun p => known s (fst p)) kw)%list) (g_pos s)
  then Ok (mkBound (named ++ filter (fun p => known s (fst p)) kw)%list extra
                   (filter (fun p => negb (known s (fst p))) kw))
  else raise KType.
Proof.
  intros Hv Hd. unfold bind_call. destruct (bind_pos (g_pos s) args) as [named extra].
  destruct (negb _ && negb _); [reflexivity|]. rewrite (bind_kws_spec s Hv kw named [] Hd).
  destruct (existsb _ kw); [reflexivity|]. cbn [rbind fst snd app]. reflexivity.
Qed.
Lemma bind_ext s args kw kw' : g_varkw s = true -> distinct_names kw -> distinct_names kw' ->
  (forall k, sget k kw = None <-> sget k kw' = None) ->
  match bind_call s args kw, bind_call s args kw' with
  | Ok b, Ok b' =>
      b_args b = b_args b' /\
      (forall k, known s k = true -> sget k kw = sget k kw' -> sget k (b_named b) = sget k (b_named b')) /\
      b_kwargs b = filter (fun p => negb (known s (fst p))) kw /\
      b_kwargs b' = filter (fun p => negb (known s (fst p))) kw'
  | Err e, Err e' => e = e'
  | _, _ => False
  end.
Proof.
  intros Hv Hd Hd' He. rewrite (bind_call_spec s args kw Hv Hd), (bind_call_spec s args kw' Hv Hd').
  destruct (bind_pos (g_pos s) args) as [named extra]. destruct (negb _ && negb _); [reflexivity|].
  rewrite (existsb_names (fun k => known s k && shas k named) kw kw' He).
  destruct (existsb _ kw'); [reflexivity|].
  assert (Hshas : forall k, shas k (named ++ filter (fun p => known s (fst p)) kw)%list =
                            shas k (named ++ filter (fun p => known s (fst p)) kw')%list).
  { intros k. rewrite !shas_sget, !sget_app, !sget_filter. destruct (sget k named); [reflexivity|].
    destruct (known s k); [|reflexivity]. specialize (He k).
    destruct (sget k kw), (sget k kw'); auto; exfalso; destruct He as [H1 H2]; (now specialize (H1 eq_refl)) || (now specialize (H2 eq_refl)). }
  assert (Hfor : forall l : list (string * bool), forallb (fun p => snd p || shas (fst p) (named ++ filter (fun p => known s (fst p)) kw)%list) l =
                 forallb (fun p => snd p || shas (fst p) (named ++ filter (fun p => known s (fst p)) kw')%list) l).
  { induction l as [|p l IH]; cbn [forallb]; [reflexivity|]. now rewrite IH, Hshas. }
  rewrite Hfor. destruct (forallb _ _); [|reflexivity]. cbn [b_args b_named b_kwargs].
  split; [reflexivity|]. split; [|split; reflexivity].
  intros k Hk Hg. rewrite !sget_app, !sget_filter, Hk, Hg. reflexivity.
Qed.

(** ** Options *)
Lemma flag_ext R kw kw' k d : sget k kw = sget k kw' -> flag R kw k d = flag R kw' k d.
Proof. unfold flag. now intros ->. Qed.
Lemma sopts_ext R st kw kw' : same_kw kw kw' -> sopts_of R st kw = sopts_of R st kw'.
Proof. intros H. unfold sopts_of, kt_of, flag. now rewrite !H. Qed.
Lemma lopts_ext R st g kw kw' : same_kw kw kw' -> lopts_of R st g kw = lopts_of R st g kw'.
Proof. intros H. unfold lopts_of, kt_of, flag. now rewrite !H. Qed.
Lemma sopts_filter R st (P : string -> bool) kw :
  forallb P ["verbose"; "strip_attr"; "types"; "strip_nulls"; "key_transformer"; "strip_privates"; "strip_properties";
             "strip_class_variables"; "_store_cls"; "use_enum_name"; "strip_microseconds"] = true ->
  sopts_of R st (filter (fun p => P (fst p)) kw) = sopts_of R st kw.
Proof.
  intros H. rewrite forallb_forall in H. unfold sopts_of, kt_of, flag. rewrite !sget_filter.
  rewrite !H by (cbn; tauto). reflexivity.
Qed.
Lemma lopts_filter R st g (P : string -> bool) kw :
  forallb P ["meta_hints"; "key_transformer"; "_inferred_cls"; "warn_on_fail"; "use_enum_name"] = true ->
  lopts_of R st g (filter (fun p => P (fst p)) kw) = lopts_of R st g kw.
Proof.
  intros H. rewrite forallb_forall in H. unfold lopts_of, kt_of, flag. rewrite !sget_filter.
  rewrite !H by (cbn; tauto). reflexivity.
Qed.
Lemma same_names kw kw' : same_kw kw kw' -> forall k, sget k kw = None <-> sget k kw' = None.
Proof. intros H k. now rewrite (H k). Qed.

(** ** dump, dumps, dumpb *)
Definition dump_names : list string := ["obj"; "cls"; "strict"; "fork_inst"].
Lemma known_dump k : known sig_dump k = true <-> In k dump_names.
Proof.
  unfold known, sig_dump. cbn [g_pos g_kwonly map fst]. rewrite orb_true_iff, !mem_str_In. cbn. tauto.
Qed.
Lemma call_dump_cong E n args kw kw' : distinct_names kw -> distinct_names kw' ->
  (forall k, sget k kw = None <-> sget k kw' = None) ->
  (forall k, In k dump_names -> sget k kw = sget k kw') ->
  (forall st, sopts_of (e_rt E) st kw = sopts_of (e_rt E) st kw') ->
  call_dump E n args kw = call_dump E n args kw'.
Proof.
  intros Hd Hd' He Hk Ho. unfold call_dump, binding.
  pose proof (bind_ext sig_dump args kw kw' eq_refl Hd Hd' He) as HB.
  destruct (bind_call sig_dump args kw) as [b|e], (bind_call sig_dump args kw') as [b'|e']; try contradiction; [|now subst e'].
  destruct HB as [_ [HN [HK HK']]].
  rewrite HK, HK', !(sopts_filter _ _ (fun k => negb (known sig_dump k))) by reflexivity.
  assert (HG : forall k, In k dump_names -> sget k (b_named b) = sget k (b_named b')).
  { intros k Hin. apply HN; [now apply known_dump|now apply Hk]. }
  unfold flag. rewrite !HG by (cbn; tauto). rewrite Ho. reflexivity.
Qed.
Theorem call_dump_ext E n args kw kw' : distinct_names kw -> distinct_names kw' -> same_kw kw kw' ->
  call_dump E n args kw = call_dump E n args kw'.
Proof.
  intros Hd Hd' Hs. apply call_dump_cong; auto; [now apply same_names|]. intros st. now apply sopts_ext.
Qed.
Lemma same_kw_filter (P : string -> bool) kw kw' : same_kw kw kw' ->
  same_kw (filter (fun p => P (fst p)) kw) (filter (fun p => P (fst p)) kw').
Proof. intros H k. now rewrite !sget_filter, H. Qed.
Theorem call_dumps_ext E T n args kw kw' : distinct_names kw -> distinct_names kw' -> same_kw kw kw' ->
  call_dumps E T n args kw = call_dumps E T n args kw'.
Proof.
  intros Hd Hd' Hs. unfold call_dumps, binding.
  pose proof (bind_ext sig_dumps args kw kw' eq_refl Hd Hd' (same_names _ _ Hs)) as HB.
  destruct (bind_call sig_dumps args kw) as [b|e], (bind_call sig_dumps args kw') as [b'|e']; try contradiction; [|now subst e'].
  destruct HB as [HA [HN [HK HK']]].
  rewrite (HN "obj" eq_refl (Hs _)), (HN "jdkwargs" eq_refl (Hs _)), HA.
  destruct (sget "obj" (b_named b')) as [obj|]; [|reflexivity].
  rewrite (call_dump_ext E n (obj :: b_args b') (b_kwargs b) (b_kwargs b')); [reflexivity| | |]; rewrite ?HK, ?HK'.
  - now apply (NoDup_filter_names (fun k => negb (known sig_dumps k))).
  - now apply (NoDup_filter_names (fun k => negb (known sig_dumps k))).
  - now apply (same_kw_filter (fun k => negb (known sig_dumps k))).
Qed.
Theorem call_dumpb_ext E T n args kw kw' : distinct_names kw -> distinct_names kw' -> same_kw kw kw' ->
  call_dumpb E T n args kw = call_dumpb E T n args kw'.
Proof.
  intros Hd Hd' Hs. unfold call_dumpb, binding.
  pose proof (bind_ext sig_dumpb args kw kw' eq_refl Hd Hd' (same_names _ _ Hs)) as HB.
  destruct (bind_call sig_dumpb args kw) as [b|e], (bind_call sig_dumpb args kw') as [b'|e']; try contradiction; [|now subst e'].
  destruct HB as [HA [HN [HK HK']]].
  rewrite (HN "obj" eq_refl (Hs _)), (HN "jdkwargs" eq_refl (Hs _)), (HN "encoding" eq_refl (Hs _)), HA.
  destruct (sget "obj" (b_named b')) as [obj|]; [|reflexivity].
  rewrite (call_dump_ext E n (obj :: b_args b') (b_kwargs b) (b_kwargs b')); [reflexivity| | |]; rewrite ?HK, ?HK'.
  - now apply (NoDup_filter_names (fun k => negb (known sig_dumpb k))).
  - now apply (NoDup_filter_names (fun k => negb (known sig_dumpb k))).
  - now apply (same_kw_filter (fun k => negb (known sig_dumpb k))).
Qed.

(** ** load, loads, loadb *)
Definition load_names : list string := ["json_obj"; "cls"; "strict"; "fork_inst"; "attr_getters"].
Lemma known_load k : known sig_load k = true <-> In k load_names.
Proof.
  unfold known, sig_load. cbn [g_pos g_kwonly map fst]. rewrite orb_true_iff, !mem_str_In. cbn. tauto.
Qed.
Theorem call_load_ext E n args kw kw' : distinct_names kw -> distinct_names kw' -> same_kw kw kw' ->
  call_load E n args kw = call_load E n args kw'.
Proof.
  intros Hd Hd' Hs. unfold call_load, binding.
  pose proof (bind_ext sig_load args kw kw' eq_refl Hd Hd' (same_names _ _ Hs)) as HB.
  destruct (bind_call sig_load args kw) as [b|e], (bind_call sig_load args kw') as [b'|e']; try contradiction; [|now subst e'].
  destruct HB as [_ [HN [HK HK']]].
  rewrite HK, HK', !(lopts_filter _ _ _ (fun k => negb (known sig_load k))) by reflexivity.
  assert (HG : forall k, In k load_names -> sget k (b_named b) = sget k (b_named b')).
  { intros k Hin. apply HN; [now apply known_load|apply Hs]. }
  unfold flag. rewrite !HG by (cbn; tauto). now rewrite (lopts_ext _ _ _ _ _ Hs).
Qed.
Theorem call_loads_ext E T n args kw kw' : distinct_names kw -> distinct_names kw' -> same_kw kw kw' ->
  call_loads E T n args kw = call_loads E T n args kw'.
Proof.
  intros Hd Hd' Hs. unfold call_loads, binding.
  pose proof (bind_ext sig_loads args kw kw' eq_refl Hd Hd' (same_names _ _ Hs)) as HB.
  destruct (bind_call sig_loads args kw) as [b|e], (bind_call sig_loads args kw') as [b'|e']; try contradiction; [|now subst e'].
  destruct HB as [HA [HN [HK HK']]].
  rewrite (HN "str_" eq_refl (Hs _)), (HN "jdkwargs" eq_refl (Hs _)), (HN "cls" eq_refl (Hs _)), HA.
  destruct (sget "str_" (b_named b')) as [x|]; [|reflexivity].
  apply LoadSame.bind_ext; [reflexivity|]. intros ? _. apply LoadSame.bind_ext; [reflexivity|]. intros j _. apply call_load_ext; rewrite ?HK, ?HK'.
  - now apply (NoDup_filter_names (fun k => negb (known sig_loads k))).
  - now apply (NoDup_filter_names (fun k => negb (known sig_loads k))).
  - now apply (same_kw_filter (fun k => negb (known sig_loads k))).
Qed.

Lemma with_kw_ok explicit kw : (forall k, In k (map fst explicit) -> not_named k kw) ->
  with_kw explicit kw = Ok (explicit ++ kw)%list.
Proof.
  intros H. unfold with_kw. destruct (existsb _ kw) eqn:E; [|reflexivity]. exfalso.
  apply existsb_exists in E as [[k a] [Hin Hs]]. cbn [fst] in Hs. rewrite shas_sget in Hs.
  destruct (sget k explicit) as [x|] eqn:Eg; [|discriminate]. apply sget_some_in in Eg.
  apply (H k Eg). apply in_map_iff. now exists (k, a).
Qed.
Theorem call_loadb_ext E T n args kw kw' : distinct_names kw -> distinct_names kw' -> same_kw kw kw' ->
  call_loadb E T n args kw = call_loadb E T n args kw'.
Proof.
  intros Hd Hd' Hs. unfold call_loadb, binding.
  pose proof (bind_ext sig_loadb args kw kw' eq_refl Hd Hd' (same_names _ _ Hs)) as HB.
  destruct (bind_call sig_loadb args kw) as [b|e], (bind_call sig_loadb args kw') as [b'|e']; try contradiction; [|now subst e'].
  destruct HB as [HA [HN [HK HK']]].
  rewrite (HN "bytes_" eq_refl (Hs _)), (HN "jdkwargs" eq_refl (Hs _)), (HN "cls" eq_refl (Hs _)), (HN "encoding" eq_refl (Hs _)), HA.
  assert (HJ : forall kw0 : kwargs, not_named "jdkwargs" (filter (fun p => negb (known sig_loadb (fst p))) kw0)).
  { intros kw0 H. apply in_map_iff in H as [p [Hp H]]. apply filter_In in H as [_ H]. rewrite Hp in H. discriminate. }
  destruct (sget "bytes_" (b_named b')) as [[| |s| | | | | | |]|]; try reflexivity.
  apply LoadSame.bind_ext; [reflexivity|]. intros ? _. apply LoadSame.bind_ext; [reflexivity|]. intros enc _.
  apply LoadSame.bind_ext; [reflexivity|]. intros t _.
  rewrite !with_kw_ok; try (intros k [<-|[]]; rewrite ?HK, ?HK'; apply HJ).
  apply call_loads_ext; rewrite ?HK, ?HK'.
  - constructor; [apply HJ|]. now apply (NoDup_filter_names (fun k => negb (known sig_loadb k))).
  - constructor; [apply HJ|]. now apply (NoDup_filter_names (fun k => negb (known sig_loadb k))).
  - intros k. cbn [app]. unfold sget. cbn [aget fst snd]. destruct (String.eqb k "jdkwargs"); [reflexivity|].
    now apply (same_kw_filter (fun k => negb (known sig_loadb k))).
Qed.
Lemma with_kw_clash explicit kw k : In k (map fst explicit) -> In k (map fst kw) ->
  with_kw explicit kw = raise KType.
Proof.
  intros H1 H2. unfold with_kw.
  assert (E : existsb (fun p => shas (fst p) explicit) kw = true).
  { apply in_map_iff in H2 as [[k' a] [<- Hin]]. apply existsb_exists. exists (k', a). split; [exact Hin|]. cbn [fst] in *.
    rewrite shas_sget. destruct (sget k' explicit) eqn:Eg; [reflexivity|]. apply sget_none in Eg. contradiction. }
  now rewrite E.
Qed.
Lemma not_named_get k kw : not_named k kw <-> sget k kw = None.
Proof. apply sget_none. Qed.

(** ** verbose=... *)
Lemma truthy_counts R a : arg_truthy R a = true <-> counts_as_true R a.
Proof.
  destruct a as [v|s|b|t|b|b|b|[|s|l|l]|l|l]; cbn [arg_truthy counts_as_true]; try (split; intros; [exact I|reflexivity]); try tauto.
  all: try (split; [discriminate|contradiction]).
  all: try (rewrite Bool.orb_true_iff; tauto).
  all: try (match goal with |- context [String.eqb ?x ""] => destruct (String.eqb_spec x "") end; split; cbn; congruence).
  all: match goal with |- context [length ?x] => destruct x end; split; cbn; congruence.
Qed.
Lemma asks_truthy R a b : is_verbosity a = false ->
  asks_for R a b <-> b = if arg_truthy R a then with_everything else with_nothing.
Proof.
  intros Hv. pose proof (truthy_counts R a) as HT.
  assert (H : asks_for R a b <-> (counts_as_true R a /\ b = with_everything) \/ (~ counts_as_true R a /\ b = with_nothing))
    by (destruct a; try discriminate; reflexivity).
  rewrite H, <- HT. destruct (arg_truthy R a).
  - split; [intros [[_ ?]|[? _]]; [assumption|exfalso; auto]|auto].
  - split; [intros [[? _]|[_ ?]]; [discriminate|assumption]|intros ->; right; split; [discriminate|reflexivity]].
Qed.
Lemma from_value_asks R a : asks_for R a (verb_from_value R a).
Proof.
  destruct (is_verbosity a) eqn:Hv; [destruct a; try discriminate; reflexivity|].
  apply asks_truthy; [exact Hv|]. destruct a as [v| | | | | |b| | |]; try discriminate; try reflexivity. destruct v as [|[]| | | | | | | | | | |]; reflexivity.
Qed.
Lemma asks_unique R a b b' : asks_for R a b -> asks_for R a b' -> b = b'.
Proof.
  destruct (is_verbosity a) eqn:Hv; [destruct a; try discriminate; cbn; congruence|]. rewrite !asks_truthy by assumption. congruence.
Qed.
Lemma sopts_verbose R st a a' kw : verb_from_value R a = verb_from_value R a' ->
  sopts_of R st (("verbose", a) :: kw) = sopts_of R st (("verbose", a') :: kw).
Proof. intros H. unfold sopts_of, kt_of, flag, sget. cbn [aget String.eqb Ascii.eqb Bool.eqb]. now rewrite H. Qed.
Lemma sopts_not_verbose R st a kw : verb_from_value R a = with_nothing -> not_named "verbose" kw ->
  sopts_of R st (("verbose", a) :: kw) = sopts_of R st kw.
Proof.
  intros H Hn. apply not_named_get in Hn. unfold sopts_of, kt_of, flag. rewrite Hn.
  unfold sget. cbn [aget String.eqb Ascii.eqb Bool.eqb]. now rewrite H.
Qed.
Lemma verbose_dump E n args kw a a' b : not_named "verbose" kw -> distinct_names kw ->
  asks_for (e_rt E) a b -> asks_for (e_rt E) a' b ->
  call_dump E n args (("verbose", a) :: kw) = call_dump E n args (("verbose", a') :: kw).
Proof.
  intros Hn Hd Ha Ha'. apply call_dump_cong.
  - constructor; assumption.
  - constructor; assumption.
  - intros k. unfold sget. cbn [aget]. destruct (String.eqb k "verbose"); [split; discriminate|tauto].
  - intros k Hk. unfold sget. cbn [aget]. destruct (String.eqb_spec k "verbose") as [->|]; [|reflexivity].
    exfalso. cbn in Hk. intuition discriminate.
  - intros st. apply sopts_verbose.
    rewrite (asks_unique _ _ _ _ (from_value_asks (e_rt E) a) Ha).
    symmetry. exact (asks_unique _ _ _ _ (from_value_asks (e_rt E) a') Ha').
Qed.
(** Asking for nothing is not asking. *)
Lemma bind_drop s args k a kw : g_varkw s = true -> distinct_names ((k, a) :: kw) -> known s k = false ->
  match bind_call s args ((k, a) :: kw), bind_call s args kw with
  | Ok b, Ok b' => b_args b = b_args b' /\ b_named b = b_named b' /\ b_kwargs b = (k, a) :: b_kwargs b' /\
                   b_kwargs b' = filter (fun p => negb (known s (fst p))) kw
  | Err e, Err e' => e = e'
  | _, _ => False
  end.
Proof.
  intros Hv Hd Hk. inversion Hd; subst. rewrite (bind_call_spec s args _ Hv Hd), (bind_call_spec s args kw Hv) by assumption.
  destruct (bind_pos (g_pos s) args) as [named extra]. destruct (negb _ && negb _); [reflexivity|].
  cbn [existsb filter fst]. rewrite Hk. cbn [andb orb negb].
  destruct (existsb _ kw); [reflexivity|]. destruct (forallb _ _); [|reflexivity]. repeat split; reflexivity.
Qed.
Lemma silent_dump E n args kw a : not_named "verbose" kw -> distinct_names kw ->
  asks_for (e_rt E) a with_nothing ->
  call_dump E n args (("verbose", a) :: kw) = call_dump E n args kw.
Proof.
  intros Hn Hd Ha. unfold call_dump, binding.
  assert (Hd' : distinct_names (("verbose", a) :: kw)) by (constructor; assumption).
  pose proof (bind_drop sig_dump args "verbose" a kw eq_refl Hd' eq_refl) as HB.
  destruct (bind_call sig_dump args (("verbose", a) :: kw)) as [b|e], (bind_call sig_dump args kw) as [b'|e']; try contradiction; [|now subst e'].
  destruct HB as [_ [HN [HK HF]]]. rewrite HN, HK. rewrite sopts_not_verbose; [reflexivity| |].
  - exact (asks_unique _ _ _ _ (from_value_asks (e_rt E) a) Ha).
  - rewrite HF. apply not_named_get. rewrite (sget_filter (fun k => negb (known sig_dump k))). cbn. now apply not_named_get.
Qed.

(** ** Positional arguments *)
Lemma load_too_many E n j cls x rest kw : call_load E n (j :: cls :: x :: rest) kw = fail (exn_of KType).
Proof. reflexivity. Qed.
Lemma dump_too_many E n obj cls x rest kw : call_dump E n (obj :: cls :: x :: rest) kw = fail (exn_of KType).
Proof. reflexivity. Qed.
Lemma dump_cls_positional E n obj cls kw :
  call_dump E n [obj; cls] kw = call_dump E n [obj] (("cls", cls) :: kw).
Proof.
  reflexivity.
Qed.
Lemma load_cls_positional E n j cls kw :
  call_load E n [j; cls] kw = call_load E n [j] (("cls", cls) :: kw).
Proof. reflexivity. Qed.
Lemma dumps_cls_positional E T n obj cls kw : not_named "cls" kw -> not_named "jdkwargs" kw -> distinct_names kw ->
  call_dumps E T n [obj; AVal VNone; cls] kw = call_dumps E T n [obj] (("cls", cls) :: kw).
Proof.
  intros Hn Hj Hd. unfold call_dumps, binding.
  assert (Hd' : distinct_names (("cls", cls) :: kw)) by (constructor; assumption).
  rewrite !bind_call_spec by (reflexivity || assumption). change (bind_pos (g_pos sig_dumps) [obj; AVal VNone; cls]) with ([("obj", obj); ("jdkwargs", AVal VNone)], [cls]).
  change (bind_pos (g_pos sig_dumps) [obj]) with ([("obj", obj)], @nil arg).
  change (g_var sig_dumps) with true. change (g_pos sig_dumps) with [("obj", false); ("jdkwargs", true)].
  cbn [length Nat.eqb negb andb]. cbn [existsb filter fst].
  assert (He : existsb (fun p : string * arg => known sig_dumps (fst p) && shas (fst p) [("obj", obj); ("jdkwargs", AVal VNone)]) kw =
               existsb (fun p : string * arg => known sig_dumps (fst p) && shas (fst p) [("obj", obj)]) kw).
  { clear -Hj. induction kw as [|[k a] r IH]; cbn [existsb fst]; [reflexivity|].
    rewrite IH by (intros H; apply Hj; now right). f_equal. f_equal.
    unfold shas, amem. cbn [aget]. destruct (String.eqb k "obj"); [reflexivity|].
    destruct (String.eqb_spec k "jdkwargs") as [->|]; [|reflexivity]. exfalso. apply Hj. now left. }
  rewrite He. replace (known sig_dumps "cls") with false by reflexivity. cbn [andb orb negb].
  destruct (existsb (fun p : string * arg => known sig_dumps (fst p) && shas (fst p) [("obj", obj)]) kw); [reflexivity|].
  cbn [forallb fst snd orb andb]. rewrite !shas_sget, !sget_app.
  replace (sget "obj" [("obj", obj); ("jdkwargs", AVal VNone)]) with (Some obj) by reflexivity.
  replace (sget "obj" [("obj", obj)]) with (Some obj) by reflexivity. cbn [andb b_named b_args b_kwargs].
  rewrite !sget_app. replace (sget "obj" [("obj", obj); ("jdkwargs", AVal VNone)]) with (Some obj) by reflexivity.
  replace (sget "obj" [("obj", obj)]) with (Some obj) by reflexivity.
  replace (sget "jdkwargs" [("obj", obj); ("jdkwargs", AVal VNone)]) with (Some (AVal VNone)) by reflexivity.
  replace (sget "jdkwargs" [("obj", obj)]) with (@None arg) by reflexivity.
  rewrite (sget_filter (known sig_dumps)). apply not_named_get in Hj. rewrite Hj.
  replace (known sig_dumps "jdkwargs") with true by reflexivity. cbn [jd_arg arg_truthy truthy].
  rewrite dump_cls_positional. reflexivity.
Qed.
Lemma bound_args s args kw b : bind_call s args kw = Ok b -> b_args b = snd (bind_pos (g_pos s) args).
Proof.
  unfold bind_call. destruct (bind_pos (g_pos s) args) as [named extra]. cbn [snd].
  destruct (negb _ && negb _); [discriminate|]. destruct (bind_kws s named [] kw) as [[nm r]|e]; cbn [rbind]; [|discriminate].
  destruct (forallb _ _); [|discriminate]. intros [= <-]. reflexivity.
Qed.
(** loads and loadb pass further positional arguments on to functions that take none. *)
Lemma loads_extra E T n x cls jd a rest kw :
  exists e, snd (call_loads E T n (x :: cls :: jd :: a :: rest) kw) = Fail e.
Proof.
  unfold call_loads, binding. destruct (bind_call sig_loads (x :: cls :: jd :: a :: rest) kw) as [b|e] eqn:EB; [|now exists e].
  apply bound_args in EB. cbn [bind_pos g_pos sig_loads snd] in EB. rewrite EB.
  destruct (sget "str_" (b_named b)) as [y|]; [|now eexists].
  destruct (jd_arg (e_rt E) (sget "jdkwargs" (b_named b))) as [u|e]; [|now eexists].
  unfold parse_arg.
  assert (HF : forall m : M value, (exists v, snd m = Done v) \/ (exists e, snd m = Fail e) ->
     exists e, snd (mbind m (fun j => call_load E n (AVal j :: or_none (sget "cls" (b_named b)) :: a :: rest) (b_kwargs b))) = Fail e).
  { intros m [[v Hv]|[e He]]; unfold mbind; [rewrite Hv|rewrite He]; eexists; [|reflexivity].
    rewrite load_too_many. reflexivity. }
  unfold mbind at 1. cbn [lift ret snd fst]. apply HF.
  destruct y as [v|s|s| | | | | | |]; try (right; eexists; reflexivity).
  - destruct v; try (right; eexists; reflexivity). cbn. destruct (json_loads T (codes s)); [left|right]; eexists; reflexivity.
  - cbn. destruct (json_loads T s); [left|right]; eexists; reflexivity.
  - unfold mbind. destruct (tr_detect T s) as [t|e]; cbn; [|right; eexists; reflexivity].
    destruct (json_loads T t); [left|right]; eexists; reflexivity.
Qed.
Lemma loadb_extra E T n x cls enc jd a rest kw :
  exists e, snd (call_loadb E T n (x :: cls :: enc :: jd :: a :: rest) kw) = Fail e.
Proof.
  unfold call_loadb, binding. destruct (bind_call sig_loadb (x :: cls :: enc :: jd :: a :: rest) kw) as [b|e] eqn:EB; [|now exists e].
  apply bound_args in EB. cbn [bind_pos g_pos sig_loadb snd] in EB. rewrite EB.
  destruct (sget "bytes_" (b_named b)) as [[| |s| | | | | | |]|]; try (now eexists).
  destruct (jd_arg (e_rt E) (sget "jdkwargs" (b_named b))) as [u|e]; [|now eexists].
  destruct (enc_arg (sget "encoding" (b_named b))) as [en|e]; [|now eexists].
  unfold mbind. cbn [lift ret snd fst].
  destruct (decode_bytes T en s) as [t|e]; cbn [lift ret snd fst]; [|now eexists].
  destruct (with_kw _ (b_kwargs b)) as [kw'|e] eqn:EK; cbn [lift ret fail snd fst]; [|now eexists].
  assert (HC : call_loads E T n (AText t :: or_none (sget "cls" (b_named b)) :: a :: rest) kw' = fail (exn_of KType)).
  { unfold with_kw in EK. destruct (existsb _ (b_kwargs b)); [discriminate|]. injection EK as <-.
    cbn [app]. unfold call_loads, binding, bind_call. destruct rest; reflexivity. }
  rewrite HC. eexists. reflexivity.
Qed.
(** The documented cases. *)
Lemma loads_extra_type_error E T n s j a rest : json_loads T (codes s) = Some j ->
  snd (call_loads E T n (AVal (VStr s) :: AVal VNone :: AVal VNone :: a :: rest) []) = Fail (exn_of KType).
Proof.
  intros H. unfold call_loads, binding, bind_call. cbn. rewrite H. reflexivity.
Qed.

(** ** Plain calls *)
Lemma call_dump_plain E n v f : call_dump E n [AVal v] [("fork_inst", AFork f)] = dump E f n sopts0 None v.
Proof.
  unfold call_dump, binding, bind_call. cbn -[dump]. change (mkSopts _ _ _ _ _ _ _ _ _ _ _ _ _) with sopts0.
  unfold mbind. cbn -[dump]. destruct (dump E f n sopts0 None v) as [ev o]. reflexivity.
Qed.
Lemma call_dumps_plain E T n v f :
  call_dumps E T n [AVal v] [("fork_inst", AFork f)] = dumps E T f n sopts0 None v.
Proof.
  unfold call_dumps, binding, bind_call. cbn [bind_pos g_pos sig_dumps]. cbn -[call_dump].
  rewrite call_dump_plain. unfold dumps, mbind. cbn -[dump]. destruct (dump E f n sopts0 None v) as [ev [v'|e|]]; reflexivity.
Qed.
Lemma call_load_plain E n j t f :
  call_load E n [AVal j; AType t] [("fork_inst", AFork f)] = load E n f lopts0 (Some t) j.
Proof.
  unfold call_load, binding, bind_call. cbn -[load]. change (mkLopts _ _ _ _ _ _ _) with lopts0.
  unfold mbind. cbn -[load]. destruct (load E n f lopts0 (Some t) j) as [ev o]. reflexivity.
Qed.
Lemma call_loads_plain E T n x t f :
  call_loads E T n [x; AType t] [("fork_inst", AFork f)] =
  mbind (parse_arg T x) (fun j => load E n f lopts0 (Some t) j).
Proof.
  unfold call_loads, binding, bind_call. cbn [bind_pos g_pos sig_loads]. cbn -[call_load parse_arg].
  unfold mbind at 1. cbn [lift ret fst snd app]. unfold mbind. destruct (parse_arg T x) as [ev [j|e|]]; cbn -[call_load]; reflexivity.
Qed.
