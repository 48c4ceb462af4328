(** * Proofs about dump *)
From Verif Require Import PyBaseFacts.
From Verif Require Export DumpSpec.
Local Open Scope string_scope.

(** ** Dicts *)
Lemma aset_In {K V} (eqb : K -> K -> bool) k (v : V) d a b :
  In (a, b) (aset eqb k v d) -> In (a, b) d \/ b = v /\ (a = k \/ exists b', In (a, b') d).
Proof.
  induction d as [|[k' v'] d IH]; cbn [aset].
  - intros [E|[]]. inversion E; subst. right; auto.
  - destruct (eqb k k').
    + intros [E|H]; [|left; now right]. inversion E; subst. right. split; [reflexivity|].
      right. exists v'. now left.
    + intros [E|H]; [left; now left|]. apply IH in H as [H|[-> [H|[b' H]]]].
      * left. now right.
      * right; auto.
      * right. split; [reflexivity|]. right. exists b'. now right.
Qed.
Lemma adel_In {K V} (eqb : K -> K -> bool) k (d : list (K * V)) x : In x (adel eqb k d) -> In x d.
Proof.
  induction d as [|[k' v'] d IH]; cbn [adel]; [intros []|].
  destruct (eqb k k'); [now right|]. intros [E|H]; [now left|right; auto].
Qed.
Lemma aget_In' {K V} (eqb : K -> K -> bool) k (d : list (K * V)) v :
  aget eqb k d = Some v -> exists k', In (k', v) d.
Proof.
  induction d as [|[k' v'] d IH]; cbn [aget]; [discriminate|].
  destruct (eqb k k').
  - intros E; inversion E; subst. exists k'. now left.
  - intros H. destruct (IH H) as [k'' H']. exists k''. now right.
Qed.
Lemma json_dict_inv CT k d a b : json CT (VDict k d) -> In (a, b) d -> json_scalar CT a /\ json CT b.
Proof.
  intros H. inversion H as [v Hs|l Hl|k' d' Hd]; subst; [|eauto].
  destruct Hs as [Hs|[p Hs]]; [discriminate|].
  exfalso. destruct k, p; vm_compute in Hs; discriminate.
Qed.
Lemma json_dset CT k d a b :
  json CT (VDict k d) -> json_scalar CT a -> json CT b -> json CT (VDict k (dset a b d)).
Proof.
  intros Hd Ha Hb. apply json_dict. intros a' b' H. apply aset_In in H as [H|[-> [->|[b'' H]]]].
  - eapply json_dict_inv; eauto.
  - auto.
  - split; [|assumption]. eapply json_dict_inv; eauto.
Qed.
Lemma json_empty CT k : json CT (VDict k []).
Proof. apply json_dict. intros a b []. Qed.
Lemma scalar_str CT s : json_scalar CT (VStr s).
Proof. right. exists PStr. reflexivity. Qed.
Lemma scalar_int CT z : json_scalar CT (VInt z).
Proof. right. exists PInt. reflexivity. Qed.
Lemma scalar_float CT z : json_scalar CT (VFloat z).
Proof. right. exists PFloat. reflexivity. Qed.
Lemma scalar_bool CT z : json_scalar CT (VBool z).
Proof. right. exists PBool. reflexivity. Qed.
Lemma json_str CT s : json CT (VStr s).
Proof. apply json_atom, scalar_str. Qed.
Lemma json_str_dict CT d : (forall a b, In (a, b) d -> json CT b) -> json CT (str_dict d).
Proof.
  intros H. apply json_dict. intros a b Hin. apply in_map_iff in Hin as ([a' b'] & E & Hin).
  inversion E; subst. split; [apply scalar_str|eauto].
Qed.
Lemma naked_none CT v : wf_supers CT -> naked_sub CT (class_of v) TNoneT = true -> v = VNone.
Proof.
  intros W. unfold naked_sub. rewrite andb_true_iff. intros [_ H]. apply existsb_ty_In in H.
  assert (Hc : forall c, ~ In TNoneT (supers CT (TClass c))).
  { intros c Hin. cbn [supers] in Hin. destruct Hin as [?|Hin]; [discriminate|].
    apply in_app_or in Hin as [Hin|Hin].
    - destruct (ci_kind (CT c)) as [|[[]|] l|l]; vm_compute in Hin; intuition discriminate.
    - apply W in Hin. exact Hin. }
  destruct v as [| | | | | | |k l|k d|x| | |]; try reflexivity; try (exfalso; eapply Hc; eassumption);
    try (vm_compute in H; intuition discriminate).
  - destruct k; vm_compute in H; intuition discriminate.
  - destruct k; vm_compute in H; intuition discriminate.
  - destruct x; vm_compute in H; intuition discriminate.
Qed.
Lemma json_key_scalar CT v : wf_supers CT -> json_key CT v = true -> json_scalar CT v.
Proof.
  intros W. unfold json_key. rewrite !orb_true_iff. unfold json_scalar.
  intros [[[[H|H]|H]|H]|H]; eauto. left. now apply (naked_none CT).
Qed.

(** ** Which types the primitive serializer is used for *)
Lemma slower_dot m n s : slower (m ++ "." ++ n) = s -> smem "." s = true.
Proof.
  intros <-. unfold slower. rewrite !smap_app.
  destruct (smem "." (smap to_lower m ++ smap to_lower "." ++ smap to_lower n)) eqn:E; [reflexivity|].
  apply smem_false in E. rewrite !sforall_app in E. vm_compute (smap to_lower ".") in E.
  cbn in E. rewrite andb_false_r in E. discriminate.
Qed.
Definition prim_names : list string := ["str"; "int"; "float"; "bool"; "nonetype"].
Lemma ser_map_prim s : sget s (t_map ser_table) = Some SPrimitive -> In s prim_names.
Proof.
  intros H. apply sget_In in H. cbn in H. repeat destruct H as [H|H]; inversion H; subst; cbn; tauto.
Qed.
Lemma ser_map_custom s n : sget s (t_map ser_table) <> Some (SCustom n).
Proof.
  intros H. apply sget_In in H. cbn in H. repeat destruct H as [H|H]; inversion H.
Qed.
Definition prim_ty (t : ty) : Prop := t = TNoneT \/ exists p, t = TPrim p.
Lemma prim_name_ty CT t : In (lname (ty_world CT) t) prim_names -> prim_ty t.
Proof.
  intros H.
  destruct t as [p| | | |b h l|l| | | | |k|c|m n s| |s]; try (left; reflexivity); try (right; eauto; fail).
  1-9, 12: exfalso; apply mem_str_In in H.
  1, 2, 5-8, 10: vm_compute in H; discriminate.
  - destruct b, h; vm_compute in H; discriminate.
  - unfold lname in H; cbn [w_name ty_world class_name] in H.
    destruct (is_optional l); vm_compute in H; discriminate.
  - destruct k; vm_compute in H; discriminate.
  - exfalso. change (lname (ty_world CT) (TClass c)) with (slower (ci_module (CT c) ++ "." ++ ci_simple (CT c))) in H.
    assert (D : forall s, slower (ci_module (CT c) ++ "." ++ ci_simple (CT c)) = s -> smem "." s = true)
      by apply slower_dot.
    repeat destruct H as [H|H]; try contradiction; symmetry in H; apply D in H; vm_compute in H; discriminate.
  - exfalso. change (lname (ty_world CT) (TNewType m n s)) with (slower (m ++ "." ++ n)) in H.
    assert (D : forall s, slower (m ++ "." ++ n) = s -> smem "." s = true) by apply slower_dot.
    repeat destruct H as [H|H]; try contradiction; symmetry in H; apply D in H; vm_compute in H; discriminate.
  - exfalso. repeat destruct H as [H|H]; try contradiction; discriminate.
Qed.
Lemma parents_head CT t l p r :
  get_parents (ty_world CT) t l = Some p :: r -> In (Some p) l /\ naked_sub CT t p = true.
Proof.
  intros H. assert (Hin : In (Some p) (Some p :: r)) by now left. rewrite <- H in Hin.
  apply filter_In in Hin. exact Hin.
Qed.
Lemma filter_head_app {X} (g : X -> bool) l1 l2 x y r :
  In y l1 -> g y = true -> filter g (l1 ++ l2) = x :: r -> In x l1.
Proof.
  intros Hy Gy. rewrite filter_app. destruct (filter g l1) as [|z l] eqn:E.
  - exfalso. assert (H : In y []) by (rewrite <- E; apply filter_In; auto). destruct H.
  - cbn. intros H. injection H as -> _. assert (Hin : In x (x :: l)) by now left.
    rewrite <- E in Hin. now apply filter_In in Hin.
Qed.
Lemma enum_parent CT t p r :
  naked_sub CT t TEnumBase = true ->
  get_parents (ty_world CT) t (t_classes ser_table) = Some p :: r -> ~ prim_ty p.
Proof.
  intros H Hp. rewrite <- (firstn_skipn 10 (t_classes ser_table)) in Hp.
  unfold get_parents in Hp. apply filter_head_app with (y := Some TEnumBase) in Hp.
  - cbn in Hp. intros [->|[q ->]]; repeat destruct Hp as [Hp|Hp]; discriminate || contradiction.
  - cbn. tauto.
  - exact H.
Qed.
Lemma naked_prim CT t q :
  wf_supers CT -> naked_sub CT t (TPrim q) = true ->
  (exists p, t = TPrim p) \/ naked_sub CT t TEnumBase = true.
Proof.
  intros W H.
  destruct t as [p| | | |b h l|l| | | | |k|c|m n s| |s]; try (left; eauto; fail);
    try (exfalso; destruct q; vm_compute in H; discriminate); try (right; reflexivity).
  - exfalso. destruct q, h; vm_compute in H; discriminate.
  - exfalso. destruct q, k; vm_compute in H; discriminate.
  - right. unfold naked_sub in H. cbn [is_class andb] in H. apply existsb_ty_In in H.
    cbn [supers] in H. destruct H as [H|H]; [discriminate|].
    apply in_app_or in H as [H|H].
    + unfold naked_sub. cbn [is_class andb]. apply existsb_ty_In. cbn [supers]. right. apply in_or_app.
      left. destruct (ci_kind (CT c)) as [|mx l|l]; [destruct H|now left|].
      exfalso. vm_compute in H. intuition discriminate.
    + apply W in H. destruct H.
Qed.
Lemma flat_prim CT t :
  wf_supers CT -> get_lizer_flat (ty_world CT) t ser_table = Ok (Some SPrimitive) -> prim_ty t.
Proof.
  intros W. unfold get_lizer_flat.
  destruct (sget (lname (ty_world CT) t) (t_map ser_table)) as [h|] eqn:E.
  - intros H; inversion H; subst. apply ser_map_prim in E. now apply (prim_name_ty CT).
  - unfold get_lizer_by_parents.
    destruct (get_parents (ty_world CT) t (t_classes ser_table)) as [|[p|] r] eqn:Ep; try discriminate.
    destruct (sget (lname (ty_world CT) p) (t_map ser_table)) as [h|] eqn:Es; [|discriminate].
    intros H; inversion H; subst. apply ser_map_prim in Es. apply prim_name_ty in Es.
    pose proof (parents_head _ _ _ _ _ Ep) as [Hin Hs].
    destruct Es as [->|[q ->]].
    + exfalso. cbn in Hin. intuition discriminate.
    + destruct (naked_prim CT t q W Hs) as [[p' ->]|Hen]; [right; eauto|].
      exfalso. eapply enum_parent; [exact Hen|exact Ep|]. right; eauto.
Qed.
Lemma ser_prim_types CT t :
  wf_supers CT -> default_ser CT t = Some SPrimitive ->
  prim_ty t \/ exists m n s, t = TNewType m n s /\ prim_ty s.
Proof.
  intros W. rewrite default_ser_eq. unfold lookup, get_lizer.
  destruct (get_lizer_flat (ty_world CT) t ser_table) as [[h|]|e] eqn:Ef; cbn [rbind].
  - intros H; inversion H; subst. left. now apply (flat_prim CT).
  - destruct t as [| | | | | | | | | | | |m n s| |]; try discriminate.
    cbn [w_super ty_world ty_super].
    destruct (get_lizer_flat (ty_world CT) s ser_table) as [[h|]|e] eqn:Es; try discriminate.
    intros H; inversion H; subst. right. exists m, n, s. split; [reflexivity|]. now apply (flat_prim CT).
  - discriminate.
Qed.
Lemma flat_custom CT t n : get_lizer_flat (ty_world CT) t ser_table <> Ok (Some (SCustom n)).
Proof.
  unfold get_lizer_flat.
  destruct (sget (lname (ty_world CT) t) (t_map ser_table)) as [h|] eqn:E.
  - intros H; inversion H; subst. now apply ser_map_custom in E.
  - unfold get_lizer_by_parents.
    destruct (get_parents (ty_world CT) t (t_classes ser_table)) as [|[p|] r] eqn:Ep; try discriminate.
    destruct (sget (lname (ty_world CT) p) (t_map ser_table)) as [h|] eqn:Es; [|discriminate].
    intros H; inversion H; subst. now apply ser_map_custom in Es.
Qed.
Lemma ser_no_custom CT t n : default_ser CT t <> Some (SCustom n).
Proof.
  rewrite default_ser_eq. unfold lookup, get_lizer.
  destruct (get_lizer_flat (ty_world CT) t ser_table) as [[h|]|e] eqn:Ef; cbn [rbind]; try discriminate.
  - intros H; inversion H; subst. now apply flat_custom in Ef.
  - destruct (w_super (ty_world CT) t) as [s|]; [|discriminate].
    destruct (get_lizer_flat (ty_world CT) s ser_table) as [[h|]|e] eqn:Es; try discriminate.
    intros H; inversion H; subst. now apply flat_custom in Es.
Qed.
Lemma ser_primitive_scalar E cls v r :
  wf_supers (e_ct E) ->
  default_ser (e_ct E) (match cls with Some t => t | None => class_of v end) = Some SPrimitive ->
  ser_primitive E cls v = Ok r -> json_scalar (e_ct E) r.
Proof.
  intros W H. apply (ser_prim_types _ _ W) in H.
  assert (Hp : forall t, prim_ty t ->
    (dor b <- is_instance (e_ct E) v t;
     if b then Ok v
     else match cast (e_rt E) t v with
          | Ok r => Ok r
          | Err e => Err (if is_valueerror (e_kind e) then exn_of KSer else e)
          end) = Ok r -> json_scalar (e_ct E) r).
  { intros t Ht. rewrite rbind_ok. intros (b & Hb & Hr). destruct Ht as [->|[p ->]].
    - cbn [is_instance] in Hb. injection Hb as Hb. destruct b.
      + apply naked_none in Hb; [|assumption]. inversion Hr; subst. now left.
      + cbn in Hr. discriminate.
    - cbn [is_instance] in Hb. injection Hb as Hb. destruct b.
      + inversion Hr; subst. right. eauto.
      + destruct p; cbn [cast] in Hr.
        * destruct (py_str (e_rt E) v); inversion Hr; subst. apply scalar_str.
        * destruct (py_to_int (e_rt E) v); inversion Hr; subst. apply scalar_int.
        * destruct (py_to_float (e_rt E) v); inversion Hr; subst. apply scalar_float.
        * inversion Hr; subst. apply scalar_bool. }
  destruct cls as [t|].
  - unfold ser_primitive.
    destruct H as [H|(m & n & s & -> & H)].
    + replace (match t with TNewType _ _ s => Some s | _ => Some t end) with (Some t)
        by (destruct H as [->|[p ->]]; reflexivity).
      destruct v; try (apply (Hp t H)). intros Hr; inversion Hr. now left.
    + destruct v; try (apply (Hp s H)). intros Hr; inversion Hr. now left.
  - intros Hr. assert (r = v) as -> by (cbn in Hr; congruence).
    destruct H as [[H|[p H]]|(m & n & s & H & _)].
    + destruct v as [| | | | | | |k l|k d|x| | |]; try discriminate; [now left|..];
        try (destruct k; discriminate).
    + destruct v as [| | | | | | |k l|k d|x| | |]; try discriminate; try (destruct k; discriminate).
      * apply scalar_bool. * apply scalar_int. * apply scalar_float. * apply scalar_str.
    + destruct v as [| | | | | | |k l|k d|x| | |]; try discriminate; try (destruct k; discriminate).
Qed.
Lemma ser_primitive_json E cls v r :
  wf_supers (e_ct E) ->
  default_ser (e_ct E) (match cls with Some t => t | None => class_of v end) = Some SPrimitive ->
  ser_primitive E cls v = Ok r -> json (e_ct E) r.
Proof. intros W H H'. apply json_atom. eapply ser_primitive_scalar; eassumption. Qed.

(** ** Meta data keeps JSON *)
Definition fill_go (fill : string -> types_acc -> value -> res (value * value * types_acc))
           (prefix : string) :=
  fix go (d : list (value * value)) (acc : types_acc) : res (list (value * value) * types_acc) :=
    match d with
    | [] => Ok ([], acc)
    | (key, x) :: r =>
        if py_eqb (VStr "-cls") key then go r acc
        else
          match key, x with
          | VStr a, VDict _ _ =>
              if String.eqb a "-meta" then
                dor ra <- go r acc; Ok ((key, x) :: fst ra, snd ra)
              else
                dor xa <- fill (prefix ++ a ++ "/") acc x;
                let '(x', n, acc') := xa in
                dor ra <- go r (dset (VStr (prefix ++ a)) n acc');
                Ok ((key, x') :: fst ra, snd ra)
          | _, VDict _ _ => raise KType
          | _, _ => dor ra <- go r acc; Ok ((key, x) :: fst ra, snd ra)
          end
    end.
Lemma fill_value_dict p acc k d :
  fill_value p acc (VDict k d) =
  (dor da <- fill_go fill_value p d acc;
   Ok (VDict k (fst da), fst (strip_cls None d), snd da)).
Proof. cbn [fill_value]. reflexivity. Qed.
Lemma strip_cls_json CT k d : json CT (VDict k d) -> json CT (fst (strip_cls None d)).
Proof.
  intros H. cbn. destruct (dget (VStr "-cls") d) eqn:E; [|apply json_atom; now left].
  apply aget_In' in E as [k' Hin]. eapply json_dict_inv in H; [|eassumption]. apply H.
Qed.
Lemma fill_value_json CT : forall v p acc v' n acc',
  json CT v -> json CT (VDict DkDict acc) -> fill_value p acc v = Ok (v', n, acc') ->
  json CT v' /\ json CT n /\ json CT (VDict DkDict acc').
Proof.
  induction v using value_ind'; intros p acc v' n' acc' Hv Ha;
    try (intros E; inversion E; subst; split; [assumption|split; [apply json_atom; now left|assumption]]).
  rewrite fill_value_dict. rewrite rbind_ok. intros ([d' acc1] & Hgo & E). inversion E; subst. clear E.
  cbn [fst snd]. pose proof (strip_cls_json _ _ _ Hv) as Hn.
  cut ((forall a b, In (a, b) d' -> json_scalar CT a /\ json CT b) /\ json CT (VDict DkDict acc')).
  { intros [H1 H2]. split; [now apply json_dict|]. split; assumption. }
  assert (Hd : forall a b, In (a, b) d -> json_scalar CT a /\ json CT b)
    by (intros; eapply json_dict_inv; [exact Hv|eassumption]).
  clear Hn Hv. revert acc Ha d' acc' Hgo. induction d as [|[key x] d IHd]; intros acc Ha d' acc' Hgo.
  - cbn in Hgo. inversion Hgo; subst. split; [intros a b []|assumption].
  - inversion H as [|? ? [_ Hx] Hrest]; subst.
    assert (Hd' : forall a b, In (a, b) d -> json_scalar CT a /\ json CT b)
      by (intros; apply Hd; now right).
    assert (Hkx : json_scalar CT key /\ json CT x) by (apply Hd; now left).
    cbn [fill_go] in Hgo.
    destruct (py_eqb (VStr "-cls") key); [eapply IHd; eassumption|].
    assert (Hplain : (dor ra <- fill_go fill_value p d acc; Ok ((key, x) :: fst ra, snd ra)) = Ok (d', acc') ->
       (forall a b, In (a, b) d' -> json_scalar CT a /\ json CT b) /\ json CT (VDict DkDict acc')).
    { rewrite rbind_ok. intros ([d1 a1] & H1 & E1). inversion E1; subst.
      destruct (IHd Hrest Hd' acc Ha d1 acc' H1) as [I1 I2]. split; [|exact I2].
      intros a b [E|Hin]; [inversion E; subst; exact Hkx|auto]. }
    destruct x as [| | | | | | | |kd dd| | | |]; try (apply Hplain; destruct key; exact Hgo).
    destruct key as [| | | |a| | | | | | | |]; try discriminate.
    destruct (String.eqb a "-meta"); [apply Hplain; exact Hgo|].
    apply rbind_ok in Hgo as ([[x' n1] acc1] & H1 & Hgo).
    apply rbind_ok in Hgo as ([d1 a1] & H2 & E1). inversion E1; subst.
    apply Hx in H1 as (J1 & J2 & J3); [|apply Hkx|assumption].
    apply IHd in H2 as [I1 I2]; [|assumption|assumption|].
    + split; [|exact I2]. intros a0 b [E|Hin]; [inversion E; subst; split; [apply Hkx|exact J1]|auto].
    + apply json_dset; [assumption|apply scalar_str|assumption].
Qed.
Lemma dict_with_meta_json E o name d r :
  json (e_ct E) (VDict DkDict d) -> dict_with_meta E o name d = Ok r -> json (e_ct E) r.
Proof.
  intros Hd. unfold dict_with_meta.
  destruct (negb (so_class_info o) && negb (so_dump_time o)); [intros H; inversion H; subst; assumption|].
  assert (Hd1 : json (e_ct E) (VDict DkDict (dset (VStr "-meta") (VDict DkDict []) d)))
    by (apply json_dset; [assumption|apply scalar_str|apply json_empty]).
  cbv zeta. rewrite rbind_ok. intros ([d2 m] & H1 & H2). inversion H2; subst. clear H2. cbn [fst snd].
  assert (Hdm : json (e_ct E) (VDict DkDict d2) /\ json (e_ct E) (VDict DkDict m)).
  { destruct (so_class_info o).
    - apply rbind_ok in H1 as ([[v' n] acc] & Hf & H1).
      apply (fill_value_json (e_ct E)) in Hf as (J1 & J2 & J3); [|assumption|apply json_empty].
      assert (Hm : json (e_ct E) (VDict DkDict [(VStr "classes", VDict DkDict (dset (VStr "/") (VStr name) acc))])).
      { apply json_dict. intros a b [Eq|[]]. inversion Eq; subst. split; [apply scalar_str|].
        apply json_dset; [assumption|apply scalar_str|apply json_str]. }
      destruct v'; inversion H1; subst; (split; first [assumption | apply json_empty | idtac]).
      apply json_dict. intros. eapply json_dict_inv; [exact J1|eassumption].
    - inversion H1; subst. split; [assumption|apply json_empty]. }
  destruct Hdm as [J1 J2].
  apply json_dset; [assumption|apply scalar_str|].
  apply json_dict. intros a b Hin. apply in_app_or in Hin as [Hin|Hin].
  - eapply json_dict_inv; eassumption.
  - destruct (so_dump_time o); [|destruct Hin]. destruct Hin as [Eq|[]]. inversion Eq; subst.
    split; [apply scalar_str|apply json_str].
Qed.

(** ** Attribute lists *)
Lemma filter_attrs_In ms o st l r a t :
  filter_attrs ms o st l = Ok r -> In (a, t) r -> In (a, t) l.
Proof.
  revert r; induction l as [|[a' t'] l IH]; intros r; cbn [filter_attrs].
  - intros H; inversion H; subst. intros [].
  - rewrite rbind_ok. intros (k & Hk & H). apply rbind_ok in H as (r' & Hr & H). inversion H; subst.
    destruct k; [|right; eauto]. intros [Eq|Hin]; [left; auto|right; eauto].
Qed.
Lemma attrs_and_types_hint ci a t : In (a, Some t) (attrs_and_types ci) -> In (a, t) (ci_hints ci).
Proof.
  unfold attrs_and_types.
  set (base := match ci_slots ci with Some l => _ | None => _ end).
  assert (Hb : In (a, Some t) base -> In (a, t) (ci_hints ci)).
  { unfold base. destruct (ci_slots ci); intros H; apply in_map_iff in H as (x & Eq & Hx); inversion Eq.
    now destruct x. }
  revert Hb. generalize base. generalize (class_props (ci_members ci) ++ other_class_vars (ci_members ci))%list.
  induction l as [|b l IH]; intros base' Hb; cbn [fold_left]; [exact Hb|].
  apply IH. intros Hin. apply aset_In in Hin as [Hin|[Eq _]]; [auto|discriminate].
Qed.
Lemma no_hint_In a t' l0 : In (a, Some t') (map (fun a0 : string => (a0, @None ty)) l0) -> False.
Proof. intros Hi. apply in_map_iff in Hi as (? & Eq & _). discriminate. Qed.
Lemma attrs_from_class_hint E o t l a t' : attrs_from_class E o t = Ok l -> In (a, Some t') l ->
  exists i, t = TClass i /\ In (a, t') (ci_hints (e_ct E i)).
Proof.
  unfold attrs_from_class. rewrite rbind_ok. intros (st & _ & H) Hin.
  destruct t; apply (filter_attrs_In _ _ _ _ _ _ _ H) in Hin; try (now apply no_hint_In in Hin).
  apply attrs_and_types_hint in Hin. eauto.
Qed.
Lemma attrs_from_object_hint E o v l a t' : attrs_from_object E o v = Ok l -> In (a, Some t') l ->
  exists i, class_of v = TClass i /\ In (a, t') (ci_hints (e_ct E i)).
Proof.
  unfold attrs_from_object. rewrite rbind_ok. intros (st & _ & H) Hin.
  destruct v; apply (filter_attrs_In _ _ _ _ _ _ _ H) in Hin; try (now apply no_hint_In in Hin).
  apply in_map_iff in Hin as (a' & Eq & Hin). inversion Eq; subst.
  destruct (sget a (attrs_and_types (e_ct E c))) eqn:Es; [|discriminate]. subst.
  apply sget_In in Es. apply attrs_and_types_hint in Es. exists c. split; [reflexivity|assumption].
Qed.

(** ** dump only produces JSON *)
Section Json.
Variables (E : env) (f : nat) (o0 : sopts).
Let CT := e_ct E.
Variable V : option ty -> value -> Prop.   (* what is visited *)
Let sr c x := serializer E f c x.
Hypothesis HD : default_serializers E f.
Hypothesis HW : wf_supers CT.
Hypothesis Velem : forall c x l y t, V c x -> iterates (sr c x) ->
  py_iter (e_rt E) x = Ok l -> In y l -> elem_type E o0 c x t -> V t y.
Hypothesis Vvalue : forall c x k y t, V c x -> sr c x = Some SDict -> py_getitem CT x k = Ok y ->
  (t = None \/ exists k' u, t = Some u /\ In (k', u) (so_types o0)) -> V t y.
Hypothesis Vattr : forall c x a y t, V c x -> (sr c x = Some SObject \/ sr c x = Some STuple) ->
  get_attr E x a = Ok y ->
  (t = None \/ exists i u, (c = Some (TClass i) \/ class_of x = TClass i) /\ t = Some u /\
                           In (a, u) (ci_hints (CT i))) -> V t y.
Hypothesis Valt : forall c x t, V c x -> sr c x = Some SUnion -> In t (get_args c) ->
  (x = VNone -> ~ In TNoneT (get_args c)) -> V (Some t) x.
Hypothesis Voff : forall c off name, V c (VLeaf (LTimezone off name)) ->
  sr c (VLeaf (LTimezone off name)) = Some STimezone -> V c (VLeaf (LTimedelta off)).
Hypothesis Hcopy : forall c x a y, V c x -> copies o0 (sr c x) a -> get_attr E x a = Ok y -> json CT y.

Definition oko (o : sopts) : Prop :=
  so_strict o = so_strict o0 /\ so_enum_name o = so_enum_name o0 /\ kt_json CT o /\
  (forall k t, In (k, t) (so_types o) -> In (k, t) (so_types o0)).
Lemma oko_types o : oko o -> oko (no_types o).
Proof. intros (H0 & H1 & H2 & _). split; [exact H0|]. split; [exact H1|]. split; [exact H2|]. intros k t []. Qed.

Variable ser : sopts -> option shandler -> option ty -> value -> M value.
Hypothesis Hser : forall o cls v r, oko o -> V cls v ->
  snd (ser o (sr cls v) cls v) = Done r -> json CT r.

Lemma dump_json o cls v r : oko o -> V cls v -> snd (dump_ E f ser o cls v) = Done r -> json CT r.
Proof.
  intros Ho Hq. unfold dump_. rewrite bind_done. intros (u & _ & H).
  apply try_done in H as [H|(e & _ & H)]; [|discriminate]. eapply Hser; eassumption.
Qed.
Lemma json_of_map o l g r :
  (forall x y, In x l -> snd (g x) = Done y -> json CT y) ->
  snd (mmap (B := value) g (l : list o)) = Done r -> json CT (VList r).
Proof.
  intros Hg H. apply mmap_done in H. apply json_list. intros y Hy.
  assert (X : forall l' r', Forall2 (fun x y => snd (g x) = Done y) l' r' -> In y r' ->
             exists x, In x l' /\ snd (g x) = Done y).
  { induction 1; intros []; subst; [eexists; split; [now left|eassumption]|].
    destruct IHForall2 as (x' & ? & ?); [assumption|]. exists x'. split; [now right|assumption]. }
  destruct (X _ _ H Hy) as (x & Hx & Hxy). eauto.
Qed.
Lemma ser_list_json o cls v r : oko o -> V cls v -> sr cls v = Some SList ->
  snd (ser_list E f ser o cls v) = Done r -> json CT r.
Proof.
  intros Ho Hq Hs. assert (Hit : iterates (sr cls v)) by (now left).
  unfold ser_list. destruct (negb (truthy (e_rt E) v)).
  { intros H. inversion H; subst. apply json_list. intros x []. }
  cbv zeta. destruct (get_args cls) as [|t ts] eqn:Ea.
  - destruct (so_strict o) eqn:Est.
    + rewrite bind_done. intros (x0 & H0 & H). apply lift_done in H0.
      apply bind_done in H as (l & Hl & H). apply lift_done in Hl.
      apply bind_done in H as (l' & Hl' & H). inversion H; subst.
      eapply json_of_map; [|exact Hl']. cbn beta. intros x y Hx Hy.
      eapply (Hser (set_store false o) (Some (class_of x0)) x); [exact Ho| |exact Hy].
      eapply Velem; [eassumption..|]. eapply et_first; [|exact H0]. destruct Ho as (<- & _). exact Est.
    + rewrite bind_done. intros (l & Hl & H). apply lift_done in Hl.
      apply bind_done in H as (l' & Hl' & H). inversion H; subst.
      eapply json_of_map; [|exact Hl']. cbn beta. intros x y Hx Hy.
      eapply (dump_json (set_store false o) None x); [exact Ho| |exact Hy].
      eapply Velem; [eassumption..|]. constructor.
  - rewrite bind_done. intros (l & Hl & H). apply lift_done in Hl.
    apply bind_done in H as (l' & Hl' & H). inversion H; subst.
    eapply json_of_map; [|exact Hl']. cbn beta. intros x y Hx Hy.
    eapply (Hser (set_store false o) (Some t) x); [exact Ho| |exact Hy].
    eapply Velem; [eassumption..|]. apply et_arg. rewrite Ea. now left.
Qed.
Lemma ser_iterable_json o c cls v r : oko o -> V c v -> iterates (sr c v) ->
  (forall t, In t (get_args cls) -> In t (get_args c)) ->
  snd (ser_iterable E f ser o cls v) = Done r -> json CT r.
Proof.
  intros Ho Hq Hit Hc. unfold ser_iterable. cbv zeta. rewrite bind_done. intros (l & Hl & H).
  apply lift_done in Hl. apply bind_done in H as (cls_ & Hcls & H). apply lift_done in Hcls.
  apply bind_done in H as (subs & Hsubs & H). apply lift_done in Hsubs.
  apply bind_done in H as (r' & Hr & H). inversion H; subst. clear H.
  assert (Hc' : forall t, In t (get_args cls_) -> elem_type E o0 c v (Some t)).
  { destruct (so_strict o) eqn:Est; [|inversion Hcls; subst; intros t []].
    assert (Est0 : so_strict o0 = true) by (destruct Ho as (<- & _); exact Est).
    unfold determine_cls in Hcls.
    destruct cls as [c'|]; [inversion Hcls; subst; intros; apply et_arg; auto|].
    assert (Ht : forall y, slice1 v y -> forall t, In t (get_args (Some (rt_type (e_rt E) y))) ->
                   elem_type E o0 c v (Some t)) by (intros y Hy t Ht; eapply et_typish; eassumption).
    destruct v as [| | | |[|ch s]|[|x l1]|[|x l1]|[] [|x l1]|k [|x l1]| | |c' [|x l1]|];
      inversion Hcls; subst; try (intros t []); apply Ht; constructor. }
  eapply json_of_map; [|exact Hr]. cbn beta. intros [x c1] y Hin Hy. cbn [fst snd] in Hy.
  eapply (dump_json (set_store false o) c1 x); [exact Ho| |exact Hy].
  eapply Velem; [eassumption..| |].
  - apply in_combine_l in Hin. exact Hin.
  - apply in_combine_r in Hin. destruct c1 as [t|]; [|constructor].
    unfold get_subclasses in Hsubs. destruct (get_args cls_) as [|t1 [|t2 ts]] eqn:Ea.
    + inversion Hsubs; subst. apply repeat_spec in Hin. discriminate.
    + inversion Hsubs; subst. apply repeat_spec in Hin. inversion Hin; subst. apply Hc'. now left.
    + destruct (Nat.eqb _ _); [|discriminate]. inversion Hsubs; subst.
      change (Some t1 :: Some t2 :: map Some ts) with (map Some (t1 :: t2 :: ts)) in Hin.
      apply in_map_iff in Hin as (t' & Et & Hin). inversion Et; subst. apply Hc'. exact Hin.
Qed.
Lemma ser_namedtuple_json o cls c v r : oko o -> V cls v -> sr cls v = Some STuple ->
  snd (ser_namedtuple E f ser o c v) = Done r -> json CT r.
Proof.
  intros Ho Hq Hs. unfold ser_namedtuple. rewrite bind_done. intros (l & Hl & H). inversion H; subst.
  apply json_dict. apply mmap_done in Hl. intros a b Hin. clear H.
  induction Hl as [|x y l' r' Hxy Hl IH]; [destruct Hin|]. destruct Hin as [->|Hin]; [|auto].
  apply bind_done in Hxy as (x1 & H1 & Hxy). apply lift_done in H1.
  apply bind_done in Hxy as (d & H2 & Hxy). inversion Hxy; subst. split; [apply scalar_str|].
  eapply (dump_json o None x1); [exact Ho| |exact H2].
  eapply Vattr; [eassumption|now right|eassumption|now left].
Qed.
Lemma ser_tuple_json o cls v r : oko o -> V cls v -> sr cls v = Some STuple ->
  snd (ser_tuple E f ser o cls v) = Done r -> json CT r.
Proof.
  intros Ho Hq Hs. assert (Hit : iterates (sr cls v)) by (now right; right; left).
  assert (Hn : snd (ser_iterable E f ser o None v) = Done r -> json CT r)
    by (eapply ser_iterable_json; [exact Ho|exact Hq|exact Hit|intros t []]).
  assert (Ht : forall t, cls = Some t -> snd
     (match raw_args t with
      | None => fail (exn_of KAttribute)
      | Some args =>
          if ty_eqb TEllipsis (last args TAny) then
            dom l <- lift (py_iter (e_rt E) v);
            ser_iterable E f ser o (Some (TApp true HTuple (repeat (hd TAny args) (length l)))) v
          else ser_iterable E f ser o (Some t) v
      end) = Done r -> json CT r).
  { intros t ->. destruct (raw_args t) as [args|] eqn:Ea; [|discriminate].
    destruct (ty_eqb TEllipsis (last args TAny)) eqn:El.
    - rewrite bind_done. intros (l & Hl & H). eapply ser_iterable_json; [exact Ho|exact Hq|exact Hit| |exact H].
      intros t' Ht'. assert (t' = hd TAny args) as ->.
      { cbn in Ht'. destruct (repeat (hd TAny args) (length l)) eqn:Er; [destruct Ht'|].
        rewrite <- Er in Ht'. now apply repeat_spec in Ht'. }
      cbn. rewrite Ea. destruct args; [discriminate|]. now left.
    - intros H. eapply ser_iterable_json; [exact Ho|exact Hq|exact Hit| |exact H]. auto. }
  unfold ser_tuple. destruct v; destruct cls as [t|]; first [exact Hn | exact (Ht t eq_refl) | idtac];
    (intros H; eapply ser_namedtuple_json; [exact Ho|exact Hq|exact Hs|exact H]).
Qed.
Lemma ser_dict_go_json o c v : oko o -> V c v -> sr c v = Some SDict -> forall keys result r,
  (forall k, In k keys -> V None k) -> json CT (VDict DkDict result) ->
  snd (ser_dict_go E f ser o v keys result) = Done r -> json CT (VDict DkDict r).
Proof.
  intros Ho Hq Hsd. induction keys as [|key keys IH]; intros result r Hk Hr; cbn [ser_dict_go].
  - intros H; inversion H; subst; assumption.
  - rewrite bind_done. intros (x & Hx & H). apply lift_done in Hx.
    apply bind_done in H as ([res1 k1] & Hs & H). apply bind_done in H as (d & Hd & H).
    cbn [fst snd] in H.
    assert (Hs' : json CT (VDict DkDict res1) /\ json_scalar CT k1).
    { unfold store_and_hash in Hs. destruct (json_key (e_ct E) key) eqn:Ek.
      - inversion Hs; subst. split; [assumption|]. now apply json_key_scalar.
      - apply bind_done in Hs as (dk & Hdk & Hs).
        apply dump_json in Hdk; [|exact Ho|apply Hk; now left].
        destruct (json_key (e_ct E) dk) eqn:Edk.
        + inversion Hs; subst. split; [assumption|]. now apply json_key_scalar.
        + cbv zeta in Hs. destruct (dget (VStr "-keys") result) as [s|] eqn:Eg.
          * apply aget_In' in Eg as [k' Hin]. eapply json_dict_inv in Hin as [_ Hjs]; [|exact Hr].
            destruct s; try discriminate. inversion Hs; subst. split; [|apply scalar_int].
            apply json_dset; [assumption|apply scalar_str|].
            apply json_dset; [assumption|apply scalar_int|assumption].
          * inversion Hs; subst. split; [|apply scalar_int].
            apply json_dset; [assumption|apply scalar_str|]. apply json_dict.
            intros a b [Eq|[]]. inversion Eq; subst. split; [apply scalar_int|assumption]. }
    destruct Hs' as [Hs1 Hs2].
    apply dump_json in Hd; [|now apply oko_types|].
    2: { eapply Vvalue; [eassumption..|]. destruct (aget py_eqb key (so_types o)) eqn:Et; [right|now left].
         apply aget_In' in Et as [k' Hin]. destruct Ho as (_ & _ & _ & Ho). eauto. }
    assert (Hk' : forall k, In k keys -> V None k) by (intros; apply Hk; now right).
    destruct (so_strip_nulls o && is_none d).
    + eapply IH; [exact Hk'|exact Hs1|exact H].
    + apply bind_done in H as (k2 & Hk2 & H). apply lift_done in Hk2.
      eapply IH; [exact Hk'| |exact H]. apply json_dset; [assumption| |assumption].
      unfold apply_kt in Hk2. apply rbind_ok in Hk2 as (k3 & Hk3 & Hk2).
      destruct (hashable (e_ct E) k3); inversion Hk2; subst.
      destruct (so_kt o) as [g|] eqn:Eg.
      * destruct Ho as (_ & _ & Ho & _). eapply Ho; eassumption.
      * inversion Hk3; subst. assumption.
Qed.
Lemma ser_union_json o cls v r : oko o -> V cls v -> sr cls v = Some SUnion ->
  snd (ser_union E f ser o cls v) = Done r -> json CT r.
Proof.
  intros Ho Hq Hs. unfold ser_union. destruct cls as [t|]; [|discriminate].
  destruct (raw_args t) as [ts|] eqn:Ea; [|discriminate].
  destruct (is_none v && existsb (ty_eqb TNoneT) ts) eqn:En.
  { intros H; inversion H; subst. apply json_atom; now left. }
  assert (Ht : forall t', In t' ts -> V (Some t') v)
    by (intros t' Hin; eapply Valt; [exact Hq|exact Hs|cbn; now rewrite Ea|];
        intros ->; cbn [get_args]; rewrite Ea; intros Hn; apply existsb_ty_In in Hn; cbn [is_none andb] in En; congruence).
  clear Ea En. induction ts as [|t1 ts IH]; cbn [ser_union_go]; [discriminate|].
  rewrite try_done. intros [H|(e & He & H)].
  - eapply dump_json; [exact Ho| |exact H]. apply Ht. now left.
  - destruct (is_jsons (e_kind e)); [|discriminate]. apply IH; [intros; apply Ht; now right|exact H].
Qed.
Lemma store_cls_json o d x : json CT d -> json CT (store_cls_info E o d x).
Proof.
  intros H. destruct d; try exact H. cbn. destruct o; [|exact H].
  apply json_dset; [assumption|apply scalar_str|apply json_str].
Qed.
Lemma do_serialize_json o p v attrs : oko o ->
  (forall a t x, In (a, t) attrs -> get_attr E v a = Ok x -> V t x) ->
  forall result r, json CT (VDict DkDict result) ->
  snd (do_serialize E f ser o p v attrs result) = Done r -> json CT (VDict DkDict r).
Proof.
  intros Ho. induction attrs as [|[a c] attrs IH]; intros Ha result r Hr; cbn [do_serialize].
  - intros H; inversion H; subst; assumption.
  - rewrite bind_done. intros (x & Hx & H). apply lift_done in Hx. cbv zeta in H.
    apply bind_done in H as (u & _ & H). apply bind_done in H as (res1 & Hres & H).
    destruct res1 as [d|e].
    + assert (Hd : json CT d).
      { unfold mcatch in Hres.
        destruct (snd (dom d <- ser o (e_ser E f match c with Some t => t | None => class_of x end) c x;
                       ret (store_cls_info E (so_store_cls o) d x))) as [d'|e'|] eqn:Es;
          cbn in Hres; inversion Hres; subst.
        apply bind_done in Es as (d1 & Hd1 & Hd2). inversion Hd2; subst. apply store_cls_json.
        eapply (Hser o c x); [exact Ho| |exact Hd1]. eapply (Ha a); [now left|exact Hx]. }
      assert (Ha' : forall a t x, In (a, t) attrs -> get_attr E v a = Ok x -> V t x)
        by (intros a' t' x' Hin; apply (Ha a'); now right).
      cbv zeta in H. destruct (so_strip_nulls o && is_none d).
      * eapply IH; [exact Ha'|exact Hr|exact H].
      * apply bind_done in H as (k2 & Hk2 & H). apply lift_done in Hk2.
        eapply IH; [exact Ha'| |exact H]. apply json_dset; [assumption| |assumption].
        unfold apply_kt in Hk2. apply rbind_ok in Hk2 as (k3 & Hk3 & Hk2).
        destruct (hashable (e_ct E) k3); inversion Hk2; subst.
        destruct (so_kt o) as [g|] eqn:Eg.
        -- destruct Ho as (_ & _ & Ho & _). eapply Ho; [eassumption| |eassumption]. apply scalar_str.
        -- inversion Hk3; subst. apply scalar_str.
    + destruct (so_strict o); [discriminate|]. destruct (e_noargs e); [discriminate|].
      apply bind_done in H as (u' & _ & H). inversion H; subst. assumption.
Qed.
(** The attributes that ser_object goes through are visited. *)
Lemma object_attrs_visited o cls v attrs : V cls v -> sr cls v = Some SObject ->
  match match cls with Some t => if so_strict o then Some t else None | None => None end with
  | Some t => attrs_from_class E o t
  | None => attrs_from_object E o v
  end = Ok attrs ->
  forall a t x, In (a, t) attrs -> get_attr E v a = Ok x -> V t x.
Proof.
  intros Hq Hs H a t x Hin Hx. eapply Vattr; [exact Hq|now left|exact Hx|].
  destruct t as [t|]; [right|now left].
  assert (X : attrs_from_object E o v = Ok attrs -> exists i u,
     (cls = Some (TClass i) \/ class_of v = TClass i) /\ Some t = Some u /\ In (a, u) (ci_hints (CT i))).
  { intros H'. destruct (attrs_from_object_hint _ _ _ _ _ _ H' Hin) as (i & Hi & Hh). exists i, t. auto. }
  destruct cls as [t0|]; [destruct (so_strict o)|]; auto.
  destruct (attrs_from_class_hint _ _ _ _ _ _ H Hin) as (i & -> & Hh). exists i, t. auto.
Qed.
Lemma ser_step_json o cls v r : oko o -> V cls v ->
  snd (ser_step E f ser o (sr cls v) cls v) = Done r -> json CT r.
Proof.
  intros Ho Hq. unfold ser_step.
  destruct (sr cls v) as [h|] eqn:Eh; [|discriminate].
  assert (Hcp : forall a y, copies o0 (Some h) a -> get_attr E v a = Ok y -> json CT y)
    by (intros a y Ha; apply (Hcopy cls); [assumption..|rewrite Eh; assumption]).
  assert (Htime : forall b p, snd (ser_time_like E f b p v) = Done r -> json CT r).
  { intros b p. unfold ser_time_like. rewrite bind_done. intros (sw & _ & H).
    apply bind_done in H as (u & _ & H). inversion H; subst. apply json_str. }
  destruct h; intros H; eauto using ser_tuple_json, ser_list_json, ser_union_json.
  - (* complex *) apply bind_done in H as (re & Hre & H). apply bind_done in H as (im & Him & H).
    apply lift_done in Hre, Him. inversion H; subst. apply json_str_dict.
    intros a b [Eq|[Eq|[]]]; inversion Eq; subst; eapply Hcp; eauto; cbn; auto.
  - (* timezone *) destruct v as [| | | | | | | | |x| | |]; try discriminate.
    destruct x; try discriminate. apply bind_done in H as (d & Hd & H). inversion H; subst.
    apply dump_json in Hd; [|assumption|eauto]. apply json_str_dict.
    intros a b [Eq|[Eq|[]]]; inversion Eq; subst; [apply json_str|assumption].
  - destruct v as [| | | | | | | | |x| | |]; try discriminate. destruct x; try discriminate.
    inversion H; subst. apply json_atom, scalar_float.
  - (* primitive *) apply lift_done in H. eapply ser_primitive_json; [exact HW| |exact H].
    rewrite <- HD. exact Eh.
  - apply lift_done in H. destruct Ho as (_ & Hen & _). rewrite Hen in H. eapply Hcp; [|exact H]. reflexivity.
  - unfold ser_dict in H. apply bind_done in H as (keys & Hk & H). apply lift_done in Hk.
    apply bind_done in H as (d & Hd & H). inversion H; subst.
    eapply ser_dict_go_json; [exact Ho|exact Hq|exact Eh| |apply json_empty|exact Hd].
    intros k Hin. eapply Velem; [exact Hq| |exact Hk|exact Hin|constructor]. rewrite Eh. unfold iterates. auto.
  - eapply ser_iterable_json; [exact Ho|exact Hq| | |exact H]; [|auto]. rewrite Eh. unfold iterates. auto.
  - (* object *) unfold ser_object in H. apply bind_done in H as (attrs & Ha & H). apply lift_done in Ha.
    cbv zeta in H. apply bind_done in H as (d & Hd & H).
    apply do_serialize_json in Hd; [|exact Ho|eapply object_attrs_visited; eassumption|apply json_empty].
    destruct (so_store_cls o); [inversion H; subst; assumption|].
    apply lift_done in H. eapply dict_with_meta_json; eassumption.
  - apply lift_done in H. apply rbind_ok in H as (s & _ & H). inversion H; subst. apply json_str.
  - apply lift_done in H. apply rbind_ok in H as (s & _ & H). inversion H; subst. apply json_str.
  - destruct v as [| | | | | | | | |x| | |]; try discriminate. destruct x; try discriminate.
    inversion H; subst. apply json_str.
  - apply bind_done in H as (k & Hk & H). apply lift_done in Hk. inversion H; subst. apply json_str_dict.
    intros a b [Eq|[]]; inversion Eq; subst; eapply Hcp; eauto; reflexivity.
  - exfalso. unfold sr, serializer in Eh. rewrite HD in Eh. now apply ser_no_custom in Eh.
Qed.
End Json.

Lemma serialize_json E f o0 cls0 v0 :
  default_serializers E f -> wf_supers (e_ct E) -> copied_json E f o0 cls0 v0 ->
  forall n o cls v r, oko E o0 o -> visits E f o0 cls0 v0 cls v ->
  snd (serialize E f n o (serializer E f cls v) cls v) = Done r -> json (e_ct E) r.
Proof.
  intros HD HW Hc. induction n as [|n IH]; intros o cls v r Ho Hq; [discriminate|].
  cbn [serialize]. apply (ser_step_json E f o0 (visits E f o0 cls0 v0)); eauto using visits.
Qed.
Lemma dump_only_json E f n o cls v r :
  default_serializers E f -> wf_supers (e_ct E) -> kt_json (e_ct E) o -> copied_json E f o cls v ->
  snd (dump E f n o cls v) = Done r -> json (e_ct E) r.
Proof.
  intros HD HW Hkt Hcp H. unfold dump in H.
  eapply (dump_json E f o (visits E f o cls v)); [| | |exact H].
  - intros o' cls' v' r'. eapply serialize_json; eassumption.
  - repeat split; auto.
  - apply visit_root.
Qed.
