(** * Handlers for a type have no influence on other types: proofs *)
From Verif Require Import PyBaseFacts EngineFacts LoadFacts LoadTypes LoadSame ConformProofs DumpProofs.
From Verif Require Export FrameSpec.
Local Close Scope Z_scope.
Local Open Scope string_scope.

Notation clean := nameless.
Lemma clean_str s : clean (VStr s).
Proof. now apply nl_plain. Qed.
Lemma clean_none : clean VNone.
Proof. now apply nl_plain. Qed.
Lemma clean_valid j : clean j -> valid_type j = true.
Proof. intros [v Hv|l _|l _|l _|d0 _]; try reflexivity. destruct v; try contradiction; reflexivity. Qed.
Lemma clean_iter R j l : clean j -> py_iter R j = Ok l -> Forall clean l.
Proof.
  intros H Hi. apply Forall_forall. intros x Hx. destruct H as [v Hv|m Hm|m Hm|m Hm|m Hm]; cbn [py_iter] in Hi.
  - destruct v; try contradiction; try discriminate Hi. cbn [py_iter] in Hi. injection Hi as <-.
    apply in_map_iff in Hx as (c & <- & _). apply clean_str.
  - injection Hi as <-. auto.
  - injection Hi as <-. auto.
  - injection Hi as <-. auto.
  - injection Hi as <-. apply in_map_iff in Hx as ([a y] & <- & Hx). now apply (Hm a y).
Qed.
Lemma clean_dict k m : clean (VDict k m) -> forall a x, In (a, x) m -> a <> VStr "-meta" /\ clean a /\ clean x.
Proof. intros H. inversion H as [v Hv| | | |m' Hm]; subst; [contradiction|exact Hm]. Qed.
Lemma clean_values k d x : clean (VDict k d) -> In x (map snd d) -> clean x.
Proof. intros H Hx. apply in_map_iff in Hx as ([a y] & <- & Hx). now apply (clean_dict k d H a y). Qed.
Lemma clean_keys k d x : clean (VDict k d) -> In x (map fst d) -> clean x.
Proof. intros H Hx. apply in_map_iff in Hx as ([a y] & <- & Hx). now apply (clean_dict k d H a y). Qed.
Lemma clean_meta j : clean j -> no_meta_entry j.
Proof. intros H k d x -> Hin. now apply (clean_dict k d H _ _ Hin). Qed.
Lemma clean_item CT j i x : clean j -> (forall k d, j <> VDict k d) -> py_getitem CT j (VInt i) = Ok x -> clean x.
Proof.
  intros H Hd Hi.
  assert (G : forall l, (if ((0 <=? (if i <? 0 then i + Z.of_nat (length l) else i)) &&
                             ((if i <? 0 then i + Z.of_nat (length l) else i) <? Z.of_nat (length l)))%Z
     then match nth_error l (Z.to_nat (if (i <? 0)%Z then i + Z.of_nat (length l) else i)%Z) with Some y => Ok y | None => raise KIndex end
     else raise KIndex) = Ok x -> In x l).
  { intros l. destruct (_ && _)%bool; [|discriminate]. destruct (nth_error l _) eqn:En; [|discriminate].
    intros Hx. injection Hx as <-. now apply nth_error_In in En. }
  destruct H as [v Hv|m Hm|m Hm|m Hm|m Hm]; cbn [py_getitem] in Hi.
  - destruct v; try contradiction; try discriminate Hi. cbn [py_getitem] in Hi.
    apply G in Hi. unfold str_chars in Hi. apply in_map_iff in Hi as (c & <- & _). apply clean_str.
  - apply G in Hi. auto.
  - apply G in Hi. auto.
  - discriminate.
  - now destruct (Hd DkDict m).
Qed.
Lemma clean_entry CT j s x : clean j -> py_getitem CT j (VStr s) = Ok x -> clean x.
Proof.
  intros H Hi. destruct H as [v Hv|m Hm|m Hm|m Hm|m Hm]; cbn [py_getitem] in Hi; try discriminate Hi.
  - destruct v; try contradiction; discriminate Hi.
  - destruct (hashable CT (VStr s)); [|discriminate]. destruct (dget (VStr s) m) as [y|] eqn:Ey; [|discriminate].
    injection Hi as <-. apply dget_In in Ey. now apply (Hm (VStr s)).
Qed.

Section Frame.
Variables (CT : classes) (R : runtime) (ob : nat).
Variables (s s' : nat -> ty -> option shandler) (d d' : nat -> ty -> option dhandler).
Variables (vd vd' : nat -> ty -> option (value -> res bool)) (w w' : nat -> string -> bool).
Variables (rs rs' : nat -> string -> res ty) (cs cs' : nat -> option ty -> value -> res value).
Variables (cd cd' : nat -> ty -> value -> res value).
Let E := mkEnv CT R ob s d vd w rs cs cd.
Let E' := mkEnv CT R ob s' d' vd' w' rs' cs' cd'.
Variable P : ty -> Prop.
Hypothesis Hd : forall f t, P t -> d' f t = d f t.
Hypothesis Hv : forall f t, P t -> vd' f t = vd f t.
Hypothesis Hw : forall f c, w' f c = w f c.
Hypothesis Hr : forall f n, rs' f n = rs f n.
Hypothesis Hc : forall n t j, cd' n t j = cd n t j.
Hypothesis Pdoc : forall j, valid_type j = true -> P (class_of j).
Hypothesis Pdt : P (TLeaf LkDatetime).
Hypothesis Ptd : P (TLeaf LkTimedelta).
Hypothesis Pprim : forall p, P (TPrim p).
Hypothesis Pargs : forall t a, P t -> In a (get_args (Some t)) -> P a.
Hypothesis Pdict : forall l, (forall a, In a l -> P a) -> P (TApp true HDict l).
Hypothesis Pname : forall f n t, P (TFwd n) -> rs f n = Ok t -> P t.
Hypothesis Pparam : forall t c p h, P t -> class_number E t c -> In p (ci_params (CT c)) -> pa_hint p = Some h -> P h.
Hypothesis Pattr : forall t c a h, P t -> class_number E t c -> sget a (ci_hints (CT c)) = Some h -> P h.
Hypothesis Pfield : forall t c fd h, P t -> class_number E t c -> In fd (nt_fields CT c) -> nf_hint fd = Some h -> P h.
Hypothesis Hdef : nameless_defaults CT.

Definition Po (cls : option ty) : Prop := match cls with Some t => P t | None => True end.
Definition okay (o : lopts) : Prop := no_hints o /\ nameless_transformer o.
Lemma okay0 : okay lopts0.
Proof. split; [now left|]. intros g k k' H. discriminate. Qed.
Lemma okay_getters g o : okay o -> okay (set_getters g o).
Proof. exact (fun H => H). Qed.
Lemma okay_inferred b o : okay o -> okay (set_inferred b o).
Proof. exact (fun H => H). Qed.
Lemma okay_warn b o : okay o -> okay (set_warn b o).
Proof. exact (fun H => H). Qed.
Lemma okay_hints o : okay o -> okay (set_hints (Some []) o).
Proof. intros [_ H]. split; [now right|exact H]. Qed.
Lemma okay_nokt o : okay o -> okay (set_kt None o).
Proof. intros [H _]. split; [exact H|]. intros g k k' Hk. discriminate. Qed.
Lemma okay_kt o : okay o -> okay (set_kt (Some match lo_kt o with Some g => g | None => fun k => Ok k end) o).
Proof.
  intros [H H']. split; [exact H|]. intros g k k' Hg Hk. injection Hg as <-. destruct (lo_kt o) eqn:K; [now apply (H' r)|].
  intros Q. now injection Q as <-.
Qed.
Variables ld ld' : nat -> lopts -> option ty -> value -> M value.
Hypothesis HL : forall f o cls j, okay o -> Po cls -> clean j -> ld f o cls j = ld' f o cls j.
Hypothesis HI : forall f o cls j, okay o -> Po cls -> valid_type j = false -> ld f o cls j = ld' f o cls j.
Variable f : nat.

Lemma fr_warn c : warn E f c = warn E' f c.
Proof. unfold warn. cbn. now rewrite Hw. Qed.
Lemma fr_list_go o b t l : okay o -> Po t -> Forall clean l -> forall i,
  deser_list_go E ld f o b t i l = deser_list_go E' ld' f o b t i l.
Proof.
  intros Ho Ht Hl. induction Hl as [|x l Hx Hl IH]; intros i; [reflexivity|]. cbn [deser_list_go].
  rewrite (HL f o t x Ho Ht Hx). destruct (snd (ld' f o t x)) as [y|e|]; [|destruct (is_deser (e_kind e)); [|reflexivity]; destruct b|reflexivity].
  - apply bind_ext; [reflexivity|]. intros _ _. apply bind_ext; [apply IH|reflexivity].
  - apply bind_ext; [reflexivity|]. intros _ _. rewrite fr_warn. apply bind_ext; [reflexivity|]. intros _ _. apply IH.
  - reflexivity.
Qed.
Lemma fr_list o args j : okay o -> (forall a, In a args -> P a) -> clean j ->
  deser_list E ld f o args j = deser_list E' ld' f o args j.
Proof.
  intros Ho Ha Hcj. unfold deser_list. cbn [e_rt E E'].
  apply bind_ext; [reflexivity|]. intros l Hl. apply lift_done in Hl.
  apply fr_list_go; [|destruct args; [exact I|apply Ha; now left]|now apply (clean_iter R j)].
  apply okay_warn. destruct args; [exact Ho|now apply okay_inferred].
Qed.
Lemma fr_nt_go o j dd len fields : okay o -> clean j ->
  (forall dd0, dd = Some dd0 -> forall x, In x (map snd dd0) -> clean x) ->
  (dd = None -> forall k d0, j <> VDict k d0) ->
  (forall fd, In fd fields -> Po (nf_hint fd) /\ forall x, nf_default fd = Some x -> clean x \/ valid_type x = false) -> forall i,
  deser_nt_go E ld f o j dd len i fields = deser_nt_go E' ld' f o j dd len i fields.
Proof.
  intros Ho Hj Hdd Hnd. induction fields as [|fd fields IH]; intros Hfs i; [reflexivity|]. cbn [deser_nt_go e_ct E E'].
  destruct (Hfs fd (or_introl eq_refl)) as [Hh Hdf].
  apply bind_ext; [reflexivity|]. intros x Hx. apply lift_done in Hx.
  apply bind_ext; [reflexivity|]. intros _ _.
  assert (Hfx : clean x \/ valid_type x = false).
  { destruct (Nat.ltb i len).
    - left. destruct dd as [dd|].
      + destruct (dget (VStr (nf_name fd)) dd) as [y|] eqn:Ey; [|discriminate]. injection Hx as <-.
        apply (Hdd dd eq_refl). now apply (dget_values (VStr (nf_name fd))).
      + apply (clean_item CT j (Z.of_nat i)); auto.
    - destruct (nf_default fd) as [y|] eqn:Ey; injection Hx as <-; [auto|left; apply clean_none]. }
  apply bind_ext; [destruct Hfx; [now apply HL|now apply HI]|]. intros y _.
  apply bind_ext; [|reflexivity]. apply IH. intros fd' Hin. apply Hfs. now right.
Qed.
Lemma fr_namedtuple o t c j : okay o -> P t -> class_number E t c -> clean j ->
  deser_namedtuple E ld f o c j = deser_namedtuple E' ld' f o c j.
Proof.
  intros Ho Ht Hn Hj. unfold deser_namedtuple. cbn [e_rt e_ct E E'].
  apply bind_ext; [reflexivity|]. intros dd Hdd.
  apply bind_ext; [reflexivity|]. intros l _. apply bind_ext; [|reflexivity].
  apply fr_nt_go; auto.
  - intros dd0 -> x Hx. destruct j; try discriminate Hdd. apply bind_done in Hdd as (d1 & Hd0 & Q). injection Q as ->.
    apply lift_done in Hd0. apply (transform_values _ _ _ _ _ Hd0) in Hx as [Hx|[]]. now apply (clean_values k d0).
  - intros -> k d0 ->. apply bind_done in Hdd as (d1 & _ & Q). discriminate Q.
  - intros fd Hin. split; [|intros x Hx; now apply (Hdef c fd)].
    destruct (nf_hint fd) as [h|] eqn:Hh; [|exact I]. now apply (Pfield t c fd).
Qed.
Lemma fr_tuple_go o l : okay o -> Forall clean l -> forall ts, (forall a, In a ts -> P a) ->
  deser_tuple_go ld f o l ts = deser_tuple_go ld' f o l ts.
Proof.
  intros Ho Hl. induction Hl as [|x l Hx Hl IH]; intros ts Hts; [reflexivity|]. cbn [deser_tuple_go].
  destruct ts as [|t ts]; [reflexivity|]. apply bind_ext; [apply HL; auto; apply Hts; now left|]. intros y _.
  apply bind_ext; [apply IH; intros a Ha; apply Hts; now right|reflexivity].
Qed.
Lemma fr_mmap {A B} (k k' : A -> M B) l : (forall x, In x l -> k x = k' x) -> mmap k l = mmap k' l.
Proof.
  induction l as [|x l IH]; intros H; [reflexivity|]. cbn [mmap].
  apply bind_ext; [apply H; now left|]. intros y _. apply bind_ext; [apply IH; intros z Hz; apply H; now right|reflexivity].
Qed.
Lemma fr_tuple o t j : okay o -> P t -> clean j ->
  deser_tuple E ld f o t j = deser_tuple E' ld' f o t j.
Proof.
  intros Ho Ht Hj. unfold deser_tuple. cbn [e_rt e_ct E E'].
  set (p := mbind _ _). set (p' := mbind _ _).
  assert (Hp : p = p').
  { unfold p, p'. apply bind_ext; [reflexivity|]. intros l Hl. apply lift_done in Hl. pose proof (clean_iter R j l Hj Hl) as Hfl.
    pose proof (fun a => Pargs t a Ht) as Ha. destruct (get_args (Some t)) as [|t0 ts].
    - apply bind_ext; [|reflexivity]. apply fr_mmap. intros x Hx. apply HL; [now apply okay_nokt|exact I|].
      rewrite Forall_forall in Hfl. auto.
    - apply bind_ext; [|reflexivity]. apply fr_tuple_go; [now apply okay_nokt|exact Hfl|].
      destruct (ty_eqb TEllipsis (last (t0 :: ts) TAny)); [|exact Ha].
      intros a Hin. apply repeat_spec in Hin as ->. apply Ha. now left. }
  rewrite Hp. destruct t; try reflexivity. destruct (ci_kind (CT c)); try reflexivity. apply (fr_namedtuple o (TClass c)); auto. now left.
Qed.
Lemma fr_union_go o j ts : okay o -> clean j -> (forall a, In a ts -> P a) -> deser_union_go ld f o j ts = deser_union_go ld' f o j ts.
Proof.
  intros Ho Hj. induction ts as [|t ts IH]; intros Hts; [reflexivity|]. cbn [deser_union_go].
  apply try_ext; [apply HL; auto; apply Hts; now left|]. intros e. rewrite IH; [reflexivity|]. intros a Ha. apply Hts. now right.
Qed.
Lemma fr_hashed_go o kt stored : okay o -> P kt -> (forall x, In x (map snd stored) -> clean x) -> forall result,
  hashed_go E ld f o kt stored result = hashed_go E' ld' f o kt stored result.
Proof.
  intros Ho Hk. induction stored as [|[h orig] stored IH]; intros Hs result; [reflexivity|]. cbn [hashed_go e_ct E E'].
  apply bind_ext; [apply HL; auto; apply Hs; now left|]. intros k _.
  destruct (dget h result); [|reflexivity]. rewrite IH; [reflexivity|]. intros x Hx. apply Hs. now right.
Qed.
Lemma ddel_values k d0 x : In x (map snd (ddel k d0)) -> In x (map snd d0).
Proof.
  unfold ddel. induction d0 as [|[a y] d0 IH]; cbn [adel]; [auto|]. destruct (py_eqb k a); cbn [map snd]; [now right|].
  intros [H|H]; [now left|right; auto].
Qed.
Lemma hashed_values o kt stored : forall result dres, snd (hashed_go E ld f o kt stored result) = Done dres ->
  forall x, In x (map snd dres) -> In x (map snd result).
Proof.
  induction stored as [|[h orig] stored IH]; intros result dres; cbn [hashed_go].
  - destruct (dhas (VStr "-keys") result); [|discriminate]. intros H x Hx. injection H as <-. now apply ddel_values in Hx.
  - intros H x Hx. apply bind_done in H as (k & _ & H). destruct (dget h result) as [y|] eqn:Hy; [|discriminate].
    destruct (_ && _)%bool; [|discriminate]. apply (IH _ _ H) in Hx. apply ddel_values, dset_values in Hx as [->|Hx]; [|exact Hx].
    now apply dget_values in Hy.
Qed.
Lemma fr_dict_go ok ov gt kc vc dd : okay ok -> okay ov -> Po kc -> Po vc ->
  (forall k k', clean k -> gt k = Ok k' -> clean k') ->
  (forall x, In x (map snd dd) -> clean x) -> (kc <> None -> forall k, In k (map fst dd) -> clean k) -> forall acc,
  deser_dict_go E ld f ok ov gt kc vc dd acc = deser_dict_go E' ld' f ok ov gt kc vc dd acc.
Proof.
  intros Hk Ho Hkc Hvc Hg. induction dd as [|[k x] dd IH]; intros Hs Hks acc; [reflexivity|]. cbn [deser_dict_go e_ct E E'].
  apply bind_ext; [reflexivity|]. intros k1 Hk1. apply lift_done in Hk1.
  apply bind_ext; [destruct kc as [t|]; [apply HL; auto; apply (Hg k); auto; apply Hks; [discriminate|now left]|reflexivity]|]. intros k2 _.
  apply bind_ext; [apply HL; auto; apply Hs; now left|]. intros y _.
  rewrite IH; [reflexivity|intros z Hz; apply Hs; now right|intros Hn z Hz; apply Hks; [exact Hn|now right]].
Qed.
Lemma fr_dict o args j : okay o -> (forall a, In a args -> P a) -> clean j -> deser_dict E ld f o args j = deser_dict E' ld' f o args j.
Proof.
  intros Ho Ha Hj. unfold deser_dict. destruct j as [| | | | | | | |k dd| | | |]; try reflexivity.
  pose proof (fun x => clean_values k dd x Hj) as Hvals.
  assert (Hh : forall keys, dget (VStr "-keys") dd = Some keys -> clean keys).
  { intros keys Hk. apply Hvals. now apply dget_values in Hk. }
  apply bind_ext.
  - unfold load_hashed_keys. cbn [e_rt E E']. destruct (dget (VStr "-keys") dd) as [keys|] eqn:Ek; [|reflexivity].
    specialize (Hh keys eq_refl).
    apply bind_ext; [reflexivity|]. intros ks _. destruct ks; [reflexivity|].
    destruct args as [|kt [|? [|]]]; try reflexivity. destruct keys; try reflexivity.
    apply bind_ext; [|reflexivity]. apply fr_hashed_go; auto; [apply Ha; now left|]. intros x Hx. eapply clean_values; eauto.
  - intros dh Hdh.
    assert (Hdv : (forall x, In x (map snd (fst dh)) -> clean x) /\ (snd dh = false -> fst dh = dd)).
    { unfold load_hashed_keys in Hdh. destruct (dget (VStr "-keys") dd) as [keys|] eqn:Ek; [|injection Hdh as <-; auto].
      apply bind_done in Hdh as (ks & _ & Hdh). destruct ks; [injection Hdh as <-; auto|].
      destruct args as [|kt [|? [|]]]; try discriminate Hdh; destruct keys; try discriminate Hdh.
      apply bind_done in Hdh as (d1 & Hd1 & Hdh). injection Hdh as <-. split; [|discriminate].
      intros x Hx. apply Hvals. now apply (hashed_values _ _ _ _ _ Hd1). }
    destruct Hdv as [Hdv Hdf].
    assert (Hg : forall k0 k', clean k0 -> match lo_kt o with Some g => g | None => fun k1 => Ok k1 end k0 = Ok k' -> clean k').
    { intros k0 k' Hk Hk'. apply (proj2 (okay_kt o Ho) _ k0 k' eq_refl Hk Hk'). }
    destruct args as [|tk [|tv [|]]]; apply fr_dict_go; auto using okay_nokt, okay_kt;
      try exact I; try (intros Hx; congruence).
    + destruct (snd dh); [exact I|]. apply Ha. now left.
    + apply Ha. right. now left.
    + intros Hx k0 Hk0. destruct (snd dh); [congruence|]. rewrite (Hdf eq_refl) in Hk0. now apply (clean_keys k dd).
Qed.
Lemma fr_mapping o t j : okay o -> P t -> clean j -> deser_mapping E ld f o t j = deser_mapping E' ld' f o t j.
Proof.
  intros Ho Ht Hj. unfold deser_mapping. apply bind_ext; [reflexivity|]. intros args Hargs. apply lift_done in Hargs.
  apply bind_ext; [|reflexivity]. apply fr_dict; auto. pose proof (fun a => Pargs t a Ht) as Ha.
  destruct (get_args (Some t)) as [|a [|b [|]]]; try discriminate; injection Hargs as <-; auto.
Qed.
Lemma fr_defaultdict o t j : okay o -> P t -> clean j -> deser_defaultdict ld f o t j = deser_defaultdict ld' f o t j.
Proof.
  intros Ho Ht Hj. unfold deser_defaultdict. apply bind_ext; [reflexivity|]. intros t' Ht'. apply lift_done in Ht'.
  apply bind_ext; [|reflexivity]. apply HL; auto. pose proof (fun a => Pargs t a Ht) as Ha.
  destruct (get_args (Some t)) as [|a [|b [|]]]; try discriminate; injection Ht' as <-; now apply Pdict.
Qed.
Lemma fr_iterable o t j : okay o -> P t -> clean j -> deser_iterable E ld f o t j = deser_iterable E' ld' f o t j.
Proof.
  intros Ho Ht Hj. unfold deser_iterable. apply bind_ext; [reflexivity|]. intros args Hargs. apply lift_done in Hargs.
  apply bind_ext; [|reflexivity]. apply fr_list; auto. pose proof (fun a => Pargs t a Ht) as Ha. unfold get_args in Ha.
  destruct (raw_args t) as [[|a [|]]|]; try discriminate; injection Hargs as <-; auto.
Qed.
(** Objects *)
Lemma fr_value_from o p x : okay o -> Po (pa_hint p) -> clean x -> value_from_obj E ld f o [] p x = value_from_obj E' ld' f o [] p x.
Proof.
  intros Ho Hp Hx. unfold value_from_obj. cbn [dget aget]. apply bind_ext; [reflexivity|]. intros mh Hmh.
  injection Hmh as <-. cbn [fst snd]. apply HL; [now apply okay_hints| |exact Hx].
  destruct (pa_hint p); [exact Hp|exact I].
Qed.
Lemma fr_constructor o dd gs ps : okay o -> (forall p, In p ps -> Po (pa_hint p)) -> (forall x, In x (map snd dd) -> clean x) ->
  constructor_args E ld f o [] dd gs ps = constructor_args E' ld' f o [] dd gs ps.
Proof.
  intros Ho Hp Hx. induction ps as [|p ps IH]; [reflexivity|]. cbn [constructor_args].
  apply bind_ext.
  - unfold value_for_attr. destruct (dget (VStr (pa_name p)) dd) as [x|] eqn:Ex; [|reflexivity].
    apply bind_ext; [|reflexivity]. apply fr_value_from; auto; [apply Hp; now left|]. apply Hx. now apply dget_values in Ex.
  - intros x _. apply bind_ext; [apply IH; intros q Hq; apply Hp; now right|reflexivity].
Qed.
Lemma fr_remaining o t c rest : okay o -> P t -> class_number E t c ->
  (forall x, In x (map snd rest) -> clean x) -> forall at_,
  set_remaining E ld f o (CT c) rest at_ = set_remaining E' ld' f o (CT c) rest at_.
Proof.
  intros Ho Ht Hn. induction rest as [|[k x] rest IH]; intros Hx at_; [reflexivity|]. cbn [set_remaining]. rewrite fr_warn.
  apply bind_ext; [reflexivity|]. intros _ _. assert (Hcx : clean x) by (apply Hx; now left).
  apply bind_ext.
  - apply HL; auto. cbn [Po]. destruct k; try (apply Pdoc; now apply clean_valid).
    destruct (sget s0 (ci_hints (CT c))) as [h|] eqn:Eh; [now apply (Pattr t c s0)|apply Pdoc; now apply clean_valid].
  - intros y _. assert (IH' := fun a => IH (fun z Hz => Hx z (or_intror Hz)) a).
    destruct k; try reflexivity. destruct (ci_set (CT c) s0 y at_) as [a|e]; [apply IH'|]. now rewrite IH'.
Qed.
Lemma fr_object o t j : okay o -> P t -> clean j -> deser_object E ld f o t j = deser_object E' ld' f o t j.
Proof.
  intros Ho Ht Hj. unfold deser_object.
  assert (Hc0 : forall c, cid_of E t = Some c -> class_number E t c).
  { intros c Hc0. destruct t; try discriminate Hc0; injection Hc0 as <-; [now right|now left]. }
  change (cid_of E' t) with (cid_of E t). destruct (cid_of E t) as [c|]; [|reflexivity]. specialize (Hc0 c eq_refl).
  cbn [e_ct E E'].
  apply bind_ext; [reflexivity|]. intros d0 Hd0. apply lift_done in Hd0.
  assert (H0 : forall x, In x (map snd d0) -> clean x).
  { destruct j as [| | | |[|] |[|]|[|]|? [|]|k m| | |? [|]|]; try discriminate; injection Hd0 as <-; try (intros x []).
    intros x Hx. now apply (clean_values k m). }
  apply bind_ext; [reflexivity|]. intros dd Hdd. apply lift_done in Hdd.
  assert (H1 : forall x, In x (map snd dd) -> clean x).
  { destruct (lo_kt o); [|injection Hdd as <-; exact H0]. intros x Hx.
    apply (transform_values _ _ _ _ _ Hdd) in Hx as [Hx|[]]. auto. }
  assert (Hh : match lo_hints o with Some h => h | None => [] end = []) by (destruct Ho as [[-> | ->] _]; reflexivity).
  rewrite Hh.
  apply bind_ext.
  { apply fr_constructor; [now apply okay_getters| |exact H1]. intros p Hp. destruct (pa_hint p) as [h|] eqn:Eh; [|exact I].
    now apply (Pparam t c p). }
  intros args _. apply bind_ext; [reflexivity|]. intros rest Hrest. apply lift_done in Hrest.
  apply bind_ext; [reflexivity|]. intros _ _. apply bind_ext; [reflexivity|]. intros attrs _.
  apply bind_ext; [|reflexivity]. apply (fr_remaining _ t c); [now apply okay_getters|exact Ht|exact Hc0|].
  intros x Hx. apply H1. unfold remaining_args in Hrest.
  destruct (filter _ dd) as [|[k y] r] eqn:Ef; [injection Hrest as <-; destruct Hx|].
  destruct (lo_strict o); [discriminate|]. injection Hrest as <-. rewrite <- Ef in Hx.
  apply in_map_iff in Hx as (q & <- & Hq). apply filter_In in Hq as [Hq _]. now apply (in_map snd) in Hq.
Qed.
Lemma fr_step o h t j : okay o -> P t -> clean j -> d f t = Some h -> deser_step E ld f o h t j = deser_step E' ld' f o h t j.
Proof.
  intros Ho Ht Hj Hh. destruct h; cbn [deser_step]; try reflexivity.
  - apply bind_ext; [|reflexivity]. apply fr_list; auto. intros a Ha. now apply (Pargs t).
  - now apply fr_tuple.
  - unfold deser_union. pose proof (fun a => Pargs t a Ht) as Ha. unfold get_args in Ha.
    destruct (raw_args t); [now apply fr_union_go|reflexivity].
  - now apply fr_defaultdict.
  - unfold deser_timezone. apply bind_ext; [reflexivity|]. intros off Hoff. apply lift_done in Hoff. apply bind_ext; [|reflexivity].
    apply HL; [apply okay0|exact Ptd|now apply (clean_entry CT j "offset")].
  - unfold deser_string. destruct (_ && _)%bool; [reflexivity|]. apply try_ext; [now apply HL|reflexivity].
  - now apply fr_mapping.
  - now apply fr_iterable.
  - now apply fr_object.
  - unfold deser_complex. apply try_ext; [|reflexivity]. apply bind_ext; [reflexivity|]. intros re Hre.
    apply bind_ext; [reflexivity|]. intros im Him. apply lift_done in Hre, Him.
    apply bind_ext; [|reflexivity]. apply HL; [apply okay0| |].
    + cbn [Po]. apply Pdict. intros a [<-|[<-|[]]]; apply Pprim.
    + apply nl_dict. intros a x [Q|[Q|[]]]; injection Q as <- <-; repeat split; try discriminate; try apply clean_str;
        [now apply (clean_entry CT j "real")|now apply (clean_entry CT j "imag")].
  - cbn [e_cdeser E E']. now rewrite Hc.
Qed.
Lemma fr_load_step o cls j : okay o -> Po cls -> clean j \/ valid_type j = false -> load_step E ld f o cls j = load_step E' ld' f o cls j.
Proof.
  intros Ho Hcls Hj. unfold load_step. cbn [e_ct e_resolve E E'].
  assert (Hva : forall v t, P t -> validate E f v t = validate E' f v t) by (intros v t Ht; unfold validate; cbn; now rewrite Hv).
  apply bind_ext; [reflexivity|]. intros _ _.
  destruct ((negb (lo_strict o) && same_type j cls) || match cls with Some TAny => true | _ => false end).
  { apply bind_ext; [|reflexivity]. f_equal. destruct cls; [now apply Hva|reflexivity]. }
  apply bind_ext.
  { f_equal. destruct cls as [[]|]; try reflexivity. now rewrite Hr. }
  intros cls1 Hcls1. apply lift_done in Hcls1. destruct (valid_type j) eqn:Evj; [|reflexivity].
  destruct Hj as [Hj|Hj]; [|discriminate Hj]. cbn [negb].
  assert (Pcls1 : Po cls1).
  { destruct cls as [t|]; [|injection Hcls1 as <-; exact I]. destruct t; try (injection Hcls1 as <-; exact Hcls).
    destruct (rs f s0) as [t|] eqn:Et; [|discriminate]. injection Hcls1 as <-. now apply (Pname f s0). }
  rewrite !no_meta_get by (now apply clean_meta).
  apply bind_ext; [reflexivity|]. intros mh Hmh. injection Hmh as <-. cbn [fst snd].
  assert (Pt : forall t, determine_precedence cls1 None (Some (class_of j)) (lo_inferred o) = Some t -> P t).
  { intros t Ht. unfold determine_precedence in Ht. destruct (lo_inferred o), cls1 as [u|]; cbn in Ht; injection Ht as <-;
      try exact Pcls1; now apply Pdoc. }
  destruct (determine_precedence cls1 None (Some (class_of j)) (lo_inferred o)) as [t|]; [|reflexivity].
  specialize (Pt t eq_refl).
  cbn [e_deser E E']. rewrite Hd by exact Pt. destruct (d f t) as [h|] eqn:Eh; [|reflexivity].
  assert (Hh : match lo_hints o with Some h => h | None => [] end = []) by (destruct Ho as [[-> | ->] _]; reflexivity).
  rewrite Hh.
  unfold wrap_deser. apply try_ext; [|reflexivity]. apply bind_ext.
  - apply fr_step; [|exact Pt|exact Hj|exact Eh]. apply okay_inferred. now apply okay_hints.
  - intros r _. rewrite Hva by exact Pt. reflexivity.
Qed.
End Frame.

(** ** The types that do not involve those in question *)
Section Away.
Variables (E : env) (X : ty -> Prop).
Hypothesis HX : particular X.
Definition away (t : ty) : Prop := ~ involves E X t.
Lemma away_not t : away t -> ~ X t.
Proof. intros H Hx. apply H. now apply iv_self. Qed.
Lemma plain_away t : ~ X t -> (forall c, ~ class_number E t c) -> (forall a, ~ In a (get_args (Some t))) ->
  (forall n, t <> TFwd n) -> away t.
Proof.
  intros Hx Hn Ha Hf H. destruct H as [t Ht|b h args a Hin _|args a Hin _|t c p h Hc _ _ _|t c a h Hc _ _|t c fd h Hc _ _ _|n f t Hr _].
  - now apply Hx.
  - apply (Ha a). destruct args; [destruct Hin|exact Hin].
  - now apply (Ha a).
  - now apply (Hn c).
  - now apply (Hn c).
  - now apply (Hn c).
  - now apply (Hf n).
Qed.
Lemma away_doc j : valid_type j = true -> away (class_of j).
Proof.
  intros Hj. assert (G : match class_of j with TNoneT | TPrim _ | TApp _ _ [] => True | _ => False end).
  { destruct j as [| | | | | | |[]|[]| | | |]; try discriminate Hj; exact I. }
  apply plain_away.
  - intros Hx. apply HX in Hx. destruct (class_of j); contradiction.
  - intros c [Hc|[Hc _]]; rewrite Hc in G; exact G.
  - intros a Ha. destruct (class_of j); try contradiction. cbn in Ha. destruct args; contradiction.
  - intros n Hn. rewrite Hn in G. exact G.
Qed.
Lemma away_leaf k : k = LkDatetime \/ k = LkTimedelta -> away (TLeaf k).
Proof.
  intros Hk. apply plain_away.
  - intros Hx. apply HX in Hx. destruct Hk as [-> | ->]; exact Hx.
  - intros c [Hc|[Hc _]]; discriminate.
  - intros a [].
  - discriminate.
Qed.
Lemma away_prim p : away (TPrim p).
Proof.
  apply plain_away.
  - intros Hx. now apply HX in Hx.
  - intros c [Hc|[Hc _]]; discriminate.
  - intros a [].
  - discriminate.
Qed.
Lemma away_args t a : away t -> In a (get_args (Some t)) -> away a.
Proof.
  intros Ht Ha H. apply Ht. destruct t; try (now destruct Ha).
  - apply (iv_generic E X typing h args a); [|exact H]. destruct args; [destruct Ha|exact Ha].
  - now apply (iv_union E X args a).
Qed.
Lemma away_dict l : (forall a, In a l -> away a) -> away (TApp true HDict l).
Proof.
  intros Hl H. inversion H as [t Ht|b h args a Hin Ha| |t c p h Hc|t c a h Hc|t c fd h Hc|]; subst.
  - now apply HX in Ht.
  - now apply (Hl a).
  - destruct Hc as [Hc|[Hc _]]; discriminate.
  - destruct Hc as [Hc|[Hc _]]; discriminate.
  - destruct Hc as [Hc|[Hc _]]; discriminate.
Qed.
End Away.

Theorem load_frame E E' X : particular X -> same_but X E E' -> nameless_defaults (e_ct E) ->
  forall n f o cls j, no_hints o -> nameless_transformer o -> nameless j ->
  (forall t, cls = Some t -> ~ involves E X t) ->
  load E n f o cls j = load E' n f o cls j.
Proof.
  intros HX HS Hdef n.
  assert (G : forall f o cls j, okay o -> Po (away E X) cls -> clean j \/ valid_type j = false -> load E n f o cls j = load E' n f o cls j).
  { induction n as [|n IH]; intros f o cls j Ho Hcls Hj; [reflexivity|]. cbn [load].
    destruct HS as [H1 H2 H3 H4 H5 H6 H7 H8].
    destruct E as [CT R ob s d vd w rs cs cd], E' as [CT' R' ob' s' d' vd' w' rs' cs' cd'].
    cbn [e_ct e_rt e_object e_deser e_validator e_warn e_resolve e_cdeser] in *. subst CT' R' ob'.
    apply (fr_load_step CT R ob s s' d d' vd vd' w w' rs rs' cs cs' cd cd'
             (away (mkEnv CT R ob s d vd w rs cs cd) X)); auto.
    - intros g t Ht. apply H7. now apply away_not in Ht.
    - intros g t Ht. apply H8. now apply away_not in Ht.
    - intros j0 Hj0. now apply away_doc.
    - apply away_leaf; auto.
    - apply away_leaf; auto.
    - intros p. now apply away_prim.
    - intros t a. apply away_args.
    - intros l. now apply away_dict.
    - intros g m t Ht Hrs H. apply Ht. now apply (iv_name _ X m g t).
    - intros t c p h Ht Hn Hp Hh H. apply Ht. now apply (iv_parameter _ X t c p h).
    - intros t c p h Ht Hn Hp H. apply Ht. now apply (iv_attribute _ X t c p h).
    - intros t c p h Ht Hn Hp Hh H. apply Ht. now apply (iv_field _ X t c p h). }
  intros f o cls j Hh Hk Hj Hcls. apply G; [now split| |now left]. destruct cls as [t|]; [now apply Hcls|exact I].
Qed.

(** ** Dump: serializers of types that do not come up *)
Section FrameDump.
Variables (E E' : env) (X : ty -> Prop) (f : nat) (o0 : sopts).
Let CT := e_ct E.
Hypothesis HS : same_serializers_but X E E'.
Variable V : option ty -> value -> Prop.
Notation sr := (serializer E f).
Hypothesis VX : forall c x, V c x -> ~ X (tyof c x).
Hypothesis Velem : forall c x l y t, V c x -> iterates (sr c x) ->
  py_iter (e_rt E) x = Ok l -> In y l -> elem_type E o0 c x t -> V t y.
Hypothesis Vvalue : forall c x k y t, V c x -> sr c x = Some SDict -> py_getitem CT x k = Ok y ->
  (t = None \/ exists k' u, t = Some u /\ In (k', u) (so_types o0)) -> V t y.
Hypothesis Vattr : forall c x a y t, V c x ->
  (sr c x = Some SObject \/ sr c x = Some STuple) -> get_attr E x a = Ok y ->
  (t = None \/ exists i u, (c = Some (TClass i) \/ class_of x = TClass i) /\ t = Some u /\
                           In (a, u) (ci_hints (CT i))) -> V t y.
Hypothesis Voff : forall c off name, V c (VLeaf (LTimezone off name)) ->
  sr c (VLeaf (LTimezone off name)) = Some STimezone -> V c (VLeaf (LTimedelta off)).
Hypothesis Vunion : forall c x t, V c x -> sr c x = Some SUnion -> In t (get_args c) ->
  (x = VNone -> ~ In TNoneT (get_args c)) -> V (Some t) x.
Definition oka (o : sopts) : Prop :=
  so_strict o = so_strict o0 /\ forall k t, In (k, t) (so_types o) -> In (k, t) (so_types o0).
Lemma oka_store o b : oka o -> oka (set_store b o).
Proof. intros H. exact H. Qed.
Lemma oka_types o : oka o -> oka (no_types o).
Proof. intros [H _]. split; [exact H|]. intros k t []. Qed.
Let Hct : e_ct E' = e_ct E. Proof. apply HS. Qed.
Let Hrt : e_rt E' = e_rt E. Proof. apply HS. Qed.
Let Hcs n c x : e_cser E' n c x = e_cser E n c x. Proof. apply HS. Qed.
Let Hwr c : warn E' f c = warn E f c. Proof. unfold warn. now rewrite (ss_warn _ _ _ HS). Qed.
Let Hsr c x : V c x -> e_ser E' f (tyof c x) = e_ser E f (tyof c x).
Proof. intros H. apply HS. now apply VX. Qed.
Variables ser ser' : sopts -> option shandler -> option ty -> value -> M value.
Hypothesis Hser : forall o cls v, oka o -> V cls v -> ser o (sr cls v) cls v = ser' o (sr cls v) cls v.
Lemma fd_attr v a : get_attr E' v a = get_attr E v a.
Proof. unfold get_attr. now rewrite Hct, Hrt. Qed.
Lemma fd_dump o cls v : oka o -> V cls v -> dump_ E f ser o cls v = dump_ E' f ser' o cls v.
Proof.
  intros Ho Hq. unfold dump_. apply bind_ext; [reflexivity|]. intros u _.
  change (match cls with Some t => t | None => class_of v end) with (tyof cls v).
  rewrite (Hsr cls v Hq). change (e_ser E f (tyof cls v)) with (sr cls v). now rewrite (Hser o cls v Ho Hq).
Qed.
Lemma fd_ser o t x : oka o -> V (Some t) x -> ser o (e_ser E f t) (Some t) x = ser' o (e_ser E' f t) (Some t) x.
Proof.
  intros Ho Hq. pose proof (Hsr (Some t) x Hq) as H. cbn [tyof] in H. rewrite H. exact (Hser o (Some t) x Ho Hq).
Qed.
Lemma fd_map {A} (g g' : A -> M value) l : (forall x, In x l -> g x = g' x) ->
  (dom r <- mmap g l; ret (VList r)) = (dom r <- mmap g' l; ret (VList r)).
Proof. intros H. apply bind_ext; [now apply fr_mmap|reflexivity]. Qed.
Lemma fd_list o cls v : oka o -> V cls v -> sr cls v = Some SList ->
  ser_list E f ser o cls v = ser_list E' f ser' o cls v.
Proof.
  intros Ho Hq Hs. assert (Hit : iterates (sr cls v)) by (now left).
  unfold ser_list. rewrite Hct, Hrt. destruct (negb (truthy (e_rt E) v)); [reflexivity|].
  cbv zeta. destruct (get_args cls) as [|t ts] eqn:Ea.
  - destruct (so_strict o) eqn:Est.
    + apply bind_ext; [reflexivity|]. intros x0 H0. apply lift_done in H0.
      apply bind_ext; [reflexivity|]. intros l Hl. apply lift_done in Hl. apply fd_map. intros x Hx.
      apply fd_ser; [now apply oka_store|].
      eapply Velem; [eassumption..|]. eapply et_first; [|exact H0]. destruct Ho as [<- _]. exact Est.
    + apply bind_ext; [reflexivity|]. intros l Hl. apply lift_done in Hl. apply fd_map. intros x Hx.
      apply fd_dump; [now apply oka_store|]. eapply Velem; [eassumption..|]. constructor.
  - apply bind_ext; [reflexivity|]. intros l Hl. apply lift_done in Hl. apply fd_map. intros x Hx.
    apply fd_ser; [now apply oka_store|]. eapply Velem; [eassumption..|]. apply et_arg. rewrite Ea. now left.
Qed.
Lemma fd_iterable o c cls v : oka o -> V c v -> iterates (sr c v) ->
  (forall t, In t (get_args cls) -> In t (get_args c)) ->
  ser_iterable E f ser o cls v = ser_iterable E' f ser' o cls v.
Proof.
  intros Ho Hq Hit Hc. unfold ser_iterable. cbv zeta. rewrite Hrt.
  replace (determine_cls E' cls v) with (determine_cls E cls v) by (unfold determine_cls; now rewrite Hrt).
  apply bind_ext; [reflexivity|]. intros l Hl. apply lift_done in Hl.
  apply bind_ext; [reflexivity|]. intros cls_ Hcls. apply lift_done in Hcls.
  apply bind_ext; [reflexivity|]. intros subs Hsubs. apply lift_done in Hsubs.
  assert (Hc' : forall t, In t (get_args cls_) -> elem_type E o0 c v (Some t)).
  { destruct (so_strict o) eqn:Est; [|inversion Hcls; subst; intros t []].
    assert (Est0 : so_strict o0 = true) by (destruct Ho as [<- _]; exact Est).
    unfold determine_cls in Hcls.
    destruct cls as [c'|]; [inversion Hcls; subst; intros; apply et_arg; auto|].
    assert (Ht : forall y, slice1 v y -> forall t, In t (get_args (Some (rt_type (e_rt E) y))) ->
                   elem_type E o0 c v (Some t)) by (intros y Hy t Ht; eapply et_typish; eassumption).
    destruct v as [| | | |[|ch s]|[|x l1]|[|x l1]|[] [|x l1]|k [|x l1]| | |c' [|x l1]|];
      inversion Hcls; subst; try (intros t []); apply Ht; constructor. }
  apply fd_map. intros [x c1] Hin. cbn [fst snd].
  apply fd_dump; [now apply oka_store|].
  eapply Velem; [eassumption..| |].
  - apply in_combine_l in Hin. exact Hin.
  - apply in_combine_r in Hin. destruct c1 as [t|]; [|constructor].
    unfold get_subclasses in Hsubs. destruct (get_args cls_) as [|t1 [|t2 ts]] eqn:Ea.
    + inversion Hsubs; subst. apply repeat_spec in Hin. discriminate.
    + inversion Hsubs; subst. apply repeat_spec in Hin. inversion Hin; subst. apply Hc'. now left.
    + destruct (Nat.eqb _ _); [|discriminate]. inversion Hsubs; subst.
      change (Some t1 :: Some t2 :: map Some ts) with (map Some (t1 :: t2 :: ts)) in Hin.
      apply in_map_iff in Hin as (t' & Et & Hin). inversion Et; subst. apply Hc'. exact Hin.
Qed.
Lemma fd_tuple o cls v : oka o -> V cls v -> sr cls v = Some STuple ->
  ser_tuple E f ser o cls v = ser_tuple E' f ser' o cls v.
Proof.
  intros Ho Hq Hs. assert (Hit : iterates (sr cls v)) by (now right; right; left).
  assert (Hn : ser_iterable E f ser o None v = ser_iterable E' f ser' o None v)
    by (eapply fd_iterable; [exact Ho|exact Hq|exact Hit|intros t []]).
  assert (Hnt : forall i, ser_namedtuple E f ser o i v = ser_namedtuple E' f ser' o i v).
  { intros i. unfold ser_namedtuple. rewrite Hct. apply bind_ext; [|reflexivity].
    apply fr_mmap. intros a Ha. rewrite fd_attr. apply bind_ext; [reflexivity|]. intros x Hx. apply lift_done in Hx.
    apply bind_ext; [|reflexivity]. apply fd_dump; [exact Ho|].
    eapply Vattr; [exact Hq|now right|exact Hx|now left]. }
  assert (Ht : forall t, cls = Some t ->
     (match raw_args t with
      | None => fail (exn_of KAttribute)
      | Some args =>
          if ty_eqb TEllipsis (last args TAny) then
            dom l <- lift (py_iter (e_rt E) v);
            ser_iterable E f ser o (Some (TApp true HTuple (repeat (hd TAny args) (length l)))) v
          else ser_iterable E f ser o (Some t) v
      end) =
     (match raw_args t with
      | None => fail (exn_of KAttribute)
      | Some args =>
          if ty_eqb TEllipsis (last args TAny) then
            dom l <- lift (py_iter (e_rt E) v);
            ser_iterable E' f ser' o (Some (TApp true HTuple (repeat (hd TAny args) (length l)))) v
          else ser_iterable E' f ser' o (Some t) v
      end)).
  { intros t ->. destruct (raw_args t) as [args|] eqn:Ea; [|reflexivity].
    destruct (ty_eqb TEllipsis (last args TAny)) eqn:El.
    - apply bind_ext; [reflexivity|]. intros l Hl. eapply fd_iterable; [exact Ho|exact Hq|exact Hit|].
      intros t' Ht'. assert (t' = hd TAny args) as ->.
      { cbn in Ht'. destruct (repeat (hd TAny args) (length l)) eqn:Er; [destruct Ht'|].
        rewrite <- Er in Ht'. now apply repeat_spec in Ht'. }
      cbn. rewrite Ea. destruct args; [discriminate|]. now left.
    - eapply fd_iterable; [exact Ho|exact Hq|exact Hit|]. auto. }
  unfold ser_tuple. rewrite Hrt. destruct v; destruct cls as [t|];
    first [exact Hn | exact (Ht t eq_refl) | apply Hnt].
Qed.
Lemma fd_dict_go o c v : oka o -> V c v -> sr c v = Some SDict -> forall keys acc,
  (forall k, In k keys -> V None k) ->
  ser_dict_go E f ser o v keys acc = ser_dict_go E' f ser' o v keys acc.
Proof.
  intros Ho Hq Hs. induction keys as [|key keys IH]; intros acc Hk; cbn [ser_dict_go]; [reflexivity|].
  assert (Hk' : forall k, In k keys -> V None k) by (intros; apply Hk; now right).
  rewrite Hct. apply bind_ext; [reflexivity|]. intros x Hx. apply lift_done in Hx. apply bind_ext.
  { unfold store_and_hash. rewrite Hct, Hrt. destruct (json_key (e_ct E) key); [reflexivity|].
    apply bind_ext; [apply fd_dump; [exact Ho|apply Hk; now left]|]. reflexivity. }
  intros [res1 k1] _. cbn [fst snd]. apply bind_ext.
  { apply fd_dump; [now apply oka_types|]. eapply Vvalue; [exact Hq|exact Hs|exact Hx|].
    destruct (aget py_eqb key (so_types o)) as [u|] eqn:Et; [right|now left].
    apply aget_In' in Et as [k' Hin]. exists k', u. split; [reflexivity|]. now apply (proj2 Ho). }
  intros d _. destruct (so_strip_nulls o && is_none d); [now apply IH|].
  apply bind_ext; [reflexivity|]. intros k2 _. now apply IH.
Qed.
Lemma fd_dict o c v : oka o -> V c v -> sr c v = Some SDict -> ser_dict E f ser o v = ser_dict E' f ser' o v.
Proof.
  intros Ho Hq Hs. unfold ser_dict. rewrite Hrt. apply bind_ext; [reflexivity|]. intros keys Hk. apply lift_done in Hk.
  apply bind_ext; [|reflexivity]. eapply fd_dict_go; [exact Ho|exact Hq|exact Hs|].
  intros k Hin. eapply Velem; [exact Hq|right; right; now right|exact Hk|exact Hin|constructor].
Qed.
Lemma fd_union_go o v ts : oka o -> (forall t, In t ts -> V (Some t) v) ->
  ser_union_go E f ser o v ts = ser_union_go E' f ser' o v ts.
Proof.
  intros Ho. induction ts as [|t ts IH]; intros Ht; [reflexivity|]. cbn [ser_union_go].
  apply try_ext; [apply fd_dump; [exact Ho|apply Ht; now left]|]. intros e. rewrite IH; [reflexivity|]. intros u Hu. apply Ht. now right.
Qed.
Lemma fd_union o cls v : oka o -> V cls v -> sr cls v = Some SUnion -> ser_union E f ser o cls v = ser_union E' f ser' o cls v.
Proof.
  intros Ho Hq Hs. unfold ser_union. pose proof (fun t => Vunion cls v t Hq Hs) as Hu. unfold get_args in Hu.
  destruct cls as [t|]; [|reflexivity]. destruct (raw_args t) as [ts|]; [|reflexivity].
  destruct (is_none v && existsb (ty_eqb TNoneT) ts)%bool eqn:En; [reflexivity|].
  apply fd_union_go; [exact Ho|]. intros u Hin. apply Hu; [exact Hin|]. intros -> Hn. cbn [is_none andb] in En.
  assert (H : existsb (ty_eqb TNoneT) ts = true) by (apply existsb_exists; exists TNoneT; auto). congruence.
Qed.
Lemma fd_do o public v : oka o -> forall attrs acc,
  (forall a t x, In (a, t) attrs -> get_attr E v a = Ok x -> V t x) ->
  do_serialize E f ser o public v attrs acc = do_serialize E' f ser' o public v attrs acc.
Proof.
  intros Ho. induction attrs as [|[a c] attrs IH]; intros acc Ha; cbn [do_serialize]; [reflexivity|].
  rewrite fd_attr. apply bind_ext; [reflexivity|]. intros x Hx. apply lift_done in Hx. cbv zeta.
  apply bind_ext; [reflexivity|]. intros u _.
  assert (Ha' : forall a t x, In (a, t) attrs -> get_attr E v a = Ok x -> V t x)
    by (intros a' t' x' Hin; apply (Ha a'); now right).
  assert (Hq : V c x) by (eapply (Ha a); [now left|exact Hx]).
  change (match c with Some t => t | None => class_of x end) with (tyof c x). rewrite (Hsr c x Hq).
  change (e_ser E f (tyof c x)) with (sr c x). rewrite (Hser o c x Ho Hq).
  replace (store_cls_info E') with (store_cls_info E).
  - rewrite Hct, Hwr. apply bind_ext; [reflexivity|]. intros [d|e] _; [|reflexivity].
    destruct (so_strip_nulls o && is_none d); [now apply IH|]. apply bind_ext; [reflexivity|]. intros k2 _. now apply IH.
  - unfold store_cls_info, type_name_of. now rewrite Hct, Hrt.
Qed.
Lemma fd_object o cls v : oka o -> V cls v -> sr cls v = Some SObject ->
  ser_object E f ser o cls v = ser_object E' f ser' o cls v.
Proof.
  intros Ho Hq Hs. unfold ser_object.
  replace (match match cls with Some t => if so_strict o then Some t else None | None => None end with
           | Some t => attrs_from_class E' o t | None => attrs_from_object E' o v end)
    with (match match cls with Some t => if so_strict o then Some t else None | None => None end with
           | Some t => attrs_from_class E o t | None => attrs_from_object E o v end)
    by (unfold attrs_from_class, attrs_from_object; now rewrite Hct, Hrt).
  apply bind_ext; [reflexivity|]. intros attrs Ha. apply lift_done in Ha. cbv zeta. rewrite Hct.
  apply bind_ext.
  - apply fd_do; [exact Ho|]. eapply (object_attrs_visited E f V Vattr); eassumption.
  - intros d _. destruct (so_store_cls o); [reflexivity|]. unfold dict_with_meta. now rewrite Hrt.
Qed.
Lemma fd_step o cls v : oka o -> V cls v ->
  ser_step E f ser o (sr cls v) cls v = ser_step E' f ser' o (sr cls v) cls v.
Proof.
  intros Ho Hq. unfold ser_step. destruct (sr cls v) as [h|] eqn:Eh; [|reflexivity].
  assert (Ht : forall b p, ser_time_like E f b p v = ser_time_like E' f b p v).
  { intros b p. unfold ser_time_like. rewrite Hrt. apply bind_ext; [reflexivity|]. intros sw _. now rewrite Hwr. }
  destruct h; rewrite ?fd_attr, ?Hcs, ?Hrt; try reflexivity; try apply Ht; eauto using fd_list, fd_tuple, fd_dict, fd_object, fd_union.
  - destruct v as [| | | | | | | | |x| | |]; try reflexivity. destruct x; try reflexivity.
    apply bind_ext; [|reflexivity]. apply fd_dump; [exact Ho|eauto].
  - unfold ser_primitive. now rewrite Hct, Hrt.
  - eapply fd_iterable; [exact Ho|exact Hq| |auto]. rewrite Eh. right. now left.
Qed.
End FrameDump.
Theorem dump_frame E E' X f n o cls v : same_serializers_but X E E' ->
  (forall c x, visits E f o cls v c x -> ~ X (tyof c x)) ->
  dump E f n o cls v = dump E' f n o cls v.
Proof.
  intros HS HV.
  assert (G : forall n o1 c x, oka o o1 -> visits E f o cls v c x ->
    serialize E f n o1 (serializer E f c x) c x = serialize E' f n o1 (serializer E f c x) c x).
  { induction n0 as [|n0 IH]; intros o1 c x Ho Hx; [reflexivity|]. cbn [serialize].
    apply (fd_step E E' X f o HS (visits E f o cls v)); eauto using visits. }
  unfold dump. apply (fd_dump E E' X f o HS (visits E f o cls v)); auto.
  - split; auto.
  - apply visit_root.
Qed.

(** ** Registering a handler for a class *)
Section Registering.
Context {F : Type}.
Variables (CT : classes) (c : nat) (T T' : gtable ty F) (h : F).
Notation W := (ty_world CT).
Hypothesis Hmap : t_map T' = sset (lname W (TClass c)) h (t_map T).
Hypothesis Hcls : exists l r, t_classes T = (l ++ r)%list /\ t_classes T' = (l ++ Some (TClass c) :: r)%list.
Hypothesis Hown : own_name CT c T.
Lemma sub_alike t : alike CT c t \/ naked_sub CT t (TClass c) = false.
Proof.
  destruct (naked_sub CT t (TClass c)) eqn:Es; [left; right|now right]. unfold naked_sub in Es.
  apply andb_prop in Es as [_ Es]. apply existsb_exists in Es as (x & Hx & He). apply ty_eqb_eq in He. now subst x.
Qed.
Lemma flat_unlike t : ~ alike CT c t -> get_lizer_flat W t T' = get_lizer_flat W t T.
Proof.
  intros Ht. unfold get_lizer_flat, get_lizer_by_parents. rewrite Hmap.
  assert (Hn : lname W t <> lname W (TClass c)) by (intros H; apply Ht; now left).
  assert (Hg : forall k, k <> lname W (TClass c) -> sget k (sset (lname W (TClass c)) h (t_map T)) = sget k (t_map T)).
  { intros k Hk. now apply sget_sset_other. }
  rewrite (Hg _ Hn). destruct (sget (lname W t) (t_map T)); [reflexivity|].
  assert (Hp : get_parents W t (t_classes T') = get_parents W t (t_classes T)).
  { destruct Hcls as (l & r & -> & ->). unfold get_parents. rewrite !filter_app. cbn [filter].
    destruct (sub_alike t) as [H|H]; [contradiction|]. cbn [W w_sub ty_world]. now rewrite H. }
  rewrite Hp. destruct (get_parents W t (t_classes T)) as [|[p|] ps] eqn:Ep; try reflexivity.
  rewrite Hg; [reflexivity|]. intros Hl. apply Ht.
  assert (Hin : In (Some p) (get_parents W t (t_classes T))) by (rewrite Ep; now left).
  apply filter_In in Hin as [Hin Hs]. rewrite (Hown p Hin Hl) in Hs. destruct (sub_alike t) as [H|H]; [exact H|].
  cbn [W w_sub ty_world] in Hs. congruence.
Qed.
Lemma lookup_unlike t : ~ affected CT c t -> lookup W T' t = lookup W T t.
Proof.
  intros Ht. unfold lookup, get_lizer. rewrite flat_unlike by (intros H; apply Ht; now left).
  destruct (get_lizer_flat W t T) as [[g|]|e]; try reflexivity. cbn [rbind W w_super ty_world].
  destruct (ty_super t) as [s|] eqn:Es; [|reflexivity]. rewrite flat_unlike; [reflexivity|].
  intros H. apply Ht. right. destruct t; try discriminate Es. injection Es as ->. now eexists _, _, s.
Qed.
End Registering.
Lemma set_one_classes {F} W (h : F) hi (a : ty) T : exists l r,
  t_classes T = (l ++ r)%list /\ t_classes (set_one W h hi (Some a) T) = (l ++ Some a :: r)%list.
Proof.
  cbn [set_one t_classes]. unfold insert_at. eexists _, _. split; [symmetry; apply firstn_skipn|reflexivity].
Qed.
Lemma set_val_classes {F} W (h : F) (a : ty) T : exists l r,
  t_classes T = (l ++ r)%list /\ t_classes (set_val_one W h (Some a) T) = (l ++ Some a :: r)%list.
Proof. exists (t_classes T), []. split; [now rewrite app_nil_r|reflexivity]. Qed.

Theorem set_deserializer_frame E f T h c hi : (forall t, e_deser E f t = lookup (ty_world (e_ct E)) T t) ->
  own_name (e_ct E) c T -> particular (affected (e_ct E) c) -> nameless_defaults (e_ct E) ->
  forall n g o cls j, no_hints o -> nameless_transformer o -> nameless j ->
  (forall t, cls = Some t -> ~ involves E (affected (e_ct E) c) t) ->
  load (after_set_deserializer E f T h c hi) n g o cls j = load E n g o cls j.
Proof.
  intros HT Hown HX Hdef n g o cls j Hh Hk Hj Hcls. symmetry. apply (load_frame _ _ (affected (e_ct E) c)); auto.
  split; try reflexivity. intros f0 t Ht. cbn [e_deser after_set_deserializer].
  destruct (Nat.eqb_spec f0 f) as [-> |]; [|reflexivity]. rewrite HT.
  apply (lookup_unlike (e_ct E) c T _ h); auto. apply set_one_classes.
Qed.
Theorem set_validator_frame E f T h c : (forall t, e_validator E f t = lookup (ty_world (e_ct E)) T t) ->
  own_name (e_ct E) c T -> particular (affected (e_ct E) c) -> nameless_defaults (e_ct E) ->
  forall n g o cls j, no_hints o -> nameless_transformer o -> nameless j ->
  (forall t, cls = Some t -> ~ involves E (affected (e_ct E) c) t) ->
  load (after_set_validator E f T h c) n g o cls j = load E n g o cls j.
Proof.
  intros HT Hown HX Hdef n g o cls j Hh Hk Hj Hcls. symmetry. apply (load_frame _ _ (affected (e_ct E) c)); auto.
  split; try reflexivity. intros f0 t Ht. cbn [e_validator after_set_validator].
  destruct (Nat.eqb_spec f0 f) as [-> |]; [|reflexivity]. rewrite HT.
  apply (lookup_unlike (e_ct E) c T _ h); auto. apply set_val_classes.
Qed.
Theorem set_serializer_frame E f T h c hi : (forall t, e_ser E f t = lookup (ty_world (e_ct E)) T t) ->
  own_name (e_ct E) c T ->
  forall n g o cls v, (forall d x, visits E g o cls v d x -> ~ affected (e_ct E) c (tyof d x)) ->
  dump (after_set_serializer E f T h c hi) g n o cls v = dump E g n o cls v.
Proof.
  intros HT Hown n g o cls v Hv. symmetry. apply (dump_frame _ _ (affected (e_ct E) c)); auto.
  split; try reflexivity. intros f0 t Ht. cbn [e_ser after_set_serializer].
  destruct (Nat.eqb_spec f0 f) as [-> |]; [|reflexivity]. rewrite HT.
  apply (lookup_unlike (e_ct E) c T _ h); auto. apply set_one_classes.
Qed.
