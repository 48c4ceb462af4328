(** * Load depends on the entries of its fork only, and on meta hints only for dicts *)
From Verif Require Import PyBaseFacts LoadSpec LoadFacts RoundTripSpec.
Local Close Scope Z_scope.
Local Open Scope string_scope.

Lemma bind_ext {A B} (m m' : M A) (k k' : A -> M B) : m = m' ->
  (forall x, snd m = Done x -> k x = k' x) -> mbind m k = mbind m' k'.
Proof.
  intros <- H. unfold mbind. destruct (snd m) as [a|e|] eqn:Hm; try reflexivity. now rewrite (H a eq_refl).
Qed.
Lemma try_ext {A} (m m' : M A) (k k' : exn -> M A) : m = m' -> (forall e, k e = k' e) -> mtry m k = mtry m' k'.
Proof. intros <- H. unfold mtry. destruct (snd m) as [a|e|]; try reflexivity. now rewrite H. Qed.

Section Same.
Variables (CT : classes) (R : runtime) (ob f : nat) (lax : bool).
Variables (s s' : nat -> ty -> option shandler) (d d' : nat -> ty -> option dhandler).
Variables (vd vd' : nat -> ty -> option (value -> res bool)) (w w' : nat -> string -> bool).
Variables (rs rs' : nat -> string -> res ty) (cs cs' : nat -> option ty -> value -> res value).
Variables (cd cd' : nat -> ty -> value -> res value).
Let E := mkEnv CT R ob s d vd w rs cs cd.
Let E' := mkEnv CT R ob s' d' vd' w' rs' cs' cd'.
Hypothesis Hd : forall t, d f t = d' f t.
Hypothesis Hv : forall t, vd f t = vd' f t.
Hypothesis Hw : forall c, w f c = w' f c.
Hypothesis Hr : forall n, rs f n = rs' f n.
Hypothesis Hc : forall n t j, cd n t j = cd' n t j.

(** The same options; if [lax], up to the meta hints, for inputs without dicts *)
Definition like (o o' : lopts) : Prop :=
  lo_strict o = lo_strict o' /\ lo_getters o = lo_getters o' /\ lo_kt o = lo_kt o' /\
  lo_inferred o = lo_inferred o' /\ lo_warn o = lo_warn o' /\ lo_enum_name o = lo_enum_name o' /\
  (lax = false -> lo_hints o = lo_hints o').
Definition fit (j : value) : Prop := lax = true -> dictless j = true.
Hypothesis Hdef : forall c fd x, In fd (nt_fields CT c) -> nf_default fd = Some x -> fit x.
Lemma like_getters g o o' : like o o' -> like (set_getters g o) (set_getters g o').
Proof. unfold like. cbn. intuition. Qed.
Lemma like_kt k o o' : like o o' -> like (set_kt k o) (set_kt k o').
Proof. unfold like. cbn. intuition. Qed.
Lemma like_inferred b o o' : like o o' -> like (set_inferred b o) (set_inferred b o').
Proof. unfold like. cbn. intuition. Qed.
Lemma like_warn b o o' : like o o' -> like (set_warn b o) (set_warn b o').
Proof. unfold like. cbn. intuition. Qed.
Lemma like_hints h h' o o' : like o o' -> (lax = false -> h = h') -> like (set_hints h o) (set_hints h' o').
Proof. unfold like. cbn. intuition. Qed.
Lemma fit_iter j l : fit j -> py_iter R j = Ok l -> Forall fit l.
Proof.
  intros H Hi. apply Forall_forall. intros x Hin Hl. specialize (H Hl).
  destruct j; try discriminate; cbn [py_iter] in Hi; injection Hi as <-.
  - apply in_map_iff in Hin as (c & <- & _). reflexivity.
  - cbn [dictless] in H. rewrite forallb_forall in H. auto.
Qed.
Lemma fit_item j i x : fit j -> py_getitem CT j (VInt i) = Ok x -> fit x.
Proof.
  intros H Hi Hl. specialize (H Hl).
  assert (G : forall l, (if ((0 <=? (if i <? 0 then i + Z.of_nat (length l) else i)) &&
                             ((if i <? 0 then i + Z.of_nat (length l) else i) <? Z.of_nat (length l)))%Z
     then match nth_error l (Z.to_nat (if (i <? 0)%Z then i + Z.of_nat (length l) else i)%Z) with Some y => Ok y | None => raise KIndex end
     else raise KIndex) = Ok x -> In x l).
  { intros l. destruct (_ && _)%bool; [|discriminate]. destruct (nth_error l _) eqn:En; [|discriminate].
    intros Hx. injection Hx as <-. now apply nth_error_In in En. }
  destruct j; try discriminate; cbn [py_getitem] in Hi; apply G in Hi.
  - unfold str_chars in Hi. apply in_map_iff in Hi as (c & <- & _). reflexivity.
  - cbn [dictless] in H. rewrite forallb_forall in H. auto.
Qed.

Variables ld ld' : nat -> lopts -> option ty -> value -> M value.
Hypothesis HL : forall o o' cls j, like o o' -> fit j -> ld f o cls j = ld' f o' cls j.
Hypothesis HL0 : forall t, d f t = Some DTimezone \/ d f t = Some DComplex ->
  forall cls j, ld 0 lopts0 cls j = ld' 0 lopts0 cls j.

Lemma warn_same c : warn E f c = warn E' f c.
Proof. unfold warn. cbn. now rewrite Hw. Qed.
Lemma list_go_same o o' b t l : like o o' -> Forall fit l -> forall i,
  deser_list_go E ld f o b t i l = deser_list_go E' ld' f o' b t i l.
Proof.
  intros Ho Hl. induction Hl as [|x l Hx Hl IH]; intros i; [reflexivity|]. cbn [deser_list_go].
  rewrite (HL o o' t x Ho Hx). destruct (snd (ld' f o' t x)) as [y|e|]; [|destruct (is_deser (e_kind e)); [|reflexivity]; destruct b|reflexivity].
  - apply bind_ext; [reflexivity|]. intros _ _. apply bind_ext; [apply IH|reflexivity].
  - apply bind_ext; [reflexivity|]. intros _ _. rewrite warn_same. apply bind_ext; [reflexivity|]. intros _ _. apply IH.
  - reflexivity.
Qed.
Lemma list_same o o' args j : like o o' -> fit j -> deser_list E ld f o args j = deser_list E' ld' f o' args j.
Proof.
  intros Ho Hj. unfold deser_list. cbn [e_rt E E'].
  apply bind_ext; [reflexivity|]. intros l Hl. apply lift_done in Hl.
  assert (Hwa : lo_warn o = lo_warn o') by apply Ho. rewrite Hwa. apply list_go_same; [|eapply fit_iter; eauto].
  apply like_warn. destruct args; [exact Ho|now apply like_inferred].
Qed.
Lemma nt_go_same o o' j dd len fields : like o o' -> fit j -> (lax = true -> dd = None) ->
  (forall fd x, In fd fields -> nf_default fd = Some x -> fit x) -> forall i,
  deser_nt_go E ld f o j dd len i fields = deser_nt_go E' ld' f o' j dd len i fields.
Proof.
  intros Ho Hj Hdd. induction fields as [|fd fields IH]; intros Hfs i; [reflexivity|]. cbn [deser_nt_go e_ct E E'].
  apply bind_ext; [reflexivity|]. intros x Hx. apply lift_done in Hx.
  apply bind_ext; [reflexivity|]. intros _ _.
  assert (Hfx : fit x).
  { intros Hl. destruct (Nat.ltb i len).
    - rewrite (Hdd Hl) in Hx. now apply (fit_item _ _ _ Hj Hx).
    - destruct (nf_default fd) as [y|] eqn:Ey; injection Hx as <-; [|reflexivity]. apply (Hfs fd y); auto. now left. }
  apply bind_ext; [now apply HL|]. intros y _.
  apply bind_ext; [|reflexivity]. apply IH. intros fd' x' Hin. apply Hfs. now right.
Qed.
Lemma namedtuple_same o o' c j : like o o' -> fit j -> deser_namedtuple E ld f o c j = deser_namedtuple E' ld' f o' c j.
Proof.
  intros Ho Hj. unfold deser_namedtuple. cbn [e_rt e_ct E E'].
  assert (Hk : lo_kt o = lo_kt o') by apply Ho.
  apply bind_ext; [destruct j; rewrite ?Hk; reflexivity|]. intros dd Hdd.
  assert (Hn : lax = true -> dd = None).
  { intros Hl. specialize (Hj Hl). destruct j; try discriminate; now injection Hdd as <-. }
  apply bind_ext; [reflexivity|]. intros l _. apply bind_ext; [|reflexivity].
  apply nt_go_same; auto. intros fd x. apply Hdef.
Qed.
Lemma tuple_go_same o o' l : like o o' -> Forall fit l -> forall ts,
  deser_tuple_go ld f o l ts = deser_tuple_go ld' f o' l ts.
Proof.
  intros Ho Hl. induction Hl as [|x l Hx Hl IH]; intros ts; [reflexivity|]. cbn [deser_tuple_go].
  destruct ts as [|t ts]; [reflexivity|]. apply bind_ext; [now apply HL|]. intros y _. apply bind_ext; [apply IH|reflexivity].
Qed.
Lemma mmap_ext {A B} (k k' : A -> M B) l : (forall x, In x l -> k x = k' x) -> mmap k l = mmap k' l.
Proof.
  induction l as [|x l IH]; intros H; [reflexivity|]. cbn [mmap].
  apply bind_ext; [apply H; now left|]. intros y _. apply bind_ext; [apply IH; intros z Hz; apply H; now right|reflexivity].
Qed.
Lemma tuple_same o o' t j : like o o' -> fit j -> deser_tuple E ld f o t j = deser_tuple E' ld' f o' t j.
Proof.
  intros Ho Hj. unfold deser_tuple. cbn [e_rt e_ct E E'].
  set (p := mbind _ _). set (p' := mbind _ _).
  assert (Hp : p = p').
  { unfold p, p'. apply bind_ext; [reflexivity|]. intros l Hl. apply lift_done in Hl. pose proof (fit_iter _ _ Hj Hl) as Hfl.
    destruct (get_args (Some t)) as [|t0 ts].
    - apply bind_ext; [|reflexivity]. apply mmap_ext. intros x Hx. apply HL; [now apply like_kt|].
      rewrite Forall_forall in Hfl. auto.
    - apply bind_ext; [|reflexivity]. apply tuple_go_same; [now apply like_kt|exact Hfl]. }
  rewrite Hp. destruct t; try reflexivity. destruct (ci_kind (CT c)); try reflexivity. now apply namedtuple_same.
Qed.
Lemma union_go_same o o' j ts : like o o' -> fit j -> deser_union_go ld f o j ts = deser_union_go ld' f o' j ts.
Proof.
  intros Ho Hj. induction ts as [|t ts IH]; [reflexivity|]. cbn [deser_union_go].
  apply try_ext; [now apply HL|]. intros e. now rewrite IH.
Qed.
Lemma hashed_go_same o o' kt stored : lax = false -> like o o' -> forall result,
  hashed_go E ld f o kt stored result = hashed_go E' ld' f o' kt stored result.
Proof.
  intros Hl Ho. induction stored as [|[h orig] stored IH]; intros result; [reflexivity|]. cbn [hashed_go e_ct E E'].
  apply bind_ext; [apply HL; auto; intros Hl'; congruence|]. intros k _.
  destruct (dget h result); [|reflexivity]. now rewrite IH.
Qed.
Lemma dict_go_same ok ok' ov ov' gt kc vc dd : lax = false -> like ok ok' -> like ov ov' -> forall acc,
  deser_dict_go E ld f ok ov gt kc vc dd acc = deser_dict_go E' ld' f ok' ov' gt kc vc dd acc.
Proof.
  intros Hl Hk Ho. assert (Hf : forall x, fit x) by (intros x Hl'; congruence).
  induction dd as [|[k x] dd IH]; intros acc; [reflexivity|]. cbn [deser_dict_go e_ct E E'].
  apply bind_ext; [reflexivity|]. intros k1 _. apply bind_ext; [destruct kc; [now apply HL|reflexivity]|]. intros k2 _.
  apply bind_ext; [now apply HL|]. intros y _. now rewrite IH.
Qed.
Lemma dict_same o o' args j : like o o' -> fit j -> deser_dict E ld f o args j = deser_dict E' ld' f o' args j.
Proof.
  intros Ho Hj. unfold deser_dict. destruct j; try reflexivity.
  assert (Hl : lax = false) by (destruct lax eqn:El; [specialize (Hj El); discriminate|reflexivity]).
  apply bind_ext.
  - unfold load_hashed_keys. cbn [e_rt E E']. destruct (dget (VStr "-keys") d0) as [keys|]; [|reflexivity].
    apply bind_ext; [reflexivity|]. intros ks _. destruct ks; [reflexivity|].
    destruct args as [|kt [|? [|]]]; try reflexivity. destruct keys; try reflexivity.
    apply bind_ext; [now apply hashed_go_same|reflexivity].
  - intros dh _. assert (Hk : lo_kt o = lo_kt o') by apply Ho. rewrite Hk.
    destruct args as [|tk [|tv [|]]]; apply dict_go_same; auto; now apply like_kt.
Qed.
Lemma mapping_same o o' t j : like o o' -> fit j -> deser_mapping E ld f o t j = deser_mapping E' ld' f o' t j.
Proof.
  intros Ho Hj. unfold deser_mapping. apply bind_ext; [reflexivity|]. intros args _.
  apply bind_ext; [now apply dict_same|]. reflexivity.
Qed.
Lemma defaultdict_same o o' t j : like o o' -> fit j -> deser_defaultdict ld f o t j = deser_defaultdict ld' f o' t j.
Proof.
  intros Ho Hj. unfold deser_defaultdict. apply bind_ext; [reflexivity|]. intros args _.
  apply bind_ext; [now apply HL|]. reflexivity.
Qed.
Lemma iterable_same o o' t j : like o o' -> fit j -> deser_iterable E ld f o t j = deser_iterable E' ld' f o' t j.
Proof.
  intros Ho Hj. unfold deser_iterable. apply bind_ext; [reflexivity|]. intros args _.
  apply bind_ext; [now apply list_same|]. reflexivity.
Qed.
(** Objects *)
Lemma value_from_same o o' h p x : lax = false -> like o o' -> value_from_obj E ld f o h p x = value_from_obj E' ld' f o' h p x.
Proof.
  intros Hl Ho. unfold value_from_obj. cbn [e_rt e_resolve E E'].
  apply bind_ext.
  - f_equal. destruct (dget (VStr ("/" ++ pa_name p)) h) as [x'|]; [|reflexivity]. destruct (truthy R x'); [|reflexivity].
    destruct x'; try reflexivity. now rewrite Hr.
  - intros mh _. apply HL; [now apply like_hints|intros Hl'; congruence].
Qed.
Lemma value_for_same o o' h h' dd gs p : (lax = false -> h = h') -> like o o' -> (lax = true -> dd = []) ->
  value_for_attr E ld f o h dd gs p = value_for_attr E' ld' f o' h' dd gs p.
Proof.
  intros Hh Ho Hdd. unfold value_for_attr. destruct lax eqn:El.
  - rewrite (Hdd eq_refl). reflexivity.
  - rewrite <- (Hh eq_refl). destruct (dget (VStr (pa_name p)) dd) as [x|]; [|reflexivity].
    apply bind_ext; [apply value_from_same; auto|reflexivity].
Qed.
Lemma constructor_same o o' h h' dd gs ps : (lax = false -> h = h') -> like o o' -> (lax = true -> dd = []) ->
  constructor_args E ld f o h dd gs ps = constructor_args E' ld' f o' h' dd gs ps.
Proof.
  intros Hh Ho Hdd. induction ps as [|p ps IH]; [reflexivity|]. cbn [constructor_args].
  apply bind_ext; [now apply value_for_same|]. intros x _. apply bind_ext; [exact IH|reflexivity].
Qed.
Lemma remaining_same o o' ci rest : like o o' -> (lax = true -> rest = []) -> forall at_,
  set_remaining E ld f o ci rest at_ = set_remaining E' ld' f o' ci rest at_.
Proof.
  intros Ho. destruct lax eqn:El.
  - intros Hrest at_. now rewrite (Hrest eq_refl).
  - intros _. assert (Hf : forall x, fit x) by (intros x Hl'; congruence).
    induction rest as [|[k x] rest IH]; intros at_; [reflexivity|]. cbn [set_remaining]. rewrite warn_same.
    apply bind_ext; [reflexivity|]. intros _ _. apply bind_ext; [apply HL; auto; unfold like; rewrite El; exact Ho|].
    intros y _. destruct k; try reflexivity. destruct (ci_set ci s0 y at_) as [a|e]; [apply IH|]. now rewrite IH.
Qed.
Lemma object_same o o' t j : like o o' -> fit j -> deser_object E ld f o t j = deser_object E' ld' f o' t j.
Proof.
  intros Ho Hj. unfold deser_object, cid_of. cbn [e_ct e_object E E'].
  destruct (match t with TClass c => Some c | TObject => Some ob | _ => None end) as [c|]; [|reflexivity].
  apply bind_ext; [reflexivity|]. intros d0 Hd0. apply lift_done in Hd0.
  assert (H0 : lax = true -> d0 = []).
  { intros Hl. specialize (Hj Hl). destruct j as [| | | |[|] |[|]| | | | | | |]; try discriminate; now injection Hd0 as <-. }
  assert (Hk : lo_kt o = lo_kt o') by apply Ho. rewrite <- Hk.
  apply bind_ext; [reflexivity|]. intros dd Hdd. apply lift_done in Hdd.
  assert (H1 : lax = true -> dd = []).
  { intros Hl. rewrite (H0 Hl) in Hdd. destruct (lo_kt o); now injection Hdd as <-. }
  assert (Hg : lo_getters o = lo_getters o') by apply Ho. rewrite <- Hg.
  assert (Hs : lo_strict o = lo_strict o') by apply Ho. rewrite <- Hs.
  apply bind_ext.
  { apply constructor_same; auto; [|now apply like_getters]. intros Hl.
    assert (Hh : lo_hints o = lo_hints o') by (now apply Ho). now rewrite Hh. }
  intros args _. apply bind_ext; [reflexivity|]. intros rest Hrest. apply lift_done in Hrest.
  apply bind_ext; [reflexivity|]. intros _ _. apply bind_ext; [reflexivity|]. intros attrs _.
  apply bind_ext; [|reflexivity]. apply remaining_same; [now apply like_getters|].
  intros Hl. rewrite (H1 Hl) in Hrest. now injection Hrest as <-.
Qed.
Lemma step_same o o' h t j : like o o' -> fit j -> d f t = Some h -> deser_step E ld f o h t j = deser_step E' ld' f o' h t j.
Proof.
  intros Ho Hj Hh. destruct h; cbn [deser_step]; try reflexivity.
  - apply bind_ext; [now apply list_same|reflexivity].
  - now apply tuple_same.
  - unfold deser_union. destruct (raw_args t); [now apply union_go_same|reflexivity].
  - now apply defaultdict_same.
  - unfold deser_timezone. apply bind_ext; [reflexivity|]. intros off _. rewrite (HL0 t) by auto. reflexivity.
  - unfold deser_string. assert (Hi : lo_inferred o = lo_inferred o') by apply Ho. rewrite <- Hi.
    destruct (ty_eqb t (TPrim PStr) && negb (lo_inferred o)); [reflexivity|]. apply try_ext; [now apply HL|reflexivity].
  - assert (Hi : lo_enum_name o = lo_enum_name o') by apply Ho. now rewrite <- Hi.
  - now apply mapping_same.
  - now apply iterable_same.
  - now apply object_same.
  - unfold deser_complex. apply try_ext; [|reflexivity]. apply bind_ext; [reflexivity|]. intros re _.
    apply bind_ext; [reflexivity|]. intros im _. rewrite (HL0 t) by auto. reflexivity.
  - cbn [e_cdeser E E']. now rewrite Hc.
Qed.
Lemma meta_fit j : lax = true -> fit j -> forall tm, get_cls_and_meta E f j = Ok tm -> snd tm = [].
Proof. intros Hl Hj tm H. specialize (Hj Hl). destruct j; try discriminate; now injection H as <-. Qed.
Lemma load_step_same o o' cls j : like o o' -> fit j -> load_step E ld f o cls j = load_step E' ld' f o' cls j.
Proof.
  intros Ho Hj. unfold load_step. cbn [e_ct e_resolve E E'].
  assert (Hs : lo_strict o = lo_strict o') by apply Ho. rewrite <- Hs.
  assert (Hva : forall v t, validate E f v t = validate E' f v t) by (intros v t; unfold validate; cbn; now rewrite Hv).
  assert (Hgm : get_cls_and_meta E f j = get_cls_and_meta E' f j).
  { unfold get_cls_and_meta. cbn [e_ct e_resolve E E']. destruct j; try reflexivity. destruct (dget (VStr "-meta") d0) as [me|]; [|reflexivity].
    destruct (py_getitem CT me (VStr "classes")) as [cl|]; [|reflexivity]. cbn [rbind].
    destruct (py_getitem CT cl (VStr "/")) as [x|]; [|reflexivity].
    cbn [rbind]. destruct x; try reflexivity. destruct cl; try reflexivity. now rewrite Hr. }
  apply bind_ext; [reflexivity|]. intros _ _.
  destruct ((negb (lo_strict o) && same_type j cls) || match cls with Some TAny => true | _ => false end).
  { apply bind_ext; [|reflexivity]. f_equal. destruct cls; [apply Hva|reflexivity]. }
  apply bind_ext.
  { f_equal. destruct cls as [[]|]; try reflexivity. now rewrite Hr. }
  intros cls1 _. destruct (negb (valid_type j)); [reflexivity|]. rewrite <- Hgm.
  apply bind_ext; [reflexivity|]. intros mh Hmh. apply lift_done in Hmh.
  assert (Hi : lo_inferred o = lo_inferred o') by apply Ho. rewrite <- Hi.
  destruct (determine_precedence cls1 (fst mh) (Some (class_of j)) (lo_inferred o)) as [t|]; [|reflexivity].
  cbn [e_deser E E']. rewrite <- Hd. destruct (d f t) as [h|] eqn:Eh; [|reflexivity].
  unfold wrap_deser. apply try_ext; [|reflexivity]. apply bind_ext.
  - apply step_same; [|exact Hj|exact Eh]. apply like_inferred. apply like_hints; [exact Ho|].
    intros Hl. assert (Hh : lo_hints o = lo_hints o') by (now apply Ho). now rewrite Hh.
  - intros r _. rewrite Hva. reflexivity.
Qed.
End Same.

(** ** Environments that agree on what the fork (and the default fork) look up *)
Lemma like_refl b o : like b o o.
Proof. unfold like. auto 10. Qed.
Lemma load_same_forks E E' (fs : list nat) : (forall g, In g fs -> same_for_load E E' g) ->
  (forall g t, In g fs -> e_deser E g t = Some DTimezone \/ e_deser E g t = Some DComplex -> In 0 fs) ->
  forall n g o cls j, In g fs -> load E n g o cls j = load E' n g o cls j.
Proof.
  intros H H0 n. induction n as [|n IH]; intros g o cls j Hg; [reflexivity|]. cbn [load].
  destruct (H g Hg) as (H1 & H2 & H3 & H4 & H5 & H6 & H7 & H8).
  destruct E as [CT R ob s d vd w rs cs cd], E' as [CT' R' ob' s' d' vd' w' rs' cs' cd'].
  cbn [e_ct e_rt e_object e_deser e_validator e_warn e_resolve e_cdeser] in *. subst CT' R' ob'.
  apply (load_step_same CT R ob g false); auto.
  - intros c fd x _ _ Hx. discriminate.
  - intros o1 o2 cls1 j1 Ho _. rewrite IH by exact Hg. f_equal.
    destruct Ho as (O1 & O2 & O3 & O4 & O5 & O6 & O7). specialize (O7 eq_refl). destruct o1, o2. cbn in *. now subst.
  - intros t Ht cls1 j1. apply IH. now apply (H0 g t).
  - apply like_refl.
  - intros Hx. discriminate.
Qed.
Theorem load_same E E' f : same_for_load E E' f -> same_for_load E E' 0 -> forall n o cls j,
  load E n f o cls j = load E' n f o cls j.
Proof.
  intros H H0 n o cls j. apply (load_same_forks E E' [f; 0]).
  - intros g [<-|[<-|[]]]; assumption.
  - intros g t _ _. right. now left.
  - now left.
Qed.
Theorem load_same_own E E' f : same_for_load E E' f ->
  (forall t, e_deser E f t <> Some DTimezone /\ e_deser E f t <> Some DComplex) -> forall n o cls j,
  load E n f o cls j = load E' n f o cls j.
Proof.
  intros H H0 n o cls j. apply (load_same_forks E E' [f]).
  - intros g [<-|[]]; assumption.
  - intros g t [<-|[]] [Ht|Ht]; destruct (H0 t); contradiction.
  - now left.
Qed.
(** ** Meta hints do not matter for inputs without dicts *)
Theorem load_hints E f h : dictless_defaults (e_ct E) -> forall n o cls j, dictless j = true ->
  load E n f (set_hints h o) cls j = load E n f o cls j.
Proof.
  intros Hdef n. 
  assert (G : forall o o' cls j, like true o o' -> dictless j = true -> load E n f o cls j = load E n f o' cls j).
  { induction n as [|n IH]; intros o o' cls j Ho Hj; [reflexivity|]. cbn [load].
    destruct E as [CT R ob s d vd w rs cs cd]. cbn [e_ct] in *.
    apply (load_step_same CT R ob f true); auto.
    - intros c fd x Hin Hx _. unfold nt_fields in Hin. destruct (ci_kind (CT c)) as [|m ms|fs] eqn:Ek; try (now destruct Hin).
      eapply Hdef; eauto.
    - intros Hx. exact Hj. }
  intros o cls j Hj. apply G; [|exact Hj]. unfold like. cbn. repeat split; auto. discriminate.
Qed.
