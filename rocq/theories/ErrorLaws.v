(** * Where the errors of load come from: source, target and argument (C65) *)
From Coq Require Import Lia.
From Verif Require Import PyBaseFacts EngineFacts LoadFacts LoadTypes ConformProofs HashedFacts ErrorModel ErrorSpec ErrorProofs.
Local Open Scope string_scope.

Section Errors.
Variable E : env.
Let CT := e_ct E.
Variable g : value -> res value.

(** ** What is asked for *)
Lemma asked_trans f0 cls0 j0 f1 cls1 j1 f2 cls2 j2 :
  asked E g f0 cls0 j0 f1 cls1 j1 -> asked E g f1 cls1 j1 f2 cls2 j2 -> asked E g f0 cls0 j0 f2 cls2 j2.
Proof.
  intros Hy H. induction H.
  - exact Hy.
  - eapply as_list; eauto.
  - eapply as_tuple; eauto.
  - eapply as_ellipsis; eauto.
  - eapply as_untyped; eauto.
  - eapply as_field; eauto.
  - eapply as_union; eauto.
  - eapply as_defaultdict; eauto.
  - eapply as_value; eauto.
  - eapply as_untyped_value; eauto.
  - eapply as_key; eauto.
  - eapply as_stored_key; eauto.
  - eapply as_datetime; eauto.
  - eapply as_offset; eauto.
  - eapply as_argument; eauto.
  - eapply as_named; eauto.
  - eapply as_attribute; eauto.
  - eapply as_other; eauto.
Qed.
Lemma blames_trans f0 cls0 j0 f1 cls1 j1 x :
  asked E g f0 cls0 j0 f1 cls1 j1 -> blames E g (asked E g f1 cls1 j1) x -> blames E g (asked E g f0 cls0 j0) x.
Proof.
  intros Hy H src tgt Ht. destruct (H src tgt Ht) as (n & f & o & cls & v & e & idx & H1 & H2).
  exists n, f, o, cls, v, e, idx. split; [eapply asked_trans; eauto|exact H2].
Qed.
Lemma at_indices_deser idx e : deserialization_error e -> deserialization_error (at_indices idx e).
Proof. intros H. destruct idx; cbn [at_indices]; [exact H|]. now left. Qed.
Lemma blames_deser rch x : blames E g rch x -> er_at x <> None -> deserialization_error (er_exn x).
Proof.
  intros H Hx. destruct (er_at x) as [[src tgt]|] eqn:Ex; [|now destruct Hx].
  destruct (H _ _ Ex) as (n & f & o & cls & v & e & idx & _ & _ & He & -> & _). now apply at_indices_deser.
Qed.
Lemma blames_none rch x : er_at x = None -> blames E g rch x.
Proof. intros H src tgt Ht. rewrite H in Ht. discriminate. Qed.
(** ** Parts of documents *)
Lemma iter_element j l i y : valid_type j = true -> py_iter (e_rt E) j = Ok l -> nth_error l i = Some y -> element j i y.
Proof.
  intros Hv Hi Hy. destruct j as [| | | |s|l0|l0|[]l0|k d| | | |]; try discriminate Hv; try discriminate Hi; cbn in Hi; injection Hi as <-.
  - now apply el_char.
  - now apply el_list.
  - now apply el_tuple.
  - now apply el_set.
  - rewrite nth_error_map in Hy. destruct (nth_error d i) as [[k1 x]|] eqn:En; [|discriminate]. injection Hy as <-. eapply el_key; exact En.
Qed.
Lemma getitem_element j i x : valid_type j = true -> (forall k d, j <> VDict k d) -> py_getitem CT j (VInt (Z.of_nat i)) = Ok x -> element j i x.
Proof.
  intros Hv Hj Hg.
  assert (Hat : forall l, (let i0 := (if Z.of_nat i <? 0 then Z.of_nat i + Z.of_nat (length l) else Z.of_nat i)%Z in
                   if ((0 <=? i0) && (i0 <? Z.of_nat (length l)))%Z
                   then match nth_error l (Z.to_nat i0) with
                        | Some x => Ok x
                        | None => raise KIndex
                        end
                   else raise KIndex) = Ok x -> nth_error l i = Some x).
  { intros l H. cbv zeta in H. replace (Z.of_nat i <? 0)%Z with false in H by (symmetry; apply Z.ltb_ge; lia).
    destruct (_ && _)%bool; [|discriminate H]. rewrite Nat2Z.id in H. destruct (nth_error l i); [congruence|discriminate]. }
  unfold py_getitem in Hg. destruct j as [| | | |s|l0|l0|[]l0|dk d| | | |]; try discriminate Hv; try discriminate Hg.
  - apply el_char. apply Hat. exact Hg.
  - apply el_list. apply Hat. exact Hg.
  - apply el_tuple. apply Hat. exact Hg.
  - now destruct (Hj dk d).
Qed.
Lemma getitem_entry j a x : valid_type j = true -> py_getitem CT j (VStr a) = Ok x -> entry j (VStr a) x.
Proof.
  intros Hv Hg. unfold py_getitem in Hg. destruct j as [| | | |s|l0|l0|[]l0|dk d| | | |]; try discriminate Hv; try discriminate Hg.
  destruct (hashable CT (VStr a)); [|discriminate Hg]. destruct (dget (VStr a) d) as [y|] eqn:Hd; [|discriminate Hg]. injection Hg as ->.
  apply dget_In in Hd. exists dk, d. auto.
Qed.
Lemma values_entry k d x : In x (map snd d) -> exists key, entry (VDict k d) key x.
Proof. intros H. apply in_map_iff in H as ([k1 y] & <- & H). exists k1, k, d. auto. Qed.

(** ** Options *)
Definition tame (o : lopts) : Prop := forall h k k', lo_kt o = Some h -> h k = Ok k' -> k' = k \/ g k = Ok k'.
Lemma tame_kt o : tame o -> forall h, lo_kt o = h -> forall o', lo_kt o' = h -> tame o'.
Proof. intros H h Hh o' Ho h' k k' Hk. apply H. congruence. Qed.
Definition kt_or_id (o : lopts) : value -> res value := match lo_kt o with Some h => h | None => fun k => Ok k end.
Lemma tame_id o : tame o -> forall k k', kt_or_id o k = Ok k' -> k' = k \/ g k = Ok k'.
Proof. intros H k k'. unfold kt_or_id. destruct (lo_kt o) as [h|] eqn:Eh; [eapply H; eauto|]. intros [= ->]. now left. Qed.
Lemma tame_some o : tame o -> tame (set_kt (Some (kt_or_id o)) o).
Proof. intros H h k k' [= <-]. now apply tame_id. Qed.
Lemma tame_none o : tame (set_kt None o).
Proof. intros h k k' Hk. discriminate. Qed.
Lemma nd_kt o : polite_options o -> forall k, no_deser (kt_or_id o k).
Proof. intros [_ H] k. unfold kt_or_id. destruct (lo_kt o) as [h|] eqn:Eh; [now apply H|apply nd_ok]. Qed.
Lemma polite_some o : polite_options o -> polite_options (set_kt (Some (kt_or_id o)) o).
Proof. intros H. split; [apply H|]. intros h k [= <-]. now apply nd_kt. Qed.
Lemma polite_none o : polite_options o -> polite_options (set_kt None o).
Proof. intros H. split; [apply H|]. intros h k Hk. discriminate. Qed.

(** ** Errors of a deserializer *)
(** [A]: the possible targets *)
Definition fine (f : nat) (cls : option ty) (j : value) (o : lopts) (x : err) : Prop :=
  ((exists src tgt, er_at x = Some (src, tgt) /\ deserialization_error (er_exn x) /\ source_of g j src /\ target_of E f cls j tgt) \/
   blames E g (asked E g f cls j) x) /\
  (polite E -> polite_options o -> explained E x).
Lemma explained_nd x : ~ deserialization_error (er_exn x) -> explained E x.
Proof.
  intros H. split; [intros Hd; now destruct H|]. split; intros Hk; destruct H; unfold deserialization_error; rewrite Hk; cbn; auto 6.
Qed.
Lemma explained_at x : er_at x <> None -> e_kind (er_exn x) <> KUnfulfilled -> e_kind (er_exn x) <> KSignature -> explained E x.
Proof. intros H H1 H2. split; [auto|]. split; intros Hk; contradiction. Qed.

Lemma is_dict (v : value) : (exists k d, v = VDict k d) \/ (forall k d, v <> VDict k d).
Proof. destruct v; try (right; intros; discriminate). left. eauto. Qed.
Section Call.
Variables (f : nat) (cls : option ty) (j : value).
Notation fine := (fine f cls j).
Lemma fine_bare o e : (polite E -> polite_options o -> ~ deserialization_error e) -> fine o (bare_err e).
Proof. intros H. split; [right; now apply blames_none|]. intros H1 H2. apply explained_nd. now apply H. Qed.
Lemma fine_kind o k : is_deser k = false -> fine o (bare_err (exn_of k)).
Proof. intros H. apply fine_bare. intros _ _ Hd. apply is_deser_spec in Hd. cbn in Hd. congruence. Qed.
Lemma fine_lift T o (r : res T) x : (polite E -> polite_options o -> no_deser r) -> snd (xlift r) = XFail x -> fine o x.
Proof. intros H Hx. apply xlift_fail in Hx as (e & He & ->). apply fine_bare. intros H1 H2. now apply (H H1 H2). Qed.
Lemma fine_at o e src tgt : deserialization_error e -> source_of g j src -> target_of E f cls j tgt ->
  (polite E -> polite_options o -> explained E (mkErr e (Some (src, tgt)))) -> fine o (mkErr e (Some (src, tgt))).
Proof. intros He Hs Ht Hx. split; [left|exact Hx]. exists src, tgt. auto. Qed.
Lemma fine_deser o src tgt : source_of g j src -> target_of E f cls j tgt -> fine o (mkErr (exn_of KDeser) (Some (src, tgt))).
Proof. intros Hs Ht. apply fine_at; auto; [now left|]. intros _ _. apply explained_at; cbn; discriminate. Qed.

Variable ld : nat -> lopts -> option ty -> value -> X value.
Hypothesis Hld : forall f o c j x, tame o -> snd (ld f o c j) = XFail x ->
  blames E g (asked E g f c j) x /\ (polite E -> polite_options o -> explained E x).
Lemma fine_rec o f' o' c y x : tame o' -> (polite_options o -> polite_options o') -> asked E g f cls j f' c y ->
  snd (ld f' o' c y) = XFail x -> fine o x.
Proof.
  intros Ht Ho Hy H. apply Hld in H as [H1 H2]; [|exact Ht]. split; [right; eapply blames_trans; eauto|]. intros HE Hp. apply H2; auto.
Qed.
Ltac splitx H := apply xbind_fail in H as [H|(?a & ?Ha & H)].

Hypothesis Hv : valid_type j = true.
Notation asks := (asked E g f cls j).

(** *** Tuples *)
Lemma fine_tuple_go o o' l : tame o' -> (polite_options o -> polite_options o') ->
  forall ts, (forall i y u, nth_error l i = Some y -> nth_error ts i = Some u -> asks f (Some u) y) ->
  forall x, snd (xtuple_go ld f o' l ts) = XFail x -> fine o x.
Proof.
  intros Ht Ho. induction l as [|y l IH]; intros ts Hl x H; cbn [xtuple_go] in H; [discriminate|].
  destruct ts as [|u ts]; [injection H as <-; now apply fine_kind|].
  splitx H; [eapply fine_rec; [exact Ht|exact Ho| |exact H]; now apply (Hl 0)|].
  splitx H; [|discriminate]. eapply IH; [|exact H]. intros i z w. apply (Hl (S i)).
Qed.
Lemma fine_nt_go o c all d len : tame o -> meant E f cls j (TClass c) -> e_deser E f (TClass c) = Some DTuple -> ci_kind (CT c) = CkNT all ->
  (match d with Some d => forall a y, In (VStr a, y) d -> named g j a y | None => forall k dd, j <> VDict k dd end) ->
  forall fields i, (forall n fd, nth_error fields n = Some fd -> nth_error all (i + n) = Some fd) ->
  forall x, snd (xnt_go E ld f o c j d len i fields) = XFail x -> fine o x.
Proof.
  intros Ht Hc Hh Hk Hd. induction fields as [|fd fields IH]; intros i Hf x H; cbn [xnt_go] in H; [discriminate|].
  assert (IH' : forall x, snd (xnt_go E ld f o c j d len (S i) fields) = XFail x -> fine o x).
  { apply IH. intros n fd' Hn. replace (S i + n) with (i + S n) by lia. now apply Hf. }
  assert (Hin : nth_error all i = Some fd) by (replace i with (i + 0) by lia; now apply Hf).
  splitx H.
  { eapply fine_lift; [|exact H]. intros _ _. nd. apply nd_getitem. }
  rename a into y. apply xlift_done in Ha.
  splitx H.
  { destruct (is_none y && _)%bool eqn:En; [|discriminate H]. injection H as <-. apply fine_at; auto.
    - cbn. auto.
    - apply so_self.
    - now apply to_meant.
    - intros _ _. split; [intros _; discriminate|]. split; [|intros Hs; discriminate Hs]. intros _.
      exists j, (TClass c), c, (nf_name fd). split; [reflexivity|]. split; [now left|]. split; [reflexivity|].
      eapply uf_field; eauto; [eapply nth_error_In; exact Hin|]. intros ts Hts Hn. apply andb_prop in En as [_ En]. rewrite Hts in En. cbn [raw_args] in En.
      apply negb_true_iff in En. assert (Hx : existsb (ty_eqb TNoneT) ts = true) by (apply existsb_exists; exists TNoneT; split; [exact Hn|apply ty_eqb_refl]). congruence. }
  assert (Hy : asks f (nf_hint fd) y).
  { eapply as_field; [apply as_self|exact Hc|exact Hh|exact Hk|exact Hin|]. destruct (Nat.ltb i len).
    - destruct d as [d|].
      + destruct (dget _ d) as [z|] eqn:Eg; [|discriminate Ha]. injection Ha as <-. apply dget_In in Eg. auto.
      + left. eapply getitem_element; eauto.
    - injection Ha as <-. destruct (nf_default fd) as [z|] eqn:Ez; auto. }
  splitx H; [eapply fine_rec; [exact Ht|auto|exact Hy|exact H]|].
  splitx H; [now apply IH' in H|discriminate].
Qed.
Lemma dset_key a k x d y : In (VStr a, y) (dset k x d) -> In (VStr a, y) d \/ (k = VStr a /\ y = x).
Proof.
  unfold dset. induction d as [|[k1 z] d IH]; cbn [aset]; intros H.
  - destruct H as [H|[]]. injection H as -> ->. auto.
  - destruct (py_eqb k k1) eqn:Ek.
    + destruct H as [H|H]; [|left; now right]. injection H as -> <-. right. rewrite py_eqb_sym in Ek. apply py_eqb_str in Ek as ->. auto.
    + destruct H as [H|H]; [left; now left|]. destruct (IH H) as [H1|H1]; [left; now right|now right].
Qed.
Lemma transform_named h dk d0 d : (forall k k', h k = Ok k' -> key_of g k k') -> transform_keys CT h d0 [] = Ok d ->
  forall a y, In (VStr a, y) d -> named g (VDict dk d0) a y.
Proof.
  intros Hh H.
  assert (Hgo : forall l acc d', (forall k x, In (k, x) l -> In (k, x) d0) ->
    (forall a y, In (VStr a, y) acc -> named g (VDict dk d0) a y) -> transform_keys CT h l acc = Ok d' ->
    forall a y, In (VStr a, y) d' -> named g (VDict dk d0) a y).
  { induction l as [|[k x] l IH]; intros acc d' Hl Hacc Ht; cbn [transform_keys] in Ht; [injection Ht as <-; exact Hacc|].
    destruct (h k) as [k'|] eqn:Ek; [|discriminate]. cbn [rbind] in Ht. destruct (hashable CT k'); [|discriminate].
    refine (IH _ _ (fun k x Hin => Hl k x (or_intror Hin)) _ Ht).
    intros a y Hy. apply dset_key in Hy as [Hy|[-> ->]]; [now apply Hacc|]. exists k. split; [exists dk, d0; split; [reflexivity|apply Hl; now left]|now apply Hh]. }
  refine (Hgo d0 [] d (fun k x Hin => Hin) _ H). intros a y [].
Qed.
Lemma fine_namedtuple o c all x : tame o -> meant E f cls j (TClass c) -> e_deser E f (TClass c) = Some DTuple -> ci_kind (CT c) = CkNT all ->
  snd (xdeser_namedtuple E ld f o c j) = XFail x -> fine o x.
Proof.
  intros Ht Hc Hh Hk H. unfold xdeser_namedtuple in H. splitx H.
  { destruct (is_dict j) as [(k & d & Ej)|Hn]; [|exfalso; destruct j; try discriminate H; now eapply Hn].
    rewrite Ej in H. cbv zeta in H. splitx H; [|discriminate H]. eapply fine_lift; [|exact H]. intros _ Hp. apply nd_transform. apply (nd_kt _ Hp). }
  splitx H.
  { eapply fine_lift; [|exact H]. intros HE _. unfold py_iter. nd; apply HE. }
  splitx H; [|discriminate]. eapply fine_nt_go; [exact Ht|exact Hc|exact Hh|exact Hk| | |exact H].
  - clear Hc H Ha0 Hh. destruct j as [| | | |s|l0|l0|[]l0|k d| | | |]; cbn in Ha; try discriminate Hv; try (injection Ha as <-; intros; discriminate).
    destruct (transform_keys _ _ d []) as [d'|] eqn:Et; [|discriminate Ha]. cbn in Ha. injection Ha as <-.
    eapply transform_named; [|exact Et]. apply (tame_id o Ht).
  - intros n fd Hn. cbn [Nat.add]. unfold nt_fields in Hn. change (e_ct E) with CT in Hn. rewrite Hk in Hn. exact Hn.
Qed.
(** The type that is meant and its deserializer *)
Variable t : ty.
Hypothesis Hm : meant E f cls j t.

(** *** Lists *)
Lemma fine_list_go o o' u l : tame o' -> (polite_options o -> polite_options o') -> (forall y, In y l -> asks f u y) ->
  forall w i x, snd (xlist_go E ld f o' w u i l) = XFail x -> fine o x.
Proof.
  intros Ht Ho. induction l as [|y l IH]; intros Hl w i x H; cbn [xlist_go] in H; [discriminate|]. cbv zeta in H.
  assert (IH' := IH (fun y Hy => Hl y (or_intror Hy))). clear IH.
  destruct (snd (ld f o' u y)) as [v|e|] eqn:Es; [|destruct (is_deser (e_kind (er_exn e))) eqn:Ed; [destruct w|]|discriminate].
  - splitx H; [discriminate|]. splitx H; [now apply IH' in H|]. discriminate.
  - splitx H; [discriminate|]. splitx H.
    + unfold xwarn in H. destruct (e_warn E f _); discriminate.
    + now apply IH' in H.
  - cbn [snd] in H. injection H as <-. apply (fine_rec o) in Es; auto; [|apply Hl; now left]. destruct Es as [H1 H2]. split.
    + destruct H1 as [(src & tgt & H1 & H3 & H4 & H5)|H1].
      * left. exists src, tgt. split; [exact H1|]. split; [now left|]. auto.
      * right. intros src tgt Hx. cbn [er_at] in Hx. destruct (H1 _ _ Hx) as (n & f1 & o1 & cls1 & v & e1 & idx & G0 & G1 & G2 & G3 & G4).
        exists n, f1, o1, cls1, v, e1, (i :: idx). split; [exact G0|]. split; [exact G1|]. split; [exact G2|]. split; [|exact G4]. cbn [er_exn at_indices]. cbv zeta. now rewrite G3.
    + intros HE Hp. specialize (H2 HE Hp). apply explained_at; cbn [er_at er_exn e_kind]; try discriminate.
      apply H2. now apply is_deser_spec.
  - cbn [snd] in H. injection H as <-. apply (fine_rec o) in Es; auto. apply Hl. now left.
Qed.
Lemma fine_list o args x : tame o -> args = get_args (Some t) -> e_deser E f t = Some DList \/ e_deser E f t = Some DIterable ->
  snd (xdeser_list E ld f o args j) = XFail x -> fine o x.
Proof.
  intros Ht Hargs Hh H. unfold xdeser_list in H. cbv zeta in H. splitx H.
  - eapply fine_lift; [|exact H]. intros HE _. unfold py_iter. nd; apply HE.
  - apply xlift_done in Ha. eapply fine_list_go; [| | |exact H].
    + destruct args; exact Ht.
    + destruct args; intros [H1 H2]; now split.
    + intros y Hy. apply In_nth_error in Hy as (i & Hy). rewrite Hargs. eapply as_list; [apply as_self|exact Hm|exact Hh|]. eapply iter_element; eauto.
Qed.
Lemma fine_iterable o x : tame o -> e_deser E f t = Some DIterable -> snd (xdeser_iterable E ld f o t j) = XFail x -> fine o x.
Proof.
  intros Ht Hh H. unfold xdeser_iterable in H. splitx H.
  { eapply fine_lift; [|exact H]. intros _ _. nd. }
  apply xlift_done in Ha.
  splitx H.
  { eapply fine_list; [exact Ht| |now right|exact H]. cbn [get_args]. destruct (raw_args t) as [[|t1 [|t2 ts]]|]; try discriminate Ha; injection Ha as <-; reflexivity. }
  assert (Hc : forall v, snd (xlift (rt_cast (e_rt E) t v)) = XFail x -> fine o x).
  { intros v Hc. eapply fine_lift; [|exact Hc]. intros HE _. apply HE. }
  clear Hh Ha Hm. destruct t as [| | | |b h ts| | | | | | | | | |]; try (eapply Hc; exact H).
  destruct h; try discriminate H; try (eapply Hc; exact H);
    (destruct (forallb _ _); [discriminate H|]; injection H as <-; now apply fine_kind).
Qed.
Lemma fine_tuple o x : tame o -> e_deser E f t = Some DTuple -> snd (xdeser_tuple E ld f o t j) = XFail x -> fine o x.
Proof.
  intros Ht Hh H. unfold xdeser_tuple in H. cbv zeta in H.
  assert (Hplain : snd (dox l <- xlift (py_iter (e_rt E) j);
    match get_args (Some t) with
    | [] => dox vs <- xmap (ld f (set_kt None o) None) l; xret (VTuple vs)
    | (t0 :: _) as ts =>
        dox vs <- xtuple_go ld f (set_kt None o) l (if ty_eqb TEllipsis (last ts TAny) then repeat t0 (length l) else ts); xret (VTuple vs)
    end) = XFail x -> fine o x).
  { clear H. intros H. splitx H.
    { eapply fine_lift; [|exact H]. intros HE _. unfold py_iter. nd; apply HE. }
    apply xlift_done in Ha. assert (Hr := fun i y => iter_element j a i y Hv Ha).
    destruct (get_args (Some t)) as [|t0 ts] eqn:Ea.
    - splitx H; [|discriminate]. apply xmap_fail in H as (y & Hy & H). apply In_nth_error in Hy as (i & Hy).
      eapply fine_rec; [apply tame_none|apply polite_none| |exact H]. eapply as_untyped; [apply as_self|exact Hm|exact Hh|apply Hr; exact Hy|exact Ea].
    - splitx H; [|discriminate]. eapply fine_tuple_go; [apply tame_none|apply polite_none| |exact H].
      intros i y u Hy Hu. destruct (ty_eqb TEllipsis _) eqn:Ee.
      + apply ty_eqb_eq in Ee. apply nth_error_In, repeat_spec in Hu as ->.
        eapply as_ellipsis; [apply as_self|exact Hm|exact Hh|apply Hr; exact Hy|now rewrite Ea|now rewrite Ea].
      + eapply as_tuple; [apply as_self|exact Hm|exact Hh|apply Hr; exact Hy|]. now rewrite Ea. }
  destruct t; try (apply Hplain; exact H).
  destruct (ci_kind (e_ct E c)) eqn:Ek; try (apply Hplain; exact H). eapply fine_namedtuple; eauto.
Qed.
(** *** Unions *)
Lemma fine_union o x : tame o -> e_deser E f t = Some DUnion -> snd (xdeser_union ld f o t j) = XFail x -> fine o x.
Proof.
  intros Ht Hh H. unfold xdeser_union in H. destruct (raw_args t) as [ts|] eqn:Ea; [|injection H as <-; now apply fine_kind].
  assert (Hall : forall u, In u ts -> asks f (Some u) j) by (intros u Hu; eapply as_union; [apply as_self|exact Hm|exact Hh|exact Ea|exact Hu]).
  clear Ea. induction ts as [|u ts IH]; cbn [xunion_go] in H; [injection H as <-; apply fine_deser; [apply so_self|now apply to_meant]|].
  apply xtry_fail in H as (e & He & H). destruct (is_jsons _); [apply IH; [exact H|]; intros w Hw; apply Hall; now right|]. injection H as <-.
  eapply fine_rec; [exact Ht|auto| |exact He]. apply Hall. now left.
Qed.
(** *** Dicts *)
Lemma fine_hashed o o' kt stored : tame o' -> (polite_options o -> polite_options o') -> (forall y, In y (map snd stored) -> asks f (Some kt) y) ->
  forall d x, snd (xhashed_go E ld f o' kt stored d) = XFail x -> fine o x.
Proof.
  intros Ht Ho. induction stored as [|[h orig] stored IH]; intros Hs d x H; cbn [xhashed_go] in H.
  - destruct (dhas _ d); [discriminate|]. injection H as <-. now apply fine_kind.
  - splitx H; [eapply fine_rec; [exact Ht|exact Ho| |exact H]; apply Hs; now left|].
    destruct (dget h d) as [z|]; [|injection H as <-; now apply fine_kind].
    destruct (_ && _)%bool; [|injection H as <-; now apply fine_kind]. eapply IH; [|exact H]. intros y Hy. apply Hs. now right.
Qed.
Lemma ddel_values k d y : In y (map snd (ddel k d)) -> In y (map snd d).
Proof.
  unfold ddel. intros H. induction d as [|[k1 z] d IH]; cbn [adel] in H; [exact H|].
  destruct (py_eqb k k1); cbn [map snd In] in *; [now right|]. destruct H as [H|H]; [now left|right; now apply IH].
Qed.
Lemma hashed_values o kt stored : forall d d', snd (xhashed_go E ld f o kt stored d) = XDone d' ->
  forall y, In y (map snd d') -> In y (map snd d).
Proof.
  induction stored as [|[h orig] stored IH]; intros d d' H y Hy; cbn [xhashed_go] in H.
  - destruct (dhas _ d); [|discriminate]. injection H as <-. eapply ddel_values; exact Hy.
  - destruct (ld f o (Some kt) orig) as [evs [k|e|]]; try discriminate H. unfold xbind in H. cbn [fst snd] in H.
    destruct (dget h d) as [z|] eqn:Ez; [|discriminate]. destruct (_ && _)%bool; [|discriminate].
    apply (IH _ _ H) in Hy. apply ddel_values in Hy. apply dset_values in Hy as [->|Hy]; [eapply dget_values; exact Ez|exact Hy].
Qed.
Lemma fine_dict_go o ok ov h key_cls val_cls : tame ok -> tame ov ->
  (polite_options o -> polite_options ok) -> (polite_options o -> polite_options ov) -> (polite_options o -> forall k, no_deser (h k)) ->
  (forall k k', h k = Ok k' -> key_of g k k') ->
  forall d, (forall u, key_cls = Some u -> forall k k', In k (map fst d) -> key_of g k k' -> asks f (Some u) k') -> (forall y, In y (map snd d) -> asks f val_cls y) ->
  forall acc x, snd (xdict_go E ld f ok ov h key_cls val_cls d acc) = XFail x -> fine o x.
Proof.
  intros Hk Hov Hpk Hpv Hph Hh. induction d as [|[k y] d IH]; intros Hd1 Hd2 acc x H; cbn [xdict_go] in H; [discriminate|].
  splitx H; [eapply fine_lift; [|exact H]; intros _ Hp; now apply Hph|].
  apply xlift_done in Ha. apply Hh in Ha.
  splitx H.
  { destruct key_cls as [u|]; [|discriminate]. eapply fine_rec; [exact Hk|exact Hpk| |exact H].
    eapply Hd1; [reflexivity|now left|exact Ha]. }
  splitx H; [eapply fine_rec; [exact Hov|exact Hpv| |exact H]; apply Hd2; now left|].
  destruct (hashable _ _); [|injection H as <-; now apply fine_kind]. eapply IH; [| |exact H].
  - intros u Hu k1 k2 Hk1. apply (Hd1 u Hu). now right.
  - intros z Hz. apply Hd2. now right.
Qed.
Lemma fine_dict o u x : tame o -> target_of E f cls j (Some u) -> e_deser E f t = Some DMapping -> get_args (Some t) = [] \/ (exists tk tv, get_args (Some t) = [tk; tv]) ->
  snd (xdeser_dict E ld f o u (get_args (Some t)) j) = XFail x -> fine o x.
Proof.
  intros Ht HA Hh Hargs H. assert (Hent : forall k y, entry j k y -> forall tk tv, get_args (Some t) = [tk; tv] ->
    asks f (Some tv) y /\ forall k', key_of g k k' -> asks f (Some tk) k').
  { intros k y He tk tv Ea. split; [eapply as_value; [apply as_self|exact Hm|exact Hh|exact Ea|exact He]|].
    intros k' Hk. eapply as_key; [apply as_self|exact Hm|exact Hh|exact Ea|exact He|exact Hk]. }
  assert (Hun : forall k y, entry j k y -> get_args (Some t) = [] -> asks f None y).
  { intros k y He Ea. eapply as_untyped_value; [apply as_self|exact Hm|exact Hh|exact Ea|exact He]. }
  assert (Hst : forall st hash k tk tv, get_args (Some t) = [tk; tv] -> entry j (VStr "-keys") st -> entry st hash k -> asks f (Some tk) k).
  { intros. eapply as_stored_key; [apply as_self|exact Hm|exact Hh| | |]; eauto. }
  unfold xdeser_dict in H.
  destruct (is_dict j) as [(k & d & Ej)|Hn]; [|assert (Hy : x = bare_err (exn_of KAttribute)) by (clear - H Hn; destruct j; try (injection H as <-; reflexivity); now destruct (Hn k d)); rewrite Hy; now apply fine_kind].
  rewrite Ej in H. assert (Hde : forall k1 y, In (k1, y) d -> entry j k1 y) by (intros k1 y Hin; exists k, d; split; [exact Ej|exact Hin]).
  assert (Hdv : forall y, In y (map snd d) -> exists k1, entry j k1 y) by (intros y Hy; apply in_map_iff in Hy as ([k1 z] & <- & Hy); eauto).
  splitx H.
  - unfold xload_hashed_keys in H. destruct (dget _ d) as [keys|] eqn:Ek; [|discriminate].
    splitx H; [eapply fine_lift; [|exact H]; intros HE _; unfold py_iter; nd; apply HE|].
    destruct a as [|a0 a]; [discriminate|].
    destruct Hargs as [Hargs|(tk & tv & Hargs)]; rewrite Hargs in H; [injection H as <-; apply fine_deser; [rewrite <- Ej; apply so_self|exact HA]|].
    destruct keys as [| | | |s|l0|l0|ck l0|k0 stored| | | |]; try (injection H as <-; now apply fine_kind).
    splitx H; [|discriminate]. eapply fine_hashed; [exact Ht|auto| |exact H].
    intros y Hy. apply (values_entry k0) in Hy as (h & Hy). eapply Hst; [exact Hargs| |exact Hy]. apply Hde. now apply dget_In.
  - destruct a as [d' hashed]. cbn [fst snd] in H. cbv zeta in H.
    assert (Hd : (forall y, In y (map snd d') -> In y (map snd d)) /\ (hashed = false -> d' = d)).
    { unfold xload_hashed_keys in Ha. destruct (dget _ d) as [keys|]; [|injection Ha as <- <-; auto].
      destruct (xlift (py_iter (e_rt E) keys)) as [evs [ks|e|]]; try discriminate Ha. unfold xbind in Ha at 1. cbn [fst snd] in Ha.
      destruct ks as [|k0 ks]; [injection Ha as <- <-; auto|].
      destruct (get_args (Some t)) as [|ta [|tb [|tc args]]]; try discriminate Ha. destruct keys as [| | | |s|l0|l0|ck l0|k1 stored| | | |]; try discriminate Ha.
      destruct (xhashed_go E ld f o ta stored d) as [evs1 [d1|e|]] eqn:Eh; try discriminate Ha. injection Ha as <- <-.
      split; [|discriminate]. eapply hashed_values. rewrite Eh. reflexivity. }
    destruct Hd as [Hd1 Hd2].
    assert (Hgo : forall key_cls val_cls,
      (forall u, key_cls = Some u -> hashed = false /\ forall k k', In k (map fst d) -> key_of g k k' -> asks f (Some u) k') ->
      (forall y, In y (map snd d) -> asks f val_cls y) ->
      snd (xdict_go E ld f (set_kt None o) (set_kt (Some (kt_or_id o)) o) (kt_or_id o) key_cls val_cls d' []) = XFail x -> fine o x).
    { intros kc vc Hkc Hvc. apply fine_dict_go.
      - apply tame_none.
      - now apply tame_some.
      - apply polite_none.
      - apply polite_some.
      - apply nd_kt.
      - now apply tame_id.
      - intros w Hw. destruct (Hkc w Hw) as [Hf Hk]. rewrite (Hd2 Hf). exact Hk.
      - intros y Hy. apply Hvc. now apply Hd1. }
    destruct Hargs as [Hargs|(tk & tv & Hargs)]; rewrite Hargs in H; (eapply Hgo; [| |exact H]).
    + intros w Hw. discriminate.
    + intros y Hy. apply Hdv in Hy as (h & Hy). eapply Hun; eauto.
    + intros w Hw. destruct hashed; [discriminate|]. injection Hw as <-. split; [reflexivity|]. intros k1 k2 Hk1 Hk2.
      apply in_map_iff in Hk1 as ([k3 y] & <- & Hk1). apply Hde in Hk1. exact (proj2 (Hent _ _ Hk1 _ _ Hargs) _ Hk2).
    + intros y Hy. apply Hdv in Hy as (h & Hy). exact (proj1 (Hent _ _ Hy _ _ Hargs)).
Qed.
Lemma fine_mapping o x : tame o -> e_deser E f t = Some DMapping -> snd (xdeser_mapping E ld f o t j) = XFail x -> fine o x.
Proof.
  intros Ht Hh H. unfold xdeser_mapping in H. splitx H; [eapply fine_lift; [|exact H]; intros _ _; nd|].
  apply xlift_done in Ha.
  assert (Hargs : a = get_args (Some t) /\ (get_args (Some t) = [] \/ (exists tk tv, get_args (Some t) = [tk; tv]))).
  { destruct (get_args (Some t)) as [|t1 [|t2 [|t3 ts]]]; try discriminate Ha; injection Ha as <-; split; eauto. }
  destruct Hargs as [-> Hargs].
  splitx H.
  - eapply fine_dict; [exact Ht| |exact Hh|exact Hargs|exact H]. clear H. destruct (get_args (Some t)) eqn:Eg; rewrite <- Eg; now apply to_mapping.
  - assert (Hc : forall v, snd (xlift (rt_cast (e_rt E) t v)) = XFail x -> fine o x).
    { intros v Hc. eapply fine_lift; [|exact Hc]. intros HE _. apply HE. }
    clear Hh Hm Hargs Ha Ha0. destruct t as [| | | |b h ts| | | | | | | | | |]; try discriminate H; try (eapply Hc; exact H).
    destruct h; try discriminate H; eapply Hc; exact H.
Qed.
Lemma fine_defaultdict o x : tame o -> e_deser E f t = Some DDefaultDict -> snd (xdeser_defaultdict ld f o t j) = XFail x -> fine o x.
Proof.
  intros Ht Hh H. unfold xdeser_defaultdict in H. splitx H; [eapply fine_lift; [|exact H]; intros _ _; nd|].
  apply xlift_done in Ha.
  assert (Hargs : a = TApp true HDict (get_args (Some t))).
  { destruct (get_args (Some t)) as [|t1 [|t2 [|t3 ts]]]; try discriminate Ha; injection Ha as <-; reflexivity. }
  splitx H; [eapply fine_rec; [exact Ht|auto| |exact H]; rewrite Hargs; eapply as_defaultdict; [apply as_self|exact Hm|exact Hh]|].
  destruct a0; try discriminate H; injection H as <-; now apply fine_kind.
Qed.
(** *** Primitives *)
Lemma nd_cast u v : polite E -> no_deser (cast (e_rt E) u v).
Proof.
  intros HE. destruct HE.
  assert (H1 : no_deser (py_str (e_rt E) v)) by (unfold py_str; nd; auto).
  assert (H2 : no_deser (py_to_int (e_rt E) v)) by (unfold py_to_int; nd; auto using nd_int_of_float).
  assert (H3 : no_deser (py_to_float (e_rt E) v)) by (unfold py_to_float; nd; auto using nd_float_of_int).
  unfold cast. nd; auto.
Qed.
Lemma fine_primitive o u x : target_of E f cls j (Some u) -> snd (xdeser_primitive E u j) = XFail x -> fine o x.
Proof.
  intros HA H. assert (Hg : snd (dox b <- xlift (is_instance (e_ct E) j u);
         if b then xret j
         else match cast (e_rt E) u j with
              | Ok r => xret r
              | Err e => if is_valueerror (e_kind e) then xfail_at (exn_of KDeser) j (Some u) else xfail e
              end) = XFail x) by (destruct j; try exact H; discriminate H). clear H. rename Hg into H.
  splitx H; [eapply fine_lift; [|exact H]; intros; apply nd_is_instance|]. destruct a; [discriminate|].
  destruct (cast (e_rt E) u j) as [r|e] eqn:Ec; [discriminate|]. destruct (is_valueerror _).
  - injection H as <-. apply fine_deser; [apply so_self|exact HA].
  - injection H as <-. apply fine_bare. intros HE _. now apply (nd_cast u j HE).
Qed.
Lemma fine_string o x : tame o -> e_deser E f t = Some DString -> snd (xdeser_string E ld f o t j) = XFail x -> fine o x.
Proof.
  intros Ht Hh H. unfold xdeser_string in H. destruct (_ && _)%bool.
  - eapply fine_lift; [|exact H]. intros HE _. apply (nd_cast (TPrim PStr) j HE).
  - apply xtry_fail in H as (e & He & H). destruct (is_deser _); [eapply fine_primitive; [|exact H]; eapply to_str; eauto|]. injection H as <-.
    eapply fine_rec; [exact Ht|auto| |exact He]. eapply as_datetime; [apply as_self|exact Hm|exact Hh].
Qed.
Lemma tame0 : tame lopts0.
Proof. intros h k k' H. discriminate. Qed.
Lemma polite0 : polite_options lopts0.
Proof. split; [intros a r []|]. intros h k H. discriminate. Qed.
Lemma fine_timezone o x : e_deser E f t = Some DTimezone -> snd (xdeser_timezone E ld j) = XFail x -> fine o x.
Proof.
  intros Hh H. unfold xdeser_timezone in H. splitx H; [eapply fine_lift; [|exact H]; intros; apply nd_getitem|].
  apply xlift_done in Ha. splitx H.
  { eapply fine_rec; [apply tame0|intros; apply polite0| |exact H]. eapply as_offset; [apply as_self|exact Hm|exact Hh|]. now apply getitem_entry. }
  splitx H; [eapply fine_lift; [|exact H]; intros; apply nd_getitem|].
  destruct a0 as [| | | | | | | | |v| | |]; try (injection H as <-; now apply fine_kind). destruct v; try (injection H as <-; now apply fine_kind).
  destruct a1; try (injection H as <-; now apply fine_kind). destruct (timezone_ok us); [discriminate|]. injection H as <-. now apply fine_kind.
Qed.
Lemma fine_complex o x : snd (xdeser_complex E ld j) = XFail x -> fine o x.
Proof.
  intros H. unfold xdeser_complex in H. apply xtry_fail in H as (e & He & H).
  destruct (is_keyerror _) eqn:E1; [injection H as <-; now apply fine_kind|]. destruct (is_deser (e_kind (er_exn e))) eqn:E2; [injection H as <-; now apply fine_kind|].
  injection H as <-.
  assert (Hn : ~ deserialization_error (er_exn e)) by (intros Hd; apply is_deser_spec in Hd; congruence).
  assert (Hat : er_at e = None).
  { assert (Hl : forall T (r : res T), snd (xlift r) = XFail e -> er_at e = None) by (intros T r Hr; apply xlift_fail in Hr as (e0 & _ & ->); reflexivity).
    splitx He; [eapply Hl; exact He|]. splitx He; [eapply Hl; exact He|]. splitx He.
    - apply Hld in He as [He _]; [|apply tame0]. destruct (er_at e) eqn:Ea; [|reflexivity]. destruct Hn. eapply blames_deser; [exact He|]. rewrite Ea. discriminate.
    - splitx He; [eapply Hl; exact He|]. splitx He; [eapply Hl; exact He|].
      destruct a2; try (injection He as <-; reflexivity). destruct a3; try (injection He as <-; reflexivity). discriminate. }
  split; [right; now apply blames_none|]. intros _ _. now apply explained_nd.
Qed.
(** *** Objects *)
Lemma dset_entry (P Q : value -> Prop) k x d : P k -> Q x -> Forall (fun kx => P (fst kx) /\ Q (snd kx)) d ->
  Forall (fun kx => P (fst kx) /\ Q (snd kx)) (dset k x d).
Proof.
  intros Hk Hx Hd. unfold dset. induction Hd as [|[k1 y] d [H1 H2] Hd IH]; cbn [aset].
  - constructor; [split; assumption|constructor].
  - destruct (py_eqb k k1); constructor; auto.
Qed.
Lemma transform_source h dk d0 d : (forall k k', h k = Ok k' -> key_of g k k') -> transform_keys CT h d0 [] = Ok d -> source_of g (VDict dk d0) (VDict DkDict d).
Proof.
  intros Hh H. apply so_keys.
  set (P := fun k' => exists k x, entry (VDict dk d0) k x /\ key_of g k k'). set (Q := fun x => exists k, entry (VDict dk d0) k x).
  assert (Hgo : forall l acc d', (forall k x, In (k, x) l -> In (k, x) d0) ->
    Forall (fun kx => P (fst kx) /\ Q (snd kx)) acc -> transform_keys CT h l acc = Ok d' -> Forall (fun kx => P (fst kx) /\ Q (snd kx)) d').
  { induction l as [|[k x] l IH]; intros acc d' Hl Hacc Ht; cbn [transform_keys] in Ht; [injection Ht as <-; exact Hacc|].
    destruct (h k) as [k'|] eqn:Ek; [|discriminate]. cbn [rbind] in Ht. destruct (hashable CT k'); [|discriminate].
    refine (IH _ _ (fun k x Hin => Hl k x (or_intror Hin)) _ Ht).
    assert (Hen : entry (VDict dk d0) k x) by (exists dk, d0; split; [reflexivity|apply Hl; now left]).
    apply dset_entry; auto; unfold P, Q; eauto. }
  refine (Hgo d0 [] d (fun k x Hin => Hin) _ H). constructor.
Qed.
Lemma fine_value_from_obj o o' c src hints p y x : tame o' -> (polite_options o -> polite_options o') -> source_of g j src ->
  e_deser E f t = Some DObject -> class_target E t c -> In p (ci_params (CT c)) -> named g j (pa_name p) y ->
  snd (xvalue_from_obj E ld f o' src hints p y) = XFail x -> fine o x.
Proof.
  intros Ht Ho Hs Hh Hc Hp Hy H. unfold xvalue_from_obj in H. cbv zeta in H.
  splitx H.
  - destruct (dget _ hints) as [s|]; [|discriminate]. destruct (truthy _ s); [|discriminate].
    destruct s; try (injection H as <-; now apply fine_kind).
    splitx H.
    + unfold xresolved in H. destruct (e_resolve E f s) as [u|e] eqn:Er; [discriminate|]. destruct (is_deser (e_kind e)) eqn:Ed.
      * injection H as <-. apply fine_at; auto; [now apply is_deser_spec|eapply to_unknown; exact Er|]. intros HE _. apply is_deser_spec in Ed.
        apply explained_at; cbn; [discriminate| |]; rewrite (po_resolve _ HE _ _ _ Er Ed); discriminate.
      * injection H as <-. apply fine_bare. intros _ _ Hd. apply is_deser_spec in Hd. congruence.
    + splitx H; [|discriminate]. eapply fine_lift; [|exact H]. intros; apply nd_shift.
  - assert (Hmeta : fst a = None \/ exists s u, fst a = Some u /\ e_resolve E f s = Ok u).
    { destruct (dget _ hints) as [s|]; [|injection Ha as <-; now left]. destruct (truthy _ s); [|injection Ha as <-; now left].
      destruct s; try discriminate Ha. destruct (e_resolve E f s) as [u|e] eqn:Er; cbn [xresolved] in Ha.
      - right. exists s, u. split; [|exact Er]. destruct (shift_hints _ _ _); cbn in Ha; [|discriminate]. injection Ha as <-. reflexivity.
      - destruct (is_deser _) in Ha; discriminate. }
    eapply fine_rec; [| | |exact H]; [exact Ht|exact Ho|]. destruct Hmeta as [->|(s & u & -> & Hr)]; unfold determine_precedence; cbn.
    + replace (match pa_hint p with Some t0 => Some t0 | None => None end) with (pa_hint p) by (now destruct (pa_hint p)). (eapply as_argument; [apply as_self|exact Hm|exact Hh|exact Hc|exact Hp|exact Hy]).
    + eapply as_named; [apply as_self|exact Hm|exact Hh|exact Hc|exact Hp|exact Hy|exact Hr].
Qed.
Lemma sget_In a (l : list (string * res value)) r : sget a l = Some r -> exists b, In (b, r) l.
Proof.
  unfold sget. induction l as [|[b y] l IH]; cbn [aget]; [discriminate|]. destruct (String.eqb a b); [intros [= ->]; exists b; now left|].
  intros H. destruct (IH H) as (b1 & Hb). exists b1. now right.
Qed.
Lemma fine_value_for_attr o o' c src hints d p x : tame o' -> (polite_options o -> polite_options o') ->
  source_of g j src -> e_deser E f t = Some DObject -> class_target E t c -> In p (ci_params (CT c)) ->
  (forall k y, entry src k y -> In (k, y) d) -> (forall a y, In (VStr a, y) d -> named g j a y) ->
  snd (xvalue_for_attr E ld f o' t src hints d (lo_getters o) p) = XFail x -> fine o x.
Proof.
  intros Ht Ho Hs Hh Hc Hp Hd Hr H. unfold xvalue_for_attr in H.
  destruct (dget (VStr (pa_name p)) d) as [y|] eqn:Ed.
  { splitx H; [|discriminate]. eapply fine_value_from_obj; eauto. apply Hr. now apply dget_In. }
  destruct (sget _ (lo_getters o)) as [gt|] eqn:Eg.
  { splitx H; [discriminate|]. splitx H; [|discriminate]. eapply fine_lift; [|exact H]. intros _ [Hpo _]. apply sget_In in Eg as (b & Hb). eapply Hpo; exact Hb. }
  destruct (pa_default p) eqn:Edef; [discriminate|]. destruct (pa_var p) eqn:Ev; [discriminate|].
  splitx H; [eapply fine_lift; [|exact H]; intros; apply nd_can_match_none|]. destruct a; [discriminate|]. injection H as <-.
  apply fine_at; auto; [cbn; auto|now apply to_meant|]. intros _ _. split; [intros _; discriminate|]. split; [|intros Hk; discriminate Hk]. intros _.
  exists src, t, c, (pa_name p). split; [reflexivity|]. split; [exact Hc|]. split; [reflexivity|]. eapply uf_param; eauto.
  intros k y He Hk. subst k. apply Hd in He. clear - Ed He. unfold dget in Ed. induction d as [|[k1 z] d IH]; [destruct He|].
  cbn [aget] in Ed. destruct (py_eqb (VStr (pa_name p)) k1) eqn:Ek; [discriminate|]. destruct He as [He|He]; [|now apply IH].
  injection He as -> ->. rewrite py_eqb_refl in Ek. discriminate.
Qed.
Lemma fine_constructor_args o o' c src hints d : tame o' -> (polite_options o -> polite_options o') ->
  source_of g j src -> e_deser E f t = Some DObject -> class_target E t c ->
  (forall k y, entry src k y -> In (k, y) d) -> (forall a y, In (VStr a, y) d -> named g j a y) ->
  forall ps, incl ps (ci_params (CT c)) -> forall x, snd (xconstructor_args E ld f o' t src hints d (lo_getters o) ps) = XFail x -> fine o x.
Proof.
  intros Ht Ho Hs Hh Hc Hd Hr. induction ps as [|p ps IH]; intros Hps x H; cbn [xconstructor_args] in H; [discriminate|].
  splitx H; [eapply fine_value_for_attr; eauto; apply Hps; now left|].
  splitx H; [|discriminate]. eapply IH; [|exact H]. intros q Hq. apply Hps. now right.
Qed.
Lemma xbind_done {T B} (m : X T) (k : T -> X B) b : snd (xbind m k) = XDone b -> exists a, snd m = XDone a /\ snd (k a) = XDone b.
Proof. destruct m as [evs [a|e|]]; unfold xbind; cbn [fst snd]; intros H; [eauto|discriminate|discriminate]. Qed.
Lemma constructor_args_complete o src hints d gs : forall ps args, snd (xconstructor_args E ld f o t src hints d gs ps) = XDone args ->
  forall p, In p ps -> In (VStr (pa_name p)) (map fst d) -> shas (pa_name p) args = true.
Proof.
  induction ps as [|q ps IH]; intros args H p Hp Hin; [destruct Hp|]. cbn [xconstructor_args] in H.
  apply xbind_done in H as (y & Hy & H). apply xbind_done in H as (rest & Hrest & H). injection H as <-.
  destruct Hp as [->|Hp].
  - assert (Hd : exists v, dget (VStr (pa_name p)) d = Some v).
    { clear - Hin. induction d as [|[k1 z] d IH]; [destruct Hin|]. unfold dget in *. cbn [aget]. destruct (py_eqb _ k1) eqn:Ek; [eauto|].
      destruct Hin as [Hin|Hin]; [|now apply IH]. cbn in Hin. subst k1. rewrite py_eqb_refl in Ek. discriminate. }
    destruct Hd as (v & Hd). unfold xvalue_for_attr in Hy. rewrite Hd in Hy. apply xbind_done in Hy as (w & _ & Hy). injection Hy as <-.
    unfold shas, amem. cbn [aget]. rewrite String.eqb_refl. reflexivity.
  - specialize (IH _ Hrest p Hp Hin). destruct y as [y|]; [|exact IH]. unfold shas, amem in *. cbn [aget]. destruct (String.eqb (pa_name p) (pa_name q)); [reflexivity|exact IH].
Qed.
Lemma fine_remaining o c src d strict args x : source_of g j src -> class_target E t c ->
  (forall k y, In (k, y) d -> entry src k y) ->
  (forall p, In p (ci_params (CT c)) -> In (VStr (pa_name p)) (map fst d) -> shas (pa_name p) args = true) ->
  snd (xremaining_args strict t src d args) = XFail x -> fine o x.
Proof.
  intros Hs Hc Hd Hargs H. unfold xremaining_args in H. destruct (remaining_args strict d args) as [rest|e] eqn:Er; [discriminate|].
  injection H as <-. unfold remaining_args in Er. cbv zeta in Er. destruct (filter _ d) as [|[k y] rest] eqn:Ef; [discriminate|].
  destruct strict; [|discriminate]. injection Er as <-.
  assert (Hin : In (k, y) (filter (fun kv => negb (has_arg (fst kv) args) && negb (py_eqb (VStr "-meta") (fst kv))) d)) by (rewrite Ef; now left).
  apply filter_In in Hin as [Hin Hb]. apply andb_prop in Hb as [Hb1 Hb2]. cbn [fst] in Hb1, Hb2. apply negb_true_iff in Hb1, Hb2.
  apply fine_at; auto; [destruct k; cbn; auto 6|now apply to_meant|].
  intros _ _. split; [intros _; discriminate|]. split; [intros Hk; destruct k; discriminate Hk|]. intros _.
  exists src, t, c. split; [reflexivity|]. split; [exact Hc|]. intros a Ha. destruct k; try discriminate Ha. injection Ha as <-.
  split; [exists y; now apply Hd|]. split.
  - intros ->. rewrite py_eqb_refl in Hb2. discriminate.
  - intros Hp. apply in_map_iff in Hp as (p & Hn & Hp). cbn [has_arg] in Hb1. rewrite <- Hn in Hb1. rewrite (Hargs p Hp) in Hb1; [discriminate|].
    rewrite Hn. apply in_map_iff. now exists (VStr s, y).
Qed.
Lemma fine_set_remaining o o' c rest : tame o' -> (polite_options o -> polite_options o') ->
  e_deser E f t = Some DObject -> class_target E t c ->
  (forall y, In y (map snd rest) -> exists k, entry j k y) -> (forall a y, In (VStr a, y) rest -> named g j a y) ->
  forall attrs x, snd (xset_remaining E ld f o' (CT c) rest attrs) = XFail x -> fine o x.
Proof.
  intros Ht Ho Hh Hc. induction rest as [|[k y] rest IH]; intros Hr1 Hr2 attrs x H; cbn [xset_remaining] in H; [discriminate|]. cbv zeta in H.
  assert (IH' := IH (fun z Hz => Hr1 z (or_intror Hz)) (fun a z Hz => Hr2 a z (or_intror Hz))). clear IH.
  splitx H.
  { unfold xwarn in H. destruct (match k with VStr a => _ | _ => _ end) in H; [discriminate|]. destruct (has_keys_section y); [|discriminate]. destruct (e_warn E f _); discriminate. }
  splitx H.
  { eapply fine_rec; [exact Ht|exact Ho| |exact H]. destruct (Hr1 y) as (k0 & Hy); [now left|].
    assert (Hoth : asks f (Some (class_of y)) y) by (eapply as_other; [apply as_self|exact Hm|exact Hh|exact Hy]).
    destruct k; try exact Hoth. destruct (sget s (ci_hints (CT c))) as [u|] eqn:Eu; [|exact Hoth].
    eapply as_attribute; [apply as_self|exact Hm|exact Hh|exact Hc| |exact Eu]. apply Hr2. now left. }
  destruct k; try (injection H as <-; now apply fine_kind).
  destruct (ci_set _ _ _ _) as [at'|e] eqn:Es; [eapply IH'; eauto|]. destruct (is_attributeerror _); [eapply IH'; eauto|].
  injection H as <-. apply fine_bare. intros HE _. eapply (po_set _ HE). exact Es.
Qed.
Lemma fine_set_getters o c : forall gs, incl gs (lo_getters o) -> forall attrs x, snd (xset_getter_attrs (CT c) gs attrs) = XFail x -> fine o x.
Proof.
  induction gs as [|[a gt] gs IH]; intros Hi attrs x H; cbn [xset_getter_attrs] in H; [discriminate|].
  splitx H; [discriminate|]. splitx H; [eapply fine_lift; [|exact H]; intros _ [Hp _]; eapply Hp; apply Hi; now left|].
  splitx H; [eapply fine_lift; [|exact H]; intros HE _; apply HE|]. eapply IH; [|exact H]. intros z Hz. apply Hi. now right.
Qed.
Lemma obj_items_entry v d : valid_type v = true -> obj_items v = Ok d -> (exists k, v = VDict k d) \/ (d = [] /\ forall k x, ~ entry v k x).
Proof.
  intros Hval H. assert (Hno : forall v, (forall dk dd, v <> VDict dk dd) -> forall k x, ~ entry v k x).
  { intros v' Hn k x (dk & dd & -> & _). now apply (Hn dk dd). }
  destruct v as [| | | |s|l0|l0|ck l0|k d1| | | |]; try discriminate H; try discriminate Hval.
  - destruct s; [|discriminate]. injection H as <-. right. split; [reflexivity|]. apply Hno. discriminate.
  - destruct l0; [|discriminate]. injection H as <-. right. split; [reflexivity|]. apply Hno. discriminate.
  - destruct l0; [|discriminate]. injection H as <-. right. split; [reflexivity|]. apply Hno. discriminate.
  - destruct l0; [|discriminate]. injection H as <-. right. split; [reflexivity|]. apply Hno. discriminate.
  - injection H as <-. left. eauto.
Qed.
Lemma fine_object o x : tame o -> e_deser E f t = Some DObject -> snd (xdeser_object E ld f o t j) = XFail x -> fine o x.
Proof.
  intros Ht Hh H. unfold xdeser_object in H. destruct (cid_of E t) as [c|] eqn:Ec; [|injection H as <-; now apply fine_kind].
  assert (Hc : class_target E t c).
  { clear - Ec. destruct t; try discriminate Ec; injection Ec as <-; [right; split; reflexivity|left; reflexivity]. }
  cbv zeta in H. splitx H; [eapply fine_lift; [|exact H]; intros _ _; unfold obj_items; nd|]. rename a into d0. apply xlift_done in Ha.
  apply obj_items_entry in Ha; [|exact Hv].
  splitx H.
  { eapply fine_lift; [|exact H]. intros _ [_ Hk]. destruct (lo_kt o) as [h|]; [|apply nd_ok]. apply nd_transform. intros k. now apply Hk. }
  rename a into d. apply xlift_done in Ha0.
  set (src := match lo_kt o with Some _ => VDict DkDict d | None => j end) in H.
  assert (Hs : source_of g j src).
  { unfold src. destruct (lo_kt o) as [h|] eqn:Ek; [|apply so_self]. destruct Ha as [(k & Ej)|[-> _]].
    - rewrite Ej. eapply transform_source; [|exact Ha0]. intros k1 k2. now apply Ht.
    - cbn in Ha0. injection Ha0 as <-. apply so_keys. constructor. }
  assert (He : forall k y, entry src k y <-> In (k, y) d).
  { unfold src. intros k y. destruct (lo_kt o) as [h|].
    - split; [intros (dk & dd & [= <- <-] & Hin); exact Hin|]. intros Hin. exists DkDict, d. auto.
    - injection Ha0 as ->. destruct Ha as [(k0 & Ej)|[-> Hn]].
      + split; [intros (dk & dd & Ed & Hin); rewrite Ej in Ed; injection Ed as <- <-; exact Hin|]. intros Hin. exists k0, d. auto.
      + split; [intros Hin; now apply Hn in Hin|intros []]. }
  assert (Hr1 : forall y, In y (map snd d) -> exists k, entry j k y).
  { intros y Hy. assert (Hy0 : In y (map snd d0)).
    { destruct (lo_kt o) as [h|]; [|injection Ha0 as ->; exact Hy]. destruct (transform_values _ _ _ _ _ Ha0 _ Hy) as [Hz|[]]. exact Hz. }
    destruct Ha as [(k & Ej)|[-> _]]; [|destruct Hy0]. rewrite Ej. now apply values_entry. }
  assert (Hr2 : forall a y, In (VStr a, y) d -> named g j a y).
  { intros a y Hy. destruct (lo_kt o) as [h|] eqn:Ek.
    - destruct Ha as [(k & Ej)|[-> _]]; [|cbn in Ha0; injection Ha0 as <-; destruct Hy]. rewrite Ej. eapply transform_named; [|exact Ha0|exact Hy].
      intros k1 k2. now apply Ht.
    - exists (VStr a). split; [|now left]. now apply He. }
  clearbody src.
  assert (Ht' : tame (set_getters [] o)) by exact Ht.
  assert (Ho' : polite_options o -> polite_options (set_getters [] o)) by (intros [H1 H2]; split; [intros a r []|exact H2]).
  splitx H; [eapply fine_constructor_args; [exact Ht'|exact Ho'|exact Hs|exact Hh|exact Hc|apply He|exact Hr2|apply incl_refl|exact H]|].
  rename a into args. assert (Hargs := constructor_args_complete _ _ _ _ _ _ _ Ha1).
  splitx H; [eapply fine_remaining; [exact Hs|exact Hc|apply He|exact Hargs|exact H]|].
  rename a into rest.
  splitx H; [discriminate|]. splitx H; [eapply fine_lift; [|exact H]; intros HE _; apply HE|].
  assert (Hrest : rest = filter (fun kv => negb (has_arg (fst kv) args) && negb (py_eqb (VStr "-meta") (fst kv))) d).
  { unfold xremaining_args in Ha2. destruct (remaining_args (lo_strict o) d args) as [rest'|] eqn:Er; [|discriminate]. injection Ha2 as ->.
    unfold remaining_args in Er. cbv zeta in Er.
    destruct (filter _ d) as [|[k0 y0] r0]; [congruence|]. destruct (lo_strict o); [discriminate|congruence]. }
  splitx H.
  { eapply (fine_set_remaining o); [exact Ht'|exact Ho'|exact Hh|exact Hc| | |exact H].
    - intros y Hy. apply Hr1. rewrite Hrest in Hy. apply in_map_iff in Hy as (kx & <- & Hy). apply filter_In in Hy as [Hy _]. apply in_map_iff. eauto.
    - intros a1 y Hy. apply Hr2. rewrite Hrest in Hy. now apply filter_In in Hy. }
  splitx H; [|discriminate]. eapply fine_set_getters; [apply incl_refl|exact H].
Qed.
(** *** All deserializers *)
Lemma fine_step o h x : tame o -> e_deser E f t = Some h -> snd (xdeser_step E ld f o h t j) = XFail x -> fine o x.
Proof.
  intros Ht Hh H. destruct h; cbn [xdeser_step] in H.
  - splitx H; [|discriminate]. eapply fine_list; [exact Ht|reflexivity|now left|exact H].
  - eapply fine_tuple; eauto.
  - eapply fine_union; eauto.
  - eapply fine_defaultdict; eauto.
  - assert (Hx : fine o (bare_err (exn_of KType))) by now apply fine_kind. assert (Hy : forall s, snd (xlift (dor x <- load_datetime s; Ok (VLeaf (LDatetime x)))) = XFail x -> fine o x).
    { intros s Hs. eapply fine_lift; [|exact Hs]. intros _ _. nd. apply nd_load_datetime. }
    clear - H Hx Hy. revert Hx Hy. generalize (fine o). intros P Hx Hy. destruct j; try (injection H as <-; exact Hx). eapply Hy; exact H.
  - assert (Hx : fine o (bare_err (exn_of KType))) by now apply fine_kind. assert (Hy : forall s, snd (xlift (dor x <- load_date s; Ok (VLeaf (LDate x)))) = XFail x -> fine o x).
    { intros s Hs. eapply fine_lift; [|exact Hs]. intros _ _. nd. apply nd_load_date. }
    clear - H Hx Hy. revert Hx Hy. generalize (fine o). intros P Hx Hy. destruct j; try (injection H as <-; exact Hx). eapply Hy; exact H.
  - assert (Hx : fine o (bare_err (exn_of KType))) by now apply fine_kind. assert (Hy : forall s, snd (xlift (dor x <- load_time s; Ok (VLeaf (LTime x)))) = XFail x -> fine o x).
    { intros s Hs. eapply fine_lift; [|exact Hs]. intros _ _. nd. apply nd_load_time. }
    clear - H Hx Hy. revert Hx Hy. generalize (fine o). intros P Hx Hy. destruct j; try (injection H as <-; exact Hx). eapply Hy; exact H.
  - eapply fine_timezone; eauto.
  - eapply fine_lift; [|exact H]. intros; apply nd_timedelta.
  - eapply fine_string; eauto.
  - assert (Hx : fine o (mkErr (exn_of KDeser) (Some (j, Some t)))) by (apply fine_deser; [apply so_self|now apply to_meant]).
    clear - H Hx. revert Hx. generalize (fine o). intros P Hx. destruct j; try discriminate H; injection H as <-; exact Hx.
  - eapply fine_primitive; [|exact H]. now apply to_meant.
  - eapply fine_lift; [|exact H]. intros; apply nd_deser_enum.
  - eapply fine_mapping; eauto.
  - eapply fine_iterable; eauto.
  - eapply fine_object; eauto.
  - assert (Hx : fine o (bare_err (exn_of KAttribute))) by now apply fine_kind. assert (Hy : forall s, snd (xlift (dor n <- uuid_parse s; Ok (VLeaf (LUUID n)))) = XFail x -> fine o x).
    { intros s Hs. eapply fine_lift; [|exact Hs]. intros _ _. nd. apply nd_uuid. }
    clear - H Hx Hy. revert Hx Hy. generalize (fine o). intros P Hx Hy. destruct j; try (injection H as <-; exact Hx). eapply Hy; exact H.
  - eapply fine_complex; eauto.
  - eapply fine_lift; [|exact H]. intros HE _. nd. apply HE.
  - eapply fine_lift; [|exact H]. intros HE _. nd. apply HE.
  - splitx H; [eapply fine_lift; [|exact H]; intros; apply nd_getitem|]. eapply fine_lift; [|exact H]. intros HE _. nd. apply HE.
  - eapply fine_lift; [|exact H]. intros HE _. apply HE.
Qed.
End Call.

(** ** load *)
Lemma fine_resolved T f cls j o (r : res T) x :
  (forall e, r = Err e -> deserialization_error e -> exists s, e_resolve E f s = Err e) ->
  snd (xresolved j r) = XFail x -> fine f cls j o x.
Proof.
  intros Hr H. unfold xresolved in H. destruct r as [a|e]; [discriminate|]. destruct (is_deser (e_kind e)) eqn:Ed.
  - injection H as <-. apply is_deser_spec in Ed. destruct (Hr e eq_refl Ed) as (s & Hs). apply fine_at; auto; [apply so_self|eapply to_unknown; exact Hs|]. intros HE _.
    apply explained_at; cbn; [discriminate| |]; rewrite (po_resolve _ HE _ _ _ Hs Ed); discriminate.
  - injection H as <-. apply fine_bare. intros _ _ Hd. apply is_deser_spec in Hd. congruence.
Qed.
Lemma meta_unknown f j e : get_cls_and_meta E f j = Err e -> deserialization_error e -> exists s, e_resolve E f s = Err e.
Proof.
  intros H Hd. unfold get_cls_and_meta in H. destruct j; try discriminate H. destruct (dget _ d) as [meta|]; [|discriminate].
  destruct (py_getitem _ meta _) as [cs|e1] eqn:E1; cbn [rbind] in H.
  - destruct (py_getitem _ cs _) as [s|e2] eqn:E2; cbn [rbind] in H.
    + assert (Hk : forall T, @raise T KType = Err e -> exists s, e_resolve E f s = Err e) by (intros T [= <-]; apply is_deser_spec in Hd; discriminate Hd).
      destruct s; try (eapply Hk; exact H). destruct cs; try (eapply Hk; exact H).
      destruct (e_resolve E f s) as [t|e3] eqn:E3; cbn [rbind] in H; [discriminate|]. injection H as <-. eauto.
    + injection H as <-. exfalso. eapply nd_getitem; eauto.
  - injection H as <-. exfalso. eapply nd_getitem; eauto.
Qed.
Lemma fine_load ld f o cls j x :
  (forall f o c j x, tame o -> snd (ld f o c j) = XFail x ->
    blames E g (asked E g f c j) x /\ (polite E -> polite_options o -> explained E x)) ->
  tame o -> snd (xload_step E ld f o cls j) = XFail x -> fine f cls j o x.
Proof.
  intros Hld Ht H. unfold xload_step in H. apply xbind_fail in H as [H|(a & _ & H)].
  { destruct (is_none j); [|discriminate]. apply xbind_fail in H as [H|(b & _ & H)].
    - eapply fine_lift; [|exact H]. intros; apply nd_can_match_none.
    - destruct b; [discriminate|]. injection H as <-. apply fine_deser; [apply so_self|apply to_cls]. }
  destruct (_ || _)%bool.
  { apply xbind_fail in H as [H|(b & _ & H)]; [|discriminate]. eapply fine_lift; [|exact H]. intros _ _. destruct cls; [apply nd_validate|apply nd_ok]. }
  apply xbind_fail in H as [H|(cls1 & Hc & H)].
  { destruct cls as [t|]; [|discriminate]. destruct t; try discriminate H. apply xbind_fail in H as [H|(b & _ & H)]; [|discriminate].
    eapply fine_resolved; [|exact H]. eauto. }
  assert (Hc1 : target_of E f cls j cls1 /\ forall t, cls1 = Some t -> meant E f cls j t).
  { destruct cls as [t|]; [|injection Hc as <-; split; [apply to_cls|discriminate]].
    assert (Hd : (exists s t', t = TFwd s /\ e_resolve E f s = Ok t' /\ cls1 = Some t') \/ cls1 = Some t).
    { destruct t; try (right; injection Hc as <-; reflexivity). left. destruct (e_resolve E f s) as [t'|e] eqn:Er; cbn in Hc.
      - injection Hc as <-. eauto.
      - destruct (is_deser _) in Hc; discriminate. }
    destruct Hd as [(s & t' & -> & Hr & ->)| ->].
    - split; [apply to_meant|intros ? [= <-]]; eapply me_string; eauto.
    - split; [apply to_cls|intros ? [= <-]]. now apply me_cls. }
  destruct Hc1 as [Hc1 Hc2].
  destruct (valid_type j) eqn:Ev; cbn [negb] in H; [|injection H as <-; apply fine_deser; [apply so_self|exact Hc1]].
  apply xbind_fail in H as [H|(mh & Hm & H)].
  { eapply fine_resolved; [|exact H]. intros e. apply meta_unknown. }
  assert (Hmt : forall t, fst mh = Some t -> meant E f cls j t).
  { intros t Hf. unfold xresolved in Hm. destruct (get_cls_and_meta E f j) as [mh'|e] eqn:Em; [|destruct (is_deser _) in Hm; discriminate].
    injection Hm as ->. unfold get_cls_and_meta in Em. destruct j; try (injection Em as <-; discriminate Hf).
    destruct (dget (VStr "-meta") d) as [meta|] eqn:Ed; [|injection Em as <-; discriminate Hf].
    destruct (py_getitem _ meta _) as [cs|e1] eqn:E1; [|discriminate]. cbn [rbind] in Em.
    destruct (py_getitem _ cs _) as [s|e2] eqn:E2; [|discriminate]. cbn [rbind] in Em.
    destruct s; try discriminate Em. destruct cs; try discriminate Em.
    destruct (e_resolve E f s) as [t'|e3] eqn:E3; [|discriminate]. cbn [rbind] in Em. injection Em as <-. cbn [fst] in Hf. injection Hf as ->.
    eapply me_named; eauto. cbn in E2. destruct (dget (VStr "/") d0) eqn:E4; [|discriminate]. congruence. }
  destruct (determine_precedence _ _ _ _) as [t|] eqn:Ep; [|unfold determine_precedence in Ep; destruct (lo_inferred o), (fst mh), cls1; discriminate Ep].
  assert (HA : meant E f cls j t).
  { unfold determine_precedence in Ep. cbv zeta in Ep. destruct (lo_inferred o), (fst mh) as [tm|] eqn:Ef, cls1 as [tc|]; cbn in Ep; injection Ep as <-; auto; apply me_type. }
  destruct (e_deser E f t) as [h|] eqn:Eh; [|injection H as <-; apply fine_deser; [apply so_self|now apply to_meant]].
  cbv zeta in H. unfold xwrap in H. apply xtry_fail in H as (e & He & H). destruct (is_jsons _) eqn:Ej.
  - injection H as <-. apply xbind_fail in He as [He|(r & _ & He)].
    + eapply (fine_step f cls j ld Hld Ev t HA) in He; [|exact Ht|exact Eh].
      destruct He as [H1 H2]. split; [exact H1|]. intros HE [Hg Hk]. apply H2; auto. split; assumption.
    + apply xbind_fail in He as [He|(u & _ & He)]; [|discriminate]. eapply fine_lift; [|exact He]. intros; apply nd_validate.
  - injection H as <-. apply fine_deser; [apply so_self|now apply to_meant].
Qed.
Lemma load_errors n : forall f o cls j x, tame o -> snd (xload E n f o cls j) = XFail x ->
  blames E g (asked E g f cls j) x /\ (polite E -> polite_options o -> explained E x).
Proof.
  induction n as [|n IH]; intros f o cls j x Ht H; [discriminate|].
  destruct (fine_load (xload E n) f o cls j x IH Ht H) as [H1 H2]. split; [|exact H2].
  destruct H1 as [(src & tgt & Hat & Hd & Hs & HA)|H1]; [|exact H1].
  intros src' tgt' Hx. rewrite Hat in Hx. injection Hx as <- <-. exists (S n), f, o, cls, j, (er_exn x), [].
  split; [apply as_self|]. split; [rewrite <- erase_load; unfold erase; cbn [snd]; rewrite H; reflexivity|]. split; [exact Hd|]. split; [reflexivity|]. auto.
Qed.
End Errors.
