(** * Constructor calls: every instance in the result was constructed *)
From Verif Require Import PyBaseFacts LoadFacts LoadTypes LoadObject InitSpec.
From Coq Require Import Lia.
Local Close Scope Z_scope.
Local Open Scope string_scope.

Lemma list_sum_app' a b : list_sum (a ++ b) = list_sum a + list_sum b.
Proof. induction a as [|x a IH]; cbn [list_sum fold_right app]; [reflexivity|]. unfold list_sum in *. cbn. rewrite IH. lia. Qed.
Lemma sum_cons x l : list_sum (x :: l) = x + list_sum l.
Proof. reflexivity. Qed.
Lemma sum_zero {A} (w : A -> nat) l : list_sum (map w l) = 0 -> forall x, In x l -> w x = 0.
Proof. induction l as [|y l IH]; cbn [map In]; [intros _ x []|]. rewrite sum_cons. intros H x [<-|Hx]; [lia|]. apply IH; [lia|exact Hx]. Qed.
Lemma zero_sum {A} (w : A -> nat) l : (forall x, In x l -> w x = 0) -> list_sum (map w l) = 0.
Proof. induction l as [|y l IH]; cbn [map]; [reflexivity|]. rewrite sum_cons. intros H. rewrite (H y) by (now left). rewrite IH; [reflexivity|]. intros x Hx. apply H. now right. Qed.
Lemma constructed_app c a b : constructed c (a ++ b) = constructed c a + constructed c b.
Proof. unfold constructed. now rewrite filter_app, app_length. Qed.

Lemma get_lizer_in (W : gworld ty) (T : gtable ty dhandler) t h : lookup W T t = Some h -> exists s, In (s, h) (t_map T).
Proof.
  unfold lookup, get_lizer.
  assert (Hs : forall s (g : dhandler) m, sget s m = Some g -> exists s', In (s', g) m).
  { intros s g m. unfold sget. induction m as [|[s' g'] m IH]; cbn [aget]; [discriminate|]. destruct (String.eqb s s').
    - intros [= ->]. exists s'. now left.
    - intros H. apply IH in H as (s2 & H). exists s2. now right. }
  assert (Hf : forall c r, get_lizer_flat W c T = Ok (Some r) -> exists s, In (s, r) (t_map T)).
  { intros c r. unfold get_lizer_flat, get_lizer_by_parents. destruct (sget (lname W c) (t_map T)) as [g|] eqn:Eg.
    - intros [= <-]. eapply Hs; eauto.
    - destruct (get_parents W c (t_classes T)) as [|[p|] ps]; try discriminate.
      destruct (sget (lname W p) (t_map T)) as [g|] eqn:Ep; [|discriminate]. intros [= <-]. eapply Hs; eauto. }
  destruct (get_lizer_flat W t T) as [[g|]|e] eqn:Ef; cbn [rbind]; try discriminate.
  - intros [= <-]. eauto.
  - destruct (w_super W t) as [s|]; [|discriminate]. destruct (get_lizer_flat W s T) as [[g|]|e] eqn:Es; try discriminate.
    intros [= <-]. eauto.
Qed.
Section Made.
Variables (E : env) (c : nat).
Let CT := e_ct E.
Let R := e_rt E.
Hypothesis HC : by_constructor_only E c.

(** With [k] instances at hand, the result of [m] has no more than those and the ones made. *)
Definition made {A} (k : nat) (w : A -> nat) (m : M A) : Prop :=
  forall a, snd m = Done a -> w a <= k + constructed c (fst m).
Lemma made_bind {A B} k (w : A -> nat) (w' : B -> nat) m (h : A -> M B) : made k w m ->
  (forall a k', snd m = Done a -> w a <= k' -> made k' w' (h a)) -> made k w' (mbind m h).
Proof.
  unfold made, mbind. intros Hm Hh b. destruct (snd m) as [a|e|] eqn:Em; cbn [fst snd]; try discriminate.
  intros Hb. specialize (Hh a (k + constructed c (fst m)) eq_refl (Hm a eq_refl) b Hb). rewrite constructed_app. lia.
Qed.
(** Steps that keep what is at hand *)
Lemma made_then {A B} k (w' : B -> nat) (m : M A) (h : A -> M B) :
  (forall a k', snd m = Done a -> k <= k' -> made k' w' (h a)) -> made k w' (mbind m h).
Proof. intros H. apply (made_bind k (fun _ => k)); [intros a _; lia|exact H]. Qed.
Lemma made_ret {A} k (w : A -> nat) a : w a <= k -> made k w (ret a).
Proof. intros H b. cbn. intros [= <-]. lia. Qed.
Lemma made_fail {A} k (w : A -> nat) e : made k w (fail e).
Proof. intros a. discriminate. Qed.
Lemma made_lift {A} k (w : A -> nat) r : (forall a, r = Ok a -> w a <= k) -> made k w (lift r).
Proof. intros H a Ha. apply lift_done in Ha. specialize (H a Ha). lia. Qed.
Lemma made_more {A} k (w : A -> nat) x m : made 0 w m -> x <= k -> made k (fun a => x + w a) m.
Proof. intros H Hx a Ha. specialize (H a Ha). cbn in H. lia. Qed.
Lemma made_try {A} k (w : A -> nat) (m : M A) h : made k w m ->
  (forall e k', snd m = Fail e -> k <= k' -> made k' w (h e)) -> made k w (mtry m h).
Proof.
  intros Hm Hh. unfold mtry. destruct (snd m) as [a|e|] eqn:Em.
  - intros b Hb. apply Hm. exact Hb.
  - intros b Hb. cbn [fst snd] in *. specialize (Hh e (k + constructed c (fst m)) eq_refl ltac:(lia) b Hb).
    rewrite constructed_app. lia.
  - intros b Hb. congruence.
Qed.

Notation obs := (objects c).
Definition lobs (l : list value) : nat := list_sum (map obs l).
Definition dobs (d : list (value * value)) : nat := list_sum (map (fun kx => obs (fst kx) + obs (snd kx)) d).
Lemma lobs_cons x l : lobs (x :: l) = obs x + lobs l.
Proof. reflexivity. Qed.
Lemma dobs_cons k x d : dobs ((k, x) :: d) = obs k + obs x + dobs d.
Proof. reflexivity. Qed.
Lemma dobs_dset k x d : dobs (dset k x d) <= dobs d + obs k + obs x.
Proof.
  unfold dset. induction d as [|[k' x'] d IH]; cbn [aset]; [rewrite dobs_cons; cbn; lia|].
  destruct (py_eqb k k'); rewrite !dobs_cons; lia.
Qed.
Lemma dobs_ddel k d : dobs (ddel k d) <= dobs d.
Proof.
  unfold ddel. induction d as [|[k' x'] d IH]; cbn [adel]; [lia|].
  destruct (py_eqb k k'); rewrite !dobs_cons; lia.
Qed.
Lemma aget_in {K V} (eqb : K -> K -> bool) k (d : list (K * V)) x : aget eqb k d = Some x -> exists k', In (k', x) d.
Proof.
  induction d as [|[k' x'] d IH]; cbn [aget]; [discriminate|]. destruct (eqb k k').
  - intros [= ->]. exists k'. now left.
  - intros H. apply IH in H as (k2 & H). exists k2. now right.
Qed.
Lemma dget_zero k d x : dobs d = 0 -> dget k d = Some x -> obs x = 0.
Proof.
  intros Hd H. apply aget_in in H as (k' & Hin). unfold dobs in Hd. pose proof (sum_zero _ _ Hd _ Hin) as Hz. cbn in Hz. lia.
Qed.
Lemma iter_zero j l : obs j = 0 -> valid_type j = true -> py_iter R j = Ok l -> lobs l = 0.
Proof.
  intros Hj Hv H. destruct j; try discriminate; cbn [py_iter] in H; injection H as <-; cbn [objects] in Hj; try exact Hj.
  - apply zero_sum. intros x Hx. unfold str_chars in Hx. apply in_map_iff in Hx as (a & <- & _). reflexivity.
  - unfold lobs. rewrite map_map. apply zero_sum. intros kx Hin. pose proof (sum_zero _ _ Hj _ Hin) as Hz. cbn in Hz. lia.
Qed.
Lemma item_zero j k x : obs j = 0 -> py_getitem CT j k = Ok x -> obs x = 0.
Proof.
  intros Hj H.
  assert (G : forall l, lobs l = 0 -> match k with
      | VInt z => if ((0 <=? (if z <? 0 then z + Z.of_nat (length l) else z)) &&
                             ((if z <? 0 then z + Z.of_nat (length l) else z) <? Z.of_nat (length l)))%Z
          then match nth_error l (Z.to_nat (if (z <? 0)%Z then z + Z.of_nat (length l) else z)%Z) with Some y => Ok y | None => raise KIndex end
          else raise KIndex
      | VBool b => match nth_error l (if b then 1 else 0) with Some x => Ok x | None => raise KIndex end
      | _ => raise KType end = Ok x -> obs x = 0).
  { intros l Hl Hx. assert (Hin : In x l).
    { destruct k; try discriminate.
      - destruct (nth_error l _) eqn:En in Hx; [|discriminate]. injection Hx as <-. now apply nth_error_In in En.
      - destruct (_ && _)%bool in Hx; [|discriminate]. destruct (nth_error l _) eqn:En in Hx; [|discriminate].
        injection Hx as <-. now apply nth_error_In in En. }
    unfold lobs in Hl. exact (sum_zero _ _ Hl x Hin). }
  destruct j; try discriminate; cbn [py_getitem] in H; cbn [objects] in Hj; try (apply G in H; [exact H|exact Hj]).
  - apply G in H; [exact H|]. apply zero_sum. intros y Hy. unfold str_chars in Hy. apply in_map_iff in Hy as (a & <- & _). reflexivity.
  - destruct k0; try discriminate. apply G in H; [exact H|exact Hj].
  - destruct (hashable CT k); [|discriminate]. destruct (dget k d) eqn:Ed; [|discriminate]. injection H as <-.
    exact (dget_zero _ _ _ Hj Ed).
Qed.
Lemma transform_zero g d acc d' : (forall k k', g k = Ok k' -> obs k' <= obs k) ->
  transform_keys CT g d acc = Ok d' -> dobs d' <= dobs acc + dobs d.
Proof.
  intros Hg. revert acc. induction d as [|[k x] d IH]; intros acc; cbn [transform_keys]; [intros [= <-]; change (dobs []) with 0; lia|].
  destruct (g k) as [k'|] eqn:Ek; [cbn [rbind]|discriminate]. destruct (hashable CT k'); [|discriminate].
  intros H. apply IH in H. pose proof (dobs_dset k' x acc). rewrite dobs_cons. specialize (Hg _ _ Ek). lia.
Qed.
Lemma lobs_dedup l acc : lobs (dedup l acc) <= lobs l + lobs acc.
Proof.
  revert acc. induction l as [|x l IH]; intros acc; cbn [dedup].
  - unfold lobs. rewrite map_rev. clear. cbn. enough (H : forall m, list_sum (rev m) = list_sum m) by (rewrite H; lia).
    induction m as [|a m IH]; [reflexivity|]. cbn [rev]. rewrite list_sum_app', IH, !sum_cons. change (list_sum []) with 0. lia.
  - rewrite lobs_cons. destruct (existsb _ acc); [specialize (IH acc); lia|]. specialize (IH (x :: acc)). rewrite lobs_cons in IH. lia.
Qed.
Lemma aw_getters o g : arguments_without c o -> (forall a x, In (a, Ok x) g -> obs x = 0) -> arguments_without c (set_getters g o).
Proof. intros [_ H2] H. split; [exact H|exact H2]. Qed.
Lemma aw_kt o : arguments_without c o -> arguments_without c (set_kt None o).
Proof. intros [H1 _]. split; [exact H1|]. intros g k k'. discriminate. Qed.

Variable ld : nat -> lopts -> option ty -> value -> M value.
Hypothesis HL : forall f o cls j, arguments_without c o -> obs j = 0 -> made 0 obs (ld f o cls j).
Variable f : nat.
Lemma aw0 : arguments_without c lopts0.
Proof. split; [intros a x []|discriminate]. Qed.

Lemma list_go_made o b t l : arguments_without c o -> lobs l = 0 -> forall i, made 0 lobs (deser_list_go E ld f o b t i l).
Proof.
  intros Ho. induction l as [|x l IH]; intros Hl i; cbn [deser_list_go]; [apply made_ret; cbn; lia|].
  rewrite lobs_cons in Hl. assert (Hx : made 0 obs (ld f o t x)) by (apply HL; [exact Ho|lia]).
  assert (IH' : forall i, made 0 lobs (deser_list_go E ld f o b t i l)) by (apply IH; lia).
  destruct (ld f o t x) as [evs [y|e|]]; cbn [fst snd] in *.
  - intros ys. unfold mbind. cbn [fst snd]. specialize (IH' (S i)). destruct (deser_list_go E ld f o b t (S i) l) as [evs' [ys'|e|]]; cbn [fst snd] in *; try discriminate.
    intros [= <-]. specialize (Hx y eq_refl). specialize (IH' ys' eq_refl). cbn [fst] in *. rewrite lobs_cons, !constructed_app. cbn in *. lia.
  - destruct (is_deser (e_kind e)); [|intros ys; discriminate]. destruct b; [|intros ys; discriminate].
    apply made_then. intros _ k' _ _. apply made_then. intros _ k2 _ _.
    intros ys Hys. specialize (IH' (S i) ys Hys). lia.
  - intros ys. discriminate.
Qed.
Lemma list_made o args j : arguments_without c o -> obs j = 0 -> valid_type j = true -> made 0 lobs (deser_list E ld f o args j).
Proof.
  intros Ho Hj Hv. unfold deser_list. intros ys. unfold mbind. destruct (py_iter (e_rt E) j) as [l|] eqn:El; cbn [lift ret fail fst snd]; [|discriminate].
  intros H. rewrite app_nil_l. eapply list_go_made in H; [exact H| |eapply iter_zero; eauto].
  destruct args; exact Ho.
Qed.
Lemma nt_go_made o j d len fields : arguments_without c o -> obs j = 0 ->
  (forall d', d = Some d' -> dobs d' = 0) ->
  (forall fd x, In fd fields -> nf_default fd = Some x -> obs x = 0) -> forall i,
  made 0 lobs (deser_nt_go E ld f o j d len i fields).
Proof.
  intros Ho Hj Hd. induction fields as [|fd fields IH]; intros Hfs i; cbn [deser_nt_go]; [apply made_ret; cbn; lia|].
  apply made_then. intros x k1 Hx _. apply lift_done in Hx. apply made_then. intros _ k2 _ _.
  assert (Hox : obs x = 0).
  { destruct (Nat.ltb i len).
    - destruct d as [d'|]; [|exact (item_zero _ _ _ Hj Hx)]. destruct (dget _ d') eqn:Ed; [|discriminate].
      injection Hx as <-. exact (dget_zero _ _ _ (Hd d' eq_refl) Ed).
    - destruct (nf_default fd) as [y|] eqn:Ey; injection Hx as <-; [|reflexivity]. apply (Hfs fd); [now left|exact Ey]. }
  eapply (made_bind k2 (fun a => 0 + obs a)); [apply made_more; [now apply HL|lia]|]. intros y k3 _ Hy.
  eapply (made_bind k3 (fun a => obs y + lobs a)).
  { apply made_more; [|lia]. apply IH. intros fd' x' Hin. apply Hfs. now right. }
  intros ys k4 _ Hk. apply made_ret. rewrite lobs_cons. lia.
Qed.
Lemma namedtuple_made o k j : arguments_without c o -> obs j = 0 -> made 0 obs (deser_namedtuple E ld f o k j).
Proof.
  intros Ho Hj. unfold deser_namedtuple. apply made_then. intros d k1 Hd _. apply made_then. intros l k2 _ _.
  eapply (made_bind k2 (fun a => 0 + lobs a)).
  - apply made_more; [|lia]. apply nt_go_made; auto; [|intros fd x; apply (bc_field _ _ HC)].
    intros d' ->. destruct j; cbn in Hd; try discriminate. unfold mbind in Hd.
    destruct (transform_keys _ _ d []) as [d2|] eqn:Et in Hd; cbn in Hd; [|discriminate]. injection Hd as <-.
    apply transform_zero in Et.
    + cbn in Hj. unfold dobs in *. cbn in Et. lia.
    + destruct (lo_kt o) as [g|] eqn:Eg; [|intros a b [= <-]; lia]. intros a b. now apply (proj2 Ho).
  - intros vs k3 _ Hk. apply made_ret. cbn [objects]. exact Hk.
Qed.
Lemma tuple_go_made o l : arguments_without c o -> lobs l = 0 -> forall ts, made 0 lobs (deser_tuple_go ld f o l ts).
Proof.
  intros Ho. induction l as [|x l IH]; intros Hl ts; cbn [deser_tuple_go]; [apply made_ret; cbn; lia|].
  destruct ts as [|t ts]; [apply made_fail|]. rewrite lobs_cons in Hl.
  eapply made_bind; [apply HL; [exact Ho|lia]|]. intros y k _ Hy.
  eapply (made_bind k (fun a => obs y + lobs a)); [apply made_more; [apply IH; lia|exact Hy]|].
  intros ys k2 _ Hk. apply made_ret. rewrite lobs_cons. lia.
Qed.
Lemma mmap_made o l : arguments_without c o -> lobs l = 0 -> made 0 lobs (mmap (ld f o None) l).
Proof.
  intros Ho. induction l as [|x l IH]; intros Hl; cbn [mmap]; [apply made_ret; cbn; lia|]. rewrite lobs_cons in Hl.
  eapply made_bind; [apply HL; [exact Ho|lia]|]. intros y k _ Hy.
  eapply (made_bind k (fun a => obs y + lobs a)); [apply made_more; [apply IH; lia|exact Hy]|].
  intros ys k2 _ Hk. apply made_ret. rewrite lobs_cons. lia.
Qed.
Lemma tuple_made o t j : arguments_without c o -> obs j = 0 -> valid_type j = true -> made 0 obs (deser_tuple E ld f o t j).
Proof.
  intros Ho Hj Hv. unfold deser_tuple.
  set (p := mbind _ _).
  assert (Hp : made 0 obs p).
  { unfold p. apply made_then. intros l k Hl _. apply lift_done in Hl. pose proof (iter_zero _ _ Hj Hv Hl) as Hz.
    destruct (get_args (Some t)) as [|t0 ts].
    - eapply (made_bind k (fun a => 0 + lobs a)); [apply made_more; [apply mmap_made; [now apply aw_kt|exact Hz]|lia]|].
      intros vs k2 _ Hk. apply made_ret. exact Hk.
    - eapply (made_bind k (fun a => 0 + lobs a)); [apply made_more; [apply tuple_go_made; [now apply aw_kt|exact Hz]|lia]|].
      intros vs k2 _ Hk. apply made_ret. exact Hk. }
  destruct t; try exact Hp. destruct (ci_kind (e_ct E c0)); try exact Hp. now apply namedtuple_made.
Qed.
Lemma union_go_made o j ts : arguments_without c o -> obs j = 0 -> made 0 obs (deser_union_go ld f o j ts).
Proof.
  intros Ho Hj. induction ts as [|t ts IH]; cbn [deser_union_go]; [apply made_fail|].
  apply made_try; [now apply HL|]. intros e k _ _. destruct (is_jsons (e_kind e)); [|apply made_fail].
  intros a Ha. specialize (IH a Ha). lia.
Qed.
(** The values are not loaded yet: only the keys may have instances. *)
Definition vobs (d : list (value * value)) : nat := list_sum (map (fun kx => obs (snd kx)) d).
Definition kobs (d : list (value * value)) : nat := list_sum (map (fun kx => obs (fst kx)) d).
Lemma dobs_split d : dobs d = kobs d + vobs d.
Proof. induction d as [|[k x] d IH]; [reflexivity|]. unfold dobs, kobs, vobs in *. cbn [map fst snd]. rewrite !sum_cons. lia. Qed.
Lemma vobs_dset k x d : vobs d = 0 -> obs x = 0 -> vobs (dset k x d) = 0.
Proof.
  unfold dset, vobs. intros Hd Hx. induction d as [|[k' x'] d IH]; cbn [aset]; [cbn; lia|].
  cbn [map snd] in Hd. rewrite sum_cons in Hd. destruct (py_eqb k k'); cbn [map snd]; rewrite sum_cons; [lia|]. rewrite IH; lia.
Qed.
Lemma kobs_dset k x d : kobs (dset k x d) <= kobs d + obs k.
Proof.
  unfold dset, kobs. induction d as [|[k' x'] d IH]; cbn [aset]; [cbn; lia|].
  destruct (py_eqb k k'); cbn [map fst]; rewrite !sum_cons; lia.
Qed.
Lemma vobs_ddel k d : vobs d = 0 -> vobs (ddel k d) = 0.
Proof.
  unfold ddel, vobs. induction d as [|[k' x'] d IH]; cbn [adel]; [lia|]. cbn [map snd]. rewrite sum_cons. intros H.
  destruct (py_eqb k k'); [lia|]. cbn [map snd]. rewrite sum_cons, IH; lia.
Qed.
Lemma kobs_ddel k d : kobs (ddel k d) <= kobs d.
Proof.
  unfold ddel, kobs. induction d as [|[k' x'] d IH]; cbn [adel]; [lia|]. destruct (py_eqb k k'); cbn [map fst]; rewrite !sum_cons; lia.
Qed.
Lemma vget k d x : vobs d = 0 -> dget k d = Some x -> obs x = 0.
Proof. intros Hd H. apply aget_in in H as (k' & Hin). exact (sum_zero _ _ Hd _ Hin). Qed.
Lemma hashed_go_made o kt stored : arguments_without c o -> dobs stored = 0 -> forall result n,
  vobs result = 0 -> kobs result <= n ->
  made n kobs (hashed_go E ld f o kt stored result) /\
  forall d', snd (hashed_go E ld f o kt stored result) = Done d' -> vobs d' = 0.
Proof.
  intros Ho. induction stored as [|[h orig] stored IH]; intros Hs result n Hv Hk; cbn [hashed_go].
  - destruct (dhas _ result); [|split; [apply made_fail|discriminate]].
    split; [apply made_ret; pose proof (kobs_ddel (VStr "-keys") result); lia|]. intros d' [= <-]. now apply vobs_ddel.
  - rewrite dobs_cons in Hs. specialize (IH ltac:(lia)).
    assert (Hld : made 0 obs (ld f o (Some kt) orig)) by (apply HL; [exact Ho|lia]).
    split.
    + eapply (made_bind n (fun a => kobs result + obs a)); [apply made_more; [exact Hld|exact Hk]|]. intros k n' _ Hn'.
      destruct (dget h result) as [x|] eqn:Ex; [|apply made_fail]. destruct (_ && _)%bool; [|apply made_fail].
      apply IH; [now apply vobs_ddel, vobs_dset; [|eapply vget; eauto]|].
      pose proof (kobs_ddel h (dset k x result)). pose proof (kobs_dset k x result). lia.
    + intros d'. intros Hd. apply bind_done in Hd as (k & Hk1 & Hd). cbn beta in Hd.
      destruct (dget h result) as [x|] eqn:Ex; [|discriminate]. destruct (_ && _)%bool in Hd; [|discriminate].
      refine (proj2 (IH _ (kobs (ddel h (dset k x result))) _ (le_n _)) d' Hd).
      apply vobs_ddel, vobs_dset; [exact Hv|eapply vget; eauto].
Qed.
Lemma hashed_made o args d : arguments_without c o -> dobs d = 0 ->
  made 0 (fun dh => kobs (fst dh)) (load_hashed_keys E ld f o args d) /\
  forall dh, snd (load_hashed_keys E ld f o args d) = Done dh -> vobs (fst dh) = 0.
Proof.
  intros Ho Hd. pose proof Hd as Hkv. rewrite dobs_split in Hkv. unfold load_hashed_keys.
  assert (Hret : forall b : bool, made 0 (fun dh : list (value * value) * bool => kobs (fst dh)) (ret (d, b)) /\ forall dh, snd (ret (d, b)) = Done dh -> vobs (fst dh) = 0).
  { intros b. split; [apply made_ret; cbn [fst]; lia|]. intros dh [= <-]. cbn [fst]. lia. }
  destruct (dget (VStr "-keys") d) as [keys|] eqn:Ek; [|apply Hret].
  pose proof (dget_zero _ _ _ Hd Ek) as Hkeys.
  destruct (py_iter (e_rt E) keys) as [[|k0 ks]|e] eqn:Ei; cbn [lift].
  - rewrite bind_ret_l. apply Hret.
  - rewrite bind_ret_l. destruct args as [|a1 [|a2 [|a3 args]]]; try (split; [apply made_fail|discriminate]).
    destruct keys; try (split; [apply made_fail|discriminate]).
    destruct (hashed_go_made o a1 d0 Ho Hkeys d 0) as [H1 H2]; [lia|lia|]. split.
    + eapply made_bind; [exact H1|]. intros d' k' _ Hk'. apply made_ret. exact Hk'.
    + intros dh Hdh. apply bind_done in Hdh as (d' & Hd' & Hdh). injection Hdh as <-. now apply H2.
  - split; [apply made_fail|discriminate].
Qed.
Lemma dict_go_made ok ov g kc vc : arguments_without c ok -> arguments_without c ov ->
  (forall k k', g k = Ok k' -> obs k' <= obs k) -> forall d acc n,
  vobs d = 0 -> (kc <> None -> kobs d = 0) -> kobs d + dobs acc <= n -> made n dobs (deser_dict_go E ld f ok ov g kc vc d acc).
Proof.
  intros Hok Hov Hg. induction d as [|[k x] d IH]; intros acc n Hv Hkc Hk; cbn [deser_dict_go]; [apply made_ret; cbn in Hk; lia|].
  unfold vobs, kobs in Hv, Hkc, Hk. cbn [map fst snd] in Hv, Hkc, Hk. rewrite sum_cons in Hv, Hkc, Hk. fold (vobs d) in Hv. fold (kobs d) in Hkc, Hk.
  eapply (made_bind n (fun a => obs a + kobs d + dobs acc)).
  { apply made_lift. intros k1 Hk1. specialize (Hg _ _ Hk1). lia. }
  intros k1 n1 Hk1 Hn1. apply lift_done in Hk1. specialize (Hg _ _ Hk1).
  eapply (made_bind n1 (fun a => kobs d + dobs acc + obs a)).
  { destruct kc as [t|]; [|apply made_ret; lia]. apply made_more; [|lia]. apply HL; [exact Hok|].
    assert (obs k + kobs d = 0) by (apply Hkc; discriminate). lia. }
  intros k2 n2 _ Hn2. eapply (made_bind n2 (fun a => (kobs d + dobs acc + obs k2) + obs a)).
  { apply made_more; [|exact Hn2]. apply HL; [exact Hov|lia]. }
  intros y n3 _ Hn3. destruct (hashable (e_ct E) k2); [|apply made_fail]. apply IH; [lia| |].
  - intros H. specialize (Hkc H). lia.
  - pose proof (dobs_dset k2 y acc). lia.
Qed.
Lemma dict_made o args j : arguments_without c o -> obs j = 0 -> made 0 dobs (deser_dict E ld f o args j).
Proof.
  intros Ho Hj. unfold deser_dict. destruct j as [| | | | | | | |kd d| | | |]; try apply made_fail. cbn [objects] in Hj. fold (dobs d) in Hj.
  destruct (hashed_made o args d Ho Hj) as [H1 H2].
  set (g := match lo_kt o with Some g => g | None => fun k => Ok k end).
  assert (Hg : forall k k', g k = Ok k' -> obs k' <= obs k).
  { intros k k' H. unfold g in H. destruct (lo_kt o) as [g'|] eqn:Eg; [eapply (proj2 Ho); eauto|]. injection H as <-. lia. }
  assert (Hov : arguments_without c (set_kt (Some g) o)).
  { split; [exact (proj1 Ho)|]. intros g' k k' [= <-]. apply Hg. }
  eapply made_bind; [exact H1|]. intros dh n Hdh Hn. cbn beta. specialize (H2 dh Hdh).
  assert (Hgo : forall kc vc, (kc <> None -> kobs (fst dh) = 0) -> made n dobs (deser_dict_go E ld f (set_kt None o) (set_kt (Some g) o) g kc vc (fst dh) [])).
  { intros kc vc Hkc. apply dict_go_made; auto; [now apply aw_kt|cbn; lia]. }
  destruct args as [|a1 [|a2 [|a3 args]]]; try (apply Hgo; congruence).
  apply Hgo. destruct (snd dh) eqn:Es; [congruence|]. intros _.
  (* without hashed keys the dict is as it was *)
  unfold load_hashed_keys in Hdh. rewrite dobs_split in Hj.
  destruct (dget (VStr "-keys") d) as [keys|]; [|injection Hdh as <-; cbn [fst]; lia].
  destruct (py_iter (e_rt E) keys) as [[|k0 ks]|e]; cbn [lift] in Hdh.
  - rewrite bind_ret_l in Hdh. injection Hdh as <-. cbn [fst]. lia.
  - rewrite bind_ret_l in Hdh. destruct keys; try discriminate. apply bind_done in Hdh as (d' & _ & Hdh). injection Hdh as <-. discriminate.
  - discriminate.
Qed.
Lemma mapping_made o t j : arguments_without c o -> obs j = 0 -> made 0 obs (deser_mapping E ld f o t j).
Proof.
  intros Ho Hj. unfold deser_mapping. apply made_then. intros args k _ _.
  eapply (made_bind k (fun a => 0 + dobs a)); [apply made_more; [now apply dict_made|lia]|]. intros d k2 _ Hk.
  assert (Hc : made k2 obs (lift (rt_cast (e_rt E) t (VDict DkDict d)))).
  { apply made_lift. intros r Hr. apply (bc_cast _ _ HC) in Hr. cbn [objects] in Hr. unfold dobs in Hk. lia. }
  destruct t; try exact Hc; [apply made_ret; exact Hk|]. destruct h; try exact Hc; apply made_ret; exact Hk.
Qed.
Lemma defaultdict_made o t j : arguments_without c o -> obs j = 0 -> made 0 obs (deser_defaultdict ld f o t j).
Proof.
  intros Ho Hj. unfold deser_defaultdict. apply made_then. intros t' k _ _.
  eapply (made_bind k (fun a => 0 + obs a)); [apply made_more; [now apply HL|lia]|]. intros r k2 _ Hk.
  destruct r; try apply made_fail. apply made_ret. exact Hk.
Qed.
Lemma iterable_made o t j : arguments_without c o -> obs j = 0 -> valid_type j = true -> made 0 obs (deser_iterable E ld f o t j).
Proof.
  intros Ho Hj Hv. unfold deser_iterable. apply made_then. intros args k _ _.
  eapply (made_bind k (fun a => 0 + lobs a)); [apply made_more; [now apply list_made|lia]|]. intros l k2 _ Hk.
  assert (Hc : made k2 obs (lift (rt_cast (e_rt E) t (VList l)))).
  { apply made_lift. intros r Hr. apply (bc_cast _ _ HC) in Hr. cbn [objects] in Hr. unfold lobs in Hk. lia. }
  pose proof (lobs_dedup l []) as Hdd. change (lobs []) with 0 in Hdd.
  destruct t; try exact Hc. destruct h; try exact Hc; try (apply made_ret; exact Hk).
  - destruct (forallb _ l); [|apply made_fail]. apply made_ret. cbn [objects]. fold (lobs (dedup l [])). lia.
  - destruct (forallb _ l); [|apply made_fail]. apply made_ret. cbn [objects]. fold (lobs (dedup l [])). lia.
Qed.
Lemma primitive_made t j r : obs j = 0 -> deser_primitive E t j = Ok r -> obs r = 0.
Proof.
  intros Hj. unfold deser_primitive.
  assert (G : (dor b <- is_instance (e_ct E) j t; if b then Ok j else match cast (e_rt E) t j with Ok r => Ok r | Err e => Err (if is_valueerror (e_kind e) then exn_of KDeser else e) end) = Ok r -> obs r = 0).
  { destruct (is_instance (e_ct E) j t) as [[|]|]; cbn [rbind]; try discriminate; [now intros [= <-]|].
    destruct (cast (e_rt E) t j) as [r'|] eqn:Ec; [|discriminate]. intros [= <-]. unfold cast in Ec.
    assert (Hc : rt_cast (e_rt E) t j = Ok r' -> obs r' = 0) by (intros Hr; apply (bc_cast _ _ HC) in Hr; lia).
    destruct t; try (now apply Hc). destruct p.
    - destruct (py_str _ j); cbn [rbind] in Ec; [|discriminate]. now injection Ec as <-.
    - destruct (py_to_int _ j); cbn [rbind] in Ec; [|discriminate]. now injection Ec as <-.
    - destruct (py_to_float _ j); cbn [rbind] in Ec; [|discriminate]. now injection Ec as <-.
    - now injection Ec as <-. }
  destruct j; try exact G. now intros [= <-].
Qed.
Lemma string_made o t j : arguments_without c o -> obs j = 0 -> made 0 obs (deser_string E ld f o t j).
Proof.
  intros Ho Hj. unfold deser_string. destruct (_ && _)%bool.
  - apply made_lift. intros a Ha. destruct (py_str _ j); cbn [rbind] in Ha; [|discriminate]. injection Ha as <-. cbn. lia.
  - apply made_try; [now apply HL|]. intros e k _ _. destruct (is_deser _); [|apply made_fail].
    apply made_lift. intros a Ha. apply primitive_made in Ha; [lia|exact Hj].
Qed.

(** ** Objects *)
Lemma value_made o hints p x : arguments_without c o -> obs x = 0 -> made 0 obs (value_from_obj E ld f o hints p x).
Proof. intros Ho Hx. unfold value_from_obj. apply made_then. intros mh k _ _ a Ha. apply HL in Ha; [lia|exact Ho|exact Hx]. Qed.
Definition oobs (x : option value) : nat := match x with Some y => obs y | None => 0 end.
Lemma attr_made o hints d getters p : arguments_without c o -> vobs d = 0 ->
  (forall a x, In (a, Ok x) getters -> obs x = 0) -> (forall x, pa_default p = Some x -> obs x = 0) ->
  made 0 oobs (value_for_attr E ld f o hints d getters p).
Proof.
  intros Ho Hd Hg Hp. unfold value_for_attr. destruct (dget _ d) as [x|] eqn:Ex.
  - eapply made_bind; [apply value_made; [exact Ho|eapply vget; eauto]|]. intros y k _ Hk. apply made_ret. exact Hk.
  - destruct (sget (pa_name p) getters) as [g|] eqn:Eg.
    + apply made_then. intros _ k _ _. apply made_then. intros y k2 Hy _. apply lift_done in Hy. subst g.
      apply aget_in in Eg as (a & Hin). apply made_ret. cbn [oobs]. rewrite (Hg _ _ Hin). lia.
    + destruct (pa_default p) as [x|] eqn:Ep; [apply made_ret; cbn [oobs]; rewrite (Hp x eq_refl); lia|].
      destruct (pa_var p); [apply made_ret; cbn; lia|]. apply made_then. intros b k _ _.
      destruct b; [apply made_ret; cbn; lia|apply made_fail].
Qed.
Lemma oin_cons a x l : objects_in c ((a, x) :: l) = obs x + objects_in c l.
Proof. reflexivity. Qed.
Lemma args_made o hints d getters ps : arguments_without c o -> vobs d = 0 ->
  (forall a x, In (a, Ok x) getters -> obs x = 0) -> (forall p x, In p ps -> pa_default p = Some x -> obs x = 0) ->
  made 0 (objects_in c) (constructor_args E ld f o hints d getters ps).
Proof.
  intros Ho Hd Hg. induction ps as [|p ps IH]; intros Hps; cbn [constructor_args]; [apply made_ret; cbn; lia|].
  eapply made_bind; [apply attr_made; auto; intros x; apply Hps; now left|]. intros x k _ Hk.
  eapply (made_bind k (fun a => oobs x + objects_in c a)).
  { apply made_more; [|exact Hk]. apply IH. intros p' x' Hin. apply Hps. now right. }
  intros rest k2 _ Hk2. apply made_ret. destruct x as [y|]; cbn [oobs] in *; [rewrite oin_cons|]; lia.
Qed.
Lemma remaining_made o k rest : arguments_without c o -> vobs rest = 0 -> forall attrs n,
  objects_in c attrs <= n -> made n (objects_in c) (set_remaining E ld f o (e_ct E k) rest attrs).
Proof.
  intros Ho. induction rest as [|[a x] rest IH]; intros Hr attrs n Hn; cbn [set_remaining]; [now apply made_ret|].
  unfold vobs in Hr. cbn [map snd] in Hr. rewrite sum_cons in Hr. fold (vobs rest) in Hr.
  apply made_then. intros _ n1 _ Hn1.
  eapply (made_bind n1 (fun y => objects_in c attrs + obs y)); [apply made_more; [apply HL; [exact Ho|lia]|lia]|].
  intros y n2 _ Hn2. destruct a; try apply made_fail. destruct (ci_set (e_ct E k) s y attrs) as [attrs'|e] eqn:Es.
  - apply IH; [lia|]. apply (bc_set _ _ HC) in Es. lia.
  - destruct (is_attributeerror _); [|apply made_fail]. apply IH; lia.
Qed.
Lemma getters_made k gs : (forall a x, In (a, Ok x) gs -> obs x = 0) -> forall attrs n,
  objects_in c attrs <= n -> made n (objects_in c) (set_getter_attrs (e_ct E k) gs attrs).
Proof.
  induction gs as [|[a g] gs IH]; intros Hg attrs n Hn; cbn [set_getter_attrs]; [now apply made_ret|].
  apply made_then. intros _ n1 _ Hn1. apply made_then. intros y n2 Hy Hn2. apply lift_done in Hy. subst g.
  apply made_then. intros attrs' n3 Ha Hn3. apply lift_done in Ha. apply (bc_set _ _ HC) in Ha.
  rewrite (Hg a y) in Ha by (now left). apply IH; [intros b z Hin; apply (Hg b z); now right|lia].
Qed.
Lemma vobs_filter p d : vobs d = 0 -> vobs (filter p d) = 0.
Proof. intros H. apply zero_sum. intros kx Hin. apply filter_In in Hin as [Hin _]. exact (sum_zero _ _ H _ Hin). Qed.
Lemma vobs_transform g d acc d' : vobs d = 0 -> vobs acc = 0 -> transform_keys CT g d acc = Ok d' -> vobs d' = 0.
Proof.
  revert acc. induction d as [|[k x] d IH]; intros acc Hd Ha; cbn [transform_keys]; [now intros [= <-]|].
  unfold vobs in Hd. cbn [map snd] in Hd. rewrite sum_cons in Hd. fold (vobs d) in Hd.
  destruct (g k) as [k'|]; [cbn [rbind]|discriminate]. destruct (hashable CT k'); [|discriminate].
  apply IH; [lia|]. apply vobs_dset; lia.
Qed.
Lemma object_made o t j : arguments_without c o -> obs j = 0 -> made 0 obs (deser_object E ld f o t j).
Proof.
  intros Ho Hj. unfold deser_object. destruct (cid_of E t) as [k|]; [|apply made_fail].
  apply made_then. intros d0 n1 Hd0 _. apply lift_done in Hd0.
  assert (Hz0 : vobs d0 = 0).
  { destruct j as [| | | |[|]|[|]|[|]|? [|]|? d1| | |? [|]|]; try discriminate; injection Hd0 as <-; try reflexivity.
    cbn [objects] in Hj. fold (dobs d1) in Hj. rewrite dobs_split in Hj. lia. }
  apply made_then. intros d n2 Hd _. apply lift_done in Hd.
  assert (Hz : vobs d = 0).
  { destruct (lo_kt o) as [g|]; [|now injection Hd as <-]. eapply vobs_transform; [exact Hz0| |exact Hd]. reflexivity. }
  assert (Ho' : arguments_without c (set_getters [] o)) by (apply aw_getters; [exact Ho|intros a x []]).
  eapply (made_bind n2 (fun a => 0 + objects_in c a)).
  { apply made_more; [|lia]. apply args_made; auto; [apply (proj1 Ho)|]. intros p x. apply (bc_default _ _ HC). }
  intros args n3 _ Hn3. eapply made_bind with (w := fun _ => objects_in c args); [apply made_lift; lia|].
  intros rest n4 Hrest Hn4. apply lift_done in Hrest.
  assert (Hrz : vobs rest = 0).
  { unfold remaining_args in Hrest. destruct (filter _ d) as [|[k1 x1] r1] eqn:Ef; [now injection Hrest as <-|].
    destruct (lo_strict o); [discriminate|]. injection Hrest as <-. rewrite <- Ef. now apply vobs_filter. }
  (* the constructor *)
  eapply (made_bind n4 (fun _ => (if Nat.eqb c k then 1 else 0) + objects_in c args)).
  { intros [] _. cbn [fst emit]. unfold constructed. cbn [filter]. destruct (Nat.eqb c k); cbn; lia. }
  intros _ n5 _ Hn5.
  eapply (made_bind n5 (fun a => (if Nat.eqb c k then 1 else 0) + objects_in c a)).
  { apply made_lift. intros attrs Ha. apply (bc_init _ _ HC) in Ha. lia. }
  intros attrs n6 _ Hn6.
  eapply (made_bind n6 (fun a => (if Nat.eqb c k then 1 else 0) + objects_in c a)).
  { intros a Ha. apply (remaining_made _ k rest Ho' Hrz attrs (n6 - (if Nat.eqb c k then 1 else 0))) in Ha; [|lia].
    unfold e_ct in *. lia. }
  intros attrs1 n7 _ Hn7.
  eapply (made_bind n7 (fun a => (if Nat.eqb c k then 1 else 0) + objects_in c a)).
  { intros a Ha. apply (getters_made k _ (proj1 Ho) attrs1 (n7 - (if Nat.eqb c k then 1 else 0))) in Ha; [|lia]. lia. }
  intros attrs2 n8 _ Hn8. apply made_ret. cbn [objects]. exact Hn8.
Qed.

Lemma step_made o h t j : (forall n, h <> DCustom n) -> arguments_without c o -> obs j = 0 -> valid_type j = true ->
  made 0 obs (deser_step E ld f o h t j).
Proof.
  intros Hh Ho Hj Hv.
  assert (Hleaf : forall A (r : res A) (w : A -> value), (forall a, obs (w a) = 0) -> made 0 obs (lift (dor x <- r; Ok (w x)))).
  { intros A r w Hw. apply made_lift. intros a. destruct r as [b|]; cbn [rbind]; [|discriminate]. intros [= <-]. rewrite Hw. lia. }
  destruct h; cbn [deser_step].
  - (* list *) eapply made_bind; [now apply list_made|]. intros l k _ Hk. apply made_ret. exact Hk.
  - now apply tuple_made.
  - unfold deser_union. destruct (raw_args t); [now apply union_go_made|apply made_fail].
  - now apply defaultdict_made.
  - destruct j; try apply made_fail. now apply Hleaf.
  - destruct j; try apply made_fail. now apply Hleaf.
  - destruct j; try apply made_fail. now apply Hleaf.
  - unfold deser_timezone. apply made_then. intros off k1 _ _. apply made_then. intros td k2 _ _. apply made_then. intros nm k3 _ _.
    destruct td; try apply made_fail. destruct x; try apply made_fail. destruct nm; try apply made_fail.
    destruct (timezone_ok us); [apply made_ret; cbn; lia|apply made_fail].
  - unfold deser_timedelta. now apply Hleaf.
  - now apply string_made.
  - destruct j; try apply made_fail. apply made_ret. cbn. lia.
  - apply made_lift. intros a Ha. apply primitive_made in Ha; [lia|exact Hj].
  - apply made_lift. intros a Ha. enough (exists c' n, a = VEnum c' n) as (c' & n & ->) by (cbn; lia).
    unfold deser_enum in Ha. destruct t; try (destruct (hashable (e_ct E) j); discriminate).
    assert (Hn : forall a, enum_by_name (e_ct E) c0 j = Ok a -> exists c' n, a = VEnum c' n).
    { intros b Hb. unfold enum_by_name in Hb. destruct (negb _); [discriminate|]. destruct j; try discriminate.
      destruct (sget s _); [|discriminate]. destruct (canonical _ _); [|discriminate]. injection Hb as <-. eauto. }
    assert (Hw : forall a, enum_by_value (e_ct E) c0 j = Ok a -> exists c' n, a = VEnum c' n).
    { intros b Hb. unfold enum_by_value in Hb. destruct (canonical _ _); [|discriminate]. injection Hb as <-. eauto. }
    destruct (lo_enum_name o) as [[|]|]; auto. destruct (enum_by_name (e_ct E) c0 j) as [b|e] eqn:Eb; [injection Ha as <-; auto|].
    destruct (is_keyerror (e_kind e)); [auto|discriminate].
  - now apply mapping_made.
  - now apply iterable_made.
  - now apply object_made.
  - destruct j; try apply made_fail. now apply Hleaf.
  - unfold deser_complex. apply made_try.
    + apply made_then. intros re k1 _ _. apply made_then. intros im k2 _ _. apply made_then. intros d k3 _ _.
      apply made_then. intros re' k4 _ _. apply made_then. intros im' k5 _ _.
      destruct re'; try apply made_fail. destruct im'; try apply made_fail. apply made_ret. cbn. lia.
    + intros e k _ _. destruct (_ || _)%bool; apply made_fail.
  - now apply Hleaf.
  - now apply Hleaf.
  - apply made_then. intros k n _ _. intros a Ha. apply (Hleaf _ _ (fun s => VLeaf (LZone s))) in Ha; [lia|reflexivity].
  - now destruct (Hh n).
Qed.
Hypothesis HD : forall g, default_deserializers E g.
Lemma no_custom t n : default_deser (e_ct E) t <> Some (DCustom n).
Proof.
  rewrite default_deser_eq. intros Hl. apply get_lizer_in in Hl as (s & Hin). cbn in Hin.
  repeat (destruct Hin as [Hin|Hin]; [discriminate Hin|]). exact Hin.
Qed.
Lemma load_step_made o cls j : arguments_without c o -> obs j = 0 -> made 0 obs (load_step E ld f o cls j).
Proof.
  intros Ho Hj. unfold load_step. apply made_then. intros _ k1 _ _.
  destruct (_ || _)%bool.
  { apply made_then. intros _ k2 _ _. apply made_ret. lia. }
  apply made_then. intros cls1 k2 _ _. destruct (valid_type j) eqn:Hv; cbn [negb]; [|apply made_fail].
  apply made_then. intros mh k3 _ _. destruct (determine_precedence _ _ _ _) as [t|]; [|apply made_fail].
  destruct (e_deser E f t) as [h|] eqn:Eh; [|apply made_fail]. rewrite (HD f t) in Eh. unfold wrap_deser. apply made_try.
  - eapply (made_bind k3 (fun a => 0 + obs a)); [apply made_more; [|lia]; apply step_made; auto|].
    + intros n ->. now apply no_custom in Eh.
    + intros r k4 _ Hk. eapply made_bind with (w := fun _ => obs r); [apply made_lift; intros; exact Hk|].
      intros _ k5 _ Hk5. now apply made_ret.
  - intros e k4 _ _. apply made_fail.
Qed.
End Made.
Theorem load_made E c n f o cls j : by_constructor_only E c -> (forall g, default_deserializers E g) ->
  arguments_without c o -> objects c j = 0 -> made c 0 (objects c) (load E n f o cls j).
Proof.
  intros HC HD. revert f o cls j. induction n as [|n IH]; intros f o cls j Ho Hj; cbn [load]; [intros a; discriminate|].
  now apply load_step_made.
Qed.
