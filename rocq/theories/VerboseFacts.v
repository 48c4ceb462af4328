(** * Paths, class hints and documents with class names *)
From Verif Require Import PyBaseFacts AttrFacts EngineFacts LoadFacts DumpLaws DatetimeProofs LeafProofs LeafLaws.
From Verif Require Export VerboseSpec.
Local Close Scope Z_scope.
Local Open Scope string_scope.

(** ** Strings *)
Lemma sapp_nil_r s : s ++ "" = s.
Proof. induction s as [|c s IH]; [reflexivity|]. cbn [append]. now rewrite IH. Qed.
Lemma sapp_assoc a b c : (a ++ b) ++ c = a ++ b ++ c.
Proof. induction a as [|x a IH]; [reflexivity|]. cbn [append]. now rewrite IH. Qed.
Lemma prefix_app p s : prefix p s = true -> exists r, s = p ++ r.
Proof.
  revert s. induction p as [|c p IH]; intros s H; [now exists s|]. destruct s as [|d s]; [discriminate|].
  cbn [prefix] in H. destruct (ascii_dec c d) as [->|]; [|discriminate]. apply IH in H as (r & ->). now exists r.
Qed.
Definition word (a : string) : Prop := a <> "" /\ slashless a.
(** A text that is empty or starts with a slash *)
Definition slashed (s : string) : Prop := s = "" \/ exists r, s = String "/" r.
Lemma tail_slashed p : slashed (path_tail p).
Proof. destruct p as [|a p]; [now left|right]. now exists (a ++ path_tail p). Qed.
Lemma split_word a : forall b s t, slashless a -> slashless b -> slashed s -> slashed t ->
  a ++ s = b ++ t -> a = b /\ s = t.
Proof.
  induction a as [|c a IH]; intros [|d b] s t Ha Hb Hs Ht H; cbn [append] in H.
  - auto.
  - subst s. destruct Hs as [Hs|(r & Hs)]; [discriminate|]. injection Hs as -> _. now destruct Hb.
  - subst t. destruct Ht as [Ht|(r & Ht)]; [discriminate|]. injection Ht as -> _. now destruct Ha.
  - injection H as -> H. destruct Ha as [_ Ha], Hb as [_ Hb]. destruct (IH b s t Ha Hb Hs Ht H) as [-> ->]. auto.
Qed.
Lemma tail_inj p : forall q, Forall word p -> Forall word q -> path_tail p = path_tail q -> p = q.
Proof.
  induction p as [|a p IH]; intros [|b q] Hp Hq H; cbn [path_tail append] in H; try discriminate; [reflexivity|].
  injection H as H. inversion Hp as [|? ? [_ Ha] Hp']; inversion Hq as [|? ? [_ Hb] Hq']; subst.
  destruct (split_word a b _ _ Ha Hb (tail_slashed p) (tail_slashed q) H) as [-> H']. f_equal. now apply IH.
Qed.
Lemma tail_snoc p a : path_tail (p ++ [a]) = path_tail p ++ "/" ++ a.
Proof.
  induction p as [|b p IH]; cbn [app path_tail].
  - now rewrite sapp_nil_r.
  - rewrite IH, !sapp_assoc. reflexivity.
Qed.
Lemma tail_root a p : Forall word (a :: p) -> path_tail (a :: p) <> "/".
Proof.
  intros H Heq. inversion H as [|? ? [Ha _] _]; subst. cbn [path_tail append] in Heq. injection Heq as Heq.
  destruct a; [now apply Ha|discriminate].
Qed.
Lemma text_inj p q : Forall word p -> Forall word q -> path_text p = path_text q -> p = q.
Proof.
  intros Hp Hq H. destruct p as [|a p], q as [|b q]; cbn [path_text] in H.
  - reflexivity.
  - now elim (tail_root _ _ Hq).
  - now elim (tail_root _ _ Hp).
  - now apply tail_inj.
Qed.
(** What becomes of a key when the hints are shifted *)
Lemma remove_prefix_hit a p : remove_prefix ("/" ++ a) (path_tail (a :: p)) = path_text p.
Proof.
  unfold remove_prefix. change (path_tail (a :: p)) with ("/" ++ (a ++ path_tail p)). rewrite <- sapp_assoc.
  rewrite prefix_refl_app, sdrop_app_length. destruct p; [reflexivity|]. reflexivity.
Qed.
Lemma remove_prefix_miss a b p : word a -> word b -> a <> b ->
  let s := remove_prefix ("/" ++ a) (path_tail (b :: p)) in
  s = path_tail (b :: p) \/ prefix "/" s = false.
Proof.
  intros [_ Ha] [Hb0 Hb] Hn. cbv zeta. unfold remove_prefix.
  destruct (prefix ("/" ++ a) (path_tail (b :: p))) eqn:Hp; [right|now left].
  apply prefix_app in Hp as (r & Hp). rewrite Hp, sdrop_app_length.
  cbn [path_tail] in Hp. cbn [append] in Hp. injection Hp as Hp.
  assert (G : forall a b, slashless a -> slashless b -> a <> b -> b ++ path_tail p = a ++ r ->
              exists c r', r = String c r' /\ c <> "/"%char).
  { clear. induction a as [|c a IH]; intros b Ha Hb Hn H; cbn [append] in H.
    - destruct b as [|c b]; [now elim Hn|]. cbn [append] in H. destruct Hb as [Hc _]. eauto.
    - destruct b as [|d b].
      + cbn [append] in H. destruct (tail_slashed p) as [Ht|(t & Ht)]; rewrite Ht in H; [discriminate|].
        injection H as Hc _. destruct Ha as [Hc' _]. congruence.
      + cbn [append] in H. injection H as -> H. destruct Ha as [_ Ha], Hb as [_ Hb].
        apply (IH b Ha Hb); [congruence|exact H]. }
  destruct (G a b Ha Hb Hn Hp) as (c & r' & -> & Hc). cbn [String.eqb prefix].
  destruct (ascii_dec "/" c); congruence.
Qed.
Lemma remove_prefix_root a : a <> "" -> remove_prefix ("/" ++ a) "/" = "/".
Proof. intros H. destruct a; [congruence|reflexivity]. Qed.
Lemma remove_prefix_junk a s : prefix "/" s = false -> remove_prefix ("/" ++ a) s = s.
Proof.
  intros H. unfold remove_prefix. cbn [append]. destruct s as [|c s]; [reflexivity|].
  cbn [prefix] in *. destruct (ascii_dec "/" c); [|reflexivity]. destruct s; discriminate.
Qed.

(** ** Dicts with text keys *)
Definition texts (d : list (string * value)) : list (value * value) := map (fun kx => (VStr (fst kx), snd kx)) d.
Lemma texts_set k x d : dset (VStr k) x (texts d) = texts (sset k x d).
Proof.
  unfold texts, dset, sset. induction d as [|[k' y] d IH]; [reflexivity|]. cbn [map aset fst snd].
  change (py_eqb (VStr k) (VStr k')) with (String.eqb k k'). destruct (String.eqb k k'); [reflexivity|].
  cbn [map fst snd]. now rewrite <- IH.
Qed.
Lemma texts_get k d : dget (VStr k) (texts d) = sget k d.
Proof.
  unfold texts, dget, sget. induction d as [|[k' y] d IH]; [reflexivity|]. cbn [map aget fst snd].
  change (py_eqb (VStr k) (VStr k')) with (String.eqb k k'). now destruct (String.eqb k k').
Qed.
Lemma texts_app a b : texts (a ++ b) = (texts a ++ texts b)%list.
Proof. apply map_app. Qed.
Lemma texts_keys d : map fst (texts d) = map VStr (map fst d).
Proof. unfold texts. now rewrite !map_map. Qed.
Definition shift (a : string) (hs acc : list (string * value)) : list (string * value) :=
  fold_left (fun acc ky => sset (remove_prefix a (fst ky)) (snd ky) acc) hs acc.
Lemma texts_shift a hs : forall acc, shift_hints a (texts hs) (texts acc) = Ok (texts (shift a hs acc)).
Proof.
  induction hs as [|[k y] hs IH]; intros acc; [reflexivity|]. cbn [texts map shift_hints fst snd].
  rewrite texts_set. apply IH.
Qed.
Lemma sset_In {A} k (x : A) d k' y : NoDup (map fst d) ->
  (In (k', y) (sset k x d) <-> (k' = k /\ y = x) \/ (k' <> k /\ In (k', y) d)).
Proof.
  intros Hn. pose proof (sset_NoDup k x d Hn) as Hn'. split.
  - intros H. apply (sget_NoDup _ _ _ Hn') in H. destruct (String.eqb_spec k' k) as [->|Hk].
    + rewrite sget_sset_same in H. left. split; [reflexivity|congruence].
    + rewrite sget_sset_other in H by exact Hk. right. split; [exact Hk|now apply sget_In].
  - intros [[-> ->]|[Hk H]]; apply sget_In.
    + apply sget_sset_same.
    + rewrite sget_sset_other by exact Hk. now apply sget_NoDup.
Qed.
Lemma sset_keys {A} k (x : A) d k' : In k' (map fst (sset k x d)) <-> k' = k \/ In k' (map fst d).
Proof. apply aset_keys_In. apply String.eqb_eq. Qed.
Lemma shift_NoDup a hs : forall acc, NoDup (map fst acc) -> NoDup (map fst (shift a hs acc)).
Proof. induction hs as [|[k y] hs IH]; intros acc H; [exact H|]. apply IH. now apply sset_NoDup. Qed.
Lemma shift_In a hs : forall acc k y, NoDup (map fst acc) -> In (k, y) (shift a hs acc) ->
  In (k, y) acc \/ exists k', In (k', y) hs /\ k = remove_prefix a k'.
Proof.
  induction hs as [|[k' y'] hs IH]; intros acc k y Hn H; [now left|]. cbn [shift fold_left fst snd] in H.
  apply IH in H as [H|(k2 & H & Hk)]; [|right; exists k2; split; [now right|exact Hk]|now apply sset_NoDup].
  apply (sset_In _ _ _ _ _ Hn) in H as [[-> ->]|[_ H]]; [right; exists k'; split; [now left|reflexivity]|now left].
Qed.
Lemma shift_keys a hs : forall acc k, In k (map fst acc) \/ (exists k', In k' (map fst hs) /\ k = remove_prefix a k') ->
  In k (map fst (shift a hs acc)).
Proof.
  induction hs as [|[k' y'] hs IH]; intros acc k H; cbn [shift fold_left fst snd].
  - destruct H as [H|(k' & [] & _)]. exact H.
  - apply IH. cbn [map fst] in H. destruct H as [H|(k2 & [<-|H] & Hk)].
    + left. apply sset_keys. now right.
    + left. apply sset_keys. now left.
    + right. eauto.
Qed.

(** ** Documents of object trees *)
Inductive tdoc : Type :=
| TLf (j : value)
| TNd (name : string) (fs : list (string * tdoc)).
Fixpoint tdoc_ind' (P : tdoc -> Prop) (HL : forall j, P (TLf j))
         (HN : forall n fs, Forall (fun at_ => P (snd at_)) fs -> P (TNd n fs)) (T : tdoc) : P T :=
  match T with
  | TLf j => HL j
  | TNd n fs => HN n fs ((fix all fs : Forall (fun at_ => P (snd at_)) fs :=
                            match fs with
                            | [] => Forall_nil _
                            | at_ :: r => Forall_cons at_ (tdoc_ind' P HL HN (snd at_)) (all r)
                            end) fs)
  end.
(** With or without '-cls' entries *)
Fixpoint doc (b : bool) (T : tdoc) : value :=
  match T with
  | TLf j => j
  | TNd n fs => VDict DkDict (map (fun at_ => (VStr (fst at_), doc b (snd at_))) fs ++
                              if b then [(VStr "-cls", VStr n)] else [])
  end.
Definition body (b : bool) (fs : list (string * tdoc)) : list (value * value) :=
  map (fun at_ => (VStr (fst at_), doc b (snd at_))) fs.
Inductive fine : tdoc -> Prop :=
| fine_leaf j : dictless j = true -> fine (TLf j)
| fine_node n fs : NoDup (map fst fs) ->
    (forall a t, In (a, t) fs -> attribute_name a /\ word a /\ fine t) -> fine (TNd n fs).
Fixpoint node_at (T : tdoc) (p : list string) : option tdoc :=
  match p with
  | [] => Some T
  | a :: p => match T with
              | TNd _ fs => match sget a fs with Some t => node_at t p | None => None end
              | TLf _ => None
              end
  end.
Lemma node_words T p t : fine T -> node_at T p = Some t -> Forall word p /\ fine t.
Proof.
  revert T. induction p as [|a p IH]; intros T HT H; cbn [node_at] in H.
  - injection H as <-. auto.
  - destruct T as [j|n fs]; [discriminate|]. destruct (sget a fs) as [t'|] eqn:Hg; [|discriminate].
    inversion HT as [|? ? Hn Hf]; subst. apply sget_In in Hg. destruct (Hf _ _ Hg) as (_ & Hw & Ht).
    destruct (IH _ Ht H) as [H1 H2]. auto.
Qed.
Lemma node_snoc T p a : node_at T (p ++ [a]) =
  match node_at T p with Some (TNd _ fs) => sget a fs | _ => None end.
Proof.
  revert T. induction p as [|b p IH]; intros T; cbn [app node_at].
  - destruct T as [j|n fs]; [reflexivity|]. now destruct (sget a fs).
  - destruct T as [j|n fs]; [reflexivity|]. destruct (sget b fs); [apply IH|reflexivity].
Qed.

(** ** Collecting the class names *)
Fixpoint gather (p : string) (T : tdoc) (acc : list (string * value)) : list (string * value) :=
  match T with
  | TLf _ => acc
  | TNd _ fs => fold_left (fun acc at_ =>
      match snd at_ with
      | TLf _ => acc
      | TNd n _ => sset (p ++ fst at_) (VStr n) (gather (p ++ fst at_ ++ "/") (snd at_) acc)
      end) fs acc
  end.
Fixpoint fill_items (p : string) (d : list (value * value)) (acc : types_acc)
  : res (list (value * value) * types_acc) :=
  match d with
  | [] => Ok ([], acc)
  | (key, x) :: r =>
      if py_eqb (VStr "-cls") key then fill_items p r acc
      else
      match key, x with
      | VStr a, VDict _ _ =>
          if String.eqb a "-meta" then
            dor ra <- fill_items p r acc; Ok ((key, x) :: fst ra, snd ra)
          else
          dor xa <- fill_value (p ++ a ++ "/") acc x;
          let '(x', n, acc') := xa in
          dor ra <- fill_items p r (dset (VStr (p ++ a)) n acc');
          Ok ((key, x') :: fst ra, snd ra)
      | _, VDict _ _ => raise KType
      | _, _ => dor ra <- fill_items p r acc; Ok ((key, x) :: fst ra, snd ra)
      end
  end.
Lemma fill_dict p acc k d : fill_value p acc (VDict k d) =
  dor da <- fill_items p d acc; Ok (VDict k (fst da), fst (strip_cls None d), snd da).
Proof.
  cbn [fill_value]. unfold strip_cls. cbn [fst].
  match goal with |- context [rbind (?F d acc) _] => assert (G : forall d acc, F d acc = fill_items p d acc) end.
  { clear. induction d as [|[key x] r IH]; intros acc; [reflexivity|]. cbn [fill_items].
    destruct (py_eqb (VStr "-cls") key); [apply IH|].
    destruct key, x; rewrite ?IH; try reflexivity.
    destruct (String.eqb s "-meta"); [reflexivity|]. destruct (fill_value _ acc _) as [[[x' n] acc']|]; cbn [rbind]; [|reflexivity].
    now rewrite IH. }
  now rewrite G.
Qed.
(** Entries that collecting leaves alone *)
Definition kept (extra : list (value * value)) : list (value * value) :=
  filter (fun kx => negb (py_eqb (VStr "-cls") (fst kx))) extra.
Definition ending (extra : list (value * value)) : Prop :=
  forall k x, In (k, x) extra -> k = VStr "-cls" \/ k = VStr "-meta".
Lemma fill_ending p acc extra : ending extra -> fill_items p extra acc = Ok (kept extra, acc).
Proof.
  induction extra as [|[k x] extra IH]; intros H; [reflexivity|]. cbn [fill_items].
  assert (IH' : fill_items p extra acc = Ok (kept extra, acc)) by (apply IH; intros k' x' Hin; apply (H k' x'); now right).
  destruct (H k x (or_introl eq_refl)) as [-> | ->].
  - exact IH'.
  - change (py_eqb (VStr "-cls") (VStr "-meta")) with false. cbn iota.
    destruct x; rewrite IH'; reflexivity.
Qed.
Lemma attribute_keys a : attribute_name a ->
  String.eqb a "-meta" = false /\ String.eqb a "-cls" = false /\ py_eqb (VStr "-cls") (VStr a) = false.
Proof.
  intros H. assert (G : forall s, String.eqb a (String "-" s) = false).
  { intros s. destruct (String.eqb_spec a (String "-" s)) as [->|]; [|reflexivity].
    unfold attribute_name in H. cbn [prefix] in H. destruct (ascii_dec "-" "-"); [destruct s; discriminate|congruence]. }
  repeat split; [apply G|apply G|]. change (py_eqb (VStr "-cls") (VStr a)) with (String.eqb "-cls" a).
  rewrite String.eqb_sym. apply G.
Qed.
Lemma strip_body b fs extra : (forall a t, In (a, t) fs -> attribute_name a) ->
  fst (strip_cls None (body b fs ++ extra)) = fst (strip_cls None extra).
Proof.
  intros H. unfold strip_cls. cbn [fst]. f_equal. unfold dget.
  assert (G : aget py_eqb (VStr "-cls") (body b fs ++ extra) = aget py_eqb (VStr "-cls") extra); [|now rewrite G].
  induction fs as [|[a t] fs IH]; [reflexivity|]. cbn [body map app aget fst snd].
  destruct (attribute_keys a (H a t (or_introl eq_refl))) as (_ & _ & ->). apply IH. intros a' t' Hin. apply (H a' t'). now right.
Qed.
Lemma fill_body T : fine T -> forall p acc extra, ending extra ->
  match T with
  | TLf _ => True
  | TNd _ fs => fill_value p (texts acc) (VDict DkDict (body true fs ++ extra)) =
                Ok (VDict DkDict (body false fs ++ kept extra), fst (strip_cls None extra), texts (gather p T acc))
  end.
Proof.
  induction T as [j|n fs IH] using tdoc_ind'; intros HT p acc extra He; [exact I|].
  inversion HT as [|? ? _ Hf]; subst. rewrite fill_dict.
  rewrite strip_body by (intros a t Hin; now apply (Hf a t)).
  assert (G : fill_items p (body true fs ++ extra) (texts acc) = Ok ((body false fs ++ kept extra)%list, texts (gather p (TNd n fs) acc))).
  2: { rewrite G. reflexivity. }
  cbn [gather]. clear HT. revert acc. induction fs as [|[a t] fs IHfs]; intros acc.
  - cbn [body map app fold_left]. now apply fill_ending.
  - inversion IH as [|? ? IHt IH']; subst. cbn [snd] in IHt.
    destruct (Hf a t (or_introl eq_refl)) as (Ha & _ & Ht). destruct (attribute_keys a Ha) as (K1 & _ & K3).
    specialize (IHfs IH' (fun a' t' Hin => Hf a' t' (or_intror Hin))).
    cbn [body map app fill_items fst snd fold_left]. rewrite K3. destruct t as [j|n' fs'].
    + inversion Ht as [? Hj|]; subst. cbn [doc]. fold (body true fs). rewrite IHfs. destruct j; try discriminate Hj; reflexivity.
    + cbn [doc]. rewrite K1. fold (body true fs').
      rewrite (IHt Ht (p ++ a ++ "/") acc [(VStr "-cls", VStr n')]) by (intros k x [Hk|[]]; left; congruence).
      cbn [rbind]. rewrite texts_set. fold (body true fs). unfold strip_cls. cbn [fst]. change (dget (VStr "-cls") [(VStr "-cls", VStr n')]) with (Some (VStr n')).
      cbn iota. rewrite IHfs. reflexivity.
Qed.

(** What is collected *)
Lemma fold_keep {A B} (h : list (string * value) -> A -> list (string * value)) (l : list A) (P : list (string * value) -> Prop) (_ : B) :
  (forall acc x, In x l -> P acc -> P (h acc x)) -> forall acc, P acc -> P (fold_left h l acc).
Proof.
  induction l as [|x l IH]; intros H acc Ha; [exact Ha|]. cbn [fold_left]. apply IH; [|apply H; [now left|exact Ha]].
  intros acc' y Hy. apply H. now right.
Qed.
Lemma gather_NoDup T : forall p acc, NoDup (map fst acc) -> NoDup (map fst (gather p T acc)).
Proof.
  induction T as [j|n fs IH] using tdoc_ind'; intros p acc Ha; [exact Ha|]. cbn [gather].
  refine (fold_keep _ fs (fun acc => NoDup (map fst acc)) tt _ acc Ha).
  intros acc' [a t] Hin Hn. cbn [fst snd]. destruct t as [j|n' fs']; [exact Hn|]. apply sset_NoDup.
  rewrite Forall_forall in IH. now apply (IH _ Hin).
Qed.
Lemma gather_mono T : forall p acc k, In k (map fst acc) -> In k (map fst (gather p T acc)).
Proof.
  induction T as [j|n fs IH] using tdoc_ind'; intros p acc k Ha; [exact Ha|]. cbn [gather].
  refine (fold_keep _ fs (fun acc => In k (map fst acc)) tt _ acc Ha).
  intros acc' [a t] Hin Hn. cbn [fst snd]. destruct t as [j|n' fs']; [exact Hn|]. apply sset_keys. right.
  rewrite Forall_forall in IH. now apply (IH _ Hin).
Qed.
Definition spelled (T : tdoc) (q : list string) (y : value) : Prop :=
  exists n fs, node_at T q = Some (TNd n fs) /\ y = VStr n.
Lemma gather_sound T : fine T -> forall p acc k y, NoDup (map fst acc) ->
  In (k, y) (gather (path_tail p ++ "/") T acc) ->
  In (k, y) acc \/ exists q, q <> [] /\ spelled T q y /\ k = path_tail (p ++ q).
Proof.
  induction T as [j|n fs IH] using tdoc_ind'; intros HT p acc k y Hn; [now left|]. cbn [gather].
  inversion HT as [|? ? Hnd Hf]; subst.
  set (Q := exists q, q <> [] /\ spelled (TNd n fs) q y /\ k = path_tail (p ++ q)).
  set (F := fun (acc0 : list (string * value)) (at_ : string * tdoc) => _).
  assert (G : forall l acc, (forall x, In x l -> In x fs) -> NoDup (map fst acc) ->
              In (k, y) (fold_left F l acc) -> In (k, y) acc \/ Q).
  2: { intros H. apply G with fs; auto. }
  induction l as [|[a t] l IHl]; intros acc0 Hl Hacc H; [now left|]. cbn [fold_left] in H.
  assert (Hin : In (a, t) fs) by (apply Hl; now left). destruct (Hf _ _ Hin) as (_ & _ & Ht).
  apply IHl in H; [|intros x Hx; apply Hl; now right|].
  2: { unfold F. cbn [fst snd]. destruct t; [exact Hacc|]. apply sset_NoDup. now apply gather_NoDup. }
  destruct H as [H|H]; [|now right]. unfold F in H. cbn [fst snd] in H.
  destruct t as [j|n' fs']; [now left|].
  assert (Hp : (path_tail p ++ "/") ++ a = path_tail (p ++ [a])) by (rewrite tail_snoc, sapp_assoc; reflexivity).
  assert (Hsg : sget a fs = Some (TNd n' fs')) by now apply sget_NoDup.
  apply sset_In in H as [[-> ->]|[_ H]]; [| |now apply gather_NoDup].
  - right. exists [a]. split; [discriminate|]. split; [|exact Hp]. exists n', fs'. cbn [node_at]. rewrite Hsg. auto.
  - rewrite <- sapp_assoc, Hp in H. rewrite Forall_forall in IH.
    apply (IH _ Hin Ht) in H as [H|(q & Hq & (n2 & fs2 & Hs & Hy) & Hk)]; [now left| |exact Hacc].
    right. exists (a :: q). split; [discriminate|]. split.
    + exists n2, fs2. cbn [node_at]. rewrite Hsg. auto.
    + rewrite Hk, <- app_assoc. reflexivity.
Qed.
Lemma gather_complete T : fine T -> forall p acc q n' fs', q <> [] -> node_at T q = Some (TNd n' fs') ->
  In (path_tail (p ++ q)) (map fst (gather (path_tail p ++ "/") T acc)).
Proof.
  induction T as [j|n fs IH] using tdoc_ind'; intros HT p acc q n' fs' Hq H.
  - destruct q; [now elim Hq|discriminate].
  - destruct q as [|a q]; [now elim Hq|]. cbn [node_at] in H. destruct (sget a fs) as [t|] eqn:Hg; [|discriminate].
    inversion HT as [|? ? Hnd Hf]; subst. apply sget_In in Hg. destruct (Hf _ _ Hg) as (_ & _ & Ht).
    cbn [gather]. set (F := fun (acc0 : list (string * value)) (at_ : string * tdoc) => _).
    apply in_split in Hg as (l1 & l2 & Hs). rewrite Hs, fold_left_app. cbn [fold_left].
    assert (Hp : (path_tail p ++ "/") ++ a = path_tail (p ++ [a])) by (rewrite tail_snoc, sapp_assoc; reflexivity).
    refine (fold_keep F l2 (fun acc => In (path_tail (p ++ a :: q)) (map fst acc)) tt _ _ _).
    + intros acc' [b t'] _ Hin. unfold F. cbn [fst snd]. destruct t'; [exact Hin|]. apply sset_keys. right. now apply gather_mono.
    + unfold F. cbn [fst snd]. set (acc1 := fold_left _ l1 acc). destruct t as [j|n2 fs2].
      * destruct q; [discriminate H|discriminate].
      * apply sset_keys. rewrite Hp. destruct q as [|b q].
        -- now left.
        -- right. rewrite <- sapp_assoc, Hp. rewrite Forall_forall in IH.
           assert (Hin : In (a, TNd n2 fs2) fs) by (rewrite Hs; apply in_or_app; right; now left).
           replace (p ++ a :: b :: q)%list with ((p ++ [a]) ++ b :: q)%list by (now rewrite <- app_assoc).
           apply (IH _ Hin Ht) with n' fs'; [discriminate|exact H].
Qed.
(** All the hints of a document *)
Definition hints_of (name : string) (T : tdoc) : list (string * value) :=
  sset "/" (VStr name) (gather "/" T []).
Lemma hints_NoDup name T : NoDup (map fst (hints_of name T)).
Proof. apply sset_NoDup. apply gather_NoDup. constructor. Qed.
Lemma hints_In name fs : fine (TNd name fs) -> forall k y,
  In (k, y) (hints_of name (TNd name fs)) <-> exists q, spelled (TNd name fs) q y /\ k = path_text q.
Proof.
  intros HT k y. set (T := TNd name fs) in *. unfold hints_of.
  assert (Hn : NoDup (map fst (gather "/" T []))) by (apply gather_NoDup; constructor).
  assert (Hs : forall k y, In (k, y) (gather "/" T []) -> exists q, q <> [] /\ spelled T q y /\ k = path_tail q).
  { intros k' y' H. apply (gather_sound T HT [] [] k' y') in H; [|constructor]. destruct H as [[]|H]. exact H. }
  rewrite sset_In by exact Hn. split.
  - intros [[-> ->]|[_ H]].
    + exists []. split; [|reflexivity]. exists name, fs. auto.
    + destruct (Hs _ _ H) as (q & Hq & Hsp & ->). exists q. split; [exact Hsp|]. now destruct q.
  - intros (q & (n & fs' & Hq & Hy) & Hk). subst y k. destruct q as [|a q].
    + cbn [node_at] in Hq. injection Hq as <- <-. left. auto.
    + right. destruct (node_words _ _ _ HT Hq) as [Hw _]. split; [now apply tail_root|].
      pose proof (gather_complete T HT [] [] (a :: q) n fs' ltac:(discriminate) Hq) as Hin. cbn [app] in Hin.
      apply in_map_iff in Hin as ([k y] & Hk & Hin). cbn [fst] in Hk. subst k.
      destruct (Hs _ _ Hin) as (q' & _ & (n2 & fs2 & Hq2 & Hy2) & Hk). subst y.
      destruct (node_words _ _ _ HT Hq2) as [Hw2 _]. apply tail_inj in Hk; [|exact Hw|exact Hw2].
      subst q'. rewrite Hq in Hq2. injection Hq2 as <- <-. exact Hin.
Qed.

(** ** Hints on the way down *)
Inductive serves : list (string * value) -> tdoc -> Prop :=
| sv_leaf hs j : serves hs (TLf j)
| sv_node hs n fs :
    (forall a j, In (a, TLf j) fs -> sget ("/" ++ a) hs = None) ->
    (forall a n' fs', In (a, TNd n' fs') fs -> sget ("/" ++ a) hs = Some (VStr n')) ->
    (forall a n' fs', In (a, TNd n' fs') fs -> serves (shift ("/" ++ a) hs []) (TNd n' fs')) ->
    serves hs (TNd n fs).
Definition strip_name (a : string) (q : list string) : list string :=
  match q with
  | b :: q' => if String.eqb a b then q' else q
  | [] => []
  end.
Lemma leftover_cons a p q : leftover (a :: p) q = leftover p (strip_name a q).
Proof. reflexivity. Qed.
Lemma leftover_snoc p a : forall q, leftover (p ++ [a]) q = strip_name a (leftover p q).
Proof.
  induction p as [|b p IH]; intros q; cbn [app].
  - reflexivity.
  - rewrite !leftover_cons. apply IH.
Qed.
Lemma leftover_suffix p : forall q, exists q', q = (q' ++ leftover p q)%list.
Proof.
  induction p as [|a p IH]; intros q; [now exists []|]. rewrite leftover_cons.
  assert (H : exists q1, q = (q1 ++ strip_name a q)%list).
  { destruct q as [|b q]; [now exists []|]. cbn [strip_name]. destruct (String.eqb a b); [now exists [b]|now exists []]. }
  destruct H as (q1 & H). destruct (IH (strip_name a q)) as (q2 & H2). exists (q1 ++ q2)%list.
  rewrite <- app_assoc, <- H2. exact H.
Qed.
Definition clashless (T : tdoc) : Prop := forall p q a n fs n' fs',
  node_at T p = Some (TNd n fs) -> In a (map fst fs) -> node_at T q = Some (TNd n' fs') ->
  leftover p q = [a] -> q = (p ++ [a])%list.
Definition guides (T : tdoc) (p : list string) (hs : list (string * value)) : Prop :=
  NoDup (map fst hs) /\
  (forall k y, In (k, y) hs -> k = "/" \/ prefix "/" k = false \/
     exists q, leftover p q <> [] /\ spelled T q y /\ k = path_tail (leftover p q)) /\
  (forall r n fs, r <> [] -> node_at T (p ++ r) = Some (TNd n fs) -> In (path_tail r) (map fst hs)).
Lemma guides_root name fs : fine (TNd name fs) -> guides (TNd name fs) [] (hints_of name (TNd name fs)).
Proof.
  intros HT. split; [apply hints_NoDup|]. split.
  - intros k y H. apply (hints_In _ _ HT) in H as ([|a q] & Hs & ->); [now left|]. right. right.
    exists (a :: q). split; [discriminate|]. auto.
  - intros r n fs' Hr H. cbn [app] in H. apply in_map_iff. exists (path_tail r, VStr n). split; [reflexivity|].
    apply (hints_In _ _ HT). exists r. split; [|now destruct r]. exists n, fs'. auto.
Qed.
Lemma leftover_words T p q n fs : fine T -> node_at T q = Some (TNd n fs) -> Forall word (leftover p q).
Proof.
  intros HT H. destruct (node_words _ _ _ HT H) as [Hw _]. destruct (leftover_suffix p q) as (q' & Hq).
  rewrite Hq in Hw. apply Forall_app in Hw. tauto.
Qed.
Lemma guides_down T p a n fs hs : fine T -> word a -> node_at T (p ++ [a]) = Some (TNd n fs) -> guides T p hs ->
  guides T (p ++ [a]) (shift ("/" ++ a) hs []).
Proof.
  intros HT Ha Hnode (Hn & Hs & Hc). split; [apply shift_NoDup; constructor|]. split.
  - intros k y H. apply shift_In in H as [[]|(k' & H & ->)]; [|constructor].
    destruct (Hs _ _ H) as [->|[Hk|(q & Hq & Hsp & ->)]].
    + left. apply remove_prefix_root. apply Ha.
    + right. left. now rewrite remove_prefix_junk.
    + destruct Hsp as (n' & fs' & Hq' & ->). pose proof (leftover_words _ p _ _ _ HT Hq') as Hw.
      destruct (leftover p q) as [|b r] eqn:Hl; [now elim Hq|]. inversion Hw as [|? ? Hb Hr]; subst.
      destruct (String.eqb_spec a b) as [->|Hab].
      * rewrite remove_prefix_hit. destruct r as [|b' r]; [now left|]. right. right. exists q.
        rewrite leftover_snoc, Hl. cbn [strip_name]. rewrite String.eqb_refl. split; [discriminate|].
        split; [|reflexivity]. exists n', fs'. auto.
      * destruct (remove_prefix_miss a b r Ha Hb Hab) as [Hm|Hm]; [|right; left; exact Hm].
        right. right. exists q. rewrite leftover_snoc, Hl. cbn [strip_name].
        apply String.eqb_neq in Hab. rewrite Hab. split; [discriminate|]. split; [|exact Hm]. exists n', fs'. auto.
  - intros r n' fs' Hr H. rewrite <- app_assoc in H. cbn [app] in H. apply shift_keys. right.
    exists (path_tail (a :: r)). split; [apply Hc with n' fs'; [discriminate|exact H]|].
    rewrite remove_prefix_hit. now destruct r.
Qed.
Lemma guides_serve T : fine T -> clashless T -> forall t p hs, node_at T p = Some t -> guides T p hs -> serves hs t.
Proof.
  intros HT Hcl. induction t as [j|n fs IH] using tdoc_ind'; intros p hs Hp Hg; [constructor|].
  rewrite Forall_forall in IH. destruct (node_words _ _ _ HT Hp) as [Hw Hfine]. inversion Hfine as [|? ? Hnd Hf]; subst.
  assert (Hat : forall a t, In (a, t) fs -> node_at T (p ++ [a]) = Some t).
  { intros a t Hin. rewrite node_snoc, Hp. now apply sget_NoDup. }
  assert (Hfind : forall a t y, In (a, t) fs -> sget ("/" ++ a) hs = Some y -> spelled T (p ++ [a]) y).
  { intros a t y Hin Hy. apply sget_In in Hy. destruct Hg as (_ & Hs & _). destruct (Hf _ _ Hin) as (_ & Haw & _).
    destruct (Hs _ _ Hy) as [Hk|[Hk|(q & Hq & Hsp & Hk)]].
    - elim (tail_root a []); [now constructor|]. cbn [path_tail]. now rewrite sapp_nil_r.
    - cbn [append prefix] in Hk. destruct a; discriminate.
    - destruct Hsp as (n' & fs' & Hq' & ->). pose proof (leftover_words _ p _ _ _ HT Hq') as Hlw.
      assert (Hl : leftover p q = [a]).
      { apply tail_inj; [exact Hlw|now constructor|]. rewrite <- Hk. cbn [path_tail]. now rewrite sapp_nil_r. }
      apply (Hcl p q a n fs n' fs' Hp) in Hl; [|apply in_map_iff; now exists (a, t)|exact Hq'].
      subst q. exists n', fs'. auto. }
  constructor.
  - intros a j Hin. destruct (sget ("/" ++ a) hs) as [y|] eqn:Hy; [|reflexivity].
    destruct (Hfind _ _ _ Hin Hy) as (n' & fs' & H & _). rewrite (Hat _ _ Hin) in H. discriminate.
  - intros a n' fs' Hin. pose proof (Hat _ _ Hin) as Ha.
    destruct (sget ("/" ++ a) hs) as [y|] eqn:Hy.
    + destruct (Hfind _ _ _ Hin Hy) as (n2 & fs2 & H & ->). rewrite Ha in H. injection H as <- <-. reflexivity.
    + destruct Hg as (_ & _ & Hc). apply sget_None in Hy. elim Hy.
      specialize (Hc [a] n' fs' ltac:(discriminate) Ha). cbn [path_tail] in Hc. now rewrite sapp_nil_r in Hc.
  - intros a n' fs' Hin. pose proof (Hat _ _ Hin) as Ha. destruct (Hf _ _ Hin) as (_ & Haw & _).
    apply (IH _ Hin (p ++ [a])%list); [exact Ha|]. now apply guides_down with n' fs'.
Qed.

(** ** Documents and values *)
Inductive shape (CT : classes) : value -> tdoc -> Prop :=
| sh_leaf v j : flat v = true -> shape CT v (TLf j)
| sh_node c attrs fs : NoDup (map fst attrs) -> NoDup (map fst fs) ->
    (forall a, In a (map fst fs) <-> In a (map fst attrs)) ->
    (forall a x t, In (a, x) attrs -> In (a, t) fs -> shape CT x t) ->
    shape CT (VObj c attrs) (TNd (ci_name (CT c)) fs).
Lemma shape_part CT T : forall v p c attrs, shape CT v T -> part v p (VObj c attrs) ->
  exists fs, node_at T p = Some (TNd (ci_name (CT c)) fs) /\ forall a, In a (map fst fs) <-> In a (map fst attrs).
Proof.
  intros v p c attrs Hs Hp. revert T Hs. remember (VObj c attrs) as w eqn:Hw.
  induction Hp as [v|c' attrs' a x p w Hin Hp IH]; intros T Hs.
  - subst v. inversion Hs as [? ? Hf|? ? fs Hn Hn' Hi Hsh]; subst; [discriminate|]. exists fs. auto.
  - inversion Hs as [? ? Hf|? ? fs Hn Hn' Hi Hsh]; subst; [discriminate|].
    assert (Ha : In a (map fst fs)) by (apply Hi; apply in_map_iff; now exists (a, x)).
    apply in_map_iff in Ha as ([a' t] & Ha & Ht). cbn [fst] in Ha. subst a'.
    destruct (IH eq_refl t (Hsh _ _ _ Hin Ht)) as (fs' & H & H'). exists fs'. split; [|exact H'].
    cbn [node_at]. now rewrite (sget_NoDup _ _ _ Hn' Ht).
Qed.
Lemma shape_node CT p : forall T v n fs, shape CT v T -> node_at T p = Some (TNd n fs) ->
  exists c attrs, part v p (VObj c attrs) /\ n = ci_name (CT c) /\ forall a, In a (map fst fs) <-> In a (map fst attrs).
Proof.
  induction p as [|a p IH]; intros T v n fs Hs H; cbn [node_at] in H.
  - injection H as ->. inversion Hs as [|c attrs fs' Hn Hn' Hi Hsh]; subst. exists c, attrs. repeat split; auto; [constructor|apply Hi|apply Hi].
  - destruct T as [j|n' fs']; [discriminate|]. destruct (sget a fs') as [t|] eqn:Hg; [|discriminate].
    inversion Hs as [|c attrs fs2 Hn Hn' Hi Hsh]; subst. apply sget_In in Hg.
    assert (Ha : In a (map fst attrs)) by (apply Hi; apply in_map_iff; now exists (a, t)).
    apply in_map_iff in Ha as ([a' x] & Ha & Hx). cbn [fst] in Ha. subst a'.
    destruct (IH t x n fs (Hsh _ _ _ Hx Hg) H) as (c' & attrs' & Hp & He & Hi'). exists c', attrs'.
    split; [|auto]. econstructor; eassumption.
Qed.
Lemma shape_clashless CT v T : shape CT v T -> no_clash v -> clashless T.
Proof.
  intros Hs Hc p q a n fs n' fs' Hp Ha Hq Hl.
  destruct (shape_node _ _ _ _ _ _ Hs Hp) as (c & attrs & P1 & _ & Hi).
  destruct (shape_node _ _ _ _ _ _ Hs Hq) as (c' & attrs' & P2 & _ & _).
  apply Hi in Ha. apply in_map_iff in Ha as ([a' x] & Ha & Hx). cbn [fst] in Ha. subst a'.
  eapply Hc; eassumption.
Qed.
Lemma texts_In k y d : In (k, y) (texts d) <-> exists s, k = VStr s /\ In (s, y) d.
Proof.
  unfold texts. rewrite in_map_iff. split.
  - intros ([s x] & Heq & H). injection Heq as <- <-. eauto.
  - intros (s & -> & H). exists (s, y). auto.
Qed.
Lemma shape_lists CT c attrs fs : let T := TNd (ci_name (CT c)) fs in
  shape CT (VObj c attrs) T -> fine T -> lists_classes CT (VObj c attrs) (texts (hints_of (ci_name (CT c)) T)).
Proof.
  intros T Hs HT. split.
  - rewrite texts_keys. apply FinFun.Injective_map_NoDup; [congruence|apply hints_NoDup].
  - intros k y. rewrite texts_In. split.
    + intros (s & -> & H). apply (hints_In _ _ HT) in H as (q & (n & fs' & Hq & ->) & ->).
      destruct (shape_node _ _ _ _ _ _ Hs Hq) as (c' & attrs' & Hp & -> & _). exists q, c', attrs'. auto.
    + intros (p & c' & attrs' & Hp & -> & ->). exists (path_text p). split; [reflexivity|]. apply (hints_In _ _ HT).
      destruct (shape_part _ _ _ _ _ _ Hs Hp) as (fs' & H & _). exists p. split; [|reflexivity]. exists (ci_name (CT c')), fs'. auto.
Qed.
Lemma own_no_clash v : own_names v -> no_clash v.
Proof.
  intros H p q a x c attrs c' attrs' Hp Hx Hq Hl. destruct (leftover_suffix p q) as (q' & Hq'). rewrite Hl in Hq'.
  subst q. f_equal. eapply H; eassumption.
Qed.
