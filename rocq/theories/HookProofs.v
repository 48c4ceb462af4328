(** * Keyword arguments of json.loads: proofs *)
From Coq Require Import ZArith Lia.
From Verif Require Import EngineFacts JsonTextProofs HookSpec.
Local Open Scope string_scope.
Local Open Scope list_scope.
Local Open Scope Z_scope.

(** ** Trees *)
Fixpoint tree_induction (P : tree -> Prop) (H1 : P JNull) (H2 : forall b, P (JBool b)) (H3 : forall s, P (JConstant s))
  (H4 : forall t, P (JInt t)) (H5 : forall t, P (JFloat t)) (H6 : forall s, P (JString s))
  (H7 : forall l, Forall P l -> P (JList l)) (H8 : forall d, Forall (fun kx => P (snd kx)) d -> P (JDict d)) (t : tree) : P t.
Proof.
  pose proof (tree_induction P H1 H2 H3 H4 H5 H6 H7 H8) as IH. destruct t as [|b|s|t|t|s|l|kvs]; [exact H1|apply H2|apply H3|apply H4|apply H5|apply H6| |].
  - apply H7. revert l. fix go 1. intros [|x l]; constructor; [apply IH|apply go].
  - apply H8. revert kvs. fix go 1. intros [|x l]; constructor; [apply IH|apply go].
Defined.
Section Fold.
Context {A : Type} (B : builder A).
Fixpoint fold (t : tree) : res A :=
  match t with
  | JNull => Ok (bd_null B)
  | JBool b => Ok (bd_bool B b)
  | JString s => Ok (bd_string B s)
  | JInt l => bd_int B l
  | JFloat l => bd_float B l
  | JConstant s => bd_constant B s
  | JList l => match all_of fold l with Ok vs => Ok (bd_list B vs) | Err e => Err e end
  | JDict kvs =>
      match all_of (fun kx => match fold (snd kx) with Ok v => Ok (fst kx, v) | Err e => Err e end) kvs with
      | Err e => Err e
      | Ok d => bd_dict B d
      end
  end.
Definition fold_pair (kx : string * tree) : res (string * A) := match fold (snd kx) with Ok v => Ok (fst kx, v) | Err e => Err e end.
Lemma fold_list l : fold (JList l) = match all_of fold l with Ok vs => Ok (bd_list B vs) | Err e => Err e end.
Proof. reflexivity. Qed.
Lemma fold_dict d : fold (JDict d) = match all_of fold_pair d with Ok vs => bd_dict B vs | Err e => Err e end.
Proof. reflexivity. Qed.
End Fold.
Lemma all_of_cons {X A} (g : X -> res A) x l :
  all_of g (x :: l) = match g x with Err e => Err e | Ok a => match all_of g l with Err e => Err e | Ok r => Ok (a :: r) end end.
Proof. reflexivity. Qed.
Lemma all_of_ext {X A} (g g' : X -> res A) l : Forall (fun x => g x = g' x) l -> all_of g l = all_of g' l.
Proof. induction 1 as [|x l H _ IH]; [reflexivity|]. rewrite all_of_cons. now rewrite H, IH. Qed.
Lemma int_literal_integer t : int_literal t = integer t.
Proof.
  unfold int_literal. destruct t as [|c t]; [reflexivity|]. cbn [minus]. destruct (Z.eqb_spec c 45) as [->|Hc].
  - rewrite digits_value_decimal. reflexivity.
  - rewrite digits_value_decimal. unfold integer.
    destruct c as [|p|p]; try reflexivity. do 6 (destruct p as [p|p|]; try reflexivity). now elim Hc.
Qed.
Lemma made_fold T H t : made T H t = fold (python_builder T H) t.
Proof.
  induction t using tree_induction; try reflexivity.
  - cbn [made fold python_builder bd_constant]. unfold given. destruct (hk_constant H); reflexivity.
  - cbn [made fold python_builder bd_int]. unfold given. destruct (hk_int H); [reflexivity|]. now rewrite int_literal_integer.
  - cbn [made fold python_builder bd_float]. unfold given. destruct (hk_float H); reflexivity.
  - cbn [made fold]. now rewrite (all_of_ext _ (fold (python_builder T H)) l).
  - cbn [made fold].
    rewrite (all_of_ext _ (fold_pair (python_builder T H)) d).
    + unfold fold_pair. destruct (all_of _ d) as [l|e]; [|reflexivity]. cbn [python_builder bd_dict].
      destruct (hk_pairs H); [reflexivity|]. unfold given. destruct (hk_object H); reflexivity.
    + revert H0. apply Forall_impl. intros [k x] Hx. cbn [fst snd] in *. unfold fold_pair. cbn [fst snd]. now rewrite Hx.
Qed.

(** ** The scanner on texts of the grammar *)
Scheme tree_text_mut := Minimality for tree_text Sort Prop
with tree_elements_mut := Minimality for tree_elements Sort Prop
with tree_members_mut := Minimality for tree_members Sort Prop.
Lemma tree_starts T t v : tree_text T t v -> first_of starts_value t.
Proof.
  assert (K : forall c, c = 110 \/ c = 116 \/ c = 102 \/ c = 78 \/ c = 73 \/ c = 45 \/ c = 34 \/ c = 91 \/ c = 123 -> starts_value c)
    by (unfold starts_value, space; lia).
  assert (N : forall neg t r, natural t -> first_of starts_value (sign neg ++ t ++ r)).
  { intros neg t' r Ht. destruct neg; cbn [sign app codes]; [eexists _, _; split; [reflexivity|]; apply K; tauto|].
    destruct (natural_start _ Ht) as (c & ds & -> & Hd). eexists _, _. split; [reflexivity|]. now apply digit_starts. }
  destruct 1; try (eexists _, _; split; [reflexivity|]; apply K; tauto).
  - rewrite <- (app_nil_r t). now apply N.
  - now apply N.
  - destruct H. eexists _, _. split; [reflexivity|]. apply K. tauto.
Qed.
Lemma skip_tree T t v r : tree_text T t v -> skip (t ++ r) = (t ++ r)%list.
Proof. intros H. apply tree_starts in H as (c & t' & -> & Hc & _). cbn [app]. now apply skip_id. Qed.
Lemma tree_elements_start T t l r : tree_elements T t l -> first_of starts_value (skip (t ++ r)).
Proof.
  intros [w t' w' v Hw Hv Hw'|w t' w' v ts vs Hw Hv Hw' _]; rewrite <- app_assoc, skip_spaces by exact Hw;
    rewrite <- app_assoc, (skip_tree _ _ _ _ Hv); apply tree_starts in Hv as (c & x & -> & Hc); eexists _, _; (split; [reflexivity|exact Hc]).
Qed.
Lemma tree_members_start T t l r : tree_members T t l -> exists s, skip (t ++ r) = 34 :: s.
Proof.
  intros [w tk k w1 w2 t' v w' Hw Hk _ _ _ _|w tk k w1 w2 t' v w' ts kvs Hw Hk _ _ _ _ _]; rewrite <- app_assoc, skip_spaces by exact Hw;
    rewrite <- app_assoc, (skip_string _ _ _ _ Hk); destruct (string_starts _ _ _ Hk) as (x & ->); eexists; reflexivity.
Qed.
Section Scanner.
Context {A : Type} (T : textrt) (B : builder A).
Lemma scan_with_number n c s : c = 45 \/ digit c -> (c = 45 -> not_first (eq 73) s) ->
  scan_with T B (S n) (c :: s) = number_with B (c :: s).
Proof.
  intros Hc Hm. cbn [scan_with].
  assert (Hx : c <> 34 /\ c <> 123 /\ c <> 91 /\ 110 <> c /\ 116 <> c /\ 102 <> c /\ 78 <> c /\ 73 <> c) by (unfold digit in Hc; lia).
  destruct Hx as (X1 & X2 & X3 & X4 & X5 & X6 & X7 & X8).
  destruct (Z.eqb_spec c 34); [contradiction|]. destruct (Z.eqb_spec c 123); [contradiction|]. destruct (Z.eqb_spec c 91); [contradiction|].
  change (codes "null") with (110 :: codes "ull"). change (codes "true") with (116 :: codes "rue").
  change (codes "false") with (102 :: codes "alse"). change (codes "NaN") with (78 :: codes "aN").
  change (codes "Infinity") with (73 :: codes "nfinity"). change (codes "-Infinity") with (45 :: 73 :: codes "nfinity").
  rewrite !strip_head by assumption.
  assert (Hs : strip (45 :: 73 :: codes "nfinity") (c :: s) = None).
  { cbn [strip]. destruct (Z.eqb_spec 45 c) as [<-|]; [|reflexivity]. specialize (Hm eq_refl). destruct s as [|d s]; [reflexivity|].
    cbn [not_first] in Hm. destruct (Z.eqb_spec 73 d); [now elim Hm|reflexivity]. }
  now rewrite Hs.
Qed.
Lemma number_with_ok neg t f e rest :
  natural t -> f = [] \/ fraction f -> e = [] \/ exponent e -> delimited rest ->
  number_with B (sign neg ++ t ++ f ++ e ++ rest) =
  hlift (match f, e with
         | [], [] => bd_int B (sign neg ++ t)
         | _, _ => bd_float B (sign neg ++ t ++ f ++ e)
         end) rest.
Proof.
  intros Ht Hf He (Hd & H46 & Hee). unfold number_with. rewrite minus_ok.
  2:{ intros c ds Hc Hx. subst c. destruct (natural_start _ Ht) as (c & ds' & -> & Hg). injection Hc as -> _. unfold digit in Hg. lia. }
  assert (Hfe : no_digit (e ++ rest) /\ not_first (eq 46) (e ++ rest)).
  { destruct He as [-> | (e' & sg & ds & -> & [-> | ->] & _)]; cbn [app]; auto; (split; [reflexivity|discriminate]). }
  assert (Hr : no_digit (f ++ e ++ rest)).
  { destruct Hf as [-> | (ds & -> & _)]; cbn [app]; [exact (proj1 Hfe)|reflexivity]. }
  rewrite (natural_part_ok _ _ Ht Hr), (fraction_part_ok _ _ Hf (proj1 Hfe) (proj2 Hfe)), (exponent_part_ok _ _ He Hd Hee).
  change (if neg then [45] else []) with (sign neg).
  destruct f; destruct e; try reflexivity. now rewrite !app_nil_r.
Qed.
Definition yields (t : text) (v : tree) : Prop := forall n rest,
  delimited rest -> (length t < n)%nat -> scan_with T B n (t ++ rest) = hlift (fold B v) rest.
Definition yields_elements (t : text) (l : list tree) : Prop := forall n k rest,
  (length t < n)%nat -> (length t < k)%nat -> elements_with (scan_with T B n) k (skip (t ++ 93 :: rest)) = hlift (all_of (fold B) l) rest.
Definition yields_members (t : text) (l : list (string * tree)) : Prop := forall n k rest,
  (length t < n)%nat -> (length t < k)%nat -> members_with T (scan_with T B n) k (skip (t ++ 125 :: rest)) = hlift (all_of (fold_pair B) l) rest.
Lemma scan_tree t v : tree_text T t v -> yields t v.
Proof.
  apply (tree_text_mut T yields yields_elements yields_members); unfold yields, yields_elements, yields_members.
  1-6: intros n rest _ Hl; destruct n as [|n]; [cbn in Hl; lia|]; reflexivity.
  - intros neg t' Ht n rest Hr Hl. destruct n as [|n]; [cbn in Hl; lia|].
    rewrite <- app_assoc. destruct (number_first neg t' rest Ht) as (c & s & Hs & Hc & Hm).
    rewrite Hs, scan_with_number, <- Hs by assumption. now apply (number_with_ok neg t' [] [] rest); auto.
  - intros neg t' f e Ht Hf He Hn n rest Hr Hl. destruct n as [|n]; [cbn in Hl; lia|].
    rewrite <- !app_assoc. destruct (number_first neg t' (f ++ e ++ rest)%list Ht) as (c & s & Hs & Hc & Hm).
    rewrite Hs, scan_with_number, <- Hs by assumption. rewrite (number_with_ok neg t' f e rest) by assumption.
    destruct f; [destruct e|]; [destruct Hn as [Hn|Hn]; now elim Hn|reflexivity|reflexivity].
  - intros t' s Hs n rest _ Hl. destruct n as [|n]; [lia|]. destruct (units_string _ _ _ rest Hs) as (x & us & -> & Hu & <-).
    cbn [app scan_with]. change (34 =? 34) with true. cbv iota. now rewrite Hu.
  - intros w Hw n rest _ Hl. destruct n as [|n]; [lia|]. cbn [app codes map list_ascii_of_string].
    change (Z.of_nat (code "["%char)) with 91. change (Z.of_nat (code "]"%char)) with 93. cbn [scan_with].
    change (91 =? 34) with false. change (91 =? 123) with false. change (91 =? 91) with true. cbv iota.
    rewrite <- app_assoc. cbn [app]. rewrite skip_to by (auto; unfold space; lia). reflexivity.
  - intros t' l He IH n rest _ Hl. destruct n as [|n]; [lia|].
    change (codes "[" ++ t' ++ codes "]")%list with (91 :: t' ++ [93])%list in *. cbn [length] in Hl. rewrite app_length in Hl. cbn [length] in Hl.
    cbn [app scan_with]. change (91 =? 34) with false. change (91 =? 123) with false. change (91 =? 91) with true. cbv iota.
    rewrite <- app_assoc. cbn [app].
    destruct (tree_elements_start T t' l (93 :: rest) He) as (c & x & Hx & Hc). rewrite Hx, strip_head by (unfold starts_value in Hc; lia).
    rewrite <- Hx, IH; [|lia|rewrite app_length; cbn [length]; lia]. rewrite fold_list. destruct (all_of (fold B) l); reflexivity.
  - intros w Hw n rest _ Hl. destruct n as [|n]; [lia|]. cbn [app codes map list_ascii_of_string].
    change (Z.of_nat (code "{"%char)) with 123. change (Z.of_nat (code "}"%char)) with 125. cbn [scan_with].
    change (123 =? 34) with false. change (123 =? 123) with true. cbv iota.
    rewrite <- app_assoc. cbn [app]. rewrite skip_to by (auto; unfold space; lia). reflexivity.
  - intros t' kvs He IH n rest _ Hl. destruct n as [|n]; [lia|].
    change (codes "{" ++ t' ++ codes "}")%list with (123 :: t' ++ [125])%list in *. cbn [length] in Hl. rewrite app_length in Hl. cbn [length] in Hl.
    cbn [app scan_with]. change (123 =? 34) with false. change (123 =? 123) with true. cbv iota.
    rewrite <- app_assoc. cbn [app].
    destruct (tree_members_start T t' kvs (125 :: rest) He) as (x & Hx). rewrite Hx, strip_head by lia.
    rewrite <- Hx, IH; [|lia|rewrite app_length; cbn [length]; lia]. rewrite fold_dict. destruct (all_of (fold_pair B) kvs); reflexivity.
  - intros w t' w' v' Hw Hv IH Hw' n k rest Hl Hk. destruct k as [|k]; [lia|]. rewrite !app_length in Hl.
    rewrite <- !app_assoc, skip_spaces, (skip_tree _ _ _ _ Hv) by exact Hw. cbn [elements_with].
    rewrite IH by (try (apply delimited_spaces; auto); lia). rewrite all_of_cons. destruct (fold B v'); cbn [hlift hbind]; [|reflexivity].
    rewrite skip_to by (auto; unfold space; lia). reflexivity.
  - intros w t' w' v' ts vs Hw Hv IH Hw' _ IHs n k rest Hl Hk. destruct k as [|k]; [lia|]. rewrite !app_length in Hl, Hk.
    change (length (codes ",")) with 1%nat in *.
    rewrite <- !app_assoc, skip_spaces, (skip_tree _ _ _ _ Hv) by exact Hw. change (codes "," ++ ts ++ 93 :: rest)%list with (44 :: ts ++ 93 :: rest)%list.
    cbn [elements_with]. rewrite IH by (try (apply delimited_spaces; auto); lia).
    rewrite all_of_cons. destruct (fold B v'); cbn [hlift hbind]; [|reflexivity]. rewrite skip_to by (auto; unfold space; lia).
    change (44 =? 93) with false. change (44 =? 44) with true. cbv iota. rewrite IHs by lia.
    destruct (all_of (fold B) vs); reflexivity.
  - intros w tk key w1 w2 t' v' w' Hw Hk H1 H2 Hv IH Hw' n k rest Hl Hkk. destruct k as [|k]; [lia|]. rewrite !app_length in Hl.
    rewrite <- !app_assoc, skip_spaces, (skip_string _ _ _ _ Hk) by exact Hw.
    destruct (units_string _ _ _ (w1 ++ codes ":" ++ w2 ++ t' ++ w' ++ 125 :: rest)%list Hk) as (x & us & -> & Hu & <-).
    cbn [app members_with]. change (34 =? 34) with true. cbv iota. rewrite Hu. change (codes ":" ++ w2 ++ t' ++ w' ++ 125 :: rest)%list with (58 :: w2 ++ t' ++ w' ++ 125 :: rest)%list.
    rewrite skip_to by (auto; unfold space; lia). change (58 =? 58) with true. cbv iota.
    rewrite skip_spaces, (skip_tree _ _ _ _ Hv) by exact H2. rewrite IH by (try (apply delimited_spaces; auto); lia).
    rewrite all_of_cons. unfold fold_pair. cbn [fst snd]. destruct (fold B v'); cbn [hlift hbind]; [|reflexivity].
    rewrite skip_to by (auto; unfold space; lia). reflexivity.
  - intros w tk key w1 w2 t' v' w' ts kvs Hw Hk H1 H2 Hv IH Hw' _ IHs n k rest Hl Hkk. destruct k as [|k]; [lia|]. rewrite !app_length in Hl, Hkk.
    change (length (codes ",")) with 1%nat in *. change (length (codes ":")) with 1%nat in *.
    rewrite <- !app_assoc, skip_spaces, (skip_string _ _ _ _ Hk) by exact Hw.
    change (codes "," ++ ts ++ 125 :: rest)%list with (44 :: ts ++ 125 :: rest)%list.
    destruct (units_string _ _ _ (w1 ++ codes ":" ++ w2 ++ t' ++ w' ++ 44 :: ts ++ 125 :: rest)%list Hk) as (x & us & -> & Hu & <-).
    cbn [app members_with]. change (34 =? 34) with true. cbv iota. rewrite Hu. change (codes ":" ++ w2 ++ t' ++ w' ++ 44 :: ts ++ 125 :: rest)%list with (58 :: w2 ++ t' ++ w' ++ 44 :: ts ++ 125 :: rest)%list.
    rewrite skip_to by (auto; unfold space; lia). change (58 =? 58) with true. cbv iota.
    rewrite skip_spaces, (skip_tree _ _ _ _ Hv) by exact H2. rewrite IH by (try (apply delimited_spaces; auto); lia).
    rewrite all_of_cons. unfold fold_pair at 1. cbn [fst snd]. destruct (fold B v'); cbn [hlift hbind]; [|reflexivity].
    rewrite skip_to by (auto; unfold space; lia). change (44 =? 125) with false. change (44 =? 44) with true. cbv iota. rewrite IHs by lia.
    destruct (all_of (fold_pair B) kvs); reflexivity.
Qed.

(** ** The grammar derives what the scanner accepts *)
Lemma hbind_ok {X Y} (p : hpres X) (f : X -> text -> hpres Y) b r :
  hbind p f = HOk b r -> exists a r', p = HOk a r' /\ f a r' = HOk b r.
Proof. destruct p as [a r'| | |]; try discriminate. intros H. now exists a, r'. Qed.
Lemma hlift_ok {X} (p : res X) r' b r : hlift p r' = HOk b r -> p = Ok b /\ r' = r.
Proof. destruct p; cbn [hlift]; intros H; [|discriminate]. now injection H as -> ->. Qed.
Lemma tree_elements_spaces w t l : spaces w -> tree_elements T t l -> tree_elements T (w ++ t) l.
Proof. intros Hw H. destruct H; rewrite app_assoc; constructor; auto using spaces_app. Qed.
Lemma tree_members_spaces w t l : spaces w -> tree_members T t l -> tree_members T (w ++ t) l.
Proof. intros Hw H. destruct H; rewrite app_assoc; constructor; auto using spaces_app. Qed.
Definition stands s (a : A) r : Prop := exists t v, s = (t ++ r)%list /\ tree_text T t v /\ fold B v = Ok a.
Lemma number_with_split s a rest : number_with B s = HOk a rest -> stands s a rest.
Proof.
  unfold number_with. destruct (minus s) as [neg r] eqn:H1. destruct (natural_part r) as [[ds r1]|] eqn:H2; [|discriminate].
  destruct (fraction_part r1) as [fr r2] eqn:H3. destruct (exponent_part r2) as [ex r3] eqn:H4. intros H.
  apply minus_split in H1 as ->. apply natural_part_split in H2 as [-> H2]. apply fraction_part_split in H3 as [-> H3].
  apply exponent_part_split in H4 as [-> H4]. change (if neg then [45] else []) with (sign neg) in H.
  assert (Hc : (fr = [] /\ ex = [] /\ hlift (bd_int B (sign neg ++ ds ++ fr ++ ex)) r3 = HOk a rest) \/
               ((fr <> [] \/ ex <> []) /\ hlift (bd_float B (sign neg ++ ds ++ fr ++ ex)) r3 = HOk a rest)).
  { destruct fr; [destruct ex|]; [left; auto|right; split; [right; discriminate|exact H]|right; split; [left; discriminate|exact H]]. }
  destruct Hc as [(-> & -> & Hc)|[Hn Hc]]; apply hlift_ok in Hc as [Hc ->].
  - rewrite !app_nil_r in Hc. exists (sign neg ++ ds)%list, (JInt (sign neg ++ ds)). split; [now rewrite <- app_assoc|]. split; [now constructor|exact Hc].
  - exists (sign neg ++ ds ++ fr ++ ex)%list, (JFloat (sign neg ++ ds ++ fr ++ ex)). split; [now rewrite <- !app_assoc|]. split; [now constructor|exact Hc].
Qed.
Section Sound.
Variable sc : text -> hpres A.
Hypothesis Hsc : forall s a r, sc s = HOk a r -> stands s a r.
Lemma elements_with_sound k : forall s l r, elements_with sc k s = HOk l r ->
  exists t vs, s = (t ++ 93 :: r)%list /\ tree_elements T t vs /\ all_of (fold B) vs = Ok l.
Proof.
  induction k as [|k IH]; intros s l r H; cbn [elements_with] in H; [discriminate|].
  apply hbind_ok in H as (a & r1 & Hv & H). apply Hsc in Hv as (t & v & -> & Ht & Ha).
  destruct (skip_split r1) as (w & Hw & Hs). destruct (skip r1) as [|c r2]; [discriminate|]. rewrite Hs.
  destruct (Z.eqb_spec c 93) as [->|_].
  - injection H as <- <-. exists ([] ++ t ++ w)%list, [v]. split; [cbn [app]; now rewrite <- app_assoc|]. split; [apply te_last; [constructor|exact Ht|exact Hw]|].
    rewrite all_of_cons. now rewrite Ha.
  - destruct (Z.eqb_spec c 44) as [->|_]; [|discriminate]. apply hbind_ok in H as (l' & r3 & He & H). injection H as <- <-.
    apply IH in He as (ts & vs & He & Hts & Hvs). destruct (skip_split r2) as (w2 & Hw2 & Hs2). rewrite Hs2, He.
    exists ([] ++ t ++ w ++ codes "," ++ (w2 ++ ts))%list, (v :: vs). split; [cbn [app]; rewrite <- !app_assoc; reflexivity|].
    split; [apply te_more; [constructor|exact Ht|exact Hw|now apply tree_elements_spaces]|]. rewrite all_of_cons. rewrite Ha. now rewrite Hvs.
Qed.
Lemma members_with_sound k : forall s l r, members_with T sc k s = HOk l r ->
  exists t vs, s = (t ++ 125 :: r)%list /\ tree_members T t vs /\ all_of (fold_pair B) vs = Ok l.
Proof.
  induction k as [|k IH]; intros s l r H; cbn [members_with] in H; [discriminate|].
  destruct s as [|c s]; [discriminate|]. destruct (Z.eqb_spec c 34) as [->|_]; [|discriminate].
  destruct (units s) as [[us r1]|] eqn:Hu; [|discriminate]. apply (units_json_string T) in Hu as (tk & Hk & Hst). rewrite Hk.
  destruct (skip_split r1) as (w1 & Hw1 & Hs1). destruct (skip r1) as [|c2 r2]; [discriminate|].
  destruct (Z.eqb_spec c2 58) as [->|_]; [|discriminate]. apply hbind_ok in H as (a & r3 & Hv & H).
  apply Hsc in Hv as (t & v & Ht & Hj & Ha). destruct (skip_split r2) as (w2 & Hw2 & Hs2). rewrite Ht in Hs2.
  destruct (skip_split r3) as (w3 & Hw3 & Hs3). destruct (skip r3) as [|c4 r4]; [discriminate|].
  rewrite Hs1, Hs2, Hs3. destruct (Z.eqb_spec c4 125) as [->|_].
  - injection H as <- <-. exists ([] ++ tk ++ w1 ++ codes ":" ++ w2 ++ t ++ w3)%list, [(string_of T (join us), v)].
    split; [cbn [app]; rewrite <- !app_assoc; reflexivity|]. split; [apply tm_last; auto; constructor|].
    rewrite all_of_cons. unfold fold_pair. cbn [fst snd]. now rewrite Ha.
  - destruct (Z.eqb_spec c4 44) as [->|_]; [|discriminate]. apply hbind_ok in H as (kvs & r5 & He & H). injection H as <- <-.
    apply IH in He as (ts & vs & He & Hts & Hvs). destruct (skip_split r4) as (w4 & Hw4 & Hs4). rewrite Hs4, He.
    exists ([] ++ tk ++ w1 ++ codes ":" ++ w2 ++ t ++ w3 ++ codes "," ++ (w4 ++ ts))%list, ((string_of T (join us), v) :: vs).
    split; [cbn [app]; rewrite <- !app_assoc; reflexivity|].
    split; [apply tm_more; auto; [constructor|now apply tree_members_spaces]|].
    rewrite all_of_cons. unfold fold_pair at 1. cbn [fst snd]. rewrite Ha. now rewrite Hvs.
Qed.
End Sound.
Lemma scan_with_sound : forall n s a r, scan_with T B n s = HOk a r -> stands s a r.
Proof.
  induction n as [|n IH]; intros s a r H; [discriminate|]. cbn [scan_with] in H. destruct s as [|c s]; [discriminate|].
  destruct (Z.eqb_spec c 34) as [->|H34].
  { destruct (units s) as [[us r1]|] eqn:Hu; [|discriminate]. injection H as <- <-.
    apply (units_json_string T) in Hu as (t & Ht & Hs). exists t, (JString (string_of T (join us))). split; [exact Ht|]. split; [now constructor|reflexivity]. }
  destruct (Z.eqb_spec c 123) as [->|H123].
  { destruct (skip_split s) as (w & Hw & Hs). destruct (strip [125] (skip s)) as [r'|] eqn:Hc.
    - apply hlift_ok in H as [H ->]. apply strip_split in Hc. rewrite Hc in Hs. rewrite Hs. exists (codes "{" ++ w ++ codes "}")%list, (JDict []).
      split; [cbn [app codes map list_ascii_of_string]; now rewrite <- !app_assoc|]. split; [now constructor|exact H].
    - apply hbind_ok in H as (kvs & r' & He & H). apply hlift_ok in H as [H ->]. apply (members_with_sound _ IH) in He as (t & vs & He & Ht & Hvs).
      rewrite Hs, He. exists (codes "{" ++ (w ++ t) ++ codes "}")%list, (JDict vs).
      split; [cbn [app codes map list_ascii_of_string]; now rewrite <- !app_assoc|]. split; [apply tt_dict; now apply tree_members_spaces|].
      rewrite fold_dict. now rewrite Hvs. }
  destruct (Z.eqb_spec c 91) as [->|H91].
  { destruct (skip_split s) as (w & Hw & Hs). destruct (strip [93] (skip s)) as [r'|] eqn:Hc.
    - injection H as <- <-. apply strip_split in Hc. rewrite Hc in Hs. rewrite Hs. exists (codes "[" ++ w ++ codes "]")%list, (JList []).
      split; [cbn [app codes map list_ascii_of_string]; now rewrite <- !app_assoc|]. split; [now constructor|reflexivity].
    - apply hbind_ok in H as (vs & r' & He & H). injection H as <- <-. apply (elements_with_sound _ IH) in He as (t & l & He & Ht & Hl).
      rewrite Hs, He. exists (codes "[" ++ (w ++ t) ++ codes "]")%list, (JList l).
      split; [cbn [app codes map list_ascii_of_string]; now rewrite <- !app_assoc|]. split; [apply tt_list; now apply tree_elements_spaces|].
      rewrite fold_list. now rewrite Hl. }
  destruct (strip (codes "null") (c :: s)) as [r'|] eqn:S1; [injection H as <- <-; apply strip_split in S1; eexists _, _; split; [exact S1|]; split; [constructor|reflexivity]|].
  destruct (strip (codes "true") (c :: s)) as [r'|] eqn:S2; [injection H as <- <-; apply strip_split in S2; eexists _, _; split; [exact S2|]; split; [constructor|reflexivity]|].
  destruct (strip (codes "false") (c :: s)) as [r'|] eqn:S3; [injection H as <- <-; apply strip_split in S3; eexists _, _; split; [exact S3|]; split; [constructor|reflexivity]|].
  destruct (strip (codes "NaN") (c :: s)) as [r'|] eqn:S4; [apply hlift_ok in H as [H ->]; apply strip_split in S4; eexists _, _; split; [exact S4|]; split; [constructor|exact H]|].
  destruct (strip (codes "Infinity") (c :: s)) as [r'|] eqn:S5; [apply hlift_ok in H as [H ->]; apply strip_split in S5; eexists _, _; split; [exact S5|]; split; [constructor|exact H]|].
  destruct (strip (codes "-Infinity") (c :: s)) as [r'|] eqn:S6; [apply hlift_ok in H as [H ->]; apply strip_split in S6; eexists _, _; split; [exact S6|]; split; [constructor|exact H]|].
  now apply number_with_split.
Qed.
(** Exceptions are those of the builder. *)
Definition builder_raises (e : exn) : Prop :=
  (exists t, bd_int B t = Err e) \/ (exists t, bd_float B t = Err e) \/ (exists s, bd_constant B s = Err e) \/ (exists d, bd_dict B d = Err e).
Lemma hbind_raise {X Y} (p : hpres X) (f : X -> text -> hpres Y) e :
  hbind p f = HRaise e -> p = HRaise e \/ exists a r, p = HOk a r /\ f a r = HRaise e.
Proof. destruct p as [a r'| | |]; try discriminate; intros H; [right; eauto|left; cbn [hbind] in H; injection H as ->; reflexivity]. Qed.
Lemma hlift_raise {X} (p : res X) r e : hlift p r = HRaise e -> p = Err e.
Proof. destruct p; cbn [hlift]; intros H; [discriminate|]. now injection H as ->. Qed.
Lemma scan_raises : forall n s e, scan_with T B n s = HRaise e -> builder_raises e.
Proof.
  induction n as [|n IH]; intros s e H; [discriminate|]. cbn [scan_with] in H. destruct s as [|c s]; [discriminate|].
  destruct (c =? 34); [destruct (units s) as [[? ?]|]; discriminate|].
  destruct (c =? 123).
  { destruct (strip _ _); [apply hlift_raise in H; unfold builder_raises; eauto|].
    apply hbind_raise in H as [H|(kvs & r & _ & H)]; [|apply hlift_raise in H; unfold builder_raises; eauto].
    revert H. generalize (S (length s)) (skip s). induction n0 as [|k IHk]; intros s' H; cbn [members_with] in H; [discriminate|].
    destruct s' as [|c1 s1]; [discriminate|]. destruct (c1 =? 34); [|discriminate]. destruct (units s1) as [[us r1]|]; [|discriminate].
    destruct (skip r1) as [|c2 r2]; [discriminate|]. destruct (c2 =? 58); [|discriminate].
    apply hbind_raise in H as [H|(v & r3 & _ & H)]; [now apply IH in H|]. destruct (skip r3) as [|c4 r4]; [discriminate|].
    destruct (c4 =? 125); [discriminate|]. destruct (c4 =? 44); [|discriminate].
    apply hbind_raise in H as [H|(v' & r5 & _ & H)]; [now apply IHk in H|discriminate]. }
  destruct (c =? 91).
  { destruct (strip _ _); [discriminate|]. apply hbind_raise in H as [H|(kvs & r & _ & H)]; [|discriminate].
    revert H. generalize (S (length s)) (skip s). induction n0 as [|k IHk]; intros s' H; cbn [elements_with] in H; [discriminate|].
    apply hbind_raise in H as [H|(v & r3 & _ & H)]; [now apply IH in H|]. destruct (skip r3) as [|c4 r4]; [discriminate|].
    destruct (c4 =? 93); [discriminate|]. destruct (c4 =? 44); [|discriminate].
    apply hbind_raise in H as [H|(v' & r5 & _ & H)]; [now apply IHk in H|discriminate]. }
  do 3 (destruct (strip _ _); [discriminate|]).
  do 3 (destruct (strip _ _); [apply hlift_raise in H; unfold builder_raises; eauto|]).
  unfold number_with in H. destruct (minus _) as [neg r]. destruct (natural_part r) as [[ds r1]|]; [|discriminate].
  destruct (fraction_part r1) as [fr r2]. destruct (exponent_part r2) as [ex r3].
  destruct fr; [destruct ex|]; apply hlift_raise in H; unfold builder_raises; eauto.
Qed.
Theorem json_loads_with_tree s v : tree_document T s v -> json_loads_with T B s = hlift (fold B v) [].
Proof.
  intros (w & t & w' & Hw & Hw' & -> & Hj). unfold json_loads_with. rewrite skip_spaces, (skip_tree _ _ _ _ Hj) by exact Hw.
  rewrite (scan_tree t v Hj).
  - destruct (fold B v); cbn [hlift hbind]; [|reflexivity]. now rewrite (proj2 (skip_all w') Hw').
  - destruct Hw' as [|c w' Hc _]; [repeat split|]. apply delimited_char. tauto.
  - rewrite !app_length. lia.
Qed.
Theorem json_loads_with_sound s a r : json_loads_with T B s = HOk a r -> exists v, tree_document T s v /\ fold B v = Ok a.
Proof.
  unfold json_loads_with. intros H. apply hbind_ok in H as (a' & r' & H & Hr). destruct (skip r') as [|] eqn:Hs; [|discriminate].
  injection Hr as <- <-. apply scan_with_sound in H as (t & v & Ht & Hv & Ha). exists v. split; [|exact Ha].
  destruct (skip_split s) as (w & Hw & Hx). exists w, t, r'. apply skip_all in Hs. rewrite <- Ht. auto.
Qed.
Theorem json_loads_with_raises s e : json_loads_with T B s = HRaise e -> builder_raises e.
Proof.
  unfold json_loads_with. intros H. apply hbind_raise in H as [H|(a & r & _ & H)]; [now apply scan_raises in H|]. destruct (skip r); discriminate.
Qed.
End Scanner.

(** ** Trees and values *)
Definition syntax : builder tree :=
  mkBuilder JNull JBool JString (fun t => Ok (JInt t)) (fun t => Ok (JFloat t)) (fun s => Ok (JConstant s)) JList (fun d => Ok (JDict d)).
Lemma all_of_id {X} (g : X -> res X) l : Forall (fun x => g x = Ok x) l -> all_of g l = Ok l.
Proof. induction 1 as [|x l H _ IH]; [reflexivity|]. rewrite all_of_cons. now rewrite H, IH. Qed.
Lemma fold_syntax t : fold syntax t = Ok t.
Proof.
  induction t using tree_induction; try reflexivity.
  - rewrite fold_list, (all_of_id _ _ H). reflexivity.
  - rewrite fold_dict, all_of_id; [reflexivity|]. revert H. apply Forall_impl. intros [k x] Hx. unfold fold_pair. cbn [fst snd] in *. now rewrite Hx.
Qed.
Theorem tree_unique T s v v' : tree_document T s v -> tree_document T s v' -> v = v'.
Proof.
  intros H H'. apply (json_loads_with_tree T syntax) in H. apply (json_loads_with_tree T syntax) in H'. rewrite H in H'. rewrite !fold_syntax in H'.
  cbn [hlift] in H'. now injection H'.
Qed.
(** Every JSON text has a tree, and without hooks the value is the one of JsonTextSpec.v. *)
Lemma json_value_tree T t v : json_value T t v -> exists r, tree_text T t r /\ made T no_hooks r = Ok v.
Proof.
  assert (HI : forall neg t, natural t -> integer (sign neg ++ t) = if neg then - decimal t else decimal t).
  { intros neg t' Ht. rewrite <- int_literal_integer. unfold int_literal. rewrite minus_ok; [now rewrite digits_value_decimal|].
    intros c ds Hc Hx. subst c. destruct (natural_start _ Ht) as (c & ds' & -> & Hg). injection Hc as -> _. unfold digit in Hg. lia. }
  apply (json_value_mut T (fun t v => exists r, tree_text T t r /\ made T no_hooks r = Ok v)
    (fun t l => exists r, tree_elements T t r /\ all_of (made T no_hooks) r = Ok l)
    (fun t l => exists r, tree_members T t r /\
       all_of (fun kx => match made T no_hooks (snd kx) with Ok v => Ok (fst kx, v) | Err e => Err e end) r = Ok l)).
  1-6: eexists; split; [constructor|reflexivity].
  - intros neg t' Ht. eexists. split; [apply tt_int; exact Ht|]. cbn [made no_hooks hk_int given]. now rewrite HI.
  - intros neg t' f e Ht Hf He Hn. eexists. split; [exact (tt_float T neg t' f e Ht Hf He Hn)|reflexivity].
  - intros t' s Hs. eexists. split; [exact (tt_string T t' s Hs)|reflexivity].
  - intros w Hw. eexists. split; [now apply tt_empty_list|reflexivity].
  - intros t' l _ (r & Hr & Hm). eexists. split; [apply tt_list; exact Hr|]. cbn [made]. now rewrite Hm.
  - intros w Hw. eexists. split; [now apply tt_empty_dict|reflexivity].
  - intros t' l _ (r & Hr & Hm). eexists. split; [apply tt_dict; exact Hr|]. cbn [made]. now rewrite Hm.
  - intros w t' w' v' Hw _ (r & Hr & Hm) Hw'. eexists. split; [apply te_last; eauto|]. rewrite all_of_cons. now rewrite Hm.
  - intros w t' w' v' ts vs Hw _ (r & Hr & Hm) Hw' _ (rs & Hrs & Hms). eexists. split; [apply te_more; eauto|]. rewrite all_of_cons. rewrite Hm. now rewrite Hms.
  - intros w tk k w1 w2 t' v' w' Hw Hk H1 H2 _ (r & Hr & Hm) Hw'. eexists. split; [apply tm_last; eauto|]. rewrite all_of_cons. cbn [fst snd]. now rewrite Hm.
  - intros w tk k w1 w2 t' v' w' ts vs Hw Hk H1 H2 _ (r & Hr & Hm) Hw' _ (rs & Hrs & Hms). eexists. split; [apply tm_more; eauto|].
    rewrite all_of_cons. cbn [fst snd]. rewrite Hm. now rewrite Hms.
Qed.
Lemma made_no_hooks T t : exists v, made T no_hooks t = Ok v.
Proof.
  assert (Hall : forall X A (g : X -> res A) l, Forall (fun x => exists a, g x = Ok a) l -> exists l', all_of g l = Ok l').
  { intros X A g l. induction 1 as [|x l (a & Ha) _ (l' & IH)]; [now exists []|]. exists (a :: l'). rewrite all_of_cons. now rewrite Ha, IH. }
  induction t using tree_induction; try (eexists; reflexivity).
  - destruct (Hall _ _ _ _ H) as (l' & Hl). exists (VList l'). cbn [made]. now rewrite Hl.
  - destruct (Hall _ _ (fun kx : string * tree => match made T no_hooks (snd kx) with Ok v => Ok (fst kx, v) | Err e => Err e end) d) as (l' & Hl).
    { revert H. apply Forall_impl. intros [k x] (v & Hv). cbn [fst snd] in *. rewrite Hv. eauto. }
    eexists. cbn [made]. now rewrite Hl.
Qed.
Theorem document_tree T s v : json_document T s v <-> exists t, tree_document T s t /\ made T no_hooks t = Ok v.
Proof.
  assert (H1 : forall v, json_document T s v -> exists t, tree_document T s t /\ made T no_hooks t = Ok v).
  { intros v' (w & t & w' & Hw & Hw' & -> & Hj). apply json_value_tree in Hj as (r & Hr & Hm). exists r. split; [|exact Hm]. now exists w, t, w'. }
  split; [apply H1|]. intros (t & Ht & Hm).
  pose proof (json_loads_with_tree T (python_builder T no_hooks) s t Ht) as Hj. rewrite <- made_fold, Hm in Hj. cbn [hlift] in Hj.
  assert (Hex : exists v', json_document T s v').
  { destruct Ht as (w & t' & w' & Hw & Hw' & -> & Ht). clear Hm Hj H1.
    assert (H : exists v', json_value T t' v').
    { revert Ht. apply (tree_text_mut T (fun t _ => exists v, json_value T t v) (fun t _ => exists l, json_elements T t l) (fun t _ => exists l, json_members T t l)).
      1-6: eexists; constructor.
      - intros neg t0 Ht0. eexists. now apply jv_int.
      - intros neg t0 f e Ht0 Hf He Hn. eexists. exact (jv_float T neg t0 f e Ht0 Hf He Hn).
      - intros t0 s0 Hs. eexists. exact (jv_string T t0 s0 Hs).
      - intros w0 Hw0. eexists. now apply jv_empty_list.
      - intros t0 l _ (l' & Hl). eexists. apply jv_list. exact Hl.
      - intros w0 Hw0. eexists. now apply jv_empty_dict.
      - intros t0 l _ (l' & Hl). eexists. apply jv_dict. exact Hl.
      - intros w0 t0 w0' v' Hw0 _ (x & Hx) Hw0'. eexists. eapply je_last; eauto.
      - intros w0 t0 w0' v' ts vs Hw0 _ (x & Hx) Hw0' _ (xs & Hxs). eexists. eapply je_more; eauto.
      - intros w0 tk k w1 w2 t0 v' w0' Hw0 Hk H1 H2 _ (x & Hx) Hw0'. eexists. eapply jm_last; eauto.
      - intros w0 tk k w1 w2 t0 v' w0' ts vs Hw0 Hk H1 H2 _ (x & Hx) Hw0' _ (xs & Hxs). eexists. eapply jm_more; eauto. }
    destruct H as (v' & H). exists v', w, t', w'. auto. }
  destruct Hex as (v' & Hv'). pose proof (H1 v' Hv') as (t2 & Ht2 & Hm2). rewrite (tree_unique T s t t2 Ht Ht2) in Hm. congruence.
Qed.
