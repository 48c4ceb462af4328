(** * The layout of JSON text: proofs *)
From Verif Require Import PyBaseFacts EngineFacts LayoutSpec JsonTextProofs DumpLaws.
Local Open Scope string_scope.
Local Open Scope Z_scope.

(** ** The order of strings *)
Lemma ascii_compare a b : Ascii.compare a b = (Z.of_nat (code a) ?= Z.of_nat (code b)).
Proof.
  unfold Ascii.compare, code, nat_of_ascii. rewrite !N_nat_Z. symmetry. apply N2Z.inj_compare.
Qed.
Lemma code_inj a b : Z.of_nat (code a) = Z.of_nat (code b) -> a = b.
Proof.
  intros H. apply Nat2Z.inj in H. unfold code in H. rewrite <- (ascii_nat_embedding a), H. apply ascii_nat_embedding.
Qed.
Lemma codes_inj : forall a b, codes a = codes b -> a = b.
Proof.
  induction a as [|c a IH]; intros [|d b]; intros H; try discriminate; [reflexivity|].
  rewrite !codes_cons in H. injection H as H1 H2. f_equal; [now apply code_inj|now apply IH].
Qed.
Lemma compare_before : forall a b, String.compare a b = Lt <-> before a b.
Proof.
  induction a as [|c a IH]; intros b.
  - destruct b as [|d b]; cbn [String.compare].
    + split; [discriminate|]. intros (p & [(d & s & H1 & H2)|(c & r & d & s & H1 & H2 & _)]); cbn in H1, H2.
      * subst p. discriminate.
      * destruct p; discriminate.
    + split; [intros _|reflexivity]. exists []. left. exists (Z.of_nat (code d)), (codes b). split; reflexivity.
  - destruct b as [|d b]; cbn [String.compare].
    + split; [discriminate|]. intros (p & [(d & s & H1 & H2)|(c' & r & d & s & H1 & H2 & _)]); destruct p; discriminate.
    + rewrite ascii_compare. destruct (Z.compare_spec (Z.of_nat (code c)) (Z.of_nat (code d))) as [Hc|Hc|Hc].
      * apply code_inj in Hc as ->. rewrite IH. split.
        -- intros (p & [(e & s & H1 & H2)|(e & r & g & s & H1 & H2 & H3)]); exists (Z.of_nat (code d) :: p); [left|right].
           ++ exists e, s. rewrite !codes_cons, H1, H2. auto.
           ++ exists e, r, g, s. rewrite !codes_cons, H1, H2. auto.
        -- intros (p & [(e & s & H1 & H2)|(e & r & g & s & H1 & H2 & H3)]); rewrite codes_cons in H1, H2.
           ++ destruct p as [|x p]; [discriminate|]. injection H1 as _ H1. injection H2 as _ H2. exists p. left. now exists e, s.
           ++ destruct p as [|x p]; cbn [app] in H1, H2.
              ** injection H1 as H1 _. injection H2 as H2 _. lia.
              ** injection H1 as _ H1. injection H2 as _ H2. exists p. right. now exists e, r, g, s.
      * split; [intros _|reflexivity]. exists []. right. exists (Z.of_nat (code c)), (codes a), (Z.of_nat (code d)), (codes b).
        rewrite !codes_cons. auto.
      * split; [discriminate|]. intros (p & [(e & s & H1 & H2)|(e & r & g & s & H1 & H2 & H3)]); rewrite codes_cons in H1, H2.
        -- destruct p as [|x p]; [discriminate|]. injection H1 as H1 _. injection H2 as H2 _. lia.
        -- destruct p as [|x p]; cbn [app] in H1, H2; injection H1 as H1 _; injection H2 as H2 _; lia.
Qed.
Lemma ltb_before a b : String.ltb a b = true <-> before a b.
Proof. unfold String.ltb. rewrite <- compare_before. destruct (String.compare a b); split; congruence. Qed.
Lemma before_total a b : before a b \/ a = b \/ before b a.
Proof.
  rewrite <- !compare_before. rewrite (String.compare_antisym b a). destruct (String.compare a b) eqn:H; auto.
  right. left. now apply String.compare_eq_iff.
Qed.
Lemma before_asym a b : before a b -> ~ before b a.
Proof. rewrite <- !compare_before, (String.compare_antisym b a). intros ->. discriminate. Qed.
Lemma before_irrefl a : ~ before a a.
Proof. intros H. exact (before_asym a a H H). Qed.
Lemma before_trans : forall a b c, before a b -> before b c -> before a c.
Proof.
  intros a b c. rewrite <- !compare_before. revert b c.
  induction a as [|x a IH]; intros [|y b] [|z c]; cbn [String.compare]; try discriminate; try reflexivity.
  rewrite !ascii_compare.
  destruct (Z.compare_spec (Z.of_nat (code x)) (Z.of_nat (code y))); destruct (Z.compare_spec (Z.of_nat (code y)) (Z.of_nat (code z)));
    destruct (Z.compare_spec (Z.of_nat (code x)) (Z.of_nat (code z))); try discriminate; try lia; try reflexivity. apply IH.
Qed.
Lemma not_before_trans a b c : ~ before b a -> ~ before c b -> ~ before c a.
Proof.
  intros H1 H2 H3. destruct (before_total a b) as [H|[->|H]]; auto. destruct (before_total b c) as [H'|[->|H']]; auto.
  apply (before_asym c a H3). now apply before_trans with b.
Qed.

(** ** Sorting *)
Lemma rbind_Ok {A B} (x : res A) (f : A -> res B) b : rbind x f = Ok b <-> exists a, x = Ok a /\ f a = Ok b.
Proof. destruct x as [a|]; cbn [rbind]; split; [now exists a|now intros (a' & [= <-] & H)|discriminate|now intros (a' & H & _)]. Qed.
Section SortFacts.
Context {A B : Type}.
Variable lt : value -> value -> res bool.
Lemma insert_perm (x : value * A) : forall l r, insert lt x l = Ok r -> Permutation (x :: l) r.
Proof.
  induction l as [|y l IH]; intros r H; cbn [insert] in H.
  - injection H as <-. apply Permutation_refl.
  - apply rbind_Ok in H as (b & _ & H). destruct b; [injection H as <-; apply Permutation_refl|].
    apply rbind_Ok in H as (r' & H & E'). injection E' as <-. etransitivity; [apply perm_swap|]. constructor. now apply IH.
Qed.
Lemma sort_perm : forall (l acc r : list (value * A)), sort_into lt acc l = Ok r -> Permutation (acc ++ l) r.
Proof.
  induction l as [|x l IH]; intros acc r H; cbn [sort_into] in H.
  - injection H as <-. now rewrite app_nil_r.
  - apply rbind_Ok in H as (acc' & Hi & H). apply IH in H. apply insert_perm in Hi. etransitivity; [|exact H].
    etransitivity; [symmetry; apply Permutation_middle|]. exact (Permutation_app_tail l Hi).
Qed.
Definition on_snd (g : A -> B) (kx : value * A) : value * B := (fst kx, g (snd kx)).
Definition res_map {X Y} (h : X -> Y) (r : res X) : res Y := match r with Ok a => Ok (h a) | Err e => Err e end.
Lemma insert_map (g : A -> B) x : forall l, insert lt (on_snd g x) (map (on_snd g) l) = res_map (map (on_snd g)) (insert lt x l).
Proof.
  induction l as [|y l IH]; [reflexivity|]. cbn [insert map]. cbn [on_snd fst]. destruct (lt (fst x) (fst y)) as [[|]|e]; cbn [rbind]; try reflexivity.
  rewrite IH. destruct (insert lt x l) as [r|e]; reflexivity.
Qed.
Lemma sort_map (g : A -> B) : forall l acc, sort_into lt (map (on_snd g) acc) (map (on_snd g) l) = res_map (map (on_snd g)) (sort_into lt acc l).
Proof.
  induction l as [|x l IH]; intros acc; [reflexivity|]. cbn [sort_into map]. rewrite insert_map.
  destruct (insert lt x acc) as [acc'|e]; cbn [res_map rbind]; [apply IH|reflexivity].
Qed.
End SortFacts.
Lemma items_map CT L {A B} (g : A -> B) d : items_of CT L (map (on_snd g) d) = res_map (map (on_snd g)) (items_of CT L d).
Proof. unfold items_of. destruct (ly_sort L); [apply (sort_map _ g d [])|reflexivity]. Qed.
Lemma items_perm CT L {A} (d r : list (value * A)) : items_of CT L d = Ok r -> Permutation d r.
Proof. unfold items_of. destruct (ly_sort L); [apply (sort_perm _ d [])|]. intros H. injection H as <-. apply Permutation_refl. Qed.
(** Keys that are strings *)
Section TextSort.
Context {A : Type}.
Variable CT : classes.
Variable L : layout.
Definition texted (kx : value * A) : Prop := exists s, text_key CT (fst kx) s.
Definition in_order (a b : value * A) : Prop := forall x y, text_key CT (fst a) x -> text_key CT (fst b) y -> ~ before y x.
Lemma text_lt a b x y : text_key CT a x -> text_key CT b y -> key_lt CT L a b = Ok (String.ltb x y).
Proof. unfold text_key, key_lt. now intros -> ->. Qed.
Lemma text_key_inj k s s' : text_key CT k s -> text_key CT k s' -> s = s'.
Proof. unfold text_key. intros -> H. now injection H. Qed.
Lemma insert_sorted x : texted x -> forall l, Forall texted l -> StronglySorted in_order l ->
  exists r, insert (key_lt CT L) x l = Ok r /\ StronglySorted in_order r.
Proof.
  intros [s Hs]. induction l as [|y l IH]; intros Ht Hl; cbn [insert].
  - exists [x]. split; [reflexivity|]. constructor; constructor.
  - inversion Ht as [|? ? [u Hu] Hrest]; subst. inversion Hl as [|? ? Hl' Hy]; subst. rewrite (text_lt _ _ s u Hs Hu). cbn [rbind].
    destruct (String.ltb s u) eqn:Hlt.
    + exists (x :: y :: l). split; [reflexivity|]. apply ltb_before in Hlt. constructor; [exact Hl|]. constructor.
      * intros a b Ha Hb. rewrite (text_key_inj _ _ _ Ha Hs), (text_key_inj _ _ _ Hb Hu). now apply before_asym.
      * rewrite Forall_forall in Hy, Hrest |- *. intros z Hz a b Ha Hb. rewrite (text_key_inj _ _ _ Ha Hs).
        apply (not_before_trans s u b); [now apply before_asym|]. exact (Hy z Hz _ _ Hu Hb).
    + destruct (IH Hrest Hl') as (r & Hr & Hsr). rewrite Hr. cbn [rbind]. exists (y :: r). split; [reflexivity|]. constructor; [exact Hsr|].
      apply insert_perm in Hr. rewrite Forall_forall in Hy |- *. intros z Hz. apply (Permutation_in _ (Permutation_sym Hr)) in Hz as [<-|Hz]; [|now apply Hy].
      intros a b Ha Hb. rewrite (text_key_inj _ _ _ Ha Hu), (text_key_inj _ _ _ Hb Hs). intros H. apply ltb_before in H. congruence.
Qed.
Lemma sort_sorted : forall l acc, Forall texted l -> Forall texted acc -> StronglySorted in_order acc ->
  exists r, sort_into (key_lt CT L) acc l = Ok r /\ StronglySorted in_order r.
Proof.
  induction l as [|x l IH]; intros acc Hl Ha Hs; cbn [sort_into]; [now exists acc|].
  inversion Hl as [|? ? Hx Hl']; subst. destruct (insert_sorted x Hx acc Ha Hs) as (acc' & Hi & Hs'). rewrite Hi. cbn [rbind].
  apply IH; auto. apply insert_perm in Hi. rewrite Forall_forall in Ha |- *. intros z Hz.
  apply (Permutation_in _ (Permutation_sym Hi)) in Hz as [<-|Hz]; auto.
Qed.
(** One result for all orders of the entries *)
Lemma sorted_unique : forall l l' : list (value * A), Permutation l l' -> Forall texted l ->
  (forall a b s, In a l -> In b l -> text_key CT (fst a) s -> text_key CT (fst b) s -> a = b) ->
  StronglySorted in_order l -> StronglySorted in_order l' -> l = l'.
Proof.
  induction l as [|x l IH]; intros l' Hp Ht Hd Hs Hs'; [now apply Permutation_nil in Hp|].
  destruct l' as [|y l']; [now apply Permutation_sym, Permutation_nil in Hp|].
  inversion Ht as [|? ? Htx Htl]; subst. inversion Hs as [|? ? Hsl Hx]; subst. inversion Hs' as [|? ? Hsl' Hy]; subst.
  rewrite Forall_forall in Hx, Hy.
  assert (Exy : x = y).
  { assert (Hxin : In x (y :: l')) by (apply (Permutation_in _ Hp); now left).
    assert (Hyin : In y (x :: l)) by (apply (Permutation_in _ (Permutation_sym Hp)); now left).
    destruct Hxin as [<-|Hxin]; [reflexivity|]. destruct Hyin as [<-|Hyin]; [reflexivity|].
    destruct Htx as (s & Hsx). rewrite Forall_forall in Htl. destruct (Htl _ Hyin) as (u & Hu).
    pose proof (Hx _ Hyin _ _ Hsx Hu) as H1. pose proof (Hy _ Hxin _ _ Hu Hsx) as H2.
    destruct (before_total s u) as [H|[->|H]]; try contradiction. apply (Hd x y u); auto; [now left|now right]. }
  subst y. f_equal. apply IH; auto.
  - now apply Permutation_cons_inv with x.
  - intros a b s Ha Hb. apply Hd; now right.
Qed.
End TextSort.
Lemma sort_canonical CT L {A} (l l' : list (value * A)) : Permutation l l' -> Forall (texted CT) l ->
  (forall a b s, In a l -> In b l -> text_key CT (fst a) s -> text_key CT (fst b) s -> a = b) ->
  sort_into (key_lt CT L) [] l = sort_into (key_lt CT L) [] l'.
Proof.
  intros Hp Ht Hd.
  assert (Ht' : Forall (texted CT) l').
  { rewrite Forall_forall in Ht |- *. intros z Hz. apply Ht. exact (Permutation_in _ (Permutation_sym Hp) Hz). }
  destruct (sort_sorted CT L l [] Ht (Forall_nil _) (SSorted_nil _)) as (r & Hr & Hs).
  destruct (sort_sorted CT L l' [] Ht' (Forall_nil _) (SSorted_nil _)) as (r' & Hr' & Hs').
  pose proof (sort_perm _ _ _ _ Hr) as P. pose proof (sort_perm _ _ _ _ Hr') as P'. cbn [app] in P, P'. rewrite Hr, Hr'. f_equal.
  apply (sorted_unique CT r r'); auto.
  - rewrite <- P, Hp. exact P'.
  - rewrite Forall_forall in Ht |- *. intros z Hz. apply Ht. exact (Permutation_in _ (Permutation_sym P) Hz).
  - intros a b s Ha Hb. apply Hd; now apply (Permutation_in _ (Permutation_sym P)).
Qed.
(** Strings and integers cannot be compared. *)
Section Mixed.
Context {A : Type}.
Variable CT : classes.
Variable L : layout.
Definition int_key (k : value) : Prop := exists z, scalar_of CT k = Some (VInt z).
Definition str_key (k : value) : Prop := exists s, text_key CT k s.
Lemma int_lt a b : int_key a -> int_key b -> exists c, key_lt CT L a b = Ok c.
Proof. unfold int_key, key_lt. intros [x ->] [y ->]. now eexists. Qed.
Lemma mixed_lt a b : int_key a /\ str_key b \/ str_key a /\ int_key b -> key_lt CT L a b = raise KType.
Proof. unfold int_key, str_key, text_key, key_lt. intros [[[x ->] [y ->]]|[[x ->] [y ->]]]; reflexivity. Qed.
Lemma insert_ok (P : value -> Prop) (x : value * A) : (forall a b, P a -> P b -> exists c, key_lt CT L a b = Ok c) -> P (fst x) ->
  forall l, Forall (fun y => P (fst y)) l -> exists r, insert (key_lt CT L) x l = Ok r.
Proof.
  intros HP Hx. induction l as [|y l IH]; intros Hl; cbn [insert]; [now eexists|]. inversion Hl as [|? ? Hy Hl']; subst.
  destruct (HP _ _ Hx Hy) as [[|] ->]; cbn [rbind]; [now eexists|]. destruct (IH Hl') as (r & ->). now eexists.
Qed.
Lemma sort_mixed : forall (l acc : list (value * A)), Forall (fun y => int_key (fst y) \/ str_key (fst y)) l ->
  acc <> [] ->
  (Forall (fun y => int_key (fst y)) acc /\ Exists (fun y => str_key (fst y)) l \/
   Forall (fun y => str_key (fst y)) acc /\ Exists (fun y => int_key (fst y)) l) ->
  sort_into (key_lt CT L) acc l = raise KType.
Proof.
  induction l as [|x l IH]; intros acc Hl Hn Hm; cbn [sort_into].
  - destruct Hm as [[_ H]|[_ H]]; inversion H.
  - inversion Hl as [|? ? Hx Hl']; subst. destruct acc as [|y acc]; [now elim Hn|].
    assert (NB : forall k, int_key k -> str_key k -> False) by (intros k [z Hz] [s Hs]; unfold text_key in Hs; congruence).
    assert (BAD : (int_key (fst x) /\ str_key (fst y) \/ str_key (fst x) /\ int_key (fst y)) ->
      rbind (insert (key_lt CT L) x (y :: acc)) (fun acc' => sort_into (key_lt CT L) acc' l) = raise KType).
    { intros H. cbn [insert]. rewrite (mixed_lt _ _ H). reflexivity. }
    destruct Hm as [[Ha He]|[Ha He]].
    + inversion Ha as [|? ? Hy _]; subst. destruct Hx as [Hx|Hx]; [|apply BAD; auto].
      destruct (insert_ok int_key x int_lt Hx _ Ha) as (r & Hr). rewrite Hr. cbn [rbind]. apply insert_perm in Hr. apply IH; auto.
      * intros ->. apply Permutation_sym, Permutation_nil in Hr. discriminate.
      * left. split.
        -- rewrite Forall_forall in Ha |- *. intros z Hz. apply (Permutation_in _ (Permutation_sym Hr)) in Hz as [<-|Hz]; auto.
        -- inversion He as [? ? Hs|? ? Hs]; subst; [|exact Hs]. exfalso. eauto.
    + inversion Ha as [|? ? Hy _]; subst. destruct Hx as [Hx|Hx]; [apply BAD; auto|].
      assert (SL : forall a b, str_key a -> str_key b -> exists c, key_lt CT L a b = Ok c).
      { intros a b [s Hs] [u Hu]. rewrite (text_lt CT L _ _ s u Hs Hu). now eexists. }
      destruct (insert_ok str_key x SL Hx _ Ha) as (r & Hr). rewrite Hr. cbn [rbind]. apply insert_perm in Hr. apply IH; auto.
      * intros ->. apply Permutation_sym, Permutation_nil in Hr. discriminate.
      * right. split.
        -- rewrite Forall_forall in Ha |- *. intros z Hz. apply (Permutation_in _ (Permutation_sym Hr)) in Hz as [<-|Hz]; auto.
        -- inversion He as [? ? Hs|? ? Hs]; subst; [|exact Hs]. exfalso. eauto.
Qed.
End Mixed.

(** ** Separators and lines *)
Lemma spaces_nil : spaces [].
Proof. constructor. Qed.
Lemma elements_trail T t l w : json_elements T t l -> spaces w -> json_elements T (t ++ w)%list l.
Proof.
  intros H Hw. induction H as [w0 t w' v H0 Ht H'|w0 t w' v ts vs H0 Ht H' Hr IH].
  - rewrite <- !app_assoc. apply je_last; auto. now apply spaces_app.
  - rewrite <- !app_assoc. now apply je_more.
Qed.
Lemma members_trail T t l w : json_members T t l -> spaces w -> json_members T (t ++ w)%list l.
Proof.
  intros H Hw. induction H as [w0 tk k w1 w2 t v w' H0 Hk H1 H2 Ht H'|w0 tk k w1 w2 t v w' ts kvs H0 Hk H1 H2 Ht H' Hr IH].
  - rewrite <- !app_assoc. apply jm_last; auto. now apply spaces_app.
  - rewrite <- !app_assoc. now apply jm_more.
Qed.
Lemma times_spaces n s : spaces (codes s) -> spaces (codes (times n s)).
Proof. intros H. induction n as [|n IH]; cbn [times]; [constructor|]. rewrite codes_app. now apply spaces_app. Qed.
Section Layout.
Variable T : textrt.
Variable CT : classes.
Variable L : layout.
Hypothesis HL : plain_layout L.
Lemma newline_spaces lvl : spaces (codes (newline L lvl)).
Proof using HL.
  unfold newline. destruct (ly_indent L) as [i|] eqn:Hi; [|constructor]. rewrite codes_cons. constructor; [right; right; left; reflexivity|].
  apply times_spaces. destruct i as [z|s]; cbn [indent_text].
  - apply times_spaces. constructor; [now left|constructor].
  - destruct HL as [_ H]. rewrite Hi in H. exact H.
Qed.
Lemma item_separates : separates 44 (item_separator L).
Proof using HL.
  unfold item_separator. destruct HL as [H _]. destruct (ly_separators L) as [[a b]|]; [apply H|].
  destruct (ly_indent L); [exists [], []|exists [], blank]; repeat split; try constructor; [now left|constructor].
Qed.
Lemma key_separates : separates 58 (key_separator L).
Proof using HL.
  unfold key_separator. destruct HL as [H _]. destruct (ly_separators L) as [[a b]|]; [apply H|].
  exists [], blank; repeat split; try constructor; [now left|constructor].
Qed.
Lemma full_separator lvl : separates 44 (item_separator L ++ newline L lvl).
Proof using HL.
  destruct item_separates as (w & w' & Hw & Hw' & H). exists w, (w' ++ codes (newline L lvl))%list.
  split; [exact Hw|]. split; [apply spaces_app; [exact Hw'|apply newline_spaces]|]. now rewrite codes_app, H, <- app_assoc.
Qed.
Lemma escape_raw_chars c : chars (codes (escape_raw c)) [Z.of_nat (code c)].
Proof.
  destruct c as [[|] [|] [|] [|] [|] [|] [|] [|]];
  match goal with |- chars ?x ?y => let x' := eval vm_compute in x in let y' := eval vm_compute in y in change (chars x' y') end;
  first [ apply ch_plain; [lia|lia|lia|constructor]
        | apply ch_escape; [cbn; tauto|constructor]
        | idtac ].
  all: match goal with |- chars [92; 117; ?a; ?b; ?c; ?d] [?u] =>
    let h x := (let y := eval vm_compute in (match hex_unit x with Some v => v | None => 0 end) in constr:(y)) in
    let a' := h a in let b' := h b in let c' := h c in let d' := h d in
    change [u] with [4096 * a' + 256 * b' + 16 * c' + d'];
    apply (ch_unit a b c d a' b' c' d' [] []); [hexv|hexv|hexv|hexv|constructor] end.
Qed.
Lemma string_text_json s : json_string T (codes (string_text L s)) s.
Proof.
  unfold string_text. destruct (ly_ascii L); [apply quoted_string|]. rewrite !codes_app.
  assert (H : chars (codes (sjoin "" (map escape_raw (list_ascii_of_string s)))) (codes s)).
  { induction s as [|c s IH]; [constructor|]. cbn [list_ascii_of_string map]. rewrite sjoin_nil_cons, codes_app, codes_cons.
    apply (chars_app _ [Z.of_nat (code c)]); [apply escape_raw_chars|exact IH]. }
  pose proof (js_string T _ _ _ H (low_points _ (codes_range s))) as J. now rewrite string_of_codes in J.
Qed.
Lemma elements_join_with sep ts vs : separates 44 sep -> Forall2 (fun t v => json_value T (codes t) v) ts vs -> ts <> [] ->
  json_elements T (codes (sjoin sep ts)) vs.
Proof.
  intros (w & w' & Hw & Hw' & Hsep) H. induction H as [|t v ts vs Hv Hr IH]; intros Hn; [now elim Hn|]. destruct ts as [|t2 ts].
  - inversion Hr; subst. cbn [sjoin]. rewrite <- (app_nil_r (codes t)). apply (je_last T [] (codes t) []); [constructor|exact Hv|constructor].
  - rewrite sjoin_cons2, !codes_app, Hsep. rewrite <- (app_assoc w). cbn [app].
    apply (je_more T [] (codes t) w v (w' ++ codes (sjoin sep (t2 :: ts)))%list); [constructor|exact Hv|exact Hw|].
    apply elements_spaces; [exact Hw'|]. apply IH. discriminate.
Qed.
Lemma members_join_with sep ts kvs : separates 44 sep ->
  Forall2 (fun t kv => exists tv, t = (string_text L (fst kv) ++ key_separator L ++ tv)%string /\ json_value T (codes tv) (snd kv)) ts kvs -> ts <> [] ->
  json_members T (codes (sjoin sep ts)) kvs.
Proof using HL.
  intros (w & w' & Hw & Hw' & Hsep) H. destruct key_separates as (a & b & Ha & Hb & Hks).
  induction H as [|t kv ts kvs Hv Hr IH]; intros Hn; [now elim Hn|]. destruct kv as [k v]. cbn [fst snd] in Hv.
  destruct Hv as (tv & -> & Hv). pose proof (string_text_json k) as Hk. destruct ts as [|t2 ts].
  - inversion Hr; subst. cbn [sjoin]. rewrite !codes_app, Hks. rewrite <- (app_assoc a). cbn [app].
    rewrite <- (app_nil_r (codes tv)). apply (jm_last T [] _ k a b (codes tv) v []); auto; constructor.
  - rewrite sjoin_cons2, !codes_app, Hks, Hsep. rewrite <- !app_assoc. cbn [app]. rewrite <- ?app_assoc. cbn [app].
    apply (jm_more T [] _ k a b (codes tv) v w (w' ++ codes (sjoin sep (t2 :: ts)))%list kvs); auto; try constructor.
    apply members_spaces; [exact Hw'|]. apply IH. discriminate.
Qed.

(** ** Every value *)
Lemma number_text_ok x s : number_text T L x = Ok s -> s = float_text T x.
Proof. unfold number_text. destruct x; try (now injection 1); destruct (ly_nan L); try discriminate; now injection 1. Qed.
Lemma key_with_name k s : key_text_with T CT L k = Ok (Some s) -> s = key_name T CT k /\ is_scalar CT k = true.
Proof.
  unfold key_text_with, key_name, is_scalar. destruct (scalar_of CT k) as [x|] eqn:Hx; [|destruct (ly_skip L); discriminate].
  pose proof (scalar_plain _ _ _ Hx) as Hp. destruct x; try destruct Hp; try (destruct b); try (intros H; injection H as <-; auto).
  intros H. apply rbind_Ok in H as (t & Ht & H). injection H as <-. apply number_text_ok in Ht. auto.
Qed.
Lemma key_with_none k : key_text_with T CT L k = Ok None -> is_scalar CT k = false.
Proof.
  unfold key_text_with, is_scalar. destruct (scalar_of CT k) as [x|] eqn:Hx; [|reflexivity].
  pose proof (scalar_plain _ _ _ Hx) as Hp. destruct x; try destruct Hp; try (destruct b); try discriminate.
  intros H. apply rbind_Ok in H as (t & _ & H). discriminate.
Qed.
Lemma scalar_with v s : compound v = false -> json_text T CT L 0 v = Ok s ->
  exists x, scalar_of CT v = Some x /\ json_image T CT v = x /\ ((forall y, x = VFloat y -> reads_back T y) -> json_value T (codes s) x).
Proof.
  intros Hc H. assert (Hs : scalar_text_with T CT L v = Ok s) by (destruct v; try discriminate Hc; exact H).
  assert (Hi : json_image T CT v = match scalar_of CT v with Some x => x | None => v end) by (destruct v; try discriminate Hc; reflexivity).
  rewrite Hi. unfold scalar_text_with in Hs. destruct (scalar_of CT v) as [x|] eqn:Hx; [|discriminate]. exists x. split; [reflexivity|]. split; [reflexivity|].
  intros Hf. pose proof (scalar_plain _ _ _ Hx) as Hp. destruct x; try destruct Hp.
  - injection Hs as <-. constructor.
  - destruct b; injection Hs as <-; constructor.
  - injection Hs as <-. apply str_int_text.
  - apply number_text_ok in Hs as ->. apply float_text_value. now apply Hf.
  - injection Hs as <-. constructor. apply string_text_json.
Qed.
Lemma json_text_scalar lvl v : compound v = false -> json_text T CT L lvl v = scalar_text_with T CT L v.
Proof. intros Hc. destruct v; try discriminate Hc; reflexivity. Qed.
Lemma bracketed_list lvl ts vs : Forall2 (fun t v => json_value T (codes t) v) ts vs -> ts <> [] ->
  json_value T (codes (bracketed L lvl "[" "]" ts)) (VList vs).
Proof using HL.
  intros H Hn. unfold bracketed. rewrite !codes_app.
  replace (codes "[" ++ codes (newline L (S lvl)) ++ codes (sjoin (item_separator L ++ newline L (S lvl)) ts) ++ codes (newline L lvl) ++ codes "]")%list
    with (codes "[" ++ (codes (newline L (S lvl)) ++ codes (sjoin (item_separator L ++ newline L (S lvl)) ts) ++ codes (newline L lvl)) ++ codes "]")%list
    by (now rewrite <- !app_assoc).
  apply jv_list. apply elements_spaces; [apply newline_spaces|]. apply elements_trail; [|apply newline_spaces].
  apply elements_join_with; auto. apply full_separator.
Qed.
Lemma bracketed_dict lvl ts kvs :
  Forall2 (fun t kv => exists tv, t = (string_text L (fst kv) ++ key_separator L ++ tv)%string /\ json_value T (codes tv) (snd kv)) ts kvs ->
  json_value T (codes (bracketed L lvl "{" "}" ts)) (VDict DkDict (dict_of kvs)).
Proof using HL.
  intros H. unfold bracketed. rewrite !codes_app.
  replace (codes "{" ++ codes (newline L (S lvl)) ++ codes (sjoin (item_separator L ++ newline L (S lvl)) ts) ++ codes (newline L lvl) ++ codes "}")%list
    with (codes "{" ++ (codes (newline L (S lvl)) ++ codes (sjoin (item_separator L ++ newline L (S lvl)) ts) ++ codes (newline L lvl)) ++ codes "}")%list
    by (now rewrite <- !app_assoc).
  destruct ts as [|t ts].
  - inversion H; subst. cbn [sjoin]. cbn [dict_of fold_left]. apply jv_empty_dict. apply spaces_app; [apply newline_spaces|]. cbn. apply newline_spaces.
  - apply jv_dict. apply members_spaces; [apply newline_spaces|]. apply members_trail; [|apply newline_spaces].
    apply members_join_with; [apply full_separator|exact H|discriminate].
Qed.
Lemma entries_done (g : value -> res string) : forall d ts, entries_text T CT L (map (on_snd g) d) = Ok ts ->
  Forall2 (fun t kx => exists tv, t = (string_text L (key_name T CT (fst kx)) ++ key_separator L ++ tv)%string /\ g (snd kx) = Ok tv) ts
    (filter (fun kx => is_scalar CT (fst kx)) d).
Proof.
  induction d as [|[k x] d IH]; intros ts H; cbn [map entries_text on_snd fst snd] in H.
  - injection H as <-. constructor.
  - apply rbind_Ok in H as ([s|] & Hk & H); cbn [filter fst].
    + apply key_with_name in Hk as [-> ->]. apply rbind_Ok in H as (t & Ht & H). apply rbind_Ok in H as (ts' & Hts & H). injection H as <-.
      constructor; [now exists t|now apply IH].
    + apply key_with_none in Hk as ->. now apply IH.
Qed.
Lemma rmap_list lvl l ts : rmap (json_text T CT L lvl) l = Ok ts ->
  (forall x, In x l -> forall s, json_text T CT L lvl x = Ok s ->
     exists x', arranged CT L x x' /\ json_value T (codes s) (json_image T CT x')) ->
  exists l', Forall2 (arranged CT L) l l' /\ Forall2 (fun t v => json_value T (codes t) v) ts (map (json_image T CT) l').
Proof.
  intros H. apply rmap_Forall2 in H. induction H as [|x t l ts Hx _ IH]; intros Hin.
  - exists []. split; constructor.
  - destruct IH as (l' & H1 & H2); [intros y Hy; apply Hin; now right|]. destruct (Hin x (or_introl eq_refl) t Hx) as (x' & Ha & Hj).
    exists (x' :: l'). cbn [map]. split; constructor; auto.
Qed.
Lemma list_text lvl l s : rbind (rmap (json_text T CT L (S lvl)) l) (fun ts => Ok (bracketed L lvl "[" "]" ts)) = Ok s -> l <> [] ->
  (forall x, In x l -> forall s, json_text T CT L (S lvl) x = Ok s ->
     exists x', arranged CT L x x' /\ json_value T (codes s) (json_image T CT x')) ->
  exists l', Forall2 (arranged CT L) l l' /\ json_value T (codes s) (VList (map (json_image T CT) l')).
Proof using HL.
  intros H Hn Hin. apply rbind_Ok in H as (ts & Hts & H). injection H as <-. destruct (rmap_list _ _ _ Hts Hin) as (l' & H1 & H2).
  exists l'. split; [exact H1|]. apply bracketed_list; [exact H2|]. destruct ts; [|discriminate]. inversion H2 as [Hl Hm|]. symmetry in Hm.
  apply map_eq_nil in Hm. subst l'. inversion H1. subst. now elim Hn.
Qed.
Lemma list_text_all (con : list value -> value) :
  (forall l l', Forall2 (arranged CT L) l l' -> arranged CT L (con l) (con l')) ->
  (forall l, json_image T CT (con l) = VList (map (json_image T CT) l)) ->
  (forall lvl l, json_text T CT L lvl (con l) = match l with [] => Ok "[]" | _ => rbind (rmap (json_text T CT L (S lvl)) l) (fun ts => Ok (bracketed L lvl "[" "]" ts)) end) ->
  forall l lvl s, json_text T CT L lvl (con l) = Ok s ->
  (forall x, In x l -> forall lvl s, json_text T CT L lvl x = Ok s ->
     exists x', arranged CT L x x' /\ json_value T (codes s) (json_image T CT x')) ->
  exists v', arranged CT L (con l) v' /\ json_value T (codes s) (json_image T CT v').
Proof using HL.
  intros Ha Hi Ht l lvl s H Hin. rewrite Ht in H. destruct l as [|x l].
  - injection H as <-. exists (con []). split; [apply Ha; constructor|]. rewrite Hi. apply (jv_empty_list T []). constructor.
  - apply list_text in H as (l' & H1 & H2); [|discriminate|intros y Hy; now apply Hin]. exists (con l'). split; [now apply Ha|]. now rewrite Hi.
Qed.
Lemma items_sorted d d1 : items_of CT L d = Ok d1 -> ly_sort L = true -> (forall kx, In kx d -> exists s, text_key CT (fst kx) s) ->
  StronglySorted (ordered CT) d1.
Proof.
  unfold items_of. intros H Hs Ht. rewrite Hs in H.
  destruct (sort_sorted CT L d [] (proj2 (Forall_forall _ _) Ht) (Forall_nil _) (SSorted_nil _)) as (r & Hr & G). rewrite Hr in H. injection H as <-. exact G.
Qed.
Theorem json_text_value v : forall lvl s, json_text T CT L lvl v = Ok s -> floats_read_back T CT v ->
  exists v', arranged CT L v v' /\ json_value T (codes s) (json_image T CT v').
Proof using HL.
  induction v using value_ind'; intros lvl out HH Hf;
  try (match goal with |- exists v', arranged _ _ ?v v' /\ _ =>
    rewrite (json_text_scalar lvl v eq_refl), <- (json_text_scalar 0 v eq_refl) in HH;
    destruct (scalar_with v out eq_refl HH) as (sc0 & Hx & Hi & HJ); exists v; split; [constructor; discriminate|];
    rewrite Hi; apply HJ; intros y Hy; rewrite Hy in Hx; apply (Hf v); [constructor|exact Hx] end).
  - match goal with H : Forall _ l |- _ => rename H into IH end. rewrite Forall_forall in IH.
    apply (list_text_all VList) with (l := l) (lvl := lvl); [intros ? ? FF; exact (ar_list CT L _ _ FF)|reflexivity|intros ? [|? ?]; reflexivity|exact HH|].
    intros x Hx lv s Hs. apply (IH x Hx lv s Hs). intros w y Hw. apply Hf. now apply po_list with x.
  - match goal with H : Forall _ l |- _ => rename H into IH end. rewrite Forall_forall in IH.
    apply (list_text_all VTuple) with (l := l) (lvl := lvl); [intros ? ? FF; exact (ar_tuple CT L _ _ FF)|reflexivity|intros ? [|? ?]; reflexivity|exact HH|].
    intros x Hx lv s Hs. apply (IH x Hx lv s Hs). intros w y Hw. apply Hf. now apply po_tuple with x.
  - match goal with H : Forall _ d |- _ => rename H into IH end. rewrite Forall_forall in IH.
    destruct d as [|kx0 d0] eqn:Hd.
    + injection HH as <-. exists (VDict k []). split.
      * apply (ar_dict CT L k [] [] []); auto; constructor.
      * apply (jv_empty_dict T []). constructor.
    + rewrite <- Hd in *. assert (HT : json_text T CT L lvl (VDict k d) =
        rbind (items_of CT L (map (on_snd (json_text T CT L (S lvl))) d)) (fun items =>
        rbind (entries_text T CT L items) (fun ts => Ok (bracketed L lvl "{" "}" ts)))) by (rewrite Hd; reflexivity).
      rewrite HT in HH. clear HT. rewrite items_map in HH. destruct (items_of CT L d) as [d1|] eqn:Hit; cbn [res_map rbind] in HH; [|discriminate].
      apply rbind_Ok in HH as (ts & Hts & HH). injection HH as <-. apply entries_done in Hts. pose proof (items_perm _ _ _ _ Hit) as Hp.
      assert (Hin : forall kx, In kx (filter (fun kx => is_scalar CT (fst kx)) d1) -> In kx d).
      { intros kx Hkx. apply filter_In in Hkx as [Hkx _]. exact (Permutation_in _ (Permutation_sym Hp) Hkx). }
      assert (G : exists d', Forall2 (fun a b => fst a = fst b /\ arranged CT L (snd a) (snd b)) (filter (fun kx => is_scalar CT (fst kx)) d1) d' /\
        Forall2 (fun t kv => exists tv, t = (string_text L (fst kv) ++ key_separator L ++ tv)%string /\ json_value T (codes tv) (snd kv)) ts
          (map (fun kx => (key_name T CT (fst kx), json_image T CT (snd kx))) d')).
      { revert Hin. clear Hp Hit Hd. induction Hts as [|t [y x] ts dd (tv & -> & Htv) _ IHl]; intros Hin; [exists []; split; constructor|].
        destruct IHl as (d' & G1 & G2); [intros z Hz; apply Hin; now right|]. cbn [fst snd] in Htv |- *.
        assert (Hyx : In (y, x) d) by (apply Hin; now left).
        destruct (proj2 (IH _ Hyx) _ _ Htv) as (x' & Hx1 & Hx2). { intros w z Hw. apply Hf. now apply po_dict with y x. }
        exists ((y, x') :: d'). cbn [map fst snd]. split; constructor; auto. exists tv. auto. }
      destruct G as (d' & G1 & G2). exists (VDict k d'). split.
      * apply (ar_dict CT L k d d1 d'); auto.
        -- unfold items_of in Hit. intros Hs. rewrite Hs in Hit. now injection Hit.
        -- intros Hs Ht. now apply (items_sorted d d1).
      * cbn [json_image]. now apply bracketed_dict.
  - match goal with H : Forall _ l |- _ => rename H into IH end. rewrite Forall_forall in IH.
    apply (list_text_all (VNT c)) with (l := l) (lvl := lvl); [intros ? ? FF; exact (ar_namedtuple CT L c _ _ FF)|reflexivity|intros ? [|? ?]; reflexivity|exact HH|].
    intros x Hx lv s Hs. apply (IH x Hx lv s Hs). intros w y Hw. apply Hf. now apply po_namedtuple with x.
Qed.
End Layout.
