(** * Facts about the Python base layer *)
From Verif Require Import PyBase.
Local Open Scope string_scope.

(** Prove a boolean-valued statement about a character by running through all 256. *)
Ltac ascii_cases c :=
  destruct c as [[|] [|] [|] [|] [|] [|] [|] [|]]; try reflexivity; try discriminate;
  try (intros; discriminate); try (intros; reflexivity).

Lemma to_lower_idem c : to_lower (to_lower c) = to_lower c.
Proof. ascii_cases c. Qed.
Lemma to_upper_idem c : to_upper (to_upper c) = to_upper c.
Proof. ascii_cases c. Qed.
Lemma upper_to_lower c : to_upper (to_lower c) = to_upper c.
Proof. ascii_cases c. Qed.
Lemma lower_to_upper c : to_lower (to_upper c) = to_lower c.
Proof. ascii_cases c. Qed.
Lemma to_lower_not_upper c : is_upper (to_lower c) = false.
Proof. ascii_cases c. Qed.
Lemma to_upper_not_lower c : is_lower (to_upper c) = false.
Proof. ascii_cases c. Qed.
Lemma to_lower_of_not_upper c : is_upper c = false -> to_lower c = c.
Proof. unfold to_lower; intros ->; reflexivity. Qed.
Lemma to_upper_of_not_lower c : is_lower c = false -> to_upper c = c.
Proof. unfold to_upper; intros ->; reflexivity. Qed.
Lemma lower_is_not_upper c : is_lower c = true -> is_upper c = false.
Proof. ascii_cases c. Qed.
Lemma upper_is_not_lower c : is_upper c = true -> is_lower c = false.
Proof. ascii_cases c. Qed.
Lemma to_upper_of_lower c : is_lower c = true -> is_upper (to_upper c) = true.
Proof. ascii_cases c. Qed.
Lemma to_lower_of_upper c : is_upper c = true -> is_lower (to_lower c) = true.
Proof. ascii_cases c. Qed.
Lemma lower_upper_of_lower c : is_lower c = true -> to_lower (to_upper c) = c.
Proof. ascii_cases c. Qed.
Lemma is_cased_to_lower c : is_cased (to_lower c) = is_cased c.
Proof. ascii_cases c. Qed.
Lemma is_cased_to_upper c : is_cased (to_upper c) = is_cased c.
Proof. ascii_cases c. Qed.
Lemma lower_is_cased c : is_lower c = true -> is_cased c = true.
Proof. unfold is_cased; intros ->; apply orb_true_r. Qed.
Lemma to_lower_eqb_us c : Ascii.eqb (to_lower c) "_" = Ascii.eqb c "_".
Proof. ascii_cases c. Qed.
Lemma to_lower_eqb_dash c : Ascii.eqb (to_lower c) "-" = Ascii.eqb c "-".
Proof. ascii_cases c. Qed.
Lemma to_upper_eqb_us c : Ascii.eqb (to_upper c) "_" = Ascii.eqb c "_".
Proof. ascii_cases c. Qed.
Lemma to_upper_eqb_dash c : Ascii.eqb (to_upper c) "-" = Ascii.eqb c "-".
Proof. ascii_cases c. Qed.
Lemma lower_not_us c : is_lower c = true -> Ascii.eqb c "_" = false.
Proof. ascii_cases c. Qed.
Lemma lower_not_dash c : is_lower c = true -> Ascii.eqb c "-" = false.
Proof. ascii_cases c. Qed.

(** ** Strings *)

Lemma sapp_assoc (a b c : string) : (a ++ b) ++ c = a ++ (b ++ c).
Proof. induction a as [|x a IH]; simpl; [reflexivity | now rewrite IH]. Qed.
Lemma sapp_nil_r (a : string) : a ++ "" = a.
Proof. induction a as [|x a IH]; simpl; [reflexivity | now rewrite IH]. Qed.
Lemma slength_app (a b : string) : String.length (a ++ b) = String.length a + String.length b.
Proof. induction a as [|x a IH]; simpl; [reflexivity | now rewrite IH]. Qed.

Lemma smap_app f a b : smap f (a ++ b) = smap f a ++ smap f b.
Proof. induction a as [|x a IH]; simpl; [reflexivity | now rewrite IH]. Qed.
Lemma smap_ext f g s : (forall c, f c = g c) -> smap f s = smap g s.
Proof. intros H; induction s as [|x s IH]; simpl; [reflexivity | now rewrite H, IH]. Qed.
Lemma smap_smap f g s : smap f (smap g s) = smap (fun c => f (g c)) s.
Proof. induction s as [|x s IH]; simpl; [reflexivity | now rewrite IH]. Qed.
Lemma smap_id_on f p s : (forall c, p c = true -> f c = c) -> sforall p s = true -> smap f s = s.
Proof.
  intros H; induction s as [|x s IH]; simpl; [reflexivity|].
  intros Hp; apply andb_prop in Hp as [Hx Hs]; now rewrite (H _ Hx), IH.
Qed.
Lemma slength_smap f s : String.length (smap f s) = String.length s.
Proof. induction s as [|x s IH]; simpl; [reflexivity | now rewrite IH]. Qed.

Lemma sforall_app p a b : sforall p (a ++ b) = sforall p a && sforall p b.
Proof. induction a as [|x a IH]; simpl; [reflexivity | now rewrite IH, andb_assoc]. Qed.
Lemma sforall_smap p f s : sforall p (smap f s) = sforall (fun c => p (f c)) s.
Proof. induction s as [|x s IH]; simpl; [reflexivity | now rewrite IH]. Qed.
Lemma sforall_impl (p q : ascii -> bool) s :
  (forall c, p c = true -> q c = true) -> sforall p s = true -> sforall q s = true.
Proof.
  intros H; induction s as [|x s IH]; simpl; [reflexivity|].
  intros Hp; apply andb_prop in Hp as [Hx Hs]; now rewrite (H _ Hx), IH.
Qed.
Lemma sforall_all (p : ascii -> bool) s : (forall c, p c = true) -> sforall p s = true.
Proof. intros H; induction s as [|x s IH]; simpl; [reflexivity|]. now rewrite H. Qed.
Lemma sforall_In p s :
  sforall p s = true <-> (forall c, In c (list_ascii_of_string s) -> p c = true).
Proof.
  induction s as [|x s IH]; simpl; [split; [intros _ c []|reflexivity]|].
  rewrite andb_true_iff, IH; split.
  - intros [Hx Hs] c [<-|Hc]; auto.
  - intros H; split; [apply H; now left | intros c Hc; apply H; now right].
Qed.
Lemma sforall_and p q s : sforall (fun c => p c && q c) s = sforall p s && sforall q s.
Proof.
  induction s as [|x s IH]; simpl; [reflexivity|]. rewrite IH.
  destruct (p x), (q x), (sforall p s), (sforall q s); reflexivity.
Qed.

Lemma sforall_ext p q s : (forall c, p c = q c) -> sforall p s = sforall q s.
Proof. intros H; induction s as [|x s IH]; simpl; [reflexivity | now rewrite H, IH]. Qed.

Lemma smem_false c s : smem c s = false <-> sforall (fun x => negb (Ascii.eqb x c)) s = true.
Proof. unfold smem, sexists. destruct (sforall _ s); simpl; split; congruence. Qed.

Lemma ssplit_nonempty c s : ssplit c s <> [].
Proof.
  destruct s as [|x s]; simpl; [discriminate|].
  destruct (Ascii.eqb x c); [discriminate|]. destruct (ssplit c s); discriminate.
Qed.

(** Splitting a string without the separator. *)
Lemma ssplit_none c s : smem c s = false -> ssplit c s = [s].
Proof.
  rewrite smem_false. induction s as [|x s IH]; simpl; [reflexivity|].
  rewrite andb_true_iff; intros [Hx Hs]. apply negb_true_iff in Hx. rewrite Hx, (IH Hs).
  reflexivity.
Qed.

Lemma ssplit_app_sep c a b :
  smem c a = false -> ssplit c (a ++ String c b) = a :: ssplit c b.
Proof.
  rewrite smem_false. induction a as [|x a IH]; simpl.
  - intros _. now rewrite Ascii.eqb_refl.
  - rewrite andb_true_iff; intros [Hx Ha]. apply negb_true_iff in Hx. now rewrite Hx, (IH Ha).
Qed.

Lemma ssplit_single_iff c s : List.length (ssplit c s) = 1 <-> smem c s = false.
Proof.
  split; [|intros H; now rewrite ssplit_none].
  rewrite smem_false. induction s as [|x s IH]; simpl; [reflexivity|].
  pose proof (ssplit_nonempty c s) as Hne.
  destruct (Ascii.eqb x c) eqn:E; simpl.
  - destruct (ssplit c s); simpl; [congruence|discriminate].
  - destruct (ssplit c s) as [|w ws] eqn:Es; [congruence|]. simpl in *. intros H. now apply IH.
Qed.

Lemma ssplit_sjoin c ws :
  ws <> [] -> Forall (fun w => smem c w = false) ws ->
  ssplit c (sjoin (String c EmptyString) ws) = ws.
Proof.
  intros Hne HF. induction HF as [|w ws Hw HF IH]; [congruence|].
  destruct ws as [|w2 ws]; simpl.
  - now apply ssplit_none.
  - rewrite ssplit_app_sep by assumption. f_equal. apply IH. discriminate.
Qed.

(** The pieces of a split contain no separator, and their concatenation drops it. *)
Lemma ssplit_pieces_free c s : Forall (fun w => smem c w = false) (ssplit c s).
Proof.
  induction s as [|x s IH]; simpl; [constructor; [reflexivity|constructor]|].
  destruct (Ascii.eqb x c) eqn:E; [constructor; [reflexivity|assumption]|].
  destruct (ssplit c s) as [|w ws]; [constructor; [|constructor]|].
  - rewrite smem_false; simpl; now rewrite E.
  - inversion IH as [|? ? Hw Hws]; subst. constructor; [|assumption].
    rewrite smem_false in *; simpl. now rewrite E, Hw.
Qed.

Lemma ssplit_pieces_forall p c s :
  sforall p s = true -> Forall (fun w => sforall p w = true) (ssplit c s).
Proof.
  induction s as [|x s IH]; simpl; [intros _; constructor; [reflexivity|constructor]|].
  rewrite andb_true_iff; intros [Hx Hs]. specialize (IH Hs).
  destruct (Ascii.eqb x c); [constructor; [reflexivity|assumption]|].
  destruct (ssplit c s) as [|w ws]; [constructor; [simpl; now rewrite Hx|constructor]|].
  inversion IH as [|? ? Hw Hws]; subst. constructor; [simpl; now rewrite Hx, Hw|assumption].
Qed.

Lemma stitle_go_forall p b s :
  (forall c, p c = true -> p (to_lower c) = true) ->
  (forall c, p c = true -> p (to_upper c) = true) ->
  sforall p s = true -> sforall p (stitle_go b s) = true.
Proof.
  intros HL HU. revert b; induction s as [|x s IH]; intros b; simpl; [reflexivity|].
  rewrite andb_true_iff; intros [Hx Hs]. rewrite (IH _ Hs), andb_true_r.
  destruct b; auto.
Qed.

Lemma slength_stitle_go b s : String.length (stitle_go b s) = String.length s.
Proof. revert b; induction s as [|x s IH]; intros b; simpl; [reflexivity | now rewrite IH]. Qed.

Lemma sjoin_nil_cons w ws : sjoin "" (w :: ws) = w ++ sjoin "" ws.
Proof. destruct ws; simpl; [now rewrite sapp_nil_r | reflexivity]. Qed.

Lemma sjoin_nil_forall p ws :
  Forall (fun w => sforall p w = true) ws -> sforall p (sjoin "" ws) = true.
Proof.
  induction 1 as [|w ws Hw HF IH]; [reflexivity|].
  rewrite sjoin_nil_cons, sforall_app, Hw, IH. reflexivity.
Qed.

(** ** Dicts *)

Section AssocFacts.
  Context {K V : Type} (eqb : K -> K -> bool).
  Hypothesis eqb_spec : forall a b, eqb a b = true <-> a = b.

  Lemma aget_aset_same k (v : V) d : aget eqb k (aset eqb k v d) = Some v.
  Proof.
    assert (R : eqb k k = true) by now apply eqb_spec.
    induction d as [|[k' v'] d IH]; simpl; [now rewrite R|].
    destruct (eqb k k') eqn:E; simpl; rewrite E; auto.
  Qed.
  Lemma aget_aset_other k k' (v : V) d :
    k <> k' -> aget eqb k (aset eqb k' v d) = aget eqb k d.
  Proof.
    intros Hne. assert (N : eqb k k' = false).
    { destruct (eqb k k') eqn:E; [apply eqb_spec in E; contradiction|reflexivity]. }
    induction d as [|[k2 v2] d IH]; simpl; [now rewrite N|].
    destruct (eqb k' k2) eqn:E; simpl.
    - apply eqb_spec in E as <-. now rewrite N.
    - destruct (eqb k k2); auto.
  Qed.
  Lemma aget_In k (v : V) d : aget eqb k d = Some v -> In (k, v) d.
  Proof.
    induction d as [|[k' v'] d IH]; simpl; [discriminate|].
    destruct (eqb k k') eqn:E; [|auto].
    apply eqb_spec in E as <-. intros [= ->]; now left.
  Qed.
  Lemma aget_None k (d : list (K * V)) : aget eqb k d = None <-> ~ In k (map fst d).
  Proof.
    induction d as [|[k' v'] d IH]; simpl; [tauto|].
    destruct (eqb k k') eqn:E.
    - apply eqb_spec in E as <-. split; [discriminate|tauto].
    - rewrite IH. split; [intros H [<-|Hin]; [|tauto]|tauto].
      assert (eqb k' k' = true) by now apply eqb_spec. congruence.
  Qed.
  Lemma aget_NoDup k (v : V) d : NoDup (map fst d) -> In (k, v) d -> aget eqb k d = Some v.
  Proof.
    induction d as [|[k' v'] d IH]; simpl; [intros _ []|].
    intros ND [Heq|Hin]; inversion ND as [|? ? Hnin ND']; subst.
    - injection Heq as -> ->. now rewrite (proj2 (eqb_spec k k) eq_refl).
    - destruct (eqb k k') eqn:E; [|auto].
      apply eqb_spec in E as <-. exfalso; apply Hnin. now apply (in_map fst) in Hin.
  Qed.
  Lemma aset_new k (v : V) d : ~ In k (map fst d) -> aset eqb k v d = (d ++ [(k, v)])%list.
  Proof.
    induction d as [|[k' v'] d IH]; simpl; [reflexivity|]. intros Hn.
    destruct (eqb k k') eqn:E.
    - apply eqb_spec in E as <-. tauto.
    - rewrite IH; tauto.
  Qed.
  Lemma aset_keys_In k k' (v : V) d : In k (map fst (aset eqb k' v d)) <-> k = k' \/ In k (map fst d).
  Proof.
    induction d as [|[k2 v2] d IH]; simpl; [intuition congruence|].
    destruct (eqb k' k2) eqn:E; simpl.
    - apply eqb_spec in E as <-. intuition congruence.
    - rewrite IH. intuition congruence.
  Qed.
  Lemma aset_NoDup k (v : V) d : NoDup (map fst d) -> NoDup (map fst (aset eqb k v d)).
  Proof.
    induction d as [|[k2 v2] d IH]; simpl; [intros _; constructor; [tauto|constructor]|].
    intros ND; inversion ND as [|? ? Hn ND']; subst.
    destruct (eqb k k2) eqn:E; simpl; [now constructor|].
    constructor; [|auto]. rewrite aset_keys_In. intros [->|H]; [|tauto].
    rewrite (proj2 (eqb_spec k k) eq_refl) in E; discriminate.
  Qed.
  Lemma aget_adel_same k (d : list (K * V)) : NoDup (map fst d) -> aget eqb k (adel eqb k d) = None.
  Proof.
    induction d as [|[k2 v2] d IH]; simpl; [reflexivity|].
    intros ND; inversion ND as [|? ? Hn ND']; subst.
    destruct (eqb k k2) eqn:E; simpl.
    - apply eqb_spec in E as <-. now apply aget_None.
    - rewrite E. auto.
  Qed.
  Lemma aget_adel_other k k' (d : list (K * V)) :
    k <> k' -> aget eqb k (adel eqb k' d) = aget eqb k d.
  Proof.
    intros Hne. induction d as [|[k2 v2] d IH]; simpl; [reflexivity|].
    destruct (eqb k' k2) eqn:E; simpl.
    - apply eqb_spec in E as <-. destruct (eqb k k') eqn:E2; [|reflexivity].
      apply eqb_spec in E2; contradiction.
    - destruct (eqb k k2); auto.
  Qed.
End AssocFacts.

Lemma streqb_spec a b : String.eqb a b = true <-> a = b.
Proof. apply String.eqb_eq. Qed.
Lemma sget_sset_same {V} k (v : V) d : sget k (sset k v d) = Some v.
Proof. apply aget_aset_same, streqb_spec. Qed.
Lemma sget_sset_other {V} k k' (v : V) d : k <> k' -> sget k (sset k' v d) = sget k d.
Proof. apply aget_aset_other, streqb_spec. Qed.
Lemma sget_None {V} k (d : list (string * V)) : sget k d = None <-> ~ In k (map fst d).
Proof. apply aget_None, streqb_spec. Qed.
Lemma sget_In {V} k (v : V) d : sget k d = Some v -> In (k, v) d.
Proof. apply aget_In, streqb_spec. Qed.
Lemma sget_NoDup {V} k (v : V) d : NoDup (map fst d) -> In (k, v) d -> sget k d = Some v.
Proof. apply aget_NoDup, streqb_spec. Qed.
Lemma shas_In {V} k (d : list (string * V)) : shas k d = true <-> In k (map fst d).
Proof.
  unfold shas, amem. destruct (aget String.eqb k d) eqn:E.
  - split; [intros _|reflexivity]. apply sget_In in E. now apply (in_map fst) in E.
  - split; [discriminate|]. apply sget_None in E. contradiction.
Qed.
Lemma mem_str_In k l : mem_str k l = true <-> In k l.
Proof.
  unfold mem_str. rewrite existsb_exists. split.
  - intros [x [Hx E]]. apply String.eqb_eq in E as ->. assumption.
  - intros H; exists k; split; [assumption | apply String.eqb_refl].
Qed.
