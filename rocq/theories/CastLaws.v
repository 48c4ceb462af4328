(** * Laws of load for int, float, bool and str *)
From Coq Require Import Lia.
From Verif Require Import CastSpec CastProofs PyBaseFacts EngineFacts DumpLaws LoadSpec LoadFacts LoadLaws LoadObject LoadTypes LeafLaws.
Local Close Scope Z_scope.
Local Open Scope string_scope.

(** ** Load as a result *)
Definition prim_value (E : env) (p : prim) (j : value) : res value :=
  match p with
  | PStr => dor s <- py_str (e_rt E) j; Ok (VStr s)
  | _ => deser_primitive E (TPrim p) j
  end.
Lemma json_input_facts j : json_input j -> no_meta_entry j /\ j <> VNone /\ valid_type j = true.
Proof.
  intros H. destruct H; (split; [|split; [discriminate|reflexivity]]); try (intros ? ? ? X; discriminate X). assumption.
Qed.
Lemma same_prim p j : class_of j = TPrim p -> forall E, prim_value E p j = Ok j.
Proof.
  intros H E. destruct j; cbn [class_of] in H; try discriminate; try (injection H as <-; reflexivity).
  all: match type of H with match ?x with _ => _ end = _ => destruct x; discriminate H | _ => idtac end.
Qed.
Lemma load_prim E n f o p j : default_deserializers E f -> json_input j ->
  snd (load E (S n) f o (Some (TPrim p)) j) = load_result E f (TPrim p) (prim_value E p j).
Proof.
  intros HD Hj. destruct (json_input_facts _ Hj) as (Hm & Hn & Hv).
  destruct (lo_strict o) eqn:Hs; [|destruct (ty_eqb (class_of j) (TPrim p)) eqn:He].
  2: { apply ty_eqb_eq in He. rewrite (same_prim _ _ He). cbn [load]. unfold load_step.
       assert (is_none j = false) as -> by (destruct j; congruence || reflexivity). rewrite bind_ret_l.
       rewrite Hs. cbn [same_type negb andb]. rewrite He, ty_eqb_refl. cbn [orb]. unfold load_result.
       destruct (validate E f j (TPrim p)) as [[]|e] eqn:Ev; reflexivity. }
  all: rewrite (load_run E n f o (TPrim p) j (prim_handler p));
    [|exact I|assumption|assumption|assumption| |now rewrite HD, deser_prim].
  2: now left. 3: { right. now apply ty_eqb_neq. }
  all: destruct p; cbn [prim_handler deser_step prim_value]; try apply wrap_lift.
  all: unfold deser_string; rewrite ty_eqb_refl; cbn [child_opts set_inferred lo_inferred negb andb]; apply wrap_lift.
Qed.

(** ** The cast *)
Lemma truthy_falsy R j : json_input j -> (truthy R j = false <-> falsy j).
Proof.
  intros H. destruct H as [b|z|x|s|l|d Hd]; cbn [truthy].
  - split; [intros ->; constructor|now inversion 1].
  - destruct (Z.eqb_spec z 0) as [->|Hz]; cbn [negb]; (split; [try discriminate; intros _; constructor|inversion 1; congruence]).
  - destruct x as [m e| | |].
    + destruct (Z.eqb_spec m 0) as [->|Hz]; cbn [negb]; (split; [try discriminate; intros _; now constructor|]);
        inversion 1 as [| |x Hx| | |]; subst; [reflexivity|]. cbn [is_zero] in Hx. apply Z.eqb_eq in Hx. congruence.
    + split; [intros _; now constructor|reflexivity].
    + split; [discriminate|]. inversion 1 as [| |x Hx| | |]; discriminate.
    + split; [discriminate|]. inversion 1 as [| |x Hx| | |]; discriminate.
  - destruct (String.eqb_spec s "") as [->|Hs]; cbn [negb]; (split; [try discriminate; intros _; constructor|inversion 1; congruence]).
  - destruct l; cbn [length Nat.eqb negb]; (split; [try discriminate; intros _; constructor|now inversion 1]).
  - destruct d; cbn [length Nat.eqb negb]; (split; [try discriminate; intros _; constructor|now inversion 1]).
Qed.
Lemma prim_value_bool E j : json_input j -> exists b, prim_value E PBool j = Ok (VBool b) /\ (b = false <-> falsy j).
Proof.
  intros H. exists (truthy (e_rt E) j). split; [|now apply truthy_falsy]. destruct H; reflexivity.
Qed.
Lemma prim_value_casts E p j v : json_input j -> prim_value E p j = Ok v -> casts (e_rt E) p j v.
Proof.
  intros Hj H. destruct p.
  - cbn [prim_value] in H. destruct Hj as [b|z|x|s|l|d Hd]; cbn [py_str rbind] in H.
    + injection H as <-. constructor.
    + injection H as <-. constructor. apply str_int_decimal.
    + destruct (rt_str (e_rt E) (VFloat x)) as [s|] eqn:Hs; [|discriminate]. injection H as <-. now constructor.
    + injection H as <-. constructor.
    + destruct (rt_str (e_rt E) (VList l)) as [s|] eqn:Hs; [|discriminate]. injection H as <-. now constructor.
    + destruct (rt_str (e_rt E) (VDict DkDict d)) as [s|] eqn:Hs; [|discriminate]. injection H as <-. now constructor.
  - cbn [prim_value] in H. destruct Hj as [b|z|x|s|l|d Hd]; unfold deser_primitive in H.
    + injection H as <-. constructor.
    + injection H as <-. constructor.
    + change (is_instance (e_ct E) (VFloat x) (TPrim PInt)) with (@Ok bool false) in H. cbn [rbind cast py_to_int] in H.
      destruct (int_of_float x) as [z|] eqn:Hz; [|discriminate]. injection H as <-. constructor. now apply int_of_float_truncates.
    + change (is_instance (e_ct E) (VStr s) (TPrim PInt)) with (@Ok bool false) in H. cbn [rbind cast py_to_int] in H.
      destruct (py_int s) as [z|] eqn:Hz; [|discriminate]. injection H as <-. constructor. now apply py_int_iff.
    + discriminate.
    + discriminate.
  - cbn [prim_value] in H. destruct Hj as [b|z|x|s|l|d Hd]; unfold deser_primitive in H.
    + destruct b; injection H as <-; refine (ca_float_bool _ _).
    + change (is_instance (e_ct E) (VInt z) (TPrim PFloat)) with (@Ok bool false) in H. cbn [rbind cast py_to_float] in H.
      destruct (float_of_int z) as [x|] eqn:Hx; [|discriminate]. injection H as <-.
      apply float_of_int_nearest in Hx as (Hb & m & e & -> & Hn). now constructor.
    + injection H as <-. constructor.
    + change (is_instance (e_ct E) (VStr s) (TPrim PFloat)) with (@Ok bool false) in H. cbn [rbind cast py_to_float] in H.
      destruct (rt_float (e_rt E) (VStr s)) as [x|] eqn:Hx; [|discriminate]. injection H as <-. now constructor.
    + discriminate.
    + discriminate.
  - destruct (prim_value_bool E j Hj) as (b & Hb & Hf). rewrite Hb in H. injection H as <-. now constructor.
Qed.
Lemma prim_value_none E p j e : json_input j -> prim_value E p j = Err e -> forall v, ~ casts (e_rt E) p j v.
Proof.
  intros Hj H v Hv. destruct p.
  - cbn [prim_value] in H. inversion Hv; subst; try discriminate H.
    destruct Hj; cbn [py_str rbind] in H; try congruence;
      match goal with X : rt_str _ _ = Ok _ |- _ => rewrite X in H; discriminate H end.
  - cbn [prim_value] in H. unfold deser_primitive in H. inversion Hv as [z0|b|x z Ht|s z Hl| | | | | | | | |]; subst; try discriminate H.
    + change (is_instance (e_ct E) (VFloat x) (TPrim PInt)) with (@Ok bool false) in H. cbn [rbind cast py_to_int] in H.
      destruct (int_of_float x) as [z'|] eqn:Hz; [discriminate|]. exact (int_of_float_fails _ _ Hz z Ht).
    + change (is_instance (e_ct E) (VStr s) (TPrim PInt)) with (@Ok bool false) in H. cbn [rbind cast py_to_int] in H.
      apply py_int_iff in Hl. rewrite Hl in H. discriminate.
  - cbn [prim_value] in H. unfold deser_primitive in H. inversion Hv as [| | | |x|z m e0 Hb Hn|b|s x Hx| | | | |]; subst; try discriminate H.
    + change (is_instance (e_ct E) (VInt z) (TPrim PFloat)) with (@Ok bool false) in H. cbn [rbind cast py_to_float] in H.
      unfold float_of_int in H. fold double_bound in H. apply Z.ltb_lt in Hb. rewrite Hb in H. discriminate.
    + destruct b; discriminate H.
    + change (is_instance (e_ct E) (VStr s) (TPrim PFloat)) with (@Ok bool false) in H. cbn [rbind cast py_to_float] in H.
      rewrite Hx in H. discriminate.
  - destruct (prim_value_bool E j Hj) as (b & Hb & _). congruence.
Qed.

(** ** What load does *)
Lemma load_casts E n f o p j v : default_deserializers E f -> json_input j ->
  snd (load E (S n) f o (Some (TPrim p)) j) = Done v -> casts (e_rt E) p j v /\ accepts E f (TPrim p) v.
Proof.
  intros HD Hj. rewrite load_prim by assumption. destruct (prim_value E p j) as [w|e] eqn:Hw; [|discriminate].
  intros H. apply load_result_ok in H as [<- Ha]. split; [now apply prim_value_casts|exact Ha].
Qed.
Lemma load_castable E n f o p j : default_deserializers E f -> json_input j ->
  (exists v, casts (e_rt E) p j v) -> (forall v, casts (e_rt E) p j v -> accepts E f (TPrim p) v) ->
  exists v, snd (load E (S n) f o (Some (TPrim p)) j) = Done v.
Proof.
  intros HD Hj [v Hv] Ha. rewrite load_prim by assumption. destruct (prim_value E p j) as [w|e] eqn:Hw.
  - exists w. apply load_result_ok. split; [reflexivity|]. apply Ha. now apply prim_value_casts.
  - exfalso. now apply (prim_value_none E p j e Hj Hw v).
Qed.
Lemma load_uncastable E n f o p j : default_deserializers E f -> json_input j ->
  (forall v, ~ casts (e_rt E) p j v) ->
  exists e, snd (load E (S n) f o (Some (TPrim p)) j) = Fail e /\ is_jsons (e_kind e) = true.
Proof.
  intros HD Hj Hn. rewrite load_prim by assumption. destruct (prim_value E p j) as [w|e] eqn:Hw.
  - exfalso. apply (Hn w). now apply prim_value_casts.
  - cbn [load_result]. eexists. split; [reflexivity|]. destruct (is_jsons (e_kind e)) eqn:Hk; [exact Hk|reflexivity].
Qed.
Lemma load_not_int E n f o j : default_deserializers E f -> json_input j ->
  (forall v, ~ casts (e_rt E) PInt j v) ->
  exists e, snd (load E (S n) f o (Some (TPrim PInt)) j) = Fail e /\ e_kind e = KDeser.
Proof.
  intros HD Hj Hn. rewrite load_prim by assumption. destruct (prim_value E PInt j) as [w|e] eqn:Hw.
  - exfalso. apply (Hn w). now apply prim_value_casts.
  - cbn [load_result]. eexists. split; [reflexivity|]. cbn [prim_value] in Hw. unfold deser_primitive in Hw.
    destruct Hj as [b|z|x|s|l|d Hd].
    + discriminate.
    + discriminate.
    + change (is_instance (e_ct E) (VFloat x) (TPrim PInt)) with (@Ok bool false) in Hw. cbn [rbind cast py_to_int] in Hw.
      destruct x; try discriminate Hw; injection Hw as <-; reflexivity.
    + change (is_instance (e_ct E) (VStr s) (TPrim PInt)) with (@Ok bool false) in Hw. cbn [rbind cast py_to_int] in Hw.
      destruct (py_int s); [discriminate Hw|injection Hw as <-; reflexivity].
    + injection Hw as <-. reflexivity.
    + injection Hw as <-. reflexivity.
Qed.
Lemma load_prim_options E n m f o o' p j : default_deserializers E f -> json_input j ->
  snd (load E (S n) f o (Some (TPrim p)) j) = snd (load E (S m) f o' (Some (TPrim p)) j).
Proof. intros HD Hj. now rewrite !load_prim. Qed.
Lemma load_int_text E n f o s z : default_deserializers E f -> accepts E f (TPrim PInt) (VInt z) ->
  (snd (load E (S n) f o (Some (TPrim PInt)) (VStr s)) = Done (VInt z) <-> int_literal s z).
Proof.
  intros HD Ha. rewrite load_prim by (assumption || constructor). cbn [prim_value]. unfold deser_primitive.
  change (is_instance (e_ct E) (VStr s) (TPrim PInt)) with (@Ok bool false). cbn [rbind cast py_to_int].
  rewrite <- py_int_iff. destruct (py_int s) as [y|]; cbn [rbind].
  - rewrite load_result_ok. split; [intros [H _]; now injection H as ->|]. intros H. injection H as ->. auto.
  - split; discriminate.
Qed.
Lemma load_int_back E n m f o o' z s : default_deserializers E f ->
  accepts E f (TPrim PInt) (VInt z) ->
  snd (load E (S n) f o (Some (TPrim PStr)) (VInt z)) = Done s ->
  snd (load E (S m) f o' (Some (TPrim PInt)) s) = Done (VInt z).
Proof.
  intros HD Ha H. apply load_casts in H as [H _]; [|exact HD|constructor].
  inversion H as [| | | | | | | | | |? t Ht| |? t H1 H2 H3]; subst; [|exfalso; now apply (H2 z)].
  apply load_int_text; [exact HD|exact Ha|]. now apply decimal_literal.
Qed.
(** ** Integers that a double holds exactly *)
Local Open Scope Z_scope.
Lemma nearest_exact z m e : Z.abs z <= 2 ^ 53 -> nearest_double z m e ->
  forall k, 0 <= k -> 0 <= e + k -> m * 2 ^ (e + k) = z * 2 ^ k.
Proof.
  intros Hz [_ H] k Hk Hek.
  assert (Hd : exists m' e', is_double m' e' /\ 0 <= e' /\ m' * 2 ^ e' = z).
  { assert (HB : 2 ^ 53 < 2 ^ 1024) by (apply Z.pow_lt_mono_r; lia).
    destruct (Z.eq_dec (Z.abs z) (2 ^ 53)) as [E1|E1].
    - exists (Z.sgn z), 53. pose proof (Z.abs_sgn z) as Ha. rewrite E1 in Ha.
      assert (Hs : Z.abs (Z.sgn z) = 1) by (destruct z; [cbn in E1; lia|reflexivity|reflexivity]).
      split; [|split; [lia|lia]]. split; [rewrite Hs; lia|]. split; [lia|]. rewrite Hs, Z.mul_1_l. exact HB.
    - exists z, 0. split; [|split; [lia|change (2 ^ 0) with 1; lia]]. split; [lia|]. split; [lia|]. change (2 ^ 0) with 1. lia. }
  destruct Hd as (m' & e' & D & He & Hv).
  destruct (H m' e' k D Hk Hek ltac:(lia)) as [H1 _].
  rewrite (Z.pow_add_r 2 e' k), Z.mul_assoc, Hv, Z.sub_diag in H1 by lia. change (Z.abs 0) with 0 in H1. lia.
Qed.
Lemma truncates_exact z m e z' : Z.abs z <= 2 ^ 53 -> nearest_double z m e -> truncates (FFin m e) z' -> z' = z.
Proof.
  intros Hz Hn [H1 H2]. assert (Hx : m * 2 ^ Z.max 0 e = z * 2 ^ Z.max 0 (- e)).
  { replace (Z.max 0 e) with (e + Z.max 0 (- e)) by lia. apply nearest_exact; try assumption; lia. }
  rewrite Hx in H1, H2. set (d := 2 ^ Z.max 0 (- e)) in *. assert (Hd : 0 < d) by (apply Z.pow_pos_nonneg; lia).
  rewrite Z.abs_mul, (Z.abs_eq d) in H1 by lia.
  assert (Z.abs z = Z.abs z') by nia. assert (0 <= z' * z) by nia. lia || nia.
Qed.
Lemma load_float_back E n m f o o' z x : default_deserializers E f ->
  Z.abs z <= 2 ^ 53 -> accepts E f (TPrim PInt) (VInt z) ->
  snd (load E (S n) f o (Some (TPrim PFloat)) (VInt z)) = Done x ->
  snd (load E (S m) f o' (Some (TPrim PInt)) x) = Done (VInt z).
Proof.
  intros HD Hz Ha H. apply load_casts in H as [H _]; [|exact HD|constructor].
  inversion H as [| | | | |? mm ee Hb Hn| | | | | | |]; subst. rewrite load_prim by (assumption || constructor).
  cbn [prim_value]. unfold deser_primitive. change (is_instance (e_ct E) (VFloat (FFin mm ee)) (TPrim PInt)) with (@Ok bool false).
  cbn [rbind cast py_to_int]. destruct (int_of_float (FFin mm ee)) as [z'|] eqn:Hi; [|discriminate].
  assert (z' = z) as -> by (apply (truncates_exact z mm ee); [exact Hz|exact Hn|now apply int_of_float_truncates]).
  cbn [rbind]. apply load_result_ok. auto.
Qed.
Local Close Scope Z_scope.

(** ** NewTypes *)
(** The qualified name of the NewType is not that of a registered class. *)
Definition fresh_newtype (m nm : string) : Prop := sget (slower (m ++ "." ++ nm)) (t_map deser_table) = None.
Lemma deser_newtype CT m nm p : fresh_newtype m nm -> default_deser CT (TNewType m nm (TPrim p)) = Some (prim_handler p).
Proof.
  intros Hf. rewrite default_deser_eq. unfold lookup, get_lizer, get_lizer_flat at 1.
  change (lname (ty_world CT) (TNewType m nm (TPrim p))) with (slower (m ++ "." ++ nm)). rewrite Hf.
  unfold get_lizer_by_parents at 1.
  assert (Hg : get_parents (ty_world CT) (TNewType m nm (TPrim p)) (t_classes deser_table) = []).
  { unfold get_parents. generalize (t_classes deser_table). induction l as [|[c|] l IH]; [reflexivity| |]; exact IH. }
  rewrite Hg. cbn [rbind]. change (w_super (ty_world CT) (TNewType m nm (TPrim p))) with (Some (TPrim p)). cbn iota.
  pose proof (deser_prim CT p) as Hp. rewrite default_deser_eq in Hp. unfold lookup, get_lizer in Hp.
  destruct (get_lizer_flat (ty_world CT) (TPrim p) deser_table) as [[h|]|e]; cbn [rbind] in *; exact Hp.
Qed.
Lemma load_newtype E n f o m nm p j : default_deserializers E f -> fresh_newtype m nm -> json_input j -> p <> PStr ->
  exists e, snd (load E (S n) f o (Some (TNewType m nm (TPrim p))) j) = Fail e /\ e_kind e = KDeser.
Proof.
  intros HD Hf Hj Hp. destruct (json_input_facts _ Hj) as (Hm & Hn & Hv).
  rewrite (load_run E n f o _ j (prim_handler p)); [|exact I|assumption|assumption|assumption| |].
  - destruct p; [congruence| | |]; cbn [prim_handler deser_step]; rewrite wrap_lift; unfold deser_primitive;
      destruct Hj; cbn [is_instance rbind raise load_result]; eexists; split; reflexivity.
  - right. destruct Hj; discriminate.
  - rewrite HD. now apply deser_newtype.
Qed.
Lemma load_newtype_str E n f o m nm s v : default_deserializers E f -> fresh_newtype m nm ->
  e_validator E f (TNewType m nm (TPrim PStr)) = None ->
  snd (load E n f (child_opts o) (Some (TLeaf LkDatetime)) (VStr s)) = Done v ->
  snd (load E (S n) f o (Some (TNewType m nm (TPrim PStr))) (VStr s)) = Done v.
Proof.
  intros HD Hf Hva H.
  rewrite (load_run E n f o _ _ DString);
    [|exact I|intros ? ? ? X; discriminate X|discriminate|reflexivity|right; discriminate|rewrite HD; now apply deser_newtype].
  unfold wrap_deser. apply try_done. left. cbn [deser_step]. unfold deser_string. cbn [ty_eqb andb].
  apply bind_done. exists v. split; [|apply bind_done; exists tt; split; [|reflexivity]].
  - apply try_done. left. exact H.
  - unfold validate. rewrite Hva. reflexivity.
Qed.
