(** * C83: keyword arguments of json.loads

    Model: HookModel.v.  Specification: HookSpec.v, with the grammar of JSON in terms of trees
    ([tree_document]) and what hooks make of a tree ([made]). *)
From Verif Require Import EngineFacts EngineEnv PyBaseFacts JsonTextProofs JsonTextLaws PropJsonText HookSpec HookProofs.
Local Close Scope Z_scope.
Local Open Scope string_scope.

(** Every text that is JSON has one tree. *)
Theorem C83_trees : forall T s, (forall t t', tree_document T s t -> tree_document T s t' -> t = t') /\
  ((exists t, tree_document T s t) <-> exists j, json_document T s j).
Proof.
  intros T s. split; [intros; now apply (tree_unique T s)|]. split.
  - intros (t & Ht). destruct (made_no_hooks T t) as (j & Hj). exists j. apply document_tree. eauto.
  - intros (j & Hj). apply document_tree in Hj as (t & Ht & _). eauto.
Qed.
(** loads of a JSON text: the hooks are applied to its tree, and load gets the result.  An
    exception of a hook ends the call: it is passed on, unless it is a JSONDecodeError. *)
Lemma text_hooks E T H n f o cls s t : tree_document T s t ->
  loads_text_with E T H n f o cls s =
  match made T H t with
  | Ok j => load E n f o cls j
  | Err e => if hk_decode_error H e then fail (exn_of KDecode) else fail e
  end.
Proof.
  intros Ht. unfold loads_text_with. rewrite (json_loads_with_tree T _ s t Ht), <- made_fold. destruct (made T H t); reflexivity.
Qed.
Theorem C83_hooks : forall E T H n f o cls s t, tree_document T (codes s) t ->
  loads_with E T H n f o cls (OVal (VStr s)) =
  match made T H t with
  | Ok j => load E n f o cls j
  | Err e => if hk_decode_error H e then fail (exn_of KDecode) else fail e
  end.
Proof. intros. now apply text_hooks. Qed.
Theorem C83_bytes : forall E T H n f o cls b s t, Forall scalar_value s -> codes b = flat_map utf8 s -> tree_document T s t ->
  loadb_with E T H n f o "utf-8" cls (OBytes b) =
  match made T H t with
  | Ok j => load E n f o cls j
  | Err e => if hk_decode_error H e then fail (exn_of KDecode) else fail e
  end.
Proof.
  intros E T H n f o cls b s t Hs Hb Ht. cbn [loadb_with]. rewrite (decode_valid T b s Hs Hb). cbn [lift]. rewrite bind_ret_l. now apply text_hooks.
Qed.
(** What is no JSON text: DecodeError, unless a hook raised before. *)
Lemma raises_hook T H e : builder_raises (python_builder T H) e -> hook_raises H e.
Proof.
  unfold builder_raises, hook_raises. cbn [python_builder bd_int bd_float bd_constant bd_dict].
  intros [(t & Ht)|[(t & Ht)|[(s & Hs)|(d & Hd)]]].
  - destruct (hk_int H) as [g|]; [left; eauto|discriminate].
  - destruct (hk_float H) as [g|]; [right; left; eauto|discriminate].
  - destruct (hk_constant H) as [g|]; [right; right; left; eauto|discriminate].
  - destruct (hk_pairs H) as [g|]; [do 4 right; eauto|]. cbv zeta in Hd. destruct (hk_object H) as [g|]; [do 3 right; left; eauto|discriminate].
Qed.
Lemma text_malformed E T H n f o cls s : (forall t, ~ tree_document T s t) ->
  loads_text_with E T H n f o cls s = fail (exn_of KDecode) \/
  exists e, hook_raises H e /\ loads_text_with E T H n f o cls s = fail e.
Proof.
  intros Hn. unfold loads_text_with. destruct (json_loads_with T (python_builder T H) s) as [j r| |e|] eqn:Hj.
  - apply json_loads_with_sound in Hj as (t & Ht & _). now elim (Hn t).
  - now left.
  - destruct (hk_decode_error H e); [now left|]. right. exists e. split; [|reflexivity]. eapply raises_hook, json_loads_with_raises, Hj.
  - now left.
Qed.
Theorem C83_malformed : forall E T H n f o cls s, (forall t, ~ tree_document T (codes s) t) ->
  loads_with E T H n f o cls (OVal (VStr s)) = fail (exn_of KDecode) \/
  exists e, hook_raises H e /\ loads_with E T H n f o cls (OVal (VStr s)) = fail e.
Proof. intros. now apply text_malformed. Qed.
(** So: when loads returns, and which exceptions it raises. *)
Theorem C83_done : forall E T H n f o cls s v, snd (loads_with E T H n f o cls (OVal (VStr s))) = Done v <->
  exists t j, tree_document T (codes s) t /\ made T H t = Ok j /\ snd (load E n f o cls j) = Done v.
Proof.
  intros E T H n f o cls s v. split.
  - cbn [loads_with]. unfold loads_text_with. destruct (json_loads_with T (python_builder T H) (codes s)) as [j r| |e|] eqn:Hj; intros Hv.
    + apply json_loads_with_sound in Hj as (t & Ht & Hm). rewrite <- made_fold in Hm. eauto.
    + discriminate.
    + destruct (hk_decode_error H e); discriminate.
    + discriminate.
  - intros (t & j & Ht & Hm & Hl). rewrite (C83_hooks E T H n f o cls s t Ht), Hm. exact Hl.
Qed.
Lemma made_raises T H t e : made T H t = Err e -> hook_raises H e.
Proof.
  assert (Hall : forall X A (g : X -> res A) l e, all_of g l = Err e -> exists x, In x l /\ g x = Err e).
  { intros X A g l e'. induction l as [|x l IH]; [discriminate|]. rewrite all_of_cons. destruct (g x) as [a|e1] eqn:Hx; intros Hr.
    - destruct (all_of g l); [discriminate|]. injection Hr as ->. destruct (IH eq_refl) as (y & Hy & Hg). exists y. split; [now right|exact Hg].
    - injection Hr as ->. exists x. split; [now left|exact Hx]. }
  unfold hook_raises. revert e. induction t using tree_induction; intros e Hm; try discriminate Hm; cbn [made] in Hm; unfold given in Hm.
  - destruct (hk_constant H) as [g|]; [right; right; left; eauto|discriminate].
  - destruct (hk_int H) as [g|]; [left; eauto|discriminate].
  - destruct (hk_float H) as [g|]; [right; left; eauto|discriminate].
  - destruct (all_of (made T H) l) as [vs|e'] eqn:Ha; [discriminate|]. injection Hm as ->. apply Hall in Ha as (x & Hx & Hg).
    rewrite Forall_forall in H0. eapply H0; eauto.
  - destruct (all_of _ d) as [vs|e'] eqn:Ha.
    + destruct (hk_pairs H) as [g|]; [do 4 right; eauto|]. destruct (hk_object H) as [g|]; [do 3 right; left; eauto|discriminate].
    + injection Hm as ->. apply Hall in Ha as (x & Hx & Hg). rewrite Forall_forall in H0.
      destruct (made T H (snd x)) eqn:Hs; [discriminate|]. injection Hg as ->. eapply H0; eauto.
Qed.
Theorem C83_fails : forall E T H n f o cls s e, snd (loads_with E T H n f o cls (OVal (VStr s))) = Fail e ->
  e = exn_of KDecode \/ hook_raises H e \/
  exists t j, tree_document T (codes s) t /\ made T H t = Ok j /\ snd (load E n f o cls j) = Fail e.
Proof.
  intros E T H n f o cls s e. cbn [loads_with]. unfold loads_text_with.
  destruct (json_loads_with T (python_builder T H) (codes s)) as [j r| |e'|] eqn:Hj; intros Hv.
  - apply json_loads_with_sound in Hj as (t & Ht & Hm). rewrite <- made_fold in Hm. right. right. eauto.
  - left. now injection Hv.
  - destruct (hk_decode_error H e'); injection Hv as <-; [now left|]. right. left. eapply raises_hook, json_loads_with_raises, Hj.
  - left. now injection Hv.
Qed.

(** ** Hooks without effect *)
(** Hooks that do what json.loads does anyway, in particular no hooks *)
Lemma made_neutral T H t : neutral T H -> made T H t = made T no_hooks t.
Proof.
  intros (N1 & N2 & N3 & N4 & N5). induction t using tree_induction; try reflexivity; cbn [made]; unfold given.
  - destruct (hk_constant H) as [g|] eqn:Hg; [now apply N3|reflexivity].
  - destruct (hk_int H) as [g|] eqn:Hg; [rewrite (N1 g t eq_refl), int_literal_integer; reflexivity|reflexivity].
  - destruct (hk_float H) as [g|] eqn:Hg; [now apply N2|reflexivity].
  - now rewrite (all_of_ext _ (made T no_hooks) l H0).
  - rewrite (all_of_ext _ (fun kx => match made T no_hooks (snd kx) with Ok v => Ok (fst kx, v) | Err e => Err e end) d).
    2:{ revert H0. apply Forall_impl. intros [k x] Hx. cbn [snd] in *. now rewrite Hx. }
    destruct (all_of _ d) as [l|e]; [|reflexivity]. destruct (hk_pairs H) as [g|] eqn:Hp; [now rewrite (N5 g l eq_refl)|].
    destruct (hk_object H) as [g|] eqn:Hg; [now rewrite (N4 g _ eq_refl)|reflexivity].
Qed.
Lemma neutral_silent T H e : neutral T H -> ~ hook_raises H e.
Proof.
  intros (N1 & N2 & N3 & N4 & N5) [(g & t & Hg & Ht)|[(g & t & Hg & Ht)|[(g & t & Hg & Ht)|[(g & t & Hg & Ht)|(g & t & Hg & Ht)]]]].
  - rewrite (N1 _ _ Hg) in Ht. discriminate.
  - rewrite (N2 _ _ Hg) in Ht. discriminate.
  - rewrite (N3 _ _ Hg) in Ht. discriminate.
  - rewrite (N4 _ _ Hg) in Ht. discriminate.
  - rewrite (N5 _ _ Hg) in Ht. discriminate.
Qed.
Lemma text_neutral E T H n f o cls s : neutral T H -> loads_text_with E T H n f o cls s = loads_text E T n f o cls s.
Proof.
  intros HN. unfold loads_text. destruct (json_loads T s) as [j|] eqn:Hj.
  - apply json_loads_iff, document_tree in Hj as (t & Ht & Hm). rewrite (text_hooks E T H n f o cls s t Ht), (made_neutral T H t HN), Hm. reflexivity.
  - assert (Hn : forall t, ~ tree_document T s t).
    { intros t Ht. destruct (made_no_hooks T t) as (j & Hm). assert (Hd : json_document T s j) by (apply document_tree; eauto).
      apply json_loads_iff in Hd. congruence. }
    destruct (text_malformed E T H n f o cls s Hn) as [X|(e & X & _)]; [exact X|]. now elim (neutral_silent T H e HN).
Qed.
Theorem C83_neutral : forall E T H n f o cls x, neutral T H -> loads_with E T H n f o cls x = loads E T n f o cls x.
Proof.
  intros E T H n f o cls x HN. destruct x as [v|b]; cbn [loads_with loads].
  - destruct v; try reflexivity. now apply text_neutral.
  - destruct (tr_detect T b); cbn [lift]; [|reflexivity]. rewrite !bind_ret_l. now apply text_neutral.
Qed.
Theorem C83_neutral_bytes : forall E T H n f o enc cls x, neutral T H -> loadb_with E T H n f o enc cls x = loadb E T n f o enc cls x.
Proof.
  intros E T H n f o enc cls x HN. destruct x as [v|b]; cbn [loadb_with loadb]; [reflexivity|].
  destruct (decode_bytes T enc b); cbn [lift]; [|reflexivity]. rewrite !bind_ret_l. now apply text_neutral.
Qed.
Lemma no_hooks_neutral T : neutral T no_hooks.
Proof. repeat split; discriminate. Qed.
Theorem C83_default : forall E T n f o cls x, loads_with E T no_hooks n f o cls x = loads E T n f o cls x.
Proof. intros. apply C83_neutral, no_hooks_neutral. Qed.
(** With object_pairs_hook, object_hook is not looked at. *)
Theorem C83_pairs_first : forall E T n f o cls x a b c d d' g e,
  loads_with E T (mkHooks a b c d (Some g) e) n f o cls x = loads_with E T (mkHooks a b c d' (Some g) e) n f o cls x.
Proof. reflexivity. Qed.

(** ** What hooks return *)
(** load takes str, int, float, bool, list, tuple, set, dict and None only.  A document that a hook
    has turned into anything else is rejected, unless cls is its very type. *)
Theorem C83_other_types : forall E T H n f o cls s t j, tree_document T (codes s) t -> made T H t = Ok j -> valid_type j = false ->
  cls <> Some (class_of j) -> cls <> Some TAny -> (forall u, cls <> Some (TFwd u)) ->
  loads_with E T H (S n) f o cls (OVal (VStr s)) = fail (exn_of KDeser).
Proof.
  intros E T H n f o cls s t j Ht Hm Hv Hc Ha Hf. rewrite (C83_hooks E T H (S n) f o cls s t Ht), Hm. cbn [load]. unfold load_step.
  assert (Hno : is_none j = false) by (destruct j; try reflexivity; discriminate Hv). rewrite Hno, bind_ret_l.
  assert (Hsame : same_type j cls = false).
  { destruct cls as [u|]; [|reflexivity]. cbn [same_type]. apply ty_eqb_neq. congruence. }
  rewrite Hsame, Bool.andb_false_r. destruct cls as [u|]; [destruct u|]; cbn [orb lift]; try (rewrite bind_ret_l, Hv; reflexivity); [now elim Ha|now elim (Hf s0)].
Qed.

(** ** Examples *)
(** {"a": 1.5, "a": [-2, NaN]} *)
Definition sample : string := "{""a"": 1.5, ""a"": [-2, NaN]}".
Definition sample_tree : tree := JDict [("a", JFloat (codes "1.5")); ("a", JList [JInt (codes "-2"); JConstant "NaN"])].
Lemma sample_document : tree_document demo_trt (codes sample) sample_tree.
Proof.
  assert (H : json_loads_with demo_trt syntax (codes sample) = HOk sample_tree []) by (vm_compute; reflexivity).
  apply json_loads_with_sound in H as (t & Ht & Hf). rewrite fold_syntax in Hf. injection Hf as <-. exact Ht.
Qed.
(** parse_int=len, parse_float=str, parse_constant=str, object_pairs_hook=list *)
Definition sample_hooks : hooks :=
  mkHooks (Some (fun t => Ok (VInt (Z.of_nat (length t))))) (Some (fun t => Ok (VStr (string_of demo_trt t)))) (Some (fun s => Ok (VStr s))) None
    (Some (fun d => Ok (VList (map (fun kx => VTuple [VStr (fst kx); snd kx]) d)))) (fun _ => false).
Example C83_ex : made demo_trt sample_hooks sample_tree =
    Ok (VList [VTuple [VStr "a"; VStr "1.5"]; VTuple [VStr "a"; VList [VInt 2; VStr "NaN"]]]) /\
  snd (loads_with demo_env demo_trt sample_hooks 9 0 lopts0 (Some (TApp false HList [])) (OVal (VStr sample))) =
    Done (VList [VTuple [VStr "a"; VStr "1.5"]; VTuple [VStr "a"; VList [VInt 2; VStr "NaN"]]]).
Proof.
  split; [vm_compute; reflexivity|]. rewrite (C83_hooks _ _ _ _ _ _ _ _ _ sample_document). vm_compute. reflexivity.
Qed.
(** Without hooks the last pair with a name counts. *)
Example C83_default_ex : made demo_trt no_hooks sample_tree = Ok (VDict DkDict [(VStr "a", VList [VInt (-2); VFloat FNan])]).
Proof. vm_compute. reflexivity. Qed.
(** A neutral hook: object_hook=lambda d: d *)
Example C83_neutral_ex : neutral demo_trt (mkHooks None None None (Some (fun d => Ok d)) None (fun _ => false)).
Proof.
  repeat split; try discriminate. intros g d Hg. injection Hg as <-. reflexivity.
Qed.

(** ** Where hooks and jsons do not go together *)
(** parse_float=Decimal: without cls the document is rejected; as Decimal or List[Decimal] it is loaded. *)
Definition decimal_hooks : hooks :=
  mkHooks None (Some (fun t => Ok (VLeaf (LDecimal (string_of demo_trt t))))) None None None (fun _ => false).
Definition rejected (r : outcome value) : Prop := exists e, r = Fail e /\ e_kind e = KDeser.
Theorem C83_decimal_refuted :
  rejected (snd (loads_with demo_env demo_trt decimal_hooks 9 0 lopts0 None (OVal (VStr "[1.5]")))) /\
  rejected (snd (loads_with demo_env demo_trt decimal_hooks 9 0 lopts0 None (OVal (VStr "{""x"": 1.5}")))) /\
  snd (loads_with demo_env demo_trt decimal_hooks 9 0 lopts0 (Some (TApp true HList [TLeaf LkDecimal])) (OVal (VStr "[1.5]"))) =
    Done (VList [VLeaf (LDecimal "1.5")]).
Proof. split; [|split]; [eexists; split; vm_compute; reflexivity..|vm_compute; reflexivity]. Qed.
(** object_pairs_hook=OrderedDict: no object can be loaded any more. *)
Definition ordered_hooks : hooks :=
  mkHooks None None None None (Some (fun d => Ok (VDict DkOrdered (dict_of d)))) (fun _ => false).
Theorem C83_ordered_refuted : forall E T n f o c s kvs, tree_document T (codes s) (JDict kvs) ->
  (exists d, made T ordered_hooks (JDict kvs) = Ok d) ->
  loads_with E T ordered_hooks (S n) f o (Some (TClass c)) (OVal (VStr s)) = fail (exn_of KDeser).
Proof.
  intros E T n f o c s kvs Ht (d & Hd). assert (Hk : exists l, d = VDict DkOrdered l).
  { cbn [made] in Hd. destruct (all_of _ kvs); [|discriminate]. cbn [ordered_hooks hk_pairs] in Hd. injection Hd as <-. eauto. }
  destruct Hk as (l & ->). eapply C83_other_types; [exact Ht|exact Hd|reflexivity| | |]; discriminate.
Qed.
Definition john_json : string := "{""name"": ""John"", ""age"": 30}".
Example C83_ordered_ex :
  snd (loads_with demo_env demo_trt no_hooks 9 0 lopts0 (Some (TClass 1)) (OVal (VStr john_json))) = Done john /\
  snd (loads_with demo_env demo_trt ordered_hooks 9 0 lopts0 (Some (TClass 1)) (OVal (VStr john_json))) = Fail (exn_of KDeser).
Proof. split; vm_compute; reflexivity. Qed.
(** Exceptions of hooks are no JsonsErrors; a JSONDecodeError of a hook is reported as if the text were no JSON. *)
Definition raising (decode : bool) : hooks := mkHooks None None None (Some (fun _ => raise KKey)) None (fun _ => decode).
Theorem C83_exceptions_refuted :
  snd (loads_with demo_env demo_trt (raising false) 9 0 lopts0 None (OVal (VStr john_json))) = Fail (exn_of KKey) /\
  snd (loads_with demo_env demo_trt (raising true) 9 0 lopts0 None (OVal (VStr john_json))) = Fail (exn_of KDecode).
Proof. split; vm_compute; reflexivity. Qed.
Print Assumptions C83_hooks.
Print Assumptions C83_malformed.
Print Assumptions C83_neutral.
Print Assumptions C83_other_types.
