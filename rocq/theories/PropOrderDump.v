(** * C82: the order of dict entries and attributes does not matter for dump *)
From Coq Require Import Lia.
From Verif Require Import EngineEnv EngineFacts PyBaseFacts RoundTripFacts PropRoundTrip TerminationSpec PropTermination OrderProofs PropOrder LayoutModel PropJsonText PropLayout
  OrderDumpSpec OrderDumpProofs.
Local Close Scope Z_scope.
Local Open Scope string_scope.

(** Two values that differ only in the order of dict entries and of attributes, at any depth: both
    dumps return, and the documents differ only in the order of their entries, or both raise
    SerializationError. *)
Theorem C82_order : forall E f n o cls v v', default_serializers E f -> fair_properties E ->
  orderless_options (e_ct E) o -> same v v' -> orderless E (so_strict o) cls v ->
  match snd (dump E f n o cls v), snd (dump E f n o cls v') with
  | Done j, Done j' => same j j'
  | Fail e, Fail e' => e = exn_of KSer /\ e' = exn_of KSer
  | Oof, _ | _, Oof => True
  | _, _ => False
  end.
Proof.
  intros E f n o cls v v' HS HP Ho Hs Hv. pose proof (dump_agrees E f HS HP n o cls v v' Ho Hs Hv) as H. unfold agr in H.
  destruct (snd (dump E f n o cls v)) as [j|e|] eqn:E1, (snd (dump E f n o cls v')) as [j'|e'|] eqn:E2; auto.
  split; eapply dump_raises; [exact E1|exact E2].
Qed.
(** The numbers of nested calls need not be the same. *)
Theorem C82_same_document : forall E f n n' o cls v v' j r, default_serializers E f -> fair_properties E ->
  orderless_options (e_ct E) o -> same v v' -> orderless E (so_strict o) cls v ->
  snd (dump E f n o cls v) = Done j -> snd (dump E f n' o cls v') = r -> r <> Oof -> exists j', r = Done j' /\ same j j'.
Proof.
  intros E f n n' o cls v v' j r HS HP Ho Hs Hv H1 H2 Hr.
  pose proof (C82_order E f (Nat.max n n') o cls v v' HS HP Ho Hs Hv) as X.
  rewrite (dump_stable E f n (Nat.max n n') o cls v), H1 in X by (lia || congruence).
  rewrite (dump_stable E f n' (Nat.max n n') o cls v'), H2 in X by (lia || congruence).
  destruct r as [j'|e|]; [exists j'; split; [reflexivity|exact X]|contradiction|congruence].
Qed.
(** Dumps that are not strict come to an end, so one of the two cases applies. *)
Theorem C82_both_end : forall E f o cls v v', default_serializers E f -> fair_properties E -> shallow_world E -> so_strict o = false ->
  members_inert E o -> orderless_options (e_ct E) o -> same v v' -> orderless E (so_strict o) cls v ->
  exists N, forall n, N <= n ->
    (exists j j', snd (dump E f n o cls v) = Done j /\ snd (dump E f n o cls v') = Done j' /\ same j j') \/
    (snd (dump E f n o cls v) = Fail (exn_of KSer) /\ snd (dump E f n o cls v') = Fail (exn_of KSer)).
Proof.
  intros E f o cls v v' HS HP Hw Hst Hm Ho Hs Hv.
  destruct (C63_dump_always_ends E f o HS Hw Hst Hm v cls) as (N & r & Hr & HN).
  destruct (C63_dump_always_ends E f o HS Hw Hst Hm v' cls) as (N' & r' & Hr' & HN').
  exists (Nat.max N N'). intros n Hn. pose proof (C82_order E f n o cls v v' HS HP Ho Hs Hv) as X.
  rewrite HN, HN' in * by lia. destruct (snd r) as [j|e|], (snd r') as [j'|e'|]; try contradiction; try congruence.
  - left. exists j, j'. auto.
  - right. destruct X as [-> ->]. auto.
Qed.
(** dumps with sort_keys: one text for all orders *)
Theorem C82_sorted_text : forall E T L f n o cls v v' j, default_serializers E f -> fair_properties E ->
  orderless_options (e_ct E) o -> same v v' -> orderless E (so_strict o) cls v -> ly_sort L = true ->
  snd (dump E f n o cls v) = Done j -> json_data j -> snd (dump E f n o cls v') <> Oof ->
  snd (dumps_with E T L f n o cls v) = snd (dumps_with E T L f n o cls v').
Proof.
  intros E T L f n o cls v v' j HS HP Ho Hs Hv HL Hd Hj Hn.
  destruct (C82_same_document E f n n o cls v v' j _ HS HP Ho Hs Hv Hd eq_refl Hn) as (j' & Hd' & Hsame).
  now apply (C66_sorted_text E T L f n o cls v E f n o cls v' j j').
Qed.

(** ** Examples *)
Definition john2 : value := VObj 1 [("age", VInt 30); ("name", VStr "John")].
Definition mary2 : value := VObj 1 [("age", VInt 31); ("name", VStr "Mary")].
Definition group2 : value := VObj 2 [("lead", mary2); ("members", VList [john; mary2])].
Lemma turned c a x b y x' y' : same x x' -> same y y' -> same (VObj c [(a, x); (b, y)]) (VObj c [(b, y'); (a, x')]).
Proof.
  intros Hx Hy. apply (sm_object c _ [(b, y); (a, x)]); [apply perm_swap|].
  constructor; [split; [reflexivity|exact Hy]|]. constructor; [split; [reflexivity|exact Hx]|constructor].
Qed.
Lemma group_turned : same group group2.
Proof.
  apply turned; [|apply turned; apply sm_refl]. apply sm_list.
  constructor; [apply sm_refl|]. constructor; [apply turned; apply sm_refl|constructor].
Qed.
Lemma demo_object c : c = 1 \/ c = 2 -> an_object demo_ct (TClass c).
Proof.
  intros [-> | ->]; eexists; (split; [reflexivity|]); (split; [apply demo_ordinary|]); (split; [reflexivity|]);
    cbn; repeat constructor; cbn; intuition discriminate.
Qed.
Lemma fixed_prim v : match v with VBool _ | VInt _ | VFloat _ | VStr _ | VNone => True | _ => False end -> forall v', same v v' -> v' = v.
Proof. destruct v; try contradiction; intros _ v' H; inversion H; reflexivity. Qed.
Lemma person_orderless strict t a s : no_or (an_object demo_ct) t ->
  orderless demo_env strict t (VObj 1 [("name", VStr s); ("age", VInt a)]).
Proof.
  intros Ht. apply ol_object; [exact Ht|apply demo_object; auto|repeat constructor; cbn; intuition discriminate|].
  intros b x Hx. apply ol_fixed, fixed_prim. unfold get_attr in Hx. cbn [demo_env e_ct std_env] in Hx. change (ci_members (demo_ct 1)) with (@nil (string * member)) in Hx.
  unfold sget in Hx; cbn [aget] in Hx.
  destruct (String.eqb b "name"); [injection Hx as <-; exact I|]. destruct (String.eqb b "age"); [injection Hx as <-; exact I|discriminate].
Qed.
Lemma group_orderless strict : orderless demo_env strict (Some (TClass 2)) group.
Proof.
  apply ol_object; [apply demo_object; auto|apply demo_object; auto|repeat constructor; cbn; intuition discriminate|].
  assert (Hd : declaring strict (Some (TClass 2)) 2 = 2) by (destruct strict; reflexivity). rewrite Hd.
  intros b x Hx. unfold get_attr in Hx. cbn [demo_env e_ct std_env] in Hx. change (ci_members (demo_ct 2)) with (@nil (string * member)) in Hx.
  unfold sget in Hx; cbn [aget] in Hx.
  assert (Ha : attr_hint (e_ct demo_env 2) b = None) by reflexivity. rewrite Ha.
  destruct (String.eqb b "members"); [injection Hx as <-|destruct (String.eqb b "lead"); [injection Hx as <-|discriminate]].
  - apply ol_list; [exact I|]. assert (Hl : no_or (an_object demo_ct) (element_type strict None [john; mary])) by (destruct strict; [apply demo_object; auto|exact I]).
    constructor; [now apply person_orderless|]. constructor; [now apply person_orderless|constructor].
  - apply person_orderless. exact I.
Qed.
Lemma demo_fair_properties : fair_properties demo_env.
Proof.
  intros c a attrs attrs' _. assert (H : forall at_, ci_prop (e_ct demo_env c) a at_ = raise KAttribute) by (intros; destruct c as [|[|[|[|[|c]]]]]; reflexivity).
  rewrite !H. reflexivity.
Qed.
Lemma sopts0_orderless : orderless_options demo_ct sopts0.
Proof. repeat split. Qed.
Example C82_ex : same group group2 /\ group <> group2 /\
  snd (dump demo_env 0 9 sopts0 (Some (TClass 2)) group) = Done group_doc /\
  exists j, snd (dump demo_env 0 9 sopts0 (Some (TClass 2)) group2) = Done j /\ same group_doc j.
Proof.
  split; [exact group_turned|]. split; [discriminate|]. assert (H : snd (dump demo_env 0 9 sopts0 (Some (TClass 2)) group) = Done group_doc) by (vm_compute; reflexivity).
  split; [exact H|]. eapply (C82_same_document demo_env 0 9 9 sopts0 (Some (TClass 2)) group group2); [intros t; reflexivity|exact demo_fair_properties|exact sopts0_orderless|exact group_turned|apply group_orderless|exact H|reflexivity|].
  vm_compute. discriminate.
Qed.
(** One text with sort_keys *)
Example C82_sorted_ex : forall strict, let o := mkSopts strict false None false false false SANone false false false true false [] in
  snd (dumps_with demo_env demo_trt compact 0 9 o (Some (TClass 2)) group) =
  snd (dumps_with demo_env demo_trt compact 0 9 o (Some (TClass 2)) group2).
Proof.
  assert (Hd : forall a s, json_data (str_dict [("age", VInt a); ("name", VStr s)])).
  { intros a s. apply jd_dict; [repeat constructor; cbn; intuition discriminate| |]; intros k x [H|[H|[]]]; injection H as <- <-; eauto; constructor; exact I. }
  assert (Hg : json_data group_doc).
  { unfold group_doc. apply jd_dict.
    - apply NoDup_cons; [cbn; intuition discriminate|]. apply NoDup_cons; [intros []|constructor].
    - intros k x [H|[H|[]]]; injection H as <- _; eauto.
    - intros k x [H|[H|[]]]; injection H as _ <-; [apply Hd|].
      apply jd_list. intros x [<-|[<-|[]]]; apply Hd. }
  intros strict o. apply (C82_sorted_text demo_env demo_trt compact 0 9 o (Some (TClass 2)) group group2 (if strict then str_dict [] else group_doc)).
  - intros t. reflexivity.
  - exact demo_fair_properties.
  - unfold o. destruct strict; repeat split.
  - exact group_turned.
  - apply group_orderless.
  - reflexivity.
  - unfold o. destruct strict; vm_compute; reflexivity.
  - destruct strict; [|exact Hg]. apply jd_dict; [constructor|intros k x []|intros k x []].
  - unfold o. destruct strict; vm_compute; discriminate.
Qed.
Example C82_text_ex : snd (dumps_with demo_env demo_trt compact 0 9 sopts0 (Some (TClass 2)) group2) =
  Done "{""lead"":{""age"":31,""name"":""Mary""},""members"":[{""age"":30,""name"":""John""},{""age"":31,""name"":""Mary""}]}".
Proof. vm_compute. reflexivity. Qed.
(** Dicts whose entries are swapped, untyped, and in a strict dump with a type *)
Lemma ab_orderless strict t : no_or a_dict t -> orderless demo_env strict t ab.
Proof.
  intros Ht. apply ol_dict; [exact Ht|repeat constructor|repeat constructor|].
  apply Forall_cons; [apply ol_fixed, fixed_prim; exact I|]. apply Forall_cons; [apply ol_fixed, fixed_prim; exact I|constructor].
Qed.
Example C82_dict_ex : orderless demo_env false None ab /\ same ab ba /\
  snd (dump demo_env 0 9 sopts0 None ab) = Done ab /\ snd (dump demo_env 0 9 sopts0 None ba) = Done ba.
Proof. split; [now apply ab_orderless|]. split; [apply ab_ba|]. split; vm_compute; reflexivity. Qed.
Definition strict_dump : sopts := mkSopts true false None false false false SANone false false false true false [].
Definition dicts_type : ty := TApp true HList [TApp true HDict [TPrim PStr; TPrim PInt]].
Example C82_strict_ex : orderless demo_env true (Some dicts_type) (VList [ab; ab]) /\ same (VList [ab; ab]) (VList [ba; ab]) /\
  orderless_options demo_ct strict_dump /\
  snd (dump demo_env 0 9 strict_dump (Some dicts_type) (VList [ab; ab])) = Done (VList [ab; ab]) /\
  snd (dump demo_env 0 9 strict_dump (Some dicts_type) (VList [ba; ab])) = Done (VList [ba; ab]).
Proof.
  split.
  { assert (H : orderless demo_env true (Some (TApp true HDict [TPrim PStr; TPrim PInt])) ab)
      by (apply ab_orderless; exists true, HDict, [TPrim PStr; TPrim PInt]; split; [exact I|reflexivity]).
    apply ol_list; [eexists; eexists; reflexivity|]. apply Forall_cons; [exact H|]. apply Forall_cons; [exact H|constructor]. }
  split; [apply sm_list; constructor; [apply ab_ba|constructor; [apply sm_refl|constructor]]|].
  split; [repeat split|]. split; vm_compute; reflexivity.
Qed.

(** ** Where the order matters *)
(** A dict that is dumped as a list: its keys, in order *)
Theorem C82_list_refuted : same ab ba /\
  differ (snd (dump demo_env 0 9 sopts0 (Some (TApp true HList [TPrim PStr])) ab))
         (snd (dump demo_env 0 9 sopts0 (Some (TApp true HList [TPrim PStr])) ba)).
Proof.
  split; [apply ab_ba|].
  exists (VList [VStr "a"; VStr "b"]), (VList [VStr "b"; VStr "a"]). split; [vm_compute; reflexivity|]. split; [vm_compute; reflexivity|].
  intros H. apply same_list in H as (l & Hl & H). injection Hl as <-. inversion H as [|? ? ? ? Hx _]; subst. inversion Hx.
Qed.
Definition lower_opts : sopts := mkSopts false false (Some lower_kt) false false false SANone false false false true false [].
(** A key transformer that makes two keys equal: the last one counts. *)
Theorem C82_key_transformer_refuted :
  same (one_doc "a" "A" 10 20) (one_doc "A" "a" 20 10) /\
  differ (snd (dump demo_env 0 9 (lower_opts) None (one_doc "a" "A" 10 20)))
         (snd (dump demo_env 0 9 (lower_opts) None (one_doc "A" "a" 20 10))).
Proof.
  split; [apply swapped; apply sm_refl|].
  exists (VDict DkDict [(VStr "a", VInt 20)]), (VDict DkDict [(VStr "a", VInt 10)]).
  split; [vm_compute; reflexivity|]. split; [vm_compute; reflexivity|]. now apply last_one.
Qed.
(** Keys that are not strings, numbers, booleans or None are filed under their hash: of two keys with
    the same hash the last one counts.  [demo_env] gives all values the hash 7; in CPython the tuples
    of -1 and of -2 have the same hash. *)
Definition tuple_keys (a b : Z) (x y : Z) : value := VDict DkDict [(VTuple [VInt a], VInt x); (VTuple [VInt b], VInt y)].
Theorem C82_hash_refuted : same (tuple_keys (-1) (-2) 10 20) (tuple_keys (-2) (-1) 20 10) /\
  differ (snd (dump demo_env 0 9 sopts0 None (tuple_keys (-1) (-2) 10 20)))
         (snd (dump demo_env 0 9 sopts0 None (tuple_keys (-2) (-1) 20 10))).
Proof.
  split.
  { apply (sm_dict DkDict _ [(VTuple [VInt (-2)], VInt 20); (VTuple [VInt (-1)], VInt 10)]); [apply perm_swap|].
    constructor; [split; [reflexivity|apply sm_refl]|]. constructor; [split; [reflexivity|apply sm_refl]|constructor]. }
  eexists _, _. split; [vm_compute; reflexivity|]. split; [vm_compute; reflexivity|].
  intros H. apply same_dict in H as (d & Hd & d1 & Hp & Hf). injection Hd as <-.
  inversion Hf as [|e1 e1' r1 r1' _ Hf1]; subst. inversion Hf1 as [|e2 e2' r2 r2' [Hk Hx] _]; subst.
  assert (Hi : In e2 [(VStr "-keys", VDict DkDict [(VInt 7, VList [VInt (-2)])]); (VInt 7, VInt 20)]) by (eapply Permutation_in; [apply Permutation_sym, Hp|right; now left]).
  destruct Hi as [<-|[<-|[]]]; cbn [fst snd] in *; [discriminate Hk|inversion Hx].
Qed.
Print Assumptions C82_order.
Print Assumptions C82_both_end.
Print Assumptions C82_sorted_text.
