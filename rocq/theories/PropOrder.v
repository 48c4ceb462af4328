(** * C64: the order of the keys in a document does not matter *)
From Coq Require Import Lia.
From Verif Require Import EngineEnv EngineFacts PyBaseFacts PropConform LoadTypes RoundTripFacts PropRoundTrip TerminationSpec PropTermination ParallelProofs
  OrderSpec OrderProofs.
Local Open Scope string_scope.

(** Two documents that differ only in the order of their keys, at any depth: both loads return,
    and the results differ only in the order of entries and attributes, or both raise. *)
Theorem C64_key_order : forall E n f o cls j j', default_deserializers E f -> fair_validators E f ->
  (forall c, regular (e_ct E c)) -> plain_options o -> document j -> same j j' -> by_key (e_ct E) (lo_strict o) cls j ->
  outcomes_agree (snd (load E n f o cls j)) (snd (load E n f o cls j')).
Proof.
  intros E n f o cls j j' HD HV HR (H1 & H2 & H3) Hd Hs Hb.
  apply (load_agree E f (lo_strict o) HD HV HR n o cls j j'); auto. split; [exact H1|]. auto.
Qed.
(** The numbers of nested calls need not be the same. *)
Theorem C64_same_value : forall E n n' f o cls j j' v r, default_deserializers E f -> fair_validators E f ->
  (forall c, regular (e_ct E c)) -> plain_options o -> document j -> same j j' -> by_key (e_ct E) (lo_strict o) cls j ->
  snd (load E n f o cls j) = Done v -> snd (load E n' f o cls j') = r -> r <> Oof -> exists v', r = Done v' /\ same v v'.
Proof.
  intros E n n' f o cls j j' v r HD HV HR Ho Hd Hs Hb H1 H2 Hr.
  pose proof (C64_key_order E (Nat.max n n') f o cls j j' HD HV HR Ho Hd Hs Hb) as X.
  rewrite (load_stable E n (Nat.max n n') f o cls j), H1 in X by (lia || congruence).
  rewrite (load_stable E n' (Nat.max n n') f o cls j'), H2 in X by (lia || congruence).
  destruct r as [v'|e|]; [exists v'; split; [reflexivity|exact X]|contradiction|congruence].
Qed.
(** If the types do not lead round in circles, both loads come to an end: with the same value, up
    to order, or both with an exception. *)
Lemma document_within x j : within x j -> document j -> document x.
Proof.
  induction 1 as [v|x y v Hi Hw IH]; intros Hd; [exact Hd|]. specialize (IH Hd).
  destruct Hi as [l x Hx|l x Hx|k l x Hx|k d key x Hx|k d key x Hx]; inversion IH as [? Hc|? Hl|? H1 H2 H3]; subst; try contradiction.
  - rewrite Forall_forall in Hl. auto.
  - rewrite Forall_forall in H1. destruct (H1 _ Hx) as (s & Hs & _). cbn [fst] in Hs. subst. now apply dc_scalar.
  - rewrite Forall_forall in H3. exact (H3 _ Hx).
Qed.
Lemma document_no_meta_entries j : document j -> no_meta j.
Proof.
  intros Hd k d Hw. pose proof (document_within _ _ Hw Hd) as H.
  assert (k = DkDict) as -> by (inversion H as [? Hc|? Hl|? H1 H2 H3]; subst; [contradiction|reflexivity]).
  now apply document_dict in H.
Qed.
Theorem C64_both_end : forall E f o cls j j', default_deserializers E f -> default_deserializers E 0 -> fair_validators E f ->
  (forall c, regular (e_ct E c)) -> first_fields_flat E f -> defaults_simple E ->
  plain_options o -> document j -> same j j' -> by_key (e_ct E) (lo_strict o) cls j ->
  exists N, forall n, N <= n ->
    (exists v v', snd (load E n f o cls j) = Done v /\ snd (load E n f o cls j') = Done v' /\ same v v') \/
    (exists e e', snd (load E n f o cls j) = Fail e /\ snd (load E n f o cls j') = Fail e').
Proof.
  intros E f o cls j j' HD H0 HV HR Hf Hdef Ho Hd Hs Hb.
  assert (Hk : keys_settled o) by (intros g k k' Hg Hk; destruct Ho as (_ & X & _); rewrite (X g k Hg) in Hk; injection Hk as <-; now right).
  destruct (C63_load_terminates_flat E f o cls j) as (N & r & Hr & HN); auto; [now apply document_no_meta_entries|].
  destruct (C63_load_terminates_flat E f o cls j') as (N' & r' & Hr' & HN'); auto.
  { apply document_no_meta_entries. eapply document_same; eauto. }
  exists (Nat.max N N'). intros n Hn. pose proof (C64_key_order E n f o cls j j' HD HV HR Ho Hd Hs Hb) as X.
  rewrite HN, HN' in * by lia. destruct (snd r) as [v|e|], (snd r') as [v'|e'|]; try contradiction; try congruence.
  - left. exists v, v'. auto.
  - right. exists e, e'. auto.
Qed.

(** ** Classes that meet the hypotheses *)
Lemma take_params_same ps : forall args args', Forall2 (fun a b => fst a = fst b /\ same (snd a) (snd b)) args args' ->
  match take_params ps args, take_params ps args' with
  | Ok at_, Ok at' => map fst at_ = map pa_name ps /\ Forall2 (fun a b => fst a = fst b /\ same (snd a) (snd b)) at_ at'
  | Err _, Err _ => True
  | _, _ => False
  end.
Proof.
  intros args args' H.
  assert (Hl : forall a, orel same (sget a args) (sget a args')).
  { intros a. unfold sget. induction H as [|[k x] [k' x'] r r' [Hk Hx] H IH]; [exact I|]. cbn [fst snd] in *. subst k'.
    cbn [aget]. destruct (String.eqb a k); [exact Hx|exact IH]. }
  induction ps as [|p ps IH]; cbn [take_params]; [split; [reflexivity|constructor]|].
  destruct (take_params ps args) as [r|e], (take_params ps args') as [r'|e']; try contradiction; cbn [rbind]; [|exact I].
  destruct IH as [IH1 IH2]. specialize (Hl (pa_name p)).
  destruct (sget (pa_name p) args) as [x|], (sget (pa_name p) args') as [x'|]; try contradiction.
  - split; [cbn; now rewrite IH1|]. constructor; [split; [reflexivity|exact Hl]|exact IH2].
  - destruct (pa_default p) as [x|]; [|exact I]. split; [cbn; now rewrite IH1|].
    constructor; [split; [reflexivity|apply sm_refl]|exact IH2].
Qed.
(** A class whose constructor stores its parameters *)
Lemma record_regular m name ps : NoDup (map pa_name ps) -> regular (record_class m name ps).
Proof.
  intros Hn. split.
  - intros args args' H. cbn [record_class ci_init]. unfold init_of.
    assert (Ef : forallb (fun kv => mem_str (fst kv) (map pa_name ps)) args' = forallb (fun kv => mem_str (fst kv) (map pa_name ps)) args).
    { induction H as [|a b r r' [Hk _] H IH]; [reflexivity|]. cbn [forallb]. now rewrite Hk, IH. }
    rewrite Ef. destruct (forallb _ args); [|exact I]. pose proof (take_params_same ps args args' H) as X.
    destruct (take_params ps args) as [at_|e], (take_params ps args') as [at'|e']; try contradiction; [|exact I].
    destruct X as [X1 X2]. split; [now rewrite X1|]. exists at_. split; [reflexivity|exact X2].
  - intros a. left. reflexivity.
Qed.
Lemma demo_regular c : regular (demo_ct c).
Proof.
  destruct c as [|[|[|[|[|c]]]]]; try (apply record_regular; cbn; repeat constructor; cbn; intuition discriminate);
    (split; [intros; exact I|intros a; right; intros; exists (exn_of KAttribute); split; reflexivity]).
Qed.
Lemma demo_fair : fair_validators demo_env 0.
Proof. intros t p v v' H. discriminate. Qed.

(** ** Examples *)
(** The keys of a Group, of its lead and of its first member are swapped. *)
Definition group_doc2 : value :=
  str_dict [("members", VList [str_dict [("name", VStr "John"); ("age", VInt 30)]; mary_doc]);
            ("lead", str_dict [("name", VStr "Mary"); ("age", VInt 31)])].
Lemma swapped a x b y x' y' : same x x' -> same y y' -> same (str_dict [(a, x); (b, y)]) (str_dict [(b, y'); (a, x')]).
Proof.
  intros Hx Hy. apply (sm_dict DkDict _ [(VStr b, y); (VStr a, x)]); [apply perm_swap|].
  constructor; [split; [reflexivity|exact Hy]|]. constructor; [split; [reflexivity|exact Hx]|constructor].
Qed.
Lemma group_swapped : same group_doc group_doc2.
Proof.
  apply swapped.
  - apply swapped; apply sm_refl.
  - apply sm_list. constructor; [apply swapped; apply sm_refl|]. constructor; [apply sm_refl|constructor].
Qed.
Lemma two_keys a x b y : a <> b -> ~ In a ["-meta"; "-keys"] -> ~ In b ["-meta"; "-keys"] -> document x -> document y ->
  document (str_dict [(a, x); (b, y)]).
Proof.
  intros Hab Ha Hb Hx Hy. apply dc_dict; cbn [map fst].
  - apply Forall_cons; [|apply Forall_cons; [|apply Forall_nil]].
    + exists a. split; [reflexivity|]. split; intros ->; apply Ha; cbn; tauto.
    + exists b. split; [reflexivity|]. split; intros ->; apply Hb; cbn; tauto.
  - constructor; [intros [H|[]]; congruence|]. constructor; [intros []|constructor].
  - constructor; [exact Hx|]. constructor; [exact Hy|constructor].
Qed.
Lemma person_document a s : document (str_dict [("age", VInt a); ("name", VStr s)]).
Proof. apply two_keys; cbn; try (intuition discriminate); now apply dc_scalar. Qed.
Lemma group_document : document group_doc.
Proof.
  apply two_keys; cbn; try (intuition discriminate); [apply person_document|].
  apply dc_list. apply Forall_cons; [apply person_document|]. apply Forall_cons; [apply person_document|constructor].
Qed.
Lemma person_by_key a s : by_key demo_ct false (Some (TClass 1)) (str_dict [("age", VInt a); ("name", VStr s)]).
Proof.
  apply bk_object.
  - apply demo_ordinary.
  - reflexivity.
  - intros p x Hp Hx. apply bk_rigid, rg_scalar. cbn in Hx. destruct Hx as [Hx|[Hx|[]]]; injection Hx as _ <-; exact I.
  - intros b x Hx _. apply bk_rigid, rg_scalar. cbn in Hx. destruct Hx as [Hx|[Hx|[]]]; injection Hx as _ <-; exact I.
Qed.
Lemma group_by_key : by_key demo_ct false (Some (TClass 2)) group_doc.
Proof.
  apply bk_object.
  - apply demo_ordinary.
  - reflexivity.
  - intros p x Hp Hx. cbn in Hp, Hx. destruct Hp as [<-|[<-|[]]], Hx as [Hx|[Hx|[]]]; try discriminate Hx; injection Hx as <-; cbn [pa_hint].
    + apply bk_list; [exact I|]. apply Forall_cons; [apply person_by_key|]. apply Forall_cons; [apply person_by_key|constructor].
    + apply bk_union. constructor; [apply person_by_key|]. constructor; [|constructor]. apply bk_misfit; exact I.
  - intros b x Hx Hn. exfalso. apply Hn. cbn in Hx |- *. destruct Hx as [Hx|[Hx|[]]]; injection Hx as <- _; tauto.
Qed.
Lemma both_done r r' : outcomes_agree r r' -> (exists v, r = Done v) -> (exists v', r' = Done v') ->
  exists v v', same v v' /\ r = Done v /\ r' = Done v'.
Proof. intros H (v & ->) (v' & ->). exists v, v'. auto. Qed.
Example C64_ex : exists v v', same v v' /\
  snd (load demo_env 9 0 lopts0 (Some (TClass 2)) group_doc) = Done v /\
  snd (load demo_env 9 0 lopts0 (Some (TClass 2)) group_doc2) = Done v'.
Proof.
  apply both_done.
  - apply C64_key_order.
    + intros t. reflexivity.
    + apply demo_fair.
    + apply demo_regular.
    + split; [now left|]. split; [discriminate|reflexivity].
    + apply group_document.
    + apply group_swapped.
    + apply group_by_key.
  - eexists. vm_compute. reflexivity.
  - eexists. vm_compute. reflexivity.
Qed.

(** ** Where the order matters *)
Definition ab : value := str_dict [("a", VInt 1); ("b", VInt 2)].
Definition ba : value := str_dict [("b", VInt 2); ("a", VInt 1)].
Lemma ab_ba : document ab /\ same ab ba.
Proof.
  split; [apply two_keys; cbn; try (intuition discriminate); now apply dc_scalar|]. apply swapped; apply sm_refl.
Qed.
Definition differ (r r' : outcome value) : Prop := exists v v', r = Done v /\ r' = Done v' /\ ~ same v v'.
(** A dict given where a list is expected: its keys are loaded, in order. *)
Theorem C64_list_refuted :
  differ (snd (load demo_env 9 0 lopts0 (Some (TApp true HList [TPrim PStr])) ab))
         (snd (load demo_env 9 0 lopts0 (Some (TApp true HList [TPrim PStr])) ba)).
Proof.
  exists (VList [VStr "a"; VStr "b"]), (VList [VStr "b"; VStr "a"]). split; [vm_compute; reflexivity|]. split; [vm_compute; reflexivity|].
  intros H. apply same_list in H as (l & Hl & H). injection Hl as <-. inversion H as [|? ? ? ? Hx _]; subst. inversion Hx.
Qed.
(** Dict[int, int]: "1" and "01" are the same number, and the last one counts. *)
Definition one_doc (a b : string) (x y : Z) : value := str_dict [(a, VInt x); (b, VInt y)].
Lemma last_one k x y : x <> y -> ~ same (VDict DkDict [(k, VInt x)]) (VDict DkDict [(k, VInt y)]).
Proof.
  intros Hn H. apply same_dict in H as (d & Hd & d1 & Hp & Hf). injection Hd as <-. apply Permutation_length_1_inv in Hp. subst d1.
  inversion Hf as [|? ? ? ? [_ Hx] _]; subst. cbn [snd] in Hx. inversion Hx. congruence.
Qed.
Theorem C64_int_keys_refuted :
  same (one_doc "1" "01" 10 20) (one_doc "01" "1" 20 10) /\
  differ (snd (load demo_env 9 0 lopts0 (Some (TApp true HDict [TPrim PInt; TPrim PInt])) (one_doc "1" "01" 10 20)))
         (snd (load demo_env 9 0 lopts0 (Some (TApp true HDict [TPrim PInt; TPrim PInt])) (one_doc "01" "1" 20 10))).
Proof.
  split; [apply swapped; apply sm_refl|].
  exists (VDict DkDict [(VInt 1, VInt 20)]), (VDict DkDict [(VInt 1, VInt 10)]).
  split; [vm_compute; reflexivity|]. split; [vm_compute; reflexivity|]. now apply last_one.
Qed.
(** A key transformer that makes two keys equal, such as one to lower case *)
Definition lower_kt (k : value) : res value := match k with VStr s => Ok (VStr (slower s)) | _ => raise KType end.
Theorem C64_key_transformer_refuted :
  same (one_doc "a" "A" 10 20) (one_doc "A" "a" 20 10) /\
  differ (snd (load demo_env 9 0 (set_kt (Some lower_kt) lopts0) None (one_doc "a" "A" 10 20)))
         (snd (load demo_env 9 0 (set_kt (Some lower_kt) lopts0) None (one_doc "A" "a" 20 10))).
Proof.
  split; [apply swapped; apply sm_refl|].
  exists (VDict DkDict [(VStr "a", VInt 20)]), (VDict DkDict [(VStr "a", VInt 10)]).
  split; [vm_compute; reflexivity|]. split; [vm_compute; reflexivity|]. now apply last_one.
Qed.
(** warn_on_fail: an element with an entry of the wrong type and an entry that a validator
    rejects is dropped or makes the whole load fail, depending on which comes first.  [valid_env]
    has a validator that rejects the number 7. *)
Definition valid_env : env :=
  mkEnv demo_ct demo_rt 0 (fun _ => default_ser demo_ct) (fun _ => default_deser demo_ct)
        (fun _ t => match t with TPrim PInt => Some (fun v => match v with VInt 7 => Ok false | _ => Ok true end) | _ => None end)
        (fun _ _ => true) (fun _ _ => raise KUnknownClass) (fun _ _ _ => raise KType) (fun _ _ _ => raise KType).
Definition bad_ab : value := VList [str_dict [("a", VStr "x"); ("b", VInt 7)]].
Definition bad_ba : value := VList [str_dict [("b", VInt 7); ("a", VStr "x")]].
Definition ints_type : ty := TApp true HList [TApp true HDict [TPrim PStr; TPrim PInt]].
Theorem C64_warn_on_fail_refuted : same bad_ab bad_ba /\
  snd (load valid_env 9 0 (set_warn true lopts0) (Some ints_type) bad_ab) = Done (VList []) /\
  exists e, snd (load valid_env 9 0 (set_warn true lopts0) (Some ints_type) bad_ba) = Fail e /\ e_kind e = KValidation.
Proof.
  split; [apply sm_list; constructor; [apply swapped; apply sm_refl|constructor]|].
  split; [vm_compute; reflexivity|]. eexists. split; vm_compute; reflexivity.
Qed.

Print Assumptions C64_key_order.
Print Assumptions C64_same_value.
Print Assumptions C64_both_end.
Print Assumptions C64_list_refuted.
Print Assumptions C64_int_keys_refuted.
Print Assumptions C64_key_transformer_refuted.
Print Assumptions C64_warn_on_fail_refuted.
