(** * C74: load depends on what the document says, not on how it is shared

    load with a heap (HeapLoadModel.v), where a list, dict or object of the document may be
    referred to from many places, against load of trees (EngineDeser.v), which every other
    property of load is about.  Specification: HeapTreeSpec.v.  [read H x] is the tree that the
    object [x] stands for; [n] bounds the number of nested calls of load. *)
From Coq Require Import Lia.
From Verif Require Import EngineEnv HeapTrees.
From Verif Require Export HeapTreeSpec HeapLoadRefine PropHeapLoad.
Local Open Scope string_scope.

(** ** The heap and the tree
    A document that stands for the tree [v] gives what load of [v] gives: an object that stands for
    the same value, or the same exception.  Nothing that existed is changed. *)
Theorem C74_load_is_load_of_the_tree : forall E L n f o cls x v H,
  quiet L -> agree_lenv E L H -> agree_opts L H o -> read H x = Some v -> plain_doc v ->
  same_result (hload E L n f o cls x H) (snd (load E n f o cls v)) /\
  grown H (fst (hload E L n f o cls x H)).
Proof. intros E L n f o cls x v H. exact (hload_refines E L H n f o cls x v). Qed.
(** ** Sharing does not matter
    Two documents that stand for the same tree, whatever they share and in whichever heaps they
    are, give the same: values that stand for the same tree, or the same exception. *)
Definition same_outcomes (r r' : heap * outcome obj) : Prop :=
  match snd r, snd r' with
  | Done y, Done y' => exists w, read (fst r) y = Some w /\ read (fst r') y' = Some w
  | Fail e, Fail e' => e = e'
  | Oof, Oof => True
  | _, _ => False
  end.
Theorem C74_sharing_does_not_matter : forall E L L' n f o cls x x' v H H',
  quiet L -> agree_lenv E L H -> agree_opts L H o ->
  quiet L' -> agree_lenv E L' H' -> agree_opts L' H' o ->
  read H x = Some v -> read H' x' = Some v -> plain_doc v ->
  same_outcomes (hload E L n f o cls x H) (hload E L' n f o cls x' H').
Proof.
  intros E L L' n f o cls x x' v H H' Q A O Q' A' O' Hr Hr' Hp.
  destruct (C74_load_is_load_of_the_tree E L n f o cls x v H Q A O Hr Hp) as [S1 _].
  destruct (C74_load_is_load_of_the_tree E L' n f o cls x' v H' Q' A' O' Hr' Hp) as [S2 _].
  unfold same_outcomes, same_result in *. destruct (snd (load E n f o cls v)) as [w|e|];
    destruct (snd (hload E L n f o cls x H)); try contradiction; destruct (snd (hload E L' n f o cls x' H')); try contradiction; subst; eauto.
Qed.
(** ** Loading again
    A second load of the same document, after whatever else has been made in the meantime
    ([grown]), gives what the first one gave. *)
Lemma read_grown H H' x v : grown H H' -> read H x = Some v -> read H' x = Some v.
Proof. intros G Hr. apply stands_read. apply (stands_keep H); [now apply grown_grows|now apply stands_read]. Qed.
Lemma grown_trans H1 H2 H3 : grown H1 H2 -> grown H2 H3 -> grown H1 H3.
Proof. intros [n1 ->] [n2 ->]. exists (n1 ++ n2)%list. now rewrite app_assoc. Qed.
Lemma agree_grown E L H H' : grown H H' -> agree_lenv E L H -> agree_lenv E L H'.
Proof.
  intros G [A1 A2 A3 A4 A5]. constructor.
  - intros c p v Hp Hd. eapply read_grown; eauto.
  - intros c fd v Hf Hd. destruct (A2 c fd v Hf Hd). split; [eapply read_grown; eauto|assumption].
  - intros c args vs H2 G2. apply A3. now apply (grown_trans H H').
  - intros c a x v l vs H2 G2. apply A4. now apply (grown_trans H H').
  - intros k t x v H2 G2. apply A5. now apply (grown_trans H H').
Qed.
Lemma opts_grown L H H' o : grown H H' -> agree_opts L H o -> agree_opts L H' o.
Proof. intros G [A1 A2]. constructor; [|exact A2]. intros a r H2 G2. apply A1. now apply (grown_trans H H'). Qed.
Theorem C74_loading_again : forall E L n f o cls x v H H',
  quiet L -> agree_lenv E L H -> agree_opts L H o -> read H x = Some v -> plain_doc v ->
  grown (fst (hload E L n f o cls x H)) H' ->
  same_outcomes (hload E L n f o cls x H) (hload E L n f o cls x H').
Proof.
  intros E L n f o cls x v H H' Q A O Hr Hp G.
  destruct (C74_load_is_load_of_the_tree E L n f o cls x v H Q A O Hr Hp) as [_ G1].
  pose proof (grown_trans _ _ _ G1 G) as G2.
  apply (C74_sharing_does_not_matter E L L n f o cls x x v H H'); auto.
  - now apply (agree_grown E L H).
  - now apply (opts_grown L H).
  - now apply (read_grown H).
Qed.

(** *** Cases *)
(** The classes of [team_env] (PropHeapLoad.v) with constructors that keep the very objects they
    are given. *)
Section Storing.
  Variable D : nat -> string -> obj.
  Fixpoint take_objs (c : nat) (ps : list param) (args : list (string * obj)) : res (list (string * obj)) :=
    match ps with
    | [] => Ok []
    | p :: r =>
        dor rest <- take_objs c r args;
        match sget (pa_name p) args with
        | Some x => Ok ((pa_name p, x) :: rest)
        | None => match pa_default p with
                  | Some _ => Ok ((pa_name p, D c (pa_name p)) :: rest)
                  | None => raise KType
                  end
        end
    end.
  Definition init_objs (CT : classes) (c : nat) (args : list (string * obj)) : res (list (string * obj)) :=
    match ci_kind (CT c) with
    | CkObj => if forallb (fun kv => mem_str (fst kv) (map pa_name (ci_params (CT c)))) args
               then take_objs c (ci_params (CT c)) args else raise KType
    | _ => raise KType
    end.
  Definition storing_lenv (CT : classes) : lenv :=
    mkLenv (fun c args => hlift (init_objs CT c args))
           (fun c a y old => match ci_kind (CT c) with CkObj => hret (sset a y old) | _ => hfail (exn_of KAttribute) end)
           (fun _ => hfail (exn_of KKey)) D (fun _ _ => OAtom VNone) (fun _ _ _ => hfail (exn_of KType)).
End Storing.
Lemma reads_sget H l vs a : reads H l vs -> match sget a l, sget a vs with
  | Some x, Some v => read H x = Some v | None, None => True | _, _ => False end.
Proof.
  intros Hr. induction Hr as [|[b x] [b' v] l vs [E1 Hx] _ IH]; [exact I|]. cbn [fst snd] in E1, Hx. subst b'. unfold sget in *. cbn [aget].
  destruct (String.eqb a b); [exact Hx|exact IH].
Qed.
Lemma reads_sset H l vs a x v : read H x = Some v -> reads H l vs -> reads H (sset a x l) (sset a v vs).
Proof.
  intros Hx Hr. induction Hr as [|[b y] [b' w] l vs [E1 Hy] Hl IH]; [constructor; [now split|constructor]|].
  cbn [fst snd] in E1, Hy. subst b'. unfold sset in *. cbn [aset].
  destruct (String.eqb a b); constructor; try exact IH; try exact Hl; now split.
Qed.
Lemma storing_quiet D CT : quiet (storing_lenv D CT).
Proof.
  constructor; intros; intros H; exists []; rewrite app_nil_r; cbn; [now destruct (init_objs D CT c args)|now destruct (ci_kind (CT c))|reflexivity..].
Qed.
Lemma take_objs_rel D H c ps : (forall p v, In p ps -> pa_default p = Some v -> read H (D c (pa_name p)) = Some v) ->
  forall args vs, reads H args vs -> match take_objs D c ps args, take_params ps vs with
    | Ok l, Ok l' => reads H l l' | Err e, Err e' => e = e' | _, _ => False end.
Proof.
  intros Hd args vs Hr. induction ps as [|p ps IH]; cbn [take_objs take_params]; [constructor|].
  specialize (IH (fun q v Hq => Hd q v (or_intror Hq))).
  destruct (take_objs D c ps args), (take_params ps vs); cbn [rbind]; try contradiction; [|exact IH].
  pose proof (reads_sget _ _ _ (pa_name p) Hr) as Hg.
  destruct (sget (pa_name p) args), (sget (pa_name p) vs); try contradiction; [now constructor; [split|]|].
  destruct (pa_default p) as [v|] eqn:Ed; [|reflexivity]. constructor; [split; [reflexivity|]|exact IH]. cbn [snd]. apply Hd; [now left|assumption].
Qed.
Lemma names_rel H l vs (P : string -> bool) : reads H l vs -> forallb (fun kv => P (fst kv)) l = forallb (fun kv => P (fst kv)) vs.
Proof. induction 1 as [|ax av l vs [E1 _] _ IH]; [reflexivity|]. cbn [forallb]. now rewrite E1, IH. Qed.
(** Class tables as in the examples *)
Definition storing_class (ci : cinfo) : Prop :=
  match ci_kind ci with
  | CkObj => ci_init ci = init_of (ci_params ci) /\ ci_set ci = (fun a x attrs => Ok (sset a x attrs))
  | _ => ci_init ci = (fun _ => raise KType) /\ ci_set ci = (fun _ _ _ => raise KAttribute)
  end.
Lemma storing_agrees CT R D H : (forall c, storing_class (CT c)) ->
  (forall c p v, In p (ci_params (CT c)) -> pa_default p = Some v -> read H (D c (pa_name p)) = Some v) ->
  (forall c fd v, In fd (nt_fields CT c) -> nf_default fd = Some v -> v = VNone) ->
  agree_lenv (std_env CT R) (storing_lenv D CT) H.
Proof.
  intros HC HD HF. constructor; cbn [e_ct std_env].
  - exact HD.
  - intros c fd v Hin Hd. rewrite (HF c fd v Hin Hd). split; [reflexivity|]. now constructor.
  - intros c args vs H' G Hr. unfold same_attrs, storing_lenv, init_objs. cbn [le_init]. specialize (HC c). unfold storing_class in HC.
    destruct (ci_kind (CT c)); destruct HC as [-> _]; try reflexivity. unfold init_of.
    rewrite <- (names_rel H' args vs (fun a => mem_str a (map pa_name (ci_params (CT c))))) by exact Hr.
    destruct (forallb _ args); [|reflexivity].
    assert (HD' : forall p v, In p (ci_params (CT c)) -> pa_default p = Some v -> read H' (D c (pa_name p)) = Some v).
    { intros p v Hp Hd. eapply read_grown; [exact G|]. eauto. }
    pose proof (take_objs_rel D H' c (ci_params (CT c)) HD' args vs Hr) as Ht.
    destruct (take_objs D c (ci_params (CT c)) args), (take_params (ci_params (CT c)) vs); try contradiction; exact Ht.
  - intros c a x v l vs H' G Hx Hr. unfold same_attrs, storing_lenv. cbn [le_set]. specialize (HC c). unfold storing_class in HC.
    destruct (ci_kind (CT c)); destruct HC as [_ ->]; try reflexivity. cbn. now apply reads_sset.
  - reflexivity.
Qed.
Definition team_ct : classes := e_ct team_env.
Definition tags_at (r : nat) (c : nat) (a : string) : obj :=
  if Nat.eqb c 5 && String.eqb a "tags" then ORef r else OAtom (VInt 0).
Definition team_storing (r : nat) : lenv := storing_lenv (tags_at r) team_ct.
Lemma team_agrees r H : nth_error H r = Some (NList []) -> agree_lenv team_env (team_storing r) H.
Proof.
  intros Hn. apply (storing_agrees team_ct demo_rt (tags_at r) H).
  - intros c. do 6 (destruct c as [|c]; [now split|]). now split.
  - intros c p v. do 6 (destruct c as [|c]; [cbn; intuition (subst; try discriminate; cbn in *; try congruence)|]); [|intros []].
    match goal with H : Some _ = Some _ |- _ => injection H as <- end. change (read H (ORef r) = Some (VList [])). apply stands_read. exists [r].
    apply (rd_list H r [] [] []); [exact Hn|]. constructor.
  - intros c fd v. do 6 (destruct c as [|c]; [cbn; intuition (subst; cbn in *; congruence)|]). intros [].
Qed.

(** The document of [team_heap], in which everything is shared, and the same without any sharing;
    here the default value of tags is another cell. *)
Definition apart_heap : heap :=
  [NDict DkDict [(atom "name", atom "John"); (atom "age", OAtom (VInt 30))];
   NList [atom "x"];
   NDict DkDict [(atom "name", atom "A"); (atom "lead", ORef 0); (atom "notes", ORef 1)];
   NDict DkDict [(atom "name", atom "John"); (atom "age", OAtom (VInt 30))];
   NList [atom "x"];
   NDict DkDict [(atom "name", atom "A"); (atom "lead", ORef 3); (atom "notes", ORef 4)];
   NList [];
   NList [ORef 2; ORef 5]].
Definition team_doc : value :=
  let t := str_dict [("name", VStr "A"); ("lead", str_dict [("name", VStr "John"); ("age", VInt 30)]); ("notes", VList [VStr "x"])] in
  VList [t; t].
Lemma no_opts L H : agree_opts L H strict_l.
Proof. constructor; [intros a r H' _ []|discriminate]. Qed.
Ltac plain_flat := apply pd_flat; reflexivity.
Lemma team_doc_plain : plain_doc team_doc.
Proof.
  assert (HJ : plain_doc (str_dict [("name", VStr "John"); ("age", VInt 30)])).
  { apply pd_dict.
    - split; [intros k x [Hk|[Hk|[]]]; injection Hk as <- _; eauto|]. repeat constructor; cbn; intuition discriminate.
    - intros x. cbn. intuition discriminate.
    - intros k x [Hk|[Hk|[]]]; injection Hk as _ <-; plain_flat. }
  assert (HT : plain_doc (str_dict [("name", VStr "A"); ("lead", str_dict [("name", VStr "John"); ("age", VInt 30)]); ("notes", VList [VStr "x"])])).
  { apply pd_dict.
    - split; [intros k x [Hk|[Hk|[Hk|[]]]]; injection Hk as <- _; eauto|]. repeat constructor; cbn; intuition discriminate.
    - intros x. cbn. intuition discriminate.
    - intros k x [Hk|[Hk|[Hk|[]]]]; injection Hk as _ <-; [plain_flat|exact HJ|]. apply pd_list. intros x [<-|[]]. plain_flat. }
  apply pd_list. intros x [<-|[<-|[]]]; exact HT.
Qed.
Definition teams_t : option ty := Some (TApp true HList [TClass 5]).
Example C74_shared_case :
  read team_heap (ORef 4) = Some team_doc /\ read apart_heap (ORef 7) = Some team_doc /\
  same_outcomes (hload team_env (team_storing 0) 9 0 strict_l teams_t (ORef 4) team_heap)
                (hload team_env (team_storing 6) 9 0 strict_l teams_t (ORef 7) apart_heap) /\
  same_result (hload team_env (team_storing 0) 9 0 strict_l teams_t (ORef 4) team_heap)
              (snd (load team_env 9 0 strict_l teams_t team_doc)) /\
  snd (load team_env 9 0 strict_l teams_t team_doc) = Done (VList [team_h; team_h]).
Proof.
  assert (H1 : read team_heap (ORef 4) = Some team_doc) by (vm_compute; reflexivity).
  assert (H2 : read apart_heap (ORef 7) = Some team_doc) by (vm_compute; reflexivity).
  assert (A1 : agree_lenv team_env (team_storing 0) team_heap) by now apply team_agrees.
  assert (A2 : agree_lenv team_env (team_storing 6) apart_heap) by now apply team_agrees.
  split; [exact H1|]. split; [exact H2|]. split; [|split].
  - exact (C74_sharing_does_not_matter team_env (team_storing 0) (team_storing 6) 9 0 strict_l teams_t (ORef 4) (ORef 7) team_doc team_heap apart_heap
      (storing_quiet _ _) A1 (no_opts _ _) (storing_quiet _ _) A2 (no_opts _ _) H1 H2 team_doc_plain).
  - exact (proj1 (C74_load_is_load_of_the_tree team_env (team_storing 0) 9 0 strict_l teams_t (ORef 4) team_doc team_heap
      (storing_quiet _ _) A1 (no_opts _ _) H1 team_doc_plain)).
  - vm_compute; reflexivity.
Qed.
Example C74_again_case :
  let r := hload team_env (team_storing 0) 9 0 strict_l teams_t (ORef 4) team_heap in
  same_outcomes r (hload team_env (team_storing 0) 9 0 strict_l teams_t (ORef 4) (fst r ++ [NList [ORef 0]])%list).
Proof.
  intros r. apply (C74_loading_again team_env (team_storing 0)) with (v := team_doc).
  - apply storing_quiet.
  - now apply team_agrees.
  - apply no_opts.
  - vm_compute; reflexivity.
  - exact team_doc_plain.
  - exists [NList [ORef 0]]. fold r. exact eq_refl.
Qed.

(** ** A shared '-keys' section
    The condition on '-keys' sections is needed: the same dict twice in a list, loaded as
    List[Dict[int, str]].  The first use empties the section, and so the second one fails, while
    the same document without sharing is loaded. *)
Definition twice_heap : heap := (keyed_heap ++ [NList [ORef 1; ORef 1]])%list.
Definition apart_keyed : heap :=
  (keyed_heap ++ [NDict DkDict [(atom "h", OAtom (VInt 1))];
                  NDict DkDict [(atom "h", atom "a"); (atom "-keys", ORef 2)]; NList [ORef 1; ORef 3]])%list.
Definition keyed_list : option ty := Some (TApp true HList [TApp true HDict [TPrim PInt; TPrim PStr]]).
Theorem C74_shared_sections_refuted : exists E L n f o cls x x' v w e H H',
  quiet L /\ agree_lenv E L H /\ agree_lenv E L H' /\ agree_opts L H o /\ agree_opts L H' o /\
  read H x = Some v /\ read H' x' = Some v /\
  snd (load E n f o cls v) = Done w /\
  (exists y, snd (hload E L n f o cls x' H') = Done y /\ read (fst (hload E L n f o cls x' H')) y = Some w) /\
  snd (hload E L n f o cls x H) = Fail e /\ e_kind e = KDeser.
Proof.
  pose (D := fun (c : nat) (a : string) => if Nat.eqb c 5 && String.eqb a "tags" then OAtom VNone else OAtom (VInt 0)).
  exists demo_env, (storing_lenv D demo_ct), 9, 0, strict_l, keyed_list, (ORef 2), (ORef 4).
  eexists. eexists. eexists. exists twice_heap, apart_keyed.
  assert (A : forall H, agree_lenv demo_env (storing_lenv D demo_ct) H).
  { intros H. apply (storing_agrees demo_ct demo_rt D H).
    - intros c. do 5 (destruct c as [|c]; [now split|]). now split.
    - intros c p v. do 5 (destruct c as [|c]; [cbn; intuition (subst; try discriminate; cbn in *; try congruence)|]). intros [].
    - intros c fd v. do 5 (destruct c as [|c]; [cbn; intuition (subst; cbn in *; congruence)|]). intros []. }
  split; [apply storing_quiet|]. split; [apply A|]. split; [apply A|]. split; [apply no_opts|]. split; [apply no_opts|].
  split; [vm_compute; reflexivity|]. split; [vm_compute; reflexivity|]. split; [vm_compute; reflexivity|].
  split; [eexists; split; [vm_compute; reflexivity|vm_compute; reflexivity]|]. split; [vm_compute; reflexivity|]. vm_compute; reflexivity.
Qed.
Print Assumptions C74_load_is_load_of_the_tree.
Print Assumptions C74_sharing_does_not_matter.
Print Assumptions C74_loading_again.
Print Assumptions C74_shared_sections_refuted.
