(** * From names to classes: proofs *)
From Verif Require Import PyBaseFacts AttrFacts EngineFacts DumpProofs DumpLaws LoadFacts LoadLaws LoadTypes LoadObject LoadMeta RoundTripProofs LoadSame VerboseProofs VerboseLaws.
From Verif Require Export ResolveSpec.
Local Close Scope Z_scope.
Local Open Scope string_scope.

(** ** Strings *)
Lemma sforall_srev_app p s : forall acc, sforall p (srev_app s acc) = sforall p s && sforall p acc.
Proof.
  induction s as [|x s IH]; intros acc; [reflexivity|]. cbn [srev_app]. rewrite IH. simpl.
  destruct (p x), (sforall p s); reflexivity.
Qed.
Lemma sforall_slstrip p q s : sforall p s = true -> sforall p (slstrip q s) = true.
Proof.
  induction s as [|x s IH]; intros H; [reflexivity|]. cbn [slstrip]. destruct (q x); [|exact H].
  apply IH. simpl in H. now apply andb_true_iff in H.
Qed.
Lemma smem_sstrip c q s : smem c s = false -> smem c (sstrip q s) = false.
Proof.
  rewrite !smem_false. intros H. unfold sstrip, srstrip, srev. rewrite sforall_srev_app. cbn [sforall]. rewrite andb_true_r.
  apply sforall_slstrip. rewrite sforall_srev_app. cbn [sforall]. rewrite andb_true_r. now apply sforall_slstrip.
Qed.
Lemma smem_app c a b : smem c (a ++ b) = smem c a || smem c b.
Proof. unfold smem, sexists. rewrite sforall_app. now rewrite negb_andb. Qed.
Lemma sbutlast_app a x : sbutlast (a ++ String x EmptyString) = a.
Proof.
  induction a as [|y a IH]; [reflexivity|]. cbn [append sbutlast]. rewrite IH. destruct a; reflexivity.
Qed.
Lemma sforall_sbutlast p s : sforall p s = true -> sforall p (sbutlast s) = true.
Proof.
  induction s as [|x s IH]; intros H; [reflexivity|]. cbn [sbutlast]. destruct s as [|y s]; [reflexivity|].
  cbn [sforall] in H |- *. apply andb_true_iff in H as [H1 H2]. apply andb_true_iff. split; [exact H1|]. apply IH. exact H2.
Qed.
Lemma ssplit_cons_app c a s : ssplit c (a ++ String c s) = (ssplit c a ++ ssplit c s)%list.
Proof.
  induction a as [|x a IH]; cbn [append ssplit]; [now rewrite Ascii.eqb_refl|].
  destruct (Ascii.eqb x c); [now rewrite IH|]. rewrite IH. pose proof (ssplit_nonempty c a).
  destruct (ssplit c a) as [|w ws]; [congruence|]. reflexivity.
Qed.
Lemma sjoin_ssplit c s : sjoin (String c EmptyString) (ssplit c s) = s.
Proof.
  induction s as [|x s IH]; [reflexivity|]. cbn [ssplit]. pose proof (ssplit_nonempty c s) as Hne.
  destruct (Ascii.eqb_spec x c) as [->|_].
  - destruct (ssplit c s) as [|w ws]; [congruence|]. cbn [sjoin append]. now rewrite <- IH.
  - destruct (ssplit c s) as [|w ws]; [congruence|]. cbn [sjoin] in *. rewrite <- IH. now destruct ws.
Qed.
Lemma split_dotted m n : smem "." n = false ->
  sjoin "." (removelast (ssplit "." (m ++ "." ++ n))) = m /\ last (ssplit "." (m ++ "." ++ n)) "" = n.
Proof.
  intros Hn. change ("." ++ n) with (String "." n). rewrite ssplit_cons_app, (ssplit_none "." n Hn).
  rewrite removelast_last, last_last. split; [apply sjoin_ssplit|reflexivity].
Qed.
Lemma dotted s : smem "." s = false \/ exists m n, s = m ++ "." ++ n /\ smem "." n = false.
Proof.
  induction s as [|x s IH]; [now left|]. destruct IH as [H|(m & n & -> & Hn)]; [|right; now exists (String x m), n].
  destruct (Ascii.eqb x ".") eqn:Hx.
  - apply Ascii.eqb_eq in Hx. subst x. right. now exists "", s.
  - left. rewrite smem_false in *. cbn [sforall]. now rewrite Hx, H.
Qed.

Section Names.
Variables (P : python) (table : list (string * ty)).
(** ** Names without brackets *)
Lemma get_cls_plain s : bracketed s = false ->
  get_cls_from_str P table s = match py_builtin P s with Some t => Ok t | None => import_cls P table s end.
Proof. unfold bracketed. intros H. unfold get_cls_from_str. unfold cls_step at 1. now rewrite H. Qed.
Lemma absolute_import m : absolute m -> import_module P m = py_module P m.
Proof.
  intros [H1 H2]. destruct m as [|x m]; [congruence|]. unfold import_module.
  destruct (Ascii.eqb_spec x ".") as [->|Hx]; [now elim (H2 m)|].
  destruct x as [[][][][][][][][]]; try reflexivity. now elim Hx.
Qed.
Lemma module_cases m : m = "" \/ (exists r, m = String "." r) \/ absolute m.
Proof.
  destruct m as [|x m]; [now left|]. right. destruct (Ascii.eqb_spec x ".") as [->|Hx]; [left; eauto|].
  right. split; [discriminate|]. intros r H. now injection H.
Qed.
Lemma import_cls_dotted m n : smem "." n = false ->
  import_cls P table (m ++ "." ++ n) =
  match import_module P m with
  | NoModule => lookup_announced table (m ++ "." ++ n)
  | Broken e => if is_attributeerror (e_kind e) || is_valueerror (e_kind e)
                then lookup_announced table (m ++ "." ++ n) else Err e
  | Module attrs => match attrs n with
                    | Some t => Ok t
                    | None => lookup_announced table (m ++ "." ++ n)
                    end
  end.
Proof.
  intros Hn. unfold import_cls. cbv zeta. destruct (split_dotted m n Hn) as [-> ->]. reflexivity.
Qed.
Lemma import_cls_simple s : smem "." s = false -> import_cls P table s = lookup_announced table s.
Proof. intros H. unfold import_cls. rewrite (ssplit_none "." s H). reflexivity. Qed.
Lemma found_import m n r : smem "." n = false -> found P m n r -> import_cls P table (m ++ "." ++ n) = r.
Proof.
  intros Hn [attrs t Ha Hm Ht|e Ha Hm H1 H2|q ->]; rewrite (import_cls_dotted _ _ Hn).
  - now rewrite (absolute_import _ Ha), Hm, Ht.
  - now rewrite (absolute_import _ Ha), Hm, H1, H2.
  - reflexivity.
Qed.
Lemma missing_import m n : smem "." n = false -> missing P m n ->
  import_cls P table (m ++ "." ++ n) = lookup_announced table (m ++ "." ++ n).
Proof.
  intros Hn [Ha Hm|e Ha Hm H|attrs Ha Hm H| ->]; rewrite (import_cls_dotted _ _ Hn).
  - now rewrite (absolute_import _ Ha), Hm.
  - rewrite (absolute_import _ Ha), Hm. now destruct H as [-> | ->]; [|rewrite orb_true_r].
  - now rewrite (absolute_import _ Ha), Hm, H.
  - reflexivity.
Qed.
Theorem plain_denotes s r : bracketed s = false -> (get_cls_from_str P table s = r <-> denotes P table s r).
Proof.
  intros Hb. rewrite (get_cls_plain s Hb). split.
  - intros <-. destruct (py_builtin P s) as [t|] eqn:Hs; [now constructor|].
    destruct (dotted s) as [H|(m & n & -> & Hn)].
    + rewrite (import_cls_simple s H). now apply dn_simple.
    + destruct (module_cases m) as [-> |[(q & ->)|Ha]].
      * rewrite (missing_import "" n Hn) by now apply ms_empty. apply dn_missing; auto. now apply ms_empty.
      * rewrite (found_import (String "." q) n (raise KType) Hn) by (eapply fd_relative; reflexivity).
        apply dn_found; auto. eapply fd_relative; reflexivity.
      * assert (Hcase : (exists r, found P m n r) \/ missing P m n).
        { destruct (py_module P m) as [|e|attrs] eqn:Hm.
          - right. now apply ms_module.
          - destruct (is_attributeerror (e_kind e)) eqn:H1; [right; apply ms_error with e; auto|].
            destruct (is_valueerror (e_kind e)) eqn:H2; [right; apply ms_error with e; auto|].
            left. exists (Err e). now apply fd_error.
          - destruct (attrs n) as [t|] eqn:Ht; [left; exists (Ok t); now apply fd_attribute with attrs|].
            right. now apply ms_attribute with attrs. }
        destruct Hcase as [(r & Hf)|Hf].
        -- rewrite (found_import m n r Hn Hf). now apply dn_found.
        -- rewrite (missing_import m n Hn Hf). now apply dn_missing.
  - intros [s' t H|m n r' H Hn Hf|m n H Hn Hf|s' H Hn]; rewrite H; [reflexivity|now apply found_import|now apply missing_import|now apply import_cls_simple].
Qed.

(** ** Names with brackets *)
Lemma each_ext {A B} (h k : A -> res B) l : (forall x, In x l -> h x = k x) -> each h l = each k l.
Proof.
  induction l as [|x l IH]; intros H; [reflexivity|]. cbn [each]. rewrite (H x) by now left.
  rewrite IH by (intros; apply H; now right). reflexivity.
Qed.
Lemma step_rec s r1 r2 : smem "[" s = false -> cls_step P table r1 s = cls_step P table r2 s.
Proof. intros H. unfold cls_step. now rewrite H. Qed.
(** The definition satisfies the recursive equation of the code. *)
Lemma get_cls_unfold s : get_cls_from_str P table s = cls_step P table (get_cls_from_str P table) s.
Proof.
  unfold get_cls_from_str at 1, cls_step at 1. unfold cls_step at 2.
  destruct (py_builtin P s); [reflexivity|]. destruct (smem "[" s && smem "]" s); [|reflexivity].
  unfold generic_cls. pose proof (ssplit_pieces_free "[" s) as Hp.
  destruct (ssplit "[" s) as [|a [|b [|? ?]]]; try reflexivity.
  inversion Hp as [|? ? Ha Hp']; subst. inversion Hp' as [|? ? Hb _]; subst.
  assert (G : forall x, smem "[" x = false -> cls_step P table (import_cls P table) x = get_cls_from_str P table x).
  { intros x Hx. unfold get_cls_from_str. now apply step_rec. }
  rewrite (G a Ha). rewrite (each_ext _ (fun x => get_cls_from_str P table (sstrip is_space x))); [reflexivity|].
  intros x Hx. apply G. apply smem_sstrip.
  assert (Hbl : smem "[" (sbutlast b) = false) by (rewrite smem_false in *; now apply sforall_sbutlast).
  rewrite smem_false in *. pose proof (ssplit_pieces_forall (fun y => negb (Ascii.eqb y "[")) "," (sbutlast b) Hbl) as HF.
  rewrite Forall_forall in HF. now apply HF.
Qed.
Lemma each_ok {A B} (h : A -> res B) l ys : each h l = Ok ys <-> Forall2 (fun x y => h x = Ok y) l ys.
Proof.
  revert ys. induction l as [|x l IH]; intros ys; cbn [each].
  - split; [intros H; injection H as <-; constructor|intros H; now inversion H].
  - destruct (h x) as [y|e] eqn:Hx; cbn [rbind]; [|split; [discriminate|intros H; inversion H; congruence]].
    destruct (each h l) as [ys'|e] eqn:Hl; cbn [rbind].
    + split; [intros H; injection H as <-; constructor; [exact Hx|now apply IH]|].
      intros H. inversion H; subst. assert (Ok ys' = Ok l') by now apply IH. congruence.
    + split; [discriminate|]. intros H. inversion H; subst. assert (Err e = Ok l') by now apply IH. discriminate.
Qed.
Lemma smem_sjoin c sep ws : smem c sep = false -> Forall (fun w => smem c w = false) ws -> smem c (sjoin sep ws) = false.
Proof.
  intros Hs H. induction H as [|w ws Hw H IH]; [reflexivity|]. cbn [sjoin]. destruct ws as [|w2 ws]; [exact Hw|].
  rewrite !smem_app. now rewrite Hw, Hs, IH.
Qed.
Theorem generic_names a ws t : py_builtin P (a ++ "[" ++ sjoin "," ws ++ "]") = None ->
  smem "[" a = false -> ws <> [] -> (forall w, In w ws -> smem "[" w = false /\ smem "," w = false) ->
  get_cls_from_str P table (a ++ "[" ++ sjoin "," ws ++ "]") = Ok t <->
  exists u us, get_cls_from_str P table a = Ok u /\
    Forall2 (fun w x => get_cls_from_str P table (sstrip is_space w) = Ok x) ws us /\ py_index P u us = Ok t.
Proof.
  intros Hb Ha Hne Hws. rewrite get_cls_unfold. unfold cls_step. rewrite Hb.
  assert (H1 : smem "[" (a ++ "[" ++ sjoin "," ws ++ "]") = true) by (rewrite !smem_app; simpl; now rewrite orb_true_r).
  assert (H2 : smem "]" (a ++ "[" ++ sjoin "," ws ++ "]") = true) by (rewrite !smem_app; change (smem "]" "]") with true; now rewrite !orb_true_r).
  rewrite H1, H2. cbn [andb]. unfold generic_cls.
  assert (Hj : smem "[" (sjoin "," ws ++ "]") = false).
  { rewrite smem_app, smem_sjoin; [reflexivity|reflexivity|]. apply Forall_forall. intros w Hw. now apply Hws. }
  change ("[" ++ sjoin "," ws ++ "]") with (String "[" (sjoin "," ws ++ "]")).
  rewrite (ssplit_app_sep "[" a _ Ha), (ssplit_none "[" _ Hj). change "]" with (String "]" EmptyString). rewrite sbutlast_app.
  rewrite (ssplit_sjoin "," ws Hne) by (apply Forall_forall; intros w Hw; now apply Hws).
  destruct (get_cls_from_str P table a) as [u|e]; cbn [rbind]; [|split; [discriminate|intros (? & ? & ? & _); discriminate]].
  destruct (each _ ws) as [us|e] eqn:He; cbn [rbind].
  - apply each_ok in He. split; [intros H; exists u, us; auto|]. intros (u' & us' & Hu & Hus & Ht). injection Hu as <-.
    apply each_ok in He. apply each_ok in Hus. rewrite He in Hus. injection Hus as <-. exact Ht.
  - split; [discriminate|]. intros (u' & us' & _ & Hus & _). apply each_ok in Hus. rewrite He in Hus. discriminate.
Qed.
Theorem nested_brackets a b c : py_builtin P (a ++ "[" ++ b ++ "[" ++ c) = None ->
  smem "]" (a ++ "[" ++ b ++ "[" ++ c) = true ->
  get_cls_from_str P table (a ++ "[" ++ b ++ "[" ++ c) = raise KValue.
Proof.
  intros Hb Hc. rewrite get_cls_unfold. unfold cls_step. rewrite Hb, Hc.
  assert (H1 : smem "[" (a ++ "[" ++ b ++ "[" ++ c) = true) by (rewrite !smem_app; simpl; now rewrite orb_true_r).
  rewrite H1. cbn [andb]. unfold generic_cls.
  change ("[" ++ b ++ "[" ++ c) with (String "[" (b ++ String "[" c)). rewrite !ssplit_cons_app.
  pose proof (ssplit_nonempty "[" a). pose proof (ssplit_nonempty "[" b). pose proof (ssplit_nonempty "[" c).
  destruct (ssplit "[" a) as [|? [|? ?]]; [congruence| |]; destruct (ssplit "[" b) as [|? [|? ?]]; try congruence;
    destruct (ssplit "[" c) as [|? ?]; try congruence; try reflexivity.
  all: cbn [app]. all: match goal with |- context [(?l ++ _)%list] => destruct l; reflexivity end.
Qed.
End Names.

(** ** What a dump announces are types of the program *)
Section Types.
Variables (E : env) (f : nat) (T : ty -> Prop).
Hypothesis HP : program E T.
Definition fine_events {A} (m : M A) : Prop := forall f' t, In (EvAnnounce f' t) (fst m) -> f' = f /\ T t.
Lemma fe_ret {A} (a : A) : fine_events (ret a).
Proof. intros f' t []. Qed.
Lemma fe_fail {A} e : fine_events (@fail A e).
Proof. intros f' t []. Qed.
Lemma fe_lift {A} (r : res A) : fine_events (lift r).
Proof. destruct r; intros f' t []. Qed.
Lemma fe_bind {A B} (m : M A) (k : A -> M B) : fine_events m -> (forall a, snd m = Done a -> fine_events (k a)) -> fine_events (mbind m k).
Proof.
  intros H1 H2 f' t. unfold mbind. destruct (snd m) as [a|e|] eqn:Hm; cbn [fst]; try apply H1.
  rewrite in_app_iff. intros [H|H]; [now apply H1|]. eapply H2; [reflexivity|exact H].
Qed.
Lemma fe_try {A} (m : M A) h : fine_events m -> (forall e, fine_events (h e)) -> fine_events (mtry m h).
Proof.
  intros H1 H2 f' t. unfold mtry. destruct (snd m) as [a|e|]; try apply H1. cbn [fst]. rewrite in_app_iff.
  intros [H|H]; [now apply H1|]. eapply H2; exact H.
Qed.
Lemma fe_catch {A} (m : M A) : fine_events m -> fine_events (mcatch m).
Proof. intros H f' t. unfold mcatch. destruct (snd m); apply H. Qed.
Lemma fe_map {A B} (k : A -> M B) l : (forall x, In x l -> fine_events (k x)) -> fine_events (mmap k l).
Proof.
  induction l as [|x l IH]; intros H; cbn [mmap]; [apply fe_ret|]. apply fe_bind; [apply H; now left|]. intros y _.
  apply fe_bind; [apply IH; intros; apply H; now right|]. intros. apply fe_ret.
Qed.
Lemma fe_emit t : T t -> fine_events (emit (EvAnnounce f t)).
Proof. intros H f' t' [Heq|[]]. injection Heq as <- <-. auto. Qed.
Lemma fe_warn f' code : fine_events (warn E f' code).
Proof. unfold warn. destruct (e_warn E f' code); intros f'' t; cbn; [intros [H|[]]; discriminate|intros []]. Qed.

Section Step.
Variable ser : sopts -> option shandler -> option ty -> value -> M value.
Hypothesis Hser : forall o h cls v, given T o cls -> fine_events (ser o h cls v).
Lemma given_class o cls v : given T o cls -> T match cls with Some t => t | None => class_of v end.
Proof. intros [H _]. destruct cls as [t|]; [now apply H|apply HP]. Qed.
Lemma given_none o cls : given T o cls -> given T o None.
Proof. intros [_ H]. split; [discriminate|exact H]. Qed.
Lemma given_some o cls t : given T o cls -> T t -> given T o (Some t).
Proof. intros [_ H] Ht. split; [intros u Hu; now injection Hu as <-|exact H]. Qed.
Lemma given_args o cls t : given T o cls -> In t (get_args cls) -> T t.
Proof.
  intros [H _] Hin. destruct cls as [u|]; [|destruct Hin]. specialize (H u eq_refl). cbn [get_args] in Hin.
  destruct u; try (now destruct Hin).
  - cbn [raw_args] in Hin. destruct args as [|t0 args]; [destruct Hin|]. eapply (pg_args E T HP); eassumption.
  - eapply (pg_union E T HP); eassumption.
Qed.
Lemma fe_dump o cls v : given T o cls -> fine_events (dump_ E f ser o cls v).
Proof.
  intros H. unfold dump_. apply fe_bind; [apply fe_emit; now apply (given_class o)|]. intros _ _. unfold wrap_ser.
  apply fe_try; [now apply Hser|]. intros. apply fe_fail.
Qed.
Lemma fe_iterable o cls v : given T o None -> (forall t, In t (get_args cls) -> T t) -> fine_events (ser_iterable E f ser o cls v).
Proof.
  intros Ho H. unfold ser_iterable. cbv zeta. apply fe_bind; [apply fe_lift|]. intros l _. apply fe_bind; [apply fe_lift|]. intros cls_ Hc.
  apply lift_done in Hc.
  assert (Hnone : forall t, In t (get_args None) -> T t) by (intros t []).
  assert (Hg : forall t, In t (get_args cls_) -> T t).
  { destruct (so_strict o); [|injection Hc as <-; exact Hnone].
    unfold determine_cls in Hc. destruct cls as [t|]; [injection Hc as <-; exact H|].
    assert (Hr : forall w u, In u (get_args (Some (rt_type (e_rt E) w))) -> T u).
    { intros w u. apply given_args with o. apply given_some with None; [exact Ho|apply HP]. }
    destruct v as [| | | |s|l1|l1|c l1|k d| | |c l1|]; try (injection Hc as <-; exact H).
    - destruct s; injection Hc as <-; [exact H|apply Hr].
    - destruct l1; injection Hc as <-; [exact H|apply Hr].
    - destruct l1; injection Hc as <-; [exact H|apply Hr].
    - destruct c, l1; try discriminate; injection Hc as <-; exact H.
    - destruct d; try discriminate; injection Hc as <-; exact H.
    - destruct l1; injection Hc as <-; [exact H|apply Hr]. }
  clear Hc. apply fe_bind; [apply fe_lift|]. intros subs Hs. apply lift_done in Hs.
  apply fe_bind; [|intros; apply fe_ret]. apply fe_map. intros [x c] Hin. cbn [fst snd]. apply fe_dump.
  apply in_combine_r in Hin. unfold get_subclasses in Hs.
  assert (Hin' : forall t, c = Some t -> In t (get_args cls_)).
  { intros t ->. destruct (get_args cls_) as [|t1 [|t2 ts]].
    - injection Hs as <-. apply repeat_spec in Hin. discriminate.
    - injection Hs as <-. apply repeat_spec in Hin. injection Hin as ->. now left.
    - destruct (Nat.eqb _ _); [|discriminate]. injection Hs as <-. change (In (Some t) (map Some (t1 :: t2 :: ts))) in Hin.
      apply in_map_iff in Hin as (u & Hu & Hin). injection Hu as ->. exact Hin. }
  destruct Ho as [_ Ho]. split; [|exact Ho]. intros t Ht. apply Hg. now apply Hin'.
Qed.
Lemma fe_dict_go o v keys : given T o None -> forall acc, fine_events (ser_dict_go E f ser o v keys acc).
Proof.
  intros H. induction keys as [|key keys IH]; intros acc; cbn [ser_dict_go]; [apply fe_ret|].
  apply fe_bind; [apply fe_lift|]. intros x _. apply fe_bind.
  - unfold store_and_hash. destruct (json_key (e_ct E) key); [apply fe_ret|]. apply fe_bind; [now apply fe_dump|]. intros dk _.
    destruct (json_key (e_ct E) dk); [apply fe_ret|]. cbv zeta. destruct (dget (VStr "-keys") acc) as [[]|]; try apply fe_ret; apply fe_fail.
  - intros rk _. apply fe_bind.
    + apply fe_dump. destruct H as [_ H]. split; [|intros k t []]. intros t Ht.
      assert (G : forall l : list (value * ty), aget py_eqb key l = Some t -> exists k, In (k, t) l).
      { induction l as [|[k u] l IHl]; [discriminate|]. cbn [aget]. destruct (py_eqb key k).
        - intros Hu. injection Hu as ->. exists k. now left.
        - intros Hu. destruct (IHl Hu) as (k' & Hk). exists k'. now right. }
      destruct (G _ Ht) as (k & Hk). now apply (H k).
    + intros d _. destruct (so_strip_nulls o && is_none d); [apply IH|]. apply fe_bind; [apply fe_lift|]. intros. apply IH.
Qed.
Lemma fe_union_go o cls v : given T o cls -> forall ts, (forall t, In t ts -> T t) -> fine_events (ser_union_go E f ser o v ts).
Proof.
  intros H. induction ts as [|t ts IH]; intros Ht; cbn [ser_union_go]; [apply fe_fail|]. apply fe_try.
  - apply fe_dump. apply given_some with cls; [exact H|]. apply Ht. now left.
  - intros e. destruct (is_jsons (e_kind e)); [|apply fe_fail]. apply IH. intros; apply Ht; now right.
Qed.
Lemma fe_do_serialize o public v attrs : (forall k t, In (k, t) (so_types o) -> T t) ->
  (forall a t, In (a, Some t) attrs -> T t) -> forall acc, fine_events (do_serialize E f ser o public v attrs acc).
Proof.
  intros Ho. induction attrs as [|[a c] attrs IH]; intros Ha acc; cbn [do_serialize]; [apply fe_ret|].
  apply fe_bind; [apply fe_lift|]. intros x _. cbv zeta.
  assert (Hg : given T o c) by (split; [intros t ->; apply (Ha a); now left|exact Ho]).
  apply fe_bind; [apply fe_emit; now apply (given_class o)|]. intros _ _. apply fe_bind.
  - apply fe_catch. apply fe_bind; [now apply Hser|]. intros. apply fe_ret.
  - intros r _. assert (IH' : forall acc, fine_events (do_serialize E f ser o public v attrs acc)) by (apply IH; intros a' t Hin; apply (Ha a'); now right).
    destruct r as [d|e].
    + destruct (so_strip_nulls o && is_none d); [apply IH'|]. apply fe_bind; [apply fe_lift|]. intros. apply IH'.
    + destruct (so_strict o); [apply fe_fail|]. destruct (e_noargs e); [apply fe_fail|].
      apply fe_bind; [apply fe_warn|]. intros. apply fe_ret.
Qed.
Lemma filter_attrs_in ms o st l r : filter_attrs ms o st l = Ok r -> forall at_, In at_ r -> In at_ l.
Proof.
  revert r. induction l as [|[a t] l IH]; intros r H at_ Hin; cbn [filter_attrs] in H; [injection H as <-; destruct Hin|].
  destruct (keep_attr ms o st a) as [k|]; [|discriminate]. cbn [rbind] in H.
  destruct (filter_attrs ms o st l) as [r'|]; [|discriminate]. cbn [rbind] in H. injection H as <-.
  destruct k; [destruct Hin as [<-|Hin]; [now left|]|]; right; now apply (IH r').
Qed.
Lemma sset_none_in names : forall (base : list (string * option ty)) a t,
  In (a, Some t) (fold_left (fun d a => sset a None d) names base) -> In (a, Some t) base.
Proof.
  induction names as [|n names IH]; intros base a t H; [exact H|]. cbn [fold_left] in H. apply IH in H. clear IH.
  induction base as [|[k x] base IHb]; unfold sset in *; cbn [aset] in H.
  - destruct H as [H|[]]; discriminate.
  - destruct (String.eqb n k).
    + destruct H as [H|H]; [discriminate|now right].
    + destruct H as [H|H]; [now left|right; now apply IHb].
Qed.
Lemma types_hints c a t : In (a, Some t) (attrs_and_types (e_ct E c)) -> T t.
Proof.
  intros H. unfold attrs_and_types in H. apply sset_none_in in H. destruct (ci_slots (e_ct E c)).
  - apply in_map_iff in H as (x & Hx & _). discriminate.
  - apply in_map_iff in H as ([a' u] & Hx & Hin). cbn [fst snd] in Hx. injection Hx as -> ->. eapply (pg_hint E T HP); exact Hin.
Qed.
Lemma fe_object o cls v : given T o cls -> fine_events (ser_object E f ser o cls v).
Proof.
  intros [Hc Ho]. unfold ser_object. cbv zeta. apply fe_bind; [apply fe_lift|]. intros attrs Ha. apply lift_done in Ha.
  apply fe_bind.
  - apply fe_do_serialize; [exact Ho|].
    assert (G1 : forall t, attrs_from_class E o t = Ok attrs -> forall a u, In (a, Some u) attrs -> T u).
    { intros t Ht a u Hin. unfold attrs_from_class in Ht. destruct (strip_names (so_attr o)) as [st|]; [|discriminate]. cbn [rbind] in Ht.
      assert (Hno : filter_attrs [] o st (map (fun a => (a, None)) (rt_cls_dir (e_rt E) t)) = Ok attrs -> T u).
      { intros Hf. apply (filter_attrs_in _ _ _ _ _ Hf) in Hin. apply in_map_iff in Hin as (x & Hx & _). discriminate. }
      destruct t; try (now apply Hno). apply (filter_attrs_in _ _ _ _ _ Ht) in Hin. eapply types_hints; exact Hin. }
    assert (G2 : attrs_from_object E o v = Ok attrs -> forall a u, In (a, Some u) attrs -> T u).
    { intros Ht a u Hin. unfold attrs_from_object in Ht. destruct (strip_names (so_attr o)) as [st|]; [|discriminate]. cbn [rbind] in Ht.
      assert (Hno : filter_attrs [] o st (map (fun a => (a, None)) (rt_dir (e_rt E) v)) = Ok attrs -> T u).
      { intros Hf. apply (filter_attrs_in _ _ _ _ _ Hf) in Hin. apply in_map_iff in Hin as (x & Hx & _). discriminate. }
      destruct v as [| | | | | | | | | | | |c0 l0]; try (now apply Hno). apply (filter_attrs_in _ _ _ _ _ Ht) in Hin. apply in_map_iff in Hin as (x & Hx & _).
      injection Hx as -> Hx. destruct (sget a (attrs_and_types (e_ct E c0))) as [w|] eqn:Hs; [|discriminate]. subst w.
      apply sget_In in Hs. eapply types_hints; exact Hs. }
    destruct cls as [t|]; [|now apply G2]. destruct (so_strict o); [now apply (G1 t)|now apply G2].
  - intros d _. destruct (so_store_cls o); [apply fe_ret|apply fe_lift].
Qed.
Lemma fe_time strip p v : fine_events (ser_time_like E f strip p v).
Proof.
  unfold ser_time_like. apply fe_bind; [apply fe_lift|]. intros sw _. apply fe_bind; [|intros; apply fe_ret].
  destruct (snd sw); [apply fe_warn|apply fe_ret].
Qed.
Lemma fe_step o h cls v : given T o cls -> fine_events (ser_step E f ser o h cls v).
Proof.
  intros H. destruct h as [h|]; [|apply fe_fail]. pose proof (given_none _ _ H) as Hn.
  destruct h; cbn [ser_step]; try apply fe_time; try apply fe_lift.
  - unfold ser_tuple.
    assert (G : fine_events match cls with
                | None => ser_iterable E f ser o None v
                | Some t => match raw_args t with
                            | None => fail (exn_of KAttribute)
                            | Some args => if ty_eqb TEllipsis (last args TAny)
                                then dom l <- lift (py_iter (e_rt E) v);
                                     ser_iterable E f ser o (Some (TApp true HTuple (repeat (hd TAny args) (length l)))) v
                                else ser_iterable E f ser o (Some t) v
                            end
                end).
    { pose proof (fun t => given_args _ _ t H) as Hargs. destruct cls as [t|]; [|now apply fe_iterable].
      cbn [get_args] in Hargs. destruct (raw_args t) as [args|] eqn:Hr; [|apply fe_fail].
      destruct (ty_eqb TEllipsis (last args TAny)) eqn:Hel; [|apply fe_iterable; [exact Hn|]; cbn [get_args]; now rewrite Hr].
      apply fe_bind; [apply fe_lift|]. intros l _. apply fe_iterable; [exact Hn|]. intros u Hu. apply Hargs.
      assert (Hne : args <> []) by (intros ->; discriminate Hel).
      assert (Hu' : u = hd TAny args).
      { cbn [get_args raw_args] in Hu. destruct (repeat (hd TAny args) (length l)) as [|w ws] eqn:Hrep; [destruct Hu|].
        rewrite <- Hrep in Hu. now apply repeat_spec in Hu. }
      subst u. destruct args; [congruence|now left]. }
    destruct v; try exact G. unfold ser_namedtuple. apply fe_bind; [|intros; apply fe_ret]. apply fe_map. intros a _.
    apply fe_bind; [apply fe_lift|]. intros x _. apply fe_bind; [now apply fe_dump|]. intros; apply fe_ret.
  - apply fe_bind; [apply fe_lift|]. intros re _. apply fe_bind; [apply fe_lift|]. intros; apply fe_ret.
  - destruct v as [| | | | | | | | |x| | |]; try apply fe_fail. destruct x; try apply fe_fail.
    apply fe_bind; [now apply fe_dump|]. intros; apply fe_ret.
  - destruct v as [| | | | | | | | |x| | |]; try apply fe_fail. destruct x; try apply fe_fail. apply fe_ret.
  - unfold ser_dict. apply fe_bind; [apply fe_lift|]. intros keys _. apply fe_bind; [now apply fe_dict_go|]. intros; apply fe_ret.
  - unfold ser_list. destruct (negb (truthy (e_rt E) v)); [apply fe_ret|]. cbv zeta.
    destruct (get_args cls) as [|t ts] eqn:Ha.
    + destruct (so_strict o).
      * apply fe_bind; [apply fe_lift|]. intros x0 _. apply fe_bind; [apply fe_lift|]. intros l _.
        apply fe_bind; [|intros; apply fe_ret]. apply fe_map. intros x _. apply Hser. apply given_some with cls; [exact H|apply HP].
      * apply fe_bind; [apply fe_lift|]. intros l _. apply fe_bind; [|intros; apply fe_ret]. apply fe_map. intros x _. now apply fe_dump.
    + apply fe_bind; [apply fe_lift|]. intros l _. apply fe_bind; [|intros; apply fe_ret]. apply fe_map. intros x _.
      apply Hser. apply given_some with cls; [exact H|]. apply (given_args o cls); [exact H|]. rewrite Ha. now left.
  - apply fe_iterable; [exact Hn|]. intros t. now apply given_args with o.
  - now apply fe_object.
  - unfold ser_union. destruct (match cls with Some t => raw_args t | None => None end) as [ts|] eqn:Hr; [|apply fe_fail].
    destruct (is_none v && existsb (ty_eqb TNoneT) ts); [apply fe_ret|]. apply fe_union_go with cls; [exact H|].
    intros t Ht. apply (given_args o cls); [exact H|]. destruct cls as [u|]; [|discriminate]. cbn [get_args]. now rewrite Hr.
  - destruct v as [| | | | | | | | |x| | |]; try apply fe_fail. destruct x; try apply fe_fail. apply fe_ret.
  - apply fe_bind; [apply fe_lift|]. intros; apply fe_ret.
Qed.
End Step.
Lemma serialize_fine n : forall o h cls v, given T o cls -> fine_events (serialize E f n o h cls v).
Proof.
  induction n as [|n IH]; intros o h cls v H; cbn [serialize]; [intros f' t []|]. now apply fe_step.
Qed.
Theorem announced_types n o cls v f' t : given T o cls -> In (EvAnnounce f' t) (fst (dump E f n o cls v)) -> f' = f /\ T t.
Proof. intros H. apply fe_dump; [|exact H]. apply serialize_fine. Qed.
End Types.

(** ** Announcements *)
Section Announce.
Variable CT : classes.
Lemma same_call_in f t l : existsb (same_call (f, t)) l = true <-> In (f, t) l.
Proof.
  rewrite existsb_exists. split.
  - intros ([f' t'] & Hin & H). unfold same_call in H. cbn [fst snd] in H. apply andb_true_iff in H as [H1 H2].
    apply Nat.eqb_eq in H1. apply ty_eqb_eq in H2. now subst.
  - intros H. exists (f, t). split; [exact H|]. unfold same_call. cbn [fst snd]. now rewrite Nat.eqb_refl, ty_eqb_refl.
Qed.
Variable T : ty -> Prop.
Definition known (st : names) (c : nat) : Prop := sget (ci_name (CT c)) (na_table st) = Some (TClass c).
Definition typed_events (evs : list ev) : Prop := forall f t, In (EvAnnounce f t) evs -> T t.
Lemma announce_known st f t c : own_name CT T c -> T t -> known st c -> known (announce CT st f t) c.
Proof.
  intros Ho Ht Hk. unfold announce. destruct (existsb _ _); [exact Hk|]. unfold known. cbn [na_table].
  destruct (String.eqb_spec (ci_name (CT c)) (class_name CT t)) as [Heq|Hne].
  - rewrite (Ho t Ht (eq_sym Heq)). cbn [class_name]. apply sget_sset_same.
  - rewrite sget_sset_other by exact Hne. exact Hk.
Qed.
Lemma announce_self st f c : undisputed CT st c -> known (announce CT st f (TClass c)) c.
Proof.
  intros Hu. unfold announce. destruct (existsb _ _) eqn:He.
  - apply same_call_in in He. now apply (Hu f).
  - unfold known. cbn [na_table class_name]. apply sget_sset_same.
Qed.
Lemma announce_undisputed st f t c : own_name CT T c -> T t -> undisputed CT st c -> undisputed CT (announce CT st f t) c.
Proof.
  intros Ho Ht Hu f' Hin. unfold announce in *. destruct (existsb _ _) eqn:He; [now apply (Hu f')|]. cbn [na_cached na_table] in *.
  destruct Hin as [Heq|Hin].
  - injection Heq as -> ->. apply sget_sset_same.
  - destruct (String.eqb_spec (ci_name (CT c)) (class_name CT t)) as [Heq|Hne].
    + rewrite (Ho t Ht (eq_sym Heq)). apply sget_sset_same.
    + rewrite sget_sset_other by exact Hne. now apply (Hu f').
Qed.
Lemma typed_tail e evs : typed_events (e :: evs) -> typed_events evs.
Proof. intros H f t Hin. apply (H f). now right. Qed.
Lemma announcements_keep st evs st' c : own_name CT T c -> announcements CT st evs st' -> typed_events evs -> known st c -> known st' c.
Proof.
  intros Ho H. induction H as [st|st f t evs st' H IH|st e evs st' He H IH|st cached evs st' Hi H IH]; intros Ht Hk; auto.
  - apply IH; [now apply typed_tail in Ht|]. apply announce_known; auto. apply (Ht f). now left.
  - apply IH; [now apply typed_tail in Ht|exact Hk].
Qed.
Theorem announced_known st evs st' f c : own_name CT T c -> announcements CT st evs st' -> typed_events evs -> undisputed CT st c ->
  In (EvAnnounce f (TClass c)) evs -> known st' c.
Proof.
  intros Ho H. induction H as [st|st f' t evs st' H IH|st e evs st' He H IH|st cached evs st' Hi H IH]; intros Ht Hu Hin.
  - destruct Hin.
  - destruct Hin as [Heq|Hin].
    + injection Heq as -> ->. eapply announcements_keep; [exact Ho|exact H|now apply typed_tail in Ht|]. now apply announce_self.
    + apply IH; [now apply typed_tail in Ht| |exact Hin]. apply announce_undisputed; auto. apply (Ht f'). now left.
  - destruct Hin as [Heq|Hin]; [now elim (He f (TClass c))|]. apply IH; auto. now apply typed_tail in Ht.
  - apply IH; [exact Ht| |exact Hin]. intros f' Hf. cbn [na_cached na_table] in *. apply (Hu f'). now apply Hi.
Qed.
(** Without forgetting *)
Lemma announcements_all st evs : exists st', announcements CT st evs st'.
Proof.
  revert st. induction evs as [|e evs IH]; intros st; [exists st; constructor|].
  destruct e as [f code|name|c|f t]; try (destruct (IH st) as (st' & H); exists st'; apply an_other; [discriminate|exact H]).
  destruct (IH (announce CT st f t)) as (st' & H). exists st'. now constructor.
Qed.
End Announce.

(** ** What a dump announces *)
Section Dump.
Variables (E : env) (f : nat).
Lemma do_serialize_events n o' v : so_kt o' = None -> so_strip_nulls o' = false ->
  forall fields acc a cls x,
  (forall a' cls', In (a', cls') fields -> exists y d, get_attr E v a' = Ok y /\ snd (dump E f n o' cls' y) = Done d) ->
  In (a, cls) fields -> get_attr E v a = Ok x ->
  incl (fst (dump E f n o' cls x)) (fst (do_serialize E f (serialize E f n) o' false v fields acc)).
Proof.
  intros O1 O2. induction fields as [|[a1 c1] fields IH]; intros acc a cls x Hall Hin Hx; [destruct Hin|].
  destruct (Hall a1 c1 (or_introl eq_refl)) as (y & d & Hy & Hd). cbn [do_serialize]. rewrite Hy, bind_lift_ok. cbv zeta.
  rewrite bind_emit. cbn [fst].
  assert (Hs : snd (serialize E f n o' (e_ser E f match c1 with Some t => t | None => class_of y end) c1 y) = Done d).
  { apply dump_done_iff in Hd. exact Hd. }
  assert (Hm : mcatch (dom d0 <- serialize E f n o' (e_ser E f match c1 with Some t => t | None => class_of y end) c1 y;
                       ret (store_cls_info E (so_store_cls o') d0 y)) =
               (fst (serialize E f n o' (e_ser E f match c1 with Some t => t | None => class_of y end) c1 y),
                Done (inl (store_cls_info E (so_store_cls o') d y)))).
  { rewrite (bind_events _ _ d Hs). unfold mcatch. cbn [fst snd ret]. now rewrite app_nil_r. }
  rewrite Hm. erewrite bind_events by reflexivity. cbn [fst snd]. rewrite O2, O1. cbn [andb]. unfold apply_kt. cbn [rbind hashable].
  rewrite bind_lift_ok. destruct Hin as [Heq|Hin].
  - injection Heq as -> ->. rewrite Hy in Hx. injection Hx as ->. unfold dump, dump_. rewrite bind_emit. cbn [fst].
    set (t := match cls with Some t => t | None => class_of x end).
    assert (Hw : fst (wrap_ser (serialize E f n o' (e_ser E f t) cls x)) = fst (serialize E f n o' (e_ser E f t) cls x)).
    { unfold wrap_ser, mtry. fold t in Hs. rewrite Hs. reflexivity. }
    rewrite Hw. intros e [He|He]; [now left|]. right. apply in_or_app. now left.
  - intros e He. right. apply in_or_app. right. eapply IH; eauto. intros a' cls' H'. apply Hall. now right.
Qed.
End Dump.

Section Tree.
Variables (E : env) (f g : nat) (o : sopts).
Hypothesis HS : default_serializers E f.
Hypothesis HD : default_deserializers E g.
Hypothesis Hdef : dictless_defaults (e_ct E).
Notation CT := (e_ct E).
Lemma object_events n c attrs fs o' cls :
  node_like CT o c -> near_exact o' -> same_selection o o' -> map fst attrs = map pa_name (ci_params (CT c)) ->
  map fst fs = sort_names (map pa_name (ci_params (CT c))) ->
  serializer E f cls (VObj c attrs) = Some SObject -> attrs_dump E f n c attrs o' fs ->
  forall a x, In (a, x) attrs ->
  incl (fst (dump E f n (inner_opts o') (attr_hint (CT c) a) x)) (fst (dump E f (S n) o' cls (VObj c attrs))).
Proof.
  intros HR Hne Hsel Hat Hfs Hs Hds. destruct HR as [HK HO Hna Hrd Hnd Hinit Hmem Hpar].
  destruct Hne as (Hstr & Hkt & Hnull & _ & _ & _ & Hstrip).
  assert (Hsorted : Sorted.StronglySorted slt (map fst fs)) by (rewrite Hfs; apply sort_names_sorted).
  destruct (instance_fields E o' c attrs [] Hstrip Hrd) as (names & Hf & Hs' & Hm').
  assert (Heq : names = map fst fs).
  { apply sorted_unique; auto. intros a. rewrite Hm', Hfs, sort_names_In, Hat. split.
    - intros [[Hin|Hin] Hv]; [exact Hin|]. apply Hmem; [exact Hin|]. now apply selection_visible' with o'.
    - intros Hin. split; [now left|]. apply in_map_iff in Hin as (p & <- & Hp).
      apply selection_visible with o; [exact Hsel|]. now apply Hpar. }
  subst names. destruct (strips_names _ _ Hstrip) as [_ Hno].
  assert (Hget : forall a x, In a (map pa_name (ci_params (CT c))) -> sget a attrs = Some x -> get_attr E (VObj c attrs) a = Ok x).
  { intros a x Hp Hx. apply in_map_iff in Hp as (p & <- & Hp). destruct (Hpar p Hp) as (_ & _ & _ & _ & Hmp).
    unfold get_attr. destruct (sget (pa_name p) (ci_members (CT c))) as [[]|]; try (now elim Hmp); now rewrite Hx. }
  intros a x Hax.
  assert (Ha : In a (map pa_name (ci_params (CT c)))) by (rewrite <- Hat; apply in_map_iff; now exists (a, x)).
  assert (Hgx : sget a attrs = Some x) by (apply sget_NoDup; [now rewrite Hat|exact Hax]).
  unfold dump at 2, dump_ at 1. change (e_ser E f match cls with Some t => t | None => class_of (VObj c attrs) end) with (serializer E f cls (VObj c attrs)).
  rewrite Hs. cbn [serialize]. cbn [ser_step]. rewrite bind_emit. cbn [fst].
  assert (Hobj : ser_object E f (serialize E f n) o' cls (VObj c attrs) =
                 dom d <- do_serialize E f (serialize E f n) (inner_opts o') false (VObj c attrs)
                            (map (fun a => (a, attr_hint (CT c) a)) (map fst fs)) [];
                 if so_store_cls o' then ret (VDict DkDict d) else lift (dict_with_meta E o' (ci_name (CT c)) d)).
  { unfold ser_object. cbv zeta. rewrite Hstr. replace (match cls with Some _ => None | None => None end) with (@None ty) by now destruct cls.
    rewrite Hf, bind_lift_ok. cbn [class_of]. rewrite Hna. cbn [andb]. rewrite Hno. reflexivity. }
  rewrite Hobj. intros e He. right.
  assert (G : forall (m : M (list (value * value))) (k : list (value * value) -> M value), In e (fst m) -> In e (fst (wrap_ser (mbind m k)))).
  { intros m k H. unfold wrap_ser, mtry. assert (In e (fst (mbind m k))).
    { unfold mbind. destruct (snd m); cbn [fst]; try exact H. apply in_or_app. now left. }
    destruct (snd (mbind m k)); auto. cbn [fst]. apply in_or_app. now left. }
  apply G. clear G. revert e He. change (incl (fst (dump E f n (inner_opts o') (attr_hint (CT c) a) x))
    (fst (do_serialize E f (serialize E f n) (inner_opts o') false (VObj c attrs) (map (fun a => (a, attr_hint (CT c) a)) (map fst fs)) []))).
  apply do_serialize_events with a; [exact Hkt|exact Hnull| | |now apply Hget].
  - intros a' cls' Hin. apply in_map_iff in Hin as (b & Hb & Hin). injection Hb as <- <-.
    pose proof Hin as Hin'. apply in_map_iff in Hin as ([b' t] & Hb & Hin). cbn [fst] in Hb. subst b'.
    destruct (Hds _ _ Hin) as (y & d & Hy & Hd & _). exists y, d. split; [|exact Hd]. apply Hget; [|exact Hy].
    rewrite Hfs in Hin'. exact (proj1 (sort_names_In _ _) Hin').
  - apply in_map_iff. exists a. split; [reflexivity|]. rewrite Hfs. now apply sort_names_In.
Qed.
Lemma bound_all {A} (Q : nat -> A -> Prop) (l : list A) :
  (forall x, In x l -> exists N, forall n, N <= n -> Q n x) -> exists N, forall n, N <= n -> forall x, In x l -> Q n x.
Proof.
  induction l as [|x l IH]; intros H; [exists 0; intros n _ x []|].
  destruct (H x (or_introl eq_refl)) as (N1 & H1). destruct IH as (N2 & H2); [intros; apply H; now right|].
  exists (Nat.max N1 N2). intros n Hn y [<-|Hy]; [apply H1; lia|apply H2; [lia|exact Hy]].
Qed.
Definition announces_all (n : nat) (v : value) : Prop := forall o' cls,
  near_exact o' -> same_selection o o' -> (so_class_info o' = false -> so_dump_time o' = false) ->
  cls = None \/ cls = Some (class_of v) ->
  forall c, within v c -> In (EvAnnounce f (TClass c)) (fst (dump E f n o' cls v)).
Lemma part_obj c attrs q c' l : part (VObj c attrs) q (VObj c' l) ->
  (c' = c /\ q = []) \/ exists a x q', In (a, x) attrs /\ part x q' (VObj c' l).
Proof. intros H. inversion H; subst; [now left|]. right. eauto. Qed.
Theorem tree_announces v : tree E g o v -> own_hints CT v -> exists N, forall n, N <= n -> announces_all n v.
Proof.
  revert v. fix IHt 2. intros v Ht Hown. pose proof (tree_good E f g o HS HD Hdef v Ht) as Hg.
  destruct Ht as [c attrs HR Hat Hparts Hacc].
  destruct Hg as (c0 & attrs0 & fs & N & Heq & _ & _ & _ & Hfs & _ & _ & HN). injection Heq as <- <-.
  set (ps := ci_params (CT c)) in *. set (xs := map snd attrs) in *.
  assert (Hattrs : attrs = combine (map pa_name ps) xs) by (rewrite <- Hat; symmetry; apply combine_split').
  assert (Hone : forall px, In px (combine ps xs) -> exists N, forall n, N <= n -> forall o' cls c',
    near_exact o' -> same_selection o o' -> (so_class_info o' = false -> so_dump_time o' = false) ->
    cls = attr_hint (CT c) (pa_name (fst px)) -> within (snd px) c' ->
    In (EvAnnounce f (TClass c')) (fst (dump E f n o' cls (snd px)))).
  { intros [p x] Hin. cbn [fst snd]. destruct (Hparts p x Hin) as [(Hflat & _)|(Htree & _)].
    - exists 0. intros n _ o' cls c' _ _ _ _ (q & l & Hq). exfalso. clear - Hflat Hq. destruct x; try discriminate Hflat; inversion Hq.
    - assert (Hx : forall c2 l2, x = VObj c2 l2 ->
                    attr_hint (CT c) (pa_name p) = None \/ attr_hint (CT c) (pa_name p) = Some (TClass c2)).
      { intros c2 l2 Hx2. subst x. apply (Hown [] c attrs (pa_name p) c2 l2); [constructor|].
        rewrite Hattrs. now apply combine_names. }
      assert (Hox : own_hints CT x).
      { intros q c2 l2 a c3 l3 Hq Hin3. apply (Hown (pa_name p :: q) c2 l2 a c3 l3); [|exact Hin3].
        apply part_attr with x; [|exact Hq]. rewrite Hattrs. now apply combine_names. }
      destruct (IHt x Htree Hox) as (N' & HN'). exists N'. intros n Hn o' cls c' H1 H2 H3 Hc Hw.
      apply (HN' n Hn o' cls); auto. subst cls. clear IHt. destruct Htree as [c2 l2 ? ? ? ?]. cbn [class_of]. now apply (Hx c2 l2). }
  clear IHt. destruct (bound_all _ _ Hone) as (N' & HN'). exists (S (Nat.max N N')). intros [|n] Hn; [lia|].
  intros o' cls Hne Hsel Htime Hcls c' (q & l & Hq). apply part_obj in Hq as [[-> ->]|(a & x & q' & Hin & Hq')].
  - unfold dump, dump_. rewrite bind_emit. cbn [fst]. left. now destruct Hcls as [-> | ->].
  - destruct (HN n ltac:(lia)) as [Hd _].
    assert (Hs : serializer E f cls (VObj c attrs) = Some SObject).
    { unfold serializer. rewrite HS. destruct Hcls as [-> | ->]; cbn [tyof class_of]; apply ser_object_class; apply HR. }
    apply (object_events n c attrs fs o' cls HR Hne Hsel Hat Hfs Hs (Hd o' Hne Hsel Htime) a x Hin).
    assert (Hp : exists p, pa_name p = a /\ In (p, x) (combine ps xs)).
    { rewrite Hattrs in Hin. clear - Hin. revert Hin. generalize xs. induction ps as [|p0 ps0 IH]; intros [|y ys] Hin; try (now destruct Hin).
      cbn [map combine] in Hin. destruct Hin as [Heq|Hin].
      - injection Heq as <- <-. exists p0. split; [reflexivity|now left].
      - destruct (IH ys Hin) as (p & Hp & Hpi). exists p. split; [exact Hp|now right]. }
    destruct Hp as (p & <- & Hp). apply (HN' n ltac:(lia) (p, x) Hp); cbn [fst snd]; auto.
    + now apply near_inner.
    + now exists q', l.
Qed.
End Tree.

(** ** Another way to look up names *)
Section Names'.
Variables (E : env) (P : python) (table : list (string * ty)).
Notation E' := (with_names E P table).
Lemma serialize_names f n : serialize E' f n = serialize E f n.
Proof.
  induction n as [|n IH]; [reflexivity|].
  change (serialize E' f (S n)) with (fun o h cls v => ser_step E' f (serialize E' f n) o h cls v).
  change (serialize E f (S n)) with (fun o h cls v => ser_step E f (serialize E f n) o h cls v).
  rewrite IH. reflexivity.
Qed.
Theorem dump_names f n o cls v : dump E' f n o cls v = dump E f n o cls v.
Proof. unfold dump. rewrite serialize_names. reflexivity. Qed.
Lemma has_type_names g o t v : has_type E g o t v -> has_type E' g o t v.
Proof. intros H. induction H; solve [econstructor; try eassumption; eauto]. Qed.
Lemma tree_names g o v : tree E g o v -> tree E' g o v.
Proof.
  revert v. fix IH 2. intros v [c attrs HR Hat Hparts Hacc]. apply tree_obj; [exact HR|exact Hat| |exact Hacc].
  intros p x Hin. destruct (Hparts p x Hin) as [(H1 & t & H2 & H3 & H4)|(H1 & H2)].
  - left. split; [exact H1|]. exists t. split; [exact H2|]. split; [now apply has_type_names|exact H4].
  - right. split; [now apply IH|exact H2].
Qed.
End Names'.

(** ** The names of classes *)
Section Classes.
Variables (P : python) (CT : classes) (c : nat).
Hypothesis Hplain : plain_name (CT c).
Hypothesis Hbuiltin : py_builtin P (ci_name (CT c)) = None.
Lemma importable_name table : importable P CT c -> get_cls_from_str P table (ci_name (CT c)) = Ok (TClass c).
Proof.
  destruct Hplain as [Hn Hb]. intros (Ha & attrs & Hm & Ht). rewrite (get_cls_plain P table _ Hb), Hbuiltin.
  apply found_import; [exact Hn|]. now apply fd_attribute with attrs.
Qed.
Lemma announced_name table t : unimportable P CT c -> sget (ci_name (CT c)) table = Some t ->
  get_cls_from_str P table (ci_name (CT c)) = Ok t.
Proof.
  destruct Hplain as [Hn Hb]. intros Hm Ht. rewrite (get_cls_plain P table _ Hb), Hbuiltin.
  unfold ci_name. rewrite (missing_import P table _ _ Hn Hm). unfold lookup_announced. fold (ci_name (CT c)). now rewrite Ht.
Qed.
Lemma unannounced_name table : unimportable P CT c -> sget (ci_name (CT c)) table = None ->
  get_cls_from_str P table (ci_name (CT c)) = raise KUnknownClass.
Proof.
  destruct Hplain as [Hn Hb]. intros Hm Ht. rewrite (get_cls_plain P table _ Hb), Hbuiltin.
  unfold ci_name. rewrite (missing_import P table _ _ Hn Hm). unfold lookup_announced. fold (ci_name (CT c)). now rewrite Ht.
Qed.
End Classes.

(** ** Round trips *)
Section RoundTrip.
Variables (E : env) (f g : nat) (o : sopts) (P : python).
Hypothesis HS : default_serializers E f.
Hypothesis HD : default_deserializers E g.
Hypothesis Hdef : dictless_defaults (e_ct E).
Hypothesis Hnear : near_exact o.
Hypothesis Hinfo : so_class_info o = true.
Hypothesis Hstore : so_store_cls o = false.
Notation CT := (e_ct E).
(** In any process in which the names stand for the classes *)
Lemma round_trip_names v : tree E g o v -> no_clash v -> exists j N,
  (forall n dcls, N <= n -> object_cls CT dcls -> snd (dump E f n o dcls v) = Done j) /\
  forall table, (forall c, within v c -> get_cls_from_str P table (ci_name (CT c)) = Ok (TClass c)) ->
  exists M, forall m lo lcls, M <= m -> exact_load lo -> lo_hints lo = None ->
    lcls = None \/ lcls = Some (class_of v) -> snd (load (with_names E P table) m g lo lcls j) = Done v.
Proof.
  intros Ht Hc.
  destruct (verbose_document E f g o HS HD Hdef Hnear Hinfo Hstore v Ht) as (d & hints & N & _ & _ & Hd).
  eexists. exists N. split; [intros n dcls Hn Hdc; now apply Hd|]. intros table Hnames.
  destruct (verbose_round_trip (with_names E P table) f g o HS HD Hdef Hnear Hinfo Hstore v) as (j & N' & HN').
  { now apply tree_names. }
  { intros p c attrs Hp. apply Hnames. now exists p, attrs. }
  { exact Hc. }
  exists N'. intros m lo lcls Hm Hlo Hh Hl.
  destruct (HN' (Nat.max N N') m None lo lcls ltac:(lia) Hm (or_introl eq_refl) Hlo Hh Hl) as [H1 H2].
  rewrite dump_names in H1. destruct (Hd (Nat.max N N') None ltac:(lia) (or_introl eq_refl)) as [H3 _].
  rewrite H3 in H1. injection H1 as <-. exact H2.
Qed.
Theorem other_process v : tree E g o v -> no_clash v ->
  (forall c, within v c -> plain_name (CT c) /\ py_builtin P (ci_name (CT c)) = None /\ importable P CT c) ->
  exists j N, (forall n dcls, N <= n -> object_cls CT dcls -> snd (dump E f n o dcls v) = Done j) /\
  forall table, exists M, forall m lo lcls, M <= m -> exact_load lo -> lo_hints lo = None ->
    lcls = None \/ lcls = Some (class_of v) -> snd (load (with_names E P table) m g lo lcls j) = Done v.
Proof.
  intros Ht Hc Hn. destruct (round_trip_names v Ht Hc) as (j & N & H1 & H2). exists j, N. split; [exact H1|].
  intros table. apply H2. intros c Hw. destruct (Hn c Hw) as (A & B & C). now apply importable_name.
Qed.
(** After the dump the classes are known. *)
Theorem dump_announces T v st : program E T -> (forall k t, In (k, t) (so_types o) -> T t) -> tree E g o v -> own_hints CT v ->
  exists N, forall n dcls st' c, N <= n -> dcls = None \/ dcls = Some (class_of v) ->
    announcements CT st (fst (dump E f n o dcls v)) st' -> within v c -> own_name CT T c -> undisputed CT st c ->
    sget (ci_name (CT c)) (na_table st') = Some (TClass c).
Proof.
  intros Hpg Hty Ht Ho. destruct (tree_announces E f g o HS HD Hdef v Ht Ho) as (N & HN).
  exists N. intros n dcls st' c Hle Hdc Han Hw Hc Hu.
  apply (announced_known CT T st (fst (dump E f n o dcls v)) st' f c); auto.
  - intros f' t Hin. apply (announced_types E f T Hpg n o dcls v f' t) in Hin; [tauto|]. split; [|exact Hty].
    intros u Hu'. destruct Hdc as [-> | ->]; [discriminate|]. injection Hu' as <-. apply Hpg.
  - apply (HN n Hle o dcls Hnear); auto; [repeat split|]. rewrite Hinfo. discriminate.
Qed.
Theorem same_process T v st : program E T -> (forall k t, In (k, t) (so_types o) -> T t) -> tree E g o v -> no_clash v -> own_hints CT v ->
  (forall c, within v c -> plain_name (CT c) /\ py_builtin P (ci_name (CT c)) = None /\
     (importable P CT c \/ (unimportable P CT c /\ own_name CT T c /\ undisputed CT st c))) ->
  exists j N, forall n dcls st', N <= n -> dcls = None \/ dcls = Some (class_of v) ->
    announcements CT st (fst (dump E f n o dcls v)) st' ->
    snd (dump E f n o dcls v) = Done j /\
    exists M, forall m lo lcls, M <= m -> exact_load lo -> lo_hints lo = None ->
      lcls = None \/ lcls = Some (class_of v) ->
      snd (load (with_names E P (na_table st')) m g lo lcls j) = Done v.
Proof.
  intros Hpg Hty Ht Hc Ho Hn. destruct (round_trip_names v Ht Hc) as (j & N & H1 & H2).
  destruct (dump_announces T v st Hpg Hty Ht Ho) as (N' & HN').
  exists j, (Nat.max N N'). intros n dcls st' Hle Hdc Han.
  assert (Hoc : object_cls CT dcls).
  { destruct Hdc as [-> | ->]; [now left|]. right. destruct Ht as [c attrs HR _ _ _]. exists c. split; [reflexivity|].
    split; apply HR. }
  split; [apply H1; [lia|exact Hoc]|]. apply H2. intros c Hw. destruct (Hn c Hw) as (A & B & [C|(C & D & F)]); [now apply importable_name|].
  apply announced_name; auto. apply (HN' n dcls st' c); auto. lia.
Qed.
End RoundTrip.
