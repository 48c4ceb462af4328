(** * Proofs: a dump of a well-founded value ends *)
From Verif Require Import PyBaseFacts EngineEnv DumpLaws DumpProofs AttrFacts TerminationSpec.
Local Open Scope string_scope.

Definition ends {A} (m : M A) : Prop := snd m <> Oof.
Lemma ends_bind {A B} (m : M A) (k : A -> M B) :
  ends m -> (forall a, snd m = Done a -> ends (k a)) -> ends (mbind m k).
Proof. unfold ends, mbind. destruct (snd m) as [a|e|]; cbn; intros H H'; auto; congruence. Qed.
Lemma ends_try {A} (m : M A) h : ends m -> (forall e, ends (h e)) -> ends (mtry m h).
Proof. unfold ends, mtry. destruct (snd m) as [a|e|] eqn:Hm; cbn; intros H H'; auto; congruence. Qed.
Lemma ends_catch {A} (m : M A) : ends m -> ends (mcatch m).
Proof. unfold ends, mcatch. destruct (snd m) as [a|e|]; cbn; intros H; congruence. Qed.
Lemma ends_lift {A} (r : res A) : ends (lift r).
Proof. unfold ends. destruct r; cbn; congruence. Qed.
Lemma ends_ret {A} (a : A) : ends (ret a).
Proof. unfold ends. cbn. congruence. Qed.
Lemma ends_fail {A} e : ends (@fail A e).
Proof. unfold ends. cbn. congruence. Qed.
Lemma ends_emit e : ends (emit e).
Proof. unfold ends. cbn. congruence. Qed.
Lemma ends_warn E f c : ends (warn E f c).
Proof. unfold ends. rewrite (warn_done E f c tt). congruence. Qed.
Lemma ends_mmap {A B} (g : A -> M B) l : (forall x, In x l -> ends (g x)) -> ends (mmap g l).
Proof.
  induction l as [|x l IH]; intros H; cbn [mmap]; [apply ends_ret|].
  apply ends_bind; [apply H; now left|]. intros y _. apply ends_bind; [|intros; apply ends_ret].
  apply IH. intros z Hz. apply H. now right.
Qed.
Global Hint Resolve ends_lift ends_ret ends_fail ends_emit ends_warn : ends.

(** From some depth on *)
Definition ultimately (P : nat -> Prop) : Prop := exists N, forall n, N <= n -> P n.
Lemma ult_imp (P Q : nat -> Prop) : (forall n, P n -> Q n) -> ultimately P -> ultimately Q.
Proof. intros H [N HN]. exists N. auto. Qed.
Lemma ult_and (P Q : nat -> Prop) : ultimately P -> ultimately Q -> ultimately (fun n => P n /\ Q n).
Proof.
  intros [N HN] [K HK]. exists (N + K). intros n Hn. split; [apply HN|apply HK]; lia.
Qed.
Lemma ult_true (P : nat -> Prop) : (forall n, P n) -> ultimately P.
Proof. intros H. exists 0. auto. Qed.
Lemma ult_all {A} (P : A -> nat -> Prop) l :
  (forall x, In x l -> ultimately (P x)) -> ultimately (fun n => forall x, In x l -> P x n).
Proof.
  induction l as [|x l IH]; intros H; [apply ult_true; intros n x []|].
  destruct (H x (or_introl eq_refl)) as [N HN].
  destruct IH as [K HK]; [intros y Hy; apply H; now right|].
  exists (N + K). intros n Hn y [-> |Hy]; [apply HN; lia|apply HK; [lia|assumption]].
Qed.
Lemma ult_opt {A} (P : A -> nat -> Prop) (r : res A) :
  (forall x, r = Ok x -> ultimately (P x)) -> ultimately (fun n => forall x, r = Ok x -> P x n).
Proof.
  intros H. destruct r as [x|e]; [|apply ult_true; discriminate].
  eapply ult_imp; [|exact (H x eq_refl)]. cbn. intros n Hn y [= <-]. exact Hn.
Qed.
Lemma ult_some {A} (P : A -> nat -> Prop) (r : option A) :
  (forall x, r = Some x -> ultimately (P x)) -> ultimately (fun n => forall x, r = Some x -> P x n).
Proof.
  intros H. destruct r as [x|]; [|apply ult_true; discriminate].
  eapply ult_imp; [|exact (H x eq_refl)]. cbn. intros n Hn y [= <-]. exact Hn.
Qed.
Lemma ult_succ (P : nat -> Prop) : ultimately P -> ultimately (fun n => match n with 0 => False | S n' => P n' end).
Proof. intros [N HN]. exists (S N). intros [|n] Hn; [lia|]. apply HN. lia. Qed.

Section Dump.
Variables (E : env) (f : nat).
Hypothesis Hleaves : leaves_settled E f.

Definition handler (cls : option ty) (v : value) : option shandler :=
  e_ser E f (match cls with Some t => t | None => class_of v end).
(** The serializer call for [v] ends. *)
Definition served (o : sopts) (cls : option ty) (v : value) (n : nat) : Prop :=
  ends (serialize E f n o (handler cls v) cls v).
Lemma dump_ends n o cls v : served o cls v n -> ends (dump_ E f (serialize E f n) o cls v).
Proof.
  intros H. unfold dump_. apply ends_bind; [auto with ends|]. intros _ _. unfold wrap_ser.
  apply ends_try; [exact H|auto with ends].
Qed.

(** Options that agree on what is dumped *)
Definition like (o o' : sopts) : Prop :=
  so_strict o' = so_strict o /\ so_privates o' = so_privates o /\
  so_properties o' = so_properties o /\ so_class_vars o' = so_class_vars o.
Lemma like_refl o : like o o.
Proof. unfold like. auto. Qed.
Lemma like_part o o' x v : like o o' -> part E o' x v -> part E o x v.
Proof.
  intros (H1 & H2 & H3 & H4) H. destruct H.
  - eapply pt_element; eassumption.
  - eapply pt_char; eassumption.
  - eapply pt_value; eassumption.
  - eapply pt_own; eassumption.
  - rewrite H1, H4 in H. eapply pt_class_variable; eassumption.
  - rewrite H1, H3 in H. eapply pt_property; eassumption.
  - rewrite H1 in H5. eapply pt_simple; eassumption.
  - eapply pt_other; eassumption.
Qed.

Lemma prim_served o v p : class_of v = TPrim p -> ultimately (served o None v).
Proof.
  intros Hc. exists 1. intros [|n] Hn; [lia|]. unfold served, handler. rewrite Hc. cbn [serialize].
  assert (Hh : e_ser E f (TPrim p) = Some SPrimitive \/ exists k, e_ser E f (TPrim p) = Some (SCustom k)).
  { destruct (Hleaves (TPrim p)) as [H|H]; [destruct p; cbn; tauto| |now right].
    left. rewrite H. destruct p; reflexivity. }
  destruct Hh as [-> |[k ->]]; cbn [ser_step]; auto with ends.
Qed.
Lemma str_served o s : ultimately (served o (Some (TPrim PStr)) (VStr s)).
Proof.
  exists 1. intros [|n] Hn; [lia|]. unfold served, handler. cbn [serialize].
  destruct (Hleaves (TPrim PStr)) as [H|[k H]]; [cbn; tauto| |].
  - rewrite H. change (default_ser (e_ct E) (TPrim PStr)) with (Some SPrimitive).
    cbn [ser_step]. auto with ends.
  - rewrite H. cbn [ser_step]. auto with ends.
Qed.
Lemma delta_served o us : ultimately (served o None (VLeaf (LTimedelta us))).
Proof.
  exists 1. intros [|n] Hn; [lia|]. unfold served, handler. cbn [class_of leaf_kind serialize].
  destruct (Hleaves (TLeaf LkTimedelta)) as [H|[k H]]; [cbn; tauto| |].
  - rewrite H. change (default_ser (e_ct E) (TLeaf LkTimedelta)) with (Some STimedelta).
    cbn [ser_step]. auto with ends.
  - rewrite H. cbn [ser_step]. auto with ends.
Qed.

(** ** One call, given that the calls it makes end *)
Section Calls.
Variable ser : sopts -> option shandler -> option ty -> value -> M value.
Definition call (o : sopts) (cls : option ty) (v : value) : Prop := ends (ser o (handler cls v) cls v).
Lemma dump_call o cls v : call o cls v -> ends (dump_ E f ser o cls v).
Proof.
  intros H. unfold dump_. apply ends_bind; [auto with ends|]. intros _ _. unfold wrap_ser.
  apply ends_try; [exact H|auto with ends].
Qed.
Lemma ser_dict_go_ends o v keys : forall result,
  (forall k x, In k keys -> py_getitem (e_ct E) v k = Ok x ->
     call o None k /\ call (no_types o) (aget py_eqb k (so_types o)) x) ->
  ends (ser_dict_go E f ser o v keys result).
Proof.
  induction keys as [|k keys IH]; intros result H; cbn [ser_dict_go]; [auto with ends|].
  apply ends_bind; [auto with ends|]. intros x Hx. apply lift_done in Hx.
  destruct (H k x (or_introl eq_refl) Hx) as [Hk Hv].
  assert (IH' : forall r, ends (ser_dict_go E f ser o v keys r)).
  { intros r. apply IH. intros k' x' Hin. apply H. now right. }
  apply ends_bind.
  { unfold store_and_hash. destruct (json_key (e_ct E) k); [auto with ends|].
    apply ends_bind; [now apply dump_call|]. intros dk _.
    destruct (json_key (e_ct E) dk); [auto with ends|].
    destruct (dget (VStr "-keys") result) as [[]|]; auto with ends. }
  intros rk _. apply ends_bind; [now apply dump_call|]. intros d _.
  destruct (so_strip_nulls o && is_none d); [apply IH'|].
  apply ends_bind; [auto with ends|]. intros k' _. apply IH'.
Qed.
Lemma do_serialize_ends o public v attrs : forall result,
  (forall a cls x, In (a, cls) attrs -> get_attr E v a = Ok x -> call o cls x) ->
  ends (do_serialize E f ser o public v attrs result).
Proof.
  induction attrs as [|[a cls] attrs IH]; intros result H; cbn [do_serialize]; [auto with ends|].
  apply ends_bind; [auto with ends|]. intros x Hx. apply lift_done in Hx.
  pose proof (H a cls x (or_introl eq_refl) Hx) as Hc.
  assert (IH' : forall r, ends (do_serialize E f ser o public v attrs r)).
  { intros r. apply IH. intros a' c' x' Hin. apply H. now right. }
  apply ends_bind; [auto with ends|]. intros _ _. apply ends_bind.
  { apply ends_catch. apply ends_bind; [exact Hc|auto with ends]. }
  intros [d|e] _.
  - destruct (so_strip_nulls o && is_none d); [apply IH'|].
    apply ends_bind; [auto with ends|]. intros k _. apply IH'.
  - destruct (so_strict o); [auto with ends|]. destruct (e_noargs e); [auto with ends|].
    apply ends_bind; auto with ends.
Qed.
Lemma ser_union_go_ends o v ts :
  (forall t, In t ts -> call o (Some t) v) -> ends (ser_union_go E f ser o v ts).
Proof.
  induction ts as [|t ts IH]; intros H; cbn [ser_union_go]; [auto with ends|].
  apply ends_try; [apply dump_call, H; now left|]. intros e.
  destruct (is_jsons (e_kind e)); [|auto with ends]. apply IH. intros t' Ht. apply H. now right.
Qed.
End Calls.

(** ** Attributes *)
Lemma kept_prop o ms st a : keep_attr ms o st a = Ok true -> sget a ms = Some MProp -> so_properties o = false.
Proof.
  unfold keep_attr. intros H Hm. destruct (prefix "__" a); [discriminate|].
  destruct (so_privates o && prefix "_" a); [discriminate|].
  destruct (so_properties o); [|reflexivity].
  assert (Hin : mem_str a (class_props ms) = true).
  { apply mem_str_In. unfold class_props. apply in_map_iff. exists (a, MProp). split; [reflexivity|].
    apply filter_In. split; [|reflexivity]. now apply sget_In. }
  rewrite Hin in H. discriminate H.
Qed.
Lemma kept_var o ms st a x : keep_attr ms o st a = Ok true -> sget a ms = Some (MVar x) -> so_class_vars o = false.
Proof.
  unfold keep_attr. intros H Hm. destruct (prefix "__" a); [discriminate|].
  destruct (so_privates o && prefix "_" a); [discriminate|].
  destruct (so_properties o && mem_str a (class_props ms)); [discriminate|].
  destruct (so_class_vars o); [|reflexivity].
  assert (Hin : mem_str a (other_class_vars ms) = true).
  { apply mem_str_In. unfold other_class_vars. apply in_map_iff. exists (a, MVar x). split; [reflexivity|].
    apply filter_In. split; [|reflexivity]. now apply sget_In. }
  rewrite Hin in H. discriminate H.
Qed.
Lemma obj_attr_part o c attrs a x :
  (so_strict o = true \/ exists st, keep_attr (ci_members (e_ct E c)) o st a = Ok true) ->
  get_attr E (VObj c attrs) a = Ok x -> part E o x (VObj c attrs).
Proof.
  intros Hk. cbn [get_attr]. intros H.
  destruct (sget a (ci_members (e_ct E c))) as [m|] eqn:Hm.
  - pose proof (sget_In _ _ _ Hm) as Hin.
    destruct m as [| | |i|y].
    1:{ eapply pt_property; [|exact Hin|exact H].
        destruct Hk as [Hk|[st Hk]]; [now left|right]. eapply kept_prop; eassumption. }
    all: destruct (sget a attrs) as [z|] eqn:Hz; try discriminate H;
         try (injection H as <-; apply sget_In in Hz; eapply pt_own; exact Hz).
    injection H as <-. eapply pt_class_variable; [|exact Hin].
    destruct Hk as [Hk|[st Hk]]; [now left|right]. eapply kept_var; eassumption.
  - destruct (sget a attrs) as [z|] eqn:Hz; [|discriminate H].
    injection H as <-. apply sget_In in Hz. eapply pt_own. exact Hz.
Qed.
Lemma filter_attrs_kept ms o st l r a t : filter_attrs ms o st l = Ok r -> In (a, t) r ->
  keep_attr ms o st a = Ok true.
Proof.
  intros H Hin. apply filter_attrs_names in H as [-> H]. apply filter_In in Hin as [Hin Hk]. cbn in Hk.
  destruct (keep_attr ms o st a) as [[]|]; congruence.
Qed.
(** What an attribute gives is a part, or a number or string without annotation. *)
Lemma simple_prim v : simple v -> exists p, class_of v = TPrim p.
Proof. destruct v; intros []; eexists; reflexivity. Qed.
Lemma attr_part o cls v l a c x :
  (match match cls with Some t => if so_strict o then Some t else None | None => None end with
   | Some t => attrs_from_class E o t
   | None => attrs_from_object E o v
   end) = Ok l -> In (a, c) l -> get_attr E v a = Ok x ->
  part E o x v \/ c = None /\ simple x.
Proof.
  intros Hl Hin Hx.
  assert (Hd : simple v \/ ~ simple v) by (destruct v; cbn; tauto).
  destruct Hd as [Hv|Hv].
  - assert (Hdx : simple x \/ ~ simple x) by (destruct x; cbn; tauto).
    destruct Hdx as [Hsx|Hsx]; [|left; eapply pt_simple; [exact Hv|exact Hx|now left]].
    destruct c as [t|]; [|now right]. left. eapply pt_simple; [exact Hv|exact Hx|right].
    destruct (so_strict o).
    + split; [reflexivity|]. destruct cls as [u|].
      * destruct (attrs_from_class_hint _ _ _ _ _ _ Hl Hin) as (j & _ & Hj). eauto.
      * destruct (attrs_from_object_hint _ _ _ _ _ _ Hl Hin) as (j & _ & Hj). eauto.
    + exfalso. assert (Hl' : attrs_from_object E o v = Ok l) by (destruct cls; exact Hl).
      destruct (attrs_from_object_hint _ _ _ _ _ _ Hl' Hin) as (j & Hj & _).
      destruct (simple_prim v Hv) as [p Hp]. congruence.
  - destruct v as [|b|z|z|s|l'|l'|k l'|k d|y|i n|i l'|i attrs]; try (destruct (Hv I));
      try (left; eapply pt_other; [exact Hv| |exact Hx]; cbn; tauto).
    left. eapply obj_attr_part; [|exact Hx]. destruct (so_strict o); [now left|right].
    assert (Hl' : attrs_from_object E o (VObj i attrs) = Ok l) by (destruct cls; exact Hl).
    unfold attrs_from_object in Hl'. apply rbind_ok in Hl' as (st & _ & Hl').
    exists st. eapply filter_attrs_kept; eassumption.
Qed.

(** ** The descent *)
Lemma ult_lift {A B} (r : res A) (k : nat -> A -> M B) :
  (forall a, r = Ok a -> ultimately (fun n => ends (k n a))) ->
  ultimately (fun n => ends (dom a <- lift r; k n a)).
Proof.
  intros H. destruct r as [a|e].
  - eapply ult_imp; [|exact (H a eq_refl)]. intros n Hn. now rewrite bind_lift_ok.
  - apply ult_true. intros n. unfold ends. cbn. discriminate.
Qed.
Section Value.
Variables (o0 : sopts) (v : value).
(** The parts have been dealt with. *)
Hypothesis Hparts : forall x, part E o0 x v -> forall o cls, like o0 o -> ultimately (served o cls x).

Lemma element l x : py_iter (e_rt E) v = Ok l -> In x l ->
  part E o0 x v \/ exists s, v = VStr s /\ x = v.
Proof.
  intros Hl Hx. destruct v as [|b|z|z|s|l'|l'|k l'|k d|y|i n|i l'|i attrs];
    try (left; eapply pt_element; [|exact Hl|exact Hx]; congruence).
  cbn in Hl. injection Hl as <-.
  destruct (Nat.eq_dec (String.length s) 1) as [Hs|Hs]; [|left; now apply pt_char].
  right. exists s. split; [reflexivity|].
  destruct s as [|ch [|ch' s]]; try discriminate Hs. destruct Hx as [<-|[]]. reflexivity.
Qed.
Lemma like_store b o : like o0 o -> like o0 (set_store b o).
Proof. exact (fun H => H). Qed.

Lemma iterable_ends o cls : like o0 o -> (cls <> None \/ forall s, v <> VStr s) ->
  (forall u o', like o0 o' -> In u (get_args cls) -> ultimately (served o' (Some u) v)) ->
  ultimately (fun n => ends (ser_iterable E f (serialize E f n) o cls v)).
Proof.
  intros Ho Hc Hargs. unfold ser_iterable. apply ult_lift. intros l Hl. apply ult_lift. intros cls' Hcls.
  apply ult_lift. intros subs Hsubs.
  assert (Hs : forall x u, In (x, u) (combine l subs) -> ultimately (served (set_store false o) u x)).
  { intros x u Hin. pose proof (in_combine_l _ _ _ _ Hin) as Hx. pose proof (in_combine_r _ _ _ _ Hin) as Hu.
    destruct (element l x Hl Hx) as [Hp|(s & Hv & ->)]; [apply Hparts; [exact Hp|exact Ho]|].
    destruct u as [u|]; [|rewrite Hv; now apply prim_served with (p := PStr)].
    apply Hargs; [exact Ho|].
    assert (Hcc : cls' = cls \/ cls' = None).
    { destruct (so_strict o); [|right; congruence]. destruct Hc as [Hc|Hc]; [|destruct (Hc s Hv)].
      destruct cls as [t|]; [|destruct (Hc eq_refl)]. left. cbn in Hcls. congruence. }
    unfold get_subclasses in Hsubs. destruct Hcc as [-> | ->].
    - destruct (get_args cls) as [|t [|t' ts]].
      + injection Hsubs as <-. apply repeat_spec in Hu. discriminate Hu.
      + injection Hsubs as <-. apply repeat_spec in Hu. injection Hu as <-. now left.
      + destruct (Nat.eqb (length (t :: t' :: ts)) (length l)); [|discriminate Hsubs].
        injection Hsubs as <-.
        apply in_map_iff with (f := Some) (l := t :: t' :: ts) in Hu as (w & [= ->] & Hw). exact Hw.
    - cbn in Hsubs. injection Hsubs as <-. apply repeat_spec in Hu. discriminate Hu. }
  assert (Hall : ultimately (fun n => forall xu, In xu (combine l subs) ->
                   served (set_store false o) (snd xu) (fst xu) n)).
  { apply ult_all. intros [x u] Hin. now apply Hs. }
  eapply ult_imp; [|exact Hall]. intros n Hn. apply ends_bind; [|auto with ends].
  apply ends_mmap. intros xu Hin. apply dump_ends. now apply Hn.
Qed.

Lemma tuple_ends o cls : like o0 o -> (cls <> None \/ forall s, v <> VStr s) ->
  (forall u o', like o0 o' -> In u (get_args cls) -> ultimately (served o' (Some u) v)) ->
  ultimately (fun n => ends (ser_tuple E f (serialize E f n) o cls v)).
Proof.
  intros Ho Hc Hargs.
  assert (Hplain : ultimately (fun n => ends (match cls with
    | None => ser_iterable E f (serialize E f n) o None v
    | Some t => match raw_args t with
                | None => fail (exn_of KAttribute)
                | Some args =>
                    if ty_eqb TEllipsis (last args TAny) then
                      dom l <- lift (py_iter (e_rt E) v);
                      ser_iterable E f (serialize E f n) o
                        (Some (TApp true HTuple (repeat (hd TAny args) (length l)))) v
                    else ser_iterable E f (serialize E f n) o (Some t) v
                end
    end))).
  { destruct cls as [t|]; [|apply iterable_ends; assumption].
    destruct (raw_args t) as [args|] eqn:Ha; [|apply ult_true; intros n; auto with ends].
    destruct (ty_eqb TEllipsis (last args TAny)) eqn:He; [|apply iterable_ends; assumption].
    apply ult_lift. intros l Hl. apply iterable_ends; [exact Ho|left; discriminate|].
    intros u o' Ho' Hu. apply Hargs; [exact Ho'|]. cbn [get_args]. rewrite Ha.
    cbn [get_args raw_args] in Hu. destruct args as [|a0 args]; [discriminate He|].
    destruct l as [|x l]; [destruct Hu|]. cbn [length repeat hd] in Hu.
    destruct Hu as [<-|Hu]; [now left|]. apply repeat_spec in Hu. subst u. now left. }
  unfold ser_tuple. destruct v as [|b|z|z|s|l'|l'|k l'|k d|y|i n'|i l'|i attrs] eqn:Hv; try exact Hplain.
  unfold ser_namedtuple.
  assert (Hall : ultimately (fun n => forall a, In a (map nf_name (nt_fields (e_ct E) i)) ->
            forall x, get_attr E (VNT i l') a = Ok x -> served o None x n)).
  { apply (ult_all (fun a n => forall x, get_attr E (VNT i l') a = Ok x -> served o None x n)).
    intros a _. apply (ult_opt (fun x n => served o None x n)). intros x Hx.
    apply Hparts; [|exact Ho]. eapply pt_other; [| |exact Hx]; cbn; tauto. }
  eapply ult_imp; [|exact Hall]. intros n Hn. apply ends_bind; [|auto with ends].
  apply ends_mmap. intros a Ha. apply ends_bind; [auto with ends|]. intros x Hx. apply lift_done in Hx.
  apply ends_bind; [|auto with ends]. apply dump_ends. now apply (Hn a).
Qed.
Lemma item_at (k x : value) (l : list value) : (match k with
               | VInt z =>
                   let i := (if z <? 0 then z + Z.of_nat (length l) else z)%Z in
                   if ((0 <=? i) && (i <? Z.of_nat (length l)))%Z
                   then match nth_error l (Z.to_nat i) with
                        | Some x => Ok x
                        | None => raise KIndex
                        end
                   else raise KIndex
               | VBool b => match nth_error l (if b then 1 else 0) with
                            | Some x => Ok x
                            | None => raise KIndex
                            end
               | _ => raise KType
               end) = Ok x -> In x l.
Proof.
  intros H. destruct k; try discriminate H.
  - destruct (nth_error l (if b then 1 else 0)) as [y|] eqn:Hy; [|discriminate H].
    injection H as <-. eapply nth_error_In. exact Hy.
  - cbv zeta in H.
    destruct ((0 <=? _)%Z && _); [|discriminate H].
    destruct (nth_error l _) as [y|] eqn:Hy; [|discriminate H].
    injection H as <-. eapply nth_error_In. exact Hy.
Qed.
Lemma aget_In_gen {K V} (eqb : K -> K -> bool) k (x : V) d : aget eqb k d = Some x -> exists k', In (k', x) d.
Proof.
  induction d as [|[k' y] d IH]; cbn [aget]; [discriminate|].
  destruct (eqb k k'); [intros [= ->]; exists k'; now left|].
  intros H. destruct (IH H) as [k2 Hk]. exists k2. now right.
Qed.
Lemma list_ends o cls : like o0 o ->
  (forall u o', like o0 o' -> In u (get_args cls) -> ultimately (served o' (Some u) v)) ->
  ultimately (fun n => ends (ser_list E f (serialize E f n) o cls v)).
Proof.
  intros Ho Hargs. unfold ser_list.
  destruct (negb (truthy (e_rt E) v)); [apply ult_true; intros n; auto with ends|].
  assert (Hmap : forall t l, py_iter (e_rt E) v = Ok l ->
            (forall s, v = VStr s -> ultimately (served (set_store false o) (Some t) v)) ->
            ultimately (fun n => ends (dom r <- mmap (serialize E f n (set_store false o) (e_ser E f t) (Some t)) l;
                                       ret (VList r)))).
  { intros t l Hl Hs.
    assert (Hall : ultimately (fun n => forall x, In x l -> served (set_store false o) (Some t) x n)).
    { apply ult_all. intros x Hx. destruct (element l x Hl Hx) as [Hp|(s & Hv & ->)]; [now apply Hparts|].
      now apply (Hs s). }
    eapply ult_imp; [|exact Hall]. intros n Hn. apply ends_bind; [|auto with ends].
    apply ends_mmap. intros x Hx. exact (Hn x Hx). }
  destruct (get_args cls) as [|t ts] eqn:Ha.
  - destruct (so_strict o).
    + apply ult_lift. intros x0 Hx0. apply ult_lift. intros l Hl. apply Hmap; [exact Hl|].
      intros s Hv. rewrite Hv in Hx0 |- *. cbn [py_getitem] in Hx0.
      assert (Hstr : class_of x0 = TPrim PStr).
      { apply (item_at (VInt 0)) in Hx0. rename Hx0 into Hy. unfold str_chars in Hy.
        apply in_map_iff in Hy as (ch & <- & _). reflexivity. }
      rewrite Hstr. apply str_served.
    + apply ult_lift. intros l Hl.
      assert (Hall : ultimately (fun n => forall x, In x l -> served (set_store false o) None x n)).
      { apply ult_all. intros x Hx. destruct (element l x Hl Hx) as [Hp|(s & Hv & ->)]; [now apply Hparts|].
        rewrite Hv. now apply prim_served with (p := PStr). }
      eapply ult_imp; [|exact Hall]. intros n Hn. apply ends_bind; [|auto with ends].
      apply ends_mmap. intros x Hx. apply dump_ends. exact (Hn x Hx).
  - apply ult_lift. intros l Hl. apply Hmap; [exact Hl|]. intros s Hv. apply Hargs; [exact Ho|].
    now left.
Qed.
Lemma item_part l k x : py_iter (e_rt E) v = Ok l -> In k l -> py_getitem (e_ct E) v k = Ok x ->
  part E o0 k v /\ part E o0 x v.
Proof.
  intros Hl Hk Hx.
  destruct v as [|b|z|z|s|l'|l'|kk l'|kk d|y|i n|i l'|i attrs]; try discriminate Hx;
    cbn [py_getitem] in Hx.
  - (* a string is not indexed by strings *)
    exfalso. cbn in Hl. injection Hl as <-. unfold str_chars in Hk.
    apply in_map_iff in Hk as (ch & <- & _). discriminate Hx.
  - cbn in Hl. injection Hl as <-. apply item_at in Hx.
    split; (eapply pt_element; [discriminate|reflexivity|assumption]).
  - cbn in Hl. injection Hl as <-. apply item_at in Hx.
    split; (eapply pt_element; [discriminate|reflexivity|assumption]).
  - destruct kk; try discriminate Hx. cbn in Hl. injection Hl as <-. apply item_at in Hx.
    split; (eapply pt_element; [discriminate|reflexivity|assumption]).
  - split; [eapply pt_element; [discriminate|exact Hl|assumption]|].
    destruct (hashable (e_ct E) k); [|discriminate Hx].
    destruct (dget k d) as [y|] eqn:Hd; [|discriminate Hx]. injection Hx as ->.
    unfold dget in Hd. destruct (aget_In_gen _ _ _ _ Hd) as (key & Hin). eapply pt_value. exact Hin.
  - cbn in Hl. injection Hl as <-. apply item_at in Hx.
    split; (eapply pt_element; [discriminate|reflexivity|assumption]).
Qed.
Lemma dict_ends o : like o0 o -> ultimately (fun n => ends (ser_dict E f (serialize E f n) o v)).
Proof.
  intros Ho. unfold ser_dict. apply ult_lift. intros keys Hkeys.
  assert (Hall : ultimately (fun n => forall k, In k keys -> forall x, py_getitem (e_ct E) v k = Ok x ->
            served o None k n /\ served (no_types o) (aget py_eqb k (so_types o)) x n)).
  { apply (ult_all (fun k n => forall x, py_getitem (e_ct E) v k = Ok x ->
            served o None k n /\ served (no_types o) (aget py_eqb k (so_types o)) x n)).
    intros k Hk. apply (ult_opt (fun x n => served o None k n /\ served (no_types o) (aget py_eqb k (so_types o)) x n)).
    intros x Hx. destruct (item_part keys k x Hkeys Hk Hx) as [Hp1 Hp2].
    apply ult_and; apply Hparts; assumption. }
  eapply ult_imp; [|exact Hall]. intros n Hn. apply ends_bind; [|auto with ends].
  apply ser_dict_go_ends. intros k x Hk Hx. exact (Hn k Hk x Hx).
Qed.
Lemma object_ends o cls : like o0 o ->
  ultimately (fun n => ends (ser_object E f (serialize E f n) o cls v)).
Proof.
  intros Ho. unfold ser_object. apply ult_lift. intros attrs Hattrs.
  set (o' := set_store (so_class_info o) (set_attr_opt (normalize_strip_attr (so_attr o)) o)).
  assert (Ho' : like o0 o') by exact Ho.
  assert (Hall : ultimately (fun n => forall ac, In ac attrs -> forall x, get_attr E v (fst ac) = Ok x ->
            served o' (snd ac) x n)).
  { apply (ult_all (fun ac n => forall x, get_attr E v (fst ac) = Ok x -> served o' (snd ac) x n)).
    intros [a c] Hin. apply (ult_opt (fun x n => served o' c x n)). intros x Hx.
    destruct (attr_part o cls v attrs a c x Hattrs Hin Hx) as [Hp|[-> Hp]].
    - apply Hparts; [|exact Ho']. exact (like_part o0 o x v Ho Hp).
    - destruct (simple_prim x Hp) as [p Hp']. now apply prim_served with (p := p). }
  eapply ult_imp; [|exact Hall]. intros n Hn. cbv zeta. apply ends_bind.
  { apply do_serialize_ends. intros a c x Hin Hx. exact (Hn (a, c) Hin x Hx). }
  intros d _. destruct (so_store_cls o); auto with ends.
Qed.

Lemma call_ends o cls : like o0 o -> (cls <> None \/ forall p, class_of v <> TPrim p) ->
  (forall u o', like o0 o' -> In u (get_args cls) -> ultimately (served o' (Some u) v)) ->
  ultimately (served o cls v).
Proof.
  intros Ho Hc Hargs.
  assert (Hc' : cls <> None \/ forall s, v <> VStr s).
  { destruct Hc as [Hc|Hc]; [now left|right]. intros s ->. exact (Hc PStr eq_refl). }
  assert (Hstep : ultimately (fun n => ends (ser_step E f (serialize E f n) o (handler cls v) cls v))).
  2:{ eapply ult_imp; [|exact (ult_succ _ Hstep)]. intros [|n] Hn; [destruct Hn|exact Hn]. }
  destruct (handler cls v) as [h|] eqn:Hh; [|apply ult_true; intros n; cbn [ser_step]; auto with ends].
  destruct h; cbn [ser_step];
    try (apply ult_true; intros n; auto with ends; fail);
    try (apply ult_true; intros ?; destruct v as [|b|z|z|s|l'|l'|k l'|k d|[]|i n'|i l'|i attrs]; auto with ends; fail).
  - now apply tuple_ends.
  - apply ult_true. intros n. repeat (apply ends_bind; [auto with ends|intros ? _]). auto with ends.
  - apply ult_true. intros n. unfold ser_time_like. apply ends_bind; [auto with ends|]. intros sw _.
    apply ends_bind; [|auto with ends]. destruct (snd sw); auto with ends.
  - apply ult_true. intros n. unfold ser_time_like. apply ends_bind; [auto with ends|]. intros sw _.
    apply ends_bind; [|auto with ends]. destruct (snd sw); auto with ends.
  - apply ult_true. intros n. unfold ser_time_like. apply ends_bind; [auto with ends|]. intros sw _.
    apply ends_bind; [|auto with ends]. destruct (snd sw); auto with ends.
  - (* timezones *)
    destruct v as [|b|z|z|s|l'|l'|k l'|k d|y|i n'|i l'|i attrs]; try (apply ult_true; intros n; auto with ends; fail).
    destruct y as [| | | |off name| | | | |]; try (apply ult_true; intros ?; auto with ends; fail).
    assert (Hd : ultimately (served o cls (VLeaf (LTimedelta off)))).
    { destruct cls as [t|]; [|apply delta_served]. exists 1. intros [|n] Hn; [lia|].
      unfold served. change (handler (Some t) (VLeaf (LTimedelta off))) with (e_ser E f t).
      change (handler (Some t) (VLeaf (LTimezone off name))) with (e_ser E f t) in Hh.
      rewrite Hh. cbn [serialize ser_step]. auto with ends. }
    eapply ult_imp; [|exact Hd]. intros n Hn. apply ends_bind; [now apply dump_ends|auto with ends].
  - now apply dict_ends.
  - now apply list_ends.
  - now apply iterable_ends.
  - now apply object_ends.
  - (* unions *)
    unfold ser_union. destruct cls as [t|]; [|apply ult_true; intros n; auto with ends].
    destruct (raw_args t) as [ts|] eqn:Ha; [|apply ult_true; intros n; auto with ends].
    destruct (is_none v && existsb (ty_eqb TNoneT) ts); [apply ult_true; intros n; auto with ends|].
    assert (Hall : ultimately (fun n => forall u, In u ts -> served o (Some u) v n)).
    { apply ult_all. intros u Hu. apply Hargs; [exact Ho|]. cbn [get_args]. now rewrite Ha. }
    eapply ult_imp; [|exact Hall]. intros n Hn. apply ser_union_go_ends. exact Hn.
  - apply ult_true. intros n. apply ends_bind; auto with ends.
Qed.
Lemma value_ends o cls : like o0 o -> ultimately (served o cls v).
Proof.
  intros Ho. destruct cls as [t|].
  - revert o Ho. induction t as [b h l IH|l IH|m n s IH|t Ht] using ty_ind'; intros o Ho.
    + apply call_ends; [exact Ho|left; discriminate|]. intros u o' Ho' Hu.
      rewrite Forall_forall in IH. apply IH; [|exact Ho']. cbn [get_args raw_args] in Hu.
      destruct l; exact Hu.
    + apply call_ends; [exact Ho|left; discriminate|]. intros u o' Ho' Hu.
      rewrite Forall_forall in IH. apply IH; [|exact Ho']. exact Hu.
    + apply call_ends; [exact Ho|left; discriminate|]. intros u o' Ho' [].
    + apply call_ends; [exact Ho|left; discriminate|]. intros u o' Ho' Hu.
      destruct t; try destruct Hu; destruct Ht.
  - assert (Hd : (exists p, class_of v = TPrim p) \/ forall p, class_of v <> TPrim p).
    { destruct (class_of v); try (right; discriminate). left. eexists. reflexivity. }
    destruct Hd as [[p Hp]|Hp]; [now apply prim_served with (p := p)|].
    apply call_ends; [exact Ho|now right|]. intros u o' Ho' [].
Qed.
End Value.

Theorem dump_terminates o v cls : well_founded_value E o v ->
  exists n, snd (dump E f n o cls v) <> Oof.
Proof.
  intros Hv.
  assert (H : forall o' cls', like o o' -> ultimately (served o' cls' v)).
  { induction Hv as [v _ IH]. intros o' cls' Ho'. apply value_ends with (o0 := o); try assumption. }
  destruct (H o cls (like_refl o)) as [N HN]. exists N. apply dump_ends. now apply HN.
Qed.
End Dump.

(** ** Every value is well-founded in a shallow world, if no code of classes runs *)
Lemma simple_attr E v a x : shallow_world E -> simple v -> get_attr E v a = Ok x -> simple x.
Proof.
  intros (Hg & _ & _) Hv.
  destruct v as [|b|z|z|s|l'|l'|k l'|k d|yy|i n|i l'|i attrs]; try contradiction; cbn [get_attr].
  1-3: destruct (String.eqb a "real"); [intros [= <-]; exact I|];
       destruct (String.eqb a "imag"); [intros [= <-]; exact I|]; apply Hg.
  apply Hg.
Qed.
Lemma simple_part E o v x : shallow_world E -> so_strict o = false -> simple v -> part E o x v ->
  exists s, v = VStr s /\ String.length s <> 1 /\ In x (str_chars s).
Proof.
  intros HW Ho Hv Hp.
  destruct Hp as [v' l y Hn Hl Hin|s y Hlen Hin|? ? ? ? H|? ? ? ? H|? ? ? ? ? H|? ? ? ? ? H
      |v' a y Hsv Hget Hor|v' a y Hn ? Hget]; try contradiction.
  - destruct v' as [|b|z|z|s|l'|l'|k l'|k d|yy|i n|i l'|i attrs]; try contradiction; try discriminate Hl.
    destruct (Hn s eq_refl).
  - exists s. auto.
  - rewrite Ho in Hor. destruct Hor as [Hor|[Hor _]]; [|discriminate Hor].
    destruct (Hor (simple_attr E v' a y HW Hsv Hget)).
Qed.
Lemma simple_wf E o v : shallow_world E -> so_strict o = false -> simple v -> well_founded_value E o v.
Proof.
  intros HW Ho Hv.
  constructor. intros x Hx. destruct (simple_part E o v x HW Ho Hv Hx) as (s & -> & _ & Hin).
  unfold str_chars in Hin. apply in_map_iff in Hin as (ch & <- & _).
  constructor. intros y Hy. destruct (simple_part E o (VStr (String ch "")) y HW Ho I Hy) as (s' & [= <-] & Hlen & _).
  destruct (Hlen eq_refl).
Qed.
Lemma all_well_founded E o : shallow_world E -> so_strict o = false -> members_inert E o ->
  forall v, well_founded_value E o v.
Proof.
  intros HW Ho Hm. pose proof HW as (Hg & Hi & He).
  pose proof (simple_wf E o) as Hs.
  assert (Hget : forall v, ~ simple v -> ~ instance v ->
            (forall x, (exists l, py_iter (e_rt E) v = Ok l /\ In x l) -> well_founded_value E o x) ->
            (forall k d, v <> VDict k d) ->
            (forall a x, get_attr E v a = Ok x -> well_founded_value E o x) -> well_founded_value E o v).
  { intros v Hv1 Hv2 Hl Hd Ha. constructor. intros x Hx.
    destruct Hx as [v' l y Hn Hl' Hin|s y Hlen Hin|k d kk y H|c at_ a y H|c at_ a y H Hin|c at_ a y H Hin Hp
      |v' a y Hsv Hget Hor|v' a y Hn Hn' Hget]; try (destruct (Hv1 I)); try (destruct (Hv2 I)).
    - apply Hl. eauto.
    - destruct (Hd k d eq_refl).
    - destruct (Hv1 Hsv).
    - eapply Ha. exact Hget. }
  induction v as [|b|z|x|s|l IH|l IH|k l IH|k d IH|y|c n|c l IH|c at_ IH] using value_ind';
    try (apply Hs; [exact HW|exact Ho|exact I]).
  - apply Hget; cbn; try tauto; try discriminate.
    + intros x (l & Hl & _). discriminate Hl.
    + intros a x Hx. apply Hs; [exact HW|exact Ho|]. eapply Hg. exact Hx.
  - rewrite Forall_forall in IH. apply Hget; cbn; try tauto; try discriminate.
    + intros x (l' & [= <-] & Hin). now apply IH.
    + intros a x Hx. apply Hs; [exact HW|exact Ho|]. eapply Hg. exact Hx.
  - rewrite Forall_forall in IH. apply Hget; cbn; try tauto; try discriminate.
    + intros x (l' & [= <-] & Hin). now apply IH.
    + intros a x Hx. apply Hs; [exact HW|exact Ho|]. eapply Hg. exact Hx.
  - rewrite Forall_forall in IH. apply Hget; cbn; try tauto; try discriminate.
    + intros x (l' & [= <-] & Hin). now apply IH.
    + intros a x Hx. apply Hs; [exact HW|exact Ho|]. eapply Hg. exact Hx.
  - rewrite Forall_forall in IH. constructor. intros x Hx. inversion Hx; subst.
    + cbn in H0. injection H0 as <-. apply in_map_iff in H1 as (kv & <- & Hin). now apply IH.
    + exact (proj2 (IH (key, x) H1)).
    + destruct H.
    + apply Hs; [exact HW|exact Ho|]. eapply Hg. exact H1.
  - apply Hget; cbn [simple instance]; try tauto; try discriminate.
    + intros x (l & Hl & Hin). apply Hs; [exact HW|exact Ho|]. eapply Hi; eassumption.
    + intros a x Hx. apply Hs; [exact HW|exact Ho|]. destruct y; cbn [get_attr] in Hx; try (eapply Hg; exact Hx).
      * destruct (String.eqb a "real"); [injection Hx as <-; exact I|].
        destruct (String.eqb a "imag"); [injection Hx as <-; exact I|]. eapply Hg; exact Hx.
      * destruct (String.eqb a "key"); [injection Hx as <-; exact I|]. eapply Hg; exact Hx.
  - apply Hget; cbn [simple instance]; try tauto; try discriminate.
    + intros x (l & Hl & Hin). apply Hs; [exact HW|exact Ho|]. eapply Hi; eassumption.
    + intros a x Hx. apply Hs; [exact HW|exact Ho|]. cbn [get_attr] in Hx.
      destruct (String.eqb a "name"); [injection Hx as <-; exact I|].
      destruct (String.eqb a "value"); [|eapply Hg; exact Hx].
      destruct (sget n (enum_members (e_ct E) c)) as [y|] eqn:Hn; [|discriminate Hx].
      injection Hx as <-. eapply He. exact (sget_In _ _ _ Hn).
  - rewrite Forall_forall in IH. apply Hget; cbn [simple instance]; try tauto; try discriminate.
    + intros x (l' & [= <-] & Hin). now apply IH.
    + intros a x Hx. cbn [get_attr] in Hx. unfold nt_get in Hx.
      destruct (sget a (combine (map nf_name (nt_fields (e_ct E) c)) l)) as [y|] eqn:Hn.
      * injection Hx as <-. apply IH. apply sget_In in Hn. eapply in_combine_r. exact Hn.
      * apply Hs; [exact HW|exact Ho|]. eapply Hg. exact Hx.
  - rewrite Forall_forall in IH. constructor. intros x Hx.
    inversion Hx as [v' l y Hn Hl' Hin|s y Hlen Hin|k d kk y H|c' a' a y H|c' a' a y H Hin|c' a' a y H Hin Hp
      |v' a y Hsv Hget' Hor|v' a y Hn Hn' Hget']; subst.
    + apply Hs; [exact HW|exact Ho|]. eapply Hi; eassumption.
    + exact (IH (a, x) H).
    + rewrite Ho in H. destruct H as [H|H]; [discriminate H|].
      pose proof (Hm c a _ Hin) as Hmem. cbn in Hmem. destruct Hmem as [Hmem|Hmem]; [congruence|].
      now apply Hs.
    + rewrite Ho in H. destruct H as [H|H]; [discriminate H|].
      pose proof (Hm c a _ Hin) as Hmem. cbn in Hmem. congruence.
    + destruct Hsv.
    + destruct (Hn' I).
Qed.
