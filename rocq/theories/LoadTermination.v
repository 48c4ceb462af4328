(** * Proofs: a load ends *)
From Coq Require Wellfounded.Transitive_Closure.
From Verif Require Import PyBaseFacts EngineEnv DumpTermination TerminationSpec.
Local Open Scope string_scope.

Section Calls.
Variable E : env.
Variable ld : nat -> lopts -> option ty -> value -> M value.
Variable f : nat.
Lemma deser_list_go_ends o w t : forall l i, (forall x, In x l -> ends (ld f o t x)) ->
  ends (deser_list_go E ld f o w t i l).
Proof.
  induction l as [|x l IH]; intros i H; cbn [deser_list_go]; [auto with ends|].
  assert (Hx : ends (ld f o t x)) by (apply H; now left).
  assert (IH' : forall i, ends (deser_list_go E ld f o w t i l)) by (intros i'; apply IH; intros y Hy; apply H; now right).
  unfold ends in Hx. destruct (snd (ld f o t x)) as [y|e|] eqn:Hs; [| |congruence].
  - apply ends_bind; [discriminate|]. intros _ _. apply ends_bind; [apply IH'|auto with ends].
  - destruct (is_deser (e_kind e)); [|discriminate]. destruct w; [|discriminate].
    apply ends_bind; [discriminate|]. intros _ _. apply ends_bind; [auto with ends|]. intros _ _. apply IH'.
Qed.
Lemma deser_tuple_go_ends o : forall l ts, (forall x t, In x l -> In t ts -> ends (ld f o (Some t) x)) ->
  ends (deser_tuple_go ld f o l ts).
Proof.
  induction l as [|x l IH]; intros ts H; cbn [deser_tuple_go]; [auto with ends|].
  destruct ts as [|t ts]; [auto with ends|]. apply ends_bind; [apply H; now left|]. intros y _.
  apply ends_bind; [|auto with ends]. apply IH. intros x' t' Hx Ht. apply H; now right.
Qed.
Lemma deser_union_go_ends o j ts : (forall t, In t ts -> ends (ld f o (Some t) j)) ->
  ends (deser_union_go ld f o j ts).
Proof.
  induction ts as [|t ts IH]; intros H; cbn [deser_union_go]; [auto with ends|].
  apply ends_try; [apply H; now left|]. intros e. destruct (is_jsons (e_kind e)); [|auto with ends].
  apply IH. intros u Hu. apply H. now right.
Qed.
Lemma hashed_go_ends o kt : forall stored r, (forall h x, In (h, x) stored -> ends (ld f o (Some kt) x)) ->
  ends (hashed_go E ld f o kt stored r).
Proof.
  induction stored as [|[h x] stored IH]; intros r H; cbn [hashed_go].
  - destruct (dhas (VStr "-keys") r); auto with ends.
  - apply ends_bind; [eapply H; now left|]. intros k _. destruct (dget h r) as [y|]; [|auto with ends].
    destruct (hashable (e_ct E) k && negb (py_eqb (VStr "-keys") k)); [|auto with ends].
    apply IH. intros h' x' Hin. eapply H. right. exact Hin.
Qed.
(** The values stay the same ones. *)
Lemma dset_values k (y : value) d x key : In (key, x) (dset k y d) -> x = y \/ exists key', In (key', x) d.
Proof.
  unfold dset. induction d as [|[a b] d IH]; cbn [aset]; intros H.
  - destruct H as [[= <- <-]|[]]. now left.
  - destruct (py_eqb k a).
    + destruct H as [[= <- <-]|H]; [now left|right; exists key; now right].
    + destruct H as [[= <- <-]|H]; [right; exists a; now left|].
      destruct (IH H) as [Hy|[key' Hk]]; [now left|right; exists key'; now right].
Qed.
Lemma ddel_values k d (x : value) key : In (key, x) (ddel k d) -> In (key, x) d.
Proof.
  unfold ddel. induction d as [|[a b] d IH]; cbn [adel]; [intros []|].
  destruct (py_eqb k a); intros H; [right; auto; try (now apply IH)|].
  all: try (destruct H as [H|H]; [now left|right; auto]).
Qed.
Lemma hashed_go_values o kt : forall stored r d', snd (hashed_go E ld f o kt stored r) = Done d' ->
  forall key x, In (key, x) d' -> exists key', In (key', x) r.
Proof.
  induction stored as [|[h x0] stored IH]; intros r d'; cbn [hashed_go].
  - destruct (dhas (VStr "-keys") r); [|discriminate]. intros [= <-] key x Hin.
    exists key. eapply ddel_values. exact Hin.
  - intros H key x Hin. apply bind_done in H as (k & _ & H).
    destruct (dget h r) as [y|] eqn:Hg; [|discriminate].
    destruct (hashable (e_ct E) k && negb (py_eqb (VStr "-keys") k)); [|discriminate].
    destruct (IH _ _ H key x Hin) as [key' Hk]. apply ddel_values in Hk.
    apply dset_values in Hk as [-> |Hk]; [|exact Hk]. unfold dget in Hg. exact (aget_In_gen _ _ _ _ Hg).
Qed.
Lemma deser_dict_go_ends ok ov g kc vc : forall d acc,
  (forall k k', In k (map fst d) -> g k = Ok k' -> forall t, kc = Some t -> ends (ld f ok (Some t) k')) ->
  (forall key x, In (key, x) d -> ends (ld f ov vc x)) ->
  ends (deser_dict_go E ld f ok ov g kc vc d acc).
Proof.
  induction d as [|[k x] d IH]; intros acc Hk Hv; cbn [deser_dict_go]; [auto with ends|].
  apply ends_bind; [auto with ends|]. intros k1 Hk1. apply lift_done in Hk1.
  apply ends_bind.
  { destruct kc as [t|]; [|auto with ends]. eapply Hk; [now left|exact Hk1|reflexivity]. }
  intros k2 _. apply ends_bind; [eapply Hv; now left|]. intros y _.
  destruct (hashable (e_ct E) k2); [|auto with ends]. apply IH.
  - intros k0 k' Hin. apply Hk. now right.
  - intros key x' Hin. eapply Hv. right. exact Hin.
Qed.
Lemma deser_nt_go_ends o j d len : forall fields i,
  (forall k fd x, nth_error fields k = Some fd ->
     (if Nat.ltb (i + k) len then
        match d with
        | Some d => match dget (VStr (nf_name fd)) d with Some x => Ok x | None => raise KKey end
        | None => py_getitem (e_ct E) j (VInt (Z.of_nat (i + k)))
        end
      else Ok (match nf_default fd with Some x => x | None => VNone end)) = Ok x ->
     ends (ld f o (nf_hint fd) x)) ->
  ends (deser_nt_go E ld f o j d len i fields).
Proof.
  induction fields as [|fd fields IH]; intros i H; cbn [deser_nt_go]; [auto with ends|].
  apply ends_bind; [auto with ends|]. intros x Hx. apply lift_done in Hx.
  apply ends_bind; [destruct (is_none x && _); auto with ends|]. intros _ _.
  apply ends_bind.
  { apply (H 0 fd x eq_refl). rewrite Nat.add_0_r. exact Hx. }
  intros y _. apply ends_bind; [|auto with ends]. apply IH. intros k fd' x' Hn Hx'.
  apply (H (S k) fd' x' Hn). rewrite <- Nat.add_succ_comm. exact Hx'.
Qed.
Lemma constructor_args_ends o hints d getters ps :
  (forall p x, In p ps -> dget (VStr (pa_name p)) d = Some x -> ends (value_from_obj E ld f o hints p x)) ->
  ends (constructor_args E ld f o hints d getters ps).
Proof.
  induction ps as [|p ps IH]; intros H; cbn [constructor_args]; [auto with ends|].
  apply ends_bind.
  { unfold value_for_attr. destruct (dget (VStr (pa_name p)) d) as [x|] eqn:Hd.
    - apply ends_bind; [|auto with ends]. apply H; [now left|exact Hd].
    - destruct (sget (pa_name p) getters) as [g|].
      + apply ends_bind; [auto with ends|]. intros _ _. apply ends_bind; auto with ends.
      + destruct (pa_default p); [auto with ends|]. destruct (pa_var p); [auto with ends|].
        apply ends_bind; [auto with ends|]. intros b _. destruct b; auto with ends. }
  intros r _. apply ends_bind; [|auto with ends]. apply IH. intros p' x Hp. apply H. now right.
Qed.
Lemma set_remaining_ends o ci : forall rest attrs,
  (forall k x, In (k, x) rest ->
     ends (ld f o (Some (match match k with VStr a => sget a (ci_hints ci) | _ => None end with
                         | Some t => t | None => class_of x end)) x)) ->
  ends (set_remaining E ld f o ci rest attrs).
Proof.
  induction rest as [|[k x] rest IH]; intros attrs H; cbn [set_remaining]; [auto with ends|].
  apply ends_bind.
  { destruct (match k with VStr a => sget a (ci_hints ci) | _ => None end); [auto with ends|].
    destruct (has_keys_section x); auto with ends. }
  intros _ _. apply ends_bind; [eapply H; now left|]. intros y _.
  assert (IH' : forall a, ends (set_remaining E ld f o ci rest a)) by (intros a; apply IH; intros k' x' Hin; eapply H; right; exact Hin).
  destruct k; try auto with ends. destruct (ci_set ci s y attrs); [apply IH'|].
  destruct (is_attributeerror (e_kind e)); [apply IH'|auto with ends].
Qed.
Lemma set_getter_ends ci : forall gs attrs, ends (set_getter_attrs ci gs attrs).
Proof.
  induction gs as [|[a g] gs IH]; intros attrs; cbn [set_getter_attrs]; [auto with ends|].
  apply ends_bind; [auto with ends|]. intros _ _. apply ends_bind; [auto with ends|]. intros y _.
  apply ends_bind; [auto with ends|]. intros at_ _. apply IH.
Qed.
End Calls.

Section Load.
Variable E : env.
Definition loaded (f : nat) (o : lopts) (cls : option ty) (j : value) (n : nat) : Prop :=
  ends (load E n f o cls j).

(** ** One call of load, given its deserializer's call *)
Definition resolved (f : nat) (cls cls1 : option ty) : Prop :=
  match cls with
  | Some (TFwd s) => exists t, e_resolve E f s = Ok t /\ cls1 = Some t
  | _ => cls1 = cls
  end.
Definition target (f : nat) (o : lopts) (cls1 : option ty) (j : value) (t : ty) (hints : list (value * value)) : Prop :=
  exists m, get_cls_and_meta E f j = Ok (m, hints) /\
            determine_precedence cls1 m (Some (class_of j)) (lo_inferred o) = Some t.
Definition inner (o : lopts) (t : ty) (cls1 : option ty) (hints : list (value * value)) : lopts :=
  set_inferred (changed t cls1) (set_hints (Some (match lo_hints o with Some h => h | None => hints end)) o).
Lemma load_by_step f o cls j :
  (valid_type j = true -> (forall cls1 t hints h, resolved f cls cls1 -> target f o cls1 j t hints ->
     e_deser E f t = Some h ->
     (is_none j = true -> can_match_none (e_ct E) cls = Ok true) ->
     ultimately (fun n => ends (deser_step E (load E n) f (inner o t cls1 hints) h t j)))) ->
  ultimately (loaded f o cls j).
Proof.
  intros H.
  assert (Hs : ultimately (fun n => ends (load_step E (load E n) f o cls j))).
  2:{ eapply ult_imp; [|exact (ult_succ _ Hs)]. intros [|n] Hn; [destruct Hn|exact Hn]. }
  unfold load_step.
  assert (Hbind : forall (P : Prop) (m : M unit) (k : nat -> M value), ends m -> (snd m = Done tt -> P) ->
            (P -> ultimately (fun n => ends (k n))) -> ultimately (fun n => ends (dom _ <- m; k n))).
  { intros P m k Hm HP Hk. destruct (snd m) as [[]|e|] eqn:Hsm.
    - eapply ult_imp; [|exact (Hk (HP eq_refl))]. intros n Hn. apply ends_bind; auto.
    - apply ult_true. intros n. apply ends_bind; [exact Hm|]. intros a Ha. congruence.
    - destruct (Hm Hsm). }
  eapply (Hbind (is_none j = true -> can_match_none (e_ct E) cls = Ok true)).
  { destruct (is_none j); [|auto with ends]. apply ends_bind; [auto with ends|]. intros [] _; auto with ends. }
  { destruct (is_none j); [|discriminate]. intros Hd _. apply bind_done in Hd as (b & Hb & Hd).
    apply lift_done in Hb. destruct b; [exact Hb|discriminate Hd]. }
  intros Hnone.
  destruct ((negb (lo_strict o) && same_type j cls) || match cls with Some TAny => true | _ => false end).
  { apply ult_true. intros n. apply ends_bind; auto with ends. }
  apply ult_lift. intros cls1 Hcls1.
  destruct (negb (valid_type j)) eqn:Hv; [apply ult_true; intros n; auto with ends|].
  apply negb_false_iff in Hv.
  apply ult_lift. intros [m hints] Hm. cbn [fst snd].
  destruct (determine_precedence cls1 m (Some (class_of j)) (lo_inferred o)) as [t|] eqn:Hdp;
    [|apply ult_true; intros n; auto with ends].
  destruct (e_deser E f t) as [h|] eqn:Hh; [|apply ult_true; intros n; auto with ends].
  assert (Hr : resolved f cls cls1).
  { unfold resolved. destruct cls as [[]|]; try congruence.
    apply rbind_ok in Hcls1 as (t' & Ht & Hc). exists t'. split; [exact Ht|congruence]. }
  eapply ult_imp; [|exact (H Hv cls1 t hints h Hr (ex_intro _ m (conj Hm Hdp)) Hh Hnone)].
  intros n Hn. unfold wrap_deser. apply ends_try; [|intros e; destruct (is_jsons (e_kind e)); auto with ends].
  apply ends_bind; [exact Hn|]. intros r _. apply ends_bind; auto with ends.
Qed.
Lemma inner_kt o t c h : keys_settled o -> keys_settled (inner o t c h).
Proof. exact (fun H => H). Qed.

(** ** Calls of deserializers that do not call load *)
Definition terminal (h : dhandler) : Prop :=
  match h with
  | DDatetime | DDate | DTime | DTimedelta | DNone | DPrimitive | DEnum | DUUID | DDecimal | DPath | DZone
  | DCustom _ => True
  | _ => False
  end.
Lemma terminal_step ld f o h t j : terminal h -> ends (deser_step E ld f o h t j).
Proof.
  destruct h; intros H; try contradiction; cbn [deser_step]; auto with ends;
    try (destruct j; auto with ends; fail).
  apply ends_bind; auto with ends.
Qed.
(** Loading with a type whose deserializer is one of these *)
Lemma terminal_ends f o t j : (forall s, t <> TFwd s) ->
  (forall h, e_deser E f t = Some h -> terminal h) ->
  lo_inferred o = false \/ (forall k d, j <> VDict k d) ->
  ultimately (loaded f o (Some t) j).
Proof.
  intros Hf Ht Hi. apply load_by_step. intros Hv cls1 t' hints h Hr (m & Hm & Hdp) Hh _.
  apply ult_true. intros n. apply terminal_step. apply Ht.
  assert (Hc : cls1 = Some t) by (destruct t; try exact Hr; destruct (Hf s eq_refl)).
  assert (He : t' = t); [|congruence].
  subst cls1. unfold determine_precedence in Hdp. destruct (lo_inferred o); [|congruence].
  destruct Hi as [Hi|Hi]; [discriminate Hi|].
  assert (Hmn : m = None); [|subst m; congruence].
  unfold get_cls_and_meta in Hm. destruct j; try congruence.
Qed.

(** ** The deserializers with calls *)
Section Step.
Variable f : nat.
Hypothesis Hfork : deserializers_settled E f.
Hypothesis Hmain : deserializers_settled E 0.

Lemma leaf_terminal g k : deserializers_settled E g -> k = LkDatetime \/ k = LkTimedelta ->
  forall h, e_deser E g (TLeaf k) = Some h -> terminal h.
Proof.
  intros Hg Hk h. destruct (Hg (TLeaf k)) as [-> |[i ->]]; [|intros [= <-]; exact I].
  destruct Hk as [-> | ->].
  - change (default_deser (e_ct E) (TLeaf LkDatetime)) with (Some DDatetime). intros [= <-]. exact I.
  - change (default_deser (e_ct E) (TLeaf LkTimedelta)) with (Some DTimedelta). intros [= <-]. exact I.
Qed.
Lemma float_terminal g : deserializers_settled E g ->
  forall h, e_deser E g (TPrim PFloat) = Some h -> terminal h.
Proof.
  intros Hg h. destruct (Hg (TPrim PFloat)) as [-> |[i ->]]; [|intros [= <-]; exact I].
  change (default_deser (e_ct E) (TPrim PFloat)) with (Some DPrimitive). intros [= <-]. exact I.
Qed.
Lemma dict_handler g args : deserializers_settled E g ->
  e_deser E g (TApp true HDict args) = Some DMapping \/
  exists k, e_deser E g (TApp true HDict args) = Some (DCustom k).
Proof.
  intros Hg. destruct (Hg (TApp true HDict args)) as [-> |H]; [left|now right].
  rewrite default_deser_eq. reflexivity.
Qed.
Lemma complex_dict_ends re im :
  ultimately (loaded 0 lopts0 (Some (TApp true HDict [TPrim PStr; TPrim PFloat]))
                     (str_dict [("real", re); ("imag", im)])).
Proof.
  assert (Hf : forall o x, lo_inferred o = false -> ultimately (loaded 0 o (Some (TPrim PFloat)) x)).
  { intros o x Ho. apply terminal_ends; [discriminate|now apply float_terminal|now left]. }
  assert (Hs : forall o s, lo_strict o = false -> ultimately (loaded 0 o (Some (TPrim PStr)) (VStr s))).
  { intros o s Ho. exists 1. intros [|n] Hn; [lia|]. unfold loaded. cbn [load]. unfold load_step.
    cbn [is_none same_type class_of ty_eqb prim_eqb]. rewrite Ho. cbn [negb andb orb].
    rewrite bind_ret_l. apply ends_bind; auto with ends. }
  apply load_by_step. intros _ cls1 t hints h Hr (m & Hm & Hdp) Hh _. cbn in Hr. subst cls1.
  assert (Hm' : m = None) by (cbn in Hm; congruence). subst m. cbn in Hdp. injection Hdp as <-.
  destruct (dict_handler 0 [TPrim PStr; TPrim PFloat] Hmain) as [Hd|[k Hd]];
    rewrite Hd in Hh; injection Hh as <-; [|apply ult_true; intros n; now apply terminal_step].
  set (o := inner lopts0 (TApp true HDict [TPrim PStr; TPrim PFloat]) (Some (TApp true HDict [TPrim PStr; TPrim PFloat])) hints).
  assert (H1 : ultimately (fun n => forall a, In a [VStr "real"; VStr "imag"] ->
                 loaded 0 (set_kt None o) (Some (TPrim PStr)) a n)).
  { apply ult_all. intros a [<-|[<-|[]]]; now apply Hs. }
  assert (H2 : ultimately (fun n => forall x, In x [re; im] ->
                 loaded 0 (set_kt (Some (fun k => Ok k)) o) (Some (TPrim PFloat)) x n)).
  { apply ult_all. intros a Ha. now apply Hf. }
  eapply ult_imp; [|exact (ult_and _ _ H1 H2)]. intros n [Hn1 Hn2]. cbn [deser_step]. unfold deser_mapping.
  cbn [get_args raw_args]. rewrite bind_lift_ok. apply ends_bind; [|auto with ends].
  unfold deser_dict, str_dict. cbn [map]. apply ends_bind; [unfold load_hashed_keys; cbn; auto with ends|].
  intros [d' b] Hd'. cbn in Hd'. injection Hd' as <- <-. cbn [snd fst].
  change (lo_kt o) with (@None (value -> res value)). cbv iota zeta.
  apply deser_dict_go_ends.
  - intros k k' Hk [= <-] t [= <-]. exact (Hn1 k Hk).
  - intros key x Hx. apply Hn2. destruct Hx as [[= _ <-]|[[= _ <-]|[]]]; cbn; tauto.
Qed.

(** [j]: the document; [t]: its target type. *)
Variables (j : value) (t : ty) (o : lopts).
Hypothesis Hkeys : keys_settled o.
(** Elements *)
Hypothesis Helem : forall l x u o', keys_settled o' -> py_iter (e_rt E) j = Ok l -> In x l ->
  u = None \/ (exists u', u = Some u' /\ In u' (get_args (Some t))) -> ultimately (loaded f o' u x).
(** Fields of named tuples *)
Hypothesis Hfield : forall c fs i fd x o', keys_settled o' -> t = TClass c -> ci_kind (e_ct E c) = CkNT fs ->
  nth_error fs i = Some fd -> py_getitem (e_ct E) j (VInt (Z.of_nat i)) = Ok x ->
  ultimately (loaded f o' (nf_hint fd) x).
Hypothesis Hdefault : forall c fs fd o', keys_settled o' -> t = TClass c -> ci_kind (e_ct E c) = CkNT fs ->
  In fd fs -> (exists l, py_iter (e_rt E) j = Ok l) ->
  ultimately (loaded f o' (nf_hint fd) (match nf_default fd with Some x => x | None => VNone end)).
(** Dicts *)
Hypothesis Hvalue : forall k d key x u o', keys_settled o' -> j = VDict k d -> In (key, x) d ->
  ultimately (loaded f o' u x).
Hypothesis Hkey : forall k d key x k' u o', keys_settled o' -> j = VDict k d -> In (key, x) d ->
  atom k' \/ k' = key -> ultimately (loaded f o' u k').
Hypothesis Hstored : forall k d k' d' h x u o', keys_settled o' -> j = VDict k d ->
  dget (VStr "-keys") d = Some (VDict k' d') -> In (h, x) d' -> ultimately (loaded f o' u x).

Lemma transform_values g : forall d acc d', transform_keys (e_ct E) g d acc = Ok d' ->
  forall key x, In (key, x) d' -> (exists key', In (key', x) d) \/ exists key', In (key', x) acc.
Proof.
  induction d as [|[a b] d IH]; intros acc d' H key x Hin; cbn [transform_keys] in H.
  - injection H as <-. right. exists key. exact Hin.
  - apply rbind_ok in H as (k' & _ & H). destruct (hashable (e_ct E) k'); [|discriminate].
    destruct (IH _ _ H key x Hin) as [[key' Hk]|[key' Hk]]; [left; exists key'; now right|].
    apply dset_values in Hk as [-> |Hk]; [left; exists a; now left|now right].
Qed.

Lemma list_step_ends args : (forall u, In u args -> In u (get_args (Some t))) ->
  ultimately (fun n => ends (deser_list E (load E n) f o args j)).
Proof.
  intros Hargs. unfold deser_list.
  set (o1 := match args with [] => o | _ => set_inferred true o end).
  assert (Ho1 : keys_settled (set_warn false o1)).
  { assert (H : lo_kt (set_warn false o1) = lo_kt o) by (unfold o1; destruct args; reflexivity).
    unfold keys_settled. rewrite H. exact Hkeys. }
  apply ult_lift. intros l Hl.
  assert (Hall : ultimately (fun n => forall x, In x l -> loaded f (set_warn false o1) (hd_error args) x n)).
  { apply ult_all. intros x Hx. apply (Helem l); try assumption.
    destruct args as [|u args]; [now left|right]. exists u. split; [reflexivity|]. apply Hargs. now left. }
  eapply ult_imp; [|exact Hall]. intros n Hn. apply deser_list_go_ends. exact Hn.
Qed.
Lemma namedtuple_step_ends c fs : t = TClass c -> ci_kind (e_ct E c) = CkNT fs ->
  ultimately (fun n => ends (deser_namedtuple E (load E n) f o c j)).
Proof.
  intros Ht Hc. unfold deser_namedtuple.
  assert (Hgo : forall d len, (exists l, py_iter (e_rt E) j = Ok l) ->
    (forall d', d = Some d' -> exists k d0, j = VDict k d0 /\ forall key x, In (key, x) d' -> exists key', In (key', x) d0) ->
    ultimately (fun n => ends (deser_nt_go E (load E n) f o j d len 0 (nt_fields (e_ct E) c)))).
  { intros d len Hl Hd.
    assert (Hall : ultimately (fun n => forall k, In k (seq 0 (length fs)) ->
      forall fd, nth_error fs k = Some fd -> forall x,
        (if Nat.ltb k len then
           match d with
           | Some d => match dget (VStr (nf_name fd)) d with Some x => Ok x | None => raise KKey end
           | None => py_getitem (e_ct E) j (VInt (Z.of_nat k))
           end
         else Ok (match nf_default fd with Some x => x | None => VNone end)) = Ok x ->
        loaded f o (nf_hint fd) x n)).
    { apply (ult_all (fun k n => forall fd, nth_error fs k = Some fd -> forall x, _ = Ok x -> loaded f o (nf_hint fd) x n)).
      intros k _.
      apply (ult_some (fun fd n => forall x, _ = Ok x -> loaded f o (nf_hint fd) x n)). intros fd Hfd.
      apply (ult_opt (fun x n => loaded f o (nf_hint fd) x n)). intros x Hx.
      destruct (Nat.ltb k len).
      - destruct d as [d'|].
        + destruct (dget (VStr (nf_name fd)) d') as [y|] eqn:Hy; [|discriminate Hx]. injection Hx as ->.
          destruct (Hd d' eq_refl) as (kk & d0 & Hj & Hvals).
          destruct (aget_In_gen _ _ _ _ Hy) as [key Hin]. destruct (Hvals key x Hin) as [key' Hin'].
          eapply Hvalue; eassumption.
        + eapply Hfield; eassumption.
      - injection Hx as <-. eapply Hdefault; [exact Hkeys|exact Ht|exact Hc| |exact Hl]. eapply nth_error_In. exact Hfd. }
    assert (Hfs : nt_fields (e_ct E) c = fs) by (unfold nt_fields; now rewrite Hc). rewrite Hfs.
    eapply ult_imp; [|exact Hall]. intros n Hn. apply deser_nt_go_ends. intros k fd x Hk Hx.
    apply (Hn k); [|exact Hk|exact Hx]. apply in_seq. split; [lia|].
    apply nth_error_Some. congruence. }
  assert (Hplain : forall l, py_iter (e_rt E) j = Ok l ->
    ultimately (fun n => ends (dom vs <- deser_nt_go E (load E n) f o j None (length l) 0 (nt_fields (e_ct E) c);
                               ret (VNT c vs)))).
  { intros l Hl. eapply ult_imp; [|apply (Hgo None (length l)); [exists l; exact Hl|discriminate]].
    intros n Hn. apply ends_bind; [exact Hn|auto with ends]. }
  assert (Hother : (forall k d, j <> VDict k d) ->
    ultimately (fun n => ends (dom d <- ret None; dom l <- lift (py_iter (e_rt E) j);
                               dom vs <- deser_nt_go E (load E n) f o j d (length l) 0 (nt_fields (e_ct E) c);
                               ret (VNT c vs)))).
  { intros _. eapply ult_imp with (P := fun n => ends (dom l <- lift (py_iter (e_rt E) j);
                               dom vs <- deser_nt_go E (load E n) f o j None (length l) 0 (nt_fields (e_ct E) c);
                               ret (VNT c vs))); [intros n Hn; rewrite bind_ret_l; exact Hn|].
    apply ult_lift. exact Hplain. }
  destruct j as [|b|z|z|s|l|l|k l|k d|y|i n'|i l|i at_] eqn:Hj; try (apply Hother; discriminate).
  destruct (transform_keys (e_ct E) (match lo_kt o with Some g => g | None => fun k => Ok k end) d []) as [d'|e] eqn:Ht'.
  - apply ult_imp with (P := fun n => ends (deser_nt_go E (load E n) f o (VDict k d) (Some d') (length (map fst d)) 0 (nt_fields (e_ct E) c))).
    + intros n Hn. apply ends_bind; [apply ends_bind; auto with ends|]. intros d2 Hd2.
      apply bind_done in Hd2 as (d3 & Hd3 & Hd2). apply lift_done in Hd3. injection Hd3 as <-.
      cbn in Hd2. injection Hd2 as <-. cbn [py_iter]. rewrite bind_lift_ok.
      apply ends_bind; [exact Hn|auto with ends].
    + apply Hgo; [eexists; reflexivity|]. intros d2 [= <-]. exists k, d. split; [reflexivity|]. intros key x Hin.
      destruct (transform_values _ _ _ _ Ht' key x Hin) as [H|[key' []]]. exact H.
  - apply ult_true. intros n. unfold ends. cbn. discriminate.
Qed.
Lemma tuple_step_ends : ultimately (fun n => ends (deser_tuple E (load E n) f o t j)).
Proof.
  unfold deser_tuple.
  assert (Hplain : ultimately (fun n => ends (dom l <- lift (py_iter (e_rt E) j);
    match get_args (Some t) with
    | [] => dom vs <- mmap (load E n f (set_kt None o) None) l; ret (VTuple vs)
    | (t0 :: _) as ts =>
        let ts' := if ty_eqb TEllipsis (last ts TAny) then repeat t0 (length l) else ts in
        dom vs <- deser_tuple_go (load E n) f (set_kt None o) l ts'; ret (VTuple vs)
    end))).
  { assert (Hnk : keys_settled (set_kt None o)) by (intros g k k'; discriminate).
    apply ult_lift. intros l Hl. destruct (get_args (Some t)) as [|t0 ts] eqn:Ha.
    - assert (Hall : ultimately (fun n => forall x, In x l -> loaded f (set_kt None o) None x n)).
      { apply ult_all. intros x Hx. apply (Helem l); try assumption. now left. }
      eapply ult_imp; [|exact Hall]. intros n Hn. apply ends_bind; [|auto with ends]. now apply ends_mmap.
    - set (ts' := if ty_eqb TEllipsis (last (t0 :: ts) TAny) then repeat t0 (length l) else t0 :: ts).
      assert (Hts : forall u, In u ts' -> In u (t0 :: ts)).
      { intros u Hu. unfold ts' in Hu. destruct (ty_eqb TEllipsis (last (t0 :: ts) TAny)); [|exact Hu].
        apply repeat_spec in Hu. subst u. now left. }
      assert (Hall : ultimately (fun n => forall x, In x l -> forall u, In u ts' -> loaded f (set_kt None o) (Some u) x n)).
      { apply (ult_all (fun x n => forall u, In u ts' -> loaded f (set_kt None o) (Some u) x n)). intros x Hx.
        apply (ult_all (fun u n => loaded f (set_kt None o) (Some u) x n)). intros u Hu.
        apply (Helem l); try assumption. right. exists u. split; [reflexivity|]. now apply Hts. }
      eapply ult_imp; [|exact Hall]. intros n Hn. apply ends_bind; [|auto with ends].
      apply deser_tuple_go_ends. intros x u Hx Hu. now apply Hn. }
  destruct t as [p| | | |b h l|l| | | | |k|c|m' n' s| |s] eqn:Ht; try exact Hplain.
  destruct (ci_kind (e_ct E c)) as [| |fs] eqn:Hc; try exact Hplain.
  rewrite <- Ht in *. now apply namedtuple_step_ends with (fs := fs).
Qed.
Lemma dict_step_ends args : ultimately (fun n => ends (deser_dict E (load E n) f o args j)).
Proof.
  unfold deser_dict. destruct j as [|b|z|z|s|l|l|k l|k d|y|i n'|i l|i at_] eqn:Hj;
    try (apply ult_true; intros ?; auto with ends; fail).
  set (g := match lo_kt o with Some g => g | None => fun k => Ok k end).
  assert (Hg : forall a a', g a = Ok a' -> atom a' \/ a' = a).
  { intros a a' Ha. unfold g in Ha. destruct (lo_kt o) as [g'|] eqn:Hk; [eapply Hkeys; eassumption|].
    right. congruence. }
  assert (Hov : keys_settled (set_kt (Some g) o)) by (intros g' a a' [= <-]; apply Hg).
  assert (Hok : keys_settled (set_kt None o)) by (intros g' a a'; discriminate).
  assert (H1 : ultimately (fun n => forall ks, dget (VStr "-keys") d = Some ks -> forall hx,
            In hx (match ks with VDict _ st => st | _ => [] end) ->
            loaded f o (hd_error args) (snd hx) n)).
  { apply (ult_some (fun ks n => forall hx, In hx (match ks with VDict _ st => st | _ => [] end) ->
             loaded f o (hd_error args) (snd hx) n)). intros ks Hks.
    apply (ult_all (fun hx n => loaded f o (hd_error args) (snd hx) n)). intros [h x] Hin.
    destruct ks as [|b|z|z|s|l|l|kk l|kk st|y|i n'|i l|i at_]; try contradiction.
    eapply Hstored; [exact Hkeys|reflexivity|exact Hks|exact Hin]. }
  assert (H2 : ultimately (fun n => forall kx, In kx d ->
             (forall k', g (fst kx) = Ok k' -> loaded f (set_kt None o) (hd_error args) k' n) /\
             loaded f (set_kt (Some g) o) (match args with [_; tv] => Some tv | _ => None end) (snd kx) n)).
  { apply (ult_all (fun kx n => (forall k', g (fst kx) = Ok k' -> loaded f (set_kt None o) (hd_error args) k' n) /\
             loaded f (set_kt (Some g) o) (match args with [_; tv] => Some tv | _ => None end) (snd kx) n)).
    intros [a x] Hin. apply ult_and.
    - apply (ult_opt (fun k' n => loaded f (set_kt None o) (hd_error args) k' n)). intros k' Hk'.
      eapply Hkey; [exact Hok|reflexivity|exact Hin|]. now apply Hg.
    - eapply Hvalue; [exact Hov|reflexivity|exact Hin]. }
  eapply ult_imp; [|exact (ult_and _ _ H1 H2)]. intros n [Hn1 Hn2].
  assert (Hh : ends (load_hashed_keys E (load E n) f o args d) /\
               forall d' b, snd (load_hashed_keys E (load E n) f o args d) = Done (d', b) ->
                 (b = false -> d' = d) /\ forall key x, In (key, x) d' -> exists key', In (key', x) d).
  { unfold load_hashed_keys. destruct (dget (VStr "-keys") d) as [ks|] eqn:Hks.
    - destruct (py_iter (e_rt E) ks) as [kl|e] eqn:Hi; [|split; [unfold ends; discriminate|discriminate]].
      rewrite bind_lift_ok. destruct kl as [|k0 kl].
      + split; [auto with ends|]. intros d' b' [= <- <-]. split; [reflexivity|]. eauto.
      + destruct args as [|a0 [|a1 [|a2 args]]]; try (split; [auto with ends|discriminate]).
        destruct ks as [|b|z|z|s|l|l|kk l|kk st|y|i n'|i l|i at_]; try (split; [auto with ends|discriminate]).
        split.
        * apply ends_bind; [|auto with ends]. apply hashed_go_ends. intros h x Hin.
          exact (Hn1 _ eq_refl (h, x) Hin).
        * intros d' b' H. apply bind_done in H as (d2 & H & H'). cbn in H'. injection H' as <- <-.
          split; [discriminate|]. intros key x Hin. eapply hashed_go_values; eassumption.
    - split; [auto with ends|]. intros d' b' [= <- <-]. split; [reflexivity|]. eauto. }
  destruct Hh as [Hh1 Hh2]. apply ends_bind; [exact Hh1|]. intros [d' b'] Hd'.
  destruct (Hh2 d' b' Hd') as [Hb Hvals]. cbv zeta. cbn [fst snd].
  assert (Hv : forall key x, In (key, x) d' ->
            ends (load E n f (set_kt (Some g) o) (match args with [_; tv] => Some tv | _ => None end) x)).
  { intros key x Hin. destruct (Hvals key x Hin) as [key' Hin']. exact (proj2 (Hn2 (key', x) Hin')). }
  destruct args as [|a0 [|a1 [|a2 args]]].
  - apply deser_dict_go_ends; [discriminate|exact Hv].
  - apply deser_dict_go_ends; [discriminate|exact Hv].
  - apply deser_dict_go_ends; [|exact Hv]. intros a a' Hin Ha u Hu. destruct b'; [discriminate Hu|].
    injection Hu as <-. rewrite (Hb eq_refl) in Hin. apply in_map_iff in Hin as ([a2 x] & <- & Hin).
    exact (proj1 (Hn2 (a2, x) Hin) a' Ha).
  - apply deser_dict_go_ends; [discriminate|exact Hv].
Qed.
Lemma object_step_ends : ultimately (fun n => ends (deser_object E (load E n) f o t j)).
Proof.
  unfold deser_object. destruct (cid_of E t) as [c|]; [|apply ult_true; intros n; auto with ends].
  apply ult_lift. intros d0 Hd0. apply ult_lift. intros d Hd.
  assert (Hvals : forall key x, In (key, x) d -> exists k d1 key', j = VDict k d1 /\ In (key', x) d1).
  { intros key x Hin.
    assert (Hex : exists key', In (key', x) d0).
    { destruct (lo_kt o) as [g|].
      - destruct (transform_values _ _ _ _ Hd key x Hin) as [H|[key' []]]. exact H.
      - injection Hd as <-. exists key. exact Hin. }
    destruct Hex as [key' Hin']. exists (match j with VDict k _ => k | _ => DkDict end), d0, key'.
    split; [|exact Hin'].
    destruct j as [|b|z|z|s|[|]|[|]|k [|]|k dd|y|i n'|i [|]|i at_]; try discriminate Hd0;
      try (injection Hd0 as <-; reflexivity);
      try (injection Hd0 as <-; destruct Hin').
    destruct s; [|discriminate Hd0]. injection Hd0 as <-. destruct Hin'. }
  assert (Hload : forall key x u o', keys_settled o' -> In (key, x) d -> ultimately (loaded f o' u x)).
  { intros key x u o' Ho' Hin. destruct (Hvals key x Hin) as (k & d1 & key' & Hj & Hin'). eapply Hvalue; eassumption. }
  set (o1 := set_getters [] o). set (hints := match lo_hints o with Some h => h | None => [] end).
  assert (Ho1 : keys_settled o1) by exact Hkeys.
  assert (H1 : ultimately (fun n => forall p, In p (ci_params (e_ct E c)) ->
            forall x, dget (VStr (pa_name p)) d = Some x -> ends (value_from_obj E (load E n) f o1 hints p x))).
  { apply (ult_all (fun p n => forall x, dget (VStr (pa_name p)) d = Some x ->
             ends (value_from_obj E (load E n) f o1 hints p x))). intros p _.
    apply (ult_some (fun x n => ends (value_from_obj E (load E n) f o1 hints p x))). intros x Hx.
    destruct (aget_In_gen _ _ _ _ Hx) as [key Hin]. unfold value_from_obj. apply ult_lift. intros mh _.
    apply (Hload key x); [exact Hkeys|exact Hin]. }
  assert (H2 : ultimately (fun n => forall kx, In kx d ->
            loaded f o1 (Some (match match fst kx with VStr a => sget a (ci_hints (e_ct E c)) | _ => None end with
                               | Some t => t | None => class_of (snd kx) end)) (snd kx) n)).
  { apply (ult_all (fun kx n => loaded f o1 (Some (match match fst kx with VStr a => sget a (ci_hints (e_ct E c)) | _ => None end with
                               | Some t => t | None => class_of (snd kx) end)) (snd kx) n)).
    intros [key x] Hin. apply (Hload key x); [exact Hkeys|exact Hin]. }
  eapply ult_imp; [|exact (ult_and _ _ H1 H2)]. intros n [Hn1 Hn2]. cbv zeta.
  apply ends_bind; [apply constructor_args_ends; intros p x Hp Hx; now apply Hn1|]. intros args _.
  apply ends_bind; [auto with ends|]. intros rest Hrest. apply lift_done in Hrest.
  assert (Hsub : forall kx, In kx rest -> In kx d).
  { intros kx Hin. unfold remaining_args in Hrest.
    destruct (filter _ d) as [|[k0 x0] r0] eqn:Hf in Hrest; [injection Hrest as <-; destruct Hin|].
    destruct (lo_strict o); [discriminate Hrest|]. injection Hrest as <-. rewrite <- Hf in Hin.
    apply filter_In in Hin as [Hin _]. exact Hin. }
  apply ends_bind; [auto with ends|]. intros _ _. apply ends_bind; [auto with ends|]. intros at_ _.
  apply ends_bind.
  { apply set_remaining_ends. intros k x Hin. exact (Hn2 (k, x) (Hsub _ Hin)). }
  intros at1 _. apply ends_bind; [apply set_getter_ends|auto with ends].
Qed.
Lemma step_ends h :
  (h = DUnion -> forall u, In u (get_args (Some t)) -> ultimately (loaded f o (Some u) j)) ->
  (h = DDefaultDict -> forall args, ultimately (loaded f o (Some (TApp true HDict args)) j)) ->
  (h = DString -> ultimately (loaded f o (Some (TLeaf LkDatetime)) j)) ->
  ultimately (fun n => ends (deser_step E (load E n) f o h t j)).
Proof.
  intros Hu Hdd Hs.
  assert (Hterm : terminal h \/ ~ terminal h) by (destruct h; cbn; tauto).
  destruct Hterm as [Ht|Ht]; [apply ult_true; intros n; now apply terminal_step|].
  destruct h; try (destruct (Ht I)); cbn [deser_step].
  - eapply ult_imp; [|apply (list_step_ends (get_args (Some t))); auto].
    intros n Hn. apply ends_bind; [exact Hn|auto with ends].
  - apply tuple_step_ends.
  - unfold deser_union. destruct (raw_args t) as [ts|] eqn:Ha; [|apply ult_true; intros n; auto with ends].
    assert (Hall : ultimately (fun n => forall u, In u ts -> loaded f o (Some u) j n)).
    { apply ult_all. intros u Hin. apply Hu; [reflexivity|]. cbn [get_args]. now rewrite Ha. }
    eapply ult_imp; [|exact Hall]. intros n Hn. now apply deser_union_go_ends.
  - unfold deser_defaultdict. apply ult_lift. intros t' Ht'.
    assert (Hd : ultimately (loaded f o (Some t') j)).
    { destruct (get_args (Some t)) as [|a [|b [|c l]]]; try discriminate Ht'; injection Ht' as <-; now apply Hdd. }
    eapply ult_imp; [|exact Hd]. intros n Hn. apply ends_bind; [exact Hn|]. intros r _. destruct r; auto with ends.
  - unfold deser_timezone. apply ult_lift. intros off _.
    assert (Hd : ultimately (loaded 0 lopts0 (Some (TLeaf LkTimedelta)) off)).
    { apply terminal_ends; [discriminate| |now left]. apply leaf_terminal; auto. }
    eapply ult_imp; [|exact Hd]. intros n Hn. apply ends_bind; [exact Hn|]. intros td _.
    apply ends_bind; [auto with ends|]. intros nm _.
    destruct td as [| | | | | | | | |[]| | |]; auto with ends. destruct nm; auto with ends.
    destruct (timezone_ok us); auto with ends.
  - unfold deser_string. destruct (ty_eqb t (TPrim PStr) && negb (lo_inferred o));
      [apply ult_true; intros n; auto with ends|].
    eapply ult_imp; [|exact (Hs eq_refl)]. intros n Hn. apply ends_try; [exact Hn|].
    intros e. destruct (is_deser (e_kind e)); auto with ends.
  - unfold deser_mapping. apply ult_lift. intros args _.
    eapply ult_imp; [|apply (dict_step_ends args)]. intros n Hn. apply ends_bind; [exact Hn|].
    intros d _. destruct t as [p| | | |b []  l|l| | | | |k|c|m' n' s| |s]; auto with ends.
  - unfold deser_iterable. apply ult_lift. intros args Ha.
    eapply ult_imp; [|apply (list_step_ends args)].
    + intros n Hn. apply ends_bind; [exact Hn|]. intros l _.
      destruct t as [p| | | |b []  l'|l'| | | | |k|c|m' n' s| |s]; auto with ends;
        destruct (forallb (hashable (e_ct E)) l); auto with ends.
    + intros u Hin. cbn [get_args]. destruct (raw_args t) as [[|a [|b l]]|]; try discriminate Ha;
        injection Ha as <-; [exact Hin|destruct Hin].
  - apply object_step_ends.
  - unfold deser_complex. 
    assert (Hc : forall re im, ultimately (loaded 0 lopts0 (Some (TApp true HDict [TPrim PStr; TPrim PFloat]))
                     (str_dict [("real", re); ("imag", im)]))) by (intros; apply complex_dict_ends).
    assert (Hin : ultimately (fun n => ends (dom re <- lift (py_getitem (e_ct E) j (VStr "real"));
       dom im <- lift (py_getitem (e_ct E) j (VStr "imag"));
       dom d <- load E n 0 lopts0 (Some (TApp true HDict [TPrim PStr; TPrim PFloat]))
                     (str_dict [("real", re); ("imag", im)]);
       dom re' <- lift (py_getitem (e_ct E) d (VStr "real"));
       dom im' <- lift (py_getitem (e_ct E) d (VStr "imag"));
       match re', im' with
       | VFloat x, VFloat y => ret (VLeaf (LComplex x y))
       | _, _ => fail (exn_of KType)
       end))).
    { apply ult_lift. intros re _. apply ult_lift. intros im _. eapply ult_imp; [|exact (Hc re im)].
      intros n Hn. apply ends_bind; [exact Hn|]. intros d _. apply ends_bind; [auto with ends|]. intros re' _.
      apply ends_bind; [auto with ends|]. intros im' _. destruct re'; auto with ends. destruct im'; auto with ends. }
    eapply ult_imp; [|exact Hin]. intros n Hn. apply ends_try; [exact Hn|].
    intros e. destruct (is_keyerror (e_kind e) || is_deser (e_kind e)); auto with ends.
Qed.
End Step.

(** ** Atoms *)
Section Doc.
Variable f : nat.
Hypothesis Hfork : deserializers_settled E f.
Hypothesis Hmain : deserializers_settled E 0.
Hypothesis Hwf : well_founded (below E f).
Hypothesis Hdef : defaults_simple E.

Definition under : ty -> ty -> Prop := Relation_Operators.clos_trans ty (below E f).
Lemma under_wf : well_founded under.
Proof. apply Coq.Wellfounded.Transitive_Closure.wf_clos_trans. exact Hwf. Qed.
Lemma under_arg t u : In u (get_args (Some t)) -> under u t.
Proof.
  intros H. apply Relation_Operators.t_step. cbn [get_args] in H.
  destruct (raw_args t) as [ts|] eqn:Ha; [|destruct H]. eapply be_arg; eassumption.
Qed.
(** Without metadata the type given is the target. *)
Lemma target_nondict o cls1 j t hints : (forall k d, j <> VDict k d) -> target f o cls1 j t hints ->
  t = match cls1 with Some u => u | None => class_of j end.
Proof.
  intros Hj (m & Hm & Hdp).
  assert (Hn : m = None) by (unfold get_cls_and_meta in Hm; destruct j; try congruence).
  subst m. unfold determine_precedence in Hdp. destruct (lo_inferred o), cls1; congruence.
Qed.
Lemma mapping_nondict o args j : (forall k d, j <> VDict k d) ->
  ultimately (loaded f o (Some (TApp true HDict args)) j).
Proof.
  intros Hj. apply load_by_step. intros _ cls1 t hints h Hr Ht Hh _. cbn in Hr. subst cls1.
  apply target_nondict in Ht; [|exact Hj]. subst t.
  destruct (dict_handler f args Hfork) as [Hd|[k Hd]]; rewrite Hd in Hh; injection Hh as <-;
    [|apply ult_true; intros n; now apply terminal_step].
  apply ult_true. intros n. cbn [deser_step]. unfold deser_mapping. apply ends_bind; [auto with ends|].
  intros a _. apply ends_bind; [|auto with ends]. unfold deser_dict. destruct j; auto with ends.
  destruct (Hj k d eq_refl).
Qed.
Lemma datetime_nondict o j : (forall k d, j <> VDict k d) -> ultimately (loaded f o (Some (TLeaf LkDatetime)) j).
Proof.
  intros Hj. apply terminal_ends; [discriminate| |now right]. apply leaf_terminal; auto.
Qed.
(** What is not a container and no string *)
Definition blank (j : value) : Prop := match j with VNone | VBool _ | VInt _ | VFloat _ => True | _ => False end.
Lemma blank_step o j t h : keys_settled o -> blank j ->
  (forall u o', keys_settled o' -> In u (get_args (Some t)) -> ultimately (loaded f o' (Some u) j)) ->
  ultimately (fun n => ends (deser_step E (load E n) f o h t j)).
Proof.
  intros Ho Hj Hu.
  assert (Hit : forall l, py_iter (e_rt E) j <> Ok l) by (intros l; destruct j; try contradiction; discriminate).
  assert (Hnd : forall k d, j <> VDict k d) by (intros k d ->; exact Hj).
  apply step_ends; try assumption; try (intros; exfalso; eapply Hnd; eassumption).
  - intros l x u o' _ Hl. destruct (Hit l Hl).
  - intros c fs i fd x o' _ _ _ _ Hx. destruct j; try contradiction; discriminate Hx.
  - intros c fs fd o' _ _ _ _ [l Hl]. destruct (Hit l Hl).
  - intros _ u Hin. now apply Hu.
  - intros _ args. now apply mapping_nondict.
  - intros _. now apply datetime_nondict.
Qed.
Lemma blank_nonvalid j : atom j -> (forall s, j <> VStr s) -> ~ blank j -> valid_type j = false.
Proof. destruct j; cbn; intros Ha Hs Hb; try tauto. destruct (Hs s eq_refl). Qed.
Lemma blank_ends o cls j : keys_settled o -> atom j -> (forall s, j <> VStr s) -> ultimately (loaded f o cls j).
Proof.
  intros Ho Ha Hs.
  assert (Hd : blank j \/ ~ blank j) by (destruct j; cbn; tauto).
  destruct Hd as [Hb|Hb].
  2:{ apply load_by_step. intros Hv. rewrite (blank_nonvalid j Ha Hs Hb) in Hv. discriminate Hv. }
  assert (Hnd : forall k d, j <> VDict k d) by (intros k d ->; exact Hb).
  destruct cls as [t|].
  - revert o Ho. induction t as [t IH] using (well_founded_ind under_wf). intros o Ho.
    apply load_by_step. intros _ cls1 t' hints h Hr Ht Hh _. apply target_nondict in Ht; [|exact Hnd].
    apply blank_step; [now apply inner_kt|exact Hb|]. intros u o' Ho' Hu. apply IH; [|exact Ho'].
    unfold resolved in Hr. destruct t; subst; try (now apply under_arg).
    destruct Hr as (t1 & Hr & ->). eapply Relation_Operators.t_trans; [exact (under_arg _ _ Hu)|].
    apply Relation_Operators.t_step. now apply be_name.
  - apply load_by_step. intros _ cls1 t' hints h Hr Ht Hh _. apply target_nondict in Ht; [|exact Hnd].
    cbn in Hr. subst cls1 t'. apply blank_step; [now apply inner_kt|exact Hb|]. intros u o' Ho' Hu.
    destruct j; try contradiction; destruct Hu.
Qed.
Lemma str_nondict s : forall k d, VStr s <> VDict k d.
Proof. discriminate. Qed.
(** Strings: one step *)
Lemma string_step o s t h : keys_settled o ->
  (forall x u o', keys_settled o' -> In x (str_chars s) -> u = None \/ (exists u', u = Some u' /\ In u' (get_args (Some t))) ->
     ultimately (loaded f o' u x)) ->
  (forall c fs i fd x o', keys_settled o' -> t = TClass c -> ci_kind (e_ct E c) = CkNT fs ->
     nth_error fs i = Some fd -> nth_error (str_chars s) i = Some x -> ultimately (loaded f o' (nf_hint fd) x)) ->
  (forall c fs fd o', keys_settled o' -> t = TClass c -> ci_kind (e_ct E c) = CkNT fs -> In fd fs ->
     ultimately (loaded f o' (nf_hint fd) (match nf_default fd with Some x => x | None => VNone end))) ->
  (forall u o', keys_settled o' -> In u (get_args (Some t)) -> ultimately (loaded f o' (Some u) (VStr s))) ->
  ultimately (fun n => ends (deser_step E (load E n) f o h t (VStr s))).
Proof.
  intros Ho Helem Hfield Hdefault Hu.
  apply step_ends; try assumption; try (intros; discriminate).
  - intros l x u o' Ho' [= <-] Hx. now apply Helem.
  - intros c fs i fd x o' Ho' Ht Hc Hfd Hx. eapply Hfield; try eassumption.
    cbn [py_getitem] in Hx.
    assert (Hi : (Z.of_nat i <? 0)%Z = false) by (apply Z.ltb_ge; lia). rewrite Hi in Hx.
    destruct ((0 <=? Z.of_nat i)%Z && _); [|discriminate Hx]. rewrite Nat2Z.id in Hx.
    destruct (nth_error (str_chars s) i); [injection Hx as <-; reflexivity|discriminate Hx].
  - intros c fs fd o' Ho' Ht Hc Hfd _. eapply Hdefault; eassumption.
  - intros _ u Hin. now apply Hu.
  - intros _ args. apply mapping_nondict, str_nondict.
  - intros _. apply datetime_nondict, str_nondict.
Qed.
Lemma str_none o s : keys_settled o -> ultimately (loaded f o None (VStr s)).
Proof.
  intros Ho. apply load_by_step. intros _ cls1 t hints h Hr Ht Hh _. apply target_nondict in Ht; [|apply str_nondict].
  cbn in Hr. subst cls1 t. cbn [class_of] in *.
  destruct (Hfork (TPrim PStr)) as [Hd|[k Hd]]; rewrite Hd in Hh;
    [change (default_deser (e_ct E) (TPrim PStr)) with (Some DString) in Hh|]; injection Hh as <-;
    [|apply ult_true; intros n; now apply terminal_step].
  cbn [deser_step]. unfold deser_string.
  destruct (ty_eqb (TPrim PStr) (TPrim PStr) && negb _); [apply ult_true; intros n; auto with ends|].
  eapply ult_imp; [|apply datetime_nondict, str_nondict]. intros n Hn. apply ends_try; [exact Hn|].
  intros e. destruct (is_deser (e_kind e)); auto with ends.
Qed.
Lemma chars_str s x : In x (str_chars s) -> exists ch, x = VStr (String ch "").
Proof. unfold str_chars. intros H. apply in_map_iff in H as (ch & <- & _). now exists ch. Qed.
Lemma untupled_args CT t u : untupled CT t -> In u (get_args (Some t)) -> untupled CT u.
Proof.
  assert (Hall : forall l, (fix all l := match l with [] => True | x :: r => untupled CT x /\ all r end) l ->
            In u l -> untupled CT u).
  { induction l as [|x l IH]; intros H Hin; [destruct Hin|]. destruct H as [H1 H2].
    destruct Hin as [<-|Hin]; auto. }
  cbn [get_args]. destruct t; cbn [raw_args]; try (intros _ []).
  - intros H Hin. apply (Hall args); [exact H|]. destruct args; [destruct Hin|exact Hin].
  - intros H Hin. eapply Hall; [exact H|exact Hin].
Qed.
(** Types without named tuples *)
Lemma string_untupled t : untupled (e_ct E) t -> forall o s, keys_settled o -> ultimately (loaded f o (Some t) (VStr s)).
Proof.
  induction t as [t IH] using (well_founded_ind under_wf). intros Ht o s Ho.
  assert (IH' : forall u, In u (get_args (Some t)) -> forall o s, keys_settled o -> ultimately (loaded f o (Some u) (VStr s))).
  { intros u Hu. apply IH; [now apply under_arg|]. eapply untupled_args; eassumption. }
  apply load_by_step. intros _ cls1 t' hints h Hr Htg Hh _. apply target_nondict in Htg; [|apply str_nondict].
  assert (Hc1 : cls1 = Some t) by (destruct t; try exact Hr; destruct Ht). subst cls1 t'.
  apply string_step; [now apply inner_kt| | | |].
  - intros x u o' Ho' Hx [-> |(u' & -> & Hu)]; destruct (chars_str s x Hx) as [ch ->];
      [now apply str_none|now apply IH'].
  - intros c fs i fd x o' _ -> Hc. destruct (Ht fs Hc).
  - intros c fs fd o' _ -> Hc. destruct (Ht fs Hc).
  - intros u o' Ho' Hu. now apply IH'.
Qed.
Lemma default_ends c fs fd o : keys_settled o -> ci_kind (e_ct E c) = CkNT fs -> In fd fs ->
  ultimately (loaded f o (nf_hint fd) (match nf_default fd with Some x => x | None => VNone end)).
Proof.
  intros Ho Hc Hfd. destruct (nf_default fd) as [x|] eqn:Hx; [|apply blank_ends; [exact Ho|exact I|discriminate]].
  destruct (Hdef c fs fd x Hc Hfd Hx) as [Ha Hs].
  assert (Hd : (exists s, x = VStr s) \/ forall s, x <> VStr s)
    by (destruct x; try (right; discriminate); left; eexists; reflexivity).
  destruct Hd as [[s ->]|Hd]; [|now apply blank_ends].
  destruct (nf_hint fd) as [u|] eqn:Hu; [|now apply str_none].
  apply string_untupled; [|exact Ho]. eapply Hs; reflexivity.
Qed.
(** Strings of one character *)
Lemma char_ends ch o cls : keys_settled o -> ultimately (loaded f o cls (VStr (String ch ""))).
Proof.
  intros Ho. destruct cls as [t|]; [|now apply str_none].
  revert o Ho. induction t as [t IH] using (well_founded_ind under_wf). intros o Ho.
  apply load_by_step. intros _ cls1 t' hints h Hr Htg Hh _. apply target_nondict in Htg; [|apply str_nondict].
  assert (Hut : forall u, under u t' -> forall o, keys_settled o -> ultimately (loaded f o (Some u) (VStr (String ch "")))).
  { intros u Hu. apply IH. unfold resolved in Hr. destruct t; subst; try exact Hu.
    destruct Hr as (t1 & Hr & ->). eapply Relation_Operators.t_trans; [exact Hu|].
    apply Relation_Operators.t_step. now apply be_name. }
  apply string_step; [now apply inner_kt| | | |].
  - intros x u o' Ho' [<-|[]] [-> |(u' & -> & Hu)]; [now apply str_none|].
    apply Hut; [now apply under_arg|exact Ho'].
  - intros c fs i fd x o' Ho' Hc Hk Hfd Hx. destruct i as [|i]; [|destruct i; discriminate Hx].
    cbn in Hx. injection Hx as <-. destruct (nf_hint fd) as [u|] eqn:Hu; [|now apply str_none].
    apply Hut; [|exact Ho']. rewrite Hc. apply Relation_Operators.t_step.
    destruct fs as [|fd' fs]; [discriminate Hfd|]. cbn in Hfd. injection Hfd as ->. eapply be_first; eassumption.
  - intros c fs fd o' Ho' _ Hc Hfd. now apply (default_ends c fs fd).
  - intros u o' Ho' Hu. apply Hut; [now apply under_arg|exact Ho'].
Qed.
(** All strings *)
Lemma string_ends s o cls : keys_settled o -> ultimately (loaded f o cls (VStr s)).
Proof.
  intros Ho. destruct cls as [t|]; [|now apply str_none].
  revert o Ho. induction t as [t IH] using (well_founded_ind under_wf). intros o Ho.
  apply load_by_step. intros _ cls1 t' hints h Hr Htg Hh _. apply target_nondict in Htg; [|apply str_nondict].
  apply string_step; [now apply inner_kt| | | |].
  - intros x u o' Ho' Hx _. destruct (chars_str s x Hx) as [ch ->]. now apply char_ends.
  - intros c fs i fd x o' Ho' Hc Hk Hfd Hx. apply nth_error_In in Hx. destruct (chars_str s x Hx) as [ch ->].
    now apply char_ends.
  - intros c fs fd o' Ho' _ Hc Hfd. now apply (default_ends c fs fd).
  - intros u o' Ho' Hu. apply IH; [|exact Ho']. unfold resolved in Hr. destruct t; subst; try (now apply under_arg).
    destruct Hr as (t1 & Hr & ->). eapply Relation_Operators.t_trans; [exact (under_arg _ _ Hu)|].
    apply Relation_Operators.t_step. now apply be_name.
Qed.
Lemma atom_ends j o cls : keys_settled o -> atom j -> ultimately (loaded f o cls j).
Proof.
  intros Ho Ha. assert (Hd : (exists s, j = VStr s) \/ forall s, j <> VStr s)
    by (destruct j; try (right; discriminate); left; eexists; reflexivity).
  destruct Hd as [[s ->]|Hd]; [now apply string_ends|now apply blank_ends].
Qed.
(** ** Lists, tuples, sets and dicts *)
Definition deep : value -> value -> Prop := Relation_Operators.clos_trans value inside.
Lemma inside_wf : well_founded inside.
Proof.
  intros v.
  induction v as [|b|z|x|s|l IH|l IH|k l IH|k d IH|y|c n|c l IH|c at_ IH] using value_ind';
    constructor; intros a Ha; inversion Ha as [l' x' Hin|l' x' Hin|k' l' x' Hin|k' d' key x' Hin|k' d' key x' Hin]; subst;
    rewrite Forall_forall in IH; try (now apply IH); apply IH in Hin; tauto.
Qed.
Lemma deep_wf : well_founded deep.
Proof. apply Coq.Wellfounded.Transitive_Closure.wf_clos_trans. exact inside_wf. Qed.
Definition named (j : value) : Prop := names_settled E f \/ no_meta j.
Lemma named_inside x j : named j -> inside x j -> named x.
Proof.
  intros [H|H] Hx; [now left|right]. intros k d Hw. apply (H k d).
  clear H. remember (VDict k d) as v eqn:Hv. clear Hv. induction Hw as [v|a b v Ha Hb IH].
  - eapply wi_inside; [exact Hx|apply wi_self].
  - eapply wi_inside; [exact Ha|]. now apply IH.
Qed.
Lemma named_deep x j : named j -> deep x j -> named x.
Proof.
  intros Hj Hx. induction Hx as [x y H|x y z H1 IH1 H2 IH2].
  - eapply named_inside; eassumption.
  - apply IH1. now apply IH2.
Qed.
Definition settled (j : value) : Prop := forall o cls, keys_settled o -> ultimately (loaded f o cls j).
Lemma iter_deep j l x : valid_type j = true -> ~ atom j -> py_iter (e_rt E) j = Ok l -> In x l -> inside x j.
Proof.
  intros Hv Ha Hl Hx. destruct j as [|b|z|y|s|l'|l'|k l'|k d|y|c n|c l'|c at_]; cbn in Ha; try tauto.
  - injection Hl as <-. now constructor.
  - injection Hl as <-. now constructor.
  - injection Hl as <-. now constructor.
  - injection Hl as <-. apply in_map_iff in Hx as ((key & y) & <- & Hin). eapply in_key. exact Hin.
Qed.
Lemma getitem_deep j i x : ~ atom j -> py_getitem (e_ct E) j (VInt (Z.of_nat i)) = Ok x -> inside x j.
Proof.
  intros Ha Hx.
  assert (Hi : (Z.of_nat i <? 0)%Z = false) by (apply Z.ltb_ge; lia).
  assert (Hat : forall l : list value, (if ((0 <=? Z.of_nat i)%Z && (Z.of_nat i <? Z.of_nat (length l))%Z)
            then match nth_error l (Z.to_nat (Z.of_nat i)) with Some x => Ok x | None => raise KIndex end
            else raise KIndex) = Ok x -> In x l).
  { intros l. destruct (_ && _); [|discriminate]. destruct (nth_error l _) eqn:Hn; [|discriminate].
    intros [= <-]. eapply nth_error_In. exact Hn. }
  destruct j as [|b|z|y|s|l|l|k l|k d|y|c n|c l|c at_]; cbn in Ha; try tauto; cbn [py_getitem] in Hx;
    try rewrite Hi in Hx.
  - constructor. now apply Hat.
  - constructor. now apply Hat.
  - destruct k; try discriminate Hx. constructor. now apply Hat.
  - destruct (hashable _ _); [|discriminate Hx]. destruct (dget _ d) as [x'|] eqn:Hd; [|discriminate Hx].
    injection Hx as ->. apply aget_In_gen in Hd as [k1 Hin]. eapply in_value. exact Hin.
Qed.
Lemma document_step o t h j : valid_type j = true -> ~ atom j -> keys_settled o -> (forall x, deep x j -> settled x) ->
  (h = DUnion -> forall u, In u (get_args (Some t)) -> ultimately (loaded f o (Some u) j)) ->
  (h = DDefaultDict -> forall args, ultimately (loaded f o (Some (TApp true HDict args)) j)) ->
  (h = DString -> ultimately (loaded f o (Some (TLeaf LkDatetime)) j)) ->
  ultimately (fun n => ends (deser_step E (load E n) f o h t j)).
Proof.
  intros Hv Ha Ho IH. apply step_ends; try assumption.
  - intros l x u o' Ho' Hl Hx _. apply IH; [|exact Ho']. apply Relation_Operators.t_step.
    eapply iter_deep; eassumption.
  - intros c fs i fd x o' Ho' _ _ _ Hx. apply IH; [|exact Ho']. apply Relation_Operators.t_step.
    eapply getitem_deep; eassumption.
  - intros c fs fd o' Ho' _ Hc Hfd _. now apply (default_ends c fs fd).
  - intros k d key x u o' Ho' -> Hx. apply IH; [|exact Ho']. apply Relation_Operators.t_step.
    eapply in_value. exact Hx.
  - intros k d key x k' u o' Ho' -> Hx [Hk| ->]; [now apply atom_ends|]. apply IH; [|exact Ho'].
    apply Relation_Operators.t_step. eapply in_key. exact Hx.
  - intros k d k' d' h' x u o' Ho' -> Hd Hx. apply IH; [|exact Ho'].
    apply aget_In_gen in Hd as [key Hin].
    eapply Relation_Operators.t_trans; apply Relation_Operators.t_step; [eapply in_value; exact Hx|].
    eapply in_value. exact Hin.
Qed.
(** Where the type comes from *)
Lemma target_document o cls1 j t hints : target f o cls1 j t hints ->
  (exists s, e_resolve E f s = Ok t /\ ~ no_meta j) \/
  cls1 = Some t \/
  (cls1 = None /\ t = class_of j).
Proof.
  intros (m & Hm & Hdp).
  assert (Hmeta : forall u, m = Some u -> exists s, e_resolve E f s = Ok u /\ ~ no_meta j).
  { intros u ->. destruct j as [|b|z|y|s|l|l|k l|k d|y|c n|c l|c at_]; try discriminate Hm.
    cbn [get_cls_and_meta] in Hm. destruct (dget (VStr "-meta") d) as [meta|] eqn:Hd; [|discriminate Hm].
    apply rbind_ok in Hm as (cl & _ & Hm). apply rbind_ok in Hm as (s & _ & Hm).
    destruct s; try discriminate Hm. destruct cl; try discriminate Hm.
    apply rbind_ok in Hm as (t' & Hr & Hm). injection Hm as -> _. exists s. split; [exact Hr|].
    intros Hn. rewrite (Hn k d (wi_self _)) in Hd. discriminate Hd. }
  unfold determine_precedence in Hdp. destruct (lo_inferred o).
  - destruct m as [u|]; [injection Hdp as ->; left; now apply Hmeta|].
    destruct cls1 as [u|]; [right; now left|]. right. right. split; congruence.
  - destruct cls1 as [u|]; [right; now left|].
    destruct m as [u|]; [injection Hdp as ->; left; now apply Hmeta|]. right. right. split; congruence.
Qed.
Lemma mapping_ends o args j : valid_type j = true -> ~ atom j -> keys_settled o -> (forall x, deep x j -> settled x) ->
  lo_inferred o = false -> ultimately (loaded f o (Some (TApp true HDict args)) j).
Proof.
  intros Hv Ha Ho IH Hi. apply load_by_step. intros _ cls1 t hints h Hr (m & Hm & Hdp) Hh _. cbn in Hr. subst cls1.
  rewrite Hi in Hdp. cbn in Hdp. injection Hdp as <-.
  destruct (dict_handler f args Hfork) as [Hd|[k Hd]]; rewrite Hd in Hh; injection Hh as <-;
    [|apply ult_true; intros n; now apply terminal_step].
  apply document_step; try assumption; try discriminate.
Qed.
Lemma class_handler j h : valid_type j = true -> ~ atom j -> e_deser E f (class_of j) = Some h ->
  h <> DUnion /\ h <> DDefaultDict /\ h <> DString.
Proof.
  intros Hv Ha Hh. destruct (Hfork (class_of j)) as [Hd|[k Hd]]; rewrite Hd in Hh;
    [|injection Hh as <-; repeat split; discriminate].
  clear Hd. rewrite default_deser_eq in Hh.
  destruct j as [|b|z|y|s|l|l|k l|k d|y|c n|c l|c at_]; cbn in Ha; try tauto;
    try (destruct k; try discriminate Hv); cbn in Hh; injection Hh as <-; repeat split; discriminate.
Qed.
Lemma changed_same t : changed t (Some t) = false.
Proof. cbn [changed]. now rewrite ty_eqb_refl. Qed.
Lemma document_ends j : named j -> settled j.
Proof.
  induction j as [j IHj] using (well_founded_ind deep_wf). intros Hn.
  assert (IH : forall x, deep x j -> settled x) by (intros x Hx; apply IHj; [exact Hx|eapply named_deep; eassumption]).
  clear IHj.
  assert (Hd : atom j \/ ~ atom j) by (destruct j; cbn; tauto).
  destruct Hd as [Ha|Ha]; [intros o cls Ho; now apply atom_ends|].
  assert (Hmeta : forall s t h, e_resolve E f s = Ok t -> ~ no_meta j -> e_deser E f t = Some h ->
            h <> DUnion /\ h <> DDefaultDict /\ h <> DString).
  { intros s t h Hr Hm Hh. destruct Hn as [Hn|Hn]; [eapply Hn; eassumption|destruct (Hm Hn)]. }
  assert (Hnone : forall o, keys_settled o -> ultimately (loaded f o None j)).
  { intros o Ho. apply load_by_step. intros Hv cls1 t hints h Hr Ht Hh _. cbn in Hr. subst cls1.
    assert (Hh3 : h <> DUnion /\ h <> DDefaultDict /\ h <> DString).
    { destruct (target_document _ _ _ _ _ Ht) as [(s & Hs & Hm)|[Hc|[_ ->]]];
        [eapply Hmeta; eassumption|discriminate Hc|now apply (class_handler j)]. }
    destruct Hh3 as (H1 & H2 & H3). apply document_step; try assumption; try contradiction. }
  intros o [t|] Ho; [|now apply Hnone].
  revert o Ho. induction t as [t IHt] using (well_founded_ind under_wf). intros o Ho.
  apply load_by_step. intros Hv cls1 t' hints h Hr Ht Hh _.
  destruct (target_document _ _ _ _ _ Ht) as [(s & Hs & Hm)|[Hc|[Hc _]]].
  - destruct (Hmeta s t' h Hs Hm Hh) as (H1 & H2 & H3). apply document_step; try assumption; try contradiction.
  - subst cls1. apply document_step; try assumption.
    + intros _ u Hu. apply IHt; [|exact Ho]. unfold resolved in Hr.
      destruct t; try (injection Hr as ->; now apply under_arg).
      destruct Hr as (t1 & Hr & [= ->]). eapply Relation_Operators.t_trans; [exact (under_arg _ _ Hu)|].
      apply Relation_Operators.t_step. now apply be_name.
    + intros _ args. apply mapping_ends; try assumption. cbn [inner set_inferred lo_inferred]. apply changed_same.
    + intros _. apply terminal_ends; [discriminate|apply leaf_terminal; auto|left]. apply changed_same.
  - unfold resolved in Hr. destruct t; try congruence. destruct Hr as (t1 & _ & Hr). congruence.
Qed.
End Doc.
End Load.

(** ** Types that do not go round in circles *)
Lemma all_Forall (P : ty -> Prop) l :
  (fix all l := match l with [] => True | x :: r => P x /\ all r end) l <-> Forall P l.
Proof.
  induction l as [|x l IH]; split; intros H; [constructor|exact I| |].
  - destruct H as [H1 H2]. constructor; [exact H1|]. now apply IH.
  - inversion H; subst. split; [assumption|]. now apply IH.
Qed.
Lemma args_below E f l u b h : below E f u (TApp b h l) -> In u l.
Proof.
  intros H. inversion H as [t ts u' Ha Hin| |]; subst. cbn in Ha. destruct l; congruence.
Qed.
Lemma union_below E f l u : below E f u (TUnion l) -> In u l.
Proof. intros H. inversion H as [t ts u' Ha Hin| |]; subst. cbn in Ha. congruence. Qed.
Lemma flat_founded E f : first_fields_flat E f -> well_founded (below E f).
Proof.
  intros [Hn Hf].
  assert (H1 : forall t, untupled (e_ct E) t -> Acc (below E f) t).
  { induction t as [b h l IH|l IH|m n t IH|t Ht] using ty_ind'; intros Hu; constructor; intros u Hb.
    - apply args_below in Hb. assert (Hu' : Forall (untupled (e_ct E)) l) by (apply all_Forall; exact Hu). rewrite Forall_forall in Hu', IH.
      apply IH; [exact Hb|now apply Hu'].
    - apply union_below in Hb. assert (Hu' : Forall (untupled (e_ct E)) l) by (apply all_Forall; exact Hu). rewrite Forall_forall in Hu', IH.
      apply IH; [exact Hb|now apply Hu'].
    - inversion Hb as [? ts ? Ha Hin| |]; subst. discriminate Ha.
    - inversion Hb as [? ts ? Ha Hin|s ? Hs|c fd r ? Hk Hh]; subst.
      + destruct t; try contradiction; discriminate Ha.
      + destruct Hu.
      + destruct (Hu _ Hk). }
  assert (H2 : forall t, nameless t -> Acc (below E f) t).
  { induction t as [b h l IH|l IH|m n t IH|t Ht] using ty_ind'; intros Hu; constructor; intros u Hb.
    - apply args_below in Hb. assert (Hu' : Forall nameless l) by (apply all_Forall; exact Hu). rewrite Forall_forall in Hu', IH.
      apply IH; [exact Hb|now apply Hu'].
    - apply union_below in Hb. assert (Hu' : Forall nameless l) by (apply all_Forall; exact Hu). rewrite Forall_forall in Hu', IH.
      apply IH; [exact Hb|now apply Hu'].
    - inversion Hb as [? ts ? Ha Hin| |]; subst. discriminate Ha.
    - inversion Hb as [? ts ? Ha Hin|s ? Hs|c fd r ? Hk Hh]; subst.
      + destruct t; try contradiction; discriminate Ha.
      + destruct Hu.
      + apply H1. eapply Hf; eassumption. }
  intros t.
  induction t as [b h l IH|l IH|m n t IH|t Ht] using ty_ind'; constructor; intros u Hb.
  - apply args_below in Hb. rewrite Forall_forall in IH. auto.
  - apply union_below in Hb. rewrite Forall_forall in IH. auto.
  - inversion Hb as [? ts ? Ha Hin| |]; subst. discriminate Ha.
  - inversion Hb as [? ts ? Ha Hin|s ? Hs|c fd r ? Hk Hh]; subst.
    + destruct t; try contradiction; discriminate Ha.
    + apply H2. eapply Hn. exact Hs.
    + apply H1. eapply Hf; eassumption.
Qed.
