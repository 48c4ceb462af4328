(** * Proofs about the errors of load *)
From Coq Require Import Lia.
From Verif Require Import EngineFacts LoadFacts LoadSame LoadTypes DatetimeModel ErrorModel ErrorSpec.
Local Open Scope string_scope.

(** ** Without source and target the model is that of EngineDeser.v *)
Definition erase {A} (m : X A) : M A :=
  (fst m, match snd m with XDone a => Done a | XFail e => Fail (er_exn e) | XOof => Oof end).
Lemma erase_bind {A B} (m : X A) (k : A -> X B) (k' : A -> M B) m' :
  erase m = m' -> (forall a, erase (k a) = k' a) -> erase (xbind m k) = mbind m' k'.
Proof.
  intros <- Hk. destruct m as [evs [a|e|]]; unfold xbind, mbind, erase; cbn [fst snd]; try reflexivity. rewrite <- Hk. reflexivity.
Qed.
Lemma erase_try {A} (m : X A) h (h' : exn -> M A) m' :
  erase m = m' -> (forall e, erase (h e) = h' (er_exn e)) -> erase (xtry m h) = mtry m' h'.
Proof.
  intros <- Hh. destruct m as [evs [a|e|]]; cbn; try reflexivity. unfold xtry, mtry, erase. cbn [fst snd].
  rewrite <- Hh. reflexivity.
Qed.
Lemma erase_lift {A} (r : res A) : erase (xlift r) = lift r.
Proof. destruct r; reflexivity. Qed.
Lemma erase_resolved {A} src (r : res A) : erase (xresolved src r) = lift r.
Proof. destruct r as [a|e]; cbn; [reflexivity|]. destruct (is_deser (e_kind e)); reflexivity. Qed.
Lemma erase_map {A B} (g : A -> X B) g' l : (forall x, erase (g x) = g' x) -> erase (xmap g l) = mmap g' l.
Proof.
  intros H. induction l as [|x l IH]; cbn [xmap mmap]; [reflexivity|]. apply erase_bind; [apply H|]. intros y.
  apply erase_bind; [exact IH|]. reflexivity.
Qed.
Lemma erase_warn E f c : erase (xwarn E f c) = warn E f c.
Proof. unfold xwarn, warn. destruct (e_warn E f c); reflexivity. Qed.

Section Erase.
Variable E : env.
Variable xl : nat -> lopts -> option ty -> value -> X value.
Variable l : nat -> lopts -> option ty -> value -> M value.
Hypothesis Hl : forall f o c j, erase (xl f o c j) = l f o c j.
Variable f : nat.
Ltac step := repeat first
  [ reflexivity
  | apply Hl
  | apply erase_lift
  | apply erase_resolved
  | apply erase_warn
  | apply erase_bind; [|intros] ].
Lemma erase_list_go o w t : forall vs i, erase (xlist_go E xl f o w t i vs) = deser_list_go E l f o w t i vs.
Proof.
  induction vs as [|x r IH]; intros i; cbn [xlist_go deser_list_go]; [reflexivity|]. rewrite <- Hl.
  destruct (xl f o t x) as [evs out]. cbn [erase fst snd]. destruct out as [y|e|]; [| |reflexivity].
  - apply erase_bind; [reflexivity|]. intros _. apply erase_bind; [apply IH|]. reflexivity.
  - destruct (is_deser (e_kind (er_exn e))); [|reflexivity]. destruct w; [|reflexivity].
    apply erase_bind; [reflexivity|]. intros _. apply erase_bind; [apply erase_warn|]. intros _. apply IH.
Qed.
Lemma erase_list o args j : erase (xdeser_list E xl f o args j) = deser_list E l f o args j.
Proof. unfold xdeser_list, deser_list. apply erase_bind; [apply erase_lift|]. intros vs. apply erase_list_go. Qed.
Lemma erase_iterable o t j : erase (xdeser_iterable E xl f o t j) = deser_iterable E l f o t j.
Proof.
  unfold xdeser_iterable, deser_iterable. apply erase_bind; [apply erase_lift|]. intros args. apply erase_bind; [apply erase_list|].
  intros vs. destruct t as [| | | |b h ts| | | | | | | | | |]; try apply erase_lift. destruct h; try reflexivity; try apply erase_lift; now destruct (forallb _ vs).
Qed.
Lemma erase_nt_go o c j d len : forall fields i, erase (xnt_go E xl f o c j d len i fields) = deser_nt_go E l f o j d len i fields.
Proof.
  induction fields as [|fd fields IH]; intros i; cbn [xnt_go deser_nt_go]; [reflexivity|].
  apply erase_bind; [apply erase_lift|]. intros x. apply erase_bind; [now destruct (is_none x && _)|]. intros _.
  apply erase_bind; [apply Hl|]. intros y. apply erase_bind; [apply IH|]. reflexivity.
Qed.
Lemma erase_namedtuple o c j : erase (xdeser_namedtuple E xl f o c j) = deser_namedtuple E l f o c j.
Proof.
  unfold xdeser_namedtuple, deser_namedtuple. apply erase_bind.
  - destruct j; try reflexivity. apply erase_bind; [apply erase_lift|reflexivity].
  - intros d. apply erase_bind; [apply erase_lift|]. intros vs. apply erase_bind; [apply erase_nt_go|reflexivity].
Qed.
Lemma erase_tuple_go o : forall vs ts, erase (xtuple_go xl f o vs ts) = deser_tuple_go l f o vs ts.
Proof.
  induction vs as [|x vs IH]; intros ts; cbn [xtuple_go deser_tuple_go]; [reflexivity|]. destruct ts as [|t ts]; [reflexivity|].
  apply erase_bind; [apply Hl|]. intros y. apply erase_bind; [apply IH|reflexivity].
Qed.
Lemma erase_tuple o t j : erase (xdeser_tuple E xl f o t j) = deser_tuple E l f o t j.
Proof.
  unfold xdeser_tuple, deser_tuple. cbv zeta.
  assert (Hp : erase (dox l0 <- xlift (py_iter (e_rt E) j);
    match get_args (Some t) with
    | [] => dox vs <- xmap (xl f (set_kt None o) None) l0; xret (VTuple vs)
    | (t0 :: _) as ts => dox vs <- xtuple_go xl f (set_kt None o) l0 (if ty_eqb TEllipsis (last ts TAny) then repeat t0 (length l0) else ts); xret (VTuple vs)
    end) = (dom l0 <- lift (py_iter (e_rt E) j);
    match get_args (Some t) with
    | [] => dom vs <- mmap (l f (set_kt None o) None) l0; ret (VTuple vs)
    | (t0 :: _) as ts => dom vs <- deser_tuple_go l f (set_kt None o) l0 (if ty_eqb TEllipsis (last ts TAny) then repeat t0 (length l0) else ts); ret (VTuple vs)
    end)).
  { apply erase_bind; [apply erase_lift|]. intros vs. destruct (get_args (Some t)).
    - apply erase_bind; [|reflexivity]. apply erase_map. intros; apply Hl.
    - apply erase_bind; [apply erase_tuple_go|reflexivity]. }
  destruct t; try exact Hp. destruct (ci_kind (e_ct E c)); try exact Hp. apply erase_namedtuple.
Qed.
Lemma erase_union_go o u j : forall ts, erase (xunion_go xl f o u j ts) = deser_union_go l f o j ts.
Proof.
  induction ts as [|t ts IH]; cbn [xunion_go deser_union_go]; [reflexivity|]. apply erase_try; [apply Hl|].
  intros e. destruct (is_jsons _); [exact IH|reflexivity].
Qed.
Lemma erase_hashed_go o kt : forall stored result, erase (xhashed_go E xl f o kt stored result) = hashed_go E l f o kt stored result.
Proof.
  induction stored as [|[h orig] r IH]; intros result; cbn [xhashed_go hashed_go]; [now destruct (dhas _ result)|].
  apply erase_bind; [apply Hl|]. intros k. destruct (dget h result); [|reflexivity]. destruct (hashable _ k && _); [apply IH|reflexivity].
Qed.
Lemma erase_hashed o t args j d : erase (xload_hashed_keys E xl f o t args j d) = load_hashed_keys E l f o args d.
Proof.
  unfold xload_hashed_keys, load_hashed_keys. destruct (dget _ d) as [keys|]; [|reflexivity]. apply erase_bind; [apply erase_lift|].
  intros [|k ks]; [reflexivity|]. destruct args as [|a [|b [|c args]]]; try reflexivity. destruct keys; try reflexivity.
  apply erase_bind; [apply erase_hashed_go|reflexivity].
Qed.
Lemma erase_dict_go ok ov g kc vc : forall d acc, erase (xdict_go E xl f ok ov g kc vc d acc) = deser_dict_go E l f ok ov g kc vc d acc.
Proof.
  induction d as [|[k x] d IH]; intros acc; cbn [xdict_go deser_dict_go]; [reflexivity|]. apply erase_bind; [apply erase_lift|]. intros k1.
  apply erase_bind; [destruct kc; [apply Hl|reflexivity]|]. intros k2. apply erase_bind; [apply Hl|]. intros y.
  destruct (hashable _ k2); [apply IH|reflexivity].
Qed.
Lemma erase_dict o t args j : erase (xdeser_dict E xl f o t args j) = deser_dict E l f o args j.
Proof.
  unfold xdeser_dict, deser_dict. destruct j; try reflexivity. apply erase_bind; [apply erase_hashed|]. intros dh.
  destruct args as [|a [|b [|c args]]]; apply erase_dict_go.
Qed.
Lemma erase_mapping o t j : erase (xdeser_mapping E xl f o t j) = deser_mapping E l f o t j.
Proof.
  unfold xdeser_mapping, deser_mapping. apply erase_bind; [apply erase_lift|]. intros args. apply erase_bind; [apply erase_dict|].
  intros d. destruct t as [| | | |b h ts| | | | | | | | | |]; try apply erase_lift; try reflexivity. destruct h; try reflexivity; apply erase_lift.
Qed.
Lemma erase_defaultdict o t j : erase (xdeser_defaultdict xl f o t j) = deser_defaultdict l f o t j.
Proof.
  unfold xdeser_defaultdict, deser_defaultdict. apply erase_bind; [apply erase_lift|]. intros t'. apply erase_bind; [apply Hl|].
  intros r. destruct r; reflexivity.
Qed.
Lemma erase_primitive t j : erase (xdeser_primitive E t j) = lift (deser_primitive E t j).
Proof.
  unfold xdeser_primitive, deser_primitive. destruct j; try reflexivity;
    (destruct (is_instance _ _ _) as [[]|e]; try reflexivity; cbn [xlift rbind xbind xret fst snd app];
     destruct (cast _ _ _) as [r|e]; [reflexivity|]; now destruct (is_valueerror (e_kind e))).
Qed.
Lemma erase_string o t j : erase (xdeser_string E xl f o t j) = deser_string E l f o t j.
Proof.
  unfold xdeser_string, deser_string. destruct (ty_eqb t _ && _); [apply erase_lift|]. apply erase_try; [apply Hl|].
  intros e. destruct (is_deser _); [apply erase_primitive|reflexivity].
Qed.
Lemma erase_timezone j : erase (xdeser_timezone E xl j) = deser_timezone E l j.
Proof.
  unfold xdeser_timezone, deser_timezone. step. destruct a0 as [| | | | | | | | |x| | |]; try reflexivity.
  destruct x; try reflexivity. destruct a1; try reflexivity. now destruct (timezone_ok us).
Qed.
Lemma erase_complex j : erase (xdeser_complex E xl j) = deser_complex E l j.
Proof.
  unfold xdeser_complex, deser_complex. apply erase_try.
  - step. destruct a2; try reflexivity. now destruct a3.
  - intros e. now destruct (_ || _).
Qed.
Lemma erase_value_from_obj o src hints p x : erase (xvalue_from_obj E xl f o src hints p x) = value_from_obj E l f o hints p x.
Proof.
  unfold xvalue_from_obj, value_from_obj. apply erase_bind; [|intros; apply Hl].
  destruct (dget _ hints) as [s|]; [|reflexivity]. destruct (truthy _ s); [|reflexivity]. destruct s; try reflexivity.
  destruct (e_resolve E f s) as [t|e]; cbn [rbind].
  - unfold xresolved. cbn [xbind xret fst snd app]. destruct (shift_hints _ _ _) as [h|e]; reflexivity.
  - unfold xresolved. destruct (is_deser (e_kind e)); reflexivity.
Qed.
Lemma erase_value_for_attr o t src hints d gs p : erase (xvalue_for_attr E xl f o t src hints d gs p) = value_for_attr E l f o hints d gs p.
Proof.
  unfold xvalue_for_attr, value_for_attr. destruct (dget _ d).
  - apply erase_bind; [apply erase_value_from_obj|reflexivity].
  - destruct (sget _ gs).
    + step.
    + destruct (pa_default p); [reflexivity|]. destruct (pa_var p); [reflexivity|]. apply erase_bind; [apply erase_lift|]. intros [|]; reflexivity.
Qed.
Lemma erase_constructor_args o t src hints d gs : forall ps,
  erase (xconstructor_args E xl f o t src hints d gs ps) = constructor_args E l f o hints d gs ps.
Proof.
  induction ps as [|p ps IH]; cbn [xconstructor_args constructor_args]; [reflexivity|]. apply erase_bind; [apply erase_value_for_attr|].
  intros x. apply erase_bind; [apply IH|reflexivity].
Qed.
Lemma erase_set_remaining o ci : forall rest at_, erase (xset_remaining E xl f o ci rest at_) = set_remaining E l f o ci rest at_.
Proof.
  induction rest as [|[k x] rest IH]; intros at_; cbn [xset_remaining set_remaining]; [reflexivity|]. apply erase_bind.
  { destruct (match k with VStr a => sget a (ci_hints ci) | _ => None end); [reflexivity|]. destruct (has_keys_section x); [apply erase_warn|reflexivity]. }
  intros _. apply erase_bind; [apply Hl|]. intros y. destruct k; try reflexivity. destruct (ci_set ci s y at_) as [at'|e]; [apply IH|].
  destruct (is_attributeerror _); [apply IH|reflexivity].
Qed.
Lemma erase_set_getter_attrs ci : forall gs at_, erase (xset_getter_attrs ci gs at_) = set_getter_attrs ci gs at_.
Proof.
  induction gs as [|[a g] gs IH]; intros at_; cbn [xset_getter_attrs set_getter_attrs]; [reflexivity|].
  apply erase_bind; [reflexivity|]. intros _. apply erase_bind; [apply erase_lift|]. intros y. apply erase_bind; [apply erase_lift|]. intros at'. apply IH.
Qed.
Lemma erase_object o t j : erase (xdeser_object E xl f o t j) = deser_object E l f o t j.
Proof.
  unfold xdeser_object, deser_object. destruct (cid_of E t) as [c|]; [|reflexivity]. apply erase_bind; [apply erase_lift|]. intros d0.
  apply erase_bind; [apply erase_lift|]. intros d. apply erase_bind; [apply erase_constructor_args|]. intros args.
  apply erase_bind; [unfold xremaining_args; destruct (remaining_args _ d args); reflexivity|]. intros rest.
  apply erase_bind; [reflexivity|]. intros _. apply erase_bind; [apply erase_lift|]. intros at_.
  apply erase_bind; [apply erase_set_remaining|]. intros at1. apply erase_bind; [apply erase_set_getter_attrs|reflexivity].
Qed.
Lemma erase_deser_step o h t j : erase (xdeser_step E xl f o h t j) = deser_step E l f o h t j.
Proof.
  destruct h; cbn [xdeser_step deser_step]; try apply erase_lift; try (destruct j; try reflexivity; apply erase_lift).
  - apply erase_bind; [apply erase_list|reflexivity].
  - apply erase_tuple.
  - unfold xdeser_union, deser_union. destruct (raw_args t); [apply erase_union_go|reflexivity].
  - apply erase_defaultdict.
  - apply erase_timezone.
  - apply erase_string.
  - apply erase_primitive.
  - apply erase_mapping.
  - apply erase_iterable.
  - apply erase_object.
  - apply erase_complex.
  - step.
Qed.
Lemma erase_load_step o cls j : erase (xload_step E xl f o cls j) = load_step E l f o cls j.
Proof.
  unfold xload_step, load_step. apply erase_bind.
  { destruct (is_none j); [|reflexivity]. apply erase_bind; [apply erase_lift|]. intros [|]; reflexivity. }
  intros _. destruct (_ || _); [apply erase_bind; [apply erase_lift|reflexivity]|].
  apply erase_bind.
  { destruct cls as [[]|]; try reflexivity. destruct (e_resolve E f s) as [t|e]; [reflexivity|].
    unfold xresolved. cbn [rbind]. destruct (is_deser (e_kind e)); reflexivity. }
  intros cls1. destruct (negb (valid_type j)); [reflexivity|]. apply erase_bind; [apply erase_resolved|]. intros mh.
  destruct (determine_precedence _ _ _ _) as [t|]; [|reflexivity]. destruct (e_deser E f t) as [h|]; [|reflexivity].
  unfold xwrap, wrap_deser. apply erase_try.
  - apply erase_bind; [apply erase_deser_step|]. intros r. apply erase_bind; [apply erase_lift|reflexivity].
  - intros e. destruct (is_jsons _); reflexivity.
Qed.
End Erase.
Theorem erase_load E : forall n f o cls j, erase (xload E n f o cls j) = load E n f o cls j.
Proof.
  induction n as [|n IH]; intros f o cls j; cbn [xload load]; [reflexivity|]. now apply erase_load_step.
Qed.

(** ** Failing computations *)
Lemma xbind_fail {A B} (m : X A) (k : A -> X B) x : snd (xbind m k) = XFail x ->
  snd m = XFail x \/ exists a, snd m = XDone a /\ snd (k a) = XFail x.
Proof. destruct m as [evs [a|e|]]; unfold xbind; cbn [fst snd]; intros H; [right; eauto|left; injection H as <-; reflexivity|discriminate]. Qed.
Lemma xtry_fail {A} (m : X A) h x : snd (xtry m h) = XFail x -> exists e, snd m = XFail e /\ snd (h e) = XFail x.
Proof. destruct m as [evs [a|e|]]; unfold xtry; cbn [fst snd]; intros H; [discriminate|eauto|discriminate]. Qed.
Lemma xlift_fail {A} (r : res A) x : snd (xlift r) = XFail x -> exists e, r = Err e /\ x = bare_err e.
Proof. destruct r as [a|e]; cbn; intros H; [discriminate|]. injection H as <-. eauto. Qed.
Lemma xlift_done {A} (r : res A) a : snd (xlift r) = XDone a -> r = Ok a.
Proof. destruct r as [b|e]; cbn; intros H; [now injection H as <-|discriminate]. Qed.
Lemma xmap_fail {A B} (g : A -> X B) l x : snd (xmap g l) = XFail x -> exists a, In a l /\ snd (g a) = XFail x.
Proof.
  induction l as [|a l IH]; cbn [xmap]; intros H; [discriminate|]. apply xbind_fail in H as [H|(y & _ & H)]; [exists a; cbn; auto|].
  apply xbind_fail in H as [H|(ys & _ & H)]; [|discriminate]. apply IH in H as (b & Hb & H). exists b. cbn. auto.
Qed.

(** ** Pure functions raise no DeserializationErrors *)
Lemma nd_ok {A} (a : A) : no_deser (Ok a).
Proof. intros e H. discriminate. Qed.
Lemma nd_raise {A} k : is_deser k = false -> no_deser (@raise A k).
Proof. intros Hk e H. injection H as <-. intros Hd. apply is_deser_spec in Hd. cbn in Hd. congruence. Qed.
Lemma nd_bind {A B} (m : res A) (k : A -> res B) : no_deser m -> (forall a, m = Ok a -> no_deser (k a)) -> no_deser (rbind m k).
Proof. intros Hm Hk. destruct m as [a|e]; cbn [rbind]; [now apply Hk|]. intros e' H. injection H as <-. now apply Hm. Qed.
Ltac nd := repeat first
  [ apply nd_ok
  | apply nd_raise; reflexivity
  | assumption
  | match goal with |- no_deser (rbind _ _) => apply nd_bind; [|intros] end
  | match goal with |- no_deser (match ?x with _ => _ end) => destruct x eqn:? end
  | match goal with |- no_deser (if ?x then _ else _) => destruct x eqn:? end ].
Lemma nd_getitem CT v k : no_deser (py_getitem CT v k).
Proof. unfold py_getitem. cbv zeta. nd. Qed.
Lemma nd_transform CT g d : (forall k, no_deser (g k)) -> forall acc, no_deser (transform_keys CT g d acc).
Proof. intros Hg. induction d as [|[k x] d IH]; intros acc; cbn [transform_keys]; [apply nd_ok|]. apply nd_bind; [apply Hg|]. intros k' _. destruct (hashable CT k'); [apply IH|now apply nd_raise]. Qed.
Lemma nd_shift p h : forall acc, no_deser (shift_hints p h acc).
Proof. induction h as [|[k v] h IH]; intros acc; cbn [shift_hints]; [apply nd_ok|]. destruct k; try now apply nd_raise. apply IH. Qed.
Lemma nd_is_instance CT v t : no_deser (is_instance CT v t).
Proof. unfold is_instance. nd. Qed.
Lemma nd_can_match_none CT t : no_deser (can_match_none CT t).
Proof. unfold can_match_none. nd. Qed.
Lemma nd_validate E f v t : no_deser (validate E f v t).
Proof. unfold validate. nd. Qed.
Lemma nd_float_of_int z : no_deser (float_of_int z).
Proof. unfold float_of_int. nd. Qed.
Lemma nd_int_of_float z : no_deser (int_of_float z).
Proof. unfold int_of_float. nd. Qed.
Lemma nd_deser_enum CT u t j : no_deser (deser_enum CT u t j).
Proof.
  assert (H1 : forall c, no_deser (enum_by_name CT c j)) by (intros c; unfold enum_by_name; nd).
  assert (H2 : forall c, no_deser (enum_by_value CT c j)) by (intros c; unfold enum_by_value; nd).
  unfold deser_enum. destruct t; nd; try apply H1; try apply H2. rewrite <- Heqr. apply H1.
Qed.
Lemma nd_timedelta j : no_deser (deser_timedelta j).
Proof.
  assert (H : forall z, no_deser (mk_td z)) by (intros z; unfold mk_td; nd).
  unfold deser_timedelta. nd; try apply H. unfold td_of_float. nd; apply H.
Qed.
Lemma nd_uuid s : no_deser (uuid_parse s).
Proof. unfold uuid_parse. cbv zeta. nd. Qed.
Lemma nd_strptime s p : no_deser (strptime s p).
Proof. unfold strptime. cbv zeta. nd. Qed.
Lemma nd_dt_inst s p : no_deser (get_datetime_inst s p).
Proof.
  unfold get_datetime_inst, datetime_utc_inst, datetime_offset_inst, timedelta_hm, new_timezone. cbv zeta. nd; apply nd_strptime.
Qed.
Lemma nd_load_datetime s : no_deser (load_datetime s).
Proof. unfold load_datetime. nd; apply nd_dt_inst. Qed.
Lemma nd_load_date s : no_deser (load_date s).
Proof. unfold load_date. nd; apply nd_dt_inst. Qed.
Lemma nd_load_time s : no_deser (load_time s).
Proof. unfold load_time. nd; apply nd_dt_inst. Qed.
