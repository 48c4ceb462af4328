(** * Facts behind the round-trip properties: classes with bases, leaves, lists *)
From Verif Require Import PyBaseFacts DatetimeProofs LeafProofs DumpProofs DumpLaws LoadFacts LoadLaws LoadTypes LeafLaws.
From Verif Require Export RoundTripSpec.
Local Close Scope Z_scope.
Local Open Scope string_scope.

(** ** Handlers of classes all of whose bases are user classes *)
Definition not_class (b : ty) : bool := match b with TClass _ => false | _ => true end.
Lemma existsb_user b l : not_class b = true -> (forall t, In t l -> exists i, t = TClass i) ->
  existsb (ty_eqb b) l = false.
Proof.
  intros Hb H. destruct (existsb (ty_eqb b) l) eqn:Hx; [|reflexivity].
  apply existsb_exists in Hx as (t & Ht & Heq). apply ty_eqb_eq in Heq. subst t.
  destruct (H _ Ht) as [i ->]. discriminate.
Qed.
Definition bare (CT : classes) (c : nat) : classes :=
  fun i => if Nat.eqb i c then
    let ci := CT c in
    mkCinfo (ci_module ci) (ci_simple ci) (ci_kind ci) [] (ci_params ci) (ci_hints ci) (ci_slots ci)
            (ci_members ci) (ci_prop ci) (ci_init ci) (ci_set ci) (ci_attrs ci) (ci_hashable ci)
  else CT i.
Lemma bare_c CT c : bare CT c c =
    let ci := CT c in
    mkCinfo (ci_module ci) (ci_simple ci) (ci_kind ci) [] (ci_params ci) (ci_hints ci) (ci_slots ci)
            (ci_members ci) (ci_prop ci) (ci_init ci) (ci_set ci) (ci_attrs ci) (ci_hashable ci).
Proof. unfold bare. now rewrite Nat.eqb_refl. Qed.
Lemma parents_bare CT c l : user_supers (CT c) ->
  Forall (fun o => match o with Some b => not_class b = true | None => True end) l ->
  get_parents (ty_world CT) (TClass c) l = get_parents (ty_world (bare CT c)) (TClass c) l.
Proof.
  intros HU Hl. rewrite !get_parents_class. induction Hl as [|o l Ho Hl IH]; [reflexivity|].
  cbn [filter]. rewrite IH.
  assert (Heq : match o with
                | Some TObject => true
                | Some b => existsb (ty_eqb b) (supers CT (TClass c))
                | None => false
                end =
                match o with
                | Some TObject => true
                | Some b => existsb (ty_eqb b) (supers (bare CT c) (TClass c))
                | None => false
                end); [|now rewrite Heq].
  destruct o as [b|]; [|reflexivity].
  assert (Hs : existsb (ty_eqb b) (supers CT (TClass c)) = existsb (ty_eqb b) (supers (bare CT c) (TClass c))).
  { unfold supers. rewrite bare_c. cbn [ci_kind ci_supers]. cbn [existsb]. rewrite !existsb_app.
    cbn [existsb]. rewrite (existsb_user b _ Ho HU). reflexivity. }
  rewrite Hs. reflexivity.
Qed.
Lemma ser_classes_ok : Forall (fun o => match o with Some b => not_class b = true | None => True end) (t_classes ser_table).
Proof. repeat constructor. Qed.
Lemma deser_classes_ok : Forall (fun o => match o with Some b => not_class b = true | None => True end) (t_classes deser_table).
Proof. repeat constructor. Qed.
Lemma lname_bare CT c b : not_class b = true -> lname (ty_world CT) b = lname (ty_world (bare CT c)) b.
Proof. destruct b; try reflexivity. discriminate. Qed.
Lemma bare_fresh CT c : fresh_name (CT c) -> fresh_name (bare CT c c).
Proof. unfold fresh_name. rewrite bare_c. exact (fun H => H). Qed.
Lemma parents_In (W : gworld ty) c l p r : get_parents W c l = p :: r -> In p l.
Proof.
  unfold get_parents. intros H. assert (Hin : In p (p :: r)) by now left. rewrite <- H in Hin.
  now apply filter_In in Hin as [Hin _].
Qed.
Lemma first_bare {F} CT c (l : list (option ty)) (m : list (string * F)) : user_supers (CT c) ->
  Forall (fun o => match o with Some b => not_class b = true | None => True end) l ->
  match get_parents (ty_world CT) (TClass c) l with
  | Some p :: _ => sget (lname (ty_world CT) p) m
  | _ => None
  end =
  match get_parents (ty_world (bare CT c)) (TClass c) l with
  | Some p :: _ => sget (lname (ty_world (bare CT c)) p) m
  | _ => None
  end.
Proof.
  intros Hu Hall. rewrite (parents_bare _ _ _ Hu Hall).
  destruct (get_parents (ty_world (bare CT c)) (TClass c) l) as [|[p|] r] eqn:Hp; [reflexivity| |reflexivity].
  apply parents_In in Hp. rewrite Forall_forall in Hall. specialize (Hall _ Hp). cbn beta iota in Hall.
  now rewrite (lname_bare CT c p Hall).
Qed.
Lemma ser_bare CT c : ordinary (CT c) -> default_ser CT (TClass c) = default_ser (bare CT c) (TClass c).
Proof.
  intros [Hf Hu]. rewrite (default_ser_class _ _ Hf), (default_ser_class _ _ (bare_fresh _ _ Hf)).
  exact (first_bare CT c _ _ Hu ser_classes_ok).
Qed.
Lemma deser_bare CT c : ordinary (CT c) -> default_deser CT (TClass c) = default_deser (bare CT c) (TClass c).
Proof.
  intros [Hf Hu]. rewrite (default_deser_class _ _ Hf), (default_deser_class _ _ (bare_fresh _ _ Hf)).
  exact (first_bare CT c _ _ Hu deser_classes_ok).
Qed.
Section Classes.
Variables (CT : classes) (c : nat).
Hypothesis H : ordinary (CT c).
Let Hf : fresh_name (bare CT c c). Proof. apply bare_fresh. exact (proj1 H). Qed.
Let Hs : ci_supers (bare CT c c) = []. Proof. now rewrite bare_c. Qed.
Lemma ser_object_class : ci_kind (CT c) = CkObj -> default_ser CT (TClass c) = Some SObject.
Proof. intros K. rewrite (ser_bare _ _ H). apply ser_plain_class; auto. now rewrite bare_c. Qed.
Lemma deser_object_class : ci_kind (CT c) = CkObj -> default_deser CT (TClass c) = Some DObject.
Proof. intros K. rewrite (deser_bare _ _ H). apply deser_plain_class; auto. now rewrite bare_c. Qed.
Lemma ser_enumeration m l : ci_kind (CT c) = CkEnum m l -> default_ser CT (TClass c) = Some SEnum.
Proof. intros K. rewrite (ser_bare _ _ H). apply ser_enum_class with m l; auto. now rewrite bare_c. Qed.
Lemma deser_enumeration m l : ci_kind (CT c) = CkEnum m l -> default_deser CT (TClass c) = Some DEnum.
Proof. intros K. rewrite (deser_bare _ _ H). apply deser_enum_class with m l; auto. now rewrite bare_c. Qed.
Lemma ser_namedtuple_class l : ci_kind (CT c) = CkNT l -> default_ser CT (TClass c) = Some STuple.
Proof. intros K. rewrite (ser_bare _ _ H). apply ser_nt_class with l; auto. now rewrite bare_c. Qed.
Lemma deser_namedtuple_class l : ci_kind (CT c) = CkNT l -> default_deser CT (TClass c) = Some DTuple.
Proof. intros K. rewrite (deser_bare _ _ H). apply deser_nt_class with l; auto. now rewrite bare_c. Qed.
End Classes.

(** ** Serializers of the builtin types *)
Definition head_ser (h : EngineTypes.head) : shandler :=
  match h with
  | HList => SList
  | HTuple => STuple
  | HDict | HDefaultDict | HOrderedDict | HMapping => SDict
  | HSet | HFrozen | HDeque | HIterable => SIterable
  end.
Lemma ser_head CT b h args : default_ser CT (TApp b h args) = Some (head_ser h).
Proof. rewrite default_ser_eq. destruct b, h; vm_compute; reflexivity. Qed.
Lemma ser_prim CT p : default_ser CT (TPrim p) = Some SPrimitive.
Proof. rewrite default_ser_eq. destruct p; vm_compute; reflexivity. Qed.
Lemma ser_none CT : default_ser CT TNoneT = Some SPrimitive.
Proof. rewrite default_ser_eq. vm_compute. reflexivity. Qed.
