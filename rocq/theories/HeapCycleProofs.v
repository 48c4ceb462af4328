(** * Load and documents that contain themselves *)
From Coq Require Import Lia.
From Verif Require Export HeapCycleSpec.
From Verif Require Import PyBaseFacts EngineFacts LoadTypes EngineEnv HeapLoadProofs.
Local Open Scope string_scope.

(** ** Computations that add to the heap and end *)
Lemma grown_refl H : grown H H.
Proof. exists []. now rewrite app_nil_r. Qed.
Lemma grown_tr H1 H2 H3 : grown H1 H2 -> grown H2 H3 -> grown H1 H3.
Proof. intros [n1 ->] [n2 ->]. exists (n1 ++ n2)%list. now rewrite app_assoc. Qed.
Lemma grown_add H new : grown H (H ++ new)%list.
Proof. now exists new. Qed.
Lemma grown_nth H H' a c : grown H H' -> nth_error H a = Some c -> nth_error H' a = Some c.
Proof. intros [new ->] Ha. rewrite nth_error_app1; [assumption|]. apply nth_error_Some. congruence. Qed.
Definition goesr {A} (P : A -> Prop) (H : heap) (r : heap * outcome A) : Prop :=
  grown H (fst r) /\ snd r <> Oof /\ (forall a, snd r = Done a -> P a).
Notation goes P m H := (goesr P H (m H)).
Lemma g_ret {A} (P : A -> Prop) a H : P a -> goes P (hret a) H.
Proof. intros Hp. split; [apply grown_refl|]. split; [discriminate|]. intros b [= <-]. exact Hp. Qed.
Lemma g_fail {A} (P : A -> Prop) e H : goes P (hfail e) H.
Proof. split; [apply grown_refl|]. split; discriminate. Qed.
Lemma g_lift {A} (P : A -> Prop) (r : res A) H : (forall a, r = Ok a -> P a) -> goes P (hlift r) H.
Proof. destruct r; intros Hp; [apply g_ret; auto|apply g_fail]. Qed.
Lemma g_bind {A B} (P : A -> Prop) (Q : B -> Prop) m g H :
  goes P m H -> (forall H' a, grown H H' -> P a -> goes Q (g a) H') -> goes Q (hbind m g) H.
Proof.
  intros (A1 & A2 & A3) Hg. unfold goesr, hbind in *. destruct (m H) as [H' [a|e|]]; cbn [fst snd] in *.
  - destruct (Hg H' a A1 (A3 _ eq_refl)) as (B1 & B2 & B3). split; [eapply grown_tr; eauto|]. split; assumption.
  - split; [assumption|]. split; discriminate.
  - congruence.
Qed.
Lemma g_weak {A} (P Q : A -> Prop) m H : goes P m H -> (forall a, P a -> Q a) -> goes Q m H.
Proof. intros (A1 & A2 & A3) Hp. split; [assumption|]. split; [assumption|]. auto. Qed.
Lemma g_try {A} (P : A -> Prop) m h H : goes P m H -> (forall H' e, grown H H' -> goes P (h e) H') -> goes P (htry m h) H.
Proof.
  intros (A1 & A2 & A3) Hh. unfold goesr, htry in *. destruct (m H) as [H' [a|e|]] eqn:Em; cbn [fst snd] in *.
  - split; [assumption|]. split; [discriminate|]. intros b [= <-]. auto.
  - destruct (Hh H' e A1) as (B1 & B2 & B3). split; [eapply grown_tr; eauto|]. split; assumption.
  - congruence.
Qed.
Lemma g_catch {A} (P : A -> Prop) m H : goes P m H -> goes (fun r => match r with inl a => P a | inr _ => True end) (hcatch m) H.
Proof.
  intros (A1 & A2 & A3). unfold goesr, hcatch in *. destruct (m H) as [H' [a|e|]] eqn:Em; cbn [fst snd] in *.
  - split; [assumption|]. split; [discriminate|]. intros b [= <-]. auto.
  - split; [assumption|]. split; [discriminate|]. intros b [= <-]. exact I.
  - congruence.
Qed.
Lemma g_read {A} (g : heap -> A) (P : A -> Prop) H : P (g H) -> goes P (hread g) H.
Proof. intros Hp. split; [apply grown_refl|]. split; [discriminate|]. intros a [= <-]. exact Hp. Qed.
Lemma g_alloc c H (P : obj -> Prop) : (forall y, P y) -> goes P (alloc c) H.
Proof. intros Hp. split; [apply grown_add|]. split; [discriminate|]. auto. Qed.
Lemma g_eq {A} (P : A -> Prop) (m m' : hM A) H : m H = m' H -> goes P m' H -> goes P m H.
Proof. now intros ->. Qed.
Lemma g_map {A B} (P : A -> B -> Prop) (g : A -> hM B) : forall (l : list A) H,
  (forall H' x, grown H H' -> In x l -> goes (P x) (g x) H') -> goes (fun ys => Forall2 P l ys) (hmap g l) H.
Proof.
  induction l as [|x l IH]; intros H Hg; [apply g_ret; constructor|].
  change (hmap g (x :: l)) with (hbind (g x) (fun y => hbind (hmap g l) (fun ys => hret (y :: ys)))).
  eapply g_bind; [apply Hg; [apply grown_refl|now left]|]. intros H1 y G1 Hy.
  eapply g_bind; [apply IH; intros H' z G' Hz; apply Hg; [eapply grown_tr; eauto|now right]|].
  intros H2 ys G2 Hys. apply g_ret. now constructor.
Qed.
Definition any {A} (_ : A) : Prop := True.
Lemma g_place v : forall H, goes any (place v) H.
Proof.
  assert (ML : forall (l : list value) H, Forall (fun v => forall H, goes any (place v) H) l -> goes any (hmap place l) H).
  { intros l H Hl. eapply g_weak; [apply (g_map (fun _ _ => True))|intros; exact I]. intros H' x _ Hx.
    apply (proj1 (Forall_forall _ _) Hl _ Hx). }
  induction v using value_ind'; intros HH; cbn [place]; try (apply g_ret; exact I).
  - eapply g_bind; [apply ML; eassumption|]. intros. apply g_alloc. intros; exact I.
  - eapply g_bind; [apply ML; eassumption|]. intros. apply g_ret. exact I.
  - eapply g_bind; [apply ML; eassumption|]. intros. apply g_alloc. intros; exact I.
  - eapply g_bind with (P := any).
    + eapply g_weak; [apply (g_map (fun _ _ => True))|intros; exact I]. intros H' [k1 x1] _ Hin.
      match goal with HF : Forall _ d |- _ => pose proof (proj1 (Forall_forall _ _) HF _ Hin) as [I1 I2] end. cbn [fst snd] in *.
      eapply g_bind; [apply I1|]. intros. eapply g_bind; [apply I2|]. intros. apply g_ret. exact I.
    + intros. apply g_alloc. intros; exact I.
  - eapply g_bind; [apply ML; eassumption|]. intros. apply g_ret. exact I.
  - eapply g_bind with (P := any).
    + eapply g_weak; [apply (g_map (fun _ _ => True))|intros; exact I]. intros H' [k1 x1] _ Hin.
      lazymatch goal with HF : Forall _ ?l0, Hin : In _ ?l0 |- _ => pose proof (proj1 (Forall_forall _ _) HF _ Hin) as I1 end. cbn [fst snd] in *.
      eapply g_bind; [apply I1|]. intros. apply g_ret. exact I.
    + intros. apply g_alloc. intros; exact I.
Qed.
Lemma g_place_res r H : goes any (place_res r) H.
Proof. destruct r; [apply g_place|apply g_fail]. Qed.
Lemma g_iter R x H : goes any (hiter R x) H.
Proof.
  assert (Hp : forall r : res (list value), goes any (hbind (hlift r) (hmap place)) H).
  { intros r. eapply g_bind with (P := any); [apply g_lift; intros; exact I|]. intros H1 l G1 _.
    eapply g_weak; [apply (g_map (fun _ _ => True))|intros; exact I]. intros H2 v _ _. apply g_place. }
  unfold hiter. destruct x as [v|l|c l|a]; try (apply g_ret; exact I); [apply Hp|].
  destruct (nth_error H a) as [[l|k l|k d|c l]|]; try (apply g_ret; exact I); apply Hp.
Qed.

Lemma element_grown H H' x y : grown H H' -> element H x y -> element H' x y.
Proof.
  intros G [a l z Ha Hz|a k l z Ha Hz|a k d key z Ha Hz|l z Hz];
    [eapply el_list|eapply el_coll|eapply el_dict|eapply el_tuple]; eauto using grown_nth.
Qed.
Lemma endless_grown H H' x : grown H H' -> endless_doc H x -> endless_doc H' x.
Proof. intros G (P & Px & HP). exists P. split; [assumption|]. intros y Py. destruct (HP y Py) as (z & Hz & Pz). eauto using element_grown. Qed.
Lemma endless_next H x : endless_doc H x -> exists y, element H x y /\ endless_doc H y.
Proof. intros (P & Px & HP). destruct (HP x Px) as (z & Hz & Pz). exists z. split; [assumption|]. now exists P. Qed.

Section Cycles.
Variables (E : env) (L : lenv) (f : nat) (H0 : heap).
Hypothesis DD : default_deserializers E f.
(** The parts of the document *)
Variable D : obj -> Prop.
Definition fine (x : obj) : Prop :=
  match x with
  | OAtom v => flatv v = true
  | OTuple l => Forall D l
  | ONT _ _ => True
  | ORef a => match nth_error H0 a with
              | Some (NList l) | Some (NColl _ l) => Forall D l
              | Some (NDict _ d) => (forall y, ~ In (atom "-meta", y) d) /\ Forall D (map snd d)
              | Some (NObj _ _) => True
              | None => False
              end
  end.
Hypothesis DF : forall x, D x -> fine x.
Variable ld : nat -> lopts -> option ty -> obj -> hM obj.
Definition ends (o : lopts) (cls : option ty) (x : obj) : Prop := cls = None -> lo_warn o = false -> ~ endless_doc H0 x.
Hypothesis LD : forall o cls x H, grown H0 H -> D x -> cls = None \/ (cls = Some (TLeaf LkDatetime) /\ exists v, x = OAtom v) ->
  goes (fun _ => ends o cls x) (ld f o cls x) H.

Lemma c_list_go o w : lo_warn o = false -> forall l i H, grown H0 H -> Forall D l ->
  goes (fun _ => w = false -> Forall (fun x => ~ endless_doc H0 x) l) (hdeser_list_go ld f o w None i l) H.
Proof.
  intros Ho. induction l as [|x l IH]; intros i H G Hl; cbn [hdeser_list_go]; [apply g_ret; auto|]. inversion Hl as [|? ? Hx Hl']; subst.
  eapply g_bind; [apply g_catch; apply LD; auto|]. intros H1 [y|e] G1 Hy; cbn beta iota in Hy.
  - eapply g_bind; [apply IH; eauto using grown_tr|]. intros H2 ys G2 Hys. apply g_ret. intros Hw. constructor; auto.
  - destruct (is_deser (e_kind e)); [|apply g_fail]. destruct w; [|apply g_fail].
    eapply g_weak; [apply IH; eauto using grown_tr|]. intros a _ Hw. discriminate.
Qed.
Lemma no_end l x : (forall y, element H0 x y -> In y l) -> Forall (fun y => ~ endless_doc H0 y) l -> ~ endless_doc H0 x.
Proof.
  intros Hi Hl He. apply endless_next in He as (y & Hy & He). exact (proj1 (Forall_forall _ _) Hl y (Hi _ Hy) He).
Qed.
Lemma c_list o a l H : grown H0 H -> nth_error H a = Some (NList l) \/ (exists k, nth_error H a = Some (NColl k l)) -> Forall D l ->
  goes (fun _ => lo_warn o = false -> Forall (fun x => ~ endless_doc H0 x) l) (hdeser_list E ld f o [] (ORef a)) H.
Proof.
  intros G Ha Hl. unfold hdeser_list. cbv zeta. cbn [hd_error].
  apply (g_eq _ _ (hdeser_list_go ld f (set_warn false o) (lo_warn o) None 0 l) H).
  { unfold hbind, hiter. destruct Ha as [-> |(k & ->)]; reflexivity. }
  now apply c_list_go.
Qed.
Lemma c_dict_go ok ov g : lo_warn ov = false \/ True -> forall d acc H, grown H0 H -> Forall D (map snd d) ->
  goes (fun _ => lo_warn ov = false -> Forall (fun x => ~ endless_doc H0 x) (map snd d)) (hdeser_dict_go E ld f ok ov g None None d acc) H.
Proof.
  intros _. induction d as [|[k x] d IH]; intros acc H G Hd; cbn [hdeser_dict_go map snd]; [apply g_ret; constructor|].
  cbn [map snd] in Hd. inversion Hd as [|? ? Hx Hd']; subst.
  eapply g_bind with (P := any). { destruct g; [apply g_place_res|now apply g_ret]. }
  intros H1 k1 G1 _. eapply g_bind with (P := any); [now apply g_ret|]. intros H2 k2 G2 _.
  assert (G02 : grown H0 H2) by eauto using grown_tr.
  eapply g_bind; [apply LD; auto|]. intros H3 y G3 Hy. cbn beta in Hy.
  destruct (hashable _ _); [|apply g_fail]. eapply g_weak; [apply IH; eauto using grown_tr|]. cbn beta. intros a Ha Hw. constructor; auto.
Qed.
Lemma c_hashed o d H : goes (fun dh => fst dh = d) (hload_hashed_keys E ld f o [] d) H.
Proof.
  unfold hload_hashed_keys. destruct (hdget H (atom "-keys") d) as [keys|]; [|now apply g_ret].
  eapply g_bind; [apply g_iter|]. intros H1 ks _ _. cbv beta. destruct ks; [now apply g_ret|apply g_fail].
Qed.
Lemma c_dict o a k d H : grown H0 H -> nth_error H a = Some (NDict k d) -> Forall D (map snd d) ->
  goes (fun _ => lo_warn o = false -> Forall (fun x => ~ endless_doc H0 x) (map snd d)) (hdeser_dict E ld f o [] (ORef a)) H.
Proof.
  intros G Ha Hd. unfold hdeser_dict.
  eapply g_bind with (P := fun od => od = Some d); [apply g_read; now rewrite Ha|]. intros H1 od G1 ->.
  eapply g_bind; [apply c_hashed|]. intros H2 dh G2 ->. cbv zeta. eapply g_weak; [apply c_dict_go; eauto using grown_tr|]. auto.
Qed.
Lemma c_primitive t v H : goes any (hdeser_primitive E t (OAtom v)) H.
Proof.
  unfold hdeser_primitive. destruct (is_none _); [now apply g_ret|]. destruct (is_instance _ _ _) as [[]|]; [now apply g_ret|apply g_place_res|apply g_fail].
Qed.
Lemma atom_no_end v : ~ endless_doc H0 (OAtom v).
Proof. intros He. apply endless_next in He as (y & Hy & _). inversion Hy. Qed.
Lemma c_atom o h t v H : grown H0 H -> D (OAtom v) -> flatv v = true ->
  h = DString \/ h = DPrimitive \/ h = DNone \/ h = DDatetime -> goes any (hdeser_step E L ld f o h t (OAtom v)) H.
Proof.
  intros G Dv Fv [-> |[-> |[-> | ->]]]; cbn [hdeser_step].
  - unfold hdeser_string. destruct (_ && _).
    + apply g_lift. intros; exact I.
    + apply g_try.
      * eapply g_weak; [apply LD; eauto|]. intros; exact I.
      * intros H' e G'. destruct (is_deser _); [apply c_primitive|apply g_fail].
  - apply c_primitive.
  - destruct (is_none _); [now apply g_ret|apply g_fail].
  - unfold hdeser_text. destruct v; try apply g_fail. apply g_lift. intros; exact I.
Qed.
(** What the parts of a document of each kind are *)
Lemma c_load_step o cls x H : grown H0 H -> D x -> cls = None \/ (cls = Some (TLeaf LkDatetime) /\ exists v, x = OAtom v) ->
  goes (fun _ => ends o cls x) (hload_step E L ld f o cls x) H.
Proof.
  intros G Dx Hc. pose proof (DF _ Dx) as Fx. unfold hload_step.
  eapply g_bind with (P := fun sh => sh = shallow H x); [now apply g_read|]. intros H1 sh G1 ->.
  assert (G01 : grown H0 H1) by eauto using grown_tr.
  assert (Hs : shallow H x = shallow H0 x).
  { destruct x as [v|l|c l|a]; try reflexivity. cbn [shallow]. cbn [fine] in Fx. destruct (nth_error H0 a) as [c|] eqn:Ea; [|contradiction].
    now rewrite (grown_nth _ _ _ _ G Ea). }
  rewrite Hs. clear Hs.
  eapply g_bind with (P := any).
  { destruct (is_none _); [|now apply g_ret]. eapply g_bind with (P := any); [apply g_lift; intros; exact I|].
    intros H2 [] _ _; [now apply g_ret|apply g_fail]. }
  intros H2 _ G2 _. assert (G02 : grown H0 H2) by eauto using grown_tr.
  destruct ((negb (lo_strict o) && same_type (shallow H0 x) cls) || match cls with Some TAny => true | _ => false end) eqn:Esame.
  { destruct Hc as [-> |[-> Hc]]; [cbn in Esame; rewrite andb_false_r in Esame; discriminate|].
    eapply g_bind with (P := any); [unfold hvalidate; apply g_lift; intros; exact I|]. intros. apply g_ret. intros Hn; discriminate. }
  clear Esame. eapply g_bind with (P := fun c => c = cls).
  { destruct Hc as [-> |[-> _]]; now apply g_ret. }
  intros H3 cls1 G3 ->. assert (G03 : grown H0 H3) by eauto using grown_tr.
  destruct (valid_type (shallow H0 x)) eqn:Ev; cbn [negb]; [|apply g_fail].
  eapply g_bind with (P := fun mh => fst mh = None).
  { unfold hcls_and_meta. destruct x as [v|l|c l|a]; try now apply g_ret. cbn [fine] in Fx.
    destruct (nth_error H0 a) as [c|] eqn:Ea; [|contradiction]. rewrite (grown_nth _ _ _ _ G03 Ea).
    destruct c as [l|k l|k d|c l]; try now apply g_ret. destruct (hdget H3 (atom "-meta") d) as [y|] eqn:Eg; [|now apply g_ret].
    apply hdget_text in Eg. destruct (proj1 Fx _ Eg). }
  intros H4 mh G4 ->. assert (G04 : grown H0 H4) by eauto using grown_tr.
  assert (Ht : determine_precedence cls None (Some (class_of (shallow H0 x))) (lo_inferred o) =
               Some match cls with Some t => t | None => class_of (shallow H0 x) end).
  { unfold determine_precedence. destruct (lo_inferred o), cls; reflexivity. }
  rewrite Ht. rewrite (DD _).
  set (t := match cls with Some t => t | None => class_of (shallow H0 x) end).
  destruct (default_deser (e_ct E) t) as [h|] eqn:Eh; [|apply g_fail]. cbv zeta. unfold hwrap_deser.
  apply g_try; [|intros; apply g_fail].
  match goal with |- goesr _ _ (hbind (hdeser_step _ _ _ _ ?o' _ _ _) _ _) => set (o1 := o'); assert (Ho1 : lo_warn o1 = lo_warn o) by (destruct o; reflexivity) end.
  eapply g_bind with (P := fun _ => ends o cls x).
  2: { intros H5 y G5 He. eapply g_bind with (P := any); [unfold hvalidate; apply g_lift; intros; exact I|]. intros. now apply g_ret. }
  destruct x as [v|l|c l|a]; cbn [shallow fine] in *.
  - eapply g_weak; [apply c_atom|]; [assumption..| |intros _ _ _ _; apply atom_no_end].
    subst t. destruct Hc as [-> |[-> _]].
    + destruct v; try discriminate Ev; try discriminate Fx; cbn [class_of] in Eh; rewrite ?deser_prim, ?deser_none in Eh; injection Eh as <-; cbn; auto.
    + rewrite deser_leaf in Eh. injection Eh as <-. cbn. auto.
  - subst t. destruct Hc as [-> |[_ (v & Hv)]]; [|discriminate]. cbn [class_of] in Eh. rewrite deser_head in Eh. injection Eh as <-.
    cbn [head_handler hdeser_step]. unfold hdeser_tuple. cbv zeta. cbn [class_of get_args raw_args].
    eapply g_bind with (P := fun l' => l' = l); [now apply g_ret|]. intros H5 l' G5 ->.
    eapply g_bind; [apply (g_map (fun y _ => lo_warn o = false -> ~ endless_doc H0 y))|].
    + intros H6 y G6 Hy. eapply g_weak; [apply (LD (set_kt None o1) None y H6)|].
      * eauto using grown_tr.
      * exact (proj1 (Forall_forall _ _) Fx _ Hy).
      * now left.
      * cbn beta. intros _ He Hw. apply He; [reflexivity|]. change (lo_warn (set_kt None o1)) with (lo_warn o1). now rewrite Ho1.
    + intros H6 ys G6 Hys. apply g_ret. intros _ Hw. apply (no_end l); [intros y Hy; now inversion Hy|].
      clear - Hys Hw. induction Hys; constructor; auto.
  - discriminate Ev.
  - destruct Hc as [-> |[_ (v & Hv)]]; [|discriminate].
    destruct (nth_error H0 a) as [cc|] eqn:Ea; [|contradiction]. pose proof (grown_nth _ _ _ _ G04 Ea) as Ea4. destruct cc as [l|k l|k d|c l]; subst t.
    + cbn [class_of] in Eh. rewrite deser_head in Eh. injection Eh as <-. cbn [head_handler hdeser_step class_of get_args raw_args].
      eapply g_bind; [apply (c_list o1 a l H4 G04 (or_introl Ea4) Fx)|]. intros H5 ys G5 Hys. apply g_alloc. intros _ _ Hw.
      apply (no_end l); [|apply Hys; now rewrite Ho1]. intros y Hy. inversion Hy; congruence.
    + destruct k; try discriminate Ev. cbn [class_of] in Eh. rewrite deser_head in Eh. injection Eh as <-. cbn [head_handler hdeser_step class_of].
      unfold hdeser_iterable. cbn [raw_args]. eapply g_bind with (P := fun args => args = []); [apply g_lift; congruence|].
      intros H5 args G5 ->.
      eapply g_bind; [apply (c_list o1 a l H5)|]; eauto using grown_tr, grown_nth. intros H6 ys G6 Hys. unfold hnew_set.
      destruct (forallb _ ys); [|apply g_fail]. apply g_alloc. intros _ _ Hw.
      apply (no_end l); [|apply Hys; now rewrite Ho1]. intros y Hy. inversion Hy; congruence.
    + destruct k; try discriminate Ev. cbn [class_of] in Eh. rewrite deser_head in Eh. injection Eh as <-. cbn [head_handler hdeser_step class_of].
      unfold hdeser_mapping. cbn [get_args raw_args]. eapply g_bind with (P := fun args => args = []); [apply g_lift; congruence|].
      intros H5 args G5 ->. eapply g_bind; [apply (c_dict o1 a DkDict d H5)|]; eauto using grown_tr, grown_nth; [apply Fx|].
      intros H6 ys G6 Hys. apply g_alloc. intros _ _ Hw.
      apply (no_end (map snd d)); [|apply Hys; now rewrite Ho1]. intros y Hy. inversion Hy; try congruence.
      match goal with H1 : nth_error H0 a = Some (NDict _ ?d1), H2 : In (?k1, y) ?d1 |- _ => rewrite Ea in H1; injection H1 as <- <-; now apply (in_map snd _ (k1, y)) end.
    + discriminate Ev.
Qed.
(** The exceptions *)
Lemma c_error o x H e : D x -> grown H0 H -> endless_doc H0 x ->
  snd (hload_step E L ld f o None x H) = Fail e -> is_jsons (e_kind e) = true.
Proof.
  intros Dx G He Hf. pose proof (DF _ Dx) as Fx. unfold hload_step in Hf. unfold hbind at 1, hread in Hf. cbn [fst snd] in Hf.
  assert (Hn : is_none (shallow H x) = false).
  { apply endless_next in He as (y & Hy & _). destruct Hy as [a l z Ha Hz|a k l z Ha Hz|a k d key z Ha Hz|l z Hz]; cbn [shallow];
      try rewrite (grown_nth _ _ _ _ G Ha); reflexivity. }
  rewrite Hn in Hf. unfold hbind at 1, hret at 1 in Hf. cbn [same_type] in Hf. rewrite andb_false_r in Hf. cbn [orb] in Hf.
  unfold hbind at 1, hlift at 1, hret at 1 in Hf.
  destruct (valid_type (shallow H x)); cbn [negb] in Hf; [|injection Hf as <-; reflexivity].
  unfold hbind at 1 in Hf.
  assert (Hm : exists mh, hcls_and_meta E f x H = (H, Done mh)).
  { unfold hcls_and_meta. destruct x as [v|l|c l|a]; try (eexists; reflexivity). cbn [fine] in Fx.
    destruct (nth_error H0 a) as [c|] eqn:Ea; [|contradiction]. rewrite (grown_nth _ _ _ _ G Ea).
    destruct c as [l|k l|k d|c l]; try (eexists; reflexivity). destruct (hdget H (atom "-meta") d) as [y|] eqn:Eg; [|eexists; reflexivity].
    apply hdget_text in Eg. destruct (proj1 Fx _ Eg). }
  destruct Hm as (mh & Hm). rewrite Hm in Hf.
  destruct (determine_precedence _ _ _ _) as [t|]; [|injection Hf as <-; reflexivity].
  destruct (e_deser E f t) as [h|]; [|injection Hf as <-; reflexivity]. cbv zeta in Hf. unfold hwrap_deser, htry in Hf.
  match type of Hf with snd (match ?m with _ => _ end) = _ => destruct m as [H' [y|e'|]] end; try discriminate Hf.
  cbn [snd hfail] in Hf. injection Hf as <-. destruct (is_jsons (e_kind e')) eqn:Ej; [assumption|reflexivity].
Qed.
End Cycles.

(** ** The statement *)
Definition doc_part (H : heap) (y : obj) : Prop := valid H y /\ without_meta H y /\ flat_atoms H y.
Lemma doc_part_fine H x : doc_part H x -> fine H (doc_part H) x.
Proof.
  intros (V & M & F).
  assert (Hi : forall y, inside x y -> doc_part H y).
  { intros y Hy. split; [intros a Ha; apply V; eapply reaches_inside; eauto|]. exact (pure_inside H x y (conj M F) Hy). }
  assert (Hh : forall a c y, x = ORef a -> nth_error H a = Some c -> holds c y -> doc_part H y).
  { intros a c y -> Hn Hh. split; [intros b Hb; apply V; eapply reaches_held; eauto using reaches_ref|]. exact (pure_held H a c y (conj M F) Hn Hh). }
  destruct x as [v|l|c l|a]; cbn [fine].
  - apply (proj1 F). constructor.
  - apply Forall_forall. intros y Hy. apply Hi. econstructor; [eassumption|constructor].
  - exact I.
  - destruct (nth_error H a) as [[l|k l|k d|c l]|] eqn:Ea.
    + apply Forall_forall. intros y Hy. eapply Hh; eauto.
    + apply Forall_forall. intros y Hy. eapply Hh; eauto.
    + split; [intros y Hy; eapply M; eauto using reaches_ref|]. apply Forall_forall. intros y Hy. apply in_map_iff in Hy as ([k1 y1] & <- & Hin).
      eapply Hh; eauto. cbn. eauto.
    + exact I.
    + apply nth_error_None in Ea. specialize (V a (reaches_ref _ _)). lia.
Qed.
Lemma cut_ends E L cut f H : default_deserializers E f -> forall n o cls x H', grown H H' -> doc_part H x ->
  cls = None \/ (cls = Some (TLeaf LkDatetime) /\ exists v, x = OAtom v) ->
  goes (fun _ => ends H o cls x) (hcut_load E L cut n f o cls x) H'.
Proof.
  intros DD. induction n as [|n IH]; intros o cls x H' G Dx Hc; cbn [hcut_load]; [apply g_fail|].
  destruct (cut n f o cls x); [apply g_fail|]. apply (c_load_step E L f H DD (doc_part H) (doc_part_fine H)); auto.
Qed.
Lemma endless_load E L cut f H n o x : default_deserializers E f -> doc_part H x -> lo_warn o = false -> endless_doc H x ->
  exists e, snd (huser_load E L cut n f o None x H) = Fail e /\ is_jsons (e_kind e) = true.
Proof.
  intros DD Dx Hw He. unfold huser_load.
  assert (LD := cut_ends E L cut f H DD n).
  destruct (c_load_step E L f H DD (doc_part H) (doc_part_fine H) (hcut_load E L cut n) LD o None x H (grown_refl H) Dx (or_introl eq_refl)) as (_ & A2 & A3).
  pose proof (c_error E L f H (doc_part H) (doc_part_fine H) (hcut_load E L cut n) o x H) as Hj.
  destruct (snd (hload_step E L (hcut_load E L cut n) f o None x H)) as [y|e|]; [|eauto using grown_refl|congruence].
  exfalso. exact (A3 y eq_refl eq_refl Hw He).
Qed.
