(** * C21-C27, C35, C44, C45: dump

    Model: EngineTypes.v, EngineSer.v.  [dump E f n o cls v] is
    [jsons.dump(v, cls, fork_inst=f, **o)] with nested serializer calls up to depth [n]:
    its first component are the effects (warnings, announced classes), the second the
    outcome.  Specification: DumpSpec.v. *)
From Verif Require Import PyBaseFacts DumpLaws NullProofs.
From Coq Require Import Sorting.Sorted.
Local Open Scope string_scope.

(** ** Example data *)
Definition opts_strip : sopts := with_rewriting None true sopts0.
Definition opts_camel : sopts :=
  with_rewriting (Some (fun k => match k with VStr s => Ok (VStr ("k_" ++ s)) | _ => Ok k end)) false sopts0.
(** A group whose lead is an enum member, and a list with nulls in it *)
Definition party : value :=
  VObj 2 [("members", VList [john; VNone; mary]); ("lead", VEnum 3 "RED"); ("note", VNone)].
Definition party_doc : value :=
  str_dict [("lead", VStr "RED"); ("members", VList [john_doc; VNone; mary_doc]); ("note", VNone)].
Example party_dump : snd (dump demo_env 0 9 sopts0 None party) = Done party_doc.
Proof. vm_compute. reflexivity. Qed.
Example demo_serializers : default_serializers demo_env 0.
Proof. intros t. reflexivity. Qed.
Example demo_supers : wf_supers (e_ct demo_env).
Proof.
  intros c t. do 5 (destruct c as [|c]; [intros []|]). intros [].
Qed.
(** What dumping [party] visits *)
Definition party_parts : list value :=
  [ party; VList [john; VNone; mary]; VEnum 3 "RED"; john; VNone; mary; VStr "John"; VInt 30;
    VStr "Mary"; VInt 31 ].
Lemma sget_values {A} a (l : list (string * A)) x : sget a l = Some x -> In x (map snd l).
Proof. intros H. apply sget_In in H. apply in_map_iff. exists (a, x). auto. Qed.
Lemma party_visits o c x : so_strict o = false ->
  visits demo_env 0 o None party c x -> c = None /\ In x party_parts.
Proof.
  intros Hs. induction 1 as [|c x l y t _ [-> IH] Hi Hl Hy Ht|c x k y t _ [-> IH] Hd _ _
                        |c x a y t _ [-> IH] Hd Ha Ht|c x t _ [-> IH] Hd _ _|c off name _ [-> IH] _].
  - split; [reflexivity|]. now left.
  - split.
    + destruct Ht as [|t []|y' Ho|y' t Ho]; [reflexivity|congruence..].
    + unfold party_parts in IH. cbn [In] in IH.
      repeat destruct IH as [<-|IH]; try contradiction;
        try (destruct Hi as [Hi|[Hi|[Hi|Hi]]]; vm_compute in Hi; discriminate).
      vm_compute in Hl. injection Hl as <-. unfold party_parts. cbn [In] in *. tauto.
  - exfalso. unfold party_parts in IH. cbn [In] in IH.
    repeat destruct IH as [<-|IH]; try contradiction; vm_compute in Hd; discriminate.
  - unfold party_parts in IH. cbn [In] in IH.
    assert (Hc : exists i attrs, x = VObj i attrs /\ incl (map snd attrs) party_parts /\ (i = 1 \/ i = 2)).
    { repeat destruct IH as [<-|IH]; try contradiction;
        try (destruct Hd as [Hd|Hd]; vm_compute in Hd; discriminate);
        (eexists _, _; split; [reflexivity|]; split; [|auto]); intros z; unfold party_parts; cbn [map snd In]; tauto. }
    destruct Hc as (i & attrs & -> & Hin & Hi). split.
    + destruct Ht as [->|(i' & u & [Eq|Eq] & -> & Hh)]; [reflexivity|discriminate|]. injection Eq as <-.
      destruct Hi as [-> | ->]; destruct Hh.
    + apply Hin. assert (Hm : forall a, sget a (ci_members (e_ct demo_env i)) = None) by (destruct Hi as [-> | ->]; reflexivity).
      cbn [get_attr] in Ha. rewrite Hm in Ha. destruct (sget a attrs) eqn:Eg; [|discriminate].
      injection Ha as <-. eapply sget_values; exact Eg.
  - exfalso. unfold party_parts in IH. cbn [In] in IH.
    repeat destruct IH as [<-|IH]; try contradiction; vm_compute in Hd; discriminate.
  - exfalso. unfold party_parts in IH. cbn [In] in IH. repeat destruct IH as [IH|IH]; try discriminate; contradiction.
Qed.
Ltac known_serializer :=
  match goal with |- context [serializer ?E ?f ?c ?x] =>
    let h := eval vm_compute in (serializer E f c x) in
    replace (serializer E f c x) with h by (vm_compute; reflexivity) end; cbv iota.
Lemma party_genuine o : so_strict o = false -> so_enum_name o = true -> genuine demo_env 0 o None party.
Proof.
  intros Hs Hn c x H. apply party_visits in H as [-> H]; [|exact Hs]. unfold party_parts in H. cbn [In] in H.
  repeat destruct H as [<-|H]; try contradiction; known_serializer; try exact I.
  split; [exact Hn|eauto].
Qed.

(** ** C21 *)
Theorem C21_dump_only_json :
  forall (E : env) (f n : nat) (o : sopts) (cls : option ty) (v r : value),
  default_serializers E f -> wf_supers (e_ct E) -> kt_json (e_ct E) o ->
  genuine E f o cls v ->
  snd (dump E f n o cls v) = Done r -> json (e_ct E) r.
Proof. intros. eapply dump_only_json; eauto. now apply genuine_copied. Qed.
(** The same when foreign objects, or enum values, are copied, if those are JSON. *)
Theorem C21_dump_only_json_if_copied_is :
  forall (E : env) (f n : nat) (o : sopts) (cls : option ty) (v r : value),
  default_serializers E f -> wf_supers (e_ct E) -> kt_json (e_ct E) o ->
  copied_json E f o cls v ->
  snd (dump E f n o cls v) = Done r -> json (e_ct E) r.
Proof. exact dump_only_json. Qed.
(** Without that hypothesis it fails: an object dumped as an enum is replaced by its
    attribute 'name', whatever that is. *)
Theorem C21_foreign_refuted :
  exists (E : env) (cls : ty) (v r : value), default_serializers E 0 /\
  snd (dump E 0 9 sopts0 (Some cls) v) = Done r /\ ~ json (e_ct E) r.
Proof.
  exists demo_env, (TClass 3), (VObj 1 [("name", john)]), john.
  split; [exact demo_serializers|]. split; [vm_compute; reflexivity|].
  intros H. inversion H as [v [Hv|[p Hv]]| |]; subst; [discriminate|]. destruct p; vm_compute in Hv; discriminate.
Qed.
Example C21_ex :
  genuine demo_env 0 sopts0 None party /\ kt_json (e_ct demo_env) sopts0 /\
  copied_json demo_env 0 sopts0 None party /\
  json (e_ct demo_env) party_doc.
Proof.
  assert (Hg : genuine demo_env 0 sopts0 None party) by (apply party_genuine; reflexivity).
  assert (Hk : kt_json (e_ct demo_env) sopts0) by (intros g k k' H; discriminate).
  split; [exact Hg|]. split; [exact Hk|]. split; [now apply genuine_copied|].
  eapply C21_dump_only_json; [exact demo_serializers|exact demo_supers|exact Hk|exact Hg|exact party_dump].
Qed.

(** ** C22 *)
Theorem C22_dump_fails_with_serialization_error :
  forall (E : env) (f n : nat) (o : sopts) (cls : option ty) (v : value) (e : exn),
  snd (dump E f n o cls v) = Fail e -> e_kind e = KSer.
Proof. exact dump_fails_ser. Qed.
(** A type without a serializer, a failing key transformer, a property that raises *)
Example C22_ex :
  snd (dump demo_env 0 9 sopts0 (Some TAny) john) = Fail (exn_of KSer) /\
  snd (dump demo_env 0 9 (with_rewriting (Some (fun _ => raise KValue)) false sopts0) None john)
    = Fail (exn_of KSer) /\
  snd (dump demo_env 0 9 sopts0 (Some (TApp true HList [TPrim PInt])) (VList [VStr "x"])) = Fail (exn_of KSer).
Proof. vm_compute. auto. Qed.

(** ** C23 *)
Theorem C23_no_null_entries :
  forall (E : env) (f n : nat) (o : sopts) (cls : option ty) (v r : value),
  default_serializers E f -> wf_supers (e_ct E) -> so_strip_nulls o = true -> so_class_info o = false ->
  no_named_tuples E f o cls v -> genuine E f o cls v ->
  snd (dump E f n o cls v) = Done r -> no_nulls r.
Proof. intros. eapply dump_no_nulls; eauto. now apply genuine_copied. Qed.
(** Nothing else is removed: it is the plain dump with the null entries removed. *)
Theorem C23_removes_nothing_else :
  forall (E : env) (f n : nat) (o : sopts) (cls : option ty) (v : value),
  default_serializers E f -> wf_supers (e_ct E) -> rewritable E f o cls v -> plain_opts o ->
  forall r,
  snd (dump E f n (with_rewriting None true o) cls v) = Done r <->
  exists r0, snd (dump E f n o cls v) = Done r0 /\ r = rewrite_doc true (fun s => s) r0.
Proof. exact strip_nulls_exact. Qed.
Theorem C23_named_tuple_refuted :
  exists (E : env) (v r : value), default_serializers E 0 /\
  snd (dump E 0 9 opts_strip None v) = Done r /\ ~ no_nulls r.
Proof.
  exists demo_env, (VNT 4 [VInt 1; VNone]), (str_dict [("x", VInt 1); ("y", VNone)]).
  split; [exact demo_serializers|]. split; [vm_compute; reflexivity|].
  intros H. inversion H as [|k d Hd|v _ Hd]; subst.
  - destruct (Hd (VStr "y") VNone) as [Hn _]; [cbn; auto|]. now apply Hn.
  - now apply (Hd DkDict [(VStr "x", VInt 1); (VStr "y", VNone)]).
Qed.
Lemma party_rewritable o : so_strict o = false -> rewritable demo_env 0 o None party.
Proof.
  intros Hs c x H. apply party_visits in H as [-> H]; [|exact Hs]. unfold party_parts in H. cbn [In] in H.
  repeat destruct H as [<-|H]; try contradiction; known_serializer; try exact I.
  - split; [intros i Eq; injection Eq as <-; reflexivity|]. split; [exact I|]. congruence.
  - intros y. destruct (so_enum_name o); cbn; intros Hy; injection Hy as <-; split; discriminate.
  - split; [intros i Eq; injection Eq as <-; reflexivity|]. split; [exact I|]. congruence.
  - split; [intros i Eq; injection Eq as <-; reflexivity|]. split; [exact I|]. congruence.
Qed.
Example C23_ex :
  genuine demo_env 0 opts_strip None party /\ no_named_tuples demo_env 0 opts_strip None party /\
  rewritable demo_env 0 sopts0 None party /\ plain_opts sopts0 /\
  snd (dump demo_env 0 9 opts_strip None party) =
  Done (str_dict [("lead", VStr "RED"); ("members", VList [john_doc; VNone; mary_doc])]).
Proof.
  split; [apply party_genuine; reflexivity|]. split.
  { intros c i l H. apply party_visits in H as [_ H]; [|reflexivity]. unfold party_parts in H. cbn [In] in H.
    repeat destruct H as [H|H]; try discriminate; contradiction. }
  split; [now apply party_rewritable|]. split; [repeat split|]. vm_compute. reflexivity.
Qed.

(** ** C24 *)
Theorem C24_attributes_of_instance :
  forall (E : env) (f n : nat) (o : sopts) (cls : option ty) (c : nat) (attrs : list (string * value))
         (strip : list string),
  serializer E f cls (VObj c attrs) = Some SObject -> (cls = None \/ so_strict o = false) ->
  plain_opts o -> strips (so_attr o) strip ->
  ci_attrs (e_ct E c) = false -> readable (ci_members (e_ct E c)) ->
  exists names, StronglySorted slt names /\
    (forall a, In a names <-> (In a (map fst attrs) \/ In a (map fst (ci_members (e_ct E c)))) /\
                              visible (ci_members (e_ct E c)) o strip a) /\
    let fields := map (fun a => (a, attr_hint (e_ct E c) a)) names in
    let o' := set_attr_opt (SATuple strip) o in
    (forall r, snd (dump E f (S n) o cls (VObj c attrs)) = Done r ->
               dumped_fields E f n o' (VObj c attrs) fields r) /\
    (forall ds, Forall2 (attr_dumps E f n o' (VObj c attrs)) fields ds ->
       snd (dump E f (S n) o cls (VObj c attrs)) = Done (VDict DkDict (combine (map VStr names) ds))) /\
    (forall d, snd (dump E f (S n) o cls (VObj c attrs)) = Done (VDict DkDict d) -> length d < length names ->
       e_warn E f "attribute-not-serialized" = true ->
       In (EvWarn f "attribute-not-serialized") (fst (dump E f (S n) o cls (VObj c attrs)))).
Proof. exact dump_instance. Qed.
(** With strict and a class, that class's declarations decide what is dumped, of any object. *)
Theorem C24_attributes_of_class_when_strict :
  forall (E : env) (f n : nat) (o : sopts) (c : nat) (v : value) (strip : list string),
  serializer E f (Some (TClass c)) v = Some SObject -> so_strict o = true ->
  plain_opts o -> strips (so_attr o) strip ->
  ci_attrs (e_ct E c) = false -> readable (ci_members (e_ct E c)) ->
  NoDup (declared_names (e_ct E c)) ->
  exists fields, NoDup (map fst fields) /\
    (forall a t, In (a, t) fields <->
       (In a (declared_names (e_ct E c)) \/ In a (map fst (ci_members (e_ct E c)))) /\
       visible (ci_members (e_ct E c)) o strip a /\ t = attr_hint (e_ct E c) a) /\
    forall r, snd (dump E f (S n) o (Some (TClass c)) v) = Done r <->
      exists ds, Forall2 (attr_dumps E f n (set_attr_opt (SATuple strip) o) v) fields ds /\
                 r = VDict DkDict (combine (map VStr (map fst fields)) ds).
Proof. exact dump_as_class. Qed.
Theorem C24_strip_attr_as_list_fails :
  forall (E : env) (f n : nat) (o : sopts) (cls : option ty) (v : value) (s : string) (l : list string),
  serializer E f cls v = Some SObject -> so_attr o = SAList (s :: l) ->
  exists e, snd (dump E f (S n) o cls v) = Fail e.
Proof. exact dump_strip_list. Qed.

(** A class with a property, a class variable, a method, an inner class, a private attribute, an
    attribute called like a JsonSerializable method, and one that cannot be dumped. *)
Definition rich_class : cinfo :=
  mkCinfo "m" "Rich" CkObj [] [] [("a", TPrim PInt); ("z", TAny)] None
    [("prop", MProp); ("var", MVar (VInt 1)); ("meth", MCallable); ("Inner", MClass (Some true));
     ("__doc__", MVar VNone)]
    (fun a attrs => if String.eqb a "prop" then Ok (VStr "p") else raise KAttribute)
    (fun _ => raise KType) (fun a x attrs => Ok (sset a x attrs)) false true.
Definition rich_env : env := std_env (fun c => if Nat.eqb c 9 then rich_class else demo_ct c) demo_rt.
Definition rich : value := VObj 9 [("load", VInt 0); ("_priv", VInt 2); ("a", VStr "12"); ("b", VInt 3)].
Definition opts_some : sopts :=
  mkSopts false false None true false true (SAName "b") false false false true false [].
Example C24_ex :
  serializer rich_env 0 None rich = Some SObject /\ readable (ci_members (e_ct rich_env 9)) /\
  strips (so_attr opts_some) ["b"] /\ plain_opts opts_some /\
  snd (dump rich_env 0 9 opts_some None rich) = Done (str_dict [("a", VInt 12); ("prop", VStr "p")]) /\
  snd (dump rich_env 0 9 sopts0 None rich) =
    Done (str_dict [("_priv", VInt 2); ("a", VInt 12); ("b", VInt 3); ("prop", VStr "p"); ("var", VInt 1)]).
Proof.
  split; [vm_compute; reflexivity|]. split.
  { intros a. unfold sget. cbn. repeat destruct (String.eqb a _); discriminate. }
  split; [split; [discriminate|reflexivity]|]. split; [repeat split|]. vm_compute. auto.
Qed.
Definition opts_strict : sopts :=
  mkSopts true false None false false false SANone false false false true false [].
Example C24_ex_strict :
  serializer rich_env 0 (Some (TClass 9)) rich = Some SObject /\
  NoDup (declared_names (e_ct rich_env 9)) /\ strips (so_attr opts_strict) [] /\
  (exists e, snd (dump rich_env 0 9 opts_strict (Some (TClass 9)) rich) = Fail e) /\
  snd (dump demo_env 0 9 opts_strict (Some (TClass 1)) john) = Done (str_dict []).
Proof.
  split; [vm_compute; reflexivity|]. split.
  { repeat constructor; cbn; intuition discriminate. }
  split; [reflexivity|]. split; [eexists|]; vm_compute; reflexivity.
Qed.

(** ** C25 *)
(** The attributes up to a failing one, in alphabetical order, are dumped and the rest is
    lost (or the dump fails, if the exception carries no message); strict fails. *)
Theorem C25_failing_attribute_truncates :
  forall (E : env) (f n : nat) (o : sopts) (cls : option ty) (c : nat) (attrs : list (string * value))
         (strip : list string),
  serializer E f cls (VObj c attrs) = Some SObject -> (cls = None \/ so_strict o = false) ->
  plain_opts o -> strips (so_attr o) strip ->
  ci_attrs (e_ct E c) = false -> readable (ci_members (e_ct E c)) ->
  forall names a names' ds,
  StronglySorted slt (names ++ a :: names') ->
  (forall b, In b (names ++ a :: names') <->
     (In b (map fst attrs) \/ In b (map fst (ci_members (e_ct E c)))) /\
     visible (ci_members (e_ct E c)) o strip b) ->
  let field b := (b, attr_hint (e_ct E c) b) in
  let o' := set_attr_opt (SATuple strip) o in
  Forall2 (attr_dumps E f n o' (VObj c attrs)) (map field names) ds ->
  attr_fails E f n o' (VObj c attrs) (field a) ->
  (exists e, snd (dump E f (S n) o cls (VObj c attrs)) = Fail e) \/
  (so_strict o = false /\
   snd (dump E f (S n) o cls (VObj c attrs)) = Done (VDict DkDict (combine (map VStr names) ds))).
Proof. exact dump_instance_fails. Qed.
(** An attribute that cannot even be read (a property that raises) fails the whole dump. *)
Theorem C25_unreadable_attribute_aborts :
  forall (E : env) (f n : nat) (o : sopts) (cls : option ty) (c : nat) (attrs : list (string * value))
         (strip : list string),
  serializer E f cls (VObj c attrs) = Some SObject -> (cls = None \/ so_strict o = false) ->
  plain_opts o -> strips (so_attr o) strip ->
  ci_attrs (e_ct E c) = false -> readable (ci_members (e_ct E c)) ->
  forall names a names' e ds,
  StronglySorted slt (names ++ a :: names') ->
  (forall b, In b (names ++ a :: names') <->
     (In b (map fst attrs) \/ In b (map fst (ci_members (e_ct E c)))) /\
     visible (ci_members (e_ct E c)) o strip b) ->
  Forall2 (attr_dumps E f n (set_attr_opt (SATuple strip) o) (VObj c attrs))
          (map (fun b => (b, attr_hint (e_ct E c) b)) names) ds ->
  get_attr E (VObj c attrs) a = Err e ->
  exists e, snd (dump E f (S n) o cls (VObj c attrs)) = Fail e.
Proof. exact dump_instance_unreadable. Qed.
(** Attribute x (hinted int) is 'oops': y is lost, a warning is issued, strict fails. *)
Definition pair_class : cinfo :=
  mkCinfo "m" "Pair" CkObj [] [] [("x", TPrim PInt)] None [] (fun _ _ => raise KAttribute)
    (fun _ => raise KType) (fun a x attrs => Ok (sset a x attrs)) false true.
Definition pair_env : env := std_env (fun c => if Nat.eqb c 9 then pair_class else demo_ct c) demo_rt.
Definition bad_pair : value := VObj 9 [("y", VInt 1); ("x", VStr "oops"); ("a", VInt 0)].
Example C25_ex :
  serializer pair_env 0 None bad_pair = Some SObject /\
  StronglySorted slt (["a"] ++ "x" :: ["y"]) /\
  (forall b, In b (["a"] ++ "x" :: ["y"]) <->
     (In b (map fst [("y", VInt 1); ("x", VStr "oops"); ("a", VInt 0)]) \/ In b []) /\ visible [] sopts0 [] b) /\
  attr_dumps pair_env 0 8 sopts0 bad_pair ("a", None) (VInt 0) /\
  attr_fails pair_env 0 8 sopts0 bad_pair ("x", Some (TPrim PInt)) /\
  dump pair_env 0 9 sopts0 None bad_pair =
    ([EvAnnounce 0 (TClass 9); EvAnnounce 0 (TPrim PInt); EvAnnounce 0 (TPrim PInt);
      EvWarn 0 "attribute-not-serialized"], Done (str_dict [("a", VInt 0)])) /\
  snd (dump pair_env 0 9 opts_strict None bad_pair) = Fail (exn_of KSer).
Proof.
  split; [vm_compute; reflexivity|].
  split; [repeat constructor; try reflexivity; discriminate|].
  split.
  { intros b. cbn [In map fst app]. split.
    - intros H. split; [tauto|]. unfold visible.
      repeat destruct H as [<-|H]; try contradiction;
        (split; [reflexivity|]; split; [intros X; discriminate X|]; split; [intros X; discriminate X|];
         split; [intros X; discriminate X|]; split; [intros []|];
         split; [intros X; apply mem_str_In in X; vm_compute in X; discriminate X|];
         split; [intros X; apply mem_str_In in X; vm_compute in X; discriminate X|];
         split; discriminate).
    - tauto. }
  split; [exists (VInt 0); split; vm_compute; reflexivity|].
  split; [exists (VStr "oops"), (exn_of KSer); split; vm_compute; reflexivity|].
  split; vm_compute; reflexivity.
Qed.

(** ** C26 *)
Theorem C26_key_transformer_rewrites :
  forall (E : env) (f n : nat) (o : sopts) (cls : option ty) (v : value) (strip : bool)
         (h : string -> string) (kt : option (value -> res value)),
  default_serializers E f -> wf_supers (e_ct E) -> renames kt h -> rewritable E f o cls v -> plain_opts o ->
  fst (dump E f n (with_rewriting kt strip o) cls v) = fst (dump E f n o cls v) /\
  match snd (dump E f n o cls v) with
  | Done r => snd (dump E f n (with_rewriting kt strip o) cls v) = Done (rewrite_doc strip h r)
  | Fail e => snd (dump E f n (with_rewriting kt strip o) cls v) = Fail e
  | Oof => snd (dump E f n (with_rewriting kt strip o) cls v) = Oof
  end.
Proof. exact dump_rewrites. Qed.
Example C26_ex :
  renames (so_kt opts_camel) (fun s => "k_" ++ s) /\ rewritable demo_env 0 sopts0 None party /\
  snd (dump demo_env 0 9 opts_camel None party) = Done
    (str_dict [("k_lead", VStr "RED");
               ("k_members", VList [str_dict [("k_age", VInt 30); ("k_name", VStr "John")]; VNone;
                                    str_dict [("k_age", VInt 31); ("k_name", VStr "Mary")]]);
               ("k_note", VNone)]).
Proof.
  split; [intros s; reflexivity|]. split; [now apply party_rewritable|]. vm_compute. reflexivity.
Qed.
(** A transformer that maps two keys to one loses an entry (the earlier one). *)
Example C26_ex_clash :
  snd (dump demo_env 0 9 (with_rewriting (Some (fun _ => Ok (VStr "k"))) false sopts0) None john) =
  Done (str_dict [("k", VStr "John")]).
Proof. vm_compute. reflexivity. Qed.

(** ** C27 *)
Theorem C27_identity_on_documents :
  forall (E : env) (f : nat) (v : value), default_serializers E f -> document v ->
  exists N, forall n, N <= n -> forall o, doc_opts o -> snd (dump E f n o None v) = Done v.
Proof. exact dump_document. Qed.
Example C27_ex :
  document (VList [VInt 1; VNone; VDict DkDict [(VStr "a", VFloat (FFin 5 (-1))); (VInt 3, VList [VBool true])]]) /\
  doc_opts sopts0.
Proof.
  split; [|repeat split].
  apply doc_list. intros x [<-|[<-|[<-|[]]]]; try (apply doc_scalar; exact I).
  apply doc_dict.
  - intros k x [Eq|[Eq|[]]]; injection Eq as <- <-; exact I.
  - intros k x [Eq|[Eq|[]]]; injection Eq as <- <-.
    + apply doc_scalar. exact I.
    + apply doc_list. intros x [<-|[]]. apply doc_scalar. exact I.
  - repeat constructor.
Qed.

(** ** C35, for dump *)
Theorem C35_dump_first_alternative :
  forall (E : env) (f n : nat) (o : sopts) (ts : list ty) (v r : value), default_serializers E f ->
  (snd (dump E f (S n) o (Some (TUnion ts)) v) = Done r <->
   (v = VNone /\ In TNoneT ts /\ r = VNone) \/
   (~ (v = VNone /\ In TNoneT ts) /\
    exists pre t post, ts = (pre ++ t :: post)%list /\ snd (dump E f n o (Some t) v) = Done r /\
      Forall (fun t' => exists e, snd (dump E f n o (Some t') v) = Fail e) pre)).
Proof. exact dump_union_done. Qed.
Theorem C35_dump_fails_if_all_fail :
  forall (E : env) (f n : nat) (o : sopts) (ts : list ty) (v : value), default_serializers E f ->
  ((exists e, snd (dump E f (S n) o (Some (TUnion ts)) v) = Fail e) <->
   ~ (v = VNone /\ In TNoneT ts) /\
   Forall (fun t' => exists e, snd (dump E f n o (Some t') v) = Fail e) ts).
Proof. exact dump_union_fail. Qed.
(** A value can be converted by an earlier alternative: '5' becomes 5. *)
Example C35_ex_dump :
  snd (dump demo_env 0 9 sopts0 (Some (TUnion [TPrim PInt; TPrim PStr])) (VStr "5")) = Done (VInt 5) /\
  snd (dump demo_env 0 9 sopts0 (Some (TUnion [TPrim PInt; TPrim PStr])) (VStr "x")) = Done (VStr "x") /\
  snd (dump demo_env 0 9 sopts0 (Some (TUnion [TPrim PInt; TLeaf LkDate])) (VStr "x")) = Fail (exn_of KSer).
Proof. vm_compute. auto. Qed.

(** ** C44, for dump *)
Theorem C44_dump_uses_its_fork_only :
  forall (E E' : env) (f n : nat) (o : sopts) (cls : option ty) (v : value),
  same_for_dump E E' f -> dump E f n o cls v = dump E' f n o cls v.
Proof. exact dump_same. Qed.
(** Fork 1 has default serializers; all other forks are empty in the second environment. *)
Example C44_ex_dump :
  let E' := mkEnv demo_ct demo_rt 0 (fun f t => if Nat.eqb f 1 then default_ser demo_ct t else None)
                  (fun _ _ => None) (fun _ _ => None) (fun f _ => Nat.eqb f 1) (fun _ _ => raise KUnknownClass)
                  (fun _ _ _ => raise KType) (fun _ _ _ => raise KType) in
  same_for_dump demo_env E' 1 /\
  snd (dump E' 1 9 sopts0 None group) = Done group_doc /\
  snd (dump E' 0 9 sopts0 None group) = Fail (exn_of KSer).
Proof. split; [repeat split|]. vm_compute. auto. Qed.

(** ** C45 *)
Theorem C45_strict_list_uses_class_of_first :
  forall (E : env) (f n : nat) (o : sopts) (b : bool) (x0 : value) (l : list value) (r : value),
  default_serializers E f -> so_strict o = true ->
  (snd (dump E f (S n) o (if b then None else Some (TApp false HList [])) (VList (x0 :: l))) = Done r <->
   exists rs, r = VList rs /\
     Forall2 (fun x y => snd (dump E f n (set_store false o) (Some (class_of x0)) x) = Done y) (x0 :: l) rs).
Proof. exact dump_list_strict. Qed.
Theorem C45_lenient_list_uses_own_classes :
  forall (E : env) (f n : nat) (o : sopts) (b : bool) (l : list value) (r : value),
  default_serializers E f -> so_strict o = false ->
  (snd (dump E f (S n) o (if b then None else Some (TApp false HList [])) (VList l)) = Done r <->
   exists rs, r = VList rs /\
     Forall2 (fun x y => snd (dump E f n (set_store false o) None x) = Done y) l rs).
Proof. exact dump_list_lenient. Qed.
Theorem C45_typed_list_uses_its_type :
  forall (E : env) (f n : nat) (o : sopts) (b : bool) (t : ty) (ts : list ty) (l : list value) (r : value),
  default_serializers E f ->
  (snd (dump E f (S n) o (Some (TApp b HList (t :: ts))) (VList l)) = Done r <->
   exists rs, r = VList rs /\
     Forall2 (fun x y => snd (dump E f n (set_store false o) (Some t) x) = Done y) l rs).
Proof. exact dump_list_typed. Qed.
(** Lists of one primitive type are unaffected. *)
Theorem C45_homogeneous_scalars_unaffected :
  forall (E : env) (f n : nat) (o : sopts) (p : prim) (l : list value),
  default_serializers E f -> so_strict o = true -> (forall x, In x l -> class_of x = TPrim p) ->
  snd (dump E f (S (S n)) o None (VList l)) = Done (VList l).
Proof. exact dump_strict_scalars. Qed.
(** The same for tuples: typish's type of a tuple with the first element only has one element type,
    and all elements are dumped as that. *)
Theorem C45_strict_tuple_uses_type_of_first :
  forall (E : env) (f n : nat) (o : sopts) (x0 : value) (l : list value) (r : value) (b : bool) (t : ty),
  default_serializers E f -> so_strict o = true -> rt_type (e_rt E) (VTuple [x0]) = TApp b HTuple [t] ->
  (snd (dump E f (S n) o None (VTuple (x0 :: l))) = Done r <->
   exists rs, r = VList rs /\
     Forall2 (fun x y => snd (dump E f n (set_store false o) (Some t) x) = Done y) (x0 :: l) rs).
Proof. exact dump_tuple_strict. Qed.
(** Tuple[t1, t2, ...]: each element by its own type, and as many elements as types. *)
Theorem C45_strict_typed_tuple :
  forall (E : env) (f n : nat) (o : sopts) (b : bool) (t1 t2 : ty) (ts : list ty) (l : list value) (r : value),
  default_serializers E f -> so_strict o = true -> last (t2 :: ts) TAny <> TEllipsis ->
  (snd (dump E f (S n) o (Some (TApp b HTuple (t1 :: t2 :: ts))) (VTuple l)) = Done r <->
   exists rs, r = VList rs /\ length l = length (t1 :: t2 :: ts) /\
     Forall2 (fun xt y => snd (dump E f n (set_store false o) (Some (snd xt)) (fst xt)) = Done y)
             (combine l (t1 :: t2 :: ts)) rs).
Proof. exact dump_tuple_typed. Qed.
(** Tuple[t, ...] and also Tuple[t], which is taken for a tuple of any length *)
Theorem C45_strict_tuple_of_one_type :
  forall (E : env) (f n : nat) (o : sopts) (b : bool) (t : ty) (l : list value) (r : value) (var : bool),
  default_serializers E f -> so_strict o = true -> t <> TEllipsis ->
  (snd (dump E f (S n) o (Some (TApp b HTuple (if var then [t; TEllipsis] else [t]))) (VTuple l)) = Done r <->
   exists rs, r = VList rs /\
     Forall2 (fun x y => snd (dump E f n (set_store false o) (Some t) x) = Done y) l rs).
Proof. exact dump_tuple_all. Qed.
(** Without strict mode the element types of a tuple are ignored (those of a list are not). *)
Theorem C45_lenient_tuple_uses_own_classes :
  forall (E : env) (f n : nat) (o : sopts) (cls : option ty) (l : list value) (r : value),
  default_serializers E f -> so_strict o = false ->
  cls = None \/ (exists b t ts, cls = Some (TApp b HTuple (t :: ts))) ->
  (snd (dump E f (S n) o cls (VTuple l)) = Done r <->
   exists rs, r = VList rs /\
     Forall2 (fun x y => snd (dump E f n (set_store false o) None x) = Done y) l rs).
Proof. exact dump_tuple_lenient. Qed.
(** typish's type of a tuple of one element *)
Definition tuple_rt : runtime :=
  mkRt utc "2020-01-01T00:00:00Z" (fun _ => Ok "") (fun _ => raise KType) (fun _ => raise KType)
       (fun _ => true) (fun _ => 7%Z) (fun _ => raise KType) (fun _ => []) (fun _ => [])
       (fun _ _ => raise KAttribute)
       (fun v => match v with VTuple [x] => TApp true HTuple [class_of x] | _ => class_of v end) (fun _ => "T")
       (fun _ _ => raise KType) (fun _ => raise KValue) (fun _ => raise KType) (fun _ => raise KValue).
Example C45_tuple_ex :
  let E := std_env demo_ct tuple_rt in
  let half := VFloat (FFin 5 (-1)) in
  rt_type (e_rt E) (VTuple [VInt 1]) = TApp true HTuple [TPrim PInt] /\
  snd (dump E 0 9 opts_strict None (VTuple [VInt 1; half])) = Done (VList [VInt 1; VInt 2]) /\
  snd (dump E 0 9 opts_strict (Some (TApp true HTuple [TPrim PInt; TPrim PFloat])) (VTuple [VInt 1; half])) = Done (VList [VInt 1; half]) /\
  snd (dump E 0 9 opts_strict (Some (TApp true HTuple [TPrim PInt; TEllipsis])) (VTuple [VInt 1; half])) = Done (VList [VInt 1; VInt 2]) /\
  snd (dump E 0 9 opts_strict (Some (TApp true HTuple [TPrim PInt; TPrim PFloat])) (VTuple [VInt 1])) = Fail (exn_of KSer) /\
  snd (dump E 0 9 sopts0 (Some (TApp true HTuple [TPrim PInt; TEllipsis])) (VTuple [VInt 1; half])) = Done (VList [VInt 1; half]).
Proof. vm_compute. auto 10. Qed.
(** A deque cannot be dumped in strict mode: the code slices it. *)
Example C45_deque_ex :
  snd (dump demo_env 0 9 sopts0 None (VColl CDeque [VInt 1])) = Done (VList [VInt 1]) /\
  snd (dump demo_env 0 9 opts_strict None (VColl CDeque [VInt 1])) = Fail (exn_of KSer).
Proof. vm_compute. auto. Qed.
Example C45_ex :
  so_strict opts_strict = true /\
  snd (dump demo_env 0 9 opts_strict None (VList [VInt 1; VFloat (FFin 5 (-1))])) = Done (VList [VInt 1; VInt 2]) /\
  snd (dump demo_env 0 9 sopts0 None (VList [VInt 1; VFloat (FFin 5 (-1))])) = Done (VList [VInt 1; VFloat (FFin 5 (-1))]) /\
  snd (dump demo_env 0 9 opts_strict None (VList [VInt 1; VStr "x"])) = Fail (exn_of KSer).
Proof. vm_compute. auto. Qed.

Print Assumptions C21_dump_only_json.
Print Assumptions C23_no_null_entries.
Print Assumptions C24_attributes_of_instance.
Print Assumptions C25_failing_attribute_truncates.
Print Assumptions C26_key_transformer_rewrites.
Print Assumptions C27_identity_on_documents.
Print Assumptions C35_dump_first_alternative.
Print Assumptions C44_dump_uses_its_fork_only.
Print Assumptions C45_strict_list_uses_class_of_first.
Print Assumptions C45_strict_tuple_uses_type_of_first.
Print Assumptions C45_strict_typed_tuple.
Print Assumptions C45_strict_tuple_of_one_type.
Print Assumptions C45_lenient_tuple_uses_own_classes.
