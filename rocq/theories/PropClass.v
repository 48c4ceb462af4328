(** * C61: classes as they are written

    Which annotations, parameters and members of a class statement and its bases take effect.
    Proofs are in ClassProofs.v. *)
From Verif Require Import PyBaseFacts EngineEnv ClassSpec ClassProofs LoadFacts RoundTripLaws PropRoundTrip.
Local Close Scope Z_scope.
Local Open Scope string_scope.

(** ** Annotations *)
(** get_type_hints understands an annotation as [means] says. *)
Theorem C61_annotations : forall P scopes a t, eval_ann P scopes a = Ok t <-> means P scopes a t.
Proof. exact eval_ann_means. Qed.
(** The types of attributes, the parameters with their types and the members that dump and load
    work with, for every class all of whose annotations stand for something. *)
Theorem C61_class : forall P c, wellformed P -> understood P c -> exists ci, class_info P c = Ok ci /\
  ci_name ci = de_module (pr_decl P c) ++ "." ++ de_name (pr_decl P c) /\
  (forall a t, sget a (ci_hints ci) = Some t <-> attribute_type P c a t) /\
  (forall fn, constructor P c fn -> Forall2 (typed_as P (fn_module fn)) (fn_params fn) (ci_params ci)) /\
  (forall a m, sget a (ci_members ci) = Some m <->
     exists b, nearest (fun b => sget a (de_dict (pr_decl P b))) (de_mro (pr_decl P c)) b m).
Proof. exact class_info_ok. Qed.
(** If an annotation of the constructor does not stand for anything where the constructor was
    written, load takes the names of the module of the class. *)
Theorem C61_fallback : forall P c fn, wellformed P -> only_names P -> constructor P c fn ->
  ~ signature_understood P (fn_module fn) fn -> signature_understood P (de_module (pr_decl P c)) fn ->
  exists h, hints_of_init P c = Ok h /\
    Forall2 (typed_as P (de_module (pr_decl P c))) (fn_params fn) (map (typed_param h) (signature_of P c)).
Proof. exact hints_of_init_fallback. Qed.
(** Dump does not: any annotation that does not stand for something is a NameError, whether the
    attribute is there or not. *)
Theorem C61_unknown_names : forall P c, only_names P ->
  ~ body_understood P c \/
  (de_type (pr_decl P c) = true /\ exists fn, constructor P c fn /\ ~ signature_understood P (fn_module fn) fn) ->
  exists e, hints_of_class P c = Err e /\ is_nameerror (e_kind e) = true.
Proof. exact hints_of_class_fails. Qed.
(** How an annotation is spelled does not matter: 'A' is as good as A. *)
Theorem C61_spelling : forall P P' c, respelled P P' -> understood P c -> class_info P' c = class_info P c.
Proof. exact respelled_same. Qed.
(** A subclass with an empty body has the parameters, annotations and members of its base. *)
Theorem C61_bare_subclass : forall P s b cb, wellformed P -> understood P b -> bare_subclass P s b -> class_info P b = Ok cb ->
  exists cs, class_info P s = Ok cs /\
    ci_params cs = ci_params cb /\ ci_hints cs = ci_hints cb /\ ci_members cs = ci_members cb.
Proof. exact bare_same. Qed.

(** A class without a constructor of its own or of a base is called without arguments: {} gives an
    instance of it. *)
Theorem C61_no_constructor : forall P E f n o c attrs, e_deser E f (TClass c) = Some DObject ->
  class_info P c = Ok (e_ct E c) -> (forall fn, ~ constructor P c fn) ->
  lo_getters o = [] -> de_call (pr_decl P c) [] = Ok attrs -> accepts E f (TClass c) (VObj c attrs) ->
  snd (load E (S n) f o (Some (TClass c)) (VDict DkDict [])) = Done (VObj c attrs).
Proof.
  intros P E f n o c attrs Hd Hc Hn Hg Ha Hv. destruct (no_constructor_params P c _ Hn Hc) as [Hp Hi].
  apply load_typed; [exact I|intros k d x Q; injection Q as <- <-; intros []|]. split; [discriminate|].
  cbn [class_of ty_eqb]. rewrite andb_false_r. split; [reflexivity|]. exists DObject. split; [exact Hd|]. split; [|exact Hv].
  cbn [deser_step]. unfold deser_object. cbn [cid_of obj_items]. rewrite bind_lift_ok.
  change (lo_kt (child_opts o)) with (lo_kt o). change (lo_getters (child_opts o)) with (lo_getters o).
  replace (match lo_kt o with Some g => transform_keys (e_ct E) g [] [] | None => Ok [] end) with (Ok (@nil (value * value)))
    by (destruct (lo_kt o); reflexivity).
  rewrite bind_lift_ok. cbv zeta. rewrite Hp, Hg.
  cbn [constructor_args value_for_attr pa_name pa_var pa_default sget]. rewrite Hi.
  unfold remaining_args. cbn. rewrite Ha. reflexivity.
Qed.

(** ** Classes that store their parameters, such as dataclasses *)
(** They come back from a dump, with all they inherit, however they are annotated. *)
Theorem C61_record : forall P o c fn CT, wellformed P -> understood P c -> stores_parameters P o c fn ->
  class_info P c = Ok (CT c) -> fresh_name (CT c) ->
  (forall p t, In p (fn_params fn) -> param_type P (fn_module fn) p t -> ~ odd_name CT (Some t)) ->
  record_like CT o c.
Proof. exact stores_record. Qed.
Theorem C61_round_trip : forall P E f g o c fn attrs,
  default_serializers E f -> default_deserializers E g -> exact_dump o ->
  wellformed P -> understood P c -> stores_parameters P o c fn ->
  class_info P c = Ok (e_ct E c) -> fresh_name (e_ct E c) ->
  (forall p t, In p (fn_params fn) -> param_type P (fn_module fn) p t -> ~ odd_name (e_ct E) (Some t)) ->
  map fst attrs = map fp_name (fn_params fn) ->
  (forall p t x, In (p, x) (combine (fn_params fn) (map snd attrs)) -> param_type P (fn_module fn) p t ->
                 has_type E g o t x) ->
  accepts E g (TClass c) (VObj c attrs) ->
  exists j N, forall n m lo, N <= n -> N <= m -> exact_load lo ->
    snd (dump E f n o None (VObj c attrs)) = Done j /\ snd (load E m g lo (Some (TClass c)) j) = Done (VObj c attrs).
Proof.
  intros P E f g o c fn attrs H1 H2 H3 W U Hs Hci Hfr Ho Hn Ht Ha.
  assert (Hty : has_type E g o (TClass c) (VObj c attrs)) by now apply (stores_has_type P E g o c fn attrs).
  destruct (C28_round_trip E f g o _ _ H1 H2 H3 Hty) as (j & N & _ & H). exists j, N.
  intros n m lo Hn' Hm Hlo. apply H; auto.
Qed.

(** ** Examples *)
(** Module m:
    @dataclass
    class Person:
        name: str
        age: int = 0
        boss: 'Person' = None
        def greet(self): ...
    class Manager(Person):
        title: str
        def __init__(self, name: str, age: int, boss: 'Person', team: List['Person']): ...
    class Shape(ABC):
        def __init__(self, x: int): ...
    class Plain:
        def __init__(self, x: int): ...
    class Late:
        def __init__(self, x: 'datetime.Missing', y: 'Person'): ...
    Module n:
    class Boss(m.Manager): pass
    class Chief(m.Person):     # Rank is a name of n only, the decorator that writes __init__ is in u
        @with_init('rank: Rank')  *)
Definition p0 (a : string) (t : ty) : fparam := mkFparam a (Some (Some t)) None false.
Definition person_init : func :=
  mkFunc "m" [p0 "name" (TPrim PStr); mkFparam "age" (Some (Some (TPrim PInt))) (Some (VInt 0)) false;
              mkFparam "boss" (Some (Some (TFwd "Person"))) (Some VNone) false] (Some None).
Definition manager_init : func :=
  mkFunc "m" [p0 "name" (TPrim PStr); p0 "age" (TPrim PInt); p0 "boss" (TFwd "Person"); p0 "team" (TApp true HList [TFwd "Person"])] None.
Definition statement (module name : string) (mro : list nat) (plain : bool) (ann : list (string * annotation)) (init : option func)
           (dict : list (string * member)) (call : list (string * value) -> res (list (string * value))) : decl :=
  mkDecl module name mro plain ann init None dict (fun _ => None) (fun _ _ => raise KAttribute) call
         (fun a x attrs => Ok (sset a x attrs)) false true.
Definition demo_decl (c : nat) : decl :=
  match c with
  | 1 => statement "m" "Person" [1] true
           [("name", Some (TPrim PStr)); ("age", Some (TPrim PInt)); ("boss", Some (TFwd "Person"))] (Some person_init)
           [("greet", MCallable); ("age", MVar (VInt 0)); ("boss", MVar VNone)] (fun args => Ok args)
  | 2 => statement "m" "Manager" [2; 1] true [("title", Some (TPrim PStr))] (Some manager_init) [] (fun args => Ok args)
  | 3 => statement "n" "Boss" [3; 2; 1] true [] None [] (fun args => Ok args)
  | 4 => statement "m" "Shape" [4] false [] (Some (mkFunc "m" [p0 "x" (TPrim PInt)] None)) [] (fun args => Ok args)
  | 5 => statement "m" "Plain" [5] true [] (Some (mkFunc "m" [p0 "x" (TPrim PInt)] None)) [] (fun args => Ok args)
  | 6 => statement "m" "Late" [6] true [] (Some (mkFunc "m" [p0 "x" (TFwd "datetime.Missing"); p0 "y" (TFwd "Person")] None)) [] (fun args => Ok args)
  | 7 => statement "n" "Chief" [7] true [] (Some (mkFunc "u" [p0 "rank" (TFwd "Rank")] None)) [] (fun args => Ok args)
  | _ => statement "m" "Empty" [c] true [] None [] (fun args => Ok args)
  end.
Definition demo_prog (expr : scope -> string -> res ty) : prog :=
  mkProg demo_decl
         (fun m x => if String.eqb m "m" then sget x [("Person", TClass 1); ("Manager", TClass 2)]
                     else if String.eqb m "n" then sget x [("Rank", TPrim PInt)] else None)
         (fun x => sget x [("int", TPrim PInt); ("str", TPrim PStr)]) expr.
(** A program without other strings than names, and one in which others are AttributeErrors *)
Definition names_prog : prog := demo_prog (fun _ _ => raise KName).
Definition dots_prog : prog := demo_prog (fun _ _ => raise KAttribute).

Example C61_ex_wellformed : wellformed names_prog.
Proof.
  constructor.
  - intros b. do 8 (destruct b as [|b]; [cbn; repeat constructor; cbn; intuition discriminate|]). constructor.
  - intros b. do 8 (destruct b as [|b]; [cbn; repeat constructor; cbn; intuition discriminate|]). constructor.
  - intros b fn H. do 8 (destruct b as [|b]; [cbn in H; first [discriminate H|injection H as <-; cbn;
      split; [repeat constructor; cbn; intuition discriminate|intuition discriminate]]|]). discriminate H.
Qed.
Lemma names_mean module x t : eval_ann names_prog (signature_scopes names_prog module) x = Ok t ->
  exists t, means names_prog (signature_scopes names_prog module) x t.
Proof. intros H. exists t. now apply eval_ann_means. Qed.
Lemma body_mean b x t : eval_ann names_prog (body_scopes names_prog b) x = Ok t ->
  exists t, means names_prog (body_scopes names_prog b) x t.
Proof. intros H. exists t. now apply eval_ann_means. Qed.
Example C61_ex_understood : forall c, c = 1 \/ c = 2 \/ c = 3 -> understood names_prog c.
Proof.
  intros c Hc. split.
  - assert (Hb : forall b, In b (de_mro (pr_decl names_prog c)) -> b = 1 \/ b = 2 \/ b = 3).
    { destruct Hc as [-> |[-> | ->]]; cbn; intros b Hb; intuition congruence. }
    intros b a x Hin Hx. apply Hb in Hin. clear Hb Hc.
    destruct Hin as [-> |[-> | ->]]; cbn in Hx;
      repeat (destruct Hx as [[= <- <-]|Hx]; [eapply body_mean; reflexivity|]); destruct Hx.
  - intros fn Hf. apply constructor_find in Hf.
    assert (Hfn : fn = person_init \/ fn = manager_init) by (destruct Hc as [-> |[-> | ->]]; injection Hf as <-; auto).
    clear Hf Hc. split.
    + intros p x Hp Hx. destruct Hfn as [-> | ->]; cbn in Hp;
        repeat (destruct Hp as [<-|Hp]; [cbn in Hx; injection Hx as <-; eapply names_mean; reflexivity|]); destruct Hp.
    + intros x Hx. destruct Hfn as [-> | ->]; [|discriminate Hx]. injection Hx as <-. eapply names_mean. reflexivity.
Qed.
(** What dump and load are told about Manager and Boss *)
Example C61_ex_hints :
  (exists ci, class_info names_prog 3 = Ok ci /\
     ci_hints ci = [("name", TPrim PStr); ("age", TPrim PInt); ("boss", TClass 1); ("title", TPrim PStr); ("team", TApp true HList [TClass 1])] /\
     map signature (ci_params ci) = [("name", Some (TPrim PStr)); ("age", Some (TPrim PInt)); ("boss", Some (TClass 1)); ("team", Some (TApp true HList [TClass 1]))] /\
     map fst (ci_members ci) = ["greet"; "age"; "boss"] /\ ci_supers ci = [TClass 2; TClass 1]) /\
  (exists ci, class_info names_prog 1 = Ok ci /\
     map signature (ci_params ci) = [("name", Some (TPrim PStr)); ("age", Some (TPrim PInt)); ("boss", Some (TUnion [TClass 1; TNoneT]))] /\
     sget "boss" (ci_hints ci) = Some (TUnion [TClass 1; TNoneT])) /\
  map signature (map (typed_param []) (signature_of names_prog 8)) = [("args", None); ("kwargs", None)].
Proof. split; [|split; [|reflexivity]]; (eexists; split; [vm_compute; reflexivity|]); repeat split. Qed.
Example C61_ex_bare : bare_subclass names_prog 3 2.
Proof. constructor; reflexivity. Qed.
(** Person annotated without strings *)
Definition direct_decl (c : nat) : decl :=
  match c with
  | 1 => statement "m" "Person" [1] true
           [("name", Some (TPrim PStr)); ("age", Some (TFwd "int")); ("boss", Some (TClass 1))]
           (Some (mkFunc "m" [p0 "name" (TFwd "str"); mkFparam "age" (Some (Some (TPrim PInt))) (Some (VInt 0)) false;
                              mkFparam "boss" (Some (Some (TClass 1))) (Some VNone) false] (Some (Some TNoneT))))
           [("greet", MCallable); ("age", MVar (VInt 0)); ("boss", MVar VNone)] (fun args => Ok args)
  | _ => demo_decl c
  end.
Definition direct_prog : prog := mkProg direct_decl (pr_module names_prog) (pr_builtin names_prog) (pr_expr names_prog).
Example C61_ex_spelling : respelled names_prog direct_prog /\ class_info direct_prog 1 = class_info names_prog 1.
Proof.
  assert (Hs : forall P P' s s' x x' t, eval_ann P s x = Ok t -> eval_ann P' s' x' = Ok t -> same_meaning P P' s s' x x').
  { intros P P' s s' x x' t H H' u. rewrite <- !eval_ann_means. now rewrite H, H'. }
  assert (Hr : respelled names_prog direct_prog).
  { constructor.
    - intros b. destruct b as [|[|b]]; repeat split.
    - intros b. destruct b as [|[|b]]; try (cbn; constructor; fail).
      + repeat apply Forall2_cons; try apply Forall2_nil; (split; [reflexivity|eapply Hs; reflexivity]).
      + change (de_ann (pr_decl direct_prog (S (S b)))) with (de_ann (pr_decl names_prog (S (S b)))).
        change (body_scopes direct_prog (S (S b))) with (body_scopes names_prog (S (S b))).
        induction (de_ann (pr_decl names_prog (S (S b)))) as [|x l IH]; constructor; [|exact IH].
        split; [reflexivity|]. intros t. rewrite <- !eval_ann_means. reflexivity.
    - intros b. destruct b as [|[|b]]; try exact I.
      + split; [reflexivity|]. split; [|eapply Hs; reflexivity]. repeat apply Forall2_cons; try apply Forall2_nil;
          (split; [reflexivity|split; [reflexivity|split; [reflexivity|eapply Hs; reflexivity]]]).
      + change (de_init (pr_decl direct_prog (S (S b)))) with (de_init (pr_decl names_prog (S (S b)))).
        destruct (de_init (pr_decl names_prog (S (S b)))) as [fn|]; [|exact I].
        assert (Hm : forall m x, same_meaning names_prog direct_prog (signature_scopes names_prog m) (signature_scopes direct_prog m) x x).
        { intros m x t. rewrite <- !eval_ann_means. reflexivity. }
        split; [reflexivity|]. split.
        * induction (fn_params fn) as [|p ps IH]; constructor; [|exact IH]. repeat split. destruct (fp_ann p); [apply Hm|exact I].
        * destruct (fn_returns fn); [apply Hm|exact I]. }
  split; [exact Hr|]. apply C61_spelling; [exact Hr|]. apply C61_ex_understood. now left.
Qed.
(** A dump of a Boss comes back. *)
Definition prog_ct (P : prog) : classes := fun c =>
  match class_info P c with Ok ci => ci | Err _ => record_class "m" "Broken" [] end.
Definition prog_env (P : prog) : env := std_env (prog_ct P) demo_rt.
(** class Empty: pass *)
Example C61_ex_no_constructor : (forall fn, ~ constructor names_prog 8 fn) /\
  class_info names_prog 8 = Ok (e_ct (prog_env names_prog) 8) /\
  snd (load (prog_env names_prog) 5 0 lopts0 (Some (TClass 8)) (VDict DkDict [])) = Done (VObj 8 []) /\
  snd (load (prog_env names_prog) 5 0 lopts0 (Some (TClass 8)) (str_dict [("x", VInt 1)])) = Done (VObj 8 [("x", VInt 1)]).
Proof.
  split; [intros fn H; apply constructor_find in H; discriminate|]. split; [reflexivity|]. split; vm_compute; reflexivity.
Qed.
Definition an_ann : value := VObj 1 [("name", VStr "Ann"); ("age", VInt 30); ("boss", VNone)].
Definition a_boss : value :=
  VObj 3 [("name", VStr "Bob"); ("age", VInt 40); ("boss", an_ann); ("team", VList [an_ann])].
Definition ann_json : value := str_dict [("age", VInt 30); ("boss", VNone); ("name", VStr "Ann")].
Example C61_ex_stores :
  stores_parameters names_prog sopts0 1 person_init /\ stores_parameters names_prog sopts0 3 manager_init.
Proof.
  assert (Hnames : forall fn, fn = person_init \/ fn = manager_init -> forall p, In p (fn_params fn) ->
    prefix "__" (fp_name p) = false /\ prefix "-" (fp_name p) = false /\
    (so_privates sopts0 = true -> prefix "_" (fp_name p) = false) /\
    ~ In (fp_name p) abc_names /\ ~ In (fp_name p) json_serializable_names).
  { intros fn Hf p Hp. destruct Hf as [-> | ->]; cbn in Hp;
      repeat (destruct Hp as [<-|Hp]; [repeat split; try reflexivity; try discriminate; intros H; cbn in H; intuition discriminate|]); destruct Hp. }
  assert (Hann : forall fn, fn = person_init \/ fn = manager_init -> forall p, In p (fn_params fn) -> fp_ann p <> None /\ fp_var p = false).
  { intros fn Hf p Hp. destruct Hf as [-> | ->]; cbn in Hp;
      repeat (destruct Hp as [<-|Hp]; [split; [discriminate|reflexivity]|]); destruct Hp. }
  assert (Hd : forall b, b = 1 \/ b = 2 \/ b = 3 -> forall a m, In (a, m) (de_dict (pr_decl names_prog b)) ->
               (a = "greet" /\ m = MCallable) \/ ((a = "age" \/ a = "boss") /\ exists x, m = MVar x)).
  { intros b Hb a m H. destruct Hb as [-> |[-> | ->]]; cbn in H; try contradiction.
    destruct H as [[= <- <-]|[[= <- <-]|[[= <- <-]|[]]]]; eauto 6. }
  assert (Hg : forall fn, fn = person_init \/ fn = manager_init -> forall p, In p (fn_params fn) -> fp_name p <> "greet").
  { intros fn Hf p Hp. destruct Hf as [-> | ->]; cbn in Hp; repeat (destruct Hp as [<-|Hp]; [discriminate|]); destruct Hp. }
  assert (G : forall c fn, c = 1 /\ fn = person_init \/ c = 3 /\ fn = manager_init -> stores_parameters names_prog sopts0 c fn).
  { intros c fn Hc. assert (Hf : fn = person_init \/ fn = manager_init) by intuition.
    assert (Hb : forall b, In b (de_mro (pr_decl names_prog c)) -> b = 1 \/ b = 2 \/ b = 3).
    { destruct Hc as [[-> _]|[-> _]]; cbn; intuition. }
    constructor.
    - destruct Hc as [[-> ->]|[-> ->]]; now apply constructor_find.
    - destruct Hc as [[-> ->]|[-> ->]]; reflexivity.
    - destruct Hc as [[-> ->]|[-> ->]]; reflexivity.
    - now apply Hann.
    - intros args _. destruct Hc as [[-> ->]|[-> ->]]; reflexivity.
    - intros b a m Hin Hm Ha. apply Hb in Hin. destruct (Hd b Hin a m Hm) as [[-> ->]|[Hn _]]; [now left|].
      exfalso. apply Ha. destruct Hn as [-> | ->], Hf as [-> | ->]; cbn; tauto.
    - intros b p m Hin Hp Hm. apply Hb in Hin. destruct (Hd b Hin _ m Hm) as [[Hn _]|[_ Hx]]; [|split; [exact Hx|reflexivity]].
      now elim (Hg fn Hf p Hp).
    - now apply Hnames. }
  split; apply G; auto.
Qed.
Lemma prog_fresh c : c < 8 -> fresh_name (prog_ct names_prog c).
Proof.
  unfold fresh_name. intros Hc H. apply mem_str_In in H. revert H.
  do 8 (destruct c as [|c]; [vm_compute; discriminate|]). lia.
Qed.
Lemma prog_even t : union_like (prog_ct names_prog) t = false -> ~ odd_name (prog_ct names_prog) (Some t).
Proof. intros H (t' & Eq & _ & _ & Ho). injection Eq as <-. apply union_like_occurs in Ho. congruence. Qed.
Lemma prog_param module p a u t : fp_ann p = Some a -> eval_ann names_prog (signature_scopes names_prog module) a = Ok u ->
  param_type names_prog module p t -> t = implicit_optional (fp_default p) u.
Proof. intros Ha Hu. apply (implicit_optional_type names_prog module p a u Ha). now apply eval_ann_means. Qed.
Lemma prog_params fn : fn = person_init \/ fn = manager_init -> forall p t, In p (fn_params fn) -> param_type names_prog (fn_module fn) p t ->
  In (fp_name p, t) (if Nat.eqb (length (fn_params fn)) 3
                     then [("name", TPrim PStr); ("age", TPrim PInt); ("boss", TUnion [TClass 1; TNoneT])]
                     else [("name", TPrim PStr); ("age", TPrim PInt); ("boss", TClass 1); ("team", TApp true HList [TClass 1])]).
Proof.
  intros Hf p t Hp Ht. assert (Hm : fn_module fn = "m") by now destruct Hf as [-> | ->]. rewrite Hm in Ht.
  destruct Hf as [-> | ->]; cbn in Hp; repeat (destruct Hp as [<-|Hp];
    [apply prog_param with (1 := eq_refl) (2 := eq_refl) in Ht; subst t; vm_compute; tauto|]); destruct Hp.
Qed.
Lemma prog_params_even fn : fn = person_init \/ fn = manager_init -> forall p t, In p (fn_params fn) ->
  param_type names_prog (fn_module fn) p t -> ~ odd_name (prog_ct names_prog) (Some t).
Proof.
  intros Hf p t Hp Ht. apply (prog_params fn Hf p t Hp) in Ht.
  destruct Hf as [-> | ->]; cbn [length fn_params person_init manager_init Nat.eqb] in Ht;
    repeat (destruct Ht as [[= _ <-]|Ht]; [first [apply union_even|apply prog_even; reflexivity]|]); destruct Ht.
Qed.

Example C61_ex_typed : has_type (prog_env names_prog) 0 sopts0 (TClass 3) a_boss.
Proof.
  assert (Hann : has_type (prog_env names_prog) 0 sopts0 (TClass 1) an_ann).
  { apply (stores_has_type names_prog (prog_env names_prog) 0 sopts0 1 person_init); try exact I; try reflexivity.
    - exact C61_ex_wellformed.
    - apply C61_ex_understood. auto.
    - apply C61_ex_stores.
    - apply prog_fresh. lia.
    - apply prog_params_even. auto.
    - intros p t x Hin Ht. pose proof (in_combine_l _ _ _ _ Hin) as Hp. apply prog_params in Ht; auto.
      cbn in Hin, Ht. destruct Hin as [[= <- <-]|[[= <- <-]|[[= <- <-]|[]]]]; cbn in Ht;
        destruct Ht as [H|[H|[H|[]]]]; try discriminate H; injection H as <-; try (apply ht_prim; [reflexivity|exact I]).
      apply ht_absent; try exact I; [now right; left| |].
      + intros u [<-|[<-|[]]]; apply prog_even; reflexivity.
      + intros us [H|[H|[]]]; discriminate H. }
  apply (stores_has_type names_prog (prog_env names_prog) 0 sopts0 3 manager_init); try exact I; try reflexivity.
  - exact C61_ex_wellformed.
  - apply C61_ex_understood. auto.
  - apply C61_ex_stores.
  - apply prog_fresh. lia.
  - apply prog_params_even. auto.
  - intros p t x Hin Ht. pose proof (in_combine_l _ _ _ _ Hin) as Hp. apply prog_params in Ht; auto.
    cbn in Hin, Ht. destruct Hin as [[= <- <-]|[[= <- <-]|[[= <- <-]|[[= <- <-]|[]]]]]; cbn in Ht;
      destruct Ht as [H|[H|[H|[H|[]]]]]; try discriminate H; injection H as <-; try (apply ht_prim; [reflexivity|exact I]).
    + exact Hann.
    + apply ht_sequence with (l := [an_ann]); try exact I.
      * constructor.
      * intros [H|H]; discriminate H.
      * intros x [<-|[]]. exact Hann.
Qed.
(** The documents of Boss and Person, with attributes in the order of dir() *)
Example C61_ex_round_trip :
  let doc := str_dict [("age", VInt 40); ("boss", ann_json); ("name", VStr "Bob"); ("team", VList [ann_json])] in
  snd (dump (prog_env names_prog) 0 30 sopts0 None a_boss) = Done doc /\
  snd (load (prog_env names_prog) 30 0 lopts0 (Some (TClass 3)) doc) = Done a_boss.
Proof. split; vm_compute; reflexivity. Qed.

(** ** Counterexamples *)
(** Chief's constructor is annotated with a name of Chief's module, not of the module the
    constructor comes from. *)
Lemma chief_constructor : constructor names_prog 7 (mkFunc "u" [p0 "rank" (TFwd "Rank")] None).
Proof. now apply constructor_find. Qed.
Lemma chief_unknown : ~ signature_understood names_prog "u" (mkFunc "u" [p0 "rank" (TFwd "Rank")] None).
Proof.
  intros [H _]. destruct (H _ _ (or_introl eq_refl) eq_refl) as [t Ht]. apply eval_ann_means in Ht. discriminate Ht.
Qed.
Lemma chief_known : signature_understood names_prog "n" (mkFunc "u" [p0 "rank" (TFwd "Rank")] None).
Proof.
  split; [|discriminate]. intros p x [<-|[]] Hx. injection Hx as <-. eapply names_mean. reflexivity.
Qed.
Lemma names_only : only_names names_prog.
Proof. intros ns s e H. now injection H as <-. Qed.
(** Load finds the name of its annotation, dump raises. *)
Theorem C61_dump_fallback_refuted : exists P c,
  wellformed P /\ only_names P /\ (exists h, hints_of_init P c = Ok h /\ h <> []) /\
  (exists e, hints_of_class P c = Err e /\ is_nameerror (e_kind e) = true).
Proof.
  exists names_prog, 7. split; [exact C61_ex_wellformed|]. split; [exact names_only|]. split.
  - exists [("rank", TPrim PInt)]. split; [reflexivity|discriminate].
  - apply C61_unknown_names; [exact names_only|]. right. split; [reflexivity|].
    exists (mkFunc "u" [p0 "rank" (TFwd "Rank")] None). split; [exact chief_constructor|exact chief_unknown].
Qed.
Example C61_ex_fallback : exists h, hints_of_init names_prog 7 = Ok h /\
  Forall2 (typed_as names_prog "n") [p0 "rank" (TFwd "Rank")] (map (typed_param h) (signature_of names_prog 7)).
Proof.
  exact (C61_fallback names_prog 7 _ C61_ex_wellformed names_only chief_constructor chief_unknown chief_known).
Qed.
(** An annotation that is an AttributeError silently costs the constructor all of them: y is
    annotated with a class that is there. *)
Theorem C61_attribute_error_refuted : exists P c fn p t, wellformed P /\ constructor P c fn /\
  In p (fn_params fn) /\ param_type P (fn_module fn) p t /\ hints_of_init P c = Ok [].
Proof.
  exists dots_prog, 6, (mkFunc "m" [p0 "x" (TFwd "datetime.Missing"); p0 "y" (TFwd "Person")] None), (p0 "y" (TFwd "Person")), (TClass 1).
  split; [destruct C61_ex_wellformed as [H1 H2 H3]; now constructor|]. split; [now apply constructor_find|].
  split; [right; now left|]. split; [|reflexivity].
  apply pt_plain with (a := Some (TFwd "Person")); [reflexivity|discriminate|]. now apply eval_ann_means.
Qed.
(** The parameters of an abstract class are typed for load, but not for dump: in strict mode,
    the attributes of a class are those of its annotations, and those of Shape's constructor are
    lost, while those of Plain's are not. *)
Definition strict_opts : sopts := mkSopts true false None false false false SANone false false false true false [].
Theorem C61_abstract_refuted : exists P c c' fn x,
  wellformed P /\ understood P c /\ understood P c' /\ constructor P c fn /\ constructor P c' fn /\
  hints_of_init P c = hints_of_init P c' /\
  snd (dump (prog_env P) 0 30 strict_opts (Some (TClass c)) (VObj c [("x", x)])) = Done (str_dict []) /\
  snd (dump (prog_env P) 0 30 strict_opts (Some (TClass c')) (VObj c' [("x", x)])) = Done (str_dict [("x", x)]).
Proof.
  exists names_prog, 4, 5, (mkFunc "m" [p0 "x" (TPrim PInt)] None), (VInt 7).
  assert (Hu : forall c, c = 4 \/ c = 5 -> understood names_prog c /\ constructor names_prog c (mkFunc "m" [p0 "x" (TPrim PInt)] None)).
  { intros c Hc. assert (Hfn : constructor names_prog c (mkFunc "m" [p0 "x" (TPrim PInt)] None))
      by (apply constructor_find; destruct Hc as [-> | ->]; reflexivity).
    split; [|exact Hfn]. split.
    - intros b a x Hb Hx. exfalso. destruct Hc as [-> | ->]; destruct Hb as [<-|[]]; destruct Hx.
    - intros fn Hf. rewrite (constructor_unique _ _ _ _ Hf Hfn). split; [|discriminate].
      intros p x [<-|[]] Hx. injection Hx as <-. eapply names_mean. reflexivity. }
  split; [exact C61_ex_wellformed|]. split; [apply Hu; auto|]. split; [apply Hu; auto|]. split; [apply Hu; auto|].
  split; [apply Hu; auto|]. split; [reflexivity|]. split; vm_compute; reflexivity.
Qed.

Print Assumptions C61_annotations.
Print Assumptions C61_class.
Print Assumptions C61_fallback.
Print Assumptions C61_unknown_names.
Print Assumptions C61_spelling.
Print Assumptions C61_bare_subclass.
Print Assumptions C61_record.
Print Assumptions C61_round_trip.
Print Assumptions C61_dump_fallback_refuted.
Print Assumptions C61_attribute_error_refuted.
Print Assumptions C61_abstract_refuted.
Print Assumptions C61_no_constructor.
