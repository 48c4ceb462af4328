(** * C79: dumps and loads in the course of a program: forks and earlier calls *)
From Verif Require Import HistoryProofs.
Local Close Scope Z_scope.
Local Open Scope string_scope.

(** Registering, suppressing warnings, forking, dumping and loading with other forks does not change
    what a fork dumps: not the result, not the error, not the effects. *)
Theorem C79_dump_isolated : forall P ops more f, exists_in ops f -> spare ops f more ->
  forall n o cls v, dump (after P (ops ++ more)) f n o cls v = dump (after P ops) f n o cls v.
Proof. exact dump_isolated. Qed.
(** For load, no validators or classes may be announced anywhere, as these are shared, and the
    default fork must be left alone as well, as time zones and complex numbers are loaded with it. *)
Theorem C79_load_isolated : forall P ops more f, exists_in ops f -> spare ops f more -> spare ops 0 more ->
  Forall (fun o => ~ shared_effect o) more ->
  forall n o cls j, load (after P (ops ++ more)) n f o cls j = load (after P ops) n f o cls j.
Proof. exact load_isolated. Qed.
Theorem C79_load_isolated_own : forall P ops more f, exists_in ops f -> spare ops f more ->
  Forall (fun o => ~ shared_effect o) more ->
  (forall t, e_deser (after P ops) f t <> Some DTimezone /\ e_deser (after P ops) f t <> Some DComplex) ->
  forall n o cls j, load (after P (ops ++ more)) n f o cls j = load (after P ops) n f o cls j.
Proof. exact load_isolated_own. Qed.

(** A new fork, or a new subclass of JsonSerializable, dumps and loads as the one it is made from. *)
Theorem C79_new_fork_dumps : forall P ops p c, exists_in ops p -> c = OFork p \/ c = OSubclass p ->
  forall n o cls v,
  same_run (dump (after P (ops ++ [c])) (next_id ops) n o cls v) (dump (after P ops) p n o cls v).
Proof. exact dump_child. Qed.
Theorem C79_new_fork_loads : forall P ops p c, exists_in ops p -> c = OFork p \/ c = OSubclass p ->
  forall n o cls j,
  same_run (load (after P (ops ++ [c])) n (next_id ops) o cls j) (load (after P ops) n p o cls j).
Proof. exact load_child. Qed.

(** After any history, registering for classes that a type does not involve changes no load of it,
    with any fork; likewise dump.  Serializers do not matter for load, other handlers not for dump. *)
Theorem C79_load_unconcerned : forall P ops k f a hi g,
  particular (concerned P a) -> nameless_defaults (pr_classes P) ->
  forall n x o cls j, no_hints o -> nameless_transformer o -> nameless j ->
  (forall t, cls = Some t -> ~ involves (after P ops) (concerned P a) t) ->
  load (after P (ops ++ [OSet k f a hi g])) n x o cls j = load (after P ops) n x o cls j.
Proof. exact load_unconcerned. Qed.
Theorem C79_dump_unconcerned : forall P ops k f a hi g n x o cls v,
  (forall c y, visits (after P ops) x o cls v c y -> ~ concerned P a (tyof c y)) ->
  dump (after P (ops ++ [OSet k f a hi g])) x n o cls v = dump (after P ops) x n o cls v.
Proof. exact dump_unconcerned. Qed.
Theorem C79_load_serializers : forall P ops f a hi g n x o cls j,
  load (after P (ops ++ [OSet Ser f a hi g])) n x o cls j = load (after P ops) n x o cls j.
Proof. exact load_other_kinds. Qed.
Theorem C79_dump_deserializers : forall P ops k f a hi g n x o cls v, k <> Ser ->
  dump (after P (ops ++ [OSet k f a hi g])) x n o cls v = dump (after P ops) x n o cls v.
Proof. exact dump_other_kinds. Qed.

(** ** A program *)
Definition some_types : list ty :=
  [TObject; TClass 1; TClass 4; TPrim PStr; TPrim PInt; TApp true HList [TClass 4]; TApp true HList []; TApp false HTuple []; TNoneT;
   TUnion [TPrim PInt; TNoneT]; TUnionForm; TOptionalForm].
Fixpoint index (t : ty) (l : list ty) : nat :=
  match l with [] => 0 | u :: r => if ty_eqb t u then 0 else S (index t r) end.
Definition number (t : ty) : cls := if existsb (ty_eqb t) some_types then index t some_types else 0.
Definition type_of (c : cls) : ty := nth c some_types TObject.
Definition demo_program : program :=
  mkProgram demo_ct demo_rt 0
    (mkWorld (fun c => class_name demo_ct (type_of c))
             (fun a b => naked_sub demo_ct (type_of a) (type_of b))
             (fun c => option_map number (ty_super (type_of c))))
    number type_of
    (fun g => nth g [SObject; SPrimitive; SList] (SCustom 0))
    (fun g => nth g [DObject; DPrimitive; DList; DTuple; DUnion] (DCustom 0))
    (fun _ _ => Ok false)
    (fun l n => match sget n l with Some t => Ok t | None => raise KUnknownClass end)
    (fun _ _ _ => Ok (VInt 8)) (fun _ _ _ => Ok (VInt 7)).
(** jsons.set_serializer / set_deserializer for the default types, and fork1 = jsons.fork() *)
Definition start : list op :=
  [OSet Ser 0 (ACls (number TObject)) false 0;
   OSet Ser 0 (ASeq [ACls (number (TPrim PStr)); ACls (number (TPrim PInt)); LookupModel.ANone]) true 1;
   OSet Deser 0 (ACls (number TObject)) false 0;
   OSet Deser 0 (ASeq [ACls (number (TPrim PStr)); ACls (number (TPrim PInt)); ACls (number TNoneT)]) true 1;
   OSet Deser 0 (ACls (number (TApp true HList []))) true 2;
   OSet Deser 0 (ACls (number (TApp false HTuple []))) true 3;
   OSet Deser 0 (ASeq [ACls (number TUnionForm); ACls (number TOptionalForm)]) true 4;
   OFork 0].
(** fork1.set_deserializer(..., Person), fork1.set_serializer(..., Person), fork1.suppress_warnings(),
    fork1.load(...) *)
Definition person_in_fork1 : list op :=
  [OSet Deser 1 (ACls (number (TClass 1))) true 9; OSet Ser 1 (ACls (number (TClass 1))) true 9;
   OSuppressAll 1 true; OFork 1; OCall [ELook Val 1 1; ELook Deser 1 1]].
Example C79_ex_isolated :
  exists_in start 0 /\ exists_in start 1 /\ spare start 0 person_in_fork1 /\ Forall (fun o => ~ shared_effect o) person_in_fork1 /\
  snd (load (after demo_program (start ++ person_in_fork1)) 9 0 lopts0 (Some (TClass 1)) john_doc) = Done john /\
  snd (load (after demo_program (start ++ person_in_fork1)) 9 1 lopts0 (Some (TClass 1)) john_doc) = Done (VInt 7) /\
  snd (dump (after demo_program (start ++ person_in_fork1)) 0 9 sopts0 None john) = Done john_doc /\
  snd (dump (after demo_program (start ++ person_in_fork1)) 1 9 sopts0 None john) = Done (VInt 8).
Proof.
  split; [vm_compute; auto|]. split; [vm_compute; auto|]. split.
  { cbn [spare person_in_fork1 leaves_alone leaves_warnings_alone].
    repeat match goal with |- _ /\ _ => split end; try exact I; intros _ Q; vm_compute in Q; discriminate Q. }
  split.
  { apply Forall_forall. intros o Ho. unfold person_in_fork1 in Ho. cbn [In] in Ho.
    repeat (destruct Ho as [<-|Ho]; [cbn [shared_effect]; try (intros [])|]); [|destruct Ho].
    destruct H as (c & [Q|[Q|[]]]); discriminate Q. }
  repeat split; vm_compute; reflexivity.
Qed.
Example C79_ex_new_fork :
  snd (load (after demo_program (start ++ person_in_fork1 ++ [OFork 1])) 9 3 lopts0 (Some (TClass 1)) john_doc) = Done (VInt 7) /\
  next_id (start ++ person_in_fork1) = 3.
Proof. split; vm_compute; reflexivity. Qed.

(** A validator for Person, and a list of points *)
Definition person : clsarg := ACls (number (TClass 1)).
Lemma only_person t : concerned demo_program person t -> t = TClass 1.
Proof.
  intros (n & [<-|[]] & H).
  assert (Hn : forall c, named_or_below (pr_world demo_program) "m.person" c -> c = 1).
  { intros c [Hc|(p & Hs & Hp)].
    - do 12 (destruct c as [|c]; [vm_compute in Hc; first [reflexivity | discriminate Hc]|]).
      destruct c; vm_compute in Hc; discriminate Hc.
    - assert (p = 1).
      { do 12 (destruct p as [|p]; [vm_compute in Hp; first [reflexivity | discriminate Hp]|]).
        destruct p; vm_compute in Hp; discriminate Hp. }
      subst p. do 12 (destruct c as [|c]; [vm_compute in Hs; first [reflexivity | discriminate Hs]|]).
      destruct c; vm_compute in Hs; discriminate Hs. }
  assert (Hc : pr_cls demo_program t = 1).
  { destruct H as [H|(s & Hs & H)]; [now apply Hn|]. exfalso. revert Hs. generalize (pr_cls demo_program t). intros c.
    do 12 (destruct c as [|c]; [vm_compute; discriminate|]). destruct c; vm_compute; discriminate. }
  revert Hc. cbn [pr_cls demo_program]. unfold number.
  destruct (existsb _ _) eqn:Ex; [|discriminate]. apply existsb_exists in Ex as (u & Hu & Hq). apply ty_eqb_eq in Hq. subst u.
  cbn [some_types In] in Hu.
  repeat (destruct Hu as [<-|Hu]; [vm_compute; first [reflexivity|discriminate]|]). destruct Hu.
Qed.
Lemma person_only : particular (concerned demo_program person).
Proof. intros t Ht. apply only_person in Ht as ->. exact I. Qed.
Lemma demo_defaults : nameless_defaults demo_ct.
Proof.
  intros c fd x Hin Hx. destruct c as [|[|[|[|[|c]]]]]; try (now destruct Hin).
  cbn in Hin. destruct Hin as [<-|[<-|[]]]; [discriminate|]. injection Hx as <-. left. now apply nl_plain.
Qed.
Definition point_list : ty := TApp true HList [TClass 4].
Definition points : value := VList [VList [VInt 1; VInt 2]; str_dict [("x", VInt 3); ("y", VNone)]].
Lemma points_apart E : e_ct E = demo_ct -> ~ involves E (concerned demo_program person) point_list.
Proof.
  intros HE.
  assert (Hs : forall t, t <> TClass 1 -> (forall c, ~ class_number E t c) -> (forall b h l, t <> TApp b h l) ->
    (forall l, t <> TUnion l) -> (forall s, t <> TFwd s) -> ~ involves E (concerned demo_program person) t).
  { intros t H1 H2 H3 H3' H4 H. destruct H.
    - now apply only_person in H.
    - now apply (H3 b h args).
    - now apply (H3' args).
    - exact (H2 c H).
    - exact (H2 c H).
    - exact (H2 c H).
    - now apply (H4 s). }
  assert (Hi : ~ involves E (concerned demo_program person) (TPrim PInt)).
  { apply Hs; try discriminate. intros c [Q|[Q _]]; discriminate Q. }
  assert (Hz : ~ involves E (concerned demo_program person) TNoneT).
  { apply Hs; try discriminate. intros c [Q|[Q _]]; discriminate Q. }
  assert (Hu : ~ involves E (concerned demo_program person) (TUnion [TPrim PInt; TNoneT])).
  { intros H. inversion H as [t Ht| |l a Ha H'|t c p h [Hc|[Hc _]]|t c a h [Hc|[Hc _]]|t c fd h [Hc|[Hc _]]|]; subst; try discriminate.
    - now apply only_person in Ht.
    - destruct Ha as [<-|[<-|[]]]; auto. }
  assert (Hp : ~ involves E (concerned demo_program person) (TClass 4)).
  { intros H. inversion H as [t Ht| | |t c p h Hc Hin|t c a h Hc Hin|t c fd h Hc Hin Hh H'|]; subst.
    - now apply only_person in Ht.
    - destruct Hc as [Q|[Q _]]; [|discriminate]. injection Q as <-. rewrite HE in Hin. destruct Hin.
    - destruct Hc as [Q|[Q _]]; [|discriminate]. injection Q as <-. rewrite HE in Hin. discriminate Hin.
    - destruct Hc as [Q|[Q _]]; [|discriminate]. injection Q as <-. rewrite HE in Hin. cbn in Hin.
      destruct Hin as [<-|[<-|[]]]; injection Hh as <-; contradiction. }
  intros H. unfold point_list in H.
  inversion H as [t Ht|b h l a Ha H'| |t c p h [Hc|[Hc _]]|t c a h [Hc|[Hc _]]|t c fd h [Hc|[Hc _]]|]; subst; try discriminate.
  - now apply only_person in Ht.
  - destruct Ha as [<-|[]]. contradiction.
Qed.
(** jsons.set_validator(lambda x: False, Person) with fork1 *)
Definition no_persons : op := OSet Val 1 person false 0.
Example C79_ex_unconcerned : forall n x,
  load (after demo_program (start ++ [no_persons])) n x lopts0 (Some point_list) points =
  load (after demo_program start) n x lopts0 (Some point_list) points.
Proof.
  intros n x. apply C79_load_unconcerned.
  - exact person_only.
  - exact demo_defaults.
  - now left.
  - intros g k k' Q. discriminate Q.
  - unfold points, str_dict. repeat first [apply nl_list; intros y [<-|Hx]; [|try destruct Hx as [<-|[]]; try destruct Hx]
      | apply nl_dict; intros a y Hx; destruct Hx as [Q|[Q|[]]]; injection Q as <- <-; repeat split; try discriminate
      | now apply nl_plain ].
  - intros t Q. injection Q as <-. now apply points_apart.
Qed.
Example C79_ex_unconcerned_result :
  snd (load (after demo_program start) 9 0 lopts0 (Some point_list) points) =
  Done (VList [VNT 4 [VInt 1; VInt 2]; VNT 4 [VInt 3; VNone]]).
Proof. vm_compute. reflexivity. Qed.
(** A serializer for Person, and an object of another class *)
Definition other : value := VObj 7 [("a", VInt 1)].
Lemma other_visits c x : visits (after demo_program start) 0 sopts0 None other c x -> c = None /\ (x = other \/ x = VInt 1).
Proof.
  intros H. induction H as [|c x l y t _ [-> IH] Hi Hl Hy Ht|c x k y t _ [-> IH] Hs|c x a y t _ [-> IH] Hs Ha Ht|c x t _ [-> IH] Hs Hin|c off name _ [-> IH] Hs].
  - auto.
  - exfalso. destruct IH as [-> | ->]; discriminate Hl.
  - exfalso. destruct IH as [-> | ->]; vm_compute in Hs; discriminate Hs.
  - destruct IH as [-> | ->].
    + assert (Hy : y = VInt 1).
      { unfold get_attr in Ha. cbn [other class_members e_ct after pr_classes demo_program] in Ha.
        destruct (String.eqb_spec a "a") as [-> |Hne]; [vm_compute in Ha; congruence|].
        exfalso. revert Ha. cbn. destruct (String.eqb_spec a "a"); [contradiction|]. cbn. discriminate. }
      split; [|now right]. destruct Ht as [-> |(i & u & Hi & -> & Hin)]; [reflexivity|]. exfalso.
      destruct Hi as [Hi|Hi]; [discriminate Hi|]. injection Hi as <-. destruct Hin.
    + exfalso. vm_compute in Hs. destruct Hs as [Hs|Hs]; discriminate Hs.
  - destruct Hin.
  - exfalso. destruct IH as [Q|Q]; discriminate Q.
Qed.
Example C79_ex_dump_unconcerned : forall n,
  dump (after demo_program (start ++ [OSet Ser 0 person true 9])) 0 n sopts0 None other =
  dump (after demo_program start) 0 n sopts0 None other.
Proof.
  intros n. apply C79_dump_unconcerned. intros c y Hv Hc. apply only_person in Hc.
  apply other_visits in Hv as [-> [-> | ->]]; discriminate Hc.
Qed.
Example C79_ex_dump_unconcerned_result :
  snd (dump (after demo_program start) 0 9 sopts0 None other) = Done (str_dict [("a", VInt 1)]).
Proof. vm_compute. reflexivity. Qed.

(** ** What the conditions are for *)
(** A validator set with fork1 is in force for the default fork too. *)
Theorem C79_validators_isolated_refuted : ~ forall P ops more f, exists_in ops f -> spare ops f more -> spare ops 0 more ->
  Forall (fun o => match o with OAnnounce _ _ _ _ | OCall _ => False | _ => True end) more ->
  forall n o cls j, load (after P (ops ++ more)) n f o cls j = load (after P ops) n f o cls j.
Proof.
  intros H.
  assert (K : load (after demo_program (start ++ [no_persons])) 9 0 lopts0 (Some (TClass 1)) john_doc =
              load (after demo_program start) 9 0 lopts0 (Some (TClass 1)) john_doc).
  { apply H.
    - vm_compute. auto.
    - repeat split.
    - repeat split.
    - repeat constructor. }
  apply (f_equal snd) in K. vm_compute in K. discriminate K.
Qed.
(** A dump of a Person, with any fork, makes its class known to loads of documents that name it. *)
Definition named_person : value :=
  VDict DkDict [(VStr "name", VStr "John");
                (VStr "-meta", str_dict [("classes", str_dict [("/", VStr "m.Person")])])].
Theorem C79_dump_before_load_refuted : ~ forall P ops tr f n o cls j, exists_in ops f ->
  load (after P (ops ++ [OCall tr])) n f o cls j = load (after P ops) n f o cls j.
Proof.
  intros H.
  assert (K : load (after demo_program (start ++ [OCall [EAnnounce 1 (number (TClass 1))]])) 9 0 lopts0 None named_person =
              load (after demo_program start) 9 0 lopts0 None named_person).
  { apply H. vm_compute. auto. }
  apply (f_equal snd) in K. vm_compute in K. discriminate K.
Qed.
(** What is set with a subclass of JsonSerializable is in force for its parent. *)
Theorem C79_subclass_isolated_refuted : ~ forall P ops p k a hi g n o cls v, exists_in ops p ->
  dump (after P (ops ++ [OSubclass p; OSet k (next_id ops) a hi g])) p n o cls v = dump (after P ops) p n o cls v.
Proof.
  intros H.
  assert (K : dump (after demo_program (start ++ [OSubclass 0; OSet Ser (next_id start) person true 9])) 0 9 sopts0 None john =
              dump (after demo_program start) 0 9 sopts0 None john).
  { apply H. vm_compute. auto. }
  apply (f_equal snd) in K. vm_compute in K. discriminate K.
Qed.

Print Assumptions C79_dump_isolated.
Print Assumptions C79_load_isolated.
Print Assumptions C79_load_isolated_own.
Print Assumptions C79_new_fork_dumps.
Print Assumptions C79_new_fork_loads.
Print Assumptions C79_load_unconcerned.
Print Assumptions C79_dump_unconcerned.
Print Assumptions C79_load_serializers.
Print Assumptions C79_dump_deserializers.
Print Assumptions C79_validators_isolated_refuted.
Print Assumptions C79_dump_before_load_refuted.
Print Assumptions C79_subclass_isolated_refuted.
