(** * C78: handlers of a type have no influence on loads and dumps that do not involve it *)
From Verif Require Import FrameProofs.
Local Close Scope Z_scope.
Local Open Scope string_scope.

(** A load does not depend on the deserializers and validators of types that the target type does
    not involve, if the document names no classes: not in its result, its error or its effects. *)
Theorem C78_load : forall E E' X, particular X -> same_but X E E' -> nameless_defaults (e_ct E) ->
  forall n f o cls j, no_hints o -> nameless_transformer o -> nameless j ->
  (forall t, cls = Some t -> ~ involves E X t) ->
  load E n f o cls j = load E' n f o cls j.
Proof. exact load_frame. Qed.
(** A dump does not depend on the serializers of types that nothing in the object is dumped with. *)
Theorem C78_dump : forall E E' X f n o cls v, same_serializers_but X E E' ->
  (forall c x, visits E f o cls v c x -> ~ X (tyof c x)) ->
  dump E f n o cls v = dump E' f n o cls v.
Proof. exact dump_frame. Qed.

(** So registering a handler for a class changes no load or dump of unrelated types, in any fork. *)
Theorem C78_set_deserializer : forall E f T h c hi,
  (forall t, e_deser E f t = lookup (ty_world (e_ct E)) T t) ->
  own_name (e_ct E) c T -> particular (affected (e_ct E) c) -> nameless_defaults (e_ct E) ->
  forall n g o cls j, no_hints o -> nameless_transformer o -> nameless j ->
  (forall t, cls = Some t -> ~ involves E (affected (e_ct E) c) t) ->
  load (after_set_deserializer E f T h c hi) n g o cls j = load E n g o cls j.
Proof. exact set_deserializer_frame. Qed.
Theorem C78_set_validator : forall E f T h c,
  (forall t, e_validator E f t = lookup (ty_world (e_ct E)) T t) ->
  own_name (e_ct E) c T -> particular (affected (e_ct E) c) -> nameless_defaults (e_ct E) ->
  forall n g o cls j, no_hints o -> nameless_transformer o -> nameless j ->
  (forall t, cls = Some t -> ~ involves E (affected (e_ct E) c) t) ->
  load (after_set_validator E f T h c) n g o cls j = load E n g o cls j.
Proof. exact set_validator_frame. Qed.
Theorem C78_set_serializer : forall E f T h c hi,
  (forall t, e_ser E f t = lookup (ty_world (e_ct E)) T t) -> own_name (e_ct E) c T ->
  forall n g o cls v, (forall d x, visits E g o cls v d x -> ~ affected (e_ct E) c (tyof d x)) ->
  dump (after_set_serializer E f T h c hi) g n o cls v = dump E g n o cls v.
Proof. exact set_serializer_frame. Qed.

(** ** A case: a deserializer for Person, and a list of points *)
Lemma person_particular : particular (affected demo_ct 1).
Proof.
  intros t [[H|H]|(m & n & s & -> & _)]; [| |exact I].
  - destruct t as [[]| | | |[] [] args| | | | | |[]| | | |]; try exact I; try (vm_compute in H; discriminate H).
  - destruct t as [[]| | | |b [] args| | | | | |[]| | | |]; try exact I; vm_compute in H; intuition discriminate.
Qed.
Lemma demo_defaults : nameless_defaults demo_ct.
Proof.
  intros c fd x Hin Hx. destruct c as [|[|[|[|[|c]]]]]; try (now destruct Hin).
  cbn in Hin. destruct Hin as [<-|[<-|[]]]; [discriminate|]. injection Hx as <-. left. apply clean_none.
Qed.
Lemma point_uninvolved : ~ involves demo_env (affected demo_ct 1) (TApp true HList [TClass 4]).
Proof.
  assert (Hn : forall t, affected demo_ct 1 t -> t <> TNoneT /\ (forall p, t <> TPrim p) /\ (forall b h l, t <> TApp b h l)).
  { intros t Ht. apply person_particular in Ht. repeat split; intros; intros ->; exact Ht. }
  assert (Hi : ~ involves demo_env (affected demo_ct 1) (TPrim PInt)).
  { intros H. inversion H as [t Ht| | |t c p h [Hc|[Hc _]]|t c a h [Hc|[Hc _]]|t c fd h [Hc|[Hc _]]|]; subst; try discriminate.
    now apply Hn in Ht as (_ & Ht & _); apply (Ht PInt). }
  assert (Hz : ~ involves demo_env (affected demo_ct 1) TNoneT).
  { intros H. inversion H as [t Ht| | |t c p h [Hc|[Hc _]]|t c a h [Hc|[Hc _]]|t c fd h [Hc|[Hc _]]|]; subst; try discriminate.
    now apply Hn in Ht as (Ht & _). }
  assert (Hu : ~ involves demo_env (affected demo_ct 1) (TUnion [TPrim PInt; TNoneT])).
  { intros H. inversion H as [t Ht| |l a Ha H'|t c p h [Hc|[Hc _]]|t c a h [Hc|[Hc _]]|t c fd h [Hc|[Hc _]]|]; subst; try discriminate.
    - destruct Ht as [[Ht|Ht]|(m & n & s & Q & _)]; [vm_compute in Ht; discriminate Ht|destruct Ht|discriminate Q].
    - destruct Ha as [<-|[<-|[]]]; auto. }
  assert (Hp : ~ involves demo_env (affected demo_ct 1) (TClass 4)).
  { intros H. inversion H as [t Ht| | |t c p h Hc Hin|t c a h Hc Hin|t c fd h Hc Hin Hh H'|]; subst.
    - destruct Ht as [[Ht|Ht]|(m & n & s & Q & _)]; [vm_compute in Ht; discriminate Ht| |discriminate Q].
      vm_compute in Ht. intuition discriminate.
    - destruct Hc as [Q|[Q _]]; [|discriminate]. injection Q as <-. destruct Hin.
    - destruct Hc as [Q|[Q _]]; [|discriminate]. injection Q as <-. discriminate Hin.
    - destruct Hc as [Q|[Q _]]; [|discriminate]. injection Q as <-. cbn in Hin.
      destruct Hin as [<-|[<-|[]]]; injection Hh as <-; contradiction. }
  intros H. inversion H as [t Ht|b h l a Ha H'| |t c p h [Hc|[Hc _]]|t c a h [Hc|[Hc _]]|t c fd h [Hc|[Hc _]]|]; subst; try discriminate.
  - now apply Hn in Ht as (_ & _ & Ht); apply (Ht true HList [TClass 4]).
  - destruct Ha as [<-|[]]. contradiction.
Qed.
Definition points : value := VList [VList [VInt 1; VInt 2]; str_dict [("x", VInt 3); ("y", VNone)]].
Definition with_person : env := after_set_deserializer demo_env 0 deser_table (DCustom 0) 1 true.
Example C78_ex_load : forall n, load with_person n 0 lopts0 (Some (TApp true HList [TClass 4])) points =
                                load demo_env n 0 lopts0 (Some (TApp true HList [TClass 4])) points.
Proof.
  intros n. apply C78_set_deserializer.
  - exact (default_deser_eq demo_ct).
  - intros p Hp Hn. cbn [e_ct demo_env std_env] in Hn.
    unfold deser_table in Hp. cbn [t_classes] in Hp.
    repeat (destruct Hp as [Q|Hp]; [injection Q as <-; vm_compute in Hn; discriminate Hn|]). destruct Hp.
  - exact person_particular.
  - exact demo_defaults.
  - now left.
  - intros g k k' Q. discriminate Q.
  - unfold points, str_dict. repeat first [apply nl_list; intros x [<-|Hx]; [|try destruct Hx as [<-|[]]; try destruct Hx]
      | apply nl_dict; intros a x Hx; destruct Hx as [Q|[Q|[]]]; injection Q as <- <-; repeat split; try discriminate
      | now apply nl_plain ].
  - intros t Q. injection Q as <-. exact point_uninvolved.
Qed.
Example C78_ex_load_result :
  snd (load demo_env 9 0 lopts0 (Some (TApp true HList [TClass 4])) points) =
    Done (VList [VNT 4 [VInt 1; VInt 2]; VNT 4 [VInt 3; VNone]]) /\
  snd (load with_person 9 0 lopts0 (Some (TClass 1)) john_doc) <>
  snd (load demo_env 9 0 lopts0 (Some (TClass 1)) john_doc).
Proof. split; vm_compute; [reflexivity|discriminate]. Qed.

(** A serializer for Person, and a list of enum members *)
Definition colors : value := VList [VEnum 3 "RED"; VEnum 3 "GREEN"].
Lemma colors_visits c x : visits demo_env 0 sopts0 None colors c x ->
  c = None /\ (x = colors \/ x = VEnum 3 "RED" \/ x = VEnum 3 "GREEN").
Proof.
  intros H. induction H as [|c x l y t _ [-> IH] Hi Hl Hy Ht|c x k y t _ [-> IH] Hs|c x a y t _ [-> IH] Hs|c x t _ [-> IH] Hs Hin|c off name _ [-> IH] Hs].
  - auto.
  - destruct IH as [-> |[-> | ->]].
    + injection Hl as <-. split; [|destruct Hy as [<-|[<-|[]]]; auto].
      destruct Ht as [|t []|y' Q|y' t Q]; [reflexivity|discriminate Q|discriminate Q].
    + exfalso. discriminate Hl.
    + exfalso. discriminate Hl.
  - exfalso. destruct IH as [-> |[-> | ->]]; vm_compute in Hs; discriminate Hs.
  - exfalso. destruct IH as [-> |[-> | ->]]; vm_compute in Hs; destruct Hs as [Hs|Hs]; discriminate Hs.
  - destruct Hin.
  - exfalso. destruct IH as [Q|[Q|Q]]; discriminate Q.
Qed.
Example C78_ex_dump : forall n, dump (after_set_serializer demo_env 0 ser_table (SCustom 0) 1 true) 0 n sopts0 None colors =
                                dump demo_env 0 n sopts0 None colors.
Proof.
  intros n. apply C78_set_serializer.
  - exact (default_ser_eq demo_ct).
  - intros p Hp Hn. cbn [e_ct demo_env std_env] in Hn.
    unfold ser_table in Hp. cbn [t_classes] in Hp.
    repeat (destruct Hp as [Q|Hp]; [injection Q as <-; vm_compute in Hn; discriminate Hn|]). destruct Hp.
  - intros d x Hv. apply colors_visits in Hv as [-> Hx]. cbn [tyof e_ct demo_env std_env].
    destruct Hx as [-> |[-> | ->]]; cbn [class_of colors]; intros [[H|H]|(m & k & s & Q & _)]; try discriminate Q;
      vm_compute in H; try discriminate H; intuition discriminate.
Qed.
Example C78_ex_dump_result :
  snd (dump demo_env 0 9 sopts0 None colors) = Done (VList [VStr "RED"; VStr "GREEN"]) /\
  snd (dump (after_set_serializer demo_env 0 ser_table (SCustom 0) 1 true) 0 9 sopts0 None john) <>
  snd (dump demo_env 0 9 sopts0 None john).
Proof. split; vm_compute; [reflexivity|discriminate]. Qed.

(** ** What the conditions are for *)
(** Texts are tried as datetimes: a deserializer for datetime changes loads without any datetime. *)
Definition any_env (d : nat -> ty -> option dhandler) : env :=
  mkEnv demo_ct demo_rt 0 (fun _ => default_ser demo_ct) d (fun _ _ => None)
        (fun _ _ => true) (fun _ n => if String.eqb n "m.Person" then Ok (TClass 1) else raise KUnknownClass)
        (fun _ _ _ => raise KType) (fun _ _ _ => Ok (VInt 7)).
Definition plain_env : env := any_env (fun _ => default_deser demo_ct).
Definition custom_env (u : ty) : env :=
  any_env (fun _ t => if ty_eqb t u then Some (DCustom 0) else default_deser demo_ct t).
Lemma custom_same u : same_but (eq u) plain_env (custom_env u).
Proof.
  split; try reflexivity. intros f t Ht. cbn [e_deser custom_env plain_env any_env].
  destruct (ty_eqb t u) eqn:Q; [|reflexivity]. apply ty_eqb_eq in Q. congruence.
Qed.
Theorem C78_datetime_refuted : ~ forall E E' X, same_but X E E' -> nameless_defaults (e_ct E) ->
  forall n f o cls j, no_hints o -> nameless_transformer o -> nameless j ->
  (forall t, cls = Some t -> ~ involves E X t) ->
  load E n f o cls j = load E' n f o cls j.
Proof.
  intros H.
  assert (K : load plain_env 9 0 lopts0 None (VList [VStr "hello"]) =
              load (custom_env (TLeaf LkDatetime)) 9 0 lopts0 None (VList [VStr "hello"])).
  { apply (H _ _ _ (custom_same (TLeaf LkDatetime))).
    - exact demo_defaults.
    - now left.
    - intros g k k' Q. discriminate Q.
    - apply nl_list. intros x [<-|[]]. apply clean_str.
    - intros t Q. discriminate Q. }
  apply (f_equal snd) in K. vm_compute in K. discriminate K.
Qed.
(** A document can name a class: then the deserializer of that class is used, whatever the target. *)
Definition named_doc : value :=
  VDict DkDict [(VStr "name", VStr "John");
                (VStr "-meta", str_dict [("classes", str_dict [("/", VStr "m.Person")])])].
Theorem C78_named_class_refuted : ~ forall E E' X, particular X -> same_but X E E' -> nameless_defaults (e_ct E) ->
  forall n f o cls j, no_hints o -> nameless_transformer o ->
  (forall t, cls = Some t -> ~ involves E X t) ->
  load E n f o cls j = load E' n f o cls j.
Proof.
  intros H.
  assert (K : load plain_env 9 0 lopts0 None named_doc = load (custom_env (TClass 1)) 9 0 lopts0 None named_doc).
  { apply (H _ _ (eq (TClass 1))).
    - intros t <-. exact I.
    - exact (custom_same (TClass 1)).
    - exact demo_defaults.
    - now left.
    - intros g k k' Q. discriminate Q.
    - intros t Q. discriminate Q. }
  apply (f_equal snd) in K. vm_compute in K. discriminate K.
Qed.

Print Assumptions C78_load.
Print Assumptions C78_dump.
Print Assumptions C78_set_deserializer.
Print Assumptions C78_set_validator.
Print Assumptions C78_set_serializer.
Print Assumptions C78_datetime_refuted.
Print Assumptions C78_named_class_refuted.
