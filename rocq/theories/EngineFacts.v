(** * Facts about the engine's universe and monad *)
From Verif Require Import PyBaseFacts.
From Verif Require Export EngineSer EngineDeser.
Local Open Scope string_scope.

(** ** Induction on values and types *)
Section ValueInd.
Variable P : value -> Prop.
Hypothesis HNone : P VNone.
Hypothesis HBool : forall b, P (VBool b).
Hypothesis HInt : forall z, P (VInt z).
Hypothesis HFloat : forall x, P (VFloat x).
Hypothesis HStr : forall s, P (VStr s).
Hypothesis HList : forall l, Forall P l -> P (VList l).
Hypothesis HTuple : forall l, Forall P l -> P (VTuple l).
Hypothesis HColl : forall k l, Forall P l -> P (VColl k l).
Hypothesis HDict : forall k d, Forall (fun kv => P (fst kv) /\ P (snd kv)) d -> P (VDict k d).
Hypothesis HLeaf : forall x, P (VLeaf x).
Hypothesis HEnum : forall c n, P (VEnum c n).
Hypothesis HNT : forall c l, Forall P l -> P (VNT c l).
Hypothesis HObj : forall c a, Forall (fun kv => P (snd kv)) a -> P (VObj c a).
Fixpoint value_ind' (v : value) : P v :=
  let all := fix all (l : list value) : Forall P l :=
               match l with [] => Forall_nil _ | x :: r => Forall_cons _ (value_ind' x) (all r) end in
  match v with
  | VNone => HNone
  | VBool b => HBool b
  | VInt z => HInt z
  | VFloat x => HFloat x
  | VStr s => HStr s
  | VList l => HList l (all l)
  | VTuple l => HTuple l (all l)
  | VColl k l => HColl k l (all l)
  | VDict k d =>
      HDict k d ((fix go (d : list (value * value)) : Forall (fun kv => P (fst kv) /\ P (snd kv)) d :=
                    match d with
                    | [] => Forall_nil _
                    | (a, b) :: r => Forall_cons (a, b) (conj (value_ind' a) (value_ind' b)) (go r)
                    end) d)
  | VLeaf x => HLeaf x
  | VEnum c n => HEnum c n
  | VNT c l => HNT c l (all l)
  | VObj c a =>
      HObj c a ((fix go (d : list (string * value)) : Forall (fun kv => P (snd kv)) d :=
                   match d with
                   | [] => Forall_nil _
                   | (a, b) :: r => Forall_cons (a, b) (value_ind' b) (go r)
                   end) a)
  end.
End ValueInd.

Section TyInd.
Variable P : ty -> Prop.
Hypothesis HApp : forall b h l, Forall P l -> P (TApp b h l).
Hypothesis HUnion : forall l, Forall P l -> P (TUnion l).
Hypothesis HNewType : forall m n s, P s -> P (TNewType m n s).
Hypothesis HOther : forall t, match t with TApp _ _ _ | TUnion _ | TNewType _ _ _ => False | _ => True end -> P t.
Fixpoint ty_ind' (t : ty) : P t :=
  let all := fix all (l : list ty) : Forall P l :=
               match l with [] => Forall_nil _ | x :: r => Forall_cons _ (ty_ind' x) (all r) end in
  match t as t return P t with
  | TApp b h l => HApp b h l (all l)
  | TUnion l => HUnion l (all l)
  | TNewType m n s => HNewType m n s (ty_ind' s)
  | t => HOther t I
  end.
End TyInd.

(** ** Equality tests *)
Lemma prim_eqb_eq a b : prim_eqb a b = true <-> a = b.
Proof. destruct a, b; cbn; split; congruence. Qed.
Lemma leafk_eqb_eq a b : leafk_eqb a b = true <-> a = b.
Proof. destruct a, b; cbn; split; congruence. Qed.
Lemma head_eqb_eq a b : head_eqb a b = true <-> a = b.
Proof. destruct a, b; cbn; split; congruence. Qed.
Lemma list_eqb_eq {X} (eqb : X -> X -> bool) l :
  Forall (fun x => forall y, eqb x y = true <-> x = y) l ->
  forall m, list_eqb eqb l m = true <-> l = m.
Proof.
  induction 1 as [|x l Hx _ IH]; intros [|y m]; cbn; try (split; congruence).
  rewrite andb_true_iff, Hx, IH. split; [intros [-> ->]; reflexivity|].
  intros H; inversion H; auto.
Qed.
Lemma ty_eqb_eq : forall a b, ty_eqb a b = true <-> a = b.
Proof.
  induction a using ty_ind'; intros b'.
  - destruct b'; cbn [ty_eqb]; try (split; congruence).
    rewrite !andb_true_iff, Bool.eqb_true_iff, head_eqb_eq, (list_eqb_eq ty_eqb l) by assumption.
    split; [intros [[-> ->] ->]; reflexivity|]. intros E; inversion E; auto.
  - destruct b'; cbn [ty_eqb]; try (split; congruence).
    rewrite (list_eqb_eq ty_eqb l) by assumption. split; congruence.
  - destruct b'; cbn [ty_eqb]; try (split; congruence).
    rewrite !andb_true_iff, !String.eqb_eq, IHa. split; [intros [[-> ->] ->]; reflexivity|].
    intros E; inversion E; auto.
  - destruct a; try contradiction; destruct b'; cbn [ty_eqb]; try (split; congruence).
    + rewrite prim_eqb_eq. split; congruence.
    + rewrite leafk_eqb_eq. split; congruence.
    + rewrite Nat.eqb_eq. split; congruence.
    + rewrite String.eqb_eq. split; congruence.
Qed.
Lemma ty_eqb_refl a : ty_eqb a a = true.
Proof. now apply ty_eqb_eq. Qed.
Lemma ty_eqb_neq a b : ty_eqb a b = false <-> a <> b.
Proof.
  split.
  - intros H E. apply ty_eqb_eq in E. congruence.
  - intros H. destruct (ty_eqb a b) eqn:E; [|reflexivity]. apply ty_eqb_eq in E. contradiction.
Qed.
Lemma ty_eq_dec (a b : ty) : {a = b} + {a <> b}.
Proof.
  destruct (ty_eqb a b) eqn:E; [left; now apply ty_eqb_eq|right; now apply ty_eqb_neq].
Qed.
Lemma existsb_ty_In t l : existsb (ty_eqb t) l = true <-> In t l.
Proof.
  rewrite existsb_exists. split.
  - intros (x & Hx & E). apply ty_eqb_eq in E. now subst.
  - intros H. exists t. split; [assumption|apply ty_eqb_refl].
Qed.

Lemma py_eqb_str s v : py_eqb (VStr s) v = true <-> v = VStr s.
Proof.
  destruct v; cbn; try (split; congruence).
  rewrite String.eqb_eq. split; congruence.
Qed.
Lemma num_eqb_refl x : num_eqb x x = true.
Proof. unfold num_eqb. apply Z.eqb_refl. Qed.
Lemma list_eqb_refl {X} (eqb : X -> X -> bool) l :
  Forall (fun x => eqb x x = true) l -> list_eqb eqb l l = true.
Proof. induction 1 as [|x l Hx _ IH]; cbn; [reflexivity|]. now rewrite Hx, IH. Qed.
Lemma coll_eqb_refl k : coll_eqb k k = true.
Proof. now destruct k. Qed.
Lemma py_eqb_refl : forall v, py_eqb v v = true.
Proof.
  induction v using value_ind'; cbn [py_eqb]; try reflexivity.
  - cbn. apply num_eqb_refl.
  - cbn. apply num_eqb_refl.
  - destruct x; cbn; try reflexivity; try apply num_eqb_refl. apply Bool.eqb_reflx.
  - apply String.eqb_refl.
  - now apply list_eqb_refl.
  - now apply list_eqb_refl.
  - rewrite coll_eqb_refl. now apply list_eqb_refl.
  - apply list_eqb_refl. eapply Forall_impl; [|eassumption]. intros a [H1 H2]. now rewrite H1, H2.
  - now destruct (leaf_eq_dec x x).
  - now rewrite Nat.eqb_refl, String.eqb_refl.
  - rewrite Nat.eqb_refl. now apply list_eqb_refl.
  - rewrite Nat.eqb_refl. apply list_eqb_refl. eapply Forall_impl; [|eassumption].
    intros b H1. cbn in *. now rewrite String.eqb_refl, H1.
Qed.

(** ** Outcomes of the monad's operations *)
Lemma bind_done {A B} (m : M A) (k : A -> M B) b :
  snd (mbind m k) = Done b <-> exists a, snd m = Done a /\ snd (k a) = Done b.
Proof.
  unfold mbind. destruct (snd m) as [a|e|]; cbn.
  - split; [eauto|]. intros (a' & E & H). inversion E; subst; assumption.
  - split; [discriminate|]. intros (a' & E & H). discriminate.
  - split; [discriminate|]. intros (a' & E & H). discriminate.
Qed.
Lemma bind_fail {A B} (m : M A) (k : A -> M B) e :
  snd (mbind m k) = Fail e <->
  snd m = Fail e \/ exists a, snd m = Done a /\ snd (k a) = Fail e.
Proof.
  unfold mbind. destruct (snd m) as [a|e'|]; cbn.
  - split; [eauto|]. intros [E|(a' & E & H)]; [discriminate|]. inversion E; subst; assumption.
  - split; [left; congruence|]. intros [E|(a' & E & H)]; congruence.
  - split; [discriminate|]. intros [E|(a' & E & H)]; discriminate.
Qed.
Lemma try_done {A} (m : M A) h a :
  snd (mtry m h) = Done a <->
  snd m = Done a \/ exists e, snd m = Fail e /\ snd (h e) = Done a.
Proof.
  unfold mtry. destruct (snd m) as [x|e|] eqn:E; cbn; rewrite ?E.
  - split; [auto|]. intros [H|(e & H & _)]; congruence.
  - split; [right; eauto|]. intros [H|(e' & H & H')]; [discriminate|]. inversion H; subst; assumption.
  - split; [discriminate|]. intros [H|(e & H & _)]; congruence.
Qed.
Lemma try_fail {A} (m : M A) h e :
  snd (mtry m h) = Fail e <-> exists e', snd m = Fail e' /\ snd (h e') = Fail e.
Proof.
  unfold mtry. destruct (snd m) as [x|e1|] eqn:E; cbn; rewrite ?E.
  - split; [discriminate|]. intros (e' & H & _). discriminate.
  - split; [eauto|]. intros (e' & H & H'). inversion H; subst; assumption.
  - split; [discriminate|]. intros (e' & H & _). discriminate.
Qed.
Lemma lift_done {A} (r : res A) a : snd (lift r) = Done a <-> r = Ok a.
Proof. destruct r; cbn; split; congruence. Qed.
Lemma lift_fail {A} (r : res A) e : snd (lift r) = Fail e <-> r = Err e.
Proof. destruct r; cbn; split; congruence. Qed.
Lemma ret_done {A} (a b : A) : snd (ret a) = Done b <-> a = b.
Proof. cbn; split; congruence. Qed.
Lemma rbind_ok {A B} (m : res A) (k : A -> res B) b :
  rbind m k = Ok b <-> exists a, m = Ok a /\ k a = Ok b.
Proof.
  destruct m; cbn; split; try discriminate.
  - eauto.
  - intros (a' & E & H). inversion E; subst; assumption.
  - intros (a' & E & H). discriminate.
Qed.
Lemma rbind_err {A B} (m : res A) (k : A -> res B) e :
  rbind m k = Err e <-> m = Err e \/ exists a, m = Ok a /\ k a = Err e.
Proof.
  destruct m; cbn; split.
  - intros H. right. exists a. auto.
  - intros [H|(a' & E & H)]; [discriminate|]. inversion E; subst; assumption.
  - intros H. left. congruence.
  - intros [H|(a' & E & H)]; [congruence|discriminate].
Qed.
Lemma warn_done E f c a : snd (warn E f c) = Done a.
Proof. destruct a. unfold warn. now destruct (e_warn E f c). Qed.
Lemma bind_assoc {A B C} (m : M A) (f : A -> M B) (g : B -> M C) :
  mbind (mbind m f) g = mbind m (fun a => mbind (f a) g).
Proof.
  unfold mbind. destruct (snd m) as [a|e|]; cbn; try reflexivity.
  destruct (snd (f a)) as [b|e|]; cbn; try reflexivity. now rewrite app_assoc.
Qed.
Lemma bind_ret_l {A B} (a : A) (f : A -> M B) : mbind (ret a) f = f a.
Proof. unfold mbind, ret. cbn. now destruct (f a). Qed.
Lemma bind_lift_ok {A B} (a : A) (f : A -> M B) : mbind (lift (Ok a)) f = f a.
Proof. apply bind_ret_l. Qed.

Lemma mmap_done {A B} (g : A -> M B) l r :
  snd (mmap g l) = Done r <-> Forall2 (fun x y => snd (g x) = Done y) l r.
Proof.
  revert r; induction l as [|x l IH]; intros r; cbn [mmap].
  - rewrite ret_done. split; [intros <-; constructor|]. intros H; inversion H; reflexivity.
  - rewrite bind_done. split.
    + intros (y & Hy & H). apply bind_done in H as (ys & Hys & E). cbn in E. injection E as <-.
      constructor; [assumption|]. now apply IH.
    + intros H. inversion H as [|? y ? ys Hy Hys]; subst. exists y. split; [assumption|].
      apply bind_done. exists ys. split; [now apply IH|]. reflexivity.
Qed.

(** ** The depth bound does not matter: outcomes are stable once they exist *)
Definition mle {A} (m m' : M A) : Prop := snd m = Oof \/ m = m'.
Lemma mle_refl {A} (m : M A) : mle m m.
Proof. now right. Qed.
Lemma mle_oof {A} (m : M A) : mle oof m.
Proof. now left. Qed.
Lemma mle_trans {A} (a b c : M A) : mle a b -> mle b c -> mle a c.
Proof. intros [H| ->] H'; [now left|assumption]. Qed.
Lemma mle_bind {A B} (m m' : M A) (k k' : A -> M B) :
  mle m m' -> (forall a, mle (k a) (k' a)) -> mle (mbind m k) (mbind m' k').
Proof.
  intros [H| <-] Hk.
  - left. unfold mbind. now rewrite H.
  - unfold mbind. destruct (snd m) as [a|e|]; try apply mle_refl.
    destruct (Hk a) as [H| <-]; [left; cbn; assumption|apply mle_refl].
Qed.
Lemma mle_try {A} (m m' : M A) h h' :
  mle m m' -> (forall e, mle (h e) (h' e)) -> mle (mtry m h) (mtry m' h').
Proof.
  intros [H| <-] Hh.
  - left. unfold mtry. now rewrite H.
  - unfold mtry. destruct (snd m) as [a|e|] eqn:E; try apply mle_refl.
    destruct (Hh e) as [H| <-]; [left; cbn; assumption|apply mle_refl].
Qed.
Lemma mle_catch {A} (m m' : M A) : mle m m' -> mle (mcatch m) (mcatch m').
Proof. intros [H| <-]; [left; unfold mcatch; now rewrite H|apply mle_refl]. Qed.
Lemma mle_map {A B} (g g' : A -> M B) l : (forall x, mle (g x) (g' x)) -> mle (mmap g l) (mmap g' l).
Proof.
  intros H. induction l as [|x l IH]; cbn [mmap]; [apply mle_refl|].
  apply mle_bind; [apply H|]. intros y. apply mle_bind; [apply IH|]. intros ys. apply mle_refl.
Qed.
Lemma mle_wrap {A} (m m' : M A) : mle m m' -> mle (wrap_ser m) (wrap_ser m').
Proof. intros H. apply mle_try; [assumption|]. intros e; apply mle_refl. Qed.
Lemma mle_wrap_deser {A} (m m' : M A) : mle m m' -> mle (wrap_deser m) (wrap_deser m').
Proof. intros H. apply mle_try; [assumption|]. intros e; apply mle_refl. Qed.

Ltac mono :=
  repeat first
    [ apply mle_refl | assumption | solve [auto]
    | apply mle_wrap | apply mle_wrap_deser
    | apply mle_bind; [|intros ?] | apply mle_try; [|intros ?] | apply mle_catch
    | apply mle_map; intros ?
    | match goal with
      | |- mle (match ?x with _ => _ end) _ => destruct x
      | |- mle (if ?x then _ else _) _ => destruct x
      end ].

Section SerMono.
Variables (E : env) (f : nat).
Variables ser ser' : sopts -> option shandler -> option ty -> value -> M value.
Hypothesis H : forall o h c v, mle (ser o h c v) (ser' o h c v).
Lemma dump_mono o c v : mle (dump_ E f ser o c v) (dump_ E f ser' o c v).
Proof. unfold dump_. mono. Qed.
Lemma ser_list_mono o c v : mle (ser_list E f ser o c v) (ser_list E f ser' o c v).
Proof. unfold ser_list. pose proof dump_mono. cbv zeta. mono. Qed.
Lemma ser_iterable_mono o c v : mle (ser_iterable E f ser o c v) (ser_iterable E f ser' o c v).
Proof. unfold ser_iterable. pose proof dump_mono. cbv zeta. mono. Qed.
Lemma ser_namedtuple_mono o c v : mle (ser_namedtuple E f ser o c v) (ser_namedtuple E f ser' o c v).
Proof. unfold ser_namedtuple. pose proof dump_mono. mono. Qed.
Lemma ser_tuple_mono o c v : mle (ser_tuple E f ser o c v) (ser_tuple E f ser' o c v).
Proof.
  unfold ser_tuple. pose proof ser_iterable_mono. pose proof ser_namedtuple_mono. mono.
Qed.
Lemma store_and_hash_mono o r k : mle (store_and_hash E f ser o r k) (store_and_hash E f ser' o r k).
Proof. unfold store_and_hash. pose proof dump_mono. cbv zeta. mono. Qed.
Lemma ser_dict_go_mono o v keys : forall r,
  mle (ser_dict_go E f ser o v keys r) (ser_dict_go E f ser' o v keys r).
Proof.
  pose proof dump_mono. pose proof store_and_hash_mono.
  induction keys as [|k keys IH]; intros r; cbn [ser_dict_go]; mono.
Qed.
Lemma ser_union_go_mono o v ts : mle (ser_union_go E f ser o v ts) (ser_union_go E f ser' o v ts).
Proof. pose proof dump_mono. induction ts as [|t ts IH]; cbn [ser_union_go]; mono. Qed.
Lemma do_serialize_mono o p v attrs : forall r,
  mle (do_serialize E f ser o p v attrs r) (do_serialize E f ser' o p v attrs r).
Proof. induction attrs as [|[a t] attrs IH]; intros r; cbn [do_serialize]; cbv zeta; mono. Qed.
Lemma ser_step_mono o h c v : mle (ser_step E f ser o h c v) (ser_step E f ser' o h c v).
Proof.
  unfold ser_step, ser_dict, ser_union, ser_object.
  pose proof dump_mono. pose proof ser_list_mono. pose proof ser_iterable_mono.
  pose proof ser_tuple_mono. pose proof ser_dict_go_mono. pose proof ser_union_go_mono.
  pose proof do_serialize_mono. cbv zeta. mono.
Qed.
End SerMono.

Lemma serialize_mono E f : forall n m, n <= m -> forall o h c v,
  mle (serialize E f n o h c v) (serialize E f m o h c v).
Proof.
  induction n as [|n IH]; intros m Hm o h c v; [apply mle_oof|].
  destruct m as [|m]; [lia|]. cbn [serialize]. apply ser_step_mono. intros. apply IH. lia.
Qed.
Lemma dump_fuel_mono E f n m o c v : n <= m -> mle (dump E f n o c v) (dump E f m o c v).
Proof. intros H. unfold dump. apply dump_mono. intros. now apply serialize_mono. Qed.
Lemma dump_stable E f n m o c v : n <= m -> snd (dump E f n o c v) <> Oof ->
  dump E f m o c v = dump E f n o c v.
Proof. intros H H'. destruct (dump_fuel_mono E f n m o c v H) as [E'|E']; [contradiction|auto]. Qed.

Section DeserMono.
Variables (E : env).
Variables ld ld' : nat -> lopts -> option ty -> value -> M value.
Hypothesis H : forall f o c v, mle (ld f o c v) (ld' f o c v).
Variable f : nat.
Lemma deser_list_go_mono o w t l : forall i,
  mle (deser_list_go E ld f o w t i l) (deser_list_go E ld' f o w t i l).
Proof.
  induction l as [|x l IH]; intros i; cbn [deser_list_go]; [apply mle_refl|].
  destruct (H f o t x) as [Ho| <-].
  - left. now rewrite Ho.
  - destruct (snd (ld f o t x)) as [y|e|]; mono.
Qed.
Lemma deser_list_mono o a j : mle (deser_list E ld f o a j) (deser_list E ld' f o a j).
Proof. unfold deser_list. pose proof deser_list_go_mono. cbv zeta. mono. Qed.
Lemma deser_iterable_mono o t j : mle (deser_iterable E ld f o t j) (deser_iterable E ld' f o t j).
Proof. unfold deser_iterable. pose proof deser_list_mono. mono. Qed.
Lemma deser_nt_go_mono o j d len fields : forall i,
  mle (deser_nt_go E ld f o j d len i fields) (deser_nt_go E ld' f o j d len i fields).
Proof. induction fields as [|x l IH]; intros i; cbn [deser_nt_go]; mono. Qed.
Lemma deser_namedtuple_mono o c j : mle (deser_namedtuple E ld f o c j) (deser_namedtuple E ld' f o c j).
Proof. unfold deser_namedtuple. pose proof deser_nt_go_mono. cbv zeta. mono. Qed.
Lemma deser_tuple_go_mono o l : forall ts,
  mle (deser_tuple_go ld f o l ts) (deser_tuple_go ld' f o l ts).
Proof. induction l as [|x l IH]; intros ts; cbn [deser_tuple_go]; mono. Qed.
Lemma deser_tuple_mono o t j : mle (deser_tuple E ld f o t j) (deser_tuple E ld' f o t j).
Proof.
  unfold deser_tuple. pose proof deser_tuple_go_mono. pose proof deser_namedtuple_mono. cbv zeta.
  assert (Hp : forall o t, mle
    (dom l <- lift (py_iter (e_rt E) j);
     match get_args (Some t) with
     | [] => dom vs <- mmap (ld f (set_kt None o) None) l; ret (VTuple vs)
     | (t0 :: _) as ts =>
        dom vs <- deser_tuple_go ld f (set_kt None o) l
           (if ty_eqb TEllipsis (last ts TAny) then repeat t0 (length l) else ts); ret (VTuple vs)
     end)
    (dom l <- lift (py_iter (e_rt E) j);
     match get_args (Some t) with
     | [] => dom vs <- mmap (ld' f (set_kt None o) None) l; ret (VTuple vs)
     | (t0 :: _) as ts =>
        dom vs <- deser_tuple_go ld' f (set_kt None o) l
           (if ty_eqb TEllipsis (last ts TAny) then repeat t0 (length l) else ts); ret (VTuple vs)
     end)).
  { intros o' t'. mono. }
  destruct t; try apply Hp. destruct (ci_kind (e_ct E c)); solve [auto | apply Hp].
Qed.
Lemma deser_union_go_mono o j ts : mle (deser_union_go ld f o j ts) (deser_union_go ld' f o j ts).
Proof. induction ts as [|t ts IH]; cbn [deser_union_go]; mono. Qed.
Lemma hashed_go_mono o kt st : forall r, mle (hashed_go E ld f o kt st r) (hashed_go E ld' f o kt st r).
Proof. induction st as [|[h k] st IH]; intros r; cbn [hashed_go]; mono. Qed.
Lemma deser_dict_go_mono ok ov g kc vc d : forall acc,
  mle (deser_dict_go E ld f ok ov g kc vc d acc) (deser_dict_go E ld' f ok ov g kc vc d acc).
Proof. induction d as [|[k x] d IH]; intros acc; cbn [deser_dict_go]; mono. Qed.
Lemma deser_dict_mono o a j : mle (deser_dict E ld f o a j) (deser_dict E ld' f o a j).
Proof.
  unfold deser_dict, load_hashed_keys. pose proof deser_dict_go_mono. pose proof hashed_go_mono.
  cbv zeta. mono.
Qed.
Lemma deser_string_mono o t j : mle (deser_string E ld f o t j) (deser_string E ld' f o t j).
Proof. unfold deser_string. mono. Qed.
Lemma value_for_attr_mono o h d g p : mle (value_for_attr E ld f o h d g p) (value_for_attr E ld' f o h d g p).
Proof. unfold value_for_attr, value_from_obj. cbv zeta. mono. Qed.
Lemma constructor_args_mono o h d g ps :
  mle (constructor_args E ld f o h d g ps) (constructor_args E ld' f o h d g ps).
Proof. pose proof value_for_attr_mono. induction ps as [|p ps IH]; cbn [constructor_args]; mono. Qed.
Lemma set_remaining_mono o ci rest : forall at_,
  mle (set_remaining E ld f o ci rest at_) (set_remaining E ld' f o ci rest at_).
Proof. induction rest as [|[k x] rest IH]; intros at_; cbn [set_remaining]; cbv zeta; mono. Qed.
Lemma deser_object_mono o t j : mle (deser_object E ld f o t j) (deser_object E ld' f o t j).
Proof.
  unfold deser_object. pose proof constructor_args_mono. pose proof set_remaining_mono.
  cbv zeta. mono.
Qed.
Lemma deser_step_mono o h t j : mle (deser_step E ld f o h t j) (deser_step E ld' f o h t j).
Proof.
  unfold deser_step, deser_mapping, deser_defaultdict, deser_timezone, deser_complex, deser_union.
  pose proof deser_list_mono. pose proof deser_tuple_mono. pose proof deser_union_go_mono.
  pose proof deser_iterable_mono. pose proof deser_dict_mono. pose proof deser_string_mono.
  pose proof deser_object_mono. destruct h; mono.
Qed.
Lemma load_step_mono o c j : mle (load_step E ld f o c j) (load_step E ld' f o c j).
Proof. unfold load_step. pose proof deser_step_mono. cbv zeta. mono. Qed.
End DeserMono.

Lemma load_fuel_mono E : forall n m, n <= m -> forall f o c j,
  mle (load E n f o c j) (load E m f o c j).
Proof.
  induction n as [|n IH]; intros m Hm f o c j; [apply mle_oof|].
  destruct m as [|m]; [lia|]. cbn [load]. apply load_step_mono. intros. apply IH. lia.
Qed.
Lemma load_stable E n m f o c j : n <= m -> snd (load E n f o c j) <> Oof ->
  load E m f o c j = load E n f o c j.
Proof. intros H H'. destruct (load_fuel_mono E n m H f o c j) as [E'|E']; [contradiction|auto]. Qed.
