(** * C76: dump with a type that the value does not have

    Attributes are dumped with the types of their annotations, and a value can have another type
    than its annotation says: most often it is None.  Specification: MisfitSpec.v; the model is that of
    the engine (EngineSer.v). *)
From Coq Require Import Lia Sorted.
From Verif Require Import EngineEnv EngineFacts DumpLaws PropDump.
From Verif Require Export MisfitSpec MisfitProofs.
Local Open Scope string_scope.

(** ** None
    What dump makes of None, for every type: null, or [], {} or 'None', or a SerializationError. *)
Theorem C76_none : forall E f n o t strip,
  default_serializers E f -> bare_none (e_rt E) -> plain_dump o -> strips (so_attr o) strip -> hint (e_ct E) t ->
  (forall j, null_as (e_ct E) t = Some j -> snd (dump E f (S (S n)) o (Some t) VNone) = Done j) /\
  (null_as (e_ct E) t = None -> snd (dump E f (S (S n)) o (Some t) VNone) = Fail (exn_of KSer)).
Proof.
  intros E f n o t strip DS HB Ho Hst Ht. rewrite (dump_none _ _ _ _ _ _ DS HB Ho Hst Ht).
  split; [intros j ->|intros ->]; reflexivity.
Qed.
(** None is written as null, and loads as None again, if its type allows None. *)
Theorem C76_optional : forall E f n o ts strip,
  default_serializers E f -> bare_none (e_rt E) -> plain_dump o -> strips (so_attr o) strip ->
  Forall (plain_hint (e_ct E)) ts -> In TNoneT ts ->
  snd (dump E f (S (S n)) o (Some (TUnion ts)) VNone) = Done VNone.
Proof.
  intros E f n o ts strip DS HB Ho Hst Ht Hn. apply (C76_none E f n o (TUnion ts) strip DS HB Ho Hst); [now apply hi_union|].
  cbn [null_as]. assert (existsb (ty_eqb TNoneT) ts = true) as ->; [|reflexivity]. apply existsb_exists. exists TNoneT. split; [exact Hn|reflexivity].
Qed.
(** "None is written as null or not at all" does not hold. *)
Theorem C76_none_is_null_refuted : forall E f n o strip b args,
  default_serializers E f -> bare_none (e_rt E) -> plain_dump o -> strips (so_attr o) strip ->
  snd (dump E f (S (S n)) o (Some (TApp b HList args)) VNone) = Done (VList []) /\
  snd (dump E f (S (S n)) o (Some TObject) VNone) = Done (VDict DkDict []) /\
  (forall c, ordinary (e_ct E c) -> ci_kind (e_ct E c) = CkObj ->
     snd (dump E f (S (S n)) o (Some (TClass c)) VNone) = Done (VDict DkDict [])) /\
  snd (dump E f (S (S n)) o (Some (TLeaf LkUUID)) VNone) = Done (VStr "None") /\
  snd (dump E f (S (S n)) o (Some (TLeaf LkDecimal)) VNone) = Done (VStr "None").
Proof.
  intros E f n o strip b args DS HB Ho Hst.
  assert (H : forall t j, hint (e_ct E) t -> null_as (e_ct E) t = Some j -> snd (dump E f (S (S n)) o (Some t) VNone) = Done j).
  { intros t j Ht Hj. now apply (proj1 (C76_none E f n o t strip DS HB Ho Hst Ht)). }
  split; [apply H; [apply hi_plain, ph_app|reflexivity]|]. split; [apply H; [apply hi_plain, ph_object|reflexivity]|].
  split; [intros c Hc Hk; apply H; [now apply hi_plain, ph_class|cbn [null_as null_plain]; now rewrite Hk]|].
  split; (apply H; [apply hi_plain, ph_leaf|reflexivity]).
Qed.
(** An attribute that is None although its annotation has no place for None: the attributes that
    come after it, in the order of their names, are missing in the document. *)
Theorem C76_attributes_lost_refuted :
  forall (E : env) (f n : nat) (o : sopts) (c : nat) (attrs : list (string * value)) (strip : list string),
  default_serializers E f -> bare_none (e_rt E) ->
  serializer E f None (VObj c attrs) = Some SObject -> plain_dump o -> plain_opts o -> strips (so_attr o) strip ->
  ci_attrs (e_ct E c) = false -> readable (ci_members (e_ct E c)) ->
  forall names a t names' ds,
  StronglySorted slt (names ++ a :: names') ->
  (forall b, In b (names ++ a :: names') <->
     (In b (map fst attrs) \/ In b (map fst (ci_members (e_ct E c)))) /\
     visible (ci_members (e_ct E c)) o strip b) ->
  Forall2 (attr_dumps E f (S (S n)) (set_attr_opt (SATuple strip) o) (VObj c attrs))
          (map (fun b => (b, attr_hint (e_ct E c) b)) names) ds ->
  get_attr E (VObj c attrs) a = Ok VNone ->
  attr_hint (e_ct E c) a = Some t -> hint (e_ct E) t -> null_as (e_ct E) t = None ->
  (exists e, snd (dump E f (S (S (S n))) o None (VObj c attrs)) = Fail e) \/
  snd (dump E f (S (S (S n))) o None (VObj c attrs)) = Done (VDict DkDict (combine (map VStr names) ds)).
Proof.
  intros E f n o c attrs strip DS HB Hse Ho Hp Hst Ha Hr names a t names' ds Hs Hv Hd Hg Hh Ht Hn.
  destruct (C25_failing_attribute_truncates E f (S (S n)) o None c attrs strip Hse (or_introl eq_refl) Hp Hst Ha Hr names a names' ds Hs Hv Hd)
    as [H|[_ H]]; [|left; exact H|right; exact H].
  exists VNone, (exn_of KSer). cbn [fst snd]. rewrite Hh. split; [exact Hg|].
  apply (C76_none E f n (set_attr_opt (SATuple strip) o) t strip DS HB); auto. reflexivity.
Qed.

(** ** Basic types
    A value is cast to the type it is dumped with, as in load (C67). *)
Theorem C76_cast_value : forall E f n o p j v, default_serializers E f -> json_input j ->
  snd (dump E f (S n) o (Some (TPrim p)) j) = Done v -> casts (e_rt E) p j v.
Proof. exact dump_casts. Qed.
Theorem C76_cast_dumps : forall E f n o p j, default_serializers E f -> json_input j ->
  (exists v, casts (e_rt E) p j v) -> exists v, snd (dump E f (S n) o (Some (TPrim p)) j) = Done v.
Proof. exact dump_castable. Qed.
Theorem C76_cast_fails : forall E f n o p j, default_serializers E f -> json_input j ->
  (forall v, ~ casts (e_rt E) p j v) -> snd (dump E f (S n) o (Some (TPrim p)) j) = Fail (exn_of KSer).
Proof. exact dump_uncastable. Qed.
(** "What dump writes stands for the value" does not hold: a float under int loses its fraction,
    and every text but the empty one is true, with strict as without. *)
Theorem C76_cast_loses_refuted : forall E f n o, default_serializers E f ->
  (forall x z, truncates x z -> snd (dump E f (S n) o (Some (TPrim PInt)) (VFloat x)) = Done (VInt z)) /\
  (forall s, s <> "" -> snd (dump E f (S n) o (Some (TPrim PBool)) (VStr s)) = Done (VBool true)).
Proof.
  intros E f n o DS. split.
  - intros x z Hx. destruct (dump_castable E f n o PInt (VFloat x) DS (ji_float x)) as [v Hv]; [exists (VInt z); now apply ca_int_float|].
    pose proof (dump_casts E f n o PInt (VFloat x) v DS (ji_float x) Hv) as Hc. inversion Hc as [| |x' z' Hz'| | | | | | | | | |]; subst.
    rewrite Hv. do 2 f_equal. clear - Hx Hz'. destruct x as [m e| | |]; cbn in *; try contradiction; [|lia].
    destruct Hx as [Hx1 Hx2], Hz' as [Hy1 Hy2]. set (N := (m * 2 ^ Z.max 0 e)%Z) in *. set (D := (2 ^ Z.max 0 (- e))%Z) in *.
    assert (HD : (0 < D)%Z) by (apply Z.pow_pos_nonneg; lia). clearbody N D. assert (Z.abs z = Z.abs z') by nia. nia.
  - intros s Hs. destruct (dump_castable E f n o PBool (VStr s) DS (ji_str s)) as [v Hv].
    + exists (VBool true). apply ca_bool. split; [discriminate|]. intros Hf. inversion Hf. congruence.
    + pose proof (dump_casts E f n o PBool (VStr s) v DS (ji_str s) Hv) as Hc. inversion Hc as [| | | | | | | |j b Hb| | | |]; subst.
      rewrite Hv. destruct b; [reflexivity|]. exfalso. destruct Hb as [Hb _]. specialize (Hb eq_refl). inversion Hb. congruence.
Qed.

(** ** Any and tuple
    "With the annotation Any every value is dumped as if it had none" does not hold: nothing can be dumped. *)
Theorem C76_any_refuted : forall E f n o v, default_serializers E f ->
  snd (dump E f (S n) o (Some TAny) v) = Fail (exn_of KSer).
Proof. exact dump_any. Qed.
(** Nor can a tuple be dumped with the annotation tuple. *)
Theorem C76_bare_tuple_refuted : forall E f n o l, default_serializers E f ->
  snd (dump E f (S n) o (Some (TApp false HTuple [])) (VTuple l)) = Fail (exn_of KSer).
Proof. intros E f n o l DS. apply dump_bare_tuple; [exact DS|discriminate]. Qed.

(** ** Cases *)
(** class Post: id: UUID; owner: Person; tags: Set[str]; title: str *)
Definition post_class : cinfo :=
  mkCinfo "m" "Post" CkObj [] []
    [("id", TLeaf LkUUID); ("owner", TClass 1); ("parts", TApp true HList [TPrim PInt]); ("size", TPrim PInt);
     ("tags", TApp true HSet [TPrim PStr]); ("title", TPrim PStr)] None [] (fun _ _ => raise KAttribute)
    (fun _ => raise KType) (fun a x attrs => Ok (sset a x attrs)) false true.
Definition post_env : env := std_env (fun c => if Nat.eqb c 9 then post_class else demo_ct c) demo_rt.
Definition post (tags : value) : value := VObj 9
  [("id", VNone); ("owner", VNone); ("parts", VNone); ("size", VFloat (FFin 5 (-1))); ("tags", tags); ("title", VStr "x")].
Example C76_case :
  bare_none (e_rt post_env) /\ plain_dump sopts0 /\ plain_opts sopts0 /\ strips (so_attr sopts0) [] /\
  serializer post_env 0 None (post VNone) = Some SObject /\
  hint (e_ct post_env) (TApp true HSet [TPrim PStr]) /\ null_as (e_ct post_env) (TApp true HSet [TPrim PStr]) = None /\
  attr_hint (e_ct post_env 9) "tags" = Some (TApp true HSet [TPrim PStr]) /\
  snd (dump post_env 0 9 sopts0 None (post VNone)) =
    Done (str_dict [("id", VStr "None"); ("owner", str_dict []); ("parts", VList []); ("size", VInt 2)]) /\
  snd (dump post_env 0 9 sopts0 None (post (VColl CSet [VStr "a"]))) =
    Done (str_dict [("id", VStr "None"); ("owner", str_dict []); ("parts", VList []); ("size", VInt 2);
                    ("tags", VList [VStr "a"]); ("title", VStr "x")]).
Proof.
  split; [split; [intros a []|intros a _; eexists; reflexivity]|]. split; [repeat split|]. split; [repeat split|]. split; [reflexivity|].
  split; [vm_compute; reflexivity|]. split; [apply hi_plain, ph_app|]. split; [reflexivity|]. split; [vm_compute; reflexivity|]. split; vm_compute; reflexivity.
Qed.
Example C76_cast_case : json_input (VFloat (FFin 5 (-1))) /\ truncates (FFin 5 (-1)) 2 /\
  (forall v, ~ casts (e_rt demo_env) PInt (VList []) v).
Proof.
  split; [constructor|]. split; [vm_compute; repeat split; discriminate|]. intros v H. inversion H.
Qed.
Print Assumptions C76_none.
Print Assumptions C76_optional.
Print Assumptions C76_none_is_null_refuted.
Print Assumptions C76_attributes_lost_refuted.
Print Assumptions C76_cast_value.
Print Assumptions C76_cast_dumps.
Print Assumptions C76_cast_fails.
Print Assumptions C76_cast_loses_refuted.
Print Assumptions C76_any_refuted.
Print Assumptions C76_bare_tuple_refuted.
