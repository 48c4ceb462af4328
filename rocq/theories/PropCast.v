(** * C67: what load makes of a document when int, float, bool or str is asked for *)
From Coq Require Import Lia.
From Verif Require Import CastSpec CastProofs CastLaws PyBaseFacts EngineFacts LoadFacts EngineEnv PropJsonText.
Local Close Scope Z_scope.
Local Open Scope string_scope.

(** The result is the document cast to the type, and has passed the validator. *)
Theorem C67_value : forall E n f o p j v, default_deserializers E f -> json_input j ->
  snd (load E (S n) f o (Some (TPrim p)) j) = Done v -> casts (e_rt E) p j v /\ accepts E f (TPrim p) v.
Proof. exact load_casts. Qed.
(** Whatever can be cast is loaded. *)
Theorem C67_loads : forall E n f o p j, default_deserializers E f -> json_input j ->
  (exists v, casts (e_rt E) p j v) -> (forall v, casts (e_rt E) p j v -> accepts E f (TPrim p) v) ->
  exists v, snd (load E (S n) f o (Some (TPrim p)) j) = Done v.
Proof. exact load_castable. Qed.
(** Whatever cannot be cast is refused. *)
Theorem C67_fails : forall E n f o p j, default_deserializers E f -> json_input j ->
  (forall v, ~ casts (e_rt E) p j v) ->
  exists e, snd (load E (S n) f o (Some (TPrim p)) j) = Fail e /\ is_jsons (e_kind e) = true.
Proof. exact load_uncastable. Qed.
Theorem C67_not_an_int : forall E n f o j, default_deserializers E f -> json_input j ->
  (forall v, ~ casts (e_rt E) PInt j v) ->
  exists e, snd (load E (S n) f o (Some (TPrim PInt)) j) = Fail e /\ e_kind e = KDeser.
Proof. exact load_not_int. Qed.
Example C67_not_an_int_case : forall v, ~ casts demo_rt PInt (VStr "twelve") v /\ ~ casts demo_rt PInt (VFloat FNan) v /\
  ~ casts demo_rt PInt (VList [VInt 1]) v.
Proof.
  intros v. split; [|split].
  - inversion 1 as [| | |s z H1| | | | | | | | |]; subst. apply py_int_iff in H1. discriminate.
  - inversion 1; subst. contradiction.
  - inversion 1.
Qed.
Example C67_value_case :
  snd (load demo_env 1 0 lopts0 (Some (TPrim PInt)) (VFloat (FFin (-7) (-1)))) = Done (VInt (-3)) /\
  snd (load demo_env 1 0 lopts0 (Some (TPrim PInt)) (VStr " -1_000 ")) = Done (VInt (-1000)) /\
  snd (load demo_env 1 0 lopts0 (Some (TPrim PStr)) (VInt (-120))) = Done (VStr "-120") /\
  snd (load demo_env 1 0 lopts0 (Some (TPrim PFloat)) (VInt 10)) = Done (VFloat (FFin 5 1)).
Proof. repeat split; vm_compute; reflexivity. Qed.

(** ** Integers *)
(** A text is read as an integer exactly when it is an integer literal. *)
Theorem C67_int_of_text : forall E n f o s z, default_deserializers E f -> accepts E f (TPrim PInt) (VInt z) ->
  (snd (load E (S n) f o (Some (TPrim PInt)) (VStr s)) = Done (VInt z) <-> int_literal s z).
Proof. exact load_int_text. Qed.
(** From an integer to its text and back *)
Theorem C67_text_of_int : forall E n m f o o' z s, default_deserializers E f -> accepts E f (TPrim PInt) (VInt z) ->
  snd (load E (S n) f o (Some (TPrim PStr)) (VInt z)) = Done s ->
  snd (load E (S m) f o' (Some (TPrim PInt)) s) = Done (VInt z).
Proof. exact load_int_back. Qed.
(** From an integer to a float and back, up to 2^53 *)
Theorem C67_float_of_int : forall E n m f o o' z x, default_deserializers E f ->
  (Z.abs z <= 2 ^ 53)%Z -> accepts E f (TPrim PInt) (VInt z) ->
  snd (load E (S n) f o (Some (TPrim PFloat)) (VInt z)) = Done x ->
  snd (load E (S m) f o' (Some (TPrim PInt)) x) = Done (VInt z).
Proof. exact load_float_back. Qed.
Theorem C67_float_of_int_refuted : exists z x z', z <> z' /\
  snd (load demo_env 1 0 lopts0 (Some (TPrim PFloat)) (VInt z)) = Done x /\
  snd (load demo_env 1 0 lopts0 (Some (TPrim PInt)) x) = Done (VInt z').
Proof.
  exists (2 ^ 53 + 1)%Z, (VFloat (FFin 1 53)), (2 ^ 53)%Z. split; [discriminate|]. split; vm_compute; reflexivity.
Qed.
Example C67_int_case : snd (load demo_env 1 0 lopts0 (Some (TPrim PFloat)) (VInt (2 ^ 53 - 1))) = Done (VFloat (FFin (2 ^ 53 - 1) 0)) /\
  snd (load demo_env 1 0 lopts0 (Some (TPrim PStr)) (VInt (2 ^ 70))) = Done (VStr "1180591620717411303424").
Proof. split; vm_compute; reflexivity. Qed.

(** ** What one might not expect *)
(** The result does not depend on any option: strict=True does not forbid casts. *)
Theorem C67_options : forall E n m f o o' p j, default_deserializers E f -> json_input j ->
  snd (load E (S n) f o (Some (TPrim p)) j) = snd (load E (S m) f o' (Some (TPrim p)) j).
Proof. exact load_prim_options. Qed.
Example C67_strict_case :
  snd (load demo_env 1 0 (mkLopts true (lo_getters lopts0) None None false true None) (Some (TPrim PInt)) (VStr "5")) = Done (VInt 5).
Proof. vm_compute. reflexivity. Qed.
(** Every text but the empty one is True, also 'false' and '0'. *)
Theorem C67_bool_of_text_refuted : forall E n f o s, default_deserializers E f -> s <> "" ->
  e_validator E f (TPrim PBool) = None ->
  snd (load E (S n) f o (Some (TPrim PBool)) (VStr s)) = Done (VBool true).
Proof.
  intros E n f o s HD Hs Hv. rewrite load_prim by (assumption || constructor).
  destruct (prim_value_bool E (VStr s) (ji_str s)) as (b & -> & Hb). apply LeafLaws.load_result_ok. split.
  - destruct b; [reflexivity|]. exfalso. destruct Hb as [Hb _]. specialize (Hb eq_refl). inversion Hb; congruence.
  - unfold accepts. now rewrite Hv.
Qed.
(** A bool stays a bool when an int is asked for. *)
Theorem C67_int_of_bool_refuted : forall E n f o b, default_deserializers E f ->
  e_validator E f (TPrim PInt) = None ->
  snd (load E (S n) f o (Some (TPrim PInt)) (VBool b)) = Done (VBool b).
Proof.
  intros E n f o b HD Hv. rewrite load_prim by (assumption || constructor). apply LeafLaws.load_result_ok.
  split; [reflexivity|]. unfold accepts. now rewrite Hv.
Qed.
(** Lists and dicts are accepted as texts: whatever Python shows them as. *)
Theorem C67_text_of_list_refuted : forall E n f o l s, default_deserializers E f ->
  e_validator E f (TPrim PStr) = None -> rt_str (e_rt E) (VList l) = Ok s ->
  snd (load E (S n) f o (Some (TPrim PStr)) (VList l)) = Done (VStr s).
Proof.
  intros E n f o l s HD Hv Hs. rewrite load_prim by (assumption || constructor). cbn [prim_value py_str]. rewrite Hs.
  apply LeafLaws.load_result_ok. split; [reflexivity|]. unfold accepts. now rewrite Hv.
Qed.
(** A NewType of int, float or bool cannot be loaded from anything. *)
Theorem C67_newtype_refuted : forall E n f o m nm p j, default_deserializers E f -> fresh_newtype m nm ->
  json_input j -> p <> PStr ->
  exists e, snd (load E (S n) f o (Some (TNewType m nm (TPrim p))) j) = Fail e /\ e_kind e = KDeser.
Proof. exact load_newtype. Qed.
(** A NewType of str turns texts that look like datetimes into datetimes. *)
Theorem C67_newtype_str_refuted : forall E n f o m nm s v, default_deserializers E f -> fresh_newtype m nm ->
  e_validator E f (TNewType m nm (TPrim PStr)) = None ->
  snd (load E n f (child_opts o) (Some (TLeaf LkDatetime)) (VStr s)) = Done v ->
  snd (load E (S n) f o (Some (TNewType m nm (TPrim PStr))) (VStr s)) = Done v.
Proof. exact load_newtype_str. Qed.
Example C67_newtype_case : fresh_newtype "m" "UserId" /\
  snd (load demo_env 2 0 lopts0 (Some (TNewType "m" "UserId" (TPrim PInt))) (VInt 5)) = Fail (exn_of KDeser) /\
  snd (load demo_env 2 0 lopts0 (Some (TNewType "m" "Name" (TPrim PStr))) (VStr "Ann")) = Done (VStr "Ann") /\
  exists v, snd (load demo_env 2 0 lopts0 (Some (TNewType "m" "Name" (TPrim PStr))) (VStr "2020-01-01T00:00:00Z")) = Done (VLeaf v).
Proof.
  split; [vm_compute; reflexivity|]. split; [vm_compute; reflexivity|]. split; [vm_compute; reflexivity|].
  eexists. vm_compute. reflexivity.
Qed.

Print Assumptions C67_value.
Print Assumptions C67_loads.
Print Assumptions C67_fails.
Print Assumptions C67_not_an_int.
Print Assumptions C67_int_of_text.
Print Assumptions C67_text_of_int.
Print Assumptions C67_float_of_int.
Print Assumptions C67_float_of_int_refuted.
Print Assumptions C67_options.
Print Assumptions C67_bool_of_text_refuted.
Print Assumptions C67_int_of_bool_refuted.
Print Assumptions C67_text_of_list_refuted.
Print Assumptions C67_newtype_refuted.
Print Assumptions C67_newtype_str_refuted.
