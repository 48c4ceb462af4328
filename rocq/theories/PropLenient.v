(** * C87: json.loads with strict=False

    Model: LenientModel.v.  Specification: LenientSpec.v, with the text in which control characters within
    strings are written as escapes ([spelled]). *)
From Coq Require Import Lia.
From Verif Require Import EngineEnv EngineFacts JsonTextProofs JsonTextLaws LenientProofs PropJsonText.
Local Open Scope string_scope.
Local Close Scope Z_scope.

(** Loading a text with strict=False is loading, without it, the text in which the control characters within strings
    are escaped: the same result, the same effects, the same error.  There is such a text. *)
Theorem C87_spelled : forall E T n f o cls s s', codes s' = spelled false (codes s) ->
  lenient_loads E T n f o cls (OVal (VStr s)) = loads E T n f o cls (OVal (VStr s')).
Proof. intros E T n f o cls s s' H. cbn [lenient_loads loads]. unfold lenient_loads_text, loads_text. now rewrite lenient_spelled, H. Qed.
Theorem C87_spelling : forall s, exists s', codes s' = spelled false (codes s).
Proof. intros s. apply text_string. apply (spelled_range_n (S (length (codes s)))); [lia|apply codes_range]. Qed.
(** In terms of the grammar of JSON *)
Theorem C87_document : forall E T n f o cls s j, json_document T (spelled false (codes s)) j ->
  lenient_loads E T n f o cls (OVal (VStr s)) = load E n f o cls j.
Proof. intros E T n f o cls s j H. cbn [lenient_loads]. unfold lenient_loads_text. apply json_loads_iff in H. now rewrite lenient_spelled, H. Qed.
Theorem C87_malformed : forall E T n f o cls s, (forall j, ~ json_document T (spelled false (codes s)) j) ->
  lenient_loads E T n f o cls (OVal (VStr s)) = fail (exn_of KDecode).
Proof.
  intros E T n f o cls s H. cbn [lenient_loads]. unfold lenient_loads_text. rewrite lenient_spelled.
  destruct (json_loads T (spelled false (codes s))) as [j|] eqn:Hj; [|reflexivity]. apply json_loads_iff, H in Hj. contradiction.
Qed.
(** What can be loaded without it is loaded alike. *)
Theorem C87_agrees : forall E T n f o cls s j, json_document T (codes s) j ->
  lenient_loads E T n f o cls (OVal (VStr s)) = loads E T n f o cls (OVal (VStr s)).
Proof.
  intros E T n f o cls s j H. rewrite (loads_document E T n f o cls s j H). cbn [lenient_loads]. unfold lenient_loads_text. now rewrite (lenient_document T _ _ H).
Qed.
(** Without control characters it makes no difference, not even for errors. *)
Theorem C87_no_control : forall E T n f o cls s, Forall (fun c => ~ control c) (codes s) ->
  lenient_loads E T n f o cls (OVal (VStr s)) = loads E T n f o cls (OVal (VStr s)).
Proof. intros E T n f o cls s H. apply C87_spelled. symmetry. now apply spelled_same. Qed.
(** Bytes *)
Theorem C87_loadb : forall E T n f o cls b s j, Forall scalar_value s -> codes b = flat_map utf8 s ->
  json_document T (spelled false s) j -> lenient_loadb E T n f o "utf-8" cls (OBytes b) = load E n f o cls j.
Proof.
  intros E T n f o cls b s j Hs Hb H. cbn [lenient_loadb]. rewrite (decode_valid T b s Hs Hb). cbn [lift]. rewrite bind_ret_l.
  unfold lenient_loads_text. apply json_loads_iff in H. now rewrite lenient_spelled, H.
Qed.
Theorem C87_loadb_malformed : forall E T n f o cls b s, Forall scalar_value s -> codes b = flat_map utf8 s ->
  (forall j, ~ json_document T (spelled false s) j) -> lenient_loadb E T n f o "utf-8" cls (OBytes b) = fail (exn_of KDecode).
Proof.
  intros E T n f o cls b s Hs Hb H. cbn [lenient_loadb]. rewrite (decode_valid T b s Hs Hb). cbn [lift]. rewrite bind_ret_l.
  unfold lenient_loads_text. rewrite lenient_spelled. destruct (json_loads T (spelled false s)) as [j|] eqn:Hj; [|reflexivity].
  apply json_loads_iff, H in Hj. contradiction.
Qed.
Definition tab : string := bytes [9].
Example C87_spelled_case :
  codes ("{""a\u0009b\\\u001fc"": 1," ++ tab ++ """d"": ""\""\u000a""}") =
    spelled false (codes ("{""a" ++ tab ++ "b\\" ++ bytes [31] ++ "c"": 1," ++ tab ++ """d"": ""\""" ++ bytes [10] ++ """}")) /\
  snd (lenient_loads demo_env demo_trt 5 0 lopts0 None (OVal (VStr ("[""a" ++ tab ++ "b""," ++ tab ++ "1]")))) = Done (VList [VStr ("a" ++ tab ++ "b"); VInt 1]) /\
  snd (loads demo_env demo_trt 5 0 lopts0 None (OVal (VStr ("[""a" ++ tab ++ "b""," ++ tab ++ "1]")))) = Fail (exn_of KDecode) /\
  snd (lenient_loads demo_env demo_trt 5 0 lopts0 None (OVal (VStr ("[""\" ++ tab ++ """]")))) = Fail (exn_of KDecode) /\
  snd (lenient_loads demo_env demo_trt 5 0 lopts0 None (OVal (VStr (bytes [31] ++ "1")))) = Fail (exn_of KDecode) /\
  snd (lenient_loads demo_env demo_trt 5 0 lopts0 (Some (TClass 1)) (OVal (VStr ("{""age"": 30, ""name"": ""J" ++ tab ++ """}")))) =
    snd (loads demo_env demo_trt 5 0 lopts0 (Some (TClass 1)) (OVal (VStr "{""age"": 30, ""name"": ""J\t""}"))) /\
  snd (lenient_loadb demo_env demo_trt 5 0 lopts0 "utf-8" None (OBytes ("""" ++ tab ++ """"))) = Done (VStr tab).
Proof. repeat split; vm_compute; reflexivity. Qed.
Example C87_agrees_case : json_document demo_trt (codes "[""a\tb""]") (VList [VStr ("a" ++ tab ++ "b")]).
Proof. apply json_loads_iff. vm_compute. reflexivity. Qed.
(** It does make a difference. *)
Theorem C87_accepts_more : exists E T s, snd (loads E T 5 0 lopts0 None (OVal (VStr s))) = Fail (exn_of KDecode) /\
  snd (lenient_loads E T 5 0 lopts0 None (OVal (VStr s))) = Done (VStr tab).
Proof. exists demo_env, demo_trt, ("""" ++ tab ++ """"). split; vm_compute; reflexivity. Qed.
Print Assumptions C87_spelled.
Print Assumptions C87_spelling.
Print Assumptions C87_document.
Print Assumptions C87_malformed.
Print Assumptions C87_agrees.
Print Assumptions C87_no_control.
Print Assumptions C87_loadb.
Print Assumptions C87_loadb_malformed.
Print Assumptions C87_accepts_more.
