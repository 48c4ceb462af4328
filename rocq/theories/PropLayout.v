(** * C66: the layout of JSON text

    dumps and dumpb hand [jdkwargs] to json.dumps: indent, separators, sort_keys,
    ensure_ascii, allow_nan and skipkeys ([layout]).  Model: LayoutModel.v.  Specification:
    LayoutSpec.v, with the layouts that leave JSON ([plain_layout]), what is written of a value
    ([arranged]), and what can be written ([writable_with]). *)
From Coq Require Import Lia.
From Verif Require Import EngineEnv EngineFacts PyBaseFacts LayoutSpec OrderSpec DumpLaws JsonTextProofs JsonTextLaws LayoutProofs LayoutLaws
  RoundTripSpec RoundTripLaws PropRoundTrip PropJsonText PropOrder.
Local Close Scope Z_scope.
Local Open Scope string_scope.

(** Layouts for examples: indent=2; compact and sorted; everything allowed that can be *)
Definition pretty : layout := mkLayout (Some (IndentBy 2)) None false true true false (fun _ _ => raise KType).
Definition compact : layout := mkLayout None (Some (",", ":")) true true false false (fun _ _ => raise KType).
Definition tabbed : layout :=
  mkLayout (Some (IndentWith (bytes [9]))) (Some (" ,", " : ")) true false true true (fun _ _ => raise KType).

(** ** Without arguments *)
Theorem C66_default : forall E T f n o cls v, dumps_with E T layout0 f n o cls v = dumps E T f n o cls v.
Proof.
  intros E T f n o cls v. unfold dumps_with, dumps, mbind. destruct (dump E f n o cls v) as [ev [j|e|]]; try reflexivity.
  cbn [fst snd]. now rewrite json_text_default.
Qed.
Theorem C66_effects : forall E T L f n o cls v, fst (dumps_with E T L f n o cls v) = fst (dump E f n o cls v).
Proof. exact dumps_with_effects. Qed.

(** ** The layout changes nothing *)
(** If the dumped value consists of lists, of dicts with strings as keys, and of scalars, every
    layout gives a text, and loading it is loading the dumped value: exactly, or with its keys in order if
    they are sorted. *)
Theorem C66_loads : forall E T L f n o cls v j,
  plain_layout L -> snd (dump E f n o cls v) = Done j -> json_data j ->
  floats_read_back T (e_ct E) j -> ly_nan L = true \/ finite j ->
  exists s j', snd (dumps_with E T L f n o cls v) = Done s /\ same j j' /\
    (ly_sort L = false -> j' = j) /\ (ly_sort L = true -> keys_in_order j') /\
    forall E' m g lo cls', loads E' T m g lo cls' (OVal (VStr s)) = load E' m g lo cls' j'.
Proof. exact dumps_with_loads. Qed.
(** Two layouts that do not sort: one cannot tell which was used. *)
Theorem C66_layouts_agree : forall E T L L' f n o cls v j s s',
  plain_layout L -> plain_layout L' -> ly_sort L = false -> ly_sort L' = false ->
  snd (dump E f n o cls v) = Done j -> json_data j -> floats_read_back T (e_ct E) j ->
  snd (dumps_with E T L f n o cls v) = Done s -> snd (dumps_with E T L' f n o cls v) = Done s' ->
  forall E' m g lo cls', loads E' T m g lo cls' (OVal (VStr s)) = loads E' T m g lo cls' (OVal (VStr s')).
Proof.
  intros E T L L' f n o cls v j s s' HL HL' Hs Hs' Hd Hj Hf H H' E' m g lo cls'.
  destruct (dumps_with_written E T L f n o cls v s j HL Hd Hf H) as (j1 & Ha & D).
  destruct (dumps_with_written E T L' f n o cls v s' j HL' Hd Hf H') as (j1' & Ha' & D').
  destruct (arranged_data _ _ _ Hj _ Ha) as (_ & _ & X & _). destruct (arranged_data _ _ _ Hj _ Ha') as (_ & _ & X' & _).
  rewrite (X Hs) in D. rewrite (X' Hs') in D'. now rewrite (loads_document _ _ _ _ _ _ _ _ D), (loads_document _ _ _ _ _ _ _ _ D').
Qed.
(** Different documents have different texts, also if they are written with different layouts: without sorting
    the documents are equal if the texts are, and with sorting they are equal up to the order of entries. *)
Theorem C66_injective : forall E E' T L L' f f' n n' o o' cls cls' v v' j j' s,
  plain_layout L -> plain_layout L' -> snd (dump E f n o cls v) = Done j -> snd (dump E' f' n' o' cls' v') = Done j' ->
  json_data j -> json_data j' -> floats_read_back T (e_ct E) j -> floats_read_back T (e_ct E') j' ->
  snd (dumps_with E T L f n o cls v) = Done s -> snd (dumps_with E' T L' f' n' o' cls' v') = Done s ->
  (ly_sort L = false -> ly_sort L' = false -> j = j') /\ exists j0, same j j0 /\ same j' j0.
Proof.
  intros E E' T L L' f f' n n' o o' cls cls' v v' j j' s HL HL' Hd Hd' Hj Hj' Hf Hf' H H'.
  destruct (dumps_with_written E T L f n o cls v s j HL Hd Hf H) as (j1 & Ha & D).
  destruct (dumps_with_written E' T L' f' n' o' cls' v' s j' HL' Hd' Hf' H') as (j1' & Ha' & D').
  destruct (arranged_data _ _ _ Hj _ Ha) as (G & S1 & X & _). destruct (arranged_data _ _ _ Hj' _ Ha') as (G' & S2 & X' & _).
  rewrite json_image_data in D by exact G. rewrite json_image_data in D' by exact G'.
  apply json_loads_iff in D, D'. rewrite D in D'. injection D' as <-. split; [|eauto].
  intros Hs Hs'. rewrite <- (X Hs). now apply X'.
Qed.
Example C66_injective_case :
  snd (dumps_with demo_env demo_trt compact 0 5 sopts0 None (str_dict [("b", VNone); ("a", VInt 1)])) = Done "{""a"":1,""b"":null}" /\
  snd (dumps_with demo_env demo_trt compact 0 5 sopts0 None (str_dict [("a", VInt 1); ("b", VNone)])) = Done "{""a"":1,""b"":null}".
Proof. split; vm_compute; reflexivity. Qed.
(** Well-typed values come back with every layout that does not sort. *)
Theorem C66_round_trip : forall E T L f g o t v, plain_layout L -> ly_sort L = false -> ly_nan L = true ->
  default_serializers E f -> default_deserializers E g -> exact_dump o -> has_type E g o t v ->
  (forall j, (exists N, forall n, N <= n -> snd (dump E f n o None v) = Done j) -> floats_read_back T (e_ct E) j) ->
  exists s N, forall n m cls lo, N <= n -> N <= m -> cls = None \/ cls = Some t -> exact_load lo ->
    snd (dumps_with E T L f n o cls v) = Done s /\ snd (loads E T m g lo (Some t) (OVal (VStr s))) = Done v.
Proof.
  intros E T L f g o t v HL Hso Hna HS HD He Ht Hf. destruct (roundtrip E f g o t v HS HD He Ht) as (j & N & [_ Hj] & HN).
  assert (Hd : forall n cls, N <= n -> cls = None \/ cls = Some t -> snd (dump E f n o cls v) = Done j).
  { intros n cls Hn Hc. apply (HN n N cls lopts0 Hn (le_n _) Hc exact_lopts0). }
  assert (Hfj : floats_read_back T (e_ct E) j) by (apply Hf; exists N; intros n Hn; apply Hd; auto).
  destruct (dumps_with_loads E T L f N o None v j HL (Hd N None (le_n _) (or_introl eq_refl)) Hj Hfj (or_introl Hna)) as (s & j' & Hs & _ & Hj' & _ & Hl).
  specialize (Hj' Hso). subst j'. exists s, N. intros n m cls lo Hn Hm Hc Hlo. split.
  - apply dumps_with_done. exists j. split; [now apply Hd|]. apply dumps_with_done in Hs as (j0 & Hj0 & Hs).
    rewrite (Hd N None (le_n _) (or_introl eq_refl)) in Hj0. now injection Hj0 as <-.
  - rewrite Hl. now apply (HN n m cls lo).
Qed.
(** Hence no two values of a type have the same text. *)
Theorem C66_typed_injective : forall E T L L' f g o t v v', plain_layout L -> ly_sort L = false -> ly_nan L = true ->
  plain_layout L' -> ly_sort L' = false -> ly_nan L' = true ->
  default_serializers E f -> default_deserializers E g -> exact_dump o -> has_type E g o t v -> has_type E g o t v' ->
  (forall w j, w = v \/ w = v' -> (exists N, forall n, N <= n -> snd (dump E f n o None w) = Done j) -> floats_read_back T (e_ct E) j) ->
  exists N, forall n cls cls', N <= n -> cls = None \/ cls = Some t -> cls' = None \/ cls' = Some t ->
    snd (dumps_with E T L f n o cls v) = snd (dumps_with E T L' f n o cls' v') -> v = v'.
Proof.
  intros E T L L' f g o t v v' HL Hs Hn HL' Hs' Hn' HS HD He Ht Ht' Hf.
  destruct (C66_round_trip E T L f g o t v HL Hs Hn HS HD He Ht (fun j => Hf v j (or_introl eq_refl))) as (s & N & H).
  destruct (C66_round_trip E T L' f g o t v' HL' Hs' Hn' HS HD He Ht' (fun j => Hf v' j (or_intror eq_refl))) as (s' & N' & H').
  exists (N + N'). intros n cls cls' Hle Hc Hc' Heq.
  destruct (H n n cls lopts0 ltac:(lia) ltac:(lia) Hc exact_lopts0) as [H1 H2].
  destruct (H' n n cls' lopts0 ltac:(lia) ltac:(lia) Hc' exact_lopts0) as [H1' H2'].
  rewrite H1, H1' in Heq. injection Heq as <-. rewrite H2 in H2'. now injection H2' as <-.
Qed.
Example C66_typed_injective_case :
  let a := VObj 1 [("name", VStr "1"); ("age", VInt 12)] in let b := VObj 1 [("name", VStr "11"); ("age", VInt 2)] in
  has_type demo_env 0 sopts0 (TClass 1) a /\ has_type demo_env 0 sopts0 (TClass 1) b /\
  snd (dumps_with demo_env demo_trt layout0 0 5 sopts0 None a) = Done "{""age"": 12, ""name"": ""1""}" /\
  snd (dumps_with demo_env demo_trt layout0 0 5 sopts0 None b) = Done "{""age"": 2, ""name"": ""11""}".
Proof. cbv zeta. split; [apply demo_person_typed|]. split; [apply demo_person_typed|]. split; vm_compute; reflexivity. Qed.
(** Sorted keys: the loaded values differ only in the order of entries and attributes, for types
    that read documents by their keys (C64). *)
Theorem C66_sorted_load : forall E T L f n o cls v j s E' m g lo cls',
  plain_layout L -> snd (dump E f n o cls v) = Done j -> OrderSpec.document j -> floats_read_back T (e_ct E) j ->
  snd (dumps_with E T L f n o cls v) = Done s ->
  default_deserializers E' g -> fair_validators E' g -> (forall c, regular (e_ct E' c)) -> plain_options lo ->
  by_key (e_ct E') (lo_strict lo) cls' j ->
  outcomes_agree (snd (load E' m g lo cls' j)) (snd (loads E' T m g lo cls' (OVal (VStr s)))).
Proof.
  intros E T L f n o cls v j s E' m g lo cls' HL Hd Hj Hf H HD HV HR Ho Hb.
  destruct (dumps_with_written E T L f n o cls v s j HL Hd Hf H) as (j1 & Ha & D). pose proof (document_data _ Hj) as Hjd.
  destruct (arranged_data _ _ _ Hjd _ Ha) as (Hj1 & Hs & _). rewrite json_image_data in D by exact Hj1.
  rewrite (loads_document _ _ _ _ _ _ _ _ D). now apply C64_key_order.
Qed.
(** Bytes *)
Theorem C66_bytes : forall E T L f n o cls v b, snd (dumpb_with E T L f n o "utf-8" cls v) = Done b ->
  exists s, snd (dumps_with E T L f n o cls v) = Done s /\ codes b = flat_map utf8 (codes s) /\
    forall E' m g lo cls', loadb E' T m g lo "utf-8" cls' (OBytes b) = loads E' T m g lo cls' (OVal (VStr s)).
Proof.
  intros E T L f n o cls v b H. unfold dumpb_with, encode_text in H. cbn [String.eqb Ascii.eqb Bool.eqb lift] in H.
  apply bind_done in H as (s & H1 & H2). injection H2 as <-. exists s. split; [exact H1|]. split; [apply utf8_encode_codes|]. intros. apply loadb_encoded.
Qed.
(** Other encodings: the bytes are those of the codec that is asked for, and loadb with the same
    encoding is loads of the text if that codec decodes what it encodes. *)
Theorem C66_any_encoding : forall E T L f n o enc cls v b, enc <> "utf-8" ->
  snd (dumpb_with E T L f n o enc cls v) = Done b ->
  exists s, snd (dumps_with E T L f n o cls v) = Done s /\ tr_encode T enc s = Ok b /\
    ((forall x y, tr_encode T enc x = Ok y -> tr_decode T enc y = Ok (codes x)) ->
     forall E' m g lo cls', loadb E' T m g lo enc cls' (OBytes b) = loads E' T m g lo cls' (OVal (VStr s))).
Proof.
  intros E T L f n o enc cls v b He H. unfold dumpb_with, encode_text in H. apply bind_done in H as (s & H1 & H2).
  apply String.eqb_neq in He. rewrite He in H2. exists s. split; [exact H1|].
  destruct (tr_encode T enc s) as [y|e] eqn:Ey; [|discriminate H2]. injection H2 as <-. split; [reflexivity|].
  intros Hr E' m g lo cls'. cbn [loadb loads]. unfold decode_bytes. rewrite He, (Hr _ _ Ey). cbn [lift]. apply bind_ret_l.
Qed.
(** A runtime with latin-1 beside utf-8 *)
Definition latin_trt : textrt :=
  mkTrt (tr_repr demo_trt) (tr_read demo_trt) (tr_wide demo_trt)
        (fun e s => if String.eqb e "latin-1" then Ok s else raise KUnicode)
        (fun e b => if String.eqb e "latin-1" then Ok (codes b) else raise KUnicode) (tr_detect demo_trt).
Definition latin_layout : layout := mkLayout None None false false true false (fun _ _ => raise KType).
Example C66_any_encoding_case :
  (forall x y, tr_encode latin_trt "latin-1" x = Ok y -> tr_decode latin_trt "latin-1" y = Ok (codes x)) /\
  snd (dumpb_with demo_env latin_trt latin_layout 0 5 sopts0 "latin-1" None (VStr (bytes [233]))) = Done (bytes [34; 233; 34]) /\
  snd (dumpb_with demo_env latin_trt latin_layout 0 5 sopts0 "utf-8" None (VStr (bytes [233]))) = Done (bytes [34; 195; 169; 34]) /\
  snd (loadb demo_env latin_trt 5 0 lopts0 "latin-1" None (OBytes (bytes [34; 233; 34]))) = Done (VStr (bytes [233])).
Proof. split; [cbn; intros x y [= ->]; reflexivity|]. repeat split; vm_compute; reflexivity. Qed.
Example C66_loads_case :
  plain_layout pretty /\ plain_layout compact /\ plain_layout tabbed /\ json_data john_doc /\ finite john_doc /\
  floats_read_back demo_trt demo_ct john_doc /\
  snd (dumps_with demo_env demo_trt compact 0 5 sopts0 None (VList [john])) = Done "[{""age"":30,""name"":""John""}]" /\
  snd (dumps_with demo_env demo_trt pretty 0 5 sopts0 None (VList [john; VList []])) =
    Done "[
  {
    ""age"": 30,
    ""name"": ""John""
  },
  []
]" /\
  snd (dumps_with demo_env demo_trt tabbed 0 5 sopts0 None (str_dict [("b", VStr (bytes [233])); ("a", VNone)])) =
    Done ("{" ++ bytes [10; 9] ++ """a"" : null ," ++ bytes [10; 9] ++ """b"" : """ ++ bytes [233] ++ """" ++ bytes [10] ++ "}") /\
  snd (loads demo_env demo_trt 5 0 lopts0 (Some (TClass 1)) (OVal (VStr "{
    ""age"": 30,
    ""name"": ""John""
  }"))) = Done john.
Proof.
  split; [split; exact I|]. split; [split; [split; exists [], []; repeat split; constructor|exact I]|].
  split; [split; [split|]|].
  1: exists (codes " "), []; repeat split; repeat constructor.
  1: exists (codes " "), (codes " "); repeat split; repeat constructor.
  1: cbn; constructor; [right; left; reflexivity|constructor].
  split; [apply jd_dict; [repeat constructor; cbn; intuition discriminate| |]|].
  1: intros k x [H|[H|[]]]; injection H as <- <-; eauto.
  1: intros k x [H|[H|[]]]; injection H as <- <-; constructor; exact I.
  split; [intros x Hx; inversion Hx as [| | | |k d y z Hin Hz]; subst; destruct Hin as [H|[H|[]]]; injection H as <- <-; inversion Hz|].
  split; [apply fr_dict; intros y x [H|[H|[]]]; injection H as <- <-; apply fr_scalar; (discriminate || exact I)|].
  repeat split; vm_compute; reflexivity.
Qed.

(** ** In general *)
(** Every value: the text is a JSON text of the dumped value, rearranged, with strings for keys and
    lists for tuples. *)
Theorem C66_writes_json : forall E T L f n o cls v s j,
  plain_layout L -> snd (dump E f n o cls v) = Done j -> floats_read_back T (e_ct E) j ->
  snd (dumps_with E T L f n o cls v) = Done s ->
  exists j', arranged (e_ct E) L j j' /\ json_document T (codes s) (json_image T (e_ct E) j').
Proof. exact dumps_with_written. Qed.
(** When there is a text *)
Theorem C66_succeeds : forall E T L f n o cls v j, snd (dump E f n o cls v) = Done j ->
  ly_sort L = false \/ keys_are_text (e_ct E) j ->
  ((exists s, snd (dumps_with E T L f n o cls v) = Done s) <-> writable_with (e_ct E) L j).
Proof.
  intros E T L f n o cls v j Hd Hk. rewrite <- (json_text_iff T (e_ct E) L j 0) by (intros Hs; destruct Hk; [congruence|assumption]).
  split; intros (s & H); exists s.
  - apply dumps_with_done in H as (j0 & Hd' & H). rewrite Hd in Hd'. now injection Hd' as <-.
  - apply dumps_with_done. eauto.
Qed.
(** If not: a TypeError or a ValueError, which are no SerializationErrors. *)
Theorem C66_fails : forall E T L f n o cls v j e, snd (dump E f n o cls v) = Done j ->
  ly_sort L = false \/ keys_are_text (e_ct E) j ->
  snd (dumps_with E T L f n o cls v) = Fail e -> e = exn_of KType \/ e = exn_of KValue.
Proof.
  intros E T L f n o cls v j e Hd Hk H. unfold dumps_with, mbind in H. destruct (dump E f n o cls v) as [ev [j0|e0|]]; cbn [snd] in *; try discriminate.
  injection Hd as ->. destruct (json_text T (e_ct E) L 0 j) as [s|e'] eqn:Ht; [discriminate|]. cbn in H. injection H as <-.
  apply (json_text_errors T (e_ct E) L j 0 e'); [|exact Ht]. intros Hs. destruct Hk; [congruence|assumption].
Qed.
(** Integers and strings as keys of one dict cannot be sorted. *)
Theorem C66_mixed_keys : forall E T L f n o cls v k d, snd (dump E f n o cls v) = Done (VDict k d) -> ly_sort L = true ->
  (forall y x, In (y, x) d -> (exists z, y = VInt z) \/ (exists s, y = VStr s)) ->
  (exists z x, In (VInt z, x) d) -> (exists s x, In (VStr s, x) d) ->
  snd (dumps_with E T L f n o cls v) = Fail (exn_of KType).
Proof.
  intros E T L f n o cls v k d Hd Hs Ha (z & x & Hz) (s & y & Hy). unfold dumps_with, mbind.
  destruct (dump E f n o cls v) as [ev [j0|e0|]]; cbn [snd] in *; try discriminate. injection Hd as ->.
  rewrite (json_text_mixed T (e_ct E) L 0 k d Hs); [reflexivity| | |].
  - intros [a b] Hab. destruct (Ha a b Hab) as [[w ->]|[w ->]]; [left|right]; now exists w.
  - exists (VInt z, x). split; [exact Hz|]. now exists z.
  - exists (VStr s, y). split; [exact Hy|]. now exists s.
Qed.
(** allow_nan=False: what was written has no NaN and no infinity. *)
Theorem C66_finite : forall E T L f n o cls v j s, snd (dump E f n o cls v) = Done j ->
  ly_sort L = false \/ keys_are_text (e_ct E) j -> ly_nan L = false -> ly_skip L = false ->
  snd (dumps_with E T L f n o cls v) = Done s -> finite j.
Proof.
  intros E T L f n o cls v j s Hd Hk Hn Hs H. apply (writable_with_finite (e_ct E) L); auto.
  apply (C66_succeeds E T L f n o cls v j Hd Hk). now exists s.
Qed.
Example C66_fails_case :
  snd (dumps_with demo_env demo_trt compact 0 5 sopts0 None (VList [VFloat FNan])) = Fail (exn_of KValue) /\
  snd (dumps_with demo_env demo_trt pretty 0 5 sopts0 None (VList [VFloat FNan])) = Done ("[" ++ bytes [10] ++ "  NaN" ++ bytes [10] ++ "]") /\
  snd (dump demo_env 0 5 sopts0 None (VDict DkDict [(VInt 1, VNone); (VStr "a", VNone)])) = Done (VDict DkDict [(VInt 1, VNone); (VStr "a", VNone)]) /\
  snd (dumps_with demo_env demo_trt compact 0 5 sopts0 None (VDict DkDict [(VInt 1, VNone); (VStr "a", VNone)])) = Fail (exn_of KType) /\
  snd (dumps_with demo_env demo_trt pretty 0 5 sopts0 None (VDict DkDict [(VInt 1, VNone); (VStr "a", VNone)])) =
    Done ("{" ++ bytes [10] ++ "  ""1"": null," ++ bytes [10] ++ "  ""a"": null" ++ bytes [10] ++ "}").
Proof. repeat split; vm_compute; reflexivity. Qed.
(** Separators and indentations that are no white space give texts that loads refuses. *)
Theorem C66_any_layout_refuted :
  exists L v s, snd (dumps_with demo_env demo_trt L 0 5 sopts0 None v) = Done s /\
    snd (loads demo_env demo_trt 5 0 lopts0 None (OVal (VStr s))) = Fail (exn_of KDecode).
Proof.
  exists (mkLayout (Some (IndentWith "> ")) None false true true false (fun _ _ => raise KType)), (VList [VInt 1]), ("[" ++ bytes [10] ++ "> 1" ++ bytes [10] ++ "]").
  split; vm_compute; reflexivity.
Qed.

(** ** Sorted keys: one text for all orders of the keys *)
Theorem C66_sorted_text : forall E T L f n o cls v E' f' n' o' cls' v' j j', e_ct E' = e_ct E -> ly_sort L = true ->
  snd (dump E f n o cls v) = Done j -> snd (dump E' f' n' o' cls' v') = Done j' -> json_data j -> same j j' ->
  snd (dumps_with E T L f n o cls v) = snd (dumps_with E' T L f' n' o' cls' v').
Proof.
  intros E T L f n o cls v E' f' n' o' cls' v' j j' HE Hs Hd Hd' Hj Hsame. unfold dumps_with, mbind.
  destruct (dump E f n o cls v) as [ev [j0|e0|]]; cbn [snd] in *; try discriminate. injection Hd as ->.
  destruct (dump E' f' n' o' cls' v') as [ev' [j0'|e0'|]]; cbn [snd] in *; try discriminate. injection Hd' as ->.
  rewrite HE, (json_text_canonical T (e_ct E) L j Hs Hj j' 0 Hsame). unfold lift. destruct (json_text T (e_ct E) L 0 j'); reflexivity.
Qed.
Example C66_sorted_text_case :
  json_data (str_dict [("b", VInt 1); ("a", VInt 2)]) /\
  same (str_dict [("b", VInt 1); ("a", VInt 2)]) (str_dict [("a", VInt 2); ("b", VInt 1)]) /\
  snd (dumps_with demo_env demo_trt compact 0 5 sopts0 None (str_dict [("b", VInt 1); ("a", VInt 2)])) = Done "{""a"":2,""b"":1}" /\
  snd (dumps_with demo_env demo_trt compact 0 5 sopts0 None (str_dict [("a", VInt 2); ("b", VInt 1)])) = Done "{""a"":2,""b"":1}" /\
  snd (dumps_with demo_env demo_trt layout0 0 5 sopts0 None (str_dict [("b", VInt 1); ("a", VInt 2)])) = Done "{""b"": 1, ""a"": 2}".
Proof.
  split; [apply jd_dict; [repeat constructor; cbn; intuition discriminate| |]|].
  1: intros k x [H|[H|[]]]; injection H as <- <-; eauto.
  1: intros k x [H|[H|[]]]; injection H as <- <-; constructor; exact I.
  split; [|repeat split; vm_compute; reflexivity].
  eapply sm_dict; [apply perm_swap|]. repeat constructor.
Qed.

(** ** Characters *)
(** Without indentation a document is one line: there are no control characters in the text. *)
Theorem C66_one_line : forall E T L f n o cls v s, ly_indent L = None -> separators_are one_line L ->
  (forall x, one_line (tr_repr T x)) -> snd (dumps_with E T L f n o cls v) = Done s -> one_line s.
Proof. exact dumps_with_line. Qed.
(** Unless ensure_ascii=False, the text is ASCII. *)
Theorem C66_ascii : forall E T L f n o cls v s, ly_ascii L = true -> separators_are ascii_text L ->
  (forall i, ly_indent L = Some (IndentWith i) -> ascii_text i) -> (forall x, ascii_text (tr_repr T x)) ->
  snd (dumps_with E T L f n o cls v) = Done s -> ascii_text s.
Proof. exact dumps_with_ascii. Qed.
(** Strings of characters that need no escape are written as they are. *)
Theorem C66_plain_strings : forall E T L f n o cls v s, snd (dump E f n o cls v) = Done (VStr s) ->
  needs_no_escape (ly_ascii L) s -> snd (dumps_with E T L f n o cls v) = Done ("""" ++ s ++ """").
Proof.
  intros E T L f n o cls v s Hd Hs. unfold dumps_with, mbind. destruct (dump E f n o cls v) as [ev [j|e|]]; cbn [snd] in *; try discriminate.
  injection Hd as ->. cbn [json_text]. rewrite <- (string_text_plain L s Hs). reflexivity.
Qed.
Example C66_plain_strings_case :
  needs_no_escape true "Hello, {world}! #1 ~" /\ ~ needs_no_escape true (bytes [233]) /\ needs_no_escape false (bytes [233]) /\
  snd (dumps_with demo_env demo_trt layout0 0 5 sopts0 None (VStr "Hello, {world}! #1 ~")) = Done """Hello, {world}! #1 ~""".
Proof.
  split; [repeat constructor; discriminate|]. split; [|split; [repeat constructor; discriminate|vm_compute; reflexivity]].
  intros H. inversion H as [|? ? (_ & _ & _ & H1) _]; subst. now specialize (H1 eq_refl); vm_compute in H1.
Qed.
Example C66_characters_case :
  (forall x, one_line (tr_repr demo_trt x)) /\ (forall x, ascii_text (tr_repr demo_trt x)) /\ separators_are one_line compact /\
  snd (dumps_with demo_env demo_trt layout0 0 5 sopts0 None (VStr (bytes [10; 233]))) = Done """\n\u00e9""" /\
  ~ ascii_text (bytes [233]) /\ ~ one_line (bytes [10]).
Proof.
  split; [intros x; repeat constructor; discriminate|]. split; [intros x; repeat constructor; discriminate|].
  split; [split; repeat constructor; discriminate|]. split; [vm_compute; reflexivity|]. split.
  - intros H. inversion H as [|? ? [_ H1] _]; subst. now vm_compute in H1.
  - intros H. inversion H as [|? ? H1 _]; subst. now vm_compute in H1.
Qed.

Print Assumptions C66_default.
Print Assumptions C66_effects.
Print Assumptions C66_loads.
Print Assumptions C66_layouts_agree.
Print Assumptions C66_injective.
Print Assumptions C66_typed_injective.
Print Assumptions C66_round_trip.
Print Assumptions C66_sorted_load.
Print Assumptions C66_bytes.
Print Assumptions C66_any_encoding.
Print Assumptions C66_writes_json.
Print Assumptions C66_succeeds.
Print Assumptions C66_fails.
Print Assumptions C66_mixed_keys.
Print Assumptions C66_finite.
Print Assumptions C66_any_layout_refuted.
Print Assumptions C66_sorted_text.
Print Assumptions C66_one_line.
Print Assumptions C66_ascii.
Print Assumptions C66_plain_strings.
