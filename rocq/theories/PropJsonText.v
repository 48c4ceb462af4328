(** * C50: JSON text and bytes

    Model: JsonTextModel.v.  Specification: JsonTextSpec.v, with a grammar of JSON
    ([json_document]), what reading leaves of a value ([json_image]) and UTF-8 ([utf8]).
    [T] holds what is not modelled: float.__repr__ and float(), other encodings than UTF-8,
    and how characters beyond Latin-1 are represented. *)
From Verif Require Import PyBaseFacts JsonTextSpec JsonTextProofs DumpLaws LoadFacts RoundTripLaws JsonTextLaws PropRoundTrip.
Local Close Scope Z_scope.
Local Open Scope string_scope.

(** An instance: floats are always 2.5. *)
Definition demo_trt : textrt :=
  mkTrt (fun _ => "2.5") (fun _ => FFin 5 (-1)) (fun _ => "?")
        (fun _ _ => raise KUnicode) (fun _ _ => raise KUnicode) (fun _ => raise KUnicode).

(** The Latin-1 string with these characters, or the bytes *)
Definition bytes (l : list nat) : string := string_of_list_ascii (map ascii_of_nat l).

(** ** loads *)
(** A JSON text is loaded as what it stands for, with the same effects; every other text is
    a DecodeError, without effects. *)
Theorem C50_loads_json : forall E T n f o cls s j, json_document T (codes s) j ->
  loads E T n f o cls (OVal (VStr s)) = load E n f o cls j.
Proof. exact loads_document. Qed.
Theorem C50_loads_malformed : forall E T n f o cls s, (forall j, ~ json_document T (codes s) j) ->
  loads E T n f o cls (OVal (VStr s)) = fail (exn_of KDecode).
Proof. exact loads_malformed. Qed.
Theorem C50_loads_done : forall E T n f o cls s v,
  snd (loads E T n f o cls (OVal (VStr s))) = Done v <->
  exists j, json_document T (codes s) j /\ snd (load E n f o cls j) = Done v.
Proof. exact loads_done. Qed.
(** A text stands for one value at most. *)
Theorem C50_text_unambiguous : forall T s j j', json_document T s j -> json_document T s j' -> j = j'.
Proof. exact json_document_unique. Qed.
(** What is not a text (nor bytes) is a TypeError of json.loads, not a JsonsError. *)
Theorem C50_loads_no_text : forall E T n f o cls v, (forall s, v <> VStr s) ->
  loads E T n f o cls (OVal v) = fail (exn_of KType).
Proof. exact loads_other. Qed.
Definition john_text : string := " { ""name"" : ""John"",""age"":30}".
Example C50_loads_case :
  json_document demo_trt (codes john_text) (str_dict [("name", VStr "John"); ("age", VInt 30)]) /\
  snd (loads demo_env demo_trt 5 0 lopts0 (Some (TClass 1)) (OVal (VStr john_text))) = Done john /\
  (forall j, ~ json_document demo_trt (codes "{""a"": 01}") j) /\
  snd (loads demo_env demo_trt 5 0 lopts0 None (OVal (VStr "{""a"": 01}"))) = Fail (exn_of KDecode) /\
  snd (loads demo_env demo_trt 5 0 lopts0 None (OVal (VStr "[1, -2, 2.5e0, ""\n"", null,true ]"))) =
    Done (VList [VInt 1; VInt (-2); VFloat (FFin 5 (-1)); VStr (String (ascii_of_nat 10) ""); VNone; VBool true]).
Proof.
  split; [apply json_loads_iff; vm_compute; reflexivity|]. split; [vm_compute; reflexivity|]. split; [|split; vm_compute; reflexivity].
  intros j Hj. apply json_loads_iff in Hj. vm_compute in Hj. discriminate.
Qed.

(** ** dumps *)
(** dumps succeeds exactly if dump does and its result can be written; otherwise the failure
    of dump, or a TypeError; its effects are those of dump. *)
Theorem C50_dumps_succeeds : forall E T f n o cls v,
  (exists s, snd (dumps E T f n o cls v) = Done s) <->
  exists j, snd (dump E f n o cls v) = Done j /\ writable (e_ct E) j.
Proof. exact dumps_succeeds. Qed.
Theorem C50_dumps_fails : forall E T f n o cls v e,
  snd (dumps E T f n o cls v) = Fail e <->
  snd (dump E f n o cls v) = Fail e \/
  exists j, snd (dump E f n o cls v) = Done j /\ ~ writable (e_ct E) j /\ e = exn_of KType.
Proof. exact dumps_fails. Qed.
Theorem C50_dumps_effects : forall E T f n o cls v, fst (dumps E T f n o cls v) = fst (dump E f n o cls v).
Proof. exact dumps_events. Qed.
(** What dumps returns is a JSON text for the dumped value, with strings for keys and lists
    for tuples. *)
Theorem C50_dumps_writes_json : forall E T f n o cls v s j,
  snd (dump E f n o cls v) = Done j -> floats_read_back T (e_ct E) j ->
  snd (dumps E T f n o cls v) = Done s -> json_document T (codes s) (json_image T (e_ct E) j).
Proof. exact dumps_written. Qed.
Theorem C50_dumps_ascii : forall E T f n o cls v s, (forall x, ascii_text (tr_repr T x)) ->
  snd (dumps E T f n o cls v) = Done s -> ascii_text s.
Proof.
  intros E T f n o cls v s HT H. apply dumps_done in H as (j & _ & H). now apply (json_dumps_ascii T (e_ct E) HT j).
Qed.
Lemma fr_list T CT l : (forall x, In x l -> floats_read_back T CT x) -> floats_read_back T CT (VList l).
Proof. intros H w x Hw Hx. inversion Hw; subst; [discriminate|]. now apply (H x0 ltac:(assumption) w). Qed.
Lemma fr_dict T CT k d : (forall y x, In (y, x) d -> floats_read_back T CT x) -> floats_read_back T CT (VDict k d).
Proof. intros H w x Hw Hx. inversion Hw; subst; [discriminate|]. now apply (H y x0 ltac:(assumption) w). Qed.
Lemma fr_scalar T CT v : (forall x, v = VFloat x -> reads_back T x) -> plain_scalar v -> floats_read_back T CT v.
Proof.
  intros H Hv w x Hw Hx. destruct v; try (now destruct Hv); inversion Hw; subst; try discriminate.
  injection Hx as <-. now apply H.
Qed.
Lemma demo_reads_back : reads_back demo_trt (FFin 5 (-1)).
Proof.
  exists false, (codes "2"), (codes ".5"), []. split; [reflexivity|].
  split; [right; exists 50%Z, []; repeat split; (constructor || discriminate)|].
  split; [right; exists (codes "5"); repeat split; [discriminate|]; constructor; [split; discriminate|constructor]|].
  repeat split; auto. left. discriminate.
Qed.
Example C50_dumps_case :
  snd (dumps demo_env demo_trt 0 5 sopts0 None (VList [john; VFloat (FFin 5 (-1)); VTuple [VNone; VStr (bytes [233])]])) =
    Done "[{""age"": 30, ""name"": ""John""}, 2.5, [null, ""\u00e9""]]" /\
  floats_read_back demo_trt demo_ct (VList [john_doc; VFloat (FFin 5 (-1)); VList [VNone; VStr (bytes [233])]]).
Proof.
  split; [vm_compute; reflexivity|]. apply fr_list. intros x [<-|[<-|[<-|[]]]].
  - apply fr_dict. intros y x [H|[H|[]]]; injection H as <- <-; apply fr_scalar; (discriminate || exact I).
  - apply fr_scalar; [|exact I]. intros x H. injection H as <-. exact demo_reads_back.
  - apply fr_list. intros x [<-|[<-|[]]]; apply fr_scalar; (discriminate || exact I).
Qed.

(** ** loads(dumps(v)) *)
(** loads(dumps(v)) is load(dump(v)), up to the keys and the tuples of the dumped value. *)
Theorem C50_loads_dumps : forall E T f n o cls v j s,
  snd (dump E f n o cls v) = Done j -> floats_read_back T (e_ct E) j -> snd (dumps E T f n o cls v) = Done s ->
  forall E' m g lo cls', loads E' T m g lo cls' (OVal (VStr s)) = load E' m g lo cls' (json_image T (e_ct E) j).
Proof. exact loads_dumps. Qed.
(** If the dumped value consists of lists, of dicts with strings as keys, and of scalars,
    dumps succeeds and loads(dumps(v)) is load(dump(v)). *)
Theorem C50_loads_dumps_data : forall E T f n o cls v j,
  snd (dump E f n o cls v) = Done j -> json_data j -> floats_read_back T (e_ct E) j ->
  exists s, snd (dumps E T f n o cls v) = Done s /\
    forall E' m g lo cls', loads E' T m g lo cls' (OVal (VStr s)) = load E' m g lo cls' j.
Proof. exact loads_dumps_data. Qed.
(** Well-typed values: loads(dumps(v), t) = v, and with bytes. *)
Theorem C50_text_round_trip : forall E T f g o t v,
  default_serializers E f -> default_deserializers E g -> exact_dump o -> has_type E g o t v ->
  (forall j, (exists N, forall n, N <= n -> snd (dump E f n o None v) = Done j) -> floats_read_back T (e_ct E) j) ->
  exists s N, forall n m cls lo, N <= n -> N <= m -> cls = None \/ cls = Some t -> exact_load lo ->
    snd (dumps E T f n o cls v) = Done s /\ snd (loads E T m g lo (Some t) (OVal (VStr s))) = Done v.
Proof. exact text_roundtrip. Qed.
Theorem C50_bytes_round_trip : forall E T f g o t v,
  default_serializers E f -> default_deserializers E g -> exact_dump o -> has_type E g o t v ->
  (forall j, (exists N, forall n, N <= n -> snd (dump E f n o None v) = Done j) -> floats_read_back T (e_ct E) j) ->
  exists b N, forall n m cls lo, N <= n -> N <= m -> cls = None \/ cls = Some t -> exact_load lo ->
    snd (dumpb E T f n o "utf-8" cls v) = Done b /\ snd (loadb E T m g lo "utf-8" (Some t) (OBytes b)) = Done v.
Proof. exact bytes_roundtrip. Qed.
Example C50_round_trip_case :
  has_type demo_env 0 sopts0 (TClass 2) group /\
  (forall j, (exists N, forall n, N <= n -> snd (dump demo_env 0 n sopts0 None group) = Done j) -> floats_read_back demo_trt demo_ct j) /\
  snd (dumps demo_env demo_trt 0 5 sopts0 None group) =
    Done "{""lead"": {""age"": 31, ""name"": ""Mary""}, ""members"": [{""age"": 30, ""name"": ""John""}, {""age"": 31, ""name"": ""Mary""}]}" /\
  snd (loads demo_env demo_trt 5 0 lopts0 (Some (TClass 2)) (OVal (VStr
    "{""lead"": {""age"": 31, ""name"": ""Mary""}, ""members"": [{""age"": 30, ""name"": ""John""}, {""age"": 31, ""name"": ""Mary""}]}"))) =
    Done group.
Proof.
  split; [exact C28_group|]. split; [|split; vm_compute; reflexivity].
  intros j (N & HN). specialize (HN (5 + N) ltac:(lia)). vm_compute in HN. injection HN as <-.
  assert (Hp : forall a b, floats_read_back demo_trt demo_ct (str_dict [("age", VInt a); ("name", VStr b)])).
  { intros a b. apply fr_dict. intros y x [H|[H|[]]]; injection H as <- <-; apply fr_scalar; (discriminate || exact I). }
  apply fr_dict. intros y x [H|[H|[]]]; injection H as <- <-; [apply Hp|].
  apply fr_list. intros x [<-|[<-|[]]]; apply Hp.
Qed.
(** In general, keys that are no strings do not come back. *)
Theorem C50_keys_refuted : exists E T v j s,
  snd (dump E 0 5 sopts0 None v) = Done j /\ floats_read_back T (e_ct E) j /\
  snd (dumps E T 0 5 sopts0 None v) = Done s /\
  snd (loads E T 5 0 lopts0 None (OVal (VStr s))) <> snd (load E 5 0 lopts0 None j).
Proof.
  exists demo_env, demo_trt, (VDict DkDict [(VInt 1, VNone); (VStr "1", VStr "x")]), (VDict DkDict [(VInt 1, VNone); (VStr "1", VStr "x")]),
    "{""1"": null, ""1"": ""x""}".
  split; [vm_compute; reflexivity|]. split; [|split; [vm_compute; reflexivity|vm_compute; discriminate]].
  intros w x Hw Hx.
  inversion Hw as [| | | |k d y z Hin Hz]; subst; [discriminate|]. destruct Hin as [Hin|[Hin|[]]]; injection Hin as <- <-;
    inversion Hz; subst; discriminate.
Qed.

(** ** Bytes *)
(** dumpb is the UTF-8 encoding of what dumps returns, and fails as dumps does. *)
Theorem C50_dumpb : forall E T f n o cls v b,
  snd (dumpb E T f n o "utf-8" cls v) = Done b <->
  exists s, snd (dumps E T f n o cls v) = Done s /\ codes b = flat_map utf8 (codes s).
Proof. exact dumpb_done. Qed.
Theorem C50_dumpb_fails : forall E T f n o cls v e,
  snd (dumpb E T f n o "utf-8" cls v) = Fail e <-> snd (dumps E T f n o cls v) = Fail e.
Proof. exact dumpb_fails. Qed.
Theorem C50_loadb_dumpb : forall E T f n o cls v b, snd (dumpb E T f n o "utf-8" cls v) = Done b ->
  exists s, snd (dumps E T f n o cls v) = Done s /\
  forall E' m g lo cls', loadb E' T m g lo "utf-8" cls' (OBytes b) = loads E' T m g lo cls' (OVal (VStr s)).
Proof. exact loadb_dumpb. Qed.
(** loadb: bytes are the UTF-8 encoding of a JSON text, of another text, or of no text; the
    last is a UnicodeDecodeError, not a JsonsError. *)
Theorem C50_loadb_json : forall E T n f o cls b s j,
  Forall scalar_value s -> codes b = flat_map utf8 s -> json_document T s j ->
  loadb E T n f o "utf-8" cls (OBytes b) = load E n f o cls j.
Proof. exact loadb_document. Qed.
Theorem C50_loadb_malformed : forall E T n f o cls b s,
  Forall scalar_value s -> codes b = flat_map utf8 s -> (forall j, ~ json_document T s j) ->
  loadb E T n f o "utf-8" cls (OBytes b) = fail (exn_of KDecode).
Proof. exact loadb_malformed. Qed.
Theorem C50_loadb_invalid : forall E T n f o cls b,
  (forall s, Forall scalar_value s -> codes b <> flat_map utf8 s) ->
  loadb E T n f o "utf-8" cls (OBytes b) = fail (exn_of KUnicode).
Proof. exact loadb_invalid. Qed.
Theorem C50_loadb_no_bytes : forall E T n f o enc cls v, loadb E T n f o enc cls (OVal v) = fail (exn_of KDeser).
Proof. reflexivity. Qed.
Example C50_loadb_case :
  (* ["e acute"] *)
  codes (bytes [91; 34; 195; 169; 34; 93]) = flat_map utf8 [91; 34; 233; 34; 93]%Z /\
  snd (loadb demo_env demo_trt 5 0 lopts0 "utf-8" None (OBytes (bytes [91; 34; 195; 169; 34; 93]))) =
    Done (VList [VStr (bytes [233])]) /\
  (forall s, Forall scalar_value s -> codes (bytes [34; 233; 34]) <> flat_map utf8 s) /\
  snd (loadb demo_env demo_trt 5 0 lopts0 "utf-8" None (OBytes (bytes [34; 233; 34]))) = Fail (exn_of KUnicode).
Proof.
  split; [reflexivity|]. split; [vm_compute; reflexivity|]. split; [|vm_compute; reflexivity].
  intros s Hs He. apply utf8_decode_complete in Hs. rewrite <- He in Hs. vm_compute in Hs. discriminate.
Qed.
(** Failures that are no JsonsErrors *)
Theorem C50_always_jsons_error_refuted :
  (exists E T n f o cls x e, snd (loadb E T n f o "utf-8" cls x) = Fail e /\ is_jsons (e_kind e) = false) /\
  (exists E T n f o cls x e, snd (loads E T n f o cls x) = Fail e /\ is_jsons (e_kind e) = false) /\
  (exists E T f n o cls v j e, snd (dump E f n o cls v) = Done j /\
     snd (dumps E T f n o cls v) = Fail e /\ is_jsons (e_kind e) = false).
Proof.
  split; [|split].
  - exists demo_env, demo_trt, 5, 0, lopts0, None, (OBytes (bytes [233])), (exn_of KUnicode). split; vm_compute; reflexivity.
  - exists demo_env, demo_trt, 5, 0, lopts0, None, (OVal VNone), (exn_of KType). split; vm_compute; reflexivity.
  - exists (std_env (fun _ => enum_class "m" "Sets" [("EMPTY", VColl CSet [])]) demo_rt), demo_trt, 0, 5,
      (mkSopts false false None false false false SANone false false false false false []),
      None, (VEnum 0 "EMPTY"), (VColl CSet []), (exn_of KType). repeat split; vm_compute; reflexivity.
Qed.

Print Assumptions C50_loads_json.
Print Assumptions C50_loads_malformed.
Print Assumptions C50_loads_done.
Print Assumptions C50_text_unambiguous.
Print Assumptions C50_loads_no_text.
Print Assumptions C50_dumps_succeeds.
Print Assumptions C50_dumps_fails.
Print Assumptions C50_dumps_effects.
Print Assumptions C50_dumps_writes_json.
Print Assumptions C50_dumps_ascii.
Print Assumptions C50_loads_dumps.
Print Assumptions C50_loads_dumps_data.
Print Assumptions C50_text_round_trip.
Print Assumptions C50_bytes_round_trip.
Print Assumptions C50_keys_refuted.
Print Assumptions C50_dumpb.
Print Assumptions C50_dumpb_fails.
Print Assumptions C50_loadb_dumpb.
Print Assumptions C50_loadb_json.
Print Assumptions C50_loadb_malformed.
Print Assumptions C50_loadb_invalid.
Print Assumptions C50_loadb_no_bytes.
Print Assumptions C50_always_jsons_error_refuted.
