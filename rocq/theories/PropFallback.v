(** * C84: the argument default of json.dumps

    Model: FallbackModel.v.  Specification: FallbackSpec.v, with the objects json cannot write
    ([foreign]), a value in which they are replaced ([replaced]), and the objects default is
    called with ([given]).  [m] bounds the calls of default within each other. *)
From Coq Require Import Lia.
From Verif Require Import EngineEnv EngineFacts PyBaseFacts FallbackSpec OrderSpec JsonTextProofs JsonTextLaws LayoutProofs LayoutLaws FallbackProofs
  PropDump PropJsonText PropLayout.
Local Close Scope Z_scope.
Local Open Scope string_scope.

(** ** The objects are replaced *)
(** If everything in the dumped value can be replaced, dumps ends as json.dumps without default ends for the
    replaced value: with the same text or the same exception. *)
Theorem C84_replaced : forall E T L D f n o cls v j j', snd (dump E f n o cls v) = Done j -> replaced (e_ct E) D j j' ->
  exists N, forall m, N <= m -> snd (dumps_by E T L D m f n o cls v) = snd (lift (json_text T (e_ct E) L 0 j')).
Proof.
  intros E T L D f n o cls v j j' Hd Hr. destruct (by_replaced T (e_ct E) L D j j' Hr) as (N & HN). exists N. intros m Hm.
  unfold dumps_by, mbind. rewrite Hd. cbn [snd]. now apply HN.
Qed.
(** And only then there is a text. *)
Theorem C84_written : forall E T L D f n o cls v s,
  (exists m, snd (dumps_by E T L D m f n o cls v) = Done s) <->
  exists j j', snd (dump E f n o cls v) = Done j /\ replaced (e_ct E) D j j' /\ json_text T (e_ct E) L 0 j' = Ok s.
Proof.
  intros E T L D f n o cls v s. split.
  - intros (m & H). apply bind_done in H as (j & Hd & H). destruct (by_done T (e_ct E) L D m j 0 s H) as (j' & Hr). exists j, j'.
    split; [exact Hd|]. split; [exact Hr|]. destruct (by_replaced T (e_ct E) L D j j' Hr) as (N & HN).
    pose proof (HN (Nat.max N m) 0 ltac:(lia)) as G. rewrite (by_stable T (e_ct E) L D m (Nat.max N m) j 0) in G by (lia || congruence).
    rewrite H in G. symmetry in G. now apply lift_done in G.
  - intros (j & j' & Hd & Hr & Ht). destruct (C84_replaced E T L D f n o cls v j j' Hd Hr) as (N & HN). exists N.
    rewrite HN by lia. now rewrite Ht.
Qed.
(** The bound does not matter. *)
Theorem C84_bound : forall E T L D m m' f n o cls v, m <= m' -> snd (dumps_by E T L D m f n o cls v) <> Oof ->
  dumps_by E T L D m' f n o cls v = dumps_by E T L D m f n o cls v.
Proof.
  intros E T L D m m' f n o cls v Hm H. unfold dumps_by in *. apply bind_ext. intros j Hj. apply by_stable; [exact Hm|].
  intros Ho. apply H. unfold mbind. now rewrite Hj.
Qed.
(** If the replaced value is JSON data, loading the text is loading the replaced value: exactly, or with its
    keys in order if they are sorted. *)
Theorem C84_loads : forall E T L D f n o cls v j j', plain_layout L -> snd (dump E f n o cls v) = Done j ->
  replaced (e_ct E) D j j' -> json_data j' -> floats_read_back T (e_ct E) j' -> ly_nan L = true \/ finite j' ->
  exists s j1 N, (forall m, N <= m -> snd (dumps_by E T L D m f n o cls v) = Done s) /\ same j' j1 /\
    (ly_sort L = false -> j1 = j') /\ (ly_sort L = true -> keys_in_order j1) /\
    forall E' m g lo cls', loads E' T m g lo cls' (OVal (VStr s)) = load E' m g lo cls' j1.
Proof.
  intros E T L D f n o cls v j j' HL Hd Hr Hj Hf Hn.
  destruct (proj2 (json_text_iff T (e_ct E) L j' 0 (fun _ => json_data_keys _ _ Hj)) (json_data_writable_with _ L _ Hj Hn)) as (s & Hs).
  destruct (C84_replaced E T L D f n o cls v j j' Hd Hr) as (N & HN).
  destruct (json_text_value T (e_ct E) L HL j' 0 s Hs Hf) as (j1 & Ha & Hv).
  destruct (arranged_data _ _ _ Hj _ Ha) as (H1 & H2 & H3 & H4). exists s, j1, N.
  split; [intros m Hm; rewrite HN by exact Hm; now rewrite Hs|]. split; [exact H2|]. split; [exact H3|]. split; [exact H4|].
  assert (Hdoc : json_document T (codes s) (json_image T (e_ct E) j1)).
  { exists [], (codes s), []. rewrite app_nil_r. repeat split; try constructor. exact Hv. }
  intros E' m g lo cls'. rewrite (loads_document E' T m g lo cls' s _ Hdoc). now rewrite json_image_data.
Qed.
(** Bytes *)
Theorem C84_bytes : forall E T L D m f n o cls v b, snd (dumpb_by E T L D m f n o "utf-8" cls v) = Done b ->
  exists s, snd (dumps_by E T L D m f n o cls v) = Done s /\ codes b = flat_map utf8 (codes s) /\
    forall E' k g lo cls', loadb E' T k g lo "utf-8" cls' (OBytes b) = loads E' T k g lo cls' (OVal (VStr s)).
Proof.
  intros E T L D m f n o cls v b H. unfold dumpb_by, encode_text in H. cbn [String.eqb Ascii.eqb Bool.eqb lift] in H.
  apply bind_done in H as (s & H1 & H2). injection H2 as <-. exists s. split; [exact H1|]. split; [apply utf8_encode_codes|]. intros. apply loadb_encoded.
Qed.

(** ** When default is called *)
(** A function that raises TypeError is no function at all. *)
Theorem C84_no_default : forall E T L m f n o cls v, dumps_by E T L no_default (S m) f n o cls v = dumps_with E T L f n o cls v.
Proof. intros E T L m f n o cls v. unfold dumps_by, dumps_with. apply bind_ext. intros j _. apply by_no_default. Qed.
(** Only what the function does with the objects it is given matters: those json cannot write. *)
Theorem C84_only_given : forall E T L D D' m f n o cls v,
  (forall j x, snd (dump E f n o cls v) = Done j -> given (e_ct E) D x j -> D x = D' x) ->
  dumps_by E T L D m f n o cls v = dumps_by E T L D' m f n o cls v.
Proof. intros E T L D D' m f n o cls v H. unfold dumps_by. apply bind_ext. intros j Hj. apply by_agree. intros x Hx. exact (H j x Hj Hx). Qed.
Theorem C84_given_foreign : forall CT D x v, given CT D x v -> foreign CT x.
Proof. intros CT D x v. apply given_foreign. Qed.
(** If json can write all parts of the dumped value, the function is not called. *)
Theorem C84_unused : forall E T L D m f n o cls v,
  (forall j p, snd (dump E f n o cls v) = Done j -> part_of p j -> ~ foreign (e_ct E) p) ->
  dumps_by E T L D (S m) f n o cls v = dumps_with E T L f n o cls v.
Proof.
  intros E T L D m f n o cls v H. rewrite <- (C84_no_default E T L m). apply C84_only_given. intros j x Hj Hx.
  apply given_part in Hx as (p & Hp & Hf). destruct (H j p Hj Hp Hf).
Qed.

(** The default serializers leave nothing to it (C21: unless they copy an attribute of an object that
    is dumped as an enum it is no member of, or the value of a member). *)
Theorem C84_default_serializers : forall E T L D m f n o cls v,
  default_serializers E f -> wf_supers (e_ct E) -> kt_json (e_ct E) o -> genuine E f o cls v -> scalars_known (e_ct E) ->
  dumps_by E T L D (S m) f n o cls v = dumps_with E T L f n o cls v.
Proof.
  intros E T L D m f n o cls v HS HW HK HG HC. apply C84_unused. intros j p Hj. apply json_part; [exact HC|].
  exact (C21_dump_only_json E f n o cls v j HS HW HK HG Hj).
Qed.
Example C84_default_serializers_case :
  default_serializers demo_env 0 /\ wf_supers (e_ct demo_env) /\ kt_json (e_ct demo_env) sopts0 /\
  genuine demo_env 0 sopts0 None party /\ scalars_known (e_ct demo_env).
Proof.
  split; [exact demo_serializers|]. split; [exact demo_supers|]. split; [intros g k k' H; discriminate|].
  split; [apply party_genuine; reflexivity|]. intros v [->|[p Hp]]; [discriminate|]. destruct v; try discriminate;
    try (destruct p; vm_compute in Hp; discriminate); try (destruct k, p; vm_compute in Hp; discriminate);
    try (destruct x, p; vm_compute in Hp; discriminate); exfalso; do 5 (destruct c as [|c]; [destruct p; vm_compute in Hp; discriminate|]); destruct p; vm_compute in Hp; discriminate.
Qed.

(** ** Exceptions *)
(** If there is a text, the function has returned something for each object it was given, and not the
    object itself. *)
Theorem C84_answers : forall E T L D m f n o cls v j s, snd (dump E f n o cls v) = Done j -> snd (dumps_by E T L D m f n o cls v) = Done s ->
  forall x, given (e_ct E) D x j -> exists y, snd (D x) = Done y /\ y <> x.
Proof.
  intros E T L D m f n o cls v j s Hd H x Hx.
  destruct (proj1 (C84_written E T L D f n o cls v s) (ex_intro _ m H)) as (j0 & j' & Hd' & Hr & _). rewrite Hd in Hd'. injection Hd' as <-.
  destruct (given_done _ _ _ _ Hr x Hx) as (y & Hy). exists y. split; [exact Hy|]. intros ->. exact (given_endless _ _ _ _ Hr x Hx Hy).
Qed.
(** Every exception is one of dump, one of the function for an object it was given, or a TypeError or ValueError
    of json.dumps. *)
Theorem C84_fails : forall E T L D m f n o cls v e,
  ly_sort L = false \/ (forall a b e', ly_lt L a b = Err e' -> e' = exn_of KType) ->
  snd (dumps_by E T L D m f n o cls v) = Fail e ->
  snd (dump E f n o cls v) = Fail e \/ exists j, snd (dump E f n o cls v) = Done j /\
    (e = exn_of KType \/ e = exn_of KValue \/ exists x, given (e_ct E) D x j /\ snd (D x) = Fail e).
Proof.
  intros E T L D m f n o cls v e Hl H. apply bind_fail in H as [H|(j & Hj & H)]; [now left|]. right. exists j. split; [exact Hj|].
  exact (by_fails T (e_ct E) L D Hl m j 0 e H).
Qed.

(** ** Cases *)
(** A registered serializer for Person that returns an object with a set and a path; default makes lists of sets
    and sets of strings of paths, and knows nothing else. *)
Definition person_to (r : value) : env :=
  mkEnv demo_ct demo_rt 0 (fun _ t => match t with TClass 1 => Some (SCustom 0) | _ => default_ser demo_ct t end)
        (fun _ => default_deser demo_ct) (fun _ _ => None) (fun _ _ => true) (fun _ _ => raise KUnknownClass)
        (fun _ _ _ => Ok r) (fun _ _ _ => raise KType).
Definition lists_and_paths (v : value) : M value :=
  match v with
  | VColl _ l => ret (VList l)
  | VLeaf (LPath p) => ret (VColl CSet [VStr "path"])
  | _ => fail (exn_of (KOther 7))
  end.
Definition odd_doc : value := str_dict [("tags", VColl CSet [VInt 1; VInt 2]); ("home", VList [VLeaf (LPath "/")])].
Definition even_doc : value := str_dict [("tags", VList [VInt 1; VInt 2]); ("home", VList [VList [VStr "path"]])].
Example C84_case :
  snd (dump (person_to odd_doc) 0 9 sopts0 None (VList [john])) = Done (VList [odd_doc]) /\
  replaced demo_ct lists_and_paths (VList [odd_doc]) (VList [even_doc]) /\
  given demo_ct lists_and_paths (VLeaf (LPath "/")) (VList [odd_doc]) /\
  snd (dumps_by (person_to odd_doc) demo_trt layout0 lists_and_paths 3 0 9 sopts0 None (VList [john])) =
    Done "[{""tags"": [1, 2], ""home"": [[""path""]]}]" /\
  snd (dumps_by (person_to odd_doc) demo_trt layout0 lists_and_paths 2 0 9 sopts0 None (VList [john])) = Oof /\
  snd (dumps_by (person_to odd_doc) demo_trt pretty lists_and_paths 3 0 9 sopts0 None john) =
    Done "{
  ""tags"": [
    1,
    2
  ],
  ""home"": [
    [
      ""path""
    ]
  ]
}" /\
  snd (dumps_with (person_to odd_doc) demo_trt layout0 0 9 sopts0 None (VList [john])) = Fail (exn_of KType) /\
  snd (dumps_by (person_to (VLeaf (LUUID 5))) demo_trt layout0 lists_and_paths 3 0 9 sopts0 None john) = Fail (exn_of (KOther 7)).
Proof.
  assert (Hset : forall l, foreign demo_ct (VColl CSet l)) by (intros l; split; [reflexivity|exact I]).
  assert (Hpath : forall p, foreign demo_ct (VLeaf (LPath p))) by (intros l; split; [reflexivity|exact I]).
  split; [vm_compute; reflexivity|]. split.
  { apply rp_list. constructor; [|constructor]. apply rp_dict. constructor; [|constructor; [|constructor]]; split; try reflexivity; intros _; cbn [snd].
    - apply rp_foreign with (VList [VInt 1; VInt 2]); [apply Hset|reflexivity|]. apply rp_list.
      constructor; [exact (rp_scalar demo_ct _ (VInt 1) (VInt 1) eq_refl)|constructor; [exact (rp_scalar demo_ct _ (VInt 2) (VInt 2) eq_refl)|constructor]].
    - apply rp_list. constructor; [|constructor]. apply rp_foreign with (VColl CSet [VStr "path"]); [apply Hpath|reflexivity|].
      apply rp_foreign with (VList [VStr "path"]); [apply Hset|reflexivity|]. apply rp_list. constructor; [|constructor].
      exact (rp_scalar demo_ct _ (VStr "path") (VStr "path") eq_refl). }
  split.
  { apply gv_list with odd_doc; [now left|]. apply gv_dict with (VStr "home") (VList [VLeaf (LPath "/")]); [right; now left|discriminate|].
    apply gv_list with (VLeaf (LPath "/")); [now left|]. apply gv_here. apply Hpath. }
  repeat split; vm_compute; reflexivity.
Qed.
Example C84_loads_case : json_data even_doc /\ floats_read_back demo_trt demo_ct even_doc /\ plain_layout pretty.
Proof.
  split; [|split; [|split; exact I]].
  - apply jd_dict; [repeat constructor; cbn; intuition discriminate| |].
    + intros k x [H|[H|[]]]; injection H as <- <-; eauto.
    + intros k x [H|[H|[]]]; injection H as <- <-.
      * apply jd_list. intros x [<-|[<-|[]]]; constructor; exact I.
      * apply jd_list. intros x [<-|[]]. apply jd_list. intros x [<-|[]]. constructor; exact I.
  - apply fr_dict. intros y x [H|[H|[]]]; injection H as <- <-; apply fr_list; intros z Hz.
    + destruct Hz as [<-|[<-|[]]]; apply fr_scalar; (discriminate || exact I).
    + destruct Hz as [<-|[]]. apply fr_list. intros z [<-|[]]. apply fr_scalar; (discriminate || exact I).
Qed.

(** ** What default does not do *)
(** It is not asked about keys. *)
Definition tuple_key : value := VDict DkDict [(VTuple [VInt 1; VInt 2], VNone)].
Theorem C84_keys_refuted :
  exists E v j, snd (dump E 0 9 sopts0 None v) = Done j /\
  forall T L D m, ly_skip L = false -> ly_sort L = false -> snd (dumps_by E T L D (S m) 0 9 sopts0 None v) = Fail (exn_of KType).
Proof.
  exists (person_to tuple_key), john, tuple_key. split; [vm_compute; reflexivity|]. intros T L D m Hk Hs.
  assert (Hd : snd (dump (person_to tuple_key) 0 9 sopts0 None john) = Done tuple_key) by (vm_compute; reflexivity).
  unfold dumps_by, mbind. rewrite Hd. cbn [snd json_text_by]. unfold tuple_key. rewrite text_by_dict, items_map. unfold items_of. rewrite Hs.
  cbn [res_map map on_snd fst snd]. rewrite bind_lift_ok. cbn [entries_by fst]. unfold key_text_with. cbn [scalar_of]. rewrite Hk. reflexivity.
Qed.
(** Its exceptions are not reported as SerializationErrors. *)
Theorem C84_exceptions_refuted : forall e, exists E v, forall T L m,
  snd (dumps_by E T L (fun _ => fail e) (S m) 0 9 sopts0 None v) = Fail e.
Proof.
  intros e. exists (person_to (VColl CSet [])), john. intros T L m.
  assert (Hd : snd (dump (person_to (VColl CSet [])) 0 9 sopts0 None john) = Done (VColl CSet [])) by (vm_compute; reflexivity).
  unfold dumps_by, mbind. rewrite Hd. reflexivity.
Qed.
(** A function that returns every object as it is never leads to a text if there is something to replace. *)
Theorem C84_identity_refuted : forall E T L m f n o cls v j x, snd (dump E f n o cls v) = Done j -> given (e_ct E) ret x j ->
  forall s, snd (dumps_by E T L ret m f n o cls v) <> Done s.
Proof.
  intros E T L m f n o cls v j x Hd Hx s H. destruct (C84_answers E T L ret m f n o cls v j s Hd H x Hx) as (y & Hy & Hn).
  injection Hy as <-. now apply Hn.
Qed.
Example C84_identity_case : given (e_ct (person_to (VColl CSet []))) ret (VColl CSet []) (VColl CSet []).
Proof. apply gv_here. split; [reflexivity|exact I]. Qed.

Print Assumptions C84_replaced.
Print Assumptions C84_written.
Print Assumptions C84_loads.
Print Assumptions C84_only_given.
Print Assumptions C84_default_serializers.
Print Assumptions C84_fails.
Print Assumptions C84_keys_refuted.
