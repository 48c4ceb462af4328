(** * C40, C41: dicts with keys that JSON does not have

    dump stores the value of such a key under the hash of the key, and the dump of the key
    in a section '-keys'; load puts them together again.
    Models: EngineSer.v, EngineDeser.v; HashedKeysModel.v for the effect on the document that
    is loaded.  Specification: HashedSpec.v. *)
From Verif Require Import HashedSpec PropRoundTrip HashedProofs HashedLoss HashedKeysProofs.
Local Close Scope Z_scope.
Local Open Scope string_scope.

(** ** C40: the round trip *)
(** Whatever the hash function, as long as no two keys are equal and no two of the keys and
    hashes that stand for them in the document are equal: all entries come back, keys and
    values, though not necessarily in the same order. *)
Theorem C40_round_trip : forall E f g o,
  default_serializers E f -> default_deserializers E g ->
  forall b h tk t d v, exact_dump o -> mapping_of h d v ->
  (forall k x, In (k, x) d -> good_entry E g o tk t k x) -> (exists k, In k (map fst d) /\ compound k) ->
  distinct (map fst d) -> distinct (map (stands_for E) (map fst d)) ->
  (forall d' v', Permutation d d' -> mapping_of h d' v' ->
     accepts E g (TApp b h [tk; t]) v' /\ (h = HDefaultDict -> accepts E g (TApp true HDict [tk; t]) (VDict DkDict d'))) ->
  exists doc N, forall n m cls lo, N <= n -> N <= m -> cls = None \/ cls = Some (TApp b h [tk; t]) -> exact_load lo ->
    snd (dump E f n o cls v) = Done (VDict DkDict doc) /\
    exists d' v', Permutation d d' /\ mapping_of h d' v' /\
      snd (load E m g lo (Some (TApp b h [tk; t])) (VDict DkDict doc)) = Done v'.
Proof. exact hashed_roundtrip. Qed.

(** Loading a document with the section: whatever the names, the order of the document, the
    order of the section, and the other entries *)
Theorem C40_section_loads : forall E g, default_deserializers E g ->
  forall b h tk t es rest doc loaded rest' m lo,
  exact_load lo -> hashed_document es rest doc -> es <> [] ->
  (forall n, m <= n -> entries_load E n g tk t es rest loaded rest') ->
  (forall k, In k (map fst doc) -> k <> VStr "-meta") ->
  distinct (map fst doc ++ map fst loaded) -> forallb (hashable (e_ct E)) (map fst (loaded ++ rest')) = true ->
  (forall d' v', Permutation (loaded ++ rest') d' -> mapping_of h d' v' ->
     accepts E g (TApp b h [tk; t]) v' /\ (h = HDefaultDict -> accepts E g (TApp true HDict [tk; t]) (VDict DkDict d'))) ->
  (h = HDict \/ h = HMapping \/ h = HOrderedDict \/ h = HDefaultDict) ->
  forall n, S (S m) <= n ->
  exists d' v', Permutation (loaded ++ rest') d' /\ mapping_of h d' v' /\
    snd (load E n g lo (Some (TApp b h [tk; t])) (VDict DkDict doc)) = Done v'.
Proof.
  intros E g HD b h tk t es rest doc loaded rest' m lo Hlo Hdoc Hne Hl. intros.
  eapply hashed_load; eauto; intros k Hk; apply (Hl k Hk).
Qed.

(** Two keys that stand under equal names in the document: whatever type the document is
    loaded as, entries are lost and nothing fails. *)
Theorem C40_clash_loses : forall E f g, default_serializers E f -> default_deserializers E g ->
  forall n m o cls kd pre k1 x1 mid k2 x2 post j h1 h2 b h args lo v',
  let d := (pre ++ (k1, x1) :: mid ++ (k2, x2) :: post)%list in
  so_kt o = None ->
  (forall k h, In k (map fst d) -> document_key E f n o k h -> h <> VStr "-keys" /\ h <> VStr "-meta") ->
  document_key E f n o k1 h1 -> document_key E f n o k2 h2 -> plain_scalar h2 -> py_eqb h1 h2 = true ->
  cls = None \/ (exists b' h' args', cls = Some (TApp b' h' args') /\ (h' = HDict \/ h' = HMapping \/ h' = HOrderedDict \/ h' = HDefaultDict)) ->
  snd (dump E f (S n) o cls (VDict kd d)) = Done j ->
  (h = HDict \/ h = HMapping \/ h = HOrderedDict \/ h = HDefaultDict) -> args <> [] ->
  snd (load E m g lo (Some (TApp b h args)) j) = Done v' ->
  exists k' d', v' = VDict k' d' /\ length d' < length d.
Proof. exact clash_loses. Qed.

(** Without a mapping type of two arguments there is no telling what the keys were: the
    document is rejected. *)
Theorem C40_untyped_rejected : forall E g, default_deserializers E g -> forall n lo cls doc,
  stored_keys doc -> ~ In (VStr "-meta") (map fst doc) ->
  (cls = None \/ exists b h args, cls = Some (TApp b h args) /\ (h = HDict \/ h = HMapping \/ h = HOrderedDict) /\
     (args = [] \/ exists a, args = [a]) /\ (lo_strict lo = true \/ TApp b h args <> TApp false HDict [])) ->
  exists e, snd (load E (S n) g lo cls (VDict DkDict doc)) = Fail e /\ e_kind e = KDeser.
Proof. exact untyped_rejected. Qed.

(** Examples: pairs of numbers as keys; their hash is made up. *)
Definition pair_hash (v : value) : Z :=
  match v with VTuple [VInt a; VInt b] => (a * 1000 + b)%Z | _ => 7%Z end.
Definition with_hash (R : runtime) (h : value -> Z) : runtime :=
  mkRt (rt_local R) (rt_now R) (rt_str R) (rt_int R) (rt_float R) (rt_truth R) h (rt_iter R) (rt_dir R)
       (rt_cls_dir R) (rt_getattr R) (rt_type R) (rt_type_name R) (rt_cast R) (rt_decimal R) (rt_path R) (rt_zone R).
Definition hash_env : env := std_env demo_ct (with_hash demo_rt pair_hash).
Definition pair_ty : ty := TApp true HTuple [TPrim PInt; TPrim PInt].
Definition pair (a b : Z) : value := VTuple [VInt a; VInt b].
Definition board_ty : ty := TApp true HDict [pair_ty; TPrim PStr].
Definition board : list (value * value) :=
  [(pair 1 2, VStr "x"); (VStr "name", VStr "n"); (pair 3 4, VStr "y")].
Definition board_doc : list (value * value) :=
  [(VStr "-keys", VDict DkDict [(VInt 1002, VList [VInt 1; VInt 2]); (VInt 3004, VList [VInt 3; VInt 4])]);
   (VInt 1002, VStr "x"); (VStr "name", VStr "n"); (VInt 3004, VStr "y")].
Lemma pair_typed E g o a b : (forall t v, accepts E g t v) -> has_type E g o pair_ty (pair a b).
Proof.
  intros Ha. apply ht_tuple; [discriminate|intros [H|[H|[]]]; discriminate|reflexivity| |apply Ha].
  intros t x [H|[H|[]]]; injection H as <- <-; (apply ht_prim; [reflexivity|apply Ha]).
Qed.
Example C40_round_trip_case :
  (forall k x, In (k, x) board -> good_entry hash_env 0 sopts0 pair_ty (TPrim PStr) k x) /\
  distinct (map fst board) /\ distinct (map (stands_for hash_env) (map fst board)) /\
  snd (dump hash_env 0 5 sopts0 None (VDict DkDict board)) = Done (VDict DkDict board_doc) /\
  snd (load hash_env 5 0 lopts0 (Some board_ty) (VDict DkDict board_doc)) =
    Done (VDict DkDict [(VStr "name", VStr "n"); (pair 1 2, VStr "x"); (pair 3 4, VStr "y")]).
Proof.
  split; [|split; [|split; [|split; vm_compute; reflexivity]]].
  - assert (Ha : forall t v, accepts hash_env 0 t v) by (intros; exact I).
    intros k x [H|[H|[H|[]]]]; injection H as <- <-; (split; [|apply ht_prim; [reflexivity|apply Ha]]).
    + right. split; [exact I|]. split; [reflexivity|]. now apply pair_typed.
    + left. repeat split; discriminate.
    + right. split; [exact I|]. split; [reflexivity|]. now apply pair_typed.
  - repeat constructor.
  - repeat constructor.
Qed.
Example C40_section_case : hashed_document
  [(VInt 1002, VList [VInt 1; VInt 2], VStr "x"); (VInt 3004, VList [VInt 3; VInt 4], VStr "y")]
  [(VStr "name", VStr "n")] board_doc.
Proof.
  exists DkDict. eexists. split; [|apply Permutation_refl]. unfold board_doc. cbn [map fst snd app].
  apply perm_trans with ((VInt 1002, VStr "x") :: (VStr "-keys", VDict DkDict [(VInt 1002, VList [VInt 1; VInt 2]); (VInt 3004, VList [VInt 3; VInt 4])])
     :: (VStr "name", VStr "n") :: [(VInt 3004, VStr "y")]); [apply perm_swap|].
  apply perm_skip. apply perm_trans with ((VStr "-keys", VDict DkDict [(VInt 1002, VList [VInt 1; VInt 2]); (VInt 3004, VList [VInt 3; VInt 4])])
     :: (VInt 3004, VStr "y") :: [(VStr "name", VStr "n")]); [apply perm_skip, perm_swap|apply perm_swap].
Qed.
(** A clash: (1, 1002) and (2, 2) have the same hash here; the later value is found under the
    later key. *)
Example C40_clash_case :
  document_key hash_env 0 4 sopts0 (pair 1 1002) (VInt 2002) /\ document_key hash_env 0 4 sopts0 (pair 2 2) (VInt 2002) /\
  snd (dump hash_env 0 5 sopts0 None (VDict DkDict [(pair 1 1002, VStr "x"); (pair 2 2, VStr "y")])) =
    Done (VDict DkDict [(VStr "-keys", VDict DkDict [(VInt 2002, VList [VInt 2; VInt 2])]); (VInt 2002, VStr "y")]) /\
  snd (load hash_env 5 0 lopts0 (Some board_ty)
         (VDict DkDict [(VStr "-keys", VDict DkDict [(VInt 2002, VList [VInt 2; VInt 2])]); (VInt 2002, VStr "y")])) =
    Done (VDict DkDict [(pair 2 2, VStr "y")]).
Proof.
  split; [eapply dk_hashed; vm_compute; reflexivity|]. split; [eapply dk_hashed; vm_compute; reflexivity|].
  split; vm_compute; reflexivity.
Qed.
(** So does a number that is the hash of another key. *)
Example C40_clash_number_case :
  snd (dump hash_env 0 5 sopts0 None (VDict DkDict [(pair 1 2, VStr "x"); (VInt 1002, VStr "y")])) =
    Done (VDict DkDict [(VStr "-keys", VDict DkDict [(VInt 1002, VList [VInt 1; VInt 2])]); (VInt 1002, VStr "y")]) /\
  snd (load hash_env 5 0 lopts0 (Some board_ty)
         (VDict DkDict [(VStr "-keys", VDict DkDict [(VInt 1002, VList [VInt 1; VInt 2])]); (VInt 1002, VStr "y")])) =
    Done (VDict DkDict [(pair 1 2, VStr "y")]).
Proof. split; vm_compute; reflexivity. Qed.
Example C40_untyped_case :
  stored_keys board_doc /\
  exists e, snd (load hash_env 5 0 lopts0 None (VDict DkDict board_doc)) = Fail e /\ e_kind e = KDeser.
Proof. split; [repeat eexists|]. eexists. split; vm_compute; reflexivity. Qed.

(** Where it fails.  With strip_nulls, the section keeps a key whose entry is gone, and the
    document cannot be loaded. *)
Theorem C40_strip_nulls_refuted : exists E tk t k j,
  default_serializers E 0 /\ default_deserializers E 0 /\ has_type E 0 sopts0 tk k /\ has_type E 0 sopts0 t VNone /\
  (exists o, so_strip_nulls o = true /\ snd (dump E 0 5 o None (VDict DkDict [(k, VNone)])) = Done j) /\
  exists e, snd (load E 5 0 lopts0 (Some (TApp true HDict [tk; t])) j) = Fail e.
Proof.
  exists hash_env, pair_ty, (TUnion [TPrim PStr; TNoneT]), (pair 1 2). eexists.
  assert (Ha : forall t v, accepts hash_env 0 t v) by (intros; exact I).
  split; [intros t; reflexivity|]. split; [intros t; reflexivity|]. split; [now apply pair_typed|]. split.
  - apply ht_absent; try exact I; [right; now left| |].
    + intros t [<-|[<-|[]]]; apply demo_even; reflexivity.
    + intros us [H|[H|[]]]; discriminate.
  - split.
    + exists (mkSopts false true None false false false SANone false false false true false []).
      split; [reflexivity|vm_compute; reflexivity].
    + eexists. vm_compute. reflexivity.
Qed.
(** A key that is dumped as text comes back as text once another key needed the section. *)
Theorem C40_text_keys_refuted : exists E t d j w k,
  default_serializers E 0 /\ default_deserializers E 0 /\
  snd (dump E 0 5 sopts0 None (VDict DkDict d)) = Done j /\ snd (load E 5 0 lopts0 (Some t) j) = Done (VDict DkDict w) /\
  In k (map fst d) /\ text_key (e_ct E) k /\ ~ In k (map fst w) /\
  snd (load E 5 0 lopts0 (Some t) (VDict DkDict [(VStr "2020-01-01", VInt 1)])) = Done (VDict DkDict [(k, VInt 1)]).
Proof.
  exists hash_env, (TApp true HDict [TUnion [TLeaf LkDate; pair_ty]; TPrim PInt]),
    [(VLeaf (LDate (mkDate 2020 1 1)), VInt 1); (pair 1 2, VInt 2)]. eexists. eexists. exists (VLeaf (LDate (mkDate 2020 1 1))).
  split; [intros t; reflexivity|]. split; [intros t; reflexivity|]. split; [vm_compute; reflexivity|].
  split; [vm_compute; reflexivity|]. split; [now left|]. split; [exact I|]. split; [|vm_compute; reflexivity].
  intros [H|[H|[]]]; discriminate.
Qed.

(** ** C41: the document that is loaded changes *)
(** Every successful load as a mapping with a key type leaves an empty section. *)
Theorem C41_section_is_emptied : forall E g, default_deserializers E g -> forall n lo b h tk t d k sec v,
  no_hints lo -> ~ In (VStr "-meta") (map fst d) -> h = HDict \/ h = HMapping \/ h = HOrderedDict ->
  dget (VStr "-keys") d = Some (VDict k sec) -> distinct (map fst sec) ->
  snd (load E (S n) g lo (Some (TApp b h [tk; t])) (VDict DkDict d)) = Done v ->
  dget (VStr "-keys") (caller_after E n g (nested_opts lo) tk (map fst sec) d) = Some (VDict k []).
Proof.
  intros E g HD n lo b h tk t d k sec v Hno. rewrite <- (LoadFacts.child_nested lo Hno). now apply emptied.
Qed.
(** In whatever order the stored keys are taken, the outcome is that of the engine for that
    order, and if it is a success then the section is empty. *)
Theorem C41_any_order : forall E ld g lo tk stored section result,
  Permutation stored section -> distinct (map fst section) ->
  let run := unpack (e_ct E) (ld g lo (Some tk)) (map fst stored) section result in
  snd run = snd (hashed_go E ld g lo tk stored result) /\
  (forall r, snd run = Done r -> fst run = []).
Proof.
  intros E ld g lo tk stored section result HP Hd. split; [now apply unpack_outcome|].
  intros r. apply unpack_done; [|exact Hd]. now apply Permutation_map.
Qed.
(** If it fails, then at some stored key: that one and those after it are still there, those
    before it are gone. *)
Theorem C41_failure_leaves_the_rest : forall CT ld order section result e,
  Permutation order (map fst section) -> distinct (map fst section) ->
  dhas (VStr "-keys") result = true -> ~ In (VStr "-keys") order ->
  snd (unpack CT ld order section result) = Fail e ->
  exists pre k post, order = (pre ++ k :: post)%list /\
    Permutation (k :: post) (map fst (fst (unpack CT ld order section result))) /\
    (forall k' x, In (k', x) (fst (unpack CT ld order section result)) -> In (k', x) section).
Proof. exact unpack_fails. Qed.
(** Nothing else changes, and the section gains nothing, whatever the outcome. *)
Theorem C41_nothing_else_changes : forall E g n lo tk order d,
  (forall name x, name <> VStr "-keys" -> (In (name, x) (caller_after E n g lo tk order d) <-> In (name, x) d)) /\
  (forall k sec, dget (VStr "-keys") d = Some (VDict k sec) ->
     exists sec', dget (VStr "-keys") (caller_after E n g lo tk order d) = Some (VDict k sec') /\
                  forall kx, In kx sec' -> In kx sec).
Proof. intros. split; [intros; now apply others_kept|intros; now apply only_loses]. Qed.
(** Without a section, or with an empty one, nothing changes at all. *)
Theorem C41_untouched : forall E g n lo tk order d,
  (forall k sec, dget (VStr "-keys") d = Some (VDict k sec) -> sec = []) -> caller_after E n g lo tk order d = d.
Proof. exact untouched. Qed.
(** So the second load of the same document takes the hashes, and '-keys' itself, for keys:
    it succeeds only if all of them load as the key type. *)
Theorem C41_second_load : forall E g, default_deserializers E g -> forall n lo b h tk t d k sec v,
  no_hints lo -> lo_kt lo = None -> ~ In (VStr "-meta") (map fst d) -> h = HDict \/ h = HMapping \/ h = HOrderedDict ->
  dget (VStr "-keys") d = Some (VDict k sec) -> distinct (map fst sec) ->
  snd (load E (S n) g lo (Some (TApp b h [tk; t])) (VDict DkDict d)) = Done v ->
  forall n' lo' v2, lo_kt lo' = None ->
  snd (load E (S n') g lo' (Some (TApp b h [tk; t])) (VDict DkDict (caller_after E n g (nested_opts lo) tk (map fst sec) d))) = Done v2 ->
  (exists k2 lok, snd (load E n' g lok (Some tk) (VStr "-keys")) = Done k2) /\
  (forall name x, name <> VStr "-keys" -> In (name, x) d -> exists k2 lok, snd (load E n' g lok (Some tk) name) = Done k2).
Proof.
  intros E g HD n lo b h tk t d k sec v Hno. rewrite <- (LoadFacts.child_nested lo Hno). now apply twice.
Qed.
(** In particular, the same call can succeed the first time and fail the second time. *)
Theorem C41_same_load_twice_refuted : exists E t k sec d v e,
  default_deserializers E 0 /\ dget (VStr "-keys") d = Some (VDict k sec) /\
  snd (load E 5 0 lopts0 (Some (TApp true HDict [t; TPrim PStr])) (VDict DkDict d)) = Done v /\
  snd (load E 5 0 lopts0 (Some (TApp true HDict [t; TPrim PStr]))
         (VDict DkDict (caller_after E 4 0 (nested_opts lopts0) t (map fst sec) d))) = Fail e.
Proof.
  exists hash_env, pair_ty. eexists. eexists. exists board_doc. eexists. eexists. split; [intros t; reflexivity|].
  split; [reflexivity|]. split; [vm_compute; reflexivity|vm_compute; reflexivity].
Qed.
Example C41_case :
  caller_after hash_env 4 0 (nested_opts lopts0) pair_ty [VInt 3004; VInt 1002] board_doc =
    (VStr "-keys", VDict DkDict []) :: tl board_doc /\
  caller_after hash_env 4 0 (nested_opts lopts0) pair_ty [VInt 3004; VInt 1002]
    [(VStr "-keys", VDict DkDict [(VInt 1002, VBool true); (VInt 3004, VList [VInt 3; VInt 4])]); (VInt 1002, VNone); (VInt 3004, VNone)] =
    [(VStr "-keys", VDict DkDict [(VInt 1002, VBool true)]); (VInt 1002, VNone); (VInt 3004, VNone)] /\
  caller_after hash_env 4 0 (nested_opts lopts0) pair_ty [] board = board.
Proof. repeat split; vm_compute; reflexivity. Qed.

Print Assumptions C40_round_trip.
Print Assumptions C40_section_loads.
Print Assumptions C40_clash_loses.
Print Assumptions C40_untyped_rejected.
Print Assumptions C40_strip_nulls_refuted.
Print Assumptions C40_text_keys_refuted.
Print Assumptions C41_section_is_emptied.
Print Assumptions C41_any_order.
Print Assumptions C41_failure_leaves_the_rest.
Print Assumptions C41_nothing_else_changes.
Print Assumptions C41_untouched.
Print Assumptions C41_second_load.
Print Assumptions C41_same_load_twice_refuted.
