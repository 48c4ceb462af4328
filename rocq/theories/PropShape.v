(** * C77: documents that do not fit the target type *)
From Verif Require Import EngineEnv ShapeProofs.
Local Open Scope string_scope.

(** A number for a list, a list for a dict, a text for an object, ...: load raises a
    DeserializationError, in every mode. *)
Theorem C77_misfits_fail : forall E f n o t j,
  default_deserializers E f -> plain_hint (e_ct E) t -> t <> TAny -> untransformed o t ->
  valid_type j = true -> j <> VNone -> no_meta_entry j -> ~ fits (e_ct E) t j ->
  snd (load E (S (S n)) f o (Some t) j) = Fail (exn_of KDeser).
Proof. intros E f n o t j D P A _. now apply misfit_fails. Qed.
Theorem C77_loaded_fits : forall E f n o t j v,
  default_deserializers E f -> plain_hint (e_ct E) t -> t <> TAny -> untransformed o t ->
  valid_type j = true -> j <> VNone -> no_meta_entry j ->
  snd (load E (S (S n)) f o (Some t) j) = Done v -> fits (e_ct E) t j.
Proof.
  intros E f n o t j v D P A U V N M H. destruct (fits_dec (e_ct E) t j) as [F|F]; [exact F|].
  rewrite (misfit_fails E f n o t j D P A V N M F) in H. discriminate.
Qed.
(** Lists, tuples, sets, ... are loaded from the keys of a dict and from the characters of a text
    just as from the list of them: with the same result, errors and warnings. *)
Theorem C77_collections : forall E f n o b h args j l,
  default_deserializers E f -> In h list_heads -> elements j l -> valid_type j = true -> no_meta_entry j ->
  lo_strict o = true \/ class_of j <> TApp b h args /\ (b, h, args) <> (false, HList, []) ->
  load E (S n) f o (Some (TApp b h args)) j = load E (S n) f o (Some (TApp b h args)) (VList l).
Proof. exact collection_run. Qed.
(** "Of a union, load takes the type that the document has": with Union[List[str], str] every text
    becomes the list of its characters. *)
Theorem C77_union_of_list_and_text_refuted : forall E f n o b ts s,
  default_deserializers E f -> no_hints o -> lo_warn o = false -> lo_strict o = false ->
  (forall t v, accepts E f t v) ->
  snd (load E (S (S (S n))) f o (Some (TUnion (TApp b HList [TPrim PStr] :: ts))) (VStr s)) =
  Done (VList (map (fun c => VStr (String c "")) (list_ascii_of_string s))).
Proof. exact union_text. Qed.
(** "An object is loaded from a dict only": an empty list, tuple, set or text is as good as {}. *)
Theorem C77_object_from_dict_refuted : forall E f n o c j,
  default_deserializers E f -> ordinary (e_ct E c) -> ci_kind (e_ct E c) = CkObj ->
  valid_type j = true -> elements j [] ->
  load E (S n) f o (Some (TClass c)) j = load E (S n) f o (Some (TClass c)) (VDict DkDict []).
Proof. exact empty_object. Qed.

(** ** Cases
    A number, a text and a list do not fit a person, a list does not fit a dict, a number not a list. *)
Definition numbers : value := VList [VInt 1; VInt 2].
Example C77_case :
  default_deserializers demo_env 0 /\ plain_hint (e_ct demo_env) (TClass 1) /\ untransformed lopts0 (TClass 1) /\
  ~ fits (e_ct demo_env) (TClass 1) numbers /\ ~ fits (e_ct demo_env) (TClass 1) (VStr "John") /\
  fits (e_ct demo_env) (TClass 1) john_doc /\ fits (e_ct demo_env) (TClass 1) (VList []) /\
  ~ fits (e_ct demo_env) (TApp true HDict [TPrim PStr; TPrim PInt]) numbers /\
  ~ fits (e_ct demo_env) (TApp true HList [TPrim PInt]) (VInt 5) /\
  ~ fits (e_ct demo_env) (TLeaf LkDatetime) (VInt 5) /\ ~ fits (e_ct demo_env) TNoneT (VInt 5) /\
  snd (load demo_env 9 0 lopts0 (Some (TClass 1)) john_doc) = Done john.
Proof.
  split; [intros t; reflexivity|]. split; [constructor; split; [apply demo_fresh|intros t []]|]. split; [reflexivity|].
  split; [|split; [|split; [|split; [|split; [|split; [|split; [|split]]]]]]].
  - intros H. inversion H as [| | | | | | | | | | | | | |c j K (l & Hl & Hm)| |]; subst; try discriminate.
    inversion Hl; subst. inversion Hm. discriminate.
  - intros H. inversion H as [| | | | | | | | | | | | | |c j K (l & Hl & Hm)| |]; subst; try discriminate.
    inversion Hl; subst. cbn in Hm. inversion Hm. discriminate.
  - now constructor.
  - apply fi_empty; [reflexivity|]. exists []. split; constructor.
  - intros H. inversion H; subst. cbn in *. intuition discriminate.
  - intros H. inversion H; subst; [match goal with Q : elements _ _ |- _ => inversion Q end].
  - intros H. inversion H.
  - intros H. inversion H.
  - vm_compute. reflexivity.
Qed.
(** load('ab', Union[List[str], str]) and load([], C) for a class C whose parameters have defaults *)
Example C77_refuted_case :
  In HSet list_heads /\ elements (VStr "aba") [VStr "a"; VStr "b"; VStr "a"] /\
  snd (load demo_env 9 0 lopts0 (Some (TApp true HSet [TPrim PStr])) (VStr "aba")) = Done (VColl CSet [VStr "a"; VStr "b"]) /\
  no_hints lopts0 /\ lo_warn lopts0 = false /\ lo_strict lopts0 = false /\ (forall t v, accepts demo_env 0 t v) /\
  snd (load demo_env 9 0 lopts0 (Some (TUnion [TApp true HList [TPrim PStr]; TPrim PStr])) (VStr "ab")) =
    Done (VList [VStr "a"; VStr "b"]).
Proof.
  split; [cbn; tauto|]. split; [exact (es_text "aba")|]. split; [vm_compute; reflexivity|]. split; [now left|].
  split; [reflexivity|]. split; [reflexivity|]. split; [intros t v; exact I|]. vm_compute. reflexivity.
Qed.
Definition point_env : env :=
  std_env (fun c => if Nat.eqb c 9 then record_class "m" "Point" [mkParam "x" (Some (TPrim PInt)) (Some (VInt 0)) false]
                    else demo_ct c) demo_rt.
Example C77_empty_case :
  ci_kind (e_ct point_env 9) = CkObj /\ elements (VStr "") [] /\
  snd (load point_env 9 0 lopts0 (Some (TClass 9)) (VStr "")) = Done (VObj 9 [("x", VInt 0)]) /\
  snd (load point_env 9 0 lopts0 (Some (TClass 9)) (VList [])) = Done (VObj 9 [("x", VInt 0)]).
Proof. split; [reflexivity|]. split; [exact (es_text "")|]. split; vm_compute; reflexivity. Qed.
Print Assumptions C77_misfits_fail.
Print Assumptions C77_loaded_fits.
Print Assumptions C77_collections.
Print Assumptions C77_union_of_list_and_text_refuted.
Print Assumptions C77_object_from_dict_refuted.
