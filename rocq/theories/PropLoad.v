(** * C29, C31-C35, C37, C38, C42, C43, C52: load

    Model: EngineTypes.v, EngineDeser.v.  [load E n f o cls j] is
    [jsons.load(j, cls, fork_inst=f, **o)] with nested calls up to depth [n]: its first
    component are the effects (warnings, constructor calls, getter calls), the second the
    outcome.  Specification: LoadSpec.v. *)
From Verif Require Import PyBaseFacts DumpSpec LoadSpec LoadFacts LoadLaws LoadObject LoadTypes LoadMeta LoadSame.
Local Open Scope string_scope.

(** ** Example data *)
Example demo_deserializers : default_deserializers demo_env 0.
Proof. intros t. reflexivity. Qed.
Example demo_person : e_deser demo_env 0 (TClass 1) = Some DObject.
Proof. reflexivity. Qed.
Example demo_no_validators : no_validators demo_env 0.
Proof. intros t. reflexivity. Qed.
Lemma demo_not_odd p : In p (ci_params (demo_ct 1)) -> ~ odd_name demo_ct (pa_hint p).
Proof.
  assert (G : forall t, union_like demo_ct t = false -> ~ odd_name demo_ct (Some t)).
  { intros t H (t' & Eq & _ & _ & Ho). injection Eq as <-. apply union_like_occurs in Ho. congruence. }
  intros [<-|[<-|[]]]; apply G; reflexivity.
Qed.
Lemma no_meta_b k d : dget (VStr "-meta") d = None -> no_meta_entry (VDict k d).
Proof.
  intros H k' d' x Eq Hin. injection Eq as _ <-. revert H. induction d as [|[a y] d IH]; [destruct Hin|].
  unfold dget in *. cbn [aget]. destruct (py_eqb (VStr "-meta") a) eqn:Ea; [discriminate|]. destruct Hin as [Hin|Hin]; [|now apply IH].
  injection Hin as -> _. rewrite py_eqb_refl in Ea. discriminate.
Qed.
Lemma demo_plain o d : no_hints o -> dget (VStr "-meta") d = None -> plain_object demo_env 0 1 o d.
Proof.
  intros Ho Hd. split; [reflexivity|]. split; [exact Ho|]. split; [now apply no_meta_b|]. exact demo_not_odd.
Qed.
Definition items (l : list (string * value)) : list (value * value) := map (fun kv => (VStr (fst kv), snd kv)) l.
Definition strict_opts : lopts := mkLopts true [] None None false false None.
Definition getter_opts : lopts := mkLopts false [("age", Ok (VInt 9)); ("nick", Ok (VStr "J"))] None None false false None.
Definition warn_opts : lopts := mkLopts false [] None None false true None.
(** An environment in which the names that '-meta' uses can be resolved, and whose fork 1
    rejects negative numbers and persons called 'X' *)
Definition meta_env : env :=
  mkEnv demo_ct demo_rt 0 (fun _ => default_ser demo_ct) (fun _ => default_deser demo_ct)
        (fun f t => if Nat.eqb f 1 then
           match t with
           | TPrim PInt => Some (fun v => match v with VInt z => Ok (Z.leb 0 z) | _ => Ok true end)
           | TClass 1 => Some (fun v => match v with
                                        | VObj _ at_ => match sget "name" at_ with
                                                        | Some (VStr "X") => Ok false
                                                        | _ => Ok true end
                                        | _ => Ok true end)
           | _ => None end else None)
        (fun _ _ => true)
        (fun _ s => if String.eqb s "m.Person" then Ok (TClass 1)
                    else if String.eqb s "m.Group" then Ok (TClass 2) else raise KUnknownClass)
        (fun _ _ _ => raise KType) (fun _ _ _ => raise KType).
Definition with_meta (hints : list (string * value)) (l : list (string * value)) : list (value * value) :=
  items (("-meta", str_dict [("classes", str_dict hints)]) :: l).

(** ** C29: load fails only with JsonsErrors *)
Theorem C29_load_fails_with_jsons_error : forall E n f o cls j e,
  no_meta_entry j -> (j = VNone -> ~ odd_name (e_ct E) cls) ->
  (forall s e', cls = Some (TFwd s) -> e_resolve E f s = Err e' -> is_jsons (e_kind e') = true) ->
  snd (load E n f o cls j) = Fail e -> is_jsons (e_kind e) = true.
Proof. exact load_jsons_error. Qed.
Example C29_case : snd (load demo_env 9 0 lopts0 (Some (TClass 1)) (VInt 3)) = Fail (exn_of KDeser) /\
  no_meta_entry (VInt 3).
Proof. split; [reflexivity|intros ? ? ? H; discriminate]. Qed.
(** Malformed meta data let a KeyError escape. *)
Theorem C29_meta_without_classes : forall E n f o cls d km meta,
  dget (VStr "-meta") d = Some (VDict km meta) -> dget (VStr "classes") meta = None ->
  (forall s, cls <> Some (TFwd s)) -> cls <> Some TAny ->
  lo_strict o = true \/ cls <> Some (class_of (VDict DkDict d)) ->
  load E (S n) f o cls (VDict DkDict d) = fail (exn_of KKey).
Proof. exact load_no_classes. Qed.
Theorem C29_always_jsons_error_refuted : exists E n f o cls j e,
  snd (load E n f o cls j) = Fail e /\ is_jsons (e_kind e) = false.
Proof.
  exists demo_env, 9, 0, lopts0, (Some (TClass 1)), (str_dict [("-meta", str_dict [("dump_time", VStr "T")])]), (exn_of KKey).
  split; reflexivity.
Qed.

(** ** C31: meta data in the input and explicit classes *)
Theorem C31_explicit_class_wins : forall E n f o c j v,
  e_deser E f (TClass c) = Some DObject -> lo_inferred o = false ->
  snd (load E n f o (Some (TClass c)) j) = Done v -> class_of v = TClass c.
Proof. exact load_explicit_class. Qed.
Example C31_explicit_case :
  snd (load meta_env 9 0 lopts0 (Some (TClass 1))
        (VDict DkDict (with_meta [("/", VStr "m.Group")] [("name", VStr "John"); ("age", VInt 30)]))) = Done john.
Proof. reflexivity. Qed.
(** The elements of a list are instances of the class that their own meta data name,
    whatever the element type. *)
Theorem C31_list_elements_overridden : forall E n f o b t c l v i x,
  default_deserializers E f -> no_hints o -> lo_warn o = false ->
  e_deser E f (TClass c) = Some DObject ->
  snd (load E (S n) f o (Some (TApp b HList [t])) (VList l)) = Done v ->
  nth_error l i = Some x -> meta_class E f x (TClass c) ->
  t <> TAny -> lo_strict o = true \/ t <> class_of x ->
  exists ys y, v = VList ys /\ nth_error ys i = Some y /\ class_of y = TClass c.
Proof. exact load_list_meta. Qed.
Example C31_list_case :
  let x := VDict DkDict (with_meta [("/", VStr "m.Person")] [("name", VStr "John"); ("age", VInt 30)]) in
  meta_class meta_env 0 x (TClass 1) /\
  snd (load meta_env 9 0 lopts0 (Some (TApp true HList [TPrim PInt])) (VList [VInt 1; x])) = Done (VList [VInt 1; john]).
Proof.
  split; [|reflexivity].
  exists DkDict, (with_meta [("/", VStr "m.Person")] [("name", VStr "John"); ("age", VInt 30)]), DkDict,
    (items [("classes", str_dict [("/", VStr "m.Person")])]), DkDict, (items [("/", VStr "m.Person")]), "m.Person".
  repeat split.
Qed.
(** So are the attributes that the meta data of the object list. *)
Theorem C31_attributes_overridden : forall E n f o c d km meta kc hints s0 t0 p x s c' v,
  lo_inferred o = false -> lo_hints o = None -> lo_kt o = None -> lo_getters o = [] ->
  e_deser E f (TClass c) = Some DObject -> e_deser E f (TClass c') = Some DObject ->
  stores_arguments (e_ct E c) -> plain_setattr (e_ct E c) ->
  NoDup (map pa_name (ci_params (e_ct E c))) ->
  dget (VStr "-meta") d = Some (VDict km meta) -> dget (VStr "classes") meta = Some (VDict kc hints) ->
  dget (VStr "/") hints = Some (VStr s0) -> e_resolve E f s0 = Ok t0 ->
  dget (VStr ("/" ++ pa_name p)) hints = Some (VStr s) -> s <> "" -> e_resolve E f s = Ok (TClass c') ->
  In p (ci_params (e_ct E c)) -> dget (VStr (pa_name p)) d = Some x ->
  snd (load E (S n) f o (Some (TClass c)) (VDict DkDict d)) = Done v ->
  exists attrs y, v = VObj c attrs /\ sget (pa_name p) attrs = Some y /\ class_of y = TClass c'.
Proof. exact load_attribute_meta. Qed.
Example C31_attribute_case :
  let d := with_meta [("/", VStr "m.Person"); ("/name", VStr "m.Person")] [("name", john_doc); ("age", VInt 1)] in
  snd (load meta_env 9 0 lopts0 (Some (TClass 1)) (VDict DkDict d)) =
    Done (VObj 1 [("name", john); ("age", VInt 1)]) /\
  stores_arguments (e_ct meta_env 1) /\ plain_setattr (e_ct meta_env 1) /\
  NoDup (map pa_name (ci_params (e_ct meta_env 1))).
Proof.
  split; [reflexivity|]. split; [|split].
  - apply record_stores. repeat constructor; cbn [map pa_name In]; intuition discriminate.
  - intros a y at_. reflexivity.
  - repeat constructor; cbn; intuition discriminate.
Qed.

(** ** C32: unknown keys *)
Theorem C32_strict_unknown_key_rejected : forall E n f o c d d' ys k x rest,
  plain_object E f c o d -> renamed (e_ct E) o d d' -> lo_strict o = true ->
  Forall2 (param_value E n f o d') (ci_params (e_ct E c)) ys ->
  extras (arguments (ci_params (e_ct E c)) ys) d' ((k, x) :: rest) ->
  load E (S n) f o (Some (TClass c)) (VDict DkDict d) =
  (flat_map (param_events E n f o d') (ci_params (e_ct E c)),
   Fail (match k with VStr a => exn_arg KSignature a | _ => exn_of KSignature end)).
Proof. exact load_object_mismatch. Qed.
Theorem C32_strict_keys_known : forall E n f o c d attrs,
  lo_strict o = true -> constructs E n f o c d attrs ->
  forall d', renamed (e_ct E) o d d' -> forall k x, In (k, x) d' ->
  k = VStr "-meta" \/ exists p, In p (ci_params (e_ct E c)) /\ k = VStr (pa_name p).
Proof.
  intros E n f o c d attrs Hs Hc d' Hr k x Hin.
  destruct (strict_known E n f o c d attrs Hc Hs) as (d2 & Hr2 & H).
  assert (d2 = d') as -> by (apply renamed_iff in Hr, Hr2; congruence). now apply H with x.
Qed.
Theorem C32_extra_keys_become_attributes : forall E n f o c d d' attrs a x,
  constructs E n f o c d attrs -> renamed (e_ct E) o d d' ->
  plain_setattr (e_ct E c) -> lo_getters o = [] -> NoDup (map fst d') ->
  In (VStr a, x) d' -> a <> "-meta" -> (forall p, In p (ci_params (e_ct E c)) -> pa_name p <> a) ->
  exists y, snd (load E n f (attr_opts o) (Some (extra_type (e_ct E c) a x)) x) = Done y /\ sget a attrs = Some y.
Proof. exact extra_attribute. Qed.
Example C32_case :
  load demo_env 9 0 strict_opts (Some (TClass 1)) (str_dict [("name", VStr "J"); ("zip", VInt 1); ("id", VInt 2)]) =
    ([], Fail (exn_arg KSignature "zip")) /\
  load demo_env 9 0 lopts0 (Some (TClass 1)) (str_dict [("name", VStr "J"); ("zip", VInt 1); ("id", VInt 2)]) =
    ([EvInit 1], Done (VObj 1 [("name", VStr "J"); ("age", VInt 0); ("zip", VInt 1); ("id", VInt 2)])) /\
  plain_object demo_env 0 1 strict_opts (items [("name", VStr "J"); ("zip", VInt 1); ("id", VInt 2)]).
Proof. repeat split; try reflexivity; try (now left); [now apply no_meta_b|exact demo_not_odd]. Qed.

(** ** C33: where constructor arguments come from *)
Theorem C33_loads_object_iff_constructs : forall E n f o c d v,
  plain_object E f c o d ->
  (snd (load E (S n) f o (Some (TClass c)) (VDict DkDict d)) = Done v <->
   exists attrs, constructs E n f o c d attrs /\ v = VObj c attrs /\ accepts E f (TClass c) v).
Proof. exact load_object_done. Qed.
Theorem C33_first_unfulfilled_reported : forall E n f o c d d' ps1 ys p ps2,
  plain_object E f c o d -> renamed (e_ct E) o d d' ->
  ci_params (e_ct E c) = (ps1 ++ p :: ps2)%list ->
  Forall2 (param_value E n f o d') ps1 ys -> unfulfilled o d' p ->
  load E (S n) f o (Some (TClass c)) (VDict DkDict d) =
  (flat_map (param_events E n f o d') ps1, Fail (exn_arg KUnfulfilled (pa_name p))).
Proof. exact load_object_unfulfilled. Qed.
(** The constructor is called exactly once, after all arguments have been loaded and before
    any other attribute is. *)
Theorem C33_constructor_called_once : forall E n f o c d d' ys rest v,
  plain_object E f c o d -> renamed (e_ct E) o d d' ->
  Forall2 (param_value E n f o d') (ci_params (e_ct E c)) ys ->
  extras (arguments (ci_params (e_ct E c)) ys) d' rest ->
  snd (load E (S n) f o (Some (TClass c)) (VDict DkDict d)) = Done v ->
  fst (load E (S n) f o (Some (TClass c)) (VDict DkDict d)) =
  (flat_map (param_events E n f o d') (ci_params (e_ct E c)) ++
   [EvInit c] ++
   flat_map (extra_events E n f o (e_ct E c)) rest ++
   map (fun g => EvGetter (fst g)) (lo_getters o))%list.
Proof. exact load_object_events. Qed.
Example C33_case :
  load demo_env 9 0 lopts0 (Some (TClass 1)) (str_dict [("age", VInt 4)]) =
    ([], Fail (exn_arg KUnfulfilled "name")) /\
  load demo_env 9 0 getter_opts (Some (TClass 1)) (str_dict [("name", VStr "J")]) =
    ([EvGetter "age"; EvInit 1; EvGetter "age"; EvGetter "nick"],
     Done (VObj 1 [("name", VStr "J"); ("age", VInt 9); ("nick", VStr "J")])) /\
  plain_object demo_env 0 1 getter_opts (items [("name", VStr "J")]).
Proof. repeat split; try reflexivity; try (now left); [now apply no_meta_b|exact demo_not_odd]. Qed.

(** ** C34: None *)
Theorem C34_none_rejected : forall E n f o cls,
  ~ odd_name (e_ct E) cls -> ~ may_be_none cls ->
  load E (S n) f o cls VNone = ([], Fail (exn_of KDeser)).
Proof. exact load_none_rejected. Qed.
Theorem C34_none_accepted : forall E n f o cls,
  default_deserializers E f -> may_be_none cls -> cls <> Some TObject ->
  accepts E f TNoneT VNone -> (forall t, cls = Some t -> accepts E f t VNone) ->
  (forall ts, cls = Some (TUnion ts) ->
     (forall t, In t ts -> ~ odd_name (e_ct E) (Some t)) /\ forall us, ~ In (TUnion us) ts) ->
  snd (load E (S (S n)) f o cls VNone) = Done VNone.
Proof. exact load_none_accepted. Qed.
Theorem C34_none_loads_as_none : forall E f, default_deserializers E f -> forall n o cls v,
  snd (load E n f o cls VNone) = Done v -> v = VNone /\ may_be_none cls /\ cls <> Some TObject.
Proof. exact load_none_done. Qed.
Theorem C34_none_as_object_refuted : forall E n f o, default_deserializers E f ->
  load E (S n) f o (Some TObject) VNone = ([], Fail (exn_of KDeser)).
Proof. exact load_none_object. Qed.
Theorem C34_odd_name_type_error : forall E n f o t,
  odd_name (e_ct E) (Some t) -> direct t -> t <> TObject -> t <> TNoneT ->
  load E (S n) f o (Some t) VNone = ([], Fail (exn_of KType)).
Proof. exact load_none_odd. Qed.
Definition odd_ct : classes := fun _ => record_class "m" "TradeUnion" [].
Example C34_odd_case : odd_name odd_ct (Some (TClass 5)) /\
  load (std_env odd_ct demo_rt) 9 0 lopts0 (Some (TClass 5)) VNone = ([], Fail (exn_of KType)).
Proof.
  split; [|reflexivity]. exists (TClass 5). split; [reflexivity|]. split; [discriminate|]. split; [reflexivity|].
  left. exists "trade", "". reflexivity.
Qed.
Example C34_case :
  load demo_env 9 0 lopts0 (Some (TPrim PInt)) VNone = ([], Fail (exn_of KDeser)) /\
  load demo_env 9 0 strict_opts (Some (TUnion [TClass 1; TNoneT])) VNone = ([], Done VNone) /\
  ~ odd_name (e_ct demo_env) (Some (TClass 1)) /\ may_be_none (Some (TUnion [TClass 1; TNoneT])).
Proof.
  repeat split; try reflexivity; [|now right; left].
  intros (t' & Eq & _ & _ & Ho). injection Eq as <-. apply union_like_occurs in Ho. vm_compute in Ho. discriminate.
Qed.

(** ** C35: unions *)
Theorem C35_load_union_first_success : forall E n f o ts j v,
  default_deserializers E f -> no_hints o -> no_meta_entry j -> valid_type j = true ->
  (snd (load E (S n) f o (Some (TUnion ts)) j) = Done v <->
   (j = VNone -> In TNoneT ts) /\ accepts E f (TUnion ts) v /\
   exists pre t post, ts = (pre ++ t :: post)%list /\
     snd (load E n f (nested_opts o) (Some t) j) = Done v /\
     Forall (fun t' => exists e, snd (load E n f (nested_opts o) (Some t') j) = Fail e /\ is_jsons (e_kind e) = true) pre).
Proof. exact load_union_done. Qed.
Theorem C35_load_union_all_fail : forall E n f o ts j,
  default_deserializers E f -> no_hints o -> no_meta_entry j -> valid_type j = true -> j <> VNone ->
  Forall (fun t' => exists e, snd (load E n f (nested_opts o) (Some t') j) = Fail e /\ is_jsons (e_kind e) = true) ts ->
  snd (load E (S n) f o (Some (TUnion ts)) j) = Fail (exn_of KDeser).
Proof. exact load_union_all_fail. Qed.
Example C35_load_case :
  snd (load demo_env 9 0 lopts0 (Some (TUnion [TClass 1; TApp true HList [TPrim PInt]; TPrim PStr])) (VStr "7")) =
    Done (VList [VInt 7]) /\
  snd (load demo_env 9 0 lopts0 (Some (TUnion [TClass 1; TClass 2])) (VInt 3)) = Fail (exn_of KDeser).
Proof. split; reflexivity. Qed.

(** ** C37: lists with failing elements *)
Theorem C37_list_elementwise : forall E n f o b t l v,
  default_deserializers E f -> no_hints o -> lo_warn o = false ->
  (snd (load E (S n) f o (Some (TApp b HList [t])) (VList l)) = Done v <->
   exists ys, Forall2 (fun x y => snd (load E n f (elem_opts o true) (Some t) x) = Done y) l ys /\
              v = VList ys /\ accepts E f (TApp b HList [t]) v).
Proof. exact load_list_done. Qed.
Theorem C37_first_failing_index : forall E n f o b t l1 ys x e l2,
  default_deserializers E f -> no_hints o -> lo_warn o = false ->
  Forall2 (fun x y => snd (load E n f (elem_opts o true) (Some t) x) = Done y) l1 ys ->
  snd (load E n f (elem_opts o true) (Some t) x) = Fail e -> deserialization_error e ->
  snd (load E (S n) f o (Some (TApp b HList [t])) (VList (l1 ++ x :: l2))) =
  Fail (mkExn KDeser (e_arg e) (length l1 :: e_idx e) false (e_msg e)).
Proof. exact load_list_index. Qed.
Theorem C37_warn_drops_failing : forall E n f o b t l ys evs,
  default_deserializers E f -> no_hints o -> lo_warn o = true ->
  keeps E n f (elem_opts o true) (Some t) l ys evs -> accepts E f (TApp b HList [t]) (VList ys) ->
  load E (S n) f o (Some (TApp b HList [t])) (VList l) = (evs, Done (VList ys)).
Proof. exact load_list_warn. Qed.
Theorem C37_warn_drops_only_failing : forall E n f o b t l v,
  default_deserializers E f -> no_hints o -> lo_warn o = true ->
  snd (load E (S n) f o (Some (TApp b HList [t])) (VList l)) = Done v ->
  exists ys evs, v = VList ys /\ keeps E n f (elem_opts o true) (Some t) l ys evs /\
                 accepts E f (TApp b HList [t]) v.
Proof. exact load_list_warn_inv. Qed.
Theorem C37_validation_error_aborts : forall E n f o b t l1 ys evs x e l2,
  default_deserializers E f -> no_hints o ->
  keeps E n f (elem_opts o true) (Some t) l1 ys evs -> (lo_warn o = false -> length ys = length l1) ->
  snd (load E n f (elem_opts o true) (Some t) x) = Fail e -> e_kind e = KValidation ->
  snd (load E (S n) f o (Some (TApp b HList [t])) (VList (l1 ++ x :: l2))) = Fail e.
Proof. exact load_list_validation. Qed.
Example C37_case :
  let l := VList [VStr "1"; VStr "x"; VStr "3"; VNone] in
  let t := Some (TApp true HList [TPrim PInt]) in
  load demo_env 9 0 warn_opts t l =
    ([EvWarn 0 "element-not-deserialized"; EvWarn 0 "element-not-deserialized"], Done (VList [VInt 1; VInt 3])) /\
  snd (load demo_env 9 0 lopts0 t l) = Fail (mkExn KDeser None [1] false "") /\
  snd (load meta_env 9 1 warn_opts t (VList [VStr "x"; VStr "-1"])) = Fail (exn_of KValidation).
Proof. repeat split; vm_compute; reflexivity. Qed.

(** ** C38: strings *)
Theorem C38_explicit_str_unchanged : forall E n f o s,
  default_deserializers E f -> accepts E f (TPrim PStr) (VStr s) ->
  snd (load E (S n) f o (Some (TPrim PStr)) (VStr s)) = Done (VStr s).
Proof.
  exact load_str_explicit.
Qed.
Theorem C38_untyped_str : forall E n f o s,
  default_deserializers E f ->
  (forall x, accepts E f (TLeaf LkDatetime) (VLeaf (LDatetime x))) ->
  (forall v, accepts E f (TPrim PStr) v) ->
  snd (load E (S (S n)) f o None (VStr s)) =
  Done (match load_datetime s with Ok x => VLeaf (LDatetime x) | Err _ => VStr s end).
Proof. exact load_str_untyped. Qed.
(** The same inside documents: without a target, only strings that read as datetimes change. *)
Theorem C38_untyped_document : forall E f j,
  default_deserializers E f -> no_validators E f ->
  document j -> no_key "-meta" j -> no_key "-keys" j ->
  exists N, forall n, N <= n -> forall o,
  (forall g k, lo_kt o = Some g -> g k = Ok k) -> snd (load E n f o None j) = Done (undate j).
Proof. exact load_document. Qed.
Example C38_case :
  snd (load demo_env 9 0 lopts0 (Some (TPrim PStr)) (VStr "2020-01-02T03:04:05Z")) = Done (VStr "2020-01-02T03:04:05Z") /\
  snd (load demo_env 9 0 lopts0 None (VStr "2020-01-02T03:04:05Z")) <> Done (VStr "2020-01-02T03:04:05Z") /\
  snd (load demo_env 9 0 lopts0 None (str_dict [("a", VList [VStr "x"; VInt 1])])) = Done (str_dict [("a", VList [VStr "x"; VInt 1])]).
Proof. repeat split; vm_compute; (reflexivity || discriminate). Qed.

(** ** C42: named tuples *)
Theorem C42_namedtuple_fields : forall E n f o c fields j j' v,
  ci_kind (e_ct E c) = CkNT fields -> e_deser E f (TClass c) = Some DTuple -> no_hints o -> no_meta_entry j ->
  field_source (e_ct E) o j j' ->
  (snd (load E (S n) f o (Some (TClass c)) j) = Done v <->
   exists ys, field_values E n f (nested_opts o) j' 0 fields ys /\ v = VNT c ys /\ accepts E f (TClass c) v).
Proof. exact load_namedtuple_done. Qed.
Theorem C42_missing_field_unfulfilled : forall E n f o c pre fd post j j' ys,
  ci_kind (e_ct E c) = CkNT (pre ++ fd :: post) -> e_deser E f (TClass c) = Some DTuple ->
  no_hints o -> no_meta_entry j -> field_source (e_ct E) o j j' ->
  field_values E n f (nested_opts o) j' 0 pre ys -> no_more_input j' (length pre) ->
  nf_default fd = None -> ~ none_allowed fd ->
  snd (load E (S n) f o (Some (TClass c)) j) = Fail (exn_arg KUnfulfilled (nf_name fd)).
Proof. exact load_namedtuple_missing. Qed.
Example C42_case :
  snd (load demo_env 9 0 lopts0 (Some (TClass 4)) (VList [VInt 1; VInt 2])) = Done (VNT 4 [VInt 1; VInt 2]) /\
  snd (load demo_env 9 0 lopts0 (Some (TClass 4)) (str_dict [("y", VInt 2); ("x", VInt 1)])) = Done (VNT 4 [VInt 1; VInt 2]) /\
  snd (load demo_env 9 0 lopts0 (Some (TClass 4)) (VList [VInt 1])) = Done (VNT 4 [VInt 1; VNone]) /\
  snd (load demo_env 9 0 lopts0 (Some (TClass 4)) (VList [])) = Fail (exn_arg KUnfulfilled "x") /\
  field_source (e_ct demo_env) lopts0 (str_dict [("y", VInt 2); ("x", VInt 1)]) (str_dict [("y", VInt 2); ("x", VInt 1)]).
Proof.
  repeat split; try reflexivity.
  - intros k x [H|[H|[]]]; injection H as <- _; eauto.
  - repeat constructor; cbn; intuition discriminate.
  - eexists. repeat split.
Qed.

(** ** C43: tuples *)
Theorem C43_tuple_elementwise : forall E n f o b ts l j v,
  default_deserializers E f -> no_hints o -> (j = VList l \/ j = VTuple l) ->
  ts <> [] -> ~ In TEllipsis ts ->
  (snd (load E (S n) f o (Some (TApp b HTuple ts)) j) = Done v <->
   exists ys, length l <= length ts /\
     Forall2 (fun xt y => snd (load E n f (tuple_opts o) (Some (snd xt)) (fst xt)) = Done y) (combine l ts) ys /\
     v = VTuple ys /\ accepts E f (TApp b HTuple ts) v).
Proof. exact load_tuple_done. Qed.
Theorem C43_too_many_elements : forall E n f o b ts l ys x r,
  default_deserializers E f -> no_hints o -> ts <> [] -> ~ In TEllipsis ts -> length l = length ts ->
  Forall2 (fun xt y => snd (load E n f (tuple_opts o) (Some (snd xt)) (fst xt)) = Done y) (combine l ts) ys ->
  snd (load E (S n) f o (Some (TApp b HTuple ts)) (VList (l ++ x :: r))) = Fail (exn_of KDeser).
Proof. exact load_tuple_too_many. Qed.
Theorem C43_tuple_ellipsis : forall E n f o b t l j v,
  default_deserializers E f -> no_hints o -> (j = VList l \/ j = VTuple l) ->
  (snd (load E (S n) f o (Some (TApp b HTuple [t; TEllipsis])) j) = Done v <->
   exists ys, Forall2 (fun x y => snd (load E n f (tuple_opts o) (Some t) x) = Done y) l ys /\
     v = VTuple ys /\ accepts E f (TApp b HTuple [t; TEllipsis]) v).
Proof. exact load_tuple_ellipsis. Qed.
Example C43_case :
  let t := Some (TApp true HTuple [TPrim PInt; TPrim PStr]) in
  snd (load demo_env 9 0 lopts0 t (VList [VStr "1"])) = Done (VTuple [VInt 1]) /\
  snd (load demo_env 9 0 lopts0 t (VList [VStr "1"; VStr "x"])) = Done (VTuple [VInt 1; VStr "x"]) /\
  snd (load demo_env 9 0 lopts0 t (VList [VStr "1"; VStr "x"; VStr "y"])) = Fail (exn_of KDeser) /\
  snd (load demo_env 9 0 lopts0 (Some (TApp true HTuple [TPrim PInt; TEllipsis])) (VList [VStr "1"; VStr "2"; VStr "3"])) =
    Done (VTuple [VInt 1; VInt 2; VInt 3]).
Proof. repeat split; vm_compute; reflexivity. Qed.

(** ** C52: attr_getters *)
Theorem C52_getters_determine_attributes : forall E n f o c d v a g,
  plain_object E f c o d -> plain_setattr (e_ct E c) -> NoDup (map fst (lo_getters o)) ->
  In (a, g) (lo_getters o) ->
  snd (load E (S n) f o (Some (TClass c)) (VDict DkDict d)) = Done v ->
  exists attrs y, v = VObj c attrs /\ g = Ok y /\ sget a attrs = Some y.
Proof.
  intros E n f o c d v a g Hp Hs Hn Hin H. apply (load_object_done _ _ _ _ _ _ _ Hp) in H as (attrs & Hc & -> & _).
  destruct (getter_attribute _ _ _ _ _ _ _ _ _ Hc Hs Hn Hin) as (y & Hg & Ha). exists attrs, y. auto.
Qed.
Theorem C52_getter_calls : forall E n f o c d d' v a,
  plain_object E f c o d -> renamed (e_ct E) o d d' ->
  NoDup (map pa_name (ci_params (e_ct E c))) -> NoDup (map fst (lo_getters o)) ->
  In a (map fst (lo_getters o)) ->
  snd (load E (S n) f o (Some (TClass c)) (VDict DkDict d)) = Done v ->
  getter_calls a (fst (load E (S n) f o (Some (TClass c)) (VDict DkDict d))) =
  if mem_str a (map pa_name (ci_params (e_ct E c))) && negb (dhas (VStr a) d') then 2 else 1.
Proof. exact getter_calls_done. Qed.
Example C52_case :
  load demo_env 9 0 getter_opts (Some (TClass 1)) (str_dict [("name", VStr "J"); ("age", VInt 5)]) =
    ([EvInit 1; EvGetter "age"; EvGetter "nick"],
     Done (VObj 1 [("name", VStr "J"); ("age", VInt 9); ("nick", VStr "J")])) /\
  plain_object demo_env 0 1 getter_opts (items [("name", VStr "J"); ("age", VInt 5)]) /\
  NoDup (map fst (lo_getters getter_opts)).
Proof.
  split; [reflexivity|]. split; [apply demo_plain; [now left|reflexivity]|].
  repeat constructor; cbn; intuition discriminate.
Qed.

(** ** C44, for load *)
Theorem C44_load_uses_its_fork_only : forall E E' f n o cls j,
  same_for_load E E' f -> (forall t, e_deser E f t <> Some DTimezone /\ e_deser E f t <> Some DComplex) ->
  load E n f o cls j = load E' n f o cls j.
Proof. intros E E' f n o cls j H1 H2. now apply load_same_own. Qed.
(** With timezones and complex numbers: its fork and the default fork *)
Theorem C44_load_uses_two_forks : forall E E' f n o cls j,
  same_for_load E E' f -> same_for_load E E' 0 -> load E n f o cls j = load E' n f o cls j.
Proof. intros E E' f n o cls j H1 H2. now apply load_same. Qed.
(** Fork 1 with the default deserializers, and nothing in the default fork *)
Definition only_fork1 (h : ty -> option dhandler) : env :=
  mkEnv demo_ct demo_rt 0 (fun _ _ => None) (fun f t => if Nat.eqb f 1 then h t else None)
        (fun _ _ => None) (fun f _ => Nat.eqb f 1) (fun _ _ => raise KUnknownClass)
        (fun _ _ _ => raise KType) (fun _ _ _ => raise KType).
Definition no_complex (t : ty) : option dhandler :=
  match default_deser demo_ct t with Some DTimezone | Some DComplex => None | h => h end.
Example C44_ex_load :
  let E := mkEnv demo_ct demo_rt 0 (fun _ _ => None) (fun f t => no_complex t)
        (fun _ _ => None) (fun f _ => true) (fun _ _ => raise KUnknownClass)
        (fun _ _ _ => raise KType) (fun _ _ _ => raise KType) in
  same_for_load E (only_fork1 no_complex) 1 /\
  (forall t, e_deser E 1 t <> Some DTimezone /\ e_deser E 1 t <> Some DComplex) /\
  snd (load (only_fork1 no_complex) 9 1 lopts0 (Some (TClass 1)) (str_dict [("name", VStr "J"); ("age", VInt 5)])) =
    Done (VObj 1 [("name", VStr "J"); ("age", VInt 5)]) /\
  snd (load (only_fork1 no_complex) 9 0 lopts0 (Some (TClass 1)) (str_dict [("name", VStr "J"); ("age", VInt 5)])) =
    Fail (exn_of KDeser).
Proof.
  split; [repeat split|]. split; [|split; vm_compute; reflexivity].
  intros t. cbn [e_deser]. unfold no_complex. destruct (default_deser demo_ct t) as [[]|]; split; discriminate.
Qed.
Theorem C44_load_own_fork_suffices_refuted : exists E E' f n o cls j,
  same_for_load E E' f /\ snd (load E n f o cls j) <> snd (load E' n f o cls j).
Proof.
  exists (only_fork1 (default_deser demo_ct)).
  exists (mkEnv demo_ct demo_rt 0 (fun _ _ => None) (fun f t => default_deser demo_ct t)
        (fun _ _ => None) (fun f _ => true) (fun _ _ => raise KUnknownClass)
        (fun _ _ _ => raise KType) (fun _ _ _ => raise KType)).
  exists 1, 9, lopts0, (Some (TLeaf LkTimezone)), (str_dict [("name", VStr "X"); ("offset", VInt 3600)]).
  split; [repeat split|]. vm_compute. discriminate.
Qed.

Print Assumptions C29_load_fails_with_jsons_error.
Print Assumptions C29_meta_without_classes.
Print Assumptions C31_explicit_class_wins.
Print Assumptions C31_list_elements_overridden.
Print Assumptions C31_attributes_overridden.
Print Assumptions C32_strict_unknown_key_rejected.
Print Assumptions C32_strict_keys_known.
Print Assumptions C32_extra_keys_become_attributes.
Print Assumptions C33_loads_object_iff_constructs.
Print Assumptions C33_first_unfulfilled_reported.
Print Assumptions C33_constructor_called_once.
Print Assumptions C34_none_rejected.
Print Assumptions C34_none_accepted.
Print Assumptions C34_none_loads_as_none.
Print Assumptions C34_none_as_object_refuted.
Print Assumptions C34_odd_name_type_error.
Print Assumptions C35_load_union_first_success.
Print Assumptions C35_load_union_all_fail.
Print Assumptions C37_list_elementwise.
Print Assumptions C37_first_failing_index.
Print Assumptions C37_warn_drops_failing.
Print Assumptions C37_warn_drops_only_failing.
Print Assumptions C37_validation_error_aborts.
Print Assumptions C38_explicit_str_unchanged.
Print Assumptions C38_untyped_str.
Print Assumptions C38_untyped_document.
Print Assumptions C42_namedtuple_fields.
Print Assumptions C42_missing_field_unfulfilled.
Print Assumptions C43_tuple_elementwise.
Print Assumptions C43_too_many_elements.
Print Assumptions C43_tuple_ellipsis.
Print Assumptions C52_getters_determine_attributes.
Print Assumptions C52_getter_calls.
Print Assumptions C44_load_uses_its_fork_only.
Print Assumptions C44_load_uses_two_forks.
Print Assumptions C44_load_own_fork_suffices_refuted.
