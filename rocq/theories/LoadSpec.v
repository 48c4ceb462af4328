(** * What the properties of load are stated with *)
From Verif Require Export EngineEnv.
Local Open Scope string_scope.

(** ** Validators, skipping, meta data *)
(** The validator that fork [f] has for [t], if any, accepts [v]. *)
Definition accepts (E : env) (f : nat) (t : ty) (v : value) : Prop :=
  match e_validator E f t with
  | None => True
  | Some p => p v = Ok true
  end.
(** The validator rejects [v] or raises. *)
Definition rejects (E : env) (f : nat) (t : ty) (v : value) : Prop :=
  exists p, e_validator E f t = Some p /\ p v <> Ok true.

(** No dict in [v], at any depth, has the key [s]. *)
Inductive no_key (s : string) : value -> Prop :=
| nk_list l : (forall x, In x l -> no_key s x) -> no_key s (VList l)
| nk_tuple l : (forall x, In x l -> no_key s x) -> no_key s (VTuple l)
| nk_coll k l : (forall x, In x l -> no_key s x) -> no_key s (VColl k l)
| nk_nt c l : (forall x, In x l -> no_key s x) -> no_key s (VNT c l)
| nk_dict k d : (forall a x, In (a, x) d -> a <> VStr s /\ no_key s a /\ no_key s x) ->
                no_key s (VDict k d)
| nk_other v : match v with
               | VList _ | VTuple _ | VColl _ _ | VNT _ _ | VDict _ _ => False
               | _ => True
               end -> no_key s v.
(** [j] is not a dict with a '-meta' entry. *)
Definition no_meta_entry (j : value) : Prop :=
  forall k d x, j = VDict k d -> ~ In (VStr "-meta", x) d.
(** [j] has a '-meta' entry whose 'classes' name [t] for the object itself. *)
Definition meta_class (E : env) (f : nat) (j : value) (t : ty) : Prop :=
  exists k d km meta kc hints s,
    j = VDict k d /\ dget (VStr "-meta") d = Some (VDict km meta) /\
    dget (VStr "classes") meta = Some (VDict kc hints) /\
    dget (VStr "/") hints = Some (VStr s) /\ e_resolve E f s = Ok t.

(** ** Matching None *)
(** The targets that None is meant to be accepted by *)
Definition may_be_none (h : option ty) : Prop :=
  match h with
  | None | Some TAny | Some TObject | Some TNoneT => True
  | Some (TUnion ts) => In TNoneT ts
  | _ => False
  end.
Definition occurs (p s : string) : Prop := exists a b, s = a ++ p ++ b.
(** A target that is not a union but whose name has 'union' or 'optional' in it, in any
    casing *)
Definition odd_name (CT : classes) (h : option ty) : Prop :=
  exists t, h = Some t /\ (forall ts, t <> TUnion ts) /\ raw_args t = None /\
            (occurs "union" (slower (simple_name CT t)) \/ occurs "optional" (slower (simple_name CT t))).

(** A target that is neither Any nor a forward reference *)
Definition direct (t : ty) : Prop := match t with TFwd _ | TAny => False | _ => True end.

(** ** Options of nested calls *)
(** The options that the alternatives of a union, the elements of a tuple and so on are
    loaded with when no meta data is around *)
Definition nested_opts (o : lopts) : lopts :=
  mkLopts (lo_strict o) (lo_getters o) (lo_kt o) (Some []) false (lo_warn o) (lo_enum_name o).
(** For the attributes of objects: the getters are not passed on. *)
Definition attr_opts (o : lopts) : lopts :=
  mkLopts (lo_strict o) [] (lo_kt o) (Some []) false (lo_warn o) (lo_enum_name o).
(** For the elements of a list: only the outermost list drops failing elements. *)
Definition elem_opts (o : lopts) (typed : bool) : lopts :=
  mkLopts (lo_strict o) (lo_getters o) (lo_kt o) (Some []) typed false (lo_enum_name o).
(** The options of tuple elements: the key transformer is lost. *)
Definition tuple_opts (o : lopts) : lopts :=
  mkLopts (lo_strict o) (lo_getters o) None (Some []) false (lo_warn o) (lo_enum_name o).
(** No meta hints are given by the caller. *)
Definition no_hints (o : lopts) : Prop := lo_hints o = None \/ lo_hints o = Some [].

(** ** Objects *)
(** The input with its keys transformed; if two keys become equal the later entry wins, in
    the place of the earlier one. *)
Definition renamed (CT : classes) (o : lopts) (d d' : list (value * value)) : Prop :=
  match lo_kt o with
  | None => d' = d
  | Some g => exists ks, Forall2 (fun kv k' => g (fst kv) = Ok k' /\ hashable CT k' = true) d ks /\
                         d' = fold_left (fun acc kx => dset (fst kx) (snd kx) acc)
                                        (combine ks (map snd d)) []
  end.
(** What a parameter of the constructor is given, in order of precedence: the value from
    the input, loaded with the parameter's annotation, the getter's value, the default,
    nothing (for *args and **kwargs), None. *)
Inductive param_value (E : env) (n f : nat) (o : lopts) (d : list (value * value)) (p : param)
  : option value -> Prop :=
| pv_input x y :
    dget (VStr (pa_name p)) d = Some x -> snd (load E n f (attr_opts o) (pa_hint p) x) = Done y ->
    param_value E n f o d p (Some y)
| pv_getter y :
    dget (VStr (pa_name p)) d = None -> sget (pa_name p) (lo_getters o) = Some (Ok y) ->
    param_value E n f o d p (Some y)
| pv_default y :
    dget (VStr (pa_name p)) d = None -> sget (pa_name p) (lo_getters o) = None ->
    pa_default p = Some y -> param_value E n f o d p (Some y)
| pv_var :
    dget (VStr (pa_name p)) d = None -> sget (pa_name p) (lo_getters o) = None ->
    pa_default p = None -> pa_var p = true -> param_value E n f o d p None
| pv_none :
    dget (VStr (pa_name p)) d = None -> sget (pa_name p) (lo_getters o) = None ->
    pa_default p = None -> pa_var p = false -> may_be_none (pa_hint p) ->
    param_value E n f o d p (Some VNone).
(** The parameter has no value. *)
Definition unfulfilled (o : lopts) (d : list (value * value)) (p : param) : Prop :=
  dget (VStr (pa_name p)) d = None /\ sget (pa_name p) (lo_getters o) = None /\
  pa_default p = None /\ pa_var p = false /\ ~ may_be_none (pa_hint p).
(** The keyword arguments: the parameters that are given something *)
Fixpoint arguments (ps : list param) (ys : list (option value)) : list (string * value) :=
  match ps, ys with
  | p :: ps, Some y :: ys => (pa_name p, y) :: arguments ps ys
  | _ :: ps, None :: ys => arguments ps ys
  | _, _ => []
  end.
(** The entries of the input that are neither constructor arguments nor meta data *)
Definition is_extra (args : list (string * value)) (k : value) : Prop :=
  k <> VStr "-meta" /\ forall a x, k = VStr a -> ~ In (a, x) args.
Inductive extras (args : list (string * value)) : list (value * value) -> list (value * value) -> Prop :=
| ex_nil : extras args [] []
| ex_keep k x d r : is_extra args k -> extras args d r -> extras args ((k, x) :: d) ((k, x) :: r)
| ex_drop k x d r : ~ is_extra args k -> extras args d r -> extras args ((k, x) :: d) r.
(** Extra entries become attributes: each is loaded with the class's annotation or, without
    one, its own class, and then set; properties without a setter are left alone. *)
Definition extra_type (ci : cinfo) (a : string) (x : value) : ty :=
  match sget a (ci_hints ci) with Some t => t | None => class_of x end.
Inductive sets_extras (E : env) (n f : nat) (o : lopts) (ci : cinfo)
  : list (value * value) -> list (string * value) -> list (string * value) -> Prop :=
| se_nil at_ : sets_extras E n f o ci [] at_ at_
| se_set a x y r at_ at1 at2 :
    snd (load E n f (attr_opts o) (Some (extra_type ci a x)) x) = Done y ->
    ci_set ci a y at_ = Ok at1 -> sets_extras E n f o ci r at1 at2 ->
    sets_extras E n f o ci ((VStr a, x) :: r) at_ at2
| se_readonly a x y r at_ at2 e :
    snd (load E n f (attr_opts o) (Some (extra_type ci a x)) x) = Done y ->
    ci_set ci a y at_ = Err e -> e_kind e = KAttribute -> sets_extras E n f o ci r at_ at2 ->
    sets_extras E n f o ci ((VStr a, x) :: r) at_ at2.
(** In the end every getter's value is set. *)
Inductive sets_getters (ci : cinfo)
  : list (string * res value) -> list (string * value) -> list (string * value) -> Prop :=
| sg_nil at_ : sets_getters ci [] at_ at_
| sg_set a y r at_ at1 at2 :
    ci_set ci a y at_ = Ok at1 -> sets_getters ci r at1 at2 ->
    sets_getters ci ((a, Ok y) :: r) at_ at2.
(** Setting an attribute stores it. *)
Definition plain_setattr (ci : cinfo) : Prop := forall a y at_, ci_set ci a y at_ = Ok (sset a y at_).
(** The constructor stores its arguments under their own names. *)
Definition stores_arguments (ci : cinfo) : Prop := forall args at0 a y,
  ci_init ci args = Ok at0 -> NoDup (map fst args) -> In (a, y) args -> sget a at0 = Some y.
(** Loading the dict [d] as an instance of [c] gives it the attributes [attrs]. *)
Definition constructs (E : env) (n f : nat) (o : lopts) (c : nat) (d : list (value * value))
           (attrs : list (string * value)) : Prop :=
  exists d' ys rest at0 at1,
    renamed (e_ct E) o d d' /\
    Forall2 (param_value E n f o d') (ci_params (e_ct E c)) ys /\
    extras (arguments (ci_params (e_ct E c)) ys) d' rest /\
    (lo_strict o = true -> rest = []) /\
    ci_init (e_ct E c) (arguments (ci_params (e_ct E c)) ys) = Ok at0 /\
    sets_extras E n f o (e_ct E c) rest at0 at1 /\
    sets_getters (e_ct E c) (lo_getters o) at1 attrs.
(** [c] is loaded as an object, without meta data, and none of its parameters has a type
    whose name confuses the test for None. *)
Definition plain_object (E : env) (f c : nat) (o : lopts) (d : list (value * value)) : Prop :=
  e_deser E f (TClass c) = Some DObject /\ no_hints o /\ no_meta_entry (VDict DkDict d) /\
  forall p, In p (ci_params (e_ct E c)) -> ~ odd_name (e_ct E) (pa_hint p).

(** ** Effects: what resolving a parameter and setting an extra attribute do *)
Definition param_events (E : env) (n f : nat) (o : lopts) (d : list (value * value)) (p : param) : list ev :=
  match dget (VStr (pa_name p)) d with
  | Some x => fst (load E n f (attr_opts o) (pa_hint p) x)
  | None => match sget (pa_name p) (lo_getters o) with
            | Some _ => [EvGetter (pa_name p)]
            | None => []
            end
  end.
Definition extra_events (E : env) (n f : nat) (o : lopts) (ci : cinfo) (kx : value * value) : list ev :=
  match fst kx with
  | VStr a =>
      ((match sget a (ci_hints ci), snd kx with
        | None, VDict _ d => if dhas (VStr "-keys") d then fst (warn E f "hashed-keys-without-hint") else []
        | _, _ => []
        end)
       ++ fst (load E n f (attr_opts o) (Some (extra_type ci a (snd kx))) (snd kx)))%list
  | _ => []
  end.
(** How often the getter of [a] is called *)
Definition getter_calls (a : string) (l : list ev) : nat :=
  length (filter (fun e => match e with EvGetter b => String.eqb a b | _ => false end) l).

(** ** Lists *)
(** isinstance(err, DeserializationError) *)
Definition deserialization_error (e : exn) : Prop :=
  In (e_kind e) [KDeser; KDecode; KUnfulfilled; KSignature; KUnknownClass].
(** Loading the elements [l] one by one and leaving out those that cannot be deserialized
    gives [ys] and has the effects [evs]. *)
Inductive keeps (E : env) (n f : nat) (o : lopts) (t : option ty)
  : list value -> list value -> list ev -> Prop :=
| keeps_nil : keeps E n f o t [] [] []
| keeps_elem x y l ys evs :
    snd (load E n f o t x) = Done y -> keeps E n f o t l ys evs ->
    keeps E n f o t (x :: l) (y :: ys) (fst (load E n f o t x) ++ evs)%list
| keeps_drop x e l ys evs :
    snd (load E n f o t x) = Fail e -> deserialization_error e -> keeps E n f o t l ys evs ->
    keeps E n f o t (x :: l) ys
          (fst (load E n f o t x) ++
           (if e_warn E f "element-not-deserialized" then [EvWarn f "element-not-deserialized"] else [])
           ++ evs)%list.

(** ** Named tuples *)
(** The [i]th field is given [x]: from a list by position, from a dict by name; beyond the
    number of elements the field's default, or None. *)
Definition field_input (j : value) (i : nat) (fd : ntfield) (x : value) : Prop :=
  match j with
  | VList l | VTuple l => i < length l /\ nth_error l i = Some x
  | VDict _ d => i < length d /\ dget (VStr (nf_name fd)) d = Some x
  | _ => False
  end.
Definition no_more_input (j : value) (i : nat) : Prop :=
  match j with
  | VList l | VTuple l => length l <= i
  | VDict _ d => length d <= i
  | _ => False
  end.
Definition field_default (fd : ntfield) : value :=
  match nf_default fd with Some x => x | None => VNone end.
(** None is only accepted by fields annotated with a type that has None among its
    arguments. *)
Definition none_allowed (fd : ntfield) : Prop :=
  exists h ts, nf_hint fd = Some h /\ raw_args h = Some ts /\ In TNoneT ts.
Inductive field_values (E : env) (n f : nat) (o : lopts) (j : value) : nat -> list ntfield -> list value -> Prop :=
| fv_nil i : field_values E n f o j i [] []
| fv_cons i fd fds x y ys :
    field_input j i fd x \/ (no_more_input j i /\ x = field_default fd) ->
    (x = VNone -> none_allowed fd) ->
    snd (load E n f o (nf_hint fd) x) = Done y ->
    field_values E n f o j (S i) fds ys ->
    field_values E n f o j i (fd :: fds) (y :: ys).
(** The input as the fields are looked up in it: the keys of a dict are transformed (no two
    of them into the same key). *)
Definition string_dict (d : list (value * value)) : Prop :=
  (forall k x, In (k, x) d -> exists s, k = VStr s) /\ NoDup (map fst d).
Definition field_source (CT : classes) (o : lopts) (j j' : value) : Prop :=
  match j with
  | VList _ | VTuple _ => j' = j
  | VDict DkDict d => string_dict d /\
                 exists d', renamed CT o d d' /\ length d' = length d /\ j' = VDict DkDict d'
  | _ => False
  end.

(** ** Documents loaded without a type: strings that read as datetimes become datetimes. *)
Fixpoint undate (v : value) : value :=
  match v with
  | VStr s => match load_datetime s with Ok x => VLeaf (LDatetime x) | Err _ => VStr s end
  | VList l => VList (map undate l)
  | VDict k d => VDict k (map (fun kx => (fst kx, undate (snd kx))) d)
  | _ => v
  end.
Definition no_validators (E : env) (f : nat) : Prop := forall t, e_validator E f t = None.

(** ** Environments that agree on everything that load looks up for fork [f] *)
Definition same_for_load (E E' : env) (f : nat) : Prop :=
  e_ct E = e_ct E' /\ e_rt E = e_rt E' /\ e_object E = e_object E' /\
  (forall t, e_deser E f t = e_deser E' f t) /\ (forall t, e_validator E f t = e_validator E' f t) /\
  (forall c, e_warn E f c = e_warn E' f c) /\ (forall n, e_resolve E f n = e_resolve E' f n) /\
  (forall n t j, e_cdeser E n t j = e_cdeser E' n t j).
