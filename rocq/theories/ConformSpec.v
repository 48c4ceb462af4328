(** * What it means for a loaded value to conform to a type *)
From Verif Require Export LoadSpec.
Local Open Scope string_scope.

(** ** Inputs: JSON documents, possibly with tuples in them, whose dicts have neither a
    '-meta' nor a '-keys' entry *)
Inductive plain_input : value -> Prop :=
| pi_none : plain_input VNone
| pi_bool b : plain_input (VBool b)
| pi_int z : plain_input (VInt z)
| pi_float x : plain_input (VFloat x)
| pi_str s : plain_input (VStr s)
| pi_list l : Forall plain_input l -> plain_input (VList l)
| pi_tuple l : Forall plain_input l -> plain_input (VTuple l)
| pi_dict d :
    Forall (fun kx => exists s, fst kx = VStr s /\ s <> "-meta" /\ s <> "-keys") d ->
    Forall (fun kx => plain_input (snd kx)) d -> plain_input (VDict DkDict d).

(** ** Classes: not registered under a name that has a handler of its own, no base class
    that has one, and defaults of named-tuple fields (which are loaded, too) that are plain
    inputs *)
Definition plain_classes (CT : classes) : Prop := forall c,
  fresh_name (CT c) /\ ci_supers (CT c) = [] /\
  forall fields fd x, ci_kind (CT c) = CkNT fields -> In fd fields -> nf_default fd = Some x -> plain_input x.
(** Attributes hold the constructor arguments of the same name. *)
Definition tame (ci : cinfo) : Prop :=
  stores_arguments ci /\ plain_setattr ci /\ NoDup (map pa_name (ci_params ci)).
(** Key transformers that turn strings into strings *)
Definition string_keys (o : lopts) : Prop := forall g s k,
  lo_kt o = Some g -> g (VStr s) = Ok k -> exists s', k = VStr s'.

(** ** Conformance.  Every rule also demands that the validator of the type, if there is
    one, accepts the value. *)
(** The types whose values are not described further *)
Definition outside (t : ty) : Prop :=
  match t with
  | TObject | TUnionForm | TOptionalForm | TEnumBase | TIntEnumBase | TNewType _ _ _ | TEllipsis => True
  | _ => False
  end.
Inductive sequence_of : head -> list value -> value -> Prop :=
| so_list l : sequence_of HList l (VList l)
| so_iterable l : sequence_of HIterable l (VList l)
| so_set l : sequence_of HSet l (VColl CSet l)
| so_frozen l : sequence_of HFrozen l (VColl CFrozen l)
| so_deque l : sequence_of HDeque l (VColl CDeque l).
Inductive mapping_of : head -> list (value * value) -> value -> Prop :=
| mo_dict d : mapping_of HDict d (VDict DkDict d)
| mo_mapping d : mapping_of HMapping d (VDict DkDict d)
| mo_ordered d : mapping_of HOrderedDict d (VDict DkOrdered d)
| mo_default d : mapping_of HDefaultDict d (VDict DkDefault d).
Inductive conforms (E : env) (f : nat) : ty -> value -> Prop :=
| cf_any v : accepts E f TAny v -> conforms E f TAny v
| cf_none : accepts E f TNoneT VNone -> conforms E f TNoneT VNone
| cf_prim p v :
    class_of v = TPrim p -> accepts E f (TPrim p) v -> conforms E f (TPrim p) v
| cf_bool_int b :                                        (* bool is a subclass of int *)
    accepts E f (TPrim PInt) (VBool b) -> conforms E f (TPrim PInt) (VBool b)
| cf_leaf x : accepts E f (TLeaf (leaf_kind x)) (VLeaf x) -> conforms E f (TLeaf (leaf_kind x)) (VLeaf x)
| cf_sequence b h ts l v :
    sequence_of h l v -> (forall t r, ts = t :: r -> Forall (conforms E f t) l) ->
    accepts E f (TApp b h ts) v -> conforms E f (TApp b h ts) v
| cf_mapping b h ts d v :
    mapping_of h d v ->
    (forall tk tv, ts = [tk; tv] ->
       Forall (fun kx => conforms E f tk (fst kx)) d /\ Forall (fun kx => conforms E f tv (snd kx)) d) ->
    accepts E f (TApp b h ts) v -> conforms E f (TApp b h ts) v
| cf_tuple b ts l :
    (ts <> [] -> last ts TAny <> TEllipsis ->
       length l <= length ts /\ Forall (fun tx => conforms E f (fst tx) (snd tx)) (combine ts l)) ->
    (forall t r, ts = t :: r -> last ts TAny = TEllipsis -> Forall (conforms E f t) l) ->
    accepts E f (TApp b HTuple ts) (VTuple l) -> conforms E f (TApp b HTuple ts) (VTuple l)
| cf_union ts t v :
    In t ts -> conforms E f t v -> accepts E f (TUnion ts) v -> conforms E f (TUnion ts) v
| cf_enum c m ms a :
    ci_kind (e_ct E c) = CkEnum m ms -> In a (map fst ms) ->
    accepts E f (TClass c) (VEnum c a) -> conforms E f (TClass c) (VEnum c a)
| cf_namedtuple c fields l :
    ci_kind (e_ct E c) = CkNT fields ->
    Forall2 (fun fd y => forall t, nf_hint fd = Some t -> conforms E f t y) fields l ->
    accepts E f (TClass c) (VNT c l) -> conforms E f (TClass c) (VNT c l)
| cf_object c attrs :
    ci_kind (e_ct E c) = CkObj ->
    (tame (e_ct E c) -> forall p t y,
       In p (ci_params (e_ct E c)) -> pa_var p = false -> pa_hint p = Some t ->
       sget (pa_name p) attrs = Some y ->
       conforms E f t y \/ pa_default p = Some y \/ (y = VNone /\ may_be_none (Some t))) ->
    accepts E f (TClass c) (VObj c attrs) -> conforms E f (TClass c) (VObj c attrs)
| cf_fwd s t v :                            (* a class given by its name *)
    e_resolve E f s = Ok t -> accepts E f t v -> (direct t -> conforms E f t v) -> conforms E f (TFwd s) v
| cf_outside t v : outside t -> accepts E f t v -> conforms E f t v.

(** ** Typed components of a value *)
(** [component CT t v t' v']: a value [v] of type [t] has the part [v'], whose type is [t']. *)
Inductive component (CT : classes) : ty -> value -> ty -> value -> Prop :=
| cp_element b h t r l v x : sequence_of h l v -> In x l -> component CT (TApp b h (t :: r)) v t x
| cp_key b h tk tv d v k x : mapping_of h d v -> In (k, x) d -> component CT (TApp b h [tk; tv]) v tk k
| cp_value b h tk tv d v k x : mapping_of h d v -> In (k, x) d -> component CT (TApp b h [tk; tv]) v tv x
| cp_position b ts l i t x :
    last ts TAny <> TEllipsis -> nth_error ts i = Some t -> nth_error l i = Some x ->
    component CT (TApp b HTuple ts) (VTuple l) t x
| cp_repeated b t r l x :
    last (t :: r) TAny = TEllipsis -> In x l -> component CT (TApp b HTuple (t :: r)) (VTuple l) t x
| cp_field c fields l i fd t x :
    ci_kind (CT c) = CkNT fields -> nth_error fields i = Some fd -> nf_hint fd = Some t ->
    nth_error l i = Some x -> component CT (TClass c) (VNT c l) t x
| cp_attribute c attrs p t x :
    ci_kind (CT c) = CkObj -> tame (CT c) -> In p (ci_params (CT c)) -> pa_var p = false ->
    pa_hint p = Some t -> sget (pa_name p) attrs = Some x ->
    pa_default p <> Some x -> x <> VNone -> component CT (TClass c) (VObj c attrs) t x.
(** Components of components, to any depth *)
Inductive inside (CT : classes) : ty -> value -> ty -> value -> Prop :=
| in_self t v : inside CT t v t v
| in_part t v t' v' t'' v'' : component CT t v t' v' -> inside CT t' v' t'' v'' -> inside CT t v t'' v''.
(** The validator of [t] is not there. *)
Definition unvalidated (E : env) (f : nat) (t : ty) : env :=
  mkEnv (e_ct E) (e_rt E) (e_object E) (e_ser E) (e_deser E)
        (fun f' t' => if Nat.eqb f' f && ty_eqb t' t then None else e_validator E f' t')
        (e_warn E) (e_resolve E) (e_cser E) (e_cdeser E).
(** Types whose values have no parts that are loaded on their own *)
Definition flat (CT : classes) (t : ty) : Prop :=
  match t with
  | TPrim _ | TNoneT => True
  | TLeaf k => k <> LkTimezone /\ k <> LkComplex
  | TClass c => fresh_name (CT c) /\ ci_supers (CT c) = [] /\ exists m ms, ci_kind (CT c) = CkEnum m ms
  | _ => False
  end.
