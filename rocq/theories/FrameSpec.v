(** * What the influence of handlers on other types is stated with (C78) *)
From Verif Require Export LoadSpec DumpSpec.
Local Open Scope string_scope.

(** [involves E X t]: a type of [X] can be met on the way from [t] down: [t] itself, the arguments
    of a generic type or union, the annotations of the parameters of a class, of its attributes and
    of the fields of a named tuple, and the types that forward references stand for. *)
Definition class_number (E : env) (t : ty) (c : nat) : Prop := t = TClass c \/ t = TObject /\ c = e_object E.
Inductive involves (E : env) (X : ty -> Prop) : ty -> Prop :=
| iv_self t : X t -> involves E X t
| iv_generic b h args a : In a args -> involves E X a -> involves E X (TApp b h args)
| iv_union args a : In a args -> involves E X a -> involves E X (TUnion args)
| iv_parameter t c p h : class_number E t c -> In p (ci_params (e_ct E c)) -> pa_hint p = Some h ->
    involves E X h -> involves E X t
| iv_attribute t c a h : class_number E t c -> sget a (ci_hints (e_ct E c)) = Some h ->
    involves E X h -> involves E X t
| iv_field t c fd h : class_number E t c -> In fd (nt_fields (e_ct E) c) -> nf_hint fd = Some h ->
    involves E X h -> involves E X t
| iv_name s f t : e_resolve E f s = Ok t -> involves E X t -> involves E X (TFwd s).
(** The types in question are not those of JSON values, generic types, or datetime and timedelta:
    load uses these by itself. *)
Definition particular (X : ty -> Prop) : Prop := forall t, X t ->
  match t with
  | TPrim _ | TNoneT | TApp _ _ _ | TLeaf LkDatetime | TLeaf LkTimedelta => False
  | _ => True
  end.
(** [E'] is [E] with other deserializers and validators for the types of [X]. *)
Record same_but (X : ty -> Prop) (E E' : env) : Prop := {
  sb_ct : e_ct E' = e_ct E;
  sb_rt : e_rt E' = e_rt E;
  sb_object : e_object E' = e_object E;
  sb_warn : forall f c, e_warn E' f c = e_warn E f c;
  sb_resolve : forall f s, e_resolve E' f s = e_resolve E f s;
  sb_custom : forall n t j, e_cdeser E' n t j = e_cdeser E n t j;
  sb_deser : forall f t, ~ X t -> e_deser E' f t = e_deser E f t;
  sb_validator : forall f t, ~ X t -> e_validator E' f t = e_validator E f t }.
(** Documents that name no classes: under '-meta', a document can bring in any class.  Key
    transformers must not make such names, and the defaults of named tuples not contain them. *)
Inductive nameless : value -> Prop :=
| nl_plain v : match v with VNone | VBool _ | VInt _ | VFloat _ | VStr _ => True | _ => False end -> nameless v
| nl_list l : (forall x, In x l -> nameless x) -> nameless (VList l)
| nl_tuple l : (forall x, In x l -> nameless x) -> nameless (VTuple l)
| nl_set l : (forall x, In x l -> nameless x) -> nameless (VColl CSet l)
| nl_dict d : (forall a x, In (a, x) d -> a <> VStr "-meta" /\ nameless a /\ nameless x) -> nameless (VDict DkDict d).
Definition nameless_transformer (o : lopts) : Prop := forall g k k',
  lo_kt o = Some g -> nameless k -> g k = Ok k' -> nameless k'.
Definition nameless_defaults (CT : classes) : Prop := forall c fd x,
  In fd (nt_fields CT c) -> nf_default fd = Some x -> nameless x \/ valid_type x = false.

(** [E'] is [E] with other serializers for the types of [X]. *)
Record same_serializers_but (X : ty -> Prop) (E E' : env) : Prop := {
  ss_ct : e_ct E' = e_ct E;
  ss_rt : e_rt E' = e_rt E;
  ss_warn : forall f c, e_warn E' f c = e_warn E f c;
  ss_custom : forall n c x, e_cser E' n c x = e_cser E n c x;
  ss_ser : forall f t, ~ X t -> e_ser E' f t = e_ser E f t }.

(** ** Registering a handler for a class *)
(** The types that a handler for class [c] is used for: those of the same (lowercase) name,
    subclasses, and NewTypes of these. *)
Definition alike (CT : classes) (c : nat) (t : ty) : Prop :=
  slower (class_name CT t) = slower (class_name CT (TClass c)) \/ In (TClass c) (supers CT t).
Definition affected (CT : classes) (c : nat) (t : ty) : Prop :=
  alike CT c t \/ exists m n s, t = TNewType m n s /\ alike CT c s.
(** No other class of the name of [c] has a handler in [T]. *)
Definition own_name {F} (CT : classes) (c : nat) (T : gtable ty F) : Prop := forall p,
  In (Some p) (t_classes T) -> slower (class_name CT p) = slower (class_name CT (TClass c)) -> p = TClass c.
(** The environment after set_deserializer(h, c, hi, fork_inst=f), if [T] is what is registered for
    [f]; likewise set_validator and set_serializer. *)
Definition after_set_deserializer (E : env) (f : nat) (T : gtable ty dhandler) (h : dhandler) (c : nat) (hi : bool) : env :=
  mkEnv (e_ct E) (e_rt E) (e_object E) (e_ser E)
        (fun g => if Nat.eqb g f
                  then lookup (ty_world (e_ct E)) (set_one (ty_world (e_ct E)) h hi (Some (TClass c)) T)
                  else e_deser E g)
        (e_validator E) (e_warn E) (e_resolve E) (e_cser E) (e_cdeser E).
Definition after_set_validator (E : env) (f : nat) (T : gtable ty (value -> res bool)) (h : value -> res bool) (c : nat) : env :=
  mkEnv (e_ct E) (e_rt E) (e_object E) (e_ser E) (e_deser E)
        (fun g => if Nat.eqb g f
                  then lookup (ty_world (e_ct E)) (set_val_one (ty_world (e_ct E)) h (Some (TClass c)) T)
                  else e_validator E g)
        (e_warn E) (e_resolve E) (e_cser E) (e_cdeser E).
Definition after_set_serializer (E : env) (f : nat) (T : gtable ty shandler) (h : shandler) (c : nat) (hi : bool) : env :=
  mkEnv (e_ct E) (e_rt E) (e_object E)
        (fun g => if Nat.eqb g f
                  then lookup (ty_world (e_ct E)) (set_one (ty_world (e_ct E)) h hi (Some (TClass c)) T)
                  else e_ser E g)
        (e_deser E) (e_validator E) (e_warn E) (e_resolve E) (e_cser E) (e_cdeser E).
