(** * Specification: which values can be dumped and loaded in finitely many steps

    Nothing here refers to serializers or deserializers.  A dump descends from a value to its
    [part]s, a load from a document to what is [inside] it. *)
From Verif Require Export EngineSer EngineDeser.
Local Open Scope string_scope.

(** ** Values and what is read out of them by a dump *)
Definition simple (v : value) : Prop :=
  match v with VBool _ | VInt _ | VFloat _ | VStr _ => True | _ => False end.
Definition instance (v : value) : Prop := match v with VObj _ _ => True | _ => False end.
(** [part E o x v]: [x] is an element, key or value of [v], or what an attribute of [v] gives.
    Properties and class variables count unless the options leave them out; in strict mode the
    class given decides what is left out, so they always count.  The only character of a string
    of length 1 is no part, and neither is a number or string that an attribute of a number or
    string gives (5.real is 5), unless in strict mode a class has an annotation for it. *)
Inductive part (E : env) (o : sopts) : value -> value -> Prop :=
| pt_element v l x : (forall s, v <> VStr s) -> py_iter (e_rt E) v = Ok l -> In x l -> part E o x v
| pt_char s x : String.length s <> 1 -> In x (str_chars s) -> part E o x (VStr s)
| pt_value k d key x : In (key, x) d -> part E o x (VDict k d)
| pt_own c attrs a x : In (a, x) attrs -> part E o x (VObj c attrs)
| pt_class_variable c attrs a x :
    so_strict o = true \/ so_class_vars o = false ->
    In (a, MVar x) (ci_members (e_ct E c)) -> part E o x (VObj c attrs)
| pt_property c attrs a x :
    so_strict o = true \/ so_properties o = false ->
    In (a, MProp) (ci_members (e_ct E c)) -> ci_prop (e_ct E c) a attrs = Ok x ->
    part E o x (VObj c attrs)
| pt_simple v a x :
    simple v -> get_attr E v a = Ok x ->
    ~ simple x \/ so_strict o = true /\ (exists c t, In (a, t) (ci_hints (e_ct E c))) ->
    part E o x v
| pt_other v a x : ~ simple v -> ~ instance v -> get_attr E v a = Ok x -> part E o x v.
(** The descent ends: there is no infinite chain of parts of parts. *)
Definition well_founded_value (E : env) (o : sopts) (v : value) : Prop := Acc (part E o) v.

(** str, int, float, bool and timedelta have their own serializers or ones given by the user. *)
Definition leaves_settled (E : env) (f : nat) : Prop :=
  forall t, In t [TPrim PStr; TPrim PInt; TPrim PFloat; TPrim PBool; TLeaf LkTimedelta] ->
  e_ser E f t = default_ser (e_ct E) t \/ exists k, e_ser E f t = Some (SCustom k).
(** A world in which attributes that are not of the model's own give numbers and strings. *)
Definition shallow_world (E : env) : Prop :=
  (forall v a x, rt_getattr (e_rt E) v a = Ok x -> simple x) /\
  (forall v l x, rt_iter (e_rt E) v = Ok l -> In x l -> simple x) /\
  (forall c n x, In (n, x) (enum_members (e_ct E) c) -> simple x).
(** Properties are left out, and class variables are left out or numbers or strings. *)
Definition members_inert (E : env) (o : sopts) : Prop :=
  forall c a m, In (a, m) (ci_members (e_ct E c)) ->
  match m with
  | MProp => so_properties o = true
  | MVar x => so_class_vars o = true \/ simple x
  | _ => True
  end.

(** ** Documents *)
(** Elements, keys and values *)
Inductive inside : value -> value -> Prop :=
| in_list l x : In x l -> inside x (VList l)
| in_tuple l x : In x l -> inside x (VTuple l)
| in_coll k l x : In x l -> inside x (VColl k l)
| in_key k d key x : In (key, x) d -> inside key (VDict k d)
| in_value k d key x : In (key, x) d -> inside x (VDict k d).
Inductive within : value -> value -> Prop :=
| wi_self v : within v v
| wi_inside x y v : inside x y -> within y v -> within x v.
(** Nothing is inside an atom that load accepts. *)
Definition atom (v : value) : Prop :=
  match v with VList _ | VTuple _ | VColl _ _ | VDict _ _ => False | _ => True end.
Definition no_meta (j : value) : Prop :=
  forall k d, within (VDict k d) j -> dget (VStr "-meta") d = None.

(** The types that a load may turn to without going into the document, or when it goes into a
    string of one character (whose first character is itself): the arguments of a generic type
    or Union, what a name stands for, and the annotation of the first field of a named tuple. *)
Inductive below (E : env) (f : nat) : ty -> ty -> Prop :=
| be_arg t ts u : raw_args t = Some ts -> In u ts -> below E f u t
| be_name s t : e_resolve E f s = Ok t -> below E f t (TFwd s)
| be_first c fd r u : ci_kind (e_ct E c) = CkNT (fd :: r) -> nf_hint fd = Some u ->
                      below E f u (TClass c).
(** Types without named tuples and names *)
Fixpoint untupled (CT : classes) (t : ty) : Prop :=
  match t with
  | TClass c => forall fs, ci_kind (CT c) <> CkNT fs
  | TFwd _ => False
  | TApp _ _ l | TUnion l => (fix all l := match l with [] => True | x :: r => untupled CT x /\ all r end) l
  | _ => True
  end.
(** The defaults of named tuples are no lists, tuples, sets or dicts; strings are the defaults of
    fields without annotation or with one that has no named tuple in it. *)
Definition defaults_simple (E : env) : Prop :=
  forall c fs fd x, ci_kind (e_ct E c) = CkNT fs -> In fd fs -> nf_default fd = Some x ->
  atom x /\ forall s u, x = VStr s -> nf_hint fd = Some u -> untupled (e_ct E) u.
(** Every deserializer is a default one at its place or given by the user. *)
Definition deserializers_settled (E : env) (f : nat) : Prop :=
  forall t, e_deser E f t = default_deser (e_ct E) t \/ exists k, e_deser E f t = Some (DCustom k).
(** Class names in documents stand for classes that are loaded from what is inside the document:
    not for Unions, defaultdicts or strings. *)
Definition names_settled (E : env) (f : nat) : Prop :=
  forall s t h, e_resolve E f s = Ok t -> e_deser E f t = Some h ->
  h <> DUnion /\ h <> DDefaultDict /\ h <> DString.
(** A key transformer gives atoms, or the key itself. *)
Definition keys_settled (o : lopts) : Prop :=
  forall g k k', lo_kt o = Some g -> g k = Ok k' -> atom k' \/ k' = k.
(** The names stand for types without names, and no named tuple has a named tuple in the
    annotation of its first field. *)
Fixpoint nameless (t : ty) : Prop :=
  match t with
  | TFwd _ => False
  | TApp _ _ l | TUnion l => (fix all l := match l with [] => True | x :: r => nameless x /\ all r end) l
  | _ => True
  end.
Definition first_fields_flat (E : env) (f : nat) : Prop :=
  (forall s t, e_resolve E f s = Ok t -> nameless t) /\
  (forall c fd r u, ci_kind (e_ct E c) = CkNT (fd :: r) -> nf_hint fd = Some u -> untupled (e_ct E) u).
