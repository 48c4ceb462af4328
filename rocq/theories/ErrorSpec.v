(** * Specification for the source and the target of errors (C65) *)
From Verif Require Export ErrorModel LoadSpec.
Local Open Scope string_scope.

(** ** Entries and elements of documents *)
Definition entry (j k x : value) : Prop := exists dk d, j = VDict dk d /\ In (k, x) d.
Inductive element : value -> nat -> value -> Prop :=
| el_list l i x : nth_error l i = Some x -> element (VList l) i x
| el_tuple l i x : nth_error l i = Some x -> element (VTuple l) i x
| el_set l i x : nth_error l i = Some x -> element (VColl CSet l) i x
| el_key dk d i k x : nth_error d i = Some (k, x) -> element (VDict dk d) i k
| el_char s i x : nth_error (str_chars s) i = Some x -> element (VStr s) i x.
(** A key after the key transformer [g], which is not applied everywhere *)
Definition key_of (g : value -> res value) (k k' : value) : Prop := k' = k \/ g k = Ok k'.
Definition named (g : value -> res value) (j : value) (a : string) (x : value) : Prop :=
  exists k, entry j k x /\ key_of g k (VStr a).

(** ** The type that is meant by load(j, cls): cls, what it stands for if it is a string, the
    class that the document names, or the type of j *)
Inductive meant (E : env) (f : nat) (cls : option ty) (j : value) : ty -> Prop :=
| me_cls t : cls = Some t -> meant E f cls j t
| me_string s t : cls = Some (TFwd s) -> e_resolve E f s = Ok t -> meant E f cls j t
| me_named dk d meta ck classes s t :
    j = VDict dk d -> dget (VStr "-meta") d = Some meta ->
    py_getitem (e_ct E) meta (VStr "classes") = Ok (VDict ck classes) ->
    dget (VStr "/") classes = Some (VStr s) -> e_resolve E f s = Ok t -> meant E f cls j t
| me_type : meant E f cls j (class_of j).
(** The class with the number that a type stands for *)
Definition class_target (E : env) (t : ty) (c : nat) : Prop := t = TClass c \/ t = TObject /\ c = e_object E.

(** ** What is loaded, and as what, in the course of load(j0, cls0) on the fork [f0] *)
Inductive asked (E : env) (g : value -> res value) (f0 : nat) (cls0 : option ty) (j0 : value)
  : nat -> option ty -> value -> Prop :=
| as_self : asked E g f0 cls0 j0 f0 cls0 j0
(* elements of lists, sets, ...: as the argument of the type *)
| as_list f cls j t i x : asked E g f0 cls0 j0 f cls j -> meant E f cls j t ->
    e_deser E f t = Some DList \/ e_deser E f t = Some DIterable ->
    element j i x -> asked E g f0 cls0 j0 f (hd_error (get_args (Some t))) x
(* elements of tuples: as the argument at the same position; T in Tuple[T, ...] *)
| as_tuple f cls j t i x u : asked E g f0 cls0 j0 f cls j -> meant E f cls j t ->
    e_deser E f t = Some DTuple -> element j i x -> nth_error (get_args (Some t)) i = Some u ->
    asked E g f0 cls0 j0 f (Some u) x
| as_ellipsis f cls j t i x u : asked E g f0 cls0 j0 f cls j -> meant E f cls j t ->
    e_deser E f t = Some DTuple -> element j i x -> hd_error (get_args (Some t)) = Some u ->
    last (get_args (Some t)) TAny = TEllipsis -> asked E g f0 cls0 j0 f (Some u) x
| as_untyped f cls j t i x : asked E g f0 cls0 j0 f cls j -> meant E f cls j t ->
    e_deser E f t = Some DTuple -> element j i x -> get_args (Some t) = [] ->
    asked E g f0 cls0 j0 f None x
(* fields of named tuples: the element at the position, the entry with the name, the default
   or None *)
| as_field f cls j c fields i fd x : asked E g f0 cls0 j0 f cls j -> meant E f cls j (TClass c) ->
    e_deser E f (TClass c) = Some DTuple -> ci_kind (e_ct E c) = CkNT fields -> nth_error fields i = Some fd ->
    element j i x \/ named g j (nf_name fd) x \/ nf_default fd = Some x \/ nf_default fd = None /\ x = VNone ->
    asked E g f0 cls0 j0 f (nf_hint fd) x
(* members of unions *)
| as_union f cls j t ts u : asked E g f0 cls0 j0 f cls j -> meant E f cls j t ->
    e_deser E f t = Some DUnion -> raw_args t = Some ts -> In u ts -> asked E g f0 cls0 j0 f (Some u) j
(* defaultdict[K, V] is loaded as Dict[K, V] *)
| as_defaultdict f cls j t : asked E g f0 cls0 j0 f cls j -> meant E f cls j t ->
    e_deser E f t = Some DDefaultDict -> asked E g f0 cls0 j0 f (Some (TApp true HDict (get_args (Some t)))) j
(* values and keys of dicts; stored keys *)
| as_value f cls j t tk tv k x : asked E g f0 cls0 j0 f cls j -> meant E f cls j t ->
    e_deser E f t = Some DMapping -> get_args (Some t) = [tk; tv] -> entry j k x ->
    asked E g f0 cls0 j0 f (Some tv) x
| as_untyped_value f cls j t k x : asked E g f0 cls0 j0 f cls j -> meant E f cls j t ->
    e_deser E f t = Some DMapping -> get_args (Some t) = [] -> entry j k x ->
    asked E g f0 cls0 j0 f None x
| as_key f cls j t tk tv k k' x : asked E g f0 cls0 j0 f cls j -> meant E f cls j t ->
    e_deser E f t = Some DMapping -> get_args (Some t) = [tk; tv] -> entry j k x -> key_of g k k' ->
    asked E g f0 cls0 j0 f (Some tk) k'
| as_stored_key f cls j t tk tv stored hash k : asked E g f0 cls0 j0 f cls j -> meant E f cls j t ->
    e_deser E f t = Some DMapping -> get_args (Some t) = [tk; tv] -> entry j (VStr "-keys") stored ->
    entry stored hash k -> asked E g f0 cls0 j0 f (Some tk) k
(* strings may be datetimes; the offset of a timezone *)
| as_datetime f cls j t : asked E g f0 cls0 j0 f cls j -> meant E f cls j t ->
    e_deser E f t = Some DString -> asked E g f0 cls0 j0 f (Some (TLeaf LkDatetime)) j
| as_offset f cls j t x : asked E g f0 cls0 j0 f cls j -> meant E f cls j t ->
    e_deser E f t = Some DTimezone -> entry j (VStr "offset") x ->
    asked E g f0 cls0 j0 0 (Some (TLeaf LkTimedelta)) x
(* arguments and attributes of objects: with a hint, as a class that the document names, and as
   what they are *)
| as_argument f cls j t c p x : asked E g f0 cls0 j0 f cls j -> meant E f cls j t ->
    e_deser E f t = Some DObject -> class_target E t c -> In p (ci_params (e_ct E c)) -> named g j (pa_name p) x ->
    asked E g f0 cls0 j0 f (pa_hint p) x
| as_named f cls j t c p s u x : asked E g f0 cls0 j0 f cls j -> meant E f cls j t ->
    e_deser E f t = Some DObject -> class_target E t c -> In p (ci_params (e_ct E c)) -> named g j (pa_name p) x ->
    e_resolve E f s = Ok u -> asked E g f0 cls0 j0 f (Some u) x
| as_attribute f cls j t c a u x : asked E g f0 cls0 j0 f cls j -> meant E f cls j t ->
    e_deser E f t = Some DObject -> class_target E t c -> named g j a x -> sget a (ci_hints (e_ct E c)) = Some u ->
    asked E g f0 cls0 j0 f (Some u) x
| as_other f cls j t k x : asked E g f0 cls0 j0 f cls j -> meant E f cls j t ->
    e_deser E f t = Some DObject -> entry j k x -> asked E g f0 cls0 j0 f (Some (class_of x)) x.

(** ** The source: the object that was to be loaded; instances of classes may blame the dict with
    transformed keys instead *)
Inductive source_of (g : value -> res value) (j : value) : value -> Prop :=
| so_self : source_of g j j
| so_keys d :
    Forall (fun kx => (exists k x, entry j k x /\ key_of g k (fst kx)) /\ (exists k, entry j k (snd kx))) d ->
    source_of g j (VDict DkDict d).
(** ** The target: the type that is meant.  Further: the given class, Mapping in place of a
    mapping, str in place of a class that is loaded like str; None if a name is unknown *)
Inductive target_of (E : env) (f : nat) (cls : option ty) (j : value) : option ty -> Prop :=
| to_meant t : meant E f cls j t -> target_of E f cls j (Some t)
| to_cls : target_of E f cls j cls
| to_mapping t b : meant E f cls j t -> e_deser E f t = Some DMapping ->
    target_of E f cls j (Some (TApp b HMapping (get_args (Some t))))
| to_str t : meant E f cls j t -> e_deser E f t = Some DString ->
    target_of E f cls j (Some (TPrim PStr))
| to_unknown s e : e_resolve E f s = Err e -> target_of E f cls j None.
(** ** The error of an element of a list: "Could not deserialize element at index 2. ..." *)
Fixpoint at_indices (idx : list nat) (e : exn) : exn :=
  match idx with
  | [] => e
  | i :: r => let e' := at_indices r e in mkExn KDeser (e_arg e') (i :: e_idx e') false (e_msg e')
  end.
(** ** What source and target of an error say: there was a call of load for the source and the
    target, and this call fails for itself, with the same error. *)
Definition blames (E : env) (g : value -> res value) (ask : nat -> option ty -> value -> Prop) (x : err) : Prop :=
  forall src tgt, er_at x = Some (src, tgt) ->
  exists n f o cls j e idx,
    ask f cls j /\ snd (load E n f o cls j) = Fail e /\ deserialization_error e /\ er_exn x = at_indices idx e /\
    source_of g j src /\ target_of E f cls j tgt.

(** ** The arguments that errors name *)
(** A required parameter for which the source has no value; a field of a named tuple that must
    not be None *)
Inductive unfulfilled (CT : classes) (src : value) (c : nat) (a : string) : Prop :=
| uf_param p :
    In p (ci_params (CT c)) -> pa_name p = a -> pa_default p = None -> pa_var p = false ->
    (forall k x, entry src k x -> k <> VStr a) -> unfulfilled CT src c a
| uf_field fields fd :
    ci_kind (CT c) = CkNT fields -> In fd fields -> nf_name fd = a ->
    (forall ts, nf_hint fd = Some (TUnion ts) -> ~ In TNoneT ts) -> unfulfilled CT src c a.
(** A key of the source that is no parameter *)
Definition unexpected (CT : classes) (src : value) (c : nat) (a : string) : Prop :=
  (exists x, entry src (VStr a) x) /\ a <> "-meta" /\ ~ In a (map pa_name (ci_params (CT c))).
Definition explained (E : env) (x : err) : Prop :=
  (deserialization_error (er_exn x) -> er_at x <> None) /\
  (e_kind (er_exn x) = KUnfulfilled -> exists src t c a,
     er_at x = Some (src, Some t) /\ class_target E t c /\ e_arg (er_exn x) = Some a /\ unfulfilled (e_ct E) src c a) /\
  (e_kind (er_exn x) = KSignature -> exists src t c,
     er_at x = Some (src, Some t) /\ class_target E t c /\
     forall a, e_arg (er_exn x) = Some a -> unexpected (e_ct E) src c a).
(** User code and Python functions outside of the model do not raise DeserializationErrors
    themselves. *)
Definition no_deser {A} (r : res A) : Prop := forall e, r = Err e -> ~ deserialization_error e.
Record polite (E : env) : Prop := mkPolite {
  po_str : forall v, no_deser (rt_str (e_rt E) v);
  po_int : forall v, no_deser (rt_int (e_rt E) v);
  po_float : forall v, no_deser (rt_float (e_rt E) v);
  po_iter : forall v, no_deser (rt_iter (e_rt E) v);
  po_cast : forall t v, no_deser (rt_cast (e_rt E) t v);
  po_decimal : forall v, no_deser (rt_decimal (e_rt E) v);
  po_path : forall v, no_deser (rt_path (e_rt E) v);
  po_zone : forall v, no_deser (rt_zone (e_rt E) v);
  po_custom : forall n t v, no_deser (e_cdeser E n t v);
  po_init : forall c args, no_deser (ci_init (e_ct E c) args);
  po_set : forall c a y at_, no_deser (ci_set (e_ct E c) a y at_);
  (* an unknown name is an UnknownClassError *)
  po_resolve : forall f s e, e_resolve E f s = Err e -> deserialization_error e -> e_kind e = KUnknownClass }.
Definition polite_options (o : lopts) : Prop :=
  (forall a r, In (a, r) (lo_getters o) -> no_deser r) /\
  (forall g k, lo_kt o = Some g -> no_deser (g k)).
