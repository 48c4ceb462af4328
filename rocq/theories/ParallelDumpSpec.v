(** * Specification for dumping with several tasks (C68) *)
From Verif Require Export DumpSpec ParallelSpec ParallelDumpModel.
Local Open Scope string_scope.

(** Tuples that are not named tuples and iterables that are neither lists nor dicts: their
    elements are shared among the tasks. *)
Definition shared_out (h : option shandler) (x : value) : Prop :=
  h = Some SIterable \/ (h = Some STuple /\ forall i l, x <> VNT i l).

(** What dumping [v] with [cls] comes across, as [visits], but without the elements of what is
    shared out: only the outermost iterables are dumped by several tasks. *)
Inductive outer (E : env) (f : nat) (o : sopts) (cls : option ty) (v : value)
  : option ty -> value -> Prop :=
| outer_root : outer E f o cls v cls v
| outer_elem c x l y t :
    outer E f o cls v c x -> (serializer E f c x = Some SList \/ serializer E f c x = Some SDict) ->
    py_iter (e_rt E) x = Ok l -> In y l -> elem_type E o c x t -> outer E f o cls v t y
| outer_value c x k y t :
    outer E f o cls v c x -> serializer E f c x = Some SDict ->
    py_getitem (e_ct E) x k = Ok y ->
    (t = None \/ exists k' u, t = Some u /\ In (k', u) (so_types o)) ->
    outer E f o cls v t y
| outer_attr c x a y t :
    outer E f o cls v c x ->
    (serializer E f c x = Some SObject \/
     serializer E f c x = Some STuple /\ exists i l, x = VNT i l) ->
    get_attr E x a = Ok y ->
    (t = None \/ exists i u, (c = Some (TClass i) \/ class_of x = TClass i) /\ t = Some u /\
                             In (a, u) (ci_hints (e_ct E i))) ->
    outer E f o cls v t y
| outer_alternative c x t :
    outer E f o cls v c x -> serializer E f c x = Some SUnion -> In t (get_args c) ->
    (x = VNone -> ~ In TNoneT (get_args c)) ->
    outer E f o cls v (Some t) x
| outer_offset c off name :
    outer E f o cls v c (VLeaf (LTimezone off name)) ->
    serializer E f c (VLeaf (LTimezone off name)) = Some STimezone ->
    outer E f o cls v c (VLeaf (LTimedelta off)).

(** The options with which parts are dumped: [types] holds for the outermost dict only, the
    internal flag for class names comes and goes, and strip_attr is made a tuple. *)
Definition variant (o o' : sopts) : Prop :=
  exists store types attr,
    (types = so_types o \/ types = []) /\
    (attr = so_attr o \/ attr = normalize_strip_attr (so_attr o)) /\
    o' = mkSopts (so_strict o) (so_strip_nulls o) (so_kt o) (so_privates o) (so_properties o)
                 (so_class_vars o) attr (so_class_info o) (so_dump_time o) store (so_enum_name o)
                 (so_strip_us o) types.

(** What is shared out has elements and can be dumped by one task. *)
Definition steady (E : env) (f : nat) (o : sopts) (cls : option ty) (v : value) : Prop :=
  forall c x l, outer E f o cls v c x -> shared_out (serializer E f c x) x ->
    py_iter (e_rt E) x = Ok l ->
    l <> [] /\ forall o', variant o o' -> exists n d, snd (dump E f n o' c x) = Done d.

(** Schedules that are long enough for every iterable *)
Definition fair_dump (E : env) (k : nat) (sch : nat -> value -> list action) : Prop :=
  forall n x l, py_iter (e_rt E) x = Ok l -> fair_schedule k (2 * length l + k) (sch n x).
