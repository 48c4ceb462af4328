(** * What the properties of verbose dumps are stated with *)
From Verif Require Export RoundTripSpec.
Local Open Scope string_scope.

(** The same options without verbosity *)
Definition silent (o : sopts) : sopts :=
  mkSopts (so_strict o) (so_strip_nulls o) (so_kt o) (so_privates o) (so_properties o)
          (so_class_vars o) (so_attr o) false false (so_store_cls o)
          (so_enum_name o) (so_strip_us o) (so_types o).

(** ** Objects within objects *)
(** [part v p w]: following the attribute names [p] leads from [v] to [w]. *)
Inductive part : value -> list string -> value -> Prop :=
| part_self v : part v [] v
| part_attr c attrs a x p w : In (a, x) attrs -> part x p w -> part (VObj c attrs) (a :: p) w.
(** The text of a path: "/" or "/a/b" *)
Fixpoint path_tail (p : list string) : string :=
  match p with
  | [] => ""
  | a :: p => "/" ++ a ++ path_tail p
  end.
Definition path_text (p : list string) : string :=
  match p with
  | [] => "/"
  | _ => path_tail p
  end.
(** [hints] maps the path of every object within [v], [v] included, to the name of its class,
    and nothing else. *)
Definition lists_classes (CT : classes) (v : value) (hints : list (value * value)) : Prop :=
  NoDup (map fst hints) /\
  forall k y, In (k, y) hints <->
    exists p c attrs, part v p (VObj c attrs) /\ k = VStr (path_text p) /\ y = VStr (ci_name (CT c)).

(** ** Classes *)
(** Names that can be told apart in a path *)
Fixpoint slashless (a : string) : Prop :=
  match a with
  | EmptyString => True
  | String ch a => ch <> "/"%char /\ slashless a
  end.
(** As [record_like], but nothing is said about annotations. *)
Record node_like (CT : classes) (o : sopts) (c : nat) : Prop := {
  nl_kind : ci_kind (CT c) = CkObj;
  nl_ordinary : ordinary (CT c);
  nl_no_attrs : ci_attrs (CT c) = false;
  nl_readable : readable (ci_members (CT c));
  nl_names : NoDup (map pa_name (ci_params (CT c)));
  nl_init : forall args, map fst args = map pa_name (ci_params (CT c)) -> ci_init (CT c) args = Ok args;
  nl_member : forall a, In a (map fst (ci_members (CT c))) -> visible (ci_members (CT c)) o [] a ->
                        In a (map pa_name (ci_params (CT c)));
  nl_param : forall p, In p (ci_params (CT c)) ->
    visible (ci_members (CT c)) o [] (pa_name p) /\ attribute_name (pa_name p) /\
    pa_name p <> "" /\ slashless (pa_name p) /\
    sget (pa_name p) (ci_members (CT c)) <> Some MProp }.
(** Annotations that leave the way an object is dumped to the object: classes and unions that
    start with one, besides None; not necessarily the class of the object *)
Inductive object_hint (CT : classes) : ty -> Prop :=
| oh_class c : ci_kind (CT c) = CkObj -> ordinary (CT c) -> object_hint CT (TClass c)
| oh_union pre t ts : (forall u, In u pre -> u = TNoneT) -> object_hint CT t ->
                      object_hint CT (TUnion (pre ++ t :: ts)).
(** Object trees.  An attribute is either a value of its annotated type that is dumped without
    dicts, or another object tree, whatever the constructor parameter is annotated with. *)
Inductive tree (E : env) (g : nat) (o : sopts) : value -> Prop :=
| tree_obj c attrs :
    node_like (e_ct E) o c ->
    map fst attrs = map pa_name (ci_params (e_ct E c)) ->
    (forall p x, In (p, x) (combine (ci_params (e_ct E c)) (map snd attrs)) ->
       (flat x = true /\ exists t, pa_hint p = Some t /\ has_type E g o t x /\
          (attr_hint (e_ct E c) (pa_name p) = None \/ attr_hint (e_ct E c) (pa_name p) = Some t)) \/
       (tree E g o x /\
          (attr_hint (e_ct E c) (pa_name p) = None \/
           exists t, attr_hint (e_ct E c) (pa_name p) = Some t /\ object_hint (e_ct E) t))) ->
    accepts E g (TClass c) (VObj c attrs) -> tree E g o (VObj c attrs).

(** The names of the classes of a tree denote these classes when the tree is loaded. *)
Definition resolves (E : env) (g : nat) (v : value) : Prop := forall p c attrs,
  part v p (VObj c attrs) -> e_resolve E g (ci_name (e_ct E c)) = Ok (TClass c).

(** The class given to dump: none, or that of ordinary objects *)
Definition object_cls (CT : classes) (cls : option ty) : Prop :=
  cls = None \/ exists c, cls = Some (TClass c) /\ ci_kind (CT c) = CkObj /\ ordinary (CT c).
(** The '-meta' section of a dump that is verbose about classes *)
Definition meta_section (E : env) (o : sopts) (hints : list (value * value)) : value :=
  VDict DkDict ((VStr "classes", VDict DkDict hints) ::
                if so_dump_time o then [(VStr "dump_time", VStr (rt_now (e_rt E)))] else []).

(** ** Clashes *)
(** On the way down [p], load strips the next name off the hints that start with it; hints that
    do not are left as they are, as if they were about the new root.  What this makes of the
    hint for [q]: *)
Fixpoint leftover (p q : list string) : list string :=
  match p with
  | [] => q
  | a :: p => leftover p (match q with
                          | b :: q' => if String.eqb a b then q' else q
                          | [] => []
                          end)
  end.
(** No object has an attribute for which a hint about another object could be taken. *)
Definition no_clash (v : value) : Prop := forall p q a x c attrs c' attrs',
  part v p (VObj c attrs) -> In (a, x) attrs -> part v q (VObj c' attrs') ->
  leftover p q = [a] -> q = (p ++ [a])%list.
(** A simpler criterion: the names of attributes that hold objects are not used in other
    objects. *)
Definition own_names (v : value) : Prop := forall p q a x c attrs c' attrs',
  part v p (VObj c attrs) -> In (a, x) attrs -> part v (q ++ [a])%list (VObj c' attrs') -> q = p.
