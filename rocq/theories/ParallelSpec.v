(** * Specification for loading with several tasks (C59) *)
From Verif Require Export LoadSpec ConformSpec RoundTripSpec MultitaskSpec ParallelModel.
Local Open Scope string_scope.

(** ** Fair schedules
    In a round the main thread and each of the [k] tasks get at least one turn; anything may
    happen in between.  A schedule is fair if it has enough rounds. *)
Definition round (k : nat) (r : list action) : Prop :=
  In AMain r /\ forall i, i < k -> In (AWorker i) r.
Definition fair_schedule (k rounds : nat) (s : list action) : Prop :=
  exists rs, s = concat rs /\ Forall (round k) rs /\ rounds <= length rs.
(** All lists are processed by fair schedules; [k] bounds the number of tasks. *)
Definition fair (k : nat) (sch : nat -> value -> list action) : Prop :=
  forall n l, fair_schedule k (2 * length l + k) (sch n (VList l)).

(** ** Documents in which the number of tasks does not matter
    Lists are given where lists are expected, and none of them is empty.  Unions are
    optionals. *)
Definition scalar (j : value) : Prop :=
  match j with VNone | VBool _ | VInt _ | VFloat _ | VStr _ => True | _ => False end.
Definition leaf_type (CT : classes) (t : ty) : Prop :=
  match t with
  | TPrim _ | TNoneT | TLeaf _ => True
  | TClass c => ordinary (CT c) /\ exists m l, ci_kind (CT c) = CkEnum m l
  | _ => False
  end.
Definition list_head (h : EngineTypes.head) : Prop :=
  match h with HList | HSet | HFrozen | HDeque | HIterable => True | _ => False end.
Definition dict_head (h : EngineTypes.head) : Prop :=
  match h with HDict | HOrderedDict | HMapping | HDefaultDict => True | _ => False end.
Inductive tidy (CT : classes) (strict : bool) : option ty -> value -> Prop :=
| td_any j : tidy CT strict (Some TAny) j
| td_same j : strict = false -> tidy CT strict (Some (class_of j)) j
| td_leaf t j : leaf_type CT t -> tidy CT strict (Some t) j
| td_untyped j : scalar j -> tidy CT strict None j
| td_untyped_list l : l <> [] -> Forall (tidy CT strict None) l -> tidy CT strict None (VList l)
| td_untyped_dict d :
    Forall (fun kx => tidy CT strict None (snd kx)) d -> tidy CT strict None (VDict DkDict d)
| td_list b h t l :
    list_head h -> l <> [] -> Forall (tidy CT strict (Some t)) l ->
    tidy CT strict (Some (TApp b h [t])) (VList l)
| td_bare_list b h l :
    list_head h -> l <> [] -> Forall (tidy CT strict None) l ->
    tidy CT strict (Some (TApp b h [])) (VList l)
| td_dict b h tk tv d :
    dict_head h -> Forall (fun kx => tidy CT strict (Some tk) (fst kx) /\ tidy CT strict (Some tv) (snd kx)) d ->
    tidy CT strict (Some (TApp b h [tk; tv])) (VDict DkDict d)
| td_bare_dict b h d :
    dict_head h -> Forall (fun kx => tidy CT strict None (snd kx)) d ->
    tidy CT strict (Some (TApp b h [])) (VDict DkDict d)
| td_tuple b t ts l :
    last (t :: ts) TAny <> TEllipsis ->
    Forall2 (fun t x => tidy CT strict (Some t) x) (t :: ts) l ->
    tidy CT strict (Some (TApp b HTuple (t :: ts))) (VList l)
| td_tuple_all b t l :
    Forall (tidy CT strict (Some t)) l ->
    tidy CT strict (Some (TApp b HTuple [t; TEllipsis])) (VList l)
| td_bare_tuple b l :
    Forall (tidy CT strict None) l -> tidy CT strict (Some (TApp b HTuple [])) (VList l)
| td_optional t j :
    j <> VNone -> tidy CT strict (Some t) j -> tidy CT strict (Some (TUnion [t; TNoneT])) j
| td_optional_none t :
    ~ may_be_none (Some t) -> ~ odd_name CT (Some t) ->
    tidy CT strict (Some (TUnion [t; TNoneT])) VNone
| td_namedtuple c fields l :
    ordinary (CT c) -> ci_kind (CT c) = CkNT fields ->
    Forall2 (fun fd x => tidy CT strict (nf_hint fd) x) fields l ->
    tidy CT strict (Some (TClass c)) (VList l)
| td_namedtuple_dict c fields d :
    ordinary (CT c) -> ci_kind (CT c) = CkNT fields -> length fields <= length d ->
    (forall fd x, In fd fields -> In (VStr (nf_name fd), x) d -> tidy CT strict (nf_hint fd) x) ->
    tidy CT strict (Some (TClass c)) (VDict DkDict d)
| td_object c d :
    ordinary (CT c) -> ci_kind (CT c) = CkObj ->
    (forall p x, In p (ci_params (CT c)) -> In (VStr (pa_name p), x) d ->
       tidy CT strict (pa_hint p) x) ->
    (forall a x, In (VStr a, x) d -> ~ In a (map pa_name (ci_params (CT c))) ->
       tidy CT strict (Some (extra_type (CT c) a x)) x) ->
    tidy CT strict (Some (TClass c)) (VDict DkDict d).

(** Options under which results are compared: no hints, keys are not transformed, failing
    elements are not dropped *)
Definition plain_options (o : lopts) : Prop :=
  no_hints o /\ (forall g k, lo_kt o = Some g -> g k = Ok k) /\ lo_warn o = false.

(** ** Failures
    [outs] has the outcomes of loading the elements; [tasks] tasks share them.  An element
    appears in the result if it and all earlier elements of its part can be loaded; all other
    elements become 0. *)
Definition all_loaded (outs : list (outcome value)) (lo hi : nat) : Prop :=
  forall i, lo <= i <= hi -> exists v, nth_error outs i = Some (Done v).
Definition filled (tasks : nat) (outs : list (outcome value)) (ys : list value) : Prop :=
  length ys = length outs /\
  forall i y, nth_error ys i = Some y ->
    let lo := part_start (Nat.min tasks (length outs)) (length outs) i in
    (all_loaded outs lo i -> nth_error outs i = Some (Done y)) /\
    (~ all_loaded outs lo i -> y = VInt 0).
