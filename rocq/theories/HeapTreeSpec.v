(** * What the agreement of load with a heap and load of trees is stated with (C74) *)
From Verif Require Export LoadSpec HeapLoadSpec.
Local Open Scope string_scope.

(** Documents whose dicts have distinct texts as keys, and no '-keys' section *)
Inductive plain_doc : value -> Prop :=
| pd_flat v : flatv v = true -> plain_doc v
| pd_list l : (forall x, In x l -> plain_doc x) -> plain_doc (VList l)
| pd_tuple l : (forall x, In x l -> plain_doc x) -> plain_doc (VTuple l)
| pd_coll k l : (forall x, In x l -> plain_doc x) -> plain_doc (VColl k l)
| pd_nt c l : (forall x, In x l -> plain_doc x) -> plain_doc (VNT c l)
| pd_dict k d : string_dict d -> (forall x, ~ In (VStr "-keys", x) d) ->
    (forall key x, In (key, x) d -> plain_doc x) -> plain_doc (VDict k d)
| pd_obj c l : plain_doc (VObj c l).

(** The heap has grown. *)
Definition grown (H H' : heap) : Prop := exists new, H' = (H ++ new)%list.
(** Attributes and their trees *)
Definition reads (H : heap) (l : list (string * obj)) (vs : list (string * value)) : Prop :=
  Forall2 (fun ax av => fst ax = fst av /\ read H (snd ax) = Some (snd av)) l vs.
Definition same_attrs (r : heap * outcome (list (string * obj))) (r' : res (list (string * value))) : Prop :=
  match snd r, r' with
  | Done l, Ok vs => reads (fst r) l vs
  | Fail e, Err e' => e = e'
  | _, _ => False
  end.
Definition same_obj (r : heap * outcome obj) (r' : res value) : Prop :=
  match snd r, r' with
  | Done y, Ok v => read (fst r) y = Some v
  | Fail e, Err e' => e = e'
  | _, _ => False
  end.
(** Constructors, setattr, default values and registered deserializers do the same with objects
    of the heap as with their trees. *)
Record agree_lenv (E : env) (L : lenv) (H : heap) : Prop := {
  al_default : forall c p v, In p (ci_params (e_ct E c)) -> pa_default p = Some v ->
    read H (le_default L c (pa_name p)) = Some v;
  al_field : forall c fd v, In fd (nt_fields (e_ct E) c) -> nf_default fd = Some v ->
    read H (le_field L c (nf_name fd)) = Some v /\ plain_doc v;
  al_init : forall c args vs H', grown H H' -> reads H' args vs ->
    same_attrs (le_init L c args H') (ci_init (e_ct E c) vs);
  al_set : forall c a x v l vs H', grown H H' -> read H' x = Some v -> reads H' l vs ->
    same_attrs (le_set L c a x l H') (ci_set (e_ct E c) a v vs);
  al_cdeser : forall k t x v H', grown H H' -> read H' x = Some v ->
    same_obj (le_cdeser L k t x H') (e_cdeser E k t v) }.
(** The options: the getters give the same, and a key transformer gives keys without '-keys'
    sections in them. *)
Record agree_opts (L : lenv) (H : heap) (o : lopts) : Prop := {
  ao_getter : forall a r H', grown H H' -> In (a, r) (lo_getters o) -> same_obj (le_getter L a H') r;
  ao_keys : forall g k r, lo_kt o = Some g -> plain_doc k -> g k = Ok r -> plain_doc r }.
