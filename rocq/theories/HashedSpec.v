(** * What the properties of dicts with arbitrary keys are stated with *)
From Coq Require Export Permutation.
From Verif Require Export RoundTripSpec.
Local Open Scope string_scope.

(** Keys that JSON has are stored as they are, other than the names of the sections. *)
Definition json_scalar_key (k : value) : Prop :=
  plain_scalar k /\ k <> VStr "-meta" /\ k <> VStr "-keys".
(** Keys that are dumped as lists or dicts *)
Definition compound (k : value) : Prop :=
  match k with
  | VTuple _ | VNT _ _ | VObj _ _ | VColl CFrozen _ | VLeaf (LComplex _ _) | VLeaf (LZone _) => True
  | _ => False
  end.
(** What stands for a key in the document: the hash of a compound one, else the key *)
Definition stands_for (E : env) (k : value) : value :=
  match k with
  | VTuple _ | VNT _ _ | VObj _ _ | VColl _ _ | VLeaf _ => VInt (rt_hash (e_rt E) k)
  | _ => k
  end.
(** No two of them are equal. *)
Definition distinct (l : list value) : Prop := ForallOrdPairs (fun a b => py_eqb a b = false) l.

(** The key under which dump stores the value of key [k]: itself, its dump, or its hash *)
Inductive document_key (E : env) (f n : nat) (o : sopts) : value -> value -> Prop :=
| dk_kept k : json_key (e_ct E) k = true -> document_key E f n o k k
| dk_dumped k j : json_key (e_ct E) k = false -> snd (dump E f n o None k) = Done j ->
                  json_key (e_ct E) j = true -> document_key E f n o k j
| dk_hashed k j : json_key (e_ct E) k = false -> snd (dump E f n o None k) = Done j ->
                  json_key (e_ct E) j = false -> document_key E f n o k (VInt (rt_hash (e_rt E) k)).
(** A document with a non-empty section of stored keys *)
Definition stored_keys (d : list (value * value)) : Prop :=
  exists k h x sec, dget (VStr "-keys") d = Some (VDict k ((h, x) :: sec)).
(** The document [doc] has, in any order, for each [(name, key, x)] of [es] an entry
    [name: x] and in its '-keys' section an entry [name: key]; and the entries [rest]. *)
Definition hashed_document (es : list (value * value * value)) (rest doc : list (value * value)) : Prop :=
  exists k sec,
    Permutation doc (map (fun e => (fst (fst e), snd e)) es ++ (VStr "-keys", VDict k sec) :: rest) /\
    Permutation sec (map fst es).
(** [j] loads as the [t] that is [v], strict or not. *)
Definition always_loads (E : env) (m g : nat) (t : ty) (j v : value) : Prop :=
  forall lo, exact_load lo -> snd (load E m g lo (Some t) j) = Done v.
(** Key and value of an entry that can be dumped and loaded again as an entry of a dict of
    [tk] and [t]: keys that JSON has stay as they are, whatever [tk] is. *)
Definition good_entry (E : env) (g : nat) (o : sopts) (tk t : ty) (k x : value) : Prop :=
  (json_scalar_key k \/ (compound k /\ hashable (e_ct E) k = true /\ has_type E g o tk k)) /\ has_type E g o t x.
(** The entries of [es] load as [loaded], key and value; likewise the values of [rest]. *)
Definition entries_load (E : env) (m g : nat) (tk t : ty) (es : list (value * value * value))
           (rest loaded rest' : list (value * value)) : Prop :=
  Forall2 (fun e kx => always_loads E m g tk (snd (fst e)) (fst kx) /\ always_loads E m g t (snd e) (snd kx)) es loaded /\
  Forall2 (fun r r' => fst r = fst r' /\ always_loads E m g t (snd r) (snd r')) rest rest'.
