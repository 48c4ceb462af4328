(** * The caches of annotations

    Model of the two cached functions over annotations, _compatibility_impl.get_type_hints for
    classes (68-91) and serializers/default_object.py:_get_attributes_and_types (203-221), with
    _cache.py.  The second one writes into the dict that the first one returned, which stays in
    the cache: dicts live on a heap here.  [CacheModel] says what dump and load get to see after
    any history; the engine itself has no caches. *)
From Verif Require Export EngineSer EngineDeser.
Set Implicit Arguments.
Local Open Scope string_scope.

(** A dict from names to types or None *)
Definition hdict := list (string * option ty).
(** The heap, and for both functions the dicts that lru_cache has kept; the key of the second
    one is a class together with the argument strict. *)
Record hcache : Type := mkHcache {
  hc_heap : list hdict;
  hc_hints : nat -> option nat;
  hc_attrs : bool -> nat -> option nat }.
Definition empty_cache : hcache := mkHcache [] (fun _ => None) (fun _ _ => None).
Definition deref (st : hcache) (r : nat) : hdict := nth r (hc_heap st) [].
Fixpoint set_nth {X} (n : nat) (x : X) (l : list X) : list X :=
  match l, n with
  | [], _ => []
  | _ :: r, 0 => x :: r
  | y :: r, S n => y :: set_nth n x r
  end.
Definition alloc (d : hdict) (st : hcache) : nat * hcache :=
  (length (hc_heap st), mkHcache (hc_heap st ++ [d]) (hc_hints st) (hc_attrs st)).
Definition store (r : nat) (d : hdict) (st : hcache) : hcache :=
  mkHcache (set_nth r d (hc_heap st)) (hc_hints st) (hc_attrs st).
Definition put_hints (c : nat) (r : option nat) (st : hcache) : hcache :=
  mkHcache (hc_heap st) (fun c' => if Nat.eqb c' c then r else hc_hints st c') (hc_attrs st).
Definition put_attrs (s : bool) (c : nat) (r : option nat) (st : hcache) : hcache :=
  mkHcache (hc_heap st) (hc_hints st)
           (fun s' c' => if Bool.eqb s' s && Nat.eqb c' c then r else hc_attrs st s' c').

Section Cache.
Variable CT : classes.
(** get_type_hints(c); the annotations are those of [ci_hints]. *)
Definition get_hints (c : nat) (st : hcache) : nat * hcache :=
  match hc_hints st c with
  | Some r => (r, st)
  | None => let '(r, st) := alloc (map (fun at_ => (fst at_, Some (snd at_))) (ci_hints (CT c))) st in
            (r, put_hints c (Some r) st)
  end.
(** _get_attributes_and_types(c, strict): [attributes[elem] = None] writes into the dict of
    get_type_hints, unless the class has [__slots__]. *)
Definition get_attrs (s : bool) (c : nat) (st : hcache) : nat * hcache :=
  match hc_attrs st s c with
  | Some r => (r, st)
  | None =>
      let '(r, st) := match ci_slots (CT c) with
                      | Some l => alloc (map (fun a => (a, None)) l) st
                      | None => get_hints c st
                      end in
      let ms := ci_members (CT c) in
      let d := fold_left (fun d a => sset a None d) (class_props ms ++ other_class_vars ms) (deref st r) in
      (r, put_attrs s c (Some r) (store r d st))
  end.
(** What happens to the caches in the course of calls: a serializer asks for the attributes of a
    class, a deserializer for its annotations, lru_cache (128 entries for all functions together)
    drops something, and _cache.py:clear drops everything. *)
Inductive cevent : Type :=
| CeAttrs (strict : bool) (c : nat)
| CeHints (c : nat)
| CeDropHints (c : nat)
| CeDropAttrs (strict : bool) (c : nat)
| CeClear.
Definition cstep (e : cevent) (st : hcache) : hcache :=
  match e with
  | CeAttrs s c => snd (get_attrs s c st)
  | CeHints c => snd (get_hints c st)
  | CeDropHints c => put_hints c None st
  | CeDropAttrs s c => put_attrs s c None st
  | CeClear => mkHcache (hc_heap st) (fun _ => None) (fun _ _ => None)
  end.
Definition crun (l : list cevent) (st : hcache) : hcache := fold_left (fun st e => cstep e st) l st.
(** dump and load clear the caches when the outermost call returns, _load_impl.py:121-125 and
    _dump_impl.py:59-62, and when anything raises an Exception, _load_impl.py:115-116 and
    _dump_impl.py:64-65; not on KeyboardInterrupt and the like.  A serializer that is called
    directly does not clear them. *)
Inductive call : Type :=
| Completed (l : list cevent)
| BrokenOff (l : list cevent).
Definition ccall (k : call) (st : hcache) : hcache :=
  match k with
  | Completed l => cstep CeClear (crun l st)
  | BrokenOff l => crun l st
  end.
Definition ccalls (l : list call) (st : hcache) : hcache := fold_left (fun st k => ccall k st) l st.

(** The classes with the annotations that load sees in a state, default_object.py:150-152: None
    is as good as no annotation.  (Annotations that lru_cache drops while load runs are not
    followed.) *)
Definition set_class_hints (h : list (string * ty)) (ci : cinfo) : cinfo :=
  mkCinfo (ci_module ci) (ci_simple ci) (ci_kind ci) (ci_supers ci) (ci_params ci) h (ci_slots ci)
          (ci_members ci) (ci_prop ci) (ci_init ci) (ci_set ci) (ci_attrs ci) (ci_hashable ci).
Definition annotated (d : hdict) : list (string * ty) :=
  flat_map (fun at_ => match snd at_ with Some t => [(fst at_, t)] | None => [] end) d.
Definition seen_hints (st : hcache) (c : nat) : list (string * ty) :=
  let '(r, st) := get_hints c st in annotated (deref st r).
Definition seen (st : hcache) : classes := fun c => set_class_hints (seen_hints st c) (CT c).
End Cache.
Definition set_ct (CT : classes) (E : env) : env :=
  mkEnv CT (e_rt E) (e_object E) (e_ser E) (e_deser E) (e_validator E) (e_warn E) (e_resolve E)
        (e_cser E) (e_cdeser E).
(** load(...) after these calls *)
Definition load_after (E : env) (history : list call) (n f : nat) (o : lopts) (cls : option ty) (j : value) : M value :=
  load (set_ct (seen (e_ct E) (ccalls (e_ct E) history empty_cache)) E) n f o cls j.
