(** * Model of the registries: jsons/_lizers_impl.py, _validation.py (set/get),
      _fork_impl.py, _extra_impl.py, _cache.py and StateHolder (_common_impl.py)

    Python class objects that hold registries ([StateHolder], forks, plain
    subclasses such as [JsonSerializable]) are entries of a class table; their
    mutable attributes are heap locations found through the inheritance chain, as
    Python does.  A history is a list of API calls.

    Simplifications.  The functions registered and the classes registered for are
    numbers.  What jsons asks about classes - their qualified name, [issubclass] of
    the naked class, [__supertype__] - is given by a [world].  Cache entries of
    [get_class_name] (a pure function) are left out, and the LRU policy is replaced
    by evictions at arbitrary points of the history ([OEvict], [EEvict]), which
    includes every behaviour of the bounded LRU cache.  A [dump] or [load] is the
    list of lookups and announcements it makes, followed by the cache clearing; what
    it returns is the subject of the engine model. *)
From Verif Require Export PyBase LookupModel.
Set Implicit Arguments.
Local Open Scope string_scope.

Definition cls := nat.
Definition fn := nat.

Definition world : Type := gworld cls.
Definition clsarg : Type := gclsarg cls.
Definition table : Type := gtable cls fn.

(** A class object that can be used as [fork_inst]: its base and its own
    attributes (None = not in its [__dict__]). *)
Record pyclass : Type := mkPy {
  p_parent : option nat;
  p_ser : option nat; p_deser : option nat; p_val : option nat; p_ann : option nat;
  p_codes : option nat; p_all : option bool; p_counter : option nat }.

Inductive kind : Type := Ser | Deser | Val.
(** How an [lru_cache]d function was called: f(c, fork), f(c) or f(c, fork_inst=fork)
    are different cache keys. *)
Inductive form : Type := FPos | FDefault | FKw.

Inductive ckey : Type :=
| CKGet (k : kind) (fm : form) (c : cls) (f : nat)
| CKAnn (fm : form) (c : cls) (name : option string) (f : nat).

Record heap : Type := mkHeap {
  h_ser : list table; h_deser : list table; h_val : list table;
  h_ann : list (list (string * cls));
  h_codes : list (list string);
  h_classes : list pyclass;              (* newest first; the oldest is StateHolder *)
  h_cache : list (ckey * option fn) }.

(** Attribute lookup along the base classes. *)
Fixpoint resolve {X} (sel : pyclass -> option X) (cs : list pyclass) (f : nat) : option X :=
  match cs with
  | [] => None
  | c :: r =>
      if Nat.eqb f (length r)
      then match sel c with
           | Some x => Some x
           | None => match p_parent c with Some p => resolve sel r p | None => None end
           end
      else resolve sel r f
  end.

(** Assignment to an attribute of class object [f]. *)
Fixpoint upd_class (f : nat) (g : pyclass -> pyclass) (cs : list pyclass) : list pyclass :=
  match cs with
  | [] => []
  | c :: r => if Nat.eqb f (length r) then g c :: r else c :: upd_class f g r
  end.

(** StateHolder, _common_impl.py:23-36. *)
Definition state_holder : pyclass :=
  mkPy None (Some 0) (Some 0) (Some 0) (Some 0) (Some 0) (Some false) (Some 0).
Definition init : heap :=
  let t := mkTable [] [] in mkHeap [t] [t] [t] [[]] [[]] [state_holder] [].

Fixpoint upd_nth {X} (i : nat) (g : X -> X) (l : list X) : list X :=
  match l, i with
  | [], _ => []
  | x :: r, O => g x :: r
  | x :: r, S k => x :: upd_nth k g r
  end.

Definition with_cache (h : heap) (ca : list (ckey * option fn)) : heap :=
  mkHeap (h_ser h) (h_deser h) (h_val h) (h_ann h) (h_codes h) (h_classes h) ca.
Definition with_classes (h : heap) (cs : list pyclass) : heap :=
  mkHeap (h_ser h) (h_deser h) (h_val h) (h_ann h) (h_codes h) cs (h_cache h).

Definition sel_of (k : kind) : pyclass -> option nat :=
  match k with Ser => p_ser | Deser => p_deser | Val => p_val end.
Definition tables_of (k : kind) (h : heap) : list table :=
  match k with Ser => h_ser h | Deser => h_deser h | Val => h_val h end.
Definition with_tables (k : kind) (h : heap) (ts : list table) : heap :=
  match k with
  | Ser => mkHeap ts (h_deser h) (h_val h) (h_ann h) (h_codes h) (h_classes h) (h_cache h)
  | Deser => mkHeap (h_ser h) ts (h_val h) (h_ann h) (h_codes h) (h_classes h) (h_cache h)
  | Val => mkHeap (h_ser h) (h_deser h) ts (h_ann h) (h_codes h) (h_classes h) (h_cache h)
  end.

(** fork_inst._serializers and fork_inst._classes_serializers (or the others). *)
Definition table_of (k : kind) (h : heap) (f : nat) : option table :=
  match resolve (sel_of k) (h_classes h) f with
  | Some l => nth_error (tables_of k h) l
  | None => None
  end.

(** set_serializer / set_deserializer / set_validator on a fork. *)
Definition do_set (W : world) (k : kind) (f : nat) (a : clsarg) (hi : bool) (g : fn) (h : heap) : heap :=
  match resolve (sel_of k) (h_classes h) f with
  | None => h
  | Some l =>
      let one := match k with Val => set_val_one W g | _ => set_one W g hi end in
      with_tables k h (upd_nth l (set_each one a) (tables_of k h))
  end.

(** The body of get_serializer / get_deserializer / get_validator,
    _lizers_impl.py:95-97, 110-112, _validation.py:48-49: no cache. *)
Definition raw_get (W : world) (k : kind) (h : heap) (f : nat) (c : cls) : res (option fn) :=
  match table_of k h f with
  | Some t => get_lizer W c t
  | None => raise KAttribute
  end.

Definition kind_eqb (a b : kind) : bool :=
  match a, b with Ser, Ser | Deser, Deser | Val, Val => true | _, _ => false end.
Definition form_eqb (a b : form) : bool :=
  match a, b with FPos, FPos | FDefault, FDefault | FKw, FKw => true | _, _ => false end.
Definition ostr_eqb (a b : option string) : bool :=
  match a, b with
  | Some x, Some y => String.eqb x y
  | None, None => true
  | _, _ => false
  end.
Definition ckey_eqb (a b : ckey) : bool :=
  match a, b with
  | CKGet k fm c f, CKGet k' fm' c' f' =>
      kind_eqb k k' && form_eqb fm fm' && Nat.eqb c c' && Nat.eqb f f'
  | CKAnn fm c n f, CKAnn fm' c' n' f' =>
      form_eqb fm fm' && Nat.eqb c c' && ostr_eqb n n' && Nat.eqb f f'
  | _, _ => false
  end.

(** Calling a [@cached] lookup, _cache.py:22-24: a hit returns the stored result, a
    miss computes and stores it; an exception is not stored. *)
Definition cached_get (W : world) (k : kind) (fm : form) (h : heap) (f : nat) (c : cls)
  : heap * res (option fn) :=
  match aget ckey_eqb (CKGet k fm c f) (h_cache h) with
  | Some r => (h, Ok r)
  | None => match raw_get W k h f c with
            | Ok r => (with_cache h ((CKGet k fm c f, r) :: h_cache h), Ok r)
            | Err e => (h, Err e)
            end
  end.

(** announce_class, _extra_impl.py:38-53, also [@cached]: a hit does nothing.  Only
    the name -> class direction is kept; the other one is never read. *)
Definition cached_announce (W : world) (fm : form) (h : heap) (f : nat) (c : cls)
    (name : option string) : heap :=
  match aget ckey_eqb (CKAnn fm c name f) (h_cache h) with
  | Some _ => h
  | None =>
      let n := match name with Some n => n | None => w_name W c end in
      match resolve p_ann (h_classes h) f with
      | None => h
      | Some l =>
          mkHeap (h_ser h) (h_deser h) (h_val h) (upd_nth l (sset n c) (h_ann h))
                 (h_codes h) (h_classes h) ((CKAnn fm c name f, None) :: h_cache h)
      end
  end.

(** _lookup_announced_class, _common_impl.py:140-149 (None: UnknownClassError). *)
Definition announced (h : heap) (f : nat) (n : string) : option cls :=
  match resolve p_ann (h_classes h) f with
  | Some l => match nth_error (h_ann h) l with Some m => sget n m | None => None end
  | None => None
  end.

(** fork, _fork_impl.py:11-38: [type(name, (fork_inst,), {})] with copies of six
    attributes; validators and announced classes are not among them. *)
Definition do_fork (p : nat) (h : heap) : heap :=
  let cs := h_classes h in
  match table_of Ser h p, table_of Deser h p, resolve p_codes cs p, resolve p_all cs p,
        resolve p_counter cs p with
  | Some ts, Some td, Some lc, Some sup, Some n =>
      match nth_error (h_codes h) lc with
      | None => h
      | Some codes =>
          let cs := upd_class p (fun c => mkPy (p_parent c) (p_ser c) (p_deser c) (p_val c)
                       (p_ann c) (p_codes c) (p_all c) (Some (n + 1))) cs in
          mkHeap (h_ser h ++ [ts]) (h_deser h ++ [td]) (h_val h) (h_ann h)
            (h_codes h ++ [codes])
            (mkPy (Some p) (Some (length (h_ser h))) (Some (length (h_deser h))) None None
                  (Some (length (h_codes h))) (Some sup) (Some 0) :: cs)
            (h_cache h)
      end
  | _, _, _, _, _ => h
  end.

(** A plain subclass, e.g. [class A(JsonSerializable)], used as fork_inst. *)
Definition do_subclass (p : nat) (h : heap) : heap :=
  if Nat.ltb p (length (h_classes h))
  then with_classes h (mkPy (Some p) None None None None None None None :: h_classes h)
  else h.

(** suppress_warnings, _extra_impl.py:13-22: assigns on fork_inst itself. *)
Definition do_suppress_all (f : nat) (b : bool) (h : heap) : heap :=
  with_classes h (upd_class f (fun c => mkPy (p_parent c) (p_ser c) (p_deser c) (p_val c)
                     (p_ann c) (p_codes c) (Some b) (p_counter c)) (h_classes h)).

(** suppress_warning, _extra_impl.py:25-35: [fork_inst._suppressed_warnings |= {code}]
    updates the (possibly inherited) set in place and binds it on fork_inst. *)
Definition do_suppress (f : nat) (code : string) (h : heap) : heap :=
  match resolve p_codes (h_classes h) f with
  | None => h
  | Some l =>
      mkHeap (h_ser h) (h_deser h) (h_val h) (h_ann h)
        (upd_nth l (fun s => if mem_str code s then s else (s ++ [code])%list) (h_codes h))
        (upd_class f (fun c => mkPy (p_parent c) (p_ser c) (p_deser c) (p_val c)
                     (p_ann c) (Some l) (p_all c) (p_counter c)) (h_classes h))
        (h_cache h)
  end.

(** StateHolder._warn, _common_impl.py:38-43: is the warning emitted? *)
Definition warns (h : heap) (f : nat) (code : string) : bool :=
  match resolve p_all (h_classes h) f, resolve p_codes (h_classes h) f with
  | Some sup, Some l =>
      negb sup && match nth_error (h_codes h) l with
                  | Some s => negb (mem_str code s)
                  | None => false
                  end
  | _, _ => false
  end.

(** clear, _cache.py:40-46: all wrappers share one cache. *)
Definition do_clear (h : heap) : heap := with_cache h [].

(** What happens inside a dump or load: lookups ([FPos] calls), announcements of
    the classes met (dump only), evictions, and clearings by nested failures. *)
Inductive event : Type :=
| ELook (k : kind) (f : nat) (c : cls)
| EAnnounce (f : nat) (c : cls)
| EEvict (n : nat)
| EClear.

(** A lookup that was made: kind, fork, class, outcome. *)
Definition obs : Type := (kind * nat * cls * res (option fn))%type.

Fixpoint drop_nth {X} (n : nat) (l : list X) : list X :=
  match l, n with
  | [], _ => []
  | _ :: r, O => r
  | x :: r, S k => x :: drop_nth k r
  end.

Definition estep (W : world) (h : heap) (e : event) : heap * list obs :=
  match e with
  | ELook k f c => let (h', r) := cached_get W k FPos h f c in (h', [(k, f, c, r)])
  | EAnnounce f c => (cached_announce W FKw h f c None, [])
  | EEvict n => (with_cache h (drop_nth n (h_cache h)), [])
  | EClear => (do_clear h, [])
  end.

Fixpoint eruns (W : world) (h : heap) (tr : list event) : heap * list obs :=
  match tr with
  | [] => (h, [])
  | e :: r => let (h1, o1) := estep W h e in
              let (h2, o2) := eruns W h1 r in (h2, o1 ++ o2)%list
  end.

Inductive op : Type :=
| OSet (k : kind) (f : nat) (a : clsarg) (hi : bool) (g : fn)
| OFork (p : nat)
| OSubclass (p : nat)
| OAnnounce (fm : form) (f : nat) (c : cls) (name : option string)
| OSuppressAll (f : nat) (b : bool)
| OSuppress (f : nat) (code : string)
| OGet (k : kind) (fm : form) (f : nat) (c : cls)  (* direct get_serializer(...) call *)
| OCall (tr : list event)      (* an outermost dump, or a load that gets to its deserializer:
                                  _dump_impl.py:58-66, _load_impl.py:112-125 clear the cache *)
| OLoadSkip (f : nat) (c : cls)     (* load that returns its input: _load_impl.py:77-79 *)
| OLoadNone (f : nat) (c : cls)     (* load up to get_deserializer; raises when there is none,
                                       _load_impl.py:86, 110-111, else continues to a clear *)
| OEvict (n : nat).

Definition step (W : world) (h : heap) (o : op) : heap * list obs :=
  match o with
  | OSet k f a hi g => (do_set W k f a hi g h, [])
  | OFork p => (do_fork p h, [])
  | OSubclass p => (do_subclass p h, [])
  | OAnnounce fm f c n => (cached_announce W fm h f c n, [])
  | OSuppressAll f b => (do_suppress_all f b h, [])
  | OSuppress f code => (do_suppress f code h, [])
  | OGet k fm f c => let (h', r) := cached_get W k fm h f c in (h', [(k, f, c, r)])
  | OCall tr => let (h', os) := eruns W h tr in (do_clear h', os)
  | OLoadSkip f c => let (h', r) := cached_get W Val FPos h f c in (h', [(Val, f, c, r)])
  | OLoadNone f c =>
      let (h', r) := cached_get W Deser FPos h f c in
      match r with
      | Ok None => (h', [(Deser, f, c, r)])
      | _ => (do_clear h', [(Deser, f, c, r)])
      end
  | OEvict n => (with_cache h (drop_nth n (h_cache h)), [])
  end.

Definition run (W : world) (ops : list op) : heap :=
  fold_left (fun h o => fst (step W h o)) ops init.
