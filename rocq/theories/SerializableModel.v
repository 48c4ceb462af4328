(** * Model of classes/json_serializable.py

    [JsonSerializable] and its subclasses are class objects of the registry model
    (RegistryModel.v): number 0 is [StateHolder], number 1 is [JsonSerializable].  Besides
    registries a class object can have its own [dump] and [load], put there by with_dump and
    with_load, and inherited by its subclasses.

    Simplifications.  Single inheritance; subclasses do not define methods with these names in
    their bodies.  [ty_of] gives the type that a class object is. *)
From Verif Require Export RegistryModel CallModel.
Set Implicit Arguments.
Local Open Scope string_scope.

(** The attribute [dump] (or [load]) of a class object: the method of JsonSerializable, or a
    wrapper with the keyword arguments given to with_dump. *)
Inductive jmethod : Type :=
| MStd
| MWrapped (kw : kwargs).
(** The own [dump] and [load] of a class object. *)
Record jattrs : Type := mkJattrs { ja_dump : option jmethod; ja_load : option jmethod }.
Record jstate : Type := mkJstate {
  js_heap : heap;
  js_attrs : list jattrs }.                   (* newest first, like [h_classes] *)

(** Attribute lookup along the base classes. *)
Fixpoint find_method (sel : jattrs -> option jmethod) (cs : list pyclass) (ms : list jattrs) (f : nat)
  : option jmethod :=
  match cs, ms with
  | c :: r, m :: s =>
      if Nat.eqb f (length r)
      then match sel m with
           | Some x => Some x
           | None => match p_parent c with Some p => find_method sel r s p | None => None end
           end
      else find_method sel r s f
  | _, _ => None
  end.
(** Assignment to an attribute of class object [f]. *)
Fixpoint upd_attrs (f : nat) (g : jattrs -> jattrs) (ms : list jattrs) : list jattrs :=
  match ms with
  | [] => []
  | m :: s => if Nat.eqb f (length s) then g m :: s else m :: upd_attrs f g s
  end.

(** class JsonSerializable(StateHolder), json_serializable.py:10 *)
Definition jinit (W : world) : jstate :=
  mkJstate (do_subclass 0 init) [mkJattrs (Some MStd) (Some MStd); mkJattrs None None].

(** A new class object has no methods of its own. *)
Definition jgrow (h : heap) (ms : list jattrs) : list jattrs :=
  if Nat.ltb (length ms) (length (h_classes h)) then mkJattrs None None :: ms else ms.
Definition jreg (W : world) (o : op) (s : jstate) : jstate :=
  let h := fst (step W (js_heap s) o) in mkJstate h (jgrow h (js_attrs s)).

Inductive jop : Type :=
| JReg (o : op)                                         (* class statements, forks, registrations, dumps, ... *)
| JWithDump (p : nat) (fork : bool) (kw : kwargs)       (* p.with_dump(fork, **kw) *)
| JWithLoad (p : nat) (fork : bool) (kw : kwargs)
| JSet (k : kind) (p : nat) (a : clsarg) (hi : bool) (fork : bool) (g : fn).
                                                        (* p.set_serializer(g, a, hi, fork) *)

(** type_ = cls.fork() if fork else cls *)
Definition target (W : world) (p : nat) (fork : bool) (s : jstate) : jstate * nat :=
  if fork
  then (jreg W (OFork p) s, length (h_classes (js_heap s)))
  else (s, p).
(** Is [p] a subclass of JsonSerializable? *)
Definition is_js (s : jstate) (p : nat) : bool :=
  match find_method ja_dump (h_classes (js_heap s)) (js_attrs s) p with Some _ => true | None => false end.

(** One call and the class object it returns.  A keyword argument named [cls] collides with the
    first parameter of with_dump and with_load. *)
Definition jstep (W : world) (s : jstate) (o : jop) : jstate * res nat :=
  match o with
  | JReg o => (jreg W o s, Ok 0)
  (* with_dump, json_serializable.py:30-59 *)
  | JWithDump p fork kw =>
      if negb (is_js s p) then (s, raise KAttribute)
      else if shas "cls" kw || shas "fork" kw then (s, raise KType)
      else let (s', t) := target W p fork s in
           (mkJstate (js_heap s')
              (upd_attrs t (fun m => mkJattrs (Some (MWrapped kw)) (ja_load m)) (js_attrs s')), Ok t)
  (* with_load, json_serializable.py:61-92 *)
  | JWithLoad p fork kw =>
      if negb (is_js s p) then (s, raise KAttribute)
      else if shas "cls" kw || shas "fork" kw then (s, raise KType)
      else let (s', t) := target W p fork s in
           (mkJstate (js_heap s')
              (upd_attrs t (fun m => mkJattrs (ja_dump m) (Some (MWrapped kw))) (js_attrs s')), Ok t)
  (* set_serializer, set_deserializer, json_serializable.py:181-218; there is no set_validator *)
  | JSet k p a hi fork g =>
      if negb (is_js s p) || kind_eqb k Val then (s, raise KAttribute)
      else let (s', t) := target W p fork s in (jreg W (OSet k t a hi g) s', Ok t)
  end.
Definition jrun (W : world) (ops : list jop) : jstate :=
  fold_left (fun s o => fst (jstep W s o)) ops (jinit W).

(** ** The methods, for an instance [v] of class object [c] (or the class itself) *)
Section Methods.
Variable E : env.
Variable T : textrt.
Variable n : nat.
Variable ty_of : nat -> ty.
Variable s : jstate.

Definition dump_of (c : nat) : option jmethod := find_method ja_dump (h_classes (js_heap s)) (js_attrs s) c.
Definition load_of (c : nat) : option jmethod := find_method ja_load (h_classes (js_heap s)) (js_attrs s) c.

(** A method called with keyword arguments only; [own] are its parameters' names. *)
Definition keywords {A} (own : list string) (kw : kwargs) (k : M A) : M A :=
  if existsb (fun p => mem_str (fst p) own) kw then fail (exn_of KType) else k.
Definition with_fork {A} (c : nat) (kw : kwargs) (k : kwargs -> M A) : M A :=
  match with_kw [("fork_inst", AFork c)] kw with Ok kw' => k kw' | Err e => fail e end.

(** dump, json_serializable.py:121-128, or the wrapper, lines 54-55 *)
Definition m_dump (c : nat) (v : value) (kw : kwargs) : M value :=
  match dump_of c with
  | None => fail (exn_of KAttribute)
  | Some MStd => keywords ["self"] kw (with_fork c kw (call_dump E n [AVal v]))
  | Some (MWrapped kw0) => keywords ["inst"] kw (call_dump E n [AVal v] (merge_kw kw kw0))
  end.
(** json, json_serializable.py:94-100 *)
Definition m_json (c : nat) (v : value) : M value := m_dump c v [].
(** load, json_serializable.py:130-139, or the wrapper, lines 86-88 *)
Definition m_load (c : nat) (j : value) (kw : kwargs) : M value :=
  match load_of c with
  | None => fail (exn_of KAttribute)
  | Some MStd => keywords ["cls"; "json_obj"] kw (with_fork c kw (call_load E n [AVal j; AType (ty_of c)]))
  | Some (MWrapped kw0) =>
      keywords ["cls_"; "inst"] kw (with_fork c (merge_kw kw kw0) (call_load E n [AVal j; AType (ty_of c)]))
  end.
(** from_json, json_serializable.py:109-119 *)
Definition m_from_json (c : nat) (j : value) (kw : kwargs) : M value :=
  keywords ["cls"; "json_obj"] kw (m_load c j kw).
(** dumps, json_serializable.py:141-148 *)
Definition m_dumps (c : nat) (v : value) (kw : kwargs) : M string :=
  keywords ["self"] kw (with_fork c kw (call_dumps E T n [AVal v])).
(** __str__, json_serializable.py:102-107 *)
Definition m_str (c : nat) (v : value) : M string := m_dumps c v [].
(** loads, json_serializable.py:150-159 *)
Definition m_loads (c : nat) (x : arg) (kw : kwargs) : M value :=
  keywords ["cls"; "json_obj"] kw (with_fork c kw (call_loads E T n [x; AType (ty_of c)])).
(** dumpb, json_serializable.py:161-168 *)
Definition m_dumpb (c : nat) (v : value) (kw : kwargs) : M string :=
  keywords ["self"] kw (with_fork c kw (call_dumpb E T n [AVal v])).
(** loadb, json_serializable.py:170-179 *)
Definition m_loadb (c : nat) (x : arg) (kw : kwargs) : M value :=
  keywords ["cls"; "json_obj"] kw (with_fork c kw (call_loadb E T n [x; AType (ty_of c)])).
End Methods.
