(** * Model: from the name of a class to the class

    get_cls_from_str and what it calls (_common_impl.py:77-102, 140-149), and the announcements
    that a dump makes (announce_class, _extra_impl.py:38-53, called in _dump_impl.py:54 and
    serializers/default_object.py:119).  Python's own part is a parameter: the builtins, the
    modules that can be imported, and subscription. *)
From Verif Require Export EngineSer EngineDeser.
Set Implicit Arguments.
Local Open Scope string_scope.

(** ** Python *)
(** What import_module(m) gives for a name that is neither empty nor relative: an ImportError
    (ModuleNotFoundError is one), another exception out of the code of the module, or a module
    with its attributes.  Attributes that are no types are not represented. *)
Inductive imported : Type :=
| NoModule
| Broken (e : exn)
| Module (attrs : string -> option ty).
Record python : Type := mkPython {
  py_builtin : string -> option ty;       (* getattr(builtins, s, None), if true *)
  py_module : string -> imported;
  py_index : ty -> list ty -> res ty }.   (* t[tuple(ts)] *)
(** importlib.import_module: an empty name is a ValueError, a relative one a TypeError. *)
Definition import_module (P : python) (m : string) : imported :=
  match m with
  | EmptyString => Broken (exn_of KValue)
  | String "." _ => Broken (exn_of KType)
  | _ => py_module P m
  end.

(** ** Looking up a name *)
(** _lookup_announced_class, _common_impl.py:140-149.  [table]: the names announced, which all
    forks share (C18). *)
Definition lookup_announced (table : list (string * ty)) (s : string) : res ty :=
  match sget s table with
  | Some t => Ok t
  | None => raise KUnknownClass
  end.
(** get_cls_from_str, _common_impl.py:83-91: the part after the test for brackets *)
Definition import_cls (P : python) (table : list (string * ty)) (s : string) : res ty :=
  let splitted := ssplit "." s in
  let module_name := sjoin "." (removelast splitted) in
  let cls_name := last splitted "" in
  match import_module P module_name with
  | NoModule => lookup_announced table s
  | Broken e => if is_attributeerror (e_kind e) || is_valueerror (e_kind e)
                then lookup_announced table s else Err e
  | Module attrs => match attrs cls_name with
                    | Some t => Ok t
                    | None => lookup_announced table s
                    end
  end.
(** _get_generic_cls_from_str, _common_impl.py:95-102; [rec] is get_cls_from_str.  More than
    one '[' is a ValueError: too many values to unpack. *)
Fixpoint each {A B} (f : A -> res B) (l : list A) : res (list B) :=
  match l with
  | [] => Ok []
  | x :: r => dor y <- f x; dor ys <- each f r; Ok (y :: ys)
  end.
Definition generic_cls (P : python) (rec : string -> res ty) (s : string) : res ty :=
  match ssplit "[" s with
  | [origin_str; subtypes_str] =>
      dor origin <- rec origin_str;
      dor subtypes <- each (fun x => rec (sstrip is_space x)) (ssplit "," (sbutlast subtypes_str));
      py_index P origin subtypes
  | _ => raise KValue
  end.
(** get_cls_from_str, _common_impl.py:77-92 *)
Definition cls_step (P : python) (table : list (string * ty)) (rec : string -> res ty) (s : string) : res ty :=
  match py_builtin P s with
  | Some t => Ok t
  | None => if smem "[" s && smem "]" s then generic_cls P rec s else import_cls P table s
  end.
(** The names that get_cls_from_str calls itself with contain no '[', so two rounds are enough
    (ResolveProofs.get_cls_unfold). *)
Definition get_cls_from_str (P : python) (table : list (string * ty)) (s : string) : res ty :=
  cls_step P table (cls_step P table (import_cls P table)) s.

(** ** Announcing *)
(** announce_class is cached (_cache.py:13-24): a call with arguments that are in the cache does
    nothing. *)
Record names : Type := mkNames {
  na_cached : list (nat * ty);          (* fork and class of the calls in the cache *)
  na_table : list (string * ty) }.      (* the names announced *)
Definition same_call (a b : nat * ty) : bool := Nat.eqb (fst a) (fst b) && ty_eqb (snd a) (snd b).
(** announce_class(t, fork_inst=f), _extra_impl.py:38-53.  Only the direction from names to
    classes is kept; the other one is never read. *)
Definition announce (CT : classes) (st : names) (f : nat) (t : ty) : names :=
  if existsb (same_call (f, t)) (na_cached st) then st
  else mkNames ((f, t) :: na_cached st) (sset (class_name CT t) t (na_table st)).
(** The announcements of a dump, from what it does.  The cache may lose entries at any moment:
    it is limited to 128 entries, which it shares with other functions (_cache.py:22), and it is
    cleared at the end of a dump and whenever something within it fails (_dump_impl.py:58-66). *)
Inductive announcements (CT : classes) : names -> list ev -> names -> Prop :=
| an_done st : announcements CT st [] st
| an_call st f t evs st' : announcements CT (announce CT st f t) evs st' ->
                           announcements CT st (EvAnnounce f t :: evs) st'
| an_other st e evs st' : (forall f t, e <> EvAnnounce f t) -> announcements CT st evs st' ->
                          announcements CT st (e :: evs) st'
| an_forget st cached evs st' : incl cached (na_cached st) ->
    announcements CT (mkNames cached (na_table st)) evs st' -> announcements CT st evs st'.

(** ** The environment in which names are looked up like this *)
Definition with_names (E : env) (P : python) (table : list (string * ty)) : env :=
  mkEnv (e_ct E) (e_rt E) (e_object E) (e_ser E) (e_deser E) (e_validator E) (e_warn E)
        (fun _ => get_cls_from_str P table) (e_cser E) (e_cdeser E).
