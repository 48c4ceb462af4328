(** * Dumps and loads in the course of a program

    The engine model takes what is registered from an environment; here the environment is the one
    that a history of API calls leaves behind (jsons/_lizers_impl.py, _validation.py, _fork_impl.py,
    _extra_impl.py).

    Simplifications.  Lookups are those without the cache (C19 is about the cache).  A program gives
    each type a number as a class object of the registry model, and each registered function a
    meaning. *)
From Verif Require Export RegistryModel EngineEnv.
Set Implicit Arguments.
Local Open Scope string_scope.

Record program : Type := mkProgram {
  pr_classes : classes; pr_runtime : runtime; pr_object : nat;
  pr_world : world;                     (* names and subclass relation of the class objects *)
  pr_cls : ty -> cls;                   (* the class object that a type is *)
  pr_ty : cls -> ty;                    (* the type that an announced class object is *)
  pr_ser : fn -> shandler;              (* what the registered functions do *)
  pr_deser : fn -> dhandler;
  pr_val : fn -> value -> res bool;
  pr_find : list (string * ty) -> string -> res ty;    (* get_cls_from_str, given what is announced *)
  pr_cser : nat -> option ty -> value -> res value;
  pr_cdeser : nat -> ty -> value -> res value }.

(** fork_inst._announced_classes, _common_impl.py:27. *)
Definition announcements (h : heap) (f : nat) : list (string * cls) :=
  match resolve p_ann (h_classes h) f with
  | Some l => match nth_error (h_ann h) l with Some m => m | None => [] end
  | None => []
  end.
(** get_serializer, get_deserializer, get_validator: _lizers_impl.py:95-97, 110-112, _validation.py:48-49. *)
Definition registered {H} (P : program) (k : kind) (mean : fn -> H) (h : heap) (f : nat) (t : ty) : option H :=
  match raw_get (pr_world P) k h f (pr_cls P t) with
  | Ok (Some g) => Some (mean g)
  | _ => None
  end.
(** What dump and load find after the calls [ops]. *)
Definition after (P : program) (ops : list op) : env :=
  let h := run (pr_world P) ops in
  mkEnv (pr_classes P) (pr_runtime P) (pr_object P)
        (registered P Ser (pr_ser P) h) (registered P Deser (pr_deser P) h)
        (registered P Val (pr_val P) h) (warns h)
        (fun f => pr_find P (map (fun nc => (fst nc, pr_ty P (snd nc))) (announcements h f)))
        (pr_cser P) (pr_cdeser P).
