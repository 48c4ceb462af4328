(** * transform, the methods of JsonSerializable, and the decorators *)
From Verif Require Export JsonTextModel.
Set Implicit Arguments.
Local Open Scope string_scope.

(** ** transform, _transform_impl.py:13-40 *)
(** [fd] and [so] are the fork and the options that dump_kwargs holds, [fl] and [lo] those
    in kwargs.  The mapper is an arbitrary function that does not call jsons.  All further
    parameters of dump are keyword-only (_dump_impl.py:16-21), so that dump_args that are not
    empty give a TypeError. *)
Definition transform (E : env) (fd n : nat) (so : sopts) (fl m : nat) (lo : lopts)
    (mapper : option (value -> res value)) (dump_cls : option ty) (dump_args : list value)
    (cls : option ty) (obj : value) : M value :=
  match dump_args with
  | _ :: _ => fail (exn_of KType)
  | [] =>
      dom dumped <- dump E fd n so dump_cls obj;
      dom dumped_mapped <- lift (match mapper with Some f => f dumped | None => Ok dumped end);
      load E m fl lo cls dumped_mapped
  end.

(** ** Decorators, decorators.py *)
(** An annotation: Parameter.empty, None, or a type *)
Inductive annotation : Type :=
| AEmpty
| ANone
| AType (t : ty).
(** decorators.py:155 and 165: [cls = annotation if annotation != Parameter.empty else None] *)
Definition annotated_cls (a : annotation) : option ty :=
  match a with AEmpty | ANone => None | AType t => Some t end.
(** A function: its name, the names and annotations of its parameters in the order of
    inspect.signature (keyword-only and variadic parameters are in that list as well), the
    annotation of the return value, whether it is a coroutine function, and what it does.
    The body is arbitrary (the TypeError for arguments that do not fit the signature included);
    what it does to the outside is not part of the model. *)
Definition kwargs : Type := list (string * pyobj).
Record func : Type := mkFunc {
  fn_name : string;
  fn_params : list (string * annotation);
  fn_return : annotation;
  fn_async : bool;
  fn_body : list pyobj -> kwargs -> res pyobj }.
(** What a decorator can be applied to *)
Inductive decoratee : Type :=
| DFunction (fn : func)
| DStatic                       (* a staticmethod object *)
| DClassMethod (fn : func)      (* a classmethod object *)
| DClass.
(** What happens in a call *)
Inductive step : Type :=
| StEv (e : ev)                                      (* an effect of the mapper *)
| StCall (args : list pyobj) (kw : kwargs).          (* the call of the decorated function *)
Definition run (A : Type) : Type := (list step * outcome A)%type.
Definition rret {A} (a : A) : run A := ([], Done a).
Definition rfail {A} (e : exn) : run A := ([], Fail e).
Definition of_M {A} (m : M A) : run A := (map StEv (fst m), snd m).
Definition rthen {A B} (m : run A) (k : A -> run B) : run B :=
  match snd m with
  | Done a => let r := k a in ((fst m ++ fst r)%list, snd r)
  | Fail e => (fst m, Fail e)
  | Oof => (fst m, Oof)
  end.
(** The mapper with fork_inst and mapper_kwargs: a function of cls and the argument.
    [has x a] is hasattr(x, a). *)
Definition mapper_fn : Type := option ty -> pyobj -> M pyobj.
Section Decorators.
Variable has : pyobj -> string -> bool.
(** decorators.py:139-144: every positional argument with its parameter; an IndexError if
    there are more arguments than parameters *)
Fixpoint params_sig (args : list pyobj) (ps : list (string * annotation)) : res (list (pyobj * (string * annotation))) :=
  match args, ps with
  | [], _ => Ok []
  | _ :: _, [] => raise KIndex
  | x :: args, p :: ps => dor r <- params_sig args ps; Ok ((x, p) :: r)
  end.
(** decorators.py:150-157 *)
Definition map_arg (mapper : mapper_fn) (fname : string) (xp : pyobj * (string * annotation)) : M pyobj :=
  let (x, p) := xp in
  if mem_str (fst p) ["self"; "cls"] && has x fname then ret x
  else mapper (annotated_cls (snd p)) x.
(** decorators.py:147-160 (_map_args) *)
Definition map_args (mapper : mapper_fn) (fn : func) (args : list pyobj) : M (list pyobj) :=
  dom ps <- lift (params_sig args (fn_params fn));
  mmap (map_arg mapper (fn_name fn)) ps.
(** decorators.py:163-167 (_map_returnvalue) *)
Definition map_returnvalue (mapper : mapper_fn) (fn : func) (x : pyobj) : M pyobj :=
  mapper (annotated_cls (fn_return fn)) x.
Definition call_fn (fn : func) (args : list pyobj) (kw : kwargs) : run pyobj :=
  ([StCall args kw], match fn_body fn args kw with Ok x => Done x | Err e => Fail e end).
(** decorators.py:170-175 (_run_decorated) *)
Definition run_decorated (mapper : option mapper_fn) (fn : func) (args : list pyobj) (kw : kwargs) : run pyobj :=
  rthen (match mapper with Some m => of_M (map_args m fn args) | None => rret args end)
        (fun new_args => call_fn fn new_args kw).
(** decorators.py:101-116 (_get_wrapper) *)
Definition wrapper (parameters returnvalue : bool) (mapper : mapper_fn) (fn : func) (args : list pyobj) (kw : kwargs) : run pyobj :=
  rthen (run_decorated (if parameters then Some mapper else None) fn args kw)
        (fun result => if returnvalue then of_M (map_returnvalue mapper fn result) else rret result).
(** decorators.py:119-136 (_get_async_wrapper): a call returns a coroutine, and everything
    happens when that is awaited.  The coroutine of the decorated function is awaited at
    once; what other tasks do in the meantime is not modelled. *)
Inductive reply : Type :=
| RValue (x : pyobj)
| RCoroutine (pending : run pyobj).
Definition call_wrapper (parameters returnvalue : bool) (mapper : mapper_fn) (fn : func) (args : list pyobj) (kw : kwargs) : run reply :=
  if fn_async fn then rret (RCoroutine (wrapper parameters returnvalue mapper fn args kw))
  else rthen (wrapper parameters returnvalue mapper fn args kw) (fun x => rret (RValue x)).
Definition await (r : reply) : option (run pyobj) :=
  match r with RCoroutine p => Some p | RValue _ => None end.
(** decorators.py:89-98 and 178-188 (_get_decorator, _validate_decoration).  A classmethod
    object is no staticmethod and no type, so that it passes; it is not callable, so that
    each call of the wrapper ends in a TypeError, of inspect.signature or of the call. *)
Definition decorate (E : env) (f : nat) (parameters returnvalue : bool) (mapper : mapper_fn) (d : decoratee)
  : M (list pyobj -> kwargs -> run reply) :=
  match d with
  | DStatic => dom _ <- warn E f "decorated-static"; fail (exn_of KDecoration)
  | DClass => fail (exn_of KDecoration)
  | DClassMethod _ => ret (fun _ _ => rfail (exn_of KType))
  | DFunction fn => ret (call_wrapper parameters returnvalue mapper fn)
  end.
End Decorators.
(** The functions that [loader] and [dumper] may be; decorators.py:44-46 and 83-85 *)
Inductive api_fn : Type :=
| FLoad | FLoads | FLoadb | FDump | FDumps | FDumpb | FOther.
Definition loaded_check (loader : api_fn) : M unit :=
  match loader with FLoad | FLoads | FLoadb => ret tt | _ => fail (exn_of KDecoration) end.
Definition dumped_check (dumper : api_fn) : M unit :=
  match dumper with FDump | FDumps | FDumpb => ret tt | _ => fail (exn_of KDecoration) end.
(** The mappers.  [raw_load] and [raw_dump] stand for load and dump of bytes, which are not
    modelled. *)
Section Mappers.
Variables (E : env) (T : textrt) (n f : nat).
Variables (raw_load raw_dump : option ty -> string -> M value).
Definition as_obj (m : M value) : M pyobj := dom v <- m; ret (OVal v).
Definition load_mapper (o : lopts) (loader : api_fn) : mapper_fn := fun cls x =>
  match loader with
  | FLoads => as_obj (loads E T n f o cls x)
  | FLoadb => as_obj (loadb E T n f o "utf-8" cls x)
  | _ => as_obj (match x with OVal v => load E n f o cls v | OBytes b => raw_load cls b end)
  end.
Definition dump_mapper (o : sopts) (dumper : api_fn) : mapper_fn := fun cls x =>
  match x with
  | OBytes b => as_obj (raw_dump cls b)
  | OVal v =>
      match dumper with
      | FDumps => dom s <- dumps E T f n o cls v; ret (OVal (VStr s))
      | FDumpb => dom b <- dumpb E T f n o "utf-8" cls v; ret (OBytes b)
      | _ => as_obj (dump E f n o cls v)
      end
  end.
(** loaded and dumped, decorators.py:11-47 and 50-86 *)
Definition loaded (has : pyobj -> string -> bool) (parameters returnvalue : bool) (o : lopts) (loader : api_fn) (d : decoratee) :=
  dom _ <- loaded_check loader; decorate has E f parameters returnvalue (load_mapper o loader) d.
Definition dumped (has : pyobj -> string -> bool) (parameters returnvalue : bool) (o : sopts) (dumper : api_fn) (d : decoratee) :=
  dom _ <- dumped_check dumper; decorate has E f parameters returnvalue (dump_mapper o dumper) d.
End Mappers.
