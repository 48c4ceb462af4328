(** * Model of dump with the keyword argument [tasks]

    EngineSer.v fixes [tasks=1].  Here tuples, sets, frozensets, deques and other iterables are
    dumped by several tasks: the parallel part is that of MultitaskModel.v, with [_do_dump] as
    the function that the tasks call.

    Simplifications: those of MultitaskModel.v; warnings and other effects of the tasks are
    dropped (with Process they happen elsewhere). *)
From Verif Require Export EngineSer ParallelModel.
Set Implicit Arguments.
Local Open Scope string_scope.

Section Serializers.
Variables (E : env) (f : nat).
Let CT := e_ct E.
Let R := e_rt E.
(** The recursive call: tasks, options, serializer, cls argument, object. *)
Variable ser : Z -> sopts -> option shandler -> option ty -> value -> M value.
(** The schedule of the tasks for an iterable *)
Variable sched : value -> list action.
Variable tasks : Z.

(** _do_dump, serializers/default_iterable.py:70-73: dump(elem, cls, tasks=1) whatever number
    of tasks is left ([kwargs_] has [fork_inst] and [strict]) *)
Definition do_dump (o : sopts) (left : nat) (xc : value * option ty) : M value :=
  dump_ E f (ser 1) o (snd xc) (fst xc).
(** multi_task(_do_dump, zipped_objs, tasks, task_type, **kwargs_ ),
    serializers/default_iterable.py:46-47.  No result ([oof]) if the schedule does not finish. *)
Definition parallel_dump (o : sopts) (zipped : list (value * option ty)) (s : list action)
  : M (list value) :=
  let left := tasks_left (Z.to_nat tasks) (length zipped) in
  if existsb (fun xc => is_oof (do_dump o left xc)) zipped then oof
  else match multi_task (fun k xc => to_res (do_dump o k xc)) (VInt 0) zipped
                        (Z.to_nat tasks) s with
       | Some r => lift r
       | None => oof
       end.
(** default_iterable_serializer, serializers/default_iterable.py:12-49.  [tasks] is a parameter
    and not in [kwargs_]: the elements are dumped with the default, 1. *)
Definition tser_iterable (o : sopts) (cls : option ty) (v : value) : M value :=
  let o' := set_store false o in
  dom l <- lift (py_iter R v);
  dom cls_ <- lift (if so_strict o then determine_cls E cls v else Ok None);
  dom subs <- lift (get_subclasses (length l) cls_);
  dom r <- (if (tasks <? 2)%Z
            then mmap (fun xc => dump_ E f (ser 1) o' (snd xc) (fst xc)) (combine l subs)
            else parallel_dump o' (combine l subs) (sched v));
  ret (VList r).
(** default_tuple_serializer, serializers/default_tuple.py:10-28; named tuples pass [tasks] on
    with their keyword arguments (31-41). *)
Definition tser_tuple (o : sopts) (cls : option ty) (v : value) : M value :=
  match v, cls with
  | VNT c _, _ => ser_namedtuple E f (ser tasks) o c v
  | _, None => tser_iterable o None v
  | _, Some t =>
      match raw_args t with
      | None => fail (exn_of KAttribute)
      | Some args =>
          if ty_eqb TEllipsis (last args TAny) then
            dom l <- lift (py_iter R v);
            tser_iterable o (Some (TApp true HTuple (repeat (hd TAny args) (length l)))) v
          else tser_iterable o (Some t) v
      end
  end.
(** All other serializers pass [tasks] on with their keyword arguments
    (serializers/default_list.py:48, default_dict.py:42-53 and 71, default_object.py:65-84 and
    125-130, default_union.py:29, default_timezone.py:15). *)
Definition tser_step (o : sopts) (h : option shandler) (cls : option ty) (v : value) : M value :=
  match h with
  | Some STuple => tser_tuple o cls v
  | Some SIterable => tser_iterable o cls v
  | _ => ser_step E f (ser tasks) o h cls v
  end.
End Serializers.

(** [n] bounds the depth of nested serializer calls; [sch n] has the schedules of the iterables
    that are reached with depth bound [n]. *)
Fixpoint tserialize (E : env) (f : nat) (sch : nat -> value -> list action) (n : nat) (tasks : Z)
         (o : sopts) (h : option shandler) (cls : option ty) (v : value) : M value :=
  match n with
  | O => oof
  | S n' => tser_step E f (tserialize E f sch n') (sch n') tasks o h cls v
  end.
(** jsons.dump(v, cls, tasks=tasks, fork_inst=f, **o ) *)
Definition tdump (E : env) (sch : nat -> value -> list action) (f n : nat) (tasks : Z) (o : sopts)
           (cls : option ty) (v : value) : M value :=
  dump_ E f (tserialize E f sch n tasks) o cls v.
