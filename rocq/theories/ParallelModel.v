(** * Model of load with the keyword argument [tasks]

    EngineDeser.v fixes [tasks=1].  Here lists are loaded by several tasks: the parallel part
    is that of MultitaskModel.v, with [load] as the function that the tasks call.

    Simplifications: those of MultitaskModel.v; warnings and other effects of the tasks are
    dropped (with Process they happen elsewhere). *)
From Verif Require Export EngineDeser MultitaskModel.
Set Implicit Arguments.
Local Open Scope string_scope.

(** What a task sees of a call that ends. *)
Definition to_res {A} (m : M A) : res A :=
  match snd m with Done a => Ok a | Fail e => Err e | Oof => raise (KOther 0) end.
Definition is_oof {A} (m : M A) : bool := match snd m with Oof => true | _ => false end.

Section Deserializers.
Variable E : env.
Let CT := e_ct E.
Let R := e_rt E.
(** The recursive call of jsons.load: tasks, fork, options, cls, json_obj. *)
Variable load : Z -> nat -> lopts -> option ty -> value -> M value.
(** The schedule of the tasks for a list *)
Variable sched : value -> list action.
Variable tasks : Z.
Variable f : nat.

(** multi_task(load, obj, tasks, task_type, cls_, **kwargs_ ), deserializers/default_list.py:44:
    [fork_inst] and [warn_on_fail] are parameters of the deserializer and not in [kwargs_], so
    that the elements are loaded with the default fork (0).  The elements are [obj[i]]
    (_multitasking.py:81).  No result ([oof]) if the schedule does not finish. *)
Definition parallel_list (o : lopts) (t : option ty) (j : value) : M (list value) :=
  dom l <- lift (py_iter R j);                                      (* len(obj) *)
  let call k i := dom x <- lift (py_getitem CT j (VInt (Z.of_nat i))); load (Z.of_nat k) 0 o t x in
  let left := tasks_left (Z.to_nat tasks) (length l) in
  if existsb (fun i => is_oof (call left i)) (seq 0 (length l)) then oof
  else match multi_task (fun k i => to_res (call k i)) (VInt 0) (seq 0 (length l))
                        (Z.to_nat tasks) (sched j) with
       | Some r => lift r
       | None => oof
       end.
(** default_list_deserializer, deserializers/default_list.py:12-47 *)
Definition tdeser_list (o : lopts) (args : list ty) (j : value) : M (list value) :=
  let o' := set_warn false (match args with [] => o | _ => set_inferred true o end) in
  if (tasks =? 1)%Z then
    dom l <- lift (py_iter R j);
    deser_list_go E (load 1) f o' (lo_warn o) (hd_error args) 0 l
  else if (1 <? tasks)%Z then parallel_list o' (hd_error args) j
  else fail (exn_of KJsons).
(** default_iterable_deserializer, deserializers/default_iterable.py:8-30 *)
Definition tdeser_iterable (o : lopts) (t : ty) (j : value) : M value :=
  dom args <- lift (match raw_args t with
                    | None => Ok []
                    | Some [a] => Ok [a]
                    | Some _ => raise KType
                    end);
  dom l <- tdeser_list o args j;
  match t with
  | TApp _ HList _ | TApp _ HIterable _ => ret (VList l)
  | TApp _ HSet _ => if forallb (hashable CT) l then ret (VColl CSet (dedup l []))
                     else fail (exn_of KType)
  | TApp _ HFrozen _ => if forallb (hashable CT) l then ret (VColl CFrozen (dedup l []))
                        else fail (exn_of KType)
  | TApp _ HDeque _ => ret (VColl CDeque l)
  | TApp _ HTuple _ => ret (VTuple l)
  | _ => lift (rt_cast R t (VList l))
  end.
(** All other deserializers pass [tasks] on with their keyword arguments, except those of
    timezones and complex numbers, which call load without any. *)
Definition tdeser_step (o : lopts) (h : dhandler) (t : ty) (j : value) : M value :=
  match h with
  | DList => dom l <- tdeser_list o (get_args (Some t)) j; ret (VList l)
  | DIterable => tdeser_iterable o t j
  | DTimezone | DComplex => deser_step E (load 1) f o h t j
  | _ => deser_step E (load tasks) f o h t j
  end.
(** load, _load_impl.py:26-101, 188-219: as [load_step] *)
Definition tload_step (o : lopts) (cls : option ty) (j : value) : M value :=
  dom _ <- (if is_none j then
              dom b <- lift (can_match_none CT cls);
              if b then ret tt else fail (exn_of KDeser)
            else ret tt);
  if (negb (lo_strict o) && same_type j cls)
     || match cls with Some TAny => true | _ => false end
  then
    dom _ <- lift (match cls with Some t => validate E f j t | None => Ok tt end);
    ret j
  else
    dom cls1 <- lift (match cls with
                      | Some (TFwd s) => dor t <- e_resolve E f s; Ok (Some t)
                      | _ => Ok cls
                      end);
    if negb (valid_type j) then fail (exn_of KDeser)
    else
      dom mh <- lift (get_cls_and_meta E f j);
      match determine_precedence cls1 (fst mh) (Some (class_of j)) (lo_inferred o) with
      | None => fail (exn_of KDeser)
      | Some t =>
          match e_deser E f t with
          | None => fail (exn_of KDeser)
          | Some h =>
              let hints := match lo_hints o with Some h => h | None => snd mh end in
              let o' := set_inferred (changed t cls1) (set_hints (Some hints) o) in
              wrap_deser (dom r <- tdeser_step o' h t j;
                          dom _ <- lift (validate E f r t);
                          ret r)
          end
      end.
End Deserializers.

(** jsons.load(j, cls, tasks=tasks, fork_inst=f, **o ); [sch n] has the schedules of the lists
    that are reached with depth bound [n]. *)
Fixpoint tload (E : env) (sch : nat -> value -> list action) (n : nat) (tasks : Z) (f : nat)
         (o : lopts) (cls : option ty) (j : value) : M value :=
  match n with
  | O => oof
  | S n' => tload_step E (tload E sch n') (sch n') tasks f o cls j
  end.
