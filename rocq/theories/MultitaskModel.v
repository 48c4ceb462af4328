(** * Model of jsons/_multitasking.py

    The tasks are interleaved by an arbitrary schedule.  One action is either the
    main thread starting its next task, one call of [func] on one element, or one
    write into the shared list; these are the points at which tasks can observe or
    affect each other.

    Simplifications: [func] is a pure function of its element and its [tasks]
    argument (it returns or raises; a call that never returns is not modelled);
    with [Process] tasks pickling of elements and results is taken to be the
    identity and the manager list to be a plain shared list; [int(len(obj) /
    tasks_used)] is the integer quotient, which is exact for lists shorter than
    2^53 elements. *)
From Verif Require Export PyBase.
Set Implicit Arguments.

(** _multitasking.py:51 (tasks_used) *)
Definition tasks_used (tasks n : nat) : nat := Nat.min tasks n.
(** _multitasking.py:52: [tasks - tasks_used or 1] *)
Definition tasks_left (tasks n : nat) : nat :=
  match tasks - tasks_used tasks n with O => 1 | S k => S k end.

(** _multitasking.py:55-61: the (start, end) pairs, in order.  Line 55 divides by
    [tasks_used], which is zero for an empty list. *)
Definition slice_bounds (tasks n i : nat) : nat * nat :=
  let used := tasks_used tasks n in
  let slice_size := n / used in
  let rest_size := n mod used in
  let start := i * slice_size in
  let end_ := (i + 1) * slice_size in
  let end_ := if i =? used - 1 then end_ + rest_size else end_ in
  (start, end_).
Definition slices (tasks n : nat) : res (list (nat * nat)) :=
  let used := tasks_used tasks n in
  if used =? 0 then raise KZeroDiv
  else Ok (map (slice_bounds tasks n) (seq 0 used)).

(** [list_to_fill[i] = v] *)
Fixpoint lset {B} (i : nat) (v : B) (l : list B) : list B :=
  match l, i with
  | [], _ => []
  | _ :: r, O => v :: r
  | x :: r, S k => x :: lset k v r
  end.

(** A started task inside [_fill] (_multitasking.py:70-82): the loop variable
    [i_], the end of its range, the value [loaded] between lines 81 and 82, and
    whether line 81 raised (the task then ends; nobody looks at its exception). *)
Record worker (B : Type) : Type := mkWorker {
  w_i : nat; w_end : nat; w_loaded : option B; w_dead : bool }.

Record mstate (B : Type) : Type := mkM {
  m_result : list B;            (* the shared list *)
  m_workers : list (worker B);  (* started tasks, in starting order *)
  m_todo : list (nat * nat);    (* tasks the main thread has still to start *)
  m_calls : list nat }.         (* ghost: indices func was called on, newest first *)

Inductive action : Type :=
| AMain              (* the main thread: next iteration of _multitasking.py:57-66 *)
| AWorker (k : nat). (* the k-th started task: line 81 or line 82 *)

Section Run.
  Context {A B : Type}.
  Variable func : nat -> A -> res B.  (* func(elem, tasks=...) *)
  Variable filler : B.                (* the 0 of line 33 *)
  Variable obj : list A.
  Variable left : nat.                (* tasks_left *)

  (** One iteration step of [_fill], _multitasking.py:80-82. *)
  Definition worker_step (st : mstate B) (k : nat) : mstate B :=
    match nth_error (m_workers st) k with
    | None => st
    | Some w =>
        if w_dead w then st
        else match w_loaded w with
             | Some v =>                                           (* line 82 *)
                 mkM (lset (w_i w) v (m_result st))
                     (lset k (mkWorker (w_i w + 1) (w_end w) None false) (m_workers st))
                     (m_todo st) (m_calls st)
             | None =>
                 if w_i w <? w_end w then                          (* line 80 *)
                   match nth_error obj (w_i w) with
                   | None =>                                       (* obj[i_]: IndexError *)
                       mkM (m_result st) (lset k (mkWorker (w_i w) (w_end w) None true) (m_workers st))
                           (m_todo st) (m_calls st)
                   | Some elem =>                                  (* line 81 *)
                       mkM (m_result st)
                           (lset k match func left elem with
                                   | Ok v => mkWorker (w_i w) (w_end w) (Some v) false
                                   | Err _ => mkWorker (w_i w) (w_end w) None true
                                   end (m_workers st))
                           (m_todo st) (w_i w :: m_calls st)
                   end
                 else st
             end
    end.

  Definition mstep (st : mstate B) (a : action) : mstate B :=
    match a with
    | AMain =>
        match m_todo st with
        | [] => st
        | (s, e) :: r =>
            mkM (m_result st) (m_workers st ++ [mkWorker s e None false]) r (m_calls st)
        end
    | AWorker k => worker_step st k
    end.

  Definition stopped (w : worker B) : bool :=
    w_dead w || match w_loaded w with Some _ => false | None => w_end w <=? w_i w end.

  (** All tasks started and joined (_multitasking.py:25-26). *)
  Definition finished (st : mstate B) : bool :=
    match m_todo st with [] => forallb stopped (m_workers st) | _ => false end.

  Definition minit (sl : list (nat * nat)) : mstate B :=
    mkM (repeat filler (length obj)) [] sl [].

  Definition mrun (sl : list (nat * nat)) (sched : list action) : mstate B :=
    fold_left mstep sched (minit sl).
End Run.

(** multi_task, _multitasking.py:14-28, under a given schedule.  [None]: the
    schedule does not finish the work (the caller is still waiting in join). *)
Definition multi_task {A B} (func : nat -> A -> res B) (filler : B) (obj : list A)
    (tasks : nat) (sched : list action) : option (res (list B)) :=
  match slices tasks (length obj) with
  | Err e => Some (Err e)
  | Ok sl =>
      let st := mrun func filler obj (tasks_left tasks (length obj)) sl sched in
      if finished st then Some (Ok (m_result st)) else None
  end.

(** The sequential path: default_list._do_load without warn_on_fail,
    deserializers/default_list.py:50-69 (error rewriting is in the engine model). *)
Fixpoint seq_list {A B} (func : nat -> A -> res B) (obj : list A) : res (list B) :=
  match obj with
  | [] => Ok []
  | x :: r => dor y <- func 1 x; dor ys <- seq_list func r; Ok (y :: ys)
  end.

(** default_list_deserializer, deserializers/default_list.py:41-46: the dispatch
    on [tasks] (an arbitrary int). *)
Definition list_with_tasks {A B} (func : nat -> A -> res B) (filler : B) (obj : list A)
    (tasks : Z) (sched : list action) : option (res (list B)) :=
  if (tasks =? 1)%Z then Some (seq_list func obj)
  else if (1 <? tasks)%Z then multi_task func filler obj (Z.to_nat tasks) sched
  else Some (raise KJsons).
