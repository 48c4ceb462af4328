(** * C11-C13: parallel list processing

    Model: MultitaskModel.v (jsons/_multitasking.py and the dispatch on [tasks] in
    deserializers/default_list.py).  [func t x] is the processing of one element;
    schedules are arbitrary lists of actions. *)
From Verif Require Import PyBase MultitaskModel MultitaskSpec MultitaskProofs.
From Coq Require Import Permutation.

(** ** C11 *)
Theorem C11_parallel_is_sequential :
  forall (A B : Type) (func : nat -> A -> res B) (filler : B) (obj : list A) (g : A -> B)
         (tasks : Z) (sched : list action) (r : res (list B)),
  obj <> [] -> (1 <= tasks)%Z ->
  (forall t x, In x obj -> func t x = Ok (g x)) ->
  list_with_tasks func filler obj tasks sched = Some r ->
  r = Ok (map g obj).
Proof. exact (@list_with_tasks_correct). Qed.

(** The hypothesis [= Some r] can always be met: every partial schedule extends to
    one that finishes ... *)
Theorem C11_always_completes :
  forall (A B : Type) (func : nat -> A -> res B) (filler : B) (obj : list A)
         (tasks : Z) (sched : list action),
  obj <> [] ->
  exists more r, list_with_tasks func filler obj tasks (sched ++ more) = Some r.
Proof. exact (@list_with_tasks_completes). Qed.

(** ... and no schedule contains more than 2n + min(tasks, n) effective actions. *)
Theorem C11_bounded_work :
  forall (A B : Type) (func : nat -> A -> res B) (filler : B) (obj : list A)
         (tasks : nat) sl (sched : list action),
  slices tasks (length obj) = Ok sl ->
  effective func obj (tasks_left tasks (length obj)) (minit filler obj sl) sched
    <= 2 * length obj + Nat.min tasks (length obj).
Proof. exact (@multi_task_bound). Qed.

(** Even with failures the outcome does not depend on the schedule. *)
Theorem C11_schedule_independent :
  forall (A B : Type) (func : nat -> A -> res B) (filler : B) (obj : list A)
         (tasks : nat) (sched sched' : list action) r r',
  multi_task func filler obj tasks sched = Some r ->
  multi_task func filler obj tasks sched' = Some r' -> r = r'.
Proof. exact (@multi_task_deterministic). Qed.

Definition ex_double (t : nat) (x : nat) : res nat := Ok (2 * x).
Example C11_nonvacuous :
  (* two tasks, interleaved write-by-write, second task first *)
  list_with_tasks ex_double 0 [1; 2; 3] 2
    [AMain; AMain; AWorker 1; AWorker 0; AWorker 1; AWorker 1; AWorker 0; AWorker 1]
  = Some (Ok [2; 4; 6]) /\
  list_with_tasks ex_double 0 [1; 2; 3] 2 [AMain; AWorker 0] = None.
Proof. split; reflexivity. Qed.

(** ** C12 *)
Theorem C12_slices_partition : forall tasks n sl,
  slices tasks n = Ok sl ->
  length sl = Nat.min tasks n /\
  concat (map range sl) = seq 0 n /\
  Forall (fun p => fst p < snd p) sl.
Proof. exact slices_ranges. Qed.
Theorem C12_slices_defined : forall tasks n,
  0 < tasks -> 0 < n -> exists sl, slices tasks n = Ok sl.
Proof. exact slices_defined. Qed.
Theorem C12_each_element_once :
  forall (A B : Type) (func : nat -> A -> res B) (filler : B) (obj : list A) (g : A -> B)
         (tasks : nat) sl (sched : list action),
  (forall t x, In x obj -> func t x = Ok (g x)) ->
  slices tasks (length obj) = Ok sl ->
  let st := mrun func filler obj (tasks_left tasks (length obj)) sl sched in
  finished st = true -> Permutation (m_calls st) (seq 0 (length obj)).
Proof. exact (@calls_once). Qed.
Theorem C12_no_element_twice :
  forall (A B : Type) (func : nat -> A -> res B) (filler : B) (obj : list A)
         (tasks : nat) sl (sched : list action),
  slices tasks (length obj) = Ok sl ->
  NoDup (m_calls (mrun func filler obj (tasks_left tasks (length obj)) sl sched)).
Proof. exact (@calls_nodup). Qed.
Example C12_nonvacuous : slices 3 11 = Ok [(0, 3); (3, 6); (6, 11)].
Proof. reflexivity. Qed.

(** ** C13 *)
(** In a finished parallel run no error is reported; the slot of an element holds
    its value if it and all earlier elements of its part succeed and the filler
    otherwise. *)
Theorem C13_failed_slots :
  forall (A B : Type) (func : nat -> A -> res B) (filler : B) (obj : list A)
         (tasks : nat) (sched : list action) l,
  multi_task func filler obj tasks sched = Some (Ok l) ->
  length l = length obj /\
  forall i x, nth_error obj i = Some x ->
    let f := func (tasks_left tasks (length obj)) in
    let lo := part_start (Nat.min tasks (length obj)) (length obj) i in
    (all_ok f obj lo i -> exists v, f x = Ok v /\ nth_error l i = Some v) /\
    (~ all_ok f obj lo i -> nth_error l i = Some filler).
Proof. exact (@multi_task_slots). Qed.
Theorem C13_no_error_reported :
  forall (A B : Type) (func : nat -> A -> res B) (filler : B) (obj : list A)
         (tasks : nat) (sched : list action) e,
  multi_task func filler obj tasks sched = Some (Err e) ->
  (obj = [] \/ tasks = 0) /\ e = exn_of KZeroDiv.
Proof. exact (@multi_task_never_fails). Qed.
Theorem C13_empty_list_crashes :
  forall (A B : Type) (func : nat -> A -> res B) (filler : B) (tasks : Z) (sched : list action),
  (1 < tasks)%Z -> list_with_tasks func filler [] tasks sched = Some (raise KZeroDiv).
Proof. exact (@list_with_tasks_empty). Qed.
Theorem C13_invalid_tasks :
  forall (A B : Type) (func : nat -> A -> res B) (filler : B) (obj : list A) (tasks : Z) sched,
  (tasks < 1)%Z -> list_with_tasks func filler obj tasks sched = Some (raise KJsons).
Proof. exact (@list_with_tasks_invalid). Qed.

Definition ex_even (t : nat) (x : nat) : res nat := if Nat.even x then Ok x else raise KDeser.
Example C13_nonvacuous :
  (* parts [2;3;4] and [6;8;10]: 3 fails, so 4 is lost too, nothing is reported *)
  multi_task ex_even 0 [2; 3; 4; 6; 8; 10] 2
    [AMain; AMain; AWorker 0; AWorker 0; AWorker 0;
     AWorker 1; AWorker 1; AWorker 1; AWorker 1; AWorker 1; AWorker 1]
  = Some (Ok [2; 0; 0; 6; 8; 10]).
Proof. reflexivity. Qed.

Print Assumptions C11_parallel_is_sequential.
Print Assumptions C11_always_completes.
Print Assumptions C11_bounded_work.
Print Assumptions C11_schedule_independent.
Print Assumptions C12_slices_partition.
Print Assumptions C12_slices_defined.
Print Assumptions C12_each_element_once.
Print Assumptions C12_no_element_twice.
Print Assumptions C13_failed_slots.
Print Assumptions C13_no_error_reported.
Print Assumptions C13_empty_list_crashes.
Print Assumptions C13_invalid_tasks.
