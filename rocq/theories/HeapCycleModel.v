(** * Model of calls of load that are cut short, with a heap

    As [cut_load] of CutModel.v, with the deserializers of HeapLoadModel.v: documents can contain
    themselves, and then it is the recursion limit that ends the call. *)
From Verif Require Export HeapLoadModel CutModel.
Set Implicit Arguments.

(** Which calls of load are stopped, and by which exception: the number is what is left of the
    limit; then the fork, the options, the class and the object. *)
Definition hload_cut : Type := nat -> nat -> lopts -> option ty -> obj -> option exn.
(** load, _load_impl.py:26-101; at most [n] calls are nested, one more is a RecursionError. *)
Fixpoint hcut_load (E : env) (L : lenv) (cut : hload_cut) (n : nat) (f : nat) (o : lopts) (cls : option ty) (x : obj)
  : hM obj :=
  match n with
  | O => hfail recursion_error
  | S n' => match cut n' f o cls x with
            | Some e => hfail e
            | None => hload_step E L (hcut_load E L cut n') f o cls x
            end
  end.
(** A call of load by the user; this call itself is not stopped. *)
Definition huser_load (E : env) (L : lenv) (cut : hload_cut) (n : nat) (f : nat) (o : lopts) (cls : option ty) (x : obj)
  : hM obj := hload_step E L (hcut_load E L cut n) f o cls x.
Definition no_hload_cut : hload_cut := fun _ _ _ _ _ => None.
