(** * Specification vocabulary for parallel list processing *)
From Verif Require Import PyBase.

(** The first index of the part of an [n]-element list that contains index [i],
    when the list is cut into [t] equal parts of [n / t] elements and the last
    part takes the remainder. *)
Definition part_start (t n i : nat) : nat := Nat.min (i / (n / t)) (t - 1) * (n / t).

Definition fails {A B} (f : A -> res B) (x : A) : Prop := exists e, f x = Err e.

(** The elements at positions [lo..i] all succeed. *)
Definition all_ok {A B} (f : A -> res B) (l : list A) (lo i : nat) : Prop :=
  forall j x, lo <= j <= i -> nth_error l j = Some x -> exists v, f x = Ok v.

(** The indices of a half-open range. *)
Definition range (p : nat * nat) : list nat := seq (fst p) (snd p - fst p).
