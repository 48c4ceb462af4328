(** * What "dumping twice is dumping once" is stated with *)
From Verif Require Export DumpSpec.

(** No enum derives from str, int or float as well. *)
Definition plain_enums (CT : classes) : Prop :=
  forall c m ms, ci_kind (CT c) = CkEnum m ms -> m = None.
(** The fields of a named tuple have different names. *)
Definition distinct_fields (CT : classes) : Prop :=
  forall c fs, ci_kind (CT c) = CkNT fs -> NoDup (map nf_name fs).
(** The key transformer maps scalars to scalars. *)
Definition kt_plain (o : sopts) : Prop :=
  forall g k k', so_kt o = Some g -> plain_scalar k -> g k = Ok k' -> plain_scalar k'.
