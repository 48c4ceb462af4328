(** * What the properties of names are stated with *)
From Verif Require Export VerboseSpec ResolveModel.
Local Open Scope string_scope.

(** A name with brackets *)
Definition bracketed (s : string) : bool := smem "[" s && smem "]" s.
(** A module that is not named relative to another one *)
Definition absolute (m : string) : Prop := m <> "" /\ forall r, m <> String "." r.
(** What importing the module [m] and looking for [n] in it gives *)
Inductive found (P : python) (m n : string) : res ty -> Prop :=
| fd_attribute attrs t : absolute m -> py_module P m = Module attrs -> attrs n = Some t -> found P m n (Ok t)
| fd_error e : absolute m -> py_module P m = Broken e ->
    is_attributeerror (e_kind e) = false -> is_valueerror (e_kind e) = false -> found P m n (Err e)
| fd_relative r : m = String "." r -> found P m n (raise KType).
Inductive missing (P : python) (m n : string) : Prop :=
| ms_module : absolute m -> py_module P m = NoModule -> missing P m n
| ms_error e : absolute m -> py_module P m = Broken e ->
    is_attributeerror (e_kind e) = true \/ is_valueerror (e_kind e) = true -> missing P m n
| ms_attribute attrs : absolute m -> py_module P m = Module attrs -> attrs n = None -> missing P m n
| ms_empty : m = "" -> missing P m n.
(** What a name without brackets stands for: a builtin, or else what can be imported under the
    name, or else what has been announced. *)
Inductive denotes (P : python) (table : list (string * ty)) : string -> res ty -> Prop :=
| dn_builtin s t : py_builtin P s = Some t -> denotes P table s (Ok t)
| dn_found m n r : py_builtin P (m ++ "." ++ n) = None -> smem "." n = false -> found P m n r ->
                   denotes P table (m ++ "." ++ n) r
| dn_missing m n : py_builtin P (m ++ "." ++ n) = None -> smem "." n = false -> missing P m n ->
    denotes P table (m ++ "." ++ n)
            (match sget (m ++ "." ++ n) table with Some t => Ok t | None => raise KUnknownClass end)
| dn_simple s : py_builtin P s = None -> smem "." s = false ->
    denotes P table s (match sget s table with Some t => Ok t | None => raise KUnknownClass end).

(** ** The names that dumps write *)
(** The name of a class as the module and the name in it that Python will look for *)
Definition plain_name (ci : cinfo) : Prop :=
  smem "." (ci_simple ci) = false /\ bracketed (ci_name ci) = false.
(** The class can be imported from its module under its name. *)
Definition importable (P : python) (CT : classes) (c : nat) : Prop :=
  absolute (ci_module (CT c)) /\
  exists attrs, py_module P (ci_module (CT c)) = Module attrs /\ attrs (ci_simple (CT c)) = Some (TClass c).
(** Nothing can, as with a class within a function or another class, or in a module that is no
    longer there *)
Definition unimportable (P : python) (CT : classes) (c : nat) : Prop :=
  missing P (ci_module (CT c)) (ci_simple (CT c)).
(** The types that a program deals with: classes, annotations, their arguments *)
Record program (E : env) (T : ty -> Prop) : Prop := {
  pg_value : forall v, T (class_of v);
  pg_runtime : forall v, T (rt_type (e_rt E) v);
  pg_hint : forall c a t, In (a, t) (ci_hints (e_ct E c)) -> T t;
  pg_args : forall b h ts u, T (TApp b h ts) -> In u ts -> T u;
  pg_union : forall ts u, T (TUnion ts) -> In u ts -> T u }.
Definition given (T : ty -> Prop) (o : sopts) (cls : option ty) : Prop :=
  (forall t, cls = Some t -> T t) /\ (forall k t, In (k, t) (so_types o) -> T t).
(** No other type of the program has the name of the class. *)
Definition own_name (CT : classes) (T : ty -> Prop) (c : nat) : Prop :=
  forall t, T t -> class_name CT t = ci_name (CT c) -> t = TClass c.
(** Earlier announcements of [c] that are still in the cache were not overruled since.  There
    are none after a dump or load (C19). *)
Definition undisputed (CT : classes) (st : names) (c : nat) : Prop :=
  forall f, In (f, TClass c) (na_cached st) -> sget (ci_name (CT c)) (na_table st) = Some (TClass c).
(** The classes of the objects within [v] *)
Definition within (v : value) (c : nat) : Prop := exists p attrs, part v p (VObj c attrs).
(** Attributes that hold objects are annotated with the class of the object, if at all. *)
Definition own_hints (CT : classes) (v : value) : Prop := forall p c attrs a c' attrs',
  part v p (VObj c attrs) -> In (a, VObj c' attrs') attrs ->
  attr_hint (CT c) a = None \/ attr_hint (CT c) a = Some (TClass c').
