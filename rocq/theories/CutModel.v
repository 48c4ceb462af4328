(** * Model of calls that are cut short: the recursion limit, and exceptions out of the blue

    A RecursionError (or a MemoryError) can come up in every call of a serializer or of load,
    and it is an Exception like those that the code catches: _dump_impl.py:58-66,
    serializers/default_object.py:120-141, serializers/default_union.py:31-34,
    _load_impl.py:104-125, deserializers/default_list.py:53-69, default_union.py:21-26,
    default_string.py:17-27.  The serializers and deserializers are those of EngineSer.v and
    EngineDeser.v; only the recursive calls differ. *)
From Verif Require Export EngineSer EngineDeser.
Set Implicit Arguments.
Local Open Scope string_scope.

(** RecursionError('maximum recursion depth exceeded'); it is neither a JsonsError nor any of
    the builtin exceptions that the code looks for. *)
Definition recursion_error : exn := mkExn (KOther 0) None [] false "maximum recursion depth exceeded".

(** Which calls of serializers are stopped, and by which exception; the number is what is left
    of the limit. *)
Definition ser_cut : Type := nat -> sopts -> option shandler -> option ty -> value -> option exn.
(** The calls of serializers, see [serialize]: at most [n] are nested.  In reality the limit
    counts frames, of which the serializers need different numbers; [cut] covers this.  The
    stops are at the beginning of calls. *)
Fixpoint cut_serialize (E : env) (f : nat) (cut : ser_cut) (n : nat) (o : sopts) (h : option shandler)
         (cls : option ty) (v : value) : M value :=
  match n with
  | O => fail recursion_error
  | S n' => match cut n' o h cls v with
            | Some e => fail e
            | None => ser_step E f (cut_serialize E f cut n') o h cls v
            end
  end.
(** dump, _dump_impl.py:16-66 *)
Definition cut_dump (E : env) (f : nat) (cut : ser_cut) (n : nat) (o : sopts) (cls : option ty) (v : value)
  : M value := dump_ E f (cut_serialize E f cut n) o cls v.
Definition no_cut : ser_cut := fun _ _ _ _ _ => None.

(** Which calls of load are stopped, and by which exception: the number is what is left of the
    limit; then the fork, the options, the class and the object. *)
Definition load_cut : Type := nat -> nat -> lopts -> option ty -> value -> option exn.
Fixpoint cut_load (E : env) (cut : load_cut) (n : nat) (f : nat) (o : lopts) (cls : option ty) (j : value)
  : M value :=
  match n with
  | O => fail recursion_error
  | S n' => match cut n' f o cls j with
            | Some e => fail e
            | None => load_step E (cut_load E cut n') f o cls j
            end
  end.
(** A call of load by the user; this call itself is not stopped. *)
Definition user_load (E : env) (cut : load_cut) (n : nat) (f : nat) (o : lopts) (cls : option ty) (j : value)
  : M value := load_step E (cut_load E cut n) f o cls j.
Definition no_load_cut : load_cut := fun _ _ _ _ _ => None.
