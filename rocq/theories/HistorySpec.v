(** * What the effect of earlier calls on dumps and loads is stated with (C79) *)
From Verif Require Export HistoryModel FrameSpec RegistrySpec.
Local Open Scope string_scope.

(** Calls that neither register nor suppress anything in the fork of [f]. *)
Fixpoint spare (ops : list op) (f : nat) (more : list op) : Prop :=
  match more with
  | [] => True
  | o :: r => (leaves_alone ops f o /\ leaves_warnings_alone ops f o) /\ spare (ops ++ [o])%list f r
  end.
(** Validators and announced classes are shared by all forks. *)
Definition shared_effect (o : op) : Prop :=
  match o with
  | OSet Val _ _ _ _ | OAnnounce _ _ _ _ => True
  | OCall tr => exists g c, In (EAnnounce g c) tr
  | _ => False
  end.

(** A class that a handler registered under the (lowercase) name [n] may be used for: one of that
    name, or a subclass of one of that name; a type is concerned by a call of set_serializer and
    friends on [a] if it is such a class or a NewType of such a class. *)
Definition named_or_below (W : world) (n : string) (c : cls) : Prop :=
  slower (w_name W c) = n \/ exists p, w_sub W c p = true /\ slower (w_name W p) = n.
Definition concerned (P : program) (a : clsarg) (t : ty) : Prop := exists n,
  In n (names_of (pr_world P) a) /\
  (named_or_below (pr_world P) n (pr_cls P t) \/
   exists s, w_super (pr_world P) (pr_cls P t) = Some s /\ named_or_below (pr_world P) n s).

(** Two runs with the same result or error and, apart from the fork they are attributed to, the same
    effects in the same order. *)
Definition forkless (e : ev) : ev :=
  match e with
  | EvWarn _ code => EvWarn 0 code
  | EvAnnounce _ t => EvAnnounce 0 t
  | e => e
  end.
Definition same_run {A} (m m' : M A) : Prop := snd m = snd m' /\ map forkless (fst m) = map forkless (fst m').
