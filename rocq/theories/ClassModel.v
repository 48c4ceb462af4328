(** * Classes as they are written: annotations, constructors and members along the MRO

    Model of _compatibility_impl.get_type_hints and of what default_object.py asks of a class,
    down to the class statement: annotations of its own, [__init__], [__slots__] and [__dict__],
    and the classes of its [__mro__].  [class_info] computes from these the [cinfo] that the
    engine works with. *)
From Verif Require Export EngineTypes.
Set Implicit Arguments.
Local Open Scope string_scope.

(** NameError, and its subclass UnboundLocalError *)
Definition KName : ekind := KOther 2.
Definition KUnbound : ekind := KOther 3.
Definition is_nameerror (k : ekind) : bool :=
  match k with KOther 2 | KOther 3 => true | _ => false end.

(** ** Class statements *)
(** An annotation as it is found in [__annotations__]; [None] is the value None, a string is
    [TFwd]. *)
Definition annotation := option ty.
(** A parameter of a function, without [self] *)
Record fparam : Type := mkFparam {
  fp_name : string;
  fp_ann : option annotation;
  fp_default : option value;
  fp_var : bool }.
(** A function: the module whose names it sees, its parameters, its return annotation *)
Record func : Type := mkFunc {
  fn_module : string;
  fn_params : list fparam;
  fn_returns : option annotation }.
(** A class statement.  [de_mro] is [__mro__] without [object]; [de_type] says whether the
    metaclass is [type] itself (it is ABCMeta for abstract classes); [de_dict] is [__dict__]
    without dunder names; [de_scope] are the types among its values.  The last five are what
    [cinfo] has of an instance. *)
Record decl : Type := mkDecl {
  de_module : string;
  de_name : string;
  de_mro : list nat;
  de_type : bool;
  de_ann : list (string * annotation);
  de_init : option func;
  de_slots : option (list string);
  de_dict : list (string * member);
  de_scope : string -> option ty;
  de_prop : string -> list (string * value) -> res value;
  de_call : list (string * value) -> res (list (string * value));
  de_set : string -> value -> list (string * value) -> res (list (string * value));
  de_attrs : bool;
  de_hashable : bool }.
(** All class statements of a program, and the names that are bound to types: in the modules
    and among the builtins.  [pr_expr] evaluates strings that are no identifiers, given what
    the names stand for.  (A name that is bound to something else than a type is a TypeError;
    such names are left out here.  Types that names stand for have no forward references.) *)
Definition scope := string -> option ty.
Record prog : Type := mkProg {
  pr_decl : nat -> decl;
  pr_module : string -> scope;
  pr_builtin : scope;
  pr_expr : scope -> string -> res ty }.

(** ** typing.get_type_hints, CPython 3.10 *)
Definition name_char (c : ascii) : bool := is_cased c || is_digit c || Ascii.eqb c "_".
Definition identifier (s : string) : bool :=
  match s with
  | "" => false
  | String c _ => negb (is_digit c) && sforall name_char s
  end.
(** eval(s, globals, locals): local names come first, then global ones, then the builtins. *)
Fixpoint look (scopes : list scope) (x : string) : option ty :=
  match scopes with
  | [] => None
  | sc :: r => match sc x with Some t => Some t | None => look r x end
  end.
Definition eval_str (P : prog) (scopes : list scope) (s : string) : res ty :=
  if identifier s then match look scopes s with Some t => Ok t | None => raise KName end
  else pr_expr P (look scopes) s.
(** Union[...]: unions within are merged, duplicates removed, and a union of one type is the
    type. *)
Fixpoint distinct_types (l : list ty) : list ty :=
  match l with
  | [] => []
  | t :: r => t :: filter (fun u => negb (ty_eqb t u)) (distinct_types r)
  end.
Definition make_union (l : list ty) : ty :=
  match distinct_types (flat_map (fun t => match t with TUnion us => us | _ => [t] end) l) with
  | [t] => t
  | l' => TUnion l'
  end.
(** typing._eval_type.  Arguments of builtin generics such as list['A'] that are strings are
    left alone (3.10). *)
Fixpoint eval_type (ev : string -> res ty) (t : ty) : res ty :=
  match t with
  | TFwd s => ev s
  | TApp b h l =>
      dor l' <- (fix go (l : list ty) : res (list ty) :=
                   match l with
                   | [] => Ok []
                   | x :: r =>
                       dor y <- match b, x with false, TFwd _ => Ok x | _, _ => eval_type ev x end;
                       dor ys <- go r; Ok (y :: ys)
                   end) l;
      Ok (TApp b h l')
  | TUnion l =>
      dor l' <- (fix go (l : list ty) : res (list ty) :=
                   match l with
                   | [] => Ok []
                   | x :: r => dor y <- eval_type ev x; dor ys <- go r; Ok (y :: ys)
                   end) l;
      Ok (make_union l')
  | _ => Ok t
  end.
Definition eval_ann (P : prog) (scopes : list scope) (a : annotation) : res ty :=
  match a with None => Ok TNoneT | Some t => eval_type (eval_str P scopes) t end.
(** All annotations of a dict *)
Fixpoint eval_anns (P : prog) (scopes : list scope) (l : list (string * annotation)) : res (list (string * ty)) :=
  match l with
  | [] => Ok []
  | (a, x) :: r => dor t <- eval_ann P scopes x; dor ts <- eval_anns P scopes r; Ok ((a, t) :: ts)
  end.
Definition update {V} (d new : list (string * V)) : list (string * V) :=
  fold_left (fun d kv => sset (fst kv) (snd kv) d) new d.
(** For a class: over reversed(__mro__), the names of the module coming before those of the
    class. *)
Definition class_scopes (P : prog) (d : decl) : list scope :=
  [pr_module P (de_module d); de_scope d; pr_builtin P].
Fixpoint class_hints (P : prog) (bases : list nat) (hints : list (string * ty)) : res (list (string * ty)) :=
  match bases with
  | [] => Ok hints
  | b :: r =>
      dor ts <- eval_anns P (class_scopes P (pr_decl P b)) (de_ann (pr_decl P b));
      class_hints P r (update hints ts)
  end.
(** For a function: a default of None makes the annotation optional (up to 3.10). *)
Definition implicit_optional (d : option value) (t : ty) : ty :=
  match d with Some VNone => make_union [t; TNoneT] | _ => t end.
Fixpoint params_hints (P : prog) (scopes : list scope) (ps : list fparam) : res (list (string * ty)) :=
  match ps with
  | [] => Ok []
  | p :: r =>
      match fp_ann p with
      | None => params_hints P scopes r
      | Some a => dor t <- eval_ann P scopes a; dor ts <- params_hints P scopes r;
                  Ok ((fp_name p, implicit_optional (fp_default p) t) :: ts)
      end
  end.
Definition func_hints (P : prog) (module : string) (fn : func) : res (list (string * ty)) :=
  let scopes := [pr_module P module; pr_builtin P] in
  dor ts <- params_hints P scopes (fn_params fn);
  match fn_returns fn with
  | None => Ok ts
  | Some a => dor t <- eval_ann P scopes a; Ok (ts ++ [("return", t)])%list
  end.

(** ** jsons *)
(** c.__init__ is that of the first class of the MRO that has one, or object.__init__, which
    has no annotations and the signature ( *args, **kwargs ). *)
Fixpoint find_init (D : nat -> decl) (mro : list nat) : option func :=
  match mro with
  | [] => None
  | b :: r => match de_init (D b) with Some fn => Some fn | None => find_init D r end
  end.
Definition object_params : list fparam :=
  [mkFparam "args" None None true; mkFparam "kwargs" None None true].
Definition init_hints (P : prog) (c : nat) (module : option string) : res (list (string * ty)) :=
  match find_init (pr_decl P) (de_mro (pr_decl P c)) with
  | None => Ok []
  | Some fn => func_hints P (match module with Some m => m | None => fn_module fn end) fn
  end.
(** get_type_hints(c.__init__, fallback_ns=c.__module__), _compatibility_impl.py:68-83 *)
Definition hints_of_init (P : prog) (c : nat) : res (list (string * ty)) :=
  match init_hints P c None with
  | Ok h => Ok h
  | Err e => if is_attributeerror (e_kind e) then Ok []
             else if is_nameerror (e_kind e) then init_hints P c (Some (de_module (pr_decl P c)))
             else Err e
  end.
(** get_type_hints(c), _compatibility_impl.py:68-91: a NameError leaves [result] unbound. *)
Definition hints_of_class (P : prog) (c : nat) : res (list (string * ty)) :=
  dor result <- match class_hints P (rev (de_mro (pr_decl P c))) [] with
                | Ok h => Ok (Some h)
                | Err e => if is_attributeerror (e_kind e) then Ok (Some [])
                           else if is_nameerror (e_kind e) then Ok None
                           else Err e
                end;
  if de_type (pr_decl P c)
  then dor from_init <- init_hints P c None;
       match result with
       | Some h => Ok (update h (sdel "return" from_init))
       | None => raise KUnbound
       end
  else match result with Some h => Ok h | None => raise KUnbound end.
(** _get_complete_class_dict, serializers/default_object.py:259-264 *)
Definition complete_dict (D : nat -> decl) (mro : list nat) : list (string * member) :=
  fold_left (fun d b => update d (de_dict (D b))) (rev mro) [].
(** inspect.signature(c.__init__).parameters with the hints of the constructor,
    deserializers/default_object.py:57-72 *)
Definition typed_param (hints : list (string * ty)) (p : fparam) : param :=
  mkParam (fp_name p) (sget (fp_name p) hints) (fp_default p) (fp_var p).
Definition signature_of (P : prog) (c : nat) : list fparam :=
  match find_init (pr_decl P) (de_mro (pr_decl P c)) with
  | Some fn => fn_params fn
  | None => object_params
  end.
(** What the engine needs to know about a class: [Err] if the annotations cannot be evaluated,
    in which case the hints that dump and load ask for raise. *)
Definition class_info (P : prog) (c : nat) : res cinfo :=
  let d := pr_decl P c in
  dor hi <- hints_of_init P c;
  dor hc <- hints_of_class P c;
  Ok (mkCinfo (de_module d) (de_name d) CkObj (map TClass (tl (de_mro d)))
              (map (typed_param hi) (signature_of P c)) hc (de_slots d)
              (complete_dict (pr_decl P) (de_mro d))
              (de_prop d) (de_call d) (de_set d) (de_attrs d) (de_hashable d)).
