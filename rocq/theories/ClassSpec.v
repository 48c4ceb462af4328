(** * What the properties of class statements are stated with *)
From Verif Require Export ClassModel DumpSpec LoadSpec RoundTripSpec.
Local Open Scope string_scope.

(** ** What an annotation stands for *)
(** The alternatives of a type: those of a union, or the type itself *)
Definition alternatives (t : ty) : list ty := match t with TUnion us => us | _ => [t] end.
(** [us] are the first occurrences of the types of a list, in order, besides those of [seen]. *)
Inductive firsts : list ty -> list ty -> list ty -> Prop :=
| fi_nil seen : firsts seen [] []
| fi_again seen t l us : In t seen -> firsts seen l us -> firsts seen (t :: l) us
| fi_first seen t l us : ~ In t seen -> firsts (t :: seen) l us -> firsts seen (t :: l) (t :: us).
(** Union[l] *)
Inductive union_of (l : list ty) : ty -> Prop :=
| un_one t : firsts [] (concat (map alternatives l)) [t] -> union_of l t
| un_more us : firsts [] (concat (map alternatives l)) us -> length us <> 1 -> union_of l (TUnion us).
(** [t] with strings replaced by what they stand for is [u].  A string that is a direct
    argument of a builtin generic, as in list['A'], stays. *)
Inductive stands (ev : string -> ty -> Prop) : ty -> ty -> Prop :=
| st_name s t : ev s t -> stands ev (TFwd s) t
| st_generic h l l' : all_stand ev l l' -> stands ev (TApp true h l) (TApp true h l')
| st_builtin h l l' : args_stand ev l l' -> stands ev (TApp false h l) (TApp false h l')
| st_union l l' u : all_stand ev l l' -> union_of l' u -> stands ev (TUnion l) u
| st_other t : (forall s, t <> TFwd s) -> (forall b h l, t <> TApp b h l) -> (forall l, t <> TUnion l) -> stands ev t t
with all_stand (ev : string -> ty -> Prop) : list ty -> list ty -> Prop :=
| as_nil : all_stand ev [] []
| as_cons t u l l' : stands ev t u -> all_stand ev l l' -> all_stand ev (t :: l) (u :: l')
with args_stand (ev : string -> ty -> Prop) : list ty -> list ty -> Prop :=
| ar_nil : args_stand ev [] []
| ar_name s l l' : args_stand ev l l' -> args_stand ev (TFwd s :: l) (TFwd s :: l')
| ar_cons t u l l' : (forall s, t <> TFwd s) -> stands ev t u -> args_stand ev l l' -> args_stand ev (t :: l) (u :: l').
(** Identifiers (of ASCII characters): letters, digits and underscores, and no digit first *)
Definition name_starts : string := "ABCDEFGHIJKLMNOPQRSTUVWXYZabcdefghijklmnopqrstuvwxyz_".
Definition name_digits : string := "0123456789".
Definition among (s : string) (c : ascii) : Prop := In c (list_ascii_of_string s).
Inductive is_name : string -> Prop :=
| in_name c r : among name_starts c -> (forall c', among r c' -> among name_starts c' \/ among name_digits c') ->
    is_name (String c r).
(** A string: an identifier is looked up in these scopes in turn, everything else is evaluated
    as Python does, with the names as given by the scopes. *)
Inductive denotes_in (P : prog) (scopes : list scope) (s : string) : ty -> Prop :=
| de_identifier pre sc post t : is_name s -> scopes = (pre ++ sc :: post)%list ->
    (forall sc', In sc' pre -> sc' s = None) -> sc s = Some t -> denotes_in P scopes s t
| de_expression t : ~ is_name s -> pr_expr P (look scopes) s = Ok t -> denotes_in P scopes s t.
(** An annotation in these scopes *)
Inductive means (P : prog) (scopes : list scope) : annotation -> ty -> Prop :=
| me_none : means P scopes None TNoneT
| me_type t u : stands (denotes_in P scopes) t u -> means P scopes (Some t) u.
(** The scopes of an annotation in the body of class [b]: names of its module, then its own,
    then the builtins; of one in the signature of a function: those of its module and the
    builtins. *)
Definition body_scopes (P : prog) (b : nat) : list scope :=
  [pr_module P (de_module (pr_decl P b)); de_scope (pr_decl P b); pr_builtin P].
Definition signature_scopes (P : prog) (module : string) : list scope := [pr_module P module; pr_builtin P].

(** ** Along the MRO *)
(** The first class of the list that has it *)
Definition nearest {X} (has : nat -> option X) (mro : list nat) (b : nat) (x : X) : Prop :=
  exists pre post, mro = (pre ++ b :: post)%list /\ has b = Some x /\ forall b', In b' pre -> has b' = None.
(** The constructor of a class *)
Definition constructor (P : prog) (c : nat) (fn : func) : Prop :=
  exists b, nearest (fun b => de_init (pr_decl P b)) (de_mro (pr_decl P c)) b fn.
(** The type of a parameter: its annotation, or None if the default is None *)
Inductive param_type (P : prog) (module : string) (p : fparam) : ty -> Prop :=
| pt_plain a t : fp_ann p = Some a -> fp_default p <> Some VNone ->
    means P (signature_scopes P module) a t -> param_type P module p t
| pt_none a t u : fp_ann p = Some a -> fp_default p = Some VNone ->
    means P (signature_scopes P module) a t -> union_of [t; TNoneT] u -> param_type P module p u.
(** The annotation of an attribute in the bodies of a class and its bases: the nearest one,
    understood where it was written *)
Inductive body_type (P : prog) (c : nat) (a : string) : ty -> Prop :=
| bt_nearest b x t : nearest (fun b => sget a (de_ann (pr_decl P b))) (de_mro (pr_decl P c)) b x ->
    means P (body_scopes P b) x t -> body_type P c a t.
(** The type of an attribute: that of the constructor's parameter of this name, unless the
    class has a metaclass such as ABCMeta, and otherwise the annotation in the bodies *)
Inductive attribute_type (P : prog) (c : nat) (a : string) : ty -> Prop :=
| at_param fn p t : de_type (pr_decl P c) = true -> constructor P c fn -> In p (fn_params fn) -> fp_name p = a ->
    param_type P (fn_module fn) p t -> attribute_type P c a t
| at_body t : (de_type (pr_decl P c) = true -> forall fn p, constructor P c fn -> In p (fn_params fn) ->
                 fp_name p = a -> fp_ann p = None) ->
    body_type P c a t -> attribute_type P c a t.

(** ** Programs *)
(** Names are distinct where Python demands it, and no parameter is called return. *)
Record wellformed (P : prog) : Prop := {
  wf_ann : forall b, NoDup (map fst (de_ann (pr_decl P b)));
  wf_dict : forall b, NoDup (map fst (de_dict (pr_decl P b)));
  wf_init : forall b fn, de_init (pr_decl P b) = Some fn -> NoDup (map fp_name (fn_params fn)) /\ ~ In "return" (map fp_name (fn_params fn)) }.
(** All annotations in the bodies / in the signature of the constructor stand for something. *)
Definition body_understood (P : prog) (c : nat) : Prop :=
  forall b a x, In b (de_mro (pr_decl P c)) -> In (a, x) (de_ann (pr_decl P b)) -> exists t, means P (body_scopes P b) x t.
Definition signature_understood (P : prog) (module : string) (fn : func) : Prop :=
  (forall p x, In p (fn_params fn) -> fp_ann p = Some x -> exists t, means P (signature_scopes P module) x t) /\
  (forall x, fn_returns fn = Some x -> exists t, means P (signature_scopes P module) x t).
Definition understood (P : prog) (c : nat) : Prop :=
  body_understood P c /\ forall fn, constructor P c fn -> signature_understood P (fn_module fn) fn.
(** Strings that are no names either evaluate or raise a NameError, too. *)
Definition only_names (P : prog) : Prop := forall ns s e, pr_expr P ns s = Err e -> e_kind e = KName.

(** ** What the engine gets to know *)
(** The parameters of a function with their types, names being understood in a module *)
Definition typed_as (P : prog) (module : string) (p : fparam) (q : param) : Prop :=
  pa_name q = fp_name p /\ pa_default q = fp_default p /\ pa_var q = fp_var p /\
  forall t, pa_hint q = Some t <-> param_type P module p t.
(** A class that writes its constructor's parameters into the attributes of their names: all
    parameters are annotated; besides methods, inner classes and properties that are not dumped,
    the class and its bases have values for parameters only, which must not be stripped. *)
Record stores_parameters (P : prog) (o : sopts) (c : nat) (fn : func) : Prop := {
  sp_constructor : constructor P c fn;
  sp_type : de_type (pr_decl P c) = true;
  sp_attrs : de_attrs (pr_decl P c) = false;
  sp_annotated : forall p, In p (fn_params fn) -> fp_ann p <> None /\ fp_var p = false;
  sp_call : forall args, map fst args = map fp_name (fn_params fn) -> de_call (pr_decl P c) args = Ok args;
  sp_methods : forall b a m, In b (de_mro (pr_decl P c)) -> In (a, m) (de_dict (pr_decl P b)) ->
    ~ In a (map fp_name (fn_params fn)) ->
    m = MCallable \/ m = MClass (Some true) \/ (m = MProp /\ so_properties o = true);
  sp_defaults : forall b p m, In b (de_mro (pr_decl P c)) -> In p (fn_params fn) ->
    In (fp_name p, m) (de_dict (pr_decl P b)) -> (exists x, m = MVar x) /\ so_class_vars o = false;
  sp_names : forall p, In p (fn_params fn) ->
    prefix "__" (fp_name p) = false /\ prefix "-" (fp_name p) = false /\
    (so_privates o = true -> prefix "_" (fp_name p) = false) /\
    ~ In (fp_name p) abc_names /\ ~ In (fp_name p) json_serializable_names }.

(** ** Classes that add nothing, and annotations written in another way *)
(** [s] is a subclass of [b] with an empty body. *)
Record bare_subclass (P : prog) (s b : nat) : Prop := {
  ba_mro : de_mro (pr_decl P s) = s :: de_mro (pr_decl P b);
  ba_type : de_type (pr_decl P s) = de_type (pr_decl P b);
  ba_ann : de_ann (pr_decl P s) = [];
  ba_init : de_init (pr_decl P s) = None;
  ba_dict : de_dict (pr_decl P s) = [] }.
(** Two annotations that stand for the same *)
Definition same_meaning (P P' : prog) (scopes scopes' : list scope) (x x' : annotation) : Prop :=
  forall t, means P scopes x t <-> means P' scopes' x' t.
Definition respelled_param (P P' : prog) (module : string) (p p' : fparam) : Prop :=
  fp_name p = fp_name p' /\ fp_default p = fp_default p' /\ fp_var p = fp_var p' /\
  match fp_ann p, fp_ann p' with
  | None, None => True
  | Some x, Some x' => same_meaning P P' (signature_scopes P module) (signature_scopes P' module) x x'
  | _, _ => False
  end.
Definition respelled_func (P P' : prog) (fn fn' : func) : Prop :=
  fn_module fn = fn_module fn' /\ Forall2 (respelled_param P P' (fn_module fn)) (fn_params fn) (fn_params fn') /\
  match fn_returns fn, fn_returns fn' with
  | None, None => True
  | Some x, Some x' => same_meaning P P' (signature_scopes P (fn_module fn)) (signature_scopes P' (fn_module fn)) x x'
  | _, _ => False
  end.
(** The same program, but for the spelling of annotations *)
Record respelled (P P' : prog) : Prop := {
  re_same : forall b, let d := pr_decl P b in let d' := pr_decl P' b in
    de_module d = de_module d' /\ de_name d = de_name d' /\ de_mro d = de_mro d' /\ de_type d = de_type d' /\
    de_slots d = de_slots d' /\ de_dict d = de_dict d' /\ de_prop d = de_prop d' /\ de_call d = de_call d' /\
    de_set d = de_set d' /\ de_attrs d = de_attrs d' /\ de_hashable d = de_hashable d';
  re_ann : forall b, Forall2 (fun ax ax' => fst ax = fst ax' /\
      same_meaning P P' (body_scopes P b) (body_scopes P' b) (snd ax) (snd ax')) (de_ann (pr_decl P b)) (de_ann (pr_decl P' b));
  re_init : forall b, match de_init (pr_decl P b), de_init (pr_decl P' b) with
    | None, None => True
    | Some fn, Some fn' => respelled_func P P' fn fn'
    | _, _ => False
    end }.
