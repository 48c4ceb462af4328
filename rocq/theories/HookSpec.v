(** * Specification for C83: JSON texts as trees, and what hooks make of them *)
From Verif Require Export HookModel JsonTextSpec.
Local Open Scope string_scope.
Local Open Scope Z_scope.

(** ** What a JSON text says, before anything is made of it *)
Inductive tree : Type :=
| JNull
| JBool (b : bool)
| JConstant (s : string)                       (* NaN, Infinity, -Infinity *)
| JInt (literal : text)
| JFloat (literal : text)
| JString (s : string)
| JList (l : list tree)
| JDict (kvs : list (string * tree)).          (* all pairs, also those with the same name *)

(** The grammar: the one of JsonTextSpec.v, with trees for values *)
Inductive tree_text (T : textrt) : text -> tree -> Prop :=
| tt_null : tree_text T (codes "null") JNull
| tt_true : tree_text T (codes "true") (JBool true)
| tt_false : tree_text T (codes "false") (JBool false)
| tt_nan : tree_text T (codes "NaN") (JConstant "NaN")
| tt_inf : tree_text T (codes "Infinity") (JConstant "Infinity")
| tt_minus_inf : tree_text T (codes "-Infinity") (JConstant "-Infinity")
| tt_int neg t : natural t -> tree_text T (sign neg ++ t)%list (JInt (sign neg ++ t)%list)
| tt_float neg t f e :
    natural t -> f = [] \/ fraction f -> e = [] \/ exponent e -> f <> [] \/ e <> [] ->
    tree_text T (sign neg ++ t ++ f ++ e)%list (JFloat (sign neg ++ t ++ f ++ e)%list)
| tt_string t s : json_string T t s -> tree_text T t (JString s)
| tt_empty_list w : spaces w -> tree_text T (codes "[" ++ w ++ codes "]")%list (JList [])
| tt_list t l : tree_elements T t l -> tree_text T (codes "[" ++ t ++ codes "]")%list (JList l)
| tt_empty_dict w : spaces w -> tree_text T (codes "{" ++ w ++ codes "}")%list (JDict [])
| tt_dict t kvs : tree_members T t kvs -> tree_text T (codes "{" ++ t ++ codes "}")%list (JDict kvs)
with tree_elements (T : textrt) : text -> list tree -> Prop :=
| te_last w t w' v : spaces w -> tree_text T t v -> spaces w' -> tree_elements T (w ++ t ++ w')%list [v]
| te_more w t w' v ts vs : spaces w -> tree_text T t v -> spaces w' -> tree_elements T ts vs ->
    tree_elements T (w ++ t ++ w' ++ codes "," ++ ts)%list (v :: vs)
with tree_members (T : textrt) : text -> list (string * tree) -> Prop :=
| tm_last w tk k w1 w2 t v w' :
    spaces w -> json_string T tk k -> spaces w1 -> spaces w2 -> tree_text T t v -> spaces w' ->
    tree_members T (w ++ tk ++ w1 ++ codes ":" ++ w2 ++ t ++ w')%list [(k, v)]
| tm_more w tk k w1 w2 t v w' ts kvs :
    spaces w -> json_string T tk k -> spaces w1 -> spaces w2 -> tree_text T t v -> spaces w' ->
    tree_members T ts kvs ->
    tree_members T (w ++ tk ++ w1 ++ codes ":" ++ w2 ++ t ++ w' ++ codes "," ++ ts)%list ((k, v) :: kvs).
Definition tree_document (T : textrt) (s : text) (v : tree) : Prop :=
  exists w t w', spaces w /\ spaces w' /\ s = (w ++ t ++ w')%list /\ tree_text T t v.

(** ** What the hooks make of it: parts first, from left to right; the first exception ends it *)
Definition all_of {X A} (g : X -> res A) : list X -> res (list A) :=
  fix go (l : list X) : res (list A) :=
    match l with
    | [] => Ok []
    | x :: r => match g x with
                | Err e => Err e
                | Ok a => match go r with Err e => Err e | Ok r' => Ok (a :: r') end
                end
    end.
Definition given {X A} (h : option (X -> res A)) (default : X -> A) (x : X) : res A :=
  match h with Some g => g x | None => Ok (default x) end.
(** The value of an integer literal *)
Definition integer (t : text) : Z := match t with 45 :: ds => - decimal ds | _ => decimal t end.
Fixpoint made (T : textrt) (H : hooks) (t : tree) : res value :=
  match t with
  | JNull => Ok VNone
  | JBool b => Ok (VBool b)
  | JString s => Ok (VStr s)
  | JInt l => given (hk_int H) (fun l => VInt (integer l)) l
  | JFloat l => given (hk_float H) (fun l => VFloat (tr_read T l)) l
  | JConstant s => given (hk_constant H) constant s
  | JList l => match all_of (made T H) l with Ok vs => Ok (VList vs) | Err e => Err e end
  | JDict kvs =>
      match all_of (fun kx => match made T H (snd kx) with Ok v => Ok (fst kx, v) | Err e => Err e end) kvs with
      | Err e => Err e
      | Ok d => match hk_pairs H with
                | Some g => g d
                | None => given (hk_object H) (fun d => d) (VDict DkDict (dict_of d))
                end
      end
  end.
(** [e] is an exception of one of the hooks. *)
Definition hook_raises (H : hooks) (e : exn) : Prop :=
  (exists g t, hk_int H = Some g /\ g t = Err e) \/ (exists g t, hk_float H = Some g /\ g t = Err e) \/
  (exists g s, hk_constant H = Some g /\ g s = Err e) \/ (exists g d, hk_object H = Some g /\ g d = Err e) \/
  (exists g d, hk_pairs H = Some g /\ g d = Err e).
(** Hooks that do what json.loads does without them *)
Definition neutral (T : textrt) (H : hooks) : Prop :=
  (forall g t, hk_int H = Some g -> g t = Ok (VInt (int_literal t))) /\
  (forall g t, hk_float H = Some g -> g t = Ok (VFloat (tr_read T t))) /\
  (forall g s, hk_constant H = Some g -> g s = Ok (constant s)) /\
  (forall g d, hk_object H = Some g -> g d = Ok d) /\
  (forall g d, hk_pairs H = Some g -> g d = Ok (VDict DkDict (dict_of d))).
