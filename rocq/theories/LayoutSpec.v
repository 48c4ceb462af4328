(** * Specification for the layout of JSON text (C66) *)
From Coq Require Export Permutation Sorted.
From Verif Require Export LayoutModel JsonTextSpec.
From Verif Require OrderSpec.
Local Open Scope string_scope.
Local Open Scope Z_scope.

(** ** Layouts that leave JSON: the separators are a comma and a colon with white space
    around them, the indentation is white space *)
Definition separates (c : Z) (s : string) : Prop :=
  exists w w', spaces w /\ spaces w' /\ codes s = (w ++ c :: w')%list.
Definition plain_layout (L : layout) : Prop :=
  match ly_separators L with
  | Some (a, b) => separates 44 a /\ separates 58 b
  | None => True
  end /\
  match ly_indent L with
  | Some (IndentWith s) => spaces (codes s)
  | Some (IndentBy _) | None => True
  end.

(** ** The order of strings: by code points, from the left *)
Definition before (a b : string) : Prop :=
  exists p, (exists d s, codes a = p /\ codes b = (p ++ d :: s)%list) \/
            (exists c r d s, codes a = (p ++ c :: r)%list /\ codes b = (p ++ d :: s)%list /\ c < d).

(** ** What is written of a value
    The entries of dicts in the order of keys if they are to be sorted (which is stated for
    keys that are strings), without those that are skipped *)
Definition text_key (CT : classes) (k : value) (s : string) : Prop := scalar_of CT k = Some (VStr s).
Definition is_scalar (CT : classes) (v : value) : bool :=
  match scalar_of CT v with Some _ => true | None => false end.
Definition ordered (CT : classes) (a b : value * value) : Prop :=
  forall x y, text_key CT (fst a) x -> text_key CT (fst b) y -> ~ before y x.
Inductive arranged (CT : classes) (L : layout) : value -> value -> Prop :=
| ar_other v : (forall l, v <> VList l) -> (forall l, v <> VTuple l) -> (forall c l, v <> VNT c l) ->
    (forall k d, v <> VDict k d) -> arranged CT L v v
| ar_list l l' : Forall2 (arranged CT L) l l' -> arranged CT L (VList l) (VList l')
| ar_tuple l l' : Forall2 (arranged CT L) l l' -> arranged CT L (VTuple l) (VTuple l')
| ar_namedtuple c l l' : Forall2 (arranged CT L) l l' -> arranged CT L (VNT c l) (VNT c l')
| ar_dict k d d1 d' :
    Permutation d d1 -> (ly_sort L = false -> d1 = d) ->
    (ly_sort L = true -> (forall kx, In kx d -> exists s, text_key CT (fst kx) s) -> StronglySorted (ordered CT) d1) ->
    Forall2 (fun a b => fst a = fst b /\ arranged CT L (snd a) (snd b))
      (filter (fun kx => is_scalar CT (fst kx)) d1) d' ->
    arranged CT L (VDict k d) (VDict k d').

(** ** What can be written *)
(** NaN and infinities may be forbidden. *)
Definition allowed (L : layout) (v : value) : Prop :=
  ly_nan L = false -> match v with VFloat FNan | VFloat (FInf _) => False | _ => True end.
Inductive writable_with (CT : classes) (L : layout) : value -> Prop :=
| ww_scalar v x : scalar_of CT v = Some x -> allowed L x -> writable_with CT L v
| ww_list l : (forall x, In x l -> writable_with CT L x) -> writable_with CT L (VList l)
| ww_tuple l : (forall x, In x l -> writable_with CT L x) -> writable_with CT L (VTuple l)
| ww_namedtuple c l : (forall x, In x l -> writable_with CT L x) -> writable_with CT L (VNT c l)
| ww_dict k d :
    (forall y x, In (y, x) d -> scalar_of CT y = None -> ly_skip L = true) ->
    (forall y x z, In (y, x) d -> scalar_of CT y = Some z -> allowed L z) ->
    (forall y x, In (y, x) d -> scalar_of CT y <> None -> writable_with CT L x) ->
    writable_with CT L (VDict k d).
(** All keys are strings. *)
Definition keys_are_text (CT : classes) (v : value) : Prop :=
  forall k d, part_of (VDict k d) v -> forall kx, In kx d -> exists s, text_key CT (fst kx) s.
(** No NaN and no infinity *)
Definition finite (v : value) : Prop :=
  forall x, part_of (VFloat x) v -> match x with FNan | FInf _ => False | _ => True end.

(** ** Documents with sorted keys *)
Definition by_name (a b : value * value) : Prop :=
  exists x y, fst a = VStr x /\ fst b = VStr y /\ before x y.
Definition keys_in_order (j : value) : Prop := forall k d, part_of (VDict k d) j -> StronglySorted by_name d.

(** ** Characters *)
Definition one_line (s : string) : Prop := Forall (fun c => 32 <= c) (codes s).
Definition separators_are (P : string -> Prop) (L : layout) : Prop :=
  match ly_separators L with Some (a, b) => P a /\ P b | None => True end.
(** Characters that need no escape: no control characters, no quote, no backslash; only ASCII
    unless [ascii] is false. *)
Definition needs_no_escape (ascii : bool) (s : string) : Prop :=
  Forall (fun c => 32 <= c /\ c <> 34 /\ c <> 92 /\ (ascii = true -> c <= 126)) (codes s).
