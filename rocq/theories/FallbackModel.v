(** * json.dumps with the argument default

    dumps and dumpb pass [jdkwargs] on to json.dumps.  This is json.dumps of CPython 3.10 with the
    arguments of LayoutModel and the argument default, a function that is called with every object
    json cannot write.  The arguments cls and check_circular are not modelled. *)
From Verif Require Export LayoutModel.
Set Implicit Arguments.
Local Open Scope string_scope.

(** Elements one after another *)
Section Each.
Context {A B : Type}.
Variable g : A -> M B.
Fixpoint each (l : list A) : M (list B) :=
  match l with
  | [] => ret []
  | x :: r => dom y <- g x; dom ys <- each r; ret (y :: ys)
  end.
End Each.

Section Fallback.
Variable T : textrt.
Variable CT : classes.
Variable L : layout.
(** The function given as default.  It may return any value, raise, and have effects.
    Simplification: it does not see which object it is given but only its value. *)
Variable D : value -> M value.

Section Once.
(** What is written for a value that default has returned *)
Variable again : nat -> value -> M string.
(** json/encoder.py:332-411: the entries of a dict.  The key comes first: if it cannot be written,
    nothing is done with the value. *)
Fixpoint entries_by (d : list (value * M string)) : M (list string) :=
  match d with
  | [] => ret []
  | kx :: r =>
      dom k <- lift (key_text_with T CT L (fst kx));
      match k with
      | Some k =>
          dom t <- snd kx;
          dom ts <- entries_by r;
          ret ((string_text L k ++ key_separator L ++ t) :: ts)
      | None => entries_by r
      end
  end.
(** json/encoder.py:277-443 (_iterencode_list, _iterencode_dict, _iterencode); lines 437-441: an
    object that is no string, number, constant, list, tuple or dict is given to default, and what
    it returns is written at the same level. *)
Fixpoint text_by (lvl : nat) (v : value) : M string :=
  match v with
  | VList [] | VTuple [] | VNT _ [] => ret "[]"
  | VList l | VTuple l | VNT _ l =>
      dom ts <- each (text_by (S lvl)) l; ret (bracketed L lvl "[" "]" ts)
  | VDict _ [] => ret "{}"
  | VDict _ d =>
      dom items <- lift (items_of CT L (map (fun kx => (fst kx, text_by (S lvl) (snd kx))) d));
      dom ts <- entries_by items;
      ret (bracketed L lvl "{" "}" ts)
  | _ =>
      match scalar_of CT v with
      | Some _ => lift (scalar_text_with T CT L v)
      | None => dom w <- D v; again lvl w
      end
  end.
End Once.
(** [m] bounds the number of calls of default within each other.  [Oof] stands for a call
    that does not end: in Python a RecursionError, or a ValueError if default returns
    an object that is being written (json/encoder.py:434-436). *)
Fixpoint json_text_by (m : nat) : nat -> value -> M string :=
  match m with
  | O => fun _ _ => oof
  | S m => text_by (json_text_by m)
  end.
End Fallback.

(** dumps, _dump_impl.py:69-88 *)
Definition dumps_by (E : env) (T : textrt) (L : layout) (D : value -> M value) (m f n : nat) (o : sopts) (cls : option ty) (v : value) : M string :=
  dom j <- dump E f n o cls v; json_text_by T (e_ct E) L D m 0 j.
(** dumpb, _dump_impl.py:91-113 *)
Definition dumpb_by (E : env) (T : textrt) (L : layout) (D : value -> M value) (m f n : nat) (o : sopts) (encoding : string) (cls : option ty) (v : value) : M string :=
  dom s <- dumps_by E T L D m f n o cls v; lift (encode_text T encoding s).
(** json/encoder.py:160-179 (JSONEncoder.default): what is done without the argument *)
Definition no_default : value -> M value := fun _ => fail (exn_of KType).
