(** * Registration and lookup of (de)serializers and validators for one fork

    jsons/_lizers_impl.py and _validation.py, over abstract classes and functions:
    used by the registry model (histories of calls) and by the engine model. *)
From Verif Require Export PyBase.
Set Implicit Arguments.
Local Open Scope string_scope.

(** The class objects [C] and the registered functions [F] are abstract here. *)
Record gworld (C : Type) : Type := mkWorld {
  w_name : C -> string;          (* get_class_name(cls, fully_qualified=True) *)
  w_sub : C -> C -> bool;        (* issubclass(get_naked_class(a), b); False when it raises *)
  w_super : C -> option C }.     (* __supertype__ of a NewType *)

(** The [cls] argument of set_serializer and friends: a class, None, or a sequence. *)
Inductive gclsarg (C : Type) : Type :=
| ACls (c : C)
| ANone
| ASeq (l : list (gclsarg C)).
Arguments ACls {C} c.
Arguments ANone {C}.
Arguments ASeq {C} l.

(** A pair such as (_classes_serializers, _serializers), _common_impl.py:28-33. *)
Record gtable (C F : Type) : Type := mkTable { t_classes : list (option C); t_map : list (string * F) }.

(** list.insert(0, x) / list.insert(len, x) *)
Definition insert_at {X} (i : nat) (x : X) (l : list X) : list X := firstn i l ++ x :: skipn i l.

Section Lookup.
Variables C F : Type.

Definition lname (W : gworld C) (c : C) : string := slower (w_name W c).

(** set_serializer on one class, _lizers_impl.py:40-46 (set_deserializer: 76-82). *)
Definition set_one (W : gworld C) (f : F) (high_prio : bool) (a : option C) (t : gtable C F) : gtable C F :=
  match a with
  | Some c =>
      let index := if high_prio then 0 else length (t_classes t) in
      mkTable (insert_at index (Some c) (t_classes t)) (sset (lname W c) f (t_map t))
  | None => mkTable (t_classes t) (sset "nonetype" f (t_map t))
  end.

(** set_validator on one class, _validation.py:33-35. *)
Definition set_val_one (W : gworld C) (f : F) (a : option C) (t : gtable C F) : gtable C F :=
  let name := match a with Some c => lname W c | None => "nonetype" end in
  mkTable (t_classes t ++ [a]) (sset name f (t_map t)).

(** Sequences are registered element by element, _lizers_impl.py:37-39, 73-75,
    _validation.py:29-31. *)
Section Each.
  Variable one : option C -> gtable C F -> gtable C F.
  Fixpoint set_each (a : gclsarg C) (t : gtable C F) : gtable C F :=
    match a with
    | ACls c => one (Some c) t
    | ANone => one None t
    | ASeq l => (fix go (l : list (gclsarg C)) (t : gtable C F) : gtable C F :=
                   match l with
                   | [] => t
                   | x :: r => go r (set_each x t)
                   end) l t
    end.
End Each.

(** _get_parents, _lizers_impl.py:143-159. *)
Definition get_parents (W : gworld C) (c : C) (classes : list (option C)) : list (option C) :=
  filter (fun o => match o with Some c' => w_sub W c c' | None => false end) classes.

(** _get_lizer_by_parents, _lizers_impl.py:130-140; [lizers[pname]] may raise KeyError. *)
Definition get_lizer_by_parents (W : gworld C) (c : C) (t : gtable C F) : res (option F) :=
  match get_parents W c (t_classes t) with
  | Some p :: _ => match sget (lname W p) (t_map t) with
                   | Some f => Ok (Some f)
                   | None => raise KKey
                   end
  | _ => Ok None
  end.

(** _get_lizer, _lizers_impl.py:115-127, without and with the NewType step. *)
Definition get_lizer_flat (W : gworld C) (c : C) (t : gtable C F) : res (option F) :=
  match sget (lname W c) (t_map t) with
  | Some f => Ok (Some f)
  | None => get_lizer_by_parents W c t
  end.
Definition get_lizer (W : gworld C) (c : C) (t : gtable C F) : res (option F) :=
  dor r <- get_lizer_flat W c t;
  match r with
  | Some f => Ok (Some f)
  | None => match w_super W c with
            | Some s => get_lizer_flat W s t
            | None => Ok None
            end
  end.
End Lookup.

