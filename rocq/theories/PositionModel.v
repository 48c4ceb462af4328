(** * Where json.loads finds a text to be no JSON

    The JSONDecodeError of json.loads has a position, a line and a column, and loads passes them on in its
    DecodeError.  This is json.loads of CPython 3.10 (the scanner in C, Modules/_json.c, whose
    positions are those of json/decoder.py but for \u escapes at the end of the text). *)
From Verif Require Export JsonTextModel.
Set Implicit Arguments.
Local Open Scope string_scope.

(** A parser returns a result and the rest of the text, or what follows the position of the
    error.  [QOof]: the bound on the depth or length was too small. *)
Inductive qres (A : Type) : Type :=
| QOk (a : A) (rest : text)
| QBad (at_ : text)
| QOof.
Arguments QOk {A} a rest.
Arguments QBad {A} at_.
Arguments QOof {A}.
Definition qbind {A B} (p : qres A) (f : A -> text -> qres B) : qres B :=
  match p with QOk a r => f a r | QBad x => QBad x | QOof => QOof end.

(** _json.c:scanstring_unicode (json/decoder.py:69-127): [UOpen], the string has no end, which is reported at its
    beginning; [UAt], control characters and escapes are reported where they are. *)
Inductive ures : Type :=
| UOk (us : list Z) (rest : text)
| UOpen
| UAt (at_ : text).
Definition more_at (u : Z) (r : ures) : ures :=
  match r with UOk us r' => UOk (u :: us) r' | UOpen => UOpen | UAt x => UAt x end.
Fixpoint units_at (s : text) : ures :=
  match s with
  | [] => UOpen
  | c :: r =>
      if (c =? 34)%Z then UOk [] r
      else if (c =? 92)%Z then
        match r with
        | [] => UOpen
        | e :: r1 =>
            if (e =? 117)%Z then
              match r1 with
              | h1 :: h2 :: h3 :: h4 :: r2 =>
                  match r2 with
                  | [] => UAt r
                  | _ :: _ =>
                      match hex4 h1 h2 h3 h4 with
                      | Some u => more_at u (units_at r2)
                      | None => UAt r
                      end
                  end
              | _ => UAt r
              end
            else match unescape e with
                 | Some u => more_at u (units_at r1)
                 | None => UAt s
                 end
        end
      else if (c <=? 31)%Z then UAt s
      else more_at c (units_at r)
  end.
Section Scan.
Variable T : textrt.
Variable scan : text -> qres value.
(** _json.c:_parse_array_unicode (json/decoder.py:217-254, JSONArray) *)
Fixpoint elements_at (k : nat) (s : text) : qres (list value) :=
  match k with
  | O => QOof
  | S k =>
      qbind (scan s) (fun v r =>
        match skip r with
        | c :: r' =>
            if (c =? 93)%Z then QOk [v] r'
            else if (c =? 44)%Z
                 then qbind (elements_at k (skip r')) (fun vs r'' => QOk (v :: vs) r'')
                 else QBad (skip r)
        | [] => QBad []
        end)
  end.
(** _json.c:_parse_object_unicode (json/decoder.py:137-215, JSONObject) *)
Fixpoint members_at (k : nat) (s : text) : qres (list (string * value)) :=
  match k with
  | O => QOof
  | S k =>
      match s with
      | c :: r =>
          if (c =? 34)%Z then
            match units_at r with
            | UOpen => QBad s
            | UAt x => QBad x
            | UOk us r1 =>
                match skip r1 with
                | c2 :: r2 =>
                    if (c2 =? 58)%Z then
                      qbind (scan (skip r2)) (fun v r3 =>
                        match skip r3 with
                        | c4 :: r4 =>
                            if (c4 =? 125)%Z then QOk [(string_of T (join us), v)] r4
                            else if (c4 =? 44)%Z
                                 then qbind (members_at k (skip r4)) (fun kvs r5 =>
                                        QOk ((string_of T (join us), v) :: kvs) r5)
                                 else QBad (skip r3)
                        | [] => QBad []
                        end)
                    else QBad (skip r1)
                | [] => QBad []
                end
            end
          else QBad s
      | [] => QBad []
      end
  end.
End Scan.
(** _json.c:scan_once_unicode (json/scanner.py:30-66): what is no value at all is reported where
    it begins. *)
Fixpoint scan_at (T : textrt) (n : nat) (s : text) : qres value :=
  match n with
  | O => QOof
  | S n =>
      match s with
      | [] => QBad []
      | c :: r =>
          if (c =? 34)%Z then
            match units_at r with
            | UOk us r' => QOk (VStr (string_of T (join us))) r'
            | UOpen => QBad s
            | UAt x => QBad x
            end
          else if (c =? 123)%Z then
            match strip [125%Z] (skip r) with
            | Some r' => QOk (VDict DkDict []) r'
            | None => qbind (members_at T (scan_at T n) (S (length r)) (skip r)) (fun kvs r' =>
                        QOk (VDict DkDict (dict_of kvs)) r')
            end
          else if (c =? 91)%Z then
            match strip [93%Z] (skip r) with
            | Some r' => QOk (VList []) r'
            | None => qbind (elements_at (scan_at T n) (S (length r)) (skip r)) (fun vs r' => QOk (VList vs) r')
            end
          else
            match strip (codes "null") s, strip (codes "true") s, strip (codes "false") s,
                  strip (codes "NaN") s, strip (codes "Infinity") s, strip (codes "-Infinity") s with
            | Some r', _, _, _, _, _ => QOk VNone r'
            | _, Some r', _, _, _, _ => QOk (VBool true) r'
            | _, _, Some r', _, _, _ => QOk (VBool false) r'
            | _, _, _, Some r', _, _ => QOk (VFloat FNan) r'
            | _, _, _, _, Some r', _ => QOk (VFloat (FInf false)) r'
            | _, _, _, _, _, Some r' => QOk (VFloat (FInf true)) r'
            | _, _, _, _, _, _ =>
                match number T s with
                | POk v r' => QOk v r'
                | PBad | POof => QBad s
                end
            end
      end
  end.
(** json/decoder.py:332-356 (decode): the text from the position of the error on *)
Definition json_fault (T : textrt) (s : text) : option text :=
  match scan_at T (S (length s)) (skip s) with
  | QOk v r => match skip r with [] => None | _ :: _ => Some (skip r) end
  | QBad x => Some x
  | QOof => None
  end.

(** json/decoder.py:20-45 (JSONDecodeError.__init__): the line and the column, from [count] and
    [rfind] of the line feeds before the position *)
Fixpoint line_feeds (s : text) : nat :=
  match s with [] => 0 | c :: r => (if (c =? 10)%Z then 1 else 0) + line_feeds r end.
Fixpoint last_line (s : text) : text :=
  match s with
  | [] => []
  | c :: r => if Nat.eqb (line_feeds s) 0 then s else last_line r
  end.
(** DecodeError, exceptions.py:96-114: source and target are those given to loads; doc and pos are those of
    the JSONDecodeError, from which JSONDecodeError.__init__ computes lineno and colno again. *)
Inductive source : Type :=
| FromText (s : text)
| FromBytes (b : string).
Record decode_error : Type := mkDecodeError {
  de_source : source;
  de_target : option ty;
  de_doc : text;
  de_pos : nat;
  de_lineno : nat;
  de_colno : nat }.
Definition error_at (src : source) (target : option ty) (doc rest : text) : decode_error :=
  let pos := (length doc - length rest)%nat in
  let before := firstn pos doc in
  mkDecodeError src target doc pos (S (line_feeds before)) (S (length (last_line before))).
(** loads, _load_impl.py:148-153: the DecodeError, if there is one.  Bytes are decoded by json.loads. *)
Definition loads_error (T : textrt) (cls : option ty) (x : pyobj) : option decode_error :=
  match x with
  | OVal (VStr s) => option_map (error_at (FromText (codes s)) cls (codes s)) (json_fault T (codes s))
  | OBytes b =>
      match tr_detect T b with
      | Ok s => option_map (error_at (FromBytes b) cls s) (json_fault T s)
      | Err _ => None
      end
  | OVal _ => None
  end.
(** loadb, _load_impl.py:180-185: loads of the decoded text *)
Definition loadb_error (T : textrt) (encoding : string) (cls : option ty) (x : pyobj) : option decode_error :=
  match x with
  | OVal _ => None
  | OBytes b =>
      match decode_bytes T encoding b with
      | Ok s => option_map (error_at (FromText s) cls s) (json_fault T s)
      | Err _ => None
      end
  end.
