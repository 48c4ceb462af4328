(** * Keyword arguments of json.loads

    loads and loadb pass [jdkwargs] on to json.loads.  This is json.loads of CPython 3.10 with the
    arguments parse_int, parse_float, parse_constant, object_hook and object_pairs_hook.  The
    argument cls is not modelled; for strict=False see LenientModel. *)
From Verif Require Export JsonTextModel.
Set Implicit Arguments.
Local Open Scope string_scope.

(** json/__init__.py:299-359: None if the argument is not given.  The functions for numbers are
    given the literal.  They may return any value or raise; [hk_decode_error] tells which
    exceptions are JSONDecodeErrors.  Simplification: they have no side effects and do not raise
    StopIteration, which json/decoder.py:353-356 takes for a syntax error. *)
Record hooks : Type := mkHooks {
  hk_int : option (text -> res value);
  hk_float : option (text -> res value);
  hk_constant : option (string -> res value);
  hk_object : option (value -> res value);
  hk_pairs : option (list (string * value) -> res value);
  hk_decode_error : exn -> bool }.

(** A parser returns a result and the rest of the text, finds that the text is no JSON, or ends
    with an exception of a hook.  [HOof]: the bound on the depth or length was too small. *)
Inductive hpres (A : Type) : Type :=
| HOk (a : A) (rest : text)
| HBad
| HRaise (e : exn)
| HOof.
Arguments HOk {A} a rest.
Arguments HBad {A}.
Arguments HRaise {A} e.
Arguments HOof {A}.
Definition hbind {A B} (p : hpres A) (f : A -> text -> hpres B) : hpres B :=
  match p with HOk a r => f a r | HBad => HBad | HRaise e => HRaise e | HOof => HOof end.
Definition hlift {A} (r : res A) (rest : text) : hpres A :=
  match r with Ok a => HOk a rest | Err e => HRaise e end.

(** What the scanner makes of the parts of a text: json/scanner.py:11-24 and the arguments of
    json/decoder.py:137 (JSONObject) and :217 (JSONArray) *)
Record builder (A : Type) : Type := mkBuilder {
  bd_null : A;
  bd_bool : bool -> A;
  bd_string : string -> A;
  bd_int : text -> res A;
  bd_float : text -> res A;
  bd_constant : string -> res A;
  bd_list : list A -> A;
  bd_dict : list (string * A) -> res A }.

(** json/decoder.py:284-331 (JSONDecoder.__init__): the defaults are int, float and
    _CONSTANTS.__getitem__; json/decoder.py:147-160 and 206-215: object_pairs_hook goes before
    object_hook. *)
Definition int_literal (t : text) : Z :=
  let (neg, ds) := minus t in if neg then (- digits_value ds)%Z else digits_value ds.
Definition constant (s : string) : value :=
  VFloat (if String.eqb s "NaN" then FNan else FInf (String.eqb s "-Infinity")).
Definition python_builder (T : textrt) (H : hooks) : builder value :=
  mkBuilder VNone VBool VStr
    (match hk_int H with Some g => g | None => fun t => Ok (VInt (int_literal t)) end)
    (match hk_float H with Some g => g | None => fun t => Ok (VFloat (tr_read T t)) end)
    (match hk_constant H with Some g => g | None => fun s => Ok (constant s) end)
    VList
    (fun kvs => match hk_pairs H with
                | Some g => g kvs
                | None => let d := VDict DkDict (dict_of kvs) in
                          match hk_object H with Some g => g d | None => Ok d end
                end).

Section Build.
Variable A : Type.
Variable T : textrt.
Variable B : builder A.
(** json/scanner.py:50-57 *)
Definition number_with (s : text) : hpres A :=
  let (neg, r) := minus s in
  match natural_part r with
  | None => HBad
  | Some (ds, r1) =>
      let (fr, r2) := fraction_part r1 in
      let (ex, r3) := exponent_part r2 in
      let literal := ((if neg then [45%Z] else []) ++ ds ++ fr ++ ex)%list in
      match fr, ex with
      | [], [] => hlift (bd_int B literal) r3
      | _, _ => hlift (bd_float B literal) r3
      end
  end.
Section Scan.
Variable scan : text -> hpres A.
(** json/decoder.py:217-254 (JSONArray) *)
Fixpoint elements_with (k : nat) (s : text) : hpres (list A) :=
  match k with
  | O => HOof
  | S k =>
      hbind (scan s) (fun v r =>
        match skip r with
        | c :: r' =>
            if (c =? 93)%Z then HOk [v] r'
            else if (c =? 44)%Z
                 then hbind (elements_with k (skip r')) (fun vs r'' => HOk (v :: vs) r'')
                 else HBad
        | [] => HBad
        end)
  end.
(** json/decoder.py:161-205 (JSONObject) *)
Fixpoint members_with (k : nat) (s : text) : hpres (list (string * A)) :=
  match k with
  | O => HOof
  | S k =>
      match s with
      | c :: r =>
          if (c =? 34)%Z then
            match units r with
            | None => HBad
            | Some (us, r1) =>
                match skip r1 with
                | c2 :: r2 =>
                    if (c2 =? 58)%Z then
                      hbind (scan (skip r2)) (fun v r3 =>
                        match skip r3 with
                        | c4 :: r4 =>
                            if (c4 =? 125)%Z then HOk [(string_of T (join us), v)] r4
                            else if (c4 =? 44)%Z
                                 then hbind (members_with k (skip r4)) (fun kvs r5 =>
                                        HOk ((string_of T (join us), v) :: kvs) r5)
                                 else HBad
                        | [] => HBad
                        end)
                    else HBad
                | [] => HBad
                end
            end
          else HBad
      | [] => HBad
      end
  end.
End Scan.
(** json/scanner.py:30-66 (_scan_once); [n] bounds the depth of nesting. *)
Fixpoint scan_with (n : nat) (s : text) : hpres A :=
  match n with
  | O => HOof
  | S n =>
      match s with
      | [] => HBad
      | c :: r =>
          if (c =? 34)%Z then
            match units r with
            | Some (us, r') => HOk (bd_string B (string_of T (join us))) r'
            | None => HBad
            end
          else if (c =? 123)%Z then
            match strip [125%Z] (skip r) with
            | Some r' => hlift (bd_dict B []) r'
            | None => hbind (members_with (scan_with n) (S (length r)) (skip r)) (fun kvs r' => hlift (bd_dict B kvs) r')
            end
          else if (c =? 91)%Z then
            match strip [93%Z] (skip r) with
            | Some r' => HOk (bd_list B []) r'
            | None => hbind (elements_with (scan_with n) (S (length r)) (skip r)) (fun vs r' => HOk (bd_list B vs) r')
            end
          else
            match strip (codes "null") s, strip (codes "true") s, strip (codes "false") s,
                  strip (codes "NaN") s, strip (codes "Infinity") s, strip (codes "-Infinity") s with
            | Some r', _, _, _, _, _ => HOk (bd_null B) r'
            | _, Some r', _, _, _, _ => HOk (bd_bool B true) r'
            | _, _, Some r', _, _, _ => HOk (bd_bool B false) r'
            | _, _, _, Some r', _, _ => hlift (bd_constant B "NaN") r'
            | _, _, _, _, Some r', _ => hlift (bd_constant B "Infinity") r'
            | _, _, _, _, _, Some r' => hlift (bd_constant B "-Infinity") r'
            | _, _, _, _, _, _ => number_with s
            end
      end
  end.
(** json/decoder.py:332-356 (decode).  [HOof] does not occur: a text is nested less deeply than
    it is long. *)
Definition json_loads_with (s : text) : hpres A :=
  hbind (scan_with (S (length s)) (skip s)) (fun v r => match skip r with [] => HOk v [] | _ :: _ => HBad end).
End Build.

(** loads, _load_impl.py:128-155: only JSONDecodeErrors are caught. *)
Definition loads_text_with (E : env) (T : textrt) (H : hooks) (n f : nat) (o : lopts) (cls : option ty) (s : text) : M value :=
  match json_loads_with T (python_builder T H) s with
  | HOk j _ => load E n f o cls j
  | HBad | HOof => fail (exn_of KDecode)
  | HRaise e => if hk_decode_error H e then fail (exn_of KDecode) else fail e
  end.
Definition loads_with (E : env) (T : textrt) (H : hooks) (n f : nat) (o : lopts) (cls : option ty) (x : pyobj) : M value :=
  match x with
  | OVal (VStr s) => loads_text_with E T H n f o cls (codes s)
  | OBytes b => dom s <- lift (tr_detect T b); loads_text_with E T H n f o cls s
  | OVal _ => fail (exn_of KType)
  end.
(** loadb, _load_impl.py:158-185 *)
Definition loadb_with (E : env) (T : textrt) (H : hooks) (n f : nat) (o : lopts) (encoding : string) (cls : option ty) (x : pyobj) : M value :=
  match x with
  | OVal _ => fail (exn_of KDeser)
  | OBytes b => dom s <- lift (decode_bytes T encoding b); loads_text_with E T H n f o cls s
  end.
Definition no_hooks : hooks := mkHooks None None None None None (fun _ => false).
