(** * json.loads with strict=False

    loads and loadb pass [jdkwargs] on to json.loads.  This is json.loads of CPython 3.10 with
    strict=False: control characters are allowed in strings.  Everything else is that of JsonTextModel. *)
From Verif Require Export JsonTextModel.
Set Implicit Arguments.
Local Open Scope string_scope.

(** json/decoder.py:57-125 (py_scanstring), with strict=False: lines 88-94 add a control character to the string.
    A negative number is no character. *)
Fixpoint lenient_units (s : text) : option (list Z * text) :=
  match s with
  | [] => None
  | c :: r =>
      if (c =? 34)%Z then Some ([], r)
      else if (c =? 92)%Z then
        match r with
        | [] => None
        | e :: r1 =>
            if (e =? 117)%Z then
              match r1 with
              | h1 :: h2 :: h3 :: h4 :: r2 =>
                  match hex4 h1 h2 h3 h4 with
                  | Some u => more_units u (lenient_units r2)
                  | None => None
                  end
              | _ => None
              end
            else match unescape e with
                 | Some u => more_units u (lenient_units r1)
                 | None => None
                 end
        end
      else if (c <? 0)%Z then None
      else more_units c (lenient_units r)
  end.
Section Scan.
Variable T : textrt.
Variable scan : text -> pres value.
(** json/decoder.py:137-215 (JSONObject); strict is passed on to the scanner of strings. *)
Fixpoint lenient_members (k : nat) (s : text) : pres (list (string * value)) :=
  match k with
  | O => POof
  | S k =>
      match s with
      | c :: r =>
          if (c =? 34)%Z then
            match lenient_units r with
            | None => PBad
            | Some (us, r1) =>
                match skip r1 with
                | c2 :: r2 =>
                    if (c2 =? 58)%Z then
                      pbind (scan (skip r2)) (fun v r3 =>
                        match skip r3 with
                        | c4 :: r4 =>
                            if (c4 =? 125)%Z then POk [(string_of T (join us), v)] r4
                            else if (c4 =? 44)%Z
                                 then pbind (lenient_members k (skip r4)) (fun kvs r5 =>
                                        POk ((string_of T (join us), v) :: kvs) r5)
                                 else PBad
                        | [] => PBad
                        end)
                    else PBad
                | [] => PBad
                end
            end
          else PBad
      | [] => PBad
      end
  end.
End Scan.
(** json/scanner.py:30-66 (_scan_once); [n] bounds the depth of nesting. *)
Fixpoint lenient_scan (T : textrt) (n : nat) (s : text) : pres value :=
  match n with
  | O => POof
  | S n =>
      match s with
      | [] => PBad
      | c :: r =>
          if (c =? 34)%Z then
            match lenient_units r with
            | Some (us, r') => POk (VStr (string_of T (join us))) r'
            | None => PBad
            end
          else if (c =? 123)%Z then
            match strip [125%Z] (skip r) with
            | Some r' => POk (VDict DkDict []) r'
            | None => pbind (lenient_members T (lenient_scan T n) (S (length r)) (skip r)) (fun kvs r' =>
                        POk (VDict DkDict (dict_of kvs)) r')
            end
          else if (c =? 91)%Z then
            match strip [93%Z] (skip r) with
            | Some r' => POk (VList []) r'
            | None => pbind (elements (lenient_scan T n) (S (length r)) (skip r)) (fun vs r' => POk (VList vs) r')
            end
          else
            match strip (codes "null") s, strip (codes "true") s, strip (codes "false") s,
                  strip (codes "NaN") s, strip (codes "Infinity") s, strip (codes "-Infinity") s with
            | Some r', _, _, _, _, _ => POk VNone r'
            | _, Some r', _, _, _, _ => POk (VBool true) r'
            | _, _, Some r', _, _, _ => POk (VBool false) r'
            | _, _, _, Some r', _, _ => POk (VFloat FNan) r'
            | _, _, _, _, Some r', _ => POk (VFloat (FInf false)) r'
            | _, _, _, _, _, Some r' => POk (VFloat (FInf true)) r'
            | _, _, _, _, _, _ => number T s
            end
      end
  end.
(** json/__init__.py:299-359 and json/decoder.py:332-356 (decode), as [json_loads] *)
Definition lenient_json_loads (T : textrt) (s : text) : option value :=
  match lenient_scan T (S (length s)) (skip s) with
  | POk v r => match skip r with [] => Some v | _ :: _ => None end
  | PBad | POof => None
  end.
(** loads, _load_impl.py:148-155, with jdkwargs={'strict': False} *)
Definition lenient_loads_text (E : env) (T : textrt) (n f : nat) (o : lopts) (cls : option ty) (s : text) : M value :=
  match lenient_json_loads T s with
  | Some j => load E n f o cls j
  | None => fail (exn_of KDecode)
  end.
Definition lenient_loads (E : env) (T : textrt) (n f : nat) (o : lopts) (cls : option ty) (x : pyobj) : M value :=
  match x with
  | OVal (VStr s) => lenient_loads_text E T n f o cls (codes s)
  | OBytes b => dom s <- lift (tr_detect T b); lenient_loads_text E T n f o cls s
  | OVal _ => fail (exn_of KType)
  end.
(** loadb, _load_impl.py:180-185, with jdkwargs={'strict': False} *)
Definition lenient_loadb (E : env) (T : textrt) (n f : nat) (o : lopts) (encoding : string) (cls : option ty) (x : pyobj) : M value :=
  match x with
  | OVal _ => fail (exn_of KDeser)
  | OBytes b => dom s <- lift (decode_bytes T encoding b); lenient_loads_text E T n f o cls s
  end.
