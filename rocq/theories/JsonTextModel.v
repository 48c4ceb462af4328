(** * JSON text and bytes

    json.dumps and json.loads of CPython 3.10 with default arguments (jsons passes
    [jdkwargs] on to them; LayoutModel.v has those for json.dumps), UTF-8, and
    the functions of jsons that call them. *)
From Verif Require Export EngineSer EngineDeser.
Set Implicit Arguments.
Local Open Scope string_scope.

(** A text is a list of code points.  The strings of the model are Latin-1, see PyBase.v. *)
Definition text : Type := list Z.
Definition codes (s : string) : text :=
  map (fun c => Z.of_nat (code c)) (list_ascii_of_string s).

(** What is not modelled of the text functions. *)
Record textrt : Type := mkTrt {
  tr_repr : pyfloat -> string;               (* float.__repr__, of finite floats *)
  tr_read : text -> pyfloat;                 (* float(), of number literals *)
  tr_wide : Z -> string;                     (* how a character beyond Latin-1 is represented *)
  tr_encode : string -> string -> res string;  (* str.encode in another encoding than utf-8 *)
  tr_decode : string -> string -> res text;    (* bytes.decode, likewise *)
  tr_detect : string -> res text }.            (* how json.loads decodes bytes *)

(** ** json.dumps *)
(** json/encoder.py:21-40 (ESCAPE_ASCII, ESCAPE_DCT), Modules/_json.c ascii_escape_unichar *)
Definition escape (c : ascii) : string :=
  let n := code c in
  if Nat.eqb n 34 then "\""" else if Nat.eqb n 92 then "\\"
  else if Nat.eqb n 10 then "\n" else if Nat.eqb n 13 then "\r" else if Nat.eqb n 9 then "\t"
  else if Nat.eqb n 12 then "\f" else if Nat.eqb n 8 then "\b"
  else if Nat.leb 32 n && Nat.leb n 126 then String c EmptyString
  else "\u" ++ hex 4 (Z.of_nat n).
Definition quoted (s : string) : string :=
  """" ++ sjoin "" (map escape (list_ascii_of_string s)) ++ """".
(** json/encoder.py:223-245 (floatstr) *)
Definition float_text (T : textrt) (x : pyfloat) : string :=
  match x with
  | FNan => "NaN"
  | FInf false => "Infinity"
  | FInf true => "-Infinity"
  | _ => tr_repr T x
  end.
(** An enum member with a str, int or float mixin is written as its value (which is taken
    to have that type); for anything else that is not a scalar, None. *)
Definition scalar_of (CT : classes) (v : value) : option value :=
  match v with
  | VNone | VBool _ | VInt _ | VFloat _ | VStr _ => Some v
  | VEnum c n =>
      match ci_kind (CT c) with
      | CkEnum (Some p) l =>
          match sget n l with
          | Some x => if ty_eqb (class_of x) (TPrim p) then Some x else None
          | None => None
          end
      | _ => None
      end
  | _ => None
  end.
(** json/encoder.py:352-384: keys *)
Definition key_text (T : textrt) (CT : classes) (k : value) : res string :=
  match scalar_of CT k with
  | Some (VStr s) => Ok s
  | Some (VFloat x) => Ok (float_text T x)
  | Some (VBool true) => Ok "true"
  | Some (VBool false) => Ok "false"
  | Some VNone => Ok "null"
  | Some (VInt z) => Ok (str_int z)
  | _ => raise KType
  end.
(** json/encoder.py:413-443 (_iterencode) for everything but lists and dicts *)
Definition scalar_text (T : textrt) (CT : classes) (v : value) : res string :=
  match scalar_of CT v with
  | Some (VStr s) => Ok (quoted s)
  | Some VNone => Ok "null"
  | Some (VBool true) => Ok "true"
  | Some (VBool false) => Ok "false"
  | Some (VInt z) => Ok (str_int z)
  | Some (VFloat x) => Ok (float_text T x)
  | _ => raise KType                     (* Object of type ... is not JSON serializable *)
  end.
Definition rmap {A B} (f : A -> res B) : list A -> res (list B) :=
  fix go (l : list A) : res (list B) :=
    match l with
    | [] => Ok []
    | x :: r => dor y <- f x; dor ys <- go r; Ok (y :: ys)
    end.
(** json/encoder.py:277-411 (_iterencode_list, _iterencode_dict).  Tuples and named tuples
    are tuples, all kinds of dicts are dicts. *)
Fixpoint json_dumps (T : textrt) (CT : classes) (v : value) : res string :=
  match v with
  | VList l | VTuple l | VNT _ l =>
      dor ts <- rmap (json_dumps T CT) l; Ok ("[" ++ sjoin ", " ts ++ "]")
  | VDict _ d =>
      dor ts <- rmap (fun kx : value * value =>
                        dor k <- key_text T CT (fst kx);
                        dor t <- json_dumps T CT (snd kx);
                        Ok (quoted k ++ ": " ++ t)) d;
      Ok ("{" ++ sjoin ", " ts ++ "}")
  | _ => scalar_text T CT v
  end.

(** ** json.loads *)
(** A parser returns a value and the rest of the text; [POof]: the bound on the depth (or
    length) was too small. *)
Inductive pres (A : Type) : Type :=
| POk (a : A) (rest : text)
| PBad
| POof.
Arguments POk {A} a rest.
Arguments PBad {A}.
Arguments POof {A}.
Definition pbind {A B} (p : pres A) (f : A -> text -> pres B) : pres B :=
  match p with POk a r => f a r | PBad => PBad | POof => POof end.

(** json/decoder.py:131 (WHITESPACE) *)
Definition is_ws (c : Z) : bool := ((c =? 32) || (c =? 9) || (c =? 10) || (c =? 13))%Z.
Fixpoint skip (s : text) : text :=
  match s with c :: r => if is_ws c then skip r else s | [] => [] end.
Definition is_dig (c : Z) : bool := ((48 <=? c) && (c <=? 57))%Z.
Fixpoint span (s : text) : text * text :=
  match s with
  | c :: r => if is_dig c then let (ds, r') := span r in (c :: ds, r') else ([], s)
  | [] => ([], [])
  end.
(** If [s] starts with [p], what follows. *)
Fixpoint strip (p s : text) : option text :=
  match p, s with
  | [], _ => Some s
  | a :: p', b :: s' => if (a =? b)%Z then strip p' s' else None
  | _ :: _, [] => None
  end.

(** Numbers: json/scanner.py:14-16 (NUMBER_RE): an optional minus, 0 or digits without a
    leading zero, an optional fraction, an optional exponent *)
Definition minus (s : text) : bool * text :=
  match s with
  | c :: r => if (c =? 45)%Z then (true, r) else (false, s)
  | [] => (false, s)
  end.
Definition natural_part (s : text) : option (text * text) :=
  match s with
  | c :: r => if (c =? 48)%Z then Some ([c], r)
              else if is_dig c then let (ds, r') := span r in Some (c :: ds, r')
              else None
  | [] => None
  end.
Definition fraction_part (s : text) : text * text :=
  match s with
  | c :: r => if (c =? 46)%Z
              then match span r with
                   | ([], _) => ([], s)
                   | (ds, r') => (c :: ds, r')
                   end
              else ([], s)
  | [] => ([], s)
  end.
Definition exponent_part (s : text) : text * text :=
  match s with
  | c :: r =>
      if ((c =? 101) || (c =? 69))%Z
      then let (sg, r1) := match r with
                           | x :: r' => if ((x =? 43) || (x =? 45))%Z then ([x], r') else ([], r)
                           | [] => ([], r)
                           end in
           match span r1 with
           | ([], _) => ([], s)
           | (ds, r2) => ((c :: sg ++ ds)%list, r2)
           end
      else ([], s)
  | [] => ([], s)
  end.
Definition digits_value (ds : text) : Z :=
  fold_left (fun z c => (z * 10 + (c - 48))%Z) ds 0%Z.
(** json/scanner.py:50-57 *)
Definition number (T : textrt) (s : text) : pres value :=
  let (neg, r) := minus s in
  match natural_part r with
  | None => PBad
  | Some (ds, r1) =>
      let (fr, r2) := fraction_part r1 in
      let (ex, r3) := exponent_part r2 in
      match fr, ex with
      | [], [] => POk (VInt (if neg then - digits_value ds else digits_value ds)%Z) r3
      | _, _ => POk (VFloat (tr_read T ((if neg then [45%Z] else []) ++ ds ++ fr ++ ex)%list)) r3
      end
  end.

(** Strings: json/decoder.py:57-125 (py_scanstring), with strict=True.  The result is the
    list of code units; a pair of surrogates is joined afterwards, see [join]. *)
Definition hex_unit (c : Z) : option Z :=
  if is_dig c then Some (c - 48)%Z
  else if ((97 <=? c) && (c <=? 102))%Z then Some (c - 87)%Z
  else if ((65 <=? c) && (c <=? 70))%Z then Some (c - 55)%Z
  else None.
Definition hex4 (a b c d : Z) : option Z :=
  match hex_unit a, hex_unit b, hex_unit c, hex_unit d with
  | Some a, Some b, Some c, Some d => Some (((a * 16 + b) * 16 + c) * 16 + d)%Z
  | _, _, _, _ => None
  end.
(** json/decoder.py:46-54 (BACKSLASH) *)
Definition unescape (c : Z) : option Z :=
  if (c =? 34)%Z then Some 34%Z else if (c =? 92)%Z then Some 92%Z
  else if (c =? 47)%Z then Some 47%Z else if (c =? 98)%Z then Some 8%Z
  else if (c =? 102)%Z then Some 12%Z else if (c =? 110)%Z then Some 10%Z
  else if (c =? 114)%Z then Some 13%Z else if (c =? 116)%Z then Some 9%Z
  else None.
Definition more_units (u : Z) (r : option (list Z * text)) : option (list Z * text) :=
  match r with Some (us, r') => Some (u :: us, r') | None => None end.
Fixpoint units (s : text) : option (list Z * text) :=
  match s with
  | [] => None
  | c :: r =>
      if (c =? 34)%Z then Some ([], r)
      else if (c =? 92)%Z then
        match r with
        | [] => None
        | e :: r1 =>
            if (e =? 117)%Z then
              match r1 with
              | h1 :: h2 :: h3 :: h4 :: r2 =>
                  match hex4 h1 h2 h3 h4 with
                  | Some u => more_units u (units r2)
                  | None => None
                  end
              | _ => None
              end
            else match unescape e with
                 | Some u => more_units u (units r1)
                 | None => None
                 end
        end
      else if (c <=? 31)%Z then None
      else more_units c (units r)
  end.
(** json/decoder.py:110-116 *)
Fixpoint join (us : list Z) : list Z :=
  match us with
  | a :: r =>
      match r with
      | b :: r' =>
          if ((55296 <=? a) && (a <=? 56319) && (56320 <=? b) && (b <=? 57343))%Z
          then (65536 + (a - 55296) * 1024 + (b - 56320))%Z :: join r'
          else a :: join r
      | [] => [a]
      end
  | [] => []
  end.
Definition chr (T : textrt) (c : Z) : string :=
  if ((0 <=? c) && (c <=? 255))%Z then String (ascii_of_nat (Z.to_nat c)) EmptyString
  else tr_wide T c.
Definition string_of (T : textrt) (cs : list Z) : string := sjoin "" (map (chr T) cs).

Definition dict_of (kvs : list (string * value)) : list (value * value) :=
  fold_left (fun d kx => dset (VStr (fst kx)) (snd kx) d) kvs [].

Section Scan.
Variable T : textrt.
Variable scan : text -> pres value.
(** json/decoder.py:217-254 (JSONArray) *)
Fixpoint elements (k : nat) (s : text) : pres (list value) :=
  match k with
  | O => POof
  | S k =>
      pbind (scan s) (fun v r =>
        match skip r with
        | c :: r' =>
            if (c =? 93)%Z then POk [v] r'
            else if (c =? 44)%Z
                 then pbind (elements k (skip r')) (fun vs r'' => POk (v :: vs) r'')
                 else PBad
        | [] => PBad
        end)
  end.
(** json/decoder.py:137-215 (JSONObject) *)
Fixpoint members (k : nat) (s : text) : pres (list (string * value)) :=
  match k with
  | O => POof
  | S k =>
      match s with
      | c :: r =>
          if (c =? 34)%Z then
            match units r with
            | None => PBad
            | Some (us, r1) =>
                match skip r1 with
                | c2 :: r2 =>
                    if (c2 =? 58)%Z then
                      pbind (scan (skip r2)) (fun v r3 =>
                        match skip r3 with
                        | c4 :: r4 =>
                            if (c4 =? 125)%Z then POk [(string_of T (join us), v)] r4
                            else if (c4 =? 44)%Z
                                 then pbind (members k (skip r4)) (fun kvs r5 =>
                                        POk ((string_of T (join us), v) :: kvs) r5)
                                 else PBad
                        | [] => PBad
                        end)
                    else PBad
                | [] => PBad
                end
            end
          else PBad
      | [] => PBad
      end
  end.
End Scan.
(** json/scanner.py:30-66 (_scan_once); [n] bounds the depth of nesting. *)
Fixpoint scan (T : textrt) (n : nat) (s : text) : pres value :=
  match n with
  | O => POof
  | S n =>
      match s with
      | [] => PBad
      | c :: r =>
          if (c =? 34)%Z then
            match units r with
            | Some (us, r') => POk (VStr (string_of T (join us))) r'
            | None => PBad
            end
          else if (c =? 123)%Z then
            match strip [125%Z] (skip r) with
            | Some r' => POk (VDict DkDict []) r'
            | None => pbind (members T (scan T n) (S (length r)) (skip r)) (fun kvs r' =>
                        POk (VDict DkDict (dict_of kvs)) r')
            end
          else if (c =? 91)%Z then
            match strip [93%Z] (skip r) with
            | Some r' => POk (VList []) r'
            | None => pbind (elements (scan T n) (S (length r)) (skip r)) (fun vs r' => POk (VList vs) r')
            end
          else
            match strip (codes "null") s, strip (codes "true") s, strip (codes "false") s,
                  strip (codes "NaN") s, strip (codes "Infinity") s, strip (codes "-Infinity") s with
            | Some r', _, _, _, _, _ => POk VNone r'
            | _, Some r', _, _, _, _ => POk (VBool true) r'
            | _, _, Some r', _, _, _ => POk (VBool false) r'
            | _, _, _, Some r', _, _ => POk (VFloat FNan) r'
            | _, _, _, _, Some r', _ => POk (VFloat (FInf false)) r'
            | _, _, _, _, _, Some r' => POk (VFloat (FInf true)) r'
            | _, _, _, _, _, _ => number T s
            end
      end
  end.
(** json/__init__.py:299-359 and json/decoder.py:332-356 (decode); None stands for a
    JSONDecodeError.  [POof] does not occur: a text is nested less deeply than it is long. *)
Definition json_loads (T : textrt) (s : text) : option value :=
  match scan T (S (length s)) (skip s) with
  | POk v r => match skip r with [] => Some v | _ :: _ => None end
  | PBad | POof => None
  end.

(** ** UTF-8 *)
(** str.encode('utf-8') of a Latin-1 string *)
Definition utf8_char (c : ascii) : string :=
  let n := code c in
  if Nat.ltb n 128 then String c EmptyString
  else String (ascii_of_nat (192 + Nat.div n 64)) (String (ascii_of_nat (128 + Nat.modulo n 64)) EmptyString).
Definition utf8_encode (s : string) : string := sjoin "" (map utf8_char (list_ascii_of_string s)).
(** bytes.decode('utf-8'), errors='strict': Objects/stringlib/codecs.h utf8_decode.  None
    stands for a UnicodeDecodeError. *)
Definition byte_in (a b c : Z) : bool := ((a <=? c) && (c <=? b))%Z.
Definition cons_point (c : Z) (r : option text) : option text := option_map (cons c) r.
Fixpoint utf8_decode (b : list Z) : option text :=
  match b with
  | [] => Some []
  | a :: r =>
      if (a <? 128)%Z then cons_point a (utf8_decode r)
      else if byte_in 194 223 a then
        match r with
        | b1 :: r1 =>
            if byte_in 128 191 b1
            then cons_point ((a - 192) * 64 + (b1 - 128))%Z (utf8_decode r1) else None
        | _ => None
        end
      else if byte_in 224 239 a then
        match r with
        | b1 :: b2 :: r2 =>
            if byte_in (if a =? 224 then 160 else 128)%Z (if a =? 237 then 159 else 191)%Z b1
               && byte_in 128 191 b2
            then cons_point (((a - 224) * 64 + (b1 - 128)) * 64 + (b2 - 128))%Z (utf8_decode r2) else None
        | _ => None
        end
      else if byte_in 240 244 a then
        match r with
        | b1 :: b2 :: b3 :: r3 =>
            if byte_in (if a =? 240 then 144 else 128)%Z (if a =? 244 then 143 else 191)%Z b1
               && byte_in 128 191 b2 && byte_in 128 191 b3
            then cons_point ((((a - 240) * 64 + (b1 - 128)) * 64 + (b2 - 128)) * 64 + (b3 - 128))%Z
                   (utf8_decode r3) else None
        | _ => None
        end
      else None
  end.

(** ** The functions of jsons *)
(** The arguments: values, or bytes (as a string of byte values). *)
Inductive pyobj : Type :=
| OVal (v : value)
| OBytes (b : string).

(** loads, _load_impl.py:128-155: json.loads, whose JSONDecodeError becomes a DecodeError.
    json.loads raises a TypeError for anything but a str or bytes (json/__init__.py:335-343).
    A text that starts with a byte order mark is no JSON anyway. *)
Definition loads_text (E : env) (T : textrt) (n f : nat) (o : lopts) (cls : option ty) (s : text) : M value :=
  match json_loads T s with
  | Some j => load E n f o cls j
  | None => fail (exn_of KDecode)
  end.
Definition loads (E : env) (T : textrt) (n f : nat) (o : lopts) (cls : option ty) (x : pyobj) : M value :=
  match x with
  | OVal (VStr s) => loads_text E T n f o cls (codes s)
  | OBytes b => dom s <- lift (tr_detect T b); loads_text E T n f o cls s
  | OVal _ => fail (exn_of KType)
  end.
(** loadb, _load_impl.py:158-185 *)
Definition decode_bytes (T : textrt) (encoding b : string) : res text :=
  if String.eqb encoding "utf-8"
  then match utf8_decode (codes b) with Some s => Ok s | None => raise KUnicode end
  else tr_decode T encoding b.
Definition loadb (E : env) (T : textrt) (n f : nat) (o : lopts) (encoding : string) (cls : option ty) (x : pyobj) : M value :=
  match x with
  | OVal _ => fail (exn_of KDeser)
  | OBytes b => dom s <- lift (decode_bytes T encoding b); loads_text E T n f o cls s
  end.
(** dumps, _dump_impl.py:69-88 *)
Definition dumps (E : env) (T : textrt) (f n : nat) (o : sopts) (cls : option ty) (v : value) : M string :=
  dom j <- dump E f n o cls v; lift (json_dumps T (e_ct E) j).
(** dumpb, _dump_impl.py:91-113 *)
Definition encode_text (T : textrt) (encoding s : string) : res string :=
  if String.eqb encoding "utf-8" then Ok (utf8_encode s) else tr_encode T encoding s.
Definition dumpb (E : env) (T : textrt) (f n : nat) (o : sopts) (encoding : string) (cls : option ty) (v : value) : M string :=
  dom s <- dumps E T f n o cls v; lift (encode_text T encoding s).
