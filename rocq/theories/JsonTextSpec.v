(** * What the properties of JSON text are stated with: a grammar of JSON, and UTF-8 *)
From Verif Require Export JsonTextModel DumpSpec.
Local Open Scope string_scope.
Local Open Scope Z_scope.

(** ** The grammar: [json_value T t v], [t] is a JSON text of the value [v] *)
Definition space (c : Z) : Prop := c = 32 \/ c = 9 \/ c = 10 \/ c = 13.
Definition spaces (w : text) : Prop := Forall space w.
Definition digit (c : Z) : Prop := 48 <= c <= 57.

(** Numbers *)
Definition natural (t : text) : Prop :=
  t = codes "0" \/ exists c ds, t = c :: ds /\ 49 <= c <= 57 /\ Forall digit ds.
Definition fraction (t : text) : Prop :=
  exists ds, t = (codes "." ++ ds)%list /\ ds <> [] /\ Forall digit ds.
Definition exponent (t : text) : Prop :=
  exists e sg ds, t = (e ++ sg ++ ds)%list /\ (e = codes "e" \/ e = codes "E") /\
    (sg = [] \/ sg = codes "+" \/ sg = codes "-") /\ ds <> [] /\ Forall digit ds.
Definition sign (neg : bool) : text := if neg then codes "-" else [].
(** d1...dn is d1 * 10^(n-1) + ... + dn * 10^0 *)
Fixpoint decimal (t : text) : Z :=
  match t with
  | c :: r => (c - 48) * 10 ^ Z.of_nat (length r) + decimal r
  | [] => 0
  end.

(** Strings: their characters, where \uXXXX stands for a UTF-16 code unit *)
Definition hex_value (c v : Z) : Prop :=
  (digit c /\ v = c - 48) \/ (97 <= c <= 102 /\ v = c - 87) \/ (65 <= c <= 70 /\ v = c - 55).
Definition escapes : list (Z * Z) :=        (* \ and the first stand for the second *)
  [(34, 34); (92, 92); (47, 47); (98, 8); (102, 12); (110, 10); (114, 13); (116, 9)].
Inductive chars : text -> list Z -> Prop :=
| ch_end : chars [] []
| ch_plain c t us : 32 <= c -> c <> 34 -> c <> 92 -> chars t us -> chars (c :: t) (c :: us)
| ch_escape e u t us : In (e, u) escapes -> chars t us -> chars (92 :: e :: t) (u :: us)
| ch_unit a b c d a' b' c' d' t us :
    hex_value a a' -> hex_value b b' -> hex_value c c' -> hex_value d d' -> chars t us ->
    chars (92 :: 117 :: a :: b :: c :: d :: t)
          (4096 * a' + 256 * b' + 16 * c' + d' :: us).
Definition high (u : Z) : Prop := 55296 <= u <= 56319.
Definition low (u : Z) : Prop := 56320 <= u <= 57343.
(** UTF-16: code points of code units; surrogates without partner stay *)
Inductive points : list Z -> list Z -> Prop :=
| pt_end : points [] []
| pt_pair a b us cs : high a -> low b -> points us cs ->
    points (a :: b :: us) (65536 + 1024 * (a - 55296) + (b - 56320) :: cs)
| pt_one a us cs : (forall b us', us = b :: us' -> ~ (high a /\ low b)) -> points us cs ->
    points (a :: us) (a :: cs).
(** The Python string of these characters *)
Inductive json_string (T : textrt) : text -> string -> Prop :=
| js_string t us cs : chars t us -> points us cs -> json_string T (codes """" ++ t ++ codes """")%list (string_of T cs).

Inductive json_value (T : textrt) : text -> value -> Prop :=
| jv_null : json_value T (codes "null") VNone
| jv_true : json_value T (codes "true") (VBool true)
| jv_false : json_value T (codes "false") (VBool false)
| jv_nan : json_value T (codes "NaN") (VFloat FNan)
| jv_inf : json_value T (codes "Infinity") (VFloat (FInf false))
| jv_minus_inf : json_value T (codes "-Infinity") (VFloat (FInf true))
| jv_int neg t : natural t -> json_value T (sign neg ++ t)%list (VInt (if neg then - decimal t else decimal t))
| jv_float neg t f e :
    natural t -> f = [] \/ fraction f -> e = [] \/ exponent e -> f <> [] \/ e <> [] ->
    json_value T (sign neg ++ t ++ f ++ e)%list (VFloat (tr_read T (sign neg ++ t ++ f ++ e)%list))
| jv_string t s : json_string T t s -> json_value T t (VStr s)
| jv_empty_list w : spaces w -> json_value T (codes "[" ++ w ++ codes "]")%list (VList [])
| jv_list t l : json_elements T t l -> json_value T (codes "[" ++ t ++ codes "]")%list (VList l)
| jv_empty_dict w : spaces w -> json_value T (codes "{" ++ w ++ codes "}")%list (VDict DkDict [])
| jv_dict t kvs : json_members T t kvs -> json_value T (codes "{" ++ t ++ codes "}")%list (VDict DkDict (dict_of kvs))
with json_elements (T : textrt) : text -> list value -> Prop :=
| je_last w t w' v : spaces w -> json_value T t v -> spaces w' ->
    json_elements T (w ++ t ++ w')%list [v]
| je_more w t w' v ts vs : spaces w -> json_value T t v -> spaces w' -> json_elements T ts vs ->
    json_elements T (w ++ t ++ w' ++ codes "," ++ ts)%list (v :: vs)
with json_members (T : textrt) : text -> list (string * value) -> Prop :=
| jm_last w tk k w1 w2 t v w' :
    spaces w -> json_string T tk k -> spaces w1 -> spaces w2 -> json_value T t v -> spaces w' ->
    json_members T (w ++ tk ++ w1 ++ codes ":" ++ w2 ++ t ++ w')%list [(k, v)]
| jm_more w tk k w1 w2 t v w' ts kvs :
    spaces w -> json_string T tk k -> spaces w1 -> spaces w2 -> json_value T t v -> spaces w' ->
    json_members T ts kvs ->
    json_members T (w ++ tk ++ w1 ++ codes ":" ++ w2 ++ t ++ w' ++ codes "," ++ ts)%list ((k, v) :: kvs).
(** A whole text *)
Definition json_document (T : textrt) (s : text) (v : value) : Prop :=
  exists w t w', spaces w /\ spaces w' /\ s = (w ++ t ++ w')%list /\ json_value T t v.

(** ** What is left of a value after writing and reading it *)
Definition key_name (T : textrt) (CT : classes) (k : value) : string :=
  match scalar_of CT k with
  | Some (VStr s) => s
  | Some (VBool b) => if b then "true" else "false"
  | Some (VInt z) => str_int z
  | Some (VFloat x) => float_text T x
  | _ => "null"
  end.
Fixpoint json_image (T : textrt) (CT : classes) (v : value) : value :=
  match v with
  | VList l | VTuple l | VNT _ l => VList (map (json_image T CT) l)
  | VDict _ d =>
      VDict DkDict (dict_of (map (fun kx => (key_name T CT (fst kx), json_image T CT (snd kx))) d))
  | _ => match scalar_of CT v with Some x => x | None => v end
  end.
(** Parts of a value, except keys *)
Inductive part_of (w : value) : value -> Prop :=
| po_self : part_of w w
| po_list l x : In x l -> part_of w x -> part_of w (VList l)
| po_tuple l x : In x l -> part_of w x -> part_of w (VTuple l)
| po_namedtuple c l x : In x l -> part_of w x -> part_of w (VNT c l)
| po_dict k d y x : In (y, x) d -> part_of w x -> part_of w (VDict k d).
(** The repr of a float is a float literal that is read as that float. *)
Definition reads_back (T : textrt) (x : pyfloat) : Prop :=
  match x with
  | FNan | FInf _ => True
  | _ => exists neg t f e,
      codes (tr_repr T x) = (sign neg ++ t ++ f ++ e)%list /\
      natural t /\ (f = [] \/ fraction f) /\ (e = [] \/ exponent e) /\ (f <> [] \/ e <> []) /\
      tr_read T (codes (tr_repr T x)) = x
  end.
Definition floats_read_back (T : textrt) (CT : classes) (v : value) : Prop :=
  forall w x, part_of w v -> scalar_of CT w = Some (VFloat x) -> reads_back T x.
(** What json.dumps can write: lists, tuples, dicts and scalars *)
Inductive writable (CT : classes) : value -> Prop :=
| wr_scalar v : scalar_of CT v <> None -> writable CT v
| wr_list l : (forall x, In x l -> writable CT x) -> writable CT (VList l)
| wr_tuple l : (forall x, In x l -> writable CT x) -> writable CT (VTuple l)
| wr_namedtuple c l : (forall x, In x l -> writable CT x) -> writable CT (VNT c l)
| wr_dict k d : (forall y x, In (y, x) d -> scalar_of CT y <> None) ->
                (forall y x, In (y, x) d -> writable CT x) -> writable CT (VDict k d).

(** ** UTF-8 *)
Definition scalar_value (c : Z) : Prop := (0 <= c <= 1114111) /\ ~ (55296 <= c <= 57343).
Definition utf8 (c : Z) : list Z :=
  if c <? 128 then [c]
  else if c <? 2048 then [192 + c / 64; 128 + c mod 64]
  else if c <? 65536 then [224 + c / 4096; 128 + (c / 64) mod 64; 128 + c mod 64]
  else [240 + c / 262144; 128 + (c / 4096) mod 64; 128 + (c / 64) mod 64; 128 + c mod 64].
Definition ascii_text (s : string) : Prop := Forall (fun c => 0 <= c < 128) (codes s).
