(** * Model of dump with a heap: jsons/_dump_impl.py and jsons/serializers

    In EngineSer.v values are trees.  Here lists, dicts, sets, deques and objects are cells of a
    heap that refer to each other, so that an object may be reached in several ways, or from
    itself, and the assignments to dicts in the code are writes to the heap.  Events (warnings,
    announced classes) are left out; everything else is as in EngineSer.v, function by function. *)
From Verif Require Export EngineSer.
Set Implicit Arguments.
Local Open Scope string_scope.

(** ** Objects and heaps *)
(** A value without parts, a tuple, a named tuple, or a cell of the heap *)
Inductive obj : Type :=
| OAtom (v : value)
| OTuple (l : list obj)
| ONT (c : nat) (l : list obj)
| ORef (a : nat).
Inductive cell : Type :=
| NList (l : list obj)
| NColl (k : coll) (l : list obj)
| NDict (k : dkind) (d : list (obj * obj))
| NObj (c : nat) (attrs : list (string * obj)).
(** The address of a cell is its index; new cells come last. *)
Definition heap : Type := list cell.

(** The tree that an object stands for, [None] if there is none: [n] bounds the number of
    cells on a path. *)
Definition omap {A B} (f : A -> option B) : list A -> option (list B) :=
  fix go (l : list A) : option (list B) :=
    match l with
    | [] => Some []
    | x :: r => match f x, go r with
                | Some y, Some ys => Some (y :: ys)
                | _, _ => None
                end
    end.
(** The values that have no parts *)
Definition flatv (v : value) : bool :=
  match v with
  | VList _ | VTuple _ | VColl _ _ | VDict _ _ | VNT _ _ | VObj _ _ => false
  | _ => true
  end.
Fixpoint read_with (deref : nat -> option value) (x : obj) : option value :=
  match x with
  | OAtom v => if flatv v then Some v else None
  | OTuple l => option_map VTuple (omap (read_with deref) l)
  | ONT c l => option_map (VNT c) (omap (read_with deref) l)
  | ORef a => deref a
  end.
Definition opair {A B} (a : option A) (b : option B) : option (A * B) :=
  match a, b with Some x, Some y => Some (x, y) | _, _ => None end.
Fixpoint read_ref (H : heap) (n : nat) (a : nat) : option value :=
  match n with
  | O => None
  | S n' =>
      let rd := read_with (read_ref H n') in
      match nth_error H a with
      | Some (NList l) => option_map VList (omap rd l)
      | Some (NColl k l) => option_map (VColl k) (omap rd l)
      | Some (NDict k d) => option_map (VDict k) (omap (fun kx => opair (rd (fst kx)) (rd (snd kx))) d)
      | Some (NObj c l) => option_map (VObj c) (omap (fun ax => opair (Some (fst ax)) (rd (snd ax))) l)
      | None => None
      end
  end.
Definition read (H : heap) (x : obj) : option value := read_with (read_ref H (length H)) x.
(** What the parts of Python that are not modelled (see [runtime]) get to see; they do not
    get to see objects without a tree. *)
Definition view (H : heap) (x : obj) : value :=
  match read H x with Some v => v | None => VNone end.
(** The object without its parts: this is enough for type(x) and isinstance. *)
Definition shallow (H : heap) (x : obj) : value :=
  match x with
  | OAtom v => v
  | OTuple _ => VTuple []
  | ONT c _ => VNT c []
  | ORef a => match nth_error H a with
              | Some (NList _) => VList []
              | Some (NColl k _) => VColl k []
              | Some (NDict k _) => VDict k []
              | Some (NObj c _) => VObj c []
              | None => VNone
              end
  end.
Definition kind (H : heap) (x : obj) : ty := class_of (shallow H x).

(** ** Computations with a heap; what was written stays when an exception is raised. *)
Definition hM (A : Type) : Type := heap -> heap * outcome A.
Definition hret {A} (a : A) : hM A := fun H => (H, Done a).
Definition hfail {A} (e : exn) : hM A := fun H => (H, Fail e).
Definition hbind {A B} (m : hM A) (g : A -> hM B) : hM B :=
  fun H => match m H with
           | (H', Done a) => g a H'
           | (H', Fail e) => (H', Fail e)
           | (H', Oof) => (H', Oof)
           end.
Notation "'doh' x <- m ; f" := (hbind m (fun x => f))
  (at level 200, x pattern, m at level 100, f at level 200, right associativity) : py_scope.
Definition hlift {A} (r : res A) : hM A := match r with Ok a => hret a | Err e => hfail e end.
Definition htry {A} (m : hM A) (h : exn -> hM A) : hM A :=
  fun H => match m H with (H', Fail e) => h e H' | r => r end.
Definition hcatch {A} (m : hM A) : hM (A + exn) :=
  fun H => match m H with
           | (H', Done a) => (H', Done (inl a))
           | (H', Fail e) => (H', Done (inr e))
           | (H', Oof) => (H', Oof)
           end.
Definition hmap {A B} (g : A -> hM B) : list A -> hM (list B) :=
  fix go (l : list A) : hM (list B) :=
    match l with
    | [] => hret []
    | x :: r => hbind (g x) (fun y => hbind (go r) (fun ys => hret (y :: ys)))
    end.
Definition hread {A} (g : heap -> A) : hM A := fun H => (H, Done (g H)).
(** A new cell *)
Definition alloc (c : cell) : hM obj := fun H => ((H ++ [c])%list, Done (ORef (length H))).
Fixpoint put (a : nat) (c : cell) (H : heap) : heap :=
  match H, a with
  | [], _ => []
  | _ :: r, O => c :: r
  | d :: r, S a' => d :: put a' c r
  end.
Definition write (a : nat) (c : cell) : hM unit := fun H => (put a c H, Done tt).
(** An object built from scratch *)
Fixpoint place (v : value) : hM obj :=
  match v with
  | VList l => hbind (hmap place l) (fun xs => alloc (NList xs))
  | VTuple l => hbind (hmap place l) (fun xs => hret (OTuple xs))
  | VColl k l => hbind (hmap place l) (fun xs => alloc (NColl k xs))
  | VDict k d =>
      hbind (hmap (fun kx => hbind (place (fst kx)) (fun a => hbind (place (snd kx)) (fun b => hret (a, b)))) d)
            (fun d' => alloc (NDict k d'))
  | VNT c l => hbind (hmap place l) (fun xs => hret (ONT c xs))
  | VObj c l => hbind (hmap (fun ax => hbind (place (snd ax)) (fun b => hret (fst ax, b))) l)
                      (fun l' => alloc (NObj c l'))
  | _ => hret (OAtom v)
  end.
Definition place_res (r : res value) : hM obj := match r with Ok v => place v | Err e => hfail e end.

(** ** Python operations on objects, see EngineTypes.v *)
(** Dicts: keys are compared by their trees; a key occurs once *)
Definition key_eqb (H : heap) (a b : obj) : bool := py_eqb (view H a) (view H b).
Definition hdget (H : heap) (k : obj) (d : list (obj * obj)) : option obj := aget (key_eqb H) k d.
Definition hdset (H : heap) (k x : obj) (d : list (obj * obj)) : list (obj * obj) := aset (key_eqb H) k x d.
Definition hddel (H : heap) (k : obj) (d : list (obj * obj)) : list (obj * obj) :=
  filter (fun kx => negb (key_eqb H k (fst kx))) d.
(** The class variables, the values of enum members and the registered serializers; a
    registered serializer may do anything to the heap *)
Record henv : Type := mkHenv {
  he_var : nat -> string -> obj;
  he_member : nat -> string -> obj;
  he_cser : nat -> option ty -> obj -> hM obj }.

Definition htruthy (R : runtime) (H : heap) (x : obj) : bool :=
  match x with
  | OAtom v => truthy R v
  | OTuple l | ONT _ l => negb (Nat.eqb (length l) 0)
  | ORef a => match nth_error H a with
              | Some (NList l) | Some (NColl _ l) => negb (Nat.eqb (length l) 0)
              | Some (NDict _ d) => negb (Nat.eqb (length d) 0)
              | _ => rt_truth R (view H x)
              end
  end.
Definition hiter (R : runtime) (x : obj) : hM (list obj) :=
  fun H =>
  match x with
  | OAtom v => hbind (hlift (py_iter R v)) (hmap place) H
  | OTuple l | ONT _ l => hret l H
  | ORef a => match nth_error H a with
              | Some (NList l) | Some (NColl _ l) => hret l H
              | Some (NDict _ d) => hret (map fst d) H
              | _ => hbind (hlift (rt_iter R (view H x))) (hmap place) H
              end
  end.
(** x[k] *)
Definition item_at {A} (l : list A) (k : value) : res A :=
  match k with
  | VInt z =>
      let i := (if z <? 0 then z + Z.of_nat (length l) else z)%Z in
      if ((0 <=? i) && (i <? Z.of_nat (length l)))%Z
      then match nth_error l (Z.to_nat i) with Some x => Ok x | None => raise KIndex end
      else raise KIndex
  | VBool b => match nth_error l (if b then 1 else 0) with Some x => Ok x | None => raise KIndex end
  | _ => raise KType
  end.
Definition hgetitem (CT : classes) (x k : obj) : hM obj :=
  fun H =>
  match x with
  | OAtom v => place_res (py_getitem CT v (view H k)) H
  | OTuple l | ONT _ l => hlift (item_at l (view H k)) H
  | ORef a => match nth_error H a with
              | Some (NList l) | Some (NColl CDeque l) => hlift (item_at l (view H k)) H
              | Some (NDict _ d) =>
                  if hashable CT (view H k)
                  then match hdget H k d with Some y => hret y H | None => hfail (exn_of KKey) H end
                  else hfail (exn_of KType) H
              | _ => hfail (exn_of KType) H
              end
  end.
(** getattr(x, a).  What properties and the attributes of other objects return is new. *)
Definition hget_attr (E : env) (K : henv) (x : obj) (a : string) : hM obj :=
  fun H =>
  match x with
  | ORef r =>
      match nth_error H r with
      | Some (NObj c attrs) =>
          let ci := e_ct E c in
          let m := sget a (ci_members ci) in
          match m with
          | Some MProp => place_res (ci_prop ci a (map (fun ax => (fst ax, view H (snd ax))) attrs)) H
          | _ => match sget a attrs, m with
                 | Some y, _ => hret y H
                 | None, Some (MVar _) => hret (he_var K c a) H
                 | None, Some MCallable | None, Some (MClass _) => hfail (exn_of (KOther 0)) H
                 | None, _ => hfail (exn_of KAttribute) H
                 end
          end
      | _ => place_res (rt_getattr (e_rt E) (view H x) a) H
      end
  | ONT c l =>
      match sget a (combine (map nf_name (nt_fields (e_ct E) c)) l) with
      | Some y => hret y H
      | None => place_res (rt_getattr (e_rt E) (view H x) a) H
      end
  | OAtom (VEnum c n) =>
      if String.eqb a "value" then
        match sget n (enum_members (e_ct E) c) with
        | Some _ => hret (he_member K c n) H
        | None => hfail (exn_of KAttribute) H
        end
      else place_res (get_attr E (VEnum c n) a) H
  | OAtom v => place_res (get_attr E v a) H
  | OTuple _ => place_res (rt_getattr (e_rt E) (view H x) a) H
  end.
(** d[k] = x, for the dict at [a] *)
Definition set_item (a : nat) (k x : obj) : hM unit :=
  fun H => match nth_error H a with
           | Some (NDict kd d) => write a (NDict kd (hdset H k x d)) H
           | _ => hfail (exn_of KType) H
           end.
Definition atom (s : string) : obj := OAtom (VStr s).

(** ** Meta data, serializers/default_object.py:267-323 *)
(** _store_cls_info, default_object.py:316-323 *)
Definition htype_name_of (E : env) (H : heap) (x : obj) : string :=
  match shallow H x with
  | VObj c _ => ci_name (e_ct E c)
  | VLeaf y => leaf_name (leaf_kind y)
  | _ => rt_type_name (e_rt E) (view H x)
  end.
Definition hstore_cls_info (E : env) (store : bool) (dumped attr : obj) : hM unit :=
  fun H =>
  match dumped with
  | ORef a => match nth_error H a with
              | Some (NDict _ _) =>
                  if store then set_item a (atom "-cls") (atom (htype_name_of E H attr)) H
                  else hret tt H
              | _ => hret tt H
              end
  | _ => hret tt H
  end.
(** isinstance(x, dict) *)
Definition dict_at (H : heap) (x : obj) : option nat :=
  match x with
  | ORef a => match nth_error H a with Some (NDict _ _) => Some a | _ => None end
  | _ => None
  end.
(** _fill_collection_of_types, default_object.py:289-304, for the dict at [a]; [acc] is where
    the types are collected.  The entries are those at the beginning of the loop. *)
Fixpoint hfill (n : nat) (prefix : string) (acc a : nat) : hM obj :=
  match n with
  | O => fun H => (H, Oof)
  | S n' => fun H =>
      match nth_error H a with
      | Some (NDict k d) =>
          let name := match hdget H (atom "-cls") d with Some y => y | None => OAtom VNone end in
          let d' := hddel H (atom "-cls") d in
          hbind (write a (NDict k d')) (fun _ =>
          hbind ((fix go (l : list (obj * obj)) : hM unit :=
                    match l with
                    | [] => hret tt
                    | (key, x) :: r =>
                        hbind (fun H1 =>
                          match dict_at H1 x with
                          | None => hret tt H1
                          | Some b =>
                              match key with
                              | OAtom (VStr s) =>
                                  if String.eqb s "-meta" then hret tt H1
                                  else hbind (hfill n' (prefix ++ s ++ "/") acc b)
                                             (fun y => set_item acc (atom (prefix ++ s)) y) H1
                              | _ => hfail (exn_of KType) H1
                              end
                          end) (fun _ => go r)
                    end) d') (fun _ =>
          hret name)) H
      | _ => hfail (exn_of KType) H
      end
  end.
(** _get_dict_with_meta, default_object.py:267-286; [a] is the dict *)
Definition hdict_with_meta (E : env) (o : sopts) (cls_name : string) (a : nat) : hM obj :=
  if negb (so_class_info o) && negb (so_dump_time o) then hret (ORef a)
  else
    hbind (alloc (NDict DkDict [])) (fun meta =>
    hbind (set_item a (atom "-meta") meta) (fun _ =>
    match meta with
    | ORef m =>
        hbind (if so_class_info o then
                 hbind (alloc (NDict DkDict [])) (fun types =>
                 match types with
                 | ORef t =>
                     hbind (fun H => hfill (length H) "/" t a H) (fun _ =>
                     hbind (set_item t (atom "/") (atom cls_name)) (fun _ =>
                     set_item m (atom "classes") types))
                 | _ => hfail (exn_of KType)                  (* unreachable *)
                 end)
               else hret tt) (fun _ =>
        hbind (if so_dump_time o then set_item m (atom "dump_time") (atom (rt_now (e_rt E)))
               else hret tt) (fun _ =>
        hret (ORef a)))
    | _ => hfail (exn_of KType)                               (* unreachable *)
    end)).

(** ** The serializers *)
Section Serializers.
Variables (E : env) (K : henv) (f : nat).
Let CT := e_ct E.
Let R := e_rt E.
Variable hser : sopts -> option shandler -> option ty -> obj -> hM obj.

(** dump, _dump_impl.py:16-66 *)
Definition hdump_ (o : sopts) (cls : option ty) (x : obj) : hM obj :=
  fun H =>
  let t := match cls with Some t => t | None => kind H x end in
  htry (hser o (e_ser E f t) cls x) (fun _ => hfail (exn_of KSer)) H.

(** default_primitive_serializer, serializers/default_primitive.py:6-27 *)
Definition hser_primitive (cls : option ty) (x : obj) : hM obj :=
  fun H =>
  let cls_ := match cls with Some (TNewType _ _ s) => Some s | c => c end in
  match cls_ with
  | None => hret x H
  | Some t =>
      if is_none (shallow H x) then hret x H
      else
        match is_instance CT (shallow H x) t with
        | Err e => hfail e H
        | Ok true => hret x H
        | Ok false => place_res (match cast R t (view H x) with
                                 | Ok r => Ok r
                                 | Err e => Err (if is_valueerror (e_kind e) then exn_of KSer else e)
                                 end) H
        end
  end.

(** default_list_serializer, serializers/default_list.py:10-48 *)
Definition hser_list (o : sopts) (cls : option ty) (x : obj) : hM obj :=
  fun H =>
  if negb (htruthy R H x) then alloc (NList []) H
  else
    let o' := set_store false o in
    match get_args cls with
    | t :: _ =>
        (doh l <- hiter R x;
         doh r <- hmap (hser o' (e_ser E f t) (Some t)) l;
         alloc (NList r)) H
    | [] =>
        if so_strict o then
          (doh x0 <- hgetitem CT x (OAtom (VInt 0));
           doh t <- hread (fun H => kind H x0);
           doh l <- hiter R x;
           doh r <- hmap (hser o' (e_ser E f t) (Some t)) l;
           alloc (NList r)) H
        else
          (doh l <- hiter R x;
           doh r <- hmap (hdump_ o' None) l;
           alloc (NList r)) H
    end.

(** _determine_cls, serializers/default_iterable.py:76-81 *)
Definition hdetermine_cls (cls : option ty) (H : heap) (x : obj) : res (option ty) :=
  match cls with
  | Some t => Ok (Some t)
  | None =>
      match x with
      | OTuple (y :: _) | ONT _ (y :: _) => Ok (Some (rt_type R (VTuple [view H y])))
      | OAtom (VStr (String c _)) => Ok (Some (rt_type R (VStr (String c EmptyString))))
      | ORef a => match nth_error H a with
                  | Some (NList (y :: _)) => Ok (Some (rt_type R (VList [view H y])))
                  | Some (NColl CDeque (_ :: _)) | Some (NDict _ (_ :: _)) => raise KType
                  | _ => Ok None
                  end
      | _ => Ok None
      end
  end.
(** default_iterable_serializer, serializers/default_iterable.py:12-49; _get_subclasses is
    that of EngineSer.v *)
Definition hser_iterable (o : sopts) (cls : option ty) (x : obj) : hM obj :=
  let o' := set_store false o in
  doh l <- hiter R x;
  doh cls_ <- (fun H => hlift (if so_strict o then hdetermine_cls cls H x else Ok None) H);
  doh subs <- hlift (get_subclasses (length l) cls_);
  doh r <- hmap (fun xc => hdump_ o' (snd xc) (fst xc)) (combine l subs);
  alloc (NList r).

(** default_namedtuple_serializer, serializers/default_tuple.py:31-41 *)
Definition hser_namedtuple (o : sopts) (c : nat) (x : obj) : hM obj :=
  doh r <- hmap (fun a => doh y <- hget_attr E K x a;
                          doh d <- hdump_ o None y;
                          hret (atom a, d))
                (map nf_name (nt_fields CT c));
  alloc (NDict DkDict r).
(** default_tuple_serializer, serializers/default_tuple.py:10-28 *)
Definition hser_tuple (o : sopts) (cls : option ty) (x : obj) : hM obj :=
  match x, cls with
  | ONT c _, _ => hser_namedtuple o c x
  | _, None => hser_iterable o None x
  | _, Some t =>
      match raw_args t with
      | None => hfail (exn_of KAttribute)
      | Some args =>
          if ty_eqb TEllipsis (last args TAny) then
            doh l <- hiter R x;
            hser_iterable o (Some (TApp true HTuple (repeat (hd TAny args) (length l)))) x
          else hser_iterable o (Some t) x
      end
  end.

(** _store_and_hash, serializers/default_dict.py:62-81; [result] is the dict that is being
    filled, which is copied if the hash is stored *)
Definition hstore_and_hash (o : sopts) (result : nat) (key : obj) : hM (nat * obj) :=
  fun H =>
  if json_key CT (shallow H key) then hret (result, key) H
  else
    (doh dk <- hdump_ o None key;
     fun H1 =>
     if json_key CT (shallow H1 dk) then hret (result, dk) H1
     else
       let h := OAtom (VInt (rt_hash R (view H1 key))) in
       match nth_error H1 result with
       | Some (NDict _ d) =>
           let r := length H1 in
           (doh _ <- alloc (NDict DkDict d);
            match hdget H1 (atom "-keys") d with
            | None =>
                fun H2 =>
                let i := length H2 in
                (doh inner <- alloc (NDict DkDict []);
                 doh _ <- set_item r (atom "-keys") inner;
                 doh _ <- set_item i h dk;
                 hret (r, h)) H2
            | Some (ORef i) => doh _ <- set_item i h dk; hret (r, h)
            | Some _ => hfail (exn_of KType)
            end) H1
       | _ => hfail (exn_of KType) H1                         (* unreachable *)
       end) H.
(** key_transformer(key) if given, and the check that the key can be used *)
Definition happly_kt (kt : option (value -> res value)) (k : obj) : hM obj :=
  fun H =>
  match kt with
  | None => if hashable CT (view H k) then hret k H else hfail (exn_of KType) H
  | Some g => match g (view H k) with
              | Err e => hfail e H
              | Ok k' => if hashable CT k' then place k' H else hfail (exn_of KType) H
              end
  end.
(** default_dict_serializer, serializers/default_dict.py:7-59 *)
Fixpoint hser_dict_go (o : sopts) (x : obj) (keys : list obj) (result : nat) : hM obj :=
  match keys with
  | [] => hret (ORef result)
  | key :: rest =>
      doh y <- hgetitem CT x key;
      doh rk <- hstore_and_hash o result key;
      doh c <- hread (fun H => aget py_eqb (view H key) (so_types o));
      doh d <- hdump_ (no_types o) c y;
      if so_strip_nulls o && match d with OAtom VNone => true | _ => false end
      then hser_dict_go o x rest (fst rk)
      else
        doh k <- happly_kt (so_kt o) (snd rk);
        doh _ <- set_item (fst rk) k d;
        hser_dict_go o x rest (fst rk)
  end.
Definition hser_dict (o : sopts) (x : obj) : hM obj :=
  fun H =>
  (doh _ <- alloc (NDict DkDict []);
   doh keys <- hiter R x;
   hser_dict_go o x keys (length H)) H.

(** default_union_serializer, serializers/default_union.py:9-37 *)
Fixpoint hser_union_go (o : sopts) (x : obj) (ts : list ty) : hM obj :=
  match ts with
  | [] => hfail (exn_of KSer)
  | t :: r => htry (hdump_ o (Some t) x)
                   (fun e => if is_jsons (e_kind e) then hser_union_go o x r else hfail e)
  end.
Definition hser_union (o : sopts) (cls : option ty) (x : obj) : hM obj :=
  match match cls with Some t => raw_args t | None => None end with
  | None => hfail (exn_of KType)
  | Some ts => fun H => if is_none (shallow H x) && existsb (ty_eqb TNoneT) ts then hret x H
                        else hser_union_go o x ts H
  end.

(** _get_attributes_from_object, default_object.py:186-200: only the names count *)
Definition hattrs_from_object (o : sopts) (H : heap) (x : obj) : res (list (string * option ty)) :=
  match x with
  | ORef a => match nth_error H a with
              | Some (NObj c attrs) => attrs_from_object E o (VObj c (map (fun ax => (fst ax, VNone)) attrs))
              | _ => attrs_from_object E o (view H x)
              end
  | _ => attrs_from_object E o (view H x)
  end.
(** _do_serialize, serializers/default_object.py:100-147 *)
Fixpoint hdo_serialize (o : sopts) (public : bool) (x : obj) (attrs : list (string * option ty))
         (result : nat) : hM unit :=
  match attrs with
  | [] => hret tt
  | (a, cls_) :: rest =>
      doh y <- hget_attr E K x a;
      doh t <- hread (fun H => match cls_ with Some t => t | None => kind H y end);
      doh r <- hcatch (doh d <- hser o (e_ser E f t) cls_ y;
                       doh _ <- hstore_cls_info E (so_store_cls o) d y;
                       hret d);
      match r with
      | inr e =>
          if so_strict o then hfail (exn_of (if e_noargs e then KIndex else KSer))
          else if e_noargs e then hfail (exn_of KIndex)
          else hret tt
      | inl d =>
          let name := if public then strip_us a else a in
          if so_strip_nulls o && match d with OAtom VNone => true | _ => false end
          then hdo_serialize o public x rest result
          else
            doh k <- happly_kt (so_kt o) (atom name);
            doh _ <- set_item result k d;
            hdo_serialize o public x rest result
      end
  end.
(** default_object_serializer, serializers/default_object.py:18-97 *)
Definition hser_object (o : sopts) (cls : option ty) (x : obj) : hM obj :=
  fun H =>
  let from_class := match cls with Some t => if so_strict o then Some t else None | None => None end in
  let t := match from_class with Some t => t | None => kind H x end in
  let o' := set_store (so_class_info o) (set_attr_opt (normalize_strip_attr (so_attr o)) o) in
  let public := match t with TClass c => ci_attrs (CT c) | _ => false end
                && negb (so_privates o) in
  (doh attrs <- hlift (match from_class with
                       | Some t => attrs_from_class E o t
                       | None => hattrs_from_object o H x
                       end);
   doh _ <- alloc (NDict DkDict []);
   doh _ <- hdo_serialize o' public x attrs (length H);
   if so_store_cls o then hret (ORef (length H))
   else hdict_with_meta E o (class_name CT t) (length H)) H.

(** The remaining serializers and the dispatch, see [ser_step] *)
Definition hser_time_like (strip : bool) (p : list item) (x : obj) : hM obj :=
  fun H => hlift (dor sw <- to_str (rt_local R) strip p (shallow H x); Ok (atom (fst sw))) H.
Definition hser_step (o : sopts) (h : option shandler) (cls : option ty) (x : obj) : hM obj :=
  match h with
  | None => hfail (exn_of KType)
  | Some h =>
      match h with
      | STuple => hser_tuple o cls x
      | SComplex => doh re <- hget_attr E K x "real";
                    doh im <- hget_attr E K x "imag";
                    alloc (NDict DkDict [(atom "real", re); (atom "imag", im)])
      | SDatetime => hser_time_like (so_strip_us o) datetime_pattern x
      | SDate => hser_time_like false date_pattern x
      | STime => hser_time_like false time_pattern x
      | STimezone => match x with
                     | OAtom (VLeaf (LTimezone off name)) =>
                         doh d <- hdump_ o cls (OAtom (VLeaf (LTimedelta off)));
                         alloc (NDict DkDict [(atom "name", atom (timezone_name off name)); (atom "offset", d)])
                     | _ => hfail (exn_of KAttribute)
                     end
      | STimedelta => match x with
                      | OAtom (VLeaf (LTimedelta us)) => hret (OAtom (VFloat (total_seconds us)))
                      | _ => hfail (exn_of KAttribute)
                      end
      | SPrimitive => hser_primitive cls x
      | SEnum => hget_attr E K x (if so_enum_name o then "name" else "value")
      | SDict => hser_dict o x
      | SList => hser_list o cls x
      | SIterable => hser_iterable o cls x
      | SObject => hser_object o cls x
      | SUUID => fun H => hlift (dor s <- py_str R (view H x); Ok (atom s)) H
      | SDecimal => fun H => hlift (dor s <- py_str R (view H x); Ok (atom s)) H
      | SUnion => hser_union o cls x
      | SPath => match x with
                 | OAtom (VLeaf (LPath s)) => hret (atom s)
                 | _ => hfail (exn_of KAttribute)
                 end
      | SZone => doh k <- hget_attr E K x "key"; alloc (NDict DkDict [(atom "key", k)])
      | SCustom n => he_cser K n cls x
      end
  end.
End Serializers.

(** [n] bounds the depth of nested serializer calls; [limit] is what happens beyond: a
    RecursionError, or the distinct outcome [Oof]. *)
Fixpoint hserialize (E : env) (K : henv) (f : nat) (limit : option exn) (n : nat) (o : sopts)
         (h : option shandler) (cls : option ty) (x : obj) : hM obj :=
  match n with
  | O => fun H => (H, match limit with Some e => Fail e | None => Oof end)
  | S n' => hser_step E K f (hserialize E K f limit n') o h cls x
  end.
(** jsons.dump(x, cls, fork_inst=f, **o) *)
Definition hdump (E : env) (K : henv) (f : nat) (limit : option exn) (n : nat) (o : sopts)
           (cls : option ty) (x : obj) : hM obj :=
  hdump_ E f (hserialize E K f limit n) o cls x.
