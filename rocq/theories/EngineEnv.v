(** * The default registries, and concrete environments for the examples *)
From Verif Require Import PyBaseFacts.
From Verif Require Export EngineFacts.
Local Open Scope string_scope.

(** ** The tables that __init__.py:277-321 builds *)
Definition ser_table : gtable ty shandler :=
  mkTable
    [Some (TLeaf LkZone); Some (TLeaf LkPath); Some TOptionalForm; Some TUnionForm;
     Some (TLeaf LkDecimal); Some (TLeaf LkUUID); Some (TApp true HList []);
     Some (TApp false HList []); Some TIntEnumBase; Some TEnumBase; Some (TPrim PBool);
     Some (TPrim PFloat); Some (TPrim PInt); Some (TPrim PStr); Some (TLeaf LkTimedelta);
     Some (TLeaf LkTimezone); Some (TLeaf LkTime); Some (TLeaf LkDate);
     Some (TLeaf LkDatetime); Some (TLeaf LkComplex); Some (TApp true HTuple []);
     Some (TApp false HTuple []); Some (TApp false HMapping []); Some (TApp true HIterable []);
     Some TObject]
    [("tuple", STuple); ("typing.tuple", STuple); ("complex", SComplex);
     ("datetime.datetime", SDatetime); ("datetime.date", SDate); ("datetime.time", STime);
     ("datetime.timezone", STimezone); ("datetime.timedelta", STimedelta);
     ("str", SPrimitive); ("int", SPrimitive); ("float", SPrimitive); ("bool", SPrimitive);
     ("nonetype", SPrimitive); ("enum.enum", SEnum); ("enum.intenum", SEnum);
     ("collections.abc.mapping", SDict); ("list", SList); ("typing.list", SList);
     ("typing.iterable", SIterable); ("object", SObject); ("uuid.uuid", SUUID);
     ("decimal.decimal", SDecimal); ("typing.union", SUnion); ("typing.optional", SUnion);
     ("pathlib.purepath", SPath); ("zoneinfo.zoneinfo", SZone)].
Definition deser_table : gtable ty dhandler :=
  mkTable
    [Some (TLeaf LkZone); Some (TLeaf LkPath); Some (TLeaf LkDecimal); Some (TLeaf LkComplex);
     Some (TLeaf LkUUID); Some TIntEnumBase; Some TEnumBase; Some (TPrim PBool);
     Some (TPrim PFloat); Some (TPrim PInt); Some TNoneT; Some (TPrim PStr);
     Some (TLeaf LkTimedelta); Some (TLeaf LkTimezone); Some (TLeaf LkTime);
     Some (TLeaf LkDate); Some (TLeaf LkDatetime); Some (TApp true HDefaultDict []);
     Some TOptionalForm; Some TUnionForm; Some (TApp true HTuple []);
     Some (TApp false HTuple []); Some (TApp true HList []); Some (TApp false HList []);
     Some (TApp false HMapping []); Some (TApp false HDict []); Some (TApp true HDict []);
     Some (TApp true HIterable []); Some TObject]
    [("list", DList); ("typing.list", DList); ("tuple", DTuple); ("typing.tuple", DTuple);
     ("typing.union", DUnion); ("typing.optional", DUnion);
     ("typing.defaultdict", DDefaultDict); ("datetime.datetime", DDatetime);
     ("datetime.date", DDate); ("datetime.time", DTime); ("datetime.timezone", DTimezone);
     ("datetime.timedelta", DTimedelta); ("str", DString); ("nonetype", DNone);
     ("int", DPrimitive); ("float", DPrimitive); ("bool", DPrimitive); ("enum.enum", DEnum);
     ("enum.intenum", DEnum); ("collections.abc.mapping", DMapping); ("dict", DMapping);
     ("typing.dict", DMapping); ("typing.iterable", DIterable); ("object", DObject);
     ("uuid.uuid", DUUID); ("complex", DComplex); ("decimal.decimal", DDecimal);
     ("pathlib.purepath", DPath); ("zoneinfo.zoneinfo", DZone)].
Lemma ser_table_ok CT : run_calls (ty_world CT) ser_calls = ser_table.
Proof. vm_compute. reflexivity. Qed.
Lemma deser_table_ok CT : run_calls (ty_world CT) deser_calls = deser_table.
Proof. vm_compute. reflexivity. Qed.
Lemma default_ser_eq CT t : default_ser CT t = lookup (ty_world CT) ser_table t.
Proof. unfold default_ser. now rewrite ser_table_ok. Qed.
Lemma default_deser_eq CT t : default_deser CT t = lookup (ty_world CT) deser_table t.
Proof. unfold default_deser. now rewrite deser_table_ok. Qed.

(** Names under which something is registered by default. *)
Definition registered_names : list string := map fst (t_map ser_table) ++ map fst (t_map deser_table).
Definition fresh_name (ci : cinfo) : Prop := ~ In (slower (ci_name ci)) registered_names.

Lemma fresh_ser ci : fresh_name ci -> sget (slower (ci_name ci)) (t_map ser_table) = None.
Proof.
  intros H. apply sget_None. intros Hin. apply H. apply in_or_app. now left.
Qed.
Lemma fresh_deser ci : fresh_name ci -> sget (slower (ci_name ci)) (t_map deser_table) = None.
Proof.
  intros H. apply sget_None. intros Hin. apply H. apply in_or_app. now right.
Qed.
Lemma lookup_class {F} CT c (t : gtable ty F) :
  sget (slower (ci_name (CT c))) (t_map t) = None ->
  lookup (ty_world CT) t (TClass c) =
  match get_parents (ty_world CT) (TClass c) (t_classes t) with
  | Some p :: _ => sget (lname (ty_world CT) p) (t_map t)
  | _ => None
  end.
Proof.
  intros H. unfold lookup, get_lizer, get_lizer_flat, get_lizer_by_parents.
  change (lname (ty_world CT) (TClass c)) with (slower (ci_name (CT c))). rewrite H.
  destruct (get_parents (ty_world CT) (TClass c) (t_classes t)) as [|[p|] l]; try reflexivity.
  destruct (sget (lname (ty_world CT) p) (t_map t)); reflexivity.
Qed.
Lemma default_ser_class CT c :
  fresh_name (CT c) ->
  default_ser CT (TClass c) =
  match get_parents (ty_world CT) (TClass c) (t_classes ser_table) with
  | Some p :: _ => sget (lname (ty_world CT) p) (t_map ser_table)
  | _ => None
  end.
Proof. intros H. rewrite default_ser_eq. apply lookup_class. now apply fresh_ser. Qed.
Lemma default_deser_class CT c :
  fresh_name (CT c) ->
  default_deser CT (TClass c) =
  match get_parents (ty_world CT) (TClass c) (t_classes deser_table) with
  | Some p :: _ => sget (lname (ty_world CT) p) (t_map deser_table)
  | _ => None
  end.
Proof. intros H. rewrite default_deser_eq. apply lookup_class. now apply fresh_deser. Qed.
Lemma get_parents_class CT c l :
  get_parents (ty_world CT) (TClass c) l =
  filter (fun o => match o with
                   | Some TObject => true
                   | Some b => existsb (ty_eqb b) (supers CT (TClass c))
                   | None => false
                   end) l.
Proof. apply filter_ext. intros [[]|]; reflexivity. Qed.
Ltac parents_of K S :=
  rewrite get_parents_class; unfold supers; rewrite K, S; vm_compute; reflexivity.
Lemma ser_plain_class CT c :
  fresh_name (CT c) -> ci_kind (CT c) = CkObj -> ci_supers (CT c) = [] ->
  default_ser CT (TClass c) = Some SObject.
Proof. intros H K S. rewrite (default_ser_class _ _ H). parents_of K S. Qed.
Lemma deser_plain_class CT c :
  fresh_name (CT c) -> ci_kind (CT c) = CkObj -> ci_supers (CT c) = [] ->
  default_deser CT (TClass c) = Some DObject.
Proof. intros H K S. rewrite (default_deser_class _ _ H). parents_of K S. Qed.
Lemma ser_enum_class CT c m l :
  fresh_name (CT c) -> ci_kind (CT c) = CkEnum m l -> ci_supers (CT c) = [] ->
  default_ser CT (TClass c) = Some SEnum.
Proof. intros H K S. rewrite (default_ser_class _ _ H). destruct m as [[]|]; parents_of K S. Qed.
Lemma deser_enum_class CT c m l :
  fresh_name (CT c) -> ci_kind (CT c) = CkEnum m l -> ci_supers (CT c) = [] ->
  default_deser CT (TClass c) = Some DEnum.
Proof. intros H K S. rewrite (default_deser_class _ _ H). destruct m as [[]|]; parents_of K S. Qed.
Lemma ser_nt_class CT c l :
  fresh_name (CT c) -> ci_kind (CT c) = CkNT l -> ci_supers (CT c) = [] ->
  default_ser CT (TClass c) = Some STuple.
Proof. intros H K S. rewrite (default_ser_class _ _ H). parents_of K S. Qed.
Lemma deser_nt_class CT c l :
  fresh_name (CT c) -> ci_kind (CT c) = CkNT l -> ci_supers (CT c) = [] ->
  default_deser CT (TClass c) = Some DTuple.
Proof. intros H K S. rewrite (default_deser_class _ _ H). parents_of K S. Qed.

(** The fork [f] has the default serializers / deserializers and nothing else. *)
Definition default_serializers (E : env) (f : nat) : Prop :=
  forall t, e_ser E f t = default_ser (e_ct E) t.
Definition default_deserializers (E : env) (f : nat) : Prop :=
  forall t, e_deser E f t = default_deser (e_ct E) t.

(** ** Concrete environments, used in examples only *)
(** A class whose [__init__] stores its parameters under the same names. *)
Fixpoint take_params (ps : list param) (args : list (string * value)) : res (list (string * value)) :=
  match ps with
  | [] => Ok []
  | p :: r =>
      dor rest <- take_params r args;
      match sget (pa_name p) args with
      | Some x => Ok ((pa_name p, x) :: rest)
      | None => match pa_default p with
                | Some x => Ok ((pa_name p, x) :: rest)
                | None => raise KType
                end
      end
  end.
Definition init_of (ps : list param) (args : list (string * value)) : res (list (string * value)) :=
  if forallb (fun kv => mem_str (fst kv) (map pa_name ps)) args then take_params ps args
  else raise KType.
Definition record_class (module name : string) (ps : list param) : cinfo :=
  mkCinfo module name CkObj [] ps [] None [] (fun _ _ => raise KAttribute) (init_of ps)
          (fun a x attrs => Ok (sset a x attrs)) false true.
Definition enum_class (module name : string) (members : list (string * value)) : cinfo :=
  mkCinfo module name (CkEnum None members) [] [] [] None [] (fun _ _ => raise KAttribute)
          (fun _ => raise KType) (fun _ _ _ => raise KAttribute) false true.
Definition nt_class (module name : string) (fields : list ntfield) : cinfo :=
  mkCinfo module name (CkNT fields) [] [] [] None [] (fun _ _ => raise KAttribute)
          (fun _ => raise KType) (fun _ _ _ => raise KAttribute) false true.
(** Every oracle fails or is trivial. *)
Definition demo_rt : runtime :=
  mkRt utc "2020-01-01T00:00:00Z" (fun _ => Ok "") (fun _ => raise KType) (fun _ => raise KType)
       (fun _ => true) (fun _ => 7%Z) (fun _ => raise KType) (fun _ => []) (fun _ => [])
       (fun _ _ => raise KAttribute) (fun v => class_of v) (fun _ => "T")
       (fun _ _ => raise KType) (fun _ => raise KValue) (fun _ => raise KType)
       (fun _ => raise KValue).
(** class Person: name: str, age: int = 0;  class Group: members: List[Person],
    lead: Optional[Person];  class Color(Enum): RED = 1, GREEN = 2;
    class Point(NamedTuple): x: int, y: Optional[int] = None. *)
Definition demo_ct : classes := fun c =>
  match c with
  | 1 => record_class "m" "Person"
           [mkParam "name" (Some (TPrim PStr)) None false;
            mkParam "age" (Some (TPrim PInt)) (Some (VInt 0)) false]
  | 2 => record_class "m" "Group"
           [mkParam "members" (Some (TApp true HList [TClass 1])) None false;
            mkParam "lead" (Some (TUnion [TClass 1; TNoneT])) None false]
  | 3 => enum_class "m" "Color" [("RED", VInt 1); ("GREEN", VInt 2)]
  | 4 => nt_class "m" "Point"
           [mkField "x" (Some (TPrim PInt)) None;
            mkField "y" (Some (TUnion [TPrim PInt; TNoneT])) (Some VNone)]
  | _ => record_class "m" "object" []
  end.
Definition std_env (CT : classes) (R : runtime) : env :=
  mkEnv CT R 0 (fun _ => default_ser CT) (fun _ => default_deser CT) (fun _ _ => None)
        (fun _ _ => true) (fun _ _ => raise KUnknownClass) (fun _ _ _ => raise KType)
        (fun _ _ _ => raise KType).
Definition demo_env : env := std_env demo_ct demo_rt.
Definition john : value := VObj 1 [("name", VStr "John"); ("age", VInt 30)].
Definition mary : value := VObj 1 [("name", VStr "Mary"); ("age", VInt 31)].
Definition group : value := VObj 2 [("members", VList [john; mary]); ("lead", mary)].
Definition john_doc : value := str_dict [("age", VInt 30); ("name", VStr "John")].
Definition mary_doc : value := str_dict [("age", VInt 31); ("name", VStr "Mary")].
Definition group_doc : value := str_dict [("lead", mary_doc); ("members", VList [john_doc; mary_doc])].

Lemma demo_fresh c : fresh_name (demo_ct c).
Proof.
  unfold fresh_name. intros H. apply mem_str_In in H. revert H.
  do 5 (destruct c as [|c]; [vm_compute; discriminate|]). vm_compute; discriminate.
Qed.
