(** * C63: dumps and loads end

    A call that does not end within [n] nested calls gives [Oof] in the model. *)
From Verif Require Import EngineEnv EngineFacts ResolveModel TerminationSpec DumpTermination LoadTermination.
Local Open Scope string_scope.

(** From some depth of nested calls on, the result is always the same, and it is a value or an
    exception. *)
Definition comes_to_an_end (run : nat -> M value) : Prop :=
  exists N r, snd r <> Oof /\ forall n, N <= n -> run n = r.
Definition never_ends (run : nat -> M value) : Prop := forall n, snd (run n) = Oof.

(** ** Dumps *)
(** Whatever the classes, the options, the custom serializers and the class given: if there is no
    infinite chain of parts of parts of the object, its dump ends. *)
Theorem C63_dump_terminates : forall E f o v cls, leaves_settled E f -> well_founded_value E o v ->
  comes_to_an_end (fun n => dump E f n o cls v).
Proof.
  intros E f o v cls Hl Hv. destruct (dump_terminates E f Hl o v cls Hv) as [N HN].
  exists N, (dump E f N o cls v). split; [exact HN|]. intros n Hn. now apply dump_stable.
Qed.
(** Without strict mode, with properties left out and class variables left out or simple, every
    dump ends: of every object, with every class. *)
Theorem C63_dump_always_ends : forall E f o, default_serializers E f -> shallow_world E -> so_strict o = false ->
  members_inert E o -> forall v cls, comes_to_an_end (fun n => dump E f n o cls v).
Proof.
  intros E f o Hd Hs Ho Hm v cls. apply C63_dump_terminates; [intros t _; left; apply Hd|].
  now apply all_well_founded.
Qed.

(** ** Loads *)
(** Every load ends, of every document with every class and every options, if the classes do
    not lead round in circles. *)
Theorem C63_load_terminates : forall E f o cls j, deserializers_settled E f -> deserializers_settled E 0 ->
  well_founded (below E f) -> defaults_simple E -> keys_settled o -> names_settled E f \/ no_meta j ->
  comes_to_an_end (fun n => load E n f o cls j).
Proof.
  intros E f o cls j H1 H2 H3 H4 H5 H6.
  destruct (document_ends E f H1 H2 H3 H4 j H6 o cls H5) as [N HN].
  exists N, (load E N f o cls j). split; [now apply HN|]. intros n Hn. apply load_stable; [exact Hn|now apply HN].
Qed.
(** The classes do not lead round in circles if no named tuple starts with a named tuple. *)
Theorem C63_load_terminates_flat : forall E f o cls j, default_deserializers E f -> default_deserializers E 0 ->
  first_fields_flat E f -> defaults_simple E -> keys_settled o -> no_meta j ->
  comes_to_an_end (fun n => load E n f o cls j).
Proof.
  intros E f o cls j H1 H2 H3 H4 H5 H6.
  apply C63_load_terminates; auto; try (intros t; left; auto). now apply flat_founded.
Qed.

(** ** What does not end *)
(** class Twin has a property that gives a new Twin; class Sole keeps one of its instances in a
    class variable. *)
Definition endless_ct : classes := fun c =>
  match c with
  | 1 => mkCinfo "m" "Twin" CkObj [] [] [] None [("twin", MProp)]
                 (fun a attrs => if String.eqb a "twin" then Ok (VObj 1 []) else raise KAttribute)
                 (init_of []) (fun a x attrs => Ok (sset a x attrs)) false true
  | 2 => mkCinfo "m" "Sole" CkObj [] [] [] None [("instance", MVar (VObj 2 []))]
                 (fun _ _ => raise KAttribute)
                 (init_of []) (fun a x attrs => Ok (sset a x attrs)) false true
  | 5 => mkCinfo "m" "Square" CkObj [] [mkParam "side" (Some (TPrim PInt)) None false] [] None [("area", MProp)]
                 (fun a attrs => if String.eqb a "area" then Ok (VInt 9) else raise KAttribute)
                 (init_of []) (fun a x attrs => Ok (sset a x attrs)) false true
  | _ => demo_ct c
  end.
Definition endless_env : env := std_env endless_ct demo_rt.
Ltac oof_step S0 H :=
  vm_compute in H |- *;
  match goal with |- context [S0 ?a ?b ?c ?d] => destruct (S0 a b c d) as [? ?] end;
  cbn in H; rewrite H; reflexivity.
Lemma endless_step c S0 : c = 1 \/ c = 2 ->
  snd (S0 (set_attr_opt (SATuple []) sopts0) (Some SObject) None (VObj c [])) = Oof ->
  forall a, a = SANone \/ a = SATuple [] ->
  snd (ser_step endless_env 0 S0 (set_attr_opt a sopts0) (Some SObject) None (VObj c [])) = Oof.
Proof. intros [-> | ->] H a [-> | ->]; oof_step S0 H. Qed.
Lemma endless_serialize c : c = 1 \/ c = 2 -> forall n a, a = SANone \/ a = SATuple [] ->
  snd (serialize endless_env 0 n (set_attr_opt a sopts0) (Some SObject) None (VObj c [])) = Oof.
Proof.
  intros Hc. induction n as [|n IH]; intros a Ha; [reflexivity|]. cbn [serialize].
  apply endless_step; [exact Hc|apply IH; now right|exact Ha].
Qed.
Lemma endless_dump c S0 : c = 1 \/ c = 2 ->
  snd (S0 sopts0 (Some SObject) None (VObj c [])) = Oof ->
  snd (dump_ endless_env 0 S0 sopts0 None (VObj c [])) = Oof.
Proof. intros [-> | ->] H; oof_step S0 H. Qed.
(** A property that gives a new instance of the class, and a class variable with an instance of
    the class (the usual singleton): with the default options dump never ends. *)
Theorem C63_property_refuted : never_ends (fun n => dump endless_env 0 n sopts0 None (VObj 1 [])).
Proof.
  intros n. apply endless_dump; [now left|]. apply (endless_serialize 1 (or_introl eq_refl) n SANone). now left.
Qed.
Theorem C63_class_variable_refuted : never_ends (fun n => dump endless_env 0 n sopts0 None (VObj 2 [])).
Proof.
  intros n. apply endless_dump; [now right|]. apply (endless_serialize 2 (or_intror eq_refl) n SANone). now left.
Qed.

(** Python, with typing.Union and typing.DefaultDict *)
Definition plain_python : python :=
  mkPython (fun s => sget s [("int", TPrim PInt); ("str", TPrim PStr)])
           (fun m => if String.eqb m "typing"
                     then Module (fun n => sget n [("Union", TUnionForm); ("DefaultDict", TApp true HDefaultDict [])])
                     else NoModule)
           (fun t ts => match t with TUnionForm => Ok (TUnion ts) | _ => raise KType end).
Definition plain_env : env := with_names demo_env plain_python [].
Definition meta_doc (s : string) : value :=
  str_dict [("-meta", str_dict [("classes", str_dict [("/", VStr s)])])].
Definition meta_opts (s : string) : lopts := mkLopts false [] None (Some [(VStr "/", VStr s)]) true false None.
Definition union_name : string := "typing.Union[int, str]".
(** The next call of load, with the same document, for each of these names *)
Definition next_type (s : string) : ty :=
  if String.eqb s union_name then TPrim PInt
  else if String.eqb s "str" then TLeaf LkDatetime else TApp true HDict [].
Definition circular (s : string) : Prop := In s [union_name; "str"; "typing.DefaultDict"].
Definition starting (s : string) (o : lopts) (cls : option ty) : Prop :=
  (o = lopts0 /\ cls = None) \/ (o = meta_opts s /\ cls = Some (next_type s)).
Lemma meta_step s L : circular s ->
  snd (L 0 (meta_opts s) (Some (next_type s)) (meta_doc s)) = Oof ->
  forall o cls, starting s o cls -> snd (load_step plain_env L 0 o cls (meta_doc s)) = Oof.
Proof.
  intros [<-|[<-|[<-|[]]]] H o cls [[-> ->]|[-> ->]]; oof_step L H.
Qed.
(** A document of one line that names typing.Union, str or typing.DefaultDict as its class: the
    load never ends, if the depth of calls is not limited. *)
Theorem C63_meta_refuted : forall s, circular s ->
  never_ends (fun n => load plain_env n 0 lopts0 None (meta_doc s)).
Proof.
  intros s Hs. assert (H : forall n o cls, starting s o cls -> snd (load plain_env n 0 o cls (meta_doc s)) = Oof).
  { induction n as [|n IH]; intros o cls Ho; [reflexivity|]. cbn [load].
    apply meta_step; [exact Hs| |exact Ho]. apply IH. now right. }
  intros n. apply H. now left.
Qed.
(** Python limits the depth: the call that exceeds it raises a RecursionError, an ordinary
    exception.  [load_limited] does this at depth [n] and records it. *)
Definition recursion_error : ev := EvGetter "RecursionError".
Fixpoint load_limited (E : env) (n : nat) (f : nat) (o : lopts) (cls : option ty) (j : value) : M value :=
  match n with
  | O => ([recursion_error], Fail (exn_of (KOther 0)))
  | S n' => load_step E (load_limited E n') f o cls j
  end.
Definition hits (m : M value) : nat := length (fst m).
Definition in_union (o : lopts) (cls : option ty) : Prop :=
  starting union_name o cls \/ (o = meta_opts union_name /\ cls = Some (TPrim PStr)).
Lemma union_step L a b e1 e2 : forall o cls, in_union o cls ->
  L 0 (meta_opts union_name) (Some (TPrim PInt)) (meta_doc union_name) = (a, Fail e1) ->
  L 0 (meta_opts union_name) (Some (TPrim PStr)) (meta_doc union_name) = (b, Fail e2) ->
  e_kind e1 = KDeser -> e_kind e2 = KDeser ->
  exists evs e, load_step plain_env L 0 o cls (meta_doc union_name) = (evs, Fail e) /\
    e_kind e = KDeser /\ length evs = length a + length b.
Proof.
  intros o cls Ho H1 H2 K1 K2. destruct e1 as [k1 x1 y1 z1 w1], e2 as [k2 x2 y2 z2 w2]. cbn in K1, K2. subst k1 k2.
  destruct Ho as [[[-> ->]|[-> ->]]|[-> ->]]; vm_compute in H1, H2 |- *; rewrite H1, H2; eexists; eexists;
    (split; [reflexivity|]); (split; [reflexivity|]);
    change (length ((a ++ (b ++ [])) ++ [])%list = length a + length b); rewrite !app_nil_r; apply app_length.
Qed.
Lemma union_hits : forall n o cls, in_union o cls ->
  exists evs e, load_limited plain_env (S n) 0 o cls (meta_doc union_name) = (evs, Fail e) /\
    e_kind e = KDeser /\ length evs = 2 ^ n.
Proof.
  induction n as [|n IH]; intros o cls Ho.
  - destruct Ho as [[[-> ->]|[-> ->]]|[-> ->]]; vm_compute; eexists; eexists; (split; [reflexivity|]); now split.
  - destruct (IH (meta_opts union_name) (Some (TPrim PInt))) as (a & e1 & H1 & K1 & L1); [left; now right|].
    destruct (IH (meta_opts union_name) (Some (TPrim PStr))) as (b & e2 & H2 & K2 & L2); [now right|].
    destruct (union_step _ a b e1 e2 o cls Ho H1 H2 K1 K2) as (evs & e & H & K & Hl).
    exists evs, e. split; [exact H|]. split; [exact K|]. rewrite Hl, L1, L2. cbn [Nat.pow]. lia.
Qed.
(** The RecursionError becomes a DeserializationError at the next call of load, and the Union goes
    on with its next type: when the depth is limited to n+1, the limit is hit 2^n times. *)
Theorem C63_recursion_limit_refuted : forall n,
  hits (load_limited plain_env (S n) 0 lopts0 None (meta_doc union_name)) = 2 ^ n.
Proof.
  intros n. destruct (union_hits n lopts0 None) as (evs & e & H & _ & Hl); [left; now left|].
  unfold hits. now rewrite H.
Qed.

(** class Neg(NamedTuple): arg: Union['Neg', str] *)
Definition neg_ct : classes := fun c =>
  match c with
  | 1 => nt_class "m" "Neg" [mkField "arg" (Some (TUnion [TClass 1; TPrim PStr])) None]
  | _ => demo_ct c
  end.
Definition neg_env : env := std_env neg_ct demo_rt.
Definition neg_opts : lopts := mkLopts false [] None (Some []) false false None.
Definition neg_arg : ty := TUnion [TClass 1; TPrim PStr].
Definition neg_doc : value := str_dict [("arg", VStr "x")].
Definition neg_start (o : lopts) (j : value) : Prop := (o = lopts0 /\ j = neg_doc) \/ (o = neg_opts /\ j = VStr "x").
Lemma neg_step L o j : neg_start o j -> snd (L 0 neg_opts (Some neg_arg) (VStr "x")) = Oof ->
  snd (load_step neg_env L 0 o (Some (TClass 1)) j) = Oof.
Proof. intros [[-> ->]|[-> ->]] H; oof_step L H. Qed.
Lemma neg_union_step L : snd (L 0 neg_opts (Some (TClass 1)) (VStr "x")) = Oof ->
  snd (load_step neg_env L 0 neg_opts (Some neg_arg) (VStr "x")) = Oof.
Proof. intros H; oof_step L H. Qed.
(** The first character of the string 'x' is 'x': a named tuple that may start with itself is
    tried for it again and again. *)
Theorem C63_namedtuple_refuted : never_ends (fun n => load neg_env n 0 lopts0 (Some (TClass 1)) neg_doc).
Proof.
  assert (H : forall n, (forall o j, neg_start o j -> snd (load neg_env n 0 o (Some (TClass 1)) j) = Oof) /\
                        snd (load neg_env n 0 neg_opts (Some neg_arg) (VStr "x")) = Oof).
  { induction n as [|n [IH1 IH2]]; [now split|]. split.
    - intros o j Ho. apply neg_step; [exact Ho|exact IH2].
    - apply neg_union_step. apply IH1. now right. }
  intros n. apply (proj1 (H n)). now left.
Qed.
(** Neg(Neg(... 'x')) *)
Fixpoint negs (k : nat) : value := match k with O => VStr "x" | S k => VNT 1 [negs k] end.
Lemma neg_value L o j x : neg_start o j -> snd (L 0 neg_opts (Some neg_arg) (VStr "x")) = Done x -> x <> VNone ->
  snd (load_step neg_env L 0 o (Some (TClass 1)) j) = Done (VNT 1 [x]).
Proof.
  intros [[-> ->]|[-> ->]] H Hx; vm_compute in H |- *;
    match goal with |- context [L ?a ?b ?c ?d] => destruct (L a b c d) as [? ?] end;
    cbn in H; rewrite H; reflexivity.
Qed.
Lemma neg_union_value L x : snd (L 0 neg_opts (Some (TClass 1)) (VStr "x")) = Done x ->
  snd (load_step neg_env L 0 neg_opts (Some neg_arg) (VStr "x")) = Done x.
Proof. intros H; oof_step L H. Qed.
(** What the limit of the depth makes of it: the document of Neg('x') is loaded as a tower of Negs
    as high as the limit allows. *)
Theorem C63_namedtuple_tower_refuted : forall k,
  snd (load_limited neg_env (S (2 * S k)) 0 lopts0 (Some (TClass 1)) neg_doc) = Done (negs (S k)).
Proof.
  assert (H : forall k, snd (load_limited neg_env (2 * S k) 0 neg_opts (Some neg_arg) (VStr "x")) = Done (negs k)).
  { induction k as [|k IH]; [vm_compute; reflexivity|].
    replace (2 * S (S k)) with (S (S (2 * S k))) by lia. cbn [load_limited]. apply neg_union_value.
    cbn [negs]. apply neg_value; [now right|exact IH|destruct k; discriminate]. }
  intros k. cbn [load_limited negs]. apply neg_value; [now left|apply H|destruct k; discriminate].
Qed.

(** ** Examples *)
(** class Node(NamedTuple): value: str; next: Optional['Node'] = None: a recursive named tuple
    that does not start with itself. *)
Definition node_ct : classes := fun c =>
  match c with
  | 7 => nt_class "m" "Node" [mkField "value" (Some (TPrim PStr)) None;
                              mkField "next" (Some (TUnion [TClass 7; TNoneT])) (Some VNone)]
  | _ => demo_ct c
  end.
Definition node_env : env := std_env node_ct demo_rt.
Lemma node_nt c fs : ci_kind (node_ct c) = CkNT fs ->
  fs = [mkField "x" (Some (TPrim PInt)) None; mkField "y" (Some (TUnion [TPrim PInt; TNoneT])) (Some VNone)] \/
  fs = [mkField "value" (Some (TPrim PStr)) None; mkField "next" (Some (TUnion [TClass 7; TNoneT])) (Some VNone)].
Proof.
  do 8 (destruct c as [|c]; [cbn; intros H; try discriminate H; injection H as <-; auto|]).
  cbn. discriminate.
Qed.
Lemma node_flat : first_fields_flat node_env 0.
Proof.
  split; [discriminate|]. intros c fd r u Hk Hu. destruct (node_nt c _ Hk) as [[= -> _]|[= -> _]];
    injection Hu as <-; exact I.
Qed.
Lemma node_defaults : defaults_simple node_env.
Proof.
  intros c fs fd x Hk Hin Hx.
  destruct (node_nt c fs Hk) as [-> | ->]; destruct Hin as [<-|[<-|[]]]; try discriminate Hx; injection Hx as <-;
    (split; [exact I|discriminate]).
Qed.
Definition node_doc : value :=
  str_dict [("value", VStr "a"); ("next", str_dict [("value", VStr "b"); ("next", VNone)])].
Lemma node_doc_plain : no_meta node_doc.
Proof.
  intros k d H. remember (VDict k d) as x eqn:Hx. remember node_doc as j eqn:Hj.
  assert (Hw : In x [node_doc; str_dict [("value", VStr "b"); ("next", VNone)]; VStr "value"; VStr "next"; VStr "a"; VStr "b"; VNone]).
  { clear k d Hx. induction H as [v|a b v Ha Hb IH]; [subst; now left|]. specialize (IH Hj).
    destruct IH as [<-|[<-|[<-|[<-|[<-|[<-|[<-|[]]]]]]]]; inversion Ha as [| | |k d key y Hin|k d key y Hin]; subst;
      destruct Hin as [[= <- <-]|[[= <- <-]|[]]]; cbn; tauto. }
  destruct Hw as [<-|[<-|[<-|[<-|[<-|[<-|[<-|[]]]]]]]]; try discriminate Hx; injection Hx as <- <-; reflexivity.
Qed.
Example C63_ex_load : comes_to_an_end (fun n => load node_env n 0 lopts0 (Some (TClass 7)) node_doc) /\
  snd (load node_env 9 0 lopts0 (Some (TClass 7)) node_doc) = Done (VNT 7 [VStr "a"; VNT 7 [VStr "b"; VNone]]).
Proof.
  split; [|vm_compute; reflexivity].
  apply C63_load_terminates_flat; try (intros t; reflexivity);
    [exact node_flat|exact node_defaults|intros g k k'; discriminate|exact node_doc_plain].
Qed.
(** Names of classes in documents are no danger if they stand for objects and named tuples. *)
Definition node_names : env :=
  mkEnv node_ct demo_rt 0 (fun _ => default_ser node_ct) (fun _ => default_deser node_ct) (fun _ _ => None)
        (fun _ _ => true)
        (fun _ s => match sget s [("m.Person", TClass 1); ("m.Node", TClass 7)] with
                    | Some t => Ok t | None => raise KUnknownClass end)
        (fun _ _ _ => raise KType) (fun _ _ _ => raise KType).
Lemma node_names_cases s t : e_resolve node_names 0 s = Ok t -> t = TClass 1 \/ t = TClass 7.
Proof.
  cbn [e_resolve node_names]. unfold sget, aget. cbn. destruct (String.eqb s "m.Person"); [intros [= <-]; now left|].
  destruct (String.eqb s "m.Node"); [intros [= <-]; now right|discriminate].
Qed.
Example C63_ex_names : forall j cls, comes_to_an_end (fun n => load node_names n 0 lopts0 cls j).
Proof.
  intros j cls. apply C63_load_terminates; try (intros t; left; reflexivity).
  - apply flat_founded. split; [|apply node_flat].
    intros s t Ht. destruct (node_names_cases s t Ht) as [-> | ->]; exact I.
  - exact node_defaults.
  - intros g k k'; discriminate.
  - left. intros s t h Ht Hh.
    destruct (node_names_cases s t Ht) as [-> | ->]; vm_compute in Hh; injection Hh as <-; repeat split; discriminate.
Qed.
(** Objects without properties and class variables *)
Example C63_ex_dump : comes_to_an_end (fun n => dump demo_env 0 n sopts0 None group) /\
  snd (dump demo_env 0 9 sopts0 None group) = Done group_doc.
Proof.
  split; [|vm_compute; reflexivity]. apply C63_dump_always_ends; [intros t; reflexivity| |reflexivity|].
  - repeat split; try discriminate. intros c n x H.
    do 5 (destruct c as [|c]; [cbn in H; repeat (destruct H as [[= <- <-]|H]); try contradiction; exact I|]).
    destruct H.
  - intros c a m H. do 5 (destruct c as [|c]; [destruct H|]). destruct H.
Qed.
(** A property that gives a number: the dump of such an object ends although its class has a
    property. *)
Lemma square_founded : well_founded_value endless_env sopts0 (VObj 5 [("side", VInt 3)]).
Proof.
  assert (Hw : shallow_world endless_env).
  { repeat split; try discriminate. intros c n x H.
    do 6 (destruct c as [|c]; [cbn in H; repeat (destruct H as [[= <- <-]|H]); try contradiction; exact I|]).
    destruct H. }
  constructor. intros x Hx. apply simple_wf; [exact Hw|reflexivity|].
  inversion Hx as [v l y Hs Hl Hin|s y Hs Hin|k d key y Hin|c attrs a y Hin|c attrs a y Ho Hin|c attrs a y Ho Hin Hp
                  |v a y Hs Hg Hc|v a y Hs Hi Hg]; subst.
  - discriminate Hl.
  - destruct Hin as [[= <- <-]|[]]. exact I.
  - destruct Hin as [[= ? ?]|[]].
  - destruct Hin as [[= <-]|[]]. injection Hp as <-. exact I.
  - destruct Hs.
  - destruct Hi. exact I.
Qed.
Example C63_ex_property : comes_to_an_end (fun n => dump endless_env 0 n sopts0 None (VObj 5 [("side", VInt 3)])) /\
  snd (dump endless_env 0 5 sopts0 None (VObj 5 [("side", VInt 3)])) =
    Done (str_dict [("area", VInt 9); ("side", VInt 3)]).
Proof.
  split; [|vm_compute; reflexivity]. apply C63_dump_terminates; [intros t _; left; reflexivity|exact square_founded].
Qed.
Print Assumptions C63_dump_always_ends.
Print Assumptions C63_load_terminates_flat.
Print Assumptions C63_recursion_limit_refuted.
Print Assumptions C63_namedtuple_tower_refuted.
