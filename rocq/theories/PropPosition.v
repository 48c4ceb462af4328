(** * C85: the position of a DecodeError *)
From Verif Require Import PositionProofs PropJsonText.
From Coq Require Import Lia.
Local Open Scope string_scope.
Local Close Scope Z_scope.

(** A text is either a JSON document or there is a DecodeError about it: source and doc are the text, target is the
    class, and the position is one where the text goes wrong as the specification says.  What precedes the position can be
    continued to a JSON document; the line and column are 1 plus the lines, and characters after
    them, that precede it. *)
Theorem C85_iff : forall T cls s,
  (exists d, loads_error T cls (OVal (VStr s)) = Some d) <-> forall v, ~ json_document T (codes s) v.
Proof. intros. apply fault_some. Qed.
Theorem C85_raised : forall E T n f o cls s d, loads_error T cls (OVal (VStr s)) = Some d ->
  loads E T n f o cls (OVal (VStr s)) = fail (exn_of KDecode).
Proof.
  intros E T n f o cls s d H. pose proof (proj1 (C85_iff T cls s) (ex_intro _ d H)) as K. cbn [loads]. unfold loads_text.
  destruct (json_loads T (codes s)) as [v|] eqn:Hv; [|reflexivity]. apply JsonTextProofs.json_loads_iff in Hv. now apply K in Hv.
Qed.
Theorem C85_position : forall T cls s d, loads_error T cls (OVal (VStr s)) = Some d ->
  de_source d = FromText (codes s) /\ de_target d = cls /\ de_doc d = codes s /\
  (exists p r, codes s = (p ++ r)%list /\ length p = de_pos d /\ wrong_document T (codes s) r /\ can_be_continued T p) /\
  exists l c, de_lineno d = S l /\ de_colno d = S c /\ lines_and_rest (firstn (de_pos d) (codes s)) l c.
Proof. intros T cls s d. apply fault_error. Qed.
(** Conversely: wherever a text goes wrong as the specification says, there the position is; it is one place. *)
Theorem C85_exact : forall T cls s r, wrong_document T (codes s) r <->
  exists d p, loads_error T cls (OVal (VStr s)) = Some d /\ codes s = (p ++ r)%list /\ length p = de_pos d.
Proof.
  intros T cls s r. split.
  - intros H. destruct (wrong_document_completed T _ _ H) as (p & Hp & _). apply json_fault_iff in H. cbn [loads_error]. rewrite H.
    cbn [option_map]. eexists _, p. split; [reflexivity|]. split; [exact Hp|]. rewrite Hp. symmetry. apply error_at_pos.
  - intros (d & p & Hd & Hp & Hl). destruct (C85_position T cls s d Hd) as (_ & _ & _ & (p' & r' & Hp' & Hl' & Hw & _) & _).
    enough (r = r') as -> by exact Hw. rewrite <- Hl in Hl'. rewrite Hp in Hp'. clear - Hp' Hl'. revert p' Hp' Hl'.
    induction p as [|c p IH]; intros [|c' p'] H Hl; try discriminate; cbn in *; [exact H|]. injection H as _ H. injection Hl as Hl. eauto.
Qed.
Theorem C85_one_place : forall T s r r', wrong_document T s r -> wrong_document T s r' -> r = r'.
Proof. intros T s r r' H H'. apply json_fault_iff in H, H'. congruence. Qed.
Definition lf : string := String (Ascii.ascii_of_nat 10) EmptyString.
Definition where_ (d : option decode_error) : option (nat * nat * nat) :=
  option_map (fun d => (de_pos d, de_lineno d, de_colno d)) d.
Definition at_ (s : string) : option (nat * nat * nat) := where_ (loads_error demo_trt None (OVal (VStr s))).
Example C85_position_ex :
  at_ ("{""a"": [1," ++ lf ++ "  {""b"" 2}]}") = Some (17, 2, 8) /\
  at_ "[1, 2" = Some (5, 1, 6) /\ at_ "[1, ]" = Some (4, 1, 5) /\ at_ "{""a"": tru}" = Some (6, 1, 7) /\
  at_ "{a: 1}" = Some (1, 1, 2) /\ at_ "[1] 2" = Some (4, 1, 5) /\ at_ "" = Some (0, 1, 1) /\
  at_ "[""a\x""]" = Some (3, 1, 4) /\ at_ "[""a\u12""]" = Some (4, 1, 5) /\ at_ "[""abc" = Some (1, 1, 2) /\
  at_ ("[""a" ++ lf ++ """]") = Some (3, 1, 4) /\ at_ "12x" = Some (2, 1, 3) /\ at_ "012" = Some (1, 1, 2) /\ at_ "[1, 2]" = None.
Proof. vm_compute. repeat split. Qed.

Example C85_exact_ex : wrong_document demo_trt (codes "[1, {""a"" 2}]") (codes "2}]") /\ wrong_document demo_trt (codes "12x") (codes "x").
Proof. split; apply json_fault_iff; vm_compute; reflexivity. Qed.

(** Bytes: the position counts the characters of the decoded text, which is also doc.  The source of loads is the
    bytes, that of loadb is the text. *)
Theorem C85_loads_bytes : forall T cls b s d, tr_detect T b = Ok s -> loads_error T cls (OBytes b) = Some d ->
  de_source d = FromBytes b /\ de_target d = cls /\ de_doc d = s /\
  (exists p r, s = (p ++ r)%list /\ length p = de_pos d /\ wrong_document T s r /\ can_be_continued T p) /\
  exists l c, de_lineno d = S l /\ de_colno d = S c /\ lines_and_rest (firstn (de_pos d) s) l c.
Proof. intros T cls b s d Hb. cbn [loads_error]. rewrite Hb. apply fault_error. Qed.
Theorem C85_loadb : forall T cls b s d, Forall scalar_value s -> codes b = flat_map utf8 s ->
  loadb_error T "utf-8" cls (OBytes b) = Some d ->
  de_source d = FromText s /\ de_target d = cls /\ de_doc d = s /\
  (exists p r, s = (p ++ r)%list /\ length p = de_pos d /\ wrong_document T s r /\ can_be_continued T p) /\
  exists l c, de_lineno d = S l /\ de_colno d = S c /\ lines_and_rest (firstn (de_pos d) s) l c.
Proof.
  intros T cls b s d Hs Hb. cbn [loadb_error]. unfold decode_bytes. cbn [String.eqb Ascii.eqb Bool.eqb].
  rewrite Hb, JsonTextProofs.utf8_decode_complete by exact Hs. apply fault_error.
Qed.
Theorem C85_loadb_iff : forall T cls b s, Forall scalar_value s -> codes b = flat_map utf8 s ->
  (exists d, loadb_error T "utf-8" cls (OBytes b) = Some d) <-> forall v, ~ json_document T s v.
Proof.
  intros T cls b s Hs Hb. cbn [loadb_error]. unfold decode_bytes. cbn [String.eqb Ascii.eqb Bool.eqb].
  rewrite Hb, JsonTextProofs.utf8_decode_complete by exact Hs. apply fault_some.
Qed.

(** Refuted: that the position is the end of the longest beginning that can be continued.  A string
    that does not end is reported at its beginning, although the whole text can be continued. *)
Theorem C85_longest_refuted : exists T s d, loads_error T None (OVal (VStr s)) = Some d /\ de_pos d = 0 /\
  can_be_continued T (codes s).
Proof.
  exists demo_trt, """abc", (error_at (FromText (codes """abc")) None (codes """abc") (codes """abc")).
  split; [vm_compute; reflexivity|]. split; [vm_compute; reflexivity|]. exists (codes """"), (VStr "abc").
  apply JsonTextProofs.json_loads_iff. vm_compute. reflexivity.
Qed.
(** Refuted: that the position of loadb is one in the bytes, and that the source is what was given. *)
Definition euro_bytes : string := "[""" ++ String (Ascii.ascii_of_nat 226) (String (Ascii.ascii_of_nat 130) (String (Ascii.ascii_of_nat 172) """ x]")).
Theorem C85_bytes_refuted : forall T, exists s d, Forall scalar_value s /\ codes euro_bytes = flat_map utf8 s /\
  loadb_error T "utf-8" None (OBytes euro_bytes) = Some d /\ de_source d <> FromBytes euro_bytes /\
  de_pos d = 5 /\ nth_error s 5 = Some 120%Z /\ nth_error (codes euro_bytes) 5 = Some 34%Z.
Proof.
  intros T. exists [91; 34; 8364; 34; 32; 120; 93]%Z. eexists. split; [repeat constructor; unfold scalar_value; lia|].
  split; [vm_compute; reflexivity|]. split; [vm_compute; reflexivity|]. split; [discriminate|]. vm_compute. auto.
Qed.
Print Assumptions C85_iff.
Print Assumptions C85_raised.
Print Assumptions C85_position.
Print Assumptions C85_exact.
Print Assumptions C85_one_place.
Print Assumptions C85_loads_bytes.
Print Assumptions C85_loadb.
Print Assumptions C85_loadb_iff.
Print Assumptions C85_longest_refuted.
Print Assumptions C85_bytes_refuted.
