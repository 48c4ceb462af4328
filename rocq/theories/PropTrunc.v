(** * C86: texts that are cut off, joined, surrounded by white space, or written line by line

    Nothing is modelled anew: dumps and dumpb are those of LayoutModel.v, loads and loadb those of
    JsonTextModel.v, and the positions of errors those of PositionModel.v.  Specification: TruncSpec.v. *)
From Coq Require Import Lia.
From Verif Require Import EngineEnv EngineFacts JsonTextProofs JsonTextLaws LayoutProofs LayoutLaws PositionProofs TruncProofs
  PropJsonText PropLayout PropPosition.
Local Open Scope string_scope.
Local Close Scope Z_scope.

(** ** Cut off *)
(** Unless a number was dumped, no text that dumps wrote can be loaded once its end is missing, however it is cut:
    a DecodeError, whatever is asked for. *)
Theorem C86_cut : forall E T L f n o cls v j s p q,
  plain_layout L -> snd (dump E f n o cls v) = Done j -> floats_read_back T (e_ct E) j -> no_number j ->
  snd (dumps_with E T L f n o cls v) = Done s -> s = p ++ q -> q <> "" ->
  forall E' m g lo cls', loads E' T m g lo cls' (OVal (VStr p)) = fail (exn_of KDecode).
Proof.
  intros E T L f n o cls v j s p q HL Hd Hf Hn H -> Hq E' m g lo cls'.
  destruct (dumps_with_value E T L f n o cls v _ j HL Hd Hf Hn H) as (j' & Hn' & Hv). rewrite codes_app in Hv.
  apply loads_malformed. apply (value_cut T _ _ _ Hv Hn'). destruct q; [contradiction|discriminate].
Qed.
(** Bytes: a DecodeError, or a UnicodeDecodeError if a character is cut. *)
Theorem C86_cut_bytes : forall E T L f n o cls v j b p q,
  plain_layout L -> snd (dump E f n o cls v) = Done j -> floats_read_back T (e_ct E) j -> no_number j ->
  snd (dumpb_with E T L f n o "utf-8" cls v) = Done b -> b = p ++ q -> q <> "" ->
  forall E' m g lo cls', loadb E' T m g lo "utf-8" cls' (OBytes p) = fail (exn_of KDecode) \/
                         loadb E' T m g lo "utf-8" cls' (OBytes p) = fail (exn_of KUnicode).
Proof.
  intros E T L f n o cls v j b p q HL Hd Hf Hn H -> Hq E' m g lo cls'.
  apply C66_bytes in H as (s & H & Hb & _).
  destruct (dumps_with_value E T L f n o cls v _ j HL Hd Hf Hn H) as (j' & Hn' & Hv). rewrite codes_app in Hb.
  cbn [loadb]. unfold decode_bytes. cbn [String.eqb Ascii.eqb Bool.eqb].
  destruct (utf8_decode (codes p)) as [t|] eqn:Ht; [left|now right]. cbn [lift]. rewrite bind_ret_l.
  destruct (decode_prefix (codes s) (codes p) (codes q) t) as (r & Hr & Hr0); auto.
  - apply codes_scalar.
  - apply codes_nonneg.
  - destruct q; [contradiction|discriminate].
  - apply loads_text_malformed. rewrite Hr in Hv. now apply (value_cut T _ _ _ Hv Hn').
Qed.
Example C86_cut_case :
  plain_layout compact /\ no_number (str_dict [("a", VList [VInt 1; VInt 23])]) /\
  floats_read_back demo_trt demo_ct (str_dict [("a", VList [VInt 1; VInt 23])]) /\
  snd (dump demo_env 0 5 sopts0 None (str_dict [("a", VList [VInt 1; VInt 23])])) = Done (str_dict [("a", VList [VInt 1; VInt 23])]) /\
  snd (dumps_with demo_env demo_trt compact 0 5 sopts0 None (str_dict [("a", VList [VInt 1; VInt 23])])) = Done ("{""a"":[1,2" ++ "3]}") /\
  snd (loads demo_env demo_trt 5 0 lopts0 None (OVal (VStr "{""a"":[1,2"))) = Fail (exn_of KDecode) /\
  snd (dumpb_with demo_env demo_trt latin_layout 0 5 sopts0 "utf-8" None (VStr (bytes [233]))) = Done (bytes [34; 195] ++ bytes [169; 34]) /\
  snd (loadb demo_env demo_trt 5 0 lopts0 "utf-8" None (OBytes (bytes [34; 195]))) = Fail (exn_of KUnicode) /\
  snd (loadb demo_env demo_trt 5 0 lopts0 "utf-8" None (OBytes (bytes [34; 195; 169]))) = Fail (exn_of KDecode).
Proof.
  split; [apply C66_loads_case|]. split; [exact I|].
  split; [apply fr_dict; intros y x [H|[]]; injection H as <- <-; apply fr_list; intros z [<-|[<-|[]]]; apply fr_scalar; (discriminate || exact I)|].
  repeat split; vm_compute; reflexivity.
Qed.

(** ** Joined *)
(** If something follows, other than white space, it is refused, and the error is where the first text ends. *)
Theorem C86_joined : forall E T L f n o cls v j s c r,
  plain_layout L -> snd (dump E f n o cls v) = Done j -> floats_read_back T (e_ct E) j -> no_number j ->
  snd (dumps_with E T L f n o cls v) = Done s -> ~ space (Z.of_nat (Ascii.nat_of_ascii c)) ->
  forall E' m g lo cls', loads E' T m g lo cls' (OVal (VStr (s ++ String c r))) = fail (exn_of KDecode) /\
    exists d, loads_error T cls' (OVal (VStr (s ++ String c r))) = Some d /\ de_pos d = String.length s.
Proof.
  intros E T L f n o cls v j s c r HL Hd Hf Hn H Hc E' m g lo cls'.
  destruct (dumps_with_value E T L f n o cls v _ j HL Hd Hf Hn H) as (j' & Hn' & Hv).
  assert (W : wrong_document T (codes (s ++ String c r)) (codes (String c r))).
  { rewrite codes_app. now apply (extra_wrong T _ j'); [apply value_document| |]. }
  apply (C85_exact T cls') in W as (d & p & He & Hp & Hl). split; [now apply (C85_raised E' T m g lo cls' _ d)|].
  exists d. split; [exact He|]. rewrite <- Hl. rewrite codes_app in Hp. apply app_inv_tail in Hp. rewrite <- Hp. apply codes_length.
Qed.
Example C86_joined_case :
  snd (dumps demo_env demo_trt 0 5 sopts0 None (VList [VInt 1])) = Done "[1]" /\
  where_ (loads_error demo_trt None (OVal (VStr ("[1]" ++ "[2]")))) = Some (3, 1, 4).
Proof. split; vm_compute; reflexivity. Qed.

(** ** White space *)
(** White space before and after a text changes nothing, whatever the text: a result, its effects, an error. *)
Theorem C86_spaces : forall E T n f o cls w s w', spaces (codes w) -> spaces (codes w') ->
  loads E T n f o cls (OVal (VStr (w ++ s ++ w'))) = loads E T n f o cls (OVal (VStr s)).
Proof.
  intros E T n f o cls w s w' Hw Hw'. cbn [loads]. unfold loads_text. now rewrite !codes_app, json_loads_spaces.
Qed.
Example C86_spaces_case : spaces (codes (bytes [32; 9; 10; 13])) /\
  snd (loads demo_env demo_trt 5 0 lopts0 None (OVal (VStr (bytes [32; 10] ++ "[1]" ++ bytes [13; 9])))) = Done (VList [VInt 1]).
Proof. split; [repeat constructor; unfold space; cbn; lia|vm_compute; reflexivity]. Qed.

(** ** One text per line *)
(** Texts written one per line, without indentation: however the file is taken apart into lines, the lines are the
    texts that were written, and a line that keeps its line feed is loaded like one that does not. *)
Theorem C86_lines : forall E T L f n o cls vs ss ls,
  ly_indent L = None -> separators_are one_line L -> (forall x, one_line (tr_repr T x)) ->
  Forall2 (fun v s => snd (dumps_with E T L f n o cls v) = Done s) vs ss ->
  Forall a_line ls -> file_of ls = file_of ss -> ls = ss.
Proof.
  intros E T L f n o cls vs ss ls Hi Hs Ht H Hl He. apply file_inj; [exact Hl| |exact He]. clear He.
  induction H as [|v s vs ss H _ IH]; constructor; [|exact IH]. apply one_line_a_line. now apply (dumps_with_line E T L f n o cls v).
Qed.
Theorem C86_line_feed : forall E T n f o cls s,
  loads E T n f o cls (OVal (VStr (s ++ line_feed))) = loads E T n f o cls (OVal (VStr s)).
Proof.
  intros. apply (C86_spaces E T n f o cls "" s line_feed); [constructor|]. repeat constructor; unfold space; cbn; lia.
Qed.
Example C86_lines_case : ly_indent compact = None /\ separators_are one_line compact /\ (forall x, one_line (tr_repr demo_trt x)) /\
  Forall2 (fun v s => snd (dumps_with demo_env demo_trt compact 0 5 sopts0 None v) = Done s)
    [VList [VInt 1]; VStr line_feed; VInt 2] ["[1]"; """\n"""; "2"] /\
  file_of ["[1]"; """\n"""; "2"] = "[1]" ++ line_feed ++ """\n""" ++ line_feed ++ "2" ++ line_feed.
Proof.
  split; [reflexivity|]. split; [split; repeat constructor; cbn; lia|].
  split; [intros x; repeat constructor; cbn; lia|]. split; [|reflexivity].
  constructor; [vm_compute; reflexivity|]. constructor; [vm_compute; reflexivity|]. constructor; [vm_compute; reflexivity|constructor].
Qed.
(** Refuted with indentation: the lines of the file are not the texts. *)
Theorem C86_indented_refuted : exists E T L v s l, plain_layout L /\ snd (dumps_with E T L 0 5 sopts0 None v) = Done s /\
  Forall a_line l /\ file_of l = file_of [s] /\ l <> [s].
Proof.
  exists demo_env, demo_trt, pretty, (VList [VInt 1]), ("[" ++ line_feed ++ "  1" ++ line_feed ++ "]"), ["["; "  1"; "]"].
  split; [split; exact I|]. split; [vm_compute; reflexivity|].
  split; [repeat constructor; cbn; lia|]. split; [reflexivity|discriminate].
Qed.

(** ** Numbers *)
(** Refuted for numbers: 12 cut off is 1, and 1 and 2 joined are 12. *)
Theorem C86_numbers_refuted : exists E T, plain_layout layout0 /\
  snd (dumps E T 0 5 sopts0 None (VInt 12)) = Done ("1" ++ "2") /\
  snd (loads E T 5 0 lopts0 None (OVal (VStr "1"))) = Done (VInt 1) /\
  snd (dumps E T 0 5 sopts0 None (VInt 1)) = Done "1" /\ snd (dumps E T 0 5 sopts0 None (VInt 2)) = Done "2" /\
  snd (loads E T 5 0 lopts0 None (OVal (VStr ("1" ++ "2")))) = Done (VInt 12).
Proof. exists demo_env, demo_trt. split; [split; exact I|]. repeat split; vm_compute; reflexivity. Qed.
(** What happens: an integer that is cut off is loaded as its quotient by a power of ten, rounded towards zero; only
    if nothing or the sign is left there is a DecodeError. *)
Theorem C86_cut_integer : forall E T L f n o cls v z p q,
  snd (dump E f n o cls v) = Done (VInt z) -> snd (dumps_with E T L f n o cls v) = Done (p ++ q) ->
  forall E' m g lo cls',
    (p = "" \/ p = "-" -> loads E' T m g lo cls' (OVal (VStr p)) = fail (exn_of KDecode)) /\
    (p <> "" -> p <> "-" ->
     loads E' T m g lo cls' (OVal (VStr p)) = load E' m g lo cls' (VInt (Z.quot z (10 ^ Z.of_nat (String.length q))))).
Proof.
  intros E T L f n o cls v z p q Hd H E' m g lo cls'. split.
  - intros [-> | ->]; reflexivity.
  - intros Hp Hm. apply dumps_with_done in H as (j & Hd' & H). rewrite Hd in Hd'. injection Hd' as <-. cbn in H. injection H as H.
    apply loads_document, value_document. now apply int_cut.
Qed.
Example C86_cut_integer_case :
  snd (dump demo_env 0 5 sopts0 None (VInt (-1234))) = Done (VInt (-1234)) /\
  snd (dumps_with demo_env demo_trt compact 0 5 sopts0 None (VInt (-1234))) = Done ("-1" ++ "234") /\
  snd (loads demo_env demo_trt 5 0 lopts0 None (OVal (VStr "-1"))) = Done (VInt (-1)) /\ Z.quot (-1234) (10 ^ 3) = (-1)%Z.
Proof. repeat split; vm_compute; reflexivity. Qed.
(** Two integers that are joined are loaded as the one with the digits of both. *)
Theorem C86_joined_integers : forall E T L f n o cls v v' a b s s',
  snd (dump E f n o cls v) = Done (VInt a) -> snd (dumps_with E T L f n o cls v) = Done s ->
  snd (dump E f n o cls v') = Done (VInt b) -> snd (dumps_with E T L f n o cls v') = Done s' -> a <> 0%Z -> (0 <= b)%Z ->
  forall E' m g lo cls', loads E' T m g lo cls' (OVal (VStr (s ++ s'))) =
    load E' m g lo cls' (VInt (a * 10 ^ Z.of_nat (String.length s') + Z.sgn a * b)).
Proof.
  intros E T L f n o cls v v' a b s s' Ha Hs Hb Hs' H0 H1 E' m g lo cls'.
  apply dumps_with_done in Hs as (j & Hd & Hs). rewrite Ha in Hd. injection Hd as <-. cbn in Hs. injection Hs as <-.
  apply dumps_with_done in Hs' as (j & Hd & Hs'). rewrite Hb in Hd. injection Hd as <-. cbn in Hs'. injection Hs' as <-.
  apply loads_document, value_document. now apply int_joined.
Qed.
Example C86_joined_integers_case :
  snd (dumps_with demo_env demo_trt compact 0 5 sopts0 None (VInt (-12))) = Done "-12" /\
  snd (dumps_with demo_env demo_trt compact 0 5 sopts0 None (VInt 34)) = Done "34" /\
  snd (loads demo_env demo_trt 5 0 lopts0 None (OVal (VStr ("-12" ++ "34")))) = Done (VInt (-1234)).
Proof. repeat split; vm_compute; reflexivity. Qed.
Print Assumptions C86_cut.
Print Assumptions C86_joined_integers.
Print Assumptions C86_cut_integer.
Print Assumptions C86_cut_bytes.
Print Assumptions C86_joined.
Print Assumptions C86_spaces.
Print Assumptions C86_lines.
Print Assumptions C86_line_feed.
Print Assumptions C86_indented_refuted.
Print Assumptions C86_numbers_refuted.
