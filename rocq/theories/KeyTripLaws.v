(** * Round trips with the key transformers of the library: proofs *)
From Verif Require Import PyBase KeySpec KeyTransformersModel KeyTransformersProofs.
From Verif Require Export KeyTripProofs.
Local Open Scope string_scope.

Lemma on_text_ok h s r : h s = Ok r -> on_text h (VStr s) = Ok (VStr r).
Proof. intros H. cbn. now rewrite H. Qed.
Lemma undone_text h k s r : h s = Ok r -> k r = Ok s -> no_section r -> undone (on_text h) (on_text k) s.
Proof. intros H1 H2 H3. exists r. auto using on_text_ok. Qed.
Lemma free_no_section r : free_of sep r -> no_section r.
Proof. intros H. split; intros ->; specialize (H "-"%char (or_introl eq_refl)); discriminate. Qed.
Lemma lisp_first w ws k : word w -> Forall word ws -> lispcase (snake_name (w :: ws)) = Ok k -> no_section k.
Proof.
  intros Hw Hws Hk.
  assert (Hs : snakecase (snake_name (w :: ws)) = Ok (snake_name (w :: ws))).
  { apply snakecase_fix; [apply snake_name_nonempty; [discriminate|now constructor]|].
    split; apply free_of_sforall; [apply snake_name_upfree|apply snake_name_no_dash]; now constructor. }
  destruct (snake_lisp_sep (snake_name (w :: ws))) as [He|[q [Hq Hl]]].
  - apply snake_name_nonempty in He; [destruct He|discriminate|now constructor].
  - rewrite Hl in Hk. injection Hk as <-. rewrite Hs in Hq. injection Hq as <-.
    destruct w as [|c w]; [now destruct Hw as [[] _]|].
    assert (Hc : is_lower c = true). { destruct Hw as [_ Hw]. cbn in Hw. now apply andb_true_iff in Hw as [Hw _]. }
    assert (Hn : exists r, sreplace1 "_" "-" (snake_name (String c w :: ws)) = String c r).
    { rewrite snake_name_cons. cbn. destruct (Ascii.eqb_spec c "_") as [->|_]; [discriminate|]. eauto. }
    destruct Hn as (r & ->). split; intros Heq; injection Heq as -> _; discriminate.
Qed.
Theorem library_names ws : ws <> [] -> Forall word ws ->
  (Forall (fun w => 2 <= String.length w) (interior ws) ->
   undone (on_text camelcase) (on_text snakecase) (snake_name ws) /\
   undone (on_text pascalcase) (on_text snakecase) (snake_name ws)) /\
  undone (on_text lispcase) (on_text snakecase) (snake_name ws).
Proof.
  intros Hn Hw. split.
  - intros Hi. split.
    + destruct (snake_camel_words ws Hn Hw) as (k & Hk & Hs). apply undone_text with k; [exact Hk|now apply Hs|].
      apply free_no_section. now apply (camelcase_shape _ _ Hk).
    + destruct (snake_pascal_words ws Hn Hw) as (k & Hk & Hs). apply undone_text with k; [exact Hk|now apply Hs|].
      apply free_no_section. now apply (pascalcase_shape _ _ Hk).
  - destruct (snake_lisp_words ws Hn Hw) as (k & Hk & Hs). apply undone_text with k; [exact Hk|exact Hs|].
    destruct ws as [|w ws]; [now elim Hn|]. inversion Hw; subst. now apply (lisp_first w ws).
Qed.
(** What a library transformer makes out of a key it leaves as it is: names of named tuple
    fields that survive for objects survive for named tuples. *)
Lemma untouched_library d h s : In h [camelcase; snakecase; pascalcase; lispcase] ->
  undone d (on_text h) s -> untouched (on_text h) s.
Proof.
  intros Hh (s' & _ & _ & Hs). unfold untouched. apply on_text_ok. cbn in Hs.
  destruct (h s') as [r|e] eqn:Hr; [|discriminate]. injection Hs as ->.
  cbn in Hh. destruct Hh as [<-|[<-|[<-|[<-|[]]]]]; eauto using camelcase_idem, snakecase_idem, pascalcase_idem, lispcase_idem.
Qed.
