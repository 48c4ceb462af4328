(** * C01-C04: the key transformers

    Specification vocabulary (shapes, words): KeySpec.v.
    Model: KeyTransformersModel.v (jsons/_key_transformers.py). *)
From Verif Require Import PyBase KeyTransformersModel KeySpec KeyTransformersProofs.
Local Open Scope string_scope.

(** ** C01 *)
Theorem C01_camelcase_shape : forall s r, camelcase s = Ok r -> camel_shape r.
Proof. exact camelcase_shape. Qed.
Theorem C01_pascalcase_shape : forall s r, pascalcase s = Ok r -> pascal_shape r.
Proof. exact pascalcase_shape. Qed.
Theorem C01_snakecase_shape : forall s r, snakecase s = Ok r -> snake_shape r.
Proof. intros s r H. exact (proj1 (snakecase_shape s r H)). Qed.
Theorem C01_lispcase_shape : forall s r, lispcase s = Ok r -> lisp_shape r.
Proof. intros s r H. exact (proj1 (lispcase_shape s r H)). Qed.
Theorem C01_camelcase_idempotent : forall s r, camelcase s = Ok r -> camelcase r = Ok r.
Proof. exact camelcase_idem. Qed.
Theorem C01_pascalcase_idempotent : forall s r, pascalcase s = Ok r -> pascalcase r = Ok r.
Proof. exact pascalcase_idem. Qed.
Theorem C01_snakecase_idempotent : forall s r, snakecase s = Ok r -> snakecase r = Ok r.
Proof. exact snakecase_idem. Qed.
Theorem C01_lispcase_idempotent : forall s r, lispcase s = Ok r -> lispcase r = Ok r.
Proof. exact lispcase_idem. Qed.
(** A key that already has the casing is left alone: the transformers change
    nothing but the casing. *)
Theorem C01_fixpoints : forall s, s <> "" ->
  (camel_shape s -> camelcase s = Ok s) /\ (pascal_shape s -> pascalcase s = Ok s) /\
  (snake_shape s -> snakecase s = Ok s) /\ (lisp_shape s -> lispcase s = Ok s).
Proof.
  exact (fun s H => conj (camelcase_fix s H) (conj (pascalcase_fix s H)
          (conj (snakecase_fix s H) (lispcase_fix s H)))).
Qed.
Example C01_nonvacuous :
  camelcase "first-name_OF the-user" = Ok "firstNameOf TheUser" /\
  pascalcase "first-name_OF the-user" = Ok "FirstNameOf TheUser" /\
  snakecase "HTTPServerName-x" = Ok "h_ttpserver_name_x" /\
  lispcase "fooBarBaz_q" = Ok "foo-bar-baz-q".
Proof. repeat split; vm_compute; reflexivity. Qed.

(** ** C02 *)
Theorem C02_camelcase_fails_iff :
  forall s, (exists e, camelcase s = Err e) <-> only_separators s.
Proof. exact camelcase_fails. Qed.
Theorem C02_pascalcase_fails_iff :
  forall s, (exists e, pascalcase s = Err e) <-> only_separators s.
Proof. exact pascalcase_fails. Qed.
Theorem C02_snakecase_fails_iff : forall s, (exists e, snakecase s = Err e) <-> s = "".
Proof. exact snakecase_fails. Qed.
Theorem C02_lispcase_fails_iff : forall s, (exists e, lispcase s = Err e) <-> s = "".
Proof. exact lispcase_fails. Qed.
Theorem C02_results_nonempty : forall s r,
  (camelcase s = Ok r \/ pascalcase s = Ok r \/ snakecase s = Ok r \/ lispcase s = Ok r) ->
  r <> "".
Proof. exact results_nonempty. Qed.
Example C02_nonvacuous : only_separators "_-_" /\ ~ only_separators "_a".
Proof.
  split; [intros c H; simpl in H; repeat destruct H as [<-|H]; reflexivity || contradiction|].
  intros H. specialize (H "a"%char). simpl in H. discriminate H. tauto.
Qed.

(** ** C03 *)
Theorem C03_snake_of_camel : forall ws, ws <> [] -> Forall word ws ->
  exists k, camelcase (snake_name ws) = Ok k /\
    (snakecase k = Ok (snake_name ws) <->
     Forall (fun w => 2 <= String.length w) (interior ws)).
Proof. exact snake_camel_words. Qed.
Theorem C03_snake_of_pascal : forall ws, ws <> [] -> Forall word ws ->
  exists k, pascalcase (snake_name ws) = Ok k /\
    (snakecase k = Ok (snake_name ws) <->
     Forall (fun w => 2 <= String.length w) (interior ws)).
Proof. exact snake_pascal_words. Qed.
Theorem C03_snake_of_lisp : forall ws, ws <> [] -> Forall word ws ->
  exists k, lispcase (snake_name ws) = Ok k /\ snakecase k = Ok (snake_name ws).
Proof. exact snake_lisp_words. Qed.
(** The keys themselves, so that the round trip is not one through wrong keys:
    camelCase is the first word followed by the capitalised other words. *)
Theorem C03_camel_of_words : forall w ws, word w -> Forall word ws ->
  camelcase (snake_name (w :: ws)) = Ok (w ++ sjoin "" (map cap ws)) /\
  pascalcase (snake_name (w :: ws)) = Ok (sjoin "" (map cap (w :: ws))).
Proof. exact camel_of_words. Qed.
Theorem C03_camel_keys_distinct : forall ws vs k,
  ws <> [] -> vs <> [] -> Forall word ws -> Forall word vs ->
  Forall (fun x => 2 <= String.length x) (interior ws) ->
  Forall (fun x => 2 <= String.length x) (interior vs) ->
  camelcase (snake_name ws) = Ok k -> camelcase (snake_name vs) = Ok k ->
  snake_name ws = snake_name vs.
Proof. exact camel_injective. Qed.
Example C03_nonvacuous :
  let ws := ["first"; "name"; "of"; "user"] in
  ws <> [] /\ Forall word ws /\ Forall (fun w => 2 <= String.length w) (interior ws) /\
  camelcase (snake_name ws) = Ok "firstNameOfUser".
Proof.
  cbv zeta. split; [discriminate|]. split; [repeat constructor; discriminate|].
  split; [repeat constructor | reflexivity].
Qed.
(** Outside the class the round trip is lost, and names collide. *)
Theorem C03_single_letter_words_refuted :
  exists n k, camelcase n = Ok k /\ snakecase k = Ok "a_bc" /\ n = "a_b_c".
Proof. exact (ex_intro _ _ (ex_intro _ _ (conj (eq_refl : camelcase "a_b_c" = Ok "aBC") (conj eq_refl eq_refl)))). Qed.
Theorem C03_digit_words_refuted :
  exists n k, camelcase n = Ok k /\ snakecase k = Ok "x1" /\ n = "x_1".
Proof. exact (ex_intro _ _ (ex_intro _ _ (conj (eq_refl : camelcase "x_1" = Ok "x1") (conj eq_refl eq_refl)))). Qed.
Theorem C03_keys_collide_refuted :
  exists n m k, n <> m /\ camelcase n = Ok k /\ camelcase m = Ok k.
Proof. exact (ex_intro _ "_foo" (ex_intro _ "foo" (ex_intro _ "foo"
   (conj (fun H => eq_ind "_foo" (fun s => match s with String "_" _ => True | _ => False end) I _ H)
     (conj eq_refl eq_refl))))). Qed.

(** ** C04 *)
Theorem C04_snake_of_lisp : forall s r, lispcase s = Ok r -> snakecase r = snakecase s.
Proof. exact snake_lisp. Qed.
Theorem C04_lisp_of_snake : forall s r, snakecase s = Ok r -> lispcase r = lispcase s.
Proof. exact lisp_snake. Qed.
Theorem C04_camel_of_pascal : forall s r, pascalcase s = Ok r -> camelcase r = camelcase s.
Proof. exact camel_pascal. Qed.
Theorem C04_pascal_of_camel : forall s r, camelcase s = Ok r -> pascalcase r = pascalcase s.
Proof. exact pascal_camel. Qed.
Theorem C04_camel_pascal_first_char : forall s,
  only_separators s \/
  exists c t, camelcase s = Ok (String (to_lower c) t) /\
              pascalcase s = Ok (String (to_upper c) t).
Proof. exact camel_pascal_first. Qed.
Theorem C04_snake_lisp_separator : forall s,
  s = "" \/ exists q, snakecase s = Ok q /\ lispcase s = Ok (sreplace1 "_" "-" q).
Proof. exact snake_lisp_sep. Qed.
Example C04_nonvacuous :
  lispcase "fooBar_baz" = Ok "foo-bar-baz" /\ snakecase "foo-bar-baz" = Ok "foo_bar_baz" /\
  pascalcase "foo_bar" = Ok "FooBar" /\ camelcase "FooBar" = Ok "fooBar".
Proof. repeat split; reflexivity. Qed.

Print Assumptions C01_camelcase_shape.
Print Assumptions C01_pascalcase_shape.
Print Assumptions C01_snakecase_shape.
Print Assumptions C01_lispcase_shape.
Print Assumptions C01_camelcase_idempotent.
Print Assumptions C01_pascalcase_idempotent.
Print Assumptions C01_snakecase_idempotent.
Print Assumptions C01_lispcase_idempotent.
Print Assumptions C01_fixpoints.
Print Assumptions C02_camelcase_fails_iff.
Print Assumptions C02_pascalcase_fails_iff.
Print Assumptions C02_snakecase_fails_iff.
Print Assumptions C02_lispcase_fails_iff.
Print Assumptions C02_results_nonempty.
Print Assumptions C03_snake_of_camel.
Print Assumptions C03_snake_of_pascal.
Print Assumptions C03_snake_of_lisp.
Print Assumptions C03_camel_of_words.
Print Assumptions C03_camel_keys_distinct.
Print Assumptions C03_single_letter_words_refuted.
Print Assumptions C03_digit_words_refuted.
Print Assumptions C03_keys_collide_refuted.
Print Assumptions C04_snake_of_lisp.
Print Assumptions C04_lisp_of_snake.
Print Assumptions C04_camel_of_pascal.
Print Assumptions C04_pascal_of_camel.
Print Assumptions C04_camel_pascal_first_char.
Print Assumptions C04_snake_lisp_separator.
