(** * Decorators: proofs *)
From Verif Require Import PyBaseFacts ApiSpec DumpLaws LoadFacts LoadObject RoundTripLaws JsonTextLaws JsonTextSpec JsonTextProofs.
Local Close Scope Z_scope.
Local Open Scope string_scope.

Lemma rthen_done {A B} (m : run A) (k : A -> run B) b :
  snd (rthen m k) = Done b <-> exists a, snd m = Done a /\ snd (k a) = Done b.
Proof.
  unfold rthen. destruct m as [l [a|e|]]; cbn; split; try discriminate; try (now intros (? & ? & _)).
  - intros H. exists a. auto.
  - intros (a' & Ha & H). now injection Ha as <-.
Qed.
Lemma rthen_fail {A B} (m : run A) (k : A -> run B) e :
  snd (rthen m k) = Fail e <-> snd m = Fail e \/ exists a, snd m = Done a /\ snd (k a) = Fail e.
Proof.
  unfold rthen. destruct m as [l [a|e'|]]; cbn; split; try discriminate.
  - intros H. right. exists a. auto.
  - intros [H|(a' & Ha & H)]; [discriminate|now injection Ha as <-].
  - intros H. injection H as <-. now left.
  - intros [H|(a' & Ha & H)]; [now injection H as <-|discriminate].
  - intros [H|(a' & Ha & H)]; discriminate.
Qed.
Lemma rthen_steps {A B} (m : run A) (k : A -> run B) a : snd m = Done a -> fst (rthen m k) = (fst m ++ fst (k a))%list.
Proof. intros H. unfold rthen. now rewrite H. Qed.
Lemma rthen_stop {A B} (m : run A) (k : A -> run B) : (forall a, snd m <> Done a) -> fst (rthen m k) = fst m.
Proof. intros H. unfold rthen. destruct (snd m) as [a|e|]; [now elim (H a)|reflexivity|reflexivity]. Qed.
Lemma calls_app a b : calls (a ++ b) = (calls a ++ calls b)%list.
Proof. apply flat_map_app. Qed.
Lemma calls_events l : calls (map StEv l) = [].
Proof. induction l; auto. Qed.

Section Decorated.
Variables (has : pyobj -> string -> bool) (mapper : mapper_fn).
Lemma receiver_spec fname p x : (mem_str (fst p) ["self"; "cls"] && has x fname)%bool = true <-> is_receiver has fname p x.
Proof.
  unfold is_receiver. rewrite andb_true_iff. unfold mem_str. cbn [existsb]. rewrite orb_false_r, orb_true_iff, !String.eqb_eq. reflexivity.
Qed.
Lemma map_arg_done fname p x y : snd (map_arg has mapper fname (x, p)) = Done y <-> arg_mapped has mapper fname p x y.
Proof.
  unfold map_arg, arg_mapped. pose proof (receiver_spec fname p x) as HR.
  destruct (mem_str (fst p) ["self"; "cls"] && has x fname)%bool.
  - assert (Hr : is_receiver has fname p x) by now apply HR. split.
    + intros H. injection H as <-. now left.
    + intros [[_ ->]|[H _]]; [reflexivity|now elim H].
  - assert (Hr : ~ is_receiver has fname p x) by (intros H; apply HR in H; discriminate). split; [now right|].
    intros [[H _]|[_ H]]; [now elim Hr|exact H].
Qed.
Lemma map_arg_fail fname p x e : snd (map_arg has mapper fname (x, p)) = Fail e <-> arg_fails has mapper fname p x e.
Proof.
  unfold map_arg, arg_fails. pose proof (receiver_spec fname p x) as HR.
  destruct (mem_str (fst p) ["self"; "cls"] && has x fname)%bool.
  - split; [discriminate|]. intros [H _]. elim H. now apply HR.
  - split; [|now intros [_ H]]. intros H. split; [|exact H]. intros Hr. apply HR in Hr. discriminate.
Qed.
Lemma params_sig_ok args : forall ps, length args <= length ps -> params_sig args ps = Ok (combine args ps).
Proof.
  induction args as [|x args IH]; intros [|p ps] Hl; try reflexivity; cbn in Hl; [lia|].
  cbn [params_sig]. rewrite IH by lia. reflexivity.
Qed.
Lemma params_sig_err args : forall ps, length ps < length args -> params_sig args ps = raise KIndex.
Proof.
  induction args as [|x args IH]; intros [|p ps] Hl; cbn in Hl; try lia; [reflexivity|].
  cbn [params_sig]. rewrite IH by lia. reflexivity.
Qed.
Lemma map_args_done fn args ys : snd (map_args has mapper fn args) = Done ys <->
  args_mapped has mapper (fn_name fn) (fn_params fn) args ys.
Proof.
  unfold map_args. generalize (fn_params fn). intros ps.
  destruct (le_lt_dec (length args) (length ps)) as [Hl|Hl].
  - rewrite (params_sig_ok _ _ Hl). cbn [lift]. rewrite bind_ret_l. rewrite mmap_done.
    revert ps Hl ys. induction args as [|x args IH]; intros [|p ps] Hl ys; cbn in Hl; try lia; cbn [combine].
    + split; intros H; inversion H; constructor.
    + split; intros H; inversion H; constructor.
    + split; intros H; inversion H as [|? ? ? ? H1 H2]; subst; constructor.
      * now apply map_arg_done.
      * apply (IH ps); [lia|exact H2].
      * now apply map_arg_done.
      * apply (IH ps); [lia|assumption].
  - rewrite (params_sig_err _ _ Hl). cbn. split; [discriminate|]. intros H. exfalso. revert Hl. clear -H.
    induction H; cbn in *; [lia|]. intros Hl. apply IHargs_mapped. lia.
Qed.
Lemma map_args_first_fail fn args : forall e, snd (map_args has mapper fn args) = Fail e <->
  (length (fn_params fn) < length args /\ e = exn_of KIndex) \/
  exists pre x post ps1 p ps2 ys, args = (pre ++ x :: post)%list /\ fn_params fn = (ps1 ++ p :: ps2)%list /\ length ps1 = length pre /\
    length args <= length (fn_params fn) /\
    args_mapped has mapper (fn_name fn) ps1 pre ys /\ arg_fails has mapper (fn_name fn) p x e.
Proof.
  unfold map_args. generalize (fn_params fn). intros ps e.
  destruct (le_lt_dec (length args) (length ps)) as [Hl|Hl].
  - rewrite (params_sig_ok _ _ Hl). cbn [lift]. rewrite bind_ret_l.
    transitivity (exists pre x post ps1 p ps2 ys, args = (pre ++ x :: post)%list /\ ps = (ps1 ++ p :: ps2)%list /\ length ps1 = length pre /\
      args_mapped has mapper (fn_name fn) ps1 pre ys /\ arg_fails has mapper (fn_name fn) p x e).
    + revert ps Hl. induction args as [|x args IH]; intros [|p ps] Hl; cbn in Hl; try lia; cbn [combine mmap].
      1-2: split; [discriminate|]; intros (pre & x & post & _ & _ & _ & _ & H & _); now destruct pre.
      rewrite bind_fail. rewrite map_arg_fail. split.
      * intros [H|(y & H1 & H2)].
        -- exists [], x, args, [], p, ps, []. repeat split; try constructor; apply H.
        -- apply bind_fail in H2 as [H2|(ys & _ & H2)]; [|discriminate].
           apply (IH ps) in H2; [|lia]. destruct H2 as (pre & x' & post & ps1 & p' & ps2 & ys & -> & -> & Hlen & Hm & Hf).
           exists (x :: pre), x', post, (p :: ps1), p', ps2, (y :: ys). repeat split; try apply Hf; [cbn; now rewrite Hlen|].
           constructor; [now apply map_arg_done|exact Hm].
      * intros (pre & x' & post & ps1 & p' & ps2 & ys & H1 & H2 & Hlen & Hm & Hf).
        destruct pre as [|x0 pre].
        -- destruct ps1; [|discriminate]. injection H1 as <- <-. injection H2 as <- <-. now left.
        -- destruct ps1 as [|p0 ps1]; [discriminate|]. injection H1 as <- ->. injection H2 as <- ->. injection Hlen as Hlen.
           inversion Hm as [|? ? ? ? y ys' Hx Hm']; subst. right. exists y. split; [now apply map_arg_done|].
           apply bind_fail. left. apply IH; [lia|]. exists pre, x', post, ps1, p', ps2, ys'. auto.
    + split.
      * intros (pre & x & post & ps1 & p & ps2 & ys & H1 & H2 & H3 & H4 & H5). right. exists pre, x, post, ps1, p, ps2, ys. auto 10.
      * intros [[H _]|(pre & x & post & ps1 & p & ps2 & ys & H1 & H2 & H3 & H4 & H5 & H6)]; [lia|]. exists pre, x, post, ps1, p, ps2, ys. auto 10.
  - rewrite (params_sig_err _ _ Hl). cbn. split.
    + intros H. injection H as <-. left. auto.
    + intros [[_ ->]|(pre & x & post & ps1 & p & ps2 & ys & H1 & H2 & H3 & H4 & _)]; [reflexivity|lia].
Qed.

(** ** Calls *)
Lemma run_args (parameters : bool) fn args : exists m : M (list pyobj),
  (match (if parameters then Some mapper else None) with Some m => of_M (map_args has m fn args) | None => rret args end) = of_M m /\
  (forall ys, snd m = Done ys <-> passed has parameters mapper fn args ys) /\
  (m = if parameters then map_args has mapper fn args else ret args).
Proof.
  destruct parameters.
  - exists (map_args has mapper fn args). split; [reflexivity|]. split; [|reflexivity]. intros ys. apply map_args_done.
  - exists (ret args). split; [reflexivity|]. split; [|reflexivity]. intros ys. cbn. split; [now injection 1 as <-|now intros ->].
Qed.
Lemma wrapper_done (parameters returnvalue : bool) fn args kw y :
  snd (wrapper has parameters returnvalue mapper fn args kw) = Done y <->
  exists args' x, passed has parameters mapper fn args args' /\ fn_body fn args' kw = Ok x /\ returned returnvalue mapper fn x y.
Proof.
  unfold wrapper, run_decorated. destruct (run_args parameters fn args) as (m & -> & Hm & _).
  rewrite rthen_done. split.
  - intros (x & H & Hr). apply rthen_done in H as (args' & H1 & H2). exists args', x. split; [now apply Hm|].
    cbn in H2. destruct (fn_body fn args' kw) as [x'|e]; [|discriminate]. injection H2 as ->. split; [reflexivity|].
    unfold returned. destruct returnvalue; [exact Hr|]. cbn in Hr. now injection Hr as <-.
  - intros (args' & x & H1 & H2 & H3). exists x. split.
    + apply rthen_done. exists args'. split; [now apply Hm|]. cbn. now rewrite H2.
    + unfold returned in H3. destruct returnvalue; [exact H3|]. now rewrite H3.
Qed.
Lemma wrapper_calls (parameters returnvalue : bool) fn args kw args' :
  passed has parameters mapper fn args args' ->
  calls (fst (wrapper has parameters returnvalue mapper fn args kw)) = [(args', kw)].
Proof.
  intros Hp. unfold wrapper, run_decorated. destruct (run_args parameters fn args) as (m & -> & Hm & _). apply Hm in Hp.
  assert (HF : fst (rthen (of_M m) (fun a => call_fn fn a kw)) = (map StEv (fst m) ++ [StCall args' kw])%list).
  { apply (rthen_steps (of_M m) (fun a => call_fn fn a kw) args' Hp). }
  destruct (snd (rthen (of_M m) (fun a => call_fn fn a kw))) as [x|e|] eqn:Hx.
  - rewrite (rthen_steps _ _ x Hx), HF, !calls_app, calls_events. cbn. destruct returnvalue; [|reflexivity].
    cbn. now rewrite calls_events.
  - rewrite rthen_stop by (intros a; congruence). now rewrite HF, calls_app, calls_events.
  - rewrite rthen_stop by (intros a; congruence). now rewrite HF, calls_app, calls_events.
Qed.
(** No arguments, no call: then the run does not depend on what the function does *)
Lemma wrapper_no_call (parameters returnvalue : bool) fn args kw : (forall args', ~ passed has parameters mapper fn args args') ->
  wrapper has parameters returnvalue mapper fn args kw =
  (map StEv (fst (map_args has mapper fn args)),
   match snd (map_args has mapper fn args) with Done _ => Oof | Fail e => Fail e | Oof => Oof end).
Proof.
  intros Hn. destruct parameters; [|elim (Hn args); reflexivity].
  unfold wrapper, run_decorated, rthen. cbn [of_M fst snd].
  destruct (snd (map_args has mapper fn args)) as [ys|e|] eqn:Hs; [|reflexivity|reflexivity].
  elim (Hn ys). now apply map_args_done.
Qed.
Lemma wrapper_no_call_body (parameters returnvalue : bool) fn args kw body : (forall args', ~ passed has parameters mapper fn args args') ->
  calls (fst (wrapper has parameters returnvalue mapper fn args kw)) = [] /\
  wrapper has parameters returnvalue mapper fn args kw =
  wrapper has parameters returnvalue mapper (mkFunc (fn_name fn) (fn_params fn) (fn_return fn) (fn_async fn) body) args kw.
Proof.
  intros Hn. rewrite (wrapper_no_call parameters returnvalue fn args kw Hn). split; [cbn; apply calls_events|].
  rewrite wrapper_no_call; [reflexivity|]. intros args'. specialize (Hn args'). destruct parameters; exact Hn.
Qed.
Lemma wrapper_fail (parameters returnvalue : bool) fn args kw e :
  snd (wrapper has parameters returnvalue mapper fn args kw) = Fail e <->
  (parameters = true /\ snd (map_args has mapper fn args) = Fail e) \/
  exists args', passed has parameters mapper fn args args' /\
    (fn_body fn args' kw = Err e \/
     exists x, fn_body fn args' kw = Ok x /\ returnvalue = true /\ snd (mapper (annotated_cls (fn_return fn)) x) = Fail e).
Proof.
  unfold wrapper, run_decorated. destruct (run_args parameters fn args) as (m & -> & Hm & Hdef).
  rewrite rthen_fail. split.
  - intros [H|(x & H & Hr)].
    + apply rthen_fail in H as [H|(args' & H1 & H2)].
      * left. cbn in H. rewrite Hdef in H. destruct parameters; [auto|discriminate].
      * right. exists args'. split; [now apply Hm|]. left. cbn in H2. destruct (fn_body fn args' kw); [discriminate|]. now injection H2 as <-.
    + apply rthen_done in H as (args' & H1 & H2). right. exists args'. split; [now apply Hm|]. right.
      exists x. cbn in H2. destruct (fn_body fn args' kw) as [x'|]; [|discriminate]. injection H2 as ->.
      destruct returnvalue; [auto|discriminate].
  - intros [[-> H]|(args' & H1 & [H2|(x & H2 & -> & H3)])].
    + left. apply rthen_fail. left. cbn. now rewrite Hdef.
    + left. apply rthen_fail. right. exists args'. split; [now apply Hm|]. cbn. now rewrite H2.
    + right. exists x. split; [|exact H3]. apply rthen_done. exists args'. split; [now apply Hm|]. cbn. now rewrite H2.
Qed.
Lemma too_many_args returnvalue fn args kw : length (fn_params fn) < length args ->
  wrapper has true returnvalue mapper fn args kw = rfail (exn_of KIndex).
Proof.
  intros Hl. unfold wrapper, run_decorated, map_args. rewrite (params_sig_err _ _ Hl). reflexivity.
Qed.
(** ** Coroutine functions *)
Lemma async_call (parameters returnvalue : bool) fn args kw : fn_async fn = true ->
  exists r, call_wrapper has parameters returnvalue mapper fn args kw = rret r /\
    await r = Some (wrapper has parameters returnvalue mapper fn args kw).
Proof. intros H. unfold call_wrapper. rewrite H. eexists. split; reflexivity. Qed.
Lemma sync_call (parameters returnvalue : bool) fn args kw : fn_async fn = false ->
  fst (call_wrapper has parameters returnvalue mapper fn args kw) = fst (wrapper has parameters returnvalue mapper fn args kw) /\
  (forall y, snd (call_wrapper has parameters returnvalue mapper fn args kw) = Done (RValue y) <->
             snd (wrapper has parameters returnvalue mapper fn args kw) = Done y) /\
  (forall e, snd (call_wrapper has parameters returnvalue mapper fn args kw) = Fail e <->
             snd (wrapper has parameters returnvalue mapper fn args kw) = Fail e).
Proof.
  intros H. unfold call_wrapper. rewrite H. destruct (wrapper has parameters returnvalue mapper fn args kw) as [l [y|e|]]; cbn.
  - rewrite app_nil_r. split; [reflexivity|]. split; intros z; split; try discriminate; intros Hz; injection Hz as <-; reflexivity.
  - split; [reflexivity|]. split; intros z; split; try discriminate; intros Hz; injection Hz as <-; reflexivity.
  - split; [reflexivity|]. split; intros z; split; discriminate.
Qed.
End Decorated.
(** ** Documents as arguments *)
Lemma partners_roundtrip E T f g o raw_load raw_dump dumper loader t v :
  default_serializers E f -> default_deserializers E g -> exact_dump o -> has_type E g o t v ->
  (forall j, (exists N, forall n, N <= n -> snd (dump E f n o None v) = Done j) -> floats_read_back T (e_ct E) j) ->
  partners dumper loader ->
  exists x N, forall n m cls lo, N <= n -> N <= m -> cls = None \/ cls = Some t -> exact_load lo ->
    snd (dump_mapper E T n f raw_dump o dumper cls (OVal v)) = Done x /\
    snd (load_mapper E T m g raw_load lo loader (Some t) x) = Done (OVal v).
Proof.
  intros HS HD He Ht Hf [[-> ->]|[[-> ->]|[-> ->]]].
  - destruct (roundtrip E f g o t v HS HD He Ht) as (j & N & _ & HN). exists (OVal j), N. intros n m cls lo Hn Hm Hc Hl.
    destruct (HN n m cls lo Hn Hm Hc Hl) as [H1 H2]. cbn [dump_mapper load_mapper]. unfold as_obj. split; apply bind_done; eauto.
  - destruct (text_roundtrip E T f g o t v HS HD He Ht Hf) as (s & N & HN). exists (OVal (VStr s)), N. intros n m cls lo Hn Hm Hc Hl.
    destruct (HN n m cls lo Hn Hm Hc Hl) as [H1 H2]. cbn [dump_mapper load_mapper]. unfold as_obj. split; apply bind_done; eauto.
  - destruct (bytes_roundtrip E T f g o t v HS HD He Ht Hf) as (b & N & HN). exists (OBytes b), N. intros n m cls lo Hn Hm Hc Hl.
    destruct (HN n m cls lo Hn Hm Hc Hl) as [H1 H2]. cbn [dump_mapper load_mapper]. unfold as_obj. split; apply bind_done; eauto.
Qed.
Lemma loaded_documents E T f g o raw_load raw_dump has dumper loader fname ps ts vs :
  default_serializers E f -> default_deserializers E g -> exact_dump o ->
  Forall2 (fun p t => snd p = AType t /\ fst p <> "self" /\ fst p <> "cls") ps ts -> Forall2 (has_type E g o) ts vs ->
  (forall v j, In v vs -> (exists N, forall n, N <= n -> snd (dump E f n o None v) = Done j) -> floats_read_back T (e_ct E) j) ->
  partners dumper loader ->
  exists xs N, forall n m lo, N <= n -> N <= m -> exact_load lo ->
    Forall2 (fun v x => snd (dump_mapper E T n f raw_dump o dumper None (OVal v)) = Done x) vs xs /\
    args_mapped has (load_mapper E T m g raw_load lo loader) fname ps xs (map OVal vs).
Proof.
  intros HS HD He Hps Hts Hf Hp. revert ps Hps Hf. induction Hts as [|t v ts vs Ht Hts IH]; intros ps Hps Hf.
  - exists [], 0. intros n m lo _ _ _. split; constructor.
  - inversion Hps as [|p t' ps' ts' [Ha [Hs Hc]] Hps']; subst.
    destruct (IH ps' Hps') as (xs & N1 & H1); [intros v' j Hin; apply Hf; now right|].
    destruct (partners_roundtrip E T f g o raw_load raw_dump dumper loader t v HS HD He Ht) as (x & N2 & H2); auto.
    { intros j. apply Hf. now left. }
    exists (x :: xs), (Nat.max N1 N2). intros n m lo Hn Hm Hl.
    destruct (H1 n m lo ltac:(lia) ltac:(lia) Hl) as [H1a H1b].
    destruct (H2 n m None lo ltac:(lia) ltac:(lia) (or_introl eq_refl) Hl) as [H2a H2b].
    split; [now constructor|]. cbn [map]. constructor; [|exact H1b]. right. split.
    + intros [[H|H] _]; contradiction.
    + rewrite Ha. exact H2b.
Qed.
(** ** Decorating *)
Lemma decorate_function has E f parameters returnvalue mapper fn :
  decorate has E f parameters returnvalue mapper (DFunction fn) = ret (call_wrapper has parameters returnvalue mapper fn).
Proof. reflexivity. Qed.
Lemma decorate_static has E f parameters returnvalue mapper :
  snd (decorate has E f parameters returnvalue mapper DStatic) = Fail (exn_of KDecoration) /\
  fst (decorate has E f parameters returnvalue mapper DStatic) = (if e_warn E f "decorated-static" then [EvWarn f "decorated-static"] else []).
Proof. cbn [decorate]. unfold warn. destruct (e_warn E f "decorated-static"); split; reflexivity. Qed.
