(** * C27: dumping twice is dumping once

    Model: EngineSer.v.  Specification: DumpSpec.v ([document], [genuine]), DocumentSpec.v. *)
From Verif Require Import PyBaseFacts DumpLaws TwiceProofs PropDump.
Local Close Scope Z_scope.
Local Open Scope string_scope.

(** Whatever is dumped, with whatever options and type, comes out as plain data: lists, dicts
    with distinct scalar keys, and scalars. *)
Theorem C27_dumps_are_documents : forall E f n o cls v r,
  default_serializers E f -> wf_supers (e_ct E) -> plain_enums (e_ct E) -> distinct_fields (e_ct E) ->
  kt_plain o -> genuine E f o cls v -> snd (dump E f n o cls v) = Done r -> document r.
Proof. exact dump_gives_document. Qed.
(** So dumping the result once more changes nothing. *)
Theorem C27_dump_twice : forall E f n o cls v r,
  default_serializers E f -> wf_supers (e_ct E) -> plain_enums (e_ct E) -> distinct_fields (e_ct E) ->
  kt_plain o -> genuine E f o cls v -> snd (dump E f n o cls v) = Done r ->
  exists N, forall n', N <= n' -> forall o', doc_opts o' -> snd (dump E f n' o' None r) = Done r.
Proof. intros E f n o cls v r HD HW HP HF Hk Hg H. apply dump_document; [exact HD|]. eapply dump_gives_document; eauto. Qed.
Example C27_twice_case :
  plain_enums (e_ct demo_env) /\ distinct_fields (e_ct demo_env) /\ kt_plain sopts0 /\
  genuine demo_env 0 sopts0 None party /\ snd (dump demo_env 0 9 sopts0 None party) = Done party_doc /\
  snd (dump demo_env 0 9 sopts0 None party_doc) = Done party_doc.
Proof.
  split; [|split; [|split; [|split; [|split]]]].
  - intros c m ms. do 5 (destruct c as [|c]; [intros H; (discriminate H || now injection H)|]). discriminate.
  - intros c fs. do 5 (destruct c as [|c]; [intros H; try discriminate H|]); [|discriminate].
    injection H as <-. repeat constructor; cbn; intuition discriminate.
  - intros g k k' H. discriminate.
  - now apply party_genuine.
  - vm_compute. reflexivity.
  - vm_compute. reflexivity.
Qed.
(** A member of an enum that derives from str, dumped as a str, is kept; the second dump
    replaces it by its name. *)
Theorem C27_str_enum_refuted : exists E cls v r r',
  default_serializers E 0 /\ wf_supers (e_ct E) /\ snd (dump E 0 5 sopts0 (Some cls) v) = Done r /\
  snd (dump E 0 5 sopts0 None r) = Done r' /\ r' <> r.
Proof.
  exists (std_env (fun _ => mkCinfo "m" "Unit" (CkEnum (Some PStr) [("M", VStr "metre")]) [] [] [] None []
                     (fun _ _ => raise KAttribute) (fun _ => raise KType) (fun _ _ _ => raise KAttribute) false true) demo_rt),
    (TPrim PStr), (VEnum 0 "M"), (VEnum 0 "M"), (VStr "M").
  split; [intros t; reflexivity|]. split; [intros c t []|]. split; [vm_compute; reflexivity|].
  split; [vm_compute; reflexivity|discriminate].
Qed.

Print Assumptions C27_dumps_are_documents.
Print Assumptions C27_dump_twice.
Print Assumptions C27_str_enum_refuted.
