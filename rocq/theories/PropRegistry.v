(** * C14-C20: registries, forks, cache, warnings

    Model: RegistryModel.v.  [run W ops] is the state after the calls [ops];
    [raw_get W k h f c] is get_serializer / get_deserializer / get_validator (for
    [k] = [Ser], [Deser], [Val]) of class [c] in fork [f], uncached.
    Specification: RegistrySpec.v. *)
From Verif Require Import PyBase PyBaseFacts RegistryModel RegistrySpec RegistryProofs.
Local Open Scope string_scope.

(** A concrete world for the examples: classes 0..4 named A B C D and a NewType N of
    A; B derives from A, C from B; class 5 is called "a" (lower case). *)
Definition exW : world :=
  mkWorld (fun c => nth c ["m.A"; "m.B"; "m.C"; "m.D"; "m.N"; "m.a"] "?")
          (fun a b => Nat.eqb a b || (Nat.eqb b 0 && (Nat.eqb a 1 || Nat.eqb a 2))
                      || (Nat.eqb b 1 && Nat.eqb a 2))
          (fun c => if Nat.eqb c 4 then Some 0 else None).

(** ** C14 *)
(** The general statement: every lookup, in every reachable state, is the one the
    specification describes (so no lookup ever raises KeyError). *)
Theorem C14_lookup_is_specified :
  forall (W : world) (k : kind) (ops : list op) (f : nat) (c : cls),
  exists_in ops f ->
  raw_get W k (run W ops) f c = Ok (lookup W (visible k ops f) c).
Proof. exact get_correct. Qed.

Theorem C14_last_registration_wins :
  forall (W : world) (k : kind) (ops : list op) (f : nat) (a : clsarg) (hi : bool) (g : fn) (c : cls),
  exists_in ops f -> In (slower (w_name W c)) (names_of W a) ->
  raw_get W k (run W (ops ++ [OSet k f a hi g])) f c = Ok (Some g).
Proof. exact set_get_same. Qed.

Example C14_ex :
  exists_in [OFork 0; OSet Ser 1 (ACls 0) true 8] 1 /\
  In (slower (w_name exW 1)) (names_of exW (ASeq [ACls 0; ASeq [ANone; ACls 1]])) /\
  raw_get exW Ser (run exW [OFork 0; OSet Ser 1 (ACls 0) true 8;
      OSet Ser 1 (ASeq [ACls 0; ASeq [ANone; ACls 1]]) false 9]) 1 1 = Ok (Some 9).
Proof. vm_compute. auto 8. Qed.

(** ** C15 *)
Theorem C15_first_matching_ancestor :
  forall (W : world) (k : kind) (ops : list op) (f : nat) (c : cls) (l1 : list cls) (p : cls) (l2 : list cls),
  exists_in ops f -> w_super W c = None ->
  latest W (visible k ops f) (slower (w_name W c)) = None ->
  priority (visible k ops f) = (l1 ++ p :: l2)%list ->
  w_sub W c p = true -> (forall q, In q l1 -> w_sub W c q = false) ->
  raw_get W k (run W ops) f c = Ok (latest W (visible k ops f) (slower (w_name W p))) /\
  latest W (visible k ops f) (slower (w_name W p)) <> None.
Proof. exact get_inherited. Qed.

Theorem C15_no_ancestor :
  forall (W : world) (k : kind) (ops : list op) (f : nat) (c : cls),
  exists_in ops f -> w_super W c = None ->
  latest W (visible k ops f) (slower (w_name W c)) = None ->
  (forall p, In p (priority (visible k ops f)) -> w_sub W c p = false) ->
  raw_get W k (run W ops) f c = Ok None.
Proof. exact get_nothing. Qed.

(** The priority list itself, registration by registration. *)
Theorem C15_priority_order :
  forall regs r,
  priority (regs ++ [r])%list =
  match rg_cls r with
  | None => priority regs
  | Some c => if rg_high r then c :: priority regs else (priority regs ++ [c])%list
  end.
Proof. exact priority_snoc. Qed.

Definition exOps : list op :=
  [OSet Ser 0 (ACls 3) true 1; OSet Ser 0 (ACls 0) false 2; OSet Ser 0 (ACls 1) false 3].
Example C15_ex :
  exists_in exOps 0 /\ w_super exW 2 = None /\
  latest exW (visible Ser exOps 0) (slower (w_name exW 2)) = None /\
  priority (visible Ser exOps 0) = ([3] ++ 0 :: [1])%list /\
  w_sub exW 2 0 = true /\ w_sub exW 2 3 = false /\
  raw_get exW Ser (run exW exOps) 0 2 = Ok (Some 2) /\
  raw_get exW Ser (run exW (exOps ++ [OSet Ser 0 (ACls 1) true 4])%list) 0 2 = Ok (Some 4) /\
  raw_get exW Ser (run exW [OSet Ser 0 (ACls 3) true 1]) 0 2 = Ok None.
Proof. vm_compute. auto 12. Qed.

(** ** C16 *)
Theorem C16_other_names_unaffected :
  forall (W : world) (k k' : kind) (ops : list op) (f : nat) (a : clsarg) (hi : bool) (g : fn)
         (x : nat) (c : cls) (v : fn),
  exists_in ops f -> exists_in ops x ->
  ~ In (slower (w_name W c)) (names_of W a) ->
  latest W (visible k ops x) (slower (w_name W c)) = Some v ->
  raw_get W k (run W (ops ++ [OSet k' f a hi g])) x c = Ok (Some v).
Proof. exact set_get_other. Qed.

Example C16_ex :
  exists_in exOps 0 /\ ~ In (slower (w_name exW 0)) (names_of exW (ACls 3)) /\
  latest exW (visible Ser exOps 0) (slower (w_name exW 0)) = Some 2.
Proof.
  split; [vm_compute; auto|]. split; [|reflexivity].
  intros H. vm_compute in H. destruct H as [H|[]]. discriminate.
Qed.

(** Two classes whose names differ only in case share one entry. *)
Theorem C16_case_collision :
  forall (W : world) (k : kind) (ops : list op) (f : nat) (c c' : cls) (hi : bool) (g : fn),
  exists_in ops f -> slower (w_name W c) = slower (w_name W c') ->
  raw_get W k (run W (ops ++ [OSet k f (ACls c') hi g])) f c = Ok (Some g).
Proof. intros W k ops f c c' hi g Hf E. apply set_get_same; [assumption|]. left. symmetry. exact E. Qed.

Example C16_case_ex : 0 <> 5 /\ slower (w_name exW 0) = slower (w_name exW 5).
Proof. split; [discriminate|reflexivity]. Qed.

(** ** C17 *)
Theorem C17_isolation :
  forall (W : world) (k : kind) (ops more : list op) (f : nat) (c : cls),
  k <> Val -> exists_in ops f -> all_leave_alone ops f more ->
  raw_get W k (run W (ops ++ more)) f c = raw_get W k (run W ops) f c.
Proof. exact isolation. Qed.

Theorem C17_fresh_fork_copies :
  forall (W : world) (k : kind) (ops : list op) (p : nat) (c : cls),
  exists_in ops p ->
  raw_get W k (run W (ops ++ [OFork p])) (next_id ops) c = raw_get W k (run W ops) p c.
Proof. exact fresh_fork. Qed.

(** A fork is not in the same fork as anything that existed before; a plain
    subclass is in its parent's. *)
Theorem C17_fork_is_separate :
  forall ops p f, exists_in ops p -> exists_in ops f ->
  ~ same_fork (ops ++ [OFork p]) (next_id ops) f.
Proof. exact fresh_fork_own. Qed.
Theorem C17_subclass_is_not :
  forall ops p, exists_in ops p -> same_fork (ops ++ [OSubclass p]) (next_id ops) p.
Proof. exact subclass_same. Qed.

Example C17_ex :
  all_leave_alone (exOps ++ [OFork 0])%list 0
     [OSet Ser 1 (ACls 0) true 7; OFork 1; OSubclass 2; OSet Ser 3 (ACls 0) true 8;
      OSuppressAll 1 true; OCall [ELook Ser 1 0]] /\
  all_leave_alone (exOps ++ [OFork 0])%list 1 [OSet Ser 0 (ACls 0) true 7] /\
  raw_get exW Ser (run exW (exOps ++ [OFork 0; OSet Ser 1 (ACls 0) true 7])%list) 0 0 = Ok (Some 2) /\
  raw_get exW Ser (run exW (exOps ++ [OFork 0; OSet Ser 1 (ACls 0) true 7])%list) 1 0 = Ok (Some 7).
Proof. repeat split; try (vm_compute; congruence). Qed.

(** ** C18 *)
Theorem C18_validators_shared :
  forall (W : world) (ops : list op) (f g : nat) (c : cls),
  exists_in ops f -> exists_in ops g ->
  raw_get W Val (run W ops) f c = raw_get W Val (run W ops) g c.
Proof. exact validators_shared. Qed.

Theorem C18_announced_shared :
  forall (W : world) (ops : list op) (f g : nat) (n : string),
  exists_in ops f -> exists_in ops g ->
  announced (run W ops) f n = announced (run W ops) g n.
Proof. exact announced_shared. Qed.

(** With an empty cache, announcing in any fork takes effect in every fork. *)
Theorem C18_announce_takes_effect :
  forall (W : world) (fm : form) (ops : list op) (tr : list event) (f g : nat) (c : cls)
         (name : option string) (n : string),
  exists_in ops f -> exists_in ops g ->
  announced (run W (ops ++ [OCall tr; OAnnounce fm f c name])) g n =
  if String.eqb n (match name with Some s => s | None => w_name W c end) then Some c
  else announced (run W (ops ++ [OCall tr])) g n.
Proof. exact announce_after_call. Qed.

(** Isolation does not extend to validators. *)
Theorem C18_validator_isolation_refuted :
  exists W ops f c g,
    exists_in ops f /\ exists_in ops 0 /\ ~ same_fork ops f 0 /\
    raw_get W Val (run W ops) 0 c = Ok None /\
    raw_get W Val (run W (ops ++ [OSet Val f (ACls c) true g])) 0 c = Ok (Some g).
Proof. exists exW, [OFork 0], 1, 0, 5. vm_compute. repeat split; auto; discriminate. Qed.

(** announce_class is cached: announcing a name again after another class took it
    does nothing. *)
Theorem C18_reannounce_refuted :
  exists W c c' name,
    c <> c' /\
    announced (run W [OAnnounce FDefault 0 c (Some name); OAnnounce FDefault 0 c' (Some name);
                      OAnnounce FDefault 0 c (Some name)]) 0 name = Some c'.
Proof. exists exW, 0, 1, "n". split; [discriminate|reflexivity]. Qed.

Example C18_ex :
  exists_in [OFork 0; OSubclass 1] 0 /\ exists_in [OFork 0; OSubclass 1] 2 /\
  announced (run exW [OFork 0; OSubclass 1; OCall []; OAnnounce FKw 2 1 None]) 0 "m.B" = Some 1.
Proof. vm_compute. auto 8. Qed.

(** ** C19 *)
(** [snd (step W (run W ops) (OCall tr))] lists the lookups done inside a dump or
    load that follows the history [ops]; [tr] fixes which ones, with evictions and
    clearings in between. *)
Theorem C19_cache_transparent :
  forall (W : world) (k : kind) (ops : list op) (tr : list event) (f : nat) (c : cls) (r : res (option fn)),
  Forall (calm k) ops -> exists_in ops f ->
  In (k, f, c, r) (snd (step W (run W ops) (OCall tr))) ->
  r = Ok (lookup W (visible k ops f) c).
Proof. exact cache_transparent. Qed.

Theorem C19_calls_leave_cache_empty :
  forall (W : world) (h : heap) (tr : list event), h_cache (fst (step W h (OCall tr))) = [].
Proof. exact call_clears. Qed.

(** A direct lookup right after a dump or load is up to date. *)
Theorem C19_direct_lookup_after_call :
  forall (W : world) (k : kind) (fm : form) (ops : list op) (tr : list event) (f : nat) (c : cls),
  exists_in ops f ->
  snd (step W (run W (ops ++ [OCall tr])) (OGet k fm f c)) =
  [(k, f, c, Ok (lookup W (visible k ops f) c))].
Proof. exact get_after_call. Qed.

Example C19_ex :
  let ops := [OSet Ser 0 (ACls 0) true 1; OCall [ELook Ser 0 1; EAnnounce 0 1; ELook Ser 0 0];
              OFork 0; OSet Ser 1 (ACls 0) true 2; OGet Ser FDefault 0 1; OSet Ser 0 (ACls 1) true 3] in
  Forall (calm Ser) ops /\ exists_in ops 1 /\
  snd (step exW (run exW ops) (OCall [ELook Ser 0 1; EEvict 0; ELook Ser 0 1; ELook Ser 1 1])) =
  [(Ser, 0, 1, Ok (Some 3)); (Ser, 0, 1, Ok (Some 3)); (Ser, 1, 1, Ok (Some 2))].
Proof. vm_compute. repeat split; repeat constructor. Qed.

(** Without [calm] it fails: a direct positional lookup before a registration, *)
Theorem C19_direct_get_refuted :
  exists W ops tr f c r, exists_in ops f /\
    In (Ser, f, c, r) (snd (step W (run W ops) (OCall tr))) /\
    r <> Ok (lookup W (visible Ser ops f) c).
Proof.
  exists exW, [OSet Ser 0 (ACls 0) true 1; OGet Ser FPos 0 0; OSet Ser 0 (ACls 0) true 2],
    [ELook Ser 0 0], 0, 0, (Ok (Some 1)).
  vm_compute. repeat split; [auto|auto|discriminate].
Qed.
(** a failed load for want of a deserializer, *)
Theorem C19_failed_load_refuted :
  exists W ops tr f c r, exists_in ops f /\
    In (Deser, f, c, r) (snd (step W (run W ops) (OCall tr))) /\
    r <> Ok (lookup W (visible Deser ops f) c).
Proof.
  exists exW, [OLoadNone 0 0; OSet Deser 0 (ACls 0) true 2], [ELook Deser 0 0], 0, 0, (Ok None).
  vm_compute. repeat split; [auto|auto|discriminate].
Qed.
(** and, for validators, a load that returned its argument unchanged. *)
Theorem C19_skipped_load_refuted :
  exists W ops tr f c r, exists_in ops f /\
    In (Val, f, c, r) (snd (step W (run W ops) (OCall tr))) /\
    r <> Ok (lookup W (visible Val ops f) c).
Proof.
  exists exW, [OLoadSkip 0 0; OSet Val 0 (ACls 0) true 2], [ELook Val 0 0], 0, 0, (Ok None).
  vm_compute. repeat split; [auto|auto|discriminate].
Qed.

(** ** C20 *)
Theorem C20_exact :
  forall (W : world) (ops : list op) (f : nat) (code : string),
  exists_in ops f ->
  warns (run W ops) f code = negb (all_suppressed ops f) && negb (code_suppressed ops f code).
Proof. exact warns_exact. Qed.

Theorem C20_isolation :
  forall (W : world) (ops : list op) (f : nat) (o : op) (code : string),
  exists_in ops f -> leaves_warnings_alone ops f o ->
  warns (run W (ops ++ [o])) f code = warns (run W ops) f code.
Proof. exact warns_isolated. Qed.

Theorem C20_suppress_all :
  forall (W : world) (ops : list op) (f : nat) (b : bool) (code : string),
  exists_in ops f ->
  warns (run W (ops ++ [OSuppressAll f b])) f code = negb b && negb (code_suppressed ops f code).
Proof. exact suppress_all_effect. Qed.

Theorem C20_suppress_code :
  forall (W : world) (ops : list op) (f : nat) (code : string) (g : nat) (code' : string),
  exists_in ops f -> exists_in ops g -> same_fork ops f g ->
  warns (run W (ops ++ [OSuppress f code])) g code' =
  negb (String.eqb code' code) && warns (run W ops) g code'.
Proof. exact suppress_effect. Qed.

Theorem C20_fresh_fork :
  forall (W : world) (ops : list op) (p : nat) (code : string),
  exists_in ops p ->
  warns (run W (ops ++ [OFork p])) (next_id ops) code = warns (run W ops) p code.
Proof. exact fresh_fork_warns. Qed.

Example C20_ex :
  let ops := [OFork 0; OSuppress 1 "attr"; OFork 1; OSuppressAll 2 true] in
  exists_in ops 2 /\ warns (run exW ops) 0 "attr" = true /\ warns (run exW ops) 1 "attr" = false /\
  warns (run exW ops) 1 "x" = true /\ warns (run exW ops) 2 "x" = false /\
  leaves_warnings_alone ops 0 (OSuppressAll 1 true) /\
  warns (run exW (ops ++ [OSuppressAll 2 false])%list) 2 "attr" = false /\
  warns (run exW (ops ++ [OSuppressAll 2 false])%list) 2 "x" = true.
Proof. vm_compute. repeat split; auto. intros. congruence. Qed.

(** suppress_warning on a plain subclass silences its parent too (the set is
    updated in place), while suppress_warnings does not. *)
Theorem C20_subclass_leak_refuted :
  exists W code,
    warns (run W [OSubclass 0; OSuppress 1 code]) 0 code = false /\
    warns (run W [OSubclass 0; OSuppressAll 1 true]) 0 code = true.
Proof. exists exW, "c". vm_compute. auto. Qed.

Print Assumptions C14_lookup_is_specified.
Print Assumptions C14_last_registration_wins.
Print Assumptions C15_first_matching_ancestor.
Print Assumptions C15_no_ancestor.
Print Assumptions C15_priority_order.
Print Assumptions C16_other_names_unaffected.
Print Assumptions C16_case_collision.
Print Assumptions C17_isolation.
Print Assumptions C17_fresh_fork_copies.
Print Assumptions C17_fork_is_separate.
Print Assumptions C17_subclass_is_not.
Print Assumptions C18_validators_shared.
Print Assumptions C18_announced_shared.
Print Assumptions C18_announce_takes_effect.
Print Assumptions C18_validator_isolation_refuted.
Print Assumptions C18_reannounce_refuted.
Print Assumptions C19_cache_transparent.
Print Assumptions C19_calls_leave_cache_empty.
Print Assumptions C19_direct_lookup_after_call.
Print Assumptions C19_direct_get_refuted.
Print Assumptions C19_failed_load_refuted.
Print Assumptions C19_skipped_load_refuted.
Print Assumptions C20_exact.
Print Assumptions C20_isolation.
Print Assumptions C20_suppress_all.
Print Assumptions C20_suppress_code.
Print Assumptions C20_fresh_fork.
Print Assumptions C20_subclass_leak_refuted.
