(* C46, C47, C48: programs made by tools/compile_seccomp_policy.py.  [freq] is
   the frequency file, [ss] the statements of the policy, [kill] the value of
   the kill action. *)
From Verif Require Import M_PyComp S_PyPolicy P_PyFile P_PyEx.
Local Open Scope N_scope.

(* ---- C46 ---- *)
(* The value returned for a system call of the architecture is the one the
   policy gives, with both strategies and all frequencies.  Partial: without
   the denylist, a system call whose conditional filters deny something and
   whose last filter allows is left out, see C47; little-endian machines; one
   name per number. *)
Theorem C46_preserved_partial : forall freq a default ss p kill denylist strat prog d,
  policy_ok a default ss -> one_name ss -> kill < 2 ^ 32 ->
  parse_file freq default ss = Some p -> compile_file a kill denylist strat p = Some prog -> sd_ok d ->
  sd_arch d = arch_nr a ->
  denylist = true \/ last_resort (a_val default) (filters_for (sd_nr d) ss) <> ALLOW \/
    Forall (fun f => a_val (f_act f) = ALLOW) (filters_for (sd_nr d) ss) ->
  run true prog d = VRet (decision (arch_bits a) denylist (a_val default) ss d).
Proof. exact preserved. Qed.
Print Assumptions C46_preserved_partial.
(* System calls of another architecture get the kill action. *)
Theorem C46_foreign_architecture : forall freq a default ss p kill denylist strat prog d,
  policy_ok a default ss -> one_name ss -> kill < 2 ^ 32 ->
  parse_file freq default ss = Some p -> compile_file a kill denylist strat p = Some prog -> sd_ok d ->
  sd_arch d <> arch_nr a -> run true prog d = VRet kill.
Proof. exact foreign. Qed.
Print Assumptions C46_foreign_architecture.
(* Every parsed policy compiles, and the kernel loads the result if it is not
   too long. *)
Theorem C46_compiles : forall freq a default ss p kill denylist strat,
  policy_ok a default ss -> one_name ss -> kill < 2 ^ 32 -> parse_file freq default ss = Some p ->
  exists prog, compile_file a kill denylist strat p = Some prog /\ ((length prog <= 4096)%nat -> kernel_accepts prog).
Proof. exact compiles. Qed.
Print Assumptions C46_compiles.
(* Strategy and frequencies never change what a program decides. *)
Theorem C46_strategy_irrelevant : forall p p' freq freq' default ss a, policy_ok a default ss -> one_name ss ->
  parse_file freq default ss = Some p -> parse_file freq' default ss = Some p' ->
  forall kill denylist strat strat' prog prog', kill < 2 ^ 32 ->
  compile_file a kill denylist strat p = Some prog -> compile_file a kill denylist strat' p' = Some prog' ->
  forall d, sd_ok d -> run true prog d = run true prog' d.
Proof. exact one_value. Qed.
Print Assumptions C46_strategy_irrelevant.
(* A policy that meets all hypotheses, and what its programs return. *)
Example C46_case : policy_ok x86_64 kill_act sample /\ one_name sample /\
  exists p lin bst, parse_file ex_freq kill_act sample = Some p /\
  compile_file x86_64 KILLP false LINEAR p = Some lin /\ compile_file x86_64 KILLP false BST p = Some bst /\
  lin <> bst /\ (length bst <= 4096)%nat /\
  last_resort KILLP (filters_for 1 sample) <> ALLOW /\ Forall (fun f => a_val (f_act f) = ALLOW) (filters_for 0 sample) /\
  run true bst (event 0xc000003e 0 0) = VRet ALLOW /\ run true bst (event 0xc000003e 1 1) = VRet ALLOW /\
  run true bst (event 0xc000003e 1 0x100000001) = VRet 0x50001 /\ run true bst (event 0xc000003e 1 9) = VRet KILLP /\
  run true bst (event 0xc000003e 2 1) = VRet KILLP /\ run true bst (event 0xc000003e 60 5) = VRet ALLOW /\
  run true bst (event 0x40000003 0 0) = VRet KILLP.
Proof. exact sample_case. Qed.

(* Outside these hypotheses: the parser lets arg6 through, and the kernel
   refuses the program. *)
Theorem C46_argument_refuted : exists a default ss p prog,
  parse_file (fun _ => 1) default ss = Some p /\ compile_file a KILLP false BST p = Some prog /\ ~ kernel_accepts prog.
Proof. exact arg6_case. Qed.
Print Assumptions C46_argument_refuted.
(* Two names of one number: with the binary search the compiler stops with an
   assertion, with the linear search the frequencies decide which filters
   count. *)
Theorem C46_alias_refuted : exists ss, policy_ok x86_64 kill_act ss /\
  (exists p, parse_file (fun _ => 1) kill_act ss = Some p /\ compile_file x86_64 KILLP false BST p = None) /\
  exists freq p p' prog prog' d, parse_file (fun _ => 1) kill_act ss = Some p /\ parse_file freq kill_act ss = Some p' /\
  compile_file x86_64 KILLP false LINEAR p = Some prog /\ compile_file x86_64 KILLP false LINEAR p' = Some prog' /\
  sd_ok d /\ run true prog d = VRet ALLOW /\ run true prog' d = VRet KILLP.
Proof. exact alias_case. Qed.
Print Assumptions C46_alias_refuted.
(* On a big-endian machine the halves of an argument are exchanged. *)
Theorem C46_big_endian_refuted : exists ss p prog d, policy_ok x86_64 kill_act ss /\ one_name ss /\
  parse_file (fun _ => 1) kill_act ss = Some p /\ compile_file x86_64 KILLP false BST p = Some prog /\ sd_ok d /\
  sd_arch d = arch_nr x86_64 /\ last_resort KILLP (filters_for (sd_nr d) ss) <> ALLOW /\
  run false prog d <> VRet (decision 64 false KILLP ss d).
Proof. exact big_endian_case. Qed.
Print Assumptions C46_big_endian_refuted.

(* ---- C47 ---- *)
(* "write: arg0 == 2 ; return 1" followed by an unconditional allow: the
   denial is lost. *)
Theorem C47_denial_refuted : exists ss p prog d, policy_ok x86_64 kill_act ss /\ one_name ss /\
  parse_file (fun _ => 1) kill_act ss = Some p /\ compile_file x86_64 KILLP false BST p = Some prog /\ sd_ok d /\
  sd_arch d = arch_nr x86_64 /\ decision 64 false KILLP ss d = 0x50001 /\ run true prog d = VRet ALLOW.
Proof. exact denial_case. Qed.
Print Assumptions C47_denial_refuted.
(* It is so for every policy: if the last filter of a system call allows, all
   its events are allowed. *)
Theorem C47_denials_dropped : forall freq a default ss p kill strat prog d,
  policy_ok a default ss -> one_name ss -> kill < 2 ^ 32 ->
  parse_file freq default ss = Some p -> compile_file a kill false strat p = Some prog -> sd_ok d ->
  sd_arch d = arch_nr a -> listed (sd_nr d) ss = true ->
  last_resort (a_val default) (filters_for (sd_nr d) ss) = ALLOW ->
  run true prog d = VRet ALLOW.
Proof. exact all_allowed. Qed.
Print Assumptions C47_denials_dropped.
(* In a denylist the denials are honoured. *)
Theorem C47_denylist_partial : forall freq a default ss p kill strat prog d,
  policy_ok a default ss -> one_name ss -> kill < 2 ^ 32 ->
  parse_file freq default ss = Some p -> compile_file a kill true strat p = Some prog -> sd_ok d ->
  sd_arch d = arch_nr a -> listed (sd_nr d) ss = true ->
  run true prog d = VRet (first_match (arch_bits a) d (a_val default) (filters_for (sd_nr d) ss)).
Proof. exact denylist_honoured. Qed.
Print Assumptions C47_denylist_partial.
Example C47_denylist_case : exists p prog d, parse_file (fun _ => 1) allow_act denial = Some p /\
  policy_ok x86_64 allow_act denial /\ one_name denial /\
  compile_file x86_64 0x50001 true BST p = Some prog /\ sd_ok d /\ listed (sd_nr d) denial = true /\
  sd_arch d = arch_nr x86_64 /\ run true prog d = VRet 0x50001.
Proof. exact denylist_case. Qed.

(* ---- C48 ---- [t], [f]: any distances; [b]: the outcome of the comparison. *)
Theorem C48_target_reached : forall le d op value t f rest s b,
  In op [BPF_JEQ; BPF_JGT; BPF_JGE; BPF_JSET] -> jump_test (N.lor 5 op) (acc s) value = Some b ->
  let p := (emit_jmp op value t f ++ rest)%list in
  let q := skipn (N.to_nat (if b then t else f)) rest in
  exec le (S (length p)) p d s = exec le (S (length q)) q d s.
Proof. exact jumps_reach. Qed.
Print Assumptions C48_target_reached.
Theorem C48_distances_fit : forall op value t f, Forall (fun i => jt i < 256 /\ jf i < 256) (emit_jmp op value t f).
Proof. exact jumps_fit. Qed.
Print Assumptions C48_distances_fit.
Example C48_cases :
  emit_jmp BPF_JEQ 7 255 255 = [I 21 255 255 7] /\
  emit_jmp BPF_JEQ 7 254 300 = [I 21 255 0 7; I 5 0 0 300] /\
  emit_jmp BPF_JEQ 7 255 256 = [I 21 0 1 7; I 5 0 0 256; I 5 0 0 256] /\
  emit_jmp BPF_JEQ 7 256 3 = [I 21 0 4 7; I 5 0 0 256].
Proof. repeat split; reflexivity. Qed.
