(* Property theorems: comparisons (C01). *)
From Verif Require Import P_Atom.
Local Open Scope N_scope.

(* C01: the code generated for a comparison, followed by "answer yes" and,
   at its label, "answer no", loads and answers yes exactly when the unsigned
   comparison holds. *)
Theorem C01_comparison_exact : forall p o idx c yes no d,
  little p = true -> (0 <= idx <= 5)%Z -> c < 2 ^ wordN p -> sd_ok d ->
  exists prog, bpf_resolve_jumps 1 (comparison_filter p o idx c yes no) = ROk prog /\
    run true prog d = VRet (if op_holds o (arg_value (bits64 p) d idx) c then yes else no).
Proof. exact comparison_exact. Qed.
Print Assumptions C01_comparison_exact.
Example C01_case :
  let p := Plat true true 0xC000003E in
  let d := SD 1 0xC000003E 0 [0; 0; 0x100000000; 0; 0; 0] in
  little p = true /\ sd_ok d /\ 0xFFFFFFFF < 2 ^ wordN p /\
  op_holds GT (arg_value (bits64 p) d 2) 0xFFFFFFFF = true.
Proof. exact comparison_exact_case. Qed.

(* C01 is false on 32-bit big-endian builds: the word loaded is the high half
   of the argument (bpf.h:90 uses the offset of args[idx] itself). *)
Theorem C01_big_endian_32bit_refuted :
  exists p o idx c yes no d prog,
    bits64 p = false /\ little p = false /\ (0 <= idx <= 5)%Z /\ c < 2 ^ wordN p /\ sd_ok d /\
    bpf_resolve_jumps 1 (comparison_filter p o idx c yes no) = ROk prog /\
    run (little p) prog d <> VRet (if op_holds o (arg_value (bits64 p) d idx) c then yes else no).
Proof. exact comparison_be32_wrong. Qed.
Print Assumptions C01_big_endian_32bit_refuted.
