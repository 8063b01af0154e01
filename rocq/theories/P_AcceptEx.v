(* Acceptable policies: examples, and policies that both compilers take. *)
From Verif Require Import P_Accept P_PolicyEx.
Local Open Scope N_scope.

Lemma table_of (t : list (string * N)) : Forall (fun e => (String.length (fst e) <= 32)%nat /\ snd e < 2 ^ 32 /\
    forall c u, fst e = String c u -> ~ 48 <= N_of_ascii c <= 57) t -> syscall_table t.
Proof.
  intros F n nr H. apply assoc_spec in H. revert H. induction F as [|[m v] t (A & B & C) F IH]; cbn [assoc]; [discriminate|].
  cbn [fst snd] in *. destruct (String.eqb_spec m n) as [->|]; [|exact IH]. intros H. injection H as <-. auto.
Qed.
Lemma ex_table : syscall_table (b_syscalls ex_build).
Proof.
  apply table_of. unfold ex_build. cbn [b_syscalls].
  repeat (constructor; [split; [cbn; lia|]; split; [reflexivity|]; cbn [fst]; intros c u H; injection H as <- _; vm_compute; intros [A B]; congruence|]). constructor.
Qed.
Lemma accept_compiles b o fs f : names_ok (b_consts b) -> syscall_table (b_syscalls b) ->
  ((exists prog, compile_filter b o fs (Some f) = COk prog) <-> exists pol, reads_policy b o fs f pol /\ acceptable b o pol).
Proof.
  intros NM TB. destruct (accept_iff b o fs f NM TB) as [A B]. split.
  - intros [prog H]. destruct (A prog H) as (pol & R & AC & _). eauto.
  - intros (pol & R & AC). eauto.
Qed.
Lemma accept_size b o fs f prog pol : names_ok (b_consts b) -> syscall_table (b_syscalls b) ->
  compile_filter b o fs (Some f) = COk prog -> reads_policy b o fs f pol -> length prog = policy_size b o pol.
Proof.
  intros NM TB H R. destruct (accept_iff b o fs f NM TB) as [A _]. destruct (A prog H) as (pol' & R' & _ & L).
  rewrite (reads_policy_unique b o NM _ _ _ _ R R'). exact L.
Qed.
Lemma accept_case : names_ok (b_consts ex_build) /\ syscall_table (b_syscalls ex_build) /\
  reads_policy ex_build ex_opts no_files ex_policy ex_rules /\ acceptable ex_build ex_opts ex_rules /\ policy_size ex_build ex_opts ex_rules = 41%nat.
Proof.
  split; [apply ex_names|]. split; [apply ex_table|]. split; [apply ex_reads|]. split; [|reflexivity].
  constructor; [discriminate|..].
  - intros _. cbn. constructor; [intros [H|[]]; discriminate|]. constructor; [intros []|constructor].
  - cbn. constructor; [intros []|constructor].
  - cbn. constructor; [intros []|constructor].
  - apply Nat.leb_le. vm_compute. reflexivity.
  - apply Nat.leb_le. vm_compute. reflexivity.
Qed.
Lemma dup_refused : exists f pol, let o := FOpts ACT_KILL false false true false in
  reads_policy ex_build o no_files f pol /\ (policy_labels pol <= 512)%nat /\ (policy_size ex_build o pol <= 4096)%nat /\
  fo_allow_dup o = true /\ compile_filter ex_build o no_files (Some f) = CFail.
Proof.
  exists (Stream ("read: arg0 == 1" ++ nl ++ "read: arg0 == 2" ++ nl)%string false).
  eexists. cbv zeta. split; [apply policy_of_spec; [apply ex_names|]; vm_compute; reflexivity|].
  split; [apply Nat.leb_le; vm_compute; reflexivity|]. split; [apply Nat.leb_le; vm_compute; reflexivity|]. split; reflexivity.
Qed.
