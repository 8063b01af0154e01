(* Concrete cases about signals. *)
From Verif Require Export P_Signal P_RunEx.
From Coq Require Import Lia.
Local Open Scope N_scope.

(* Linux: SIGKILL, SIGSTOP and the C library's 32 and 33 *)
Definition linux_refuses (n : N) : option N := if existsb (N.eqb n) [0; 9; 19; 32; 33] || (64 <? n) then Some 22 else None.
Definition SIGINT : N := 2.
Definition SIGHUP : N := 1.
(* a launcher that ignores SIGHUP, handles SIGINT and blocks SIGINT and SIGSYS *)
Definition ex_signals : signals :=
  Signals (fun n => if n =? SIGHUP then Ignored else if n =? SIGINT then Handled (Mine 1) else Default) (fun n => (n =? SIGINT) || (n =? SIGSYS)) None.
Definition calm : signals := Signals (fun _ => Default) (fun _ => false) None.

Definition sig_calls : list api := (plain_calls ++ [A_reset_signal_mask; A_reset_signal_handlers])%list.
Definition sig_history : list (api * Z) := match replay ex_env minijail_new sig_calls with Some (h, _) => h | None => [] end.
Definition sig_jail : jail := match replay ex_env minijail_new sig_calls with Some (_, j) => j | None => minijail_new end.
Definition sig_trace : list event := snd (M_Io.run ex_kernel [] (run_child ex_cfg false (with_ruleset ex_env sig_jail))).
Lemma sig_case : launched_plain ex_cfg ex_env true sig_history sig_jail sig_trace.
Proof.
  split; [apply (replay_history ex_env sig_calls); vm_compute; reflexivity|]. split; [reflexivity|]. split; [vm_compute; reflexivity|].
  exists ex_kernel. vm_compute. reflexivity.
Qed.
Definition child_of (j : jail) (s : signals) : signals := match child_signals linux_refuses 64 j s with Some s => s | None => s end.
Lemma sig_resets : child_signals linux_refuses 64 sig_jail ex_signals = Some (child_of sig_jail ex_signals).
Proof. unfold child_of. destruct (child_signals linux_refuses 64 sig_jail ex_signals) eqn:E; [reflexivity|]. exfalso. vm_compute in E. discriminate E. Qed.
Lemma run_resets : child_signals linux_refuses 64 run_jail ex_signals = Some ex_signals.
Proof. reflexivity. Qed.
Lemma sig_asked : asked F_reset_signal_mask sig_history /\ asked F_reset_signal_handlers sig_history.
Proof.
  destruct sig_case as (H & _). split; [apply (flag_asked _ _ _ F_reset_signal_mask H eq_refl)|apply (flag_asked _ _ _ F_reset_signal_handlers H eq_refl)]; vm_compute; reflexivity.
Qed.

(* forwarding *)
Definition fwd_history : list (api * Z) := [(A_forward_signals, 0%Z)].
Definition fwd_jail : jail := match replay ex_env minijail_new [A_forward_signals] with Some (_, j) => j | None => minijail_new end.
Lemma fwd_built : history ex_env minijail_new fwd_history fwd_jail.
Proof. apply (replay_history ex_env [A_forward_signals]). reflexivity. Qed.
Lemma fwd_asked : asked F_forward_signals fwd_history.
Proof. apply (flag_asked _ _ _ F_forward_signals fwd_built eq_refl). reflexivity. Qed.
Definition nobody : lproc := Launcher calm (fun _ => None).
Lemma can_forward n : In n [1; 2; 15; 34; 64] -> forwardable linux_refuses n.
Proof. intros I. cbn in I. repeat destruct I as [<-|I]; [..|destruct I]; (split; [unfold NSIG; lia|split; [reflexivity|discriminate]]). Qed.

(* with a pid namespace *)
Definition pidns_calls : list api := [A_forward_signals; A_namespace_pids].
Definition pidns_history : list (api * Z) := match replay ex_env minijail_new pidns_calls with Some (h, _) => h | None => [] end.
Definition pidns_jail : jail := match replay ex_env minijail_new pidns_calls with Some (_, j) => j | None => minijail_new end.
Lemma pidns_built : history ex_env minijail_new pidns_history pidns_jail.
Proof. apply (replay_history ex_env pidns_calls). vm_compute. reflexivity. Qed.
Lemma pidns_asked : asked F_forward_signals pidns_history /\ asked F_do_init pidns_history.
Proof. split; [apply (flag_asked _ _ _ F_forward_signals pidns_built eq_refl)|apply (flag_asked _ _ _ F_do_init pidns_built eq_refl)]; vm_compute; reflexivity. Qed.
Definition pidns_t1 : list event := snd (M_Io.run ex_kernel [] (run_child ex_cfg true (with_ruleset ex_env pidns_jail))).
Lemma pidns_quiet : ~ about_sigsys pidns_t1.
Proof.
  intros (c & a & I & Q). assert (K : forallb (fun e => match fst e with C_sigsys_handler | C_sigsys_default => false | _ => true end) pidns_t1 = true) by (vm_compute; reflexivity).
  rewrite forallb_forall in K. specialize (K _ I). cbn [fst] in K. destruct Q as [-> | ->]; discriminate K.
Qed.

(* sending: the reader is gone; one SIGPIPE from elsewhere *)
Definition gone : list M_Pipe.answer := [M_Pipe.Bytes 8; M_Pipe.Fail 32].
Definition no_mask : N -> bool := fun _ => false.
Lemma gone_case : exists s, ssteps gone 1 (begins no_mask false) s /\ s_phase s = Sent /\ s_delivered s = [false].
Proof.
  pose proof (ss_refl gone (begins no_mask false)) as R.
  pose proof (ss_step _ _ _ _ _ _ R (s_block gone _ _ _ _ _)) as R1.
  pose proof (ss_step _ _ _ _ _ _ R1 (s_write gone _ _ _ _ _ _ _)) as R2.
  pose proof (ss_step _ _ _ _ _ _ R2 (s_write gone _ _ _ _ _ _ _)) as R3.
  pose proof (ss_step _ _ _ _ _ _ R3 (s_written gone _ _ _ _ _)) as R4.
  pose proof (ss_step _ _ _ _ _ _ R4 (s_accept gone _ _ true false _ eq_refl)) as R5.
  pose proof (ss_step _ _ _ _ _ _ R5 (s_none gone _ _ _)) as R6.
  pose proof (ss_step _ _ _ _ _ _ R6 (s_other gone _ _ _ _ _ _)) as R7.
  pose proof (ss_step _ _ _ _ _ _ R7 (s_restore gone _ _ _ _ _)) as R8.
  eexists. split; [exact R8|]. split; reflexivity.
Qed.
(* a SIGPIPE that the caller blocks and that is pending is gone afterwards *)
Definition pipe_mask : N -> bool := fun n => n =? SIGPIPE.
Lemma lost_case : exists s, ssteps [M_Pipe.Bytes 8; M_Pipe.Bytes 100] 0 (begins pipe_mask true) s /\ s_phase s = Sent /\ s_delivered s = [] /\ pend_other s = false /\ s_mask s SIGPIPE = true.
Proof.
  pose proof (ss_refl [M_Pipe.Bytes 8; M_Pipe.Bytes 100] (begins pipe_mask true)) as R.
  pose proof (ss_step _ _ _ _ _ _ R (s_block _ _ _ _ _ _)) as R1.
  pose proof (ss_step _ _ _ _ _ _ R1 (s_write _ _ _ _ _ _ _ _)) as R2.
  pose proof (ss_step _ _ _ _ _ _ R2 (s_write _ _ _ _ _ _ _ _)) as R3.
  pose proof (ss_step _ _ _ _ _ _ R3 (s_written _ _ _ _ _ _)) as R4.
  pose proof (ss_step _ _ _ _ _ _ R4 (s_accept _ _ _ false true _ eq_refl)) as R5.
  pose proof (ss_step _ _ _ _ _ _ R5 (s_none _ _ _ _)) as R6.
  pose proof (ss_step _ _ _ _ _ _ R6 (s_restore _ _ _ _ _ _)) as R7.
  eexists. split; [exact R7|]. repeat split; reflexivity.
Qed.

(* the child is left alone exactly if it was sent everything *)
Lemma killed_unless_sent addr j fuel w rc out i : real_errors w -> minijail_to_fd addr j fuel w = Some (Wrote rc out i) ->
  kill_after rc = None <-> exists sz buf, minijail_size addr j = Some sz /\ minijail_marshal addr j sz = Some (0%Z, buf) /\ sz <> 0 /\ out = (num 8 sz ++ buf)%string.
Proof.
  intros RE. unfold minijail_to_fd. destruct (minijail_size addr j) as [sz|] eqn:SZ; [|discriminate]. destruct (N.eqb_spec sz 0) as [->|NZ].
  - intros X. injection X as <- <- _. split; [discriminate|intros (z & b & E & _ & N1 & _); injection E as <-; destruct N1; reflexivity].
  - destruct (minijail_marshal addr j sz) as [[err buf]|] eqn:MB; [|discriminate]. destruct (Z.eqb_spec err 0) as [->|NE]; cbn [negb].
    2: { intros X. injection X as <- <- _. unfold kill_after. apply Z.eqb_neq in NE. rewrite NE. split; [discriminate|]. intros (z & b & E & M & _). injection E as <-. rewrite MB in M. injection M as -> _. apply Z.eqb_neq in NE. destruct NE. reflexivity. }
    pose proof (write_result w RE fuel 0%nat (num 8 sz) EmptyString) as W1. destruct (write_exactly fuel w 0 (num 8 sz) EmptyString) as [r1 o1 i1|o1] eqn:E1; [|discriminate].
    assert (KEY : forall a b c : string, (a ++ b)%string = (a ++ c)%string -> b = c) by (induction a as [|x a IH]; intros b c E; [exact E|injection E as E; exact (IH _ _ E)]).
    assert (KE : forall a b : string, (a ++ b)%string = a -> b = EmptyString) by (induction a as [|x a IH]; intros b E; [exact E|injection E as E; exact (IH _ E)]).
    assert (AP : forall a b c : string, ((a ++ b) ++ c)%string = (a ++ b ++ c)%string) by (induction a as [|x a IH]; intros b c; [reflexivity|cbn; rewrite IH; reflexivity]).
    destruct W1 as (_ & took & rest & P1 & O1 & R1 & _). cbn [append] in O1. subst o1.
    destruct (Z.eq_dec r1 0) as [->|N1].
    + destruct (R1) as [R2 _]. rewrite (R2 eq_refl) in P1. assert (took = num 8 sz) as -> by (rewrite P1; clear; induction took as [|x t IH]; [reflexivity|cbn; rewrite <- IH; reflexivity]).
      pose proof (write_result w RE fuel i1 buf (num 8 sz)) as W2. intros X. apply (f_equal (fun o => match o with Some r => r | None => More EmptyString end)) in X. cbv beta iota in X. rewrite X in W2. destruct W2 as (_ & t2 & r2 & P2 & O2 & R3 & _). subst out.
      unfold kill_after. destruct (Z.eqb_spec rc 0) as [->|NR].
      * split; [intros _|reflexivity]. exists sz, buf. split; [reflexivity|]. split; [exact MB|]. split; [exact NZ|]. destruct R3 as [R3 _]. rewrite (R3 eq_refl) in P2. rewrite P2.
        f_equal. clear. induction t2 as [|x t IH]; [reflexivity|cbn; rewrite <- IH; reflexivity].
      * split; [discriminate|]. intros (z & b & E & M & _ & Q). injection E as <-. rewrite MB in M. injection M as <-. apply KEY in Q. exfalso. apply NR, R3. subst buf. symmetry in Q. exact (KE _ _ Q).
    + assert (X : Some (Wrote r1 took i1) = Some (Wrote rc out i) -> kill_after rc = None <-> (exists z b, Some sz = Some z /\ minijail_marshal addr j z = Some (0%Z, b) /\ z <> 0 /\ out = (num 8 z ++ b)%string)).
      { intros X. injection X as <- <- _. unfold kill_after. apply Z.eqb_neq in N1. rewrite N1. split; [discriminate|]. intros (z & b & E & M & _ & Q). injection E as <-.
        exfalso. apply Z.eqb_neq in N1. apply N1, R1. rewrite Q, AP in P1. symmetry in P1. apply KE in P1. destruct b; [exact P1|discriminate P1]. }
      destruct r1; [destruct N1; reflexivity|exact X|exact X].
Qed.
Lemma exec_handlers s n hd : sig_action (exec_signals s) n <> Handled hd.
Proof. cbn [exec_signals sig_action]. destruct (sig_action s n); discriminate. Qed.
Lemma nothing_about : ~ about_sigsys []. Proof. intros (c & a & [] & _). Qed.
Lemma sent_case : exists rc out i, minijail_to_fd any_addr run_sent 1700 slow = Some (Wrote rc out i) /\ kill_after rc = None.
Proof.
  destruct (minijail_to_fd any_addr run_sent 1700 slow) as [res|] eqn:E; [|vm_compute in E; discriminate E]. destruct res as [rc out i|s]; [|vm_compute in E; discriminate E].
  exists rc, out, i. split; [reflexivity|]. assert (R : (match minijail_to_fd any_addr run_sent 1700 slow with Some (Wrote r _ _) => r | _ => 1%Z end) = 0%Z) by (vm_compute; reflexivity).
  rewrite E in R. rewrite R. reflexivity.
Qed.
