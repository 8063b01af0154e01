(* Traces for the examples of T_Gen. *)
From Coq Require Import Permutation.
From Verif Require Import P_CStr P_Const S_Policy S_PyPolicy P_PyFile P_PyEx.
From Verif Require Import M_PyParse S_PyText P_PyLex P_PyGram P_PyStmt P_PyText P_PyMean P_PyTextEx S_Common P_CommonPy P_CommonC P_Common P_CommonEx S_Accept P_CommonFit.
From Verif Require M_Gen.
From Verif Require Import S_Gen P_GenText P_GenRead P_Gen.
Local Open Scope N_scope.
Local Open Scope string_scope.

Definition home : parch := PArch x86_64 "x86_64"
  [("read", 0); ("write", 1); ("open", 2); ("mmap", 9); ("rt_sigreturn", 15); ("ioctl", 16); ("socket", 41); ("exit", 60); ("restart_syscall", 219); ("exit_group", 231)]%N
  [("PROT_READ", 1); ("PROT_WRITE", 2); ("PROT_EXEC", 4); ("AF_UNIX", 1)]%Z [].
Definition c_home : build := M_Filter.Build (M_Bpf.Plat true true 0xC000003E) (pa_syscalls home)
  [("PROT_READ", 1); ("PROT_WRITE", 2); ("PROT_EXEC", 4); ("AF_UNIX", 1)]%N [] [].
Definition same (l : list string) : list string := l.
Lemma same_order l : Permutation (same l) l.
Proof. apply Permutation_refl. Qed.
Definition q : string := String """" "".
Definition mapped : tcall := TCall "[pid 124] " "mmap" ["NULL"; "4096"] [Part "PROT_READ" 1; Part "PROT_WRITE" 2] ", MAP_PRIVATE, -1, 0) = 0x7f".
Definition opened : tcall := TCall "123   " "open" [] [] (q ++ "/etc/passwd" ++ q ++ ", O_RDONLY) = 3").
Definition asked_tty : tcall := TCall "124 " "ioctl" ["3"] [Part "0x5401" 0x5401] ", {c_iflags=0} <unfinished ...>".
Definition log : list tfile := [TFile "strace.txt" [Call opened; Call mapped; Other "--- SIGCHLD (x) ---"; Call asked_tty; Call (TCall "" "socket" [] [Part "AF_UNIX" 1] ", SOCK_STREAM, 0) = 4"); Other "+++ exited with 0 +++"]].
Lemma log_text : map snd (on_disk log) =
  ["123   open(" ++ q ++ "/etc/passwd" ++ q ++ ", O_RDONLY) = 3" ++ nl ++
   "[pid 124] mmap(NULL, 4096, PROT_READ|PROT_WRITE, MAP_PRIVATE, -1, 0) = 0x7f" ++ nl ++
   "--- SIGCHLD (x) ---" ++ nl ++
   "124 ioctl(3, 0x5401, {c_iflags=0} <unfinished ...>" ++ nl ++
   "socket(AF_UNIX, SOCK_STREAM, 0) = 4" ++ nl ++
   "+++ exited with 0 +++" ++ nl].
Proof. reflexivity. Qed.
Definition log_policy : string :=
  "# Copyright 2026 The ChromiumOS Authors" ++ nl ++
  "# Use of this source code is governed by a BSD-style license that can be" ++ nl ++
  "# found in the LICENSE file." ++ nl ++ nl ++
  "open: 1" ++ nl ++ "mmap: arg2 in ~PROT_EXEC || arg2 in ~PROT_WRITE" ++ nl ++ "ioctl: arg1 == 0x5401" ++ nl ++ "socket: arg0 == AF_UNIX" ++ nl ++
  "restart_syscall: 1" ++ nl ++ "exit: 1" ++ nl ++ "exit_group: 1" ++ nl ++ "rt_sigreturn: 1" ++ nl.
Lemma log_generates : M_Gen.generate same "2026" false (on_disk log) = Some log_policy.
Proof. vm_compute. reflexivity. Qed.

(* ---- Hypotheses ---- *)
Lemma home_name s z : plainb s = true -> existsb (String.eqb s) ("in" :: "return" :: actions_named) = false -> String.prefix "arg" s = false ->
  lookup s (pa_constants home) = Some z -> wordok z = true -> const_ok home (Part s (word_of home z)).
Proof.
  intros P R A L W. exists z. split; [unfold wordok in W; unfold in_word; change (Z.of_N (arch_bits (pa_arch home))) with 64%Z; lia|]. split; [reflexivity|]. left.
  split; [apply plainb_name; exact P|]. split; [apply not_reserved; assumption|]. apply lookup_spec. exact L.
Qed.
Lemma home_exec : const_ok home (Part "PROT_EXEC" 4).
Proof. exact (home_name "PROT_EXEC" 4%Z eq_refl eq_refl eq_refl eq_refl eq_refl). Qed.
Lemma home_write : const_ok home (Part "PROT_WRITE" 2).
Proof. exact (home_name "PROT_WRITE" 2%Z eq_refl eq_refl eq_refl eq_refl eq_refl). Qed.
Lemma home_read : const_ok home (Part "PROT_READ" 1).
Proof. exact (home_name "PROT_READ" 1%Z eq_refl eq_refl eq_refl eq_refl eq_refl). Qed.
Lemma home_unix : const_ok home (Part "AF_UNIX" 1).
Proof. exact (home_name "AF_UNIX" 1%Z eq_refl eq_refl eq_refl eq_refl eq_refl). Qed.
Lemma home_tcgets : const_ok home (Part "0x5401" 0x5401).
Proof.
  exists 0x5401%Z. split; [unfold in_word; change (Z.of_N (arch_bits (pa_arch home))) with 64%Z; lia|]. split; [reflexivity|]. right. apply numberb_c. vm_compute. reflexivity.
Qed.
Lemma every_line s : every (fun c => negb (is_c "010" c) && negb (is_c "013" c)) s = true -> in_line s.
Proof. intros H. apply every_all in H. revert H. apply all_chars_impl. intros c C. split; intros ->; discriminate C. Qed.
Lemma every_arg s : every (fun c => negb (is_c "," c) && negb (is_c ")" c) && negb (is_c "<" c)) s = true -> plain_arg s.
Proof. intros H. apply every_all in H. revert H. apply all_chars_impl. intros c C. repeat split; intros ->; discriminate C. Qed.
Lemma every_white s : every is_space s = true -> all_chars white s.
Proof. intros H. apply every_all in H. revert H. apply all_chars_impl. intros c C. apply is_space_spec. exact C. Qed.
Lemma every_digit s : every is_digit s = true -> all_chars dec_digit s.
Proof. intros H. apply every_all in H. revert H. apply all_chars_impl. intros c C. apply is_digit_spec. exact C. Qed.
Lemma pid_tag m b : m <> "" -> b <> "" -> every is_digit m = true -> every is_space b = true -> tag_ok (m ++ b).
Proof. intros M B DM WB. right. exists "", m, b. split; [reflexivity|]. split; [apply all_chars_nil|]. split; [apply every_white; exact WB|]. left. split; [split; [exact M|apply every_digit; exact DM]|exact B]. Qed.
Lemma home_call f c nr : M_Gen.uses_socketcall f = false -> tag_ok (tc_tag c) -> every (fun c => negb (is_c "010" c) && negb (is_c "013" c)) (tline_text (Call c)) = true ->
  M_Gen.policy_name false (tc_name c) = tc_name c -> plainb (tc_name c) = true -> existsb (String.eqb (tc_name c)) ("in" :: "return" :: actions_named) = false -> String.prefix "arg" (tc_name c) = false ->
  lookup (tc_name c) (pa_syscalls home) = Some nr ->
  (forall i, lookup (tc_name c) inspected = Some i -> length (tc_before c) = i /\ Forall plain_arg (tc_before c) /\ tc_value c <> [] /\ Forall (part_ok home) (tc_value c) /\ after_arg (tc_rest c)) ->
  call_ok home f c.
Proof.
  intros U TG L PN P R A LK I. split; [exact TG|]. split; [apply every_line; exact L|]. exists (tc_name c), nr.
  split; [apply policy_name_spec; rewrite U, PN; reflexivity|]. split; [apply plainb_name; exact P|]. split; [apply plainb_name; exact P|].
  split; [intros X; exfalso; revert X; apply not_reserved; assumption|]. split; [apply lookup_spec; exact LK|]. intros i H. apply I. apply lookup_spec. exact H.
Qed.
Lemma comma_after t : after_arg (String "," t).
Proof. exists "", (String "," t). split; [reflexivity|]. split; [apply all_chars_nil|]. right. exists t. left. reflexivity. Qed.
Lemma other_sign x r : x = "-" \/ x = "+" \/ x = "<" -> every (fun c => negb (is_c "010" c) && negb (is_c "013" c)) (x ++ r) = true -> other_ok (x ++ r).
Proof. intros S L. split; [apply every_line; exact L|]. right. exists "", x, r. split; [reflexivity|]. split; [left; apply all_chars_nil|exact S]. Qed.
Lemma log_ok : trace_ok home log.
Proof.
  constructor; [|constructor]. cbn [tf_lines tf_name]. repeat (apply Forall_cons); [| | | | | |constructor]; cbn [tline_ok].
  - apply (home_call _ _ 2); try reflexivity; [exact (pid_tag "123" "   " ltac:(discriminate) ltac:(discriminate) eq_refl eq_refl)|intros i H; discriminate H].
  - apply (home_call _ _ 9); try reflexivity.
    + right. exists "", "[pid 124]", " ". split; [reflexivity|]. split; [apply all_chars_nil|]. split; [apply every_white; reflexivity|]. right. exists "pid 124". split; [reflexivity|].
      apply every_without. reflexivity.
    + intros i H. injection H as <-. split; [reflexivity|]. split; [repeat (apply Forall_cons; [apply every_arg; reflexivity|]); apply Forall_nil|]. split; [discriminate|].
      split; [constructor; [left; exact home_read|constructor; [left; exact home_write|constructor]]|apply comma_after].
  - apply (other_sign "-" "-- SIGCHLD (x) ---"); [left; reflexivity|reflexivity].
  - apply (home_call _ _ 16); try reflexivity; [exact (pid_tag "124" " " ltac:(discriminate) ltac:(discriminate) eq_refl eq_refl)|].
    intros i H. injection H as <-. split; [reflexivity|]. split; [repeat (apply Forall_cons; [apply every_arg; reflexivity|]); apply Forall_nil|]. split; [discriminate|].
    split; [constructor; [left; exact home_tcgets|constructor]|apply comma_after].
  - apply (home_call _ _ 41); try reflexivity; [left; apply all_chars_nil|]. intros i H. injection H as <-. split; [reflexivity|]. split; [constructor|]. split; [discriminate|].
    split; [constructor; [left; exact home_unix|constructor]|apply comma_after].
  - apply (other_sign "+" "++ exited with 0 +++"); [right; left; reflexivity|reflexivity].
Qed.
Lemma home_basic : has_basic home.
Proof. repeat constructor; eexists; apply lookup_spec; reflexivity. Qed.
Lemma home_names : one_name_each home.
Proof.
  intros n m nr H H'. apply first_entry_in in H, H'. unfold home in H, H'. cbn [pa_syscalls] in *.
  repeat (destruct H as [[= <- <-]|H]; [repeat (destruct H' as [E|H']; [first [discriminate E|injection E as <-; reflexivity]|]); destruct H'|]). destruct H.
Qed.

Lemma home_tables : same_tables c_home home.
Proof.
  split; [reflexivity|]. split; [reflexivity|]. split; [reflexivity|]. split; [vm_compute; reflexivity|].
  repeat (constructor; [apply plainb_name; reflexivity|]). constructor.
Qed.
Lemma home_ok : tables_ok home.
Proof. split; [right; reflexivity|]. split; [reflexivity|]. intros s nr I. repeat (destruct I as [[= <- <-]|I]); try reflexivity. destruct I. Qed.
Lemma home_syscalls : syscall_table (pa_syscalls home).
Proof.
  apply P_AcceptEx.table_of. unfold home. cbn [pa_syscalls].
  repeat (constructor; [split; [apply Nat.leb_le; reflexivity|]; split; [reflexivity|]; cbn [fst]; intros c u H; injection H as <- _; vm_compute; intros [A B]; first [apply A; reflexivity|apply B; reflexivity]|]). constructor.
Qed.
Lemma mapped_traced : traced log "mmap" mapped.
Proof.
  exists (TFile "strace.txt" (tf_lines (hd (TFile "" []) log))). split; [left; reflexivity|]. split; [right; left; reflexivity|]. apply policy_name_spec. vm_compute. reflexivity.
Qed.
Lemma mapped_made : made home "mmap" mapped (call3 9 0 4096 3) /\ symbolic 4 2 mapped.
Proof.
  split; [split|].
  - apply lookup_spec. reflexivity.
  - intros i I. apply lookup_spec in I. injection I as <-. vm_compute. reflexivity.
  - intros H. exfalso. apply H. vm_compute. reflexivity.
Qed.
(* Running what is generated *)
Definition gc_run (t : option string) (d : sdata) : option vres :=
  match t with Some t => match M_Filter.compile_filter c_home c_opts c_none (Some (M_Lines.Stream t false)) with M_Filter.COk prog => Some (run true prog d) | _ => None end | None => None end.
Definition gpy_run (t : option string) (d : sdata) : option vres :=
  match t with Some t => match compile_text home strict same_dir (alone t) "p" with Some prog => Some (run true prog d) | None => None end | None => None end.
Definition policy_of (files : list (string * string)) : option string := M_Gen.generate same "2026" false files.
Definition denied (files : list (string * string)) (d : sdata) : Prop :=
  exists t prog prog', policy_of files = Some t /\ M_Filter.compile_filter c_home c_opts c_none (Some (M_Lines.Stream t false)) = M_Filter.COk prog /\
  compile_text home strict same_dir (alone t) "p" = Some prog' /\ run true prog d = VRet KILL_PROCESS /\ run true prog' d = VRet KILL_PROCESS.
Lemma denied_run files d : gc_run (policy_of files) d = Some (VRet KILL_PROCESS) -> gpy_run (policy_of files) d = Some (VRet KILL_PROCESS) -> denied files d.
Proof.
  unfold gc_run, gpy_run, denied. destruct (policy_of files) as [t|]; [|discriminate].
  destruct (M_Filter.compile_filter c_home c_opts c_none (Some (M_Lines.Stream t false))) as [prog| | |] eqn:E1; try discriminate.
  destruct (compile_text home strict same_dir (alone t) "p") as [prog'|] eqn:E2; [|discriminate]. intros A B. apply some_eq in A, B. exists t, prog, prog'. rewrite E1, E2. auto.
Qed.
Definition raw_line : string := "123 mmap(0, 0x1000, 0x7, 0x22, 0xffffffff, 0) = 0x7f0000000000" ++ nl.
Lemma raw_denied : denied [("strace.txt", raw_line)] (call3 9 0 0x1000 7).
Proof. apply denied_run; vm_compute; reflexivity. Qed.
Definition timed_line : string := "12:00:01 open(" ++ q ++ "/etc/passwd" ++ q ++ ", O_RDONLY) = 3" ++ nl.
Lemma timed_denied : denied [("strace.txt", timed_line)] (call3 2 0 0 0).
Proof. apply denied_run; vm_compute; reflexivity. Qed.
Definition socket_line : string := "socket(AF_UNIX, SOCK_STREAM, 0) = 3" ++ nl.
Lemma renamed : policy_of [("x86.txt", socket_line)] = Some (M_Gen.NOTICE "2026" ++ nl ++ "socketcall: 1" ++ nl ++
  "restart_syscall: 1" ++ nl ++ "exit: 1" ++ nl ++ "exit_group: 1" ++ nl ++ "rt_sigreturn: 1" ++ nl).
Proof. vm_compute. reflexivity. Qed.
Definition path_line : string := "ioctl(3</dev/tty>, 0x5401, 0) = 0" ++ nl.
Lemma path_fails : policy_of [("strace.txt", path_line)] = None.
Proof. vm_compute. reflexivity. Qed.
Lemma log_runs : (gc_run (policy_of (on_disk log)) (call3 9 0 4096 3), gpy_run (policy_of (on_disk log)) (call3 9 0 4096 3)) = (Some (VRet ALLOW), Some (VRet ALLOW)) /\
  (gc_run (policy_of (on_disk log)) (call3 9 0 4096 7), gpy_run (policy_of (on_disk log)) (call3 9 0 4096 7)) = (Some (VRet KILL_PROCESS), Some (VRet KILL_PROCESS)).
Proof. split; vm_compute; reflexivity. Qed.
Lemma log_case : trace_ok home log /\ const_ok home (Part "PROT_EXEC" 4) /\ const_ok home (Part "PROT_WRITE" 2) /\ has_basic home /\ one_name_each home /\
  same_tables c_home home /\ tables_ok home /\ syscall_table (pa_syscalls home) /\ all_chars dec_digit "2026" /\ (forall l, Permutation (same l) l).
Proof.
  split; [exact log_ok|]. split; [exact home_exec|]. split; [exact home_write|]. split; [exact home_basic|]. split; [exact home_names|]. split; [exact home_tables|].
  split; [exact home_ok|]. split; [exact home_syscalls|]. split; [apply every_digit; reflexivity|]. exact same_order.
Qed.

(* strace prints all the names of a number *)
Definition tty : parch := PArch x86_64 "x86_64" (pa_syscalls home) (pa_constants home ++ [("SNDCTL_TMR_TIMEBASE", 0x5401); ("TCGETS", 0x5401)]%Z)%list [].
Definition c_tty : build := M_Filter.Build (M_Filter.b_plat c_home) (M_Filter.b_syscalls c_home) (M_Filter.b_consts c_home ++ [("SNDCTL_TMR_TIMEBASE", 0x5401); ("TCGETS", 0x5401)])%list [] [].
Definition names_line : string := "ioctl(1, SNDCTL_TMR_TIMEBASE or TCGETS, {B38400 opost isig icanon echo ...}) = 0" ++ nl.
Lemma names_refused : exists t, policy_of [("strace.txt", names_line)] = Some t /\ compile_text tty strict same_dir (alone t) "p" = None /\
  forall prog, M_Filter.compile_filter c_tty c_opts c_none (Some (M_Lines.Stream t false)) <> M_Filter.COk prog.
Proof. eexists. split; [vm_compute; reflexivity|]. split; [vm_compute; reflexivity|]. intros prog H. vm_compute in H. discriminate H. Qed.
