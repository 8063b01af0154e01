(* Policies for the examples of T_Lint. *)
From Verif Require Import P_CStr P_Const S_Policy S_PyPolicy P_PyFile P_PyEx.
From Verif Require Import M_PyParse S_PyText P_PyLex P_PyGram P_PyStmt P_PyText P_PyMean P_PyTextEx S_Common P_CommonPy P_CommonC P_Common P_CommonEx.
From Verif Require Import M_Lint S_Lint P_GenText P_GenRead P_Lint.
Local Open Scope N_scope.
Local Open Scope string_scope.

Definition desk : parch := PArch x86_64 "x86_64"
  [("read", 0); ("mmap", 9); ("mprotect", 10); ("ioctl", 16); ("clone", 56); ("execve", 59); ("getrandom", 318)]%N
  [("PROT_READ", 1); ("PROT_WRITE", 2); ("PROT_EXEC", 4); ("PROT_NONE", 0); ("GRND_RANDOM", 2)]%Z [].
Definition c_desk : build := M_Filter.Build (M_Bpf.Plat true true 0xC000003E) (pa_syscalls desk)
  [("PROT_READ", 1); ("PROT_WRITE", 2); ("PROT_EXEC", 4); ("PROT_NONE", 0); ("GRND_RANDOM", 2)]%N [] [].
Lemma desk_name s z : plainb s = true -> existsb (String.eqb s) ("in" :: "return" :: actions_named) = false -> String.prefix "arg" s = false ->
  lookup s (pa_constants desk) = Some z -> wordok z = true -> const_ok desk (Part s (word_of desk z)).
Proof.
  intros P R A L W. exists z. split; [unfold wordok in W; unfold in_word; change (Z.of_N (arch_bits (pa_arch desk))) with 64%Z; lia|]. split; [reflexivity|]. left.
  split; [apply plainb_name; exact P|]. split; [apply not_reserved; assumption|]. apply lookup_spec. exact L.
Qed.
Lemma desk_kernel : kernel_constants desk.
Proof.
  unfold kernel_constants. apply Forall_cons; [exact (desk_name "PROT_READ" 1%Z eq_refl eq_refl eq_refl eq_refl eq_refl)|].
  apply Forall_cons; [exact (desk_name "PROT_WRITE" 2%Z eq_refl eq_refl eq_refl eq_refl eq_refl)|].
  apply Forall_cons; [exact (desk_name "PROT_EXEC" 4%Z eq_refl eq_refl eq_refl eq_refl eq_refl)|].
  apply Forall_cons; [exact (desk_name "PROT_NONE" 0%Z eq_refl eq_refl eq_refl eq_refl eq_refl)|].
  apply Forall_cons; [exact (desk_name "GRND_RANDOM" 2%Z eq_refl eq_refl eq_refl eq_refl eq_refl)|]. apply Forall_nil.
Qed.
Lemma desk_tables : same_tables c_desk desk.
Proof.
  split; [reflexivity|]. split; [reflexivity|]. split; [reflexivity|]. split; [vm_compute; reflexivity|].
  repeat (apply Forall_cons; [apply plainb_name; reflexivity|]). apply Forall_nil.
Qed.
Lemma desk_ok : tables_ok desk.
Proof. split; [right; reflexivity|]. split; [reflexivity|]. intros s nr I. repeat (destruct I as [[= <- <-]|I]); try reflexivity. destruct I. Qed.
Lemma desk_words : word_table (pa_syscalls desk).
Proof.
  split.
  - intros n nr H. apply first_entry_in in H. unfold desk in H. cbn [pa_syscalls] in H. apply every_word.
    repeat (destruct H as [[= <- <-]|H]; [reflexivity|]). destruct H.
  - intros n m nr H H'. apply first_entry_in in H, H'. unfold desk in H, H'. cbn [pa_syscalls] in *.
    repeat (destruct H as [[= <- <-]|H]; [repeat (destruct H' as [E|H']; [first [discriminate E|injection E as <-; reflexivity]|]); destruct H'|]). destruct H.
Qed.

(* ---- A policy that passes ---- *)
Definition sample : list cline :=
  [CComment " runs a shell"; CBlank; CRule "execve" 59 CAllow; CRule "read" 0 CAllow; CRule "clone" 56 (CReturn (Part "1" 1));
   CRule "mmap" 9 (CCond [[CAtom 2 M_Bpf.IN [Part "~PROT_EXEC" (2 ^ 64 - 1 - 4)]]; [CAtom 2 M_Bpf.IN [Part "~PROT_WRITE" (2 ^ 64 - 1 - 2)]]])]%N.
Definition sample_lines : list string :=
  ["# runs a shell"; ""; "execve: 1"; "read: 1"; "clone: return 1"; "mmap: arg2 in ~PROT_EXEC || arg2 in ~PROT_WRITE"].
Lemma sample_text : map line_text sample = sample_lines.
Proof. reflexivity. Qed.
Definition lines_text (ls : list string) : string := String.concat "" (map (fun s => s ++ nl) ls).
Lemma sample_policy : policy_text sample = lines_text sample_lines.
Proof. reflexivity. Qed.
Definition tameb (s : string) : bool :=
  every (fun c => is_c "009" c || (32 <=? N_of_ascii c)%N) s && negb (String.eqb (substring (String.length s - 1) 1 s) "\") && negb (M_CStr.has_prefix "@include" (M_CStr.strip s)).
Lemma tameb_spec s : tameb s = true -> tame_line s.
Proof.
  unfold tameb. intros H. apply andb_true_iff in H as [H H3]. apply andb_true_iff in H as [H1 H2]. split; [|split].
  - apply every_all in H1. revert H1. apply all_chars_impl. intros c H. apply orb_true_iff in H as [H|H]; [left; apply is_c_spec; exact H|right; apply N.leb_le; exact H].
  - intros t ->. rewrite slen_app in H2. cbn [String.length] in H2. rewrite Nat.add_sub in H2.
    assert (substring (String.length t) 1 (t ++ "\") = "\") as E by (clear; induction t as [|c t IH]; [reflexivity|exact IH]). rewrite E in H2. discriminate H2.
  - intros t S. apply strip_spec in S. rewrite S in H3. unfold M_CStr.has_prefix in H3. rewrite prefix_app in H3. discriminate H3.
Qed.
Lemma sample_cut : lines_of (lines_text sample_lines) sample_lines.
Proof.
  assert (forall ls, forallb (every (fun c => negb (is_c "010" c))) ls = true -> lines_of (lines_text ls) ls) as K.
  { intros ls. unfold lines_text. induction ls as [|s ls IH]; intros H; [constructor|]. cbn [forallb] in H. apply andb_true_iff in H as [H H']. cbn [map]. rewrite P_PyLex.concat_cons.
    rewrite sapp_assoc. change (nl ++ ?x) with (String newline x). constructor; [|exact (IH H')]. apply every_all in H. revert H. apply all_chars_impl. intros c C ->. discriminate C. }
  apply K. reflexivity.
Qed.
Lemma sample_tame : Forall tame_line sample_lines.
Proof. unfold sample_lines. repeat (apply Forall_cons; [apply tameb_spec; reflexivity|]). apply Forall_nil. Qed.
Lemma desk_rule n k r : plainb n = true -> existsb (String.eqb n) ("in" :: "return" :: actions_named) = false -> String.prefix "arg" n = false ->
  lookup n (pa_syscalls desk) = Some k -> crule_ok desk r -> cline_ok desk (CRule n k r).
Proof.
  intros P R A L O. split; [apply plainb_name; exact P|]. split; [intros X; exfalso; revert X; apply not_reserved; assumption|]. split; [apply lookup_spec; exact L|exact O].
Qed.
Lemma sample_ok : common_ok desk sample.
Proof.
  assert (forall w z, const_ok desk (Part w z) -> [CAtom 2 M_Bpf.IN [Part ("~" ++ w) (2 ^ 64 - 1 - z)]] <> [] /\ Forall (catom_ok desk) [CAtom 2 M_Bpf.IN [Part ("~" ++ w) (2 ^ 64 - 1 - z)]]) as K.
  { intros w z C. split; [discriminate|]. apply Forall_cons; [|apply Forall_nil]. split; [reflexivity|]. split; [discriminate|]. apply Forall_cons; [|apply Forall_nil].
    right. exists (Part w z). split; [exact C|]. split; reflexivity. }
  split.
  - unfold sample. apply Forall_cons.
    { split; [|intros u E; apply (f_equal (ends_with "\")) in E; change (u ++ "\") with (u ++ String "\" "") in E; rewrite ends_with_snoc in E; discriminate E].
      assert (every (fun c => negb (is_c "010" c) && negb (is_c "013" c) && negb (is_c "000" c)) " runs a shell" = true) as H by reflexivity. apply every_all in H. revert H. apply all_chars_impl.
      intros c C. split; [|split]; intros ->; discriminate C. }
    apply Forall_cons; [exact Logic.I|]. apply Forall_cons; [apply desk_rule; try reflexivity; exact Logic.I|]. apply Forall_cons; [apply desk_rule; try reflexivity; exact Logic.I|].
    apply Forall_cons. { apply desk_rule; try reflexivity. split; [exact (one_const desk c_desk (or_intror eq_refl) eq_refl)|]. vm_compute. discriminate. }
    apply Forall_cons; [|apply Forall_nil]. apply desk_rule; try reflexivity. split; [discriminate|].
    apply Forall_cons; [exact (K "PROT_EXEC" 4 (desk_name "PROT_EXEC" 4%Z eq_refl eq_refl eq_refl eq_refl eq_refl))|].
    apply Forall_cons; [exact (K "PROT_WRITE" 2 (desk_name "PROT_WRITE" 2%Z eq_refl eq_refl eq_refl eq_refl eq_refl))|apply Forall_nil].
  - cbn. repeat (constructor; [cbn; intros X; repeat (destruct X as [X|X]; [discriminate X|]); destruct X|]). constructor.
Qed.
Lemma sample_justified : justified sample_lines "execve".
Proof.
  exists ["# runs a shell"; ""], "execve: 1", ["read: 1"; "clone: return 1"; "mmap: arg2 in ~PROT_EXEC || arg2 in ~PROT_WRITE"]. split; [reflexivity|]. split.
  - exists "1". apply rule_spec; [apply tame_in_line, tameb_spec; reflexivity|reflexivity].
  - exists [], "# runs a shell", [""]. split; [reflexivity|]. split; [apply comment_spec; reflexivity|]. apply Forall_cons; [|apply Forall_nil]. intros n. apply blank_no_rule. reflexivity.
Qed.
Lemma desk_case : kernel_constants desk /\ same_tables c_desk desk /\ word_table (pa_syscalls desk) /\ tables_ok desk /\ options_ok strict /\ common_ok desk sample /\
  lines_of (policy_text sample) sample_lines /\ Forall tame_line sample_lines /\ M_Filter.fo_action c_opts <> M_Filter.ACT_LOG /\ py_default strict <> ALLOW /\ py_default strict <> LOG.
Proof.
  split; [exact desk_kernel|]. split; [exact desk_tables|]. split; [exact desk_words|]. split; [exact desk_ok|]. split; [exact strict_ok|]. split; [exact sample_ok|].
  split; [rewrite sample_policy; exact sample_cut|]. split; [exact sample_tame|]. split; [discriminate|]. split; discriminate.
Qed.
Definition pass (t : string) : N * bool := (exit_status DANGEROUS_SYSCALLS t, l_dangerous (check_seccomp_policy DANGEROUS_SYSCALLS t)).
Lemma sample_passes : pass (lines_text sample_lines) = (0, true).
Proof. vm_compute. reflexivity. Qed.
Definition desk_run (fs : string -> option stream) (t : string) (d : sdata) : option vres :=
  match M_Filter.compile_filter c_desk c_opts fs (Some (M_Lines.Stream t false)) with M_Filter.COk prog => Some (run true prog d) | _ => None end.
Definition desk_py (t : string) (d : sdata) : option vres :=
  match compile_text desk strict same_dir (alone t) "p" with Some prog => Some (run true prog d) | None => None end.
Lemma sample_runs :
  map (fun d => (desk_run c_none (lines_text sample_lines) d, desk_py (lines_text sample_lines) d)) [call3 59 0 0 0; call3 56 0 0 0; call3 9 0 4096 5; call3 9 0 4096 7; call3 16 0 0 0] =
  [(Some (VRet ALLOW), Some (VRet ALLOW)); (Some (VRet (ERRNO 1)), Some (VRet (ERRNO 1))); (Some (VRet ALLOW), Some (VRet ALLOW));
   (Some (VRet KILL_PROCESS), Some (VRet KILL_PROCESS)); (Some (VRet KILL_PROCESS), Some (VRet KILL_PROCESS))].
Proof. vm_compute. reflexivity. Qed.
(* ---- What it does not see ---- *)
Definition continued : string := "clone \" ++ nl ++ ": 1" ++ nl.
Lemma continued_passes : pass continued = (0, false) /\ desk_run c_none continued (call3 56 0 0 0) = Some (VRet ALLOW) /\ desk_py continued (call3 56 0 0 0) = Some (VRet ALLOW).
Proof. split; [|split]; vm_compute; reflexivity. Qed.
Definition including : string := "@include ./more.policy" ++ nl.
Definition more (f : string) : option stream := if String.eqb f "./more.policy" then Some (M_Lines.Stream ("clone: 1" ++ nl) false) else None.
Lemma including_passes : pass including = (0, false) /\ desk_run more including (call3 56 0 0 0) = Some (VRet ALLOW).
Proof. split; vm_compute; reflexivity. Qed.
Definition together : string := "{clone, execve}: 1" ++ nl.
Lemma together_passes : pass together = (0, false) /\ desk_py together (call3 56 0 0 0) = Some (VRet ALLOW).
Proof. split; vm_compute; reflexivity. Qed.
Definition for_arch : string := "clone[arch=x86_64]: 1" ++ nl.
Lemma for_arch_passes : pass for_arch = (0, false) /\ desk_py for_arch (call3 56 0 0 0) = Some (VRet ALLOW).
Proof. split; vm_compute; reflexivity. Qed.
Definition header : string := "# Copyright 2026 The ChromiumOS Authors" ++ nl ++ "clone: 1" ++ nl.
Lemma header_passes : pass header = (0, true).
Proof. vm_compute. reflexivity. Qed.
Definition spaced : string := "mmap: arg2 in ~PROT_EXEC " ++ nl.
Lemma spaced_fails : check_seccomp_policy DANGEROUS_SYSCALLS spaced = Lint ["mmap"] [Error 0 "mmap" (UseRules MAP_RULES)] true false.
Proof. vm_compute. reflexivity. Qed.
Definition broken : string := "read: 1" ++ nl ++ "clone: 1" ++ nl ++ "read: 1" ++ nl.
Lemma broken_fails : exit_status DANGEROUS_SYSCALLS broken = 1 /\ l_errors (check_seccomp_policy DANGEROUS_SYSCALLS broken) = [Error 1 "clone" NeedsComment; Error 2 "read" Duplicate].
Proof. split; vm_compute; reflexivity. Qed.

Lemma given_asked : asked (Some "read,clone") ["read"; "clone"] /\ lint_main (Some "read,clone") ("read: 1" ++ nl) = 1 /\ lint_main None ("read: 1" ++ nl) = 0 /\ lint_main None ("bpf: 1" ++ nl) = 1.
Proof.
  split; [apply (as_given ["read"; "clone"])|split; [|split]; vm_compute; reflexivity]; [discriminate|].
  repeat (apply Forall_cons || apply Forall_nil); repeat (apply all_chars_cons; split; [discriminate|]); apply all_chars_nil.
Qed.
