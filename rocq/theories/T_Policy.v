(* Property theorems: compiled policies (C02-C08, C10-C13). *)
From Verif Require Import P_PolicyEx.
Local Open Scope N_scope.

(* C02: a filter that compiles comes from a policy the whole text denotes,
   and answers every system call as that policy says. *)
Theorem C02_policy_decides : forall b o, little (b_plat b) = true -> names_ok (b_consts b) ->
  forall fs f prog, compile_filter b o fs (Some f) = COk prog ->
  exists pol, reads_policy b o fs f pol /\
    forall d, sd_ok d -> (forall r, find_rule (sd_nr d) pol = Some r -> rule_args_ok r) ->
    exists v, run true prog d = VRet v /\ verdict b o pol d v.
Proof. exact policy_decides. Qed.
Print Assumptions C02_policy_decides.
(* The text denotes at most one policy and the policy gives one answer. *)
Theorem C02_reading_unique : forall b o, names_ok (b_consts b) ->
  forall fs f p q, reads_policy b o fs f p -> reads_policy b o fs f q -> p = q.
Proof. exact reads_policy_unique. Qed.
Print Assumptions C02_reading_unique.
Theorem C02_verdict_unique : forall b o p d v v', verdict b o p d v -> verdict b o p d v' -> v = v'.
Proof. exact verdict_fun. Qed.
Print Assumptions C02_verdict_unique.
Example C02_case :
  (exists prog, compile_filter ex_build ex_opts no_files (Some ex_policy) = COk prog) /\
  reads_policy ex_build ex_opts no_files ex_policy ex_rules /\ args_in_range ex_rules /\
  sd_ok (ex_d 16 8 4 2) /\
  verdict ex_build ex_opts ex_rules (ex_d 16 8 4 2) ALLOW /\
  verdict ex_build ex_opts ex_rules (ex_d 16 8 4 4) 0x5000d.
Proof. exact ex_values. Qed.

(* C03: on every build, for every policy and option, a call made through
   another architecture's entry is killed. *)
Theorem C03_foreign_arch_killed : forall b o fs initial prog d le,
  compile_filter b o fs initial = COk prog -> sd_arch d <> arch_no (b_plat b) ->
  run le prog d = VRet KILL_THREAD.
Proof. exact foreign_killed. Qed.
Print Assumptions C03_foreign_arch_killed.
Example C03_case : exists prog, compile_filter ex_build ex_opts no_files (Some ex_policy) = COk prog.
Proof. exact ex_compiles. Qed.

(* C04: a call no line names gets the default action, which is never ALLOW,
   and is LOG only when logging is enabled. *)
Theorem C04_unlisted_gets_default : forall b o, little (b_plat b) = true -> names_ok (b_consts b) ->
  forall fs f prog pol d,
  compile_filter b o fs (Some f) = COk prog -> reads_policy b o fs f pol -> sd_ok d ->
  sd_arch d = arch_no (b_plat b) -> ~ allowed_by_option b o (sd_nr d) ->
  Forall (fun e => e_nr e <> sd_nr d) pol ->
  run true prog d = VRet (action_value (fo_action o)) /\
  action_value (fo_action o) <> ALLOW /\
  (action_value (fo_action o) = LOG -> fo_allow_logging o = true).
Proof. exact unlisted_default. Qed.
Print Assumptions C04_unlisted_gets_default.
Theorem C04_only_listed_allowed : forall b o, little (b_plat b) = true -> names_ok (b_consts b) ->
  forall fs f prog pol d,
  compile_filter b o fs (Some f) = COk prog -> reads_policy b o fs f pol -> sd_ok d ->
  (forall r, find_rule (sd_nr d) pol = Some r -> rule_args_ok r) ->
  run true prog d = VRet ALLOW ->
  sd_arch d = arch_no (b_plat b) /\
  (allowed_by_option b o (sd_nr d) \/
   exists e, In e pol /\ e_nr e = sd_nr d /\
     rule_value (bits64 (b_plat b)) d (e_rule e) = ALLOW).
Proof. exact only_listed_allowed. Qed.
Print Assumptions C04_only_listed_allowed.
Example C04_case :
  (exists prog, compile_filter ex_build ex_opts no_files (Some ex_policy) = COk prog) /\
  reads_policy ex_build ex_opts no_files ex_policy ex_rules /\ args_in_range ex_rules /\
  sd_ok (ex_d 16 8 4 2) /\
  verdict ex_build ex_opts ex_rules (ex_d 16 8 4 2) ALLOW /\
  verdict ex_build ex_opts ex_rules (ex_d 16 8 4 4) 0x5000d.
Proof. exact ex_values. Qed.

(* C05: the program passes the kernel's checks, and anything that passes them
   returns a verdict on every call. *)
Theorem C05_filter_loadable : forall b o, little (b_plat b) = true -> names_ok (b_consts b) ->
  arch_no (b_plat b) < 2 ^ 32 -> Forall (fun e => snd e < 2 ^ 32) (b_syscalls b) ->
  forall fs f prog pol, compile_filter b o fs (Some f) = COk prog ->
  reads_policy b o fs f pol -> args_in_range pol -> kernel_accepts prog.
Proof. exact compile_filter_kernel. Qed.
Print Assumptions C05_filter_loadable.
Theorem C05_accepted_filters_answer : forall p le d, kernel_accepts p -> exists v, run le p d = VRet v.
Proof. exact kernel_accepts_answers. Qed.
Print Assumptions C05_accepted_filters_answer.
Example C05_case : arch_no (b_plat ex_build) < 2 ^ 32 /\
  Forall (fun e => snd e < 2 ^ 32) (b_syscalls ex_build) /\
  little (b_plat ex_build) = true /\ names_ok (b_consts ex_build).
Proof. exact ex_kernel. Qed.

(* C06: one line that does not denote anything (or an include of a file with
   such a line) and there is no program.  C02_policy_decides is the other
   half: a program answers for the whole text. *)
Theorem C06_bad_line_rejected : forall b o, names_ok (b_consts b) ->
  forall fs f ls l prog, file_lines (s_bytes f) ls -> In l ls ->
  (forall p, ~ reads_line b o (reads_include b o fs) l p) ->
  compile_filter b o fs (Some f) <> COk prog.
Proof. exact bad_line_rejected. Qed.
Print Assumptions C06_bad_line_rejected.
Example C06_case :
  file_lines (s_bytes (Stream ("read: 1" ++ nl ++ "nosuch: 1" ++ nl) false)) ["read: 1"; "nosuch: 1"]%string /\
  forall p, ~ reads_line ex_build ex_opts (reads_include ex_build ex_opts no_files) "nosuch: 1" p.
Proof. exact bad_line_case. Qed.
Theorem C06_bad_included_line_rejected : forall b o, names_ok (b_consts b) ->
  forall fs f ls l name g ls' l' prog,
  file_lines (s_bytes f) ls -> In l ls -> stripped l ("@include " ++ name) ->
  fs name = Some g -> file_lines (s_bytes g) ls' -> In l' ls' ->
  (forall p, ~ reads_line b o (fun _ _ => False) l' p) ->
  compile_filter b o fs (Some f) <> COk prog.
Proof. exact bad_line_in_include. Qed.
Print Assumptions C06_bad_included_line_rejected.
(* The exception: a last line that ends in a backslash is dropped, so that
   its calls get the default action. *)
Theorem C06_cut_last_line_dropped : forall b o fs t l e,
  whole_lines t -> all_chars (fun c => c <> newline) l ->
  compile_filter b o fs (Some (Stream (t ++ l ++ "\") e)) =
  compile_filter b o fs (Some (Stream t e)).
Proof. exact cut_line_dropped. Qed.
Print Assumptions C06_cut_last_line_dropped.
Example C06_cut_case : whole_lines ("read: 1" ++ nl) /\ all_chars (fun c => c <> newline) "write: 1 "%string.
Proof. exact cut_case. Qed.
Theorem C06_last_line_lost_refuted :
  exists f prog ls l, compile_filter ex_build ex_opts no_files (Some f) = COk prog /\
    lines_of (s_bytes f) ls /\ In l ls /\ l = "read: return 13 \"%string /\
    run true prog (ex_d 0 0 0 0) = VRet (action_value (fo_action ex_opts)).
Proof. exact trailing_backslash_lost. Qed.
Print Assumptions C06_last_line_lost_refuted.

(* C07 is false: arg-1 makes an accepted filter that looks at the instruction
   pointer, and arg6 a filter the kernel refuses. *)
Theorem C07_only_real_arguments_refuted :
  exists text prog d1 d2,
    text = ("read: arg-1 == 5" ++ nl)%string /\
    compile_filter ex_build ex_opts no_files (Some (Stream text false)) = COk prog /\
    kernel_accepts prog /\ sd_ok d1 /\ sd_ok d2 /\
    sd_nr d1 = sd_nr d2 /\ sd_arch d1 = sd_arch d2 /\ sd_args d1 = sd_args d2 /\
    run true prog d1 <> run true prog d2.
Proof. exact ip_inspected. Qed.
Print Assumptions C07_only_real_arguments_refuted.
Theorem C07_arg6_refuted :
  exists text prog,
    text = ("read: arg6 == 5" ++ nl)%string /\
    compile_filter ex_build ex_opts no_files (Some (Stream text false)) = COk prog /\
    ~ kernel_accepts prog.
Proof. exact arg6_accepted. Qed.
Print Assumptions C07_arg6_refuted.
(* What holds: if the kernel accepts the filter, every argument number used
   stands for a position inside struct seccomp_data (modulo 2^32 bytes). *)
Theorem C07_accepted_indices_partial : forall b o fs f prog pol e alts v g a, names_ok (b_consts b) ->
  compile_filter b o fs (Some f) = COk prog -> reads_policy b o fs f pol -> kernel_accepts prog ->
  In e pol -> e_rule e = Cond alts v -> In g alts -> In a g ->
  ((16 + 8 * at_arg a) mod 2 ^ 32 < 64)%Z.
Proof. exact accepted_args. Qed.
Print Assumptions C07_accepted_indices_partial.

(* C08 is false: this policy makes the compiler index its label table with
   0xffffffff. *)
Theorem C08_label_table_refuted :
  compile_filter big_build ex_opts no_files (Some (Stream big_policy false)) = CUb.
Proof. exact label_overflow. Qed.
Print Assumptions C08_label_table_refuted.
(* What holds: no policy that needs at most 512 labels does that. *)
Theorem C08_few_labels_safe_partial : forall b o fs f pol, names_ok (b_consts b) ->
  reads_policy b o fs f pol -> (policy_labels pol <= 512)%nat ->
  compile_filter b o fs (Some f) <> CUb.
Proof. exact few_labels_ok. Qed.
Print Assumptions C08_few_labels_safe_partial.
Example C08_case : names_ok (b_consts ex_build) /\
  reads_policy ex_build ex_opts no_files ex_policy ex_rules /\ (policy_labels ex_rules = 4)%nat.
Proof. exact few_labels_case. Qed.

(* C10: "return N" gives errno N for N below 65536, ... *)
Theorem C10_errno_exact_partial : forall b o fs f prog pol d s x y e more v,
  little (b_plat b) = true -> names_ok (b_consts b) ->
  compile_filter b o fs (Some f) = COk prog -> reads_policy b o fs f pol -> sd_ok d ->
  sd_arch d = arch_no (b_plat b) -> ~ allowed_by_option b o (sd_nr d) ->
  (forall r, find_rule (sd_nr d) pol = Some r -> reads_body b o s r) ->
  find_rule (sd_nr d) pol <> None ->
  s = ("return" ++ x)%string -> runs " " s (("return" ++ y)%string :: e :: more) ->
  const_expr (if bits64 (b_plat b) then 64 else 32) (b_consts b) e v -> v < 65536 ->
  run true prog d = VRet (0x50000 + v).
Proof. exact errno_exact. Qed.
Print Assumptions C10_errno_exact_partial.
Example C10_case :
  reads_policy ex_build ex_opts no_files (Stream ("read: return 13" ++ nl) false) [Entry "read" 0 (Return (ERRNO 13))] /\
  reads_body ex_build ex_opts ("return" ++ " 13") (Return (ERRNO 13)) /\
  runs " " ("return" ++ " 13") ["return" ++ ""; "13"]%string /\
  const_expr 64 (b_consts ex_build) "13" 13.
Proof. exact errno_case. Qed.
(* ... but larger values are accepted and cut to 16 bits: "return 65536"
   makes the call return 0. *)
Theorem C10_large_errno_refuted : exists prog,
  compile_filter ex_build ex_opts no_files (Some (Stream ("read: return 65536" ++ nl)%string false)) = COk prog /\
  run true prog (ex_d 0 0 0 0) = VRet (0x50000 + 0).
Proof. exact errno_65536. Qed.
Print Assumptions C10_large_errno_refuted.

(* C11 *)
Theorem C11_no_duplicates : forall b o, names_ok (b_consts b) ->
  forall fs f prog pol, compile_filter b o fs (Some f) = COk prog ->
  reads_policy b o fs f pol -> fo_allow_dup o = false -> NoDup (map e_name pol).
Proof. exact no_duplicates. Qed.
Print Assumptions C11_no_duplicates.
Theorem C11_first_decides : forall b o, little (b_plat b) = true -> names_ok (b_consts b) ->
  forall fs f prog p1 e p2 d,
  compile_filter b o fs (Some f) = COk prog -> reads_policy b o fs f (p1 ++ e :: p2) -> sd_ok d ->
  sd_arch d = arch_no (b_plat b) -> ~ allowed_by_option b o (sd_nr d) ->
  Forall (fun x => e_nr x <> sd_nr d) p1 -> e_nr e = sd_nr d -> rule_args_ok (e_rule e) ->
  run true prog d = VRet (rule_value (bits64 (b_plat b)) d (e_rule e)).
Proof. exact first_decides. Qed.
Print Assumptions C11_first_decides.
Example C11_case : exists prog,
  compile_filter ex_build (FOpts ACT_KILL false false true false) no_files
    (Some (Stream ("read: 1" ++ nl ++ "read: return 13" ++ nl)%string false)) = COk prog /\
  compile_filter ex_build ex_opts no_files
    (Some (Stream ("read: 1" ++ nl ++ "read: return 13" ++ nl)%string false)) = CFail /\
  run true prog (ex_d 0 0 0 0) = VRet ALLOW.
Proof. exact dup_case. Qed.

(* C12: replacing an include line by the text of the file changes nothing. *)
Theorem C12_include_textual : forall b o fs pre line name inc post e prog,
  whole_lines pre -> whole_lines inc ->
  stripped line ("@include " ++ name) ->
  (exists t, name = "/" ++ t \/ name = "./" ++ t)%string ->
  all_chars (fun c => c <> newline /\ c <> "000"%char) line -> (forall v, line <> v ++ "\")%string ->
  fs name = Some (Stream inc false) ->
  (forall ls, file_lines inc ls -> Forall (fun l => forall f, ~ stripped l ("@include " ++ f)) ls) ->
  (compile_filter b o fs (Some (Stream (pre ++ line ++ String newline post) e)) = COk prog <->
   compile_filter b o fs (Some (Stream (pre ++ inc ++ post) e)) = COk prog).
Proof. exact include_textual. Qed.
Print Assumptions C12_include_textual.
Example C12_case :
  let inc := ("write: 1" ++ nl)%string in
  let fs := fun n => if String.eqb n "./x" then Some (Stream inc false) else None in
  let line := "@include ./x"%string in
  let pre := ("read: 1" ++ nl)%string in
  whole_lines pre /\ whole_lines inc /\ stripped line ("@include " ++ "./x") /\
  all_chars (fun c => c <> newline /\ c <> "000"%char) line /\ (forall v, line <> (v ++ "\")%string) /\
  (forall ls, file_lines inc ls -> Forall (fun l => forall f, ~ stripped l ("@include " ++ f)) ls) /\
  exists prog, compile_filter ex_build ex_opts fs (Some (Stream (pre ++ line ++ String newline "") false)) = COk prog /\
    run true prog (ex_d 1 0 0 0) = VRet ALLOW.
Proof. exact include_case. Qed.
Theorem C12_include_refused : forall b o fs f ls l t prog, names_ok (b_consts b) ->
  file_lines (s_bytes f) ls -> In l ls -> stripped l ("@include" ++ t) ->
  (forall name, t = (" " ++ name)%string ->
     fs name = None \/ (forall u, name <> ("/" ++ u)%string /\ name <> ("./" ++ u)%string)) ->
  compile_filter b o fs (Some f) <> COk prog.
Proof. exact include_refused. Qed.
Print Assumptions C12_include_refused.
Example C12_refused_case :
  file_lines (s_bytes (Stream ("@include x" ++ nl) false)) ["@include x"]%string /\
  stripped "@include x" ("@include" ++ " x").
Proof. exact refused_case. Qed.
Theorem C12_nested_include_refused : forall b o fs f ls l name g ls' l' t prog, names_ok (b_consts b) ->
  file_lines (s_bytes f) ls -> In l ls -> stripped l ("@include " ++ name) ->
  fs name = Some g -> file_lines (s_bytes g) ls' -> In l' ls' -> stripped l' ("@include" ++ t) ->
  compile_filter b o fs (Some f) <> COk prog.
Proof. exact nested_include_refused. Qed.
Print Assumptions C12_nested_include_refused.
Example C12_nested_case :
  let fs := fun n => if String.eqb n "./x" then Some (Stream ("@include ./y" ++ nl) false) else None in
  file_lines (s_bytes (Stream ("@include ./x" ++ nl) false)) ["@include ./x"]%string /\
  stripped "@include ./x" ("@include " ++ "./x") /\
  fs "./x"%string = Some (Stream ("@include ./y" ++ nl) false) /\
  file_lines ("@include ./y" ++ nl) ["@include ./y"]%string /\ stripped "@include ./y" ("@include" ++ " ./y").
Proof. exact nested_case. Qed.

(* C13: what the options add is allowed, nothing else is
   (C04_only_listed_allowed), and LOG needs logging. *)
Theorem C13_options_allow : forall b o,
  forall fs f prog d, compile_filter b o fs (Some f) = COk prog -> sd_ok d ->
  sd_arch d = arch_no (b_plat b) -> allowed_by_option b o (sd_nr d) -> run true prog d = VRet ALLOW.
Proof. exact options_allow. Qed.
Print Assumptions C13_options_allow.
Example C13_case :
  allowed_by_option ex_build (FOpts ACT_KILL false true false false) 1 /\
  ~ allowed_by_option ex_build ex_opts 1.
Proof. exact option_case. Qed.
Theorem C13_log_needs_logging : forall b o fs f prog, compile_filter b o fs f = COk prog ->
  fo_action o = ACT_LOG -> fo_allow_logging o = true.
Proof. exact log_needs_logging. Qed.
Print Assumptions C13_log_needs_logging.
(* "Exactly the listed" is false where a listed name does not exist on the
   architecture: call number 0xffffffff is allowed instead. *)
Theorem C13_missing_name_refuted : exists prog,
  compile_filter ex_build (FOpts ACT_KILL false true false false) no_files
    (Some (Stream ("read: 1" ++ nl)%string false)) = COk prog /\
  (forall nr, ~ In ("send"%string, nr) (b_syscalls ex_build)) /\
  run true prog (ex_d 0xffffffff 0 0 0) = VRet ALLOW.
Proof. exact missing_log_name. Qed.
Print Assumptions C13_missing_name_refuted.
