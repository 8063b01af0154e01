(* C62, C63: the texts of policies for tools/compile_seccomp_policy.py.
   [a] are the tables of the architecture, [o] the options; [text] gives the
   contents of files and [resolve] the name of an included one.  The language
   is in S_PyText, what a policy decides in S_PyPolicy. *)
From Verif Require Import S_Text S_Const S_Policy S_PyPolicy M_PyParse S_PyText P_PyGram P_PyText P_PyMean P_PyEx P_PyTextEx.
Local Open Scope N_scope.

(* ---- C62 ---- *)
(* A text is cut into lines and these into words as the language says, and not
   otherwise.  Partial: a last line that ends in a backslash is lost. *)
Theorem C62_words_partial : forall t out,
  tokenize (text_lines t "") [] = Some out <-> exists ls, text_cut t ls /\ logical ls out.
Proof. exact lines_read. Qed.
Print Assumptions C62_words_partial.
(* Every character of a line is in one word, and the words are spelled right. *)
Theorem C62_every_character : forall line ts, cut line ts ->
  String.concat "" (map t_value ts) = line /\ Forall (fun t => spelled (t_type t) (t_value t)) ts.
Proof. exact whole_line. Qed.
Print Assumptions C62_every_character.
(* There is no other way to read it. *)
Theorem C62_reading_unique : forall t ls out ls' out',
  text_cut t ls -> logical ls out -> text_cut t ls' -> logical ls' out' -> ls = ls' /\ out = out'.
Proof. exact reading_unique. Qed.
Print Assumptions C62_reading_unique.
Example C62_case : exists ls, text_cut page ls /\ length ls = 7%nat /\
  exists out, tokenize (text_lines page "") [] = Some out /\ logical ls out /\ length out = 5%nat /\ length (List.last out []) = 30%nat.
Proof. exact lines_case. Qed.
(* A denial in the last line is lost when the line ends in a backslash. *)
Theorem C62_last_line_refuted : exists t u prog prog' d, u = (t ++ " \")%string /\
  compile_text pc lenient same_dir (alone t) "p" = Some prog /\ compile_text pc lenient same_dir (alone u) "p" = Some prog' /\ sd_ok d /\
  run true prog d = VRet (ERRNO 1) /\ run true prog' d = VRet ALLOW.
Proof. exact last_line_case. Qed.
Print Assumptions C62_last_line_refuted.
(* After a statement for other architectures the rest of the line is not
   looked at. *)
Theorem C62_trailing_refuted : exists t prog, compile_text pc strict same_dir (alone t) "p" = Some prog /\
  forall default ss, ~ says pc strict same_dir (alone t) nothing "p" default ss.
Proof. exact trailing_case. Qed.
Print Assumptions C62_trailing_refuted.

(* ---- C63 ---- *)
(* Files that follow the grammar are read, as the grammar says; and what is
   read follows the grammar, up to words after statements for other
   architectures. *)
Theorem C63_grammatical_read : forall a denylist ret_log resolve text n file c,
  file_says a denylist ret_log resolve text nothing n file c ->
  parse_policy_file a denylist ret_log resolve text n file = Some c.
Proof. exact file_complete. Qed.
Print Assumptions C63_grammatical_read.
Theorem C63_read_grammatical_partial : forall a denylist ret_log resolve text n file c,
  parse_policy_file a denylist ret_log resolve text n file = Some c ->
  file_says a denylist ret_log resolve text anything n file c.
Proof. exact file_sound. Qed.
Print Assumptions C63_read_grammatical_partial.
Theorem C63_one_reading : forall a denylist ret_log resolve text junk junk' n file c c',
  file_says a denylist ret_log resolve text junk n file c -> file_says a denylist ret_log resolve text junk' n file c' -> c = c'.
Proof. exact file_unique. Qed.
Print Assumptions C63_one_reading.
(* A program decides as the text says.  Partial as C46: a system call whose
   last filter allows, although another one denies, is let through; one name
   per number; arg0 to arg5; little-endian. *)
Theorem C63_text_decides_partial : forall a o resolve text file, tables_ok a -> options_ok o ->
  forall default ss prog, says a o resolve text anything file default ss -> compile_text a o resolve text file = Some prog ->
  one_name ss -> six_arguments ss -> forall d, sd_ok d ->
  (sd_arch d = arch_nr (pa_arch a) ->
   o_denylist o = true \/ last_resort (a_val default) (filters_for (sd_nr d) ss) <> ALLOW \/
     Forall (fun f => a_val (f_act f) = ALLOW) (filters_for (sd_nr d) ss) ->
   run true prog d = VRet (decision (arch_bits (pa_arch a)) (o_denylist o) (a_val default) ss d)) /\
  (sd_arch d <> arch_nr (pa_arch a) -> run true prog d = VRet (o_kill o)).
Proof. exact text_means. Qed.
Print Assumptions C63_text_decides_partial.
(* Whatever compiles says something. *)
Theorem C63_compiled_says : forall a o resolve text file, tables_ok a -> options_ok o ->
  forall prog, compile_text a o resolve text file = Some prog ->
  exists default ss, says a o resolve text anything file default ss /\ (one_name ss -> settled ss).
Proof. exact text_says. Qed.
Print Assumptions C63_compiled_says.
(* A policy compiles exactly if the unconditional filter of a system call is
   its last; the kernel takes the program if it is not too long. *)
Theorem C63_compiles : forall a o resolve text file, tables_ok a -> options_ok o ->
  forall default ss, says a o resolve text nothing file default ss -> one_name ss -> six_arguments ss ->
  settled ss <-> exists prog, compile_text a o resolve text file = Some prog /\ ((length prog <= 4096)%nat -> kernel_accepts prog).
Proof. exact text_compiles. Qed.
Print Assumptions C63_compiles.
Example C63_case : tables_ok pc /\ options_ok strict /\ says pc strict same_dir files nothing "p" kill_act page_statements /\
  says pc strict same_dir files anything "p" kill_act page_statements /\
  one_name page_statements /\ six_arguments page_statements /\ settled page_statements /\
  exists prog, compile_text pc strict same_dir files "p" = Some prog /\
  sd_ok (call3 1 2 0 0x12) /\ kept strict kill_act page_statements (call3 1 2 0 0x12) /\ kept strict kill_act page_statements (call3 0 0 0 0) /\
  run true prog (call3 1 2 0 0x12) = VRet ALLOW /\ run true prog (call3 1 2 0 0x14) = VRet KILL_PROCESS /\
  run true prog (call3 2 0 1 0) = VRet (ERRNO 13) /\ run true prog (call3 2 0 0 0) = VRet ALLOW /\
  run true prog (call3 3 0 0 0) = VRet KILL_PROCESS /\ run true prog (call3 62 0 13 0) = VRet ALLOW.
Proof. exact page_case. Qed.
(* Outside: "09" is no C number but is taken as 9; "return 65536" is errno 0;
   "arg6" compiles to a program the kernel refuses; a denial before a final
   allow is lost. *)
Theorem C63_number_refuted : exists t prog d, compile_text pc strict same_dir (alone t) "p" = Some prog /\
  t = "read: arg0 == 09"%string /\ sd_ok d /\ run true prog d = VRet ALLOW /\ forall z, ~ c_integer "09" z.
Proof. exact odd_number_case. Qed.
Print Assumptions C63_number_refuted.
Theorem C63_errno_refuted : exists t prog d, t = "read: return 65536"%string /\
  compile_text pc strict same_dir (alone t) "p" = Some prog /\ sd_ok d /\ run true prog d = VRet (ERRNO 0).
Proof. exact big_errno_case. Qed.
Print Assumptions C63_errno_refuted.
Theorem C63_argument_refuted : exists t prog, t = "read: arg6 == 0"%string /\
  compile_text pc strict same_dir (alone t) "p" = Some prog /\ ~ kernel_accepts prog.
Proof. exact arg6_text_case. Qed.
Print Assumptions C63_argument_refuted.
Theorem C63_denial_refuted : exists t prog d ss, t = "read: { arg0 == 1; return EPERM, allow }"%string /\
  compile_text pc strict same_dir (alone t) "p" = Some prog /\ says pc strict same_dir (alone t) nothing "p" kill_act ss /\ one_name ss /\ six_arguments ss /\
  sd_ok d /\ decision 64 false KILL_PROCESS ss d = ERRNO 1 /\ run true prog d = VRet ALLOW.
Proof. exact denial_text_case. Qed.
Print Assumptions C63_denial_refuted.
