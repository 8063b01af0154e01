(* Property theorems: configuration files (C19, C20). *)
From Verif Require Import P_Config.
Local Open Scope string_scope.

(* C19: success exactly when the whole text is a configuration, with exactly
   its settings; the array of entries is never overrun. *)
Theorem C19_config_exact : forall b ioerr es,
  parse_config_file (Stream b ioerr) = FOk es <-> config_text b es /\ ioerr = false.
Proof. exact config_exact. Qed.
Print Assumptions C19_config_exact.
Theorem C19_settings_unique : forall b es es', config_text b es -> config_text b es' -> es = es'.
Proof. exact config_text_fun. Qed.
Print Assumptions C19_settings_unique.
Theorem C19_no_overrun : forall f, parse_config_file f <> FUb.
Proof. exact config_no_ub. Qed.
Print Assumptions C19_no_overrun.
Example C19_case :
  config_text ("% minijail-config-file v0" ++ nl ++ "# comment" ++ nl ++ "u = nobody" ++ nl ++ " n" ++ nl)
  [("u", Some "nobody"); ("n", None)].
Proof. exact config_case. Qed.
(* "One entry per non-blank line" is false: a last line ending in a backslash
   vanishes and the file is accepted (here the -n of the file is lost). *)
Theorem C19_lost_line_refuted : exists b ls, lines_of b ls /\ In "n \" ls /\
  parse_config_file (Stream b false) = FOk [("u", Some "nobody")].
Proof. exact config_lost. Qed.
Print Assumptions C19_lost_line_refuted.

(* C20: for arguments without newlines, edge blanks, NUL or final backslash
   the generated file reproduces options and arguments. *)
Theorem C20_gen_config_roundtrip_partial : forall opts,
  Forall (fun oa => valid_opt (fst oa) /\ match snd oa with None => True | Some a => plain_arg a end) opts ->
  exists es,
    parse_config_file (Stream (write_config (map (fun oa => (recorded_name (fst oa), snd oa)) opts)) false) = FOk es /\
    map opt_from_conf es =
      map Some (filter (fun oa => negb ((fst oa =? OPT_CONFIG)%N || (fst oa =? OPT_GEN_CONFIG)%N)) opts).
Proof. exact gen_config_roundtrip. Qed.
Print Assumptions C20_gen_config_roundtrip_partial.
Example C20_case :
  Forall (fun oa => valid_opt (fst oa) /\ match snd oa with None => True | Some a => plain_arg a end)
    [(opt_char "u", Some "nobody"); (OPT_PROFILE, Some "minimalistic-mountns"); (opt_char "n", None)].
Proof. exact roundtrip_case. Qed.
(* Other arguments are lost, make the file unreadable, or become options. *)
Theorem C20_backslash_refuted : exists es,
  parse_config_file (Stream (write_config [("b", Some "/a\"); ("n", None)]) false) = FOk es /\
  map opt_from_conf es <> map Some [(opt_char "b", Some "/a\"); (opt_char "n", None)].
Proof. exact roundtrip_lost. Qed.
Print Assumptions C20_backslash_refuted.
Theorem C20_empty_argument_refuted :
  parse_config_file (Stream (write_config [("T", Some "")]) false) = FFail.
Proof. exact roundtrip_empty. Qed.
Print Assumptions C20_empty_argument_refuted.
Theorem C20_newline_refuted :
  parse_config_file (Stream (write_config [("u", Some ("nobody" ++ nl ++ "n"))]) false) =
  FOk [("u", Some "nobody"); ("n", None)].
Proof. exact roundtrip_injected. Qed.
Print Assumptions C20_newline_refuted.
