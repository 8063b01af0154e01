{"claims": [
 {"property": "C01", "status": "proved", "theorems": ["C01_comparison_exact", "C01_big_endian_32bit_refuted"], "note": "Exact on every little-endian build, 32 and 64 bit; refuted for 32-bit big-endian builds."},
 {"property": "C02", "status": "proved", "theorems": ["C02_policy_decides", "C02_reading_unique", "C02_verdict_unique"], "note": "Little-endian builds; calls whose matching rule uses only arg0..arg5 (others: C07). All policies, options, include files, call data."},
 {"property": "C03", "status": "proved", "theorems": ["C03_foreign_arch_killed"], "note": "All builds, all options."},
 {"property": "C04", "status": "proved", "theorems": ["C04_unlisted_gets_default", "C04_only_listed_allowed"], "note": ""},
 {"property": "C05", "status": "proved", "theorems": ["C05_filter_loadable", "C05_accepted_filters_answer"], "note": "For policies that use only arg0..arg5; otherwise C07_arg6_refuted."},
 {"property": "C06", "status": "proved", "theorems": ["C06_bad_line_rejected", "C06_bad_included_line_rejected", "C06_cut_last_line_dropped", "C06_last_line_lost_refuted", "C02_policy_decides"], "note": "The one exception the property names (a last line cut off by a backslash) is characterised exactly and shown by a witness."},
 {"property": "C07", "status": "partial", "theorems": ["C07_only_real_arguments_refuted", "C07_arg6_refuted", "C07_accepted_indices_partial"], "note": "Refuted: the argument number is not range checked. Proved: an accepted filter's offsets are inside seccomp_data."},
 {"property": "C08", "status": "partial", "theorems": ["C08_label_table_refuted", "C08_few_labels_safe_partial"], "note": "Refuted by a 212-line policy; safe for policies needing at most 512 labels."},
 {"property": "C09", "status": "proved", "theorems": ["C09_constants", "C09_rejects", "C09_in_range"], "note": "Parser equals the expression grammar of S_Const."},
 {"property": "C10", "status": "partial", "theorems": ["C10_errno_exact_partial", "C10_large_errno_refuted"], "note": "Exact for 0..65535; refuted above."},
 {"property": "C11", "status": "proved", "theorems": ["C11_no_duplicates", "C11_first_decides"], "note": ""},
 {"property": "C12", "status": "proved", "theorems": ["C12_include_textual", "C12_include_refused", "C12_nested_include_refused"], "note": ""},
 {"property": "C13", "status": "partial", "theorems": ["C13_options_allow", "C04_only_listed_allowed", "C13_log_needs_logging", "C13_missing_name_refuted"], "note": "Refuted where a listed name does not exist on the architecture (number 0xffffffff allowed); otherwise exactly the listed calls."},
 {"property": "C14", "status": "proved", "theorems": ["C14_violation_action"], "note": "Every history of calls, every kernel capability, end to end down to the compiled program's answer."},
 {"property": "C15", "status": "proved", "theorems": ["C15_parse_size_exact"], "note": ""},
 {"property": "C16", "status": "proved", "theorems": ["C16_tokenize", "C16_tokenize_lossless", "C16_strip"], "note": "tokenize until exhaustion and strip, against S_Text."},
 {"property": "C17", "status": "proved", "theorems": ["C17_path_components", "C17_path_text", "C17_empty_parent_refuted"], "note": "Non-empty parent as the property states; the empty parent reads out of bounds."},
 {"property": "C18", "status": "proved", "theorems": ["C18_history", "C18_lookup", "C18_others_kept", "C18_results"], "note": ""},
 {"property": "C19", "status": "partial", "theorems": ["C19_config_exact", "C19_settings_unique", "C19_no_overrun", "C19_lost_line_refuted"], "note": "Exact characterisation; the property as stated is refuted for a last line ending in a backslash."},
 {"property": "C20", "status": "partial", "theorems": ["C20_gen_config_roundtrip_partial", "C20_backslash_refuted", "C20_empty_argument_refuted", "C20_newline_refuted"], "note": "Round trip for plain arguments; refuted for others."},
 {"property": "C21", "status": "partial", "theorems": ["C21_linkage_exact_partial", "C21_static_only", "C21_truncated_not_static", "C21_scripts_dynamic", "C21_other_byte_order_refuted"], "note": "Exact for ELF files in the host's byte order; false in the other byte order, where the segment type is not swapped (refutation with witness)."},
 {"property": "C22", "status": "proved", "theorems": ["C22_serialized_size"], "note": "For every history of configuration calls and every buffer size; the written bytes are the whole text or its prefix of exactly the buffer's size."},
 {"property": "C23", "status": "partial", "theorems": ["C23_transfer_partial", "C23_descriptor_zero_refuted", "C23_no_rights_refuted"], "note": "Proved for every reachable jail whose members hold values of their C types, with at most 65536 groups, filesystem rules with non-zero rights and a ruleset descriptor other than 0. The exceptions are real: the two refutations show configurations the code serializes and then refuses to read."},
 {"property": "C24", "status": "partial", "theorems": ["C24_memory_errors_partial", "C24_memory_safe_refuted"], "note": "Memory safety is false of the code; the theorem gives the exact set of byte strings (three shapes) on which it fails, so all other strings are safe."},
 {"property": "C25", "status": "partial", "theorems": ["C25_destroyable_partial", "C25_double_free_refuted"], "note": "False when a filter is announced and a later part cannot be read (double free); proved for every string that announces no filter, and for every success."},
 {"property": "C26", "status": "partial", "theorems": ["C26_exact_or_error", "C26_whole_reads_partial"], "note": "Exactness-or-error is proved for every schedule of partial writes, interruptions, lost tails and short reads. Success with whole reads within the 64 KiB limit excludes the configurations refused by the reader (C23 refutations)."},
 {"property": "C27", "status": "proved", "theorems": ["C27_write_exactly", "C27_write_returns"], "note": "For every buffer and every sequence of answers; failing writes carry a positive errno."},
 {"property": "C28", "status": "partial", "theorems": ["C28_applied_partial", "C28_filter", "C28_files_restricted", "C28_mounts", "C28_identity_partial", "C28_capabilities", "C28_bounding_set", "C28_securebits", "C28_proc_of_the_new_root_refuted", "C28_applied_no_preload", "C28_filter_no_preload", "C28_files_restricted_no_preload", "C28_mounts_no_preload", "C28_identity_no_preload_partial", "C28_capabilities_no_preload", "C28_bounding_set_no_preload"], "note": "For every history of configuration calls and every kernel: when the program runs, every kernel call the configuration asks for succeeded in the child or in the preload library. Partial: not so for /proc when the program is itself the first process of its pid namespace; refuted for /proc in a new root (mounted on the old root only). The program is assumed to load the preload library."},
 {"property": "C29", "status": "partial", "theorems": ["C29_fail_closed_partial", "C29_filter_installed", "C29_files_restricted", "C29_failures_survived", "C29_remounts_refuted"], "note": "For every history of configuration calls, every kernel and every run: each requested step was made by a kernel call that worked, and the failures survived are only those listed. Mounts are C35, where the claim is false; per-mount modes are dropped when the mode of / is skipped (refuted)."},
 {"property": "C30", "status": "proved", "theorems": ["C30_root_order", "C30_identity_order", "C30_filter_last"], "note": "Every history, every kernel, every outcome including death half way."},
 {"property": "C31", "status": "proved", "theorems": ["C31_capabilities", "C31_bounding_set"], "note": "The sets are computed from the trace by a model of the kernel's credential calls (S_Creds.v), from any initial credentials; hooks may do anything to the capability sets except the bounding set."},
 {"property": "C32", "status": "proved", "theorems": ["C32_securebits_locked"], "note": "From any initial credentials; SECURE_ALL_BITS is whatever the headers say, as long as it contains the three known bits."},
 {"property": "C33", "status": "partial", "theorems": ["C33_identity_partial", "C33_no_id_refuted"], "note": "From any initial credentials; hooks must leave the ids alone. Partial: for ids other than (uid_t)-1; with that id, accepted by minijail_change_uid/gid, the process keeps its ids (C33_no_id_refuted)."},
 {"property": "C34", "status": "proved", "theorems": ["C34_limits", "C34_refused_exactly_beyond_limit", "C34_first_value_stays"], "note": "Every history of configuration calls from minijail_new."},
 {"property": "C35", "status": "partial", "theorems": ["C35_mounts_partial", "C35_all_mounted_refuted"], "note": "All mounts up to the first unchecked bind source are performed in order; the refutation shows that a bind whose source cannot be examined, and all mounts after it, are skipped while minijail_enter returns."},
 {"property": "C36", "status": "partial", "theorems": ["C36_original_path_partial", "C36_component_boundary_refuted", "C36_nested_mounts_refuted"], "note": "Finding: the lookup is a textual prefix match in list order, so /database is found in a mount at /data and an inner mount is ignored. Proved when neither situation arises."},
 {"property": "C37", "status": "partial", "theorems": ["C37_descriptors_arrive", "C37_duplicates_die", "C37_config_pipe_kept", "C37_program_kept", "C37_announced_number_refuted", "C37_program_descriptor_refuted"], "note": "Every descriptor asked for arrives, for every list of pairs and every table with room for temporaries; duplicates die. Internal pipes survive when the parent has its standard streams. Refuted: the number announced to the preload library is not updated when the configuration pipe is moved; a program descriptor that is also passed on under another number is closed before exec."},
 {"property": "C38", "status": "partial", "theorems": ["C38_streams_partial", "C38_returned_ends", "C38_low_descriptors_refuted"], "note": "Proved for every parent that has descriptors 0, 1 and 2 open; refuted when one of them is closed: the new program then starts without that stream."},
 {"property": "C39", "status": "proved", "theorems": ["C39_reported", "C39_only", "C39_no_child", "C39_kill"], "note": "Every exit code and every signal, any number of interrupted waits; nothing else is reported."},
 {"property": "C40", "status": "partial", "theorems": ["C40_all_gone_partial", "C40_keeps_reaping", "C40_seen_by_caller_partial", "C40_told_to_terminate", "C40_told_to_terminate_refuted", "C40_interrupted_refuted", "C40_pid_reused_refuted"], "note": "Proved for every order of child exits when no process is left. False in three cases (refuted): told to terminate after the program ended, init passes the raw wait status to _exit, so any exit code becomes 0; an interrupted wait ends init with success; a reused pid overwrites the status."},
 {"property": "C41", "status": "partial", "theorems": ["C41_environment_partial", "C41_environment_no_preload", "C41_empty_value_refuted", "C41_path_with_space_refuted"], "note": "Exact equality of the environment, order included, when LD_PRELOAD is not set to the empty string, the preload path has no space and __MINIJAIL_FD is not already set; refuted for the first two otherwise. SECCOMP_POLICY_PATH is added if a policy path was set."},
 {"property": "C42", "status": "proved", "theorems": ["C42_hooks_when_entered", "C42_hooks_at_their_event", "C42_hooks_when_run", "C42_execve_hooks_last", "C42_no_hooks_with_preload"], "note": "All three events."},
 {"property": "C43", "status": "partial", "theorems": ["C43_rules_partial", "C43_unhandled_right_refuted"], "note": "Order, descriptors and rights of all rules, for every history without the minimalistic mount namespace call. The refutation: a rule with a right the ruleset does not handle is refused by the kernel and silently dropped."},
 {"property": "C44", "status": "partial", "theorems": ["C44_mkdir_p_partial", "C44_directory_refuted", "C44_destination", "C44_owner"], "note": "For every path, tree of files and failure pattern, without symbolic links and dots. Missing: on success mkdir_p only guarantees that something exists at the path; a file there counts as success (refuted)."},
 {"property": "C45", "status": "proved", "theorems": ["C45_user", "C45_group", "C45_size_zero_refuted"], "note": "Every reply sequence of the name service; ends within 21 questions and reports the first reply that is not ERANGE. A recommended size of 0, which POSIX systems do not give, would make the loop run for ever."},
 {"property": "C46", "status": "partial", "theorems": ["C46_preserved_partial", "C46_foreign_architecture", "C46_compiles", "C46_strategy_irrelevant", "C46_argument_refuted", "C46_alias_refuted", "C46_big_endian_refuted"], "note": "For every policy with one name per number, both strategies and all frequencies: the program is accepted by the kernel, kills foreign architectures and returns the action of the first matching filter, except for calls whose last filter allows (C47). Reading of the policy text is C62 and C63. Findings: arg6 gives a program the kernel refuses; two names of one number crash or make frequencies decide; big-endian words are exchanged."},
 {"property": "C47", "status": "partial", "theorems": ["C47_denial_refuted", "C47_denials_dropped", "C47_denylist_partial"], "note": "False of the code without --denylist: a call whose last filter is an unconditional allow is allowed whatever its conditional denials say, for every policy. Proved for denylists."},
 {"property": "C48", "status": "proved", "theorems": ["C48_target_reached", "C48_distances_fit"], "note": "For all distances and comparisons; that lengths are accounted for is part of C46."},
 {"property": "C49", "status": "partial", "theorems": ["C49_ids_partial", "C49_wrapped_refuted", "C49_root_group_refuted", "C49_minus_one_refuted"], "note": "Numbers below 2^32 and names select exactly the id they denote; larger and negative numbers wrap (refuted)."},
 {"property": "C50", "status": "proved", "theorems": ["C50_conflicts", "C50_static_caps"], "note": "For every option list from the command line and configuration files."},
 {"property": "C51", "status": "partial", "theorems": ["C51_environment_partial", "C51_static_refuted"], "note": "Holds for programs run with the preload library; refuted for static programs, which keep the caller's environment."},
 {"property": "C52", "status": "partial", "theorems": ["C52_bind_source_partial", "C52_dotdot_refuted"], "note": "Finding: allowed prefixes are matched textually, so /dev/../etc/shadow is accepted. Proved with the textual reading."},
 {"property": "C53", "status": "proved", "theorems": ["C53_propagation", "C53_no_other_propagation"], "note": "Every history, every kernel."},
 {"property": "C54", "status": "proved", "theorems": ["C54_only_intended", "C54_array_fits"], "note": "Also says what file each surviving descriptor refers to."},
 {"property": "C55", "status": "proved", "theorems": ["C55_mount_defaults", "C55_mounts_transferred", "C35_mounts_partial"], "note": "Recorded mounts after every history, unchanged by sending the jail (under the conditions of C23), performed with exactly these flags as C35 says."},
 {"property": "C56", "status": "proved", "theorems": ["C56_pivot_root", "C56_chroot"], "note": "The fixed sequence of calls, each successful, with the descriptors of the old and the new root."},
 {"property": "C57", "status": "partial", "theorems": ["C57_set_up_first_partial", "C57_takes_ids", "C57_can_finish", "C57_parent_killed_refuted"], "note": "For every history of configuration calls and every interleaving: the child acts only after exactly the requested set-up calls were made and worked. In a user namespace it then takes the chosen ids before it enters the jail. False when the parent is killed during the set-up (refuted): the child takes the closed pipe for completion. Writing a file is one call that works or fails."},
 {"property": "C58", "status": "partial", "theorems": ["C58_crashes_partial", "C58_config_file_refuted"], "note": "All causes of undefined behaviour are listed; one is reachable: an option without its argument in a configuration file."},
 {"property": "C59", "status": "partial", "theorems": ["C59_options_partial", "C59_jail", "C59_descriptor_refuted", "C59_limit_refuted", "C59_tmp_refuted"], "note": "For numbers in their documented ranges, map ids below 2^31 and filter files below 65536 instructions; refuted for descriptors above 32 bits, limits above 64 bits and -t0."},
 {"property": "C60", "status": "partial", "theorems": ["C60_applied_partial", "C60_applied_static_partial", "C60_identity_partial", "C60_identity_static_partial", "C60_capabilities_partial", "C60_capabilities_static_partial", "C60_mounts_partial", "C60_mounts_static_partial", "C60_policy_partial", "C60_policy_static_partial", "C60_binary_partial", "C60_binary_static_partial", "C60_set_up_partial", "C60_namespace_ids_partial"], "note": "End to end: minijail0's options, the library's settings, the transfer to the child and the kernel calls are composed. Partial: arguments in their documented ranges (C49, C59 refute the rest), mounts after an unchecked bind source may be missing (C35), minijail0 must not be killed while it sets up limits, pid file and id maps (C57); descriptors are not followed to the kernel here; an empty binary filter with the preload library is not installed."},
 {"property": "C61", "status": "partial", "theorems": ["C61_refusals_partial", "C61_hostname_refuted", "C61_descriptor_refuted"], "note": "Every refusal stops minijail0 except those of host names and preserved descriptors (refuted)."},
 {"property": "C62", "status": "partial", "theorems": ["C62_words_partial", "C62_every_character", "C62_reading_unique", "C62_last_line_refuted", "C62_trailing_refuted"], "note": "The lexer is equivalent to the declarative cutting of texts in S_PyText. Two ways in which text is ignored are proved: a last line ending in a backslash, and words after a statement for other architectures."},
 {"property": "C63", "status": "partial", "theorems": ["C63_grammatical_read", "C63_read_grammatical_partial", "C63_one_reading", "C63_text_decides_partial", "C63_compiled_says", "C63_compiles", "C63_number_refuted", "C63_errno_refuted", "C63_argument_refuted", "C63_denial_refuted"], "note": "From the text to the program: the parser is equivalent to the grammar in S_PyText (up to words ignored after statements for other architectures), and programs decide as the text says under the conditions of C46. Refuted: 09 is taken as 9, return 65536 is errno 0, arg6 compiles, denials before a final allow are lost."},
 {"property": "C64", "status": "partial", "theorems": ["C64_c_decides", "C64_python_decides", "C64_agree_partial", "C64_python_compiles", "C64_c_compiles", "C64_return_refuted", "C64_comment_refuted"], "note": "Proved for the common sublanguage of S_Common.v: rules '1', 'return CONSTANT' and disjunctions of conjunctions of comparisons, constants being names or C numbers or complements of them joined by '|', comments, blank lines, one rule per call. Missing: @include, continuation lines, parentheses, other spacing. False outside: 'cond; return E' allows when cond holds in the C compiler and returns E when it holds in the Python one; a comment ending in a backslash swallows the next line in C only. On foreign architectures C kills the thread and Python takes its kill action. C64_c_compiles: within 512 labels and a bound on the size the C compiler takes them too."},
 {"property": "C65", "status": "proved", "theorems": ["C65_compiles_exactly", "C65_size", "C65_duplicates_refuted"], "note": "names of system calls are assumed to have at most 32 characters, not to begin with a digit, and their numbers to fit in 32 bits (true of the generated tables). C65_duplicates_refuted: with repeats allowed, two lines with a condition for the same call are still refused (their labels collide), although both are readable and fit."},
 {"property": "C66", "status": "partial", "theorems": ["C66_generates", "C66_c_partial", "C66_python_partial", "C66_python_compiles", "C66_c_compiles", "C66_traced_permitted", "C66_raw_refuted", "C66_time_refuted", "C66_file_name_refuted", "C66_paths_refuted", "C66_names_refuted"], "note": "Proved for strace logs whose inspected arguments are constants both compilers read (names of the tables or numbers, joined by '|'), with tables where a number has one name. Audit logs are C86. Missing: other texts of inspected arguments. False of the code: with raw logs (strace -e raw=all, which tools/README.md asks for) a traced mapping for writing and execution is not recognised and the generated policy denies it; lines with times are silently skipped; a log whose name contains x86 but not 64 turns socket into socketcall; strace -y makes the tool fail with an exception. strace joins the names of an ambiguous number with 'or' (SNDCTL_TMR_TIMEBASE or TCGETS), and neither compiler reads the policy made from that."},
 {"property": "C67", "status": "partial", "theorems": ["C67_reports", "C67_passes", "C67_mentions", "C67_tool", "C67_c_partial", "C67_none_partial", "C67_python_partial", "C67_continuation_refuted", "C67_include_refuted", "C67_several_refuted", "C67_architecture_refuted", "C67_space_refuted"], "note": "What the linter reports is proved exactly, for every text. What a passed policy allows is proved for the C compiler on texts without continuation lines, included files and control characters, and for the Python compiler on the policies both compilers take; beyond that it is refuted: a name continued on the next line, an included file, {a, b} and name[arch=...] hide a dangerous call, and the tool then even says that there is none. A space after a safe rule is reported as an error. Line numbers in errors count from 0. --denylist has no effect."},
 {"property": "C68", "status": "proved", "theorems": ["C68_own_session", "C68_kept", "C68_pid_namespace", "C68_minijail0", "C68_terminal_refuted"], "note": "A terminal counts if it is a standard stream of the program. C68_terminal_refuted: with files as standard streams and no minijail_create_session the program keeps the launcher's controlling terminal (/dev/tty) although new sessions are enabled."},
 {"property": "C69", "status": "proved", "theorems": ["C69_program", "C69_program_static"], "note": "For SIGSYS the disposition is given when minijail_enter makes no call about it; hooks are assumed to leave signals alone."},
 {"property": "C70", "status": "partial", "theorems": ["C70_forwarded", "C70_not_forwarded", "C70_init", "C70_every_jail_refuted", "C70_only_jail_refuted", "C70_reaches_program_refuted", "C70_stale_handlers_refuted"], "note": "C70_forwarded holds while no other forwarding jail is started and nobody changes handlers. False in general: a second jail takes all signals, after a wait the number may belong to another process, with a pid namespace the provided init gets them and reacts only to SIGTERM, a later jail's init inherits the handlers."},
 {"property": "C71", "status": "proved", "theorems": ["C71_mask_restored", "C71_none_added", "C71_killed_unless_sent", "C71_pending_refuted"], "note": "C71_pending_refuted: a SIGPIPE that the caller blocked and that was pending before is swallowed."},
 {"property": "C72", "status": "partial", "theorems": ["C72_as_first", "C72_as_first_no_preload", "C72_applied_partial", "C72_applied_no_preload", "C72_filter", "C72_filter_no_preload", "C72_files_restricted", "C72_mounts", "C72_identity_partial", "C72_capabilities", "C72_latest", "C72_entered_once_refuted", "C72_any_number_refuted"], "note": "Proved for every past of a jail: the launch is one of a jail only configured by the same calls. False in two respects, shown by the refutations: a jail that enters existing namespaces can be launched once (the launcher closes the descriptor it needs again), and one with file access rules starts at most 128 programs. The limits of C28 apply (its _partial theorems)."},
 {"property": "C73", "status": "partial", "theorems": ["C73_ends_partial", "C73_launcher_closes", "C73_program_closes", "C73_library_ends", "C73_child_waits", "C73_end_of_output_refuted", "C73_init_inherits"], "note": "Proved for launchers with open standard streams. False with the provided init of a pid namespace (refuted): it keeps the program's ends. Not modelled: other processes the launcher forks meanwhile."},
 {"property": "C74", "status": "partial", "theorems": ["C74_reach_partial", "C74_not_left", "C74_number_taken", "C74_other_namespace_refuted", "C74_passed_on_refuted"], "note": "With close_open_fds proved in general (up to 126 descriptors passed on); without it false when the number is asked for or the namespace is passed on too (refuted), else proved."},
 {"property": "C75", "status": "partial", "theorems": ["C75_ok_partial", "C75_error", "C75_reaches", "C75_history", "C75_program_bytes", "C75_unknown_user_refuted", "C75_unknown_group_refuted", "C75_runs_as_launcher_refuted", "C75_empty_program_refuted"], "note": "False in general: change_user and change_group drop the library's answer, so an unknown name is accepted (Ok, nothing changed) and the program runs as the launcher's user. An empty buffer is accepted as a filter although the documentation of WrongProgramSize excludes it."},
 {"property": "C76", "status": "partial", "theorems": ["C76_endings_partial", "C76_conventional", "C76_success", "C76_wait_no_panic", "C76_kill_no_panic", "C76_kill", "C76_under_init", "C76_code_as_signal_refuted", "C76_violation_refuted", "C76_never_violation_refuted"], "note": "False in general: exit codes 129-192 are reported as Killed, 126 and 127 as NoAccess and NoCommand, and SIGSYS as ReturnCode(253); SeccompViolation is never returned. SIGRTMAX is 64."},
 {"property": "C77", "status": "partial", "theorems": ["C77_descriptors_partial", "C77_launcher", "C77_threads", "C77_arguments", "C77_again_refuted", "C77_after_error_refuted"], "note": "Proved for the first run of a jail, with the preload library. False for later runs: the process of a second run of the same jail always ends before executing, because 0, 1 and 2 are requested twice; also after a run that failed while descriptors were added. The program also gets the read end of the configuration pipe and, for programs given as descriptors, that file."},
 {"property": "C78", "status": "partial", "theorems": ["C78_identical_partial", "C78_lacks_refuted", "C78_identical_refuted"], "note": "False in general: id maps, the pid file's path, the preload path, remounts, hooks and a filter that is not enabled yet are missing in the copy, while their flags are kept. Not covered: soft failure of seccomp, what C23 excludes."},
 {"property": "C79", "status": "partial", "theorems": ["C79_failed", "C79_zero", "C79_fork_partial", "C79_started", "C79_descriptors", "C79_sent", "C79_died", "C79_negative_refuted", "C79_fork_refuted", "C79_executed_refuted"], "note": "Proved for every function, argument, jail, descriptor table and failure. False in general: errors can be positive (EFAULT), and without memory minijail_fork returns ENOMEM, which looks like a pid; 0 is returned for programs that cannot be executed. A jail with file access rules leaves its ruleset open in the launching process (C79_descriptors). Memory that is leaked is not modelled."},
 {"property": "C80", "status": "partial", "theorems": ["C80_program", "C80_descriptor_partial", "C80_streams_partial", "C80_passed_partial", "C80_in_jail", "C80_in_jail_no_preload", "C80_forked", "C80_reported", "C80_reported_init_partial"], "note": "Both processes of a call, for any past of the jail. Missing: descriptors when the jail has file access rules; the init process in the cases of C40 that are refuted; the child's wait for its parent is assumed to end well (C57 covers it)."},
 {"property": "C81", "status": "partial", "theorems": ["C81_status", "C81_status_init_partial", "C81_zero", "C81_nothing", "C81_immediately", "C81_immediately_refuted", "C81_not_executed", "C81_program", "C81_environment_partial", "C81_environment_static_partial", "C81_in_jail_partial", "C81_in_jail_static_partial"], "note": "Main of minijail0 over the models of its options, of the launch in both processes, of the library and of waiting. Finding: main ignores the result of the launch; with -i the status is 0 although nothing was started, otherwise it is 246 (-ECHILD). Missing: init told to terminate (C40), variables the library uses (C41), arguments out of their ranges (C60)."},
 {"property": "C82", "status": "partial", "theorems": ["C82_accepted", "C82_accepts", "C82_listing", "C82_enforced_partial", "C82_enforced_static_partial", "C82_no_arguments_refuted", "C82_lost_refuted"], "note": "Findings: without any argument, a policy on standard input that has a rule makes the tool copy a null name (undefined behaviour); exit status 0 although fclose lost the end of the dump. Missing: big-endian machines for what the filter decides; minijail0's part as in C60."},
 {"property": "C83", "status": "partial", "theorems": ["C83_written_partial", "C83_rejected", "C83_accepts_partial", "C83_header", "C83_enforced_partial", "C83_enforced_static_partial", "C83_limit_refuted", "C83_log_refuted", "C83_denylist_refuted"], "note": "Findings: --include-depth-limit N is compared as text with a number, so giving it removes the limit; --use-ret-log leaves kill-process and trap as they are; --default-action has no effect on unlisted system calls in a denylist. Missing: what C60 and C63 miss (a denial before a final allow, two names for a number, arg6, big-endian)."},
 {"property": "C84", "status": "proved", "theorems": ["C84_table", "C84_loaded", "C84_known_machine", "C84_as_in_c", "C84_same_tables", "C84_incomplete_refuted", "C84_pointer_refuted"], "note": "For every pair of files of the shape clang writes (S_Json). C84_same_tables gives the hypothesis same_tables of C64, C66 and C67 for a C compiler built with the same tables. JSON writing and reading are taken to be inverse. Findings: without the table of system calls a file is written with status 0 that the compiler cannot read; pointers printed by older clang versions get the value 0 instead of being left out."},
 {"property": "C85", "status": "partial", "theorems": ["C85_syscalls", "C85_one_number", "C85_constants_partial", "C85_constants_refuted"], "note": "System calls proved as stated. Constants: exactly those whose text is plain; false in general: a text that starts with a parenthesis or a minus sign (O_TMPFILE, AT_FDCWD) or a line with SIG_ or NULL (SIG_BLOCK) is not taken. The preprocessor is an oracle that prints lines as in S_Table."},
 {"property": "C86", "status": "proved", "theorems": ["C86_as_traced", "C86_generates", "C86_c", "C86_python", "C86_nothing_missing", "C86_encoded_refuted", "C86_unknown_refuted"], "note": "For logs whose records say calls that a policy can name (acall_ok: a name of the table of system calls; inspected arguments interpreted as names of constants or numbers joined by '|'). auparse is an oracle. Findings: the calls of a program whose name the kernel writes in hexadecimal (it has a space or a quote) are silently missed; a call that auparse does not know is written as unknown-syscall(number), which both compilers refuse."},
 {"property": "C87", "status": "proved", "theorems": ["C87_read_back"], "note": "For well-formed logs as in C66 and C86; freq_file is the grammar of frequency files of C63, which the compiler is proved to follow."},
 {"property": "C88", "status": "proved", "theorems": ["C88_kinds", "C88_tool", "C88_policy", "C88_missing", "C88_mistaken_refuted"], "note": "For files as in C66 and C86. Finding: a log of strace in which a program's interrupted write of an audit record comes before any complete call is taken for an audit log."}
]}
