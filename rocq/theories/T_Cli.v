(* minijail0's command line. *)
From Verif Require Import P_CliEx P_CliCrash P_CliConf.
Local Open Scope N_scope.

(* ---- C49: ids ----
   A number that fits 32 bits selects that id; a name the id the system gives
   it; nothing else selects any. *)
Theorem C49_ids_partial : forall w pre opts args s, 32 <= w_long w ->
  let L := all_options w opts in
  minijail0 w pre opts args = Go s -> Forall id_fits L ->
  let calls := map fst (c_calls (st_cli s)) in
  Forall2 (fun a u => exists t, a = Some t /\ uid_arg w t u) (args_of L (short "u")) (given uid_of calls) /\
  Forall2 (fun a g => exists t, a = Some t /\ gid_arg w t g) (args_of L (short "g")) (given gid_of calls) /\
  exists gids, Forall2 (fun a g => exists t, a = Some t /\ gid_arg w t g) (args_of L OPT_ADD_SUPPL_GROUP) gids /\
    given suppl_of calls = match gids with [] => [] | _ => [gids] end.
Proof. intros w pre opts args s L32 L. exact (ids_selected w L32 pre opts args s). Qed.
Print Assumptions C49_ids_partial.
Example C49_case : 32 <= w_long ex_world /\ Forall id_fits (all_options ex_world cli_opts) /\
  exists s, minijail0 ex_world "/lib/p.so" cli_opts ["/bin/app"%string] = Go s /\
  given uid_of (map fst (c_calls (st_cli s))) = [1000] /\ given gid_of (map fst (c_calls (st_cli s))) = [29] /\
  given suppl_of (map fst (c_calls (st_cli s))) = [[29; 7]].
Proof.
  split; [discriminate|]. split; [exact cli_id_fits|]. destruct cli_goes as (s & E & _ & C & _). exists s. split; [exact E|]. rewrite C. repeat split.
Qed.
(* It is false of larger numbers: 4294967297 selects uid 1, ... *)
Theorem C49_wrapped_refuted : exists s, minijail0 ex_world "/lib/p.so" [(short "u", Some "4294967297"%string)] ["/bin/app"%string] = Go s /\
  decimal_integer "4294967297" 4294967297 /\ given uid_of (map fst (c_calls (st_cli s))) = [1].
Proof. exact uid_wraps. Qed.
Print Assumptions C49_wrapped_refuted.
(* ... 4294967296 as a supplementary group is root's, ... *)
Theorem C49_root_group_refuted : exists s, minijail0 ex_world "/lib/p.so" [(OPT_ADD_SUPPL_GROUP, Some "4294967296"%string)] ["/bin/app"%string] = Go s /\
  decimal_integer "4294967296" 4294967296 /\ given suppl_of (map fst (c_calls (st_cli s))) = [[0]].
Proof. exact group_zero. Qed.
Print Assumptions C49_root_group_refuted.
(* ... and of negative ones: -1 is the id that C33_no_id_refuted shows to
   leave the program with root's ids. *)
Theorem C49_minus_one_refuted : exists s, minijail0 ex_world "/lib/p.so" [(short "u", Some "-1"%string); (short "g", Some "-1"%string)] ["/bin/app"%string] = Go s /\
  given uid_of (map fst (c_calls (st_cli s))) = [4294967295] /\ given gid_of (map fst (c_calls (st_cli s))) = [4294967295].
Proof. exact uid_minus. Qed.
Print Assumptions C49_minus_one_refuted.

(* ---- C50: contradictions ---- *)
Theorem C50_conflicts : forall w pre opts args, conflict (all_options w opts) -> forall s, minijail0 w pre opts args <> Go s.
Proof. intros w pre opts args C s E. apply minijail0_go in E. destruct E as (c & P & _). exact (conflict_stops _ _ _ _ _ P C). Qed.
Print Assumptions C50_conflicts.
Theorem C50_static_caps : forall w pre opts args s, minijail0 w pre opts args = Go s -> st_preload s = false ->
  has (all_options w opts) (short "c") -> has (all_options w opts) OPT_AMBIENT.
Proof. intros w pre opts args s. exact (static_caps w pre opts args s). Qed.
Print Assumptions C50_static_caps.
Example C50_case :
  conflict (all_options ex_world [(short "C", Some "/a"%string); (short "n", None); (short "P", Some "/b"%string)]) /\
  minijail0 ex_world "/lib/p.so" [(short "C", Some "/a"%string); (short "n", None); (short "P", Some "/b"%string)] ["/bin/app"%string] = Exits 1 /\
  (exists s, minijail0 ex_world "/lib/p.so" [(short "c", Some "0x21"%string); (OPT_AMBIENT, None)] ["/bin/static"%string] = Go s /\ st_preload s = false) /\
  minijail0 ex_world "/lib/p.so" [(short "c", Some "0x21"%string)] ["/bin/static"%string] = Exits 1.
Proof.
  split; [|split; [reflexivity|split; [eexists; split; [vm_compute; reflexivity|reflexivity]|vm_compute; reflexivity]]].
  apply two_roots. exists [], [(short "n", None)], [], (short "C"), (Some "/a"%string), (short "P"), (Some "/b"%string).
  split; [reflexivity|]. split; [left; reflexivity|right; left; reflexivity].
Qed.

(* ---- C51: the environment ----
   With the preload library the program gets the variables the options say. *)
Theorem C51_environment_partial : forall w pre opts args s,
  minijail0 w pre opts args = Go s -> st_preload s = true -> distinct (w_environ w) ->
  exists e, st_env s = Some e /\ distinct e /\ forall n v, var_name n -> (has_value e n v <-> env_has w (all_options w opts) n v).
Proof. intros w pre opts args s. exact (env_given w pre opts args s). Qed.
Print Assumptions C51_environment_partial.
Example C51_case : distinct (w_environ ex_world) /\ exists s, minijail0 ex_world "/lib/p.so" cli_opts ["/bin/app"%string] = Go s /\
  st_preload s = true /\ st_env s = Some ["PATH=/bin"; "HOME=/tmp"]%string.
Proof. split; [exact world_distinct|]. destruct cli_goes as (s & E & P & _ & EN). exists s. split; [exact E|]. split; [exact P|exact EN]. Qed.
(* It is false of static programs: they keep the caller's environment. *)
Theorem C51_static_refuted : exists s, minijail0 ex_world "/lib/p.so" [(OPT_ENV_RESET, None)] ["/bin/static"%string] = Go s /\ st_preload s = false /\ st_env s = None /\
  has_value (w_environ ex_world) "HOME" "/root" /\ ~ env_has ex_world (all_options ex_world [(OPT_ENV_RESET, None)]) "HOME" "/root".
Proof. exact static_env. Qed.
Print Assumptions C51_static_refuted.

(* ---- C58: no undefined behaviour ----
   It can only come from an option that lacks its argument, a kernel with more
   than 64 capabilities, an empty prefix compiled in, or the policy compiler
   (C08). *)
Theorem C58_crashes_partial : forall w pre opts args, minijail0 w pre opts args = Crash ->
  (exists n, In (n, None) (all_options w opts) /\ In n takes_argument) \/
  64 <= w_last_cap w \/
  (k_block_symlinks (w_env w) = true /\ exists l, splits "," (k_bind_prefixes (w_env w)) l /\ In ""%string l) \/
  (exists p o f, ps_stream (w_policy w p) = Some f /\ compile_filter (ps_build (w_policy w p)) o (ps_files (w_policy w p)) (Some f) = CUb).
Proof. exact crashes. Qed.
Print Assumptions C58_crashes_partial.
(* getopt_long rejects an option without its argument; a configuration file
   may contain one. *)
Theorem C58_config_file_refuted : minijail0 bare_world "/lib/p.so" [(OPT_CONFIG, Some "/etc/bare.conf"%string)] ["/bin/app"%string] = Crash.
Proof. exact bare_crash. Qed.
Print Assumptions C58_config_file_refuted.
Example C58_case : all_options bare_world [(OPT_CONFIG, Some "/etc/bare.conf"%string)] = [(OPT_CONFIG, Some "/etc/bare.conf"%string); (short "S", None)] /\
  In (short "S") takes_argument /\ w_last_cap bare_world = 40 /\ k_block_symlinks (w_env bare_world) = false.
Proof. vm_compute. tauto. Qed.

(* ---- C59: what the options mean ----
   The calls minijail0 makes are the ones its options stand for, in order, and
   the jail it runs the program in is made by these calls alone. *)
Theorem C59_options_partial : forall w pre opts args s, 32 <= w_long w -> names_ok (w_consts w) ->
  let L := all_options w opts in
  minijail0 w pre opts args = Go s -> Forall (fits w) L -> small_ids w L -> files_ok w ->
  stands_for w L (st_preload s) (match last_arg L OPT_PRELOAD_LIBRARY with Some (Some p) => p | _ => pre end) (map fst (c_calls (st_cli s))).
Proof. intros w pre opts args s L32 N L. exact (options_stand w L32 N pre opts args s). Qed.
Print Assumptions C59_options_partial.
Theorem C59_jail : forall w pre opts args s, minijail0 w pre opts args = Go s ->
  history (w_env w) minijail_new (c_calls (st_cli s)) (c_jail (st_cli s)).
Proof. exact jail_built. Qed.
Print Assumptions C59_jail.
Example C59_case : 32 <= w_long ex_world /\ names_ok (w_consts ex_world) /\ Forall (fits ex_world) (all_options ex_world cli_opts) /\
  small_ids ex_world (all_options ex_world cli_opts) /\ files_ok ex_world /\
  exists s, minijail0 ex_world "/lib/p.so" cli_opts ["/bin/app"%string] = Go s /\ st_preload s = true /\
  map fst (c_calls (st_cli s)) = [A_change_uid 1000; A_namespace_vfs; A_remount_mode 524288; A_bind "/src" "/dst" true (Some "/src"%string);
    A_use_caps 33; A_set_ambient_caps; A_no_new_privs; A_change_gid 29; A_namespace_vfs; A_preserve_fd 5 5; A_rlimit 7 64 18446744073709551615;
    A_preserve_fd 2 2; A_forward_signals; A_set_supplementary_gids [29; 7]; A_no_new_privs; A_mount_tmp_size 67108864;
    A_add_minimalistic_mountns_fs_rules; A_set_preload_path "/lib/p.so"].
Proof.
  destruct cli_case as (A & B & C & D & E). repeat (split; [assumption|]). destruct cli_goes as (s & G & P & X & _). exists s. split; [exact G|]. split; [exact P|exact X].
Qed.
(* It is false of descriptors of more than 32 bits, of limits of more than 64
   (they become "unlimited"), ... *)
Theorem C59_descriptor_refuted : exists s, minijail0 ex_world "/lib/p.so" [(OPT_PRESERVE_FD, Some "4294967301"%string)] ["/bin/app"%string] = Go s /\
  decimal_integer "4294967301" 4294967301 /\ In (A_preserve_fd 5 5, 0%Z) (c_calls (st_cli s)).
Proof. exact fd_other. Qed.
Print Assumptions C59_descriptor_refuted.
Theorem C59_limit_refuted : exists s, minijail0 ex_world "/lib/p.so" [(short "R", Some "RLIMIT_NOFILE,64,99999999999999999999"%string)] ["/bin/app"%string] = Go s /\
  In (A_rlimit 7 64 18446744073709551615, 0%Z) (c_calls (st_cli s)).
Proof. exact limit_saturates. Qed.
Print Assumptions C59_limit_refuted.
(* ... and -t0 mounts no /tmp at all. *)
Theorem C59_tmp_refuted : exists s, minijail0 ex_world "/lib/p.so" [(short "t", Some "0"%string)] ["/bin/app"%string] = Go s /\
  forall n, ~ In (A_mount_tmp_size n) (map fst (c_calls (st_cli s))).
Proof. exact tmp_none. Qed.
Print Assumptions C59_tmp_refuted.

(* ---- C61: refusals ----
   The program runs only if the library took every setting, but for host names
   and descriptors. *)
Theorem C61_refusals_partial : forall w pre opts args s a rc, minijail0 w pre opts args = Go s ->
  In (a, rc) (c_calls (st_cli s)) -> (rc < 0)%Z -> (exists n, a = A_namespace_set_hostname n) \/ exists p c, a = A_preserve_fd p c.
Proof. intros w pre opts args s a rc. exact (refusals_claim w pre opts args s a rc). Qed.
Print Assumptions C61_refusals_partial.
(* These are lost without a word. *)
Theorem C61_hostname_refuted : exists s, minijail0 ex_world "/lib/p.so" [(OPT_UTS, Some "a"%string); (OPT_UTS, Some "b"%string)] ["/bin/app"%string] = Go s /\
  In (A_namespace_set_hostname "b", (-22)%Z) (c_calls (st_cli s)) /\ j_hostname (c_jail (st_cli s)) = Own "a"%string.
Proof. exact hostname_kept. Qed.
Print Assumptions C61_hostname_refuted.
Theorem C61_descriptor_refuted : exists s, minijail0 ex_world "/lib/p.so" [(OPT_PRESERVE_FD, Some "-3"%string)] ["/bin/app"%string] = Go s /\
  In (A_preserve_fd (-3) (-3), (-22)%Z) (c_calls (st_cli s)).
Proof. exact fd_lost. Qed.
Print Assumptions C61_descriptor_refuted.
Example C61_case : minijail0 ex_world "/lib/p.so" [(short "v", None); (short "b", Some "/a,relative"%string)] ["/bin/app"%string] <> Exits 0 /\
  (exists s, minijail0 ex_world "/lib/p.so" [(OPT_PRESERVE_FD, Some "-3"%string)] ["/bin/app"%string] = Go s /\ exists a rc, In (a, rc) (c_calls (st_cli s)) /\ (rc < 0)%Z).
Proof.
  split; [vm_compute; discriminate|]. destruct fd_lost as (s & E & I). exists s. split; [exact E|]. exists (A_preserve_fd (-3) (-3)), (-22)%Z. split; [exact I|reflexivity].
Qed.
