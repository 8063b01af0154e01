(* A system, command lines on it, and what minijail0 makes of them. *)
From Verif Require Export P_Paths P_PolicyEx P_Elf P_CliIds P_CliRefused.
From Coq Require Import Lia.
Local Open Scope N_scope.

Definition ex_policy_file : policy_source := PolicySource ex_build (fun _ => None) (Some (Stream ("read: 1" ++ nl) false)) (Some "/etc/app.policy"%string).
Definition ex_world : world := World ex_env 64 [("MS_RDONLY", 1); ("RLIMIT_NOFILE", 7)]%string
  (fun n => if (n =? "nobody")%string then Some (65534, 65533) else None)
  (fun n => if (n =? "audio")%string then Some 29 else None)
  (fun _ => None) 40 1000 100 false true (fun p => Some p) (fun _ => 9%Z)
  (fun p => if (p =? "/etc/app.conf")%string then Some (Stream ("% minijail-config-file v0" ++ nl ++ "n" ++ nl ++ "g = 29" ++ nl) false) else None)
  (fun _ => true) (fun _ => ex_policy_file)
  (fun p => if (p =? "/bin/app")%string then Some (elf_sample true 3) else if (p =? "/jail//bin/app")%string then Some (elf_sample true 3) else if (p =? "/bin/static")%string then Some (elf_sample true 1) else None)
  (Host true 64) (fun _ => false) (fun _ => false) (fun _ => true) "/mnt/empty" ["PATH=/bin"; "HOME=/root"]%string true (fun _ => true).
Definition cli_opts : list (N * option string) :=
  [(short "u", Some "1000"); (short "v", None); (short "b", Some "/src,/dst,1"); (short "c", Some "0x21"); (OPT_AMBIENT, None);
   (OPT_CONFIG, Some "/etc/app.conf"); (OPT_ADD_SUPPL_GROUP, Some "audio"); (OPT_ADD_SUPPL_GROUP, Some "7"); (short "t", None);
   (OPT_ENV_ADD, Some "HOME=/tmp"); (OPT_PRESERVE_FD, Some "5"); (short "R", Some "RLIMIT_NOFILE,64,unlimited")]%string.

Lemma in_text (s : string) (P : Ascii.ascii -> Prop) : fold_right and True (map P (list_ascii_of_string s)) -> all_chars P s.
Proof.
  induction s as [|c s IH]; intros H i x; [destruct i; discriminate|]. cbn in H. destruct H as [Hc H]. destruct i as [|i].
  - cbn. intros [= <-]. exact Hc.
  - cbn. intros G. exact (IH H i x G).
Qed.
Lemma world_names : names_ok (w_consts ex_world).
Proof.
  unfold names_ok, ex_world. cbn [w_consts]. constructor; [|constructor; [|constructor]]; (split; [discriminate|]); cbn [fst]; apply in_text; cbn; repeat split; discriminate.
Qed.
Lemma world_files : files_ok ex_world.
Proof.
  assert (K : forall t, Forall (fun x => x < 256) (elf_sample true t) \/ t <> 3 /\ t <> 1).
  { intros t. destruct (N.eq_dec t 3) as [->|]; [left; vm_compute; repeat constructor|]. destruct (N.eq_dec t 1) as [->|]; [left; vm_compute; repeat constructor|auto]. }
  intros p b. cbn [ex_world w_bytes]. destruct (_ =? _)%string; [|destruct (_ =? _)%string; [|destruct (_ =? _)%string; [|discriminate]]]; intros [= <-].
  - split; [reflexivity|]. destruct (K 3) as [X|[X _]]; [exact X|congruence].
  - split; [reflexivity|]. destruct (K 3) as [X|[X _]]; [exact X|congruence].
  - split; [reflexivity|]. destruct (K 1) as [X|[_ X]]; [exact X|congruence].
Qed.
Ltac number := let z := fresh "z" in let H := fresh "H" in intros z H; first [apply decimal_integer_read in H | apply hex_integer_read in H];
  destruct H as (neg & v & H & ->); vm_compute in H; (discriminate H || (injection H as <- <-; unfold word; cbn; lia)).
Ltac not_in H := exfalso; revert H; clear; vm_compute; intuition discriminate.
Lemma limits_case : forall type cur max, splits "," "RLIMIT_NOFILE,64,unlimited" [type; cur; max] ->
  (forall t, simple_const (w_long ex_world) (w_consts ex_world) type t -> t < 2 ^ 31) /\
  (forall z, c_integer cur z \/ c_integer max z -> word (w_long ex_world) z).
Proof.
  intros type cur max H. apply tokens_spec in H; [|discriminate]. vm_compute in H. injection H as <- <- <-. split.
  - intros t H. apply parse_single_spec in H; [|reflexivity]. vm_compute in H. injection H as <-. reflexivity.
  - intros z [H|H]; apply c_integer_read in H; destruct H as (neg & v & H & ->); vm_compute in H; [|discriminate H].
    injection H as <- <-. unfold word. cbn. lia.
Qed.
Lemma cli_fits : Forall (fits ex_world) (all_options ex_world cli_opts).
Proof.
  match goal with |- Forall _ ?l => let v := eval vm_compute in l in change l with v end.
  repeat apply Forall_cons; try apply Forall_nil; intros a EA; try discriminate EA; injection EA as <-; (split; [|split; [|split]]);
    intros H; try (exfalso; revert H; clear; vm_compute; intuition discriminate);
    first [number | split; [discriminate|number] | exact limits_case].
Qed.
Definition cli_result (opts : list (N * option string)) (prog : string) : option start :=
  match minijail0 ex_world "/lib/p.so" opts [prog] with Go s => Some s | _ => None end.
Lemma cli_small : small_ids ex_world (all_options ex_world cli_opts).
Proof. split; intros [a H]; exfalso; revert H; vm_compute; intuition discriminate. Qed.
Lemma cli_goes : exists s, minijail0 ex_world "/lib/p.so" cli_opts ["/bin/app"%string] = Go s /\ st_preload s = true /\
  map fst (c_calls (st_cli s)) = [A_change_uid 1000; A_namespace_vfs; A_remount_mode 524288; A_bind "/src" "/dst" true (Some "/src"%string);
    A_use_caps 33; A_set_ambient_caps; A_no_new_privs; A_change_gid 29; A_namespace_vfs; A_preserve_fd 5 5; A_rlimit 7 64 18446744073709551615;
    A_preserve_fd 2 2; A_forward_signals; A_set_supplementary_gids [29; 7]; A_no_new_privs; A_mount_tmp_size 67108864;
    A_add_minimalistic_mountns_fs_rules; A_set_preload_path "/lib/p.so"] /\
  st_env s = Some ["PATH=/bin"; "HOME=/tmp"]%string.
Proof. eexists. split; [vm_compute; reflexivity|]. repeat split. Qed.
Lemma cli_case : 32 <= w_long ex_world /\ names_ok (w_consts ex_world) /\ Forall (fits ex_world) (all_options ex_world cli_opts) /\
  small_ids ex_world (all_options ex_world cli_opts) /\ files_ok ex_world.
Proof. split; [discriminate|]. split; [exact world_names|]. split; [exact cli_fits|]. split; [exact cli_small|exact world_files]. Qed.
Lemma cli_id_fits : Forall id_fits (all_options ex_world cli_opts).
Proof. exact (Forall_impl _ (fits_id ex_world) cli_fits). Qed.
Lemma world_distinct : distinct (w_environ ex_world).
Proof.
  intros n V a x b y c E [[u ->] [v ->]]. cbn [ex_world w_environ] in E.
  destruct a as [|a0 a]; [|destruct a as [|a1 a]; [destruct b; discriminate E|destruct a; discriminate E]].
  destruct b as [|b0 b]; [|destruct b; discriminate E]. cbn [app] in E. injection E as E1 E2 _.
  assert (VP : var_name "PATH") by (split; [discriminate|apply in_text; cbn; repeat split; discriminate]).
  assert (VH : var_name "HOME") by (split; [discriminate|apply in_text; cbn; repeat split; discriminate]).
  change "PATH=/bin"%string with ("PATH" ++ "=" ++ "/bin")%string in E1. change "HOME=/root"%string with ("HOME" ++ "=" ++ "/root")%string in E2.
  apply sep_unique in E1; auto. apply sep_unique in E2; auto. destruct E1 as [<- _], E2 as [E2 _]. discriminate.
Qed.

(* ---- wrong ids ---- *)
Ltac decimal := apply decimal_integer_read; eexists _, _; split; [vm_compute; reflexivity|reflexivity].
Lemma uid_wraps : exists s, minijail0 ex_world "/lib/p.so" [(short "u", Some "4294967297"%string)] ["/bin/app"%string] = Go s /\
  decimal_integer "4294967297" 4294967297 /\ given uid_of (map fst (c_calls (st_cli s))) = [1].
Proof. eexists. split; [vm_compute; reflexivity|]. split; [decimal|reflexivity]. Qed.
Lemma uid_minus : exists s, minijail0 ex_world "/lib/p.so" [(short "u", Some "-1"%string); (short "g", Some "-1"%string)] ["/bin/app"%string] = Go s /\
  given uid_of (map fst (c_calls (st_cli s))) = [4294967295] /\ given gid_of (map fst (c_calls (st_cli s))) = [4294967295].
Proof. eexists. split; [vm_compute; reflexivity|]. split; reflexivity. Qed.
Lemma group_zero : exists s, minijail0 ex_world "/lib/p.so" [(OPT_ADD_SUPPL_GROUP, Some "4294967296"%string)] ["/bin/app"%string] = Go s /\
  decimal_integer "4294967296" 4294967296 /\ given suppl_of (map fst (c_calls (st_cli s))) = [[0]].
Proof. eexists. split; [vm_compute; reflexivity|]. split; [decimal|reflexivity]. Qed.
Lemma static_env : exists s, minijail0 ex_world "/lib/p.so" [(OPT_ENV_RESET, None)] ["/bin/static"%string] = Go s /\ st_preload s = false /\ st_env s = None /\
  has_value (w_environ ex_world) "HOME" "/root" /\ ~ env_has ex_world (all_options ex_world [(OPT_ENV_RESET, None)]) "HOME" "/root".
Proof.
  eexists. split; [vm_compute; reflexivity|]. split; [reflexivity|]. split; [reflexivity|]. split; [right; left; reflexivity|].
  intros H. apply (env_snoc ex_world [] (OPT_ENV_RESET, None)) in H. destruct H as [H|(_ & H & _)]; [discriminate|now destruct H].
Qed.
Lemma hostname_kept : exists s, minijail0 ex_world "/lib/p.so" [(OPT_UTS, Some "a"%string); (OPT_UTS, Some "b"%string)] ["/bin/app"%string] = Go s /\
  In (A_namespace_set_hostname "b", (-22)%Z) (c_calls (st_cli s)) /\ j_hostname (c_jail (st_cli s)) = Own "a"%string.
Proof. eexists. split; [vm_compute; reflexivity|]. split; [cbn; tauto|reflexivity]. Qed.
Lemma fd_lost : exists s, minijail0 ex_world "/lib/p.so" [(OPT_PRESERVE_FD, Some "-3"%string)] ["/bin/app"%string] = Go s /\
  In (A_preserve_fd (-3) (-3), (-22)%Z) (c_calls (st_cli s)).
Proof. eexists. split; [vm_compute; reflexivity|]. cbn; tauto. Qed.
Lemma fd_other : exists s, minijail0 ex_world "/lib/p.so" [(OPT_PRESERVE_FD, Some "4294967301"%string)] ["/bin/app"%string] = Go s /\
  decimal_integer "4294967301" 4294967301 /\ In (A_preserve_fd 5 5, 0%Z) (c_calls (st_cli s)).
Proof. eexists. split; [vm_compute; reflexivity|]. split; [decimal|cbn; tauto]. Qed.
Lemma limit_saturates : exists s, minijail0 ex_world "/lib/p.so" [(short "R", Some "RLIMIT_NOFILE,64,99999999999999999999"%string)] ["/bin/app"%string] = Go s /\
  In (A_rlimit 7 64 18446744073709551615, 0%Z) (c_calls (st_cli s)).
Proof. eexists. split; [vm_compute; reflexivity|]. cbn; tauto. Qed.
Lemma tmp_none : exists s, minijail0 ex_world "/lib/p.so" [(short "t", Some "0"%string)] ["/bin/app"%string] = Go s /\
  forall n, ~ In (A_mount_tmp_size n) (map fst (c_calls (st_cli s))).
Proof. eexists. split; [vm_compute; reflexivity|]. intros n. cbn. intuition discriminate. Qed.
Lemma no_argument : parse_config_file (Stream ("% minijail-config-file v0" ++ nl ++ "S" ++ nl) false) = FOk [("S"%string, None)].
Proof. reflexivity. Qed.
(* ---- an option without its argument ---- *)
Definition bare_world : world := World ex_env 64 [] (fun _ => None) (fun _ => None) (fun _ => None) 40 1000 100 false true (fun p => Some p) (fun _ => 9%Z)
  (fun p => if (p =? "/etc/bare.conf")%string then Some (Stream ("% minijail-config-file v0" ++ nl ++ "S" ++ nl) false) else None)
  (fun _ => true) (fun _ => ex_policy_file) (fun _ => Some (elf_sample true 3)) (Host true 64) (fun _ => false) (fun _ => false) (fun _ => true) "/mnt/empty" []%string
  true (fun _ => true).
Lemma bare_crash : minijail0 bare_world "/lib/p.so" [(OPT_CONFIG, Some "/etc/bare.conf"%string)] ["/bin/app"%string] = Crash.
Proof. vm_compute. reflexivity. Qed.
