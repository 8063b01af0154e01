(* Command lines of minijail0 whose programs start. *)
From Verif Require Export P_RunEx P_CliFilter P_CliEx.
From Coq Require Import Lia.
Local Open Scope N_scope.

Definition full_opts : list (N * option string) := (cli_opts ++ [(short "r", None); (short "e", None); (short "l", None); (short "N", None);
  (short "C", Some "/jail"); (short "S", Some "/etc/app.policy"); (OPT_UTS, Some "box")]%string)%list.
Definition start_of (opts : list (N * option string)) (prog : string) : start :=
  match minijail0 ex_world "/lib/p.so" opts [prog] with Go s => s | _ => Start (cli_start EmptyString) false None end.
Definition box_start : start := start_of full_opts "/bin/app".
Notation box_history := (c_calls (st_cli box_start)).
Notation box_jail := (c_jail (st_cli box_start)).
Lemma box_goes : minijail0 ex_world "/lib/p.so" full_opts ["/bin/app"%string] = Go box_start.
Proof. vm_compute. reflexivity. Qed.
Lemma box_fits : Forall (fits ex_world) (all_options ex_world full_opts).
Proof.
  match goal with |- Forall _ ?l => let v := eval vm_compute in l in change l with v end.
  repeat apply Forall_cons; try apply Forall_nil; intros a EA; try discriminate EA; injection EA as <-; (split; [|split; [|split]]);
    intros H; try (exfalso; revert H; clear; vm_compute; intuition discriminate);
    first [number | split; [discriminate|number] | exact limits_case].
Qed.
Lemma box_small : small_ids ex_world (all_options ex_world full_opts).
Proof. split; intros [a H]; exfalso; revert H; vm_compute; intuition discriminate. Qed.
Lemma box_formed : well_formed ex_world (all_options ex_world full_opts).
Proof. split; [discriminate|]. split; [exact world_names|]. split; [exact box_fits|]. split; [exact box_small|exact world_files]. Qed.

Definition box_t1 : list event := snd (M_Io.run P_EnterEx.ex_kernel [] (run_child ex_cfg true (with_ruleset ex_env box_jail))).
Definition box_sent : jail := parent_jail ex_env (Some "/bin/app"%string) 4242 box_jail.
Definition box_bytes : string := match minijail_to_fd any_addr box_sent 4000 slow with Some (Wrote _ b _) => b | _ => EmptyString end.
Definition box_t2 : list event :=
  snd (M_Io.run P_EnterEx.ex_kernel [] (fake_main ex_cfg true (fun _ => minijail_from_fd ex_env minijail_new whole box_bytes) run_envp)).
Lemma box_typed : c_typed box_sent.
Proof.
  assert (E : exists x, box_sent = x) by (eexists; reflexivity). destruct E as (x & E). rewrite E. vm_compute in E. subst x.
  unfold c_typed, text, i32; repeat ty.
Qed.
Lemma box_case : launched ex_cfg ex_env ex_env box_history box_jail box_t1 box_t2 run_envp ["PATH=/bin"; "LD_PRELOAD=/lib/a.so"]%string.
Proof.
  split; [exact (jail_built ex_world _ _ _ _ box_goes)|]. split; [reflexivity|]. split; [reflexivity|]. split; [vm_compute; reflexivity|].
  split; [exists P_EnterEx.ex_kernel; vm_compute; reflexivity|].
  exists (Some "/bin/app"%string), 4242%Z, any_addr, 4000%nat, slow.
  destruct (minijail_to_fd any_addr box_sent 4000 slow) as [res|] eqn:E; [|vm_compute in E; discriminate E].
  destruct (minijail_size any_addr box_sent) as [size|] eqn:Z; [|vm_compute in Z; discriminate Z].
  exists res, size, box_bytes, EmptyString, whole, true, P_EnterEx.ex_kernel. cbv zeta. fold box_sent.
  split; [exact box_typed|]. split; [exact any_addr_ok|]. split; [exact slow_real|]. split; [exact Z|].
  split; [vm_compute in Z; injection Z as <-; reflexivity|]. split; [exact E|].
  split; [|vm_compute; reflexivity].
  vm_compute in E. injection E as <-. vm_compute. reflexivity.
Qed.
Lemma tmp_rest l n : tmp_size l n -> forall r, Forall (fun o => fst o <> short "t" /\ fst o <> OPT_PROFILE) r -> tmp_size (l ++ r) n.
Proof.
  intros T r F. revert l T. induction F as [|o r [N1 N2] _ IH]; intros l T; [rewrite app_nil_r; exact T|].
  replace (l ++ o :: r)%list with ((l ++ [o]) ++ r)%list by (rewrite <- app_assoc; reflexivity). apply IH. apply ts_skip; assumption.
Qed.
Lemma box_insists : let L := all_options ex_world full_opts in Forall (insists ex_world ex_cfg L)
    [C_unshare 131072; C_mount None "/" None (N.lor 16384 524288) None; C_sethostname "box"; C_unshare 1073741824; C_unshare 134217728; C_unshare 33554432;
     C_chroot "/jail"; C_chdir "/"; C_mount (Some "proc"%string) "/proc" (Some "proc"%string) 15 (Some ""%string); C_no_new_privs;
     C_mount (Some "none"%string) "/tmp" (Some "tmpfs"%string) 270 (Some "size=67108864,mode=1777"%string)] /\
  root_dir ex_world L "/jail" /\ last_arg L (short "c") = Some (Some "0x21"%string) /\ last_arg L (short "S") = Some (Some "/etc/app.policy"%string) /\
  k_softfail ex_env = false /\ g_asan ex_cfg = false.
Proof.
  assert (HH : forall n b, In (n, b) (all_options ex_world full_opts) -> has (all_options ex_world full_opts) n) by (intros n b I; exists b; exact I).
  Ltac find := vm_compute; some_call.
  intros L. assert (NH : forall n, existsb (fun o => fst o =? n) L = false -> ~ has L n).
  { intros n X [a I]. assert (Y : existsb (fun o => fst o =? n) L = true) by (apply existsb_exists; exists (n, a); split; [exact I|apply N.eqb_refl]). congruence. }
  split; [|repeat split; try reflexivity; apply rd_chroot; find].
  repeat apply Forall_cons; try apply Forall_nil.
  - apply S_CliRun.in_mounts with (short "v"); [eapply HH; find|find].
  - apply in_slave; [eapply HH; find|apply NH; reflexivity].
  - apply in_hostname with (removelast L) [].
    + vm_compute. reflexivity.
    + intros b I. vm_compute in I. repeat destruct I as [I|I]; try discriminate I; exact I.
  - apply in_net; [find|]. intros a I. vm_compute in I. repeat destruct I as [I|I]; try discriminate I; exact I.
  - apply in_ipc. eapply HH; find.
  - apply in_cgroup. eapply HH; find.
  - eapply in_chroot with (d := "/jail"%string); find.
  - eapply in_chroot with (d := "/jail"%string); find.
  - apply in_proc with (short "r"); [eapply HH; find|find|apply NH; reflexivity].
  - apply in_nnp; [eapply HH; find|reflexivity].
  - change (Some "size=67108864,mode=1777"%string) with (Some ("size=" ++ dec 67108864 ++ ",mode=1777")%string). apply in_tmp; [|discriminate].
    assert (X : exists l1 l2, L = ((l1 ++ [(short "t", None)]) ++ l2)%list /\ forallb (fun o => negb (fst o =? short "t") && negb (fst o =? OPT_PROFILE)) (l1 ++ l2) = true).
    { exists (firstn 10 L), (skipn 11 L). split; vm_compute; reflexivity. }
    destruct X as (l1 & l2 & X & Y). rewrite forallb_app in Y. apply andb_true_iff in Y. destruct Y as [Y1 Y2].
    assert (Q : forall l, forallb (fun o : N * option string => negb (fst o =? short "t") && negb (fst o =? OPT_PROFILE)) l = true -> Forall (fun o => fst o <> short "t" /\ fst o <> OPT_PROFILE) l).
    { clear. intros l H. apply Forall_forall. intros o I. rewrite forallb_forall in H. specialize (H o I). apply andb_true_iff in H. destruct H as [A B]. rewrite negb_true_iff, N.eqb_neq in A, B. split; assumption. }
    rewrite X. apply tmp_rest; [|exact (Q _ Y2)]. change 67108864 with (if 0 =? 0 then 67108864 else 0). apply ts_default; [left; reflexivity|].
    exact (tmp_rest [] 0 (ts_none) l1 (Q _ Y1)).
Qed.

(* the same without a new root, for a program that is linked statically *)
Definition alone_opts : list (N * option string) := (cli_opts ++ [(short "r", None); (short "S", Some "/etc/app.policy"%string)])%list.
Definition alone_start : start := start_of alone_opts "/bin/static".
Notation alone_history := (c_calls (st_cli alone_start)).
Notation alone_jail := (c_jail (st_cli alone_start)).
Definition alone_trace : list event := snd (M_Io.run P_EnterEx.ex_kernel [] (run_child ex_cfg false (with_ruleset ex_env alone_jail))).
Lemma alone_goes : minijail0 ex_world "/lib/p.so" alone_opts ["/bin/static"%string] = Go alone_start /\ st_preload alone_start = false.
Proof. split; vm_compute; reflexivity. Qed.
Lemma alone_formed : well_formed ex_world (all_options ex_world alone_opts).
Proof.
  split; [discriminate|]. split; [exact world_names|]. split.
  - match goal with |- Forall _ ?l => let v := eval vm_compute in l in change l with v end.
    repeat apply Forall_cons; try apply Forall_nil; intros a EA; try discriminate EA; injection EA as <-; (split; [|split; [|split]]);
      intros H; try (exfalso; revert H; clear; vm_compute; intuition discriminate);
      first [number | split; [discriminate|number] | exact limits_case].
  - split; [|exact world_files]. split; intros [a H]; exfalso; revert H; vm_compute; intuition discriminate.
Qed.
Lemma alone_case : launched_plain ex_cfg ex_env true alone_history alone_jail alone_trace.
Proof.
  split; [exact (jail_built ex_world _ _ _ _ (proj1 alone_goes))|]. split; [reflexivity|]. split; [vm_compute; reflexivity|].
  exists P_EnterEx.ex_kernel. vm_compute. reflexivity.
Qed.
