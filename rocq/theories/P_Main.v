(* Proofs about minijail0's main function (C81). *)
From Coq Require Import Lia.
From Verif Require Export P_LaunchChild S_Main.
From Verif Require P_MainCli P_Util P_RunEnv S_Util S_Text P_CliCrash P_CliRun.
Local Open Scope Z_scope.

Lemma run_file s args : file_of (run_of s args) = Some (hd EmptyString args).
Proof. unfold run_of. destruct (M_Cli.st_preload s); [destruct (M_Cli.st_env s)|]; reflexivity. Qed.
Lemma run_fd s args : fd_of (run_of s args) = None.
Proof. unfold run_of. destruct (M_Cli.st_preload s); [destruct (M_Cli.st_env s)|]; reflexivity. Qed.
Lemma run_argv s args : argv_of (run_of s args) = args.
Proof. unfold run_of. destruct (M_Cli.st_preload s); [destruct (M_Cli.st_env s)|]; reflexivity. Qed.
Lemma run_preloaded s args : preloaded (run_of s args) = M_Cli.st_preload s.
Proof. unfold run_of. destruct (M_Cli.st_preload s); [destruct (M_Cli.st_env s)|]; reflexivity. Qed.
Lemma run_no_fork s args : is_fork (run_of s args) = false.
Proof. unfold run_of. destruct (M_Cli.st_preload s); [destruct (M_Cli.st_env s)|]; reflexivity. Qed.
Lemma run_vars s args : vars (run_of s args) = [].
Proof. unfold run_of. destruct (M_Cli.st_preload s); [destruct (M_Cli.st_env s)|]; reflexivity. Qed.
Lemma run_not_fork s args : run_of s args <> Fork.
Proof. intros E. pose proof (run_no_fork s args) as X. rewrite E in X. discriminate X. Qed.

Lemma parent_fates w f m t j r acts : call_run w f m t j = (r, acts) -> in_launcher w ->
  match r with L_returns _ _ _ _ | L_dies | L_undef | L_waits => True | _ => False end.
Proof.
  unfold call_run, in_launcher. intros C L. destruct (prepare w (config_of f) j t) as [|rc st t1 j1|st t1 j1 v].
  - injection C as <- _. exact Logic.I.
  - injection C as <- _. exact Logic.I.
  - destruct (negb (hasf F_pids j1) && hasf F_userns j1)%bool; [injection C as <- _; exact Logic.I|].
    destruct (w_fork w <? 0); [injection C as <- _; exact Logic.I|]. destruct (Z.eqb_spec (w_fork w) 0) as [X|_]; [contradiction|].
    destruct (run_parent w (config_of f) (w_fork w) st m t1 j1) as [r0 a0] eqn:R. injection C as <- _. unfold run_parent in R. cbv zeta in R.
    destruct (set_up w _) as [ok a]. destruct (negb ok); [injection R as <- _; exact Logic.I|].
    match type of R with context [let '(st, t) := ?x in _] => destruct x as [st2 t2] end.
    destruct (negb _); [|destruct (minijail_to_fd _ _ _ _) as [[r1 b n|b]|]];
      unfold finish_call in R; repeat match type of R with context [parent_result ?a ?b ?c ?d ?e] => destruct (parent_result a b c d e) as [[[i o] e0] t3] end;
      injection R as <- _; exact Logic.I.
Qed.

Lemma jail_past w pre opts args s : M_Cli.minijail0 w pre opts args = M_Cli.Go s ->
  used (M_Cli.w_env w) minijail_new (map (fun p => Call (fst p) (snd p)) (M_Cli.c_calls (M_Cli.st_cli s))) (M_Cli.c_jail (M_Cli.st_cli s)).
Proof.
  intros E. pose proof (P_CliCrash.jail_built w _ _ _ _ E) as H. revert H. generalize (M_Cli.c_calls (M_Cli.st_cli s)) (M_Cli.c_jail (M_Cli.st_cli s)) minijail_new.
  intros h j0 j H. induction H as [|j a rc j1 h j2 S _ IH]; [constructor|]. cbn [map fst snd]. econstructor; [exact S|exact IH].
Qed.
Lemma calls_only h : calls (map (fun p : api * Z => Call (fst p) (snd p)) h) = h.
Proof. induction h as [|[a rc] h IH]; [reflexivity|]. cbn [map]. unfold calls in *. cbn [flat_map fst snd app]. rewrite IH. reflexivity. Qed.
Lemma no_pid h : forall p, fold_left (fun p x => match x with Ran _ pid => pid | _ => p end) (map (fun p : api * Z => Call (fst p) (snd p)) h) p = p.
Proof. induction h as [|[a rc] h IH]; intros p; [reflexivity|]. cbn [map fold_left]. apply IH. Qed.
Lemma no_process w pre opts args s : M_Cli.minijail0 w pre opts args = M_Cli.Go s -> j_initpid (M_Cli.c_jail (M_Cli.st_cli s)) = 0.
Proof. intros E. rewrite (latest _ _ _ _ (jail_past _ _ _ _ _ E)). unfold last_pid. apply no_pid. Qed.

Section Main.
Variables (w : M_Cli.world) (l : world) (sigsys : N) (pre : string) (opts : list (N * option string)) (args : list string)
  (t : table) (answers : list (answer N)).
Notation L := (S_Cli.all_options w opts).
Notation has_i := (S_Cli.has L (S_Cli.short "i")).
Notation main_run := (main w l sigsys pre opts args t answers).

Lemma main_exits n acts : main_run = (M_exits n, acts) -> in_launcher l ->
  (exists code, M_Cli.minijail0 w pre opts args = M_Cli.Exits code /\ n = low_byte code /\ acts = []) \/
  exists s rc m' t' j', M_Cli.minijail0 w pre opts args = M_Cli.Go s /\
    call_run l (run_of s args) no_results t (M_Cli.c_jail (M_Cli.st_cli s)) = (L_returns rc m' t' j', acts) /\
    ((has_i /\ n = 0%N) \/ (~ has_i /\ exists v, minijail_wait sigsys (j_initpid j') answers = Returns v /\ n = low_byte v)).
Proof.
  unfold main. destruct (M_Cli.minijail0 w pre opts args) as [s|code| |] eqn:E; try discriminate.
  - intros H IL. right. cbv zeta in H. destruct (call_run l (run_of s args) no_results t (M_Cli.c_jail (M_Cli.st_cli s))) as [r a] eqn:C.
    pose proof (parent_fates _ _ _ _ _ _ _ C IL) as PF. destruct r as [rc m' t' j'| | | | | |]; try discriminate; try contradiction.
    injection H as H <-. exists s, rc, m', t', j'. split; [reflexivity|]. split; [exact C|].
    pose proof (P_MainCli.immediately w _ _ _ _ E) as I1. unfold end_of_main in H. destruct (M_Cli.c_exit_immediately (M_Cli.st_cli s)).
    + left. split; [apply I1; reflexivity|]. injection H as <-. reflexivity.
    + right. split; [intros X; apply I1 in X; discriminate X|]. destruct (minijail_wait sigsys (j_initpid j') answers) as [v|]; [|discriminate].
      exists v. injection H as <-. split; reflexivity.
  - intros H _. left. injection H as <- <-. exists code. repeat split.
Qed.
Lemma started_pid s rc m' t' j' acts pid : plausible l t -> in_launcher l ->
  call_run l (run_of s args) no_results t (M_Cli.c_jail (M_Cli.st_cli s)) = (L_returns rc m' t' j', acts) -> started_by acts pid -> 0 < pid /\ j_initpid j' = pid.
Proof.
  intros PL IL C S. assert (ND : NoDup (vars (run_of s args))) by (rewrite run_vars; constructor).
  destruct (launch_started _ _ _ _ _ _ _ _ _ _ pid IL PL ND C S) as (P & _ & _ & _ & _ & J). split; assumption.
Qed.
Lemma low_small v : 0 <= v < 256 -> Z.of_N (low_byte v) = v.
Proof. intros H. unfold low_byte. rewrite Z.mod_small by exact H. lia. Qed.
Lemma reported_small e : possible e -> 0 <= reported_as sigsys e < 256.
Proof. unfold possible, reported_as. destruct e as [c|s b]; [lia|]. intros H. destruct (s =? sigsys)%N; lia. Qed.

Lemma main_status n acts pid e : main_run = (M_exits n, acts) -> in_launcher l -> plausible l t -> ~ has_i -> started_by acts pid ->
  ended_as answers e -> Z.of_N n = reported_as sigsys e.
Proof.
  intros H IL PL NI S (k & rest & EA & PE). destruct (main_exits _ _ H IL) as [(code & _ & _ & ->)|(s & rc & m' & t' & j' & _ & C & D)]; [destruct S|].
  destruct (started_pid _ _ _ _ _ _ _ PL IL C S) as [P J]. destruct D as [[X _]|(_ & v & W & ->)]; [contradiction|].
  rewrite J, EA, (wait_ended sigsys pid k e rest P PE) in W. injection W as <-. apply low_small, reported_small, PE.
Qed.
Lemma main_immediately n acts pid : main_run = (M_exits n, acts) -> in_launcher l -> has_i -> started_by acts pid -> n = 0%N.
Proof.
  intros H IL HI S. destruct (main_exits _ _ H IL) as [(code & _ & _ & ->)|(s & rc & m' & t' & j' & _ & C & [[_ X]|[X _]])]; [destruct S|exact X|contradiction].
Qed.
Lemma main_nothing n acts : main_run = (M_exits n, acts) -> in_launcher l -> ~ has_i -> ~ only_tells L -> nothing_started acts -> n = 1%N \/ n = 246%N.
Proof.
  intros H IL NI NT NS. destruct (main_exits _ _ H IL) as [(code & E & -> & _)|(s & rc & m' & t' & j' & E & C & [[X _]|(_ & v & W & ->)])].
  - left. destruct (P_MainCli.refused_codes w _ _ _ _ E) as [->|X]; [reflexivity|destruct (NT X)].
  - contradiction.
  - right. destruct (call_failed _ _ _ _ _ _ _ _ _ _ C IL NS) as (_ & _ & -> & _). rewrite run_file in W.
    change (j_initpid (named (Some (hd EmptyString args)) (M_Cli.c_jail (M_Cli.st_cli s)))) with (j_initpid (M_Cli.c_jail (M_Cli.st_cli s))) in W.
    rewrite (no_process _ _ _ _ _ E), wait_no_child in W by lia. injection W as <-. reflexivity.
Qed.
Lemma forked_dec acts : (exists pid, started_by acts pid) \/ nothing_started acts.
Proof.
  unfold nothing_started, started_by. induction acts as [|a acts IH]; [right; intros p []|]. destruct IH as [(p & I1)|IH]; [left; exists p; right; exact I1|].
  destruct a as [p|c e|b|p q|tr]; [left; exists p; left; reflexivity|right; intros p0 [X|X]; [discriminate X|exact (IH _ X)]..].
Qed.
Lemma main_zero acts : main_run = (M_exits 0, acts) -> in_launcher l -> plausible l t -> real_answers answers -> ~ has_i -> ~ only_tells L ->
  exists pid, started_by acts pid /\ ended_as answers (Exited 0).
Proof.
  intros H IL PL RA NI NT. destruct (forked_dec acts) as [(pid & S)|NS].
  2: { destruct (main_nothing _ _ H IL NI NT NS); discriminate. }
  exists pid. split; [exact S|]. destruct (main_exits _ _ H IL) as [(code & _ & _ & ->)|(s & rc & m' & t' & j' & _ & C & [[X _]|(_ & v & W & Z0)])]; [destruct S|contradiction|].
  destruct (started_pid _ _ _ _ _ _ _ PL IL C S) as [P J]. rewrite J in W. apply wait_returns in W; [|exact P].
  destruct W as (k & rest & [(e & NE & EA & ->)|(st & EA & ->)]).
  - exfalso. assert (I1 : In (inl e) answers) by (rewrite EA; apply in_or_app; right; left; reflexivity).
    unfold real_answers in RA. rewrite Forall_forall in RA. specialize (RA _ I1). cbn in RA. unfold low_byte in Z0.
    assert (M : - Z.of_N e mod 256 = 256 - Z.of_N e) by (rewrite Z.mod_opp_l_nz by (rewrite ?Z.mod_small; lia); rewrite Z.mod_small by lia; reflexivity).
    lia.
  - assert (I1 : In (inr st) answers) by (rewrite EA; apply in_or_app; right; left; reflexivity).
    unfold real_answers in RA. rewrite Forall_forall in RA. destruct (RA _ I1) as (e & PE & ->). rewrite report_status in Z0 by exact PE.
    assert (R : reported_as sigsys e = 0) by (rewrite <- (low_small _ (reported_small e PE)), <- Z0; reflexivity).
    exists k, rest. destruct e as [c|sg b]; unfold reported_as in R.
    + assert (c = 0%N) by lia. subst c. split; [exact EA|exact PE].
    + exfalso. unfold possible in PE. destruct (sg =? sigsys)%N; lia.
Qed.

(* the child *)
Lemma main_executes p argv envp t' acts : main_run = (M_executes p argv envp t', acts) ->
  exists s, M_Cli.minijail0 w pre opts args = M_Cli.Go s /\
  call_run l (run_of s args) no_results t (M_Cli.c_jail (M_Cli.st_cli s)) = (L_execs p argv envp t', acts).
Proof.
  unfold main. destruct (M_Cli.minijail0 w pre opts args) as [s|code| |] eqn:E; try discriminate.
  intros H. cbv zeta in H. exists s. split; [reflexivity|].
  destruct (call_run l (run_of s args) no_results t (M_Cli.c_jail (M_Cli.st_cli s))) as [r a]. destruct r as [rc m1 t1 j1| | | | | |]; try discriminate.
  - unfold end_of_main in H. destruct (M_Cli.c_exit_immediately _); [discriminate|]. destruct (minijail_wait _ _ _); discriminate.
  - injection H as <- <- <- <- <-. reflexivity.
Qed.
Lemma main_program p argv envp t' acts : main_run = (M_executes p argv envp t', acts) -> w_fork l = 0 ->
  argv = args /\ exists prog rest, args = prog :: rest /\ p = Named prog.
Proof.
  intros H F0. destruct (main_executes _ _ _ _ _ H) as (s & E & C). destruct (launch_program _ _ _ _ _ _ _ _ _ _ F0 C) as (_ & A & _ & F & _).
  rewrite run_argv in A. split; [exact A|]. pose proof (P_MainCli.some_program w _ _ _ _ E) as NE. specialize (F _ (run_file s args)).
  destruct args as [|a r]; [contradiction|]. exists a, r. split; [reflexivity|exact F].
Qed.
Lemma set_others e n v m u : S_Util.var_name n -> S_Util.var_name m -> m <> n ->
  (S_Util.has_value (snd (minijail_setenv e n v true)) m u <-> S_Util.has_value e m u).
Proof.
  intros VN VM NE. unfold S_Util.has_value. destruct (P_Util.set_shape e n v true VN) as [(-> & _)|[(a & x & b & -> & FX & _ & ->)|[_ ->]]]; cbn [snd].
  - tauto.
  - rewrite !in_app_iff. cbn [In].
    assert (N1 : x <> (m ++ "=" ++ u)%string) by (intros ->; exact (P_RunEnv.other m n u VM VN NE FX)).
    assert (N2 : (n ++ "=" ++ v)%string <> (m ++ "=" ++ u)%string).
    { intros X. apply (P_RunEnv.other m n u VM VN NE). rewrite <- X. apply P_RunEnv.named. }
    tauto.
  - rewrite in_app_iff. cbn [In].
    assert (N2 : (n ++ "=" ++ v)%string <> (m ++ "=" ++ u)%string).
    { intros X. apply (P_RunEnv.other m n u VM VN NE). rewrite <- X. apply P_RunEnv.named. }
    tauto.
Qed.
Definition label_var : string := "SECCOMP_POLICY_PATH".
Lemma main_env s p argv envp t' acts lib from same_ids kernel tr envp' : main_run = (M_executes p argv envp t', acts) -> w_fork l = 0 ->
  M_Cli.minijail0 w pre opts args = M_Cli.Go s -> M_Cli.st_preload s = true -> S_Util.distinct (M_Cli.w_environ w) ->
  library L pre lib -> S_Text.all_chars (fun c => c <> " "%char) lib ->
  (forall v, ~ S_CliCalls.env_has w L "__MINIJAIL_FD" v) -> ~ S_CliCalls.env_has w L "LD_PRELOAD" "" ->
  M_Io.run kernel [] (fake_main (w_cfg l) same_ids from envp) = (Returned (Some envp'), tr) ->
  forall n v, S_Util.var_name n -> n <> label_var -> (S_Util.has_value envp' n v <-> S_CliCalls.env_has w L n v).
Proof.
  intros H F0 E PL D LB NS NF NL R n v VN NE. destruct (main_executes _ _ _ _ _ H) as (s' & E' & C). rewrite E in E'. injection E' as <-.
  destruct (launch_program _ _ _ _ _ _ _ _ _ _ F0 C) as (_ & _ & _ & _ & _ & (fd & CE)).
  destruct (P_CliIds.env_given w _ _ _ _ E PL D) as (e & EN & DE & HV).
  rewrite run_preloaded, PL in CE. unfold run_of in CE. rewrite PL, EN in CE. cbn [env_of] in CE.
  destruct (P_MainCli.library_name w _ _ _ _ E PL) as (lb & LB' & JP).
  assert (X : lb = lib). { unfold library in LB. destruct (S_CliCalls.last_arg _ _); congruence. } subst lb. clear LB LB'.
  destruct same_ids; [|discriminate R].
  destruct (P_RunEnv.env_claim (w_cfg l) (M_Cli.c_jail (M_Cli.st_cli s)) (w_default l) fd e) as (e1 & CE1 & K).
  - rewrite JP. exact NS.
  - intros (x & I1 & (u & ->)). apply (NF u). apply HV; [exact P_RunEnv.fd_name|exact I1].
  - intros I1. apply NL. apply HV; [exact P_RunEnv.ld_name|exact I1].
  - rewrite CE in CE1. injection CE1 as <-. destruct (K _ _ _ _ R) as (_ & ->). rewrite <- (HV n v VN).
    destruct (j_seccomp_policy_path _); try tauto. apply set_others; [exact P_RunEnv.sp_name|exact VN|exact NE].
Qed.
Lemma main_env_static s p argv envp t' acts : main_run = (M_executes p argv envp t', acts) -> w_fork l = 0 ->
  M_Cli.minijail0 w pre opts args = M_Cli.Go s -> M_Cli.st_preload s = false -> w_environ l = M_Cli.w_environ w ->
  forall n v, S_Util.var_name n -> n <> label_var -> (S_Util.has_value envp n v <-> S_Util.has_value (M_Cli.w_environ w) n v).
Proof.
  intros H F0 E PL EQ n v VN NE. destruct (main_executes _ _ _ _ _ H) as (s' & E' & C). rewrite E in E'. injection E' as <-.
  destruct (launch_program _ _ _ _ _ _ _ _ _ _ F0 C) as (_ & _ & _ & _ & _ & (fd & CE)).
  rewrite run_preloaded, PL in CE. unfold run_of in CE. rewrite PL in CE. cbn [env_of] in CE. rewrite EQ, P_RunEnv.env_plain in CE. injection CE as <-.
  destruct (j_seccomp_policy_path _); try tauto. apply set_others; [exact P_RunEnv.sp_name|exact VN|exact NE].
Qed.
End Main.

(* both processes *)
Section Both.
Variables (w : M_Cli.world) (l : world) (sigsys : N) (pre : string) (opts : list (N * option string)) (args : list string) (t : table) (answers : list (answer N)).
Notation L := (S_Cli.all_options w opts).
Lemma done_returns s pid r acts : M_Cli.minijail0 w pre opts args = M_Cli.Go s -> pid <> 0 ->
  main w (told l pid) sigsys pre opts args t answers = (r, acts) -> launcher_done r ->
  exists rc m' t' j', call_run (told l pid) (run_of s args) no_results t (M_Cli.c_jail (M_Cli.st_cli s)) = (L_returns rc m' t' j', acts).
Proof.
  intros E P0 H D. unfold main in H. rewrite E in H. cbv zeta in H.
  destruct (call_run (told l pid) (run_of s args) no_results t (M_Cli.c_jail (M_Cli.st_cli s))) as [r1 a] eqn:C.
  pose proof (parent_fates _ _ _ _ _ _ _ C P0) as PF. destruct r1 as [rc m' t' j'| | | | | |]; try contradiction.
  - injection H as _ <-. exists rc, m', t', j'. reflexivity.
  - injection H as <- _. destruct D as [D|[n D]]; discriminate D.
  - injection H as <- _. destruct D as [D|[n D]]; discriminate D.
  - injection H as <- _. destruct D as [D|[n D]]; discriminate D.
Qed.
Lemma main_launched s pid r acts p argv envp tc t1 bytes size piped lost rd same_ids kernel envp' t2 :
  M_Cli.minijail0 w pre opts args = M_Cli.Go s -> M_Cli.st_preload s = true -> same_system w l -> plausible l t -> pid <> 0 ->
  main w (told l pid) sigsys pre opts args t answers = (r, acts) -> launcher_done r -> started_by acts pid -> In (Sent bytes) acts ->
  main w (told l 0) sigsys pre opts args t answers = (M_executes p argv envp tc, [Asked t1]) ->
  let j' := parent_jail (w_parent l) (Some (hd EmptyString args)) pid (M_Cli.c_jail (M_Cli.st_cli s)) in
  c_typed j' -> S_Marshal.nonnull (w_addr l) -> real_errors (w_write l) -> minijail_size (w_addr l) j' = Some size -> (size < 2 ^ 64)%N ->
  bytes = (piped ++ lost)%string ->
  M_Io.run kernel [] (fake_main (w_cfg l) same_ids (fun _ => minijail_from_fd (g_env (w_cfg l)) minijail_new rd piped) envp) = (Returned (Some envp'), t2) ->
  launched (w_cfg l) (w_child l) (w_parent l) (M_Cli.c_calls (M_Cli.st_cli s)) (M_Cli.c_jail (M_Cli.st_cli s)) t1 t2 envp envp'.
Proof.
  intros E PL [SY _] PP P0 H D ST SB HC j' TY NN RE SZ SM EB FM.
  destruct (main_executes _ _ _ _ _ _ _ _ _ _ _ _ _ HC) as (s' & E' & CC). rewrite E in E'. injection E' as <-.
  destruct (done_returns _ _ _ _ E P0 H D) as (rc & m' & t' & j2 & C).
  assert (IL : in_launcher (told l pid)) by exact P0.
  destruct (started_facts _ _ _ _ _ _ _ _ _ _ _ C IL ST) as (st & tt & v & _ & _ & _ & _ & RC & _ & J' & _).
  rewrite run_no_fork in RC. change (w_parent (told l pid)) with (w_parent l) in J'. rewrite run_file in J'. fold j' in J'.
  split; [rewrite SY; exact (P_CliCrash.jail_built w _ _ _ _ E)|]. rewrite <- J' in TY, SZ.
  apply (both_start l (run_of s args) no_results t _ pid rc m' t' j2 acts p argv envp tc t1 bytes size piped lost rd same_ids kernel envp' t2); try assumption.
  rewrite run_preloaded. exact PL.
Qed.
Lemma main_launched_static s p argv envp tc acts :
  M_Cli.minijail0 w pre opts args = M_Cli.Go s -> M_Cli.st_preload s = false -> same_system w l -> plausible l t -> w_fork l = 0 ->
  main w l sigsys pre opts args t answers = (M_executes p argv envp tc, acts) ->
  exists t1, acts = [Asked t1] /\ launched_plain (w_cfg l) (w_child l) true (M_Cli.c_calls (M_Cli.st_cli s)) (M_Cli.c_jail (M_Cli.st_cli s)) t1.
Proof.
  intros E PL [SY _] PP F0 HC.
  destruct (main_executes _ _ _ _ _ _ _ _ _ _ _ _ _ HC) as (s' & E' & CC). rewrite E in E'. injection E' as <-.
  assert (P2 : preloaded (run_of s args) = false) by (rewrite run_preloaded; exact PL).
  destruct (plain_starts _ _ _ _ _ _ _ _ _ _ P2 PP F0 CC) as (t1 & EA & S). exists t1. split; [exact EA|].
  split; [rewrite SY; exact (P_CliCrash.jail_built w _ _ _ _ E)|exact S].
Qed.
Lemma child_of_started f m j pid rp ap q rc m' t' j' ac : pid <> 0 -> call_run (told l pid) f m t j = (rp, ap) -> started_by ap q ->
  call_run (told l 0) f m t j = (L_returns rc m' t' j', ac) -> is_fork f = true.
Proof.
  intros P0 C ST CC. destruct (ready_call _ _ _ _ _ _ _ C P0 (ex_intro _ q ST)) as (st & t1 & j1 & v & a & PR & NS & _).
  change (prepare (told l pid)) with (prepare (told l 0)) in PR. unfold call_run in CC. pose proof (prepare_result (told l 0) (config_of f) j t) as P.
  rewrite PR in CC, P. destruct P as (-> & _). unfold called_in in *. rewrite config_file in *. rewrite NS in CC.
  change (w_fork (told l 0)) with 0 in CC. cbn [Z.ltb Z.compare Z.eqb] in CC.
  destruct (forked_cases _ _ _ _ _ _ _ _ _ CC) as [X|[X|[(_ & _ & l0 & [(X & _)|(st' & t2 & X & _)])|(l0 & st' & elf' & t2 & EA & BE & CS & R)]]]; try discriminate.
  destruct (is_fork f) eqn:FK; [reflexivity|].
  symmetry in R. destruct (exec_cases _ _ _ _ _ _ R) as [(e0 & X & _)|[(p0 & _ & X & _)|(X & _)]]; discriminate.
Qed.
Lemma main_not_executed pid n acts r acts' e : pid <> 0 -> plausible l t -> ~ S_Cli.has L (S_Cli.short "i") -> sigsys <> 6%N ->
  main w (told l pid) sigsys pre opts args t answers = (M_exits n, acts) -> started_by acts pid ->
  main w (told l 0) sigsys pre opts args t answers = (r, acts') -> ending_seen r = Some e -> ended_as answers e ->
  (n = 127%N /\ w_exec l = 2%N) \/ (n = 126%N /\ w_exec l <> 2%N /\ w_exec l <> 0%N) \/ (n = 255%N /\ w_fork2 l < 0) \/ (n = 134%N /\ r = M_aborts).
Proof.
  intros P0 PP NI SS H ST HC ES EA. assert (PP' : plausible (told l pid) t) by exact PP.
  pose proof (main_status _ _ _ _ _ _ _ _ _ _ _ _ H P0 PP' NI ST EA) as NV.
  destruct (main_exits _ _ _ _ _ _ _ _ _ _ H P0) as [(code & _ & _ & ->)|(s & rc & m' & t' & j' & E & C & _)]; [destruct ST|].
  unfold main in HC. rewrite E in HC. cbv zeta in HC.
  destruct (call_run (told l 0) (run_of s args) no_results t (M_Cli.c_jail (M_Cli.st_cli s))) as [rc0 ac] eqn:CC.
  assert (EO : ending_of rc0 = Some e /\ (rc0 = L_dies -> r = M_aborts)).
  { destruct rc0.
    2-7: injection HC as <- _; cbn [ending_seen] in ES; try discriminate ES; (split; [exact ES|intros X; first [reflexivity|discriminate X]]).
    exfalso. pose proof (child_of_started _ _ _ _ _ _ _ _ _ _ _ _ P0 C ST CC) as X. rewrite run_no_fork in X. discriminate X. }
  destruct EO as [EO RA]. destruct EA as (k & rest & _ & PE).
  assert (PID : 0 < pid) by exact (proj1 (started_pid _ _ _ _ _ _ _ _ _ _ PP' P0 C ST)).
  destruct (told_by_wait _ _ _ _ _ _ _ _ sigsys pid k rest CC eq_refl EO SS PID) as (v & W & D).
  rewrite (wait_ended sigsys pid k e rest PID PE) in W. injection W as <-. rewrite <- NV in D. rewrite run_fd in D.
  change (w_exec (told l 0)) with (w_exec l) in D. change (w_fork2 (told l 0)) with (w_fork2 l) in D.
  destruct D as [[A B]|[(A & B & B')|[[A B]|[A B]]]].
  - left. split; [lia|exact B].
  - right. left. split; [lia|]. split; [exact B|exact (B' eq_refl)].
  - right. right. left. split; [lia|exact B].
  - right. right. right. split; [lia|exact (RA B)].
Qed.
End Both.

(* through init *)
Lemma main_status_init w l sigsys pre opts args t answers n acts pid root e lst err rest code :
  main w l sigsys pre opts args t answers = (M_exits n, acts) -> in_launcher l -> plausible l t -> ~ S_Cli.has (S_Cli.all_options w opts) (S_Cli.short "i") ->
  started_by acts pid -> possible e -> ended root e lst -> init root (reaped lst ++ WaitFails err :: rest) = Exits code -> ended_as answers (Exited code) ->
  n = init_code e.
Proof.
  intros H IL PL NI ST PE EN IN EA. pose proof (main_status _ _ _ _ _ _ _ _ _ _ _ _ H IL PL NI ST EA) as NV.
  rewrite (init_done root e lst err rest PE EN) in IN. injection IN as <-. unfold reported_as in NV. lia.
Qed.
