(* Proofs about the functions that start programs: the child. *)
From Coq Require Import Lia.
From Verif Require Export P_Wait P_Launch.
Local Open Scope Z_scope.

Lemma run_bind {A B} k (p : io A) (q : A -> io B) : forall past,
  M_Io.run k past (bind p q) =
  match M_Io.run k past p with
  | (Returned a, l) => let (o, l') := M_Io.run k (past ++ l)%list (q a) in (o, (l ++ l')%list)
  | (Died, l) => (Died, l)
  | (Undefined, l) => (Undefined, l)
  end.
Proof.
  induction p as [a| | |c f IH]; intros past; cbn [bind M_Io.run].
  - rewrite app_nil_r. destruct (M_Io.run k past (q a)). reflexivity.
  - reflexivity.
  - reflexivity.
  - rewrite IH. destruct (M_Io.run k (past ++ [(c, k past c)])%list (f (k past c))) as [[a| |] l]; try reflexivity.
    rewrite <- app_assoc. cbn [app]. unfold event in *. destruct (M_Io.run k (past ++ (c, k past c) :: l)%list (q a)). reflexivity.
Qed.
Lemma run_parts k g pre j l l' u u' :
  M_Io.run k [] (bind (when (hasf F_userns j) (enter_user_namespace j)) (fun _ => minijail_enter g (child_jail pre j))) = (Returned u, l) ->
  M_Io.run k l (run_hooks_or_die (child_jail pre j) HOOK_PRE_EXECVE) = (Returned u', l') ->
  M_Io.run k [] (run_child g pre j) = (Returned tt, (l ++ l')%list).
Proof.
  intros A B. unfold run_child. rewrite run_bind in *. destruct (M_Io.run k [] (when _ _)) as [[a| |] l1]; try discriminate.
  rewrite run_bind. destruct (M_Io.run k ([] ++ l1)%list (minijail_enter g (child_jail pre j))) as [[b| |] l2]; try discriminate.
  injection A as _ A. cbn [app] in *. subst l. rewrite B. destruct u'. rewrite app_assoc. reflexivity.
Qed.
Lemma filename_pid n j : set_filename n j = set_initpid (j_initpid j) (set_filename n j).
Proof. destruct j; reflexivity. Qed.
Lemma named_ruleset k n j : with_ruleset k (named n j) = named n (with_ruleset k j).
Proof.
  destruct n as [f|]; [|reflexivity]. cbn [named]. unfold with_ruleset.
  replace (j_fs_rules (set_filename (Own f) j)) with (j_fs_rules j) by reflexivity. destruct (j_fs_rules j); [reflexivity|].
  assert (E : snd (setup_fs_rules_fd k (set_filename (Own f) j)) = set_filename (Own f) (snd (setup_fs_rules_fd k j))).
  { unfold setup_fs_rules_fd, note_abi. cbn [snd]. change (j_fs_rules_landlock_abi (set_filename (Own f) j)) with (j_fs_rules_landlock_abi j). destruct (_ && _); reflexivity. }
  rewrite E. set (j1 := snd (setup_fs_rules_fd k j)). clearbody j1. unfold minijail_preserve_fd.
  change (j_fs_rules_fd (set_filename (Own f) j1)) with (j_fs_rules_fd j1). change (j_preserved_fd_count (set_filename (Own f) j1)) with (j_preserved_fd_count j1).
  destruct (_ || _)%bool; [reflexivity|]. destruct (_ <=? _)%N; reflexivity.
Qed.
Lemma run_child_named g pre k n j : run_child g pre (with_ruleset k (named n j)) = run_child g pre (with_ruleset k j).
Proof.
  rewrite named_ruleset. destruct n as [f|]; [|reflexivity]. cbn [named]. rewrite filename_pid. apply run_child_same.
Qed.

(* how a call goes in the child *)
Lemma child_call w f m t j r acts : call_run w f m t j = (r, acts) -> w_fork w = 0 ->
  (exists rc t', r = L_returns rc m t' (named (file_of f) j) /\ acts = [] /\ rc <> 0) \/ (r = L_dies /\ acts = []) \/
  exists st t1 v, prepare w (config_of f) j t = P_ready st t1 (named (file_of f) j) v /\
    run_refuses (RunConfig (preloaded f) (negb (is_fork f))) j = false /\
    run_forked w (config_of f) st m t1 (named (file_of f) j) v = (r, acts).
Proof.
  unfold call_run. pose proof (prepare_result w (config_of f) j t) as P. intros H F0.
  destruct (prepare w (config_of f) j t) as [|rr st t1 j1|st t1 j1 v].
  - injection H as <- <-. right. left. split; reflexivity.
  - injection H as <- <-. left. destruct P as (R & -> & _). unfold called_in. rewrite config_file. do 2 eexists.
    split; [reflexivity|]. split; [reflexivity|]. destruct R as [->|[->|[-> _]]]; discriminate.
  - destruct P as (-> & _ & _ & HK & CP & _). unfold called_in in *. rewrite config_file in *.
    destruct (negb (hasf F_pids (named (file_of f) j)) && hasf F_userns (named (file_of f) j)) eqn:NS; [injection H as <- <-; right; left; split; reflexivity|].
    rewrite F0 in H. cbn [Z.ltb Z.compare Z.eqb] in H. right. right. exists st, t1, v. split; [reflexivity|]. split; [|exact H].
    unfold run_refuses. cbn [rc_use_preload rc_exec_in_child]. rewrite config_preload, config_exec in HK. rewrite config_preload in CP.
    rewrite !(alike_hasf _ _ _ (alike_named _ _)) in NS. destruct (preloaded f).
    + destruct (HK eq_refl) as [-> ->]. cbn [negb orb]. exact NS.
    + rewrite (CP eq_refl). exact NS.
Qed.

Definition became (w : world) (f : run_call) (j : jail) (l : list event) : Prop :=
  M_Io.run (w_kernel w) [] (run_child (w_cfg w) (preloaded f) (with_ruleset (w_child w) j)) = (Returned tt, l).
Lemma forked_cases w f st m t1 j v r acts : run_forked w (config_of f) st m t1 (named (file_of f) j) v = (r, acts) ->
  (r = L_dies) \/ (r = L_undef) \/
  (is_fork f = false /\ hasf F_pids j = true /\ exists l,
     (r = L_exits 255 /\ acts = [Asked l] /\ w_fork2 w < 0) \/
     (exists st' t2, r = L_inits (init_table st' t2) /\ acts = [Asked l; Forked (w_fork2 w)] /\ 0 < w_fork2 w)) \/
  (exists l st' elf' t2, acts = [Asked l] /\ became w f j l /\
     child_setup (w_lim w) (hasf F_close_open_fds j) (pairs_of (with_ruleset (w_child w) (named (file_of f) j))) (c_elf (config_of f)) (M_Sync.sync_child j) st
       (with_ruleset_fd (w_child w) (w_ruleset w) j t1) = Some (st', elf', t2) /\
     r = (if is_fork f then finish_call (config_of f) 0 st' m t2 (child_jail (preloaded f) (with_ruleset (w_child w) (named (file_of f) j)))
          else M_Launch.exec w (config_of f) v elf' (before_exec st' t2))).
Proof.
  unfold run_forked. cbv zeta.
  assert (AL : alike j (with_ruleset (w_child w) (named (file_of f) j))) by (apply (alike_trans _ (named (file_of f) j)); [apply alike_named|apply alike_ruleset]).
  fold (pairs_of (with_ruleset (w_child w) (named (file_of f) j))).
  replace (with_ruleset_fd (w_child w) (w_ruleset w) (named (file_of f) j) t1) with (with_ruleset_fd (w_child w) (w_ruleset w) j t1)
    by (unfold with_ruleset_fd; rewrite named_rules; reflexivity).
  rewrite (alike_sync _ _ AL), (alike_hasf _ _ F_close_open_fds AL), (alike_hasf _ _ F_pids AL), (alike_hasf _ _ F_do_init AL), (alike_hasf _ _ F_run_as_init AL).
  rewrite config_exec, config_preload.
  destruct (child_setup _ _ _ _ _ _ _) as [[[st' elf'] t2]|]; [|intros H; injection H as <- <-; left; reflexivity].
  assert (BE : forall l l' u u', M_Io.run (w_kernel w) [] (bind (when (hasf F_userns (with_ruleset (w_child w) (named (file_of f) j))) (enter_user_namespace (with_ruleset (w_child w) (named (file_of f) j))))
                 (fun _ => minijail_enter (w_cfg w) (child_jail (preloaded f) (with_ruleset (w_child w) (named (file_of f) j))))) = (Returned u, l) ->
               M_Io.run (w_kernel w) l (run_hooks_or_die (child_jail (preloaded f) (with_ruleset (w_child w) (named (file_of f) j))) HOOK_PRE_EXECVE) = (Returned u', l') ->
               became w f j (l ++ l')%list).
  { intros l l' u u' A B. unfold became. rewrite <- (run_child_named _ _ _ (file_of f)). exact (run_parts _ _ _ _ _ _ _ _ A B). }
  set (jr := with_ruleset (w_child w) (named (file_of f) j)) in *. clearbody jr.
  destruct (M_Io.run (w_kernel w) [] _) as [[u| |] l]; [|intros H; injection H as <- <-; left; reflexivity|intros H; injection H as <- <-; right; left; reflexivity].
  destruct (M_Io.run (w_kernel w) l _) as [o l'] eqn:HK.
  assert (HERE : forall r acts, match o with
                      | Returned _ => (if negb (is_fork f) then M_Launch.exec w (config_of f) v elf' (before_exec st' t2) else finish_call (config_of f) 0 st' m t2 (child_jail (preloaded f) jr), [Asked (l ++ l')])
                      | Died => (L_dies, [Asked (l ++ l')]) | Undefined => (L_undef, [Asked (l ++ l')]) end = (r, acts) ->
                  r = L_dies \/ r = L_undef \/ exists l0 st0 elf0 t0, acts = [Asked l0] /\ became w f j l0 /\ Some (st', elf', t2) = Some (st0, elf0, t0) /\
                    r = (if is_fork f then finish_call (config_of f) 0 st0 m t0 (child_jail (preloaded f) jr) else M_Launch.exec w (config_of f) v elf0 (before_exec st0 t0))).
  { intros r0 acts0 H. destruct o as [u'| |]; injection H as <- <-; [|left; reflexivity|right; left; reflexivity].
    right. right. exists (l ++ l')%list, st', elf', t2. split; [reflexivity|]. split; [exact (BE _ _ _ _ eq_refl HK)|]. split; [reflexivity|].
    destruct (is_fork f); reflexivity. }
  destruct (is_fork f) eqn:FK; cbn [negb andb].
  - intros H. cbn [negb] in HERE. destruct o as [u'| |]; destruct (HERE _ _ H) as [X|[X|X]]; auto.
  - destruct (hasf F_pids j) eqn:PD; cbn [andb].
    + destruct (hasf F_do_init j && negb (hasf F_run_as_init j)).
      * destruct (Z.ltb_spec (w_fork2 w) 0).
        { intros H1. injection H1 as <- <-. right. right. left. split; [reflexivity|]. split; [reflexivity|]. exists l. left. repeat split. assumption. }
        destruct (Z.ltb_spec 0 (w_fork2 w)).
        { intros H1. injection H1 as <- <-. right. right. left. split; [reflexivity|]. split; [reflexivity|]. exists l. right. exists st', t2. repeat split. assumption. }
        intros H1. destruct o as [u'| |]; destruct (HERE _ _ H1) as [X|[X|X]]; auto.
      * intros H1. destruct o as [u'| |]; destruct (HERE _ _ H1) as [X|[X|X]]; auto.
    + intros H1. destruct o as [u'| |]; destruct (HERE _ _ H1) as [X|[X|X]]; auto.
Qed.

Lemma exec_cases w f v elf t r : M_Launch.exec w (config_of f) v elf t = r ->
  (exists e, r = L_exits (if (e =? 2)%N then 127 else 126)%N /\
     ((e = w_exec w /\ e <> 0%N) \/ (w_exec w = 0%N /\ e = 9%N /\ -1 < elf /\ t elf = None))) \/
  (exists p, w_exec w = 0%N /\ r = L_execs p (argv_of f) (match v with Some v => v | None => env_of f (w_environ w) end) (after_exec t) /\
     ((-1 < elf /\ exists x, holds t elf x /\ p = Opened x) \/ (elf <= -1 /\ exists path, file_of f = Some path /\ p = Named path))) \/
  (r = L_undef /\ file_of f = None /\ elf <= -1).
Proof.
  intros <-. unfold M_Launch.exec. cbv zeta. fold (base_env w (config_of f)). rewrite config_env, config_argv, config_file.
  replace (match v with Some v0 => v0 | None => env_of f (w_environ w) end) with (match v with Some v0 => v0 | None => env_of f (w_environ w) end) by reflexivity.
  destruct (N.eqb_spec (w_exec w) 0) as [E|E]; cbn [negb].
  - destruct (Z.ltb_spec (-1) elf) as [L|L].
    + destruct (t elf) as [[x cl]|] eqn:T.
      * right. left. exists (Opened x). split; [exact E|]. split; [reflexivity|]. left. split; [exact L|]. exists x. split; [exists cl; exact T|reflexivity].
      * left. exists 9%N. split; [reflexivity|]. right. repeat split; assumption.
    + destruct (file_of f) as [path|].
      * right. left. exists (Named path). split; [exact E|]. split; [reflexivity|]. right. split; [exact L|]. exists path. split; reflexivity.
      * right. right. repeat split. exact L.
  - left. exists (w_exec w). split; [reflexivity|]. left. split; [reflexivity|exact E].
Qed.
Lemma elf_unset lim ca pairs sync st t st' elf' t' : child_setup lim ca pairs (-1) sync st t = Some (st', elf', t') -> elf' = -1.
Proof.
  rewrite setup_split. unfold middle. destruct (prepare_preserved_fds _ _ _ _) as [[l t1]|]; [|discriminate].
  destruct (avoid_pipe_conflicts _ _ _ _) as [[st2 t2]|]; [|discriminate]. unfold move_end.
  replace (-1 =? -1) with true by reflexivity. destruct (redirect_fds lim l t2) as [t4|]; [|discriminate]. destruct (finish _ _ _ _) as [[a b]|]; [|discriminate].
  intros H. injection H as <- <- <-. reflexivity.
Qed.
Lemma file_or_fd f : is_fork f = false -> (exists path, file_of f = Some path /\ fd_of f = None) \/ (exists fd, file_of f = None /\ fd_of f = Some fd).
Proof. destruct f; intros H; try discriminate; (left; eexists; split; reflexivity) || (right; eexists; split; reflexivity). Qed.
Lemma child_env_named pre d fd n j e : child_env pre d fd (named n j) e = child_env pre d fd j e.
Proof. destruct n; [|reflexivity]. unfold child_env, setup_seccomp_policy_path, setup_preload. destruct j. reflexivity. Qed.

(* The child that executes a program. *)
Lemma child_execs w f m t j p argv v t' acts : call_run w f m t j = (L_execs p argv v t', acts) -> w_fork w = 0 ->
  is_fork f = false /\ argv = argv_of f /\ w_exec w = 0%N /\
  run_refuses (RunConfig (preloaded f) true) j = false /\
  (exists l, acts = [Asked l] /\ became w f j l) /\
  (forall path, file_of f = Some path -> p = Named path) /\
  (exists fd, child_env (preloaded f) (w_default w) fd j (env_of f (w_environ w)) = Some v) /\
  (exists st t1 st' elf' t2,
     open_pipes (w_lim w) (preloaded f) (given (in_var f)) (given (out_var f)) (given (err_var f)) (M_Sync.sync_child j) (w_base w) t = Some (st, t1) /\
     child_setup (w_lim w) (hasf F_close_open_fds j) (pairs_of (with_ruleset (w_child w) (named (file_of f) j))) (c_elf (config_of f)) (M_Sync.sync_child j) st
       (with_ruleset_fd (w_child w) (w_ruleset w) j t1) = Some (st', elf', t2) /\ t' = at_start st' t2 /\
     (forall fd, fd_of f = Some fd -> exists x, p = Opened x /\ holds (before_exec st' t2) elf' x)).
Proof.
  intros CALL F0. destruct (child_call _ _ _ _ _ _ _ CALL F0) as [(rc & t1 & X & _)|[(X & _)|(st & t1 & e & PR & RR & RF)]]; [discriminate|discriminate|].
  destruct (forked_cases _ _ _ _ _ _ _ _ _ RF) as [X|[X|[(_ & _ & l & [(X & _)|(st' & t2 & X & _)])|(l & st' & elf' & t2 & EA & BE & CS & R)]]]; try discriminate.
  destruct (is_fork f) eqn:FK; [unfold finish_call in R; destruct (parent_result _ _ _ _ _) as [[[? ?] ?] ?]; discriminate|].
  symmetry in R. destruct (exec_cases _ _ _ _ _ _ R) as [(e0 & X & _)|[(p0 & W0 & X & IM)|(X & _)]]; try discriminate. injection X as -> -> -> ->.
  split; [reflexivity|]. split; [reflexivity|]. split; [exact W0|]. split; [exact RR|]. split; [exists l; split; assumption|].
  pose proof (prepare_result w (config_of f) j t) as P. rewrite PR in P. destruct P as (_ & _ & OP & _ & _ & _ & EV).
  rewrite config_preload, config_in, config_out, config_err, (alike_sync _ _ (alike_named _ _)) in OP.
  unfold called_in in EV. rewrite config_preload, config_env, child_env_named in EV.
  split.
  { intros path FP. destruct (file_or_fd f FK) as [(path' & FP' & FD)|(fd & FP' & _)]; [|congruence].
    rewrite config_elf, FD in CS. apply elf_unset in CS. destruct IM as [(L & _)|(_ & path1 & FP1 & ->)]; [lia|congruence]. }
  split.
  { destruct e as [v|]; [exists (Z.to_N (fst (rs_pipe st))); exact EV|]. destruct EV as [-> LB]. exists 0%N. unfold child_env. unfold labelled in LB.
    destruct (j_seccomp_policy_path j); first [discriminate|reflexivity]. }
  exists st, t1, st', elf', t2. split; [exact OP|]. split; [exact CS|]. split; [reflexivity|].
  intros fd FD. destruct IM as [(L & x & HX & ->)|(L & path & FP & _)]; [exists x; split; [reflexivity|exact HX]|].
  destruct (file_or_fd f FK) as [(path' & _ & FD')|(fd' & FP' & _)]; congruence.
Qed.
(* The environment of a program without the library and without a policy for it. *)
Lemma plain_env d fd j e v : child_env false d fd j e = Some v -> labelled j = false -> v = e.
Proof. unfold child_env, labelled. destruct (j_seccomp_policy_path j); intros H L; try discriminate L; injection H as <-; reflexivity. Qed.

(* The child that minijail_fork returns in. *)
Lemma child_returns w f m t j rc m' t' j' acts : call_run w f m t j = (L_returns rc m' t' j', acts) -> w_fork w = 0 -> acts <> [] ->
  f = Fork /\ rc = 0 /\ m' = m /\ run_refuses (RunConfig false false) j = false /\ exists l, acts = [Asked l] /\ became w f j l.
Proof.
  intros CALL F0 NE. destruct (child_call _ _ _ _ _ _ _ CALL F0) as [(r & t1 & X & EA & _)|[(X & _)|(st & t1 & e & PR & RR & RF)]]; [contradiction|discriminate|].
  destruct (forked_cases _ _ _ _ _ _ _ _ _ RF) as [X|[X|[(_ & _ & l & [(X & _)|(st' & t2 & X & _)])|(l & st' & elf' & t2 & EA & BE & CS & R)]]]; try discriminate.
  destruct (is_fork f) eqn:FK.
  - destruct f; try discriminate. split; [reflexivity|]. unfold finish_call in R. cbn in R. injection R as -> -> _ _.
    split; [reflexivity|]. split; [reflexivity|]. split; [exact RR|]. exists l. split; assumption.
  - symmetry in R. destruct (exec_cases _ _ _ _ _ _ R) as [(e0 & X & _)|[(p0 & _ & X & _)|(X & _)]]; discriminate.
Qed.
(* The child that gives up with an exit code. *)
Lemma child_exits w f m t j code acts : call_run w f m t j = (L_exits code, acts) -> w_fork w = 0 ->
  is_fork f = false /\
  ((exists l, acts = [Asked l] /\ became w f j l /\
     ((code = 127 /\ w_exec w = 2) \/ (code = 126 /\ w_exec w <> 2 /\ (fd_of f = None -> w_exec w <> 0)))%N) \/
   (code = 255%N /\ w_fork2 w < 0 /\ hasf F_pids j = true)).
Proof.
  intros CALL F0. destruct (child_call _ _ _ _ _ _ _ CALL F0) as [(r & t1 & X & EA & _)|[(X & _)|(st & t1 & e & PR & RR & RF)]]; [discriminate|discriminate|].
  destruct (forked_cases _ _ _ _ _ _ _ _ _ RF) as [X|[X|[(FK & HP & l & [(X & _ & L)|(st' & t2 & X & _)])|(l & st' & elf' & t2 & EA & BE & CS & R)]]]; try discriminate.
  - injection X as ->. split; [exact FK|]. right. repeat split; assumption.
  - destruct (is_fork f) eqn:FK; [unfold finish_call in R; destruct (parent_result _ _ _ _ _) as [[[? ?] ?] ?]; discriminate|].
    split; [reflexivity|]. left. exists l. split; [exact EA|]. split; [exact BE|].
    symmetry in R. destruct (exec_cases _ _ _ _ _ _ R) as [(e0 & X & WH)|[(p0 & _ & X & _)|(X & _)]]; try discriminate. injection X as ->.
    destruct WH as [(-> & NZ)|(W0 & -> & L & T)].
    + destruct (N.eqb_spec (w_exec w) 2); [left; split; [reflexivity|assumption]|right; repeat split; auto].
    + right. split; [reflexivity|]. split; [rewrite W0; discriminate|]. intros FD. rewrite config_elf, FD in CS. apply elf_unset in CS. lia.
Qed.

(* ---- both processes together ---- *)
Lemma sent_by w c pid st m t j rc m' t' j' acts b : run_parent w c pid st m t j = (L_returns rc m' t' j', acts) -> In (Sent b) acts ->
  exists r n, minijail_to_fd (w_addr w) j' (w_fuel w) (w_write w) = Some (Wrote r b n).
Proof.
  unfold run_parent. cbv zeta. set (j1 := set_initpid pid (with_ruleset (w_parent w) j)). clearbody j1.
  destruct (set_up w _) as [ok a] eqn:E. apply set_up_acts in E. rewrite Forall_forall in E.
  assert (NS : ~ In (Sent b) a) by (intros X; destruct (E _ X) as (? & ? & Y); discriminate).
  destruct ok; cbn [negb]; [|discriminate]. destruct (if M_Sync.sync_child j1 then _ else _) as [st1 t1].
  destruct (negb (c_preload c)); [unfold finish_call; destruct (parent_result _ _ _ _ _) as [[[i o] e] t2]; intros H; injection H as _ _ _ _ <-; contradiction|].
  destruct (minijail_to_fd (w_addr w) j1 (w_fuel w) (w_write w)) as [[r bytes n|]|] eqn:TF; [|discriminate|discriminate].
  unfold finish_call. destruct (parent_result _ _ _ _ _) as [[[i o] e] t2]. intros H I. injection H as _ _ _ <- <-.
  apply in_app_iff in I. destruct I as [I|[I|I]]; [contradiction| |destruct (r =? 0); [destruct I|destruct I as [I|[]]; discriminate]].
  injection I as ->. exists r, n. exact TF.
Qed.
Lemma call_sends w f m t j rc m' t' j' acts pid b : call_run w f m t j = (L_returns rc m' t' j', acts) -> in_launcher w -> started_by acts pid ->
  In (Sent b) acts -> exists r n, minijail_to_fd (w_addr w) j' (w_fuel w) (w_write w) = Some (Wrote r b n).
Proof.
  intros C L S I. destruct (ready_call _ _ _ _ _ _ _ C L (ex_intro _ _ S)) as (st & t1 & j1 & v & a & _ & _ & _ & R & ->).
  destruct I as [I|I]; [discriminate|]. exact (sent_by _ _ _ _ _ _ _ _ _ _ _ _ _ R I).
Qed.
Lemma both_start w f m t j pid rc m' t' j' acts p argv envp tc t1 bytes size piped lost r same_ids kernel envp' t2 :
  preloaded f = true -> plausible w t -> pid <> 0 ->
  call_run (told w pid) f m t j = (L_returns rc m' t' j', acts) -> rc = 0 -> In (Sent bytes) acts ->
  call_run (told w 0) f m t j = (L_execs p argv envp tc, [Asked t1]) ->
  c_typed j' -> S_Marshal.nonnull (w_addr w) -> real_errors (w_write w) -> minijail_size (w_addr w) j' = Some size -> (size < 2 ^ 64)%N ->
  bytes = (piped ++ lost)%string ->
  M_Io.run kernel [] (fake_main (w_cfg w) same_ids (fun _ => minijail_from_fd (g_env (w_cfg w)) minijail_new r piped) envp) = (Returned (Some envp'), t2) ->
  starts (w_cfg w) (w_child w) (w_parent w) j t1 t2 envp envp'.
Proof.
  intros PL (K1 & K2 & _) P0 CL RC SB CC TY NN RE SZ SM -> FM.
  assert (IL : in_launcher (told w pid)) by exact P0.
  destruct (child_execs _ _ _ _ _ _ _ _ _ _ CC eq_refl) as (NF & _ & _ & RR & (l & EA & BE) & _). injection EA as ->.
  destruct (proj1 (call_codes _ _ _ _ _ _ _ _ _ _ CL IL NF) RC) as [q ST].
  destruct (started_facts _ _ _ _ _ _ _ _ _ _ _ CL IL ST) as (st & tt1 & v & _ & PQ & _ & _ & _ & _ & J' & _).
  destruct (call_sends _ _ _ _ _ _ _ _ _ _ _ _ CL IL ST SB) as (r0 & n & TF).
  unfold became in BE. rewrite PL in *.
  split; [exact K2|]. split; [exact K1|]. split; [exact RR|]. split; [exists (w_kernel w); exact BE|].
  exists (file_of f), q, (w_addr w), (w_fuel w), (w_write w), (Wrote r0 (piped ++ lost) n), size, piped, lost, r, same_ids, kernel.
  change (w_parent (told w pid)) with (w_parent w) in J'. rewrite <- J'. cbv zeta.
  split; [exact TY|]. split; [exact NN|]. split; [exact RE|]. split; [exact SZ|]. split; [exact SM|]. split; [exact TF|]. split; [reflexivity|exact FM].
Qed.
Lemma plain_starts w f m t j p argv envp tc acts : preloaded f = false -> plausible w t -> w_fork w = 0 ->
  call_run w f m t j = (L_execs p argv envp tc, acts) -> exists l, acts = [Asked l] /\ starts_plain (w_cfg w) (w_child w) true j l.
Proof.
  intros PL (_ & K & _) F0 CC. destruct (child_execs _ _ _ _ _ _ _ _ _ _ CC F0) as (_ & _ & _ & RR & (l & EA & BE) & _). unfold became in BE. rewrite PL in *.
  exists l. split; [exact EA|]. split; [exact K|]. split; [exact RR|]. exists (w_kernel w). exact BE.
Qed.
Lemma forked_starts w f m t j rc m' t' j' acts : plausible w t -> w_fork w = 0 -> acts <> [] ->
  call_run w f m t j = (L_returns rc m' t' j', acts) -> f = Fork /\ rc = 0 /\ m' = m /\ exists l, acts = [Asked l] /\ starts_plain (w_cfg w) (w_child w) false j l.
Proof.
  intros (_ & K & _) F0 NE CC. destruct (child_returns _ _ _ _ _ _ _ _ _ _ CC F0 NE) as (-> & R & M & RR & l & EA & BE). unfold became in BE. cbn [preloaded] in BE.
  split; [reflexivity|]. split; [exact R|]. split; [exact M|]. exists l. split; [exact EA|]. split; [exact K|]. split; [exact RR|]. exists (w_kernel w). exact BE.
Qed.
(* the descriptors and the program given by one, without file access rules *)
Section descriptors.
Variables (w : world) (f : run_call) (m : memory) (t : table) (j : jail) (p : M_Launch.image) (argv : list string) (envp : env) (tc : table) (acts : list act).
Hypothesis CC : call_run w f m t j = (L_execs p argv envp tc, acts).
Hypothesis F0 : w_fork w = 0.
Hypothesis WELL : well_prepared w f t j.
Lemma descriptors : exists st t1 st' elf' t2, let sin := given (in_var f) in let sout := given (out_var f) in let serr := given (err_var f) in
  let elf := match fd_of f with Some fd => fd | None => -1 end in
  started (w_lim w) (preloaded f) sin sout serr (M_Sync.sync_child j) (w_base w) (pairs_of j) elf t st t1 /\
  child_setup (w_lim w) (hasf F_close_open_fds j) (pairs_of j) elf (M_Sync.sync_child j) st t1 = Some (st', elf', t2) /\ tc = at_start st' t2 /\
  (forall fd, fd_of f = Some fd -> exists x, p = Opened x /\ holds (before_exec st' t2) elf' x).
Proof.
  destruct (child_execs _ _ _ _ _ _ _ _ _ _ CC F0) as (NF & _ & _ & _ & _ & _ & _ & st & t1 & st' & elf' & t2 & OP & CS & TC & IM).
  destruct WELL as (NR & ST & _). exists st, t1, st', elf', t2. split; [exact (ST st t1 OP)|]. split; [|split; [exact TC|exact IM]].
  assert (PN : pairs_of (with_ruleset (w_child w) (named (file_of f) j)) = pairs_of j).
  { unfold with_ruleset. rewrite named_rules, NR. unfold named. destruct (file_of f); reflexivity. }
  rewrite PN in CS. unfold with_ruleset_fd in CS. rewrite NR in CS. rewrite config_elf in CS. exact CS.
Qed.
Lemma opened_program fd x : fd_of f = Some fd -> holds t fd x -> ~ In fd (map fst (pairs_of j)) -> ~ In fd [0; 1; 2] -> p = Opened x.
Proof.
  intros FD HX N1 N2. destruct descriptors as (st & t1 & st' & elf' & t2 & S & CS & _ & IM). cbv zeta in S, CS. rewrite FD in *. destruct (IM fd eq_refl) as (y & -> & HY).
  destruct WELL as (_ & _ & VC & SO).
  destruct (fds_program _ _ _ _ _ _ _ _ _ _ _ _ _ _ _ _ _ S CS VC SO N1 N2 HX) as (b & HB). destruct HY as (b' & HY). rewrite HB in HY. injection HY as -> _. reflexivity.
Qed.
Lemma program_streams : (in_var f <> None -> tc 0 = Some (w_base w + 2, false)%N) /\ (out_var f <> None -> tc 1 = Some (w_base w + 5, false)%N) /\
  (err_var f <> None -> tc 2 = Some (w_base w + 7, false)%N).
Proof.
  destruct descriptors as (st & t1 & st' & elf' & t2 & S & CS & -> & _). destruct WELL as (_ & _ & VC & SO).
  destruct (fds_streams _ _ _ _ _ _ _ _ _ _ _ _ _ _ _ _ S CS VC SO) as (A & B & C).
  split; [|split]; intros N; [apply A|apply B|apply C]; [destruct (in_var f)|destruct (out_var f)|destruct (err_var f)]; reflexivity || contradiction.
Qed.
Lemma program_passed a c x : In (a, c) (pairs_of j) -> holds t a x -> ~ piped (given (in_var f)) (given (out_var f)) (given (err_var f)) c -> tc c = Some (x, false).
Proof.
  intros I H N. destruct descriptors as (st & t1 & st' & elf' & t2 & S & CS & -> & _). exact (arrive _ _ _ _ _ _ _ _ _ _ _ _ S _ st' elf' t2 CS a c x I H N).
Qed.
Lemma program_only n x : hasf F_close_open_fds j = true -> holds tc n x ->
  (exists a, In (a, n) (pairs_of j) /\ holds t a x) \/
  (piped (given (in_var f)) (given (out_var f)) (given (err_var f)) n /\ (x = w_base w + 2 \/ x = w_base w + 5 \/ x = w_base w + 7)%N) \/
  (exists fd, fd_of f = Some fd /\ holds t fd x) \/ (preloaded f = true /\ x = w_base w).
Proof.
  intros CA H. destruct descriptors as (st & t1 & st' & elf' & t2 & S & CS & -> & _). cbv zeta in S, CS.
  destruct (fds_only _ _ _ _ _ _ _ _ _ _ _ _ _ _ _ _ n x S CS H) as [X|[X|[(_ & E & X)|[(X & _ & Y)|(X & _)]]]]; auto.
  - right. right. left. destruct (fd_of f) as [fd|]; [exists fd; split; [reflexivity|exact X]|contradiction].
  - rewrite CA in X. discriminate X.
Qed.
End descriptors.

(* ---- what waiting for it reports ---- *)
Lemma ending_possible w f m t j r acts e : call_run w f m t j = (r, acts) -> w_fork w = 0 -> ending_of r = Some e -> possible e.
Proof.
  intros CC F0 E. destruct r; try discriminate; cbn in E; injection E as <-; [cbn; split; discriminate|].
  destruct (child_exits _ _ _ _ _ _ _ CC F0) as (_ & [(l & _ & _ & [(-> & _)|(-> & _)])|(-> & _)]); reflexivity.
Qed.
Lemma told_by_wait w f m t j r acts e sigsys pid k rest : call_run w f m t j = (r, acts) -> w_fork w = 0 -> ending_of r = Some e -> (sigsys <> 6)%N -> 0 < pid ->
  exists v, minijail_wait sigsys pid (repeat (inl M_Wait.EINTR) k ++ inr (status_of e) :: rest) = Returns v /\
  ((v = 127 /\ w_exec w = 2%N) \/ (v = 126 /\ w_exec w <> 2%N /\ (fd_of f = None -> w_exec w <> 0%N)) \/ (v = 255 /\ w_fork2 w < 0) \/ (v = 134 /\ r = L_dies)).
Proof.
  intros CC F0 E SS P. exists (reported_as sigsys e). split; [apply wait_ended; [exact P|exact (ending_possible _ _ _ _ _ _ _ _ CC F0 E)]|].
  destruct r; try discriminate; cbn in E; injection E as <-.
  - right. right. right. unfold reported_as. destruct (N.eqb_spec 6 sigsys) as [X|_]; [exfalso; apply SS; symmetry; exact X|]. split; reflexivity.
  - destruct (child_exits _ _ _ _ _ _ _ CC F0) as (_ & [(l & _ & _ & [(-> & X)|(-> & X)])|(-> & X & _)]); cbn; auto.
Qed.
Lemma told_through_init w f m t j r acts e sigsys pid root l err rest code : call_run w f m t j = (r, acts) -> w_fork w = 0 -> 0 <= w_fork2 w -> ending_of r = Some e -> 0 < pid ->
  ended root e l -> init root (reaped l ++ WaitFails err :: rest) = Exits code ->
  exists v, minijail_wait sigsys pid [inr (status_of (Exited code))] = Returns v /\
  ((v = 127 /\ w_exec w = 2%N) \/ (v = 126 /\ w_exec w <> 2%N /\ (fd_of f = None -> w_exec w <> 0%N)) \/ (v = 254 /\ r = L_dies)).
Proof.
  intros CC F0 F2 E P EN IN. pose proof (ending_possible _ _ _ _ _ _ _ _ CC F0 E) as PO.
  exists (Z.of_N (init_code e)). split; [exact (through_wait _ _ _ _ _ _ _ _ P PO EN IN)|].
  destruct r; try discriminate; cbn in E; injection E as <-.
  - right. right. split; reflexivity.
  - destruct (child_exits _ _ _ _ _ _ _ CC F0) as (_ & [(l0 & _ & _ & [(-> & X)|(-> & X)])|(-> & X & _)]); cbn; auto. lia.
Qed.

(* ---- in the form of the theorems ---- *)
Lemma launch_failed : forall w f m t j rc m' t' j' acts, in_launcher w ->
  call_run w f m t j = (L_returns rc m' t' j', acts) -> nothing_started acts ->
  rc <> 0 /\ (forall x, t' x = t x) /\ m' = m /\ (forall e, used e j [Failed (file_of f)] j').
Proof.
  intros w f m t j rc m' t' j' acts L C NS. destruct (call_failed _ _ _ _ _ _ _ _ _ _ C L NS) as (T & M & -> & R).
  split; [destruct R as [->|[->|[-> _]]]; discriminate|]. split; [exact T|]. split; [exact M|]. intros e. constructor. constructor.
Qed.
Lemma launch_started : forall w f m t j rc m' t' j' acts pid, in_launcher w -> plausible w t -> NoDup (vars f) ->
  call_run w f m t j = (L_returns rc m' t' j', acts) -> started_by acts pid ->
  0 < pid /\ rc = (if is_fork f then pid else 0) /\
  (forall a, pid_var f = Some a -> m' a = pid) /\ (forall a, ~ In a (vars f) -> m' a = m a) /\
  used (g_env (w_cfg w)) j [Ran (file_of f) pid] j' /\ j_initpid j' = pid.
Proof.
  intros w f m t j rc m' t' j' acts pid L (K & _ & _) ND C S.
  destruct (started_facts _ _ _ _ _ _ _ _ _ _ _ C L S) as (_ & _ & _ & _ & _ & P & _ & R & _ & J & _).
  destruct (started_results _ _ _ _ _ _ _ _ _ _ _ C L S ND) as [A B].
  split; [exact P|]. split; [exact R|]. split; [exact A|]. split; [exact B|]. rewrite J. split; [|reflexivity].
  apply u_ran with (ep := w_parent w); [exact K|constructor].
Qed.
Lemma launch_descriptors : forall w f m t j rc m' t' j' acts pid, in_launcher w -> plausible w t -> NoDup (vars f) ->
  new_ruleset w f j t -> (forall x, entered j x -> t x <> None) ->
  call_run w f m t j = (L_returns rc m' t' j', acts) -> started_by acts pid ->
  (forall a, in_var f = Some a -> t (m' a) = None /\ t' (m' a) = Some (w_base w + 3, false)%N) /\
  (forall a, out_var f = Some a -> t (m' a) = None /\ t' (m' a) = Some (w_base w + 4, false)%N) /\
  (forall a, err_var f = Some a -> t (m' a) = None /\ t' (m' a) = Some (w_base w + 6, false)%N) /\
  (forall x, entered j x -> t' x = None) /\
  (j_fs_rules j <> [] -> 0 <= k_landlock_fd (w_parent w) -> t' (k_landlock_fd (w_parent w)) = Some (w_ruleset w, true)) /\
  (forall x, t' x = t x \/ (exists a, In (Some a) [in_var f; out_var f; err_var f] /\ m' a = x) \/ entered j x \/
             (j_fs_rules j <> [] /\ x = k_landlock_fd (w_parent w))).
Proof. intros w f m t j rc m' t' j' acts pid L P ND NR EN C S. exact (started_streams w f m t j rc m' t' j' acts pid C L S ND P NR EN). Qed.
Lemma launch_program : forall w f m t j p argv envp t' acts, w_fork w = 0 ->
  call_run w f m t j = (L_execs p argv envp t', acts) ->
  is_fork f = false /\ argv = argv_of f /\ w_exec w = 0%N /\
  (forall path, file_of f = Some path -> p = Named path) /\
  (preloaded f = false -> labelled j = false -> envp = env_of f (w_environ w)) /\
  (exists fd, child_env (preloaded f) (w_default w) fd j (env_of f (w_environ w)) = Some envp).
Proof.
  intros w f m t j p argv envp t' acts F0 C. destruct (child_execs _ _ _ _ _ _ _ _ _ _ C F0) as (A & B & D & _ & _ & E & G & _).
  split; [exact A|]. split; [exact B|]. split; [exact D|]. split; [exact E|]. split; [|exact G].
  intros PL LB. destruct G as (fd & G). rewrite PL in G. exact (plain_env _ _ _ _ _ G LB).
Qed.
Lemma launch_in_jail : forall w f m t j u pid m' t' j' acts p argv envp tc t1 bytes size piped lost r same_ids kernel envp' t2,
  preloaded f = true -> plausible w t -> pid <> 0 -> used (g_env (w_cfg w)) minijail_new u j ->
  call_run (told w pid) f m t j = (L_returns 0 m' t' j', acts) -> In (Sent bytes) acts ->
  call_run (told w 0) f m t j = (L_execs p argv envp tc, [Asked t1]) ->
  c_typed j' -> S_Marshal.nonnull (w_addr w) -> real_errors (w_write w) -> minijail_size (w_addr w) j' = Some size -> (size < 2 ^ 64)%N ->
  bytes = (piped ++ lost)%string ->
  M_Io.run kernel [] (fake_main (w_cfg w) same_ids (fun _ => minijail_from_fd (g_env (w_cfg w)) minijail_new r piped) envp) = (Returned (Some envp'), t2) ->
  relaunched (w_cfg w) (w_child w) (w_parent w) u j t1 t2 envp envp' /\
  forall c, wants (w_cfg w) (calls u) c -> ~ (is_own_init (calls u) /\ on_proc c) -> worked c (t1 ++ t2).
Proof.
  intros w f m t j u pid m' t' j' acts p argv envp tc t1 bytes size piped lost r same_ids kernel envp' t2 PL PP P0 U CL SB CC TY NN RE SZ SM EB FM.
  assert (R : relaunched (w_cfg w) (w_child w) (w_parent w) u j t1 t2 envp envp').
  { split; [exact U|]. exact (both_start w f m t j pid 0 m' t' j' acts p argv envp tc t1 bytes size piped lost r same_ids kernel envp' t2 PL PP P0 CL eq_refl SB CC TY NN RE SZ SM EB FM). }
  split; [exact R|]. exact (again_applied _ _ _ _ _ _ _ _ _ R).
Qed.
Lemma launch_plain : forall w f m t j u p argv envp tc acts, preloaded f = false -> plausible w t -> w_fork w = 0 ->
  used (g_env (w_cfg w)) minijail_new u j -> call_run w f m t j = (L_execs p argv envp tc, acts) ->
  exists l, acts = [Asked l] /\ relaunched_plain (w_cfg w) (w_child w) true u j l /\
  forall c, wants (w_cfg w) (calls u) c -> ~ (is_own_init (calls u) /\ on_proc c) -> worked c l.
Proof.
  intros w f m t j u p argv envp tc acts PL PP F0 U C. destruct (plain_starts _ _ _ _ _ _ _ _ _ _ PL PP F0 C) as (l & EA & S).
  assert (R : relaunched_plain (w_cfg w) (w_child w) true u j l) by (split; assumption).
  exists l. split; [exact EA|]. split; [exact R|]. exact (again_plain_applied _ _ _ _ _ _ R).
Qed.
Lemma launch_forked : forall w f m t j u rc m' t' j' acts, plausible w t -> w_fork w = 0 -> acts <> [] ->
  used (g_env (w_cfg w)) minijail_new u j -> call_run w f m t j = (L_returns rc m' t' j', acts) ->
  f = Fork /\ rc = 0 /\ m' = m /\ exists l, acts = [Asked l] /\ relaunched_plain (w_cfg w) (w_child w) false u j l /\
  forall c, wants (w_cfg w) (calls u) c -> ~ (is_own_init (calls u) /\ on_proc c) -> worked c l.
Proof.
  intros w f m t j u rc m' t' j' acts PP F0 NE U C. destruct (forked_starts _ _ _ _ _ _ _ _ _ _ PP F0 NE C) as (A & B & D & l & EA & S).
  split; [exact A|]. split; [exact B|]. split; [exact D|].
  assert (R : relaunched_plain (w_cfg w) (w_child w) false u j l) by (split; assumption).
  exists l. split; [exact EA|]. split; [exact R|]. exact (again_plain_applied _ _ _ _ _ _ R).
Qed.
