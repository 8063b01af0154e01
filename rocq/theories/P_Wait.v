(* Proofs about waiting and init. *)
From Coq Require Import Lia ZifyN ZifyBool.
From Verif Require Export S_Wait.
Local Open Scope N_scope.

Lemma land_low a k : N.land a (N.ones k) = a mod 2 ^ k.
Proof. apply N.land_ones. Qed.
Lemma termsig_exited c : WTERMSIG (c * 256) = 0.
Proof. unfold WTERMSIG. change 127 with (N.ones 7). rewrite N.land_ones. change (2 ^ 7) with 128. replace (c * 256) with ((c * 2) * 128) by lia. apply N.mod_mul. lia. Qed.
Lemma exitstatus_exited c : c < 256 -> WEXITSTATUS (c * 256) = c.
Proof.
  intros H. unfold WEXITSTATUS. rewrite N.shiftr_land. change (N.shiftr 65280 8) with (N.ones 8).
  rewrite N.land_ones, N.shiftr_div_pow2. change (2 ^ 8) with 256. rewrite N.div_mul by lia. apply N.mod_small, H.
Qed.
Lemma termsig_killed s (b : bool) : 1 <= s <= 64 -> WTERMSIG (s + (if b then 128 else 0)) = s.
Proof.
  intros H. unfold WTERMSIG. change 127 with (N.ones 7). rewrite N.land_ones. change (2 ^ 7) with 128. destruct b.
  - rewrite <- N.add_mod_idemp_r by lia. change (128 mod 128) with 0. rewrite N.add_0_r. apply N.mod_small. lia.
  - rewrite N.add_0_r. apply N.mod_small. lia.
Qed.
Lemma report_status sigsys e : possible e -> report sigsys (status_of e) = reported_as sigsys e.
Proof.
  destruct e as [c|s b]; cbn [possible status_of reported_as]; intros H; unfold report, WIFEXITED, WIFSIGNALED.
  - rewrite termsig_exited, exitstatus_exited by exact H. reflexivity.
  - rewrite termsig_killed by exact H. replace (s =? 0) with false by lia. cbn [negb].
    replace ((1 <=? s) && (s <=? 126)) with true by lia. cbn [negb]. unfold MINIJAIL_ERR_JAIL, MINIJAIL_ERR_SIG_BASE.
    destruct (s =? sigsys); [reflexivity|]. lia.
Qed.
Lemma wait_interrupts sigsys k t : wait_loop sigsys (repeat (inl EINTR) k ++ t) = wait_loop sigsys t.
Proof. induction k as [|k IH]; [reflexivity|]. cbn [repeat app wait_loop]. rewrite N.eqb_refl. exact IH. Qed.
Lemma wait_ended sigsys pid k e rest : (0 < pid)%Z -> possible e ->
  minijail_wait sigsys pid (repeat (inl EINTR) k ++ inr (status_of e) :: rest) = Returns (reported_as sigsys e).
Proof.
  intros P H. unfold minijail_wait, minijail_wait_internal. replace (pid <=? 0)%Z with false by lia.
  rewrite wait_interrupts. cbn [wait_loop]. rewrite report_status by exact H. reflexivity.
Qed.
Lemma wait_returns sigsys pid answers v : (0 < pid)%Z -> minijail_wait sigsys pid answers = Returns v ->
  exists k rest, (exists e, e <> EINTR /\ answers = repeat (inl EINTR) k ++ inl e :: rest /\ v = - Z.of_N e)%Z \/
    (exists st, answers = repeat (inl EINTR) k ++ inr st :: rest /\ v = report sigsys st).
Proof.
  intros P. unfold minijail_wait, minijail_wait_internal. replace (pid <=? 0)%Z with false by lia.
  induction answers as [|[e|st] t IH]; cbn [wait_loop]; intros H.
  - discriminate.
  - destruct (e =? EINTR) eqn:E; cbn [negb] in H.
    + apply N.eqb_eq in E. subst e. destruct (IH H) as (k & rest & [(e & A & B & C)|(st & B & C)]); exists (S k), rest; [left|right].
      * exists e. split; [exact A|]. split; [cbn [repeat app]; f_equal; exact B|exact C].
      * exists st. split; [cbn [repeat app]; f_equal; exact B|exact C].
    + exists 0%nat, t. left. exists e. injection H as <-. apply N.eqb_neq in E. auto.
  - exists 0%nat, t. right. exists st. injection H as <-. auto.
Qed.
Lemma wait_result sigsys pid answers v : (0 < pid)%Z -> Forall (fun a => match a with inl _ => True | inr st => exists e, possible e /\ st = status_of e end) answers ->
  minijail_wait sigsys pid answers = Returns v ->
  (exists e, In (inr (status_of e)) answers /\ possible e /\ v = reported_as sigsys e) \/
  (exists n, In (inl n) answers /\ n <> EINTR /\ v = (- Z.of_N n)%Z).
Proof.
  intros P F H. apply wait_returns in H; [|exact P]. destruct H as (k & rest & [(e & A & B & C)|(st & B & C)]).
  - right. exists e. split; [subst answers; apply in_or_app; right; left; reflexivity|]. auto.
  - left. assert (I1 : In (inr st) answers) by (subst answers; apply in_or_app; right; left; reflexivity).
    rewrite Forall_forall in F. destruct (F _ I1) as (e & Q & ->). exists e. split; [exact I1|]. split; [exact Q|].
    rewrite C. apply report_status, Q.
Qed.
Lemma wait_no_child sigsys pid answers : (pid <= 0)%Z -> minijail_wait sigsys pid answers = Returns (-10).
Proof. intros P. unfold minijail_wait, minijail_wait_internal. replace (pid <=? 0)%Z with true by lia. reflexivity. Qed.
Lemma kill_waits sigsys pid answers : (0 < pid)%Z -> minijail_kill sigsys pid (inr tt) answers = minijail_wait sigsys pid answers.
Proof. intros P. unfold minijail_kill, minijail_wait. replace (pid <=? 0)%Z with false by lia. reflexivity. Qed.

(* ---- init ---- *)
Lemma init_app root st l t : init_loop root st (reaped l ++ t) =
  init_loop root (fold_left (fun s p => if fst p =? root then status_of (snd p) else s) l st) t.
Proof. revert st. induction l as [|[p e] l IH]; intros st; [reflexivity|]. cbn [reaped map app fst snd init_loop fold_left]. apply IH. Qed.
Lemma fold_others root l st : ~ In root (map fst l) ->
  fold_left (fun s p => if fst p =? root then status_of (snd p) else s) l st = st.
Proof.
  revert st. induction l as [|[p e] l IH]; intros st H; [reflexivity|]. cbn [fold_left fst snd]. cbn [map fst In] in H.
  replace (p =? root) with false by (symmetry; apply N.eqb_neq; intros ->; apply H; left; reflexivity). apply IH. intros X. apply H. right. exact X.
Qed.
Lemma fold_ended root e l st : ended root e l ->
  fold_left (fun s p => if fst p =? root then status_of (snd p) else s) l st = status_of e.
Proof.
  intros (l1 & l2 & -> & A & B). rewrite fold_left_app. cbn [fold_left fst snd]. rewrite N.eqb_refl. apply fold_others, B.
Qed.
Lemma init_done root e l err rest : possible e -> ended root e l ->
  init root (reaped l ++ WaitFails err :: rest) = Exits (init_code e).
Proof.
  intros P E. unfold init. rewrite init_app, (fold_ended _ _ _ _ E). cbn [init_loop]. unfold exit_code. f_equal.
  change 255 with (N.ones 8). rewrite N.land_ones. change (2 ^ 8) with 256. unfold WIFEXITED.
  destruct e as [c|s b]; cbn [possible status_of init_code] in *.
  - rewrite termsig_exited, exitstatus_exited by exact P. cbn [N.eqb negb]. apply N.mod_small, P.
  - rewrite termsig_killed by exact P. replace (s =? 0) with false by lia. reflexivity.
Qed.
Lemma init_waits root l : init root (reaped l) = Running.
Proof. unfold init. rewrite <- (app_nil_r (reaped l)), init_app. reflexivity. Qed.
(* The status of the whole, as the caller of minijail_wait sees it. *)
Lemma through_wait sigsys pid root e l err rest code : (0 < pid)%Z -> possible e -> ended root e l ->
  init root (reaped l ++ WaitFails err :: rest) = Exits code ->
  minijail_wait sigsys pid [inr (status_of (Exited code))] = Returns (Z.of_N (init_code e)).
Proof.
  intros P Q E H. rewrite (init_done _ _ _ _ _ Q E) in H. injection H as <-.
  apply (wait_ended sigsys pid 0 (Exited (init_code e)) [] P). destruct e; [exact Q|reflexivity].
Qed.
(* Told to terminate. *)
Lemma init_told root e l rest : possible e -> ended root e l ->
  init root (reaped l ++ Terminate :: rest) =
  Exits (match e with Exited _ => 0 | Killed s core => s + (if core then 128 else 0) end).
Proof.
  intros P E. unfold init. rewrite init_app, (fold_ended _ _ _ _ E). cbn [init_loop]. unfold exit_code. f_equal.
  change 255 with (N.ones 8). rewrite N.land_ones. change (2 ^ 8) with 256. destruct e as [c|s b]; cbn [status_of possible] in *.
  - apply N.mod_mul. lia.
  - apply N.mod_small. destruct b; lia.
Qed.
