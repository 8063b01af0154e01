(* Proofs: file access rules and propagation modes (C43, C53). *)
From Verif Require Export P_Order P_Mount S_Rules.
Local Open Scope N_scope.
Local Open Scope io_scope.

(* The calls of kind K are those of one stretch of the run. *)
Definition foc {A} (K : call -> bool) (spec : list event -> Prop) (p : io A) : Prop :=
  forall t o, does p t o -> exists a m z, t = a ++ m ++ z /\
    only (fun c => negb (K c)) a /\ only (fun c => negb (K c)) z /\ (m = [] \/ spec m).
Lemma foc_pre {A B} K spec (p : io A) (f : A -> io B) :
  no_PQ K p -> (forall a, foc K spec (f a)) -> foc K spec (bind p f).
Proof.
  intros H1 H2 t o E. destruct (exec_bind _ _ _ _ E) as [(u & v & a & -> & E1 & E2)|X].
  - destruct (H2 a _ _ E2) as (x & m & z & -> & O1 & O2 & M). exists (u ++ x), m, z. rewrite List.app_assoc. split; auto.
    split; auto. apply only_app; auto. exact (only_of _ _ _ _ H1 E1).
  - assert (O : only (fun c => negb (K c)) t).
    { destruct X as [[_ X]|[_ X]]; exact (only_of _ _ _ _ H1 X). }
    exists t, [], []. rewrite !List.app_nil_r. repeat split; auto. apply only_nil.
Qed.
Lemma foc_post {A B} K spec (p : io A) (f : A -> io B) :
  foc K spec p -> (forall a, no_PQ K (f a)) -> foc K spec (bind p f).
Proof.
  intros H1 H2 t o E. destruct (exec_bind _ _ _ _ E) as [(u & v & a & -> & E1 & E2)|X].
  - destruct (H1 _ _ E1) as (x & m & z & -> & O1 & O2 & M). exists x, m, (z ++ v). rewrite <- !List.app_assoc.
    split; auto. split; auto. split; auto. apply only_app; auto. exact (only_of _ _ _ _ (H2 a) E2).
  - destruct X as [[_ X]|[_ X]]; exact (H1 _ _ X).
Qed.
Lemma foc_none {A} K spec (p : io A) : no_PQ K p -> foc K spec p.
Proof.
  intros H t o E. exists t, [], []. rewrite !List.app_nil_r. repeat split; auto; [exact (only_of _ _ _ _ H E)|apply only_nil].
Qed.

(* ---- rules ---- *)
Lemma rule_run path ruleset access t o :
  does (populate_ruleset_internal path ruleset access) t o ->
  o = Returned tt /\ rule_calls ruleset (FsRule path access) t.
Proof.
  unfold populate_ruleset_internal. intros (x & t1 & -> & E). destruct x as [fd z|e]; cbn [bind] in E.
  - destruct E as (x & t2 & -> & E). destruct x as [mode z'|e]; cbn in E.
    + destruct E as (y & t3 & -> & E). destruct E as (w & t4 & -> & -> & ->). split; auto.
      apply (rule_add ruleset (FsRule path access) fd z mode z' y w).
    + destruct E as (w & t4 & -> & -> & ->). split; auto. apply (rule_no_type ruleset (FsRule path access)).
  - destruct E as [-> ->]. split; auto. apply (rule_no_path ruleset (FsRule path access)).
Qed.
Definition rules_calls (ruleset : Z) (l : list fs_rule) (t : list event) : Prop :=
  exists segs, t = concat segs /\ Forall2 (rule_calls ruleset) l segs.
Lemma rules_run ruleset : forall l t o, does (populate_all ruleset l) t o ->
  o = Returned tt /\ rules_calls ruleset l t.
Proof.
  induction l as [|r l IH]; intros t o E; cbn [populate_all] in E.
  - destruct E as [-> ->]. split; auto. exists []. auto.
  - destruct (exec_bind _ _ _ _ E) as [(u & v & [] & -> & E1 & E2)|[[_ X]|[_ X]]];
      [|destruct (rule_run _ _ _ _ _ X); discriminate ..].
    destruct (rule_run _ _ _ _ _ E1) as [_ R]. destruct (IH _ _ E2) as [-> (segs & -> & F)].
    split; auto. exists (u :: segs). split; auto. constructor; auto. destruct r; exact R.
Qed.
Definition populates j := rules_calls (j_fs_rules_fd j) (j_fs_rules j).
Lemma landlock_foc j : foc is_add (populates j) (apply_landlock_restrictions j).
Proof.
  unfold apply_landlock_restrictions. destruct (_ || _); [apply foc_none; exact Logic.I|].
  apply foc_pre; [unfold no_PQ; ci|]. intro x. apply foc_post; [|intros _; unfold no_PQ; ci].
  destruct (match x with Yes abi _ => 0 <? abi | No _ => false end); cbn [when]; [|apply foc_none; exact Logic.I].
  intros t o E. destruct (rules_run _ _ _ _ E) as [_ R]. exists [], t, []. rewrite List.app_nil_r.
  repeat split; try apply only_nil. right. exact R.
Qed.
Lemma enter_rules g j : foc is_add (populates j) (minijail_enter g j).
Proof.
  unfold minijail_enter. apply foc_pre; [destruct (_ || _); [stage|exact Logic.I]|intro last].
  destruct (hasf F_pids j); [apply foc_none; exact Logic.I|]. destruct (_ && _); [apply foc_none; exact Logic.I|].
  do 3 (apply foc_pre; [stage|intros _]). apply foc_post; [|intros _; stage].
  unfold drop_privileges. do 2 (apply foc_pre; [stage|intros _]). destruct (hasf F_no_new_privs j).
  - do 3 (apply foc_pre; [stage|intros _]). apply foc_post; [apply landlock_foc|intros _; stage].
  - apply foc_post; [apply landlock_foc|intros _]. do 2 (apply ci_bind; [stage|intros _]). stage.
Qed.
(* no rule after the restriction starts *)
Lemma rules_before_restrict g j : na is_add restricts_files (minijail_enter g j).
Proof.
  apply enter_na; [stage| |].
  - intro last. repeat split; try (apply na_left; stage; fail).
    assert (L : na is_add restricts_files (apply_landlock_restrictions j)).
    { unfold apply_landlock_restrictions. destruct (_ || _); [apply na_pure|].
      apply na_after; [unfold no_PQ; ci|intro x]. apply na_after; [|intros _; apply na_right; ci].
      apply ci_when. induction (j_fs_rules j) as [|r l IH]; [exact Logic.I|]. cbn [populate_all].
      apply ci_bind; [|auto]. unfold populate_ruleset_internal. ci. }
    unfold drop_privileges. do 2 (apply na_after; [stage|intros _]). destruct (hasf F_no_new_privs j).
    + do 3 (apply na_after; [stage|intros _]). apply na_before; [exact L|intros _; stage].
    + apply na_before; [exact L|intros _]. do 2 (apply ci_bind; [stage|intros _]). stage.
  - intro last. repeat split; try (left; stage; fail). right. stage.
Qed.
(* all rules are tried, if the kernel says it has Landlock *)
Definition add_or_version (c : call) : bool := match c with C_landlock_add _ _ _ | C_landlock_version => true | _ => false end.
Definition tries j (m : list event) : Prop :=
  exists x rest, m = (C_landlock_version, x) :: rest /\
  match x with Yes abi _ => if 0 <? abi then populates j rest else rest = [] | No _ => rest = [] end.
Lemma tries_foc j : foc add_or_version (tries j) (apply_landlock_restrictions j).
Proof.
  unfold apply_landlock_restrictions. destruct (_ || _); [apply foc_none; exact Logic.I|].
  intros t o (x & t1 & -> & E). cbn [bind] in E.
  assert (Q : exists m z, t1 = m ++ z /\ only (fun c => negb (add_or_version c)) z /\
    match x with Yes abi _ => if 0 <? abi then populates j m else m = [] | No _ => m = [] end).
  { destruct (exec_bind _ _ _ _ E) as [(u & v & [] & -> & E1 & E2)|[[_ X]|[_ X]]].
    - exists u, v. split; auto. split.
      { refine (only_of _ _ _ _ _ E2). ci. }
      destruct x as [abi z|e]; [destruct (0 <? abi)|]; cbn [when] in E1.
      + exact (proj2 (rules_run _ _ _ _ E1)).
      + destruct E1 as [-> _]. reflexivity.
      + destruct E1 as [-> _]. reflexivity.
    - exfalso. destruct x as [abi z|e]; [destruct (0 <? abi)|]; cbn [when] in X.
      + destruct (rules_run _ _ _ _ X); discriminate.
      + destruct X; discriminate.
      + destruct X; discriminate.
    - exfalso. destruct x as [abi z|e]; [destruct (0 <? abi)|]; cbn [when] in X.
      + destruct (rules_run _ _ _ _ X); discriminate.
      + destruct X; discriminate.
      + destruct X; discriminate. }
  destruct Q as (m & z & -> & O & M). exists [], ((C_landlock_version, x) :: m), z. split; auto. split; [apply only_nil|].
  split; auto. right. exists x, m. auto.
Qed.
Lemma enter_tries g j : foc add_or_version (tries j) (minijail_enter g j).
Proof.
  unfold minijail_enter. apply foc_pre; [destruct (_ || _); [stage|exact Logic.I]|intro last].
  destruct (hasf F_pids j); [apply foc_none; exact Logic.I|]. destruct (_ && _); [apply foc_none; exact Logic.I|].
  do 3 (apply foc_pre; [stage|intros _]). apply foc_post; [|intros _; stage].
  unfold drop_privileges. do 2 (apply foc_pre; [stage|intros _]). destruct (hasf F_no_new_privs j).
  - do 3 (apply foc_pre; [stage|intros _]). apply foc_post; [apply tries_foc|intros _; stage].
  - apply foc_post; [apply tries_foc|intros _]. do 2 (apply ci_bind; [stage|intros _]). stage.
Qed.
Lemma only_in S t ev : only S t -> In ev t -> S (fst ev) = true.
Proof. unfold only. intros O I. first [exact (O _ I) | rewrite Forall_forall in O; exact (O _ I)]. Qed.
Lemma populates_no_version j m x : populates j m -> ~ In (C_landlock_version, x) m.
Proof.
  intros (segs & -> & F) I. apply in_concat in I. destruct I as (l & L & I).
  induction F as [|r seg rs ss C F IH]; [contradiction|]. destruct L as [->|L]; [|exact (IH L)].
  destruct C; cbn in I; intuition discriminate.
Qed.
(* every rule, in order, in one stretch of the run *)
Lemma rules_all g j t o : does (minijail_enter g j) t o ->
  exists a m z, t = a ++ m ++ z /\ only (fun c => negb (is_add c)) a /\ only (fun c => negb (is_add c)) z /\
  ((m = [] /\ forall abi s, In (C_landlock_version, Yes abi s) t -> abi = 0) \/ populates j m).
Proof.
  intros E. destruct (enter_tries g j t o E) as (a & m & z & -> & O1 & O2 & M).
  assert (W : forall u, only (fun c => negb (add_or_version c)) u -> only (fun c => negb (is_add c)) u).
  { intros u. unfold only. first [intros O ev I; specialize (O ev I); destruct (fst ev); auto | apply Forall_impl; intros ev X; destruct (fst ev); auto]. }
  assert (NV : forall u x, only (fun c => negb (add_or_version c)) u -> ~ In (C_landlock_version, x) u).
  { intros u x O I. apply (only_in _ _ _ O) in I. discriminate I. }
  destruct M as [->|(x & rest & -> & M)].
  - exists a, [], z. split; [reflexivity|]. split; [auto|]. split; [auto|]. left. split; [reflexivity|]. intros abi s I. apply in_app_or in I. exfalso.
    destruct I as [I|I]; [exact (NV a _ O1 I)|exact (NV z _ O2 I)].
  - assert (IN : forall y, In (C_landlock_version, y) (a ++ ((C_landlock_version, x) :: rest) ++ z) -> y = x \/ In (C_landlock_version, y) rest).
    { intros y I. apply in_app_or in I. destruct I as [I|I]; [destruct (NV a _ O1 I)|]. apply in_app_or in I.
      destruct I as [I|I]; [|destruct (NV z _ O2 I)]. destruct I as [I|I]; [left; congruence|right; exact I]. }
    exists (a ++ [(C_landlock_version, x)]), rest, z. split; [rewrite <- List.app_assoc; reflexivity|].
    split. { apply only_app; auto. intros ev [<-|[]]; reflexivity. }
    split; [auto|]. destruct x as [abi s|e].
    + destruct (0 <? abi) eqn:P; [right; exact M|]. subst rest. left. split; [reflexivity|]. intros abi' s' I.
      destruct (IN _ I) as [X|[]]. injection X as -> _. apply N.ltb_ge in P. lia.
    + subst rest. left. split; [reflexivity|]. intros abi' s' I. destruct (IN _ I) as [X|[]]. discriminate X.
Qed.

(* ---- propagation ---- *)
Lemma remounts_run mode : forall l t, does (apply_remounts mode l) t (Returned tt) ->
  Forall (fun r => mode <= rm_mode r) l /\ did (map (fun r => propagate (rm_name r) (rm_mode r)) l) t.
Proof.
  induction l as [|r l IH]; intros t E; cbn [apply_remounts] in E; [split; [constructor|exact Logic.I]|].
  destruct (N.ltb_spec (rm_mode r) mode) as [L|L]; [destruct E as [_ E]; discriminate E|].
  apply exec_bind_ret in E. destruct E as (t1 & t2 & [] & -> & E1 & E2). apply must_ret in E1. destruct E1 as (v & s & ->).
  destruct (IH _ E2) as [F D]. split; [constructor; auto|]. cbn [map did]. exists [], v, s, t2. split; auto.
Qed.
Lemma propagation g j t : does (minijail_enter g j) t (Returned tt) ->
  hasf F_vfs j = true -> j_remount_mode j <> 0 ->
  Forall (fun r => j_remount_mode j <= rm_mode r) (j_remounts j) /\
  did (C_unshare 131072 :: propagate "/" (j_remount_mode j) :: map (fun r => propagate (rm_name r) (rm_mode r)) (j_remounts j)) t.
Proof.
  intros E V M. apply enter_parts in E.
  destruct E as (t0 & t1 & t2 & t3 & t4 & t5 & last & -> & _ & _ & E1 & _).
  unfold enter_namespaces in E1. rewrite V in E1. apply N.eqb_neq in M. rewrite M in E1. cbn [negb when] in E1.
  apply exec_bind_ret in E1. destruct E1 as (u1 & u2 & [] & -> & _ & E1).
  apply exec_bind_ret in E1. destruct E1 as (u3 & u4 & [] & -> & E3 & _).
  apply exec_bind_ret in E3. destruct E3 as (w1 & w2 & [] & -> & F1 & E3). apply must_ret in F1. destruct F1 as (v & s & ->).
  apply exec_bind_ret in E3. destruct E3 as (w3 & w4 & [] & -> & F3 & E3). apply must_ret in F3. destruct F3 as (v' & s' & ->).
  destruct (remounts_run _ _ _ E3) as [R D]. split; auto.
  apply did_pre, did_post, did_pre, did_post.
  exists [], v, s, ([(C_mount None "/" None (N.lor MS_REC (j_remount_mode j)) None, Yes v' s')] ++ w4). split; auto.
  exists [], v', s', w4. split; auto.
Qed.
(* the only propagation changes, in any execution *)
Definition may_propagate (j : jail) (c : call) : bool :=
  match c with
  | C_mount None n None f None =>
      (String.eqb n "/" && (f =? N.lor 16384 (j_remount_mode j))) ||
      (String.eqb n "." && (f =? 278528)) ||
      existsb (fun r => String.eqb n (rm_name r) && (f =? N.lor 16384 (rm_mode r)) && (j_remount_mode j <=? rm_mode r)) (j_remounts j)
  | _ => true
  end.
Lemma remounts_may j : forall l, incl l (j_remounts j) -> calls_in (may_propagate j) (apply_remounts (j_remount_mode j) l).
Proof.
  induction l as [|r l IH]; intro I; [exact Logic.I|]. cbn [apply_remounts].
  destruct (N.ltb_spec (rm_mode r) (j_remount_mode j)) as [L|L]; [exact Logic.I|].
  apply ci_bind; [|intros _; apply IH; intros x Hx; apply I; right; auto]. apply ci_must. cbn.
  apply orb_true_iff. right. apply existsb_exists. exists r. split; [apply I; left; auto|].
  rewrite String.eqb_refl, N.eqb_refl. cbn. now apply N.leb_le.
Qed.
Lemma enter_may_propagate g j : calls_in (may_propagate j) (minijail_enter g j).
Proof.
  assert (W : forall A (S : call -> bool) (p : io A), calls_in S p -> (forall c, S c = true -> may_propagate j c = true) -> calls_in (may_propagate j) p).
  { intros A S p C D. eapply ci_weaken; eauto. }
  unfold minijail_enter. apply ci_bind; [destruct (_ || _); [eapply W; [apply ci_getlast|sub]|exact Logic.I]|intro last].
  destruct (hasf F_pids j); [exact Logic.I|]. destruct (_ && _); [exact Logic.I|].
  apply ci_bind.
  { unfold enter_namespaces. apply ci_bind; [ci|intros _]. apply ci_bind; [|intros _; unfold config_net_loopback; ci].
    apply ci_when. apply ci_bind; [ci|intros _]. apply ci_when. apply ci_bind; [|intros _; apply remounts_may; intros x; auto].
    apply ci_must. unfold may_propagate. change MS_REC with 16384. now rewrite N.eqb_refl. }
  intros _. apply ci_bind.
  { unfold enter_filesystem. 
    apply ci_bind; [eapply W; [apply ci_process|]|intros _].
    { intros []; try reflexivity. destruct src; [reflexivity|discriminate]. }
    apply ci_bind; [apply ci_when, ci_zero; unfold enter_chroot, nonnull; apply ci_bind; [eapply W; [apply ci_hooks|sub]|intros _; ci]|intros _].
    apply ci_bind; [apply ci_when, ci_zero; unfold enter_pivot_root, nonnull, must_open; apply ci_bind; [eapply W; [apply ci_hooks|sub]|intros _; ci]|intros _].
    apply ci_bind; [apply ci_when, ci_zero; unfold mount_tmp; ci|intros _]. apply ci_when, ci_zero. unfold remount_proc_readonly. ci. }
  intros _. apply ci_bind; [eapply W; [apply ci_hooks|sub]|intros _].
  apply ci_bind; [eapply W; [apply ci_priv_all|sub]|intros _]. eapply W; [apply ci_last|sub].
Qed.
