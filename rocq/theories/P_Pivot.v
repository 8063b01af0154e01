(* Proofs: the order of the steps that change the root with pivot_root. *)
From Verif Require Export P_EnterEx.
Local Open Scope N_scope.

Lemma neg_ret c t : does (neg_errno c) t (Returned 0%Z) -> exists v s, t = [(c, Yes v s)].
Proof. intros (x & t' & -> & E). destruct x as [v s|e]; destruct E as [-> E]; [exists v, s; reflexivity|discriminate E]. Qed.
Lemma open_ret path h (f : Z -> io Z) t r : does (must_open path h f) t (Returned r) ->
  exists v s t1 x, t = (C_open path h, Yes v s) :: t1 ++ [(C_close (Z.of_N v), x)] /\ does (f (Z.of_N v)) t1 (Returned r).
Proof.
  unfold must_open. intros E. apply exec_bind_ret in E. destruct E as (t1 & t2 & x & -> & E1 & E2). destruct E1 as (y & t3 & -> & -> & E1). injection E1 as ->. rename y into x.
  destruct x as [v s|e]; [|destruct E2 as [_ E2]; discriminate E2].
  apply exec_bind_ret in E2. destruct E2 as (t1 & t3 & r' & -> & E2 & E3). apply exec_bind_ret in E3. destruct E3 as (t4 & t5 & [] & -> & E3 & [-> E4]).
  injection E4 as <-. apply try_ret in E3. destruct E3 as (x & ->). exists v, s, t1, x. split; [reflexivity|exact E2].
Qed.
Definition pivot_steps (d : string) (old new : Z) : list call :=
  [C_open "/" DirRead; C_open d DirRead; C_mount (Some d) d (Some "bind"%string) 20480 (Some ""%string); C_chdir d;
   C_pivot_root "." "."; C_fchdir old; propagate "." 262144; C_umount "."; C_fchdir new; C_chroot "/"; C_chdir "/"].
Lemma did_cons c v s cs t : did cs t -> did (c :: cs) ((c, Yes v s) :: t).
Proof. intros D. exists [], v, s, t. split; [reflexivity|exact D]. Qed.
Lemma pivot_did j d t : j_chrootdir j = Own d -> does (enter_pivot_root j) t (Returned 0%Z) ->
  exists old new so sn, In (C_open "/" DirRead, Yes old so) t /\ In (C_open d DirRead, Yes new sn) t /\
    did (pivot_steps d (Z.of_N old) (Z.of_N new)) t.
Proof.
  intros D E. unfold enter_pivot_root in E. apply exec_bind_ret in E. destruct E as (th & t1 & [] & -> & _ & E).
  rewrite D in E. cbn [nonnull deref] in E. unfold nonnull, deref in E.
  apply open_ret in E. destruct E as (old & so & t2 & x1 & -> & E). apply open_ret in E. destruct E as (new & sn & t3 & x2 & -> & E).
  exists old, new, so, sn. split; [apply in_or_app; right; left; reflexivity|]. split; [apply in_or_app; right; right; left; reflexivity|].
  apply exec_bind_ret in E. destruct E as (u & t4 & [] & -> & E1 & E). apply must_ret in E1. destruct E1 as (? & ? & ->).
  apply andthen_ret in E. destruct E as (u & t5 & -> & E1 & E). apply neg_ret in E1. destruct E1 as (? & ? & ->).
  do 4 (apply exec_bind_ret in E; destruct E as (u & ? & [] & -> & E1 & E); apply must_ret in E1; destruct E1 as (? & ? & ->)).
  apply andthen_ret in E. destruct E as (u & ? & -> & E1 & E). apply neg_ret in E1. destruct E1 as (? & ? & ->).
  apply andthen_ret in E. destruct E as (u & ? & -> & E1 & E). apply neg_ret in E1. destruct E1 as (? & ? & ->).
  apply neg_ret in E. destruct E as (? & ? & ->).
  apply did_pre. unfold pivot_steps. cbn [List.app]. repeat (apply did_cons). exact Logic.I.
Qed.
Lemma pivot_claim g h j kernel t d : history (g_env g) minijail_new h j -> run kernel [] (minijail_enter g j) = (Returned tt, t) ->
  asked F_pivot_root h -> first_of root_of h = Some d ->
  exists old new so sn, In (C_open "/" DirRead, Yes old so) t /\ In (C_open d DirRead, Yes new sn) t /\
    did (pivot_steps d (Z.of_N old) (Z.of_N new)) t.
Proof.
  intros H R A D. apply run_exec' in R. apply (flag_asked _ _ _ F_pivot_root H eq_refl) in A.
  destruct (one_shots _ _ _ H) as (C & _ & _). rewrite D in C.
  apply enter_parts in R. destruct R as (t0 & t1 & t2 & t3 & t4 & t5 & last & -> & _ & _ & _ & E & _).
  unfold enter_filesystem in E. rewrite A in E. cbn [when] in E.
  do 2 (apply exec_bind_ret in E; destruct E as (? & ? & [] & -> & _ & E)).
  apply exec_bind_ret in E. destruct E as (tp & tq & [] & -> & E & _). apply zero_ret in E.
  assert (C' : j_chrootdir j = Own d) by (destruct (j_chrootdir j); cbn [content] in C; try discriminate C; injection C as ->; reflexivity).
  destruct (pivot_did j d tp C' E) as (old & new & so & sn & I1 & I2 & DD). exists old, new, so, sn.
  split; [|split].
  - do 2 (apply in_or_app; right). apply in_or_app. left. do 2 (apply in_or_app; right). apply in_or_app. left. exact I1.
  - do 2 (apply in_or_app; right). apply in_or_app. left. do 2 (apply in_or_app; right). apply in_or_app. left. exact I2.
  - do 2 apply did_pre. apply did_post. do 2 apply did_pre. apply did_post. exact DD.
Qed.

Lemma pivot_case : asked F_pivot_root ex_history /\ first_of root_of ex_history = Some "/jail"%string /\
  did [C_pivot_root "." "."; C_fchdir 9; propagate "." 262144; C_umount "."; C_fchdir 9; C_chroot "/"; C_chdir "/"] ex_trace.
Proof.
  split; [apply ex_asked; vm_compute; reflexivity|]. split; [reflexivity|].
  destruct (pivot_claim ex_cfg ex_history ex_jail ex_kernel ex_trace "/jail" ex_jail_built ex_run (ex_asked F_pivot_root eq_refl eq_refl) eq_refl)
    as (old & new & so & sn & I1 & I2 & DD).
  assert (X : forall p v s, In (C_open p DirRead, Yes v s) ex_trace -> v = 9).
  { intros p v s I0. vm_compute in I0. repeat (destruct I0 as [I0|I0]; [first [discriminate I0|injection I0; intros; subst; reflexivity]|]). destruct I0. }
  rewrite (X _ _ _ I1), (X _ _ _ I2) in DD. unfold pivot_steps in DD. clear - DD.
  change (did ([C_open "/" DirRead; C_open "/jail" DirRead; C_mount (Some "/jail"%string) "/jail" (Some "bind"%string) 20480 (Some ""%string); C_chdir "/jail"] ++
    [C_pivot_root "." "."; C_fchdir 9; propagate "." 262144; C_umount "."; C_fchdir 9; C_chroot "/"; C_chdir "/"]) ex_trace) in DD.
  revert DD. generalize ex_trace as tr. generalize [C_pivot_root "." "."; C_fchdir 9; propagate "." 262144; C_umount "."; C_fchdir 9; C_chroot "/"; C_chdir "/"] as r.
  intros r tr. generalize [C_open "/" DirRead; C_open "/jail" DirRead; C_mount (Some "/jail"%string) "/jail" (Some "bind"%string) 20480 (Some ""%string); C_chdir "/jail"] as a.
  intros a. revert tr. induction a as [|c a IH]; intros tr DD; [exact DD|]. destruct DD as (t1 & v & s & t2 & -> & DD). apply did_pre.
  change ((c, Yes v s) :: t2) with ([(c, Yes v s)] ++ t2). apply did_pre. exact (IH _ DD).
Qed.

(* chroot: the working directory ends inside the new root. *)
Lemma chroot_claim g h j kernel t d : history (g_env g) minijail_new h j -> run kernel [] (minijail_enter g j) = (Returned tt, t) ->
  asked F_chroot h -> first_of root_of h = Some d -> did [C_chroot d; C_chdir "/"] t.
Proof.
  intros H R A D. apply run_exec' in R. apply (flag_asked _ _ _ F_chroot H eq_refl) in A.
  destruct (one_shots _ _ _ H) as (C & _ & _). rewrite D in C.
  apply enter_parts in R. destruct R as (t0 & t1 & t2 & t3 & t4 & t5 & last & -> & _ & _ & _ & E & _).
  unfold enter_filesystem in E. rewrite A in E. cbn [when] in E.
  apply exec_bind_ret in E; destruct E as (? & ? & [] & -> & _ & E).
  apply exec_bind_ret in E. destruct E as (tp & tq & [] & -> & E & _). apply zero_ret in E.
  assert (C' : j_chrootdir j = Own d) by (destruct (j_chrootdir j); cbn [content] in C; try discriminate C; injection C as ->; reflexivity).
  unfold enter_chroot in E. apply exec_bind_ret in E. destruct E as (th & t6 & [] & -> & _ & E). rewrite C' in E. unfold nonnull, deref in E.
  apply andthen_ret in E. destruct E as (u & t7 & -> & E1 & E). apply neg_ret in E1. destruct E1 as (? & ? & ->). apply neg_ret in E. destruct E as (? & ? & ->).
  do 2 apply did_pre. apply did_post. apply did_pre. apply did_post. apply did_pre. cbn [List.app]. do 2 apply did_cons. exact Logic.I.
Qed.
Definition chroot_calls : list api := [A_namespace_vfs; A_enter_chroot "/jail"; A_no_new_privs]%string.
Definition chroot_history : list (api * Z) := match replay ex_env minijail_new chroot_calls with Some (h, _) => h | None => [] end.
Definition chroot_jail : jail := match replay ex_env minijail_new chroot_calls with Some (_, j) => j | None => minijail_new end.
Lemma chroot_case : history ex_env minijail_new chroot_history chroot_jail /\
  fst (run ex_kernel [] (minijail_enter ex_cfg chroot_jail)) = Returned tt /\ asked F_chroot chroot_history /\ first_of root_of chroot_history = Some "/jail"%string.
Proof.
  assert (B : history ex_env minijail_new chroot_history chroot_jail) by (apply (replay_history ex_env chroot_calls); vm_compute; reflexivity).
  split; [exact B|]. split; [vm_compute; reflexivity|]. split; [|vm_compute; reflexivity].
  apply (flag_asked _ _ _ F_chroot B); vm_compute; reflexivity.
Qed.
