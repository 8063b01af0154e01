(* Proofs about the set-up by the launching process. *)
From Coq Require Import Lia ZifyN ZifyBool.
From Verif Require Export S_Sync P_Settings.
Local Open Scope N_scope.

(* ---- The settings ---- *)
Lemma pidfile_step e j a rc j' : api_step e j a = ARet rc j' -> j_pid_file_path j' = match pid_file_of a with Some x => x | None => j_pid_file_path j end.
Proof. intros H. destruct a; cbn [pid_file_of]; try (value_step H). Qed.
Lemma pidfile_last e h j : history e minijail_new h j -> j_pid_file_path j = last_of pid_file_of h Null.
Proof. intros H. change (@Null string) with (j_pid_file_path minijail_new). apply (last_run (fun j => j_pid_file_path j) pid_file_of e); [intros; eapply pidfile_step; eassumption|exact H]. Qed.
Definition map_cell (m : option string) : cell string := match m with Some m => Own (commas_to_newlines m) | None => Null end.
Lemma uidmap_step e j a rc j' : api_step e j a = ARet rc j' -> j_uidmap j' = match uid_map_of a with Some x => map_cell x | None => j_uidmap j end.
Proof. intros H. destruct a; cbn [uid_map_of map_cell]; try (value_step H). Qed.
Lemma gidmap_step e j a rc j' : api_step e j a = ARet rc j' -> j_gidmap j' = match gid_map_of a with Some x => map_cell x | None => j_gidmap j end.
Proof. intros H. destruct a; cbn [gid_map_of map_cell]; try (value_step H). Qed.
Lemma last_map {A B} (field : jail -> B) (f : A -> B) (v : api -> option A) e :
  (forall j a rc j', api_step e j a = ARet rc j' -> field j' = match v a with Some x => f x | None => field j end) ->
  forall h j j' d, history e j h j' -> field j = f d -> field j' = f (last_of v h d).
Proof.
  intros ST h j j' d H. revert d. induction H as [j|j a rc j1 h j2 E R IH]; intros d D; [exact D|]. cbn [last_of].
  apply IH. rewrite (ST _ _ _ _ E). destruct (v a); [reflexivity|exact D].
Qed.
Lemma uidmap_last e h j : history e minijail_new h j -> j_uidmap j = map_cell (last_of uid_map_of h None).
Proof. intros H. apply (last_map (fun j => j_uidmap j) map_cell uid_map_of e) with (j := minijail_new); [intros; eapply uidmap_step; eassumption|exact H|reflexivity]. Qed.
Lemma gidmap_last e h j : history e minijail_new h j -> j_gidmap j = map_cell (last_of gid_map_of h None).
Proof. intros H. apply (last_map (fun j => j_gidmap j) map_cell gid_map_of e) with (j := minijail_new); [intros; eapply gidmap_step; eassumption|exact H|reflexivity]. Qed.

(* ---- The transition system ---- *)
Definition ok_step (s : pstep) (r : pcall * N) : Prop := fst s = fst r /\ (snd r = 0 \/ snd s (snd r) = true).
Definition killed (t : list event) : Prop := In Parent_killed t.
Definition ran (t : list event) : Prop := exists c e, In (Child c e) t.
(* What holds of every state reached without the parent being killed. *)
Definition inv (all : list pstep) (sync : bool) (s : sys) : Prop :=
  (match s_parent s with
   | Setting_up l => exists done, all = done ++ l /\ Forall2 ok_step done (by_parent (s_trace s))
   | Failing => True
   | Dying | Gone => s_child s = Dead
   | Done => Forall2 ok_step all (by_parent (s_trace s))
   end) /\
  (sync = true -> s_parent s <> Done -> (s_child s = Waiting \/ s_child s = Dead) /\ forall c e, ~ In (Child c e) (s_trace s)) /\
  (forall t1 c e t2, sync = true -> s_trace s = t1 ++ Child c e :: t2 -> Forall2 ok_step all (by_parent t1) /\ by_parent t2 = []).
Lemma by_parent_app a b : by_parent (a ++ b) = by_parent a ++ by_parent b.
Proof. apply flat_map_app. Qed.
Lemma Forall2_snoc {A B} (R : A -> B -> Prop) l l' x y : Forall2 R l l' -> R x y -> Forall2 R (l ++ [x]) (l' ++ [y]).
Proof. intros H1 H2. apply Forall2_app; [exact H1|]. constructor; [exact H2|constructor]. Qed.
Lemma split_snoc {A} (t : list A) x t1 y t2 : t ++ [x] = t1 ++ y :: t2 -> (t2 = [] /\ x = y /\ t = t1) \/ (exists t3, t2 = t3 ++ [x] /\ t = t1 ++ y :: t3).
Proof.
  intros H. destruct (List.rev t2) as [|z r] eqn:E.
  - assert (t2 = []) by (rewrite <- (rev_involutive t2), E; reflexivity). subst t2. apply app_inj_tail in H. destruct H. auto.
  - assert (Q : t2 = rev r ++ [z]) by (rewrite <- (rev_involutive t2), E; reflexivity). subst t2. right. exists (rev r).
    replace (t1 ++ y :: rev r ++ [z]) with ((t1 ++ y :: rev r) ++ [z]) in H by (rewrite <- app_assoc; reflexivity).
    apply app_inj_tail in H. destruct H as [-> ->]. auto.
Qed.
Lemma killed_app a b : ~ killed (a ++ b) -> ~ killed a.
Proof. intros H X. apply H. unfold killed in *. apply in_or_app. left. exact X. Qed.
(* Before the child acted, an event of the parent. *)
Lemma no_child t x t1 c e t2 : (forall c e, ~ In (Child c e) t) -> (forall c e, x <> Child c e) -> t ++ [x] <> t1 ++ Child c e :: t2.
Proof.
  intros H N1 E. apply split_snoc in E. destruct E as [(_ & E & _)|(t3 & _ & E)]; [exact (N1 _ _ E)|].
  apply (H c e). rewrite E. apply in_or_app. right. left. reflexivity.
Qed.
Lemma inv_step all sync after s s' : inv all sync s -> step after s s' -> ~ killed (s_trace s') ->
  (sync = false -> all = []) -> inv all sync s'.
Proof.
  intros (I1 & I2 & I3) ST NK AL. destruct ST; unfold inv, upd in *; cbn [s_parent s_child s_trace] in *.
  - rewrite H in I1, I2. destruct I1 as (done & E & F). split; [|split].
    + exists (done ++ [(c, tol)]). split; [rewrite E, <- app_assoc; reflexivity|]. rewrite by_parent_app. apply Forall2_snoc; [exact F|].
      split; [reflexivity|left; reflexivity].
    + intros S1 _. destruct (I2 S1 ltac:(discriminate)) as [A B]. split; [exact A|]. intros c' e' X. apply in_app_or in X. destruct X as [X|[X|[]]]; [exact (B _ _ X)|discriminate].
    + intros t1 c' e' t2 S1 E1. destruct (I2 S1 ltac:(discriminate)) as [_ B]. exfalso. refine (no_child _ _ _ _ _ _ B _ E1). discriminate.
  - rewrite H in I1, I2. destruct I1 as (done & E & F). split; [|split].
    + exists (done ++ [(c, tol)]). split; [rewrite E, <- app_assoc; reflexivity|]. rewrite by_parent_app. apply Forall2_snoc; [exact F|].
      split; [reflexivity|right; exact H1].
    + intros S1 _. destruct (I2 S1 ltac:(discriminate)) as [A B]. split; [exact A|]. intros c' e' X. apply in_app_or in X. destruct X as [X|[X|[]]]; [exact (B _ _ X)|discriminate].
    + intros t1 c' e' t2 S1 E1. destruct (I2 S1 ltac:(discriminate)) as [_ B]. exfalso. refine (no_child _ _ _ _ _ _ B _ E1). discriminate.
  - rewrite H in I1, I2. split; [exact Logic.I|split].
    + intros S1 _. destruct (I2 S1 ltac:(discriminate)) as [A B]. split; [exact A|]. intros c' e' X. apply in_app_or in X. destruct X as [X|[X|[]]]; [exact (B _ _ X)|discriminate].
    + intros t1 c' e' t2 S1 E1. destruct (I2 S1 ltac:(discriminate)) as [_ B]. exfalso. refine (no_child _ _ _ _ _ _ B _ E1). discriminate.
  - rewrite H in I1, I2. split; [reflexivity|split].
    + intros S1 _. destruct (I2 S1 ltac:(discriminate)) as [A B]. split; [right; reflexivity|]. intros c' e' X. apply in_app_or in X. destruct X as [X|[X|[]]]; [exact (B _ _ X)|discriminate].
    + intros t1 c' e' t2 S1 E1. destruct (I2 S1 ltac:(discriminate)) as [_ B]. exfalso. refine (no_child _ _ _ _ _ _ B _ E1). discriminate.
  - rewrite H in I1, I2. rewrite app_nil_r. split; [exact I1|split; [|exact I3]]. intros S1 _. apply I2; [exact S1|discriminate].
  - rewrite H in I1, I2. rewrite app_nil_r in *. destruct I1 as (done & E & F). rewrite app_nil_r in E. subst done. split; [exact F|split; [|exact I3]].
    intros S1 X. destruct (X eq_refl).
  - exfalso. apply NK. unfold killed. apply in_or_app. right. left. reflexivity.
  - rewrite app_nil_r in *. split; [|split; [|exact I3]].
    + destruct (s_parent s); try discriminate H0; [exact I1|]. rewrite H in I1. discriminate.
    + intros S1 X. exfalso. destruct (s_parent s); try discriminate H0; [exact (X eq_refl)|]. rewrite H in I1. discriminate.
  - rewrite app_nil_r in *. split; [|split; [|exact I3]].
    + destruct (s_parent s); try exact I1; reflexivity.
    + intros S1 X. destruct (I2 S1 X) as [_ B]. split; [right; reflexivity|exact B].
  - rewrite by_parent_app. cbn [by_parent flat_map]. rewrite app_nil_r. 
    assert (PD : sync = true -> s_parent s = Done).
    { intros S1. destruct (s_parent s) eqn:PS; try reflexivity; exfalso; (destruct (I2 S1 ltac:(discriminate)) as [[A|A] _]; rewrite H in A; discriminate). }
    split; [|split].
    + destruct (s_parent s); try exact I1; rewrite H in I1; discriminate.
    + intros S1 X. destruct (X (PD S1)).
    + intros t1 c' e' t2 S1 E1. rewrite (PD S1) in I1. apply split_snoc in E1. destruct E1 as [(-> & _ & <-)|(t3 & -> & E1)]; [split; [exact I1|reflexivity]|].
      destruct (I3 _ _ _ _ S1 E1) as [X Y]. split; [exact X|]. rewrite by_parent_app, Y. reflexivity.
  - rewrite by_parent_app. cbn [by_parent flat_map]. rewrite app_nil_r. 
    assert (PD : sync = true -> s_parent s = Done).
    { intros S1. destruct (s_parent s) eqn:PS; try reflexivity; exfalso; (destruct (I2 S1 ltac:(discriminate)) as [[A|A] _]; rewrite H in A; discriminate). }
    split; [|split].
    + destruct (s_parent s); try exact I1; reflexivity.
    + intros S1 X. destruct (X (PD S1)).
    + intros t1 c' e' t2 S1 E1. rewrite (PD S1) in I1. apply split_snoc in E1. destruct E1 as [(-> & _ & <-)|(t3 & -> & E1)]; [split; [exact I1|reflexivity]|].
      destruct (I3 _ _ _ _ S1 E1) as [X Y]. split; [exact X|]. rewrite by_parent_app, Y. reflexivity.
  - rewrite app_nil_r in *. split; [|split; [|exact I3]].
    + destruct (s_parent s); try exact I1; reflexivity.
    + intros S1 X. destruct (I2 S1 X) as [_ B]. split; [right; reflexivity|exact B].
Qed.

Lemma inv_start all sync after : forall s s', reaches after s s' -> ~ killed (s_trace s') -> (sync = false -> all = []) -> inv all sync s -> inv all sync s'.
Proof.
  intros s s' R. induction R as [s|s s' s'' R IH ST]; intros NK AL I0; [exact I0|]. eapply inv_step; [apply IH|exact ST|exact NK|exact AL]; [|exact AL|exact I0].
  intros X. apply NK. destruct ST; unfold upd in *; cbn [s_trace] in *; unfold killed in *; apply in_or_app; left; exact X.
Qed.
(* Without anything to set up, the parent makes no call. *)
Definition idle (s : sys) : Prop := by_parent (s_trace s) = [] /\ match s_parent s with Setting_up [] | Done | Gone => True | _ => False end.
Lemma idle_step after s s' : idle s -> step after s s' -> idle s'.
Proof.
  intros [A B] ST. destruct ST; unfold idle, upd in *; cbn [s_parent s_trace] in *; rewrite ?by_parent_app, ?A; try rewrite H in B;
    try (destruct B; fail); try (split; [reflexivity|exact Logic.I]); try (split; [reflexivity|exact B]).
Qed.
Lemma idle_reach after s s' : reaches after s s' -> idle s -> idle s'.
Proof. intros R. induction R as [s|s s' s'' R IH ST]; intros H; [exact H|]. exact (idle_step _ _ _ (IH H) ST). Qed.

Lemma not_synced pid j : sync_child j = false -> parent_setup pid j = [].
Proof.
  unfold sync_child, parent_setup. intros H. repeat (apply orb_false_elim in H; destruct H as [H ?]).
  rewrite H, H0, H1, H2, H3. reflexivity.
Qed.
Lemma tolerant pid j s : In s (parent_setup pid j) -> (forall e, snd s e = false) \/ (exists pid, fst s = WriteProc pid "setgroups" "deny" /\ forall e, snd s e = true -> e = 2).
Proof.
  unfold parent_setup, write_pid_file_or_die, add_to_cgroups_or_die, set_rlimits_or_die, write_ugid_maps_or_die. intros H.
  assert (D : forall c, (forall e, snd (or_die c) e = false)) by reflexivity.
  apply in_app_or in H. destruct H as [H|H].
  { destruct (hasf F_forward_signals j); [destruct H as [<-|[]]; left; apply D|destruct H]. }
  apply in_app_or in H. destruct H as [H|H].
  { destruct (hasf F_pid_file j); [destruct H as [<-|[]]; left; apply D|destruct H]. }
  apply in_app_or in H. destruct H as [H|H].
  { destruct (hasf F_cgroups j); [|destruct H]. apply in_map_iff in H. destruct H as (x & <- & _). left; apply D. }
  apply in_app_or in H. destruct H as [H|H].
  { destruct (negb _); [|destruct H]. apply in_map_iff in H. destruct H as (x & <- & _). left; apply D. }
  destruct (hasf F_userns j); [|destruct H]. apply in_app_or in H. destruct H as [H|H].
  { destruct (j_uidmap j); try (destruct H; fail). destruct H as [<-|[]]. left; apply D. }
  apply in_app_or in H. destruct H as [H|H].
  { destruct (j_gidmap j); try (destruct H; fail). destruct (hasf F_disable_setgroups j); [|destruct H]. destruct H as [<-|[]]. right.
    exists pid. split; [reflexivity|]. cbn [snd]. intros e E. apply N.eqb_eq in E. exact E. }
  destruct (j_gidmap j); try (destruct H; fail). destruct H as [<-|[]]. left; apply D.
Qed.
Lemma steps_fine pid j l : Forall2 ok_step (parent_setup pid j) l -> map fst l = map fst (parent_setup pid j) /\ Forall fine l.
Proof.
  intros F. assert (T : forall s, In s (parent_setup pid j) -> In s (parent_setup pid j)) by auto. revert T F.
  generalize (parent_setup pid j) at 1 3 4. intros q. revert l. induction q as [|s q IH]; intros l T F; inversion F; subst; [split; [reflexivity|constructor]|].
  destruct (IH l' (fun s' X => T s' (or_intror X)) H3) as [A B]. destruct H1 as [E K]. split.
  - cbn [map]. rewrite A, E. reflexivity.
  - constructor; [|exact B]. unfold fine. destruct K as [K|K]; [left; exact K|]. right.
    destruct (tolerant pid j s (T s (or_introl eq_refl))) as [X|(p & X & Y)]; [rewrite X in K; discriminate|]. exists p. split; [rewrite <- E; exact X|exact (Y _ K)].
Qed.
Lemma when_flag {A} b (P : Prop) (l l' : list A) : (b = true <-> P) -> l = l' -> when P l' (if b then l else []).
Proof. intros H ->. split; intros X; [apply H in X; rewrite X; reflexivity|]. destruct b; [destruct (X (proj1 H eq_refl))|reflexivity]. Qed.
Lemma no_cgroups h : ~ asked F_cgroups h -> accepted cgroup_added h = [].
Proof.
  intros H. induction h as [|[a rc] h IH]; [reflexivity|]. unfold accepted in *. cbn [flat_map fst snd]. rewrite IH.
  - destruct a; try reflexivity. cbn [cgroup_added]. destruct (rc =? 0)%Z eqn:E; [|reflexivity]. exfalso. apply H. exists (A_add_to_cgroup path), rc.
    split; [left; reflexivity|]. unfold on_by. rewrite E. left. reflexivity.
  - intros (a' & rc' & X & Y). apply H. exists a', rc'. split; [right; exact X|exact Y].
Qed.
Lemma setup_calls e h j pid : history e minijail_new h j -> set_up h pid (map fst (parent_setup pid j)).
Proof.
  intros H. assert (FA : forall f, steady (k_softfail e) f = true -> (hasf f j = true <-> asked f h)) by (intros f; apply flag_asked; exact H).
  destruct (limits _ _ _ H) as (_ & RL & CG & _). unfold rlimits_in_use, cgroups_in_use in *.
  exists (map fst (if hasf F_forward_signals j then [or_die (ForwardTo pid)] else [])), (map fst (if hasf F_pid_file j then write_pid_file_or_die pid j else [])), (map fst (if hasf F_userns j then write_ugid_maps_or_die pid j else [])),
         (match j_gidmap j with Own _ => if hasf F_disable_setgroups j then [WriteProc pid "setgroups" "deny"] else [] | _ => [] end).
  split; [|split; [|split; [|split]]].
  - unfold parent_setup. rewrite !map_app. f_equal. f_equal. f_equal; [|f_equal].
    + rewrite <- CG. unfold add_to_cgroups_or_die. destruct (hasf F_cgroups j) eqn:F; [rewrite map_map; reflexivity|]. rewrite CG, no_cgroups; [reflexivity|].
      intros X. apply (FA F_cgroups eq_refl) in X. rewrite F in X. discriminate.
    + rewrite <- RL. unfold set_rlimits_or_die. destruct (j_rlimit_count j =? 0) eqn:F; cbn [negb]; [|rewrite map_map; reflexivity].
      apply N.eqb_eq in F. rewrite F. reflexivity.
  - replace (map fst (if hasf F_forward_signals j then [or_die (ForwardTo pid)] else [])) with (if hasf F_forward_signals j then [ForwardTo pid] else [])
      by (destruct (hasf F_forward_signals j); reflexivity).
    apply when_flag; [exact (FA F_forward_signals eq_refl)|reflexivity].
  - replace (map fst (if hasf F_pid_file j then write_pid_file_or_die pid j else [])) with (if hasf F_pid_file j then map fst (write_pid_file_or_die pid j) else [])
      by (destruct (hasf F_pid_file j); reflexivity).
    apply when_flag; [exact (FA F_pid_file eq_refl)|]. unfold write_pid_file_or_die, or_die. cbn [map fst]. rewrite (pidfile_last _ _ _ H). reflexivity.
  - replace (map fst (if hasf F_userns j then write_ugid_maps_or_die pid j else [])) with (if hasf F_userns j then map fst (write_ugid_maps_or_die pid j) else [])
      by (destruct (hasf F_userns j); reflexivity).
    apply when_flag; [exact (FA F_userns eq_refl)|]. unfold write_ugid_maps_or_die. rewrite !map_app, (uidmap_last _ _ _ H), (gidmap_last _ _ _ H).
    destruct (last_of uid_map_of h None), (last_of gid_map_of h None), (hasf F_disable_setgroups j); reflexivity.
  - rewrite (gidmap_last _ _ _ H). destruct (last_of gid_map_of h None) as [m|]; cbn [map_cell].
    + destruct (hasf F_disable_setgroups j) eqn:F; split; intros X; try reflexivity.
      * exfalso. apply X. split; [apply (FA F_disable_setgroups eq_refl); exact F|discriminate].
      * exfalso. destruct X as [X _]. apply (FA F_disable_setgroups eq_refl) in X. rewrite F in X. discriminate.
    + split; [|reflexivity]. intros [_ X]. destruct (X eq_refl).
Qed.

(* The whole. *)
Lemma setup_first e h j pid s : history e minijail_new h j -> reaches (child_after j) (start pid j) s -> ~ In Parent_killed (s_trace s) ->
  forall t1 c err t2, s_trace s = t1 ++ Child c err :: t2 ->
  set_up h pid (map fst (by_parent t1)) /\ Forall fine (by_parent t1) /\ by_parent t2 = [].
Proof.
  intros H R NK t1 c err t2 E. destruct (sync_child j) eqn:S1.
  - assert (I0 : inv (parent_setup pid j) true s).
    { eapply inv_start; [exact R|exact NK|discriminate|]. unfold inv, start. rewrite S1. cbn [s_parent s_child s_trace]. split; [|split].
      - exists []. split; [reflexivity|constructor].
      - intros _ _. split; [left; reflexivity|]. intros c' e' [].
      - intros [|] ? ? ? _ X; discriminate X. }
    destruct I0 as (_ & _ & I3). destruct (I3 _ _ _ _ eq_refl E) as [F Y]. destruct (steps_fine _ _ _ F) as [A B].
    rewrite A. split; [exact (setup_calls _ _ _ _ H)|]. split; [exact B|exact Y].
  - pose proof (setup_calls _ _ _ pid H) as W. rewrite (not_synced pid j S1) in W.
    assert (I0 : idle s). { eapply idle_reach; [exact R|]. unfold idle, start. cbn [s_parent s_trace]. rewrite (not_synced pid j S1). split; [reflexivity|exact Logic.I]. }
    destruct I0 as [Z _]. rewrite E, by_parent_app in Z. apply app_eq_nil in Z. destruct Z as [Z1 Z2]. rewrite Z1. cbn [by_parent flat_map app] in Z2.
    split; [exact W|]. split; [constructor|exact Z2].
Qed.

(* ---- The child ---- *)
Lemma by_child_app a b : by_child (a ++ b) = by_child a ++ by_child b.
Proof. apply flat_map_app. Qed.
Definition all_well (l : list ccall) : list (ccall * N) := map (fun c => (c, 0)) l.
Definition cinv (after : list ccall) (s : sys) : Prop :=
  exists done todo, after = done ++ todo /\
  (by_child (s_trace s) = all_well done /\ match s_child s with Waiting => done = [] | Going l => todo = l | Dead => True end \/
   exists c e, e <> 0 /\ by_child (s_trace s) = all_well done ++ [(c, e)] /\ s_child s = Dead /\ todo <> []).
Lemma cinv_step after s s' : cinv after s -> step after s s' -> cinv after s'.
Proof.
  intros (dn & todo & A & K) ST. unfold cinv.
  destruct ST as [s c tol l P|s c tol l e P|s c tol l e P|s P|s P|s P|s|s C P|s C|s c l C|s c l e C NZ|s]; unfold upd; cbn [s_trace s_child]; rewrite by_child_app; cbn [by_child flat_map app]; rewrite ?app_nil_r;
    try (exists dn, todo; split; [exact A|exact K]);
    try (exists dn, todo; split; [exact A|]; destruct K as [[K _]|(c & e & K1 & K2 & K3 & K4)]; [left; split; [exact K|exact Logic.I]|right; exists c, e; repeat split; assumption]).
  - destruct K as [[K D]|(c & e & _ & _ & D & _)]; [|rewrite C in D; discriminate D]. rewrite C in D. subst dn. exists [], after. split; [reflexivity|]. left. split; [exact K|reflexivity].
  - destruct K as [[K D]|(c1 & e1 & _ & _ & D & _)]; [|rewrite C in D; discriminate D]. rewrite C in D. subst todo. exists (dn ++ [c]), l. split; [rewrite <- app_assoc; exact A|]. left. split; [|reflexivity].
    rewrite K. unfold all_well. rewrite map_app. reflexivity.
  - destruct K as [[K D]|(c1 & e1 & _ & _ & D & _)]; [|rewrite C in D; discriminate D]. rewrite C in D. subst todo. exists dn, (c :: l). split; [exact A|]. right. exists c, e. rewrite K. repeat split; [exact NZ|discriminate].
Qed.
Lemma cinv_reach after s s' : reaches after s s' -> cinv after s -> cinv after s'.
Proof. intros R. induction R as [s|s s' s'' R IH ST]; intros H; [exact H|]. exact (cinv_step _ _ _ (IH H) ST). Qed.
Lemma no_value {A} (v : api -> option A) (f : flag) e :
  (forall j a rc j' x, api_step e j a = ARet rc j' -> v a = Some x -> In f (on_by a rc)) ->
  forall h j j' d, history e j h j' -> ~ asked f h -> last_of v h d = d.
Proof.
  intros ST h j j' d H. revert d. induction H as [j|j a rc j1 h j2 E R IH]; intros d N1; [reflexivity|]. cbn [last_of].
  destruct (v a) as [x|] eqn:V; [exfalso; apply N1; exists a, rc; split; [left; reflexivity|exact (ST _ _ _ _ _ E V)]|].
  apply IH. intros (b & r & I & O). apply N1. exists b, r. split; [right; exact I|exact O].
Qed.
Lemma no_gid e h j : history e minijail_new h j -> ~ asked F_gid h -> last_of gid_of h 0 = 0.
Proof.
  intros H. apply (no_value gid_of F_gid e) with (j := minijail_new) (j' := j); [|exact H].
  intros j0 a rc j' x E V. destruct a; try discriminate V; try (destruct r; try discriminate V); cbn [api_step] in E; api_unfold E;
    repeat match type of E with context [match ?y with _ => _ end] => destruct y end; try discriminate E; apply ARet_inj in E; destruct E as [<- _]; left; reflexivity.
Qed.
Lemma no_uid e h j : history e minijail_new h j -> ~ asked F_uid h -> last_of uid_of h 0 = 0.
Proof.
  intros H. apply (no_value uid_of F_uid e) with (j := minijail_new) (j' := j); [|exact H].
  intros j0 a rc j' x E V. destruct a; try discriminate V; try (destruct r as [|[? ?]]; try discriminate V); cbn [api_step] in E; api_unfold E;
    repeat match type of E with context [match ?y with _ => _ end] => destruct y end; try discriminate E; apply ARet_inj in E; destruct E as [<- _]; left; reflexivity.
Qed.
Lemma child_takes e h j : history e minijail_new h j -> takes_ids h (child_after j).
Proof.
  intros H. assert (FA : forall f, steady (k_softfail e) f = true -> (hasf f j = true <-> asked f h)) by (intros f; apply flag_asked; exact H).
  exists (if hasf F_userns j then match j_gidmap j with Own _ => [Setresgid (if hasf F_gid j then j_gid j else 0)] | _ => [] end else []),
         (if hasf F_userns j then match j_uidmap j with Own _ => [Setresuid (if hasf F_uid j then j_uid j else 0)] | _ => [] end else []).
  assert (IG : (if hasf F_gid j then j_gid j else 0) = last_of gid_of h 0).
  { destruct (hasf F_gid j) eqn:F; [exact (gid_last _ _ _ H)|]. symmetry. apply (no_gid _ _ _ H). intros X. apply (FA F_gid eq_refl) in X. rewrite F in X. discriminate X. }
  assert (IU : (if hasf F_uid j then j_uid j else 0) = last_of uid_of h 0).
  { destruct (hasf F_uid j) eqn:F; [exact (uid_last _ _ _ H)|]. symmetry. apply (no_uid _ _ _ H). intros X. apply (FA F_uid eq_refl) in X. rewrite F in X. discriminate X. }
  rewrite IG, IU. split; [|split].
  - unfold child_after, enter_user_namespace. rewrite IG, IU. destruct (hasf F_userns j); [rewrite <- app_assoc|]; reflexivity.
  - rewrite (gidmap_last _ _ _ H). destruct (hasf F_userns j) eqn:F; split; intros X.
    + destruct X as [_ X]. destruct (last_of gid_map_of h None); [reflexivity|destruct (X eq_refl)].
    + destruct (last_of gid_map_of h None); [|reflexivity]. exfalso. apply X. split; [apply (FA F_userns eq_refl); exact F|discriminate].
    + destruct X as [X _]. apply (FA F_userns eq_refl) in X. rewrite F in X. discriminate X.
    + reflexivity.
  - rewrite (uidmap_last _ _ _ H). destruct (hasf F_userns j) eqn:F; split; intros X.
    + destruct X as [_ X]. destruct (last_of uid_map_of h None); [reflexivity|destruct (X eq_refl)].
    + destruct (last_of uid_map_of h None); [|reflexivity]. exfalso. apply X. split; [apply (FA F_userns eq_refl); exact F|discriminate].
    + destruct X as [X _]. apply (FA F_userns eq_refl) in X. rewrite F in X. discriminate X.
    + reflexivity.
Qed.
Lemma ids_only h l : takes_ids h l -> exists l0, l = l0 ++ [Goes_on] /\ ~ In Goes_on l0.
Proof.
  intros (g & u & -> & [G1 G2] & [U1 U2]). exists (g ++ u). split; [rewrite <- app_assoc; reflexivity|]. intros I. apply in_app_or in I.
  assert (NN : forall (P : Prop) x (l : list ccall), (P -> l = [x]) -> (~ P -> l = []) -> x <> Goes_on -> ~ In Goes_on l).
  { intros P x k A B N1 J. assert (Z : ~ P) by (intros X; rewrite (A X) in J; destruct J as [J|[]]; exact (N1 J)). rewrite (B Z) in J. destruct J. }
  destruct I as [I|I]; [exact (NN _ _ _ G1 G2 ltac:(discriminate) I)|exact (NN _ _ _ U1 U2 ltac:(discriminate) I)].
Qed.
Lemma child_goes_on e h j pid s : history e minijail_new h j -> reaches (child_after j) (start pid j) s -> In (Child Goes_on 0) (s_trace s) ->
  takes_ids h (map fst (by_child (s_trace s))) /\ Forall (fun r => snd r = 0) (by_child (s_trace s)).
Proof.
  intros H R G. pose proof (child_takes _ _ _ H) as T.
  assert (C : cinv (child_after j) s).
  { apply (cinv_reach _ _ _ R). exists [], (child_after j). split; [reflexivity|]. left. split; [reflexivity|]. unfold start. cbn [s_child]. destruct (sync_child j); reflexivity. }
  destruct C as (dn & todo & A & K).
  assert (J : In (Goes_on, 0) (by_child (s_trace s))) by (unfold by_child; apply in_flat_map; exists (Child Goes_on 0); split; [exact G|left; reflexivity]).
  assert (D : In Goes_on dn).
  { assert (Z : In (Goes_on, 0) (all_well dn)).
    { destruct K as [[K _]|(c & e0 & NZ & K & _ & _)]; rewrite K in J; [exact J|]. apply in_app_or in J. destruct J as [J|[J|[]]]; [exact J|]. injection J as _ J. destruct (NZ J). }
    unfold all_well in Z. apply in_map_iff in Z. destruct Z as (c & Z & I). injection Z as ->. exact I. }
  destruct (ids_only _ _ T) as (l0 & E & N1).
  assert (TD : todo = []).
  { destruct todo as [|c t] using rev_ind; [reflexivity|]. exfalso. rewrite E in A. rewrite app_assoc in A. apply app_inj_tail in A. destruct A as [A _]. apply N1. rewrite A. apply in_or_app. left. exact D. }
  subst todo. rewrite app_nil_r in A. destruct K as [[K _]|(c & e0 & NZ & K & DD)].
  - rewrite K. unfold all_well. rewrite map_map. cbn [fst]. rewrite map_id, <- A. split; [exact T|]. apply Forall_forall. intros x I. apply in_map_iff in I. destruct I as (c & <- & _). reflexivity.
  - destruct DD as [_ DD]. destruct (DD eq_refl).
Qed.
