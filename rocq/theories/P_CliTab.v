(* Which settings and flags come from which of minijail0's options. *)
From Verif Require Export P_RunClaims S_CliRun P_CliIds P_CliRefused P_CliCrash P_CliConf.
From Coq Require Import Lia.
Local Open Scope N_scope.
Notation turned_on := S_Settings.asked.

Lemma last_given {A} (f : api -> option A) h : forall d, last_of f h d = last (given f (map fst h)) d.
Proof.
  assert (K : forall (l : list A) x d, last (x :: l) d = last l x) by (induction l as [|y l IH]; intros; [reflexivity|]; change (last (x :: y :: l) d) with (last (y :: l) d); rewrite !IH; reflexivity).
  induction h as [|[a rc] h IH]; intros d; [reflexivity|]. cbn [last_of map fst given flat_map]. rewrite IH. unfold given.
  destruct (f a); [cbn [app]; rewrite K|]; reflexivity.
Qed.
Lemma first_given {A} (f : api -> option A) h : first_of f h = hd_error (given f (map fst h)).
Proof. unfold first_of, given. f_equal. induction h as [|[a rc] h IH]; [reflexivity|]. cbn. rewrite IH. reflexivity. Qed.
Lemma given_app {A} (f : api -> option A) a b : given f (a ++ b) = (given f a ++ given f b)%list.
Proof. unfold given. apply flat_map_app. Qed.
Lemma given_each {A} w (f : api -> option A) G L each :
  (forall n a cs, asks w n a cs -> given f cs = G n a) ->
  Forall2 (fun o cs => asks w (fst o) (snd o) cs) L each -> given f (concat each) = flat_map (fun o => G (fst o) (snd o)) L.
Proof. intros H. induction 1 as [|o cs L each X _ IH]; [reflexivity|]. cbn [concat flat_map]. rewrite given_app, IH, (H _ _ _ X). reflexivity. Qed.

(* Everything [asks] can say, one case after the other. *)
Ltac each_plain H := unfold plain_calls in H; cbn [In] in H; repeat (destruct H as [H|H]; [injection H as <- <-|]); [..|destruct H].
Ltac each_text H := unfold text_calls in H; cbn [In] in H; repeat (destruct H as [H|H]; [injection H as <- <-|]); [..|destruct H].
Ltac each_ask H := destruct H as [? ? ? H|? ? ? H| | | | | | | | | | | | | | | | | | | ]; [each_plain H|each_text H|..].

(* the options that turn on a flag *)
Definition source (n : N) (a : option string) (f : flag) : Prop :=
  match f with
  | F_uid => n = short "u" | F_gid => n = short "g" | F_keep_suppl_gids => n = short "y" | F_inherit_suppl_gids => n = short "G"
  | F_set_suppl_gids => False | F_disable_setgroups => False | F_run_as_init => n = short "I"
  | F_enter_net => n = short "e" /\ exists t, a = Some t
  | F_userns => n = short "U"
  | _ => True
  end.
Lemma asks_source w n a cs x rc f : asks w n a cs -> In x cs -> In f (on_by x rc) -> source n a f.
Proof.
  intros H I O. unfold on_by in O. destruct (negb _); [destruct O|].
  each_ask H; cbn [In] in I; try (destruct I; fail);
  repeat (destruct I as [<-|I]; [cbn in O; repeat (destruct O as [<-|O]; [cbn; eauto|]); destruct O|]); try destruct I.
  all: cbn in I; repeat (destruct I as [<-|I]; [cbn in O; repeat (destruct O as [<-|O]; [cbn; eauto|]); destruct O|]); try destruct I.
Qed.
Definition end_source (w : world) (L : list (N * option string)) (f : flag) : Prop :=
  match f with
  | F_uid | F_gid | F_keep_suppl_gids | F_inherit_suppl_gids | F_run_as_init | F_enter_net => False
  | F_set_suppl_gids => has L OPT_ADD_SUPPL_GROUP
  | F_disable_setgroups => has L (short "M") /\ w_cap_setgid w = false
  | F_userns => has L (short "m") \/ has L (short "M")
  | _ => True
  end.
Lemma some_has L n a : last_arg L n = Some a -> has L n.
Proof. intros H. apply last_has. eauto. Qed.
Lemma groups_has w L l : groups w L l -> l <> [] -> has L OPT_ADD_SUPPL_GROUP.
Proof.
  intros [A|gids NE F]; [congruence|]. intros _. unfold args_of in F. destruct (filter _ L) as [|[n a] t] eqn:X; [inversion F; congruence|].
  assert (I : In (n, a) (filter (fun o => fst o =? OPT_ADD_SUPPL_GROUP) L)) by (rewrite X; left; reflexivity).
  apply filter_In in I. destruct I as [I E]. apply N.eqb_eq in E. cbn in E. subst n. exists a. exact I.
Qed.
Ltac each_call I O := cbn [In app] in I; repeat (destruct I as [<-|I]; [cbn in O; repeat (destruct O as [<-|O]; [|]); try destruct O|]); try destruct I.
Lemma end_asks w L fin x rc f : closes w L fin -> In x fin -> In f (on_by x rc) -> end_source w L f.
Proof.
  intros [um gm rm gr fl n U G R GR FL T] I O. unfold on_by in O. destruct (negb _); [destruct O|].
  repeat (apply in_app_or in I; destruct I as [I|I]).
  - destruct (to_stderr w L); each_call I O.
  - destruct U as [|t H|n' t H]; each_call I O; cbn; auto; left; apply (some_has _ _ _ H).
  - assert (X : forall b t, last_arg L (short "M") = Some b -> gm = gid_map_calls w t -> end_source w L f).
    { intros b t H ->. apply some_has in H. unfold gid_map_calls in I. apply in_app_or in I. destruct I as [I|I]; [each_call I O; cbn; auto|].
      apply in_app_or in I. destruct I as [I|I]; [destruct (w_cap_setgid w) eqn:C; each_call I O; cbn; auto|each_call I O]. }
    destruct G as [H|t H|n' t H]; [destruct I|exact (X _ _ H eq_refl)|exact (X _ _ H eq_refl)].
  - destruct (last_arg L (short "z")); each_call I O; cbn; auto.
  - destruct R; each_call I O.
  - pose proof (groups_has _ _ _ GR) as K. destruct GR; each_call I O. cbn. apply K. discriminate.
  - destruct FL; each_call I O; cbn; auto.
  - destruct (n =? 0); each_call I O; cbn; auto.
  - each_call I O.
Qed.

Definition may_fail (a : api) : bool :=
  match a with A_namespace_set_hostname _ | A_preserve_fd _ _ | A_fs_rx _ | A_fs_ro _ | A_fs_rw _ | A_fs_advanced_rw _ | A_fs_edit _ | A_fs_access_rights _ _
  | A_change_user _ (inl _) | A_change_group _ (inl _) => true | _ => false end.

(* the options that always turn on a flag *)
Definition providers (f : flag) : list N :=
  match f with
  | F_vfs => map short ["v"; "t"; "d"; "P"; "r"; "p"; "I"; "U"]%char ++ [OPT_PROFILE]
  | F_remount_proc_ro => map short ["r"; "p"; "I"; "U"]%char ++ [OPT_PROFILE]
  | F_ipc => [short "l"] | F_uts => [OPT_UTS] | F_enter_vfs => [short "V"] | F_ns_cgroups => [short "N"]
  | F_new_session_keyring => [short "w"] | F_chroot => [short "C"] | F_pivot_root => [short "P"; OPT_PROFILE]
  | F_no_new_privs => [short "n"] | F_seccomp => [short "s"] | F_alt_syscall => [short "a"]
  | F_seccomp_filter => [short "S"; OPT_SECCOMP_BPF_BINARY] | F_use_caps => [short "c"] | F_set_ambient_caps => [OPT_AMBIENT]
  | F_uid => [short "u"] | F_gid => [short "g"] | F_inherit_suppl_gids => [short "G"] | F_keep_suppl_gids => [short "y"]
  | F_do_init | F_pids => map short ["p"; "I"; "U"]%char
  | _ => []
  end%list.
Ltac pick := first [left; reflexivity | right; pick].
Ltac some_call := (left; reflexivity) + (right; some_call).
Lemma provided w n a cs f : asks w n a cs -> In n (providers f) -> exists x, In x cs /\ may_fail x = false /\ In f (on_by x 0).
Proof.
  intros H P. assert (X : existsb (N.eqb n) (providers f) = true) by (apply existsb_exists; exists n; split; [exact P|apply N.eqb_refl]). clear P.
  destruct f; try discriminate X; each_ask H; try (vm_compute in X; discriminate X); clear X;
    (eexists; split; [some_call|split; [reflexivity|cbn; pick]]).
Qed.
(* what the options set, in order *)
Ltac given_tac := intros H; each_ask H; reflexivity.
Definition root_by (w : world) (n : N) (a : option string) : list string :=
  if (n =? short "C") || (n =? short "P") then match a with Some d => [d] | None => [] end else if n =? OPT_PROFILE then [w_pivot_dir w] else [].
Lemma roots w n a cs : asks w n a cs -> given root_of cs = root_by w n a. Proof. given_tac. Qed.
Definition host_by (n : N) (a : option string) : list string := if n =? OPT_UTS then match a with Some d => [d] | None => [] end else [].
Lemma hosts w n a cs : asks w n a cs -> given hostname_of cs = host_by n a. Proof. given_tac. Qed.
Definition net_by (w : world) (n : N) (a : option string) : list Z := if n =? short "e" then match a with Some d => [w_open w d] | None => [] end else [].
Lemma nets w n a cs : asks w n a cs -> given netns_of cs = net_by w n a. Proof. given_tac. Qed.
Definition mountns_by (w : world) (n : N) (a : option string) : list Z := if n =? short "V" then [opened w a] else [].
Lemma mountnss w n a cs : asks w n a cs -> given mountns_of cs = mountns_by w n a. Proof. given_tac. Qed.
Definition alt_by (n : N) (a : option string) : list (cell string) := if n =? short "a" then match a with Some t => [Own t] | None => [] end else [].
Lemma alts w n a cs : asks w n a cs -> given alt_of cs = alt_by n a. Proof. given_tac. Qed.
Definition mode_by (n : N) (a : option string) : list N := if n =? short "v" then [524288] else [].
Lemma modes w n a cs : asks w n a cs -> given remount_mode_of cs = mode_by n a. Proof. given_tac. Qed.
Lemma no_tmp w n a cs : asks w n a cs -> given tmp_size_of cs = []. Proof. given_tac. Qed.
Lemma no_filter w n a cs : asks w n a cs -> given filter_of cs = []. Proof. given_tac. Qed.

