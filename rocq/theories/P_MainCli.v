(* What the options say about main's end: when it waits, and with which code
   parse_args ends it; the library's name. *)
From Verif Require Export P_CliFin P_CliIds P_CliRefused.
From Coq Require Import Lia.
Local Open Scope N_scope.

Section Cli.
Variable w : world.
Ltac keep_o o := destruct o; try congruence; cbv beta iota zeta delta [option_step]; keeps_tac.
Lemma immediately_end opts c c' : cli_options w opts c = Go c' ->
  c_exit_immediately c' = match last_arg (all_options w opts) (short "i") with Some _ => true | None => c_exit_immediately c end.
Proof.
  intros E. refine (last_loop w c_exit_immediately (fun _ : option string => true) O_i _ _ _ _ _ _ _ _ E);
    [discriminate|intros; cbv beta iota zeta delta [option_step]; sets_tac|intros o arg NE; keep_o o|reflexivity|reflexivity].
Qed.
Lemma finish_immediately args c c' : finish w args c = Go c' -> c_exit_immediately c' = c_exit_immediately c.
Proof. unfold finish. apply (keeps_go c_exit_immediately). keeps_tac. Qed.
Lemma immediately pre opts args s : minijail0 w pre opts args = Go s -> (c_exit_immediately (st_cli s) = true <-> has (all_options w opts) (short "i")).
Proof.
  intros E. apply minijail0_go in E. destruct E as (c & E & D). apply parse_go in E. destruct E as (c1 & E & FN).
  pose proof (immediately_end _ _ _ E) as I1. pose proof (finish_immediately _ _ _ FN) as I2.
  assert (K : c_exit_immediately (st_cli s) = c_exit_immediately c).
  { destruct D as [[_ ->]|(_ & p & _ & _ & c' & E' & ->)]; [reflexivity|]. cbn [st_cli]. revert E'. apply (keeps_go c_exit_immediately). keeps_tac. }
  rewrite K, I2, I1, last_has. cbn [cli_start c_exit_immediately]. destruct (last_arg _ _); split; intros H; [eauto|reflexivity|discriminate|destruct H; discriminate].
Qed.

(* codes of exits *)
Definition codes (P : Z -> Prop) (a : act) : Prop := forall c n, a c = Exits n -> P n.
Lemma codes_then P a b : codes P a -> codes P b -> codes P (a >> b).
Proof. intros A B c n. unfold then_. destruct (a c) eqn:E; cbn; try discriminate; [apply B|intros [= <-]; exact (A _ _ E)]. Qed.
Lemma codes_nothing P : codes P nothing. Proof. discriminate. Qed.
Lemma codes_put P f : codes P (put f). Proof. discriminate. Qed.
Lemma codes_crash P : codes P (fun _ => Crash). Proof. discriminate. Qed.
Lemma codes_quit (P : Z -> Prop) k : P k -> codes P (quit k). Proof. intros H c n [= <-]. exact H. Qed.
Lemma codes_refuse (P : Z -> Prop) b : P 1%Z -> codes P (refuse_if b). Proof. intros H. destruct b; [apply codes_quit, H|apply codes_nothing]. Qed.
Lemma codes_only P b a : codes P a -> codes P (only_if b a). Proof. intros H. destruct b; [exact H|apply codes_nothing]. Qed.
Lemma codes_need P arg f : (forall s, codes P (f s)) -> codes P (need arg f). Proof. intros H. destruct arg; [apply H|apply codes_crash]. Qed.
Lemma codes_look {A} P (g : cli -> A) f : (forall x, codes P (f x)) -> codes P (look g f). Proof. intros H c n. apply (H (g c)). Qed.
Lemma codes_lib P a f : (forall rc, codes P (f rc)) -> codes P (lib_then w a f).
Proof. intros H c n. unfold lib_then. destruct (api_step _ _ _); try discriminate. apply H. Qed.
Lemma codes_dir (P : Z -> Prop) arg f : P 1%Z -> (forall s, codes P (f s)) -> codes P (need_dir arg f).
Proof. intros H1 H. destruct arg; cbn; [apply H|]. apply codes_look. intros j. destruct (is_null _); [apply codes_crash|apply codes_quit, H1]. Qed.
Lemma codes_bind {A} (P : Z -> Prop) (r : went A) (f : A -> act) : (forall n, r = Exits n -> P n) -> (forall a, codes P (f a)) -> codes P (fun c => go_on r (fun a => f a c)).
Proof. intros R F c n. destruct r as [a|k| |] eqn:E; cbn; try discriminate; [apply F|intros [= <-]; apply R; reflexivity]. Qed.
Lemma caps_codes flag : forall k i m n, caps_from k i flag m = Exits n -> n = 1%Z.
Proof.
  induction k as [|k IH]; intros i m n; cbn [caps_from]; [discriminate|]. destruct (flag i); [destruct (i <? 64); [apply IH|discriminate]|apply IH..|intros [= <-]; reflexivity].
Qed.
Lemma filter_codes path n : read_seccomp_filter w path = Exits n -> n = 1%Z.
Proof. unfold read_seccomp_filter. destruct (w_bytes w path); [|intros [= <-]; reflexivity]. cbv zeta. destruct (negb _); [intros [= <-]; reflexivity|discriminate]. Qed.
Definition one (n : Z) : Prop := n = 1%Z.
Ltac code_case :=
  match goal with
  | |- codes _ (match ?x with _ => _ end) => destruct x
  | |- codes _ (fun c => match ?x with _ => _ end) => destruct x
  end.
Ltac code_unfold :=
  match goal with
  | |- codes _ (lib _ _) => unfold lib
  | |- codes _ (lib0 _ _) => unfold lib0
  | |- codes _ (cli_set_user _ _) => unfold cli_set_user
  | |- codes _ (cli_set_group _ _) => unfold cli_set_group
  | |- codes _ (suppl_group_add _ _) => unfold suppl_group_add
  | |- codes _ (skip_securebits _ _) => unfold skip_securebits
  | |- codes _ (use_caps _ _) => unfold use_caps
  | |- codes _ (add_binding _ _) => unfold add_binding
  | |- codes _ (add_rlimit _ _) => unfold add_rlimit
  | |- codes _ (add_mount _ _) => unfold add_mount
  | |- codes _ (set_ugid_mapping _) => unfold set_ugid_mapping
  | |- codes _ (use_chroot _ _) => unfold use_chroot
  | |- codes _ (use_pivot_root _ _) => unfold use_pivot_root
  | |- codes _ default_tmp => unfold default_tmp
  | |- codes _ (use_profile _ _) => unfold use_profile
  | |- codes _ (cli_remount_mode _ _) => unfold cli_remount_mode
  | |- codes _ (cli_set_seccomp_filters _ _) => unfold cli_set_seccomp_filters
  | |- codes _ (set_child_env _ _) => unfold set_child_env
  end.
Ltac code_step :=
  lazymatch goal with
  | |- codes _ (then_ _ _) => apply codes_then
  | |- codes _ nothing => apply codes_nothing
  | |- codes _ (quit _) => apply codes_quit; reflexivity
  | |- codes _ (fun _ => Crash) => apply codes_crash
  | |- codes _ (refuse_if _) => apply codes_refuse; reflexivity
  | |- codes _ (only_if _ _) => apply codes_only
  | |- codes _ (need _ _) => apply codes_need
  | |- codes _ (need_dir _ _) => apply codes_dir; [reflexivity|]
  | |- codes _ (look _ _) => apply codes_look
  | |- codes _ (put _) => apply codes_put
  | |- codes _ (lib_then _ _ _) => apply codes_lib
  | |- codes _ (fun c => go_on _ _) => apply codes_bind; [first [exact (caps_codes _ _ _ _) | exact (filter_codes _)]|intros; match goal with |- codes ?R (fun c => ?f c) => change (codes R f) end]
  | |- codes _ _ => first [code_unfold | code_case]
  end; intros.
Ltac code_walk := repeat code_step.
Lemma option_codes o arg : o <> O_H_ -> o <> O_help -> codes one (option_step w o arg).
Proof. intros A B. destruct o; try congruence; cbv beta iota zeta delta [option_step]; code_walk. Qed.
Lemma then_exits (a b : act) c n : (a >> b) c = Exits n -> a c = Exits n \/ exists c1, a c = Go c1 /\ b c1 = Exits n.
Proof. unfold then_. destruct (a c) as [c1|k| |]; cbn; try discriminate; [eauto|intros [= <-]; auto]. Qed.
Lemma finish_codes args c n : finish w args c = Exits n -> n = 1%Z \/ c_parse_mode c = true.
Proof.
  unfold finish. intros H. apply then_exits in H. destruct H as [H|(c1 & G1 & H)].
  { left. revert H. match goal with |- ?a c = _ -> _ => assert (K : codes one a) by code_walk; exact (K c n) end. }
  apply (keeps_go c_parse_mode) in G1; [|keeps_tac]. rewrite <- G1. clear G1 c.
  apply then_exits in H. destruct H as [H|(c & G1 & H)].
  { left. revert H. match goal with |- ?a c1 = _ -> _ => assert (K : codes one a) by code_walk; exact (K c1 n) end. }
  apply (keeps_go c_parse_mode) in G1; [|keeps_tac]. rewrite <- G1. clear G1 c1.
  destruct (c_parse_mode c) eqn:P; [right; reflexivity|left].
  apply then_exits in H. destruct H as [H|(c1 & G1 & H)].
  { unfold look in H. rewrite P in H. discriminate H. }
  clear G1 P c. revert H. match goal with |- ?a c1 = _ -> _ => assert (K : codes one a) by code_walk; exact (K c1 n) end.
Qed.
Lemma parse_mode_end opts c c' : cli_options w opts c = Go c' ->
  c_parse_mode c' = match last_arg (all_options w opts) OPT_GEN_CONFIG with Some _ => true | None => c_parse_mode c end.
Proof.
  intros E. refine (last_loop w c_parse_mode (fun _ : option string => true) O_gen_config _ _ _ _ _ _ _ _ E);
    [discriminate| |intros o arg NE; keep_o o|reflexivity|reflexivity].
  intros arg. cbv beta iota zeta delta [option_step]. apply sets_left; [apply sets_put; reflexivity|keeps_tac].
Qed.
Definition tells (n : N) : Prop := n = short "h" \/ n = short "H".
Lemma turn_codes n a : ~ tells n -> codes one (turn w n a).
Proof.
  intros T. unfold turn. apply codes_then; [code_walk|]. apply option_codes; intros X; apply T; apply opt_code in X; try discriminate; rewrite X; [right|left]; reflexivity.
Qed.
Lemma tells_dec n : {tells n} + {~ tells n}.
Proof. unfold tells. destruct (N.eq_dec n (short "h")); [left; auto|]. destruct (N.eq_dec n (short "H")); [left; auto|right; intros [X|X]; contradiction]. Defined.
Lemma conf_codes : forall es, (forall n a, In (n, a) (flat_map (fun e => match opt_from_conf e with Some x => [x] | None => [] end) es) -> ~ tells n) ->
  codes one (conf_options w es).
Proof.
  induction es as [|e t IH]; cbn [conf_options flat_map]; intros H; [apply codes_put|].
  destruct (opt_from_conf e) as [[n a]|]; [|code_walk].
  assert (K : codes one (turn w n a >> conf_options w t)).
  { apply codes_then; [apply turn_codes, (H n a); left; reflexivity|]. apply IH. intros m b I1. apply (H m b). right. exact I1. }
  destruct (opt_of opt_codes n); solve [exact K | code_walk].
Qed.
Lemma loop_codes : forall opts, (forall n a, In (n, a) (all_options w opts) -> ~ tells n) -> codes one (cli_options w opts).
Proof.
  induction opts as [|[n a] t IH]; cbn [cli_options all_options flat_map]; intros H; [apply codes_nothing|]. fold (all_options w t) in H. cbn [fst snd] in H.
  apply codes_then; [apply turn_codes, (H n a); left; reflexivity|].
  apply codes_then; [|apply IH; intros m b I1; apply (H m b); right; apply in_or_app; right; exact I1].
  pose proof (opt_config n) as OC. destruct (opt_of opt_codes n); try apply codes_nothing. rewrite OC in H.
  unfold read_config. apply codes_then; [code_walk|]. apply codes_then; [code_walk|]. destruct a as [p|]; [|code_walk].
  destruct (negb _); [code_walk|]. destruct (w_config w p) as [f|] eqn:F; [|code_walk].
  destruct (parse_config_file f) as [es| |] eqn:PF; [|code_walk..].
  apply conf_codes. intros m b I1. apply (H m b). right. apply in_or_app. left. unfold file_options. rewrite F, PF. exact I1.
Qed.
Lemma refused_codes pre opts args n : minijail0 w pre opts args = Exits n ->
  n = 1%Z \/ has (all_options w opts) (short "h") \/ has (all_options w opts) (short "H") \/ has (all_options w opts) OPT_GEN_CONFIG.
Proof.
  intros E. set (L := all_options w opts).
  assert (DT : (forall n a, In (n, a) L -> ~ tells n) \/ exists n a, In (n, a) L /\ tells n).
  { clearbody L. induction L as [|[m b] L IH]; [left; intros m b []|]. destruct (tells_dec m) as [T|T]; [right; exists m, b; split; [left; reflexivity|exact T]|].
    destruct IH as [IH|(m' & b' & I1 & T')]; [left|right; exists m', b'; split; [right; exact I1|exact T']].
    intros m' b' [X|I1]; [injection X as <- _; exact T|exact (IH _ _ I1)]. }
  destruct DT as [DT|(m & b & I1 & [-> | ->])]; [|right; left; exists b; exact I1|right; right; left; exists b; exact I1].
  unfold minijail0 in E. destruct (parse_args w pre opts args) as [c|k| |] eqn:P; cbn [go_on] in E; try discriminate.
  - left. destruct (negb (w_setpgid w)); [injection E as <-; reflexivity|]. destruct (c_elftype c); [injection E as <-; reflexivity|discriminate|].
    destruct (c_preload c) as [p|]; [|discriminate]. destruct (negb _); [injection E as <-; reflexivity|]. unfold lib, lib_then in E.
    destruct (api_step _ _ _); cbn in E; discriminate.
  - injection E as <-. unfold parse_args in P. apply then_exits in P. destruct P as [P|(c & G & P)].
    + left. exact (loop_codes opts DT _ _ P).
    + apply finish_codes in P. destruct P as [P|P]; [left; exact P|]. rewrite (parse_mode_end _ _ _ G) in P. fold L in P.
      right. right. right. apply last_has. destruct (last_arg L OPT_GEN_CONFIG); [eauto|discriminate P].
Qed.
(* the library *)
Lemma library_name pre opts args s : minijail0 w pre opts args = Go s -> st_preload s = true ->
  exists p, match last_arg (all_options w opts) OPT_PRELOAD_LIBRARY with Some a => a = Some p | None => p = pre end /\
  j_preload_path (c_jail (st_cli s)) = Own p.
Proof.
  intros E PL. apply minijail0_go in E. destruct E as (c & E & D). apply parse_go in E. destruct E as (c1 & E & FN).
  destruct D as [[_ ->]|(_ & p & PP & _ & c' & E' & ->)]; [discriminate PL|]. exists p.
  destruct (finish_calls w _ _ _ FN) as (_ & _ & _ & PC). destruct (fields_end w _ _ _ E) as (_ & _ & _ & _ & _ & _ & _ & _ & _ & Fpre).
  change (code_of O_preload) with OPT_PRELOAD_LIBRARY in Fpre. split.
  - rewrite PC in PP. rewrite PP in Fpre. destruct (last_arg _ _); [symmetry; exact Fpre|]. cbn in Fpre. congruence.
  - assert (X : lib_path c1 = Null).
    { refine (cli_loop w (fun _ c => lib_path c = Null) _ _ opts [] (cli_start pre) c1 _ E); auto.
      intros L n a c2 c3 H T. apply turn_parts in T. destruct T as [es T]. rewrite (option_lib _ _ _ _ _ T). exact H. }
    pose proof (finish_lib w _ _ _ FN) as H2. cbv beta in H2. rewrite X in H2. unfold lib_path in H2.
    unfold lib, lib_then in E'. destruct (api_step _ _ _) as [rc j| |] eqn:S; try discriminate. injection E' as <-. cbn [st_cli c_jail put_calls put_jail].
    destruct (one_shot_step _ _ _ _ _ S) as (_ & _ & K). rewrite H2 in K. exact K.
Qed.
Lemma always_env pre opts args s : minijail0 w pre opts args = Go s -> st_preload s = true -> exists e, st_env s = Some e.
Proof.
  intros E PL. apply minijail0_go in E. destruct E as (c & E & X). destruct X as [[_ ->]|(_ & p & _ & _ & c' & E' & ->)]; [discriminate|].
  apply parse_go in E. destruct E as (c1 & E & FN). pose proof (finish_parse w _ _ _ FN) as P.
  cbn [st_env]. assert (K : c_envp c' = c_envp c) by (revert E'; apply (keeps_go c_envp); keeps_tac). rewrite K.
  exists (match c_envp c1 with Some e => e | None => w_environ w end). exact (finish_env w _ _ _ FN P).
Qed.
Lemma some_program pre opts args s : minijail0 w pre opts args = Go s -> args <> [].
Proof.
  intros E ->. apply minijail0_go in E. destruct E as (c & E & _). apply parse_go in E. destruct E as (c1 & E & FN). clear E. unfold finish in FN. cbv iota in FN.
  repeat (apply then_go in FN; let d := fresh "d" in let Q := fresh "Q" in destruct FN as (d & Q & FN); match type of Q with quit 1 _ = _ => discriminate Q | _ => clear Q end).
Qed.
End Cli.
