(* C49: the ids the options select.  C51: the environment. *)
From Verif Require Export S_Settings P_Util P_CliFin.
From Coq Require Import Lia.
Local Open Scope N_scope.

Lemma given_app {A} (f : api -> option A) a b : given f (a ++ b) = (given f a ++ given f b)%list.
Proof. apply flat_map_app. Qed.
Definition id_calls (c : cli) := (given uid_of (map fst (c_calls c)), given gid_of (map fst (c_calls c)), given suppl_of (map fst (c_calls c))).
Lemma id_calls_more c c' l : called l c c' -> given uid_of l = [] -> given gid_of l = [] -> given suppl_of l = [] -> id_calls c' = id_calls c.
Proof. unfold called, id_calls. intros -> A B C. rewrite !given_app, A, B, C, !app_nil_r. reflexivity. Qed.
Ltac id_keeps := match goal with |- keeps ?f _ => unfold keeps; act_walk (keeps_ordered f); intros; first [reflexivity |
  unfold id_calls; cbn [c_calls put_calls put_jail]; rewrite map_app, !given_app; cbn [map fst]; unfold given; cbn [flat_map uid_of gid_of suppl_of app]; rewrite !app_nil_r; reflexivity] end.
Section Ids.
Variable w : world.
Hypothesis L32 : 32 <= w_long w.
Definition ids_now (L : list (N * option string)) (c : cli) : Prop :=
  Forall id_fits L ->
  Forall2 (fun a u => exists t, a = Some t /\ uid_arg w t u) (args_of L (short "u")) (given uid_of (map fst (c_calls c))) /\
  Forall2 (fun a g => exists t, a = Some t /\ gid_arg w t g) (args_of L (short "g")) (given gid_of (map fst (c_calls c))) /\
  given suppl_of (map fst (c_calls c)) = [].
Lemma args_snoc L m a n : args_of (L ++ [(m, a)]) n = if m =? n then (args_of L n ++ [a])%list else args_of L n.
Proof. rewrite args_app. unfold args_of at 2. cbn [filter fst]. destruct (m =? n); [reflexivity|]. apply app_nil_r. Qed.
Lemma ids_loop opts c c' : cli_options w opts c = Go c' -> c_parse_mode c' = false -> c_calls c = [] -> ids_now (all_options w opts) c'.
Proof.
  intros E P Z. apply (rel_loop w ids_now) with (c := c); auto; [|intros _; rewrite Z; repeat split; constructor].
  intros L n a c1 c2 H P1 _ T F. apply Forall_app in F. destruct F as [F1 F2]. inversion F2 as [|x y Fx _ EQ]. subst.
  destruct (H F1) as (U & G & SU). clear H. rewrite !args_snoc.
  destruct (N.eqb_spec n (short "u")) as [->|NE]; [|destruct (N.eqb_spec n (short "g")) as [->|NE2]].
  - change (short "u" =? short "g") with false. cbv iota. change (opt_of opt_codes (short "u")) with O_u in T. cbv beta iota zeta delta [option_step] in T.
    apply guard_go in T. destruct T as [_ T]. apply then_go in T. destruct T as (c3 & E1 & T). apply put_go in E1. subst c3.
    apply unless_go in T; [|exact P1]. destruct a as [a|]; [|discriminate]. cbn [need] in T. unfold cli_set_user in T.
    pose proof (Fx a eq_refl (or_introl eq_refl)) as GG. destruct (id_number w a) as [v|] eqn:I.
    + pose proof (id_some w L32 _ _ I) as (z & D & V).
      apply then_go in T. destruct T as (c3 & E1 & T). apply put_go in E1. subst c3. apply calls_lib0 in T || apply calls_lib in T.
      unfold called in T. rewrite T. cbn [c_calls put_uid put_use_uid]. rewrite !given_app, SU. unfold given at 2 4 5. cbn [flat_map uid_of gid_of suppl_of app].
      rewrite !app_nil_r. split; [|auto]. apply Forall2_app; [exact U|]. constructor; [|constructor]. exists a. split; [reflexivity|].
      destruct (gid_of_number w L32 a v I GG) as [X|[X _]]; [left; exact X|destruct (X z D)].
    + destruct (w_user w a) as [[u g]|] eqn:W; [|discriminate].
      apply then_go in T. destruct T as (c3 & E1 & T). apply put_go in E1. subst c3.
      apply then_go in T. destruct T as (c3 & E1 & T). apply put_go in E1. subst c3. apply calls_lib0 in T || apply calls_lib in T.
      unfold called in T. rewrite T. cbn [c_calls put_uid put_gid put_use_uid]. rewrite !given_app, SU. unfold given at 2 4 5. cbn [flat_map uid_of gid_of suppl_of app].
      rewrite !app_nil_r. split; [|auto]. apply Forall2_app; [exact U|]. constructor; [|constructor]. exists a. split; [reflexivity|].
      right. split; [exact (id_none w a I)|eauto].
  - change (opt_of opt_codes (short "g")) with O_g in T. cbv beta iota zeta delta [option_step] in T.
    apply guard_go in T. destruct T as [_ T]. apply then_go in T. destruct T as (c3 & E1 & T). apply put_go in E1. subst c3.
    apply unless_go in T; [|exact P1]. destruct a as [a|]; [|discriminate]. cbn [need] in T. unfold cli_set_group in T.
    pose proof (Fx a eq_refl (or_intror (or_introl eq_refl))) as GG.
    assert (X : exists v, called [A_change_gid v] c1 c2 /\ gid_arg w a v).
    { destruct (id_number w a) as [v|] eqn:I; [|destruct (w_group w a) as [v|] eqn:W; [|discriminate]];
        (apply then_go in T; destruct T as (c3 & E1 & T); apply put_go in E1; subst c3; apply calls_lib0 in T || apply calls_lib in T; exists v;
         split; [exact T|]).
      - apply gid_of_number; auto.
      - apply gid_of_name; auto. }
    destruct X as (v & X & GA). unfold called in X. rewrite X, !given_app, SU. unfold given at 2 4 5. cbn [flat_map uid_of gid_of suppl_of app]. rewrite !app_nil_r.
    split; [exact U|]. split; [|reflexivity]. apply Forall2_app; [exact G|]. constructor; [|constructor]. exists a. auto.
  - assert (K : id_calls c2 = id_calls c1).
    { revert T. apply (keeps_go id_calls). destruct (opt_of opt_codes n) eqn:O; cbv beta iota zeta delta [option_step]; try id_keeps.
      - apply opt_code in O; [|discriminate]. destruct NE. exact O.
      - apply opt_code in O; [|discriminate]. destruct NE2. exact O. }
    injection K as -> -> ->. auto.
Qed.
Lemma end_ids c fin : end_calls w c fin -> given uid_of fin = [] /\ given gid_of fin = [] /\
  given suppl_of fin = match c_suppl_gids c with [] => [] | l => [l] end.
Proof.
  intros [rm fl RM FL].
  assert (R : given uid_of rm = [] /\ given gid_of rm = [] /\ given suppl_of rm = []).
  { destruct RM as [[_ ->]|[_ [[_ ->]|(m & f & _ & _ & ->)]]]; repeat split. }
  assert (Fl : given uid_of fl = [] /\ given gid_of fl = [] /\ given suppl_of fl = []).
  { destruct FL as [[_ ->]|[(_ & _ & prog & _ & ->)|[(_ & _ & _ & ->)|(_ & _ & _ & [[_ ->]|(_ & prog & _ & ->)])]]]; repeat split. }
  destruct R as (R1 & R2 & R3), Fl as (F1 & F2 & F3). rewrite !given_app, R1, R2, R3, F1, F2, F3. unfold gid_map_calls.
  destruct (if (_ =? _)%Z then _ else _), (c_set_uidmap c), (c_set_gidmap c), (w_cap_setgid w), (c_forward_signals c), (c_suppl_gids c), (c_tmp_size c =? 0); repeat split.
Qed.
Lemma ids_selected pre opts args s : let L := all_options w opts in minijail0 w pre opts args = Go s -> Forall id_fits L ->
  Forall2 (fun a u => exists t, a = Some t /\ uid_arg w t u) (args_of L (short "u")) (given uid_of (map fst (c_calls (st_cli s)))) /\
  Forall2 (fun a g => exists t, a = Some t /\ gid_arg w t g) (args_of L (short "g")) (given gid_of (map fst (c_calls (st_cli s)))) /\
  exists gids, Forall2 (fun a g => exists t, a = Some t /\ gid_arg w t g) (args_of L OPT_ADD_SUPPL_GROUP) gids /\
    given suppl_of (map fst (c_calls (st_cli s))) = match gids with [] => [] | _ => [gids] end.
Proof.
  intros L E F. apply minijail0_go in E. destruct E as (c & E & D).
  apply parse_go in E. destruct E as (c1 & E & FN).
  pose proof (finish_parse w _ _ _ FN) as P. destruct (finish_calls w _ _ _ FN) as (fin & EC & CF & _).
  destruct (ids_loop _ _ _ E P eq_refl F) as (U & G & SU). destruct (end_ids _ _ EC) as (EU & EG & ES).
  pose proof (groups_end w L32 _ _ _ E P eq_refl F) as GR. fold L in U, G, GR.
  assert (K : id_calls (st_cli s) = id_calls c).
  { destruct D as [[_ ->]|(_ & p & _ & _ & c' & E' & ->)]; [reflexivity|]. cbn [st_cli]. exact (id_calls_more _ _ _ (calls_lib w _ _ _ E') eq_refl eq_refl eq_refl). }
  injection K as -> -> ->. unfold called in CF. rewrite CF, !given_app, EU, EG, ES, SU, !app_nil_r. split; [exact U|]. split; [exact G|].
  exists (c_suppl_gids c1). split; [exact GR|]. cbn [app]. destruct (c_suppl_gids c1); reflexivity.
Qed.
End Ids.

Section Env.
Variable w : world.
Definition env_now (L : list (N * option string)) (c : cli) : Prop :=
  let e := match c_envp c with Some e => e | None => w_environ w end in
  distinct (w_environ w) -> distinct e /\ forall n v, var_name n -> (has_value e n v <-> env_has w L n v).
Lemma env_snoc L o n v : env_has w (L ++ [o]) n v <->
  o = (OPT_ENV_ADD, Some (n ++ "=" ++ v)%string) \/ (env_has w L n v /\ fst o <> OPT_ENV_RESET /\ forall u, o <> (OPT_ENV_ADD, Some (n ++ "=" ++ u)%string)).
Proof.
  split.
  - intros H. inversion H as [n0 v0 H0 EQ|l n0 v0 EQ|l o0 n0 v0 H0 H1 H2 EQ]; subst.
    + destruct L; discriminate.
    + apply app_inj_tail in EQ. destruct EQ as [_ <-]. left. reflexivity.
    + apply app_inj_tail in EQ. destruct EQ as [-> ->]. right. auto.
  - intros [->|(H & R & U)]; [apply eh_add|apply eh_keep; assumption].
Qed.
Lemma sep_unique n m u v : var_name n -> var_name m -> (n ++ "=" ++ u)%string = (m ++ "=" ++ v)%string -> n = m /\ u = v.
Proof.
  intros [_ N] [_ M] E. pose proof (proj2 (strsep_some "="%char _ n u) (Logic.conj eq_refl N)) as A.
  pose proof (proj2 (strsep_some "="%char _ m v) (Logic.conj eq_refl M)) as B. change (n ++ String "=" u)%string with (n ++ "=" ++ u)%string in A.
  change (m ++ String "=" v)%string with (m ++ "=" ++ v)%string in B. rewrite E, B in A. injection A as -> ->. auto.
Qed.
Lemma env_end opts c c' : cli_options w opts c = Go c' -> c_parse_mode c' = false -> c_envp c = None -> env_now (all_options w opts) c'.
Proof.
  intros E P Z. apply (rel_loop w env_now) with (c := c); auto.
  - intros L n a c1 c2 H _ _ T D. specialize (H D).
    destruct (N.eqb_spec n OPT_ENV_ADD) as [->|NE]; [|destruct (N.eqb_spec n OPT_ENV_RESET) as [->|NE2]].
    + change (opt_of opt_codes OPT_ENV_ADD) with O_env_add in T. cbv beta iota zeta delta [option_step] in T. destruct a as [a|]; [|discriminate].
      cbn [need] in T. unfold set_child_env in T. destruct (strsep "=" a) as [m [u|]] eqn:S; [|discriminate]. apply strsep_some in S. destruct S as [-> AC].
      apply look_go in T. cbv zeta in T. unfold minijail_copy_env in T.
      set (e := match c_envp c1 with Some e => e | None => w_environ w end) in *. destruct H as [DE H].
      destruct (minijail_setenv e m u true) as [[|rc] e'] eqn:SE; [|discriminate]. apply put_go in T. subst c2. cbn [c_envp put_envp].
      assert (VM : var_name m) by (split; [intros ->; discriminate|exact AC]).
      destruct (env_history [SetVar m u true] e DE (Forall_cons _ (VM : op_ok (SetVar m u true)) (Forall_nil _))) as [DE' HE].
      cbn [fold_left env_step] in DE', HE. rewrite SE in DE', HE. cbn [snd] in DE', HE. split; [exact DE'|]. intros n v VN.
      rewrite <- (getenv_spec _ _ _ DE' VN), (HE _ VN). cbn [store_step]. rewrite env_snoc, <- (H n v VN).
      change (m ++ String "=" u)%string with (m ++ "=" ++ u)%string. destruct (String.eqb_spec n m) as [->|NM].
      * split.
        -- intros X. left. destruct (minijail_getenv e m); injection X as ->; reflexivity.
        -- intros [X|(_ & _ & X)]; [|destruct (X u); reflexivity]. injection X as X. apply (sep_unique m m) in X; auto. destruct X as [_ ->].
           destruct (minijail_getenv e m); reflexivity.
      * rewrite (getenv_spec _ _ _ DE VN). split.
        -- intros X. right. split; [exact X|]. split; [discriminate|]. intros v' Y. injection Y as Y. apply sep_unique in Y; auto. destruct Y; congruence.
        -- intros [X|(X & _)]; [|exact X]. injection X as X. apply sep_unique in X; auto. destruct X; congruence.
    + change (opt_of opt_codes OPT_ENV_RESET) with O_env_reset in T. cbv beta iota zeta delta [option_step] in T. apply put_go in T. subst c2. cbn [c_envp put_envp].
      split; [intros n VN x a0 b y c0 EQ; destruct x; discriminate|]. intros n v VN. rewrite env_snoc. split; [intros []|].
      intros [X|(_ & X & _)]; [discriminate|]. destruct X. reflexivity.
    + assert (K : c_envp c2 = c_envp c1).
      { revert T. apply (keeps_go c_envp). destruct (opt_of opt_codes n) eqn:O; cbv beta iota zeta delta [option_step]; try keeps_tac.
        - apply opt_code in O; [|discriminate]. destruct NE. exact O.
        - apply opt_code in O; [|discriminate]. destruct NE2. exact O. }
      rewrite K. destruct H as [DE H]. split; [exact DE|]. intros m v VN. rewrite env_snoc, (H m v VN). split.
      * intros X. right. split; [exact X|]. split; [exact NE2|]. intros u Y. injection Y as Y _. congruence.
      * intros [X|(X & _)]; [|exact X]. injection X as X _. congruence.
  - intros D. rewrite Z. split; [exact D|]. intros n v _. split; [apply eh_old|]. intros H. inversion H as [n0 v0 H0 EQ|l n0 v0 EQ|l o0 n0 v0 H0 H1 H2 EQ]; subst; [exact H0|destruct l; discriminate..].
Qed.
Lemma finish_env args c c' : finish w args c = Go c' -> c_parse_mode c = false ->
  c_envp c' = Some match c_envp c with Some e => e | None => w_environ w end.
Proof.
  intros E PM. unfold finish in E.
  apply then_go in E. destruct E as (c1 & E1 & E).
  assert (P1 : c_parse_mode c1 = c_parse_mode c) by (revert E1; apply (keeps_go c_parse_mode); keeps_tac).
  apply (keeps_go c_envp) in E1; [|keeps_tac].
  apply guard_go2 in E. destruct E as [_ E].
  apply then_go in E. destruct E as (c2 & E2 & E). apply look_go in E2. rewrite P1, PM in E2. cbn [only_if] in E2. injection E2 as <-. clear P1 PM.
  revert E. rewrite <- E1. clear E1 c. intros E.
  do 10 (apply then_go in E; let d := fresh "d" in let Y := fresh "Y" in destruct E as (d & Y & E); apply (keeps_go c_envp) in Y; [|keeps_tac]; revert E; rewrite <- Y; clear Y; intros E).
  apply then_go in E. destruct E as (c2 & E2 & E). apply look_go in E2. apply (keeps_go c_envp) in E; [|keeps_tac]. rewrite E. clear E.
  destruct (c_envp _) eqn:X in E2 |- *; [injection E2 as <-; exact X|]. apply put_go in E2. subst c2. reflexivity.
Qed.
Lemma env_given pre opts args s : minijail0 w pre opts args = Go s -> st_preload s = true -> distinct (w_environ w) ->
  exists e, st_env s = Some e /\ distinct e /\ forall n v, var_name n -> (has_value e n v <-> env_has w (all_options w opts) n v).
Proof.
  intros E PL D. apply minijail0_go in E. destruct E as (c & E & X). destruct X as [[_ ->]|(_ & p & _ & _ & c' & E' & ->)]; [discriminate|].
  apply parse_go in E. destruct E as (c1 & E & FN). pose proof (finish_parse w _ _ _ FN) as P. pose proof (env_end _ _ _ E P eq_refl D) as H.
  cbn [st_env]. assert (K : c_envp c' = c_envp c) by (revert E'; apply (keeps_go c_envp); keeps_tac). rewrite K. clear K E'.
  enough (K : c_envp c = Some match c_envp c1 with Some e => e | None => w_environ w end) by (rewrite K; eauto).
  exact (finish_env _ _ _ FN P).
Qed.
End Env.
