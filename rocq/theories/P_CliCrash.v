(* C58: when minijail0 has undefined behaviour. *)
From Verif Require Export P_Config P_CliFin.
From Coq Require Import Lia.
Local Open Scope N_scope.

Lemma caps_crash flag : forall n i caps, caps_from n i flag caps = Crash -> 64 < N.of_nat n + i.
Proof.
  induction n as [|n IH]; intros i caps; cbn [caps_from]; [discriminate|]. destruct (flag i); try discriminate.
  - destruct (N.ltb_spec i 64); intros E; [apply IH in E; lia|lia].
  - intros E. apply IH in E. lia.
  - intros E. apply IH in E. lia.
Qed.
Section Crash.
Variable w : world.
Variable Q : Prop.
Hypothesis Qcap : 64 <= w_last_cap w -> Q.
Hypothesis Qbind : forall src, is_valid_bind_path (w_env w) src (w_realpath w src) = BUb -> Q.
Hypothesis Qpolicy : forall p o f, ps_stream (w_policy w p) = Some f ->
  compile_filter (ps_build (w_policy w p)) o (ps_files (w_policy w p)) (Some f) = CUb -> Q.
Definition crash (a : act) : Prop := forall c, a c = Crash -> Q.
Lemma crash_nothing : crash nothing. Proof. discriminate. Qed.
Lemma crash_then f g : crash f -> crash g -> crash (f >> g).
Proof. intros F G c E. unfold then_ in E. destruct (f c) as [c1| | |] eqn:E1; cbn in E; try discriminate; [exact (G _ E)|exact (F _ E1)]. Qed.
Lemma crash_only_if b f : crash f -> crash (only_if b f). Proof. intros F. destruct b; [exact F|exact crash_nothing]. Qed.
Lemma crash_quit n : crash (quit n). Proof. discriminate. Qed.
Lemma crash_refuse b : crash (refuse_if b). Proof. destruct b; discriminate. Qed.
Lemma crash_look {A} (get : cli -> A) f : (forall x, crash (f x)) -> crash (look get f). Proof. intros F c E. exact (F _ _ E). Qed.
Lemma crash_put f : crash (put f). Proof. discriminate. Qed.
Definition calm (a : api) : Prop := forall j, api_step (w_env w) j a = AUb -> Q.
Lemma crash_lib_then a f : calm a -> (forall rc, crash (f rc)) -> crash (lib_then w a f).
Proof. intros F G c E. unfold lib_then in E. destruct (api_step _ _ _) eqn:S; [exact (G _ _ E)|discriminate|exact (F _ S)]. Qed.
Lemma crash_cbind {A} (r : went A) (f : A -> act) : (r = Crash -> Q) -> (forall a, crash (f a)) -> crash (fun c => go_on r (fun a => f a c)).
Proof. intros R F c E. destruct r; cbn in E; try discriminate; [exact (F _ _ E)|exact (R eq_refl)]. Qed.
Lemma calm_bind src dest wr : calm (A_bind src dest wr (w_realpath w src)).
Proof.
  intros j E. cbn [api_step] in E. unfold minijail_bind in E. destruct (is_valid_bind_path _ _ _) as [[]|] eqn:B; [|discriminate|exact (Qbind _ B)].
  unfold minijail_mount, minijail_mount_with_data in E. repeat match type of E with (if ?b then _ else _) = _ => destruct b end; discriminate.
Qed.
Lemma calm_policy p : calm (A_parse_seccomp_filters (w_policy w p)).
Proof.
  intros j E. cbn [api_step] in E. unfold minijail_parse_seccomp_filters in E. destruct (seccomp_should_use_filters _ _) as [[] j1]; cbn [negb] in E; [|discriminate].
  destruct (ps_stream (w_policy w p)) as [f|] eqn:S; [|discriminate]. destruct (compile_filter _ _ _ _) eqn:C; try discriminate; exact (Qpolicy _ _ _ S C).
Qed.
Lemma calm_other a : match a with A_bind _ _ _ _ | A_parse_seccomp_filters _ => False | _ => True end -> calm a.
Proof.
  intros H j E. destruct a; try destruct H; cbn [api_step] in E; api_unfold E;
  repeat match type of E with
    | context [match ?x with _ => _ end] =>
        lazymatch x with context [match _ with _ => _ end] => fail | _ => destruct x end
    end; discriminate.
Qed.
End Crash.
Ltac crash_case :=
  match goal with
  | |- crash _ (match ?x with _ => _ end) => destruct x
  | |- crash _ (fun c => match ?x with _ => _ end) => destruct x
  end.
Ltac crash_unfold :=
  match goal with
  | |- crash _ (lib _ _) => unfold lib
  | |- crash _ (lib0 _ _) => unfold lib0
  | |- crash _ (cli_set_user _ _) => unfold cli_set_user
  | |- crash _ (cli_set_group _ _) => unfold cli_set_group
  | |- crash _ (suppl_group_add _ _) => unfold suppl_group_add
  | |- crash _ (skip_securebits _ _) => unfold skip_securebits
  | |- crash _ (use_caps _ _) => unfold use_caps
  | |- crash _ (add_binding _ _) => unfold add_binding
  | |- crash _ (add_rlimit _ _) => unfold add_rlimit
  | |- crash _ (add_mount _ _) => unfold add_mount
  | |- crash _ (set_ugid_mapping _) => unfold set_ugid_mapping
  | |- crash _ (use_chroot _ _) => unfold use_chroot
  | |- crash _ (use_pivot_root _ _) => unfold use_pivot_root
  | |- crash _ default_tmp => unfold default_tmp
  | |- crash _ (use_profile _ _) => unfold use_profile
  | |- crash _ (cli_remount_mode _ _) => unfold cli_remount_mode
  | |- crash _ (cli_set_seccomp_filters _ _) => unfold cli_set_seccomp_filters
  | |- crash _ (set_child_env _ _) => unfold set_child_env
  end.
Ltac crash_step :=
  lazymatch goal with
  | |- crash _ (then_ _ _) => apply crash_then
  | |- crash _ nothing => apply crash_nothing
  | |- crash _ (quit _) => apply crash_quit
  | |- crash _ (refuse_if _) => apply crash_refuse
  | |- crash _ (only_if _ _) => apply crash_only_if
  | |- crash _ (need (Some _) _) => cbn [need]
  | |- crash _ (need_dir (Some _) _) => cbn [need_dir]
  | |- crash _ (look _ _) => apply crash_look
  | |- crash _ (put _) => apply crash_put
  | |- crash _ (lib_then _ _ _) => apply crash_lib_then
  | |- crash ?Q (fun c => go_on _ _) => apply crash_cbind; [|intros; match goal with |- crash ?R (fun c => ?f c) => change (crash R f) end]
  | |- crash _ _ => first [crash_unfold | crash_case]
  end; intros.
Section Walk.
Variable w : world.
Variable Q : Prop.
Hypothesis Qcap : 64 <= w_last_cap w -> Q.
Hypothesis Qbind : forall src, is_valid_bind_path (w_env w) src (w_realpath w src) = BUb -> Q.
Hypothesis Qpolicy : forall p o f, ps_stream (w_policy w p) = Some f ->
  compile_filter (ps_build (w_policy w p)) o (ps_files (w_policy w p)) (Some f) = CUb -> Q.
Ltac crash_leaf := first [apply (calm_bind w Q Qbind) | apply (calm_policy w Q Qpolicy) | apply calm_other; exact Logic.I].
Definition takes (o : opt) : bool := existsb (N.eqb (code_of o)) takes_argument.
Lemma option_crash o arg : (arg = None -> takes o = true -> Q) -> crash Q (option_step w o arg).
Proof.
  intros H.
  assert (X : (exists a, arg = Some a) \/ arg = None) by (destruct arg; eauto).
  destruct X as [[a ->]|E].
  - clear H. destruct o; cbv beta iota zeta delta [option_step]; repeat crash_step; try crash_leaf.
    all: try discriminate.
    apply caps_crash in H. apply Qcap. rewrite Nat2N.inj_succ, N2Nat.id in H. lia.
  - destruct (takes o) eqn:T; [intros c _; exact (H E eq_refl)|]. clear H. subst arg.
    destruct o; vm_compute in T; try discriminate T; clear T; cbv beta iota zeta delta [option_step]; repeat crash_step; try crash_leaf; try discriminate.
Qed.
Lemma then_crash (f g : act) c : (f >> g) c = Crash -> f c = Crash \/ exists c1, f c = Go c1 /\ g c1 = Crash.
Proof. unfold then_. destruct (f c); cbn; intros E; try discriminate; eauto. Qed.
Lemma finish_crash args c : (c_parse_mode c = true -> c_config_path c <> None) -> finish w args c = Crash -> Q.
Proof.
  intros P E. unfold finish in E. apply then_crash in E. destruct E as [E|(c1 & E1 & E)].
  { revert E. match goal with |- ?a c = _ -> _ => assert (K : crash Q a) by (repeat crash_step; try crash_leaf); exact (K c) end. }
  assert (K : c_parse_mode c1 = c_parse_mode c /\ c_config_path c1 = c_config_path c).
  { split; revert E1; [apply (keeps_go c_parse_mode)|apply (keeps_go c_config_path)]; keeps_tac. }
  destruct K as [K1 K2]. clear E1. apply then_crash in E. destruct E as [E|(c2 & E1 & E)].
  { unfold look, refuse_if in E. destruct (_ && _); discriminate. }
  unfold look, refuse_if in E1. destruct (_ && _); [discriminate|]. injection E1 as <-.
  apply then_crash in E. destruct E as [E|(c2 & _ & E)].
  { unfold look in E. rewrite K1 in E. destruct (c_parse_mode c); [|discriminate]. specialize (P eq_refl). cbn [only_if] in E. unfold gen_config, look in E. cbv beta in E. rewrite K2 in E.
    destruct (c_config_path c); [|congruence]. destruct (_ || _); discriminate. }
  revert E. match goal with |- ?a c2 = _ -> _ => assert (K : crash Q a) end.
  { repeat crash_step; try crash_leaf.
    all: match goal with H : read_seccomp_filter _ _ = Crash |- _ => exfalso; revert H; unfold read_seccomp_filter end;
      repeat match goal with |- (if ?b then _ else _) = _ -> _ => destruct b | |- (match ?b with _ => _ end) = _ -> _ => destruct b end; discriminate. }
  exact (K c2).
Qed.
Lemma turn_crash n arg c : (arg = None -> In n takes_argument -> Q) -> turn w n arg c = Crash -> Q.
Proof.
  intros H E. unfold turn in E. apply then_crash in E. destruct E as [E|(c1 & _ & E)]; [discriminate|]. revert E. apply option_crash.
  intros A T. apply (H A). unfold takes in T. apply existsb_exists in T. destruct T as (m & I & T). apply N.eqb_eq in T. subst m.
  destruct (opt_of opt_codes n) eqn:O; try (apply opt_code in O; [subst n; exact I|discriminate]).
  exfalso. clear - I. vm_compute in I. repeat (destruct I as [I|I]; [discriminate|]). destruct I.
Qed.
Lemma conf_crash : forall es c,
  (forall n, In (n, None) (flat_map (fun e => match opt_from_conf e with Some x => [x] | None => [] end) es) -> In n takes_argument -> Q) ->
  conf_options w es c = Crash -> Q.
Proof.
  induction es as [|e t IH]; cbn [conf_options flat_map]; intros c H E; [discriminate|].
  destruct (opt_from_conf e) as [[n a]|]; [|discriminate].
  assert (E' : (turn w n a >> conf_options w t) c = Crash) by (destruct (opt_of opt_codes n); try exact E; discriminate E). clear E.
  apply then_crash in E'. destruct E' as [E'|(c1 & _ & E')].
  - revert E'. apply turn_crash. intros -> I. exact (H n (or_introl eq_refl) I).
  - revert E'. apply IH. intros m I. apply H. right. exact I.
Qed.
Lemma loop_crash : forall opts c, (forall n, In (n, None) (all_options w opts) -> In n takes_argument -> Q) -> cli_options w opts c = Crash -> Q.
Proof.
  induction opts as [|[n a] t IH]; cbn [cli_options all_options flat_map]; intros c H E; [discriminate|]. fold (all_options w t) in H. cbn [fst snd] in H. rewrite opt_config in H.
  apply then_crash in E. destruct E as [E|(c1 & _ & E)].
  { revert E. apply turn_crash. intros -> I. exact (H n (or_introl eq_refl) I). }
  apply then_crash in E. destruct E as [E|(c2 & _ & E)].
  { destruct (opt_of opt_codes n); try discriminate. unfold read_config in E. apply then_crash in E. destruct E as [E|(c2 & _ & E)].
    { unfold look, refuse_if in E. destruct (c_conf_open c1); discriminate. }
    apply then_crash in E. destruct E as [E|(c3 & _ & E)]; [discriminate|].
    destruct a as [p|]; [|discriminate]. destruct (negb _); [discriminate|]. unfold file_options in H. destruct (w_config w p) as [f|]; [|discriminate].
    pose proof (config_no_ub f) as U. destruct (parse_config_file f) as [es| |]; [|discriminate|destruct U; reflexivity].
    revert E. apply conf_crash. intros m I. apply H. right. apply in_or_app. left. exact I. }
  revert E. apply IH. intros m I. apply H. right. apply in_or_app. right. exact I.
Qed.
End Walk.

(* Where the missing path of --gen-config and --preload-library would show. *)
Definition path_given (L : list (N * option string)) (c : cli) : Prop :=
  (c_parse_mode c = true -> c_config_path c <> None) /\ (c_preload c = None -> In (OPT_PRELOAD_LIBRARY, None) L).
Definition paths (c : cli) := (c_parse_mode c, c_config_path c, c_preload c).
Lemma path_turn w L n a c c' : path_given L c -> turn w n a c = Go c' -> path_given (L ++ [(n, a)])%list c'.
Proof.
  intros [H1 H2] E. unfold turn in E. apply then_go in E. destruct E as (c1 & E1 & E). apply (keeps_go paths) in E1; [|keeps_tac]. injection E1 as K1 K2 K3.
  rewrite <- K1, <- K2 in H1. rewrite <- K3 in H2. clear K1 K2 K3.
  assert (K : (paths c' = paths c1 -> path_given (L ++ [(n, a)])%list c')).
  { intros K. injection K as K1 K2 K3. split; [rewrite K1, K2; exact H1|rewrite K3]. intros X. apply in_or_app. left. exact (H2 X). }
  destruct (opt_of opt_codes n) eqn:O; cbv beta iota zeta delta [option_step] in E; try (apply K; revert E; apply (keeps_go paths); keeps_tac).
  - apply opt_code in O; [|discriminate]. injection E as <-. split; [exact H1|]. cbn [c_preload put_preload]. intros ->. subst n. apply in_or_app. right. left. reflexivity.
  - destruct a as [a|]; [|discriminate]. injection E as <-. split; [discriminate|]. cbn. intros X. apply in_or_app. left. exact (H2 X).
Qed.
Lemma path_loop w pre opts c : cli_options w opts (cli_start pre) = Go c -> path_given (all_options w opts) c.
Proof.
  intros E. refine (cli_loop w path_given _ _ opts [] (cli_start pre) c _ E).
  - intros L c1 b H. exact H.
  - intros L n a c1 c2. apply path_turn.
  - split; discriminate.
Qed.
Lemma finish_paths w args c c' : finish w args c = Go c' -> c_preload c' = c_preload c.
Proof. unfold finish. apply (keeps_go c_preload). keeps_tac. Qed.

Lemma crash_causes w pre opts args : minijail0 w pre opts args = Crash ->
  (exists n, In (n, None) (all_options w opts) /\ In n takes_argument) \/
  64 <= w_last_cap w \/
  (exists src, is_valid_bind_path (w_env w) src (w_realpath w src) = BUb) \/
  (exists p o f, ps_stream (w_policy w p) = Some f /\ compile_filter (ps_build (w_policy w p)) o (ps_files (w_policy w p)) (Some f) = CUb).
Proof.
  intros E. match goal with |- ?G => set (Q := G) end.
  assert (Qarg : forall n, In (n, None) (all_options w opts) -> In n takes_argument -> Q) by (intros n A B; left; exists n; split; assumption).
  assert (Qcap : 64 <= w_last_cap w -> Q) by (intros A; right; left; exact A).
  assert (Qbind : forall src, is_valid_bind_path (w_env w) src (w_realpath w src) = BUb -> Q) by (intros src A; right; right; left; exists src; exact A).
  assert (Qpol : forall p o f, ps_stream (w_policy w p) = Some f -> compile_filter (ps_build (w_policy w p)) o (ps_files (w_policy w p)) (Some f) = CUb -> Q)
    by (intros p o f A B; right; right; right; exists p, o, f; split; assumption).
  unfold minijail0 in E. destruct (parse_args w pre opts args) as [c| | |] eqn:P; cbn [go_on] in E; try discriminate.
  - destruct (negb _); [discriminate|]. destruct (c_elftype c); try discriminate.
    destruct (c_preload c) as [p|] eqn:PR.
    + destruct (negb _); [discriminate|]. destruct (lib w (A_set_preload_path p) c) eqn:LB; cbn [go_on] in E; try discriminate.
      unfold lib, lib_then in LB. cbn [api_step] in LB. unfold minijail_set_preload_path in LB. destruct (negb _); discriminate LB.
    + unfold parse_args in P. apply then_go in P. destruct P as (c1 & E1 & E2). apply path_loop in E1. destruct E1 as [_ X].
      apply (Qarg OPT_PRELOAD_LIBRARY); [apply X; rewrite <- (finish_paths _ _ _ _ E2); exact PR|vm_compute; tauto].
  - unfold parse_args in P. apply then_crash in P. destruct P as [P|(c1 & E1 & P)].
    + exact (loop_crash w Q Qcap Qbind Qpol _ _ Qarg P).
    + apply path_loop in E1. destruct E1 as [X _]. exact (finish_crash w Q Qpol _ _ X P).
Qed.

Lemma prefix_ub : forall l path, under_prefix l path = BUb -> In ""%string l.
Proof.
  induction l as [|p t IH]; cbn; intros path E; [discriminate|]. unfold path_is_parent in E. destruct (has_prefix p path).
  - destruct (Nat.ltb _ _); [|right; exact (IH _ E)]. destruct p as [|x p]; [left; reflexivity|]. cbn [String.length] in E.
    destruct (_ || _); [discriminate|right; exact (IH _ E)].
  - right. exact (IH _ E).
Qed.
Lemma bind_ub e src rp : is_valid_bind_path e src rp = BUb -> k_block_symlinks e = true /\ exists l, splits "," (k_bind_prefixes e) l /\ In ""%string l.
Proof.
  unfold is_valid_bind_path. destruct (k_block_symlinks e); cbn [negb]; [|discriminate]. destruct (is_canonical_path _ _); [discriminate|].
  intros E. split; [reflexivity|]. exists (tokens "," (k_bind_prefixes e)). split; [apply tokens_spec; [discriminate|reflexivity]|exact (prefix_ub _ _ E)].
Qed.
Lemma crashes w pre opts args : minijail0 w pre opts args = Crash ->
  (exists n, In (n, None) (all_options w opts) /\ In n takes_argument) \/
  64 <= w_last_cap w \/
  (k_block_symlinks (w_env w) = true /\ exists l, splits "," (k_bind_prefixes (w_env w)) l /\ In ""%string l) \/
  (exists p o f, ps_stream (w_policy w p) = Some f /\ compile_filter (ps_build (w_policy w p)) o (ps_files (w_policy w p)) (Some f) = CUb).
Proof.
  intros E. apply crash_causes in E. destruct E as [E|[E|[[src E]|E]]].
  - left. exact E.
  - right. left. exact E.
  - right. right. left. exact (bind_ub _ _ _ E).
  - right. right. right. exact E.
Qed.

(* The jail is what the recorded calls made of a new one. *)
Lemma jail_built w pre opts args s : minijail0 w pre opts args = Go s -> history (w_env w) minijail_new (c_calls (st_cli s)) (c_jail (st_cli s)).
Proof.
  intros E. change (built w (st_cli s)). unfold minijail0 in E. destruct (parse_args w pre opts args) as [c| | |] eqn:P; cbn [go_on] in E; try discriminate.
  assert (B : built w c).
  { unfold parse_args in P. apply then_go in P. destruct P as (c1 & E1 & E2). apply (finish_builds w args _ _ E2).
    refine (cli_loop w (fun _ c => built w c) _ _ opts [] (cli_start pre) c1 _ E1).
    - intros L x b H. exact H.
    - intros L n a x y H T. exact (turn_builds w n a _ _ T H).
    - constructor. }
  destruct (negb _); [discriminate|]. destruct (c_elftype c); try discriminate; [injection E as <-; exact B|].
  destruct (c_preload c) as [p|]; [|discriminate]. destruct (negb _); [discriminate|]. destruct (lib w (A_set_preload_path p) c) as [c1| | |] eqn:LB; cbn [go_on] in E; try discriminate.
  injection E as <-. cbn [st_cli]. assert (R : rel (builds w) (lib w (A_set_preload_path p))) by (act_walk (builds_ordered w); builds_leaf).
  exact (R _ _ LB B).
Qed.
