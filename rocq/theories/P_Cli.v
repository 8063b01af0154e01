(* Proof tools for the model of minijail0. *)
From Verif Require Export S_Cli.
Local Open Scope N_scope.

Section Rel.
Variable w : world.
Definition rel (R : cli -> cli -> Prop) (a : act) : Prop := forall c c', a c = Go c' -> R c c'.
Record ordered (R : cli -> cli -> Prop) : Prop := {
  o_refl : forall c, R c c;
  o_trans : forall a b c, R a b -> R b c -> R a c }.
Variable R : cli -> cli -> Prop.
Hypothesis O : ordered R.
Lemma rel_nothing : rel R nothing. Proof. intros c c' [= <-]. apply O. Qed.
Lemma rel_then f g : rel R f -> rel R g -> rel R (f >> g).
Proof. intros F G c c' E. unfold then_ in E. destruct (f c) as [c1| | |] eqn:E1; cbn in E; try discriminate. eapply O; [exact (F _ _ E1)|exact (G _ _ E)]. Qed.
Lemma rel_only_if b f : rel R f -> rel R (only_if b f).
Proof. intros F. destruct b; [exact F|exact rel_nothing]. Qed.
Lemma rel_quit n : rel R (quit n). Proof. discriminate. Qed.
Lemma rel_crash : rel R (fun _ => Crash). Proof. discriminate. Qed.
Lemma rel_refuse b : rel R (refuse_if b).
Proof. destruct b; [apply rel_quit|exact rel_nothing]. Qed.
Lemma rel_look {A} (get : cli -> A) f : (forall x, rel R (f x)) -> rel R (look get f).
Proof. intros F c c' E. exact (F _ _ _ E). Qed.
Lemma rel_need arg f : (forall s, rel R (f s)) -> rel R (need arg f).
Proof. intros F. destruct arg; cbn; [apply F|apply rel_crash]. Qed.
Lemma rel_need_dir arg f : (forall s, rel R (f s)) -> rel R (need_dir arg f).
Proof. intros F. destruct arg; cbn; [apply F|]. apply rel_look. intros j. destruct (is_null _); [apply rel_crash|apply rel_quit]. Qed.
Lemma rel_put f : (forall c, R c (f c)) -> rel R (put f).
Proof. intros F c c' [= <-]. apply F. Qed.
Lemma rel_lib_then a f :
  (forall c rc j, api_step (w_env w) (c_jail c) a = ARet rc j -> R c (put_calls (c_calls c ++ [(a, rc)])%list (put_jail j c))) ->
  (forall rc, rel R (f rc)) -> rel R (lib_then w a f).
Proof.
  intros F G c c' E. unfold lib_then in E. destruct (api_step _ _ _) as [rc j| |] eqn:E1; try discriminate.
  eapply O; [exact (F _ _ _ E1)|exact (G _ _ _ E)].
Qed.
Lemma rel_cbind {A} (r : went A) (f : A -> act) : (forall a, rel R (f a)) -> rel R (fun c => go_on r (fun a => f a c)).
Proof. intros F c c' E. destruct r; cbn in E; try discriminate. exact (F _ _ _ E). Qed.
End Rel.

(* Walk through the structure of an action; the leaves are [put]s and calls. *)
Ltac act_case :=
  match goal with
  | |- rel _ (match ?x with _ => _ end) => destruct x
  | |- rel _ (fun c => match ?x with _ => _ end) => destruct x
  end.
Ltac act_unfold :=
  match goal with
  | |- rel _ (lib _ _) => unfold lib
  | |- rel _ (lib0 _ _) => unfold lib0
  | |- rel _ (cli_set_user _ _) => unfold cli_set_user
  | |- rel _ (cli_set_group _ _) => unfold cli_set_group
  | |- rel _ (suppl_group_add _ _) => unfold suppl_group_add
  | |- rel _ (skip_securebits _ _) => unfold skip_securebits
  | |- rel _ (use_caps _ _) => unfold use_caps
  | |- rel _ (add_binding _ _) => unfold add_binding
  | |- rel _ (add_rlimit _ _) => unfold add_rlimit
  | |- rel _ (add_mount _ _) => unfold add_mount
  | |- rel _ (set_ugid_mapping _) => unfold set_ugid_mapping
  | |- rel _ (use_chroot _ _) => unfold use_chroot
  | |- rel _ (use_pivot_root _ _) => unfold use_pivot_root
  | |- rel _ default_tmp => unfold default_tmp
  | |- rel _ (use_profile _ _) => unfold use_profile
  | |- rel _ (cli_remount_mode _ _) => unfold cli_remount_mode
  | |- rel _ (cli_set_seccomp_filters _ _) => unfold cli_set_seccomp_filters
  | |- rel _ (set_child_env _ _) => unfold set_child_env
  | |- rel _ (gen_config _) => unfold gen_config
  end.
Ltac act_step O :=
  lazymatch goal with
  | |- rel _ (then_ _ _) => apply (rel_then _ O)
  | |- rel _ nothing => apply (rel_nothing _ O)
  | |- rel _ (quit _) => apply rel_quit
  | |- rel _ (fun _ => Crash) => apply rel_crash
  | |- rel _ (refuse_if _) => apply (rel_refuse _ O)
  | |- rel _ (only_if _ _) => apply (rel_only_if _ O)
  | |- rel _ (need _ _) => apply rel_need
  | |- rel _ (need_dir _ _) => apply rel_need_dir
  | |- rel _ (look _ _) => apply rel_look
  | |- rel _ (put _) => apply rel_put
  | |- rel _ (lib_then _ _ _) => apply (rel_lib_then _ _ O)
  | |- rel _ (fun c => go_on _ _) => apply rel_cbind; intros; match goal with |- rel ?R (fun c => ?f c) => change (rel R f) end
  | |- rel _ _ => first [act_unfold | act_case]
  end; intros.
Ltac act_walk O := repeat (act_step O).

(* All calls are recorded: the jail is built by them. *)
Definition built (w : world) (c : cli) : Prop := history (w_env w) minijail_new (c_calls c) (c_jail c).
Lemma history_snoc e j h j1 a rc j2 : history e j h j1 -> api_step e j1 a = ARet rc j2 -> history e j (h ++ [(a, rc)]) j2.
Proof. induction 1; intros E; cbn; econstructor; eauto. constructor. Qed.
Definition builds (w : world) (c c' : cli) : Prop := built w c -> built w c'.
Lemma builds_ordered w : ordered (builds w).
Proof. split; unfold builds; auto. Qed.
Lemma builds_put w f : (forall c, c_jail (f c) = c_jail c /\ c_calls (f c) = c_calls c) -> forall c, builds w c (f c).
Proof. intros F c. unfold builds, built. destruct (F c) as [-> ->]. auto. Qed.
Ltac builds_leaf := first [ apply builds_put; intros; split; reflexivity
  | unfold builds, built; intros; cbn; eapply history_snoc; eassumption ].
Lemma option_builds w o arg : rel (builds w) (option_step w o arg).
Proof. destruct o; cbv beta iota zeta delta [option_step]; act_walk (builds_ordered w); builds_leaf. Qed.
Lemma turn_builds w n arg : rel (builds w) (turn w n arg).
Proof. unfold turn. act_step (builds_ordered w); [act_walk (builds_ordered w); builds_leaf|apply option_builds]. Qed.
Lemma finish_builds w args : rel (builds w) (finish w args).
Proof. unfold finish. act_walk (builds_ordered w); builds_leaf. Qed.

(* The loop visits the options of [all_options] one after the other. *)
Section Loop.
Variable w : world.
Variable Inv : list (N * option string) -> cli -> Prop.
Hypothesis Hopen : forall L c b, Inv L c -> Inv L (put_conf_open b c).
Hypothesis Hturn : forall L n a c c', Inv L c -> turn w n a c = Go c' -> Inv (L ++ [(n, a)])%list c'.
Lemma then_go (f g : act) c c' : (f >> g) c = Go c' -> exists c1, f c = Go c1 /\ g c1 = Go c'.
Proof. unfold then_. destruct (f c); cbn; try discriminate. eauto. Qed.
Lemma conf_loop : forall es L c c', Inv L c -> conf_options w es c = Go c' ->
  Inv (L ++ flat_map (fun e => match opt_from_conf e with Some x => [x] | None => [] end) es)%list c'.
Proof.
  induction es as [|e t IH]; cbn [conf_options flat_map]; intros L c c' H E.
  - injection E as <-. rewrite app_nil_r. apply Hopen, H.
  - destruct (opt_from_conf e) as [[n a]|]; [|discriminate].
    assert (E' : (turn w n a >> conf_options w t) c = Go c') by (destruct (opt_of opt_codes n); try exact E; discriminate E). clear E.
    apply then_go in E'. destruct E' as (c1 & E1 & E2). cbn [app].
    specialize (IH (L ++ [(n, a)])%list c1 c' (Hturn _ _ _ _ _ H E1) E2). rewrite <- app_assoc in IH. exact IH.
Qed.
Lemma opt_of_in : forall tbl n o, opt_of tbl n = o -> o <> O_other -> In (o, n) tbl.
Proof.
  induction tbl as [|[o' m] t IH]; cbn; intros n o E NE; [congruence|].
  destruct (N.eqb_spec n m) as [->|]; [left; congruence|right; apply IH; auto].
Qed.
Lemma opt_config n : (n =? OPT_CONFIG) = match opt_of opt_codes n with O_config => true | _ => false end.
Proof.
  destruct (N.eqb_spec n OPT_CONFIG) as [->|NE]; [reflexivity|].
  destruct (opt_of opt_codes n) eqn:E; try reflexivity.
  apply opt_of_in in E; [|discriminate]. exfalso. apply NE. revert E. unfold opt_codes.
  intros E. repeat (destruct E as [E|E]; [try discriminate E; now injection E|]). destruct E.
Qed.
Lemma cli_loop : forall opts L c c', Inv L c -> cli_options w opts c = Go c' -> Inv (L ++ all_options w opts)%list c'.
Proof.
  induction opts as [|[n a] t IH]; cbn [cli_options all_options flat_map]; intros L c c' H E.
  - injection E as <-. now rewrite app_nil_r.
  - apply then_go in E. destruct E as (c1 & E1 & E). apply then_go in E. destruct E as (c2 & E2 & E3).
    fold (all_options w t). cbn [fst snd]. rewrite opt_config. specialize (Hturn _ _ _ _ _ H E1) as H1.
    assert (H2 : Inv (L ++ (n, a) :: (if match opt_of opt_codes n with O_config => true | _ => false end
                     then match a with Some p => file_options w p | None => [] end else []))%list c2).
    { assert (N0 : nothing c1 = Go c2 -> Inv (L ++ [(n, a)])%list c2) by (intros [= <-]; exact H1).
      destruct (opt_of opt_codes n); try exact (N0 E2). unfold read_config in E2.
      apply then_go in E2. destruct E2 as (c3 & E4 & E2). apply then_go in E2. destruct E2 as (c4 & E5 & E2).
      unfold look, refuse_if in E4. destruct (c_conf_open c1); [discriminate E4|]. injection E4 as <-. injection E5 as <-.
      destruct a as [p|]; [|discriminate]. destruct (w_config_ok w p); [|discriminate]. unfold file_options. cbn [negb] in E2.
      destruct (w_config w p) as [f|]; [|discriminate]. destruct (parse_config_file f) as [es| |]; try discriminate.
      pose proof (conf_loop es _ _ _ (Hopen _ _ true H1) E2) as X. rewrite <- app_assoc in X. exact X. }
    specialize (IH _ _ _ H2 E3). rewrite <- app_assoc in IH. exact IH.
Qed.
End Loop.

(* Fields an action leaves alone, and fields it gives a value. *)
Definition keeps {A} (f : cli -> A) (a : act) : Prop := rel (fun c c' => f c' = f c) a.
Definition sets {A} (f : cli -> A) (v : A) (a : act) : Prop := rel (fun c c' => f c' = v) a.
Lemma keeps_ordered {A} (f : cli -> A) : ordered (fun c c' => f c' = f c).
Proof. split; congruence. Qed.
Lemma sets_left {A} (f : cli -> A) v a b : sets f v a -> keeps f b -> sets f v (a >> b).
Proof. intros S K c c' E. apply then_go in E. destruct E as (c1 & E1 & E2). rewrite (K _ _ E2). exact (S _ _ E1). Qed.
Lemma sets_right {A} (f : cli -> A) v a b : sets f v b -> sets f v (a >> b).
Proof. intros S c c' E. apply then_go in E. destruct E as (c1 & E1 & E2). exact (S _ _ E2). Qed.
Lemma sets_put {A} (f : cli -> A) v g : (forall c, f (g c) = v) -> sets f v (put g).
Proof. intros S c c' [= <-]. apply S. Qed.
Ltac keeps_tac :=
  match goal with |- keeps ?f _ => unfold keeps; act_walk (keeps_ordered f); intros; reflexivity end.
Ltac sets_tac :=
  lazymatch goal with
  | |- sets _ _ (then_ _ _) => first [apply sets_right; sets_tac | apply sets_left; [sets_tac|keeps_tac]]
  | |- sets _ _ (put _) => apply sets_put; intros; reflexivity
  end.
