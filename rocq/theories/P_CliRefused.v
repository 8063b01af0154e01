(* C61: configuration calls that the library refuses. *)
From Verif Require Export P_CliFin.
Local Open Scope N_scope.
Definition ignored (a : api) : Prop :=
  match a with A_namespace_set_hostname _ | A_preserve_fd _ _ => True | _ => False end.
Definition heed (x : api * Z) : Prop := (0 <= snd x)%Z \/ ignored (fst x).
Definition heeds (c c' : cli) : Prop := Forall heed (c_calls c) -> Forall heed (c_calls c').
Lemma heeds_ordered : ordered heeds. Proof. split; unfold heeds; auto. Qed.
Lemma heeds_lib0 w a : rel heeds (lib0 w a).
Proof.
  intros c c' E H. unfold lib0, lib_then in E. destruct (api_step _ _ _) as [rc j| |]; try discriminate. apply refuse_go in E. destruct E as [E ->].
  cbn [c_calls put_calls]. apply Forall_app. split; [exact H|]. constructor; [|constructor]. left. cbn. destruct (Z.eqb_spec rc 0); [subst; discriminate|discriminate].
Qed.
Lemma heeds_same c f : c_calls (f c) = c_calls c -> heeds c (f c). Proof. unfold heeds. intros ->. auto. Qed.
Ltac zero H := cbn [api_step] in H; api_cases H; discriminate.
Lemma heeds_call w c a rc j : api_step (w_env w) (c_jail c) a = ARet rc j -> heed (a, rc) -> heeds c (put_calls (c_calls c ++ [(a, rc)])%list (put_jail j c)).
Proof. intros _ X H. cbn [c_calls put_calls]. apply Forall_app. split; [exact H|]. constructor; [exact X|constructor]. Qed.
Ltac walk := repeat (first [apply heeds_lib0 | act_step heeds_ordered]).
Ltac leaf := first [apply heeds_same; reflexivity | eapply heeds_call; [eassumption|]; left; cbn [snd]; match goal with H : api_step _ _ _ = _ |- _ => zero H end | eapply heeds_call; [eassumption|]; right; exact Logic.I].
Lemma option_heeds w o arg : rel heeds (option_step w o arg).
Proof. destruct o; cbv beta iota zeta delta [option_step]; walk; leaf. Qed.
Lemma finish_heeds w args : rel heeds (finish w args).
Proof. unfold finish. walk; leaf. Qed.
Definition lib_path (c : cli) := j_preload_path (c_jail c).
Ltac lib_keeps := match goal with |- keeps ?f _ => unfold keeps; act_walk (keeps_ordered f); intros; first [reflexivity |
  unfold lib_path; cbn [c_jail put_calls put_jail]; match goal with H : api_step _ _ _ = ARet _ _ |- _ => frame_step H end] end.
Lemma option_lib w o arg : keeps lib_path (option_step w o arg).
Proof. destruct o; cbv beta iota zeta delta [option_step]; lib_keeps. Qed.
Lemma finish_lib w args : keeps lib_path (finish w args).
Proof. unfold finish. lib_keeps. Qed.
Section Refused.
Variable w : world.
Lemma refusals pre opts args s : minijail0 w pre opts args = Go s -> Forall heed (c_calls (st_cli s)).
Proof.
  intros E. apply minijail0_go in E. destruct E as (c & E & D). apply parse_go in E. destruct E as (c1 & E & FN).
  assert (X : Forall heed (c_calls c1) /\ lib_path c1 = Null).
  { refine (cli_loop w (fun _ c => Forall heed (c_calls c) /\ lib_path c = Null) _ _ opts [] (cli_start pre) c1 _ E); auto.
    - intros L n a c2 c3 [H1 H2] T. apply turn_parts in T. destruct T as [es T]. split; [exact (option_heeds _ _ _ _ _ T H1)|].
      rewrite (option_lib _ _ _ _ _ T). exact H2.
    - split; [constructor|reflexivity]. }
  destruct X as [X1 X2]. pose proof (finish_heeds w _ _ _ FN X1) as H1. pose proof (finish_lib w _ _ _ FN) as H2. cbv beta in H2. rewrite X2 in H2.
  destruct D as [[_ ->]|(_ & p & _ & _ & c' & E' & ->)]; cbn [st_cli]; [exact H1|].
  unfold lib, lib_then in E'. destruct (api_step _ _ _) as [rc j| |] eqn:S; try discriminate. injection E' as <-. cbn [c_calls put_calls].
  apply Forall_app. split; [exact H1|]. constructor; [|constructor]. left. cbn [snd]. unfold lib_path in H2. cbn [api_step] in S.
  unfold minijail_set_preload_path in S. rewrite H2 in S. cbn [is_null negb] in S. apply ARet_inj in S. destruct S as [<- _]. discriminate.
Qed.
Lemma refusals_claim pre opts args s a rc : minijail0 w pre opts args = Go s -> In (a, rc) (c_calls (st_cli s)) -> (rc < 0)%Z ->
  (exists n, a = A_namespace_set_hostname n) \/ exists p c, a = A_preserve_fd p c.
Proof.
  intros E H L. apply refusals in E. rewrite Forall_forall in E. destruct (E _ H) as [X|X]; cbn in X; [destruct X; now rewrite Z.compare_gt_iff|].
  destruct a; try destruct X; eauto.
Qed.
End Refused.
