(* The calls minijail0 makes are those its options stand for (C49, C59). *)
From Verif Require Export P_CliConf P_CliNum.
From Coq Require Import Lia.
Local Open Scope N_scope.

(* ---- text in comma-separated fields ---- *)
Lemma no_comma_first p r : ~ contains "," p -> forall a b, (p ++ "," ++ r = a ++ "," ++ b)%string -> (String.length p <= String.length a)%nat.
Proof.
  revert r. induction p as [|x p IH]; intros r N a b E; cbn [String.length]; [lia|].
  destruct a as [|y a]; cbn in E.
  - exfalso. injection E as -> _. apply N. exists ""%string, p. reflexivity.
  - injection E as -> E. cbn [String.length]. apply le_n_S. apply (IH r) with b; [|exact E]. intros (u & v & ->). apply N. exists (String y u), v. reflexivity.
Qed.
Lemma first_no_comma p r : (forall a b, (p ++ "," ++ r = a ++ "," ++ b)%string -> (String.length p <= String.length a)%nat) -> ~ contains "," p.
Proof.
  intros M (u & v & ->). specialize (M u (v ++ "," ++ r)%string). rewrite !slen_app in M.
  assert (X : (((u ++ "," ++ v) ++ "," ++ r)%string = (u ++ "," ++ (v ++ "," ++ r))%string)) by (rewrite !sapp_assoc; reflexivity).
  specialize (M X). cbn in M. lia.
Qed.
Lemma tokenize_none s t : tokenize "," s = (t, None) -> s = t /\ ~ contains "," t.
Proof. unfold tokenize. destruct (cut_first "," s) as [[a b]|] eqn:C; intros [= <-]. split; [reflexivity|]. apply cut_first_none, C. Qed.
Lemma tokenize_some s t r : tokenize "," s = (t, Some r) -> s = (t ++ "," ++ r)%string /\ ~ contains "," t.
Proof.
  unfold tokenize. destruct (cut_first "," s) as [[a b]|] eqn:C; intros [= <- <-]. apply cut_first_some in C. destruct C as [-> M].
  split; [reflexivity|]. apply first_no_comma with b. exact M.
Qed.
Lemma splits_one s : ~ contains "," s -> splits "," s [s]. Proof. apply splits_last. Qed.
Lemma splits_more p r l : ~ contains "," p -> splits "," r l -> splits "," (p ++ "," ++ r) (p :: l).
Proof. intros N S. apply splits_cons; [|exact S]. apply no_comma_first, N. Qed.
Ltac fields_in :=
  repeat match goal with
  | E : tokenize "," _ = (_, None) |- _ => apply tokenize_none in E; let N := fresh "N" in destruct E as [-> N]
  | E : tokenize "," _ = (_, Some _) |- _ => apply tokenize_some in E; let N := fresh "N" in destruct E as [-> N]
  end.
Ltac fields_out := repeat (apply splits_more; [assumption|]); apply splits_one; assumption.

(* ---- the code of each option ---- *)
Definition code_of (o : opt) : N := match find (fun x => match x with (a, _) => match a, o with
    | O_u, O_u | O_g, O_g | O_n, O_n | O_s, O_s | O_S_, O_S_ | O_l, O_l | O_L, O_L | O_b, O_b | O_B, O_B | O_c, O_c
    | O_C_, O_C_ | O_k, O_k | O_K, O_K | O_P, O_P | O_f, O_f | O_t, O_t | O_v, O_v | O_V_, O_V_ | O_r, O_r | O_G_, O_G_
    | O_y, O_y | O_N_, O_N_ | O_p, O_p | O_e, O_e | O_i, O_i | O_H_, O_H_ | O_I_, O_I_ | O_U_, O_U_ | O_m, O_m | O_M_, O_M_
    | O_a, O_a | O_R, O_R | O_T, O_T | O_w, O_w | O_Y_, O_Y_ | O_z, O_z | O_d, O_d | O_ambient, O_ambient | O_uts, O_uts
    | O_logging, O_logging | O_profile, O_profile | O_preload, O_preload | O_profile_fs, O_profile_fs | O_fs_default, O_fs_default
    | O_fs_rx, O_fs_rx | O_fs_ro, O_fs_ro | O_fs_rw, O_fs_rw | O_fs_adv, O_fs_adv | O_no_fs, O_no_fs | O_no_runtime, O_no_runtime
    | O_no_sessions, O_no_sessions | O_preserve_fd, O_preserve_fd | O_bpf, O_bpf | O_suppl, O_suppl | O_spec, O_spec
    | O_config, O_config | O_gen_config, O_gen_config | O_env_add, O_env_add | O_env_reset, O_env_reset | O_help, O_help => true
    | _, _ => false end end) opt_codes with Some (_, n) => n | None => 0 end.
Lemma opt_code n o : opt_of opt_codes n = o -> o <> O_other -> n = code_of o.
Proof.
  intros E NE. apply opt_of_in in E; [|exact NE].
  assert (F : Forall (fun x => snd x = code_of (fst x)) opt_codes) by (unfold opt_codes; repeat constructor).
  rewrite Forall_forall in F. exact (F _ E).
Qed.
Lemma code_opt o : o <> O_other -> opt_of opt_codes (code_of o) = o.
Proof. destruct o; try reflexivity. Qed.

(* ---- the calls of an action ---- *)
Section Calls.
Variable w : world.
Definition called (l : list api) (c c' : cli) : Prop := map fst (c_calls c') = (map fst (c_calls c) ++ l)%list.
Definition calls (l : list api) (a : act) : Prop := rel (called l) a.
Lemma calls_keeps a : keeps c_calls a -> calls [] a.
Proof. intros K c c' E. unfold called. rewrite (K _ _ E), app_nil_r. reflexivity. Qed.
Lemma calls_nothing : calls [] nothing. Proof. apply calls_keeps. keeps_tac. Qed.
Lemma calls_put f : (forall c, c_calls (f c) = c_calls c) -> calls [] (put f).
Proof. intros F. apply calls_keeps. intros c c' [= <-]. apply F. Qed.
Lemma calls_refuse b : calls [] (refuse_if b). Proof. apply calls_keeps. keeps_tac. Qed.
Lemma calls_quit l n : calls l (quit n). Proof. discriminate. Qed.
Lemma calls_crash l : calls l (fun _ => Crash). Proof. discriminate. Qed.
Lemma calls_then l1 l2 a b : calls l1 a -> calls l2 b -> calls (l1 ++ l2) (a >> b).
Proof.
  intros A B c c' E. apply then_go in E. destruct E as (c1 & E1 & E2). unfold called. rewrite (B _ _ E2), (A _ _ E1), app_assoc. reflexivity.
Qed.
Lemma calls_lib_then a l f : (forall rc, calls l (f rc)) -> calls (a :: l) (lib_then w a f).
Proof.
  intros F c c' E. unfold lib_then in E. destruct (api_step _ _ _) as [rc j| |]; try discriminate. unfold called. rewrite (F _ _ _ E).
  cbn [c_calls put_calls]. rewrite map_app, <- app_assoc. reflexivity.
Qed.
Lemma calls_lib a : calls [a] (lib w a). Proof. apply calls_lib_then. intros. apply calls_nothing. Qed.
Lemma calls_lib0 a : calls [a] (lib0 w a). Proof. apply calls_lib_then. intros. apply calls_refuse. Qed.
Lemma calls_need l arg f : (forall s, calls l (f s)) -> calls l (need arg f).
Proof. intros F. destruct arg; [apply F|apply calls_crash]. Qed.
Lemma calls_look {A} l (get : cli -> A) f : (forall x, calls l (f x)) -> calls l (look get f).
Proof. intros F c c' E. exact (F _ _ _ E). Qed.
End Calls.
Ltac calls_tac :=
  lazymatch goal with
  | |- calls _ (then_ _ _) => eapply calls_then; [calls_tac|calls_tac]
  | |- calls _ nothing => apply calls_nothing
  | |- calls _ (put _) => apply calls_put; intros; reflexivity
  | |- calls _ (refuse_if _) => apply calls_refuse
  | |- calls _ (quit _) => apply calls_quit
  | |- calls _ (fun _ => Crash) => apply calls_crash
  | |- calls _ (lib _ _) => apply calls_lib
  | |- calls _ (lib0 _ _) => apply calls_lib0
  | |- calls _ (look _ refuse_if) => apply calls_keeps; keeps_tac
  | |- calls _ (look _ _) => apply calls_look; intros; calls_tac
  | |- calls _ (only_if ?b _) => destruct b; unfold only_if; calls_tac
  | |- calls _ (need _ _) => apply calls_need; intros; calls_tac
  | |- calls _ default_tmp => apply calls_keeps; keeps_tac
  | |- calls _ (use_chroot _ (Some _)) => unfold use_chroot, need_dir; calls_tac
  | |- calls _ (use_pivot_root _ (Some _)) => unfold use_pivot_root, need_dir; calls_tac
  end.
Section Steps.
Variable w : world.
Hypothesis L : 32 <= w_long w.
Hypothesis names : names_ok (w_consts w).
Lemma parse_grows o arg : grows c_parse_mode (option_step w o arg).
Proof. destruct o; cbv beta iota zeta delta [option_step]; grows_tac. Qed.
Lemma parsed o arg c c' : option_step w o arg c = Go c' -> c_parse_mode c' = false -> c_parse_mode c = false.
Proof. intros E H. destruct (c_parse_mode c) eqn:X; [|reflexivity]. rewrite (parse_grows o arg _ _ E X) in H. discriminate. Qed.
Lemma unless_go f c c' : look c_parse_mode (fun p => only_if (negb p) f) c = Go c' -> c_parse_mode c = false -> f c = Go c'.
Proof. intros E H. unfold look in E. rewrite H in E. exact E. Qed.

(* options that parse their argument *)
Definition asked (n : N) (arg : option string) (a : act) : Prop := rel (fun c c' => exists l, asks w n arg l /\ called l c c') a.
Lemma asked_calls n arg l a : asks w n arg l -> calls l a -> asked n arg a.
Proof. intros A C c c' E. exists l. split; [exact A|exact (C _ _ E)]. Qed.
Lemma asked_calls_by n arg l a : calls l a -> asks w n arg l -> asked n arg a.
Proof. intros C A. exact (asked_calls n arg l a A C). Qed.
Lemma asked_quit n arg k : asked n arg (quit k). Proof. discriminate. Qed.
Lemma asked_crash n arg : asked n arg (fun _ => Crash). Proof. discriminate. Qed.
Lemma asked_right n arg a b : calls [] a -> asked n arg b -> asked n arg (a >> b).
Proof.
  intros A B c c' E. apply then_go in E. destruct E as (c1 & E1 & E2). destruct (B _ _ E2) as (l & X & Y). exists l. split; [exact X|].
  unfold called in *. rewrite Y, (A _ _ E1), app_nil_r. reflexivity.
Qed.
Lemma asked_left n arg a b : asked n arg a -> calls [] b -> asked n arg (a >> b).
Proof.
  intros A B c c' E. apply then_go in E. destruct E as (c1 & E1 & E2). destruct (A _ _ E1) as (l & X & Y). exists l. split; [exact X|].
  unfold called in *. rewrite (B _ _ E2), app_nil_r. exact Y.
Qed.
Lemma user_asked a : fits w (short "u", Some a) -> asked (short "u") (Some a) (cli_set_user w a).
Proof.
  intros F. destruct (F a eq_refl) as (F1 & _). specialize (F1 (or_introl eq_refl)). unfold cli_set_user.
  destruct (id_number w a) as [v|] eqn:E.
  - destruct (gid_of_number w L a v E F1) as [D|[N _]].
    + eapply asked_calls_by; [calls_tac|cbn [app]; apply as_uid; exact D].
    + apply id_some in E; [|exact L]. destruct E as (z & D & _). destruct (N z D).
  - destruct (w_user w a) as [[u g]|] eqn:U; [|apply asked_quit]. eapply asked_calls_by; [calls_tac|cbn [app]; eapply as_user; [exact (id_none w a E)|exact U]].
Qed.
Lemma group_asked a : fits w (short "g", Some a) -> asked (short "g") (Some a) (cli_set_group w a).
Proof.
  intros F. destruct (F a eq_refl) as (F1 & _). specialize (F1 (or_intror (or_introl eq_refl))). unfold cli_set_group.
  destruct (id_number w a) as [v|] eqn:E.
  - eapply asked_calls_by; [calls_tac|cbn [app]; apply as_gid, gid_of_number; eauto].
  - destruct (w_group w a) as [g|] eqn:U; [|apply asked_quit]. eapply asked_calls_by; [calls_tac|cbn [app]; apply as_gid, gid_of_name; eauto].
Qed.
Lemma hex_value a v e : strtoul 64 16 a = (v, ""%string, e) -> a <> ""%string -> (forall z, hex_integer a z -> word 64 z) -> hex_integer a (Z.of_N v).
Proof.
  intros S NE F. destruct (strtoul_word _ _ _ hex_integer_read _ _ _ S NE) as (z & D & V). rewrite (V (F z D)). destruct (F z D).
  rewrite Z2N.id by lia. exact D.
Qed.
Lemma bits_asked a : fits w (short "B", Some a) -> asked (short "B") (Some a) (skip_securebits w a).
Proof.
  intros F. destruct (F a eq_refl) as (_ & F2 & _). specialize (F2 (or_introl eq_refl)). destruct F2 as [NE F2]. unfold skip_securebits.
  destruct (strtoul 64 16 a) as [[v rest] e] eqn:S. unfold streq. destruct (String.eqb_spec rest ""); [subst rest|apply asked_quit].
  eapply asked_calls; [apply as_bits, (hex_value _ _ _ S NE F2)|apply calls_lib].
Qed.
Lemma caps_bits flag : forall n i m v, caps_from n i flag m = Go v ->
  forall j, N.testbit v j = true <-> N.testbit m j = true \/ (i <= j < i + N.of_nat n /\ flag j = CapSet).
Proof.
  induction n as [|n IH]; intros i m v; cbn [caps_from].
  - intros [= <-] j. split; [auto|intros [H|[H _]]; [exact H|lia]].
  - intros E j. destruct (flag i) eqn:FI; try discriminate.
    + destruct (i <? 64); [|discriminate]. rewrite (IH _ _ _ E j), N.lor_spec, N.shiftl_1_l, orb_true_iff, N.pow2_bits_eqb, N.eqb_eq. split.
      * intros [[H| <-]|[H X]]; [auto|right; split; [lia|exact FI]|right; split; [lia|exact X]].
      * intros [H|[H X]]; [auto|]. destruct (N.eq_dec i j); [auto|]. right. split; [lia|exact X].
    + rewrite (IH _ _ _ E j). split; (intros [H|[H X]]; [auto|]); [right; split; [lia|exact X]|].
      destruct (N.eq_dec i j); [congruence|]. right. split; [lia|exact X].
    + rewrite (IH _ _ _ E j). split; (intros [H|[H X]]; [auto|]); [right; split; [lia|exact X]|].
      destruct (N.eq_dec i j); [congruence|]. right. split; [lia|exact X].
Qed.
Lemma caps_asked a : fits w (short "c", Some a) -> asked (short "c") (Some a) (use_caps w a).
Proof.
  intros F. destruct (F a eq_refl) as (_ & F2 & _). unfold use_caps. destruct (w_cap_text w a) as [flag|] eqn:T.
  - intros c c' E. destruct (caps_from _ 0 flag 0) as [m| | |] eqn:C; cbn [go_on] in E; try discriminate.
    refine (asked_calls _ _ [A_use_caps m] _ _ (calls_lib w _) c c' E). apply (as_caps_named w a flag m T). intros i.
    rewrite (caps_bits flag _ _ _ _ C i), N.bits_0. split; [intros [H|[H X]]; [discriminate|split; [lia|exact X]]|intros [H X]; right; split; [lia|exact X]].
  - specialize (F2 (or_intror (conj eq_refl eq_refl))). destruct F2 as [NE F2].
    destruct (strtoul 64 16 a) as [[v rest] e] eqn:S. unfold streq. destruct (String.eqb_spec rest ""); [subst rest|apply asked_quit].
    eapply asked_calls; [apply as_caps; [exact T|exact (hex_value _ _ _ S NE F2)]|apply calls_lib].
Qed.
Lemma bind_asked arg : asked (short "b") arg (add_binding w arg).
Proof.
  unfold add_binding. destruct arg as [a|]; [|apply asked_quit]. cbn [token].
  destruct (tokenize "," a) as [src r1] eqn:T1. destruct r1 as [r1|].
  2:{ cbn [token]. destruct src as [|x src]; [apply asked_quit|]. cbn [is_none negb null_or_empty orb].
      fields_in. eapply asked_calls; [|apply calls_lib0]. eapply as_bind; [fields_out|discriminate|left; reflexivity]. }
  cbn [token]. destruct (tokenize "," r1) as [dest r2] eqn:T2. destruct r2 as [r2|].
  2:{ cbn [token]. destruct src as [|x src]; [apply asked_quit|]. cbn [is_none negb null_or_empty orb].
      fields_in. destruct dest as [|y dest].
      - eapply asked_calls; [|apply calls_lib0]. eapply as_bind; [fields_out|discriminate|right; left; reflexivity].
      - eapply asked_calls; [|apply calls_lib0]. apply as_bind_to; [fields_out|discriminate|discriminate]. }
  cbn [token]. destruct (tokenize "," r2) as [flags r3] eqn:T3.
  destruct src as [|x src]; [apply asked_quit|]. destruct r3 as [r3|]; [apply asked_quit|]. cbn [is_none negb].
  fields_in.
  assert (D : match dest with EmptyString => String x src | _ => dest end = (if (dest =? "")%string then String x src else dest)) by (destruct dest; reflexivity).
  set (d := (if (dest =? "")%string then String x src else dest)) in *.
  replace (match Some dest with None | Some EmptyString => String x src | Some d0 => d0 end) with d by (rewrite <- D; destruct dest; reflexivity).
  unfold streq. destruct (null_or_empty (Some flags) || (flags =? "0")%string) eqn:Z.
  - assert (F : flags = ""%string \/ flags = "0"%string).
    { apply orb_true_iff in Z. destruct Z as [Z|Z]; [left; destruct flags; [reflexivity|discriminate]|right; now apply String.eqb_eq]. }
    assert (B : asks w (short "b") (Some (String x src ++ "," ++ dest ++ "," ++ flags)%string)
                  [A_bind (String x src) d (flags =? "1")%string (w_realpath w (String x src))]).
    { apply as_bind_mode; [fields_out|discriminate|]. destruct F as [-> | ->]; cbn; auto. }
    replace (flags =? "1")%string with false in B by (destruct F as [-> | ->]; reflexivity).
    eapply asked_calls; [exact B|apply calls_lib0].
  - destruct (String.eqb_spec flags "1"); [|apply asked_quit].
    assert (B : asks w (short "b") (Some (String x src ++ "," ++ dest ++ "," ++ flags)%string)
                  [A_bind (String x src) d (flags =? "1")%string (w_realpath w (String x src))]).
    { apply as_bind_mode; [fields_out|discriminate|]. subst flags. cbn; auto. }
    replace (flags =? "1")%string with true in B by (subst flags; reflexivity).
    eapply asked_calls; [exact B|apply calls_lib0].
Qed.
Lemma flags_value f (v : N) : parse_constant (w_long w) (w_consts w) f = POk v -> const_expr (w_long w) (w_consts w) f v.
Proof. apply parse_constant_spec; [lia|exact names]. Qed.
Lemma mount_asked arg : asked (short "k") arg (add_mount w arg).
Proof.
  unfold add_mount. destruct arg as [a|]; [|apply asked_quit]. cbn [token].
  destruct (tokenize "," a) as [src r1] eqn:T1. destruct r1 as [r1|]; [|apply asked_quit].
  cbn [token]. destruct (tokenize "," r1) as [dest r2] eqn:T2. destruct r2 as [r2|]; [|apply asked_quit].
  cbn [token]. destruct (tokenize "," r2) as [type r3] eqn:T3.
  assert (NI : streq src "" || streq dest "" || streq type "" = false -> ~ In ""%string [src; dest; type]).
  { unfold streq. intros H. apply orb_false_iff in H. destruct H as [H H3]. apply orb_false_iff in H. destruct H as [H1 H2].
    apply String.eqb_neq in H1, H2, H3. intros [X|[X|[X|[]]]]; congruence. }
  destruct r3 as [r3|].
  2:{ cbn [token]. destruct (_ || _) eqn:Z; [apply asked_quit|]. specialize (NI eq_refl). fields_in.
      eapply asked_calls; [|apply calls_lib0]. apply as_mount; [fields_out|exact NI]. }
  cbn [token]. destruct (tokenize "," r3) as [flags data] eqn:T4.
  destruct (_ || _) eqn:Z; [apply asked_quit|]. specialize (NI eq_refl). destruct data as [data|]; fields_in.
  - assert (A : (src ++ "," ++ dest ++ "," ++ type ++ "," ++ flags ++ "," ++ data = (src ++ "," ++ dest ++ "," ++ type ++ "," ++ flags) ++ "," ++ data)%string)
      by (rewrite !sapp_assoc; reflexivity).
    destruct flags as [|x flags].
    + eapply asked_calls; [|apply calls_lib0]. eapply as_mount_data; [|exact NI|left; split; reflexivity|exact A]. fields_out.
    + destruct (parse_constant _ _ (String x flags)) as [v| |] eqn:P; [|apply asked_quit|apply asked_quit].
      eapply asked_calls; [|apply calls_lib0]. eapply as_mount_data; [|exact NI|right; apply flags_value; exact P|exact A]. fields_out.
  - destruct flags as [|x flags].
    + eapply asked_calls; [|apply calls_lib0]. eapply as_mount_flags; [fields_out|exact NI|left; split; reflexivity].
    + destruct (parse_constant _ _ (String x flags)) as [v| |] eqn:P; [|apply asked_quit|apply asked_quit].
      eapply asked_calls; [|apply calls_lib0]. eapply as_mount_flags; [fields_out|exact NI|right; apply flags_value; exact P].
Qed.
Lemma limit_value s v : s <> ""%string -> rlimit_value w s = Some v -> (forall z, c_integer s z -> word (w_long w) z) -> limit_text w s v.
Proof.
  unfold rlimit_value, streq. intros NE. destruct (String.eqb_spec s "unlimited"); [subst s; intros [= <-] _; constructor|].
  destruct (strtoul (w_long w) 0 s) as [[m rest] e] eqn:S. destruct (String.eqb_spec rest ""); [subst rest|discriminate]. intros [= <-] F.
  destruct (strtoul_word _ _ _ c_integer_read _ _ _ S NE) as (z & D & V). apply limit_number; [exact n|]. rewrite (V (F z D)). destruct (F z D).
  rewrite Z2N.id by lia. exact D.
Qed.
Lemma rlimit_asked arg : fits w (short "R", arg) -> asked (short "R") arg (add_rlimit w arg).
Proof.
  intros F. unfold add_rlimit. destruct arg as [a|]; [|apply asked_quit]. cbn [token].
  destruct (tokenize "," a) as [type r1] eqn:T1. destruct r1 as [r1|]; [|apply asked_quit].
  cbn [token]. destruct (tokenize "," r1) as [cur r2] eqn:T2. destruct r2 as [r2|]; [|apply asked_quit].
  cbn [token]. destruct (tokenize "," r2) as [max r3] eqn:T3.
  destruct r3 as [r3|]; [rewrite orb_true_r; apply asked_quit|]. cbn [is_none negb]. rewrite orb_false_r.
  destruct (_ || _) eqn:Z; [apply asked_quit|]. unfold streq in Z. apply orb_false_iff in Z. destruct Z as [Z H3]. apply orb_false_iff in Z. destruct Z as [H1 H2].
  apply String.eqb_neq in H1, H2, H3. destruct (F _ eq_refl) as (_ & _ & _ & F4). specialize (F4 eq_refl).
  fields_in. destruct (F4 type cur max) as [G1 G2]; [fields_out|].
  destruct (rlimit_value w cur) as [c|] eqn:C; [|apply asked_quit]. destruct (rlimit_value w max) as [m|] eqn:M; [|apply asked_quit].
  destruct (parse_single_constant _ _ type) as [t|] eqn:P; [|apply asked_quit]. apply parse_single_spec in P; [|lia].
  specialize (G1 t P). replace (to_int (Z.of_N t)) with (Z.of_N t).
  - eapply asked_calls; [|apply calls_lib0]. eapply as_rlimit; [fields_out|exact H1|exact P| |].
    + apply limit_value; auto.
    + apply limit_value; auto.
  - unfold to_int, to_signed, to_word. change (2 ^ Z.of_N 32)%Z with 4294967296%Z. change (2 ^ (Z.of_N 32 - 1))%Z with 2147483648%Z.
    change (2 ^ 31) with 2147483648 in G1. rewrite (Z.mod_small (Z.of_N t)) by lia. rewrite Z2N.id by lia. rewrite Z.mod_small by lia.
    destruct (Z.ltb_spec (Z.of_N t) 2147483648); lia.
Qed.
Lemma fd_asked a : fits w (OPT_PRESERVE_FD, Some a) -> asked OPT_PRESERVE_FD (Some a)
  (let '(v, rest, _) := strtol (w_long w) 10 a in if streq rest "" then lib w (A_preserve_fd (to_int v) (to_int v)) else quit 1).
Proof.
  intros F. destruct (F a eq_refl) as (_ & _ & F3 & _). specialize (F3 eq_refl). destruct F3 as [NE F3].
  destruct (strtol (w_long w) 10 a) as [[v rest] e] eqn:S. unfold streq. destruct (String.eqb_spec rest ""); [subst rest|apply asked_quit].
  assert (X : decimal_integer a v /\ (- 2147483648 <= v < 2147483648)%Z).
  { unfold strtol in S. destruct (read_int 10 a) as [[[neg m] r]|] eqn:R; [|congruence].
    assert (r = ""%string) as -> by (destruct neg; destruct (_ <? _)%Z; congruence).
    assert (D : decimal_integer a (if neg then (- Z.of_N m)%Z else Z.of_N m)) by (apply decimal_integer_read; eauto).
    pose proof (F3 _ D) as B. change (2 ^ 31)%Z with 2147483648%Z in B.
    assert (2147483648 <= 2 ^ (Z.of_N (w_long w) - 1))%Z by (change 2147483648%Z with (2 ^ 31)%Z; apply Z.pow_le_mono_r; lia).
    set (lim := (2 ^ (Z.of_N (w_long w) - 1))%Z) in *.
    destruct neg; [destruct (Z.ltb_spec lim (Z.of_N m))|destruct (Z.ltb_spec (lim - 1) (Z.of_N m))]; injection S as <- _; try lia; auto. }
  destruct X as [D B]. replace (to_int v) with v.
  - eapply asked_calls; [apply as_fd, D|apply calls_lib].
  - unfold to_int, to_signed, to_word. change (2 ^ Z.of_N 32)%Z with 4294967296%Z. change (2 ^ (Z.of_N 32 - 1))%Z with 2147483648%Z.
    rewrite Z2N.id by (apply Z.mod_pos_bound; lia). rewrite Zmod_mod. destruct (Z_lt_le_dec v 0).
    + replace (v mod 4294967296)%Z with (v + 4294967296)%Z by (apply Z.mod_unique with (-1)%Z; lia).
      destruct (Z.ltb_spec (v + 4294967296) 2147483648); lia.
    + rewrite Z.mod_small by lia. destruct (Z.ltb_spec v 2147483648); lia.
Qed.
Lemma profile_asked a : asked OPT_PROFILE (Some a) (use_profile w a).
Proof.
  unfold use_profile, streq. cbv zeta. destruct (String.eqb_spec a "minimalistic-mountns") as [->|NE].
  - cbn [orb only_if]. eapply asked_calls_by; [calls_tac|]. exact (as_profile w).
  - cbn [orb only_if]. destruct (String.eqb_spec a "minimalistic-mountns-nodev") as [->|NE2]; [|apply asked_quit].
    eapply asked_calls_by; [calls_tac|]. exact (as_profile_nodev w).
Qed.
Lemma asked_need n arg (f : string -> act) : (forall a, arg = Some a -> asked n (Some a) (f a)) -> asked n arg (need arg f).
Proof. intros F. destruct arg as [a|]; [exact (F a eq_refl)|apply asked_crash]. Qed.
Ltac table := solve [repeat (first [left; reflexivity | right])].
Ltac plain := eapply asked_calls_by; [calls_tac | cbn [app]; apply as_plain; unfold plain_calls; table].
Ltac text := eapply asked_calls_by; [calls_tac | cbn [app]; apply as_text; unfold text_calls; table].
Lemma step_asks n arg c c' : fits w (n, arg) -> option_step w (opt_of opt_codes n) arg c = Go c' -> c_parse_mode c' = false ->
  exists l, asks w n arg l /\ called l c c'.
Proof.
  intros F E P. pose proof (parsed _ _ _ _ E P) as P0.
  assert (X : n = code_of (opt_of opt_codes n)).
  { apply opt_code; [reflexivity|]. intros X. rewrite X in E. discriminate E. }
  revert X E. destruct (opt_of opt_codes n); intros -> E; cbv beta iota zeta delta [option_step] in E.
  all: try discriminate E.
  all: try (match goal with |- context [asks w (code_of ?o) ?x _] => refine ((_ : asked (code_of o) x _) c c' E) end; clear E F; plain).
  all: try (match goal with |- context [asks w (code_of ?o) ?x _] => refine ((_ : asked (code_of o) x _) c c' E) end; clear E F;
            eapply asked_calls_by; [apply calls_keeps; keeps_tac | apply as_plain; unfold plain_calls; table]).
  all: try (match goal with |- context [asks w (code_of ?o) ?x _] => refine ((_ : asked (code_of o) x _) c c' E) end; clear E F;
            apply asked_need; intros a ->; text).
  - apply guard_go in E. destruct E as [_ E]. apply then_go in E. destruct E as (c1 & E1 & E). apply put_go in E1. subst c1.
    apply unless_go in E; [|exact P0]. refine (asked_need (short "u") arg _ _ _ _ E). intros a ->. apply user_asked. exact F.
  - apply guard_go in E. destruct E as [_ E]. apply then_go in E. destruct E as (c1 & E1 & E). apply put_go in E1. subst c1.
    apply unless_go in E; [|exact P0]. refine (asked_need (short "g") arg _ _ _ _ E). intros a ->. apply group_asked. exact F.
  - apply then_go in E. destruct E as (c1 & E1 & E). apply unless_go in E1; [|exact P0]. apply put_go in E. subst c'.
    exact (bind_asked arg _ _ E1).
  - refine (asked_need (short "B") arg _ _ _ _ E). intros a ->. apply bits_asked. exact F.
  - refine (asked_right (short "c") arg _ _ _ _ _ _ E); [calls_tac|]. apply asked_need. intros a ->. apply caps_asked. exact F.
  - destruct arg as [a|].
    + refine ((_ : asked (short "C") (Some a) _) c c' E). text.
    + exfalso. unfold use_chroot in E. apply guard_go in E. destruct E as [_ E]. apply then_go in E. destruct E as (c1 & E1 & _).
      unfold need_dir, look in E1. destruct (is_null _); discriminate.
  - apply unless_go in E; [|exact P0]. exact (mount_asked arg _ _ E).
  - destruct arg as [a|].
    + refine ((_ : asked (short "P") (Some a) _) c c' E). text.
    + exfalso. unfold use_pivot_root in E. apply guard_go in E. destruct E as [_ E]. apply then_go in E. destruct E as (c1 & E1 & _).
      unfold need_dir, look in E1. destruct (is_null _); discriminate.
  - apply unless_go in E; [|exact P0]. refine (asked_need (short "f") arg _ _ _ _ E). intros a ->. text.
  - refine ((_ : asked (short "t") arg _) c c' E). destruct arg as [a|]; [|plain].
    destruct (parse_size a) as [v| |]; [destruct (_ <? v)| |]; plain.
  - apply unless_go in E; [|exact P0]. refine ((_ : asked (short "V") arg _) c c' E). eapply asked_calls_by; [calls_tac|]. exact (as_vfs w arg).
  - apply unless_go in E; [|exact P0]. refine ((_ : asked (short "e") arg _) c c' E). destruct arg as [a|]; [text|].
    eapply asked_calls_by; [calls_tac|]. exact (as_net w).
  - exact (rlimit_asked arg F _ _ E).
  - refine ((_ : asked OPT_UTS arg _) c c' E). destruct arg as [a|]; [text|]. eapply asked_calls_by; [calls_tac|]. exact (as_uts w).
  - refine (asked_need OPT_PROFILE arg _ _ _ _ E). intros a ->. apply profile_asked.
  - refine (asked_left OPT_FS_PATH_RX arg _ _ _ _ _ _ E); [|calls_tac]. apply asked_need. intros a ->. text.
  - refine (asked_left OPT_FS_PATH_RO arg _ _ _ _ _ _ E); [|calls_tac]. apply asked_need. intros a ->. text.
  - refine (asked_left OPT_FS_PATH_RW arg _ _ _ _ _ _ E); [|calls_tac]. apply asked_need. intros a ->. text.
  - refine (asked_left OPT_FS_PATH_ADVANCED_RW arg _ _ _ _ _ _ E); [|calls_tac]. apply asked_need. intros a ->. text.
  - refine (asked_need OPT_PRESERVE_FD arg _ _ _ _ E). intros a ->. apply fd_asked. exact F.
  - exfalso. assert (X : c_parse_mode c' = true); [|congruence].
    revert E. apply sets_go. apply sets_left; [apply sets_put; reflexivity|keeps_tac].
Qed.
End Steps.
