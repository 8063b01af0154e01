(* The state the options leave behind, and the calls that follow them. *)
From Verif Require Export P_CliCalls.
From Coq Require Import Lia.
Local Open Scope N_scope.

Lemma args_app a b n : args_of (a ++ b) n = (args_of a n ++ args_of b n)%list.
Proof. unfold args_of. rewrite filter_app, map_app. reflexivity. Qed.
Lemma last_snoc l m a n : last_arg (l ++ [(m, a)]) n = if m =? n then Some a else last_arg l n.
Proof.
  unfold last_arg. rewrite args_app. unfold args_of at 2. cbn [filter fst]. destruct (m =? n); cbn [map snd].
  - rewrite rev_app_distr. reflexivity.
  - rewrite app_nil_r. reflexivity.
Qed.
Lemma last_has l n : has l n <-> exists a, last_arg l n = Some a.
Proof.
  induction l as [|[m b] l IH] using rev_ind.
  - split; [intros [a []]|intros [a H]; discriminate].
  - rewrite last_snoc. destruct (N.eqb_spec m n).
    + subst. split; [eauto|]. intros _. exists b. apply in_or_app. right. left. reflexivity.
    + rewrite <- IH. unfold has. split; intros [a H].
      * apply in_app_or in H. destruct H as [H|[H|[]]]; [eauto|congruence].
      * exists a. apply in_or_app. auto.
Qed.
Lemma last_none l n : ~ has l n <-> last_arg l n = None.
Proof. rewrite last_has. destruct (last_arg l n); split; try congruence; [intros H; destruct H; eauto|intros _ [a H]; discriminate]. Qed.

Lemma fits_id w o : fits w o -> id_fits o.
Proof. intros F a E. destruct o as [n arg]. cbn in E. apply (F a E). Qed.

Section Loop.
Variable w : world.
(* a field that is set by the options [o0] only, to a value made of the argument *)
Lemma last_loop {A} (f : cli -> A) (v : option string -> A) (o0 : opt) : o0 <> O_other ->
  (forall arg, sets f (v arg) (option_step w o0 arg)) ->
  (forall o arg, o <> o0 -> keeps f (option_step w o arg)) ->
  (forall c b, f (put_conf_open b c) = f c) -> (forall c es, f (put_entries es c) = f c) ->
  forall opts c c', cli_options w opts c = Go c' ->
  f c' = match last_arg (all_options w opts) (code_of o0) with Some a => v a | None => f c end.
Proof.
  intros NO S K HO HE opts c c' E.
  apply (cli_loop w (fun L c' => f c' = match last_arg L (code_of o0) with Some a => v a | None => f c end))
    with (L := []) (c := c) (opts := opts) (c' := c'); auto.
  - intros L c1 b H. rewrite HO. exact H.
  - intros L n a c1 c2 H T. apply turn_parts in T. destruct T as [es T]. rewrite last_snoc.
    destruct (N.eqb_spec n (code_of o0)) as [->|NE].
    + rewrite code_opt in T by exact NO. exact (S a _ _ T).
    + rewrite (K (opt_of opt_codes n) a) with (c := put_entries es c1) (c' := c2); [rewrite HE; exact H| |exact T].
      intros X. apply NE. rewrite <- X. apply opt_code; [reflexivity|congruence].
Qed.
(* a relation between the options and the state, as long as parsing goes on *)
Lemma rel_loop (P : list (N * option string) -> cli -> Prop) :
  (forall L c b, P L c -> P L (put_conf_open b c)) -> (forall L c es, P L c -> P L (put_entries es c)) ->
  (forall L n a c c', P L c -> c_parse_mode c = false -> c_parse_mode c' = false -> option_step w (opt_of opt_codes n) a c = Go c' -> P (L ++ [(n, a)])%list c') ->
  forall opts c c', P [] c -> cli_options w opts c = Go c' -> c_parse_mode c' = false -> P (all_options w opts) c'.
Proof.
  intros HO HE HS opts c c' P0 E.
  apply (cli_loop w (fun L c' => c_parse_mode c' = false -> P L c')) with (L := []) (c := c) (opts := opts) (c' := c'); auto.
  intros L n a c1 c2 H T PM. apply turn_parts in T. destruct T as [es T]. pose proof (parsed w _ _ _ _ T PM) as PM1.
  exact (HS L n a _ _ (HE _ _ _ (H PM1)) PM1 PM T).
Qed.
Hypothesis L32 : 32 <= w_long w.
Hypothesis names : names_ok (w_consts w).
Lemma calls_loop opts c c' : cli_options w opts c = Go c' -> c_parse_mode c' = false -> c_calls c = [] -> Forall (fits w) (all_options w opts) ->
  exists each, Forall2 (fun o cs => asks w (fst o) (snd o) cs) (all_options w opts) each /\ map fst (c_calls c') = concat each.
Proof.
  intros E P C0.
  apply (rel_loop (fun L c => Forall (fits w) L -> exists each, Forall2 (fun o cs => asks w (fst o) (snd o) cs) L each /\ map fst (c_calls c) = concat each)) with (c := c); auto.
  - intros L n a c1 c2 H _ PM T F. apply Forall_app in F. destruct F as [F1 F2]. inversion F2 as [|x y Fx _ EQ]. subst.
    destruct (H F1) as (each & A & B). destruct (step_asks w L32 names n a _ _ Fx T PM) as (l & X & Y).
    exists (each ++ [l])%list. split; [apply Forall2_app; [exact A|constructor; [exact X|constructor]]|].
    rewrite concat_app, Y, B. cbn. rewrite app_nil_r. reflexivity.
  - intros _. exists []. split; [constructor|]. rewrite C0. reflexivity.
Qed.
Ltac kept f T K := match type of T with ?a ?x = Go ?y => assert (K : f y = f x) by (revert T; apply (keeps_go f); keeps_tac) end.
Ltac keep_o o := destruct o; try congruence; cbv beta iota zeta delta [option_step]; keeps_tac.
Lemma log_end opts c c' : cli_options w opts c = Go c' -> c_log_to_stderr c = (-1)%Z ->
  (if (c_log_to_stderr c' =? -1)%Z then w_tty w else negb (c_log_to_stderr c' =? 0)%Z) = to_stderr w (all_options w opts).
Proof.
  intros E Z. rewrite (last_loop c_log_to_stderr (fun a => match a with Some a => if streq a "stderr" then 1%Z else if streq a "syslog" then 0%Z else (-1)%Z | None => (-1)%Z end) O_logging)
    with (opts := opts) (c := c); [|discriminate| | |reflexivity|reflexivity|exact E].
  - rewrite Z. unfold to_stderr. change (code_of O_logging) with OPT_LOGGING. destruct (last_arg _ _) as [[a|]|]; try reflexivity. unfold streq.
    destruct (String.eqb_spec a "stderr"); [subst; reflexivity|]. destruct (String.eqb_spec a "syslog"); reflexivity.
  - intros arg. cbv beta iota zeta delta [option_step]. destruct arg as [a|]; [|discriminate]. cbn [need]. unfold streq.
    destruct (String.eqb_spec a "auto"); [subst; apply sets_put; reflexivity|].
    destruct (String.eqb_spec a "syslog"); [subst; apply sets_put; reflexivity|].
    destruct (String.eqb_spec a "stderr"); [subst; apply sets_put; reflexivity|apply sets_quit].
  - intros o arg NE. keep_o o.
Qed.
Ltac last_field f v o := match goal with E : cli_options _ _ _ = Go _ |- _ => refine (last_loop f v o _ _ _ _ _ _ _ _ E) end; [discriminate|intros; cbv beta iota zeta delta [option_step]; sets_tac2|intros ? ? ?; match goal with |- keeps _ (option_step _ ?x _) => keep_o x end|reflexivity|reflexivity].
Lemma fields_end opts c c' : cli_options w opts c = Go c' ->
  let last o := last_arg (all_options w opts) (code_of o) in
  c_forward_signals c' = match last O_z with Some _ => false | None => c_forward_signals c end /\
  c_set_uidmap c' = match last O_m with Some _ => true | None => c_set_uidmap c end /\
  c_uidmap c' = match last O_m with Some a => a | None => c_uidmap c end /\
  c_set_gidmap c' = match last O_M_ with Some _ => true | None => c_set_gidmap c end /\
  c_gidmap c' = match last O_M_ with Some a => a | None => c_gidmap c end /\
  c_change_remount c' = match last O_K with Some _ => true | None => c_change_remount c end /\
  c_remount_mode c' = match last O_K with Some a => a | None => c_remount_mode c end /\
  c_use_seccomp_filter c' = match last O_S_ with Some _ => true | None => c_use_seccomp_filter c end /\
  c_use_seccomp_filter_binary c' = match last O_bpf with Some _ => true | None => c_use_seccomp_filter_binary c end /\
  c_preload c' = match last O_preload with Some a => a | None => c_preload c end.
Proof.
  intros E last. unfold last.
  split; [last_field c_forward_signals (fun _ : option string => false) O_z|].
  split; [last_field c_set_uidmap (fun _ : option string => true) O_m|].
  split; [last_field c_uidmap (fun a : option string => a) O_m|].
  split; [last_field c_set_gidmap (fun _ : option string => true) O_M_|].
  split; [last_field c_gidmap (fun a : option string => a) O_M_|].
  split; [last_field c_change_remount (fun _ : option string => true) O_K|].
  split; [last_field c_remount_mode (fun a : option string => a) O_K|].
  split; [last_field c_use_seccomp_filter (fun _ : option string => true) O_S_|].
  split; [last_field c_use_seccomp_filter_binary (fun _ : option string => true) O_bpf|].
  last_field c_preload (fun a : option string => a) O_preload.
Qed.
(* the default runtime environment *)
Lemma runtime_step e j a rc j' : api_step e j a = ARet rc j' ->
  hasf F_enable_default_runtime j' = match a with A_set_enable_default_runtime b => b | _ => hasf F_enable_default_runtime j end.
Proof.
  intros H. destruct a; try (flag_step H). api_cases H; [now rewrite hasf_setf..].
Qed.
Definition runtime (c : cli) : bool := hasf F_enable_default_runtime (c_jail c).
Ltac runtime_keeps := match goal with |- keeps ?f _ => unfold keeps; act_walk (keeps_ordered f); intros; first [reflexivity |
  unfold runtime; cbn [c_jail put_calls put_jail]; match goal with H : api_step _ _ _ = ARet _ _ |- _ => exact (runtime_step _ _ _ _ _ H) end] end.
Lemma runtime_end opts c c' : cli_options w opts c = Go c' ->
  runtime c' = match last_arg (all_options w opts) OPT_NO_DEFAULT_RUNTIME with Some _ => false | None => runtime c end.
Proof.
  intros E. refine (last_loop runtime (fun _ : option string => false) O_no_runtime _ _ _ _ _ _ _ _ E); [discriminate| | |reflexivity|reflexivity].
  - intros arg c1 c2. cbv beta iota zeta delta [option_step]. unfold lib, lib_then. destruct (api_step _ _ _) as [rc j| |] eqn:H; try discriminate.
    intros [= <-]. exact (runtime_step _ _ _ _ _ H).
  - intros o arg NE. destruct o; try congruence; cbv beta iota zeta delta [option_step]; runtime_keeps.
Qed.
(* the path of the filter *)
Definition path_now (L : list (N * option string)) (c : cli) : Prop :=
  (~ has L OPT_SECCOMP_BPF_BINARY -> forall a, last_arg L (short "S") = Some a -> a <> None /\ c_filter_path c = a) /\
  (~ has L (short "S") -> forall a, last_arg L OPT_SECCOMP_BPF_BINARY = Some a -> a <> None /\ c_filter_path c = a).
Lemma has_snoc L m a n : has (L ++ [(m, a)]) n <-> m = n \/ has L n.
Proof.
  unfold has. split.
  - intros [b H]. apply in_app_or in H. destruct H as [H|[[= -> ->]|[]]]; eauto.
  - intros [->|[b H]]; [exists a|exists b]; apply in_or_app; [right; left; reflexivity|left; exact H].
Qed.
Lemma need_path arg c c' : need arg (fun p => put (put_filter_path (Some p))) c = Go c' -> arg <> None /\ c_filter_path c' = arg.
Proof. destruct arg; [|discriminate]. intros [= <-]. split; [discriminate|reflexivity]. Qed.
Lemma path_end opts c c' : cli_options w opts c = Go c' -> c_parse_mode c' = false -> path_now (all_options w opts) c'.
Proof.
  intros E P. apply (rel_loop path_now) with (c := c); auto; [|split; intros; discriminate].
  intros L n a c1 c2 [H1 H2] _ _ T. split.
  - rewrite has_snoc, last_snoc. intros NB b. destruct (N.eqb_spec n (short "S")) as [->|NE].
    + intros [= <-]. change (opt_of opt_codes (short "S")) with O_S_ in T. cbv beta iota zeta delta [option_step] in T.
      apply then_go in T. destruct T as (c3 & _ & T). apply then_go in T. destruct T as (c4 & _ & T). apply then_go in T. destruct T as (c5 & N5 & T).
      apply put_go in T. subst c2. exact (need_path _ _ _ N5).
    + intros X. replace (c_filter_path c2) with (c_filter_path c1); [apply H1; tauto|]. symmetry.
      revert T. apply keeps_go. destruct (opt_of opt_codes n) eqn:O; cbv beta iota zeta delta [option_step]; try keeps_tac.
      * apply opt_code in O; [|discriminate]. destruct NE. exact O.
      * apply opt_code in O; [|discriminate]. destruct NB. left. exact O.
  - rewrite has_snoc, last_snoc. intros NB b. destruct (N.eqb_spec n OPT_SECCOMP_BPF_BINARY) as [->|NE].
    + intros [= <-]. change (opt_of opt_codes OPT_SECCOMP_BPF_BINARY) with O_bpf in T. cbv beta iota zeta delta [option_step] in T.
      do 4 (apply then_go in T; destruct T as (? & _ & T)). apply then_go in T. destruct T as (c5 & N5 & T).
      apply put_go in T. subst c2. exact (need_path _ _ _ N5).
    + intros X. replace (c_filter_path c2) with (c_filter_path c1); [apply H2; tauto|]. symmetry.
      revert T. apply keeps_go. destruct (opt_of opt_codes n) eqn:O; cbv beta iota zeta delta [option_step]; try keeps_tac.
      * apply opt_code in O; [|discriminate]. destruct NB. left. exact O.
      * apply opt_code in O; [|discriminate]. destruct NE. exact O.
Qed.
(* supplementary groups *)
Definition groups_now (L : list (N * option string)) (c : cli) : Prop :=
  Forall id_fits L -> Forall2 (fun a g => exists t, a = Some t /\ gid_arg w t g) (args_of L OPT_ADD_SUPPL_GROUP) (c_suppl_gids c).
Lemma groups_end opts c c' : cli_options w opts c = Go c' -> c_parse_mode c' = false -> c_suppl_gids c = [] -> groups_now (all_options w opts) c'.
Proof.
  intros E P Z. apply (rel_loop groups_now) with (c := c); auto; [|intros _; rewrite Z; constructor].
  intros L n a c1 c2 H _ _ T F. apply Forall_app in F. destruct F as [F1 F2]. inversion F2 as [|x y Fx _ EQ]. subst. specialize (H F1).
  rewrite args_app. unfold args_of at 2. cbn [filter fst]. destruct (N.eqb_spec n OPT_ADD_SUPPL_GROUP) as [->|NE].
  - change (opt_of opt_codes OPT_ADD_SUPPL_GROUP) with O_suppl in T. cbv beta iota zeta delta [option_step] in T.
    destruct a as [a|]; [|discriminate]. cbn [need] in T. unfold suppl_group_add in T. cbn [map snd].
    pose proof (Fx a eq_refl (or_intror (or_intror (or_introl eq_refl)))) as G.
    destruct (id_number w a) as [v|] eqn:I.
    + apply look_go, put_go in T. subst c2. cbn [c_suppl_gids put_suppl_gids]. apply Forall2_app; [exact H|]. constructor; [|constructor].
      exists a. split; [reflexivity|]. apply gid_of_number; auto.
    + destruct (w_group w a) as [g|] eqn:W; [|discriminate]. apply look_go, put_go in T. subst c2. cbn [c_suppl_gids put_suppl_gids].
      apply Forall2_app; [exact H|]. constructor; [|constructor]. exists a. split; [reflexivity|]. apply gid_of_name; auto.
  - cbn [map]. rewrite app_nil_r. replace (c_suppl_gids c2) with (c_suppl_gids c1); [exact H|]. symmetry.
    revert T. apply keeps_go. destruct (opt_of opt_codes n) eqn:O; cbv beta iota zeta delta [option_step]; try keeps_tac.
    apply opt_code in O; [|discriminate]. destruct NE. exact O.
Qed.
(* the size of /tmp *)
Lemma tmp_end opts c c' : cli_options w opts c = Go c' -> c_parse_mode c' = false -> c_tmp_size c = 0 -> tmp_size (all_options w opts) (c_tmp_size c').
Proof.
  intros E P Z. apply (rel_loop (fun L c => tmp_size L (c_tmp_size c))) with (c := c); auto; [|rewrite Z; constructor].
  intros L n a c1 c2 H _ _ T.
  assert (D : forall c3 c4, default_tmp c3 = Go c4 -> c_tmp_size c4 = if c_tmp_size c3 =? 0 then 67108864 else c_tmp_size c3).
  { intros c3 c4 X. unfold default_tmp in X. apply look_go in X. destruct (_ =? 0); cbn [only_if] in X; [apply put_go in X; subst c4; reflexivity|].
    injection X as <-. reflexivity. }
  destruct (N.eqb_spec n (short "t")) as [->|NE]; [|destruct (N.eqb_spec n OPT_PROFILE) as [->|NE2]].
  - change (opt_of opt_codes (short "t")) with O_t in T. cbv beta iota zeta delta [option_step] in T.
    apply then_go in T. destruct T as (c3 & T1 & T). apply (keeps_go c_tmp_size) in T1; [|keeps_tac].
    apply then_go in T. destruct T as (c4 & T2 & T). apply D in T2. destruct a as [a|].
    + destruct (parse_size a) as [v| |] eqn:S; [|discriminate..]. destruct (_ <? v); [discriminate|]. apply put_go in T. subst c2.
      apply ts_size. apply parse_size_ok in S. apply S.
    + injection T as <-. rewrite T2, T1. apply ts_default; auto.
  - change (opt_of opt_codes OPT_PROFILE) with O_profile in T. cbv beta iota zeta delta [option_step] in T.
    destruct a as [a|]; [|discriminate]. cbn [need] in T. unfold use_profile in T. cbv zeta in T. destruct (_ || _); [|discriminate].
    apply then_go in T. destruct T as (c3 & T1 & T). apply (keeps_go c_tmp_size) in T1; [|keeps_tac].
    apply then_go in T. destruct T as (c4 & T2 & T). apply (keeps_go c_tmp_size) in T2; [|keeps_tac].
    apply then_go in T. destruct T as (c5 & T3 & T). apply (keeps_go c_tmp_size) in T3; [|keeps_tac].
    apply then_go in T. destruct T as (c6 & T4 & T). apply (keeps_go c_tmp_size) in T4; [|keeps_tac].
    apply then_go in T. destruct T as (c7 & T5 & T). apply D in T5. apply (keeps_go c_tmp_size) in T; [|keeps_tac].
    rewrite T, T5, T4, T3, T2, T1. apply ts_default; auto.
  - apply ts_skip; auto. replace (c_tmp_size c2) with (c_tmp_size c1); [exact H|]. symmetry.
    revert T. apply keeps_go. destruct (opt_of opt_codes n) eqn:O; cbv beta iota zeta delta [option_step]; try keeps_tac.
    + apply opt_code in O; [|discriminate]. destruct NE. exact O.
    + apply opt_code in O; [|discriminate]. destruct NE2. exact O.
Qed.
(* the ids of the default maps *)
Lemma ids_end opts c c' : cli_options w opts c = Go c' -> c_parse_mode c' = false -> c_uid c = 0 -> c_gid c = 0 -> Forall id_fits (all_options w opts) ->
  last_uid w (all_options w opts) (c_uid c') /\ last_gid w (all_options w opts) (c_gid c').
Proof.
  intros E P Z1 Z2.
  apply (rel_loop (fun L c => Forall id_fits L -> last_uid w L (c_uid c) /\ last_gid w L (c_gid c))) with (c := c); auto;
    [|intros _; rewrite Z1, Z2; split; [reflexivity|constructor]].
  intros L n a c1 c2 H P1 _ T F. apply Forall_app in F. destruct F as [F1 F2]. inversion F2 as [|x y Fx _ EQ]. subst.
  destruct (H F1) as [U G]. clear H. unfold last_uid in *. rewrite last_snoc.
  destruct (N.eqb_spec n (short "u")) as [->|NE]; [|destruct (N.eqb_spec n (short "g")) as [->|NE2]].
  - change (opt_of opt_codes (short "u")) with O_u in T. cbv beta iota zeta delta [option_step] in T.
    apply guard_go in T. destruct T as [_ T]. apply then_go in T. destruct T as (c3 & E1 & T). apply put_go in E1. subst c3.
    apply unless_go in T; [|exact P1]. destruct a as [a|]; [|discriminate]. cbn [need] in T. unfold cli_set_user in T.
    pose proof (Fx a eq_refl (or_introl eq_refl)) as GG. destruct (id_number w a) as [v|] eqn:I.
    + pose proof (id_some w L32 _ _ I) as (z & D & V).
      apply then_go in T. destruct T as (c3 & E1 & T). apply put_go in E1. subst c3.
      kept c_uid T K1. kept c_gid T K2.
      rewrite K1, K2. cbn [c_uid c_gid put_uid put_use_uid]. split.
      * destruct (gid_of_number w L32 a v I GG) as [X|[X _]]; [left; exact X|destruct (X z D)].
      * apply (lg_uid w L a z); auto.
    + destruct (w_user w a) as [[u g]|] eqn:W; [|discriminate].
      apply then_go in T. destruct T as (c3 & E1 & T). apply put_go in E1. subst c3.
      apply then_go in T. destruct T as (c3 & E1 & T). apply put_go in E1. subst c3.
      kept c_uid T K1. kept c_gid T K2.
      rewrite K1, K2. cbn [c_uid c_gid put_uid put_gid put_use_uid]. split.
      * right. split; [exact (id_none w a I)|eauto].
      * apply (lg_user w L a u); auto. exact (id_none w a I).
  - change (opt_of opt_codes (short "g")) with O_g in T. cbv beta iota zeta delta [option_step] in T.
    apply guard_go in T. destruct T as [_ T]. apply then_go in T. destruct T as (c3 & E1 & T). apply put_go in E1. subst c3.
    apply unless_go in T; [|exact P1]. destruct a as [a|]; [|discriminate]. cbn [need] in T. unfold cli_set_group in T.
    pose proof (Fx a eq_refl (or_intror (or_introl eq_refl))) as GG. change (short "g" =? short "u") with false. cbv beta iota.
    destruct (id_number w a) as [v|] eqn:I; [|destruct (w_group w a) as [v|] eqn:W; [|discriminate]].
    + apply then_go in T. destruct T as (c3 & E1 & T). apply put_go in E1. subst c3.
      kept c_uid T K1. kept c_gid T K2.
      rewrite K1, K2. cbn [c_uid c_gid put_gid put_use_gid]. split; [exact U|]. apply lg_g. apply gid_of_number; auto.
    + apply then_go in T. destruct T as (c3 & E1 & T). apply put_go in E1. subst c3.
      kept c_uid T K1. kept c_gid T K2.
      rewrite K1, K2. cbn [c_uid c_gid put_gid put_use_gid]. split; [exact U|]. apply lg_g. apply gid_of_name; auto.
  - assert (K : (c_uid c2, c_gid c2) = (c_uid c1, c_gid c1)).
    { revert T. apply (keeps_go (fun c => (c_uid c, c_gid c))). destruct (opt_of opt_codes n) eqn:O; cbv beta iota zeta delta [option_step]; try keeps_tac.
      - apply opt_code in O; [|discriminate]. destruct NE. exact O.
      - apply opt_code in O; [|discriminate]. destruct NE2. exact O. }
    injection K as -> ->. split; [exact U|]. apply lg_skip; auto.
Qed.
End Loop.
