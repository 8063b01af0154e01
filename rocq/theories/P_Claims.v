(* Consequences of the compiler's correctness, one group per property
   C03-C13. *)
From Verif Require Export P_Kernel.
From Coq Require Import ZifyBool ZifyNat ZifyN.
Local Open Scope N_scope.

(* ---- the verdict is determined ---- *)
Lemma verdict_fun b o p d v v' : verdict b o p d v -> verdict b o p d v' -> v = v'.
Proof. intros H H'; destruct H, H'; try congruence; contradiction. Qed.

(* ---- C03: needs nothing about endianness or tables ---- *)
Definition head_ext (st st' : cstate) : Prop := exists x, cs_head st' = (cs_head st ++ x)%list.
Lemma head_ext_refl st : head_ext st st.
Proof. exists []. symmetry. apply app_nil_r. Qed.
Lemma head_ext_trans a c d : head_ext a c -> head_ext c d -> head_ext a d.
Proof. intros [x X] [y Y]. exists (x ++ y)%list. rewrite Y, X. symmetry. apply app_assoc. Qed.
Lemma compile_rule_head b o st s st' : compile_rule b o st s = COk st' -> head_ext st st'.
Proof.
  unfold compile_rule. destruct (strsep ":"%char s) as [name [body|]]; [|discriminate]. cbv zeta.
  destruct (String.eqb (strip body) ""); [discriminate|].
  destruct (lookup_syscall (b_syscalls b) (strip name)) as [[nr ind]|].
  - destruct (String.eqb (strip body) "1").
    + intros H. injection H as <-. eexists. reflexivity.
    + destruct (bpf_label_id (cs_labels st) (strip name)) as [oid l1]. intros H.
      apply cbind_ok in H. destruct H as ([blk l2] & _ & H). injection H as <-. eexists. reflexivity.
  - destruct (fo_allow_logging o); [|discriminate]. intros H. injection H as <-. apply head_ext_refl.
Qed.
Lemma compile_lines_head b o include ls : (forall f st st', include f st = COk st' -> head_ext st st') ->
  forall st st', compile_lines b o include st ls = COk st' -> head_ext st st'.
Proof.
  intros IH. induction ls as [|l ls IHl]; simpl; intros st st' H.
  - injection H as <-. apply head_ext_refl.
  - apply cbind_ok in H. destruct H as (st1 & H1 & H2). apply IHl in H2.
    eapply head_ext_trans; [|exact H2]. rewrite compile_line_eq in H1. cbv zeta in H1.
    destruct (String.eqb (strip l) ""); [injection H1 as <-; apply head_ext_refl|].
    destruct (starts "#" (strip l)); [injection H1 as <-; apply head_ext_refl|].
    destruct (starts "@" (strip l)).
    + destruct (has_prefix "@frequency" (strip l)); [injection H1 as <-; apply head_ext_refl|].
      destruct (parse_include (strip l)); [|discriminate]. eapply IH; eauto.
    + eapply compile_rule_head; eauto.
Qed.
Lemma compile_stream_head b o include f : (forall f st st', include f st = COk st' -> head_ext st st') ->
  forall st st', compile_stream b o include st f = COk st' -> head_ext st st'.
Proof.
  intros IH st st' H. unfold compile_stream in H. apply cbind_ok in H. destruct H as (s1 & H1 & H2).
  destruct (s_ioerr f); [discriminate|]. injection H2 as <-. eapply compile_lines_head; eauto.
Qed.
Lemma include0_head b o fs f st st' : include0 b o fs f st = COk st' -> head_ext st st'.
Proof.
  unfold include0. destruct (fs f); [|discriminate]. intros H. apply cbind_ok in H.
  destruct H as (s1 & H1 & H2). apply compile_stream_head in H1; [|discriminate].
  destruct (cs_bad s1); [discriminate|]. injection H2 as <-. exact H1.
Qed.
Lemma foreign_killed b o fs initial prog d le :
  compile_filter b o fs initial = COk prog -> sd_arch d <> arch_no (b_plat b) ->
  run le prog d = VRet KILL_THREAD.
Proof.
  intros H NA. unfold compile_filter in H. destruct initial as [f|]; [|discriminate].
  apply cbind_ok in H. destruct H as (st & H1 & H). destruct (cs_bad st); [discriminate|].
  apply cbind_ok in H. destruct H as (def & _ & H). cbv zeta in H.
  destruct (Nat.ltb _ _); [discriminate|].
  destruct (bpf_resolve_jumps _ _) as [pr| |] eqn:R; try discriminate. injection H as ->.
  apply compile_stream_head in H1; [|apply include0_head]. destruct H1 as [x X]. cbn [cs_head] in X.
  rewrite X in R. destruct (resolve_run _ _ _ le d R) as (-> & _ & _ & _).
  unfold prologue, bpf_validate_arch. cbn [app]. rewrite exs_ld.
  change (sd_word le d 4) with (Some (sd_arch d)). cbv iota. rewrite exs_jeq. cbn [acc].
  apply N.eqb_neq in NA. rewrite NA. change (N.to_nat 0) with 0%nat. cbn [skipn]. apply exs_ret.
Qed.

(* ---- C05: the kernel's checks are enough for a verdict ---- *)
Lemma cell_scan c : forall j p V M, cell_ok c p V M = true -> (j < length p)%nat ->
  exists V' M', cell_ok c (skipn j p) V' M' = true /\ forall i, M' i = true -> M (j + i)%nat = true.
Proof.
  induction j; intros p V M H L.
  - exists V, M. split; auto.
  - destruct p as [|x p]; [cbn in L; lia|]. cbn [skipn]. cbn [length] in L. cbn [cell_ok] in H. cbv zeta in H.
    assert (G : exists V1 M1, cell_ok c p V1 M1 = true /\ forall i, M1 i = true -> M (S i) = true).
    { destruct (code x =? op_st); [eexists _, _; split; [exact H|auto]|].
      destruct (code x =? op_ld_mem).
      { apply andb_true_iff in H. destruct H as [_ H]. eexists _, _; split; [exact H|auto]. }
      destruct (code x =? op_ja).
      { eexists _, _; split; [exact H|]. intros i. unfold mask_at.
        destruct (Nat.eqb i _); auto. intros X. apply andb_true_iff in X. tauto. }
      destruct (jump_test (code x) 0 0); [|eexists _, _; split; [exact H|auto]].
      eexists _, _; split; [exact H|]. intros i. unfold mask_at.
      destruct (Nat.eqb i (N.to_nat (jt x))), (Nat.eqb i (N.to_nat (jf x))); auto;
        intros X; repeat (apply andb_true_iff in X; destruct X as [X ?]); auto. }
    destruct G as (V1 & M1 & G1 & G2).
    destruct (IHj p V1 M1 G1) as (V' & M' & H1 & H2); [lia|].
    exists V', M'. split; auto. intros i Hi. apply H2 in Hi. apply G2 in Hi. exact Hi.
Qed.
Lemma insns_ok_skipn j p : insns_ok p = true -> insns_ok (skipn j p) = true.
Proof.
  revert p. induction j; intros [|x p] H; auto. cbn [insns_ok] in H. apply andb_true_iff in H.
  cbn [skipn]. apply IHj. tauto.
Qed.
Lemma last_ret_skipn j p : (j < length p)%nat -> last_is_ret p = true -> last_is_ret (skipn j p) = true.
Proof.
  revert p. induction j; intros [|x p] L H; auto. cbn [skipn]. cbn [length] in L.
  apply IHj; [lia|]. destruct p as [|y p]; [cbn in L; lia|]. exact H.
Qed.
Lemma jump_test_any c a kk : (exists b, jump_test c a kk = Some b) <-> jump_test c 0 0 <> None.
Proof.
  unfold jump_test. destruct (c =? op_jeq); [split; [discriminate|eauto]|].
  destruct (c =? op_jgt); [split; [discriminate|eauto]|].
  destruct (c =? op_jge); [split; [discriminate|eauto]|].
  destruct (c =? op_jset); [split; [discriminate|eauto]|].
  split; [intros [x X]; discriminate|congruence].
Qed.
Definition cell_inv (p : list instr) (s : vm) : Prop :=
  forall c, c < 16 -> exists V M, cell_ok c p V M = true /\ (V && M 0%nat = true -> mem s c <> None).
Lemma accepted_runs le d fuel : forall p s, (length p < fuel)%nat ->
  insns_ok p = true -> last_is_ret p = true -> cell_inv p s -> exists v, exec le fuel p d s = VRet v.
Proof.
  induction fuel; intros p s L IO LR CI; [lia|].
  destruct p as [|i rest]; [discriminate|]. cbn [length] in L. cbn [exec].
  cbn [insns_ok] in IO. apply andb_true_iff in IO. destruct IO as [I IO]. unfold insn_ok in I.
  destruct (code i =? op_ret) eqn:CR; [eauto|].
  assert (NE : (0 < length rest)%nat).
  { destruct rest; [cbn [last_is_ret] in LR; congruence|cbn; lia]. }
  assert (LR' : last_is_ret rest = true) by (destruct rest; [cbn in NE; lia|exact LR]).
  assert (JMP : forall j, (j < length rest)%nat ->
    (forall c, c < 16 -> exists V M, cell_ok c rest V M = true /\ (M j = true -> mem s c <> None)) ->
    exists v, exec le fuel (skipn j rest) d s = VRet v).
  { intros j J H. apply IHfuel.
    - rewrite skipn_length. lia.
    - apply insns_ok_skipn; auto.
    - apply last_ret_skipn; auto.
    - intros c C. destruct (H c C) as (V & M & H1 & H2).
      destruct (cell_scan c j rest V M H1 J) as (V' & M' & H3 & H4).
      exists V', M'. split; auto. intros X. apply andb_true_iff in X. destruct X as [_ X].
      apply H2. apply H4 in X. rewrite Nat.add_0_r in X. exact X. }
  unfold cell_inv in CI. cbn [cell_ok] in CI. cbv zeta in CI.
  destruct (code i =? op_ja) eqn:CJ.
  { apply N.eqb_eq in CJ. rewrite CJ in *. apply Nat.ltb_lt in I. apply JMP; auto. intros c C.
    destruct (CI c C) as (V & M & H1 & H2).
    change (op_ja =? op_st) with false in H1. change (op_ja =? op_ld_mem) with false in H1.
    change (op_ja =? op_ja) with true in H1. cbv iota in H1.
    eexists _, _. split; [exact H1|]. unfold mask_at. rewrite Nat.eqb_refl.
    intros X. apply andb_true_iff in X. apply H2. tauto. }
  destruct (code i =? op_ld_abs) eqn:CA.
  { apply N.eqb_eq in CA. rewrite CA in *.
    apply andb_true_iff in I. destruct I as [I1 I2]. unfold sd_word. rewrite I1. cbn [negb].
    destruct (64 <=? k i) eqn:X; [lia|]. clear X.
    assert (G : forall w, exists v, exec le fuel rest d (VM w (mem s)) = VRet v).
    { intros w. apply IHfuel; auto; [lia|]. intros c C. destruct (CI c C) as (V & M & H1 & H2).
      change (op_ld_abs =? op_st) with false in H1. change (op_ld_abs =? op_ld_mem) with false in H1.
      change (op_ld_abs =? op_ja) with false in H1.
      change (jump_test op_ld_abs 0 0) with (@None bool) in H1. cbv iota in H1.
      eexists _, _. split; [exact H1|]. cbn [mem]. intros X. apply andb_true_iff in X. apply H2. tauto. }
    destruct (k i =? 0); [apply G|]. destruct (k i =? 4); apply G. }
  destruct (code i =? op_ld_mem) eqn:CM.
  { apply N.eqb_eq in CM. rewrite CM in *. cbn [orb] in I. apply N.ltb_lt in I.
    change (op_ld_mem =? op_st) with false in CI. change (op_ld_mem =? op_ld_mem) with true in CI. cbv iota in CI.
    destruct (CI (k i) I) as (V & M & H1 & H2). apply andb_true_iff in H1. destruct H1 as [H0 H1].
    rewrite N.eqb_refl in H0. cbn [negb orb] in H0. specialize (H2 H0).
    destruct (mem s (k i)) as [w|]; [|congruence].
    apply IHfuel; auto; [lia|]. intros c C. destruct (CI c C) as (V1 & M1 & H3 & H4).
    apply andb_true_iff in H3. destruct H3 as [_ H3]. eexists _, _. split; [exact H3|].
    cbn [mem]. intros X. apply andb_true_iff in X. apply H4. tauto. }
  destruct (code i =? op_st) eqn:CS.
  { cbn [orb] in I. rewrite I. apply IHfuel; auto; [lia|]. intros c C.
    destruct (CI c C) as (V & M & H1 & H2). eexists _, _. split; [exact H1|].
    cbn [mem]. unfold mem_set. rewrite (N.eqb_sym c (k i)). destruct (k i =? c); [discriminate|].
    rewrite orb_false_r. intros X. apply andb_true_iff in X. apply H2. tauto. }
  cbn [orb] in I.
  destruct (jump_test (code i) 0 0) as [t0|] eqn:T0; [|discriminate].
  apply andb_true_iff in I. destruct I as [I1 I2]. apply Nat.ltb_lt in I1, I2.
  assert (T : exists t, jump_test (code i) (acc s) (k i) = Some t) by (apply jump_test_any; congruence).
  destruct T as [t ->].
  assert (J : forall tg, tg = jt i \/ tg = jf i -> exists v, exec le fuel (skipn (N.to_nat tg) rest) d s = VRet v).
  { intros tg TG. apply JMP; [destruct TG; subst; auto|]. intros c C.
    destruct (CI c C) as (V & M & H1 & H2). eexists _, _. split; [exact H1|].
    unfold mask_at. destruct TG as [-> | ->].
    - rewrite Nat.eqb_refl. intros X. apply andb_true_iff in X. destruct X as [X1 X2]. apply H2. exact X2.
    - rewrite Nat.eqb_refl. destruct (Nat.eqb _ _); intros X;
        repeat (apply andb_true_iff in X; destruct X as [X ?]); apply H2; auto.
    }
  destruct t; apply J; auto.
Qed.
Lemma kernel_accepts_answers p le d : kernel_accepts p -> exists v, run le p d = VRet v.
Proof.
  intros [H C]. rewrite !andb_true_iff in H. destruct H as [[[[_ _] IO] LR] _].
  apply accepted_runs; auto. intros c Hc. exists false, (fun _ => true). split; [auto|discriminate].
Qed.

(* ---- C02, C04, C11, C13: consequences of the verdict ---- *)
Section Build.
  Variable b : build.
  Variable o : fopts.
  Hypothesis LE : little (b_plat b) = true.
  Hypothesis NM : names_ok (b_consts b).

  Lemma policy_decides fs f prog : compile_filter b o fs (Some f) = COk prog ->
    exists pol, reads_policy b o fs f pol /\
      forall d, sd_ok d -> (forall r, find_rule (sd_nr d) pol = Some r -> rule_args_ok r) ->
      exists v, run true prog d = VRet v /\ verdict b o pol d v.
  Proof.
    intros H. destruct (compile_filter_reads b o NM _ _ _ H) as (f' & pol & E & R).
    injection E as <-. exists pol. split; auto. intros d D AR.
    eapply compile_filter_verdict; eauto.
  Qed.

  Lemma action_not_allow a : action_value a <> ALLOW.
  Proof. destruct a; discriminate. Qed.
  Lemma log_needs_logging fs f prog : compile_filter b o fs f = COk prog ->
    fo_action o = ACT_LOG -> fo_allow_logging o = true.
  Proof.
    intros H. unfold compile_filter in H. destruct f as [f|]; [|discriminate].
    apply cbind_ok in H. destruct H as (st & _ & H). destruct (cs_bad st); [discriminate|].
    apply cbind_ok in H. destruct H as (def & H & _). apply default_spec in H. tauto.
  Qed.
  Lemma find_rule_none nr pol : find_rule nr pol = None <-> Forall (fun e => e_nr e <> nr) pol.
  Proof.
    induction pol as [|e pol IH]; simpl; [split; auto; constructor|].
    destruct (N.eqb_spec (e_nr e) nr).
    - split; [discriminate|]. intros H. inversion H; contradiction.
    - rewrite IH. split; intros H; [constructor; auto|inversion H; auto].
  Qed.
  Lemma unlisted_default fs f prog pol d :
    compile_filter b o fs (Some f) = COk prog -> reads_policy b o fs f pol -> sd_ok d ->
    sd_arch d = arch_no (b_plat b) -> ~ allowed_by_option b o (sd_nr d) ->
    Forall (fun e => e_nr e <> sd_nr d) pol ->
    run true prog d = VRet (action_value (fo_action o)) /\
    action_value (fo_action o) <> ALLOW /\
    (action_value (fo_action o) = LOG -> fo_allow_logging o = true).
  Proof.
    intros H R D A NO NL. apply find_rule_none in NL.
    destruct (compile_filter_verdict b o LE NM _ _ _ _ d H R D) as (v & RUN & V); [congruence|].
    assert (v = action_value (fo_action o)) as ->.
    { eapply verdict_fun; [exact V|]. apply v_default; auto. }
    split; auto. split; [apply action_not_allow|]. intros E. eapply log_needs_logging; eauto.
    destruct (fo_action o); try discriminate E. reflexivity.
  Qed.

  Lemma only_listed_allowed fs f prog pol d :
    compile_filter b o fs (Some f) = COk prog -> reads_policy b o fs f pol -> sd_ok d ->
    (forall r, find_rule (sd_nr d) pol = Some r -> rule_args_ok r) ->
    run true prog d = VRet ALLOW ->
    sd_arch d = arch_no (b_plat b) /\
    (allowed_by_option b o (sd_nr d) \/
     exists e, In e pol /\ e_nr e = sd_nr d /\
       rule_value (bits64 (b_plat b)) d (e_rule e) = ALLOW).
  Proof.
    intros H R D AR RUN. destruct (compile_filter_verdict b o LE NM _ _ _ _ d H R D AR) as (v & RUN' & V).
    assert (v = ALLOW) by congruence. destruct V as [NA|A OP|r A NO F|A NO F].
    - discriminate.
    - auto.
    - split; auto. right. destruct (find_rule_in _ _ _ F) as (e & I & E & EN). exists e. subst r. auto.
    - exfalso. eapply action_not_allow; eauto.
  Qed.

  Lemma options_allow fs f prog d : compile_filter b o fs (Some f) = COk prog -> sd_ok d ->
    sd_arch d = arch_no (b_plat b) -> allowed_by_option b o (sd_nr d) -> run true prog d = VRet ALLOW.
  Proof.
    intros H D A OP. destruct (compile_filter_ok b o _ _ _ H)
      as (f' & pol & items & def & labels & E & P & MP & IO & -> & AL & DUP & LEN & R & ND).
    destruct (resolve_run _ _ _ true d R) as (RUN & _ & _ & _). rewrite RUN.
    destruct (prologue_exec b o d (flat_map head_of items ++
       stmt op_ret (action_value (fo_action o)) :: flat_map arg_of items)) as (s & _ & ->).
    rewrite A, N.eqb_refl. cbn [negb]. apply optioned_spec in OP. rewrite OP. reflexivity.
  Qed.

  Lemma first_rule nr p1 e p2 : Forall (fun x => e_nr x <> nr) p1 -> e_nr e = nr ->
    find_rule nr (p1 ++ e :: p2) = Some (e_rule e).
  Proof.
    intros F E. induction F as [|x p1 X F IH]; simpl.
    - rewrite E, N.eqb_refl. reflexivity.
    - apply N.eqb_neq in X. rewrite X. exact IH.
  Qed.
  Lemma first_decides fs f prog p1 e p2 d :
    compile_filter b o fs (Some f) = COk prog -> reads_policy b o fs f (p1 ++ e :: p2) -> sd_ok d ->
    sd_arch d = arch_no (b_plat b) -> ~ allowed_by_option b o (sd_nr d) ->
    Forall (fun x => e_nr x <> sd_nr d) p1 -> e_nr e = sd_nr d -> rule_args_ok (e_rule e) ->
    run true prog d = VRet (rule_value (bits64 (b_plat b)) d (e_rule e)).
  Proof.
    intros H R D A NO F E AR. pose proof (first_rule _ _ _ p2 F E) as FR.
    destruct (compile_filter_verdict b o LE NM _ _ _ _ d H R D) as (v & RUN & V).
    { intros r X. rewrite FR in X. injection X as <-. exact AR. }
    rewrite RUN. f_equal. eapply verdict_fun; [exact V|]. apply v_rule; auto.
  Qed.
  Lemma no_duplicates fs f prog pol : compile_filter b o fs (Some f) = COk prog ->
    reads_policy b o fs f pol -> fo_allow_dup o = false -> NoDup (map e_name pol).
  Proof.
    intros H R AD. destruct (compile_filter_ok b o _ _ _ H)
      as (f' & pol' & items & def & labels & E & P & MP & IO & -> & AL & DUP & _).
    injection E as <-. apply policy_of_spec in R; auto. assert (pol' = pol) as -> by congruence. auto.
  Qed.

  Lemma bad_line_rejected fs f ls l prog : file_lines (s_bytes f) ls -> In l ls ->
    (forall p, ~ reads_line b o (reads_include b o fs) l p) ->
    compile_filter b o fs (Some f) <> COk prog.
  Proof.
    intros FL I N H. destruct (compile_filter_reads b o NM _ _ _ H) as (f' & pol & E & _ & ls' & ps & FL' & F & _).
    injection E as <-. apply multilines_spec in FL, FL'. assert (ls' = ls) as -> by congruence.
    clear -I N F. induction F; [contradiction|]. destruct I as [<-|I]; [eapply N; eauto|auto].
  Qed.
  Lemma bad_line_in_include fs f ls l name g ls' l' prog :
    file_lines (s_bytes f) ls -> In l ls -> stripped l ("@include " ++ name) ->
    fs name = Some g -> file_lines (s_bytes g) ls' -> In l' ls' ->
    (forall p, ~ reads_line b o (fun _ _ => False) l' p) ->
    compile_filter b o fs (Some f) <> COk prog.
  Proof.
    intros FL I ST FS FL' I' N H.
    assert (X : exists p, reads_line b o (reads_include b o fs) l p).
    { destruct (compile_filter_reads b o NM _ _ _ H) as (f' & pol & E & _ & ls1 & ps & FL1 & F & _).
      injection E as <-. apply multilines_spec in FL, FL1. assert (ls1 = ls) as -> by congruence.
      clear -I F. induction F; [contradiction|]. destruct I as [<-|I]; [eauto|auto]. }
    destruct X as [p X]. apply strip_spec in ST.
    assert (PI : forall q, strip l = q -> q = ("@include " ++ name)%string) by congruence.
    inversion X as [raw' S|raw' t S|raw' t S|raw' nm q S T INC|raw' s name' nm body bd nr r S E AC NC SN SB FE RB
        |raw' s name' nm body bd S E AC NC SN SB NB NF AL]; subst; apply strip_spec in S; rewrite ST in S; try discriminate.
    - assert (nm = name) as -> by (injection S; auto).
      destruct INC as (g' & FS' & _ & ls1 & ps & FL1 & F & _). assert (g' = g) as -> by congruence.
      apply multilines_spec in FL1, FL'. assert (ls1 = ls') as -> by congruence.
      clear -F I' N. induction F; [contradiction|]. destruct I' as [<-|I']; [eapply N; eauto|auto].
    - symmetry in S. destruct (NC _ _ S) as [_ K]. congruence.
    - symmetry in S. destruct (NC _ _ S) as [_ K]. congruence.
  Qed.
End Build.
