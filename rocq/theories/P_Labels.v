(* Use of the label table (C08). *)
From Verif Require Export P_Include.
From Coq Require Import ZifyBool ZifyNat ZifyN.
Local Open Scope N_scope.

Definition fresh (s : string) (l : list string) : nat :=
  match find_index s l 0 with Some _ => 0 | None => 1 end.
Lemma find_index_lt s l : forall i j, find_index s l i = Some j -> j < i + N.of_nat (length l).
Proof.
  induction l as [|x l IH]; intros i j H; cbn [find_index] in H; [discriminate|].
  destruct (String.eqb s x); cbn [length]; [injection H as <-; lia|]. apply IH in H. lia.
Qed.
Lemma get_label_count l s id l' : (String.length s <= 32)%nat -> get_label_id l s = COk (id, l') ->
  length l' = (length l + fresh s l)%nat /\ extends l l' /\ find_index s l' 0 = Some id /\
  ((length l <= 512)%nat -> (length l' <= 512)%nat).
Proof.
  intros L H. destruct (get_label_ok _ _ _ _ L H) as [E F]. split; [|split; [auto|split; [auto|]]];
  unfold get_label_id, bpf_label_id, fresh in *; destruct (find_index s l 0) eqn:X.
  - injection H as <- <-. lia.
  - destruct (Nat.eqb (length l) BPF_LABELS_MAX); [discriminate|]. injection H as <- <-.
    rewrite app_length. reflexivity.
  - injection H as <- <-. auto.
  - destruct (Nat.eqb (length l) BPF_LABELS_MAX) eqn:Q; [discriminate|]. injection H as <- <-.
    apply Nat.eqb_neq in Q. unfold BPF_LABELS_MAX in Q. rewrite app_length. cbn [length]. lia.
Qed.
Lemma fresh_ext s l l' : extends l l' -> (fresh s l' <= fresh s l)%nat.
Proof.
  intros E. unfold fresh. destruct (find_index s l 0) eqn:X; [|destruct (find_index s l' 0); lia].
  rewrite (find_index_ext _ _ _ _ E X). lia.
Qed.
Lemma fresh_le1 s l : (fresh s l <= 1)%nat.
Proof. unfold fresh. destruct (find_index s l 0); auto. Qed.
Lemma extends_len l l' : extends l l' -> (length l <= length l')%nat.
Proof. intros [e ->]. rewrite app_length. lia. Qed.

Definition ids_lt (n : nat) (c : list instr) : Prop := Forall (fun i => i < N.of_nat n) (labels_of c).
Lemma ids_lt_mono n m c : (n <= m)%nat -> ids_lt n c -> ids_lt m c.
Proof. intros L H. eapply Forall_impl; [|exact H]. intros a Ha. cbn beta in *. lia. Qed.
Lemma ids_lt_app n c d : ids_lt n c -> ids_lt n d -> ids_lt n (c ++ d).
Proof. intros A B. unfold ids_lt. rewrite labels_of_app. apply Forall_app. auto. Qed.

Lemma compile_atoms_labels b nr grp ss : forall labels c l',
  compile_atoms b labels nr grp ss = COk (c, l') ->
  extends labels l' /\ (length l' <= length labels + fresh (group_end_str nr grp) labels)%nat /\
  ((length labels <= 512)%nat -> (length l' <= 512)%nat) /\ labels_of c = [] /\
  (ss <> [] -> fresh (group_end_str nr grp) l' = 0%nat).
Proof.
  induction ss as [|s ss IH]; intros labels c l' H; cbn [compile_atoms] in H.
  - injection H as <- <-. repeat split; auto using extends_refl; try lia; try congruence.
  - apply cbind_ok in H. destruct H as ([c1 l1] & H1 & H). apply cbind_ok in H. destruct H as ([c2 l2] & H2 & H).
    injection H as <- <-. rewrite compile_atom_eq in H1. destruct (atom_of b s) as [a|]; [|discriminate].
    apply cbind_ok in H1. destruct H1 as ([id l] & G & H1).
    assert (c1 = atom_code b id a /\ l = l1) as [-> ->] by (split; congruence). clear H1.
    apply get_label_count in G; [|apply group_end_len]. destruct G as (G1 & G2 & G3 & G4).
    destruct (IH _ _ _ H2) as (E & L & B & LB & _).
    assert (FZ : fresh (group_end_str nr grp) l1 = 0%nat) by (unfold fresh; rewrite G3; reflexivity).
    split; [eapply extends_trans; eauto|]. split; [lia|]. split; [auto|]. split.
    + rewrite labels_of_app, labels_atom. exact LB.
    + intros _. pose proof (fresh_ext (group_end_str nr grp) _ _ E). lia.
Qed.
Lemma tokens_ne s : tokens "&&" s <> [].
Proof. apply (splits_ne "&&" s). apply tokens_spec; [discriminate|reflexivity]. Qed.
Lemma compile_groups_labels b nr gs : forall labels grp c l',
  compile_groups b labels nr grp gs = COk (c, l') ->
  extends labels l' /\
  (length l' <= length labels + length gs + (match gs with [] => 0 | _ => fresh (success_str nr) labels end))%nat /\
  ((length labels <= 512)%nat -> (length l' <= 512)%nat) /\ ids_lt (length l') c /\
  (gs <> [] -> fresh (success_str nr) l' = 0%nat).
Proof.
  induction gs as [|g gs IH]; intros labels grp c l' H; cbn [compile_groups] in H.
  - injection H as <- <-. repeat split; auto using extends_refl; try lia; try congruence. constructor.
  - apply cbind_ok in H. destruct H as ([c1 l1] & H1 & H).
    apply cbind_ok in H. destruct H as ([sid l2] & H2 & H).
    apply cbind_ok in H. destruct H as ([eid l3] & H3 & H).
    apply cbind_ok in H. destruct H as ([c2 l4] & H4 & H).
    assert (HH : (c1 ++ [jump_lbl sid; lbl eid] ++ c2)%list = c /\ l4 = l').
    { injection H as <- <-. auto. } clear H. destruct HH as [<- <-].
    apply compile_atoms_labels in H1. destruct H1 as (E1 & L1 & B1 & LB1 & F1).
    specialize (F1 (tokens_ne g)).
    apply get_label_count in H2; [|apply success_len]. destruct H2 as (L2 & E2 & S2 & B2).
    apply get_label_count in H3; [|apply group_end_len]. destruct H3 as (L3 & E3 & S3 & B3).
    destruct (IH _ _ _ _ H4) as (E4 & L4 & B4 & LB4 & F4).
    assert (fresh (group_end_str nr grp) l2 = 0%nat).
    { pose proof (fresh_ext (group_end_str nr grp) _ _ E2). lia. }
    pose proof (fresh_ext (success_str nr) _ _ E1) as X1.
    assert (S0 : fresh (success_str nr) l2 = 0%nat) by (unfold fresh; rewrite S2; reflexivity).
    assert (X0 : (fresh (group_end_str nr grp) labels <= 1)%nat).
    { apply fresh_le1. }
    assert (S3' : fresh (success_str nr) l3 = 0%nat) by (pose proof (fresh_ext (success_str nr) _ _ E3); lia).
    split; [eauto using extends_trans|]. split.
    { destruct gs as [|g2 gs]; cbn [length] in L4 |- *; lia. }
    split; [auto|]. split.
    + apply ids_lt_app; [unfold ids_lt; rewrite LB1; constructor|].
      apply (ids_lt_app _ [_; _]); [|exact LB4]. constructor; [|constructor].
      change (k (lbl eid)) with eid. apply find_index_lt in S3. apply extends_len in E4. lia.
    + intros _. pose proof (fresh_ext (success_str nr) _ _ E4). lia.
Qed.

Lemma compile_line_labels b o labels nr entry s blk l' r : s <> "1"%string ->
  compile_policy_line b labels nr entry (fo_action o) s = COk (blk, l') ->
  body_of b o s = Some r ->
  extends labels l' /\ (length l' + 1 <= length labels + rule_labels r)%nat /\
  ((length labels <= 512)%nat -> (length l' <= 512)%nat) /\ ids_lt (length l') (tl blk) /\
  blk = lbl entry :: tl blk.
Proof.
  intros N1. unfold compile_policy_line, body_of. apply seqb_false in N1. rewrite N1.
  destruct (String.eqb s ""); [discriminate|].
  destruct (has_prefix "return" s).
  - intros H. apply cbind_ok in H. destruct H as (i & H1 & H). rewrite compile_errno_eq in H1.
    destruct (return_of b o s) as [v|]; [|discriminate].
    assert ([lbl entry; i] = blk /\ labels = l') as [<- <-] by (split; congruence).
    intros R. injection R as <-. cbn [rule_labels tl]. repeat split; auto using extends_refl; try lia.
    assert (i = stmt op_ret v) as -> by congruence. constructor.
  - intros H. apply cbind_ok in H. destruct H as ([c1 l1] & H1 & H).
    apply cbind_ok in H. destruct H as (r0 & H2 & H).
    apply cbind_ok in H. destruct H as ([sid l2] & H3 & H).
    assert ((lbl entry :: c1 ++ [r0] ++ [lbl sid; ret_allow])%list = blk /\ l2 = l') as [<- <-].
    { split; congruence. } clear H. intros R.
    apply compile_groups_labels in H1. destruct H1 as (E1 & L1 & B1 & I1 & F1).
    apply get_label_count in H3; [|apply success_len]. destruct H3 as (L3 & E3 & S3 & B3).
    assert (RV : exists v, r0 = stmt op_ret v).
    { destruct (words ";"%char s) as [|flt [|rt more]].
      - injection H2 as <-. rewrite action_instr_value. eauto.
      - injection H2 as <-. rewrite action_instr_value. eauto.
      - rewrite compile_errno_eq in H2. destruct (return_of b o rt) as [v|]; [|discriminate].
        injection H2 as <-. eauto. }
    destruct RV as [v0 ->].
    assert (NG : exists alts v, r = Cond alts v /\ length alts =
       length (match words ";"%char s with arg_filter :: _ => tokens "||" arg_filter | [] => [] end)).
    { destruct (words ";"%char s) as [|flt rest].
      - injection R as <-. eexists _, _. split; reflexivity.
      - destruct (mapM (group_of b) (tokens "||" flt)) as [alts|] eqn:M; [|discriminate].
        destruct (default_or_return b o rest) as [v|]; [|discriminate]. injection R as <-.
        eexists _, _. split; [reflexivity|]. apply mapM_spec in M. symmetry.
        clear -M. induction M; cbn [length]; congruence. }
    destruct NG as (alts & v & -> & NG). cbn [rule_labels tl]. rewrite NG.
    set (gs := match words ";"%char s with arg_filter :: _ => tokens "||" arg_filter | [] => [] end) in *.
    split; [eauto using extends_trans|]. split.
    { assert (fresh (success_str nr) l1 <= 1)%nat by apply fresh_le1.
      assert (fresh (success_str nr) labels <= 1)%nat by apply fresh_le1.
      destruct gs as [|g gs]; [cbn [length] in *; lia|].
      specialize (F1 ltac:(discriminate)). lia. }
    split; [auto|]. split; [|reflexivity].
    apply ids_lt_app; [eapply ids_lt_mono; [|exact I1]; apply extends_len in E3; lia|].
    apply find_index_lt in S3. constructor; [|constructor]. change (k (lbl sid)) with sid. lia.
Qed.

(* ---- the whole file ---- *)
Definition linv (st : cstate) (n : nat) : Prop :=
  (length (cs_labels st) <= n)%nat /\ (length (cs_labels st) <= 512)%nat /\
  labels_of (cs_head st) = [] /\
  (ids_lt (length (cs_labels st)) (cs_args st) \/ (512 < n)%nat).
Definition lstep (st st' : cstate) (p : policy) : Prop :=
  forall n, linv st n -> linv st' (n + policy_labels p)%nat.
Lemma lstep_refl st : lstep st st [].
Proof. intros n H. cbn. rewrite Nat.add_0_r. exact H. Qed.
Lemma policy_labels_app p q : policy_labels (p ++ q) = (policy_labels p + policy_labels q)%nat.
Proof.
  unfold policy_labels. induction p; cbn [app fold_right]; [reflexivity|]. rewrite IHp. lia.
Qed.
Lemma lstep_trans a c d p q : lstep a c p -> lstep c d q -> lstep a d (p ++ q).
Proof. intros H1 H2 n H. rewrite policy_labels_app, Nat.add_assoc. auto. Qed.

Section Build.
  Variable b : build.
  Variable o : fopts.

  Lemma compile_rule_labels st s st' : compile_rule b o st s = COk st' ->
    exists p, rule_of b o s = Some p /\ lstep st st' p.
  Proof.
    unfold compile_rule, rule_of. destruct (strsep ":"%char s) as [name [body|]]; [|discriminate].
    cbv zeta. destruct (String.eqb (strip body) ""); [discriminate|].
    destruct (lookup_syscall (b_syscalls b) (strip name)) as [[nr ind]|] eqn:L.
    - assert (AS : assoc (strip name) (b_syscalls b) = Some nr) by (eapply lookup_from_spec; exact L).
      rewrite AS. destruct (String.eqb_spec (strip body) "1") as [E|N1].
      + intros H. injection H as <-. rewrite E. change (body_of b o "1") with (Some Allow).
        exists [Entry (strip name) nr Allow]. split; auto.
        intros n (A & B & C & D). cbn [policy_labels fold_right e_rule rule_labels cs_labels cs_args cs_head].
        rewrite !Nat.add_0_r. unfold linv. cbn [cs_labels cs_args cs_head].
        repeat split; auto. rewrite labels_of_app, C. reflexivity.
      + unfold bpf_label_id. intros H.
        destruct (find_index (strip name) (cs_labels st) 0) as [id|] eqn:FI.
        * apply cbind_ok in H. destruct H as ([blk l2] & H1 & H).
          destruct (compile_policy_line_ok b _ _ _ _ _ _ _ N1 H1) as (r & bd & B & _ & _ & _).
          rewrite B. exists [Entry (strip name) nr r]. split; auto.
          destruct (compile_line_labels b _ _ _ _ _ _ _ _ N1 H1 B) as (E2 & L2 & B2 & I2 & SH).
          injection H as <-. intros n (K1 & K2 & K3 & K4).
          cbn [policy_labels fold_right e_rule]. rewrite Nat.add_0_r.
          unfold linv. cbn [cs_labels cs_args cs_head].
          split; [lia|]. split; [auto|]. split; [rewrite labels_of_app, K3; reflexivity|].
          destruct K4 as [K4|K4]; [left|right; lia].
          apply ids_lt_app; [eapply ids_lt_mono; [|exact K4]; apply extends_len in E2; lia|].
          rewrite SH. apply (ids_lt_app _ [_]); [|exact I2]. constructor; [|constructor].
          change (k (lbl id)) with id. apply find_index_lt in FI. apply extends_len in E2. lia.
        * destruct (Nat.eqb (length (cs_labels st)) BPF_LABELS_MAX) eqn:FULL.
          { apply Nat.eqb_eq in FULL. apply cbind_ok in H. destruct H as ([blk l2] & H1 & H).
            destruct (compile_policy_line_ok b _ _ _ _ _ _ _ N1 H1) as (r & bd & B & _ & _ & _).
            rewrite B. exists [Entry (strip name) nr r]. split; auto.
            destruct (compile_line_labels b _ _ _ _ _ _ _ _ N1 H1 B) as (E2 & L2 & B2 & I2 & SH).
            injection H as <-. intros n (K1 & K2 & K3 & K4).
            cbn [policy_labels fold_right e_rule]. rewrite Nat.add_0_r.
            unfold linv. cbn [cs_labels cs_args cs_head].
            split; [lia|]. split; [auto|]. split; [rewrite labels_of_app, K3; reflexivity|].
            right. unfold BPF_LABELS_MAX in FULL. apply extends_len in E2. lia. }
          { apply Nat.eqb_neq in FULL. apply cbind_ok in H. destruct H as ([blk l2] & H1 & H).
            destruct (compile_policy_line_ok b _ _ _ _ _ _ _ N1 H1) as (r & bd & B & _ & _ & _).
            rewrite B. exists [Entry (strip name) nr r]. split; auto.
            destruct (compile_line_labels b _ _ _ _ _ _ _ _ N1 H1 B) as (E2 & L2 & B2 & I2 & SH).
            injection H as <-. intros n (K1 & K2 & K3 & K4).
            rewrite app_length in L2, B2. cbn [length] in L2, B2. unfold BPF_LABELS_MAX in FULL.
            cbn [policy_labels fold_right e_rule]. rewrite Nat.add_0_r.
            unfold linv. cbn [cs_labels cs_args cs_head].
            split; [lia|]. split; [apply B2; lia|]. split; [rewrite labels_of_app, K3; reflexivity|].
            apply extends_len in E2. rewrite app_length in E2. cbn [length] in E2.
            destruct K4 as [K4|K4]; [left|right; lia].
            apply ids_lt_app; [eapply ids_lt_mono; [|exact K4]; lia|].
            rewrite SH. apply (ids_lt_app _ [_]); [|exact I2]. constructor; [|constructor].
            unfold lbl. cbn [k]. lia. }
    - apply lookup_from_none in L. rewrite L.
      destruct (fo_allow_logging o); [|discriminate]. intros H. injection H as <-.
      exists []. split; auto. apply lstep_refl.
  Qed.

  Definition linclude (include : string -> cstate -> cres cstate) (incl : string -> option policy) : Prop :=
    forall f st st', include f st = COk st' -> exists p, incl f = Some p /\ lstep st st' p.
  Lemma compile_line_lstep include incl st raw st' : linclude include incl ->
    compile_line b o include st raw = COk st' ->
    exists p, line_of b o incl raw = Some p /\ lstep st st' p.
  Proof.
    intros GI. rewrite compile_line_eq. unfold line_of. cbv zeta.
    destruct (String.eqb (strip raw) "").
    { intros H. injection H as <-. exists []. split; auto. apply lstep_refl. }
    destruct (starts "#"%char (strip raw)).
    { intros H. injection H as <-. exists []. split; auto. apply lstep_refl. }
    destruct (starts "@"%char (strip raw)).
    - destruct (has_prefix "@frequency" (strip raw)).
      { intros H. injection H as <-. exists []. split; auto. apply lstep_refl. }
      destruct (parse_include (strip raw)) as [f|]; [|discriminate]. apply GI.
    - apply compile_rule_labels.
  Qed.
  Lemma compile_lines_lstep include incl ls : linclude include incl -> forall st st',
    compile_lines b o include st ls = COk st' ->
    exists p, lines_policy b o incl ls = Some p /\ lstep st st' p.
  Proof.
    intros GI. induction ls as [|l ls IH]; simpl; intros st st' H.
    - injection H as <-. exists []. split; auto. apply lstep_refl.
    - apply cbind_ok in H. destruct H as (st1 & H1 & H2).
      eapply compile_line_lstep in H1; eauto. destruct H1 as (p & -> & G1).
      apply IH in H2. destruct H2 as (q & -> & G2).
      exists (p ++ q)%list. split; auto. eapply lstep_trans; eauto.
  Qed.
  Lemma compile_stream_lstep include incl f : linclude include incl -> forall st st',
    compile_stream b o include st f = COk st' ->
    exists p, stream_policy b o incl f = Some p /\ lstep st st' p.
  Proof.
    intros GI st st'. unfold compile_stream, stream_policy. intros H.
    apply cbind_ok in H. destruct H as (st1 & H1 & H2).
    destruct (s_ioerr f); [discriminate|]. injection H2 as <-.
    eapply compile_lines_lstep in H1; eauto. destruct H1 as (p & -> & G). eauto.
  Qed.
  Lemma linclude0 fs : linclude (include0 b o fs) (incl0 b o fs).
  Proof.
    intros name st st'. unfold include0, incl0. destruct (fs name) as [f|]; [|discriminate].
    intros H. apply cbind_ok in H. destruct H as (st1 & H1 & H2).
    eapply compile_stream_lstep in H1; [|intros ? ? ? X; discriminate X]. destruct H1 as (p & -> & G1).
    exists p. split; auto. destruct (cs_bad st1) eqn:BAD; [discriminate|]. injection H2 as <-.
    intros n K. apply G1 in K. exact K.
  Qed.

  (* Nothing before bpf_resolve_jumps has undefined behaviour. *)
  Lemma cbind_ub {A B} (x : cres A) (f : A -> cres B) :
    cbind x f = CUb -> x = CUb \/ exists a, x = COk a /\ f a = CUb.
  Proof. destruct x; simpl; eauto; discriminate. Qed.
  Lemma get_label_no_ub l s : get_label_id l s <> CUb.
  Proof. unfold get_label_id. destruct (bpf_label_id l s) as [[i|] l']; discriminate. Qed.
  Lemma atoms_no_ub nr grp ss : forall l, compile_atoms b l nr grp ss <> CUb.
  Proof.
    induction ss as [|s ss IH]; intros l; cbn [compile_atoms]; [discriminate|]. intros H.
    apply cbind_ub in H. destruct H as [H|([c1 l1] & _ & H)].
    - rewrite compile_atom_eq in H. destruct (atom_of b s); [|discriminate].
      apply cbind_ub in H. destruct H as [H|([i l1] & _ & H)]; [eapply get_label_no_ub; eauto|discriminate].
    - apply cbind_ub in H. destruct H as [H|([c2 l2] & _ & H)]; [eapply IH; eauto|discriminate].
  Qed.
  Lemma groups_no_ub nr gs : forall l grp, compile_groups b l nr grp gs <> CUb.
  Proof.
    induction gs as [|g gs IH]; intros l grp; cbn [compile_groups]; [discriminate|]. intros H.
    apply cbind_ub in H. destruct H as [H|([c1 l1] & _ & H)]; [eapply atoms_no_ub; eauto|].
    apply cbind_ub in H. destruct H as [H|([c2 l2] & _ & H)]; [eapply get_label_no_ub; eauto|].
    apply cbind_ub in H. destruct H as [H|([c3 l3] & _ & H)]; [eapply get_label_no_ub; eauto|].
    apply cbind_ub in H. destruct H as [H|([c4 l4] & _ & H)]; [eapply IH; eauto|discriminate].
  Qed.
  Lemma errno_no_ub a s : compile_errno b a s <> CUb.
  Proof.
    unfold compile_errno. destruct (words c_sp s) as [|x more]; [discriminate|].
    destruct (negb (has_prefix "return" x)); [discriminate|]. destruct more as [|e more].
    - destruct a; discriminate.
    - destruct (parse_constant _ _ e); try discriminate. destruct (_ =? _)%Z; discriminate.
  Qed.
  Lemma policy_line_no_ub l nr e a s : compile_policy_line b l nr e a s <> CUb.
  Proof.
    unfold compile_policy_line. destruct (String.eqb s ""); [discriminate|].
    destruct (has_prefix "return" s); intros H.
    - apply cbind_ub in H. destruct H as [H|(i & _ & H)]; [eapply errno_no_ub; eauto|discriminate].
    - apply cbind_ub in H. destruct H as [H|([c1 l1] & _ & H)]; [eapply groups_no_ub; eauto|].
      apply cbind_ub in H. destruct H as [H|(r & _ & H)].
      + destruct (words ";"%char s) as [|? [|? ?]]; try discriminate. eapply errno_no_ub; eauto.
      + apply cbind_ub in H. destruct H as [H|([c2 l2] & _ & H)]; [eapply get_label_no_ub; eauto|discriminate].
  Qed.
  Lemma line_no_ub inc st l : (forall f st, inc f st <> CUb) -> compile_line b o inc st l <> CUb.
  Proof.
    intros I. rewrite compile_line_eq. cbv zeta.
    destruct (String.eqb (strip l) ""); [discriminate|]. destruct (starts "#" (strip l)); [discriminate|].
    destruct (starts "@" (strip l)).
    - destruct (has_prefix "@frequency" (strip l)); [discriminate|].
      destruct (parse_include (strip l)); [apply I|discriminate].
    - unfold compile_rule. destruct (strsep ":"%char (strip l)) as [name [body|]]; [|discriminate]. cbv zeta.
      destruct (String.eqb (strip body) ""); [discriminate|].
      destruct (lookup_syscall (b_syscalls b) (strip name)) as [[nr ind]|].
      + destruct (String.eqb (strip body) "1"); [discriminate|].
        destruct (bpf_label_id (cs_labels st) (strip name)) as [oid l1]. intros H.
        apply cbind_ub in H. destruct H as [H|([c2 l2] & _ & H)]; [eapply policy_line_no_ub; eauto|discriminate].
      + destruct (fo_allow_logging o); discriminate.
  Qed.
  Lemma stream_no_ub inc f st : (forall f st, inc f st <> CUb) -> compile_stream b o inc st f <> CUb.
  Proof.
    intros I H. unfold compile_stream in H. apply cbind_ub in H. destruct H as [H|(s & _ & H)].
    - revert st H. induction (multilines (s_bytes f)) as [|l ls IH]; intros st H; cbn [compile_lines] in H; [discriminate|].
      apply cbind_ub in H. destruct H as [H|(s & _ & H)]; [eapply line_no_ub; eauto|eapply IH; eauto].
    - destruct (s_ioerr f); discriminate.
  Qed.
  Lemma include0_no_ub fs f st : include0 b o fs f st <> CUb.
  Proof.
    unfold include0. destruct (fs f); [|discriminate]. intros H. apply cbind_ub in H.
    destruct H as [H|(s1 & _ & H)].
    - eapply stream_no_ub; [|exact H]. intros; discriminate.
    - destruct (cs_bad s1); discriminate.
  Qed.

  Lemma resolve_ub count p : forall off, resolve_from count off p = RUb ->
    exists id, In id (labels_of p) /\ N.of_nat count <= id.
  Proof.
    induction p as [|i p IH]; intros off; cbn [resolve_from]; [discriminate|].
    unfold labels_of. cbn [filter].
    destruct (resolve_from count (off + 1) p) as [[r' locs]| |] eqn:R; try discriminate.
    - destruct (is_jump i).
      { destruct (_ <=? _); [discriminate|]. destruct (loc_find _ _); discriminate. }
      destruct (is_label i) eqn:IL; [|discriminate].
      destruct (N.leb_spec (N.of_nat count) (k i)).
      + intros _. exists (k i). split; [left; reflexivity|lia].
      + destruct (loc_find _ _); discriminate.
    - intros _. destruct (IH _ R) as (id & I & H). exists id. split; auto.
      destruct (is_label i); [right|]; exact I.
  Qed.

  Lemma compile_ub_labels fs f : compile_filter b o fs (Some f) = CUb ->
    exists pol, policy_of b o fs f = Some pol /\ (512 < policy_labels pol)%nat.
  Proof.
    unfold compile_filter. intros H. apply cbind_ub in H. destruct H as [H|(st & H1 & H)].
    { exfalso. eapply stream_no_ub; [|exact H]. apply include0_no_ub. }
    destruct (cs_bad st); [discriminate|]. apply cbind_ub in H. destruct H as [H|(def & HD & H)].
    { destruct (fo_action o); try discriminate. destruct (fo_allow_logging o); discriminate. }
    cbv zeta in H. destruct (Nat.ltb BPF_MAXINSNS _) eqn:LT; [discriminate|].
    unfold bpf_resolve_jumps in H. rewrite LT in H.
    destruct (resolve_from (length (cs_labels st)) 0 (cs_head st ++ [def] ++ cs_args st)) as [[p' locs]| |] eqn:R;
      try discriminate.
    eapply compile_stream_lstep in H1; [|apply linclude0]. destruct H1 as (pol & P & ST).
    exists pol. split; [exact P|].
    assert (I0 : linv (CS (prologue b o) [] [] [] false) 0).
    { unfold linv. cbn [cs_labels cs_args cs_head length]. repeat split; try lia.
      - apply labels_prologue.
      - left. constructor. }
    apply ST in I0. destruct I0 as (K1 & K2 & K3 & K4).
    destruct K4 as [K4|K4]; [|lia]. exfalso.
    apply resolve_ub in R. destruct R as (id & I & LE). rewrite !labels_of_app, K3 in I.
    assert (DL : labels_of [def] = []).
    { apply default_spec in HD. destruct HD as [-> _]. reflexivity. }
    rewrite DL in I. cbn [app] in I. unfold ids_lt in K4. rewrite Forall_forall in K4. apply K4 in I. lia.
  Qed.
End Build.
