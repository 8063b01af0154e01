(* The kernel accepts every compiled filter (C05). *)
From Verif Require Export P_Verdict.
From Coq Require Import ZifyBool ZifyNat ZifyN.
Local Open Scope N_scope.

(* ---- shape of programs with labels; [n] instructions follow ---- *)
Definition sym_insn (i : instr) (after : nat) : bool :=
  if is_jump i then true
  else if is_label i then Nat.leb 1 after
  else insn_ok i after && insn_fits i.
Fixpoint sym_ok (p : list instr) (n : nat) : bool :=
  match p with
  | [] => true
  | i :: rest => sym_insn i (length rest + n) && sym_ok rest n
  end.
Lemma sym_ok_app p q n : sym_ok (p ++ q) n = sym_ok p (length q + n) && sym_ok q n.
Proof.
  induction p as [|i p IH]; simpl; auto.
  rewrite IH, app_length, andb_assoc. do 3 f_equal. lia.
Qed.
Lemma insn_ok_mono i a b : (a <= b)%nat -> insn_ok i a = true -> insn_ok i b = true.
Proof.
  unfold insn_ok. intros L. destruct (code i =? op_ret); auto.
  destruct (code i =? op_ja). { rewrite !Nat.ltb_lt. lia. }
  destruct (code i =? op_ld_abs); auto.
  destruct ((code i =? op_ld_mem) || (code i =? op_st)); auto.
  destruct (jump_test (code i) 0 0); auto.
  rewrite !andb_true_iff, !Nat.ltb_lt. lia.
Qed.
Lemma sym_insn_mono i a b : (a <= b)%nat -> sym_insn i a = true -> sym_insn i b = true.
Proof.
  unfold sym_insn. intros L. destruct (is_jump i); auto. destruct (is_label i).
  { rewrite !Nat.leb_le. lia. }
  rewrite !andb_true_iff. intros [H1 H2]. split; auto. eapply insn_ok_mono; eauto.
Qed.
Lemma sym_ok_mono p a b : (a <= b)%nat -> sym_ok p a = true -> sym_ok p b = true.
Proof.
  intros L. induction p as [|i p IH]; simpl; auto. rewrite !andb_true_iff. intros [H1 H2].
  split; auto. eapply sym_insn_mono; [|exact H1]. lia.
Qed.

Lemma resolve_shape count p : forall off p' locs,
  resolve_from count off p = ROk (p', locs) -> sym_ok p 0 = true ->
  off + N.of_nat (length p) <= 2 ^ 32 ->
  insns_ok p' = true /\ forallb insn_fits p' = true.
Proof.
  induction p as [|i rest IH]; simpl; intros off p' locs H S B.
  - injection H as <- _. auto.
  - apply andb_true_iff in S. destruct S as [S1 S2]. rewrite Nat.add_0_r in S1.
    destruct (resolve_from count (off + 1) rest) as [[rest' locs']| |] eqn:R; try discriminate.
    assert (L : length rest' = length rest) by (eapply resolve_length; eauto).
    destruct (IH _ _ _ R S2) as [O F]; [lia|]. unfold sym_insn in S1.
    destruct (is_jump i) eqn:J.
    + destruct (N.of_nat count <=? k i); [discriminate|].
      destruct (loc_find (k i) locs') as [l|] eqn:LF; [|discriminate]. injection H as <- _.
      destruct (loc_find_split _ _ _ _ _ _ _ R LF) as (pre & post & p2 & l2 & E & _ & EL & _ & _).
      assert (LL : length rest = (length pre + S (length post))%nat) by (rewrite E, app_length; reflexivity).
      cbn [insns_ok forallb]. rewrite O, F, !andb_true_r. split.
      * unfold insn_ok. cbn [code k]. change (op_ja =? op_ret) with false. change (op_ja =? op_ja) with true.
        cbv iota. apply Nat.ltb_lt. lia.
      * unfold insn_fits. cbn [code jt jf k]. change (op_ja <? 65536) with true. change (0 <? 256) with true.
        cbn [andb]. apply N.ltb_lt. change (2 ^ 32) with 4294967296 in *. lia.
    + destruct (is_label i) eqn:LB.
      * destruct (N.of_nat count <=? k i); [discriminate|].
        destruct (loc_find (k i) locs'); [discriminate|]. injection H as <- _.
        cbn [insns_ok forallb]. rewrite O, F, !andb_true_r. split; [|reflexivity].
        unfold insn_ok. cbn [code k]. change (op_ja =? op_ret) with false. change (op_ja =? op_ja) with true.
        cbv iota. apply Nat.ltb_lt. apply Nat.leb_le in S1. change (N.to_nat 0) with 0%nat. lia.
      * injection H as <- _. cbn [insns_ok forallb]. apply andb_true_iff in S1. destruct S1 as [S1 S3].
        rewrite O, F, S3, L, S1. auto.
Qed.

Lemma last_is_ret_app p v : last_is_ret (p ++ [stmt op_ret v]) = true.
Proof. induction p as [|i p IH]; [reflexivity|]. simpl. destruct p; [reflexivity|exact IH]. Qed.

Lemma resolve_last count p : forall off p' locs,
  resolve_from count off p = ROk (p', locs) -> last_is_ret p = true -> last_is_ret p' = true.
Proof.
  induction p as [|i rest IH]; simpl; intros off p' locs H S; [discriminate|].
  destruct (resolve_from count (off + 1) rest) as [[rest' locs']| |] eqn:R; try discriminate.
  assert (L : length rest' = length rest) by (eapply resolve_length; eauto).
  destruct rest as [|j rest].
  - destruct rest'; [|discriminate]. simpl in R. injection R as <-.
    assert (J : is_jump i = false).
    { unfold is_jump. apply N.eqb_eq in S. rewrite S. reflexivity. }
    assert (LB : is_label i = false).
    { unfold is_label. apply N.eqb_eq in S. rewrite S. reflexivity. }
    rewrite J, LB in H. injection H as <- _. exact S.
  - assert (X : last_is_ret rest' = true) by (eapply IH; eauto).
    assert (exists x, p' = x :: rest') as [x ->].
    { destruct (is_jump i).
      - destruct (N.of_nat count <=? k i); [discriminate|].
        destruct (loc_find (k i) locs'); [|discriminate]. injection H as <- _. eauto.
      - destruct (is_label i).
        + destruct (N.of_nat count <=? k i); [discriminate|].
          destruct (loc_find (k i) locs'); [discriminate|]. injection H as <- _. eauto.
        + injection H as <- _. eauto. }
    simpl. destruct rest'; [discriminate|exact X].
Qed.

(* ---- scratch words ---- *)
(* Positions of labels in the program with labels. *)
Definition label_at (p : list instr) (j : nat) : Prop :=
  exists i, nth_error p j = Some i /\ is_label i = true.

(* Earlier jumps only say something about the next instruction and labels. *)
Definition masks_ok (p : list instr) (m : nat -> bool) : Prop :=
  forall j, m (S j) = false -> label_at p (S j).

(* What the checker needs from a piece of code [p] followed by [q]: whatever
   the resolved jumps are, it accepts the piece and goes on with masks that
   only concern the next instruction or labels of [q].  [p'] is [p] with each
   jump marker replaced by a jump to some label of what follows, and each
   label marker by a no-op. *)
Inductive resolved : list instr -> list instr -> Prop :=
| res_nil : resolved [] []
| res_jump i rest rest' n : is_jump i = true -> label_at rest (N.to_nat n) ->
    resolved rest rest' -> resolved (i :: rest) (I op_ja 0 0 n :: rest')
| res_label i rest rest' : is_label i = true -> resolved rest rest' ->
    resolved (i :: rest) (I op_ja 0 0 0 :: rest')
| res_plain i rest rest' : is_jump i = false -> is_label i = false -> resolved rest rest' ->
    resolved (i :: rest) (i :: rest').

Lemma resolve_resolved count p : forall off p' locs,
  resolve_from count off p = ROk (p', locs) -> resolved p p'.
Proof.
  induction p as [|i rest IH]; simpl; intros off p' locs H.
  - injection H as <- _. constructor.
  - destruct (resolve_from count (off + 1) rest) as [[rest' locs']| |] eqn:R; try discriminate.
    specialize (IH _ _ _ R).
    destruct (is_jump i) eqn:J.
    + destruct (N.of_nat count <=? k i); [discriminate|].
      destruct (loc_find (k i) locs') as [l|] eqn:LF; [|discriminate]. injection H as <- _.
      apply res_jump; auto.
      destruct (loc_find_split _ _ _ _ _ _ _ R LF) as (pre & post & p2 & l2 & E & _ & EL & _ & _).
      exists (lbl (k i)). split; [|reflexivity]. rewrite E.
      replace (N.to_nat (l - (off + 1))) with (length pre) by lia.
      rewrite nth_error_app2 by lia. rewrite Nat.sub_diag. reflexivity.
    + destruct (is_label i) eqn:LB.
      * destruct (N.of_nat count <=? k i); [discriminate|].
        destruct (loc_find (k i) locs'); [discriminate|]. injection H as <- _. apply res_label; auto.
      * injection H as <- _. apply res_plain; auto.
Qed.

(* A piece of code is cell-safe if checking it and then the rest reduces to
   checking the rest from some state with good masks. *)
Definition cell_safe (frag : list instr) : Prop :=
  forall c rest p' valid m, resolved (frag ++ rest) p' -> masks_ok (frag ++ rest) m ->
  exists rest' valid' m', resolved rest rest' /\ masks_ok rest m' /\
    (cell_ok c rest' valid' m' = true -> cell_ok c p' valid m = true).

Lemma cell_safe_nil : cell_safe [].
Proof. intros c rest p' valid m R M. exists p', valid, m. auto. Qed.
Lemma cell_safe_app f g : cell_safe f -> cell_safe g -> cell_safe (f ++ g).
Proof.
  intros F G c rest p' valid m R M. rewrite <- app_assoc in *.
  destruct (F c _ _ valid m R M) as (r1 & v1 & m1 & R1 & M1 & C1).
  destruct (G c _ _ v1 m1 R1 M1) as (r2 & v2 & m2 & R2 & M2 & C2).
  exists r2, v2, m2. auto.
Qed.
Lemma cell_safe_flat {A} (f : A -> list instr) l : (forall x, In x l -> cell_safe (f x)) -> cell_safe (flat_map f l).
Proof.
  induction l as [|x l IH]; simpl; intros H; [apply cell_safe_nil|].
  apply cell_safe_app; auto.
Qed.

Lemma masks_tl i p m : masks_ok (i :: p) m -> forall j, m (S j) = false -> label_at p j.
Proof. intros M j H. apply M in H. destruct H as (x & N & L). exists x. auto. Qed.

(* single instructions *)
Lemma safe_jump id : cell_safe [jump_lbl id].
Proof.
  intros c rest p' valid m R M. cbn [app] in R.
  inversion R as [|i r r' n J LA RR|i r r' J RR|i r r' J L RR]; subst; try discriminate.
  exists r', true, (mask_at n (valid && m 0%nat) (fun j => m (S j))). split; auto. split; [|auto].
  intros j H. unfold mask_at in H. destruct (Nat.eqb_spec (S j) (N.to_nat n)) as [E|E].
  - rewrite E. exact LA.
  - apply (masks_tl _ _ _ M) in H. exact H.
Qed.
Lemma safe_lbl id : cell_safe [lbl id].
Proof.
  intros c rest p' valid m R M. cbn [app] in R.
  inversion R as [|i r r' n J LA RR|i r r' J RR|i r r' J L RR]; subst; try discriminate.
  exists r', true, (mask_at 0 (valid && m 0%nat) (fun j => m (S j))). split; auto. split; [|auto].
  intros j H. unfold mask_at in H. change (Nat.eqb (S j) (N.to_nat 0)) with false in H. cbv iota in H.
  apply (masks_tl _ _ _ M) in H. exact H.
Qed.
Lemma safe_plain i : is_jump i = false -> is_label i = false ->
  (code i =? op_st) = false -> (code i =? op_ld_mem) = false -> (code i =? op_ja) = false ->
  jump_test (code i) 0 0 = None -> cell_safe [i].
Proof.
  intros J L E1 E2 E3 E4 c rest p' valid m R M. cbn [app] in R.
  inversion R as [|i' r r' n J' LA RR|i' r r' J' RR|i' r r' J' L' RR]; subst; try congruence.
  exists r', (valid && m 0%nat), (fun j => m (S j)). split; auto. split.
  - intros j H. apply (masks_tl _ _ _ M) in H. exact H.
  - intros H. cbn [cell_ok]. rewrite E1, E2, E3, E4. exact H.
Qed.
Lemma safe_ret v : cell_safe [stmt op_ret v].
Proof. apply safe_plain; reflexivity. Qed.
Lemma safe_ld v : cell_safe [stmt op_ld_abs v].
Proof. apply safe_plain; reflexivity. Qed.

(* Peel resolved plain instructions off. *)
Lemma resolved_plain pre rest p' : forallb plain pre = true -> resolved (pre ++ rest) p' ->
  exists rest', p' = (pre ++ rest')%list /\ resolved rest rest'.
Proof.
  revert p'. induction pre as [|i pre IH]; simpl; intros p' H R; [eauto|].
  apply andb_true_iff in H. destruct H as [H1 H2]. unfold plain in H1.
  apply andb_true_iff in H1. destruct H1 as [J L]. apply negb_true_iff in J, L.
  inversion R as [|i' r r' n J' LA RR|i' r r' J' RR|i' r r' J' L' RR]; subst; try congruence.
  destruct (IH _ H2 RR) as (r2 & -> & RR2). eauto.
Qed.
Lemma resolved_jump id rest p' : resolved (jump_lbl id :: rest) p' ->
  exists n rest', p' = I op_ja 0 0 n :: rest' /\ label_at rest (N.to_nat n) /\ resolved rest rest'.
Proof. intros R. inversion R; subst; try discriminate. eauto. Qed.

(* Inside a piece without labels nothing is known but the first mask. *)
Lemma masks_inside frag rest m j : masks_ok (frag ++ rest) m -> labels_of frag = [] ->
  (S j < length frag)%nat -> m (S j) = true.
Proof.
  intros M L LT. destruct (m (S j)) eqn:E; auto. apply M in E. destruct E as (i & N & IL).
  rewrite nth_error_app1 in N by auto. exfalso.
  apply nth_error_In in N. assert (X : In i (filter is_label frag)) by (apply filter_In; auto).
  unfold labels_of in L. apply map_eq_nil in L. rewrite L in X. exact X.
Qed.
Lemma masks_after frag rest m j : masks_ok (frag ++ rest) m -> frag <> [] ->
  m (length frag + S j)%nat = false -> label_at rest (S j).
Proof.
  intros M NE H. assert (E : (length frag + S j = S (length frag + j))%nat) by lia.
  rewrite E in H. apply M in H. rewrite <- E in H. destruct H as (i & N & L).
  rewrite nth_error_app2 in N by lia. exists i. split; auto. rewrite <- N. f_equal. lia.
Qed.


Lemma safe_allow nr : cell_safe (bpf_allow_syscall nr).
Proof.
  intros c rest p' valid m R M.
  apply resolved_plain in R; [|reflexivity]. destruct R as (rest' & -> & RR).
  eexists rest', _, _. split; [exact RR|]. split; cycle 1.
  { intros H. exact H. }
  intros j H. cbn in H. eapply (masks_after (bpf_allow_syscall nr)); [exact M|discriminate|exact H].
Qed.
Lemma safe_args nr id : cell_safe (bpf_allow_syscall_args nr id).
Proof.
  intros c rest p' valid m R M. unfold bpf_allow_syscall_args in *.
  change ([jump op_jeq nr 0 1; jump_lbl id] ++ rest)%list
    with ([jump op_jeq nr 0 1] ++ jump_lbl id :: rest)%list in R.
  apply resolved_plain in R; [|reflexivity]. destruct R as (r1 & -> & R).
  apply resolved_jump in R. destruct R as (n & rest' & -> & LA & RR).
  eexists rest', _, _. split; [exact RR|]. split; cycle 1.
  { intros H. exact H. }
  intros j H. cbn - [N.to_nat] in H. unfold mask_at in H.
  destruct (Nat.eqb_spec (S j) (N.to_nat n)) as [E|E]; [rewrite E; exact LA|].
  cbn in H. eapply (masks_after [jump op_jeq nr 0 1; jump_lbl id]); [exact M|discriminate|exact H].
Qed.
Lemma safe_arch p : cell_safe (bpf_validate_arch p).
Proof.
  intros c rest p' valid m R M.
  apply resolved_plain in R; [|reflexivity]. destruct R as (rest' & -> & RR).
  eexists rest', _, _. split; [exact RR|]. split; cycle 1.
  { intros H. exact H. }
  intros j H. cbn in H. eapply (masks_after (bpf_validate_arch p)); [exact M|discriminate|exact H].
Qed.

Lemma arg_comp_pre p o idx c id : forallb plain (removelast (bpf_arg_comp p o idx c id)) = true /\
  bpf_arg_comp p o idx c id = (removelast (bpf_arg_comp p o idx c id) ++ [jump_lbl id])%list.
Proof.
  destruct (arg_comp_shape p o idx c id) as (pre & E & P). rewrite E, removelast_last. auto.
Qed.

Lemma safe_comp p o idx cst id : cell_safe (bpf_arg_comp p o idx cst id).
Proof.
  intros c rest p' valid m R M.
  destruct (arg_comp_pre p o idx cst id) as [PL E].
  assert (LB : labels_of (bpf_arg_comp p o idx cst id) = []).
  { rewrite E, labels_of_app, labels_plain by exact PL. reflexivity. }
  rewrite E, <- app_assoc in R. apply resolved_plain in R; [|exact PL].
  destruct R as (r1 & -> & R). cbn [app] in R.
  apply resolved_jump in R. destruct R as (n & rest' & -> & LA & RR). clear E PL.
  assert (NE : bpf_arg_comp p o idx cst id <> []).
  { destruct p as [b64 le an]. unfold bpf_arg_comp, bpf_load_arg. destruct (bits64 _); discriminate. }
  pose proof (fun j => masks_inside _ _ _ j M LB) as MI.
  pose proof (fun j => masks_after _ _ _ j M NE) as MA. clear M LB NE.
  destruct p as [b64 le an].
  unfold bpf_arg_comp, bpf_load_arg, comp_jin, comp_jset, comp_jeq, comp_jgt, comp_jge in *.
  destruct b64, o; cbn [bits64] in *;
  unfold comp_jset64, comp_jset32, comp_jeq32, comp_jeq64,
    comp_jgt32, comp_jgt64, comp_jge32, comp_jge64 in *; cbv zeta in *;
  try (destruct (hi32 cst =? 0));
  cbn [app length removelast] in *;
  destruct c as [|[c|c|]];
  (eexists rest', _, _; (split; [exact RR|]);
   match goal with |- masks_ok rest ?mm /\ (cell_ok ?cc rest' ?vv ?mm = true -> ?G) =>
     let Q := fresh "Q" in
     assert (Q : cell_ok cc rest' vv mm = true -> G);
     [ let H := fresh "H" in intros H; cbn;
       first [ exact H
             | apply andb_true_iff; split;
               [ unfold mask_at; cbn; rewrite ?(MI 0%nat), ?(MI 1%nat), ?(MI 2%nat), ?(MI 3%nat),
                   ?(MI 4%nat), ?(MI 5%nat), ?(MI 6%nat) by (cbn; lia); rewrite ?orb_true_r; reflexivity
               | exact H ] ]
     | split; [|exact Q]; clear Q ]
   end;
   let j := fresh "j" in let H := fresh "H" in
   intros j H; unfold mask_at in H; cbv beta in H;
   destruct (Nat.eqb_spec (S j) (N.to_nat n)) as [E|E]; [rewrite E; exact LA|];
   cbn in H; apply MA; exact H).
Qed.

(* ---- shape of the generated pieces ---- *)
Lemma lo32_lt x : lo32 x < 2 ^ 32.
Proof. apply N.mod_lt. discriminate. Qed.
Lemma sym_cmp c kk t f after : In c [op_jeq; op_jgt; op_jge; op_jset] -> kk < 2 ^ 32 -> t < 256 -> f < 256 ->
  (N.to_nat t < after)%nat -> (N.to_nat f < after)%nat -> sym_insn (jump c kk t f) after = true.
Proof.
  intros C K T F A1 A2.
  assert (X : insn_fits (jump c kk t f) = true).
  { unfold insn_fits, jump. cbn [code jt jf k]. rewrite !andb_true_iff, !N.ltb_lt.
    repeat split; auto. destruct C as [<-|[<-|[<-|[<-|[]]]]]; reflexivity. }
  unfold sym_insn.
  assert (NJ : is_jump (jump c kk t f) = false /\ is_label (jump c kk t f) = false).
  { destruct C as [<-|[<-|[<-|[<-|[]]]]]; split; reflexivity. }
  destruct NJ as [-> ->]. rewrite X, andb_true_r. unfold insn_ok, jump. cbn [code jt jf k].
  apply Nat.ltb_lt in A1, A2.
  destruct C as [<-|[<-|[<-|[<-|[]]]]]; cbn [N.eqb Pos.eqb op_jeq op_ret op_ja op_ld_abs op_ld_mem op_st orb];
    unfold jump_test; simpl; rewrite A1, A2; reflexivity.
Qed.
Lemma sym_load idx after : (0 <= idx <= 5)%Z ->
  sym_insn (stmt op_ld_abs (lo_arg idx)) after = true /\ sym_insn (stmt op_ld_abs (hi_arg idx)) after = true.
Proof.
  intros H. assert (C : idx = 0%Z \/ idx = 1%Z \/ idx = 2%Z \/ idx = 3%Z \/ idx = 4%Z \/ idx = 5%Z) by lia.
  destruct C as [->|[->|[->|[->|[->| ->]]]]]; split; reflexivity.
Qed.
Lemma sym_comp p o idx c id n : (0 <= idx <= 5)%Z -> (1 <= n)%nat -> sym_ok (bpf_arg_comp p o idx c id) n = true.
Proof.
  intros I N.
  pose proof (fun a => proj1 (sym_load idx a I)) as L1. pose proof (fun a => proj2 (sym_load idx a I)) as L2.
  destruct p as [b64 le an].
  unfold bpf_arg_comp, bpf_load_arg, comp_jin, comp_jset, comp_jeq, comp_jgt, comp_jge.
  destruct b64, o; cbn [bits64];
  unfold comp_jset64, comp_jeq64, comp_jgt64, comp_jge64; cbv zeta;
  unfold comp_jset32, comp_jeq32, comp_jgt32, comp_jge32;
  try (destruct (hi32 c =? 0)); cbn [app sym_ok length];
  repeat match goal with |- (_ && _)%bool = true => apply andb_true_iff; split end; try apply L1; try apply L2; try reflexivity;
  apply sym_cmp; try apply lo32_lt; try lia; cbn; auto.
Qed.
Lemma sym_ret v n : v < 2 ^ 32 -> sym_insn (stmt op_ret v) n = true.
Proof.
  intros V. unfold sym_insn. change (is_jump (stmt op_ret v)) with false. change (is_label (stmt op_ret v)) with false.
  cbv iota. change (insn_ok (stmt op_ret v) n) with true. unfold insn_fits, stmt. cbn [code jt jf k].
  change (op_ret <? 65536) with true. change (0 <? 256) with true. cbn [andb]. apply N.ltb_lt. exact V.
Qed.
Lemma errno_lt e : ERRNO e < 2 ^ 32.
Proof. unfold ERRNO. pose proof (N.mod_lt e 65536 ltac:(discriminate)). change (2 ^ 32) with 4294967296. lia. Qed.
Lemma action_lt a : action_value a < 2 ^ 32.
Proof. destruct a; reflexivity. Qed.

Section Build.
  Variable b : build.
  Variable o : fopts.
  Hypothesis LE : little (b_plat b) = true.
  Hypothesis NM : names_ok (b_consts b).
  Hypothesis ARCH : arch_no (b_plat b) < 2 ^ 32.
  Hypothesis NRS : Forall (fun e => snd e < 2 ^ 32) (b_syscalls b).

  Definition ret_lt (r : rule) : Prop :=
    match r with Allow => True | Return v => v < 2 ^ 32 | Cond _ v => v < 2 ^ 32 end.

  Lemma sym_atoms eid ats n : Forall (fun a => (0 <= at_arg a <= 5)%Z) ats -> (1 <= n)%nat ->
    sym_ok (flat_map (atom_code b eid) ats) n = true.
  Proof.
    intros F N. induction F as [|a ats A F IH]; [reflexivity|]. cbn [flat_map].
    rewrite sym_ok_app, IH, andb_true_r. apply sym_comp; auto. lia.
  Qed.
  Lemma sym_group sid g n : Forall (fun a => (0 <= at_arg a <= 5)%Z) (snd g) -> (1 <= n)%nat ->
    sym_ok (group_code b sid g) n = true.
  Proof.
    intros F N. unfold group_code. rewrite sym_ok_app, sym_atoms by (auto; cbn; lia).
    cbn [sym_ok length]. unfold sym_insn.
    change (is_jump (jump_lbl sid)) with true. change (is_jump (lbl (fst g))) with false.
    change (is_label (lbl (fst g))) with true. cbv iota. cbn [andb].
    destruct n; [lia|reflexivity].
  Qed.
  Lemma sym_groups sid egs n : Forall (Forall (fun a => (0 <= at_arg a <= 5)%Z)) (map snd egs) -> (1 <= n)%nat ->
    sym_ok (flat_map (group_code b sid) egs) n = true.
  Proof.
    intros F N. induction egs as [|g egs IH]; [reflexivity|]. cbn [map] in F. inversion F; subst.
    cbn [flat_map]. rewrite sym_ok_app, IH, andb_true_r by auto. apply sym_group; auto. lia.
  Qed.
  Lemma sym_rule r body n : rule_code b r body -> rule_args_ok r -> ret_lt r -> sym_ok body n = true.
  Proof.
    intros C R V. destruct C as [v|sid egs v]; cbn [rule_args_ok ret_lt] in *.
    - cbn [sym_ok]. rewrite sym_ret; auto.
    - rewrite sym_ok_app, sym_groups by (auto; cbn; lia). cbn [sym_ok].
      rewrite sym_ret by auto. reflexivity.
  Qed.
  Lemma safe_rule r body : rule_code b r body -> cell_safe body.
  Proof.
    intros C. destruct C as [v|sid egs v]; [apply safe_ret|].
    apply cell_safe_app.
    - apply cell_safe_flat. intros g _. unfold group_code. apply cell_safe_app.
      + apply cell_safe_flat. intros a _. apply safe_comp.
      + apply (cell_safe_app [_] [_]); [apply safe_jump|apply safe_lbl].
    - apply (cell_safe_app [_] [_; _]); [apply safe_ret|].
      apply (cell_safe_app [_] [_]); [apply safe_lbl|apply safe_ret].
  Qed.
  Lemma rule_code_last r body : rule_code b r body -> exists pre v, body = (pre ++ [stmt op_ret v])%list.
  Proof.
    intros C. destruct C as [v|sid egs v].
    - exists [], v. reflexivity.
    - exists (flat_map (group_code b sid) egs ++ [stmt op_ret v; lbl sid])%list, RET_ALLOW.
      rewrite <- app_assoc. reflexivity.
  Qed.

  Lemma assoc_lt n nr : assoc n (b_syscalls b) = Some nr -> nr < 2 ^ 32.
  Proof.
    intros H. apply assoc_spec in H. clear -NRS H. induction H; inversion NRS; subst; auto.
  Qed.
  Lemma sym_head i n : item_ok b i -> (1 <= n)%nat -> sym_ok (head_of i) n = true.
  Proof.
    intros [_ A] N. apply assoc_lt in A. unfold head_of.
    destruct (snd i) as [[id body]|]; cbn [sym_ok bpf_allow_syscall bpf_allow_syscall_args length].
    - rewrite sym_cmp; auto; try reflexivity; cbn; try lia; auto.
    - rewrite sym_cmp; auto; try reflexivity; cbn; try lia; auto.
  Qed.
  Lemma sym_selected names n : (1 <= n)%nat -> sym_ok (allow_selected b names) n = true.
  Proof.
    intros N. induction names as [|nm names IH]; [reflexivity|]. unfold allow_selected. cbn [flat_map].
    rewrite sym_ok_app. apply andb_true_iff. split; [|exact IH].
    assert (K : match lookup_syscall (b_syscalls b) nm with Some (nr, _) => nr | None => 4294967295 end < 2 ^ 32).
    { destruct (lookup_syscall (b_syscalls b) nm) as [[nr ind]|] eqn:L; [|reflexivity].
      apply lookup_from_spec in L. eapply assoc_lt; eauto. }
    cbn [sym_ok bpf_allow_syscall length]. rewrite sym_cmp; auto; try reflexivity; cbn; try lia; auto.
  Qed.
  Lemma sym_prologue n : (1 <= n)%nat -> sym_ok (prologue b o) n = true.
  Proof.
    intros N. unfold prologue. rewrite !sym_ok_app.
    repeat match goal with |- (_ && _)%bool = true => apply andb_true_iff; split end.
    - cbn [sym_ok bpf_validate_arch length]. rewrite sym_cmp; auto; try reflexivity; cbn; try lia; auto.
    - reflexivity.
    - destruct (fo_allow_syscalls_for_logging o); [|reflexivity]. apply sym_selected. lia.
    - destruct (fo_libc_compat o); [|reflexivity]. apply sym_selected. lia.
  Qed.
  Lemma safe_prologue : cell_safe (prologue b o).
  Proof.
    unfold prologue. apply cell_safe_app; [apply safe_arch|]. apply cell_safe_app; [apply safe_ld|].
    assert (S : forall names, cell_safe (allow_selected b names)).
    { intros names. apply cell_safe_flat. intros x _. apply safe_allow. }
    apply cell_safe_app.
    - destruct (fo_allow_syscalls_for_logging o); [apply S|apply cell_safe_nil].
    - destruct (fo_libc_compat o); [apply S|apply cell_safe_nil].
  Qed.

  Lemma return_lt s v : return_of b o s = Some v -> v < 2 ^ 32.
  Proof.
    unfold return_of. destruct (words c_sp s) as [|x more]; [discriminate|].
    destruct (has_prefix "return" x); [|discriminate]. destruct more as [|e more].
    - intros H. assert (v = action_value (fo_action o)) as -> by (destruct (fo_action o); congruence).
      apply action_lt.
    - destruct (parse_constant _ _ e); try discriminate. destruct (_ =? _); [discriminate|].
      intros H. injection H as <-. apply errno_lt.
  Qed.
  Lemma body_ret s r : body_of b o s = Some r -> ret_lt r.
  Proof.
    unfold body_of. destruct (String.eqb s "1"); [intros H; injection H as <-; exact Logic.I|].
    destruct (String.eqb s ""); [discriminate|].
    destruct (has_prefix "return" s).
    { destruct (return_of b o s) eqn:R; [|discriminate]. intros H; injection H as <-. eapply return_lt; eauto. }
    destruct (words ";"%char s) as [|flt rest]; [intros H; injection H as <-; apply action_lt|].
    destruct (mapM (group_of b) (tokens "||" flt)) as [alts|]; [|discriminate].
    destruct rest as [|rt more]; cbn [default_or_return].
    { intros H; injection H as <-. apply action_lt. }
    destruct (return_of b o rt) eqn:R; [|discriminate]. intros H; injection H as <-. eapply return_lt; eauto.
  Qed.
  Definition rets_ok (p : policy) : Prop := forall e, In e p -> ret_lt (e_rule e).
  Lemma line_rets incl raw p : (forall f q, incl f = Some q -> rets_ok q) ->
    line_of b o incl raw = Some p -> rets_ok p.
  Proof.
    intros IV. unfold line_of. cbv zeta.
    assert (V0 : rets_ok []) by (intros e []).
    destruct (String.eqb (strip raw) ""); [intros H; injection H as <-; auto|].
    destruct (starts "#"%char (strip raw)); [intros H; injection H as <-; auto|].
    destruct (starts "@"%char (strip raw)).
    { destruct (has_prefix "@frequency" (strip raw)); [intros H; injection H as <-; auto|].
      destruct (parse_include (strip raw)); [|discriminate]. apply IV. }
    unfold rule_of. destruct (strsep ":"%char (strip raw)) as [name [body|]]; [|discriminate].
    destruct (String.eqb (strip body) ""); [discriminate|].
    destruct (assoc (strip name) (b_syscalls b)).
    - destruct (body_of b o (strip body)) eqn:B; [|discriminate]. intros H; injection H as <-.
      intros e [<-|[]]. cbn [e_rule]. eapply body_ret; eauto.
    - destruct (fo_allow_logging o); [|discriminate]. intros H; injection H as <-; auto.
  Qed.
  Lemma stream_rets incl f p : (forall f q, incl f = Some q -> rets_ok q) ->
    stream_policy b o incl f = Some p -> rets_ok p.
  Proof.
    intros IV. unfold stream_policy.
    destruct (lines_policy b o incl (multilines (s_bytes f))) as [q|] eqn:L; [|discriminate].
    destruct (s_ioerr f); [discriminate|]. intros H; injection H as ->.
    revert p L. induction (multilines (s_bytes f)) as [|l ls IH]; simpl; intros p L.
    - injection L as <-. intros e [].
    - destruct (line_of b o incl l) eqn:L1; [|discriminate].
      destruct (lines_policy b o incl ls) as [q|] eqn:L2; [|discriminate]. injection L as <-.
      intros e H. apply in_app_or in H. destruct H as [H|H].
      + eapply line_rets; eauto.
      + eapply IH; eauto.
  Qed.
  Lemma policy_rets fs f p : policy_of b o fs f = Some p -> rets_ok p.
  Proof.
    apply stream_rets. intros n q. unfold incl0. destruct (fs n); [|discriminate].
    apply stream_rets. intros ? ?; discriminate.
  Qed.

  Lemma last_ret_cases items : forall def,
    Forall (item_ok b) items -> exists pre v,
    (stmt op_ret def :: flat_map arg_of items)%list = (pre ++ [stmt op_ret v])%list.
  Proof.
    induction items as [|i items IH] using rev_ind; intros def F.
    - exists [], def. reflexivity.
    - apply Forall_app in F. destruct F as [F1 F2]. inversion F2 as [|x l [K _] _]; subst.
      rewrite flat_map_app. cbn [flat_map]. rewrite app_nil_r. unfold arg_of at 2.
      destruct (snd i) as [[id body]|].
      + apply rule_code_last in K. destruct K as (pre & v & ->).
        exists (stmt op_ret def :: flat_map arg_of items ++ lbl id :: pre)%list, v.
        cbn [app]. rewrite <- app_assoc. reflexivity.
      + rewrite app_nil_r. apply IH; auto.
  Qed.

  Lemma compile_filter_kernel fs f prog pol :
    compile_filter b o fs (Some f) = COk prog ->
    reads_policy b o fs f pol -> args_in_range pol ->
    kernel_accepts prog.
  Proof.
    intros H RP AR. apply compile_filter_ok in H; auto.
    destruct H as (f' & pol' & items & def & labels & E & P & MP & IO & -> & AL & DUP & LEN & R & ND).
    injection E as <-. apply policy_of_spec in RP; auto. assert (pol' = pol) as -> by congruence.
    pose proof (policy_rets _ _ _ P) as RET.
    assert (IR : forall i, In i items -> rule_args_ok (e_rule (fst i)) /\ ret_lt (e_rule (fst i))).
    { intros i I. assert (IP : In (fst i) pol) by (rewrite <- MP; apply in_map; auto). split.
      - apply AR; auto.
      - apply RET; auto. }
    cbv zeta in LEN, R. set (final := (prologue b o ++ flat_map head_of items
        ++ stmt op_ret (action_value (fo_action o)) :: flat_map arg_of items)%list) in *.
    assert (SY : sym_ok final 0 = true).
    { unfold final. rewrite !sym_ok_app. apply andb_true_iff. split; [|apply andb_true_iff; split].
      - apply sym_prologue. rewrite app_length. cbn. lia.
      - cbn [length]. assert (N1 : (1 <= S (length (flat_map arg_of items)) + 0)%nat) by lia.
        revert N1. generalize (S (length (flat_map arg_of items)) + 0)%nat. intros n N1.
        rewrite Forall_forall in IO. clear -IO N1 NRS LE NM ARCH.
        induction items as [|i items IH]; [reflexivity|]. cbn [flat_map]. rewrite sym_ok_app.
        apply andb_true_iff. split.
        + apply sym_head; [apply IO; left; reflexivity|lia].
        + apply IH. intros x X. apply IO. right. exact X.
      - cbn [sym_ok]. rewrite sym_ret by apply action_lt. cbn [andb].
        rewrite Forall_forall in IO. clear -IO IR LE NM ARCH NRS.
        induction items as [|i items IH]; [reflexivity|]. cbn [flat_map]. rewrite sym_ok_app.
        apply andb_true_iff. split.
        + destruct (IO i (or_introl eq_refl)) as [K _]. destruct (IR i (or_introl eq_refl)) as [K1 K2].
          unfold arg_of. destruct (snd i) as [[id body]|]; [|reflexivity]. cbn [sym_ok].
          rewrite (sym_rule _ _ _ K K1 K2), andb_true_r. unfold sym_insn.
          change (is_jump (lbl id)) with false. change (is_label (lbl id)) with true. cbv iota.
          apply rule_code_last in K. destruct K as (pre & v & ->). rewrite app_length. cbn [length].
          apply Nat.leb_le. lia.
        + apply IH; intros x X; [apply IO|apply IR]; right; exact X. }
    assert (SF : cell_safe final).
    { unfold final. apply cell_safe_app; [apply safe_prologue|]. apply cell_safe_app.
      - apply cell_safe_flat. intros i _. unfold head_of. destruct (snd i) as [[id body]|]; [apply safe_args|apply safe_allow].
      - apply (cell_safe_app [_]); [apply safe_ret|]. apply cell_safe_flat. intros i I.
        rewrite Forall_forall in IO. destruct (IO _ I) as [K _]. unfold arg_of.
        destruct (snd i) as [[id body]|]; [|apply cell_safe_nil].
        apply (cell_safe_app [_]); [apply safe_lbl|]. eapply safe_rule; eauto. }
    assert (LR : last_is_ret final = true).
    { unfold final. destruct (last_ret_cases items (action_value (fo_action o)) IO) as (pre & v & ->).
      rewrite !app_assoc. apply last_is_ret_app. }
    unfold bpf_resolve_jumps in R. destruct (Nat.ltb BPF_MAXINSNS (length final)); [discriminate|].
    destruct (resolve_from labels 0 final) as [[p' locs]| |] eqn:RF; try discriminate.
    injection R as ->.
    assert (LL : length prog = length final) by (eapply resolve_length; eauto).
    destruct (resolve_shape _ _ _ _ _ RF SY) as [SO FI].
    { unfold BPF_MAXINSNS in LEN. change (2 ^ 32) with 4294967296. lia. }
    split.
    - rewrite SO, FI, LL, (resolve_last _ _ _ _ _ RF LR).
      assert (L1 : Nat.leb 1 (length final) = true).
      { apply Nat.leb_le. unfold final. rewrite !app_length. cbn. lia. }
      apply Nat.leb_le in LEN. rewrite L1, LEN. reflexivity.
    - intros c C. apply resolve_resolved in RF. rewrite <- (app_nil_r final) in RF.
      assert (M0 : masks_ok (final ++ []) (fun _ => true)) by (intros j X; discriminate).
      destruct (SF c [] prog false (fun _ => true) RF M0) as (r' & v' & m' & R' & _ & G).
      inversion R'; subst. apply G. reflexivity.
  Qed.
End Build.
