(* One comparison, run through label resolution (C01). *)
From Verif Require Export P_Resolve P_ConstExpr.
From Coq Require Import ZifyBool ZifyNat ZifyN.
Local Open Scope N_scope.

(* A filter that answers [yes] if the comparison lets control continue and
   [no] if it jumps to its label. *)
Definition comparison_filter (p : platform) (o : op) (idx : Z) (c yes no : N) : list instr :=
  (bpf_arg_comp p o idx c 0 ++ [stmt op_ret yes; lbl 0; stmt op_ret no])%list.

(* No jump or label in the comparisons except the final jump. *)
Definition plain (i : instr) : bool := negb (is_jump i) && negb (is_label i).

Lemma resolve_plain count pre : forall off p,
  forallb plain pre = true ->
  resolve_from count off (pre ++ p) =
  match resolve_from count (off + N.of_nat (length pre)) p with
  | ROk (p', locs) => ROk ((pre ++ p')%list, locs)
  | RErr => RErr
  | RUb => RUb
  end.
Proof.
  induction pre as [|i pre IH]; intros off p H; simpl.
  - rewrite N.add_0_r. destruct (resolve_from count off p) as [[? ?]| |]; reflexivity.
  - simpl in H. apply andb_true_iff in H. destruct H as [H1 H2]. rewrite IH by auto.
    unfold plain in H1. apply andb_true_iff in H1. destruct H1 as [J L].
    apply negb_true_iff in J, L. rewrite J, L.
    replace (off + N.pos (Pos.of_succ_nat (length pre))) with (off + 1 + N.of_nat (length pre)) by lia.
    destruct (resolve_from count _ p) as [[? ?]| |]; reflexivity.
Qed.

Lemma arg_comp_shape p o idx c id :
  exists pre, bpf_arg_comp p o idx c id = (pre ++ [jump_lbl id])%list /\ forallb plain pre = true.
Proof.
  destruct p as [b64 le an].
  unfold bpf_arg_comp, bpf_load_arg, comp_jin, comp_jset, comp_jeq, comp_jgt, comp_jge.
  destruct b64, o; cbn [bits64];
  unfold comp_jset64, comp_jset32, comp_jeq32, comp_jeq64,
    comp_jgt32, comp_jgt64, comp_jge32, comp_jge64; cbv zeta;
  try (destruct (hi32 c =? 0));
  match goal with |- exists pre, ?l = _ /\ _ =>
    exists (removelast l); split; reflexivity end.
Qed.

Lemma comparison_exact p o idx c yes no d :
  little p = true -> (0 <= idx <= 5)%Z -> c < 2 ^ wordN p -> sd_ok d ->
  exists prog, bpf_resolve_jumps 1 (comparison_filter p o idx c yes no) = ROk prog /\
    run true prog d = VRet (if op_holds o (arg_value (bits64 p) d idx) c then yes else no).
Proof.
  intros L I C D.
  assert (exists prog, bpf_resolve_jumps 1 (comparison_filter p o idx c yes no) = ROk prog) as [prog E].
  { unfold comparison_filter, bpf_resolve_jumps.
    destruct (arg_comp_shape p o idx c 0) as (pre & E & P). rewrite E, <- app_assoc.
    assert (length pre < 100)%nat as LP.
    { assert (length (bpf_arg_comp p o idx c 0) <= 100)%nat as X.
      { rewrite arg_comp_len. unfold bpf_arg_comp_len. destruct o, (bits64 p); try destruct (hi32 c =? 0); lia. }
      rewrite E, app_length in X. simpl in X. lia. }
    destruct (Nat.ltb_spec BPF_MAXINSNS (length (pre ++ [jump_lbl 0] ++ [stmt op_ret yes; lbl 0; stmt op_ret no]))) as [X|X].
    { exfalso. rewrite !app_length in X. cbn [length] in X. unfold BPF_MAXINSNS in X. lia. }
    rewrite resolve_plain by auto. simpl. eexists. reflexivity. }
  exists prog. split; auto.
  destruct (resolve_run _ _ _ true d E) as (R & _). rewrite R. unfold comparison_filter.
  destruct (arg_comp_exs d p o idx c 0 [stmt op_ret yes; lbl 0; stmt op_ret no] vm0 L I C D) as [s' ->].
  destruct (op_holds o (arg_value (bits64 p) d idx) c).
  - apply exs_ret.
  - rewrite exs_jump. change (after_label 0 [stmt op_ret yes; lbl 0; stmt op_ret no]) with (Some [stmt op_ret no]).
    cbv iota. apply exs_ret.
Qed.

(* Witness for the hypotheses: a 64-bit value just across the 32-bit border. *)
Example comparison_exact_case :
  let p := Plat true true 0xC000003E in
  let d := SD 1 0xC000003E 0 [0; 0; 0x100000000; 0; 0; 0] in
  little p = true /\ sd_ok d /\ 0xFFFFFFFF < 2 ^ wordN p /\
  op_holds GT (arg_value (bits64 p) d 2) 0xFFFFFFFF = true.
Proof.
  cbv zeta. split; [reflexivity|]. split.
  - unfold sd_ok. cbn. repeat split; try lia. repeat (constructor; [lia|]). constructor.
  - split; reflexivity.
Qed.

(* On a 32-bit big-endian build the comparison looks at the wrong half. *)
Lemma comparison_be32_wrong :
  exists p o idx c yes no d prog,
    bits64 p = false /\ little p = false /\ (0 <= idx <= 5)%Z /\ c < 2 ^ wordN p /\ sd_ok d /\
    bpf_resolve_jumps 1 (comparison_filter p o idx c yes no) = ROk prog /\
    run (little p) prog d <> VRet (if op_holds o (arg_value (bits64 p) d idx) c then yes else no).
Proof.
  exists (Plat false false 8), EQ, 0%Z, 5, 1, 0, (SD 1 8 0 [5; 0; 0; 0; 0; 0]).
  set (q := bpf_resolve_jumps 1 (comparison_filter (Plat false false 8) EQ 0 5 1 0)).
  vm_compute in q.
  match eval unfold q in q with ROk ?pr => exists pr end.
  split; [reflexivity|]. split; [reflexivity|]. split; [lia|].
  split; [reflexivity|]. split; [unfold sd_ok; cbn; repeat split; try lia; repeat (constructor; [lia|]); constructor|].
  split; [vm_compute; reflexivity|]. vm_compute. discriminate.
Qed.
