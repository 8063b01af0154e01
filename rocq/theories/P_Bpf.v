(* The BPF machine, the argument comparisons of bpf.c and jump resolution. *)
From Verif Require Export M_Bpf S_Policy P_CStr.
From Coq Require Import ZifyBool ZifyNat ZifyN.
Local Open Scope N_scope.

(* ---- fuel ---- *)
Lemma skipn_length_le {A} n (l : list A) : (length (skipn n l) <= length l)%nat.
Proof. rewrite skipn_length. lia. Qed.

Lemma exec_fuel_irrel le d f1 : forall f2 p s,
  (length p < f1)%nat -> (length p < f2)%nat -> exec le f1 p d s = exec le f2 p d s.
Proof.
  induction f1 as [|f1 IH]; intros f2 p s L1 L2; [lia|].
  destruct f2 as [|f2]; [lia|]. simpl. destruct p as [|i rest]; auto.
  simpl in L1, L2.
  assert (S1 : forall n, (length (skipn n rest) < f1)%nat).
  { intros n. pose proof (skipn_length_le n rest). lia. }
  assert (S2 : forall n, (length (skipn n rest) < f2)%nat).
  { intros n. pose proof (skipn_length_le n rest). lia. }
  destruct (code i =? op_ret); auto.
  destruct (code i =? op_ja); [apply IH; auto|].
  destruct (code i =? op_ld_abs).
  { destruct (sd_word le d (k i)); auto. apply IH; lia. }
  destruct (code i =? op_ld_mem).
  { destruct (mem s (k i)); auto. apply IH; lia. }
  destruct (code i =? op_st).
  { destruct (k i <? 16); auto. apply IH; lia. }
  destruct (jump_test (code i) (acc s) (k i)) as [b|]; auto.
Qed.

(* Execution with exactly enough fuel. *)
Definition ex (le : bool) (p : list instr) (d : sdata) (s : vm) : vres :=
  exec le (S (length p)) p d s.

Lemma exec_enough le f p d s : (length p < f)%nat -> exec le f p d s = ex le p d s.
Proof. intros. apply exec_fuel_irrel; lia. Qed.

Lemma ex_skip_fuel le n (rest : list instr) d s :
  exec le (S (length rest)) (skipn n rest) d s = ex le (skipn n rest) d s.
Proof. apply exec_enough. pose proof (skipn_length_le n rest). lia. Qed.

Lemma ex_cons le i rest d s :
  ex le (i :: rest) d s =
  if code i =? op_ret then VRet (k i)
  else if code i =? op_ja then ex le (skipn (N.to_nat (k i)) rest) d s
  else if code i =? op_ld_abs then
    match sd_word le d (k i) with
    | Some w => ex le rest d (VM w (mem s))
    | None => VFault
    end
  else if code i =? op_ld_mem then
    match mem s (k i) with
    | Some w => ex le rest d (VM w (mem s))
    | None => VFault
    end
  else if code i =? op_st then
    if k i <? 16 then ex le rest d (VM (acc s) (mem_set (mem s) (k i) (acc s)))
    else VFault
  else
    match jump_test (code i) (acc s) (k i) with
    | Some b => ex le (skipn (N.to_nat (if b then jt i else jf i)) rest) d s
    | None => VFault
    end.
Proof.
  unfold ex at 1. simpl length. 
  change (exec le (S (S (length rest))) (i :: rest) d s) with
   (if code i =? op_ret then VRet (k i)
  else if code i =? op_ja then exec le (S (length rest)) (skipn (N.to_nat (k i)) rest) d s
  else if code i =? op_ld_abs then
    match sd_word le d (k i) with
    | Some w => exec le (S (length rest)) rest d (VM w (mem s))
    | None => VFault
    end
  else if code i =? op_ld_mem then
    match mem s (k i) with
    | Some w => exec le (S (length rest)) rest d (VM w (mem s))
    | None => VFault
    end
  else if code i =? op_st then
    if k i <? 16 then exec le (S (length rest)) rest d (VM (acc s) (mem_set (mem s) (k i) (acc s)))
    else VFault
  else
    match jump_test (code i) (acc s) (k i) with
    | Some b => exec le (S (length rest)) (skipn (N.to_nat (if b then jt i else jf i)) rest) d s
    | None => VFault
    end).
  rewrite !ex_skip_fuel. 
  destruct (jump_test (code i) (acc s) (k i)); rewrite ?ex_skip_fuel; reflexivity.
Qed.

Lemma ex_ret le kk rest d s : ex le (stmt op_ret kk :: rest) d s = VRet kk.
Proof. rewrite ex_cons. reflexivity. Qed.
Lemma ex_ja le t f kk rest d s :
  ex le (I op_ja t f kk :: rest) d s = ex le (skipn (N.to_nat kk) rest) d s.
Proof. rewrite ex_cons. reflexivity. Qed.
Lemma ex_ld le kk rest d s : ex le (stmt op_ld_abs kk :: rest) d s =
  match sd_word le d kk with Some w => ex le rest d (VM w (mem s)) | None => VFault end.
Proof. rewrite ex_cons. reflexivity. Qed.
Lemma ex_mem le kk rest d s : ex le (stmt op_ld_mem kk :: rest) d s =
  match mem s kk with Some w => ex le rest d (VM w (mem s)) | None => VFault end.
Proof. rewrite ex_cons. reflexivity. Qed.
Lemma ex_st le kk rest d s : ex le (stmt op_st kk :: rest) d s =
  if kk <? 16 then ex le rest d (VM (acc s) (mem_set (mem s) kk (acc s))) else VFault.
Proof. rewrite ex_cons. reflexivity. Qed.
Lemma ex_jeq le kk t f rest d s : ex le (jump op_jeq kk t f :: rest) d s =
  ex le (skipn (N.to_nat (if acc s =? kk then t else f)) rest) d s.
Proof. rewrite ex_cons. reflexivity. Qed.
Lemma ex_jgt le kk t f rest d s : ex le (jump op_jgt kk t f :: rest) d s =
  ex le (skipn (N.to_nat (if kk <? acc s then t else f)) rest) d s.
Proof. rewrite ex_cons. reflexivity. Qed.
Lemma ex_jge le kk t f rest d s : ex le (jump op_jge kk t f :: rest) d s =
  ex le (skipn (N.to_nat (if kk <=? acc s then t else f)) rest) d s.
Proof. rewrite ex_cons. reflexivity. Qed.
Lemma ex_jset le kk t f rest d s : ex le (jump op_jset kk t f :: rest) d s =
  ex le (skipn (N.to_nat (if N.land (acc s) kk =? 0 then f else t)) rest) d s.
Proof.
  rewrite ex_cons. cbn [code jump jt jf k]. 
  change (op_jset =? op_ret) with false. change (op_jset =? op_ja) with false.
  change (op_jset =? op_ld_abs) with false. change (op_jset =? op_ld_mem) with false.
  change (op_jset =? op_st) with false. cbv iota.
  change (jump_test op_jset (acc s) kk) with (Some (negb (N.land (acc s) kk =? 0))).
  cbv iota. destruct (N.land (acc s) kk =? 0); reflexivity.
Qed.

(* ---- splitting 64-bit values ---- *)
Lemma hilo a : a = 4294967296 * hi32 a + lo32 a /\ lo32 a < 4294967296.
Proof.
  unfold hi32, lo32. change (2 ^ 32) with 4294967296.
  split; [apply N.div_mod; discriminate | apply N.mod_lt; discriminate].
Qed.
Lemma hi32_lt a : a < 2 ^ 64 -> hi32 a < 4294967296.
Proof.
  intros H. change (2 ^ 64) with 18446744073709551616 in H.
  pose proof (hilo a). lia.
Qed.
Lemma lo32_small a : a < 2 ^ 32 -> lo32 a = a.
Proof. intros. apply N.mod_small; auto. Qed.
Lemma lo32_idem a : lo32 (lo32 a) = lo32 a.
Proof. apply lo32_small. unfold lo32. apply N.mod_lt. discriminate. Qed.
Lemma land_hi a c : N.land (hi32 a) (hi32 c) = hi32 (N.land a c).
Proof. unfold hi32. rewrite <- !N.shiftr_div_pow2. symmetry. apply N.shiftr_land. Qed.
Lemma land_lo a c : N.land (lo32 a) (lo32 c) = lo32 (N.land a c).
Proof.
  unfold lo32. rewrite <- !N.land_ones.
  apply N.bits_inj. intros n. rewrite !N.land_spec. 
  destruct (N.testbit a n), (N.testbit c n), (N.testbit (N.ones 32) n); reflexivity.
Qed.
Lemma zero_hilo x : (x =? 0) = (hi32 x =? 0) && (lo32 x =? 0).
Proof. pose proof (hilo x). lia. Qed.
Lemma lnot_spec' w c n : N.testbit (N.lxor c (N.ones w)) n =
  if n <? w then negb (N.testbit c n) else N.testbit c n.
Proof.
  rewrite N.lxor_spec. destruct (N.ltb_spec n w).
  - rewrite N.ones_spec_low by lia. destruct (N.testbit c n); reflexivity.
  - rewrite N.ones_spec_high by lia. destruct (N.testbit c n); reflexivity.
Qed.
Lemma testbit_high a w n : a < 2 ^ w -> w <= n -> N.testbit a n = false.
Proof.
  intros H L. destruct (N.eq_dec a 0) as [->|Ha]; [apply N.bits_0|].
  apply N.bits_above_log2. apply N.log2_lt_pow2 in H; lia.
Qed.
Lemma in_spec w a c : a < 2 ^ w -> c < 2 ^ w ->
  (N.land a (N.lxor c (N.ones w)) =? 0) = (N.land a c =? a).
Proof.
  intros Ha Hc. destruct (N.eqb_spec (N.land a c) a) as [E|E].
  - apply N.eqb_eq. apply N.bits_inj. intros n. rewrite N.land_spec, lnot_spec', N.bits_0.
    destruct (N.ltb_spec n w).
    + rewrite <- E. rewrite N.land_spec. destruct (N.testbit a n), (N.testbit c n); reflexivity.
    + rewrite (testbit_high a w n) by auto. reflexivity.
  - apply N.eqb_neq. intros Z. apply E. apply N.bits_inj. intros n.
    pose proof (f_equal (fun x => N.testbit x n) Z) as T. cbv beta in T.
    rewrite N.land_spec, lnot_spec', N.bits_0 in T. rewrite N.land_spec.
    destruct (N.ltb_spec n w).
    + destruct (N.testbit a n), (N.testbit c n); auto; discriminate.
    + rewrite (testbit_high a w n) by auto. reflexivity.
Qed.
Lemma lxor_ones_lt w c : c < 2 ^ w -> N.lxor c (N.ones w) < 2 ^ w.
Proof.
  intros H. destruct (N.eq_dec (N.lxor c (N.ones w)) 0) as [->|Z].
  - assert (2 ^ w <> 0) by (apply N.pow_nonzero; lia). lia.
  - apply N.log2_lt_pow2; [lia|]. apply N.nle_gt. intros L.
    pose proof (N.bit_log2 _ Z) as B. rewrite lnot_spec' in B.
    replace (N.log2 (N.lxor c (N.ones w)) <? w) with false in B by (symmetry; apply N.ltb_ge; auto).
    rewrite (testbit_high c w) in B by auto. discriminate.
Qed.

(* ---- words of seccomp_data ---- *)
Lemma arg_offsets d idx : (0 <= idx <= 5)%Z ->
  sd_word true d (lo_arg idx) = Some (lo32 (sd_arg d (Z.to_nat idx))) /\
  sd_word true d (hi_arg idx) = Some (hi32 (sd_arg d (Z.to_nat idx))).
Proof.
  intros H. assert (C : (idx = 0 \/ idx = 1 \/ idx = 2 \/ idx = 3 \/ idx = 4 \/ idx = 5)%Z) by lia.
  destruct C as [->|[->|[->|[->|[->| ->]]]]]; split; reflexivity.
Qed.

(* ---- comparisons, for any interpreter satisfying the machine's equations ---- *)
Section Comp.
  Variable d : sdata.
  Variable E : list instr -> vm -> vres.
  Hypothesis E_ld : forall kk rest s, E (stmt op_ld_abs kk :: rest) s =
    match sd_word true d kk with Some w => E rest (VM w (mem s)) | None => VFault end.
  Hypothesis E_mem : forall kk rest s, E (stmt op_ld_mem kk :: rest) s =
    match mem s kk with Some w => E rest (VM w (mem s)) | None => VFault end.
  Hypothesis E_st : forall kk rest s, E (stmt op_st kk :: rest) s =
    if kk <? 16 then E rest (VM (acc s) (mem_set (mem s) kk (acc s))) else VFault.
  Hypothesis E_jeq : forall kk t f rest s, E (jump op_jeq kk t f :: rest) s =
    E (skipn (N.to_nat (if acc s =? kk then t else f)) rest) s.
  Hypothesis E_jgt : forall kk t f rest s, E (jump op_jgt kk t f :: rest) s =
    E (skipn (N.to_nat (if kk <? acc s then t else f)) rest) s.
  Hypothesis E_jge : forall kk t f rest s, E (jump op_jge kk t f :: rest) s =
    E (skipn (N.to_nat (if kk <=? acc s then t else f)) rest) s.
  Hypothesis E_jset : forall kk t f rest s, E (jump op_jset kk t f :: rest) s =
    E (skipn (N.to_nat (if N.land (acc s) kk =? 0 then f else t)) rest) s.

  (* Branch targets used: fall through or skip one instruction. *)
  Definition target (b : bool) (t f : N) (rest : list instr) : list instr :=
    skipn (N.to_nat (if b then t else f)) rest.

  Definition after64 (a : N) (s : vm) : vm :=
    VM (hi32 a) (mem_set (mem_set (mem s) 0 (lo32 a)) 1 (hi32 a)).
  Lemma after64_mem a s : mem (after64 a s) 0 = Some (lo32 a).
  Proof. reflexivity. Qed.
  Lemma after64_acc a s : acc (after64 a s) = hi32 a.
  Proof. reflexivity. Qed.

  Lemma load64 p idx rest s : bits64 p = true -> (0 <= idx <= 5)%Z ->
    E (bpf_load_arg p idx ++ rest) s = E rest (after64 (sd_arg d (Z.to_nat idx)) s).
  Proof.
    intros B H. unfold bpf_load_arg. rewrite B. destruct (arg_offsets d idx H) as [H1 H2].
    cbn [app]. rewrite E_ld, H1, E_st. change (0 <? 16) with true. cbv iota.
    rewrite E_ld, H2, E_st. reflexivity.
  Qed.
  Lemma load32 p idx rest s : bits64 p = false -> (0 <= idx <= 5)%Z ->
    E (bpf_load_arg p idx ++ rest) s = E rest (VM (lo32 (sd_arg d (Z.to_nat idx))) (mem s)).
  Proof.
    intros B H. unfold bpf_load_arg. rewrite B. destruct (arg_offsets d idx H) as [H1 H2].
    cbn [app]. rewrite E_ld, H1. reflexivity.
  Qed.

  Ltac skip := unfold target; cbn [app];
    repeat match goal with
    | |- context [skipn (N.to_nat (2 + ?t)) (?x :: ?y :: ?r)] =>
        replace (skipn (N.to_nat (2 + t)) (x :: y :: r)) with (skipn (N.to_nat t) r)
        by (rewrite N2Nat.inj_add; reflexivity)
    | |- context [skipn (N.to_nat (3 + ?t)) (?x :: ?y :: ?z :: ?r)] =>
        replace (skipn (N.to_nat (3 + t)) (x :: y :: z :: r)) with (skipn (N.to_nat t) r)
        by (rewrite N2Nat.inj_add; reflexivity)
    | |- context [skipn (N.to_nat 0) ?r] => change (skipn (N.to_nat 0) r) with r
    end.

  Lemma if_skip {A} (b : bool) (t f : N) (r : list A) :
    skipn (N.to_nat (if b then t else f)) r =
    if b then skipn (N.to_nat t) r else skipn (N.to_nat f) r.
  Proof. destruct b; reflexivity. Qed.

  Lemma jeq64 a c t f rest s : c < 2 ^ 64 -> exists s',
    E (comp_jeq64 c t f ++ rest) (after64 a s) = E (target (a =? c) t f rest) s'.
  Proof.
    intros Hc. apply hi32_lt in Hc. unfold comp_jeq64, comp_jeq32. cbn [app].
    rewrite (lo32_small (hi32 c)), lo32_idem by exact Hc.
    rewrite E_jeq, after64_acc, if_skip.
    pose proof (hilo a) as [Ea La]. pose proof (hilo c) as [Ec Lc].
    destruct (N.eqb_spec (hi32 a) (hi32 c)) as [Eh|Nh].
    - skip. rewrite E_mem, after64_mem, E_jeq. cbn [acc].
      eexists. replace (a =? c) with (lo32 a =? lo32 c) by lia. reflexivity.
    - skip. eexists. replace (a =? c) with false by lia. reflexivity.
  Qed.

  Lemma jgt64 a c t f rest s : c < 2 ^ 64 -> exists s',
    E (comp_jgt64 c t f ++ rest) (after64 a s) = E (target (c <? a) t f rest) s'.
  Proof.
    intros Hc. apply hi32_lt in Hc. unfold comp_jgt64, comp_jgt32, comp_jeq32.
    rewrite (lo32_small (hi32 c)), lo32_idem by exact Hc.
    pose proof (hilo a) as [Ea La]. pose proof (hilo c) as [Ec Lc].
    destruct (N.eqb_spec (hi32 c) 0) as [Z|Z]; cbn [app];
      rewrite E_jgt, after64_acc, if_skip;
      destruct (N.ltb_spec (hi32 c) (hi32 a)) as [Lh|Lh].
    - skip. eexists. replace (c <? a) with true by lia. reflexivity.
    - skip. rewrite E_mem, after64_mem, E_jgt. cbn [acc].
      eexists. replace (c <? a) with (lo32 c <? lo32 a) by lia. reflexivity.
    - skip. eexists. replace (c <? a) with true by lia. reflexivity.
    - skip. rewrite E_jeq, after64_acc, if_skip.
      destruct (N.eqb_spec (hi32 a) (hi32 c)) as [Eh|Nh].
      + skip. rewrite E_mem, after64_mem, E_jgt. cbn [acc].
        eexists. replace (c <? a) with (lo32 c <? lo32 a) by lia. reflexivity.
      + skip. eexists. replace (c <? a) with false by lia. reflexivity.
  Qed.

  Lemma jge64 a c t f rest s : c < 2 ^ 64 -> exists s',
    E (comp_jge64 c t f ++ rest) (after64 a s) = E (target (c <=? a) t f rest) s'.
  Proof.
    intros Hc. apply hi32_lt in Hc. unfold comp_jge64, comp_jgt32, comp_jge32, comp_jeq32.
    rewrite (lo32_small (hi32 c)), lo32_idem by exact Hc.
    pose proof (hilo a) as [Ea La]. pose proof (hilo c) as [Ec Lc].
    destruct (N.eqb_spec (hi32 c) 0) as [Z|Z]; cbn [app];
      rewrite E_jgt, after64_acc, if_skip;
      destruct (N.ltb_spec (hi32 c) (hi32 a)) as [Lh|Lh].
    - skip. eexists. replace (c <=? a) with true by lia. reflexivity.
    - skip. rewrite E_mem, after64_mem, E_jge. cbn [acc].
      eexists. replace (c <=? a) with (lo32 c <=? lo32 a) by lia. reflexivity.
    - skip. eexists. replace (c <=? a) with true by lia. reflexivity.
    - skip. rewrite E_jeq, after64_acc, if_skip.
      destruct (N.eqb_spec (hi32 a) (hi32 c)) as [Eh|Nh].
      + skip. rewrite E_mem, after64_mem, E_jge. cbn [acc].
        eexists. replace (c <=? a) with (lo32 c <=? lo32 a) by lia. reflexivity.
      + skip. eexists. replace (c <=? a) with false by lia. reflexivity.
  Qed.

  Lemma jset64 a c t f rest s : c < 2 ^ 64 -> exists s',
    E (comp_jset64 c t f ++ rest) (after64 a s) = E (target (N.land a c =? 0) f t rest) s'.
  Proof.
    intros Hc. apply hi32_lt in Hc. unfold comp_jset64, comp_jset32. cbn [app].
    rewrite (lo32_small (hi32 c)), lo32_idem by exact Hc.
    rewrite E_jset, after64_acc, if_skip, land_hi, (zero_hilo (N.land a c)).
    destruct (hi32 (N.land a c) =? 0); cbn [andb].
    - skip. rewrite E_mem, after64_mem, E_jset. cbn [acc]. rewrite land_lo.
      eexists. reflexivity.
    - skip. eexists. reflexivity.
  Qed.

  (* Everything before the final jump of bpf_arg_comp: fall into the
     instruction that jumps away when the comparison is false, skip it when
     true. *)
  Lemma arg_comp_exec p o idx c id rest s :
    little p = true -> (0 <= idx <= 5)%Z -> c < 2 ^ wordN p -> sd_ok d ->
    exists s', E (bpf_arg_comp p o idx c id ++ rest) s =
      E (if op_holds o (arg_value (bits64 p) d idx) c then rest else jump_lbl id :: rest) s'.
  Proof.
    intros LE Hi Hc Hd. unfold bpf_arg_comp. rewrite <- !app_assoc. cbn [app].
    set (r := jump_lbl id :: rest).
    assert (T1 : forall b, target b 1 0 r = if b then rest else r) by (intros []; reflexivity).
    assert (T2 : forall b, target b 0 1 r = if b then r else rest) by (intros []; reflexivity).
    unfold arg_value. set (a := sd_arg d (Z.to_nat idx)).
    assert (Ha : a < 2 ^ 64).
    { destruct Hd as (_ & _ & _ & HL & HF). rewrite Forall_forall in HF. apply HF.
      apply nth_In. rewrite HL. lia. }
    destruct (bits64 p) eqn:B.
    - unfold wordN in Hc. rewrite B in Hc. rewrite load64 by auto. fold a.
      unfold comp_jeq, comp_jgt, comp_jge, comp_jset, comp_jin, comp_jset. unfold wordN.
      rewrite B. destruct o; cbn [op_holds].
      + destruct (jeq64 a c 1 0 r s Hc) as [s' ->]. exists s'. rewrite T1. reflexivity.
      + destruct (jeq64 a c 0 1 r s Hc) as [s' ->]. exists s'. rewrite T2.
        destruct (a =? c); reflexivity.
      + destruct (jge64 a c 0 1 r s Hc) as [s' ->]. exists s'. rewrite T2.
        replace (a <? c) with (negb (c <=? a)) by lia. destruct (c <=? a); reflexivity.
      + destruct (jgt64 a c 0 1 r s Hc) as [s' ->]. exists s'. rewrite T2.
        replace (a <=? c) with (negb (c <? a)) by lia. destruct (c <? a); reflexivity.
      + destruct (jgt64 a c 1 0 r s Hc) as [s' ->]. exists s'. rewrite T1. reflexivity.
      + destruct (jge64 a c 1 0 r s Hc) as [s' ->]. exists s'. rewrite T1. reflexivity.
      + destruct (jset64 a c 1 0 r s Hc) as [s' ->]. exists s'. rewrite T2.
        destruct (N.land a c =? 0); reflexivity.
      + destruct (jset64 a (N.lxor c (N.ones 64)) 0 1 r s) as [s' ->].
        { apply lxor_ones_lt; auto. }
        exists s'. rewrite T1. rewrite in_spec by auto. reflexivity.
    - unfold wordN in Hc. rewrite B in Hc. rewrite load32 by auto. fold a.
      unfold comp_jeq, comp_jgt, comp_jge, comp_jset, comp_jin, comp_jset. unfold wordN.
      rewrite B. set (s1 := VM (lo32 a) (mem s)). exists s1.
      assert (Hl : lo32 a < 2 ^ 32) by (unfold lo32; apply N.mod_lt; discriminate).
      change (a mod 2 ^ 32) with (lo32 a).
      destruct o; cbn [op_holds];
        unfold comp_jeq32, comp_jgt32, comp_jge32, comp_jset32; cbn [app].
      + rewrite E_jeq, lo32_small by auto. change (acc s1) with (lo32 a).
        change (E (target (lo32 a =? c) 1 0 r) s1 = E (if lo32 a =? c then rest else r) s1).
        rewrite T1. reflexivity.
      + rewrite E_jeq, lo32_small by auto. change (acc s1) with (lo32 a).
        destruct (lo32 a =? c); reflexivity.
      + rewrite E_jge, lo32_small by auto. change (acc s1) with (lo32 a).
        replace (lo32 a <? c) with (negb (c <=? lo32 a)) by lia. destruct (c <=? lo32 a); reflexivity.
      + rewrite E_jgt, lo32_small by auto. change (acc s1) with (lo32 a).
        replace (lo32 a <=? c) with (negb (c <? lo32 a)) by lia. destruct (c <? lo32 a); reflexivity.
      + rewrite E_jgt, lo32_small by auto. change (acc s1) with (lo32 a).
        destruct (c <? lo32 a); reflexivity.
      + rewrite E_jge, lo32_small by auto. change (acc s1) with (lo32 a).
        destruct (c <=? lo32 a); reflexivity.
      + rewrite E_jset, lo32_small by auto. change (acc s1) with (lo32 a).
        destruct (N.land (lo32 a) c =? 0); reflexivity.
      + rewrite E_jset, lo32_small by (apply lxor_ones_lt; auto). change (acc s1) with (lo32 a).
        rewrite in_spec by auto. destruct (N.land (lo32 a) c =? lo32 a); reflexivity.
  Qed.
End Comp.

Lemma arg_comp_len p o idx c id : length (bpf_arg_comp p o idx c id) = bpf_arg_comp_len p o c.
Proof.
  unfold bpf_arg_comp, bpf_arg_comp_len, bpf_load_arg, comp_jeq, comp_jgt, comp_jge, comp_jset,
    comp_jin, comp_jset, comp_jgt64, comp_jge64.
  destruct (bits64 p); destruct o; cbn; try reflexivity; destruct (hi32 c =? 0); reflexivity.
Qed.
