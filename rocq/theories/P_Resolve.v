(* bpf_resolve_jumps: running the resolved program is running the program
   with labels, where a jump continues after the (unique) label it names. *)
From Verif Require Export P_Bpf.
From Coq Require Import ZifyBool ZifyNat ZifyN.
Local Open Scope N_scope.

Definition labels_of (p : list instr) : list N := map k (filter is_label p).

(* The program after label id. *)
Fixpoint after_label (id : N) (p : list instr) : option (list instr) :=
  match p with
  | [] => None
  | i :: rest => if is_label i && (k i =? id) then Some rest else after_label id rest
  end.

(* Symbolic execution: as exec, except for jump and label markers. *)
Fixpoint execs (le : bool) (fuel : nat) (p : list instr) (d : sdata) (s : vm) : vres :=
  match fuel with
  | O => VFuel
  | S fuel' =>
    match p with
    | [] => VFault
    | i :: rest =>
      if is_jump i then
        match after_label (k i) rest with
        | Some r => execs le fuel' r d s
        | None => VFault
        end
      else if is_label i then execs le fuel' rest d s
      else if code i =? op_ret then VRet (k i)
      else if code i =? op_ja then execs le fuel' (skipn (N.to_nat (k i)) rest) d s
      else if code i =? op_ld_abs then
        match sd_word le d (k i) with
        | Some w => execs le fuel' rest d (VM w (mem s))
        | None => VFault
        end
      else if code i =? op_ld_mem then
        match mem s (k i) with
        | Some w => execs le fuel' rest d (VM w (mem s))
        | None => VFault
        end
      else if code i =? op_st then
        if k i <? 16 then execs le fuel' rest d (VM (acc s) (mem_set (mem s) (k i) (acc s)))
        else VFault
      else
        match jump_test (code i) (acc s) (k i) with
        | Some b => execs le fuel' (skipn (N.to_nat (if b then jt i else jf i)) rest) d s
        | None => VFault
        end
    end
  end.

Lemma after_label_len id p r : after_label id p = Some r -> (length r < length p)%nat.
Proof.
  induction p as [|i p IH]; simpl; [discriminate|].
  destruct (is_label i && (k i =? id)); intros H; [injection H as <-; lia|].
  apply IH in H. lia.
Qed.

Lemma execs_fuel_irrel le d f1 : forall f2 p s,
  (length p < f1)%nat -> (length p < f2)%nat -> execs le f1 p d s = execs le f2 p d s.
Proof.
  induction f1 as [|f1 IH]; intros f2 p s L1 L2; [lia|].
  destruct f2 as [|f2]; [lia|]. simpl. destruct p as [|i rest]; auto.
  simpl in L1, L2.
  assert (S1 : forall n, (length (skipn n rest) < f1)%nat).
  { intros n. pose proof (skipn_length_le n rest). lia. }
  assert (S2 : forall n, (length (skipn n rest) < f2)%nat).
  { intros n. pose proof (skipn_length_le n rest). lia. }
  destruct (is_jump i).
  { destruct (after_label (k i) rest) eqn:E; auto. apply after_label_len in E. apply IH; lia. }
  destruct (is_label i); [apply IH; lia|].
  destruct (code i =? op_ret); auto.
  destruct (code i =? op_ja); [apply IH; auto|].
  destruct (code i =? op_ld_abs).
  { destruct (sd_word le d (k i)); auto. apply IH; lia. }
  destruct (code i =? op_ld_mem).
  { destruct (mem s (k i)); auto. apply IH; lia. }
  destruct (code i =? op_st).
  { destruct (k i <? 16); auto. apply IH; lia. }
  destruct (jump_test (code i) (acc s) (k i)) as [b|]; auto.
Qed.

Definition exs (le : bool) (p : list instr) (d : sdata) (s : vm) : vres :=
  execs le (S (length p)) p d s.
Lemma execs_enough le f p d s : (length p < f)%nat -> execs le f p d s = exs le p d s.
Proof. intros. apply execs_fuel_irrel; lia. Qed.
Lemma exs_skip_fuel le n (rest : list instr) d s :
  execs le (S (length rest)) (skipn n rest) d s = exs le (skipn n rest) d s.
Proof. apply execs_enough. pose proof (skipn_length_le n rest). lia. Qed.

Lemma exs_cons le i rest d s :
  exs le (i :: rest) d s =
  if is_jump i then
    match after_label (k i) rest with
    | Some r => exs le r d s
    | None => VFault
    end
  else if is_label i then exs le rest d s
  else if code i =? op_ret then VRet (k i)
  else if code i =? op_ja then exs le (skipn (N.to_nat (k i)) rest) d s
  else if code i =? op_ld_abs then
    match sd_word le d (k i) with
    | Some w => exs le rest d (VM w (mem s))
    | None => VFault
    end
  else if code i =? op_ld_mem then
    match mem s (k i) with
    | Some w => exs le rest d (VM w (mem s))
    | None => VFault
    end
  else if code i =? op_st then
    if k i <? 16 then exs le rest d (VM (acc s) (mem_set (mem s) (k i) (acc s)))
    else VFault
  else
    match jump_test (code i) (acc s) (k i) with
    | Some b => exs le (skipn (N.to_nat (if b then jt i else jf i)) rest) d s
    | None => VFault
    end.
Proof.
  unfold exs at 1. simpl length. set (n := S (length rest)). cbn [execs]. subst n.
  destruct (is_jump i).
  { destruct (after_label (k i) rest) eqn:E; auto.
    apply execs_enough. apply after_label_len in E. lia. }
  rewrite !exs_skip_fuel.
  destruct (jump_test (code i) (acc s) (k i)); rewrite ?exs_skip_fuel; reflexivity.
Qed.

(* ---- resolution ---- *)
Lemma resolve_skipn count n : forall off p p' locs,
  resolve_from count off p = ROk (p', locs) ->
  exists locs', resolve_from count (off + N.of_nat n) (skipn n p) = ROk (skipn n p', locs').
Proof.
  induction n as [|n IH]; intros off p p' locs H.
  - simpl. rewrite N.add_0_r. eauto.
  - destruct p as [|i rest].
    + simpl in H. injection H as <- <-. simpl. eauto.
    + simpl in H. destruct (resolve_from count (off + 1) rest) as [[rest' locs']| |] eqn:R; try discriminate.
      assert (exists x, p' = x :: rest') as [x ->].
      { destruct (is_jump i).
        - destruct (N.of_nat count <=? k i); [discriminate|].
          destruct (loc_find (k i) locs'); [|discriminate]. injection H as <- _. eauto.
        - destruct (is_label i).
          + destruct (N.of_nat count <=? k i); [discriminate|].
            destruct (loc_find (k i) locs'); [discriminate|]. injection H as <- _. eauto.
          + injection H as <- _. eauto. }
      apply IH in R. destruct R as [l R]. exists l. simpl skipn.
      replace (off + N.of_nat (S n)) with (off + 1 + N.of_nat n) by lia. exact R.
Qed.
Lemma resolve_length count off p p' locs :
  resolve_from count off p = ROk (p', locs) -> length p' = length p.
Proof.
  revert off p' locs. induction p as [|i rest IH]; simpl; intros off p' locs H.
  - injection H as <- _. reflexivity.
  - destruct (resolve_from count (off + 1) rest) as [[rest' locs']| |] eqn:R; try discriminate.
    apply IH in R.
    destruct (is_jump i).
    + destruct (N.of_nat count <=? k i); [discriminate|].
      destruct (loc_find (k i) locs'); [|discriminate]. injection H as <- _. simpl; congruence.
    + destruct (is_label i).
      * destruct (N.of_nat count <=? k i); [discriminate|].
        destruct (loc_find (k i) locs'); [discriminate|]. injection H as <- _. simpl; congruence.
      * injection H as <- _. simpl; congruence.
Qed.

(* The table of locations lists exactly the labels, which are distinct. *)
Lemma resolve_locs count off p p' locs :
  resolve_from count off p = ROk (p', locs) ->
  map fst locs = labels_of p /\ NoDup (labels_of p) /\
  (forall id, In id (labels_of p) -> id < N.of_nat count).
Proof.
  revert off p' locs. induction p as [|i rest IH]; simpl; intros off p' locs H.
  - injection H as _ <-. repeat split; [constructor|intros id []].
  - destruct (resolve_from count (off + 1) rest) as [[rest' locs']| |] eqn:R; try discriminate.
    apply IH in R. destruct R as (R1 & R2 & R3). unfold labels_of in *.
    assert (LN : forall id l, loc_find id l = None -> ~ In id (map fst l)).
    { intros id l. induction l as [|[j o] l IHl]; simpl; auto.
      destruct (N.eqb_spec j id); [discriminate|]. intros E [X|X]; auto. apply IHl in E. auto. }
    destruct (is_jump i) eqn:J.
    + cbn [filter]. assert (is_label i = false) as ->.
      { unfold is_jump in J. unfold is_label. destruct (code i =? op_ja); auto. simpl in *.
        apply andb_true_iff in J. destruct J as [J _]. apply N.eqb_eq in J. rewrite J. reflexivity. }
      destruct (N.of_nat count <=? k i); [discriminate|].
      destruct (loc_find (k i) locs'); [|discriminate]. injection H as _ <-. auto.
    + cbn [filter]. destruct (is_label i) eqn:L.
      * destruct (N.leb_spec (N.of_nat count) (k i)); [discriminate|].
        destruct (loc_find (k i) locs') eqn:F; [discriminate|]. injection H as _ <-.
        simpl. apply LN in F. rewrite R1 in *. repeat split; auto.
        { constructor; auto. }
        intros id [<-|X]; auto.
      * injection H as _ <-. auto.
Qed.

Lemma loc_find_split count off p p' locs id l :
  resolve_from count off p = ROk (p', locs) -> loc_find id locs = Some l ->
  exists pre post p2 locs2,
    p = (pre ++ lbl id :: post)%list /\ ~ In id (labels_of pre) /\
    l = off + N.of_nat (length pre) /\
    skipn (length pre) p' = I op_ja 0 0 0 :: p2 /\
    resolve_from count (l + 1) post = ROk (p2, locs2).
Proof.
  revert off p' locs. induction p as [|i rest IH]; simpl; intros off p' locs H F.
  - injection H as _ <-. discriminate.
  - destruct (resolve_from count (off + 1) rest) as [[rest' locs']| |] eqn:R; try discriminate.
    assert (GO : forall x, p' = x :: rest' -> loc_find id locs' = Some l ->
              (is_label i = true -> k i <> id) ->
              exists pre post p2 locs2,
                i :: rest = (pre ++ lbl id :: post)%list /\ ~ In id (labels_of pre) /\
                l = off + N.of_nat (length pre) /\
                skipn (length pre) p' = I op_ja 0 0 0 :: p2 /\
                resolve_from count (l + 1) post = ROk (p2, locs2)).
    { intros x -> F' NI. destruct (IH _ _ _ R F') as (pre & post & p2 & locs2 & E & NL & EL & ES & ER).
      exists (i :: pre), post, p2, locs2. subst rest. repeat split; auto.
      - unfold labels_of. simpl. destruct (is_label i); auto. simpl. intros [X|X]; [eapply NI; eauto|auto].
      - simpl length. lia. }
    destruct (is_jump i) eqn:J.
    + destruct (N.of_nat count <=? k i); [discriminate|].
      destruct (loc_find (k i) locs') as [lj|]; [|discriminate].
      assert (NLb : is_label i = true -> k i <> id).
      { intros L. exfalso. unfold is_jump in J. unfold is_label in L.
        destruct (code i =? op_ja); [|discriminate]. simpl in *.
        apply andb_true_iff in J. destruct J as [J _]. apply N.eqb_eq in J. rewrite J in L. discriminate. }
      injection H as <- <-. eapply GO; eauto.
    + destruct (is_label i) eqn:L.
      * destruct (N.of_nat count <=? k i); [discriminate|].
        destruct (loc_find (k i) locs') eqn:F'; [discriminate|]. injection H as <- <-.
        simpl in F. destruct (N.eqb_spec (k i) id) as [E|E].
        { injection F as <-. exists [], rest, rest', locs'. repeat split; auto.
          - simpl. f_equal. destruct i as [ci ti fi ki]. unfold is_label in L. simpl in *.
            apply andb_true_iff in L. destruct L as [L L3]. apply andb_true_iff in L. destruct L as [L1 L2].
            apply N.eqb_eq in L1, L2, L3. subst. reflexivity.
          - simpl. lia. }
        eapply GO; eauto.
      * injection H as <- <-. eapply GO; eauto. intros X; congruence.
Qed.

Lemma is_label_lbl id : is_label (lbl id) = true.
Proof. reflexivity. Qed.

Lemma after_label_first id pre post :
  ~ In id (labels_of pre) -> after_label id (pre ++ lbl id :: post) = Some post.
Proof.
  induction pre as [|i pre IH]; simpl; intros H.
  - rewrite N.eqb_refl. reflexivity.
  - unfold labels_of in H. simpl in H. destruct (is_label i) eqn:L; simpl.
    + simpl in H. destruct (N.eqb_spec (k i) id); [exfalso; auto|]. apply IH. auto.
    + apply IH. auto.
Qed.

(* The main fact: resolution preserves the meaning. *)
Lemma resolve_exec count le d : forall n p off p' locs s,
  (length p <= n)%nat ->
  resolve_from count off p = ROk (p', locs) ->
  ex le p' d s = exs le p d s.
Proof.
  induction n as [|n IH]; intros p off p' locs s L H.
  - destruct p; [|simpl in L; lia]. simpl in H. injection H as <- _. reflexivity.
  - destruct p as [|i rest].
    { simpl in H. injection H as <- _. reflexivity. }
    simpl in L. simpl in H.
    destruct (resolve_from count (off + 1) rest) as [[rest' locs']| |] eqn:R; try discriminate.
    assert (SK : forall m s0, ex le (skipn m rest') d s0 = exs le (skipn m rest) d s0).
    { intros m s0. destruct (resolve_skipn _ m _ _ _ _ R) as [l' R'].
      eapply IH; [|exact R']. pose proof (skipn_length_le m rest). lia. }
    assert (RE : forall s0, ex le rest' d s0 = exs le rest d s0).
    { intros s0. eapply IH; eauto. lia. }
    rewrite exs_cons. destruct (is_jump i) eqn:J.
    + destruct (N.of_nat count <=? k i); [discriminate|].
      destruct (loc_find (k i) locs') as [l|] eqn:F; [|discriminate]. injection H as <- <-.
      destruct (loc_find_split _ _ _ _ _ _ _ R F) as (pre & post & p2 & locs2 & E & NL & EL & ES & ER).
      rewrite ex_ja. replace (N.to_nat (l - (off + 1))) with (length pre) by lia.
      rewrite ES, ex_ja. simpl skipn. rewrite E, after_label_first by auto.
      eapply IH; [|exact ER]. rewrite E, app_length in L. simpl in L. lia.
    + destruct (is_label i) eqn:LB.
      * destruct (N.of_nat count <=? k i); [discriminate|].
        destruct (loc_find (k i) locs') eqn:F; [discriminate|]. injection H as <- <-.
        rewrite ex_ja. simpl skipn. apply RE.
      * injection H as <- <-. rewrite ex_cons.
        destruct (code i =? op_ret); auto.
        destruct (code i =? op_ja); auto.
        destruct (code i =? op_ld_abs). { destruct (sd_word le d (k i)); auto. }
        destruct (code i =? op_ld_mem). { destruct (mem s (k i)); auto. }
        destruct (code i =? op_st). { destruct (k i <? 16); auto. }
        destruct (jump_test (code i) (acc s) (k i)); auto.
Qed.

Lemma resolve_run count p p' le d :
  bpf_resolve_jumps count p = ROk p' ->
  run le p' d = exs le p d vm0 /\ NoDup (labels_of p) /\
  (forall id, In id (labels_of p) -> id < N.of_nat count) /\ length p' = length p.
Proof.
  unfold bpf_resolve_jumps. destruct (Nat.ltb BPF_MAXINSNS (length p)); [discriminate|].
  destruct (resolve_from count 0 p) as [[p1 locs]| |] eqn:R; try discriminate.
  intros H. injection H as <-. split; [|split; [|split]].
  - unfold run. eapply (resolve_exec count le d _ p 0 p1 locs vm0 (le_n _) R).
  - eapply resolve_locs; eauto.
  - eapply resolve_locs; eauto.
  - eapply resolve_length; eauto.
Qed.

(* ---- equations for the shapes the compiler emits ---- *)
Section Shapes.
  Variable le : bool.
  Variable d : sdata.
  Lemma exs_ret kk rest s : exs le (stmt op_ret kk :: rest) d s = VRet kk.
  Proof. rewrite exs_cons. reflexivity. Qed.
  Lemma exs_lbl id rest s : exs le (lbl id :: rest) d s = exs le rest d s.
  Proof. rewrite exs_cons. reflexivity. Qed.
  Lemma exs_jump id rest s : exs le (jump_lbl id :: rest) d s =
    match after_label id rest with Some r => exs le r d s | None => VFault end.
  Proof. rewrite exs_cons. reflexivity. Qed.
  Lemma exs_ld kk rest s : exs le (stmt op_ld_abs kk :: rest) d s =
    match sd_word le d kk with Some w => exs le rest d (VM w (mem s)) | None => VFault end.
  Proof. rewrite exs_cons. reflexivity. Qed.
  Lemma exs_mem kk rest s : exs le (stmt op_ld_mem kk :: rest) d s =
    match mem s kk with Some w => exs le rest d (VM w (mem s)) | None => VFault end.
  Proof. rewrite exs_cons. reflexivity. Qed.
  Lemma exs_st kk rest s : exs le (stmt op_st kk :: rest) d s =
    if kk <? 16 then exs le rest d (VM (acc s) (mem_set (mem s) kk (acc s))) else VFault.
  Proof. rewrite exs_cons. reflexivity. Qed.
  Lemma exs_jeq kk t f rest s : exs le (jump op_jeq kk t f :: rest) d s =
    exs le (skipn (N.to_nat (if acc s =? kk then t else f)) rest) d s.
  Proof. rewrite exs_cons. reflexivity. Qed.
  Lemma exs_jgt kk t f rest s : exs le (jump op_jgt kk t f :: rest) d s =
    exs le (skipn (N.to_nat (if kk <? acc s then t else f)) rest) d s.
  Proof. rewrite exs_cons. reflexivity. Qed.
  Lemma exs_jge kk t f rest s : exs le (jump op_jge kk t f :: rest) d s =
    exs le (skipn (N.to_nat (if kk <=? acc s then t else f)) rest) d s.
  Proof. rewrite exs_cons. reflexivity. Qed.
  Lemma exs_jset kk t f rest s : exs le (jump op_jset kk t f :: rest) d s =
    exs le (skipn (N.to_nat (if N.land (acc s) kk =? 0 then f else t)) rest) d s.
  Proof.
    rewrite exs_cons. cbn [code jump jt jf k].
    change (is_jump (jump op_jset kk t f)) with false.
    change (is_label (jump op_jset kk t f)) with false.
    change (op_jset =? op_ret) with false. change (op_jset =? op_ja) with false.
    change (op_jset =? op_ld_abs) with false. change (op_jset =? op_ld_mem) with false.
    change (op_jset =? op_st) with false. cbv iota.
    change (jump_test op_jset (acc s) kk) with (Some (negb (N.land (acc s) kk =? 0))).
    cbv iota. destruct (N.land (acc s) kk =? 0); reflexivity.
  Qed.
End Shapes.

Lemma arg_comp_exs d p o idx c id rest s :
  little p = true -> (0 <= idx <= 5)%Z -> c < 2 ^ wordN p -> sd_ok d ->
  exists s', exs true (bpf_arg_comp p o idx c id ++ rest) d s =
    exs true (if op_holds o (arg_value (bits64 p) d idx) c then rest else jump_lbl id :: rest) d s'.
Proof.
  apply (arg_comp_exec d (fun q s => exs true q d s)); intros; auto using
    exs_ld, exs_mem, exs_st, exs_jeq, exs_jgt, exs_jge, exs_jset.
Qed.
Lemma arg_comp_ex d p o idx c id rest s :
  little p = true -> (0 <= idx <= 5)%Z -> c < 2 ^ wordN p -> sd_ok d ->
  exists s', ex true (bpf_arg_comp p o idx c id ++ rest) d s =
    ex true (if op_holds o (arg_value (bits64 p) d idx) c then rest else jump_lbl id :: rest) d s'.
Proof.
  apply (arg_comp_exec d (fun q s => ex true q d s)); intros; auto using
    ex_ld, ex_mem, ex_st, ex_jeq, ex_jgt, ex_jge, ex_jset.
Qed.
