(* Flattening of blocks into a program (tools/bpf.py). *)
From Coq Require Import ZifyBool ZifyNat ZifyN.
From Verif Require Import P_Bpf M_PyComp.
Local Open Scope N_scope.
Ltac inv H := inversion H; subst; clear H.

(* ---- The machine ---- *)
Lemma ex_nil le d s : ex le [] d s = VFault. Proof. reflexivity. Qed.
Lemma ex_app le d p q : forall s v, ex le p d s = VRet v -> ex le (p ++ q) d s = VRet v.
Proof.
  remember (length p) as n. assert (L : (length p <= n)%nat) by lia. clear Heqn.
  revert p L. induction n as [|n IH]; intros p L s v.
  { destruct p; [discriminate|simpl in L; lia]. }
  destruct p as [|i p]; [discriminate|]. simpl in L. change ((i :: p) ++ q) with (i :: (p ++ q)).
  assert (J : forall m s, ex le (skipn m p) d s = VRet v -> ex le (skipn m (p ++ q)) d s = VRet v).
  { intros m s0 E. destruct (Nat.le_gt_cases m (length p)).
    - rewrite skipn_app. replace (m - length p)%nat with O by lia. rewrite skipn_O. apply IH; auto.
      pose proof (skipn_length_le m p). lia.
    - rewrite skipn_all2 in E by lia. discriminate. }
  assert (K : forall s, ex le p d s = VRet v -> ex le (p ++ q) d s = VRet v).
  { intros s0 E. apply IH; auto. lia. }
  rewrite !ex_cons.
  destruct (code i =? op_ret); auto.
  destruct (code i =? op_ja); auto.
  destruct (code i =? op_ld_abs). { destruct (sd_word le d (k i)); auto. }
  destruct (code i =? op_ld_mem). { destruct (mem s (k i)); auto. }
  destruct (code i =? op_st). { destruct (k i <? 16); auto. }
  destruct (jump_test (code i) (acc s) (k i)); auto.
Qed.

(* ---- emit_jmp ---- *)
Definition is_op (op : N) : Prop := op = BPF_JEQ \/ op = BPF_JGT \/ op = BPF_JGE \/ op = BPF_JSET.
Definition test (op a v : N) : bool :=
  if op =? BPF_JEQ then a =? v else if op =? BPF_JGT then v <? a
  else if op =? BPF_JGE then v <=? a else negb (N.land a v =? 0).
Lemma ex_jmp le d op value t f rest s : is_op op ->
  ex le (I (N.lor 5 op) t f value :: rest) d s =
  ex le (skipn (N.to_nat (if test op (acc s) value then t else f)) rest) d s.
Proof. intros [->|[->|[->| ->]]]; rewrite ex_cons; reflexivity. Qed.
Lemma ex_ja' le d t f value rest s :
  ex le (I 5 t f value :: rest) d s = ex le (skipn (N.to_nat value) rest) d s.
Proof. rewrite ex_cons. reflexivity. Qed.
Lemma ex_ld' le d t f off rest s :
  ex le (I 32 t f off :: rest) d s =
  match sd_word le d off with Some w => ex le rest d (VM w (mem s)) | None => VFault end.
Proof. rewrite ex_cons. reflexivity. Qed.
Lemma ex_jeq' le d t f value rest s :
  ex le (I 21 t f value :: rest) d s = ex le (skipn (N.to_nat (if acc s =? value then t else f)) rest) d s.
Proof. apply (ex_jmp le d BPF_JEQ). left. reflexivity. Qed.
Lemma skip1 {A} n (x : A) l : skipn (N.to_nat (n + 1)) (x :: l) = skipn (N.to_nat n) l.
Proof. replace (N.to_nat (n + 1)) with (S (N.to_nat n)) by lia. reflexivity. Qed.

Lemma emit_jmp_ex le d op value t f rest s : is_op op ->
  ex le (emit_jmp op value t f ++ rest) d s =
  ex le (skipn (N.to_nat (if test op (acc s) value then t else f)) rest) d s.
Proof.
  intros O. unfold emit_jmp.
  destruct ((t <? 256) && (f <? 256)). { apply ex_jmp; auto. }
  destruct (t + 1 <? 256).
  { cbn [app]. rewrite ex_jmp by auto. destruct (test op (acc s) value).
    - rewrite skip1. reflexivity.
    - change (skipn (N.to_nat 0) (I 5 0 0 f :: rest)) with (I 5 0 0 f :: rest). apply ex_ja'. }
  destruct (f + 1 <? 256).
  { cbn [app]. rewrite ex_jmp by auto. destruct (test op (acc s) value).
    - change (skipn (N.to_nat 0) (I 5 0 0 t :: rest)) with (I 5 0 0 t :: rest). apply ex_ja'.
    - rewrite skip1. reflexivity. }
  cbn [app]. rewrite ex_jmp by auto. destruct (test op (acc s) value).
  - change (skipn (N.to_nat 0) (I 5 0 0 (t + 1) :: I 5 0 0 f :: rest)) with (I 5 0 0 (t + 1) :: I 5 0 0 f :: rest).
    rewrite ex_ja', skip1. reflexivity.
  - change (skipn (N.to_nat 1) (I 5 0 0 (t + 1) :: I 5 0 0 f :: rest)) with (I 5 0 0 f :: rest).
    apply ex_ja'.
Qed.

(* ---- Programs the kernel loads, but for their length ---- *)
Definition fits1 (i : instr) : Prop :=
  code i < 65536 /\ jt i < 256 /\ jf i < 256 /\ (code i = 5 \/ k i < 2 ^ 32) /\ code i <> op_ld_mem.
Definition loads (p : list instr) : Prop := insns_ok p = true /\ last_is_ret p = true /\ Forall fits1 p.
Lemma loads_ne p : loads p -> p <> [].
Proof. intros (_ & L & _) ->. discriminate. Qed.
Lemma insn_ok_mono i a b : (a <= b)%nat -> insn_ok i a = true -> insn_ok i b = true.
Proof.
  intros L. unfold insn_ok. destruct (code i =? op_ret); auto.
  destruct (code i =? op_ja). { intros H. apply Nat.ltb_lt in H. apply Nat.ltb_lt. lia. }
  destruct (code i =? op_ld_abs); auto. destruct ((code i =? op_ld_mem) || (code i =? op_st)); auto.
  destruct (jump_test (code i) 0 0); auto. intros H. apply andb_true_iff in H as [H1 H2].
  apply Nat.ltb_lt in H1, H2. apply andb_true_iff. split; apply Nat.ltb_lt; lia.
Qed.
Lemma insns_ok_app p q : insns_ok p = true -> insns_ok q = true -> insns_ok (p ++ q) = true.
Proof.
  induction p as [|i p IH]; cbn [insns_ok app]; auto. intros H Q. apply andb_true_iff in H as [H1 H2].
  apply andb_true_iff. split; [|auto]. eapply insn_ok_mono; [|exact H1]. rewrite app_length. lia.
Qed.
Lemma last_is_ret_app p q : q <> [] -> last_is_ret (p ++ q) = last_is_ret q.
Proof.
  intros N. induction p as [|i p IH]; [reflexivity|]. cbn [app last_is_ret].
  destruct (p ++ q) eqn:E; [apply app_eq_nil in E as [_ E]; congruence|]. exact IH.
Qed.
Lemma loads_app p q : loads p -> q = [] \/ loads q -> loads (p ++ q).
Proof.
  intros P [->|Q]; [rewrite app_nil_r; exact P|]. pose proof (loads_ne _ Q) as N.
  destruct P as (P1 & P2 & P3). destruct Q as (Q1 & Q2 & Q3). split; [|split].
  - apply insns_ok_app; auto.
  - rewrite last_is_ret_app; auto.
  - apply Forall_app. auto.
Qed.
Lemma loads_cons i p : loads p -> insn_ok i (length p) = true -> fits1 i -> loads (i :: p).
Proof.
  intros P O F. pose proof (loads_ne _ P) as N. destruct P as (P1 & P2 & P3). split; [|split].
  - cbn [insns_ok]. rewrite O, P1. reflexivity.
  - cbn [last_is_ret]. destruct p; [congruence|exact P2].
  - constructor; auto.
Qed.
Lemma loads_ret v : v < 2 ^ 32 -> loads (ret v).
Proof. intros V. split; [reflexivity|]. split; [reflexivity|].
  constructor; [|constructor]. repeat split; cbn [code jt jf k]; auto; try reflexivity. discriminate. Qed.
Lemma jmp_ok op t f v n : is_op op -> (N.to_nat t < n)%nat -> (N.to_nat f < n)%nat -> insn_ok (I (N.lor 5 op) t f v) n = true.
Proof.
  intros O T F. apply Nat.ltb_lt in T, F.
  destruct O as [->|[->|[->| ->]]]; cbn -[N.to_nat Nat.ltb]; rewrite T, F; reflexivity.
Qed.
Lemma jmp_fits op t f v : is_op op -> t < 256 -> f < 256 -> v < 2 ^ 32 -> fits1 (I (N.lor 5 op) t f v).
Proof. intros O T F V. destruct O as [->|[->|[->| ->]]]; repeat split; cbn [code jt jf k]; auto; try reflexivity; discriminate. Qed.
Lemma ja_ok v n : (N.to_nat v < n)%nat -> insn_ok (I 5 0 0 v) n = true.
Proof. intros V. apply Nat.ltb_lt in V. exact V. Qed.
Lemma ja_fits v : fits1 (I 5 0 0 v).
Proof. repeat split; cbn [code jt jf k]; auto; try reflexivity; discriminate. Qed.
Lemma emit_jmp_loads op value t f rest : is_op op -> value < 2 ^ 32 -> loads rest ->
  (N.to_nat t < length rest)%nat -> (N.to_nat f < length rest)%nat -> loads (emit_jmp op value t f ++ rest).
Proof.
  intros O V R T F. unfold emit_jmp.
  destruct ((t <? 256) && (f <? 256)) eqn:E1.
  { apply loads_cons; [exact R|apply jmp_ok; auto|apply jmp_fits; auto; lia]. }
  destruct (N.ltb_spec (t + 1) 256).
  { cbn [app]. apply loads_cons; [apply loads_cons|..]; auto using ja_ok, ja_fits.
    - apply jmp_ok; auto; cbn [length]; lia.
    - apply jmp_fits; auto; lia. }
  destruct (N.ltb_spec (f + 1) 256).
  { cbn [app]. apply loads_cons; [apply loads_cons|..]; auto using ja_ok, ja_fits.
    - apply jmp_ok; auto; cbn [length]; lia.
    - apply jmp_fits; auto; lia. }
  cbn [app]. apply loads_cons; [apply loads_cons; [apply loads_cons|..]|..]; auto using ja_ok, ja_fits.
  - apply ja_ok. cbn [length]. lia.
  - apply jmp_ok; auto; cbn [length]; lia.
  - apply jmp_fits; auto; lia.
Qed.
Lemma cell_ok_no_mem c p : Forall (fun i => code i <> op_ld_mem) p -> forall v m, cell_ok c p v m = true.
Proof.
  induction 1 as [|i r H _ IH]; intros v m; cbn [cell_ok]; [reflexivity|].
  destruct (code i =? op_st); [apply IH|]. apply N.eqb_neq in H. rewrite H.
  destruct (code i =? op_ja); [apply IH|]. destruct (jump_test (code i) 0 0); apply IH.
Qed.
Lemma loads_accepted p : loads p -> (length p <= 4096)%nat -> kernel_accepts p.
Proof.
  intros P L. pose proof (loads_ne _ P) as NE. destruct P as (P1 & P2 & P3). split.
  - rewrite P1, P2. assert (L1 : Nat.leb 1 (length p) = true) by (destruct p; [congruence|reflexivity]).
    unfold BPF_MAXINSNS. apply Nat.leb_le in L as L2. rewrite L1, L2. cbn [andb].
    clear P2 NE L1 L2. revert P1 P3 L. induction p as [|i r IH]; [reflexivity|]. cbn [insns_ok forallb length].
    intros P1 P3 L. inversion P3; subst. apply andb_true_iff in P1 as [O P1].
    apply andb_true_iff. split; [|apply IH; auto; lia].
    destruct H1 as (A & B & C & D & _). unfold insn_fits. apply N.ltb_lt in A, B, C. rewrite A, B, C. cbn [andb].
    apply N.ltb_lt. destruct D as [D|D]; [|exact D]. unfold insn_ok in O. rewrite D in O.
    change (5 =? op_ret) with false in O. change (5 =? op_ja) with true in O. cbv iota in O. apply Nat.ltb_lt in O.
    clear - O L. assert (k i < 4096) by lia. eapply N.lt_trans; [exact H|reflexivity].
  - intros c _. apply cell_ok_no_mem. eapply Forall_impl; [|exact P3]. intros i (_ & _ & _ & _ & H). exact H.
Qed.

(* ---- Blocks ---- *)
Section blocks.
Variables (le : bool) (d : sdata).
Fixpoint beval (b : block) (s : vm) : vres :=
  match b with
  | Basic _ _ ins => ex le ins d s
  | Entry _ op nr t f => if test op (acc s) nr then beval t s else beval f s
  | Wide _ off op value t f =>
      match sd_word le d off with
      | Some w => if test op w value then beval t (VM w (mem s)) else beval f (VM w (mem s))
      | None => VFault
      end
  end.

(* A set of blocks that is closed and in which the identity determines the block. *)
Definition kids (b : block) : list block :=
  match b with Basic _ _ _ => [] | Entry _ _ _ t f => [t; f] | Wide _ _ _ _ t f => [t; f] end.
Definition op_of (b : block) : Prop :=
  match b with
  | Basic _ _ ins => loads ins
  | Entry _ op nr _ _ => is_op op /\ nr < 2 ^ 32
  | Wide _ off op value _ _ => is_op op /\ value < 2 ^ 32 /\ off < 64 /\ off mod 4 = 0
  end.
Record heap (U : block -> Prop) : Prop := {
  h_inj : forall x y, U x -> U y -> bid x = bid y -> x = y;
  h_closed : forall x y, U x -> In y (kids x) -> U y;
  h_op : forall x, U x -> op_of x }.

(* ---- The state of the flattening ---- *)
Variable U : block -> Prop.
Hypothesis HU : heap U.
Definition at_ (l : nat) (ins : list instr) : list instr := skipn (length ins - l) ins.
Definition good (st : flat) : Prop :=
  (fl_ins st = [] \/ loads (fl_ins st)) /\
  forall i l, assoc i (fl_off st) = Some l -> (0 < l <= length (fl_ins st))%nat /\
    forall b, U b -> bid b = i -> forall s v, beval b s = VRet v -> ex le (at_ l (fl_ins st)) d s = VRet v.
Definition ext (st st' : flat) : Prop :=
  (exists pre, fl_ins st' = pre ++ fl_ins st) /\
  forall i l, assoc i (fl_off st) = Some l -> assoc i (fl_off st') = Some l.
Lemma ext_refl st : ext st st.
Proof. split; auto. exists []. reflexivity. Qed.
Lemma ext_trans a b c : ext a b -> ext b c -> ext a c.
Proof.
  intros [[p P] A] [[q Q] B]. split; auto. exists (q ++ p). rewrite Q, P, app_assoc. reflexivity.
Qed.
Lemma at_app l pre ins : (l <= length ins)%nat -> at_ l (pre ++ ins) = at_ l ins.
Proof.
  intros L. unfold at_. rewrite app_length, skipn_app.
  rewrite skipn_all2 by lia. simpl. f_equal. lia.
Qed.
Lemma at_all ins : at_ (length ins) ins = ins.
Proof. unfold at_. rewrite Nat.sub_diag. reflexivity. Qed.
Lemma assoc_cons {A} i j (a : A) l : assoc i ((j, a) :: l) = if j =? i then Some a else assoc i l.
Proof. reflexivity. Qed.

Lemma place_good st b ins : good st -> U b -> assoc (bid b) (fl_off st) = None -> ins <> [] -> loads (ins ++ fl_ins st) ->
  (forall s v, beval b s = VRet v -> ex le (ins ++ fl_ins st) d s = VRet v) ->
  good (place (bid b) ins st) /\ ext st (place (bid b) ins st) /\
  assoc (bid b) (fl_off (place (bid b) ins st)) = Some (length (fl_ins (place (bid b) ins st))).
Proof.
  intros [LD G] B A NE LO E. unfold place. cbn [fl_ins fl_off]. rewrite assoc_cons, N.eqb_refl, app_length.
  split; [split; [right; exact LO|]|split; [|reflexivity]].
  - intros i l. cbn [fl_ins fl_off]. rewrite assoc_cons. destruct (N.eqb_spec (bid b) i) as [<-|NI].
    + intros [= <-]. split.
      { rewrite app_length. destruct ins; [congruence|]. simpl. lia. }
      intros b' B' I' s v. rewrite (h_inj _ HU _ _ B' B I').
      rewrite <- app_length, at_all. apply E.
    + intros X. destruct (G _ _ X) as [L K]. split; [rewrite app_length; lia|].
      intros b' B' I' s v V. rewrite at_app by lia. eauto.
  - split; [exists ins; reflexivity|]. intros i l X. cbn [fl_off]. rewrite assoc_cons.
    destruct (N.eqb_spec (bid b) i) as [<-|]; auto. congruence.
Qed.

Lemma distance_ex st b n : good st -> U b -> distance st b = Some n -> forall s v,
  beval b s = VRet v -> ex le (skipn (N.to_nat n) (fl_ins st)) d s = VRet v.
Proof.
  unfold distance. intros G B D s v V. destruct (assoc (bid b) (fl_off st)) as [l|] eqn:A; [|discriminate].
  injection D as <-. destruct G as [_ G]. destruct (G _ _ A) as [L K]. specialize (K b B eq_refl s v V).
  rewrite Nat2N.id. exact K.
Qed.

Lemma distance_lt st b n : good st -> distance st b = Some n -> loads (fl_ins st) /\ (N.to_nat n < length (fl_ins st))%nat.
Proof.
  unfold distance. intros [LD G] D. destruct (assoc (bid b) (fl_off st)) as [l|] eqn:A; [|discriminate].
  injection D as <-. destruct (G _ _ A) as [L _]. split; [|lia]. destruct LD as [Z|]; [|auto]. rewrite Z in L. simpl in L. lia.
Qed.
Lemma ext_assoc st st' i l : ext st st' -> assoc i (fl_off st) = Some l -> assoc i (fl_off st') = Some l.
Proof. intros [_ E]. auto. Qed.
Lemma emit_jmp_ne op v a b : emit_jmp op v a b <> [].
Proof. unfold emit_jmp. repeat (destruct (_ : bool); [discriminate|]). destruct ((a <? 256) && (b <? 256)); [discriminate|]. destruct (a + 1 <? 256); [discriminate|]. destruct (b + 1 <? 256); discriminate. Qed.

Fixpoint size (b : block) : nat :=
  match b with Basic _ _ _ => 0 | Entry _ _ _ t f => S (size t + size f) | Wide _ _ _ _ t f => S (size t + size f) end.
(* What was not placed before is a block of at most this size. *)
Definition within (n : nat) (st st' : flat) : Prop :=
  forall i l, assoc i (fl_off st') = Some l -> assoc i (fl_off st) = Some l \/ exists x, U x /\ bid x = i /\ (size x <= n)%nat.
Lemma within_refl n st : within n st st.
Proof. intros i l X. auto. Qed.
Lemma within_trans n m a b c : (n <= m)%nat -> within n a b -> within m b c -> within m a c.
Proof.
  intros L A B i l X. destruct (B i l X) as [Y|Y]; [|auto]. destruct (A i l Y) as [Z|(x & U1 & I1 & S1)]; [auto|].
  right. exists x. repeat split; auto. lia.
Qed.
Lemma within_place b ins st : U b -> within (size b) st (place (bid b) ins st).
Proof.
  intros B i l. unfold place. cbn [fl_off]. rewrite assoc_cons. destruct (N.eqb_spec (bid b) i) as [<-|]; [|auto].
  intros _. right. exists b. auto.
Qed.
Lemma within_none n b st st' : U b -> (n < size b)%nat -> within n st st' ->
  assoc (bid b) (fl_off st) = None -> assoc (bid b) (fl_off st') = None.
Proof.
  intros B L W A. destruct (assoc (bid b) (fl_off st')) as [l|] eqn:E; [|reflexivity].
  destruct (W _ _ E) as [X|(x & U1 & I1 & S1)]; [congruence|].
  rewrite (h_inj _ HU _ _ U1 B I1) in S1. lia.
Qed.

Lemma two_kids b t f (e : N -> N -> list instr) : U b -> U t -> U f -> (size b = S (size t + size f))%nat ->
  (forall x y, e x y <> []) ->
  (forall st n1 n2, good st -> distance st t = Some n1 -> distance st f = Some n2 -> loads (e n1 n2 ++ fl_ins st)) ->
  (forall st n1 n2, good st -> distance st t = Some n1 -> distance st f = Some n2 ->
     forall s v, beval b s = VRet v -> ex le (e n1 n2 ++ fl_ins st) d s = VRet v) ->
  (forall st, good st -> exists st', accept t st = Some st' /\ good st' /\ ext st st' /\ within (size t) st st' /\
     exists l, assoc (bid t) (fl_off st') = Some l /\ (assoc (bid t) (fl_off st) = None -> l = length (fl_ins st'))) ->
  (forall st, good st -> exists st', accept f st = Some st' /\ good st' /\ ext st st' /\ within (size f) st st' /\
     exists l, assoc (bid f) (fl_off st') = Some l /\ (assoc (bid f) (fl_off st) = None -> l = length (fl_ins st'))) ->
  forall st, good st -> assoc (bid b) (fl_off st) = None -> exists st',
  match accept t st with
  | None => None
  | Some st => match accept f st with
               | None => None
               | Some st => match distance st t, distance st f with
                            | Some dt, Some df => Some (place (bid b) (e dt df) st)
                            | _, _ => None
                            end
               end
  end = Some st' /\ good st' /\ ext st st' /\ within (size b) st st' /\
  assoc (bid b) (fl_off st') = Some (length (fl_ins st')).
Proof.
  intros B UT UF SZ NE LO EX IHt IHf st G A0.
  destruct (IHt st G) as (s1 & E1 & G1 & X1 & W1 & l1 & L1 & _). rewrite E1.
  destruct (IHf s1 G1) as (s2 & E2 & G2 & X2 & W2 & l2 & L2 & _). rewrite E2.
  pose proof (ext_assoc _ _ _ _ X2 L1) as L1'.
  assert (D1 : exists n1, distance s2 t = Some n1) by (unfold distance; rewrite L1'; eauto).
  assert (D2 : exists n2, distance s2 f = Some n2) by (unfold distance; rewrite L2; eauto).
  destruct D1 as [n1 D1]. destruct D2 as [n2 D2]. rewrite D1, D2.
  assert (A2 : assoc (bid b) (fl_off s2) = None).
  { apply (within_none (size f) b s1 s2); auto; [lia|]. apply (within_none (size t) b st s1); auto. lia. }
  destruct (place_good s2 b (e n1 n2)) as (G' & X & P); eauto.
  eexists. split; [reflexivity|]. split; [exact G'|].
  split; [eapply ext_trans; [exact X1|eapply ext_trans; [exact X2|exact X]]|].
  split.
  { eapply (within_trans (size t)); [lia|exact W1|]. eapply (within_trans (size f)); [lia|exact W2|]. apply within_place, B. }
  exact P.
Qed.

Lemma accept_spec b : U b -> forall st, good st -> exists st',
  accept b st = Some st' /\ good st' /\ ext st st' /\ within (size b) st st' /\
  exists l, assoc (bid b) (fl_off st') = Some l /\
            (assoc (bid b) (fl_off st) = None -> l = length (fl_ins st')).
Proof.
  induction b as [i a ins|i op nr t IHt f IHf|i off op value t IHt f IHf]; intros B st G; cbn [accept];
    (destruct (assoc (bid _) (fl_off st)) as [l0|] eqn:A0;
    [exists st; split; [reflexivity|]; split; [exact G|]; split; [apply ext_refl|]; split; [apply within_refl|];
     exists l0; split; [exact A0|discriminate]|]).
  - pose proof (h_op _ HU _ B) as NE. cbn [op_of] in NE.
    destruct (place_good st (Basic i a ins) ins) as (G' & X & P); auto.
    { apply loads_ne, NE. }
    { apply loads_app; [exact NE|]. apply G. }
    { intros s v V. apply ex_app. exact V. }
    eexists. split; [reflexivity|]. split; [exact G'|]. split; [exact X|].
    split; [apply (within_place (Basic i a ins)), B|]. eexists. split; [exact P|auto].
  - pose proof (h_op _ HU _ B) as O. cbn [op_of] in O. destruct O as [O NR].
    assert (UT : U t) by (eapply (h_closed _ HU); [exact B|simpl; auto]).
    assert (UF : U f) by (eapply (h_closed _ HU); [exact B|simpl; auto]).
    destruct (two_kids (Entry i op nr t f) t f (fun n1 n2 => emit_jmp op nr n1 n2)) with (st := st)
      as (st' & E & G' & X & W & P); auto.
    { intros. apply emit_jmp_ne. }
    { intros s0 n1 n2 G0 D1 D2. destruct (distance_lt _ _ _ G0 D1). destruct (distance_lt _ _ _ G0 D2).
      apply emit_jmp_loads; auto. }
    2: { exists st'. split; [exact E|]. split; [exact G'|]. split; [exact X|]. split; [exact W|]. eauto. }
    intros st0 n1 n2 G0 D1 D2 s v V. rewrite emit_jmp_ex by exact O. cbn [beval] in V.
    destruct (test op (acc s) nr); [apply (distance_ex st0 t)|apply (distance_ex st0 f)]; auto.
  - pose proof (h_op _ HU _ B) as O. cbn [op_of] in O. destruct O as (O & VA & OL & OM).
    assert (UT : U t) by (eapply (h_closed _ HU); [exact B|simpl; auto]).
    assert (UF : U f) by (eapply (h_closed _ HU); [exact B|simpl; auto]).
    destruct (two_kids (Wide i off op value t f) t f (fun n1 n2 => I 32 0 0 off :: emit_jmp op value n1 n2)) with (st := st)
      as (st' & E & G' & X & W & P); auto.
    { discriminate. }
    { intros s0 n1 n2 G0 D1 D2. destruct (distance_lt _ _ _ G0 D1) as [LD L1]. destruct (distance_lt _ _ _ G0 D2) as [_ L2].
      cbn [app]. apply loads_cons; [apply emit_jmp_loads; auto| |].
      - apply N.ltb_lt in OL. match goal with |- insn_ok _ ?m = true => change ((off mod 4 =? 0) && (off <? 64) = true) end. rewrite OM, OL. reflexivity.
      - repeat split; cbn [code jt jf k]; try reflexivity; [|discriminate]. right. eapply N.lt_trans; [exact OL|reflexivity]. }
    2: { exists st'. split; [exact E|]. split; [exact G'|]. split; [exact X|]. split; [exact W|]. eauto. }
    intros st0 n1 n2 G0 D1 D2 s v V. cbn [app]. rewrite ex_ld'. cbn [beval] in V.
    destruct (sd_word le d off) as [w|]; [|discriminate].
    rewrite emit_jmp_ex by exact O. cbn [acc].
    destruct (test op w value); [apply (distance_ex st0 t)|apply (distance_ex st0 f)]; auto.
Qed.

Lemma good0 : good flat0.
Proof. split; [left; reflexivity|]. intros i l X. discriminate. Qed.

(* A block alone. *)
Lemma flatten_one b : U b -> exists st, accept b flat0 = Some st /\ loads (fl_ins st) /\ forall s v, beval b s = VRet v -> ex le (fl_ins st) d s = VRet v.
Proof.
  intros B. destruct (accept_spec b B flat0 good0) as (st & E & G & _ & _ & l & L & Q). exists st. split; [exact E|].
  specialize (Q eq_refl). subst l. destruct G as [LD G]. destruct (G _ _ L) as [L0 K].
  split; [destruct LD as [Z|]; [rewrite Z in L0; simpl in L0; lia|auto]|]. intros s v V. rewrite <- (at_all (fl_ins st)). eapply K; eauto.
Qed.

Lemma forward_spec b : U b -> forall st, good st -> exists st', forward b st = Some st' /\ good st' /\ within 0 st st'.
Proof.
  induction b as [i a ins|i op nr t IHt f IHf|i off op value t IHt f IHf]; intros B st G; cbn [forward].
  - destruct a; [exists st; split; [reflexivity|split; [exact G|apply within_refl]]|].
    destruct (accept_spec (Basic i false ins) B st G) as (st' & E & G' & _ & W & _). exists st'. auto.
  - assert (UT : U t) by (eapply (h_closed _ HU); [exact B|simpl; auto]).
    assert (UF : U f) by (eapply (h_closed _ HU); [exact B|simpl; auto]).
    destruct (IHt UT st G) as (s1 & E1 & G1 & W1). rewrite E1.
    destruct (IHf UF s1 G1) as (s2 & E2 & G2 & W2). rewrite E2. exists s2. split; [auto|]. split; [auto|].
    eapply (within_trans 0); eauto.
  - assert (UT : U t) by (eapply (h_closed _ HU); [exact B|simpl; auto]).
    assert (UF : U f) by (eapply (h_closed _ HU); [exact B|simpl; auto]).
    destruct (IHt UT st G) as (s1 & E1 & G1 & W1). rewrite E1.
    destruct (IHf UF s1 G1) as (s2 & E2 & G2 & W2). rewrite E2. exists s2. split; [auto|]. split; [auto|].
    eapply (within_trans 0); eauto.
Qed.

(* The check of the architecture. *)
Lemma validate_arch_spec a kill next st : U next -> good st ->
  (assoc (bid next) (fl_off st) = None \/ assoc (bid next) (fl_off st) = Some (length (fl_ins st))) ->
  arch_nr a < 2 ^ 32 -> kill < 2 ^ 32 ->
  exists p, validate_arch a kill next st = Some p /\ loads p /\
  (sd_arch d <> arch_nr a -> ex le p d vm0 = VRet kill) /\
  (sd_arch d = arch_nr a -> forall v, beval next (VM (sd_nr d) (mem vm0)) = VRet v -> ex le p d vm0 = VRet v).
Proof.
  intros B G A NR KL. unfold validate_arch.
  destruct (accept_spec next B st G) as (s1 & E & G1 & X & W & l & L & Q). rewrite E.
  assert (LL : l = length (fl_ins s1)).
  { destruct A as [A|A]; [auto|]. destruct next; cbn [accept bid] in E, A; rewrite A in E; injection E as <-;
      cbn [bid] in L; congruence. }
  unfold distance. rewrite L, LL, Nat.sub_diag. eexists. split; [reflexivity|].
  destruct G1 as [LD G1]. destruct (G1 _ _ L) as [L0 K].
  assert (LS : loads (fl_ins s1)) by (destruct LD as [Z|]; [rewrite Z in *; simpl in L0; lia|auto]). split.
  { cbn [app N.of_nat]. unfold ret. cbn [app].
    assert (F : forall x, x < 2 ^ 32 -> fits1 (I 32 0 0 x)) by (intros x X0; repeat split; cbn [code jt jf k]; auto; try reflexivity; discriminate).
    apply loads_cons; [apply loads_cons; [apply loads_cons; [apply loads_cons|..]|..]|..]; auto; try (apply F; reflexivity).
    - repeat split; cbn [code jt jf k]; auto; try reflexivity; discriminate.
    - repeat split; cbn [code jt jf k]; auto; try reflexivity; discriminate. }
  cbn [app N.of_nat]. rewrite ex_ld'. change (sd_word le d 4) with (Some (sd_arch d)).
  cbv iota beta. rewrite ex_jeq'. cbn [acc].
  change (0 + 1) with 1. unfold ret. split.
  - intros NE. destruct (N.eqb_spec (sd_arch d) (arch_nr a)); [contradiction|]. reflexivity.
  - intros ->. rewrite N.eqb_refl. intros v V.
    change (skipn (N.to_nat 1) ([I 6 0 0 kill] ++ I 32 0 0 0 :: fl_ins s1)) with (I 32 0 0 0 :: fl_ins s1).
    rewrite ex_ld'. change (sd_word le d 0) with (Some (sd_nr d)). cbv iota beta.
    specialize (K next B eq_refl _ _ V). rewrite LL, at_all in K. exact K.
Qed.
End blocks.
