(* Filters of one system call: boolean structure, lowering to 32-bit
   comparisons, flattening (tools/compiler.py, tools/bpf.py). *)
From Coq Require Import ZifyBool ZifyNat ZifyN.
From Verif Require Import S_PyPolicy P_Bpf M_PyComp P_PyBpf.
Local Open Scope N_scope.

Definition bhp (U : block -> Prop) (n : N) : Prop := heap U /\ forall x, U x -> bid x < n.
Lemma bhp_add U n b : bhp U n -> (forall x, In x (kids b) -> U x) -> op_of b -> n <= bid b ->
  bhp (fun x => U x \/ x = b) (bid b + 1).
Proof.
  intros [H L] K O B. split; [split|].
  - intros x y [X| ->] [Y| ->] E; auto.
    + eapply (h_inj _ H); eauto.
    + specialize (L x X). lia.
    + specialize (L y Y). lia.
  - intros x y [X| ->] Y; [left; eapply (h_closed _ H); eauto|auto].
  - intros x [X| ->]; [apply (h_op _ H), X|exact O].
  - intros x [X| ->]; [specialize (L x X); lia|lia].
Qed.
Lemma bhp_mono U n m : bhp U n -> n <= m -> bhp U m.
Proof. intros [H L] E. split; [exact H|]. intros x X. specialize (L x X). lia. Qed.

(* ---- Comparing words ---- *)
Lemma arg_word d i : i < 6 ->
  sd_word true d (arg_offset i false) = Some (lo32 (sd_arg d (N.to_nat i))) /\
  sd_word true d (arg_offset i true) = Some (hi32 (sd_arg d (N.to_nat i))).
Proof.
  intros H. assert (C : i = 0 \/ i = 1 \/ i = 2 \/ i = 3 \/ i = 4 \/ i = 5) by lia.
  destruct C as [->|[->|[->|[->|[->| ->]]]]]; split; reflexivity.
Qed.
Lemma sd_arg_lt d i : sd_ok d -> sd_arg d i < 2 ^ 64.
Proof.
  intros (_ & _ & _ & _ & F). unfold sd_arg. destruct (nth_in_or_default i (sd_args d) 0) as [I| ->].
  - rewrite Forall_forall in F. apply F, I.
  - reflexivity.
Qed.
Lemma lo_land v : N.land v 0xffffffff = lo32 v.
Proof. change 0xffffffff with (N.ones 32). apply N.land_ones. Qed.
Lemma hi_land v : v < 2 ^ 64 -> N.land (N.shiftr v 32) 0xffffffff = hi32 v.
Proof.
  intros H. rewrite lo_land, N.shiftr_div_pow2. fold (hi32 v). apply lo32_small. apply hi32_lt. exact H.
Qed.
Lemma land_small a x : a < 2 ^ 32 -> N.land a (lo32 x) = N.land a x.
Proof.
  intros H. apply N.bits_inj. intros n. rewrite !N.land_spec. unfold lo32. rewrite <- N.land_ones, N.land_spec.
  destruct (N.ltb_spec n 32).
  - rewrite N.ones_spec_low by lia. rewrite andb_true_r. reflexivity.
  - rewrite (testbit_high a 32 n) by auto. reflexivity.
Qed.
Lemma test_jeq a v : test BPF_JEQ a v = (a =? v). Proof. reflexivity. Qed.
Lemma test_jgt a v : test BPF_JGT a v = (v <? a). Proof. reflexivity. Qed.
Lemma test_jge a v : test BPF_JGE a v = (v <=? a). Proof. reflexivity. Qed.
Lemma test_jset a v : test BPF_JSET a v = negb (N.land a v =? 0). Proof. reflexivity. Qed.

Ltac tests := repeat match goal with
  | |- context [test BPF_JEQ ?x ?y] => change (test BPF_JEQ x y) with (x =? y)
  | |- context [test BPF_JGT ?x ?y] => change (test BPF_JGT x y) with (y <? x)
  | |- context [test BPF_JGE ?x ?y] => change (test BPF_JGE x y) with (y <=? x)
  | |- context [test BPF_JSET ?x ?y] => change (test BPF_JSET x y) with (negb (N.land x y =? 0))
  end.

Definition valid (bits op value : N) : Prop :=
  is_op op /\ (value < 2 ^ bits \/ op = BPF_JSET /\ value < 2 ^ 64).
Lemma valid_64 bits op value : bits = 32 \/ bits = 64 -> valid bits op value -> value < 2 ^ 64.
Proof.
  intros HB [_ [H|[_ H]]]; [|exact H]. destruct HB as [E|E]; rewrite E in H; [|exact H].
  eapply N.lt_trans; [exact H|reflexivity].
Qed.

Lemma lower_atom_eval bits d arg op value t f n vt vf : bits = 32 \/ bits = 64 -> sd_ok d -> arg < 6 -> valid bits op value ->
  (forall s, beval true d t s = VRet vt) -> (forall s, beval true d f s = VRet vf) ->
  forall s, beval true d (fst (lower_atom bits arg op value t f n)) s = VRet (if test op (arg_of bits d arg) value then vt else vf).
Proof.
  intros HB HD A V T F s. pose proof (valid_64 _ _ _ HB V) as V64. destruct V as [O V].
  destruct (arg_word d arg A) as [WL WH]. pose proof (sd_arg_lt d (N.to_nat arg) HD) as AL.
  unfold lower_atom. rewrite lo_land, hi_land by exact V64. unfold arg_of.
  set (a := sd_arg d (N.to_nat arg)) in *. clearbody a.
  pose proof (hilo a) as [Ea La]. pose proof (hilo value) as [Ev Lv].
  pose proof (hi32_lt _ AL) as Ha. pose proof (hi32_lt _ V64) as Hv.
  destruct HB as [EB|EB]; rewrite EB in *.
  - (* 32 bits *)
    change (32 =? 32) with true. cbn [fst P_PyBpf.beval]. rewrite WL. fold (lo32 a).
    assert (E : test op (lo32 a) (lo32 value) = test op (lo32 a) value).
    { destruct O as [->|[->|[->| ->]]]; try (destruct V as [V|[V _]]; [|discriminate]; rewrite (lo32_small value) by exact V; reflexivity).
      tests. rewrite land_small by exact La. reflexivity. }
    rewrite E. destruct (test op (lo32 a) value); auto.
  - (* 64 bits *)
    rewrite (N.mod_small a) by exact AL. change (64 =? 32) with false. cbv iota.
    destruct O as [->|[->|[->| ->]]].
    + change ((BPF_JEQ =? BPF_JGE) || (BPF_JEQ =? BPF_JGT)) with false. change (BPF_JEQ =? BPF_JSET) with false.
      cbn [fst P_PyBpf.beval]. rewrite WL, WH; cbv beta iota; tests.
      destruct (N.eqb_spec (hi32 a) (hi32 value)) as [Eh|Nh].
      * replace (a =? value) with (lo32 a =? lo32 value) by lia. destruct (lo32 a =? lo32 value); auto.
      * replace (a =? value) with false by lia. auto.
    + change ((BPF_JGT =? BPF_JGE) || (BPF_JGT =? BPF_JGT)) with true. cbv iota.
      destruct (N.eqb_spec (hi32 value) 0) as [Z|Z]; cbn [fst P_PyBpf.beval]; rewrite WL, WH; cbv beta iota; tests;
        (destruct (N.ltb_spec (hi32 value) (hi32 a)) as [Lh|Lh]; [replace (value <? a) with true by lia; apply T|]).
      * replace (value <? a) with (lo32 value <? lo32 a) by lia. destruct (lo32 value <? lo32 a); auto.
      * destruct (N.eqb_spec (hi32 a) (hi32 value)) as [Eh|Nh].
        -- replace (value <? a) with (lo32 value <? lo32 a) by lia. destruct (lo32 value <? lo32 a); auto.
        -- replace (value <? a) with false by lia. auto.
    + change ((BPF_JGE =? BPF_JGE) || (BPF_JGE =? BPF_JGT)) with true. cbv iota.
      destruct (N.eqb_spec (hi32 value) 0) as [Z|Z]; cbn [fst P_PyBpf.beval]; rewrite WL, WH; cbv beta iota; tests;
        (destruct (N.ltb_spec (hi32 value) (hi32 a)) as [Lh|Lh]; [replace (value <=? a) with true by lia; apply T|]).
      * replace (value <=? a) with (lo32 value <=? lo32 a) by lia. destruct (lo32 value <=? lo32 a); auto.
      * destruct (N.eqb_spec (hi32 a) (hi32 value)) as [Eh|Nh].
        -- replace (value <=? a) with (lo32 value <=? lo32 a) by lia. destruct (lo32 value <=? lo32 a); auto.
        -- replace (value <=? a) with false by lia. auto.
    + change ((BPF_JSET =? BPF_JGE) || (BPF_JSET =? BPF_JGT)) with false. change (BPF_JSET =? BPF_JSET) with true. cbv iota.
      tests. rewrite (zero_hilo (N.land a value)), <- land_hi, <- land_lo.
      destruct (N.eqb_spec (hi32 value) 0) as [Z|Z]; cbn [fst P_PyBpf.beval]; rewrite WL, ?WH; cbv beta iota; tests.
      * rewrite Z, N.land_0_r. cbn [negb andb N.eqb]. destruct (N.land (lo32 a) (lo32 value) =? 0); cbn [negb]; auto.
      * destruct (N.land (hi32 a) (hi32 value) =? 0); cbn [negb andb]; [|auto].
        destruct (N.land (lo32 a) (lo32 value) =? 0); cbn [negb]; auto.
Qed.

(* The blocks made by [lower_atom]. *)
Lemma land32 v : N.land v 0xffffffff < 2 ^ 32.
Proof. rewrite lo_land. apply N.mod_lt. discriminate. Qed.
Lemma arg_offset_ok i hi : i < 6 -> arg_offset i hi < 64 /\ arg_offset i hi mod 4 = 0.
Proof.
  intros H. assert (C : i = 0 \/ i = 1 \/ i = 2 \/ i = 3 \/ i = 4 \/ i = 5) by lia.
  destruct C as [->|[->|[->|[->|[->| ->]]]]]; destruct hi; split; reflexivity.
Qed.
Lemma lower_atom_heap bits arg op value t f U n b n' : bhp U n -> U t -> U f -> is_op op -> arg < 6 ->
  lower_atom bits arg op value t f n = (b, n') ->
  exists U', bhp U' n' /\ U' b /\ (forall x, U x -> U' x) /\ n < n'.
Proof.
  intros H T F O AR E. unfold lower_atom in E.
  pose proof (land32 value) as LO. pose proof (land32 (N.shiftr value 32)) as HI.
  destruct (arg_offset_ok arg false AR) as [F1 F2]. destruct (arg_offset_ok arg true AR) as [T1 T2].
  set (lo := N.land value 0xffffffff) in *. set (hi := N.land (N.shiftr value 32) 0xffffffff) in *. clearbody lo hi.
  assert (J : is_op BPF_JGT /\ is_op BPF_JEQ) by (split; unfold is_op; auto). destruct J as [JG JE].
  pose proof (bhp_add U n (Wide n (arg_offset arg false) op lo t f) H) as H1. cbn [bid kids op_of] in H1.
  specialize (H1 ltac:(intros x [<-|[<-|[]]]; assumption) (Logic.conj O (Logic.conj LO (Logic.conj F1 F2))) (N.le_refl n)).
  destruct (bits =? 32). { injection E as <- <-. eexists. split; [exact H1|]. split; [auto|]. split; [auto|lia]. }
  assert (one : forall op' v' x y, is_op op' -> v' < 2 ^ 32 -> (U x \/ x = Wide n (arg_offset arg false) op lo t f) ->
    (U y \/ y = Wide n (arg_offset arg false) op lo t f) ->
    bhp (fun z => (U z \/ z = Wide n (arg_offset arg false) op lo t f) \/ z = Wide (n + 1) (arg_offset arg true) op' v' x y) (n + 2)).
  { intros op' v' x y O' V' X Y. replace (n + 2) with (n + 1 + 1) by lia.
    apply (bhp_add _ (n + 1) (Wide (n + 1) (arg_offset arg true) op' v' x y) H1); [|exact (Logic.conj O' (Logic.conj V' (Logic.conj T1 T2)))|cbn [bid]; lia].
    cbn [kids]. intros z [<-|[<-|[]]]; assumption. }
  destruct ((op =? BPF_JGE) || (op =? BPF_JGT)).
  { destruct (hi =? 0).
    - injection E as <- <-. eexists. split; [apply (one BPF_JGT hi t); auto|]. split; [auto|]. split; [auto|lia].
    - injection E as <- <-. pose proof (one BPF_JEQ hi (Wide n (arg_offset arg false) op lo t f) f JE HI (or_intror eq_refl) (or_introl F)) as H2.
      pose proof (bhp_add _ (n + 2) (Wide (n + 2) (arg_offset arg true) BPF_JGT hi t
        (Wide (n + 1) (arg_offset arg true) BPF_JEQ hi (Wide n (arg_offset arg false) op lo t f) f)) H2) as H3.
      cbn [bid kids op_of] in H3. specialize (H3 ltac:(intros x [<-|[<-|[]]]; auto) (Logic.conj JG (Logic.conj HI (Logic.conj T1 T2))) (N.le_refl _)).
      replace (n + 2 + 1) with (n + 3) in H3 by lia.
      eexists. split; [exact H3|]. split; [auto|]. split; [auto|lia]. }
  destruct (op =? BPF_JSET).
  { destruct (hi =? 0).
    - injection E as <- <-. eexists. split; [exact H1|]. split; [auto|]. split; [auto|lia].
    - injection E as <- <-. eexists. split; [apply (one op hi t); auto|]. split; [auto|]. split; [auto|lia]. }
  injection E as <- <-. eexists. split; [apply (one op hi (Wide n (arg_offset arg false) op lo t f) f); auto|]. split; [auto|]. split; [auto|lia].
Qed.

(* ---- Trees of comparisons ---- *)
Section trees.
Variables (bits : N) (d : sdata).
Hypothesis HB : bits = 32 \/ bits = 64.
Fixpoint aeval (b : ablock) : N :=
  match b with
  | AAct a => a_val a
  | AAtom _ arg op value t f => if test op (arg_of bits d arg) value then aeval t else aeval f
  end.
Definition akids (b : ablock) : list ablock := match b with AAct _ => [] | AAtom _ _ _ _ t f => [t; f] end.
Definition avalid (b : ablock) : Prop :=
  match b with AAct a => a_val a < 2 ^ 32 | AAtom _ arg op value _ _ => arg < 6 /\ valid bits op value end.
Record aheap (V : ablock -> Prop) : Prop := {
  ah_inj : forall x y, V x -> V y -> aid x = aid y -> x = y;
  ah_closed : forall x y, V x -> In y (akids x) -> V y;
  ah_valid : forall x, V x -> avalid x }.
Definition ahp (V : ablock -> Prop) (n : N) : Prop := aheap V /\ forall x, V x -> aid x < n.
Lemma ahp_add V n b : ahp V n -> (forall x, In x (akids b) -> V x) -> avalid b -> aid b = n ->
  ahp (fun x => V x \/ x = b) (n + 1).
Proof.
  intros [H L] K O B. split; [split|].
  - intros x y [X| ->] [Y| ->] E; auto.
    + eapply (ah_inj _ H); eauto.
    + specialize (L x X). lia.
    + specialize (L y Y). lia.
  - intros x y [X| ->] Y; [left; eapply (ah_closed _ H); eauto|auto].
  - intros x [X| ->]; [apply (ah_valid _ H), X|exact O].
  - intros x [X| ->]; [specialize (L x X); lia|lia].
Qed.

(* lowering *)
Definition LI (V : ablock -> Prop) (st : list (N * block) * N) : Prop :=
  exists U, bhp U (snd st) /\ forall i b', assoc i (fst st) = Some b' ->
    U b' /\ (sd_ok d -> forall b, V b -> aid b = i -> forall s, beval true d b' s = VRet (aeval b)).
Lemma lower_spec V b : aheap V -> V b -> forall st, LI V st -> exists st',
  lower bits b st = Some st' /\ LI V st' /\ assoc (aid b) (fst st') <> None /\
  forall i, assoc i (fst st) <> None -> assoc i (fst st') <> None.
Proof.
  intros HV. induction b as [a|i arg op value t IHt f IHf]; intros B st L; cbn [lower];
    (destruct (assoc (aid _) (fst st)) as [x|] eqn:A;
    [exists st; split; [reflexivity|]; split; [exact L|]; split; [rewrite A; discriminate|auto]|]).
  - eexists. split; [reflexivity|]. destruct L as (U & H & L). cbn [fst snd aid]. split; [|split].
    + set (b' := Basic (snd st) true (ret (a_val a))).
      exists (fun x => U x \/ x = b'). cbn [fst snd]. split.
      { apply (bhp_add U (snd st) b' H); [intros x []|apply loads_ret, (ah_valid _ HV _ B)|apply N.le_refl]. }
      intros j c. rewrite assoc_cons. destruct (N.eqb_spec (a_id a) j) as [<-|N].
      * intros [= <-]. split; [auto|]. intros _ b2 B2 I2 s.
        rewrite (ah_inj _ HV b2 (AAct a) B2 B I2). cbn [beval b' aeval]. reflexivity.
      * intros X. destruct (L _ _ X). split; auto.
    + rewrite assoc_cons, N.eqb_refl. discriminate.
    + intros j X. rewrite assoc_cons. destruct (a_id a =? j); [discriminate|exact X].
  - destruct (ah_valid _ HV _ B) as [AR VA].
    assert (VT : V t) by (eapply (ah_closed _ HV); [exact B|simpl; auto]).
    assert (VF : V f) by (eapply (ah_closed _ HV); [exact B|simpl; auto]).
    destruct (IHt VT st L) as (s1 & E1 & L1 & A1 & M1). rewrite E1.
    destruct (IHf VF s1 L1) as (s2 & E2 & L2 & A2 & M2). rewrite E2.
    pose proof (M2 _ A1) as A1'.
    destruct (assoc (aid t) (fst s2)) as [t'|] eqn:T'; [|congruence].
    destruct (assoc (aid f) (fst s2)) as [f'|] eqn:F'; [|congruence].
    destruct (lower_atom bits arg op value t' f' (snd s2)) as [b' n] eqn:EL.
    destruct L2 as (U & H & L2). destruct (L2 _ _ T') as [UT ET]. destruct (L2 _ _ F') as [UF EF].
    destruct (lower_atom_heap bits arg op value t' f' U (snd s2) b' n H UT UF (proj1 VA) AR EL) as (U' & H' & UB & SUB & _).
    eexists. split; [reflexivity|]. cbn [fst snd aid]. split; [|split].
    + exists U'. cbn [fst snd]. split; [exact H'|]. intros j c. rewrite assoc_cons.
      destruct (N.eqb_spec i j) as [<-|N].
      * intros [= <-]. split; [exact UB|]. intros HD b2 B2 I2 s.
        rewrite (ah_inj _ HV b2 (AAtom i arg op value t f) B2 B I2). cbn [aeval].
        pose proof (lower_atom_eval bits d arg op value t' f' (snd s2) (aeval t) (aeval f) HB HD AR VA
          (ET HD t VT eq_refl) (EF HD f VF eq_refl) s) as R.
        rewrite EL in R. cbn [fst] in R. rewrite R. destruct (test op (arg_of bits d arg) value); reflexivity.
      * intros X. destruct (L2 _ _ X) as [UX EX]. split; auto.
    + rewrite assoc_cons, N.eqb_refl. discriminate.
    + intros j X. rewrite assoc_cons. destruct (i =? j); [discriminate|]. auto.
Qed.
Lemma lowered_spec V b : aheap V -> V b -> exists b' U n, lowered bits b = Some b' /\ bhp U n /\ U b' /\
  (sd_ok d -> forall s, beval true d b' s = VRet (aeval b)).
Proof.
  intros HV B. destruct (lower_spec V b HV B ([], 0)) as (st & E & (U & H & L) & A & _).
  { exists (fun _ => False). split; [split; [split|]; cbv beta; tauto|]. discriminate. }
  unfold lowered. rewrite E. destruct (assoc (aid b) (fst st)) as [b'|] eqn:X; [|congruence].
  destruct (L _ _ X) as [UB EB]. exists b', U, (snd st). split; [reflexivity|]. split; [exact H|]. split; [exact UB|].
  intros HD. apply EB; auto.
Qed.

(* the boolean structure *)
Lemma ldiff_ones a v : a < 2 ^ 64 -> (N.land a (N.ldiff (N.ones 64) v) =? 0) = (N.land a v =? a).
Proof.
  intros Ha. destruct (N.eqb_spec (N.land a v) a) as [E|E].
  - apply N.eqb_eq. apply N.bits_inj. intros n. rewrite N.land_spec, N.ldiff_spec, N.bits_0.
    rewrite <- E, N.land_spec. destruct (N.testbit a n), (N.testbit v n), (N.testbit (N.ones 64) n); reflexivity.
  - apply N.eqb_neq. intros Z. apply E. apply N.bits_inj. intros n.
    pose proof (f_equal (fun x => N.testbit x n) Z) as T. cbv beta in T.
    rewrite N.land_spec, N.ldiff_spec, N.bits_0 in T. rewrite N.land_spec.
    destruct (N.ltb_spec n 64).
    + rewrite N.ones_spec_low in T by lia. destruct (N.testbit a n), (N.testbit v n); auto; discriminate.
    + rewrite (testbit_high a 64 n) by auto. reflexivity.
Qed.
Lemma arg_of_lt i : arg_of bits d i < 2 ^ 64.
Proof.
  unfold arg_of. assert (M : 2 ^ bits <> 0) by (apply N.pow_nonzero; discriminate).
  pose proof (N.mod_lt (sd_arg d (N.to_nat i)) (2 ^ bits) M) as L.
  destruct HB as [E|E]; rewrite E in *; [|exact L]. eapply N.lt_trans; [exact L|reflexivity].
Qed.
Lemma mk_atom_eval n a t f : aeval (mk_atom n a t f) = if cond_holds bits d a then aeval t else aeval f.
Proof.
  unfold mk_atom, cond_holds. pose proof (arg_of_lt (p_arg a)) as L. set (x := arg_of bits d (p_arg a)) in *.
  destruct (p_op a); cbn [aeval op_holds]; fold x; tests.
  - reflexivity.
  - destruct (x =? p_val a); reflexivity.
  - rewrite N.leb_antisym. destruct (x <? p_val a); reflexivity.
  - rewrite N.ltb_antisym. destruct (x <=? p_val a); reflexivity.
  - reflexivity.
  - reflexivity.
  - reflexivity.
  - rewrite ldiff_ones by exact L. destruct (N.land x (p_val a) =? x); reflexivity.
Qed.
Lemma conj_eval atoms : forall t f n,
  aeval (fst (conj atoms t f n)) = if forallb (cond_holds bits d) atoms then aeval t else aeval f.
Proof.
  induction atoms as [|a r IH]; intros t f n; cbn [conj fst forallb]; [reflexivity|].
  rewrite IH, mk_atom_eval. destruct (cond_holds bits d a), (forallb (cond_holds bits d) r); reflexivity.
Qed.
Lemma disj_eval e : forall act f n,
  aeval (fst (disj e act f n)) = if existsb (forallb (cond_holds bits d)) e then aeval act else aeval f.
Proof.
  induction e as [|c r IH]; intros act f n; cbn [disj existsb]; [reflexivity|].
  destruct (conj c act f n) as [f' n'] eqn:C. rewrite IH.
  pose proof (conj_eval c act f n) as X. rewrite C in X. cbn [fst] in X. rewrite X.
  destruct (forallb (cond_holds bits d) c), (existsb (forallb (cond_holds bits d)) r); reflexivity.
Qed.

Lemma first_match_app fs gs v : first_match bits d v (fs ++ gs) = first_match bits d (first_match bits d v gs) fs.
Proof. induction fs as [|f r IH]; cbn [first_match app]; [reflexivity|]. rewrite IH. reflexivity. Qed.
Lemma chain_eval before : forall f n b n', chain before f n = Some (b, n') ->
  aeval b = first_match bits d (aeval f) (rev before).
Proof.
  induction before as [|x r IH]; intros f n b n' E; cbn [chain] in E.
  { injection E as <- <-. reflexivity. }
  destruct (f_expr x) as [e|] eqn:X; [|discriminate].
  destruct (disj e (AAct (f_act x)) f n) as [f' m] eqn:D. rewrite (IH _ _ _ _ E).
  pose proof (disj_eval e (AAct (f_act x)) f n) as Y. rewrite D in Y. cbn [fst aeval] in Y. rewrite Y.
  cbn [rev]. rewrite first_match_app. cbn [first_match]. unfold applies. rewrite X. reflexivity.
Qed.

(* the blocks made *)
Lemma mk_atom_heap V n a t f : ahp V n -> V t -> V f -> atom_fits bits a ->
  ahp (fun x => V x \/ x = mk_atom n a t f) (n + 1).
Proof.
  intros H T F [A P]. apply (ahp_add V n); [exact H| | |].
  - unfold mk_atom. destruct (p_op a); cbn [akids]; intros x [<-|[<-|[]]]; assumption.
  - unfold mk_atom, is_op. destruct (p_op a); cbn [avalid]; (split; [exact A|]); (split; [unfold is_op; auto|]);
      try (left; exact P).
    right. split; [reflexivity|]. apply N.le_lt_trans with (N.ones 64); [|reflexivity].
    destruct (N.le_gt_cases (N.ldiff (N.ones 64) (p_val a)) (N.ones 64)) as [L|L]; [exact L|].
    exfalso. assert (Z : N.ldiff (N.ones 64) (p_val a) <> 0) by lia.
    pose proof (N.bit_log2 _ Z) as B. rewrite N.ldiff_spec in B.
    rewrite N.ones_spec_high in B; [discriminate|].
    apply N.lt_succ_r. change (N.succ (N.log2 (N.ldiff (N.ones 64) (p_val a)))) with (N.succ (N.log2 (N.ldiff (N.ones 64) (p_val a)))).
    apply N.le_lt_trans with (N.log2 (2 ^ 64)); [reflexivity|]. apply N.lt_succ_r. apply N.log2_le_mono.
    change (2 ^ 64) with (N.succ (N.ones 64)). apply N.le_succ_l. exact L.
  - unfold mk_atom. destruct (p_op a); reflexivity.
Qed.
Lemma conj_heap atoms : Forall (atom_fits bits) atoms -> forall V n t f b n', ahp V n -> V t -> V f ->
  conj atoms t f n = (b, n') -> exists V', ahp V' n' /\ V' b /\ forall x, V x -> V' x.
Proof.
  induction 1 as [|a r A _ IH]; intros V n t f b n' H T F E; cbn [conj] in E.
  { injection E as <- <-. exists V. auto. }
  pose proof (mk_atom_heap V n a t f H T F A) as H1.
  destruct (IH _ _ _ _ _ _ H1 (or_intror eq_refl) (or_introl F) E) as (V' & H' & B' & S'). exists V'. auto.
Qed.
Lemma disj_heap e : Forall (Forall (atom_fits bits)) e -> forall V n act f b n', ahp V n -> V act -> V f ->
  disj e act f n = (b, n') -> exists V', ahp V' n' /\ V' b /\ forall x, V x -> V' x.
Proof.
  induction 1 as [|c r A _ IH]; intros V n act f b n' H T F E; cbn [disj] in E.
  { injection E as <- <-. exists V. auto. }
  destruct (conj c act f n) as [f1 n1] eqn:C.
  destruct (conj_heap c A V n act f f1 n1 H T F C) as (V1 & H1 & B1 & S1).
  destruct (IH _ _ _ _ _ _ H1 (S1 _ T) B1 E) as (V' & H' & B' & S'). exists V'. auto.
Qed.
Lemma chain_heap before : Forall (fun f => f_expr f <> None /\ filt_fits bits f) before -> forall V n f, ahp V n -> V f ->
  (forall x, In x before -> V (AAct (f_act x))) ->
  exists b n' V', chain before f n = Some (b, n') /\ ahp V' n' /\ V' b.
Proof.
  induction 1 as [|x r [NE A] _ IH]; intros V n f H F K; cbn [chain].
  { exists f, n, V. auto. }
  destruct A as [_ A]. destruct (f_expr x) as [e|]; [|congruence].
  destruct (disj e (AAct (f_act x)) f n) as [f1 n1] eqn:D.
  destruct (disj_heap e A V n _ f f1 n1 H (K x (or_introl eq_refl)) F D) as (V1 & H1 & B1 & S1).
  apply (IH V1); auto. intros y Y. apply S1, K. right. exact Y.
Qed.
End trees.

(* ---- compile_filter_statement ---- *)
Lemma next_id_gt f fs : In f fs -> a_id (f_act f) < next_id fs.
Proof.
  unfold next_id. induction fs as [|x r IH]; [intros []|]. cbn [fold_right]. intros [->|I]; [lia|]. specialize (IH I). lia.
Qed.
Definition unconditional (f : filt) : bool := match f_expr f with None => true | Some _ => false end.
Lemma compile_filter_statement_spec a denylist s before last :
  arch_bits a = 32 \/ arch_bits a = 64 ->
  s_filters s = (before ++ [last])%list -> f_expr last = None ->
  Forall (fun f => f_expr f <> None) before ->
  Forall (filt_fits (arch_bits a)) (s_filters s) ->
  (forall x y, In x (s_filters s) -> In y (s_filters s) -> a_id (f_act x) = a_id (f_act y) -> f_act x = f_act y) ->
  (denylist = false -> a_val (f_act last) = RET_ALLOW -> compile_filter_statement a denylist s = Some None) /\
  (denylist = true \/ a_val (f_act last) <> RET_ALLOW ->
   exists ins, compile_filter_statement a denylist s = Some (Some ins) /\ loads ins /\
     forall d st, sd_ok d -> ex true ins d st = VRet (first_match (arch_bits a) d 0 (s_filters s))).
Proof.
  intros HB FS LA BE FI ID. unfold compile_filter_statement. 
  assert (RV : rev (s_filters s) = last :: rev before) by (rewrite FS, rev_app_distr; reflexivity). rewrite RV.
  split.
  - intros -> E. rewrite E, N.eqb_refl. reflexivity.
  - intros C. replace (negb denylist && (a_val (f_act last) =? RET_ALLOW)) with false
      by (symmetry; destruct C as [-> |C]; [reflexivity|]; apply N.eqb_neq in C; rewrite C; apply andb_false_r).
    set (V := fun x => exists f, In f (s_filters s) /\ x = AAct (f_act f)).
    assert (H : ahp (arch_bits a) V (next_id (s_filters s))).
    { split; [split|].
      - intros x y (f & F & ->) (g & G & ->) E. cbn [aid] in E. rewrite (ID f g F G E). reflexivity.
      - intros x y (f & F & ->) [].
      - intros x (f & F & ->). rewrite Forall_forall in FI. apply (FI f F).
      - intros x (f & F & ->). cbn [aid]. apply next_id_gt, F. }
    assert (B2 : Forall (fun f => f_expr f <> None /\ filt_fits (arch_bits a) f) (rev before)).
    { rewrite FS, Forall_app in FI. apply Forall_forall. intros x X. rewrite <- in_rev in X.
      destruct FI as [FI _]. rewrite Forall_forall in FI, BE. auto. }
    destruct (chain_heap (arch_bits a) HB (rev before) B2 V (next_id (s_filters s)) (AAct (f_act last)) H) as (b & n & V' & CH & H' & VB).
    { exists last. split; [rewrite FS; apply in_or_app; simpl; auto|reflexivity]. }
    { intros x X. exists x. split; [|reflexivity]. rewrite <- in_rev in X. rewrite FS. apply in_or_app. auto. }
    rewrite CH.
    assert (low : exists b' U m, lowered (arch_bits a) b = Some b' /\ bhp U m /\ U b' /\
      forall d, sd_ok d -> forall s, beval true d b' s = VRet (aeval (arch_bits a) d b)).
    { destruct (lowered_spec (arch_bits a) (SD 0 0 0 []) HB V' b (proj1 H') VB) as (b' & U & m & E & HU & UB & _).
      exists b', U, m. split; [exact E|]. split; [exact HU|]. split; [exact UB|]. intros d D.
      destruct (lowered_spec (arch_bits a) d HB V' b (proj1 H') VB) as (b2 & U2 & m2 & E2 & _ & _ & K).
      rewrite E in E2. injection E2 as <-. apply K, D. }
    destruct low as (b' & U & m & E & HU & UB & K). rewrite E.
    assert (fl : exists st, accept b' flat0 = Some st /\ loads (fl_ins st)).
    { destruct (flatten_one true (SD 0 0 0 []) U (proj1 HU) b' UB) as (st & S1 & LD & _). eauto. }
    destruct fl as (st & ST & LD). rewrite ST. exists (fl_ins st). split; [reflexivity|].
    split; [exact LD|].
    intros d s0 D. destruct (flatten_one true d U (proj1 HU) b' UB) as (st2 & S2 & _ & K2).
    rewrite ST in S2. injection S2 as <-. apply K2. rewrite (K d D s0).
    rewrite (chain_eval (arch_bits a) d HB _ _ _ _ _ CH), rev_involutive, FS, first_match_app. cbn [aeval first_match].
    unfold applies. rewrite LA. reflexivity.
Qed.
