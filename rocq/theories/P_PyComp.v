(* Ranges, search trees and the whole program (tools/compiler.py). *)
From Coq Require Import ZifyBool ZifyNat ZifyN Permutation.
From Verif Require Import S_PyPolicy P_Bpf M_PyComp P_PyBpf P_PyLow.
Local Open Scope N_scope.

(* ---- Sorting ---- *)
Section sort.
Context {A : Type} (key : A -> N).
Lemma insert_perm x l : Permutation (x :: l) (insert key x l).
Proof.
  induction l as [|y r IH]; cbn [insert]; [reflexivity|]. destruct (key x <=? key y); [reflexivity|].
  rewrite perm_swap. apply perm_skip, IH.
Qed.
Lemma sorted_perm l : Permutation l (sorted key l).
Proof.
  induction l as [|x r IH]; [reflexivity|]. change (sorted key (x :: r)) with (insert key x (sorted key r)).
  rewrite <- insert_perm. apply perm_skip, IH.
Qed.
Fixpoint increasing (lo : N) (l : list A) : Prop :=
  match l with [] => True | x :: r => lo <= key x /\ increasing (key x) r end.
Fixpoint strict (lo : N) (l : list A) : Prop :=
  match l with [] => True | x :: r => lo <= key x /\ strict (key x + 1) r end.
Lemma insert_increasing x l : forall lo, lo <= key x -> increasing lo l -> increasing lo (insert key x l).
Proof.
  induction l as [|y r IH]; intros lo L H; cbn [insert]; [cbn; auto|].
  destruct H as [H1 H2]. destruct (N.leb_spec (key x) (key y)).
  - cbn [increasing]. auto.
  - cbn [increasing]. split; [auto|]. apply IH; [lia|auto].
Qed.
Lemma sorted_increasing l : increasing 0 (sorted key l).
Proof.
  induction l as [|x r IH]; [exact Logic.I|]. change (sorted key (x :: r)) with (insert key x (sorted key r)).
  apply insert_increasing; [lia|exact IH].
Qed.
Lemma increasing_strict l : NoDup (map key l) -> forall lo, increasing lo l -> strict lo l.
Proof.
  induction l as [|x r IH]; intros ND lo H; [exact Logic.I|]. cbn [map] in ND. apply NoDup_cons_iff in ND as [N1 N2].
  destruct H as [H1 H2]. split; [exact H1|]. apply IH; [exact N2|].
  destruct r as [|y r]; [exact Logic.I|]. destruct H2 as [H2 H3]. split; [|exact H3].
  cbn [map] in N1. assert (key x <> key y) by (intros E; apply N1; left; auto). lia.
Qed.
Lemma strict_sorted l : NoDup (map key l) -> strict 0 (sorted key l).
Proof.
  intros ND. apply increasing_strict; [|apply sorted_increasing].
  eapply Permutation_NoDup; [|exact ND]. apply Permutation_map, sorted_perm.
Qed.
End sort.

(* ---- Ranges ---- *)
Definition contains (r : range) (nr : N) : Prop := r_lo r <= nr < r_hi r.
Fixpoint ordered (lo : N) (l : list range) : Prop :=
  match l with [] => True | r :: t => lo <= r_lo r /\ r_lo r < r_hi r /\ ordered (r_hi r) t end.
Lemma ordered_weak l : forall lo lo', lo' <= lo -> ordered lo l -> ordered lo' l.
Proof. destruct l as [|r t]; intros lo lo' L H; [exact Logic.I|]. cbn [ordered] in *. destruct H as (H1 & H2 & H3). split; [lia|auto]. Qed.
Lemma ordered_in l : forall lo r, ordered lo l -> In r l -> lo <= r_lo r /\ r_lo r < r_hi r.
Proof.
  induction l as [|x t IH]; intros lo r H I; [destruct I|]. destruct H as (H1 & H2 & H3). destruct I as [->|I]; [auto|].
  destruct (IH _ _ H3 I). split; [lia|auto].
Qed.
Lemma ordered_uniq l : forall lo r r' nr, ordered lo l -> In r l -> In r' l -> contains r nr -> contains r' nr -> r = r'.
Proof.
  unfold contains. induction l as [|x t IH]; intros lo r r' nr H I I' C C'; [destruct I|]. destruct H as (H1 & H2 & H3).
  destruct I as [->|I], I' as [->|I']; auto.
  - destruct (ordered_in _ _ _ H3 I'). lia.
  - destruct (ordered_in _ _ _ H3 I). lia.
  - eapply IH; eauto.
Qed.
Lemma ordered_nodup l : forall lo, ordered lo l -> NoDup l.
Proof.
  induction l as [|x t IH]; intros lo H; [constructor|]. destruct H as (H1 & H2 & H3). constructor; [|eauto].
  intros I. destruct (ordered_in _ _ _ H3 I). lia.
Qed.
Lemma ordered_app a b : forall lo, ordered lo (a ++ b) -> ordered lo a /\ ordered lo b /\ forall x y, In x a -> In y b -> r_hi x <= r_lo y.
Proof.
  induction a as [|x t IH]; intros lo H; cbn [app] in H.
  { split; [exact Logic.I|]. split; [exact H|]. intros x y []. }
  destruct H as (H1 & H2 & H3). destruct (IH _ H3) as (A & B & C). split; [cbn; auto|]. split.
  - eapply ordered_weak; [|exact B]. lia.
  - intros u v [<-|U] V; [|auto]. apply (ordered_in _ _ _ B V).
Qed.

Lemma instr_eqb_eq a b : instr_eqb a b = true -> a = b.
Proof.
  unfold instr_eqb. rewrite !andb_true_iff, !N.eqb_eq. destruct a, b. cbn. intros [[[-> ->] ->] ->]. reflexivity.
Qed.
Lemma ins_eqb_eq a : forall b, ins_eqb a b = true -> a = b.
Proof.
  induction a as [|x a IH]; intros [|y b] H; try discriminate; [reflexivity|]. cbn [ins_eqb] in H.
  apply andb_true_iff in H as [H1 H2]. rewrite (instr_eqb_eq _ _ H1), (IH _ H2). reflexivity.
Qed.
Lemma filter_eqb_eq a b : filter_eqb a b = true -> a = b.
Proof. destruct a, b; cbn; try discriminate; [|reflexivity]. intros H. rewrite (ins_eqb_eq _ _ H). reflexivity. Qed.
Lemma unnamed_named n f : unnamed (named n f) = f.
Proof. destruct f; reflexivity. Qed.

Lemma group_spec l : forall lo n, strict e_nr lo l ->
  ordered lo (group l n) /\
  (l <> [] -> group l n <> []) /\
  (forall e, In e l -> exists r, In r (group l n) /\ contains r (e_nr e) /\ unnamed (r_filter r) = e_filter e) /\
  (forall r nr, In r (group l n) -> contains r nr -> exists e, In e l /\ e_nr e = nr) /\
  (forall r i f, In r (group l n) -> r_filter r = Some (i, f) -> n <= i < n + N.of_nat (length l) /\ exists e, In e l /\ e_filter e = Some f) /\
  (forall r r' i f f', In r (group l n) -> In r' (group l n) -> r_filter r = Some (i, f) -> r_filter r' = Some (i, f') -> f = f').
Proof.
  induction l as [|e l IH]; intros lo n H.
  { cbn. repeat split; try contradiction; try (intros; contradiction). }
  destruct H as [H1 H2]. destruct (IH _ (n + 1) H2) as (O & NE & G1 & G2 & G3 & G4). cbn [group].
  destruct (group l (n + 1)) as [|g gs] eqn:EG.
  - assert (l = []) by (destruct l; [reflexivity|exfalso; apply NE; [discriminate|reflexivity]]). subst l.
    repeat split; cbn [r_lo r_hi r_filter]; try lia.
    + discriminate.
    + intros e0 [<-|[]]. eexists. split; [left; reflexivity|]. cbn [r_filter]. split; [unfold contains; cbn; lia|apply unnamed_named].
    + intros r nr [<-|[]] C. unfold contains in C. cbn in C. exists e. split; [left; auto|]. lia.
    + destruct H as [<-|[]]. cbn [r_filter] in H0. destruct (e_filter e) eqn:F; cbn in H0; [|discriminate]. injection H0 as <- <-. lia.
    + destruct H as [<-|[]]. cbn [r_filter] in H0. destruct (e_filter e) eqn:F; cbn in H0; [|discriminate]. injection H0 as <- <-. cbn. lia.
    + destruct H as [<-|[]]. cbn [r_filter] in H0. destruct (e_filter e) eqn:F; cbn in H0; [|discriminate]. injection H0 as <- <-.
      exists e. split; [left; auto|]. exact F.
    + intros r r' i f f' [<-|[]] [<-|[]] E1 E2. rewrite E1 in E2. injection E2 as <-. reflexivity.
  - destruct O as (O1 & O2 & O3).
    assert (IDS : forall r i f, In r (g :: gs) -> r_filter r = Some (i, f) -> n < i).
    { intros r i f I F. destruct (G3 r i f I F) as [B _]. lia. }
    destruct (filter_eqb (e_filter e) (unnamed (r_filter g)) && (e_nr e + 1 =? r_lo g)) eqn:M.
    + apply andb_true_iff in M as [M1 M2]. apply filter_eqb_eq in M1. apply N.eqb_eq in M2.
      split; [|split; [|split; [|split; [|split]]]].
      * cbn [ordered r_lo r_hi]. split; [lia|]. split; [lia|exact O3].
      * discriminate.
      * intros x [<-|I].
        { eexists. split; [left; reflexivity|]. cbn [r_filter]. split; [unfold contains; cbn; lia|apply unnamed_named]. }
        destruct (G1 x I) as (r & [<-|R] & C & F).
        { eexists. split; [left; reflexivity|]. cbn [r_filter]. unfold contains in *. cbn. split; [lia|]. rewrite unnamed_named. congruence. }
        { exists r. split; [right; exact R|auto]. }
      * intros r nr [<-|R] C.
        { unfold contains in C. cbn in C. destruct (N.eq_dec nr (e_nr e)) as [->|NQ]; [exists e; split; [left; auto|auto]|].
          destruct (G2 g nr (or_introl eq_refl)) as (x & X & Y); [unfold contains; lia|]. exists x. split; [right; exact X|exact Y]. }
        { destruct (G2 r nr (or_intror R) C) as (x & X & Y). exists x. split; [right; exact X|exact Y]. }
      * intros r i f [<-|R] F.
        { cbn [r_filter] in F. destruct (e_filter e) eqn:EF; cbn in F; [|discriminate]. injection F as <- <-.
          split; [cbn [length]; lia|]. exists e. split; [left; auto|exact EF]. }
        { destruct (G3 r i f (or_intror R) F) as (B & x & X & Y). split; [cbn [length]; lia|]. exists x. split; [right; auto|auto]. }
      * intros r r' i f f' [<-|R] [<-|R'] F F'.
        { rewrite F in F'. injection F' as <-. reflexivity. }
        { cbn [r_filter] in F. destruct (e_filter e); cbn in F; [|discriminate]. injection F as <- <-. specialize (IDS r' n f' (or_intror R') F'). lia. }
        { cbn [r_filter] in F'. destruct (e_filter e); cbn in F'; [|discriminate]. injection F' as <- <-. specialize (IDS r n f (or_intror R) F). lia. }
        { eapply (G4 r r'); eauto; right; assumption. }
    + split; [|split; [|split; [|split; [|split]]]].
      * cbn [ordered r_lo r_hi]. repeat split; auto; lia.
      * discriminate.
      * intros x [<-|I].
        { eexists. split; [left; reflexivity|]. cbn [r_filter]. split; [unfold contains; cbn; lia|apply unnamed_named]. }
        destruct (G1 x I) as (r & R & C & F). exists r. split; [right; exact R|auto].
      * intros r nr [<-|R] C.
        { unfold contains in C. cbn in C. exists e. split; [left; auto|]. lia. }
        { destruct (G2 r nr R C) as (x & X & Y). exists x. split; [right; exact X|exact Y]. }
      * intros r i f [<-|R] F.
        { cbn [r_filter] in F. destruct (e_filter e) eqn:EF; cbn in F; [|discriminate]. injection F as <- <-.
          split; [cbn [length]; lia|]. exists e. split; [left; auto|exact EF]. }
        { destruct (G3 r i f R F) as (B & x & X & Y). split; [cbn [length]; lia|]. exists x. split; [right; auto|auto]. }
      * intros r r' i f f' [<-|R] [<-|R'] F F'.
        { rewrite F in F'. injection F' as <-. reflexivity. }
        { cbn [r_filter] in F. destruct (e_filter e); cbn in F; [|discriminate]. injection F as <- <-. specialize (IDS r' n f' R' F'). lia. }
        { cbn [r_filter] in F'. destruct (e_filter e); cbn in F'; [|discriminate]. injection F' as <- <-. specialize (IDS r n f R F). lia. }
        { eapply (G4 r r'); eauto. }
Qed.

(* ---- Trees over the system call number ---- *)
Section trees.
Variables (le : bool) (d : sdata) (A R : block).
Notation beval := (beval le d).
Definition is_entry (b : block) : Prop := match b with Entry _ _ _ _ _ => True | _ => False end.
Definition leaves (U : block -> Prop) (l : list range) : Prop :=
  forall r, In r l -> U (action_of A r) /\ r_lo r < r_hi r /\ r_hi r < 2 ^ 32.
(* What a tree for the ranges [l] does. *)
Definition dec (b next : block) (l : list range) (s : vm) : Prop :=
  (forall r, In r l -> contains r (acc s) -> beval b s = beval (action_of A r) s) /\
  ((forall r, In r l -> ~ contains r (acc s)) -> beval b s = beval next s).

Lemma beval_entry i op nr t f s : beval (Entry i op nr t f) s = if test op (acc s) nr then beval t s else beval f s.
Proof. reflexivity. Qed.
Lemma entry_add U n i op nr t f : bhp U n -> i = n -> U t -> U f -> is_op op -> nr < 2 ^ 32 ->
  bhp (fun x => U x \/ x = Entry i op nr t f) (n + 1).
Proof.
  intros H -> T F O B. apply (bhp_add U n (Entry n op nr t f) H); [intros x [<-|[<-|[]]]; assumption|exact (Logic.conj O B)|apply N.le_refl].
Qed.
Lemma jeq_op : is_op BPF_JEQ. Proof. unfold is_op. auto. Qed.
Lemma jge_op : is_op BPF_JGE. Proof. unfold is_op. auto. Qed.

Lemma single_spec U r next n c b n' : bhp U n -> U next -> leaves U [r] ->
  compile_single_range r A next n = (c, b, n') ->
  exists U', bhp U' n' /\ U' b /\ (forall x, U x -> U' x) /\ is_entry b /\
  forall s, (contains r (acc s) -> beval b s = beval (action_of A r) s) /\ (~ contains r (acc s) -> beval b s = beval next s).
Proof.
  intros H UN LV E. destruct (LV r (or_introl eq_refl)) as (UA & LT & HI). pose proof (N.lt_trans _ _ _ LT HI) as LB.
  unfold compile_single_range in E.
  destruct (N.eqb_spec (r_hi r - r_lo r) 1) as [E1|E1].
  { injection E as _ <- <-. eexists. split; [apply (entry_add U n n BPF_JEQ (r_lo r) (action_of A r) next H eq_refl UA UN jeq_op LB)|]. split; [auto|]. split; [auto|].
    split; [exact Logic.I|]. intros s. unfold contains. rewrite beval_entry. tests.
    destruct (N.eqb_spec (acc s) (r_lo r)); split; intros; auto; lia. }
  destruct (N.eqb_spec (r_lo r) 0) as [E0|E0].
  { injection E as _ <- <-. eexists. split; [apply (entry_add U n n BPF_JGE (r_hi r) next (action_of A r) H eq_refl UN UA jge_op HI)|]. split; [auto|]. split; [auto|].
    split; [exact Logic.I|]. intros s. unfold contains. rewrite beval_entry. tests.
    destruct (N.leb_spec (r_hi r) (acc s)); split; intros; auto; lia. }
  injection E as _ <- <-.
  pose proof (entry_add U n n BPF_JGE (r_hi r) next (action_of A r) H eq_refl UN UA jge_op HI) as H1.
  pose proof (entry_add _ (n + 1) (n + 1) BPF_JGE (r_lo r) (Entry n BPF_JGE (r_hi r) next (action_of A r)) next H1
    eq_refl (or_intror eq_refl) (or_introl UN) jge_op LB) as H2.
  replace (n + 1 + 1) with (n + 2) in H2 by lia.
  eexists. split; [exact H2|]. split; [auto|]. split; [auto|]. split; [exact Logic.I|].
  intros s. unfold contains. rewrite !beval_entry. tests.
  destruct (N.leb_spec (r_lo r) (acc s)); destruct (N.leb_spec (r_hi r) (acc s)); split; intros; auto; lia.
Qed.

Lemma linear_spec l : NoDup l -> (forall r r' nr, In r l -> In r' l -> contains r nr -> contains r' nr -> r = r') ->
  forall U next cost accum n c b n', bhp U n -> U next -> leaves U l -> l <> [] \/ is_entry next ->
  linear_loop l A next cost accum n = (c, b, n') ->
  exists U', bhp U' n' /\ U' b /\ (forall x, U x -> U' x) /\ is_entry b /\ forall s, dec b next l s.
Proof.
  induction l as [|r t IH]; intros ND UQ U next cost accum n c b n' H UN LV NE E; cbn [linear_loop] in E.
  { injection E as _ <- <-. exists U. destruct NE as [NE|NE]; [congruence|]. repeat split; auto; try apply H. intros r []. }
  apply NoDup_cons_iff in ND as [NI ND].
  destruct (compile_single_range r A next n) as [[c1 b1] n1] eqn:S1.
  destruct (single_spec U r next n c1 b1 n1 H UN) as (U1 & H1 & B1 & X1 & EN & D1); auto.
  { intros x [<-|[]]. apply LV. left. reflexivity. }
  assert (LV1 : leaves U1 t).
  { intros x X. destruct (LV x (or_intror X)) as (P & Q). split; auto. }
  assert (UQ1 : forall r0 r' nr, In r0 t -> In r' t -> contains r0 nr -> contains r' nr -> r0 = r').
  { intros. eapply (UQ r0 r'); eauto; right; assumption. }
  destruct (IH ND UQ1 U1 b1 _ _ n1 c b n' H1 B1 LV1 (or_intror EN) E) as (U2 & H2 & B2 & X2 & EN2 & D2).
  exists U2. split; [exact H2|]. split; [exact B2|]. split; [auto|]. split; [exact EN2|].
  intros s. destruct (D2 s) as [P Q]. destruct (D1 s) as [P1 Q1]. split.
  - intros x [<-|X] C; [|auto]. rewrite Q; [auto|]. intros y Y CY. apply NI.
    rewrite (UQ r y (acc s) (or_introl eq_refl) (or_intror Y) C CY). exact Y.
  - intros N0. rewrite Q; [apply Q1, N0; left; reflexivity|]. intros y Y. apply N0. right. exact Y.
Qed.
Lemma linear_ranges_spec lo l : ordered lo l -> l <> [] -> forall U n c b n', bhp U n -> U R -> leaves U l ->
  compile_ranges_linear l A R n = (c, b, n') ->
  exists U', bhp U' n' /\ U' b /\ (forall x, U x -> U' x) /\ is_entry b /\ forall s, dec b R l s.
Proof.
  intros O NE U n c b n' H UR LV E. unfold compile_ranges_linear in E.
  pose proof (sorted_perm r_freq l) as PM.
  destruct (linear_spec (sorted r_freq l)) with (U := U) (next := R) (cost := 0) (accum := 0) (n := n) (c := c) (b := b) (n' := n')
    as (U' & H' & B' & X' & EN & D); auto.
  - eapply Permutation_NoDup; [exact PM|]. eapply ordered_nodup, O.
  - intros r r' nr I I'. apply Permutation_sym in PM. eapply ordered_uniq; [exact O| |]; eapply Permutation_in; eauto.
  - intros r I. apply LV. eapply Permutation_in; [|exact I]. apply Permutation_sym, PM.
  - left. intros Z. rewrite Z in PM. apply Permutation_sym, Permutation_nil in PM. congruence.
  - exists U'. split; [exact H'|]. split; [exact B'|]. split; [exact X'|]. split; [exact EN|].
    intros s. destruct (D s) as [P Q]. split.
    + intros r I C. apply P; [|exact C]. eapply Permutation_in; eauto.
    + intros N0. apply Q. intros r I. apply N0. eapply Permutation_in; [apply Permutation_sym; exact PM|exact I].
Qed.

Lemma splits_spec l : forall before low high, In (low, high) (splits before l) ->
  (low ++ high = before ++ l)%list /\ low <> [] /\ high <> [].
Proof.
  induction l as [|r t IH]; intros before low high I; [destruct I|]. cbn [splits] in I. apply in_app_or in I as [I|I].
  - destruct before; [destruct I|]. destruct I as [I|[]]. injection I as <- <-. split; [reflexivity|]. split; discriminate.
  - destruct (IH _ _ _ I) as (E & P & Q). rewrite <- app_assoc in E. auto.
Qed.

(* The best tree so far. *)
Definition tree_ok (U0 : block -> Prop) (l : list range) (lo hi : N) (t : tree) : Prop :=
  exists U, bhp U (snd t) /\ (forall x, U0 x -> U x) /\ U (snd (fst t)) /\
  (is_entry (snd (fst t)) \/ exists r, l = [r] /\ lo = r_lo r /\ hi = r_hi r) /\
  forall s, lo <= acc s < hi -> dec (snd (fst t)) R l s.
(* What the recursive calls do. *)
Definition rec_ok (fuel : nat) (rec : list range -> N -> N -> N -> option tree) : Prop :=
  forall l lo hi n U, (length l <= fuel)%nat -> l <> [] -> ordered lo l -> (forall r, In r l -> r_hi r <= hi) ->
  bhp U n -> U A -> U R -> leaves U l -> exists t, rec l lo hi n = Some t /\ tree_ok U l lo hi t.

Lemma try_cut_spec fuel rec total lo hi low high cut (U : block -> Prop) best : rec_ok fuel rec ->
  (length low <= fuel)%nat -> (length high <= fuel)%nat -> low <> [] -> high <> [] -> (2 <= length (low ++ high))%nat ->
  ordered lo (low ++ high) -> (forall r, In r (low ++ high) -> r_hi r <= hi) ->
  (forall r, In r low -> r_hi r <= cut) -> (forall r, In r high -> cut <= r_lo r) ->
  U A -> U R -> leaves U (low ++ high) -> tree_ok U (low ++ high) lo hi best -> is_entry (snd (fst best)) ->
  exists t, try_cut rec total lo hi low high cut best = Some t /\ tree_ok U (low ++ high) lo hi t /\ is_entry (snd (fst t)).
Proof.
  intros RO L1 L2 N1 N2 N3 O HI C1 C2 UA UR LV (U1 & H1 & X1 & B1 & _ & D1) EN. unfold try_cut.
  destruct (negb ((lo <? cut) && (cut <? hi))) eqn:G.
  { exists best. split; [reflexivity|]. split; [|exact EN]. exists U1. auto 6. }
  destruct (ordered_app _ _ _ O) as (O1 & O2 & O3).
  destruct (RO low lo cut (snd best) U1) as ([[cl tl] n1] & E1 & U2 & H2 & X2 & B2 & _ & D2); auto.
  { intros r I. destruct (LV r (in_or_app _ _ _ (or_introl I))) as (P & Q). auto. }
  rewrite E1. cbn [fst snd] in *.
  destruct (RO high cut hi n1 U2) as ([[cr tr] n2] & E2 & U3 & H3 & X3 & B3 & _ & D3); auto.
  { clear - O2 C2. destruct high as [|r t]; [exact Logic.I|]. cbn [ordered] in *. destruct O2 as (P & Q & S).
    split; [apply C2; left; reflexivity|auto]. }
  { intros r I. apply HI, in_or_app. auto. }
  { intros r I. destruct (LV r (in_or_app _ _ _ (or_intror I))) as (P & Q). auto 6. }
  rewrite E2. cbn [fst snd] in *. destruct best as [[c t] n]. cbn [fst snd] in *.
  destruct (total + cl + cr <? c).
  - eexists. split; [reflexivity|]. split; [|exact Logic.I].
    assert (CB : cut < 2 ^ 32).
    { destruct high as [|r h]; [congruence|]. destruct (LV r) as (_ & P & Q); [apply in_or_app; right; left; reflexivity|].
      specialize (C2 r (or_introl eq_refl)). eapply N.le_lt_trans; [exact C2|]. eapply N.lt_trans; [exact P|exact Q]. }
    pose proof (entry_add U3 n2 n2 BPF_JGE cut tr tl H3 eq_refl B3 (X3 _ B2) jge_op CB) as H4.
    eexists. cbn [fst snd]. split; [exact H4|]. split; [auto 8|]. split; [auto|]. split; [left; exact Logic.I|].
    intros s S. split.
    + intros r I C. rewrite beval_entry. tests. apply in_app_or in I.
      destruct (N.leb_spec cut (acc s)) as [LE|LT].
      * apply (D3 s ltac:(lia)); [|exact C]. destruct I as [I|I]; [|exact I]. specialize (C1 r I). unfold contains in C. lia.
      * apply (D2 s ltac:(lia)); [|exact C]. destruct I as [I|I]; [exact I|]. specialize (C2 r I). unfold contains in C. lia.
    + intros NC. rewrite beval_entry. tests. destruct (N.leb_spec cut (acc s)) as [LE|LT].
      * apply (D3 s ltac:(lia)). intros r I. apply NC, in_or_app. auto.
      * apply (D2 s ltac:(lia)). intros r I. apply NC, in_or_app. auto.
  - exists (c, t, n2). split; [reflexivity|]. split; [|exact EN]. exists U3. cbn [fst snd]. auto 10.
Qed.

Lemma try_splits_spec fuel rec total lo hi (U : block -> Prop) l : rec_ok fuel rec -> (length l <= S fuel)%nat ->
  ordered lo l -> (forall r, In r l -> r_hi r <= hi) -> U A -> U R -> leaves U l ->
  forall sp, (forall low high, In (low, high) sp -> (low ++ high = l)%list /\ low <> [] /\ high <> []) ->
  forall best, tree_ok U l lo hi best -> is_entry (snd (fst best)) ->
  exists t, try_splits rec total lo hi sp best = Some t /\ tree_ok U l lo hi t /\ is_entry (snd (fst t)).
Proof.
  intros RO LL O HI UA UR LV. induction sp as [|[low high] sp IH]; intros SP best T EN; cbn [try_splits].
  { exists best. auto. }
  destruct (SP low high (or_introl eq_refl)) as (E & N1 & N2).
  destruct high as [|r h] eqn:EH; [congruence|]. destruct (rev low) as [|r' rl] eqn:ER.
  { apply (f_equal (@rev range)) in ER. rewrite rev_involutive in ER. cbn in ER. congruence. }
  assert (EL : low = (rev rl ++ [r'])%list).
  { apply (f_equal (@rev range)) in ER. rewrite rev_involutive in ER. exact ER. }
  assert (LEN : (length low + length (r :: h) = length l)%nat) by (rewrite <- app_length, E; reflexivity).
  assert (P1 : (1 <= length low)%nat) by (destruct low; [congruence|simpl; lia]).
  cbn [length] in LEN. rewrite <- E in *.
  destruct (ordered_app _ _ _ O) as (O1 & O2 & O3).
  assert (CA : forall cut, r_hi r' <= cut -> cut <= r_lo r ->
    (forall x, In x low -> r_hi x <= cut) /\ (forall x, In x (r :: h) -> cut <= r_lo x)).
  { intros cut Q1 Q2. split.
    - intros x X. rewrite EL in X, O1. destruct (ordered_app _ _ _ O1) as (_ & _ & O5).
      apply in_app_or in X as [X|[<-|[]]]; [|exact Q1]. specialize (O5 x r' X (or_introl eq_refl)).
      destruct (ordered_in _ _ r' O1) as [_ LT]; [apply in_or_app; right; left; reflexivity|]. lia.
    - intros x [<-|X]; [exact Q2|]. destruct O2 as (_ & LT & O2). destruct (ordered_in _ _ x O2 X). lia. }
  assert (MID : r_hi r' <= r_lo r).
  { apply O3; [rewrite EL; apply in_or_app; right; left; reflexivity|left; reflexivity]. }
  destruct (CA (r_lo r) MID (N.le_refl _)) as [CA1 CA2]. destruct (CA (r_hi r') (N.le_refl _) MID) as [CB1 CB2].
  rewrite app_length in LL. cbn [length] in LL.
  destruct (try_cut_spec fuel rec total lo hi low (r :: h) (r_lo r) U best) as (t1 & E1 & T1 & EN1); auto;
    try (rewrite app_length; cbn [length]; lia); try (cbn [length]; lia).
  rewrite E1.
  destruct (try_cut_spec fuel rec total lo hi low (r :: h) (r_hi r') U t1) as (t2 & E2 & T2 & EN2); auto;
    try (rewrite app_length; cbn [length]; lia); try (cbn [length]; lia).
  rewrite E2. apply IH; auto. intros lw hg I. apply SP. right. exact I.
Qed.

Lemma rev_cons_in {X} (l : list X) x r : rev l = x :: r -> In x l.
Proof. intros E. apply in_rev. rewrite E. left. reflexivity. Qed.

Lemma bst_spec fuel : rec_ok fuel (generate_syscall_bst A R fuel).
Proof.
  induction fuel as [|fuel IH]; intros l lo hi n U LL NE O HI H UA UR LV.
  { destruct l; [congruence|simpl in LL; lia]. }
  cbn [generate_syscall_bst]. destruct l as [|first rest] eqn:EL; [congruence|].
  destruct (rev (first :: rest)) as [|last x] eqn:ER.
  { apply (f_equal (@rev range)) in ER. rewrite rev_involutive in ER. discriminate. }
  pose proof (HI last (rev_cons_in _ _ _ ER)) as HL. destruct O as (O1 & O2 & O3).
  replace (negb ((lo <=? r_lo first) && (r_hi last <=? hi))) with false by lia.
  destruct rest as [|second rest].
  - destruct ((lo =? r_lo first) && (hi =? r_hi first)) eqn:T.
    + eexists. split; [reflexivity|]. exists U. cbn [fst snd]. split; [exact H|]. split; [auto|].
      split; [apply LV; left; reflexivity|]. split; [right; exists first; split; [reflexivity|]; lia|].
      intros s S. split.
      * intros r [<-|[]] _. reflexivity.
      * intros NC. exfalso. apply (NC first (or_introl eq_refl)). unfold contains. lia.
    + destruct (compile_single_range first A R n) as [[c b] n'] eqn:S1.
      destruct (single_spec U first R n c b n' H UR LV S1) as (U1 & H1 & B1 & X1 & EN & D1).
      eexists. split; [reflexivity|]. exists U1. cbn [fst snd]. split; [exact H1|]. split; [exact X1|]. split; [exact B1|].
      split; [left; exact EN|]. intros s _. destruct (D1 s) as [P Q]. split.
      * intros r [<-|[]]. exact P.
      * intros NC. apply Q, NC. left. reflexivity.
  - assert (O : ordered lo (first :: second :: rest)) by (split; [exact O1|split; [exact O2|exact O3]]).
    destruct (compile_ranges_linear (first :: second :: rest) A R n) as [[c b] n'] eqn:LN.
    destruct (linear_ranges_spec lo _ O NE U n c b n' H UR LV LN) as (U1 & H1 & B1 & X1 & EN & D1).
    destruct (try_splits_spec fuel (generate_syscall_bst A R fuel) (freq_sum (first :: second :: rest)) lo hi U
      (first :: second :: rest) IH LL O HI UA UR LV (splits [] (first :: second :: rest))) with (best := (c, b, n'))
      as (t & ET & T & _).
    + intros low high I. apply (splits_spec _ _ _ _ I).
    + exists U1. cbn [fst snd]. auto 10.
    + exact EN.
    + exists t. auto.
Qed.
End trees.
