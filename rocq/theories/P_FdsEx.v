(* Concrete descriptor tables, and what goes wrong with some of them. *)
From Coq Require Import Lia FinFun.
From Verif Require Export P_FdsClaims.
Local Open Scope Z_scope.

Definition table_of (l : list (Z * (N * bool))) : table :=
  fun fd => match List.find (fun p => fst p =? fd) l with Some p => Some (snd p) | None => None end.
Lemma table_of_in l fd v : table_of l fd = Some v -> In (fd, v) l.
Proof.
  unfold table_of. destruct (List.find _ l) as [[a w]|] eqn:E; [|discriminate]. intros H. injection H as <-.
  apply find_some in E. destruct E as [I E]. cbn in E. apply Z.eqb_eq in E. subst. exact I.
Qed.
Definition startedb (lim : Z) (preload sin sout serr sync : bool) (base : N) (pairs : list (Z * Z)) (elf : Z) (l : list (Z * (N * bool))) : bool :=
  match open_pipes lim preload sin sout serr sync base (table_of l) with
  | Some (st, t) =>
      (1024 <=? lim) && forallb (fun p => (fst (snd p) <? base)%N && (0 <=? fst p)) l &&
      forallb (fun p => is_open (table_of l) (fst p)) pairs && ((elf =? -1) || ((0 <=? elf) && is_open (table_of l) elf)) &&
      (length pairs + 11 <=? 30)%nat &&
      forallb (fun x => negb (is_open t x) && negb (existsb (Z.eqb x) (wanted pairs))) (map Z.of_nat (seq 900 30))
  | None => false
  end.
Lemma startedb_ok lim preload sin sout serr sync base pairs elf l :
  startedb lim preload sin sout serr sync base pairs elf l = true ->
  exists st t, started lim preload sin sout serr sync base pairs elf (table_of l) st t /\
               open_pipes lim preload sin sout serr sync base (table_of l) = Some (st, t).
Proof.
  unfold startedb. destruct (open_pipes _ _ _ _ _ _ _ _) as [[st t]|] eqn:O; [|discriminate]. intros H. exists st, t. split; [|reflexivity].
  apply andb_prop in H. destruct H as [H HR]. apply andb_prop in H. destruct H as [H HN]. apply andb_prop in H. destruct H as [H HE].
  apply andb_prop in H. destruct H as [H HP]. apply andb_prop in H. destruct H as [HL HF]. rewrite forallb_forall in HR, HP, HF.
  split; [lia|]. split; [exact O|]. split; [|split; [|split; [|split]]].
  - intros x f (b & T). apply table_of_in in T. specialize (HF _ T). cbn [fst snd] in HF. apply andb_prop in HF. destruct HF as [HF1 HF2]. apply N.ltb_lt in HF1. apply Z.leb_le in HF2. lia.
  - intros x X. destruct (table_of l x) as [v|] eqn:T; [|reflexivity]. apply table_of_in in T. specialize (HF _ T). cbn [fst snd] in HF. apply andb_prop in HF. destruct HF as [HF1 HF2]. apply N.ltb_lt in HF1. apply Z.leb_le in HF2. lia.
  - intros p I. apply in_map_iff in I. destruct I as (q & <- & I). specialize (HP _ I). unfold is_open in HP. destruct (table_of l (fst q)); [discriminate|discriminate HP].
  - apply orb_prop in HE. destruct HE as [HE|HE]; [left; lia|right]. apply andb_prop in HE. destruct HE as [HE HE']. split; [lia|].
    unfold is_open in HE'. destruct (table_of l elf); [discriminate|discriminate HE'].
  - exists (map Z.of_nat (seq 900 30)). split; [|split].
    + apply FinFun.Injective_map_NoDup; [intros a b; lia|apply seq_NoDup].
    + rewrite map_length, seq_length. apply Nat.leb_le. exact HN.
    + intros x I. specialize (HR _ I). apply in_map_iff in I. destruct I as (n & <- & I). apply in_seq in I. apply andb_prop in HR. destruct HR as [H1 H2].
      split; [lia|]. split; [unfold is_open in H1; destruct (t (Z.of_nat n)); [discriminate H1|reflexivity]|]. intro J.
      apply negb_true_iff, Bool.not_true_iff_false in H2. apply H2. apply existsb_exists. exists (Z.of_nat n). split; [exact J|apply Z.eqb_refl].
Qed.

(* Descriptors 0 to 7; 5 and 6 change places, 7 becomes 3 (close-on-exec off),
   the program is descriptor 4, and a pipe gets the number 9 asked for. *)
Definition ex_list : list (Z * (N * bool)) :=
  [(0, (10%N, false)); (1, (11%N, false)); (2, (12%N, false)); (3, (13%N, false)); (4, (14%N, true)); (5, (15%N, true)); (6, (16%N, false)); (7, (17%N, true))].
Definition ex_pairs : list (Z * Z) := [(5, 6); (6, 5); (7, 3); (2, 9)].
Definition ex_st : run_state := RunState (8, 9) (16, 17) (10, 11) (12, 13) (14, 15).
Lemma ex_started : exists t, started 1024 true true true true true 100 ex_pairs 4 (table_of ex_list) ex_st t.
Proof.
  assert (B : startedb 1024 true true true true true 100 ex_pairs 4 ex_list = true) by (vm_compute; reflexivity).
  apply startedb_ok in B. destruct B as (st & t & S & O). assert (E : st = ex_st); [|subst; exists t; exact S].
  assert (Q : match open_pipes 1024 true true true true true 100 (table_of ex_list) with Some (s, _) => s | None => ex_st end = ex_st) by (vm_compute; reflexivity).
  rewrite O in Q. exact Q.
Qed.
Lemma ex_children : NoDup (wanted ex_pairs) /\ forall c, In c (wanted ex_pairs) -> 0 <= c < 1024.
Proof. split; [repeat constructor; cbn; lia|]. cbn. lia. Qed.
(* the result *)
Definition ex_result (ca : bool) : list (Z * option (N * bool)) :=
  match open_pipes 1024 true true true true true 100 (table_of ex_list) with
  | Some (st, t) => match child_setup 1024 ca ex_pairs 4 true st t with
                    | Some (st', elf', t') => map (fun x => (x, at_start st' t' x)) [0; 1; 2; 3; 4; 5; 6; 7; 8; 9; 10; 11; 12]
                    | None => []
                    end
  | None => []
  end.
Lemma ex_outcome : ex_result true =
  [(0, Some (102%N, false)); (1, Some (105%N, false)); (2, Some (107%N, false)); (3, Some (17%N, false)); (4, None); (5, Some (16%N, false)); (6, Some (15%N, false)); (7, None);
   (8, Some (100%N, false)); (9, Some (12%N, false)); (10, None); (11, None); (12, None)].
Proof. vm_compute. reflexivity. Qed.

(* The number announced to the preload library is reused for a passed file. *)
Lemma announced_lost : exists lim base pairs t0 st t st' elf' t',
  started lim true false false false false base pairs (-1) t0 st t /\
  NoDup (wanted pairs) /\ (forall c, In c (wanted pairs) -> 0 <= c < lim) /\ std_open t0 /\
  child_setup lim true pairs (-1) false st t = Some (st', elf', t') /\
  exists f, (f < base)%N /\ at_start st' t' (fst (rs_pipe st)) = Some (f, false).
Proof.
  set (l := [(0, (10%N, false)); (1, (11%N, false)); (2, (12%N, false)); (5, (15%N, false))]).
  assert (B : startedb 1024 true false false false false 100 [(5, 3)] (-1) l = true) by (vm_compute; reflexivity).
  apply startedb_ok in B. destruct B as (st & t & S & O).
  exists 1024, 100%N, [(5, 3)], (table_of l), st, t.
  assert (C : NoDup (wanted [(5, 3)])) by (repeat constructor; intros []).
  assert (D : forall c, In c (wanted [(5, 3)]) -> 0 <= c < 1024) by (cbn; lia).
  destruct (setup_ok _ _ _ _ _ _ _ _ _ _ _ _ S true C D) as (st' & elf' & t' & H). exists st', elf', t'.
  split; [exact S|]. split; [exact C|]. split; [exact D|]. split; [split; [|split]; discriminate|]. split; [exact H|].
  assert (E : fst (rs_pipe st) = 3).
  { assert (Q : match open_pipes 1024 true false false false false 100 (table_of l) with Some (s, _) => fst (rs_pipe s) | None => 3 end = 3) by (vm_compute; reflexivity).
    rewrite O in Q. exact Q. }
  exists 15%N. split; [lia|]. rewrite E. eapply (arrive _ _ _ _ _ _ _ _ _ _ _ _ S _ _ _ _ H 5); [left; reflexivity|exists false; reflexivity|].
  unfold piped. intuition discriminate.
Qed.
(* With descriptor 0 closed in the parent, the new program has no stdin. *)
Lemma stdin_lost : exists lim base t0 st t st' elf' t',
  started lim false true true true false base [] (-1) t0 st t /\
  child_setup lim false [] (-1) false st t = Some (st', elf', t') /\
  at_start st' t' 0 = None.
Proof.
  set (l := [(1, (11%N, false)); (2, (12%N, false))]).
  assert (B : startedb 1024 false true true true false 100 [] (-1) l = true) by (vm_compute; reflexivity).
  apply startedb_ok in B. destruct B as (st & t & S & O).
  assert (D : forall c, In c (wanted []) -> 0 <= c < 1024) by (intros c []).
  destruct (setup_ok _ _ _ _ _ _ _ _ _ _ _ _ S false (NoDup_nil _) D) as (st' & elf' & t' & H).
  exists 1024, 100%N, (table_of l), st, t, st', elf', t'. split; [exact S|]. split; [exact H|].
  assert (Q : match open_pipes 1024 false true true true false 100 (table_of l) with
              | Some (s, u) => match child_setup 1024 false [] (-1) false s u with Some (s', _, u') => at_start s' u' 0 | None => None end | None => None end = None)
    by (vm_compute; reflexivity).
  rewrite O, H in Q. exact Q.
Qed.
(* A program file that is also passed on under another number is closed. *)
Lemma program_lost : exists lim base pairs elf t0 st t st' elf' t' f,
  started lim false false false false false base pairs elf t0 st t /\
  NoDup (wanted pairs) /\ (forall c, In c (wanted pairs) -> 0 <= c < lim) /\ std_open t0 /\
  child_setup lim false pairs elf false st t = Some (st', elf', t') /\
  holds t0 elf f /\ before_exec st' t' elf' = None.
Proof.
  set (l := [(0, (10%N, false)); (1, (11%N, false)); (2, (12%N, false)); (5, (15%N, false))]).
  assert (B : startedb 1024 false false false false false 100 [(5, 7)] 5 l = true) by (vm_compute; reflexivity).
  apply startedb_ok in B. destruct B as (st & t & S & O).
  assert (C : NoDup (wanted [(5, 7)])) by (repeat constructor; intros []).
  assert (D : forall c, In c (wanted [(5, 7)]) -> 0 <= c < 1024) by (cbn; lia).
  destruct (setup_ok _ _ _ _ _ _ _ _ _ _ _ _ S false C D) as (st' & elf' & t' & H).
  exists 1024, 100%N, [(5, 7)], 5, (table_of l), st, t, st', elf', t', 15%N.
  split; [exact S|]. split; [exact C|]. split; [exact D|]. split; [split; [|split]; discriminate|]. split; [exact H|].
  split; [exists false; reflexivity|].
  assert (Q : match open_pipes 1024 false false false false false 100 (table_of l) with
              | Some (s, u) => match child_setup 1024 false [(5, 7)] 5 false s u with Some (s', e, u') => before_exec s' u' e | None => None end | None => None end = None)
    by (vm_compute; reflexivity).
  rewrite O, H in Q. exact Q.
Qed.
