(* Concrete cases for C73 and C74. *)
From Coq Require Import Lia.
From Verif Require Export P_Holders.
Local Open Scope Z_scope.

(* the descriptors on pipes (files from 100 on) of the three processes *)
Definition pipes_in (t : table) : list (Z * N) :=
  flat_map (fun n => match t (Z.of_nat n) with Some (f, _) => if (100 <=? f)%N then [(Z.of_nat n, f)] else [] | None => [] end) (seq 0 1024).
Definition ex_holders : option (list (Z * N) * list (Z * N) * list (Z * N)) :=
  match open_pipes 1024 true true true true true 100 (table_of ex_list) with
  | Some (s, u) =>
      match child_setup 1024 true ex_pairs 4 true s u with
      | Some (s', _, u') => Some (pipes_in (snd (parent_result true true true s u)), pipes_in (at_start s' u'), pipes_in (init_table s' u'))
      | None => None
      end
  | None => None
  end.
Lemma ex_holders_are : ex_holders =
  Some ([(11, 103%N); (12, 104%N); (14, 106%N)],
        [(0, 102%N); (1, 105%N); (2, 107%N); (8, 100%N)],
        [(0, 102%N); (1, 105%N); (2, 107%N)]).
Proof. vm_compute. reflexivity. Qed.
Lemma holders_case : exists t st' elf' t', started 1024 true true true true true 100 ex_pairs 4 (table_of ex_list) ex_st t /\
  child_setup 1024 true ex_pairs 4 true ex_st t = Some (st', elf', t') /\ valid_children 1024 ex_pairs /\ std_open (table_of ex_list).
Proof.
  destruct ex_started as (t & S). destruct ex_children as [ND VC]. destruct (setup_ok _ _ _ _ _ _ _ _ _ _ _ _ S true ND VC) as (st' & elf' & t' & H).
  exists t, st', elf', t'. split; [exact S|]. split; [exact H|]. split; [exact VC|]. split; [|split]; discriminate.
Qed.
(* and without closing descriptors: 3 is open in the launcher, close-on-exec *)
Definition ex_cloexec : list (Z * (N * bool)) := [(0, (10%N, false)); (1, (11%N, false)); (2, (12%N, false)); (3, (13%N, true))].
Lemma inherits_case : exists st t st' elf' t', started 1024 true false true false true 100 [] (-1) (table_of ex_cloexec) st t /\
  child_setup 1024 false [] (-1) true st t = Some (st', elf', t') /\
  holds (table_of ex_cloexec) 3 13 /\ ~ In 3 (wanted []) /\ ~ In 3 (map fst (@nil (Z * Z))) /\ ~ piped false true false 3.
Proof.
  assert (B : startedb 1024 true false true false true 100 [] (-1) ex_cloexec = true) by (vm_compute; reflexivity).
  apply startedb_ok in B. destruct B as (st & t & S & O).
  destruct (setup_ok _ _ _ _ _ _ _ _ _ _ _ _ S false (NoDup_nil _) ltac:(intros c [])) as (st' & elf' & t' & H).
  exists st, t, st', elf', t'. split; [exact S|]. split; [exact H|]. split; [exists true; reflexivity|]. split; [intros []|]. split; [intros []|].
  unfold piped. lia.
Qed.
Lemma waits_case : exists t, started 1024 true true true true true 100 ex_pairs 4 (table_of ex_list) ex_st t /\
  exists st2 elf' t3, child_redirects 1024 true ex_pairs 4 ex_st t = Some (st2, elf', t3).
Proof.
  destruct ex_started as (t & S). exists t. split; [exact S|]. destruct ex_children as [ND VC].
  destruct (setup_ok _ _ _ _ _ _ _ _ _ _ _ _ S true ND VC) as (st' & elf' & t' & H). rewrite redirects_middle.
  destruct (middle_of _ _ _ _ _ _ _ _ _ _ H) as (st2 & t3 & M & _). exists st2, elf', t3. exact M.
Qed.

(* namespaces 5 and 6 to enter; 7 is passed on as 3 *)
Definition ex_ns : list (Z * (N * bool)) :=
  [(0, (10%N, false)); (1, (11%N, false)); (2, (12%N, false)); (5, (15%N, true)); (6, (16%N, true)); (7, (17%N, false))].
Lemma ns_case ca : exists st t st' elf' t',
  started 1024 true false true false true 100 (entry_pairs ca true 5 true 6 [(7, 3)]) (-1) (table_of ex_ns) st t /\
  child_setup 1024 ca (entry_pairs ca true 5 true 6 [(7, 3)]) (-1) true st t = Some (st', elf', t') /\
  (length [(7, 3)] + 2 <= 128)%nat /\ holds (table_of ex_ns) 5 15 /\ holds (table_of ex_ns) 6 16 /\
  ~ piped false true false 5 /\ ~ piped false true false 6 /\ ~ In 5 (map fst [(7, 3)]) /\ ~ In 5 (wanted [(7, 3)]).
Proof.
  assert (B : startedb 1024 true false true false true 100 (entry_pairs ca true 5 true 6 [(7, 3)]) (-1) ex_ns = true) by (destruct ca; vm_compute; reflexivity).
  apply startedb_ok in B. destruct B as (st & t & S & O).
  assert (C : NoDup (wanted (entry_pairs ca true 5 true 6 [(7, 3)]))) by (destruct ca; repeat constructor; cbn; intuition discriminate).
  assert (D : forall c, In c (wanted (entry_pairs ca true 5 true 6 [(7, 3)])) -> 0 <= c < 1024) by (destruct ca; cbn; lia).
  destruct (setup_ok _ _ _ _ _ _ _ _ _ _ _ _ S ca C D) as (st' & elf' & t' & H).
  exists st, t, st', elf', t'. split; [exact S|]. split; [exact H|]. split; [cbn; lia|]. split; [exists true; reflexivity|]. split; [exists true; reflexivity|].
  unfold piped. split; [lia|]. split; [lia|]. split; cbn; intuition discriminate.
Qed.
Lemma lost_case : forall pairs (v : option (N * bool)),
  startedb 1024 false false false false false 100 (entry_pairs false true 5 false 0 pairs) (-1) ex_ns = true ->
  NoDup (wanted pairs) -> (forall c, In c (wanted pairs) -> 0 <= c < 1024) ->
  match open_pipes 1024 false false false false false 100 (table_of ex_ns) with
  | Some (s, u) => match child_setup 1024 false pairs (-1) false s u with Some (s', e, u') => u' 5 | None => None end | None => None end = v ->
  exists lim base pairs t0 st t st' elf' t' mountns,
  let passed := entry_pairs false true mountns false 0 pairs in
  started lim false false false false false base passed (-1) t0 st t /\ NoDup (wanted passed) /\ valid_children lim passed /\ std_open t0 /\
  child_setup lim false passed (-1) false st t = Some (st', elf', t') /\
  holds t0 mountns 15 /\ t' mountns = v.
Proof.
  intros pairs v B C D Q. apply startedb_ok in B. destruct B as (st & t & S & O). cbn [entry_pairs] in S.
  destruct (setup_ok _ _ _ _ _ _ _ _ _ _ _ _ S false C D) as (st' & elf' & t' & H).
  exists 1024, 100%N, pairs, (table_of ex_ns), st, t, st', elf', t', 5. cbn [entry_pairs]. split; [exact S|]. split; [exact C|]. split; [exact D|].
  split; [split; [|split]; discriminate|]. split; [exact H|]. split; [exists true; reflexivity|]. rewrite O, H in Q. exact Q.
Qed.
Lemma passed_on_lost : exists lim base pairs t0 st t st' elf' t' mountns,
  let passed := entry_pairs false true mountns false 0 pairs in
  started lim false false false false false base passed (-1) t0 st t /\ NoDup (wanted passed) /\ valid_children lim passed /\ std_open t0 /\
  child_setup lim false passed (-1) false st t = Some (st', elf', t') /\
  holds t0 mountns 15 /\ t' mountns = None.
Proof.
  apply (lost_case [(5, 8)]); [vm_compute; reflexivity|repeat constructor; intros []|cbn; lia|vm_compute; reflexivity].
Qed.
Lemma other_namespace : exists lim base pairs t0 st t st' elf' t' mountns,
  let passed := entry_pairs false true mountns false 0 pairs in
  started lim false false false false false base passed (-1) t0 st t /\ NoDup (wanted passed) /\ valid_children lim passed /\ std_open t0 /\
  child_setup lim false passed (-1) false st t = Some (st', elf', t') /\
  holds t0 mountns 15 /\ t' mountns = Some (16%N, false).
Proof.
  apply (lost_case [(6, 5)]); [vm_compute; reflexivity|repeat constructor; intros []|cbn; lia|vm_compute; reflexivity].
Qed.
