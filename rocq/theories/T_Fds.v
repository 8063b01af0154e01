(* C37, C38, C54: the descriptors of a program that was run.
   [t0] is the parent's table; [started] says that the parent opened its pipes,
   numbered base, base+1 (configuration), base+2, base+3 (stdin: read, write),
   base+4, base+5 (stdout), base+6, base+7 (stderr), base+8, base+9
   (synchronization).  [at_start st' t'] is the table of the new program. *)
From Verif Require Import P_FdsEx.
Local Open Scope Z_scope.

(* ---- C37: descriptors arrive at the numbers asked for ---- *)
Theorem C37_descriptors_arrive : forall lim preload sin sout serr sync base pairs elf t0 st t close_all,
  started lim preload sin sout serr sync base pairs elf t0 st t -> NoDup (wanted pairs) -> valid_children lim pairs ->
  exists st' elf' t', child_setup lim close_all pairs elf sync st t = Some (st', elf', t') /\
    forall p c f, In (p, c) pairs -> holds t0 p f -> ~ piped sin sout serr c -> at_start st' t' c = Some (f, false).
Proof. exact fds_arrive. Qed.
Print Assumptions C37_descriptors_arrive.
Example C37_case : (exists t, started 1024 true true true true true 100 ex_pairs 4 (table_of ex_list) ex_st t) /\
  NoDup (wanted ex_pairs) /\ valid_children 1024 ex_pairs.
Proof. split; [exact ex_started|exact ex_children]. Qed.
Example C37_outcome : ex_result true =
  [(0, Some (102%N, false)); (1, Some (105%N, false)); (2, Some (107%N, false)); (3, Some (17%N, false)); (4, None);
   (5, Some (16%N, false)); (6, Some (15%N, false)); (7, None);
   (8, Some (100%N, false)); (9, Some (12%N, false)); (10, None); (11, None); (12, None)].
Proof. exact ex_outcome. Qed.
(* two descriptors for one number: the child dies *)
Theorem C37_duplicates_die : forall lim close_all pairs elf sync st t,
  ~ NoDup (wanted pairs) -> child_setup lim close_all pairs elf sync st t = None.
Proof. exact no_duplicates. Qed.
Print Assumptions C37_duplicates_die.
Example C37_duplicates_case : ~ NoDup (wanted [(5, 6); (7, 8); (9, 6)]).
Proof. intros N. inversion N as [|? ? I _]. apply I. right. left. reflexivity. Qed.
(* the configuration pipe and the program file survive the redirections *)
Theorem C37_config_pipe_kept : forall lim preload sin sout serr sync base pairs elf t0 st t close_all st' elf' t',
  started lim preload sin sout serr sync base pairs elf t0 st t ->
  child_setup lim close_all pairs elf sync st t = Some (st', elf', t') ->
  valid_children lim pairs -> std_open t0 -> preload = true ->
  at_start st' t' (fst (rs_pipe st')) = Some (base, false) /\
  (~ In (fst (rs_pipe st)) (wanted pairs) -> fst (rs_pipe st') = fst (rs_pipe st)).
Proof. exact fds_config. Qed.
Print Assumptions C37_config_pipe_kept.
Theorem C37_program_kept : forall lim preload sin sout serr sync base pairs elf t0 st t close_all st' elf' t' f,
  started lim preload sin sout serr sync base pairs elf t0 st t ->
  child_setup lim close_all pairs elf sync st t = Some (st', elf', t') ->
  valid_children lim pairs -> std_open t0 -> ~ In elf (map fst pairs) -> ~ In elf [0; 1; 2] ->
  holds t0 elf f -> holds (before_exec st' t') elf' f.
Proof. exact fds_program. Qed.
Print Assumptions C37_program_kept.
Example C37_kept_case : std_open (table_of ex_list) /\ ~ In 4 (map fst ex_pairs) /\ ~ In 4 [0; 1; 2] /\ holds (table_of ex_list) 4 14 /\
  ~ In (fst (rs_pipe ex_st)) (wanted ex_pairs).
Proof. split; [split; [|split]; discriminate|]. split; [cbn; intuition discriminate|]. split; [cbn; intuition discriminate|]. split; [exists true; reflexivity|cbn; intuition discriminate]. Qed.
(* False in general: the preload library is told a number before the pipe is
   moved out of the way of a descriptor asked for; it then reads the jail from
   that file. *)
Theorem C37_announced_number_refuted : exists lim base pairs t0 st t st' elf' t',
  started lim true false false false false base pairs (-1) t0 st t /\
  NoDup (wanted pairs) /\ valid_children lim pairs /\ std_open t0 /\
  child_setup lim true pairs (-1) false st t = Some (st', elf', t') /\
  exists f, (f < base)%N /\ at_start st' t' (fst (rs_pipe st)) = Some (f, false).
Proof. exact announced_lost. Qed.
Print Assumptions C37_announced_number_refuted.
(* Also false: a program given as a descriptor that is passed on under another
   number is closed before it can be executed. *)
Theorem C37_program_descriptor_refuted : exists lim base pairs elf t0 st t st' elf' t' f,
  started lim false false false false false base pairs elf t0 st t /\
  NoDup (wanted pairs) /\ valid_children lim pairs /\ std_open t0 /\
  child_setup lim false pairs elf false st t = Some (st', elf', t') /\
  holds t0 elf f /\ before_exec st' t' elf' = None.
Proof. exact program_lost. Qed.
Print Assumptions C37_program_descriptor_refuted.

(* ---- C38: standard streams ----
   Missing from the full statement: parents with a closed standard stream,
   refuted below. *)
Theorem C38_streams_partial : forall lim preload sin sout serr sync base pairs elf t0 st t close_all st' elf' t',
  started lim preload sin sout serr sync base pairs elf t0 st t ->
  child_setup lim close_all pairs elf sync st t = Some (st', elf', t') ->
  valid_children lim pairs -> std_open t0 ->
  (sin = true -> at_start st' t' 0 = Some ((base + 2)%N, false)) /\
  (sout = true -> at_start st' t' 1 = Some ((base + 5)%N, false)) /\
  (serr = true -> at_start st' t' 2 = Some ((base + 7)%N, false)).
Proof. exact fds_streams. Qed.
Print Assumptions C38_streams_partial.
Example C38_case : (exists t, started 1024 true true true true true 100 ex_pairs 4 (table_of ex_list) ex_st t) /\
  valid_children 1024 ex_pairs /\ std_open (table_of ex_list).
Proof. split; [exact ex_started|]. split; [exact (proj2 ex_children)|]. split; [|split]; discriminate. Qed.
(* the caller gets the other ends, and keeps no other pipe *)
Theorem C38_returned_ends : forall lim preload sin sout serr sync base pairs elf t0 st t,
  started lim preload sin sout serr sync base pairs elf t0 st t ->
  let '((i, o, e), u) := parent_result sin sout serr st t in
  (sin = true -> u i = Some ((base + 3)%N, false)) /\ (sout = true -> u o = Some ((base + 4)%N, false)) /\
  (serr = true -> u e = Some ((base + 6)%N, false)) /\
  (forall x, u x = t0 x \/ (sin = true /\ x = i) \/ (sout = true /\ x = o) \/ (serr = true /\ x = e)).
Proof. exact parent_ok. Qed.
Print Assumptions C38_returned_ends.
Theorem C38_low_descriptors_refuted : exists lim base t0 st t st' elf' t',
  started lim false true true true false base [] (-1) t0 st t /\
  child_setup lim false [] (-1) false st t = Some (st', elf', t') /\
  at_start st' t' 0 = None.
Proof. exact stdin_lost. Qed.
Print Assumptions C38_low_descriptors_refuted.

(* ---- C54: nothing else survives ----
   Every descriptor of the new program is one asked for, a connected stream,
   the program file (unless close-on-exec), the read end of the configuration
   pipe, or, without close_open_fds, one the parent had under that number. *)
Theorem C54_only_intended : forall lim preload sin sout serr sync base pairs elf t0 st t close_all st' elf' t' x f,
  started lim preload sin sout serr sync base pairs elf t0 st t ->
  child_setup lim close_all pairs elf sync st t = Some (st', elf', t') ->
  holds (at_start st' t') x f ->
  (exists p, In (p, x) pairs /\ holds t0 p f) \/
  (piped sin sout serr x /\ (f = base + 2 \/ f = base + 5 \/ f = base + 7)%N) \/
  (x = elf' /\ elf <> -1 /\ holds t0 elf f) \/
  (preload = true /\ x = fst (rs_pipe st') /\ f = base) \/
  (close_all = false /\ holds t0 x f).
Proof. exact fds_only. Qed.
Print Assumptions C54_only_intended.
Example C54_case : (exists t, started 1024 true true true true true 100 ex_pairs 4 (table_of ex_list) ex_st t) /\
  (* 0, 1, 2: streams; 3, 5, 6, 9: asked for; 8: configuration *)
  map fst (filter (fun p => match snd p with Some _ => true | None => false end) (ex_result true)) = [0; 1; 2; 3; 5; 6; 8; 9].
Proof. split; [exact ex_started|]. rewrite ex_outcome. reflexivity. Qed.
(* the array for the numbers kept is large enough (at most 128 can be asked for) *)
Theorem C54_array_fits : forall st pairs elf,
  (length pairs <= 128)%nat -> (length (inheritable_fds st pairs elf) <= 11 + 128)%nat.
Proof. exact array_fits. Qed.
Print Assumptions C54_array_fits.
Example C54_array_case : length (inheritable_fds ex_st ex_pairs 4) = 15%nat.
Proof. reflexivity. Qed.
