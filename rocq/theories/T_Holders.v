(* C73: who holds the ends of the pipes of a run, and so who sees their end.
   C74: where the descriptors of namespaces to enter go.
   Files: base, base+1 are the ends (reading, writing) of the configuration
   pipe, then stdin (2, 3), stdout (4, 5), stderr (6, 7) and synchronization
   (8, 9).  [parent_result] gives the numbers returned to the launcher and its
   table, [at_start st' t'] is the table of the program, [init_table st' t'] that
   of the init process provided in a new pid namespace. *)
From Verif Require Import P_HoldersEx.
Local Open Scope Z_scope.

(* ---- C73 ----
   Missing from the full statement: launchers with a closed standard stream
   (see C38_low_descriptors_refuted), and other processes forked by the
   launcher at the same time. *)
Theorem C73_ends_partial : forall lim preload sin sout serr sync base pairs elf t0 st t close_all st' elf' t',
  started lim preload sin sout serr sync base pairs elf t0 st t ->
  child_setup lim close_all pairs elf sync st t = Some (st', elf', t') ->
  valid_children lim pairs -> std_open t0 ->
  let '((i, o, e), u) := parent_result sin sout serr st t in
  let g := at_start st' t' in
  (* stdin: the launcher writes, the program reads *)
  (only_at u (base + 3) i /\ lacks g (base + 3)) /\ (lacks u (base + 2) /\ only_at g (base + 2) 0) /\
  (* stdout, stderr: the program writes, the launcher reads *)
  (lacks u (base + 5) /\ only_at g (base + 5) 1) /\ (only_at u (base + 4) o /\ lacks g (base + 4)) /\
  (lacks u (base + 7) /\ only_at g (base + 7) 2) /\ (only_at u (base + 6) e /\ lacks g (base + 6)) /\
  (* configuration: the launcher has written, the library in the program reads *)
  (lacks u (base + 1) /\ lacks g (base + 1)) /\ (lacks u base /\ only_at g base (fst (rs_pipe st'))) /\
  (* synchronization: over *)
  (lacks u (base + 8) /\ lacks g (base + 8)) /\ (lacks u (base + 9) /\ lacks g (base + 9)).
Proof. exact who_holds. Qed.
Print Assumptions C73_ends_partial.
Example C73_case : exists t st' elf' t', started 1024 true true true true true 100 ex_pairs 4 (table_of ex_list) ex_st t /\
  child_setup 1024 true ex_pairs 4 true ex_st t = Some (st', elf', t') /\ valid_children 1024 ex_pairs /\ std_open (table_of ex_list).
Proof. exact holders_case. Qed.
(* the pipes held there by launcher, program and init *)
Example C73_outcome : ex_holders =
  Some ([(11, 103%N); (12, 104%N); (14, 106%N)],
        [(0, 102%N); (1, 105%N); (2, 107%N); (8, 100%N)],
        [(0, 102%N); (1, 105%N); (2, 107%N)]).
Proof. exact ex_holders_are. Qed.

(* When the launcher closes its end of stdin the program reads its end; when it
   closes its ends of stdout and stderr, writing fails.  With or without init. *)
Theorem C73_launcher_closes : forall lim preload sin sout serr sync base pairs elf t0 st t close_all st' elf' t',
  started lim preload sin sout serr sync base pairs elf t0 st t ->
  child_setup lim close_all pairs elf sync st t = Some (st', elf', t') ->
  valid_children lim pairs -> std_open t0 ->
  let '((i, o, e), u) := parent_result sin sout serr st t in
  released [close u i; init_table st' t'; at_start st' t'] (base + 3) /\
  released [close u o; init_table st' t'; at_start st' t'] (base + 4) /\
  released [close u e; init_table st' t'; at_start st' t'] (base + 6).
Proof. exact input_ends. Qed.
Print Assumptions C73_launcher_closes.

(* When the program closes its streams and no init was provided, the launcher
   sees it. *)
Theorem C73_program_closes : forall lim preload sin sout serr sync base pairs elf t0 st t close_all st' elf' t',
  started lim preload sin sout serr sync base pairs elf t0 st t ->
  child_setup lim close_all pairs elf sync st t = Some (st', elf', t') ->
  valid_children lim pairs -> std_open t0 ->
  let u := snd (parent_result sin sout serr st t) in let g := at_start st' t' in
  released [u; close g 1] (base + 5) /\ released [u; close g 2] (base + 7) /\ released [u; close g 0] (base + 2).
Proof. exact output_ends. Qed.
Print Assumptions C73_program_closes.

(* Nobody keeps an end that would make the library wait for ever: neither the
   writing end of the configuration pipe nor the synchronization pipe. *)
Theorem C73_library_ends : forall lim preload sin sout serr sync base pairs elf t0 st t close_all st' elf' t',
  started lim preload sin sout serr sync base pairs elf t0 st t ->
  child_setup lim close_all pairs elf sync st t = Some (st', elf', t') ->
  valid_children lim pairs -> std_open t0 ->
  let u := snd (parent_result sin sout serr st t) in
  forall f, f = (base + 1)%N \/ f = (base + 8)%N \/ f = (base + 9)%N -> released [u; init_table st' t'; at_start st' t'] f.
Proof. exact library_ends. Qed.
Print Assumptions C73_library_ends.
(* The child does not wait for itself: while it waits for the launcher it has no
   writing end of the synchronization pipe, whatever descriptors are passed on. *)
Theorem C73_child_waits : forall lim preload sin sout serr sync base pairs elf t0 st t close_all st2 elf' t3,
  started lim preload sin sout serr sync base pairs elf t0 st t ->
  child_redirects lim close_all pairs elf st t = Some (st2, elf', t3) -> lacks (waiting st2 t3) (base + 9).
Proof. exact child_waits. Qed.
Print Assumptions C73_child_waits.
Example C73_waits_case : exists t, started 1024 true true true true true 100 ex_pairs 4 (table_of ex_list) ex_st t /\
  exists st2 elf' t3, child_redirects 1024 true ex_pairs 4 ex_st t = Some (st2, elf', t3).
Proof. exact waits_case. Qed.

(* False with the provided init: it keeps the program's ends, so that the
   launcher does not see the end of the program's output, nor that nobody reads
   its input, before the last process of the namespace has gone. *)
Theorem C73_end_of_output_refuted : forall lim preload sin sout serr sync base pairs elf t0 st t close_all st' elf' t',
  started lim preload sin sout serr sync base pairs elf t0 st t ->
  child_setup lim close_all pairs elf sync st t = Some (st', elf', t') ->
  valid_children lim pairs -> std_open t0 ->
  forall others, let ps := init_table st' t' :: others in
  (sout = true -> ~ released ps (base + 5)) /\ (serr = true -> ~ released ps (base + 7)) /\ (sin = true -> ~ released ps (base + 2)).
Proof. exact init_no_end. Qed.
Print Assumptions C73_end_of_output_refuted.
(* It also keeps the launcher's descriptors, those marked close-on-exec
   included, unless close_open_fds was asked for. *)
Theorem C73_init_inherits : forall lim preload sin sout serr sync base pairs elf t0 st t st' elf' t' x f,
  started lim preload sin sout serr sync base pairs elf t0 st t ->
  child_setup lim false pairs elf sync st t = Some (st', elf', t') ->
  holds t0 x f -> ~ In x (wanted pairs) -> ~ In x (map fst pairs) -> ~ piped sin sout serr x -> holds (init_table st' t') x f.
Proof. exact init_inherits. Qed.
Print Assumptions C73_init_inherits.
Example C73_inherits_case : exists st t st' elf' t', started 1024 true false true false true 100 [] (-1) (table_of ex_cloexec) st t /\
  child_setup 1024 false [] (-1) true st t = Some (st', elf', t') /\
  holds (table_of ex_cloexec) 3 13 /\ ~ In 3 (wanted []) /\ ~ In 3 (map fst (@nil (Z * Z))) /\ ~ piped false true false 3.
Proof. exact inherits_case. Qed.

(* ---- C74: entering namespaces ----
   The descriptors still name the namespaces given when the child enters them,
   however descriptors are passed on; without close_open_fds as long as they are
   not passed on themselves, nor their numbers asked for (refuted below). *)
Theorem C74_reach_partial : forall lim preload sin sout serr sync base pairs elf t0 st t close_all st' elf' t' enter_vfs mountns enter_net netns,
  let passed := entry_pairs close_all enter_vfs mountns enter_net netns pairs in
  started lim preload sin sout serr sync base passed elf t0 st t ->
  child_setup lim close_all passed elf sync st t = Some (st', elf', t') ->
  (length pairs + 2 <= 128)%nat -> 0 <= mountns -> 0 <= netns ->
  forall x f, (enter_vfs = true /\ x = mountns) \/ (enter_net = true /\ x = netns) ->
  holds t0 x f -> ~ piped sin sout serr x ->
  close_all = true \/ (~ In x (map fst pairs) /\ ~ In x (wanted pairs)) -> holds t' x f.
Proof. exact reaches_setns. Qed.
Print Assumptions C74_reach_partial.
Example C74_case : forall close_all, exists st t st' elf' t',
  started 1024 true false true false true 100 (entry_pairs close_all true 5 true 6 [(7, 3)]) (-1) (table_of ex_ns) st t /\
  child_setup 1024 close_all (entry_pairs close_all true 5 true 6 [(7, 3)]) (-1) true st t = Some (st', elf', t') /\
  (length [(7, 3)] + 2 <= 128)%nat /\ holds (table_of ex_ns) 5 15 /\ holds (table_of ex_ns) 6 16 /\
  ~ piped false true false 5 /\ ~ piped false true false 6 /\ ~ In 5 (map fst [(7, 3)]) /\ ~ In 5 (wanted [(7, 3)]).
Proof. exact ns_case. Qed.
(* The program does not get them, nor anything else because of them. *)
Theorem C74_not_left : forall lim preload sin sout serr sync base pairs elf t0 st t close_all st' elf' t' enter_vfs mountns enter_net netns,
  let passed := entry_pairs close_all enter_vfs mountns enter_net netns pairs in
  started lim preload sin sout serr sync base passed elf t0 st t ->
  child_setup lim close_all passed elf sync st t = Some (st', elf', t') ->
  forall x f, holds (in_program enter_vfs mountns enter_net netns st' t') x f ->
  ~ (enter_vfs = true /\ x = mountns) /\ ~ (enter_net = true /\ x = netns) /\
  ((exists p, In (p, x) pairs /\ holds t0 p f) \/
   (piped sin sout serr x /\ (f = base + 2 \/ f = base + 5 \/ f = base + 7)%N) \/
   (x = elf' /\ elf <> -1 /\ holds t0 elf f) \/
   (preload = true /\ x = fst (rs_pipe st') /\ f = base) \/
   (close_all = false /\ holds t0 x f)).
Proof. exact not_left. Qed.
Print Assumptions C74_not_left.
(* With close_open_fds, another descriptor asked for under the number of the
   namespace: nothing is run. *)
Theorem C74_number_taken : forall lim pairs p elf sync st t mountns enter_net netns,
  In (p, mountns) pairs -> 0 <= mountns -> (length pairs < 128)%nat ->
  child_setup lim true (entry_pairs true true mountns enter_net netns pairs) elf sync st t = None.
Proof. exact number_taken. Qed.
Print Assumptions C74_number_taken.
Example C74_taken_case : In (6, 5) [(7, 3); (6, 5)] /\ (length [(7, 3); (6, 5)] < 128)%nat.
Proof. split; [right; left; reflexivity|repeat constructor]. Qed.
(* Without it the child enters the namespace of that descriptor instead. *)
Theorem C74_other_namespace_refuted : exists lim base pairs t0 st t st' elf' t' mountns,
  let passed := entry_pairs false true mountns false 0 pairs in
  started lim false false false false false base passed (-1) t0 st t /\ NoDup (wanted passed) /\ valid_children lim passed /\ std_open t0 /\
  child_setup lim false passed (-1) false st t = Some (st', elf', t') /\
  holds t0 mountns 15 /\ t' mountns = Some (16%N, false).
Proof. exact other_namespace. Qed.
Print Assumptions C74_other_namespace_refuted.
(* And a namespace that is passed on as well, under another number, is closed
   before it can be entered. *)
Theorem C74_passed_on_refuted : exists lim base pairs t0 st t st' elf' t' mountns,
  let passed := entry_pairs false true mountns false 0 pairs in
  started lim false false false false false base passed (-1) t0 st t /\ NoDup (wanted passed) /\ valid_children lim passed /\ std_open t0 /\
  child_setup lim false passed (-1) false st t = Some (st', elf', t') /\
  holds t0 mountns 15 /\ t' mountns = None.
Proof. exact passed_on_lost. Qed.
Print Assumptions C74_passed_on_refuted.
