(* C68: the session and the terminal of the jailed program.
   [t0] is the launcher's table of descriptors, [t] the one with its pipes,
   [u] the child's; [at_start st' u] is the program's.  [s0] is the session
   of the launcher, [s1] that of the program; [tty_of f] is the terminal that
   an open file is; [controls x]: terminal [x] belongs to some session, as the
   launcher's does. *)
From Verif Require Import P_SessionEx.
Local Open Scope N_scope.

(* With a terminal as one of its standard streams, or when asked, the program
   is in a session of its own; its controlling terminal, if any, is its own
   standard input and not one that was in use. *)
Theorem C68_own_session : forall lim preload sin sout serr sync base pairs elf t0 st t close_all st' elf' u,
  started lim preload sin sout serr sync base pairs elf t0 st t ->
  child_setup lim close_all pairs elf sync st t = Some (st', elf', u) ->
  forall tty_of controls allowed e h j s0 s1,
  history e minijail_new h j -> new_session tty_of controls allowed j u s0 = Some s1 ->
  new_sessions h = true -> turned_on F_setsid h \/ on_terminal tty_of (at_start st' u) ->
  own_session s1 = true /\ (forall x, terminal s1 = Some x -> controls x = false /\ exists f, holds u 0 f /\ tty_of f = Some x) /\
  (forall x, terminal s0 = Some x -> controls x = true -> terminal s1 <> Some x).
Proof.
  intros lim preload sin sout serr sync base pairs elf t0 st t close_all st' elf' u _ _ tty_of controls allowed e h j s0 s1 H R N A.
  exact (session_apart tty_of controls allowed e h j H st' u s0 s1 R N A).
Qed.
Print Assumptions C68_own_session.
Example C68_case : exists st t st' elf' u,
  started 1024 false false false false false 100 [] (-1) (table_of at_tty) st t /\
  child_setup 1024 false [] (-1) false st t = Some (st', elf', u) /\
  history ex_env minijail_new [] minijail_new /\
  new_session ex_tty ex_controls true minijail_new u (Session false (Some 7)) = Some (Session true None) /\
  new_sessions [] = true /\ on_terminal ex_tty (at_start st' u) /\ ex_controls 7 = true.
Proof.
  destruct plain_tty as (A & B & C). do 5 eexists. split; [exact A|]. split; [exact B|]. split; [constructor|]. split; [vm_compute; reflexivity|].
  split; [reflexivity|]. split; [exact C|reflexivity].
Qed.
(* a terminal that no session had becomes the program's *)
Example C68_takes_terminal :
  new_session ex_tty (fun _ => false) true minijail_new (table_of at_tty) (Session false None) = Some (Session true (Some 7)).
Proof. vm_compute. reflexivity. Qed.

(* Otherwise the program stays in the launcher's session. *)
Theorem C68_kept : forall tty_of controls allowed e h j t s0 s1,
  history e minijail_new h j -> new_session tty_of controls allowed j t s0 = Some s1 ->
  new_sessions h = false \/ (~ turned_on F_setsid h /\ forall c f, In c [0; 1; 2]%Z -> holds t c f -> tty_of f = None) -> s1 = s0.
Proof. intros tty_of controls allowed e h j t s0 s1 H R. exact (session_kept tty_of controls allowed e h j H t s0 s1 R). Qed.
Print Assumptions C68_kept.
(* Without new sessions no program starts in a pid namespace. *)
Theorem C68_pid_namespace : forall tty_of controls allowed e h j t s0 s1,
  history e minijail_new h j -> new_session tty_of controls allowed j t s0 = Some s1 -> new_sessions h = false -> ~ turned_on F_pids h.
Proof. intros tty_of controls allowed e h j t s0 s1 H R. exact (session_pids tty_of controls allowed e h j H t s0 s1 R). Qed.
Print Assumptions C68_pid_namespace.
Example C68_kept_case : exists j, history ex_env minijail_new [(A_set_enable_new_sessions false, 0%Z)] j /\
  new_session ex_tty ex_controls true j (table_of at_tty) (Session false (Some 7)) = Some (Session false (Some 7)) /\
  new_sessions [(A_set_enable_new_sessions false, 0%Z)] = false.
Proof. eexists. split; [econstructor; [reflexivity|constructor]|]. split; [vm_compute|]; reflexivity. Qed.

(* minijail0 makes new sessions unless --no-new-sessions is given. *)
Theorem C68_minijail0 : forall w pre opts args s, let L := all_options w opts in
  minijail0 w pre opts args = Go s -> well_formed w L ->
  forall st u tty_of controls allowed s0 s1, new_session tty_of controls allowed (c_jail (st_cli s)) u s0 = Some s1 ->
  (~ has L OPT_NO_NEW_SESSIONS -> on_terminal tty_of (at_start st u) ->
   own_session s1 = true /\ forall x, terminal s0 = Some x -> controls x = true -> terminal s1 <> Some x) /\
  (has L OPT_NO_NEW_SESSIONS -> s1 = s0 /\ forall n, In n (map short ["p"; "I"; "U"; "m"; "M"]%char) -> ~ has L n).
Proof. intros w pre opts args s L E W. exact (cli_session w pre opts args s E W). Qed.
Print Assumptions C68_minijail0.
Example C68_minijail0_case :
  minijail0 ex_world "/lib/p.so" tty_opts ["/bin/app"%string] = Go (start_of tty_opts "/bin/app") /\ well_formed ex_world (all_options ex_world tty_opts) /\
  new_session ex_tty ex_controls true (c_jail (st_cli (start_of tty_opts "/bin/app"))) (snd (plain_child at_tty)) (Session false (Some 7)) = Some (Session true None) /\
  on_terminal ex_tty (at_start (fst (plain_child at_tty)) (snd (plain_child at_tty))).
Proof. split; [exact tty_goes|]. split; [exact tty_formed|]. split; [vm_compute; reflexivity|exact (proj2 (proj2 plain_tty))]. Qed.
Example C68_minijail0_keep_case :
  minijail0 ex_world "/lib/p.so" keep_opts ["/bin/app"%string] = Go (start_of keep_opts "/bin/app") /\ well_formed ex_world (all_options ex_world keep_opts) /\
  new_session ex_tty ex_controls true (c_jail (st_cli (start_of keep_opts "/bin/app"))) (snd (plain_child at_tty)) (Session false (Some 7)) = Some (Session false (Some 7)) /\
  has (all_options ex_world keep_opts) OPT_NO_NEW_SESSIONS.
Proof. split; [exact keep_goes|]. split; [exact keep_formed|]. split; [vm_compute; reflexivity|]. exists None. right. left. reflexivity. Qed.

(* False: a jailed program never shares the launcher's controlling terminal
   when new sessions are enabled.  Only its standard streams are looked at: when
   they are files it keeps the terminal, which it can open as /dev/tty. *)
Theorem C68_terminal_refuted : exists st t st' elf' u j s1,
  started 1024 false false false false false 100 [] (-1) (table_of at_files) st t /\
  child_setup 1024 false [] (-1) false st t = Some (st', elf', u) /\
  history ex_env minijail_new [] j /\ new_sessions [] = true /\
  new_session ex_tty ex_controls true j u (Session false (Some 7)) = Some s1 /\ ex_controls 7 = true /\ terminal s1 = Some 7.
Proof.
  destruct plain_files as (A & B). do 7 eexists. split; [exact A|]. split; [exact B|]. split; [constructor|]. split; [reflexivity|].
  split; [vm_compute; reflexivity|]. split; reflexivity.
Qed.
Print Assumptions C68_terminal_refuted.
