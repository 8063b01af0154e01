(* Model of waiting for a jailed program and of the init process of a pid
   namespace.  libminijail.c:2996-3021, 4103-4169; <sys/wait.h>. *)
From Coq Require Export ZArith NArith List Bool.
Export ListNotations.
Local Open Scope N_scope.

(* glibc <bits/waitstatus.h>, on the int a wait call stores *)
Definition WTERMSIG (st : N) : N := N.land st 127.
Definition WEXITSTATUS (st : N) : N := N.shiftr (N.land st 65280) 8.
Definition WIFEXITED (st : N) : bool := WTERMSIG st =? 0.
(* ((signed char)((st & 0x7f) + 1) >> 1) > 0 *)
Definition WIFSIGNALED (st : N) : bool := (1 <=? WTERMSIG st) && (WTERMSIG st <=? 126).

Definition MINIJAIL_ERR_SIG_BASE : N := 128.
Definition MINIJAIL_ERR_JAIL : N := 253.
Definition MINIJAIL_ERR_INIT : N := 254.
Definition EINTR : N := 4.
Definition ECHILD : N := 10.

(* 4114-4141, the part after the loop: what a wait status is reported as.
   [sigsys] is SIGSYS (31 on most architectures, 12 on MIPS).  The logging is
   left out. *)
Definition report (sigsys st : N) : Z :=
  if negb (WIFEXITED st)
  then if negb (WIFSIGNALED st) then Z.of_N st
       else let signum := WTERMSIG st in
            if signum =? sigsys then Z.of_N MINIJAIL_ERR_JAIL else Z.of_N (MINIJAIL_ERR_SIG_BASE + signum)
  else Z.of_N (WEXITSTATUS st).

(* What a system call answers: an error number, or a value. *)
Definition answer (A : Type) : Type := (N + A)%type.

(* The outcome of a call that waits. *)
Inductive waited := Returns (v : Z) | Blocked.

(* 4103-4153 minijail_wait_internal; the answers of waitpid, in order.
   [Blocked]: they ran out, the call has not returned. *)
Fixpoint wait_loop (sigsys : N) (answers : list (answer N)) : waited :=
  match answers with
  | [] => Blocked
  | inl e :: t => if negb (e =? EINTR) then Returns (- Z.of_N e) else wait_loop sigsys t
  | inr st :: _ => Returns (report sigsys st)
  end.
Definition minijail_wait_internal (sigsys : N) (initpid : Z) (answers : list (answer N)) : waited :=
  if (initpid <=? 0)%Z then Returns (- Z.of_N ECHILD) else wait_loop sigsys answers.
(* 4166-4169 *)
Definition minijail_wait := minijail_wait_internal.
(* 4155-4164; [k] is the answer of kill *)
Definition minijail_kill (sigsys : N) (initpid : Z) (k : answer unit) (answers : list (answer N)) : waited :=
  if (initpid <=? 0)%Z then Returns (- Z.of_N ECHILD)
  else match k with inl e => Returns (- Z.of_N e) | inr _ => minijail_wait_internal sigsys initpid answers end.

(* ---- init, 2996-3021 ---- *)
(* What happens to the init process: wait returns a child's pid and status,
   wait fails, or the handler for SIGTERM runs. *)
Inductive init_event := Reaped (pid st : N) | WaitFails (e : N) | Terminate.
(* _exit(n) makes n & 0xff the exit code *)
Definition exit_code (n : N) : N := N.land n 255.
Inductive inited := Exits (code : N) | Running.
(* 2998-3021 init_term and init; [st] is init_exitstatus *)
Fixpoint init_loop (rootpid st : N) (evs : list init_event) : inited :=
  match evs with
  | [] => Running
  | Terminate :: _ => Exits (exit_code st)
  | Reaped pid s :: t => init_loop rootpid (if pid =? rootpid then s else st) t
  | WaitFails _ :: _ => Exits (exit_code (if negb (WIFEXITED st) then MINIJAIL_ERR_INIT else WEXITSTATUS st))
  end.
Definition init (rootpid : N) (evs : list init_event) : inited := init_loop rootpid 0 evs.
