(* Model of what minijail does with signals: forwarding them to the child
   (libminijail.c:2728-2761, 3794-3797), the jailed program's mask and
   dispositions (3872-3893; signal_handler.c:60-82), the init process
   (2996-3008), SIGPIPE while the jail is sent (3820-3867).
   Simplifications: the launcher has one thread; sigprocmask and sigemptyset
   work; a signal that is not blocked is delivered at once. *)
From Verif Require Export M_Run.
From Verif Require M_Pipe.
Local Open Scope N_scope.

(* signal(7), x86 and ARM *)
Definition SIGKILL : N := 9.
Definition SIGPIPE : N := 13.
Definition SIGTERM : N := 15.
Definition SIGCHLD : N := 17.
Definition SIGSTOP : N := 19.
Definition SIGSYS : N := 31.
Definition NSIG : N := 65.

(* minijail's handlers and those of the calling program *)
Inductive handler := Forward | Log_sigsys | Init_term | Mine (n : N).
Inductive disposition := Default | Ignored | Handled (h : handler).
(* The signal state of a process, and libminijail's variable forward_pid
   (2728; None: -1). *)
Record signals := Signals { sig_action : N -> disposition; blocked : N -> bool; forward_pid : option N }.

Definition upd {A} (f : N -> A) (n : N) (x : A) : N -> A := fun m => if m =? n then x else f m.
Definition range (a b : N) : list N := map N.of_nat (seq (N.to_nat a) (N.to_nat (b + 1 - a))).

Section Kernel.
(* the error of sigaction(2) and signal(2) for a number *)
Variable refuses : N -> option N.
Variables SIGRTMIN SIGRTMAX : N.

(* sigaction(2) *)
Definition set_action (n : N) (d : disposition) (s : signals) : signals :=
  match refuses n with
  | None => Signals (upd (sig_action s) n d) (blocked s) (forward_pid s)
  | Some _ => s
  end.
(* 2738-2761 *)
Definition install_signal_handlers (s : signals) : signals :=
  let s := fold_left (fun s n => set_action n (Handled Forward) s) (range 1 (NSIG - 1)) s in
  let s := set_action SIGCHLD Default s in
  fold_left (fun s n => set_action n (Handled Forward) s) (range SIGRTMIN SIGRTMAX) s.
(* 3794-3797 *)
Definition forward_to (j : jail) (pid : N) (s : signals) : signals :=
  if hasf F_forward_signals j then install_signal_handlers (Signals (sig_action s) (blocked s) (Some pid)) else s.
(* 2730-2736: the kill(2)s made when a signal is delivered *)
Definition handle (s : signals) (sig : N) : list (N * N) :=
  match sig_action s sig, forward_pid s with
  | Handled Forward, Some pid => [(pid, sig)]
  | _, _ => []
  end.

(* ---- The child, 3872-3893 ---- *)
Fixpoint reset_handlers (l : list N) (s : signals) : option signals :=
  match l with
  | [] => Some s
  | n :: l => match refuses n with
              | None => reset_handlers l (set_action n Default s)
              | Some e => if e =? 22 (* EINVAL *) then reset_handlers l s else None
              end
  end.
(* None: the child died *)
Definition child_signals (j : jail) (s : signals) : option signals :=
  let s := if hasf F_reset_signal_mask j then Signals (sig_action s) (fun _ => false) (forward_pid s) else s in
  if hasf F_reset_signal_handlers j then reset_handlers (range 0 SIGRTMAX) s else Some s.
(* minijail_enter's calls about SIGSYS (libminijail.c:2687, 2697;
   signal_handler.c:60-82) *)
Definition entered (t : list event) (s : signals) : signals :=
  fold_left (fun s ev => match ev with
    | (C_sigsys_handler, Yes _ _) => let s := set_action SIGSYS (Handled Log_sigsys) s in Signals (sig_action s) (upd (blocked s) SIGSYS false) (forward_pid s)
    | (C_sigsys_default, Yes _ _) => set_action SIGSYS Default s
    | _ => s
    end) t s.
(* execve(2): handlers are gone, the rest stays *)
Definition exec_signals (s : signals) : signals :=
  Signals (fun n => match sig_action s n with Ignored => Ignored | _ => Default end) (blocked s) None.
(* 3008 *)
Definition init_signals (s : signals) : signals := set_action SIGTERM (Handled Init_term) s.

(* What a signal does to a process. *)
Inductive reaction := Nothing | Runs (h : handler) | By_default.
Definition react (s : signals) (n : N) : reaction :=
  match sig_action s n with Ignored => Nothing | Handled h => Runs h | Default => By_default end.
(* ... to the init of a pid namespace, from outside (pid_namespaces(7)) *)
Definition react_init (s : signals) (n : N) : reaction :=
  match react s n with By_default => if (n =? SIGKILL) || (n =? SIGSTOP) then By_default else Nothing | r => r end.

(* ---- The launcher ---- *)
(* A jail is started as process [who] with the number [pid], a signal is
   delivered to the launcher, the launcher changes a disposition itself, waits
   for a child, or some process gets a number. *)
Inductive levent := Launch (j : jail) (pid who : N) | Arrives (sig : N) | Sets (sig : N) (d : disposition) | Reaps (pid : N) | Born (pid who : N).
Record lproc := Launcher { l_signals : signals; l_processes : N -> option N }.
(* the signals sent: number, signal, and the process that has the number *)
Definition lstep (l : lproc) (e : levent) : lproc * list (N * N * option N) :=
  match e with
  | Launch j pid who => (Launcher (forward_to j pid (l_signals l)) (upd (l_processes l) pid (Some who)), [])
  | Arrives sig => (l, map (fun p => (p, l_processes l (fst p))) (handle (l_signals l) sig))
  | Sets sig d => (Launcher (set_action sig d (l_signals l)) (l_processes l), [])
  | Reaps pid => (Launcher (l_signals l) (upd (l_processes l) pid None), [])
  | Born pid who => (Launcher (l_signals l) (upd (l_processes l) pid (Some who)), [])
  end.
Fixpoint lrun (l : lproc) (es : list levent) : lproc * list (N * N * option N) :=
  match es with
  | [] => (l, [])
  | e :: es => let '(l, o) := lstep l e in let '(l, o') := lrun l es in (l, (o ++ o')%list)
  end.
End Kernel.

(* ---- Sending the jail, 3820-3867 ---- *)
(* What is left to do: block SIGPIPE, the write(2)s with the kernel's answers,
   sigtimedwait until there is no SIGPIPE, restore the mask. *)
Inductive phase := Blocking | Writing (l : list M_Pipe.answer) | Accepting | Restoring | Sent.
(* A pending SIGPIPE from one of these writes, one from elsewhere; the SIGPIPEs
   delivered (true: from one of these writes). *)
Record sending := Sending { s_phase : phase; s_mask : N -> bool; s_saved : N -> bool; pend_own : bool; pend_other : bool; s_delivered : list bool }.
Definition EPIPE : Z := 32.
(* what the kernel does with pending SIGPIPEs once they are not blocked *)
Definition deliver (s : sending) : sending :=
  if s_mask s SIGPIPE then s
  else Sending (s_phase s) (s_mask s) (s_saved s) false false
         (s_delivered s ++ (if pend_own s then [true] else []) ++ (if pend_other s then [false] else []))%list.
(* the number counts SIGPIPEs sent by someone else *)
Inductive sstep (answers : list M_Pipe.answer) : nat -> sending -> sending -> Prop :=
  (* someone else sends SIGPIPE *)
  | s_other ph m sv o p d : sstep answers 1 (Sending ph m sv o p d) (deliver (Sending ph m sv o true d))
  (* 3830-3836 *)
  | s_block m sv o p d : sstep answers 0 (Sending Blocking m sv o p d) (Sending (Writing answers) (upd m SIGPIPE true) m o p d)
  (* 3838-3841: a write to a pipe without readers raises SIGPIPE *)
  | s_write a l m sv o p d : sstep answers 0 (Sending (Writing (a :: l)) m sv o p d)
      (deliver (Sending (Writing l) m sv (match a with M_Pipe.Fail e => if (e =? EPIPE)%Z then true else o | _ => o end) p d))
  | s_written m sv o p d : sstep answers 0 (Sending (Writing []) m sv o p d) (Sending Accepting m sv o p d)
  (* 3843-3856: sigtimedwait takes the pending signal, is interrupted, or says
     that there is none *)
  | s_accept m sv o p d : o || p = true -> sstep answers 0 (Sending Accepting m sv o p d) (Sending Accepting m sv false false d)
  | s_interrupted m sv o p d : sstep answers 0 (Sending Accepting m sv o p d) (Sending Accepting m sv o p d)
  | s_none m sv d : sstep answers 0 (Sending Accepting m sv false false d) (Sending Restoring m sv false false d)
  (* 3858-3860 *)
  | s_restore m sv o p d : sstep answers 0 (Sending Restoring m sv o p d) (deliver (Sending Sent sv sv o p d)).
Inductive ssteps (answers : list M_Pipe.answer) : nat -> sending -> sending -> Prop :=
  | ss_refl s : ssteps answers 0 s s
  | ss_step n m s s1 s2 : ssteps answers n s s1 -> sstep answers m s1 s2 -> ssteps answers (n + m) s s2.
(* 3862-3866: the signal for the child after minijail_to_fd returned rc *)
Definition kill_after (rc : Z) : option N := if (rc =? 0)%Z then None else Some SIGKILL.
