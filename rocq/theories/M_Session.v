(* Model of the end of setup_child_std_fds: the session of the jailed program.
   libminijail.c:3384-3411.  The descriptors are those of M_Fds.
   Simplifications: [tty_of] says which terminal an open file is, so that
   isatty(3) is exact; the child is not the leader of its process group (it was
   just forked), so setsid(2) works unless the kernel refuses it anyway
   ([allowed]). *)
From Verif Require Export M_Fds M_Jail.
Local Open Scope N_scope.

(* A process's session: whether it leads one of its own, and the controlling
   terminal (credentials(7), setsid(2)). *)
Record session := Session { own_session : bool; terminal : option N }.

Section Kernel.
Variable tty_of : N -> option N.
(* terminals that are the controlling terminal of some session *)
Variable controls : N -> bool.
(* isatty(3) *)
Definition tty (t : table) (fd : Z) : option N := match t fd with Some (f, _) => tty_of f | None => None end.
Definition isatty (t : table) (fd : Z) : bool := match tty t fd with Some _ => true | None => false end.
(* setsid(2) *)
Definition setsid (allowed : bool) (s : session) : option session := if allowed then Some (Session true None) else None.
(* ioctl(fd, TIOCSCTTY, 0), ioctl_tty(2): a session leader without a terminal
   gets this one, unless another session has it *)
Definition take_terminal (t : table) (fd : Z) (s : session) : session :=
  match tty t fd, own_session s, terminal s with
  | Some x, true, None => if controls x then s else Session true (Some x)
  | _, _, _ => s
  end.

(* 3384-3411; None: the child died *)
Definition new_session (allowed : bool) (j : jail) (t : table) (s : session) : option session :=
  if negb (hasf F_enable_new_sessions j) && hasf F_pids j then None
  else if hasf F_enable_new_sessions j && (hasf F_setsid j || isatty t 0 || isatty t 1 || isatty t 2)
       then match setsid allowed s with
            | None => None
            | Some s => Some (if isatty t 0 then take_terminal t 0 s else s)
            end
       else Some s.
End Kernel.
