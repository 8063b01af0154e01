(* Programs that talk to the kernel: a tree of calls, run against a kernel
   whose answer to each call may depend on everything that happened before.
   This is the language the functions of libminijail.c:1930-2993 and system.c
   are modelled in. *)
From Verif Require Export M_Jail.
Local Open Scope N_scope.

(* How open(2) is used: O_DIRECTORY|O_PATH, O_DIRECTORY|O_RDONLY, O_PATH,
   O_RDWR|O_CREAT with mode 0700 (all with O_CLOEXEC). *)
Inductive how := DirPath | DirRead | PathOnly | Create.

(* The calls to the kernel and to libc/libcap functions that have an effect or
   an answer of their own.  Descriptors are Z (a jail may hold -1). *)
Inductive call :=
  | C_last_cap                                   (* read /proc/sys/kernel/cap_last_cap *)
  | C_setns (fd : Z) (ns : N) | C_unshare (ns : N) | C_close (fd : Z)
  | C_mount (src : option string) (dest : string) (type : option string) (flags : N) (data : option string)
  | C_umount (path : string)                     (* umount2(path, MNT_DETACH) *)
  | C_sethostname (name : string) | C_socket | C_get_lo (fd : Z) | C_set_lo_up (fd : Z)
  | C_keyring                                    (* keyctl(JOIN_SESSION_KEYRING) *)
  | C_mkdtemp (template : string) | C_rmdir (path : string) | C_umask (m : N)
  | C_open (path : string) (h : how)
  | C_mknodat (fd : Z) (name : string) (mode : N) (major minor : N)
  | C_symlinkat (target : string) (fd : Z) (name : string) | C_mkdirat (fd : Z) (name : string) (mode : N)
  | C_stat (path : string) | C_fstat (fd : Z)    (* answer: st_mode *)
  | C_mkdir (path : string) (mode : N) | C_chown (path : string) (uid gid : N)
  | C_statvfs (path : string)                    (* answer: f_flag *)
  | C_realpath (path : string)                   (* answer: the resolved path *)
  | C_chroot (path : string) | C_chdir (path : string) | C_fchdir (fd : Z)
  | C_pivot_root (new_root put_old : string)
  | C_hook (h : hook)                            (* a callback of the caller; Yes: it returned 0 *)
  | C_capbset_drop (cap : N) | C_get_securebits | C_set_securebits (bits : N)
  | C_capget | C_cap_flag (cap : N)              (* libcap: cap_get_proc, cap_set_flag *)
  | C_capset (effective permitted inheritable : N)
  | C_ambient_is_set | C_ambient_clear | C_ambient_raise (cap : N)
  | C_initgroups (user : string) (gid : N) | C_setgroups (gids : list N)
  | C_setresgid (gid : N) | C_setresuid (uid : N)      (* the same value three times *)
  | C_no_new_privs
  | C_landlock_version | C_landlock_add (ruleset parent : Z) (access : N) | C_landlock_restrict (ruleset : Z)
  | C_sigsys_handler | C_sigsys_default
  | C_seccomp (flags : N) (prog : option (list instr))   (* seccomp(SET_MODE_FILTER) *)
  | C_prctl_seccomp (prog : option (list instr))         (* prctl(PR_SET_SECCOMP, FILTER) *)
  | C_seccomp_strict | C_alt_syscall (table : string).

(* The call worked, with a value and a string where it has one; or it failed
   with this errno (never 0). *)
Inductive answer := Yes (v : N) (s : string) | No (errno : positive).
Definition is_err (errno : positive) (e : Z) : bool := (Z.pos errno =? e)%Z.

(* A program: finished; died (die, pdie, _exit); undefined behaviour; a call
   and what follows each answer. *)
Inductive io (A : Type) :=
  | Pure (a : A) | Abort | Undef | Ask (c : call) (k : answer -> io A).
Arguments Pure {A} a.
Arguments Abort {A}.
Arguments Undef {A}.
Arguments Ask {A} c k.

Fixpoint bind {A B} (p : io A) (f : A -> io B) : io B :=
  match p with
  | Pure a => f a
  | Abort => Abort
  | Undef => Undef
  | Ask c k => Ask c (fun x => bind (k x) f)
  end.
Declare Scope io_scope.
Delimit Scope io_scope with io.
Notation "x <- p ;; q" := (bind p (fun x => q)) (at level 61, p at next level, right associativity) : io_scope.
Notation "p ;; q" := (bind p (fun _ => q)) (at level 61, right associativity) : io_scope.

Definition ask (c : call) : io answer := Ask c Pure.
(* if (call) die: the call must work *)
Definition must (c : call) : io unit :=
  Ask c (fun x => match x with Yes _ _ => Pure tt | No _ => Abort end).
(* the call, its result ignored *)
Definition try (c : call) : io unit := Ask c (fun _ => Pure tt).
(* the call as an expression: 0 or -1 *)
Definition rc (c : call) : io Z :=
  Ask c (fun x => match x with Yes _ _ => Pure 0%Z | No _ => Pure (-1)%Z end).
(* if (call) return -errno; *)
Definition neg_errno (c : call) : io Z :=
  Ask c (fun x => match x with Yes _ _ => Pure 0%Z | No e => Pure (Z.neg e) end).
Definition when (b : bool) (p : io unit) : io unit := if b then p else Pure tt.
Local Open Scope io_scope.
(* the next step, unless this one returned non-zero *)
Definition andthen (p q : io Z) : io Z := r <- p;; if (r =? 0)%Z then q else Pure r.
(* if (f()) die *)
Definition zero_or_die (p : io Z) : io unit := r <- p;; if (r =? 0)%Z then Pure tt else Abort.

(* Reading through a pointer member of the jail. *)
Definition deref {A B} (c : cell A) (f : option A -> io B) : io B :=
  match c with Null => f None | Own a => f (Some a) | Freed | Wild => Undef end.

(* ---- Running ---- *)
Definition event : Type := call * answer.
Inductive outcome (A : Type) := Returned (a : A) | Died | Undefined.
Arguments Returned {A} a.
Arguments Died {A}.
Arguments Undefined {A}.

(* [past] is everything the process did before, oldest first. *)
Fixpoint run {A} (kernel : list event -> call -> answer) (past : list event) (p : io A)
  : outcome A * list event :=
  match p with
  | Pure a => (Returned a, [])
  | Abort => (Died, [])
  | Undef => (Undefined, [])
  | Ask c k =>
      let x := kernel past c in
      let (o, t) := run kernel (past ++ [(c, x)])%list (k x) in
      (o, (c, x) :: t)
  end.
