(* The credentials of a process and what the kernel calls do to them
   (credentials(7), capabilities(7), prctl(2)).  A call that fails changes
   nothing. *)
From Verif Require Export S_Trace.
Local Open Scope N_scope.

Record creds := Creds {
  ruid : N; euid : N; suid : N; rgid : N; egid : N; sgid : N; groups : list N;
  effective : N; permitted : N; inheritable : N; bounding : N; ambient : N;   (* sets of capabilities *)
  securebits : N; nnp : bool
}.
Definition uids (s : creds) := (ruid s, euid s, suid s).
Definition gids (s : creds) := (rgid s, egid s, sgid s).
(* The capability sets after all three uids become [u]: unless
   NO_SETUID_FIXUP (bit 2) is set, leaving uid 0 drops the permitted and
   effective sets, except with KEEP_CAPS (bit 4), and the ambient set; changing
   the effective uid clears or refills the effective set. *)
Definition setuid_caps (u : N) (s : creds) : N * N * N :=
  if N.testbit (securebits s) 2 then (effective s, permitted s, ambient s)
  else
    let leaves_root := ((ruid s =? 0) || (euid s =? 0) || (suid s =? 0)) && negb (u =? 0) in
    let p := if leaves_root && negb (N.testbit (securebits s) 4) then 0 else permitted s in
    let e := if leaves_root && negb (N.testbit (securebits s) 4) then 0 else effective s in
    let a := if leaves_root then 0 else ambient s in
    let e := if (euid s =? 0) && negb (u =? 0) then 0
             else if negb (euid s =? 0) && (u =? 0) then p else e in
    (e, p, a).
(* The id that setresuid(2) and setresgid(2) take for "leave it as it is":
   (uid_t)-1. *)
Definition NO_ID : N := 4294967295.
Definition to_id (u : N) (old : N * N * N) : N * N * N := if u =? NO_ID then old else (u, u, u).
Section Effects.
(* the group database; what the caller's hooks do *)
Variable groups_of : string -> N -> list N.
Variable hook_effect : hook -> creds -> creds.
Definition effect (c : call) (s : creds) : creds :=
  match c with
  | C_setresuid u =>
      if u =? NO_ID then s else
      let '(e, p, a) := setuid_caps u s in
      Creds u u u (rgid s) (egid s) (sgid s) (groups s) e p (inheritable s) (bounding s) a (securebits s) (nnp s)
  | C_setresgid g =>
      if g =? NO_ID then s else
      Creds (ruid s) (euid s) (suid s) g g g (groups s) (effective s) (permitted s) (inheritable s) (bounding s)
        (ambient s) (securebits s) (nnp s)
  | C_setgroups l =>
      Creds (ruid s) (euid s) (suid s) (rgid s) (egid s) (sgid s) l (effective s) (permitted s) (inheritable s)
        (bounding s) (ambient s) (securebits s) (nnp s)
  | C_initgroups u g =>
      Creds (ruid s) (euid s) (suid s) (rgid s) (egid s) (sgid s) (groups_of u g) (effective s) (permitted s)
        (inheritable s) (bounding s) (ambient s) (securebits s) (nnp s)
  | C_capset e p i =>
      Creds (ruid s) (euid s) (suid s) (rgid s) (egid s) (sgid s) (groups s) e p i (bounding s)
        (N.land (ambient s) (N.land p i)) (securebits s) (nnp s)
  | C_capbset_drop c =>
      Creds (ruid s) (euid s) (suid s) (rgid s) (egid s) (sgid s) (groups s) (effective s) (permitted s)
        (inheritable s) (N.clearbit (bounding s) c) (ambient s) (securebits s) (nnp s)
  | C_set_securebits b =>
      Creds (ruid s) (euid s) (suid s) (rgid s) (egid s) (sgid s) (groups s) (effective s) (permitted s)
        (inheritable s) (bounding s) (ambient s) b (nnp s)
  | C_ambient_clear =>
      Creds (ruid s) (euid s) (suid s) (rgid s) (egid s) (sgid s) (groups s) (effective s) (permitted s)
        (inheritable s) (bounding s) 0 (securebits s) (nnp s)
  | C_ambient_raise c =>
      Creds (ruid s) (euid s) (suid s) (rgid s) (egid s) (sgid s) (groups s) (effective s) (permitted s)
        (inheritable s) (bounding s) (N.setbit (ambient s) c) (securebits s) (nnp s)
  | C_no_new_privs =>
      Creds (ruid s) (euid s) (suid s) (rgid s) (egid s) (sgid s) (groups s) (effective s) (permitted s)
        (inheritable s) (bounding s) (ambient s) (securebits s) true
  | C_hook h => hook_effect h s
  | _ => s
  end.
Definition after_event (s : creds) (ev : event) : creds :=
  match ev with (c, Yes _ _) => effect c s | (_, No _) => s end.
Definition after (s : creds) (t : list event) : creds := fold_left after_event t s.
End Effects.
