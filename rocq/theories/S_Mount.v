(* What it means that the configured mounts were performed. *)
From Verif Require Export S_Trace S_Jail M_Enter.
Local Open Scope N_scope.

(* Successful calls, in this order, other calls in between. *)
Fixpoint did (cs : list call) (t : list event) : Prop :=
  match cs with
  | [] => True
  | c :: r => exists t1 v s t2, t = t1 ++ (c, Yes v s) :: t2 /\ did r t2
  end.

(* Where a destination is before the root changes: below the new root; but a
   path in /dev goes to the temporary directory holding the new /dev, if there
   is one. *)
Definition lands (root : string) (dev : option string) (dest target : string) : Prop :=
  match dev with
  | None => target = (root ++ dest)%string
  | Some d =>
      (exists r, dest = ("/dev/" ++ r)%string /\ target = (d ++ "/" ++ r)%string) \/
      ((forall r, dest <> ("/dev/" ++ r)%string) /\ target = (root ++ dest)%string)
  end.

(* The user-visible flags kept when a bind mount is remounted: nosuid, nodev,
   noexec, noatime, nodiratime, relatime (2, 4, 8, 1024, 2048, 2097152). *)
Definition kept_flags (fl : N) : N := N.land fl 2100238.

(* The mount(2) call for an entry; for a bind made with minijail_bind the
   kernel ignores the read-only flag of the first call, so if the source's
   read-only flag (1) differs from the requested one a second call changes it. *)
Definition performed (root : string) (dev : option string) (m : mountpoint) (t : list event) : Prop :=
  exists target, lands root dev (m_dest m) target /\
  let first := C_mount (Some (m_src m)) target (Some (m_type m)) (m_flags m) (m_data m) in
  did [first] t /\
  (m_type m = "minijail_bind"%string -> N.testbit (m_flags m) 12 = true -> N.testbit (m_flags m) 5 = false ->
   exists fl s, In (C_statvfs (m_src m), Yes fl s) t /\
     (N.testbit fl 0 <> N.testbit (m_flags m) 0 ->
      did [first; C_mount (Some (m_src m)) target None (N.lor (N.lor (m_flags m) (kept_flags fl)) 32) (m_data m)] t)).

Inductive mounted (root : string) (dev : option string) : list mountpoint -> list event -> Prop :=
  | mt_nil t : mounted root dev [] t
  | mt_cons m ms t1 t2 : performed root dev m t1 -> mounted root dev ms t2 -> mounted root dev (m :: ms) (t1 ++ t2).

(* The two checks on a bind source whose failure the code does not report: the
   flags of the source's mount could not be read, or the source was refused
   because of symbolic links. *)
Definition unchecked (e : kenv) (m : mountpoint) (t : list event) : Prop :=
  N.testbit (m_flags m) 12 = true /\ N.testbit (m_flags m) 5 = false /\
  ((m_type m = "minijail_bind"%string /\ exists errno, In (C_statvfs (m_src m), No errno) t) \/
   (k_block_symlinks e = true /\
    exists x, In (C_realpath (m_src m), x) t /\
    is_valid_bind_path e (m_src m) (match x with Yes _ rp => Some rp | No _ => None end) = BVal false)).

(* The directory for the new /dev, if one was asked for. *)
Definition dev_dir (j : jail) (t : list event) (dev : option string) : Prop :=
  if hasf F_mount_dev j
  then exists v d, dev = Some d /\ In (C_mkdtemp "/tmp/minijail.dev.XXXXXX", Yes v d) t
  else dev = None.
