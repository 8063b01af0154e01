(* C44: creation of directories and mount destinations.  [F], [F']: the tree
   of files before and after; [kernel] chooses which calls fail. *)
From Verif Require Import M_Enter S_Dirs P_Dirs.
Local Open Scope N_scope.

(* mkdir_p: what existed is untouched; what is new is a directory on the way to
   the path; on success everything on the way (and the path itself, if asked)
   exists, on failure the error of a call is reported.  Partial: what exists on
   success need not be a directory, see below. *)
Theorem C44_mkdir_p_partial : forall kernel past cwd path mode isdir r t F F',
  run kernel past (mkdir_p path mode isdir) = (Returned r, t) -> happens cwd F t F' -> rooted F ->
  (forall q, there F q -> F' q = F q) /\
  (forall q, ~ there F q -> there F' q -> within q (at_path cwd path) /\ dir_of mode F' q) /\
  (r = 0%Z -> (isdir = true -> there F' (at_path cwd path)) /\
              forall s u, s <> ""%string -> path = (s ++ String "/" u)%string -> there F' (at_path cwd s)) /\
  (r <> 0%Z -> exists p e, In (C_mkdir p mode, No e) t /\ r = Z.neg e).
Proof. exact mkdir_p_spec. Qed.
Print Assumptions C44_mkdir_p_partial.
(* A file in place of the directory counts as success. *)
Theorem C44_directory_refuted : exists kernel path t F F',
  run kernel [] (mkdir_p path 493 true) = (Returned 0%Z, t) /\ happens [] F t F' /\ rooted F /\ ~ is_dir F' (at_path [] path).
Proof. exact file_taken. Qed.
Print Assumptions C44_directory_refuted.

(* setup_mount_destination: what existed is untouched, the destination exists
   on success, and a new one is a directory exactly if the source asks for one. *)
Theorem C44_destination : forall kernel past cwd source dest uid gid bind r t F F',
  run kernel past (setup_mount_destination source dest uid gid bind) = (Returned r, t) -> happens cwd F t F' -> rooted F ->
  (forall q, there F q -> F' q = F q) /\
  (forall q, ~ there F q -> there F' q -> within q (at_path cwd dest) /\ (q <> at_path cwd dest \/ is_dir F' q -> dir_of 0x1ed F' q)) /\
  (r = 0%Z -> there F' (at_path cwd dest)) /\
  (r = 0%Z -> ~ there F (at_path cwd dest) -> (is_dir F' (at_path cwd dest) <-> wants_dir cwd F source bind)).
Proof. exact destination_spec. Qed.
Print Assumptions C44_destination.
(* A new destination is given to the user and group asked for. *)
Theorem C44_owner : forall kernel past cwd source dest uid gid bind t F F',
  run kernel past (setup_mount_destination source dest uid gid bind) = (Returned 0%Z, t) -> happens cwd F t F' ->
  ~ there F (at_path cwd dest) -> exists v s, In (C_chown dest uid gid, Yes v s) t.
Proof. exact destination_owner. Qed.
Print Assumptions C44_owner.
(* A file is bound on a destination that does not exist yet, two levels down. *)
Example C44_case : exists kernel t F F', run kernel [] (setup_mount_destination "/file" "/a/b" 0 0 true) = (Returned 0%Z, t) /\
  happens [] F t F' /\ rooted F /\ ~ there F ["a"; "b"]%string /\ is_dir F' ["a"%string] /\ there F' ["a"; "b"]%string /\ ~ is_dir F' ["a"; "b"]%string.
Proof. exact bind_case. Qed.
