(* Model of how minijail_run arranges file descriptors:
   libminijail.c:300-306 and 3134-3395, and the parts of 3628-4101 that use
   them.  Simplifications: a descriptor table is a function; opendir(3) of
   /proc/self/fd works and lists every open descriptor; the descriptor warn()
   may open for a moment is left out; ttys and sessions (3384-3411) are in
   M_Session.  None means the process died. *)
From Verif Require Export M_CStr.
Local Open Scope Z_scope.

(* An open file and its close-on-exec flag, for each open descriptor. *)
Definition table : Type := Z -> option (N * bool).
Definition is_open (t : table) (fd : Z) : bool := match t fd with Some _ => true | None => false end.
Definition upd (t : table) (fd : Z) (v : option (N * bool)) : table := fun x => if x =? fd then v else t x.
(* dup2(2); [lim] is RLIMIT_NOFILE *)
Definition dup2 (lim : Z) (t : table) (old new : Z) : option table :=
  match t old with
  | None => None
  | Some (f, _) => if (0 <=? new) && (new <? lim) then Some (if old =? new then t else upd t new (Some (f, false)))
                   else None
  end.
Definition close (t : table) (fd : Z) : table := upd t fd None.

(* 3176-3191; [pairs] are the (parent, child) numbers of j->preserved_fds *)
Definition is_preserved_child_fd (pairs : list (Z * Z)) (fd : Z) (max : nat) : bool :=
  existsb (fun p => snd p =? fd) (firstn max pairs).

(* 3207-3217: the highest number from fd down to 0 that is neither *)
Fixpoint unused_fd (pairs : list (Z * Z)) (t : table) (n : nat) : option Z :=   (* n = fd + 1 *)
  match n with
  | O => None
  | S n' => let fd := Z.of_nat n' in
            if is_preserved_child_fd pairs fd (length pairs) || is_open t fd then unused_fd pairs t n' else Some fd
  end.
(* 3193-3229; the result is the new parent_fd *)
Definition ensure_no_fd_conflict (lim : Z) (pairs : list (Z * Z)) (t : table) (child parent : Z) (max : nat)
  : option (Z * table) :=
  if negb (is_preserved_child_fd pairs parent max) then Some (parent, t)
  else
    match (if (child =? -1) || is_open t child then unused_fd pairs t 1024 else Some child) with
    | None => None
    | Some fd => match dup2 lim t parent fd with Some t' => Some (fd, t') | None => None end
    end.

(* 3235-3251.  [done]: the pairs already treated *)
Fixpoint prepare_preserved_fds (lim : Z) (t : table) (done todo : list (Z * Z)) : option (list (Z * Z) * table) :=
  match todo with
  | [] => Some (done, t)
  | (parent, child) :: rest =>
      let pairs := (done ++ todo)%list in
      let i := length done in
      if is_preserved_child_fd pairs child i then None
      else match ensure_no_fd_conflict lim pairs t child parent i with
           | None => None
           | Some (parent', t') => prepare_preserved_fds lim t' (done ++ [(parent', child)])%list rest
           end
  end.

(* 3253-3264: the pipes; -1 for a missing end *)
Record run_state := RunState { rs_pipe : Z * Z; rs_sync : Z * Z; rs_in : Z * Z; rs_out : Z * Z; rs_err : Z * Z }.
(* 3266-3289 *)
Definition move_end (lim : Z) (pairs : list (Z * Z)) (fd : Z) (t : table) : option (Z * table) :=
  if fd =? -1 then Some (-1, t) else ensure_no_fd_conflict lim pairs t (-1) fd (length pairs).
Definition move_pipe (lim : Z) (pairs : list (Z * Z)) (p : Z * Z) (t : table) : option ((Z * Z) * table) :=
  match move_end lim pairs (fst p) t with
  | None => None
  | Some (a, t) => match move_end lim pairs (snd p) t with None => None | Some (b, t) => Some ((a, b), t) end
  end.
Fixpoint move_pipes (lim : Z) (pairs : list (Z * Z)) (l : list (Z * Z)) (t : table) : option (list (Z * Z) * table) :=
  match l with
  | [] => Some ([], t)
  | p :: r =>
      match move_pipe lim pairs p t with
      | None => None
      | Some (q, t) => match move_pipes lim pairs r t with None => None | Some (qs, t) => Some (q :: qs, t) end
      end
  end.
Definition pipes_of (st : run_state) : list (Z * Z) := [rs_pipe st; rs_sync st; rs_in st; rs_out st; rs_err st].
Definition avoid_pipe_conflicts (lim : Z) (pairs : list (Z * Z)) (st : run_state) (t : table)
  : option (run_state * table) :=
  match move_pipes lim pairs (pipes_of st) t with
  | Some ([a; b; c; d; e], t) => Some (RunState a b c d e, t)
  | _ => None
  end.

(* 3291-3339 *)
Fixpoint redirect_each (lim : Z) (l : list (Z * Z)) (t : table) : option table :=
  match l with
  | [] => Some t
  | (parent, child) :: r =>
      if parent =? child
      then redirect_each lim r (match t child with Some (f, true) => upd t child (Some (f, false)) | _ => t end)
      else match dup2 lim t parent child with None => None | Some t => redirect_each lim r t end
  end.
Fixpoint close_parents (pairs l : list (Z * Z)) (t : table) : table :=
  match l with
  | [] => t
  | (parent, _) :: r =>
      close_parents pairs r (if is_preserved_child_fd pairs parent (length pairs) then t else close t parent)
  end.
Definition redirect_fds (lim : Z) (pairs : list (Z * Z)) (t : table) : option table :=
  match redirect_each lim pairs t with None => None | Some t => Some (close_parents pairs pairs t) end.

(* 300-306 *)
Definition close_and_reset (t : table) (fd : Z) : table := if fd =? -1 then t else close t fd.
Definition close_pair (p : Z * Z) (t : table) : table := close_and_reset (close_and_reset t (fst p)) (snd p).

(* 3357-3385; the pipes are reset to -1 by the caller below *)
Fixpoint connect_std (lim : Z) (l : list (Z * Z)) (t : table) : option table :=
  match l with
  | [] => Some t
  | (from, to) :: r =>
      if (from =? -1) || (from =? to) then connect_std lim r t
      else match dup2 lim t from to with None => None | Some t => connect_std lim r t end
  end.
Definition setup_child_std_fds (lim : Z) (st : run_state) (t : table) : option (run_state * table) :=
  match connect_std lim [(fst (rs_in st), 0); (snd (rs_out st), 1); (snd (rs_err st), 2)] t with
  | None => None
  | Some t => Some (RunState (rs_pipe st) (rs_sync st) (-1, -1) (-1, -1) (-1, -1),
                    close_pair (rs_err st) (close_pair (rs_out st) (close_pair (rs_in st) t)))
  end.

(* 3134-3168 *)
Definition close_open_fds (inheritable : list Z) (t : table) : table :=
  fun fd => if existsb (Z.eqb fd) inheritable then t fd else None.
(* 3896-3940; the array inheritable_fds has 11 + MAX_PRESERVED_FDS entries;
   [pairs] has the namespace descriptors of 3921-3924 (see entry_pairs) *)
Definition inheritable_fds (st : run_state) (pairs : list (Z * Z)) (elf : Z) : list Z :=
  (filter (fun fd => negb (fd =? -1)) (flat_map (fun p => [fst p; snd p]) (pipes_of st))
   ++ map fst pairs ++ (if -1 <? elf then [elf] else []))%list.

(* 3896-3956: the descriptors of the child until it waits for the parent *)
Definition child_redirects (lim : Z) (close_all : bool) (pairs : list (Z * Z)) (elf : Z)
  (st : run_state) (t : table) : option (run_state * Z * table) :=
  let t := if close_all then close_open_fds (inheritable_fds st pairs elf) t else t in
  match prepare_preserved_fds lim t [] pairs with
  | None => None
  | Some (pairs, t) =>
      match avoid_pipe_conflicts lim pairs st t with
      | None => None
      | Some (st, t) =>
          match (if elf =? -1 then Some (elf, t)
                 else ensure_no_fd_conflict lim pairs t (-1) elf (length pairs)) with
          | None => None
          | Some (elf, t) => match redirect_fds lim pairs t with None => None | Some t => Some (st, elf, t) end
          end
      end
  end.
(* 2473: the table with which the child waits *)
Definition waiting (st : run_state) (t : table) : table := close_and_reset t (snd (rs_sync st)).
(* 3896-3964: the descriptors of the child until setup_child_std_fds. *)
Definition child_setup (lim : Z) (close_all : bool) (pairs : list (Z * Z)) (elf : Z) (sync : bool)
  (st : run_state) (t : table) : option (run_state * Z * table) :=
  match child_redirects lim close_all pairs elf st t with
  | None => None
  | Some (st, elf, t) =>
      let '(st, t) :=   (* 2467-2479, 3958-3959 *)
        if sync then (RunState (rs_pipe st) (-1, -1) (rs_in st) (rs_out st) (rs_err st),
                      close_and_reset (waiting st t) (fst (rs_sync st)))
        else (st, t) in
      match setup_child_std_fds lim st t with None => None | Some (st, t) => Some (st, elf, t) end
  end.

(* 4029-4032 and execve(2): pipe_fds[0] is kept, the other pipes are closed;
   then descriptors with the close-on-exec flag go. *)
Definition free_run_state (st : run_state) (t : table) : table :=   (* 3341-3354 *)
  fold_left (fun t p => close_pair p t)
    [rs_pipe st; rs_in st; rs_out st; rs_err st; rs_sync st] t.
Definition before_exec (st : run_state) (t : table) : table :=
  free_run_state (RunState (-1, snd (rs_pipe st)) (rs_sync st) (rs_in st) (rs_out st) (rs_err st)) t.
Definition after_exec (t : table) : table :=
  fun fd => match t fd with Some (f, true) => None | x => x end.
(* 4003-4010: the init process the library provides closes the pipes it still
   knows and goes on without an execve(2) *)
Definition init_table (st : run_state) (t : table) : table := free_run_state st t.

(* pipe(2): the two lowest free numbers; [r] and [w] are the new open files. *)
Definition lowest_free (lim : Z) (t : table) : option Z :=
  List.find (fun fd => negb (is_open t fd)) (map Z.of_nat (seq 0 (Z.to_nat lim))).
Definition pipe (lim : Z) (t : table) (r w : N) : option ((Z * Z) * table) :=
  match lowest_free lim t with
  | None => None
  | Some a =>
      let t := upd t a (Some (r, false)) in
      match lowest_free lim t with None => None | Some b => Some ((a, b), upd t b (Some (w, false))) end
  end.
(* 3647-3726: the pipes of a run: for the configuration (with preload), stdin,
   stdout, stderr as requested, and for the parent's setup.  [base] numbers the
   open files: pipe i has ends base + 2i and base + 2i + 1.  Also returns the
   number put into the environment for the preload library (3122-3132). *)
Definition pipe_if (b : bool) (lim : Z) (t : table) (id : N) : option ((Z * Z) * table) :=
  if b then pipe lim t id (id + 1)%N else Some ((-1, -1), t).
Definition open_pipes (lim : Z) (preload sin sout serr sync : bool) (base : N) (t : table)
  : option (run_state * table) :=
  match pipe_if preload lim t base with
  | None => None
  | Some (p, t) =>
  match pipe_if sin lim t (base + 2)%N with
  | None => None
  | Some (i, t) =>
  match pipe_if sout lim t (base + 4)%N with
  | None => None
  | Some (o, t) =>
  match pipe_if serr lim t (base + 6)%N with
  | None => None
  | Some (e, t) =>
  match pipe_if sync lim t (base + 8)%N with
  | None => None
  | Some (s, t) => Some (RunState p s i o e, t)
  end end end end end.

(* 4074-4097: what the parent hands to its caller, and its table afterwards;
   pipe_fds are already closed, child_sync_pipe_fds too if used. *)
Definition parent_result (sin sout serr : bool) (st : run_state) (t : table) : (Z * Z * Z) * table :=
  let take (b : bool) (fd : Z) := if b then -1 else fd in
  ((snd (rs_in st), fst (rs_out st), fst (rs_err st)),
   free_run_state (RunState (rs_pipe st) (rs_sync st)
                     (fst (rs_in st), take sin (snd (rs_in st)))
                     (take sout (fst (rs_out st)), snd (rs_out st))
                     (take serr (fst (rs_err st)), snd (rs_err st))) t).

(* 3811-3815: the parent after starting the child: it closes the descriptors of
   the namespaces entered ([mountns], [netns]: numbers kept in the jail);
   2824-2828, 2876-2880: so does minijail_enter in the child *)
Definition close_entered (enter_vfs : bool) (mountns : Z) (enter_net : bool) (netns : Z) (t : table) : table :=
  let t := if enter_vfs then close t mountns else t in
  if enter_net then close t netns else t.
(* 1321-1331 as called in 3921-3924, the result not being looked at *)
Definition preserve (pairs : list (Z * Z)) (fd : Z) : list (Z * Z) :=
  if (fd <? 0) || (128 <=? Z.of_nat (length pairs)) then pairs else (pairs ++ [(fd, fd)])%list.
Definition entry_pairs (close_all enter_vfs : bool) (mountns : Z) (enter_net : bool) (netns : Z)
  (pairs : list (Z * Z)) : list (Z * Z) :=
  if close_all then
    let pairs := if enter_vfs then preserve pairs mountns else pairs in
    if enter_net then preserve pairs netns else pairs
  else pairs.
