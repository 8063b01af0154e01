(* Specification: a tree of files, and what mkdir, stat, open(O_CREAT) and
   chown do to it.  There are no symbolic links, and the paths have no
   components "." and ".."; calls may fail for any reason. *)
From Verif Require Import M_Io.
Local Open Scope N_scope.

(* A place in the tree: the names from the root down. *)
Definition place : Type := list string.
(* The file mode (st_mode) of what is at a place. *)
Definition tree : Type := place -> option N.
Definition dir_mode (m : N) : Prop := N.land m 0xf000 = 0x4000.
Definition is_dir (F : tree) (p : place) : Prop := exists m, F p = Some m /\ dir_mode m.
(* A directory that gives no permission (rwxrwxrwx) outside [perms]. *)
Definition perms_within (m perms : N) : Prop := N.ldiff (N.land m 0x1ff) perms = 0.
Definition dir_of (perms : N) (F : tree) (p : place) : Prop := exists m, F p = Some m /\ dir_mode m /\ perms_within m perms.
Definition there (F : tree) (p : place) : Prop := F p <> None.
(* The root is a directory, and what exists is in a directory. *)
Definition rooted (F : tree) : Prop := is_dir F [] /\ forall p c, there F (p ++ [c])%list -> is_dir F p.

(* The names in a path: the non-empty pieces between slashes. *)
Fixpoint names (cur s : string) : list string :=
  match s with
  | EmptyString => if (cur =? "")%string then [] else [cur]
  | String c r =>
      if Ascii.eqb c "/"%char then (if (cur =? "")%string then names "" r else cur :: names "" r)
      else names (cur ++ String c "") r
  end.
Definition absolute (s : string) : bool := match s with String c _ => Ascii.eqb c "/"%char | _ => false end.
(* The place a path names; [cwd] is the current directory. *)
Definition at_path (cwd : place) (s : string) : place := ((if absolute s then [] else cwd) ++ names "" s)%list.
Definition within (p q : place) : Prop := exists r, q = (p ++ r)%list.

Definition put (F : tree) (p : place) (m : N) (F' : tree) : Prop :=
  F' p = Some m /\ forall q, q <> p -> F' q = F q.
Definition same (F F' : tree) : Prop := forall q, F' q = F q.
Definition parent_is_dir (F : tree) (p : place) : Prop := exists q c, p = (q ++ [c])%list /\ is_dir F q.

(* What a call with this answer does to the tree. *)
Definition step (cwd : place) (F : tree) (e : event) (F' : tree) : Prop :=
  match e with
  | (C_mkdir s perms, Yes _ _) =>                              (* the umask takes some away *)
      ~ there F (at_path cwd s) /\ parent_is_dir F (at_path cwd s) /\
      exists m, (dir_mode m /\ perms_within m perms) /\ put F (at_path cwd s) m F'
  | (C_mkdir s _, No e) => same F F' /\ (e = 17%positive -> there F (at_path cwd s))    (* EEXIST *)
  | (C_stat s, Yes m _) => same F F' /\ F (at_path cwd s) = Some m
  | (C_open s Create, Yes _ _) =>
      (same F F' /\ exists m, F (at_path cwd s) = Some m /\ ~ dir_mode m) \/
      (~ there F (at_path cwd s) /\ parent_is_dir F (at_path cwd s) /\
       exists m, ~ dir_mode m /\ put F (at_path cwd s) m F')
  | (C_chown s _ _, Yes _ _) => same F F' /\ there F (at_path cwd s)
  | _ => same F F'
  end.
Inductive happens (cwd : place) : tree -> list event -> tree -> Prop :=
  | h_nil F F' : same F F' -> happens cwd F [] F'
  | h_cons F e F1 t F' : step cwd F e F1 -> happens cwd F1 t F' -> happens cwd F (e :: t) F'.

(* A directory is wanted: no path is given as the source, or it is a directory,
   or a device to be mounted rather than bound. *)
Definition wants_dir (cwd : place) (F : tree) (source : string) (bind : bool) : Prop :=
  absolute source = false \/
  exists m, F (at_path cwd source) = Some m /\
    (dir_mode m \/ (bind = false /\ (N.land m 0xf000 = 0x6000 \/ N.land m 0xf000 = 0x2000))).
