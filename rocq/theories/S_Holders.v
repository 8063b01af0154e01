(* Who holds the ends of the pipes of a run (C73), and where the descriptors
   of namespaces to enter go (C74). *)
From Verif Require Export S_Fds.
Local Open Scope Z_scope.

(* the process with the descriptors [t] does not have the open file [f] *)
Definition lacks (t : table) (f : N) : Prop := forall x, ~ holds t x f.
(* it has it under no number but [x] *)
Definition only_at (t : table) (f : N) (x : Z) : Prop := forall y, holds t y f -> y = x.
(* Reading from a pipe reports its end once no process has the end [w] for
   writing; writing to it fails once no process has the end for reading. *)
Definition released (ps : list table) (f : N) : Prop := forall t, In t ps -> lacks t f.

(* The jailed child has entered its namespaces; then it becomes the program. *)
Definition in_program (enter_vfs : bool) (mountns : Z) (enter_net : bool) (netns : Z) (st : run_state) (t : table) : table :=
  at_start st (close_entered enter_vfs mountns enter_net netns t).
