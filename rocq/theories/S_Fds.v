(* What the descriptors of a jailed program should be (C37, C38, C54). *)
From Verif Require Export M_Fds.
Local Open Scope Z_scope.

(* [fd] is open on the file [f] *)
Definition holds (t : table) (fd : Z) (f : N) : Prop := exists b, t fd = Some (f, b).
(* the numbers asked for in the child *)
Definition wanted (pairs : list (Z * Z)) : list Z := map snd pairs.
(* standard stream [c] is connected to a pipe instead *)
Definition piped (sin sout serr : bool) (c : Z) : Prop :=
  (c = 0 /\ sin = true) \/ (c = 1 /\ sout = true) \/ (c = 2 /\ serr = true).
(* the descriptors of the new program *)
Definition at_start (st : run_state) (t : table) : table := after_exec (before_exec st t).
(* At least [n] numbers from 3 to 1023 are neither open nor asked for. *)
Definition room (n : nat) (pairs : list (Z * Z)) (t : table) : Prop :=
  exists l, NoDup l /\ (n <= length l)%nat /\
    forall x, In x l -> 3 <= x <= 1023 /\ t x = None /\ ~ In x (wanted pairs).
(* The situation of a run: the parent had the descriptors [t0], then opened the
   pipes it needs; the descriptors to pass on and the program file were open
   before, and there is room for temporary descriptors. *)
Definition started (lim : Z) (preload sin sout serr sync : bool) (base : N) (pairs : list (Z * Z)) (elf : Z)
  (t0 : table) (st : run_state) (t : table) : Prop :=
  1024 <= lim /\
  open_pipes lim preload sin sout serr sync base t0 = Some (st, t) /\
  (forall x f, holds t0 x f -> (f < base)%N) /\
  (forall x, x < 0 -> t0 x = None) /\
  (forall p, In p (map fst pairs) -> t0 p <> None) /\
  (elf = -1 \/ (0 <= elf /\ t0 elf <> None)) /\
  room (length pairs + 11) pairs t.
(* the parent has all three standard streams *)
Definition std_open (u : table) : Prop := u 0 <> None /\ u 1 <> None /\ u 2 <> None.
(* the child numbers asked for are numbers descriptors can have *)
Definition valid_children (lim : Z) (pairs : list (Z * Z)) : Prop := forall c, In c (wanted pairs) -> 0 <= c < lim.
