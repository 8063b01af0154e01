(* How a process ends and how the kernel reports that to its parent
   (wait(2)): an exit code, or the signal that killed it, with a core file or
   without. *)
From Verif Require Export M_Wait.
Local Open Scope N_scope.

Inductive ending := Exited (code : N) | Killed (signal : N) (core : bool).
Definition possible (e : ending) : Prop :=
  match e with Exited c => c < 256 | Killed s _ => 1 <= s <= 64 end.
Definition status_of (e : ending) : N :=
  match e with Exited c => c * 256 | Killed s core => s + (if core then 128 else 0) end.

(* libminijail.h:47-66 and 651-656 *)
Definition reported_as (sigsys : N) (e : ending) : Z :=
  match e with
  | Exited c => Z.of_N c
  | Killed s _ => if (s =? sigsys)%N then 253 else 128 + Z.of_N s
  end%Z.

(* What init is to report about the program. *)
Definition init_code (e : ending) : N := match e with Exited c => c | Killed _ _ => 254 end.

(* The processes init reaped, in order. *)
Definition reaped (l : list (N * ending)) : list init_event := map (fun p => Reaped (fst p) (status_of (snd p))) l.
(* [root] ended once, as [e]. *)
Definition ended (root : N) (e : ending) (l : list (N * ending)) : Prop :=
  exists l1 l2, l = l1 ++ (root, e) :: l2 /\ ~ In root (map fst l1) /\ ~ In root (map fst l2).
