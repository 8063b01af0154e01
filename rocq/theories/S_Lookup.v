(* Specification: asking a name service with growing buffers. *)
From Verif Require Import M_Lookup.
Local Open Scope Z_scope.

(* The size of the n-th buffer; whether it may be tried. *)
Definition nth_size (first : Z) (n : nat) : Z := first * 2 ^ Z.of_nat n.
Definition tried (first : Z) (n : nat) : Prop := n = O \/ nth_size first n <= 2 ^ 20.
Definition too_small {A} (x : reply A) : Prop := x = Fails 34.        (* ERANGE *)
(* What the caller is told about a reply. *)
Definition told {A} (x : reply A) : Z * option A :=
  match x with Fails err => (- err, None) | NoEntry => (-2, None) | Entry_ a => (0, Some a) end.   (* -ENOENT *)
(* [service n sz]: the reply to the n-th question. *)
Definition answered {A} (service : nat -> Z -> reply A) (first : Z) (rc : Z) (out : option A) : Prop :=
  (exists n, tried first n /\ (forall m, (m < n)%nat -> too_small (service m (nth_size first m))) /\
             ~ too_small (service n (nth_size first n)) /\ (rc, out) = told (service n (nth_size first n))) \/
  ((forall n, tried first n -> too_small (service n (nth_size first n))) /\ rc = -34 /\ out = None).
