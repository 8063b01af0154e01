(* Model of the account lookups: system.c:434-529.
   Simplifications: malloc succeeds; the doubled size does not overflow (a
   first size near 2^62 cannot be allocated). *)
From Verif Require Export M_Jail.
Local Open Scope Z_scope.

(* system.c:82-83 *)
Definition MAX_PWENT_SZ : Z := 1048576.
Definition MAX_GRENT_SZ : Z := 1048576.
Definition ENOENT_ : Z := 2.
Definition ERANGE_ : Z := 34.

(* What getpwnam_r or getgrnam_r does: an error number other than 0, no entry,
   an entry. *)
Inductive reply (A : Type) := Fails (err : Z) | NoEntry | Entry_ (a : A).
Arguments Fails {A} err.
Arguments NoEntry {A}.
Arguments Entry_ {A} a.
(* The result and what was stored through the pointers; or still running. *)
Inductive found (A : Type) := Ret (rc : Z) (out : option A) | Running.
Arguments Ret {A} rc out.
Arguments Running {A}.

(* 451-477 and 500-525: the loop; [service n sz] is the reply to the n-th call. *)
Fixpoint attempts {A} (max : Z) (service : nat -> Z -> reply A) (fuel n : nat) (sz : Z) : found A :=
  match fuel with
  | O => Running
  | S fuel =>
      match service n sz with
      | Fails err =>
          if err =? ERANGE_ then
            let sz := sz * 2 in
            if sz <=? max then attempts max service fuel (S n) sz else Ret (- ERANGE_) None
          else Ret (- err) None
      | NoEntry => Ret (- ENOENT_) None
      | Entry_ a => Ret 0 (Some a)
      end
  end.
Definition first_size (sysconf : Z) : Z := if sysconf =? -1 then 65536 else sysconf.   (* 447-449, 496-498 *)
(* 437-481: uid and gid *)
Definition lookup_user (service : string -> nat -> Z -> reply (Z * Z)) (sysconf : Z) (fuel : nat) (user : string) : found (Z * Z) :=
  attempts MAX_PWENT_SZ (service user) fuel 0 (first_size sysconf).
(* 486-529 *)
Definition lookup_group (service : string -> nat -> Z -> reply Z) (sysconf : Z) (fuel : nat) (group : string) : found Z :=
  attempts MAX_GRENT_SZ (service group) fuel 0 (first_size sysconf).
