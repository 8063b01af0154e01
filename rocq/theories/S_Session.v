(* When a jailed program has a session of its own (libminijail.h,
   minijail0.1: --no-new-sessions). *)
From Verif Require Export M_Session S_Fds S_Settings.
Local Open Scope N_scope.

Definition sessions_of (a : api) : option bool := match a with A_set_enable_new_sessions b => Some b | _ => None end.
(* New sessions are made unless the caller said otherwise. *)
Definition new_sessions (h : list (api * Z)) : bool := last_of sessions_of h true.
(* The program has a terminal as a standard stream. *)
Definition on_terminal (tty_of : N -> option N) (u : table) : Prop :=
  exists c f x, In c [0; 1; 2]%Z /\ holds u c f /\ tty_of f = Some x.
