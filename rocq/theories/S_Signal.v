(* What users may expect of signals (libminijail.h: minijail_forward_signals,
   minijail_reset_signal_mask, minijail_reset_signal_handlers). *)
From Verif Require Export M_Signal S_Settings.
From Verif Require S_Run.
Local Open Scope N_scope.

(* ---- The program's signals at its start ---- *)
(* The mask is empty if asked for, otherwise the launcher's; only SIGSYS may
   have been unblocked. *)
Definition mask_due (h : list (api * Z)) (launcher program : signals) : Prop :=
  (asked F_reset_signal_mask h -> forall n, blocked program n = false) /\
  (~ asked F_reset_signal_mask h -> forall n,
     (n <> SIGSYS -> blocked program n = blocked launcher n) /\ (blocked program n = true -> blocked launcher n = true)).
(* Whether the actions of minijail_enter say something about SIGSYS. *)
Definition about_sigsys (t : list event) : Prop := exists c a, In (c, a) t /\ (c = C_sigsys_handler \/ c = C_sigsys_default).
(* The dispositions: what the launcher ignored stays ignored unless the
   handlers are reset; everything else is at its default. *)
Definition action_due (refuses : N -> option N) (last : N) (h : list (api * Z)) (launcher program : signals) (n : N) : Prop :=
  (asked F_reset_signal_handlers h -> n <= last -> refuses n = None -> sig_action program n = Default) /\
  (~ asked F_reset_signal_handlers h \/ refuses n <> None ->
     sig_action program n = match sig_action launcher n with Ignored => Ignored | _ => Default end).

(* ---- Forwarding ---- *)
(* Signals the launcher can handle, except those about its children. *)
Definition forwardable (refuses : N -> option N) (n : N) : Prop := 1 <= n < NSIG /\ refuses n = None /\ n <> SIGCHLD.
(* Nobody changes the launcher's handlers. *)
Definition undisturbed (e : levent) : Prop :=
  match e with Launch j _ _ => hasf F_forward_signals j = false | Sets _ _ => False | _ => True end.
Definition arrived (es : list levent) : list N := flat_map (fun e => match e with Arrives n => [n] | _ => [] end) es.
