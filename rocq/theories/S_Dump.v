(* What parse_seccomp_policy is to do, for C82. *)
From Verif Require Export S_Policy M_Dump.
Local Open Scope N_scope.

Definition asks_help (c : dump_line) : Prop := In O_help (p_opts c).
Definition asks_dump (c : dump_line) : Prop := exists a, In (O_dump a) (p_opts c).
(* The file of the last --dump or -d that names one; None is standard output,
   also for an empty name. *)
Inductive dump_file (c : dump_line) : option string -> Prop :=
  | df_none : (forall p, ~ In (O_dump (Some p)) (p_opts c)) -> dump_file c None
  | df_empty l r : p_opts c = (l ++ O_dump (Some ""%string) :: r)%list -> (forall q, ~ In (O_dump (Some q)) r) -> dump_file c None
  | df_some l p r : p_opts c = (l ++ O_dump (Some p) :: r)%list -> p <> ""%string -> (forall q, ~ In (O_dump (Some q)) r) -> dump_file c (Some p).
(* The policy: standard input without a file name or for "-". *)
Inductive policy_input (w : dump_world) (c : dump_line) : stream -> Prop :=
  | pi_stdin : p_args c = [] -> policy_input w c (d_stdin w)
  | pi_dash r : p_args c = "-"%string :: r -> policy_input w c (d_stdin w)
  | pi_file p r f : p_args c = p :: r -> p <> "-"%string -> d_files w p = Some f -> policy_input w c f.
(* Killed unless the policy says otherwise, no logging. *)
Definition plain_opts (w : dump_world) : fopts := FOpts ACT_KILL false false (d_dup w) false.
(* [prog] decides every system call as the text [f] says. *)
Definition decides (w : dump_world) (f : stream) (prog : list instr) : Prop :=
  exists pol, reads_policy (d_build w) (plain_opts w) (d_files w) f pol /\
  forall d, sd_ok d -> (forall r, find_rule (sd_nr d) pol = Some r -> rule_args_ok r) ->
  exists v, run true prog d = VRet v /\ verdict (d_build w) (plain_opts w) pol d v.
(* A line of the file itself that is not empty, a comment or a statement that
   begins with @. *)
Definition rule_line (raw : string) : Prop :=
  strip raw <> ""%string /\ (forall t, strip raw <> String "#" t) /\ forall t, strip raw <> String "@" t.
Definition no_statements (f : stream) : Prop := Forall (fun raw => forall t, strip raw <> String "@" t) (multilines (s_bytes f)).
