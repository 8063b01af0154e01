(* What the options of compile_seccomp_policy.py stand for, for C83. *)
From Verif Require Export S_Text S_Const S_Policy S_PyPolicy M_PyMain S_PyText.
Local Open Scope N_scope.

Definition logs (w : py_world) (c : py_line) : Prop := c_ret_log c = true \/ y_env_log w = true.
(* What "kill" and a failure without other action mean. *)
Inductive fails_with (w : py_world) (c : py_line) (a : parch) : N -> Prop :=
  | fw_log : logs w c -> fails_with w c a LOG
  | fw_denylist v : ~ logs w c -> c_denylist c = true -> first_entry (pa_constants a) "EPERM" v -> fails_with w c a (ERRNO (Z.to_N (v mod 65536)))
  | fw_process : ~ logs w c -> c_denylist c = false -> c_kill_process c = true -> fails_with w c a KILL_PROCESS
  | fw_thread : ~ logs w c -> c_denylist c = false -> c_kill_process c = false -> fails_with w c a KILL_THREAD.
(* --default-action: an action as in a policy; "kill" kills the process. *)
Inductive default_asked (c : py_line) (a : parch) : option N -> Prop :=
  | da_none : c_default c = None \/ c_default c = Some ""%string -> default_asked c a None
  | da_some s ts rest out x : c_default c = Some s -> s <> ""%string -> logical [s] ((ts ++ rest) :: out)%list -> g_action a false false ts x ->
      default_asked c a (Some (value_of KILL_PROCESS x)).
Definition one_line (c : py_line) : Prop := forall s, c_default c = Some s -> in_line s.
(* The options of the compiler that the command line asks for. *)
Definition asked (w : py_world) (c : py_line) (a : parch) (o : popts) : Prop :=
  fails_with w c a (o_kill o) /\ o_denylist o = c_denylist c /\ (o_ret_log o = true <-> logs w c) /\ default_asked c a (o_override o) /\
  (c_limit c = None -> o_levels o = 8%nat) /\ o_strategy o = c_strategy c.
(* [prog] decides every system call as the policy says, with the exceptions of
   C63. *)
Definition means (w : py_world) (a : parch) (o : popts) (file : string) (prog : list instr) : Prop :=
  exists default ss, says a o (y_resolve w) (y_text w) anything file default ss /\
  (one_name ss -> six_arguments ss -> forall d, sd_ok d ->
   (sd_arch d = arch_nr (pa_arch a) ->
    o_denylist o = true \/ last_resort (a_val default) (filters_for (sd_nr d) ss) <> ALLOW \/
      Forall (fun f => a_val (f_act f) = ALLOW) (filters_for (sd_nr d) ss) ->
    run true prog d = VRet (decision (arch_bits (pa_arch a)) (o_denylist o) (a_val default) ss d)) /\
   (sd_arch d <> arch_nr (pa_arch a) -> run true prog d = VRet (o_kill o))).
