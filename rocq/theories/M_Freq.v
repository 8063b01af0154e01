(* Model of the frequency file of tools/generate_seccomp_policy.py: the text
   that is written beside the policy.  Simplifications as in M_Gen and
   M_Audit.  None is an exception. *)
From Verif Require Import M_Gen M_Audit.
From Verif Require M_Filter.
Local Open Scope N_scope.
Local Open Scope string_scope.

(* 389-390; [counts]: the dictionary syscalls, a missing key would be 0 *)
Definition frequency_line (counts : list (string * N)) (syscall : string) : string :=
  syscall ++ ": " ++ M_Filter.dec (match lookup syscall counts with Some n => n | None => 0 end) ++ NL.
(* 314-390 main, with a frequency file *)
Definition frequency_file (audit_comm year : string) (files : list (string * string)) (logs : list alog) : option string :=
  match parse_traces (Traced [] []) files with
  | None => None
  | Some st =>
      match parse_logs audit_comm st logs with
      | None => None
      | Some st => let counts := with_basic (t_counts st) in
                   Some (NOTICE year ++ NL ++ String.concat "" (map (frequency_line counts) (sorted_syscalls true counts)))
      end
  end.
