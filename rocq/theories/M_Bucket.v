(* Model of how tools/generate_seccomp_policy.py tells logs of strace from logs
   of the audit subsystem (BucketInputFiles), and of the whole tool.
   Simplifications as in M_Gen and M_Audit.  None is an exception or the end of
   the program with a message. *)
From Verif Require Import M_PyParse M_Gen M_Audit.
Local Open Scope N_scope.
Local Open Scope string_scope.

Definition is_lower (c : ascii) : bool := in_range "a" "z" c.
Definition dot (c : ascii) : bool := negb (is_c "010" c).
(* 86 strace_line_re; lines have no line end here, where no part of the
   expression could match it *)
Definition strace_line_re : re :=
  Cat (some1 is_lower) (Cat (Many is_digit) (Cat (lit "(") (Cat (some1 dot) (Cat (lit ")") (Cat (some1 (is_c " ")) (lit "= ")))))).
(* 87 audit_line_re *)
Definition audit_line_re : re := Cat (lit "type=") (Alt (lit "SYSCALL") (lit "SECCOMP")).
(* re.search *)
Fixpoint search (r : re) (prev : option ascii) (s : string) : bool :=
  match re_match r prev s with
  | Some _ => true
  | None => match s with String c t => search r (Some c) t | EmptyString => false end
  end.
(* 93-103: is the file appended to audit_logs *)
Fixpoint is_audit (lines : list string) : bool :=
  match lines with
  | [] => false
  | l :: r => if search strace_line_re None l then false else if search audit_line_re None l then true else is_audit r
  end.
(* 82-106: the names and texts of [audit_logs] and [traces]; a missing file
   ends the program *)
Fixpoint bucket (files : list (string * option string)) (audit_logs traces : list (string * string)) : option (list (string * string) * list (string * string)) :=
  match files with
  | [] => Some (audit_logs, traces)
  | (_, None) :: _ => None
  | (name, Some text) :: r =>
      if is_audit (text_lines text "") then bucket r (audit_logs ++ [(name, text)])%list traces else bucket r audit_logs (traces ++ [(name, text)])%list
  end.
(* The tool.  [auparse]: what the library delivers for a text *)
Definition generate_tool (auparse : string -> alog) (audit_comm : string) (order : list string -> list string) (year : string) (frequency : bool)
  (files : list (string * option string)) : option string :=
  match bucket files [] [] with
  | None => None
  | Some (audit_logs, traces) => generate_all audit_comm order year frequency traces (map (fun f => auparse (snd f)) audit_logs)
  end.
