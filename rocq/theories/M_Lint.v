(* Model of tools/seccomp_policy_lint.py: from the text of a policy to the
   errors and the verdict.
   Simplifications: the text is ASCII; messages are kept as data; of the
   options of the command line only --dangerous-syscalls is modelled
   (--denylist is parsed by the program but never used, --assume-filename is
   used in messages). *)
From Coq Require Export String Ascii List NArith ZArith Bool.
From Verif Require Export M_PyParse.
From Verif Require Import M_Gen.
Export ListNotations.
Local Open Scope N_scope.
Local Open Scope string_scope.

(* tools/seccomp_policy_lint.py 16-35 *)
Definition DANGEROUS_SYSCALLS : list string :=
  ["clone"; "mount"; "setns"; "kill"; "execve"; "execveat"; "getrandom"; "bpf"; "socket"; "ptrace"; "swapon"; "swapoff";
   "prctl"; "ioctl"; "mmap"; "mmap2"; "mprotect"].
(* 39-56 *)
Definition MAP_RULES : list string :=
  ["arg2 == PROT_READ || arg2 == PROT_NONE"; "arg2 in ~PROT_EXEC"; "arg2 in ~PROT_EXEC || arg2 in ~PROT_WRITE"].
Definition SYSCALL_SAFE_RULES : list (string * list string) :=
  [("getrandom", ["arg2 in ~GRND_RANDOM"]); ("mmap", MAP_RULES); ("mmap2", MAP_RULES); ("mprotect", MAP_RULES)].
(* 58-63 *)
Definition GLOBAL_SAFE_RULES : list string := ["kill"; "kill-process"; "kill-thread"; "return 1"].

(* The regular expressions of 120, 122 and 126, on lines without line end: the
   dot is any character but a line end, and the dollar matches before one. *)
Definition comment_re (line : string) : bool :=
  match matching (Cat (Many is_space) (lit "#")) None line (fun _ _ => Some tt) with Some _ => true | None => false end.
Definition blank_re (line : string) : bool :=
  match matching (Many is_space) None line (fun _ s => match s with EmptyString => Some tt | _ => None end) with Some _ => true | None => false end.
Definition rule_re (line : string) : option (string * string) :=
  matching (Many is_space) None line (fun p s =>
  matching (Many is_word) p s (fun p s1 =>
  matching (Cat (Many is_space) (lit ":")) p s1 (fun p s2 =>
  matching (Many is_space) p s2 (fun p s3 =>
  matching (Many (fun c => negb (is_c "010" c))) p s3 (fun p s4 =>
  matching (Many is_space) p s4 (fun _ _ =>
  Some (substring 0 (String.length s - String.length s1) s, substring 0 (String.length s3 - String.length s4) s3))))))).

(* 129-153: the number of the line as it is printed, the call, and what is wrong *)
Inductive problem := Duplicate | UseRules (rules : list string) | NeedsComment.
Record error := Error { er_line : N; er_call : string; er_problem : problem }.
Record lint := Lint { l_found : list string; l_errors : list error; l_dangerous : bool; l_comment : bool }.

Section check.
Variable dangerous : list string.
(* 128-154 *)
Definition check_rule (num : N) (syscall rule : string) (st : lint) : lint :=
  if inb syscall (l_found st)
  then Lint (l_found st) (l_errors st ++ [Error num syscall Duplicate])%list (l_dangerous st) false
  else
    let found := (syscall :: l_found st)%list in
    if inb syscall dangerous
    then
      let safe_rules := match lookup syscall SYSCALL_SAFE_RULES with Some l => l | None => [] end in
      let errors :=
        if l_comment st then l_errors st
        else if inb rule GLOBAL_SAFE_RULES || inb rule safe_rules then l_errors st
        else (l_errors st ++ [Error num syscall (match safe_rules with [] => NeedsComment | _ => UseRules safe_rules end)])%list in
      Lint found errors true false
    else Lint found (l_errors st) (l_dangerous st) false.
(* 119-158 *)
Definition check_line (num : N) (line : string) (st : lint) : lint :=
  if comment_re line then Lint (l_found st) (l_errors st) (l_dangerous st) true
  else if blank_re line then st
  else match rule_re line with
       | Some (syscall, rule) => check_rule num syscall rule st
       | None => st
       end.
Fixpoint check_lines (num : N) (lines : list string) (st : lint) : lint :=
  match lines with [] => st | l :: r => check_lines (num + 1) r (check_line num l st) end.
(* 103-175 check_seccomp_policy *)
Definition check_seccomp_policy (text : string) : lint := check_lines 0 (text_lines text "") (Lint [] [] false false).
(* 178-198 main: the exit status *)
Definition exit_status (text : string) : N := match l_errors (check_seccomp_policy text) with [] => 0 | _ => 1 end.
End check.

(* 84-89, 186-189: the set of dangerous calls, from the value of the option
   --dangerous-syscalls *)
Definition dangerous_of (option : option string) : list string :=
  py_split "," (match option with Some s => s | None => String.concat "," DANGEROUS_SYSCALLS end) "".
(* 178-198 main *)
Definition lint_main (option : option string) (text : string) : N := exit_status (dangerous_of option) text.
