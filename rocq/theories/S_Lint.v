(* Specification: what a policy that the linter passes may allow.  From the
   models only data types are used. *)
From Coq Require Import String Ascii List NArith ZArith Bool.
From Verif Require Import S_Bpf S_Text S_Const S_Policy.
From Verif Require Import M_PyParse S_PyText S_Common.
From Verif Require Import M_Lint.
Import ListNotations.
Local Open Scope string_scope.

(* ---- Lines ---- *)
Definition comment_line (s : string) : Prop := exists p t, s = p ++ "#" ++ t /\ all_chars white p.
(* a rule for [n]: the name, a colon and [body] *)
Definition ruled (n body s : string) : Prop :=
  exists p q z, s = p ++ n ++ q ++ ":" ++ z ++ body /\ all_chars white p /\ all_chars white q /\ all_chars white z /\
    all_chars word_char n /\ forall c t, body = String c t -> ~ white c.
Definition rule_line (n s : string) : Prop := exists body, ruled n body s.
(* The lines before a rule end in a comment, but for lines that are no rules. *)
Definition commented (l : list string) : Prop :=
  exists l1 c mid, l = (l1 ++ c :: mid)%list /\ comment_line c /\ Forall (fun s => forall n, ~ rule_line n s) mid.
(* A rule for [n] is justified by a comment. *)
Definition justified (ls : list string) (n : string) : Prop :=
  exists l1 r l2, ls = (l1 ++ r :: l2)%list /\ rule_line n r /\ commented l1.

(* ---- What the linter reports ---- *)
Definition map_rules : list string :=
  ["arg2 == PROT_READ || arg2 == PROT_NONE"; "arg2 in ~PROT_EXEC"; "arg2 in ~PROT_EXEC || arg2 in ~PROT_WRITE"].
(* the rules for a call that need no comment, beside those of all calls *)
Inductive usual_rules : string -> list string -> Prop :=
| ur_random : usual_rules "getrandom" ["arg2 in ~GRND_RANDOM"]
| ur_map n : In n ["mmap"; "mmap2"; "mprotect"] -> usual_rules n map_rules
| ur_other n : ~ In n ["getrandom"; "mmap"; "mmap2"; "mprotect"] -> usual_rules n [].
Definition rejecting : list string := ["kill"; "kill-process"; "kill-thread"; "return 1"].
Definition safe_text (n body : string) : Prop := In body rejecting \/ exists l, usual_rules n l /\ In body l.
Definition seen (n : string) (ls : list string) : Prop := exists s, In s ls /\ rule_line n s.
(* what is wrong with the rule [body] for [n] after the lines [before] *)
Inductive wrong (dangerous before : list string) (n body : string) : problem -> Prop :=
| w_twice : seen n before -> wrong dangerous before n body Duplicate
| w_comment : ~ seen n before -> In n dangerous -> ~ commented before -> ~ safe_text n body -> usual_rules n [] ->
    wrong dangerous before n body NeedsComment
| w_rules l : ~ seen n before -> In n dangerous -> ~ commented before -> ~ safe_text n body -> usual_rules n l -> l <> [] ->
    wrong dangerous before n body (UseRules l).
(* lines are counted from 0 *)
Definition reported (dangerous ls : list string) (e : error) : Prop :=
  exists l1 r l2 body, ls = (l1 ++ r :: l2)%list /\ er_line e = N.of_nat (length l1) /\
    ruled (er_call e) body r /\ wrong dangerous l1 (er_call e) body (er_problem e).
(* One rule for each name, those for dangerous calls with a comment or safe. *)
Definition clean (dangerous ls : list string) : Prop :=
  forall l1 r l2 n body, ls = (l1 ++ r :: l2)%list -> ruled n body r ->
    ~ seen n l1 /\ (In n dangerous -> commented l1 \/ safe_text n body).
Definition names_dangerous (dangerous ls : list string) : Prop := exists n, seen n ls /\ In n dangerous.

(* ---- Harmless arguments ---- *)
(* Constants of the kernel: PROT_READ 1, PROT_WRITE 2, PROT_EXEC 4, PROT_NONE 0,
   GRND_RANDOM 2. *)
Definition kernel_constants (a : parch) : Prop :=
  Forall (const_ok a) [Part "PROT_READ" 1; Part "PROT_WRITE" 2; Part "PROT_EXEC" 4; Part "PROT_NONE" 0; Part "GRND_RANDOM" 2].
(* Memory is not mapped for writing and for execution; random numbers do not
   come from the blocking pool. *)
Definition harmless (bits : N) (n : string) (d : sdata) : Prop :=
  let v := (sd_arg d 2 mod 2 ^ bits)%N in
  ((n = "mmap" \/ n = "mmap2" \/ n = "mprotect") /\ (N.land v 4 = 0 \/ N.land v 2 = 0)%N) \/
  (n = "getrandom" /\ N.land v 2 = 0%N).

(* ---- Texts ---- *)
(* No control characters but tabs, no continuation lines, no other files. *)
Definition tame_line (s : string) : Prop :=
  all_chars (fun c => c = "009"%char \/ 32 <= N_of_ascii c)%N s /\ (forall t, s <> t ++ "\") /\ forall t, ~ stripped s ("@include" ++ t).
Definition word_table (tbl : list (string * N)) : Prop :=
  (forall n nr, first_entry tbl n nr -> all_chars word_char n) /\ forall n m nr, first_entry tbl n nr -> first_entry tbl m nr -> n = m.

(* ---- The command line ---- *)
(* The calls that need a reason: those listed after --dangerous-syscalls,
   separated by commas, or the usual ones. *)
Inductive asked : option string -> list string -> Prop :=
| as_usual : asked None
    ["clone"; "mount"; "setns"; "kill"; "execve"; "execveat"; "getrandom"; "bpf"; "socket"; "ptrace"; "swapon"; "swapoff"; "prctl"; "ioctl";
     "mmap"; "mmap2"; "mprotect"]
| as_given l : l <> [] -> Forall (all_chars (fun c => c <> ","%char)) l -> asked (Some (String.concat "," l)) l.
