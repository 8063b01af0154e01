(* Specification: traces of system calls as strace prints them, and the calls
   a policy generated from them should allow.  From the models only data types
   are used. *)
From Coq Require Import String Ascii List NArith ZArith Bool.
From Verif Require Import S_Bpf S_Text S_Const S_Policy.
From Verif Require Import M_PyParse S_PyText S_Common.
Import ListNotations.
Local Open Scope string_scope.

(* ---- Traces ---- *)
(* A line for a call: what is before the name (nothing, a process number, a tag
   in brackets), the name, the arguments before the inspected one, the
   constants of the inspected one, and the rest of the line. *)
Record tcall := TCall { tc_tag : string; tc_name : string; tc_before : list string; tc_value : list part; tc_rest : string }.
Inductive tline := Call (c : tcall) | Other (l : string).
Definition tline_text (l : tline) : string :=
  match l with
  | Call c => tc_tag c ++ tc_name c ++ "(" ++ String.concat "" (map (fun a => a ++ ", ") (tc_before c)) ++ parts_text (tc_value c) ++ tc_rest c
  | Other s => s
  end.
(* One file: its name and its lines. *)
Record tfile := TFile { tf_name : string; tf_lines : list tline }.
Fixpoint trace_text (ls : list tline) : string :=
  match ls with [] => "" | l :: t => tline_text l ++ String newline (trace_text t) end.
Definition on_disk (tr : list tfile) : list (string * string) := map (fun f => (tf_name f, trace_text (tf_lines f))) tr.

(* ---- Which argument is inspected ---- *)
Definition inspected : list (string * nat) := [("socket", 0); ("ioctl", 1); ("prctl", 0); ("mmap", 2); ("mmap2", 2); ("mprotect", 2)].
Definition maps_memory (n : string) : Prop := n = "mmap" \/ n = "mmap2" \/ n = "mprotect".
(* The name of a call in a policy: private ARM calls get a prefix; on i386
   (judged by the name of the file) sockets are used through socketcall. *)
Definition socket_calls : list string :=
  ["accept"; "bind"; "connect"; "getpeername"; "getsockname"; "getsockopt"; "listen"; "recv"; "recvfrom"; "recvmsg"; "send"; "sendmsg";
   "sendto"; "setsockopt"; "shutdown"; "socket"; "socketpair"].
Definition arm_calls : list string := ["breakpoint"; "cacheflush"; "usr26"; "usr32"; "set_tls"].
Definition i386_file (f : string) : Prop := contains "i386" f \/ (contains "x86" f /\ ~ contains "64" f).
Inductive policy_name (f : string) (n : string) : string -> Prop :=
| pn_socket : i386_file f -> In n socket_calls -> policy_name f n "socketcall"
| pn_arm : In n arm_calls -> policy_name f n ("ARM_" ++ n)
| pn_same : (i386_file f -> ~ In n socket_calls) -> ~ In n arm_calls -> policy_name f n n.
(* [n] is, in policies, the name of the call [c] of the trace. *)
Definition traced (tr : list tfile) (n : string) (c : tcall) : Prop :=
  exists f, In f tr /\ In (Call c) (tf_lines f) /\ policy_name (tf_name f) (tc_name c) n.

(* ---- Well-formed traces ---- *)
Definition no_newline (s : string) : Prop := in_line s.
Definition tag_ok (t : string) : Prop :=
  all_chars white t \/
  exists a m b, t = a ++ m ++ b /\ all_chars white a /\ all_chars white b /\
    ((one_of dec_digit m /\ b <> "") \/ exists x, m = "[" ++ x ++ "]" /\ all_chars (fun c => c <> "]"%char) x).
Definition plain_arg (s : string) : Prop := all_chars (fun c => c <> ","%char /\ c <> ")"%char /\ c <> "<"%char) s.
(* After an argument: the end of the line, the next argument, the end of the
   arguments, or an interruption. *)
Definition after_arg (s : string) : Prop :=
  exists sp r, s = sp ++ r /\ all_chars white sp /\ (r = "" \/ exists t, r = "," ++ t \/ r = ")" ++ t \/ r = "<" ++ t).
Section tables.
Variable a : parch.
Definition call_ok (f : string) (c : tcall) : Prop :=
  tag_ok (tc_tag c) /\ no_newline (tline_text (Call c)) /\
  exists n nr, policy_name f (tc_name c) n /\ plain_name (tc_name c) /\ plain_name n /\ (reserved n -> n = "kill") /\ first_entry (pa_syscalls a) n nr /\
  forall i, first_entry inspected n i ->
    length (tc_before c) = i /\ Forall plain_arg (tc_before c) /\ tc_value c <> [] /\ Forall (part_ok a) (tc_value c) /\ after_arg (tc_rest c).
(* Other lines (signals, exits, resumed calls) have no parenthesis, or do not
   begin with a word. *)
Definition other_ok (s : string) : Prop :=
  no_newline s /\ (all_chars (fun c => c <> "("%char) s \/ exists t x r, s = t ++ x ++ r /\ tag_ok t /\ (x = "-" \/ x = "+" \/ x = "<")).
Definition tline_ok (f : string) (l : tline) : Prop := match l with Call c => call_ok f c | Other s => other_ok s end.
Definition trace_ok (tr : list tfile) : Prop := Forall (fun f => Forall (tline_ok (tf_name f)) (tf_lines f)) tr.

(* ---- What the policy should allow ---- *)
Definition basic : list string := ["restart_syscall"; "exit"; "exit_group"; "rt_sigreturn"].
(* Both names are written in the inspected argument of a traced call. *)
Definition write_exec_seen (tr : list tfile) (n : string) : Prop :=
  exists c, traced tr n c /\ In "PROT_EXEC" (map pt_word (tc_value c)) /\ In "PROT_WRITE" (map pt_word (tc_value c)).
(* [x], [w]: the values of PROT_EXEC and PROT_WRITE.  Memory may be mapped for
   writing or for execution; for both only as in the trace, which then is
   followed exactly. *)
Definition permitted (x w : N) (tr : list tfile) (d : sdata) : Prop :=
  exists n, first_entry (pa_syscalls a) n (sd_nr d) /\ (In n basic \/ exists c, traced tr n c) /\
  forall i, first_entry inspected n i ->
    let v := (sd_arg d i mod 2 ^ arch_bits (pa_arch a))%N in
    (maps_memory n /\ ~ write_exec_seen tr n /\ (N.land v x = 0 \/ N.land v w = 0)%N) \/
    ((~ maps_memory n \/ write_exec_seen tr n) /\ exists c, traced tr n c /\ v = parts_value (tc_value c)).
(* Names have one number, and numbers have one name. *)
Definition one_name_each : Prop := forall n m nr, first_entry (pa_syscalls a) n nr -> first_entry (pa_syscalls a) m nr -> n = m.
Definition has_basic : Prop := Forall (fun n => exists nr, first_entry (pa_syscalls a) n nr) basic.
End tables.
(* The call [c], made with that inspected argument. *)
Definition made (a : parch) (n : string) (c : tcall) (d : sdata) : Prop :=
  first_entry (pa_syscalls a) n (sd_nr d) /\
  forall i, first_entry inspected n i -> (sd_arg d i mod 2 ^ arch_bits (pa_arch a))%N = parts_value (tc_value c).
(* Memory is never mapped for writing and for execution without both names. *)
Definition symbolic (x w : N) (c : tcall) : Prop :=
  N.land (parts_value (tc_value c)) x <> 0%N -> N.land (parts_value (tc_value c)) w <> 0%N ->
  In "PROT_EXEC" (map pt_word (tc_value c)) /\ In "PROT_WRITE" (map pt_word (tc_value c)).
