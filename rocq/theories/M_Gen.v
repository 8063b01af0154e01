(* Model of tools/generate_seccomp_policy.py for strace logs: from the texts of
   the logs to the text of the policy.
   Simplifications: texts are ASCII; audit logs (parse_audit_log, which needs
   the auparse library), the choice between the two kinds of logs, the
   frequency file and the messages are left out.  None is an exception. *)
From Coq Require Export String Ascii List NArith ZArith Bool.
From Verif Require Export M_PyParse.
Export ListNotations.
Local Open Scope N_scope.
Local Open Scope string_scope.

(* 34-36 LINE_RE: white space, a tag in brackets or a number or neither, white
   space, a word (group 1), an open parenthesis, characters other than a close
   parenthesis and < (group 2).  The lines of text_lines have no line end: the
   second group may end in one, but is stripped (213). *)
Definition LINE_TAG : re :=
  Cat (Many is_space)
    (Cat (maybe (Alt (Cat (lit "[") (Cat (Many (fun c => negb (is_c "]" c))) (lit "]"))) (some1 is_digit))) (Many is_space)).
Definition in_args (c : ascii) : bool := negb (is_c ")" c || is_c "<" c).
Definition line_re (line : string) : option (string * string) :=
  matching LINE_TAG None line (fun p s =>
  matching (some1 is_word) p s (fun p s1 =>
  matching (lit "(") p s1 (fun p s2 =>
  matching (Many in_args) p s2 (fun _ s3 =>
  Some (substring 0 (String.length s - String.length s1) s, substring 0 (String.length s2 - String.length s3) s2))))).

(* 38-56 *)
Definition SOCKETCALLS : list string :=
  ["accept"; "bind"; "connect"; "getpeername"; "getsockname"; "getsockopt"; "listen"; "recv"; "recvfrom"; "recvmsg"; "send"; "sendmsg";
   "sendto"; "setsockopt"; "shutdown"; "socket"; "socketpair"].
(* 58-66 *)
Definition PRIVATE_ARM_SYSCALLS : list (N * string) :=
  [(983041, "ARM_breakpoint"); (983042, "ARM_cacheflush"); (983043, "ARM_usr26"); (983044, "ARM_usr32"); (983045, "ARM_set_tls")].
(* 324-331 *)
Definition arg_inspection : list (string * nat) :=
  [("socket", 0%nat); ("ioctl", 1%nat); ("prctl", 0%nat); ("mmap", 2%nat); ("mmap2", 2%nat); ("mprotect", 2%nat)].
Definition inb (x : string) (l : list string) : bool := existsb (String.eqb x) l.

(* str.strip(), str.split(c) for a character, "x in s" *)
Fixpoint lstrip (s : string) : string :=
  match s with String c t => if is_space c then lstrip t else s | EmptyString => "" end.
Fixpoint rstrip (s : string) : string :=
  match s with
  | EmptyString => ""
  | String c t => match rstrip t with EmptyString => if is_space c then "" else String c "" | r => String c r end
  end.
Definition py_strip (s : string) : string := rstrip (lstrip s).
Fixpoint py_split (x : ascii) (s cur : string) : list string :=
  match s with
  | EmptyString => [cur]
  | String c t => if is_c x c then cur :: py_split x t "" else py_split x t (cur ++ String c "")
  end.
Fixpoint py_in (x s : string) : bool :=
  String.prefix x s || match s with EmptyString => false | String _ t => py_in x t end.

(* 166-185 get_seccomp_bpf_filter.  [values]: the set in the order in which it
   is walked *)
Definition get_seccomp_bpf_filter (syscall : string) (arg_index : nat) (values : list string) : string :=
  let equal v := "arg" ++ String (ascii_of_nat (48 + arg_index)) "" ++ " == " ++ v in
  let write_and_exec v := let ps := map py_strip (py_split "|" v "") in inb "PROT_EXEC" ps && inb "PROT_WRITE" ps in
  String.concat " || "
    (if inb syscall ["mmap"; "mmap2"; "mprotect"] && Nat.eqb arg_index 2 && negb (existsb write_and_exec values)
     then ["arg2 in ~PROT_EXEC"; "arg2 in ~PROT_WRITE"]
     else map equal values).

(* The dictionary syscalls, in the order of insertion, and the sets of
   arg_inspection. *)
Record traced := Traced { t_counts : list (string * N); t_values : list (string * list string) }.
(* d[x] += 1 of a defaultdict(int) *)
Fixpoint count (x : string) (d : list (string * N)) : list (string * N) :=
  match d with
  | [] => [(x, 1)]
  | (y, n) :: t => if String.eqb y x then (y, n + 1) :: t else (y, n) :: count x t
  end.
(* s[x].add(v) *)
Fixpoint add_value (x v : string) (d : list (string * list string)) : list (string * list string) :=
  match d with
  | [] => [(x, [v])]
  | (y, l) :: t => if String.eqb y x then (y, if inb v l then l else (l ++ [v])%list) :: t else (y, l) :: add_value x v t
  end.
(* 190-192 *)
Definition uses_socketcall (filename : string) : bool :=
  py_in "i386" filename || (py_in "x86" filename && negb (py_in "64" filename)).
(* 200-209 *)
Definition policy_name (socketcall : bool) (syscall : string) : string :=
  let syscall := if socketcall && inb syscall SOCKETCALLS then "socketcall" else syscall in
  if inb ("ARM_" ++ syscall) (map snd PRIVATE_ARM_SYSCALLS) then "ARM_" ++ syscall else syscall.
(* 195-217 *)
Definition parse_line (socketcall : bool) (st : traced) (line : string) : option traced :=
  match line_re line with
  | None => Some st
  | Some (syscall, args) =>
      let syscall := policy_name socketcall syscall in
      let counts := count syscall (t_counts st) in
      let args := map py_strip (py_split "," args "") in
      match lookup syscall arg_inspection with
      | None => Some (Traced counts (t_values st))
      | Some i => match nth_error args i with
                  | None => None                                     (* IndexError *)
                  | Some v => Some (Traced counts (add_value syscall v (t_values st)))
                  end
      end
  end.
Fixpoint parse_lines (socketcall : bool) (st : traced) (lines : list string) : option traced :=
  match lines with
  | [] => Some st
  | l :: r => match parse_line socketcall st l with Some st => parse_lines socketcall st r | None => None end
  end.
(* 188-217 parse_trace_file, 343-344: files as name and text *)
Fixpoint parse_traces (st : traced) (files : list (string * string)) : option traced :=
  match files with
  | [] => Some st
  | (name, text) :: r =>
      match parse_lines (uses_socketcall name) st (text_lines text "") with Some st => parse_traces st r | None => None end
  end.

(* sorted(), which keeps the order of equal elements *)
Section sorting.
Variable before : string * N -> string * N -> bool.
Fixpoint insert (x : string * N) (l : list (string * N)) : list (string * N) :=
  match l with [] => [x] | y :: t => if before x y then x :: l else y :: insert x t end.
Definition sorted (l : list (string * N)) : list (string * N) := fold_right insert [] l.
End sorting.
(* 349-358 *)
Definition basic_set : list string := ["restart_syscall"; "exit"; "exit_group"; "rt_sigreturn"].
Definition with_basic (d : list (string * N)) : list (string * N) :=
  fold_left (fun d x => if inb x (map fst d) then d else (d ++ [(x, 1)])%list) basic_set d.
(* 360-375 *)
Definition sorted_syscalls (frequency : bool) (d : list (string * N)) : list string :=
  map fst (if frequency then sorted (fun x y => String.leb (fst x) (fst y)) d
           else sorted (fun x y => (snd y <=? snd x)%N) d).
(* 26-30, 377 *)
Definition NL : string := String "010" "".
Definition NOTICE (year : string) : string :=
  "# Copyright " ++ year ++ " The ChromiumOS Authors" ++ NL ++
  "# Use of this source code is governed by a BSD-style license that can be" ++ NL ++
  "# found in the LICENSE file." ++ NL.
Section printing.
(* The order in which a set is walked. *)
Variable order : list string -> list string.
(* 381-388 *)
Definition policy_line (values : list (string * list string)) (syscall : string) : string :=
  let arg_filter := match lookup syscall arg_inspection with
                    | Some i => get_seccomp_bpf_filter syscall i (order (match lookup syscall values with Some l => l | None => [] end))
                    | None => "1"
                    end in
  syscall ++ ": " ++ arg_filter ++ NL.
(* 314-390 main.  [frequency]: is there a frequency file *)
Definition generate (year : string) (frequency : bool) (files : list (string * string)) : option string :=
  match parse_traces (Traced [] []) files with
  | None => None
  | Some st => Some (NOTICE year ++ NL ++ String.concat "" (map (policy_line (t_values st)) (sorted_syscalls frequency (with_basic (t_counts st)))))
  end.
End printing.
