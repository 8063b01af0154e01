(* Model of /repo/syscall_filter.c. *)
From Coq Require Import DecimalString DecimalN.
From Verif Require Export M_Bpf M_Const M_Lines.
Local Open Scope N_scope.

(* Outcome of a compiler function: a value; -1/NULL (CFail); die() (CDie);
   behaviour C does not define (CUb). *)
Inductive cres (A : Type) := COk (a : A) | CFail | CDie | CUb.
Arguments COk {A} a.
Arguments CFail {A}.
Arguments CDie {A}.
Arguments CUb {A}.

Definition cbind {A B} (x : cres A) (f : A -> cres B) : cres B :=
  match x with COk a => f a | CFail => CFail | CDie => CDie | CUb => CUb end.
Notation "'do' p <- x ; y" := (cbind x (fun p => y))
  (at level 200, p pattern, x at level 100, y at level 200).

(* syscall_filter.h:34-39 *)
Inductive action := ACT_KILL | ACT_TRAP | ACT_LOG | ACT_KILL_PROCESS.

(* syscall_filter.h:41-47 *)
Record fopts := FOpts {
  fo_action : action;
  fo_allow_logging : bool;
  fo_allow_syscalls_for_logging : bool;
  fo_allow_dup : bool;
  fo_libc_compat : bool
}.

(* Everything fixed at build time: platform, generated tables, and the lists
   log_syscalls and libc_compatibility_syscalls (util.c:36-93, 102-110). *)
Record build := Build {
  b_plat : platform;
  b_syscalls : syscalls;
  b_consts : consts;
  b_log : list string;
  b_libc : list string
}.

(* syscall_filter.c:35-56 *)
Definition str_to_op (s : string) : option op :=
  if String.eqb s "==" then Some EQ
  else if String.eqb s "!=" then Some NE
  else if String.eqb s "<" then Some LT
  else if String.eqb s "<=" then Some LE
  else if String.eqb s ">" then Some GT
  else if String.eqb s ">=" then Some GE
  else if String.eqb s "&" then Some SET
  else if String.eqb s "in" then Some IN
  else None.

(* The "%d" conversion of a non-negative int. *)
Definition dec (n : N) : string := NilEmpty.string_of_uint (N.to_uint n).

(* syscall_filter.c:210-230; snprintf keeps 31 characters of the label. *)
Definition get_label_id (labels : list string) (s : string) : cres (N * list string) :=
  match bpf_label_id labels s with
  | (Some i, l') => COk (i, l')
  | (None, _) => CDie
  end.
Definition group_end_str (nr grp : N) : string :=
  stake 31 (dec nr ++ "_" ++ dec grp ++ "_end")%string.
Definition success_str (nr : N) : string := stake 31 (dec nr ++ "_success")%string.
Definition group_end_lbl labels nr grp := get_label_id labels (group_end_str nr grp).
Definition success_lbl labels nr := get_label_id labels (success_str nr).

(* syscall_filter.c:237-320.  The instructions appended to |head| are
   returned.  argidx is a long passed as an int (line 314). *)
Definition compile_atom (b : build) (labels : list string) (nr grp : N) (atom : string)
  : cres (list instr * list string) :=
  match words c_sp atom with
  | [argidx_str; operator_str; constant_str] =>
      if negb (has_prefix "arg" argidx_str) then CFail
      else
        let idx_str := sdrop 3 argidx_str in
        let '(argidx, rest, _) := strtol (wordN (b_plat b)) 10 idx_str in
        if String.eqb rest idx_str || negb (String.eqb rest "") then CFail
        else match str_to_op operator_str with
             | None => CFail
             | Some o =>
                 match parse_constant (wordN (b_plat b)) (b_consts b) constant_str with
                 | POk c =>
                     do (id, labels') <- group_end_lbl labels nr grp;
                     COk (bpf_arg_comp (b_plat b) o (to_int argidx) c id, labels')
                 | _ => CFail
                 end
             end
  | _ => CFail
  end.

(* The action used when no errno is given; syscall_filter.c:346-359 has no
   ACT_LOG case that returns 0. *)
Definition action_instr (a : action) : instr :=
  match a with
  | ACT_KILL => ret_kill
  | ACT_TRAP => ret_trap
  | ACT_LOG => ret_log
  | ACT_KILL_PROCESS => ret_kill_process
  end.

(* syscall_filter.c:322-362.  errno_val is the long result converted to int:
   it is -1 exactly when its low 32 bits are all ones. *)
Definition compile_errno (b : build) (a : action) (ret_errno_str : string) : cres instr :=
  match words c_sp ret_errno_str with
  | [] => CFail
  | ret_str :: more =>
      if negb (has_prefix "return" ret_str) then CFail
      else match more with
           | errno_str :: _ =>
               match parse_constant (wordN (b_plat b)) (b_consts b) errno_str with
               | POk v => if (to_int (Z.of_N v) =? -1)%Z then CFail
                          else COk (ret_errno v)
               | _ => CFail
               end
           | [] => match a with
                   | ACT_LOG => CFail
                   | _ => COk (action_instr a)
                   end
           end
  end.

(* syscall_filter.c:455-463: the atoms of one conjunction. *)
Fixpoint compile_atoms (b : build) (labels : list string) (nr grp : N) (atoms : list string)
  : cres (list instr * list string) :=
  match atoms with
  | [] => COk ([], labels)
  | a :: rest =>
      do (c1, l1) <- compile_atom b labels nr grp a;
      do (c2, l2) <- compile_atoms b l1 nr grp rest;
      COk ((c1 ++ c2)%list, l2)
  end.

(* syscall_filter.c:452-478: the conjunctions. *)
Fixpoint compile_groups (b : build) (labels : list string) (nr grp : N) (groups : list string)
  : cres (list instr * list string) :=
  match groups with
  | [] => COk ([], labels)
  | g :: rest =>
      do (c1, l1) <- compile_atoms b labels nr grp (tokens "&&" g);
      do (sid, l2) <- success_lbl l1 nr;
      do (eid, l3) <- group_end_lbl l2 nr grp;
      do (c2, l4) <- compile_groups b l3 nr (grp + 1) rest;
      COk ((c1 ++ [jump_lbl sid; lbl eid] ++ c2)%list, l4)
  end.

(* syscall_filter.c:364-521.  The linked list of blocks is the concatenation
   of their instructions. *)
Definition compile_policy_line (b : build) (labels : list string) (nr entry : N)
           (a : action) (line : string) : cres (list instr * list string) :=
  if String.eqb line "" then CFail
  else if has_prefix "return" line then
    do i <- compile_errno b a line;
    COk ([lbl entry; i], labels)
  else
    let fields := words ";"%char line in
    let groups := match fields with
                  | arg_filter :: _ => tokens "||" arg_filter
                  | [] => []          (* strtok_r returned NULL *)
                  end in
    do (c1, l1) <- compile_groups b labels nr 0 groups;
    do r <- (match fields with
             | _ :: ret_errno :: _ => compile_errno b a ret_errno
             | _ => COk (action_instr a)
             end);
    do (sid, l2) <- success_lbl l1 nr;
    COk ((lbl entry :: c1 ++ [r] ++ [lbl sid; ret_allow])%list, l2).

(* Everything compile_file threads through: the main filter, the argument
   blocks, the labels, the indices of syscalls already defined
   (previous_syscalls), and whether ret has been set to -1 without leaving the
   loop (duplicates, line 699). *)
Record cstate := CS {
  cs_head : list instr;
  cs_args : list instr;
  cs_labels : list string;
  cs_seen : list N;
  cs_bad : bool
}.

(* A file that can be opened by name: fopen(3) result. *)
Definition files := string -> option stream.

(* syscall_filter.c:232-235 *)
Definition is_implicit_relative_path (f : string) : bool :=
  negb (has_prefix "/" f) && negb (has_prefix "./" f).

(* syscall_filter.c:523-571: the file name of an @include at level 0. *)
Definition parse_include (line : string) : option string :=
  if negb (has_prefix "@include" line) then None
  else if negb (has_prefix " " (sdrop 8 line)) then None
  else match strsep c_sp line with
       | (_, Some f) => if is_implicit_relative_path f then None else Some f
       | (_, None) => None
       end.

(* The regular policy line part of the loop, syscall_filter.c:656-744.
   bpf_label_id's -1 becomes the unsigned id 0xffffffff (line 718). *)
Definition compile_rule (b : build) (o : fopts) (st : cstate) (policy_line : string)
  : cres cstate :=
  match strsep ":"%char policy_line with
  | (_, None) => CFail
  | (name, Some body) =>
      let body := strip body in
      if String.eqb body "" then CFail
      else
        let name := strip name in
        match lookup_syscall (b_syscalls b) name with
        | None => if fo_allow_logging o then COk st else CFail
        | Some (nr, ind) =>
            let dup := existsb (N.eqb ind) (cs_seen st) in
            let bad := cs_bad st || (dup && negb (fo_allow_dup o)) in
            let seen := if dup then cs_seen st else ind :: cs_seen st in
            if String.eqb body "1" then
              COk (CS (cs_head st ++ bpf_allow_syscall nr)%list (cs_args st)
                      (cs_labels st) seen bad)
            else
              let (oid, labels1) := bpf_label_id (cs_labels st) name in
              let id := match oid with Some i => i | None => 4294967295 end in
              do (blk, labels2) <- compile_policy_line b labels1 nr id (fo_action o) body;
              COk (CS (cs_head st ++ bpf_allow_syscall_args nr id)%list
                      (cs_args st ++ blk)%list labels2 seen bad)
        end
  end.

(* One line of compile_file, syscall_filter.c:599-745.  [include] is what the
   recursive call of line 640 does with a file name (CFail when fopen fails;
   nested levels reject every @include). *)
Definition compile_line (b : build) (o : fopts) (include : string -> cstate -> cres cstate)
           (st : cstate) (raw : string) : cres cstate :=
  let line := strip raw in
  match line with
  | EmptyString => COk st
  | String "#" _ => COk st
  | String "@" _ =>
      if has_prefix "@frequency" line then COk st
      else match parse_include line with
           | None => CFail
           | Some f => include f st
           end
  | _ => compile_rule b o st line
  end.

Fixpoint compile_lines (b : build) (o : fopts) (include : string -> cstate -> cres cstate)
         (st : cstate) (lines : list string) : cres cstate :=
  match lines with
  | [] => COk st
  | l :: rest => do st' <- compile_line b o include st l;
                 compile_lines b o include st' rest
  end.

(* syscall_filter.c:573-759.  A read error makes the result -1 (747-755). *)
Definition compile_stream (b : build) (o : fopts) (include : string -> cstate -> cres cstate)
           (st : cstate) (f : stream) : cres cstate :=
  do st' <- compile_lines b o include st (multilines (s_bytes f));
  if s_ioerr f then CFail else COk st'.

(* Level 1: parse_include_statement refuses (line 544). Level 0: open the
   file, compile it at level 1; a nested ret = -1 fails the includer
   (lines 632-649). *)
Definition include1 : string -> cstate -> cres cstate := fun _ _ => CFail.
Definition include0 (b : build) (o : fopts) (fs : files) (name : string) (st : cstate)
  : cres cstate :=
  match fs name with
  | None => CFail
  | Some f =>
      do st' <- compile_stream b o include1
                  (CS (cs_head st) (cs_args st) (cs_labels st) (cs_seen st) false) f;
      if cs_bad st' then CFail
      else COk (CS (cs_head st') (cs_args st') (cs_labels st') (cs_seen st') (cs_bad st))
  end.

(* syscall_filter.c:197-208; lookup failure gives nr = -1. *)
Definition allow_selected (b : build) (names : list string) : list instr :=
  flat_map (fun n => bpf_allow_syscall
                       (match lookup_syscall (b_syscalls b) n with
                        | Some (nr, _) => nr
                        | None => 4294967295
                        end)) names.

(* syscall_filter.c:785-807 *)
Definition prologue (b : build) (o : fopts) : list instr :=
  (bpf_validate_arch (b_plat b) ++ [load_syscall_nr]
   ++ (if fo_allow_syscalls_for_logging o then allow_selected b (b_log b) else [])
   ++ (if fo_libc_compat o then allow_selected b (b_libc b) else []))%list.

(* syscall_filter.c:761-889.  initial_file = None models NULL. *)
Definition compile_filter (b : build) (o : fopts) (fs : files) (initial : option stream)
  : cres (list instr) :=
  match initial with
  | None => CFail
  | Some f =>
      do st <- compile_stream b o (include0 b o fs)
                 (CS (prologue b o) [] [] [] false) f;
      if cs_bad st then CFail
      else
        do def <- (match fo_action o with
                   | ACT_LOG => if fo_allow_logging o then COk ret_log else CFail
                   | a => COk (action_instr a)
                   end);
        let final := (cs_head st ++ [def] ++ cs_args st)%list in
        if Nat.ltb BPF_MAXINSNS (length final) then CFail
        else match bpf_resolve_jumps (length (cs_labels st)) final with
             | ROk p => COk p
             | RErr => CFail
             | RUb => CUb
             end
  end.
