(* Model of parse_seccomp_policy, parse_seccomp_policy.cc:17-109, over M_Filter.
   The command line is what getopt_long makes of it: the options in order, and
   the other arguments.  The text of usage and error messages is left out. *)
From Coq Require Import HexadecimalString.
From Verif Require Export M_Filter.
Local Open Scope N_scope.

(* 50-72; -d needs an argument, --dump may have one *)
Inductive dump_option := O_help | O_dump (path : option string) | O_unknown.
(* [p_dashes]: the command line has "--" *)
Record dump_line := DumpLine { p_opts : list dump_option; p_args : list string; p_dashes : bool }.
(* argv[1] is NULL exactly if nothing was given; getopt_long only permutes argv *)
Definition has_argv1 (c : dump_line) : bool :=
  match p_opts c, p_args c with [], [] => p_dashes c | _, _ => true end.

(* copy_parser_state, syscall_filter.c:164-173, copies the name of the file:
   strdup(NULL) is undefined.  It is reached (via 189-193) by the first line for
   a system call, after the checks of 657-692. *)
Definition copies_name (b : build) (st : cstate) (raw : string) : bool :=
  match strip raw with
  | EmptyString | String "#" _ | String "@" _ => false
  | line =>
      match strsep ":"%char line with
      | (_, None) => false
      | (name, Some body) =>
          negb (String.eqb (strip body) "") &&
          match lookup_syscall (b_syscalls b) (strip name) with
          | None => false
          | Some (_, ind) => negb (existsb (N.eqb ind) (cs_seen st))
          end
      end
  end.
(* compile_file on the initial file, with and without its name; included files
   have names *)
Fixpoint compile_named_lines (named : bool) (b : build) (o : fopts) (include : string -> cstate -> cres cstate)
         (st : cstate) (lines : list string) : cres cstate :=
  match lines with
  | [] => COk st
  | l :: rest => if negb named && copies_name b st l then CUb
                 else do st' <- compile_line b o include st l; compile_named_lines named b o include st' rest
  end.
(* syscall_filter.c:761-889 as M_Filter's compile_filter *)
Definition compile_filter_named (named : bool) (b : build) (o : fopts) (fs : files) (f : stream) : cres (list instr) :=
  match compile_named_lines named b o (include0 b o fs) (CS (prologue b o) [] [] [] false) (multilines (s_bytes f)) with
  | CUb => CUb
  | _ => compile_filter b o fs (Some f)
  end.

(* 80-84; [dup]: allow_duplicate_syscalls() *)
Definition dump_fopts (dup : bool) : fopts := FOpts ACT_KILL false false dup false.

(* struct sock_filter in memory: code (16 bits), jt, jf (8 each), k (32) *)
Fixpoint le_bytes (n : nat) (v : N) : list N :=
  match n with O => [] | S n => v mod 256 :: le_bytes n (v / 256) end.
Definition in_memory (little_endian : bool) (n : nat) (v : N) : list N :=
  if little_endian then le_bytes n v else rev (le_bytes n v).
Definition dump_instr (le : bool) (i : instr) : list N :=
  (in_memory le 2 (code i) ++ in_memory le 1 (jt i) ++ in_memory le 1 (jf i) ++ in_memory le 4 (k i))%list.
(* DumpBpfProg, 17-27; "%#x" is "0" for 0 *)
Definition hex (n : N) : string :=
  if n =? 0 then "0" else ("0x" ++ NilEmpty.string_of_uint (N.to_hex_uint n))%string.
Definition tab : string := String (Ascii.ascii_of_N 9) "".
Definition eol : string := String (Ascii.ascii_of_N 10) "".
Definition show_instr (n : N) (i : instr) : string :=
  (dec n ++ ": " ++ tab ++ "{ code=" ++ hex (code i) ++ ", jt=" ++ dec (jt i) ++ ", jf=" ++ dec (jf i) ++ ", k=" ++ hex (k i) ++ " " ++ tab ++ "}" ++ eol)%string.
Fixpoint show_from (n : N) (p : list instr) : string :=
  match p with [] => "" | i :: p => (show_instr n i ++ show_from (n + 1) p)%string end.
Definition show_prog (p : list instr) : string :=
  ("len == " ++ dec (N.of_nat (length p) mod 65536) ++ eol ++ "filter:" ++ eol ++ show_from 0 p)%string.

(* The system: what fopen gives for reading, standard input, which files can be
   opened for writing, whether fwrite says that it wrote all of the bytes, and
   how many of them are in the file in the end: those that were buffered may be
   lost when fclose fails, which is not looked at (line 100). *)
Record dump_world := DumpWorld {
  d_build : build; d_dup : bool; d_files : files; d_stdin : stream;
  d_opens : string -> bool; d_wrote : list N -> bool; d_kept : list N -> nat }.
(* Where a program went: nowhere, to standard output as a listing, or as bytes
   to standard output (None) or a file. *)
Inductive dump_out := Out_none | Out_listing (s : string) | Out_bytes (path : option string) (l : list N).
Inductive dump_end := D_exits (code : N) | D_aborts | D_undefined.

(* 60-72: -h ends the program at once, unknown options are ignored; the result
   is whether to dump, and where to: an empty name is none *)
Fixpoint dump_options (l : list dump_option) (dump : bool) (path : string) : option (bool * string) :=
  match l with
  | [] => Some (dump, path)
  | O_help :: _ => None
  | O_dump a :: l => dump_options l true (match a with Some p => p | None => path end)
  | O_unknown :: l => dump_options l dump path
  end.
(* 74-79 *)
Definition dump_input (w : dump_world) (args : list string) : option stream :=
  match args with
  | [] => Some (d_stdin w)
  | a :: _ => if String.eqb a "-" then Some (d_stdin w) else d_files w a
  end.
(* 86-108; standard output is always there *)
Definition dump_write (w : dump_world) (path : option string) (prog : list instr) : dump_end * dump_out :=
  let bytes := concat (map (dump_instr (little (b_plat (d_build w)))) prog) in
  let ok := match path with Some p => d_opens w p | None => true end in
  if negb ok then (D_aborts, Out_none)
  else let there := Out_bytes path (firstn (d_kept w bytes) bytes) in
       if d_wrote w bytes then (D_exits 0, there) else (D_aborts, there).
Definition dump_main (w : dump_world) (c : dump_line) : dump_end * dump_out :=
  match dump_options (p_opts c) false "" with
  | None => (D_exits 0, Out_none)
  | Some (dump, path) =>
      match dump_input w (p_args c) with
      | None => (D_aborts, Out_none)
      | Some f =>
          match compile_filter_named (has_argv1 c) (d_build w) (dump_fopts (d_dup w)) (d_files w) f with
          | COk prog =>
              if dump then dump_write w (if String.eqb path "" then None else Some path) prog
              else (D_exits 0, Out_listing (show_prog prog))
          | CFail | CDie => (D_aborts, Out_none)
          | CUb => (D_undefined, Out_none)
          end
      end
  end.
