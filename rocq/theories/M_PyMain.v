(* Model of tools/compile_seccomp_policy.py: main, over M_PyParse.
   The command line is what argparse makes of it (55-113). *)
From Verif Require Import M_Dump.
From Verif Require Export M_PyParse.
Local Open Scope N_scope.

(* 55-112.  [c_limit]: --include-depth-limit, a text, as no type is given (63). *)
Record py_line := PyLine {
  c_strategy : strategy; c_limit : option string; c_denylist : bool; c_default : option string; c_kill_process : bool;
  c_ret_log : bool; c_header : bool; c_policy : string; c_output : string }.
(* The system: the tables in --arch-json (None: it is not there or cannot be
   read), whether MINIJAIL_DEFAULT_RET_LOG is set, how names in @include are
   resolved, the texts of files, how deep files can be nested before Python
   gives up, the byte order, which files can be opened for writing, and how much
   of what is written arrives: less than all of it is an exception. *)
Record py_world := PyWorld {
  y_arch : option parch; y_env_log : bool; y_resolve : string -> string -> string; y_text : string -> option string;
  y_stack : nat; y_little : bool; y_opens : string -> bool; y_arrives : list N -> nat }.
(* How it ends: status 0 and the file; or not, and what is then in the file if
   it was touched. *)
Inductive py_end := Y_done (path : string) (content : list N) | Y_failed (touched : option (string * list N)).

(* 124-144 *)
Definition ret_log (w : py_world) (c : py_line) : bool := c_ret_log c || y_env_log w.
Definition kill_value (w : py_world) (c : py_line) (a : parch) : option N :=
  if ret_log w c then Some RET_LOG
  else if c_denylist c then
    match lookup "EPERM"%string (pa_constants a) with                               (* KeyError *)
    | Some v => Some (N.lor RET_ERRNO (Z.to_N (v mod 65536)%Z))                     (* bpf.py:232-247 *)
    | None => None
    end
  else if c_kill_process c then Some RET_KILL_PROCESS
  else Some RET_KILL_THREAD.
(* 145-150: the outer None is an exception; what follows the action is not
   looked at.  For texts without line breaks. *)
Definition override (c : py_line) (a : parch) : option (option N) :=
  match c_default c with
  | None | Some EmptyString => Some None
  | Some s =>
      match tokenize [s] [] with
      | Some (ts :: _) =>
          match parse_action a false false ts with
          | Some (Kill, _) => Some (Some RET_KILL_PROCESS)
          | Some (New v, _) => Some (Some v)
          | None => None
          end
      | _ => None
      end
  end.
(* parser.py:693: the number of open files and "<memory>" is compared with the
   limit; 10 is one, a text never equal *)
Definition levels (w : py_world) (c : py_line) : nat := match c_limit c with None => 8 | Some _ => y_stack w end.
(* argparse.FileType: "-" is standard input, whose name is then opened *)
Definition policy_name (c : py_line) : string := if String.eqb (c_policy c) "-" then "<stdin>" else c_policy c.
Definition options (w : py_world) (c : py_line) (a : parch) : option popts :=
  match kill_value w c a, override c a with
  | Some k, Some v => Some (POpts k (c_denylist c) (ret_log w c) (levels w c) v (c_strategy c))
  | _, _ => None
  end.

(* bpf.py:146-148, 175-177: struct.pack fails for what does not fit *)
Definition packs (i : instr) : bool := (code i <? 2 ^ 16) && (jt i <? 2 ^ 8) && (jf i <? 2 ^ 8) && (k i <? 2 ^ 32).
Definition opcodes (w : py_world) (p : list instr) : option (list N) :=
  if forallb packs p then Some (concat (map (dump_instr (y_little w)) p)) else None.

(* 32-51, 162-177; upper() for ASCII only *)
Definition codes (s : string) : list N := map Ascii.N_of_ascii (list_ascii_of_string s).
Definition upper_char (c : ascii) : ascii := if in_range "a" "z" c then Ascii.ascii_of_N (Ascii.N_of_ascii c - 32) else c.
Definition upper (s : string) : string := string_of_list_ascii (map upper_char (list_ascii_of_string s)).
Definition lines (l : list string) : string := String.concat "" (map (fun s => s ++ eol)%string l).
Definition header (name : string) (bytes : list N) : string :=
  lines ["/* DO NOT EDIT GENERATED FILE */"; "#ifndef MJ_SECCOMP_" ++ upper name ++ "_H"; "#define MJ_SECCOMP_" ++ upper name ++ "_H";
         "#include <stdint.h>"; "";
         "static const unsigned char " ++ name ++ "_binary_seccomp_policy[] __attribute__((__aligned__(4))) = {";
         "    " ++ String.concat ", " (map dec bytes); "};"; "";
         "static const struct {"; "    uint16_t cnt;"; "    const void *bpf;"; "} " ++ name ++ "_seccomp_bpf_program = {";
         "    .cnt = sizeof(" ++ name ++ "_binary_seccomp_policy) / 8,"; "    .bpf = " ++ name ++ "_binary_seccomp_policy,"; "};"; ""; "#endif"]%string.

(* 160-183: the file is opened, and emptied, before the bytes are made *)
Definition write (w : py_world) (path : string) (content : option (list N)) : py_end :=
  if negb (y_opens w path) then Y_failed None
  else match content with
       | None => Y_failed (Some (path, []))
       | Some l => if Nat.leb (length l) (y_arrives w l) then Y_done path l else Y_failed (Some (path, firstn (y_arrives w l) l))
       end.
(* 116-183; the policy is opened twice, which is left out *)
Definition py_main (w : py_world) (c : py_line) : py_end :=
  match y_arch w with
  | None => Y_failed None
  | Some a =>
      match options w c a with
      | None => Y_failed None
      | Some o =>
          match compile_text a o (y_resolve w) (y_text w) (policy_name c) with
          | None => Y_failed None
          | Some p =>
              if c_header c then write w (c_output c ++ ".h") (option_map (fun b => codes (header (c_output c) b)) (opcodes w p))
              else write w (c_output c) (opcodes w p)
          end
      end
  end.
