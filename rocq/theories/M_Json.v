(* Model of tools/generate_constants_json.py, and of load_from_json_bytes
   (tools/arch.py:49-62).  Texts are ASCII, lines are without their line ends
   (the expressions treat a line end at the end of a line like a space or not
   at all).  The file constants.json is the dictionary it holds: json.dump and
   json.loads are taken to be inverse.  None is an exception. *)
From Coq Require Export String Ascii List NArith ZArith Bool.
From Verif Require Export M_PyParse.
From Verif Require M_Gen.
Export ListNotations.
Local Open Scope string_scope.

(* "." in an expression, [a-zA-Z0-9.], the match as a text *)
Definition any (c : ascii) : bool := negb (is_c "010" c).
Definition sym_char (c : ascii) : bool := is_letter c || is_digit c || is_c "." c.
Definition SYMBOL : re := Cat (Chr (is_c "@")) (some1 sym_char).
Definition upto (s rest : string) : string := substring 0 (String.length s - String.length rest) s.
(* p*?: as little as possible *)
Fixpoint lazily {A} (p : ascii -> bool) (prev : option ascii) (s : string) (k : option ascii -> string -> option A) : option A :=
  match k prev s with
  | Some r => Some r
  | None => match s with String c t => if p c then lazily p (Some c) t k else None | EmptyString => None end
  end.
(* 21 _STRING_CONSTANT_RE; its last .* always matches *)
Definition in_quotes (c : ascii) : bool := negb (is_c """" c || is_c "\" c).
Definition string_constant (line : string) : option (string * string) :=
  matching SYMBOL None line (fun p s1 =>
  matching (lit " = ") p s1 (fun p s2 =>
  matching (Many any) p s2 (fun p s3 =>
  matching (lit "c""") p s3 (fun p s4 =>
  matching (some1 in_quotes) p s4 (fun p s5 =>
  matching (lit "\00""") p s5 (fun _ _ => Some (upto line s1, upto s4 s5))))))).
(* 22-24 _TABLE_ENTRY_RE; the result is the group and what follows the match *)
Definition TABLE_ENTRY_HEAD : re :=
  Cat (lit "%struct") (Cat (Chr any) (Cat (Alt (lit "constant") (lit "syscall")) (Cat (lit "_entry") (Cat (Many is_space) (Cat (lit "{") (Many is_space)))))).
Definition table_entry (s : string) : option (string * string) :=
  matching TABLE_ENTRY_HEAD None s (fun p s1 =>
  matching (some1 (fun c => negb (is_c "}" c))) p s1 (fun p s2 =>
  matching (Cat (Many is_space) (lit "}")) p s2 (fun _ s3 => Some (upto s1 s2, s3)))).
(* findall; [skip]: characters that belong to the last match *)
Fixpoint findall (skip : nat) (s : string) : list string :=
  match s with
  | EmptyString => []
  | String _ t =>
      match skip with
      | S k => findall k t
      | O => match table_entry s with Some (g, rest) => g :: findall (String.length t - String.length rest) t | None => findall 0 t end
      end
  end.
(* 31 _TABLE_ENTRY_CONTENTS *)
Definition contents (e : string) : option (string * Z) :=
  lazily any None e (fun p s1 =>
  matching (Alt (lit "null") SYMBOL) p s1 (fun p s2 =>
  matching (Many any) p s2 (fun p s3 =>
  matching (lit " ") p s3 (fun p s4 =>
  matching DECIMAL_REGEX p s4 (fun _ s5 => Some (upto s1 s2, py_int 10 (upto s4 s5))))))).
(* 47 _IGNORED_ENTRY_CONTENTS *)
Definition ignored (e : string) : bool :=
  match lazily any None e (fun p s1 =>
    matching (Cat (lit " ptrto") (Cat (Many any) (Cat (lit " (") (Cat (Many any) (lit ")"))))) p s1 (fun _ _ => Some tt)) with
  | Some _ => true | None => false end.

(* dict[key] = value *)
Fixpoint dict_set {A} (n : string) (v : A) (d : list (string * A)) : list (string * A) :=
  match d with
  | [] => [(n, v)]
  | (m, x) :: t => if String.eqb m n then (m, v) :: t else (m, x) :: dict_set n v t
  end.
(* 80-90 *)
Fixpoint read_entries (strings : list (string * string)) (es : list string) (table : list (string * Z)) : option (list (string * Z)) :=
  match es with
  | [] => Some table
  | e :: es =>
      match contents e with
      | None => if ignored e then read_entries strings es table else None
      | Some (name, v) =>
          if String.eqb name "null" then Some table
          else match lookup name strings with Some n => read_entries strings es (dict_set n v table) | None => None end
      end
  end.
Record ir_state := IrState { ir_strings : list (string * string); ir_name : string; ir_entries : list (string * Z) }.
(* 66-90, a line *)
Definition read_line (st : ir_state) (line : string) : option ir_state :=
  match string_constant line with
  | Some (sym, text) => Some (IrState (dict_set sym text (ir_strings st)) (ir_name st) (ir_entries st))
  | None =>
      if M_Gen.py_in "@syscall_table" line || M_Gen.py_in "@constant_table" line then
        match read_entries (ir_strings st) (findall 0 line) (ir_entries st) with
        | Some t => Some (IrState (ir_strings st) (if M_Gen.py_in "@syscall_table" line then "syscalls" else "constants") t)
        | None => None
        end
      else Some st
  end.
Fixpoint read_lines (st : ir_state) (lines : list string) : option ir_state :=
  match lines with [] => Some st | l :: ls => match read_line st l with Some st => read_lines st ls | None => None end end.
(* 61-92 *)
Definition parse_llvm_ir (lines : list string) : option (string * list (string * Z)) :=
  match read_lines (IrState [] "" []) lines with Some st => Some (ir_name st, ir_entries st) | None => None end.

(* What is in constants.json. *)
Record json := Json { j_tables : list (string * list (string * Z)); j_arch_nr : Z; j_bits : Z; j_arch_name : string }.
(* 118-121 *)
Fixpoint tables (files : list (list string)) (d : list (string * list (string * Z))) : option (list (string * list (string * Z))) :=
  match files with
  | [] => Some d
  | f :: fs => match parse_llvm_ir f with Some (n, t) => tables fs (dict_set n t d) | None => None end
  end.
(* 127-140 *)
Definition arch_name (nr : Z) : option string :=
  if (nr =? 0xC000003E)%Z then Some "x86_64" else if (nr =? 0x40000003)%Z then Some "x86"
  else if (nr =? 0xC00000B7)%Z then Some "arm64" else if (nr =? 0x40000028)%Z then Some "arm"
  else if (nr =? 0xC00000F3)%Z then Some "riscv64" else None.
(* 95-145 main, with the files opened *)
Definition generate (files : list (list string)) : option json :=
  match tables files [] with
  | None => None
  | Some d =>
      match lookup "constants" d with
      | None => None                                                    (* KeyError *)
      | Some c =>
          match lookup "MINIJAIL_ARCH_NR" c, lookup "MINIJAIL_ARCH_BITS" c with
          | Some nr, Some bits => match arch_name nr with Some n => Some (Json d nr bits n) | None => None end
          | _, _ => None
          end
      end
  end.
(* tools/arch.py:49-62.  Numbers of system calls, the audit number and the
   width are natural numbers in the model of the compiler. *)
Definition load_from_json (j : json) : option parch :=
  match lookup "syscalls" (j_tables j), lookup "constants" (j_tables j) with
  | Some s, Some c => Some (PArch (Arch (Z.to_N (j_arch_nr j)) (Z.to_N (j_bits j))) (j_arch_name j) (map (fun e => (fst e, Z.to_N (snd e))) s) c [])
  | _, _ => None
  end.
