(* Model of gen_syscalls.sh and gen_constants.sh: from the output of the
   preprocessor (cc -dD -E) to the tables that the generated C files define.
   Texts are ASCII, lines without line ends; the order of the table of
   constants (sort) is left out. *)
From Coq Require Export String Ascii List NArith ZArith Bool.
From Verif Require Export M_PyParse M_Json.
From Verif Require M_Gen.
Export ListNotations.
Local Open Scope string_scope.

Definition is_lower (c : ascii) : bool := in_range "a" "z" c.
Definition is_upper (c : ascii) : bool := in_range "A" "Z" c.
Definition c_space (c : ascii) : bool := in_range "009" "013" c || is_c " " c.       (* [[:space:]] *)
Definition sys_char (c : ascii) : bool := is_lower c || is_digit c || is_c "_" c.    (* [[:lower:]0-9_] *)
Definition up_char (c : ascii) : bool := is_upper c || is_digit c || is_c "_" c.     (* [[:upper:]0-9_] *)
(* gen_syscalls.sh:50-52: the first place where the expression matches: what is
   before it, \1 and \3.  \4 and $ take the rest of the line. *)
Definition sys_match (l : string) : option (string * string * string) :=
  lazily any None l (fun p s0 =>
  matching (lit "#define __") p s0 (fun p s1 =>
  matching (maybe (lit "ARM_")) p s1 (fun p s2 =>
  matching (lit "NR_") p s2 (fun p s3 =>
  matching (Many sys_char) p s3 (fun p s4 =>
  matching (lit " ") p s4 (fun _ _ => Some (upto l s0, upto s1 s2, upto s3 s4))))))).
(* The entries: the macro and the name.  None: something is before "#ifdef", and
   the file does not compile. *)
Fixpoint sys_entries (lines : list string) : option (list (string * string)) :=
  match lines with
  | [] => Some []
  | l :: ls =>
      match sys_match l with
      | None => sys_entries ls
      | Some (before, arm, x) =>
          if String.eqb before "" then
            match sys_entries ls with Some es => Some (("__" ++ arm ++ "NR_" ++ x, arm ++ x) :: es) | None => None end
          else None
      end
  end.
(* gen_constants.sh:63-64 *)
Definition DEFINE_RE : re := Cat (lit "#define ") (Cat (Chr is_upper) (Cat (Many up_char) (Cat (some1 c_space) (Chr is_word)))).
Definition not_shown (l : string) : bool :=
  M_Gen.py_in "SIGRTMAX" l || M_Gen.py_in "SIGRTMIN" l || M_Gen.py_in "SIG_" l || M_Gen.py_in "NULL" l.
(* 51-53, for lines that DEFINE_RE matches *)
Definition const_name (l : string) : string :=
  match matching (lit "#define ") None l (fun p s1 => matching (Cat (Chr is_upper) (Many up_char)) p s1 (fun _ s2 => Some (upto s1 s2))) with
  | Some n => n | None => "" end.
Definition const_entries (lines : list string) : list (string * string) :=
  map (fun l => (const_name l, const_name l))
    (nodup string_dec (filter (fun l => re_test DEFINE_RE l && negb (not_shown l)) lines)).
(* What the C compiler makes of the entries, each between #ifdef and #endif.
   [value]: the macros defined then, with their values. *)
Definition built (value : string -> option Z) (es : list (string * string)) : list (string * Z) :=
  flat_map (fun e => match value (fst e) with Some v => [(snd e, v)] | None => [] end) es.
