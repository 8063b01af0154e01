(* Model of reading a file line by line: getline(3) and /repo/util.c
   getmultiline. *)
From Verif Require Export M_CStr.
Local Open Scope string_scope.

(* A FILE opened for reading: its bytes, and whether reading stops with an
   I/O error (feof false) instead of end of file. *)
Record stream := Stream { s_bytes : string; s_ioerr : bool }.

(* What successive getline(3) calls return, newline removed
   (util.c:646-653). *)
Fixpoint phys_lines_aux (cur : string) (any : bool) (s : string) : list string :=
  match s with
  | EmptyString => if any then [cur] else []
  | String c s' =>
      if Ascii.eqb c c_nl then cur :: phys_lines_aux EmptyString false s'
      else phys_lines_aux (cur ++ String c EmptyString) true s'
  end.
Definition phys_lines (s : string) : list string := phys_lines_aux EmptyString false s.

(* The line without its final backslash, if it has one (util.c:656-660). *)
Fixpoint chop_backslash (s : string) : option string :=
  match s with
  | EmptyString => None
  | String c EmptyString => if Ascii.eqb c c_bsl then Some EmptyString else None
  | String c s' => match chop_backslash s' with
                   | Some r => Some (String c r)
                   | None => None
                   end
  end.

(* util.c:644-678: what successive getmultiline calls return until -1.  A
   line ending in a backslash is joined to the next logical line with a
   space; if there is none, getmultiline returns -1 and nothing is left. *)
Fixpoint logical_lines (ls : list string) : list string :=
  match ls with
  | [] => []
  | l :: rest =>
      match chop_backslash l with
      | None => l :: logical_lines rest
      | Some l' => match logical_lines rest with
                   | [] => []
                   | n :: ns => (l' ++ " " ++ n) :: ns
                   end
      end
  end.

(* The lines a caller of getmultiline sees, as C strings. *)
Definition multilines (s : string) : list string :=
  map cstr (logical_lines (phys_lines s)).
