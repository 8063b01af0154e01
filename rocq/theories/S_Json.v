(* How clang writes the tables of libsyscalls.gen.c and libconstants.gen.c, and
   what constants.json should then hold, for C84. *)
From Verif Require Export S_Text S_Const S_PyText M_Json.
Local Open Scope string_scope.

Definition without (bad : string) (s : string) : Prop := all_chars (fun c => c <> "010"%char /\ forall a b, bad <> a ++ String c b) s.
Definition symbol (s : string) : Prop := exists t, s = "@" ++ t /\ one_of (fun c => letter c \/ dec_digit c \/ c = "."%char) t.
(* @.str.5 = private unnamed_addr constant [5 x i8] c"name\00", align 1 *)
Inductive string_line : string -> string -> string -> Prop :=
  | sl sym mid name rest : symbol sym -> without """" mid -> name <> "" -> without """\" name -> without """" rest ->
      string_line (sym ++ " = " ++ mid ++ "c""" ++ name ++ "\00""" ++ rest) sym name.
Definition decimal (s : string) (v : Z) : Prop :=
  exists n, digits_val 10 s n /\ v = Z.of_N n \/ exists t, s = "-" ++ t /\ digits_val 10 t n /\ v = (- Z.of_N n)%Z.
(* What is between the braces of an entry: the type of the first member, a
   symbol, what follows it, the number after the last space.  Both
     i8* getelementptr inbounds ([5 x i8], [5 x i8]* @.str.5, i32 0, i32 0), i32 5
     ptr @.str.5, i32 5
   are of this form. *)
Inductive entry_text : string -> string -> Z -> Prop :=
  | et ty sym mid num v : without "@}" ty -> ~ contains "null" ty -> (forall c t, ty = String c t -> ~ white c) -> symbol sym -> without "}" mid ->
      (forall c t, mid = String c t -> ~ (letter c \/ dec_digit c \/ c = "."%char)) -> decimal num v ->
      entry_text (ty ++ sym ++ mid ++ " " ++ num) sym v.
(* A pointer as a constant: ptr @.str.894, i32 ptrtoint (ptr @.str.895 to i32) *)
Inductive pointer_text : string -> Prop :=
  | pt sym sym' w w' : symbol sym -> symbol sym' -> one_of dec_digit w -> one_of dec_digit w' ->
      pointer_text ("ptr " ++ sym ++ ", i" ++ w ++ " ptrtoint (ptr " ++ sym' ++ " to i" ++ w' ++ ")").
(* The entries in a table's line.  [strings]: what the symbols stand for;
   [kind]: constant or syscall. *)
Definition braced (kind body : string) : string := "%struct." ++ kind ++ "_entry { " ++ body ++ " }".
Inductive entries_text (kind : string) (strings : list (string * string)) : string -> list (string * Z) -> Prop :=
  | es_end ty num v rest : without "@}" ty -> (forall c t, ty = String c t -> ~ white c) -> decimal num v -> without "%" rest ->
      entries_text kind strings (braced kind (ty ++ "null, i32 " ++ num) ++ rest) []
  | es_zero rest : without "%" rest -> entries_text kind strings ("%struct." ++ kind ++ "_entry zeroinitializer" ++ rest) []
  | es_entry body sym name v more table : entry_text body sym v -> In (sym, name) strings -> entries_text kind strings more table ->
      entries_text kind strings (braced kind body ++ ", " ++ more) ((name, v) :: table)
  | es_pointer body more table : pointer_text body -> entries_text kind strings more table ->
      entries_text kind strings (braced kind body ++ ", " ++ more) table.
(* @syscall_table = dso_local constant [3 x %struct.syscall_entry] [%struct.syscall_entry { ... }, ...], align 16 *)
Inductive table_line (kind : string) (strings : list (string * string)) : string -> list (string * Z) -> Prop :=
  | tl mid text table line : without "%""" mid -> entries_text kind strings text table -> without """" text ->
      line = "@" ++ kind ++ "_table = " ++ mid ++ "%struct." ++ kind ++ "_entry] [" ++ text ->
      (kind = "constant" -> ~ contains "@syscall_table" line) -> table_line kind strings line table.
(* Lines of no interest. *)
Definition other_line (l : string) : Prop := ~ contains """" l /\ ~ contains "@syscall_table" l /\ ~ contains "@constant_table" l.
Inductive string_lines : list string -> list (string * string) -> Prop :=
  | ls_nil : string_lines [] []
  | ls_other l ls strings : other_line l -> string_lines ls strings -> string_lines (l :: ls) strings
  | ls_string l ls sym name strings : string_line l sym name -> string_lines ls strings -> string_lines (l :: ls) ((sym, name) :: strings).
(* A file: strings, each under its own symbol, the table, and lines of no
   interest; among these the size of the table of system calls. *)
Definition quiet_line (kind l : string) : Prop :=
  other_line l \/ kind = "syscall" /\ exists rest, l = "@syscall_table_size" ++ rest /\ without "%""" rest.
Inductive ir_file (kind : string) (table : list (string * Z)) : list string -> Prop :=
  | irf before line after strings : string_lines before strings -> NoDup (map fst strings) -> table_line kind strings line table ->
      Forall (quiet_line kind) after -> ir_file kind table (before ++ line :: after)%list.

(* The value a table gives a name: that of the last entry with it. *)
Definition last_value (table : list (string * Z)) (n : string) (v : Z) : Prop :=
  exists a b, table = (a ++ (n, v) :: b)%list /\ ~ In n (map fst b).
Definition holds (d table : list (string * Z)) : Prop :=
  NoDup (map fst d) /\ forall n v, In (n, v) d <-> last_value table n v.
Definition machine (nr : Z) (name : string) : Prop :=
  In (nr, name) [(0xC000003E, "x86_64"); (0x40000003, "x86"); (0xC00000B7, "arm64"); (0x40000028, "arm"); (0xC00000F3, "riscv64")]%Z.
