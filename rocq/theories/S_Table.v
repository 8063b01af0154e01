(* The macros of the headers and the tables of minijail, for C85. *)
From Verif Require Export S_Text S_Const S_PyText M_Table.
Local Open Scope string_scope.

(* Lines the preprocessor prints. *)
Inductive directive := Define (name text : string) | Define_fun (name rest : string) | Undef (name : string) | Other (line : string).
Definition line_of (d : directive) : string :=
  match d with
  | Define n t => "#define " ++ n ++ " " ++ t
  | Define_fun n r => "#define " ++ n ++ "(" ++ r
  | Undef n => "#undef " ++ n
  | Other l => l
  end.
Definition identifier (n : string) : Prop := one_of word_char n.
Definition text_ok (t : string) : Prop := all_chars (fun c => c <> "010"%char) t /\ ~ contains "#define " t.
Definition directive_ok (d : directive) : Prop :=
  match d with
  | Define n t => identifier n /\ text_ok t
  | Define_fun n r => identifier n /\ text_ok r
  | Undef n => identifier n
  | Other l => text_ok l
  end.
(* Macros (without arguments) defined at the end. *)
Definition defined (ds : list directive) (m : string) : Prop :=
  exists a t b, ds = (a ++ Define m t :: b)%list /\ ~ In (Undef m) b.
Definition lower (c : ascii) : Prop := (97 <= N_of_ascii c <= 122)%N.
Definition upper (c : ascii) : Prop := (65 <= N_of_ascii c <= 90)%N.
(* __NR_read is read, __ARM_NR_breakpoint is ARM_breakpoint. *)
Definition call_macro (m name : string) : Prop :=
  exists x, all_chars (fun c => lower c \/ dec_digit c \/ c = "_"%char) x /\
    (m = "__NR_" ++ x /\ name = x \/ m = "__ARM_NR_" ++ x /\ name = "ARM_" ++ x).
(* Names of constants: capital letters, digits and underscores. *)
Definition constant_macro (m : string) : Prop :=
  exists c t, m = String c t /\ upper c /\ all_chars (fun c => upper c \/ dec_digit c \/ c = "_"%char) t.
(* Texts of macros that are taken: they start with a letter, a digit or an
   underscore, and four words do not occur in the line. *)
Definition plain_text (m t : string) : Prop :=
  (exists sp c r, t = sp ++ String c r /\ all_chars (fun c => (9 <= N_of_ascii c <= 13)%N \/ c = " "%char) sp /\ word_char c) /\
  forall w, In w ["SIGRTMAX"; "SIGRTMIN"; "SIG_"; "NULL"] -> ~ contains w ("#define " ++ m ++ " " ++ t).
(* The C compiler sees the macros defined at the end. *)
Definition sees (ds : list directive) (value : string -> option Z) : Prop := forall m, value m <> None <-> defined ds m.
