(* Specification: what a seccomp policy text says, and what a filter built
   from it must answer.  Reading a text into a policy is a relation over
   S_Text/S_Const; deciding is a function on the policy and the system call. *)
From Coq Require Import String Ascii List ZArith NArith Bool.
From Verif Require Import S_Bpf S_Text S_Const.
From Verif Require M_Filter.
Import ListNotations.
Local Open Scope string_scope.

(* From the model only plain data types are used: the enumerations of
   comparison operators and actions, and the option and build records. *)
Notation op := M_Bpf.op.
Notation action := M_Filter.action.
Notation fopts := M_Filter.fopts.
Notation build := M_Filter.build.
Notation stream := M_Lines.stream.

(* ---- Policies ---- *)

Record atom := Atom { at_arg : Z; at_op : op; at_val : N }.

Inductive rule :=
| Allow                                   (* always allowed *)
| Return (v : N)                          (* always that seccomp return value *)
| Cond (alts : list (list atom)) (v : N). (* allowed if some conjunction holds,
                                             else return value v *)

(* Rules in file order: the name used, its system call number, the rule. *)
Record entry := Entry { e_name : string; e_nr : N; e_rule : rule }.
Definition policy := list entry.

(* ---- Seccomp return values (kernel ABI) ---- *)
Definition KILL_PROCESS : N := 0x80000000.
Definition KILL_THREAD : N := 0.
Definition TRAP : N := 0x00030000.
Definition ERRNO (e : N) : N := (0x00050000 + e mod 65536)%N.
Definition LOG : N := 0x7ffc0000.
Definition ALLOW : N := 0x7fff0000.

Definition action_value (a : action) : N :=
  match a with
  | M_Filter.ACT_KILL => KILL_THREAD
  | M_Filter.ACT_TRAP => TRAP
  | M_Filter.ACT_LOG => LOG
  | M_Filter.ACT_KILL_PROCESS => KILL_PROCESS
  end.

(* ---- Deciding one system call ---- *)

(* The value of argument i: 64 bits, or its low 32 bits on 32-bit builds. *)
Definition arg_value (b64 : bool) (d : sdata) (i : Z) : N :=
  let v := sd_arg d (Z.to_nat i) in
  if b64 then v else (v mod 2 ^ 32)%N.

(* Unsigned comparison, "some bit in common", "no bit outside". *)
Definition op_holds (o : op) (a c : N) : bool :=
  match o with
  | M_Bpf.EQ => (a =? c)%N
  | M_Bpf.NE => negb (a =? c)%N
  | M_Bpf.LT => (a <? c)%N
  | M_Bpf.LE => (a <=? c)%N
  | M_Bpf.GT => (c <? a)%N
  | M_Bpf.GE => (c <=? a)%N
  | M_Bpf.SET => negb (N.land a c =? 0)%N
  | M_Bpf.IN => (N.land a c =? a)%N
  end.

Definition atom_holds (b64 : bool) (d : sdata) (a : atom) : bool :=
  op_holds (at_op a) (arg_value b64 d (at_arg a)) (at_val a).

Definition rule_value (b64 : bool) (d : sdata) (r : rule) : N :=
  match r with
  | Allow => ALLOW
  | Return v => v
  | Cond alts v => if existsb (forallb (atom_holds b64 d)) alts then ALLOW else v
  end.

(* The first rule for that system call number. *)
Fixpoint find_rule (nr : N) (p : policy) : option rule :=
  match p with
  | [] => None
  | e :: t => if (e_nr e =? nr)%N then Some (e_rule e) else find_rule nr t
  end.

(* Numbers of a list of names; a name that does not exist on the platform
   stands for -1. *)
Definition number_of (tbl : list (string * N)) (name : string) (nr : N) : Prop :=
  first_entry tbl name nr \/
  ((forall v, ~ first_entry tbl name v) /\ nr = (2 ^ 32 - 1)%N).
Definition listed (tbl : list (string * N)) (names : list string) (nr : N) : Prop :=
  exists n, In n names /\ number_of tbl n nr.

(* System calls allowed by option, whatever the policy file says. *)
Definition allowed_by_option (b : build) (o : fopts) (nr : N) : Prop :=
  (M_Filter.fo_allow_syscalls_for_logging o = true /\
     listed (M_Filter.b_syscalls b) (M_Filter.b_log b) nr) \/
  (M_Filter.fo_libc_compat o = true /\
     listed (M_Filter.b_syscalls b) (M_Filter.b_libc b) nr).

(* The answer required for system call [d]. *)
Inductive verdict (b : build) (o : fopts) (p : policy) (d : sdata) : N -> Prop :=
| v_foreign :
    sd_arch d <> M_Bpf.arch_no (M_Filter.b_plat b) ->
    verdict b o p d KILL_THREAD
| v_option :
    sd_arch d = M_Bpf.arch_no (M_Filter.b_plat b) ->
    allowed_by_option b o (sd_nr d) ->
    verdict b o p d ALLOW
| v_rule r :
    sd_arch d = M_Bpf.arch_no (M_Filter.b_plat b) ->
    ~ allowed_by_option b o (sd_nr d) ->
    find_rule (sd_nr d) p = Some r ->
    verdict b o p d (rule_value (M_Bpf.bits64 (M_Filter.b_plat b)) d r)
| v_default :
    sd_arch d = M_Bpf.arch_no (M_Filter.b_plat b) ->
    ~ allowed_by_option b o (sd_nr d) ->
    find_rule (sd_nr d) p = None ->
    verdict b o p d (action_value (M_Filter.fo_action o)).

(* ---- Reading the text ---- *)

Definition op_name (s : string) (o : op) : Prop :=
  match o with
  | M_Bpf.EQ => s = "==" | M_Bpf.NE => s = "!=" | M_Bpf.LT => s = "<"
  | M_Bpf.LE => s = "<=" | M_Bpf.GT => s = ">" | M_Bpf.GE => s = ">="
  | M_Bpf.SET => s = "&" | M_Bpf.IN => s = "in"
  end.

(* A number clipped to a signed w-bit long, as strtol(3) does, then reduced
   to a 32-bit int. *)
Definition clip (w : N) (z : Z) : Z :=
  Z.max (- 2 ^ (Z.of_N w - 1)) (Z.min z (2 ^ (Z.of_N w - 1) - 1)).
Definition as_int (z : Z) : Z := ((z + 2 ^ 31) mod 2 ^ 32 - 2 ^ 31)%Z.

Section Reading.
  Variable b : build.
  Variable o : fopts.
  Variable fs : string -> option stream.

  Let w : N := if M_Bpf.bits64 (M_Filter.b_plat b) then 64%N else 32%N.
  Let tbl := M_Filter.b_consts b.

  (* "argN OP CONST" *)
  Inductive reads_atom : string -> atom -> Prop :=
  | ra s ds z ops op c v :
      runs " " s ["arg" ++ ds; ops; c] ->
      decimal_integer ds z ->
      op_name ops op ->
      const_expr w tbl c v ->
      reads_atom s (Atom (as_int (clip w z)) op v).

  (* "return", "return CONST": any first word starting with "return"; words
     after the second are not looked at. *)
  Inductive reads_return : string -> N -> Prop :=
  | rr_errno s x e more v :
      runs " " s (("return" ++ x) :: e :: more) ->
      const_expr w tbl e v -> (v mod 2 ^ 32 <> 2 ^ 32 - 1)%N ->
      reads_return s (ERRNO v)
  | rr_default s x :
      runs " " s ["return" ++ x] ->
      M_Filter.fo_action o <> M_Filter.ACT_LOG ->
      reads_return s (action_value (M_Filter.fo_action o)).

  (* The text after the colon. *)
  Inductive reads_body : string -> rule -> Prop :=
  | rb_allow : reads_body "1" Allow
  | rb_return x v : reads_return ("return" ++ x) v -> reads_body ("return" ++ x) (Return v)
  | rb_cond s flt gs ass alts :
      s <> "1" -> s <> "" -> (forall x, s <> "return" ++ x) ->
      runs ";" s [flt] ->
      splits "||" flt gs -> Forall2 (splits "&&") gs ass ->
      Forall2 (Forall2 reads_atom) ass alts ->
      reads_body s (Cond alts (action_value (M_Filter.fo_action o)))
  | rb_cond_return s flt ret more gs ass alts v :
      s <> "1" -> s <> "" -> (forall x, s <> "return" ++ x) ->
      runs ";" s (flt :: ret :: more) ->
      splits "||" flt gs -> Forall2 (splits "&&") gs ass ->
      Forall2 (Forall2 reads_atom) ass alts ->
      reads_return ret v ->
      reads_body s (Cond alts v)
  | rb_semicolons s :
      s <> "" -> runs ";" s [] ->
      reads_body s (Cond [] (action_value (M_Filter.fo_action o))).

  (* One logical line; [incl] says what an included file contributes. *)
  Inductive reads_line (incl : string -> policy -> Prop) : string -> policy -> Prop :=
  | rl_blank raw : stripped raw "" -> reads_line incl raw []
  | rl_comment raw t : stripped raw ("#" ++ t) -> reads_line incl raw []
  | rl_frequency raw t : stripped raw ("@frequency" ++ t) -> reads_line incl raw []
  | rl_include raw f p :
      stripped raw ("@include " ++ f) ->
      (exists t, f = "/" ++ t \/ f = "./" ++ t) ->
      incl f p -> reads_line incl raw p
  | rl_rule raw s name nm body bd nr r :
      stripped raw s -> s = name ++ ":" ++ body ->
      all_chars (fun c => c <> ":"%char) name ->
      (forall c t, s = String c t -> c <> "#"%char /\ c <> "@"%char) ->
      stripped name nm -> stripped body bd ->
      first_entry (M_Filter.b_syscalls b) nm nr ->
      reads_body bd r ->
      reads_line incl raw [Entry nm nr r]
  | rl_unknown raw s name nm body bd :
      stripped raw s -> s = name ++ ":" ++ body ->
      all_chars (fun c => c <> ":"%char) name ->
      (forall c t, s = String c t -> c <> "#"%char /\ c <> "@"%char) ->
      stripped name nm -> stripped body bd -> bd <> "" ->
      (forall nr, ~ first_entry (M_Filter.b_syscalls b) nm nr) ->
      M_Filter.fo_allow_logging o = true ->
      reads_line incl raw [].

  (* A whole file: its lines in order, read without I/O error. *)
  Definition reads_file (incl : string -> policy -> Prop) (f : stream) (p : policy) : Prop :=
    M_Lines.s_ioerr f = false /\
    exists ls ps, file_lines (M_Lines.s_bytes f) ls /\
                  Forall2 (reads_line incl) ls ps /\ p = concat ps.

  (* Included files may not include further files. *)
  Definition reads_include (name : string) (p : policy) : Prop :=
    exists f, fs name = Some f /\ reads_file (fun _ _ => False) f p.

  Definition reads_policy (f : stream) (p : policy) : Prop :=
    reads_file reads_include f p.
End Reading.

(* The argument numbers used are those of real arguments. *)
Definition rule_args_ok (r : rule) : Prop :=
  match r with
  | Cond alts _ => Forall (Forall (fun a => (0 <= at_arg a <= 5)%Z)) alts
  | _ => True
  end.
Definition args_in_range (p : policy) : Prop :=
  forall e, In e p -> rule_args_ok (e_rule e).

(* How many branch labels a policy asks for: one per line that is not a plain
   "1", and for a conditional line one more, plus one per alternative. *)
Definition rule_labels (r : rule) : nat :=
  match r with
  | Allow => 0
  | Return _ => 1
  | Cond alts _ => 2 + length alts
  end.
Definition policy_labels (p : policy) : nat :=
  fold_right (fun e n => (rule_labels (e_rule e) + n)%nat) 0%nat p.
