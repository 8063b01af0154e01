(* Specification: the policy language of tools/compile_seccomp_policy.py: how
   a text is cut into words, the grammar (the comments of tools/parser.py give
   it as EBNF), and what the parts mean.  From the model only data types are
   used: kinds of words, comparisons, actions, filters, statements. *)
From Verif Require Import S_Text S_Const S_Policy.
From Verif Require Import M_PyParse.
From Verif Require S_PyPolicy.
Local Open Scope string_scope.

(* ---- Words ---- *)
Definition one_of (P : ascii -> Prop) (s : string) : Prop := s <> "" /\ all_chars P s.
Definition dec_digit (c : ascii) : Prop := exists v, digit c v /\ (v < 10)%N.
Definition hex_digit (c : ascii) : Prop := exists v, digit c v /\ (v < 16)%N.
Definition oct_digit (c : ascii) : Prop := exists v, digit c v /\ (v < 8)%N.
Definition letter (c : ascii) : Prop := (97 <= N_of_ascii c <= 122 \/ 65 <= N_of_ascii c <= 90)%N.
Definition word_char (c : ascii) : Prop := letter c \/ dec_digit c \/ c = "_"%char.
Definition white (c : ascii) : Prop := (9 <= N_of_ascii c <= 13 \/ 28 <= N_of_ascii c <= 32)%N.

(* Numbers are those of C; besides, digits after a leading 0 and an 8 or a 9
   are taken as decimal. *)
Inductive number : string -> Z -> Prop :=
| num_c s n : magnitude s n -> number s (Z.of_N n)
| num_minus_c s n : magnitude s n -> number ("-" ++ s) (- Z.of_N n)
| num_odd c s n : c = "8"%char \/ c = "9"%char -> digits_val 10 (String "0" (String c s)) n ->
    number (String "0" (String c s)) (Z.of_N n)
| num_minus_odd c s n : c = "8"%char \/ c = "9"%char -> digits_val 10 (String "0" (String c s)) n ->
    number ("-" ++ String "0" (String c s)) (- Z.of_N n).

Definition actions_named : list string :=
  ["allow"; "kill-process"; "kill-thread"; "kill"; "trap"; "trace"; "log"; "user-notify"].

(* How the words of a kind are spelled. *)
Definition spelled (ty : ttype) (s : string) : Prop :=
  match ty with
  | COMMENT => exists t, s = "#" ++ t
  | WHITESPACE => one_of white s
  | CONTINUATION => s = "\"
  | DEFAULT => s = "@default"
  | INCLUDE => s = "@include"
  | FREQUENCY => s = "@frequency"
  | DENYLIST => s = "@denylist"
  | PATH => exists t, one_of (fun c => ~ white c) t /\ (s = "/" ++ t \/ s = "./" ++ t)
  | NUMERIC_CONSTANT => exists z, number s z
  | COLON => s = ":" | SEMICOLON => s = ";" | COMMA => s = "," | BITWISE_COMPLEMENT => s = "~"
  | LPAREN => s = "(" | RPAREN => s = ")" | LBRACE => s = "{" | RBRACE => s = "}"
  | RBRACKET => s = "]" | LBRACKET => s = "[" | OR => s = "||" | AND => s = "&&" | BITWISE_OR => s = "|"
  | OP => exists o, op_name s o
  | EQUAL => s = "="
  | ARGUMENT => exists ds, s = "arg" ++ ds /\ one_of dec_digit ds
  | RETURN => s = "return"
  | ACTION => In s actions_named
  | IDENTIFIER =>
      exists c t, s = String c t /\ (letter c \/ c = "_"%char) /\
        all_chars (fun x => word_char x \/ x = "-"%char \/ x = "@"%char) t
  end.

(* Kinds of words, in the order in which they are tried. *)
Definition kinds : list ttype :=
  [COMMENT; WHITESPACE; CONTINUATION; DEFAULT; INCLUDE; FREQUENCY; DENYLIST; PATH; NUMERIC_CONSTANT; COLON; SEMICOLON; COMMA;
   BITWISE_COMPLEMENT; LPAREN; RPAREN; LBRACE; RBRACE; RBRACKET; LBRACKET; OR; AND; BITWISE_OR; OP; EQUAL; ARGUMENT; RETURN;
   ACTION; IDENTIFIER].
Definition earlier (x y : ttype) : Prop := exists l m r, kinds = (l ++ x :: m ++ y :: r)%list.
(* Keywords are not part of a longer word; comments, the backslash and
   @denylist end the line. *)
Definition word_after (rest : string) : Prop := exists c t, rest = String c t /\ word_char c.
Definition word_before (before : string) : Prop := exists t c, before = t ++ String c "" /\ word_char c.
Definition delimited (ty : ttype) (before u rest : string) : Prop :=
  match ty with
  | COMMENT | CONTINUATION | DENYLIST => rest = ""
  | DEFAULT | INCLUDE | FREQUENCY => ~ word_after rest
  | ARGUMENT | RETURN | ACTION => ~ word_before before /\ ~ word_after rest
  | OP => u = "in" -> ~ word_before before /\ ~ word_after rest
  | _ => True
  end.
(* [u] is a word of kind [ty] at the start of [s], which follows [before]. *)
Definition fits (ty : ttype) (before s u rest : string) : Prop :=
  s = u ++ rest /\ spelled ty u /\ delimited ty before u rest.
(* The next word is the longest one of the first kind that fits. *)
Definition next_word (ty : ttype) (before s u rest : string) : Prop :=
  fits ty before s u rest /\
  (forall u' rest', fits ty before s u' rest' -> (String.length u' <= String.length u)%nat) /\
  (forall ty' u' rest', earlier ty' ty -> ~ fits ty' before s u' rest').
(* A line is the words [ts] one after the other. *)
Inductive cut_after : string -> string -> list token -> Prop :=
| ct_end before : cut_after before "" []
| ct_word before s ty u rest ts : next_word ty before s u rest -> cut_after (before ++ u) rest ts ->
    cut_after before s (Tok ty u :: ts).
Definition cut (line : string) (ts : list token) : Prop := cut_after "" line ts.
(* The words that count. *)
Definition counts (t : token) : bool :=
  match t_type t with WHITESPACE | COMMENT | CONTINUATION => false | _ => true end.
Definition words (ts : list token) : list token := filter counts ts.

(* The lines of a text: they end with \n, \r or \r\n. *)
Definition cr : ascii := "013"%char.
Definition in_line (s : string) : Prop := all_chars (fun c => c <> newline /\ c <> cr) s.
Inductive text_cut : string -> list string -> Prop :=
| tc_nil : text_cut "" []
| tc_last s : s <> "" -> in_line s -> text_cut s [s]
| tc_newline l r ls : in_line l -> text_cut r ls -> text_cut (l ++ String newline r) (l :: ls)
| tc_crlf l r ls : in_line l -> text_cut r ls -> text_cut (l ++ String cr (String newline r)) (l :: ls)
| tc_cr l r ls : in_line l -> (forall t, r <> String newline t) -> text_cut r ls ->
    text_cut (l ++ String cr r) (l :: ls).

(* Lines that end in a backslash are continued: [out] are the words of the
   whole lines, without those that have none.  A text that ends in the middle
   of a line loses that line. *)
Definition unfinished (l : string) : Prop := exists t, l = t ++ "\".
Definition with_line (ts : list token) (out : list (list token)) : list (list token) :=
  match ts with [] => out | _ => ts :: out end.
Inductive logical : list string -> list (list token) -> Prop :=
| lo_lost ls tss : Forall unfinished ls -> Forall2 cut ls tss -> logical ls []
| lo_line ls tss l ts r out :
    Forall unfinished ls -> Forall2 cut ls tss -> ~ unfinished l -> cut l ts -> logical r out ->
    logical (ls ++ l :: r) (with_line (words (concat tss ++ ts)) out).

(* ---- Grammar ---- *)
(* Parts separated by words of kind [sep], at least one. *)
Inductive separated_by {A} (sep : ttype) (g : list token -> A -> Prop) : list token -> list A -> Prop :=
| sb_one ts x : g ts x -> separated_by sep g ts [x]
| sb_more ts x v r l : g ts x -> separated_by sep g r l -> separated_by sep g (ts ++ Tok sep v :: r) (x :: l).

Section Language.
Variable a : parch.
Let bits : Z := Z.of_N (arch_bits (pa_arch a)).

(* single-constant: between the least signed and the greatest unsigned word *)
Inductive constant_word : token -> N -> Prop :=
| cw_name s z : first_entry (pa_constants a) s z -> (- 2 ^ (bits - 1) <= z < 2 ^ bits)%Z ->
    constant_word (Tok IDENTIFIER s) (Z.to_N (z mod 2 ^ bits))
| cw_number s z : number s z -> (- 2 ^ (bits - 1) <= z < 2 ^ bits)%Z ->
    constant_word (Tok NUMERIC_CONSTANT s) (Z.to_N (z mod 2 ^ bits)).
Definition inverse (v : N) : N := (2 ^ arch_bits (pa_arch a) - 1 - v)%N.
(* value, constant *)
Inductive g_value : list token -> N -> Prop :=
| gv_one ts v : g_constant ts v -> g_value ts v
| gv_or ts v b r w : g_constant ts v -> g_value r w -> g_value (ts ++ Tok BITWISE_OR b :: r) (N.lor v w)
with g_constant : list token -> N -> Prop :=
| gc_term ts v : g_term ts v -> g_constant ts v
| gc_not b ts v : g_term ts v -> g_constant (Tok BITWISE_COMPLEMENT b :: ts) (inverse v)
with g_term : list token -> N -> Prop :=
| gt_word t v : constant_word t v -> g_term [t] v
| gt_paren b ts v e : g_value ts v -> g_term (Tok LPAREN b :: ts ++ [Tok RPAREN e]) v.
(* atom, clause, argument-expression *)
Inductive g_atom : list token -> patom -> Prop :=
| ga ds i os o ts v : digits_val 10 ds i -> (i < 7)%N -> op_name os o -> g_value ts v ->
    g_atom (Tok ARGUMENT ("arg" ++ ds) :: Tok OP os :: ts) (PAtom i o v).
Definition g_expression : list token -> list (list patom) -> Prop := separated_by OR (separated_by AND g_atom).

Variables (denylist ret_log : bool).
(* action.  In a denylist every action is a return; with [ret_log] the word
   after return is not looked at. *)
Inductive g_action : list token -> paction -> Prop :=
| gx_named s x : denylist = false ->
    first_entry [("allow", New ALLOW); ("kill", Kill); ("kill-process", New KILL_PROCESS); ("kill-thread", New KILL_THREAD);
                 ("trap", New TRAP); ("trace", New 0x7ff00000); ("user-notify", New 0x7fc00000); ("log", New LOG)] s x ->
    g_action [Tok ACTION s] x
| gx_one s : denylist = false -> constant_word (Tok NUMERIC_CONSTANT s) 1 -> g_action [Tok NUMERIC_CONSTANT s] (New ALLOW)
| gx_return s t v : ret_log = false -> constant_word t v -> g_action [Tok RETURN s; t] (New (ERRNO v))
| gx_return_log s t : ret_log = true -> g_action [Tok RETURN s; t] (New LOG).
(* single-filter: an action, or an expression with an action *)
Inductive g_single : list token -> pfilt -> Prop :=
| gs_action ts x : g_action ts x -> g_single ts (PFilt None x)
| gs_expr ts e : g_expression ts e -> g_single ts (PFilt (Some e) (New ALLOW))
| gs_expr_action ts e s r x : g_expression ts e -> g_action r x ->
    g_single (ts ++ Tok SEMICOLON s :: r) (PFilt (Some e) x).
(* '{' x , ... '}' or x *)
Inductive in_braces {A} (g : list token -> A -> Prop) : list token -> list A -> Prop :=
| ib_one ts x : g ts x -> in_braces g ts [x]
| ib_braces b ts l e : separated_by COMMA g ts l -> in_braces g (Tok LBRACE b :: ts ++ [Tok RBRACE e]) l.
(* key-value-pair, metadata *)
Inductive g_pair : list token -> string * list string -> Prop :=
| gp key e ts l : separated_by COMMA (fun ts s => ts = [Tok IDENTIFIER s]) ts l ->
    g_pair (Tok IDENTIFIER key :: Tok EQUAL e :: ts) (key, l).
Inductive g_metadata : list token -> list (string * list string) -> Prop :=
| gm b ts l e : separated_by SEMICOLON g_pair ts l -> NoDup (map fst l) ->
    g_metadata (Tok LBRACKET b :: ts ++ [Tok RBRACKET e]) l.
(* The system calls a name stands for: itself, or the calls of a group
   "group@namespace". *)
Definition no_at (s : string) : Prop := all_chars (fun c => c <> "@"%char) s.
Inductive names_calls : string -> list (string * N) -> Prop :=
| nc_call s nr : no_at s -> first_entry (pa_syscalls a) s nr -> names_calls s [(s, nr)]
| nc_group g n gs names cs : no_at g -> no_at n ->
    first_entry (pa_groups a) n gs -> first_entry gs g names ->
    Forall2 (fun s c => fst c = s /\ first_entry (pa_syscalls a) s (snd c)) names cs ->
    names_calls (g ++ "@" ++ n) cs.
(* syscall-descriptor: no calls when it is for other architectures only *)
Definition for_us (meta : list (string * list string)) : Prop :=
  forall l, In ("arch", l) meta -> In (pa_name a) l.
Definition call_word (t : token) : Prop := t_type t = IDENTIFIER \/ t_value t = "kill".
Inductive g_descriptor : list token -> list (string * N) -> Prop :=
| gd_plain t cs : call_word t -> names_calls (t_value t) cs -> g_descriptor [t] cs
| gd_meta t ts meta cs : call_word t -> g_metadata ts meta -> for_us meta -> names_calls (t_value t) cs ->
    g_descriptor (t :: ts) cs
| gd_other t ts meta : call_word t -> g_metadata ts meta -> ~ for_us meta -> g_descriptor (t :: ts) [].
(* filter-statement *)
Inductive g_statement : list token -> pstatement -> Prop :=
| gst ts css v r fs : in_braces g_descriptor ts css -> in_braces g_single r fs ->
    g_statement (ts ++ Tok COLON v :: r) (PStatement (concat css) fs).

(* ---- Files ---- *)
Variables (resolve : string -> string -> string) (text : string -> option string).
(* Which words may follow a statement for other architectures. *)
Variable junk : list token -> Prop.
(* Numbers in frequency files: hexadecimal, or decimal without a leading 0, or
   zeros. *)
Inductive freq_magnitude : string -> N -> Prop :=
| fm_dec s n : (forall t, s <> String "0" t) -> digits_val 10 s n -> freq_magnitude s n
| fm_zero s : one_of (fun c => c = "0"%char) s -> freq_magnitude s 0
| fm_hex s n : digits_val 16 s n -> freq_magnitude ("0x" ++ s) n
| fm_Hex s n : digits_val 16 s n -> freq_magnitude ("0X" ++ s) n.
Inductive freq_number : string -> N -> Prop :=
| fn_plain s n : freq_magnitude s n -> freq_number s n
| fn_minus s : freq_magnitude s 0 -> freq_number ("-" ++ s) 0.
(* descriptor ':' number; what follows is not looked at *)
Inductive freq_line : list token -> list (string * N * N) -> Prop :=
| fl ts cs v s n rest : g_descriptor ts cs -> freq_number s n ->
    freq_line (ts ++ Tok COLON v :: Tok NUMERIC_CONSTANT s :: rest) (map (fun c => (c, n)) cs).
Inductive freq_file : string -> list (string * N * N) -> Prop :=
| ff file t ls tss fs : text file = Some t -> text_cut t ls -> logical ls tss -> Forall2 freq_line tss fs ->
    freq_file file (concat fs).
(* What a whole line contributes, and whether it is @denylist.  [incl] says
   what an included file contributes. *)
Inductive line_says (incl : string -> contents -> Prop) (file : string) : list token -> contents -> bool -> Prop :=
| ls_statement ts s : g_statement ts s -> ps_calls s <> [] -> line_says incl file ts (Contents [s] [] None) false
| ls_other ts s rest : g_statement ts s -> ps_calls s = [] -> junk rest ->
    line_says incl file (ts ++ rest) (Contents [] [] None) false
| ls_include v p c : incl (resolve file p) c -> line_says incl file [Tok INCLUDE v; Tok PATH p] c false
| ls_frequency v p f : freq_file (resolve file p) f -> line_says incl file [Tok FREQUENCY v; Tok PATH p] (Contents [] f None) false
| ls_default v s x :
    first_entry [("kill-process", New KILL_PROCESS); ("kill-thread", New KILL_THREAD); ("kill", Kill); ("trap", New TRAP);
                 ("user-notify", New 0x7fc00000)] s x ->
    line_says incl file [Tok DEFAULT v; Tok ACTION s] (Contents [] [] (Some x)) false
| ls_denylist v : denylist = true -> line_says incl file [Tok DENYLIST v] (Contents [] [] None) true.
Inductive lines_say (incl : string -> contents -> Prop) (file : string) : list (list token) -> contents -> bool -> Prop :=
| lss_nil : lines_say incl file [] (Contents [] [] None) false
| lss_cons ts c b r c' b' : line_says incl file ts c b -> lines_say incl file r c' b' ->
    lines_say incl file (ts :: r)
      (Contents (ct_statements c ++ ct_statements c') (ct_freq c ++ ct_freq c')
                (match ct_default c' with Some x => Some x | None => ct_default c end)) (b || b').
(* Files include others, at most [n] deep; in a denylist every file says so. *)
Fixpoint file_says (n : nat) (file : string) (c : contents) : Prop :=
  exists t ls tss b, text file = Some t /\ text_cut t ls /\ logical ls tss /\
    lines_say (match n with O => fun _ _ => False | S m => file_says m end) file tss c b /\ (denylist = true -> b = true).
End Language.

(* ---- The policy of a file ---- *)
(* The statements with the values of their actions: [kill] is the value of
   "kill". *)
Definition value_of (kill : N) (x : paction) : N := match x with Kill => kill | New v => v end.
Inductive same_filter (kill : N) : pfilt -> filt -> Prop :=
| sf e x y : a_val y = value_of kill x -> same_filter kill (PFilt e x) (Filt e y).
Inductive same_statement (kill : N) : pstatement -> statement -> Prop :=
| sst cs fs gs : Forall2 (same_filter kill) fs gs -> same_statement kill (PStatement cs fs) (Statement cs gs).
(* The default action: the option, or the last @default, or else kill (allow in
   a denylist). *)
Definition default_value (o : popts) (c : contents) : N :=
  match o_override o, ct_default c with
  | Some v, _ => v
  | None, Some x => value_of (o_kill o) x
  | None, None => if o_denylist o then ALLOW else o_kill o
  end.
(* [file] is a policy with the default action [default] and the statements
   [ss]. *)
Definition says (a : parch) (o : popts) (resolve : string -> string -> string) (text : string -> option string)
  (junk : list token -> Prop) (file : string) (default : act) (ss : list statement) : Prop :=
  exists c, file_says a (o_denylist o) (o_ret_log o) resolve text junk (o_levels o) file c /\
    a_val default = default_value o c /\ Forall2 (same_statement (o_kill o)) (ct_statements c) ss.
(* After statements for other architectures: anything, or nothing. *)
Definition anything (_ : list token) : Prop := True.
Definition nothing (ts : list token) : Prop := ts = [].

(* ---- What is asked of the tables, of the options and of the policy ---- *)
Definition tables_ok (a : parch) : Prop :=
  (arch_bits (pa_arch a) = 32 \/ arch_bits (pa_arch a) = 64)%N /\ (arch_nr (pa_arch a) < 2 ^ 32)%N /\
  forall s nr, In (s, nr) (pa_syscalls a) -> (nr < 2 ^ 32 - 1)%N.
Definition options_ok (o : popts) : Prop :=
  (o_kill o < 2 ^ 32)%N /\ forall v, o_override o = Some v -> (v < 2 ^ 32)%N.
(* arg0 to arg5 only *)
Definition six_arguments (ss : list statement) : Prop :=
  forall s f e c x, In s ss -> In f (st_filters s) -> f_expr f = Some e -> In c e -> In x c -> (p_arg x < 6)%N.
(* An unconditional filter of a system call is its last one. *)
Definition settled (ss : list statement) : Prop :=
  forall nr l f r, S_PyPolicy.filters_for nr ss = (l ++ f :: r)%list -> f_expr f = None -> r = [].
