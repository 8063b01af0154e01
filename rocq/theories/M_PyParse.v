(* Model of the reader of policy files in Python: tools/parser.py, up to the
   list of statements that M_PyComp starts from, and tools/arch.py.
   Simplifications: texts are ASCII; the depth of nested parentheses is not
   limited; a file that cannot be read or decoded is like one that does not
   exist; os.path.normpath, os.path.join and os.path.dirname are a parameter;
   the tokens kept for messages are left out.  None is an exception. *)
From Coq Require Export String Ascii List NArith ZArith Bool.
From Verif Require Export M_PyComp.
Export ListNotations.
Local Open Scope N_scope.

(* ---- Python's re: the constructs that parser.py uses ---- *)
(* [Many p] is [p]* for a single character; [Bound] is \b; [Eol] is $. *)
Inductive re :=
  | Chr (p : ascii -> bool) | Eps | Cat (a b : re) | Alt (a b : re) | Many (p : ascii -> bool) | Bound | Eol.
Definition in_range (lo hi c : ascii) : bool := (N_of_ascii lo <=? N_of_ascii c) && (N_of_ascii c <=? N_of_ascii hi).
Definition is_c (x c : ascii) : bool := Ascii.eqb x c.
Definition is_digit (c : ascii) : bool := in_range "0" "9" c.
Definition is_letter (c : ascii) : bool := in_range "a" "z" c || in_range "A" "Z" c.
Definition is_word (c : ascii) : bool := is_letter c || is_digit c || is_c "_" c.             (* \w *)
Definition is_space (c : ascii) : bool := in_range "009" "013" c || in_range "028" "032" c.   (* \s *)
Definition word_at (o : option ascii) : bool := match o with Some c => is_word c | None => false end.
Definition head (s : string) : option ascii := match s with String c _ => Some c | EmptyString => None end.
(* Greedy, with backtracking; [prev] is the character before [s].  The result
   is that of [k] on what is left after the match. *)
Fixpoint many {A} (p : ascii -> bool) (prev : option ascii) (s : string) (k : option ascii -> string -> option A) : option A :=
  match s with
  | String c t => if p c then match many p (Some c) t k with Some r => Some r | None => k prev s end else k prev s
  | EmptyString => k prev s
  end.
Fixpoint matching {A} (r : re) (prev : option ascii) (s : string) (k : option ascii -> string -> option A) : option A :=
  match r with
  | Chr p => match s with String c t => if p c then k (Some c) t else None | EmptyString => None end
  | Eps => k prev s
  | Cat a b => matching a prev s (fun prev s => matching b prev s k)
  | Alt a b => match matching a prev s k with Some r => Some r | None => matching b prev s k end
  | Many p => many p prev s k
  | Bound => if xorb (word_at prev) (word_at (head s)) then k prev s else None
  | Eol => match s with EmptyString | String "010"%char EmptyString => k prev s | _ => None end
  end.
Definition re_match (r : re) (prev : option ascii) (s : string) : option string := matching r prev s (fun _ s => Some s).
Fixpoint lit (s : string) : re := match s with String c t => Cat (Chr (is_c c)) (lit t) | EmptyString => Eps end.
Definition some1 (p : ascii -> bool) : re := Cat (Chr p) (Many p).     (* p+ *)
Definition maybe (r : re) : re := Alt r Eps.                           (* r? *)
Fixpoint alts (l : list re) : re := match l with [] => Chr (fun _ => false) | [r] => r | r :: t => Alt r (alts t) end.
Definition word_lit (s : string) : re := Cat Bound (Cat (lit s) Bound).    (* \bs\b *)

(* ---- 21-66 ---- *)
Definition is_hex (c : ascii) : bool := is_digit c || in_range "a" "f" c || in_range "A" "F" c.
Definition is_octal (c : ascii) : bool := in_range "0" "7" c.
Definition HEX_REGEX : re :=
  Cat (maybe (Chr (is_c "-"))) (Cat (Chr (is_c "0")) (Cat (Chr (fun c => is_c "x" c || is_c "X" c)) (some1 is_hex))).
Definition OCTAL_REGEX : re := Cat (maybe (Chr (is_c "-"))) (Cat (Chr (is_c "0")) (some1 is_octal)).
Definition DECIMAL_REGEX : re := Cat (maybe (Chr (is_c "-"))) (some1 is_digit).
Inductive ttype :=
  | COMMENT | WHITESPACE | CONTINUATION | DEFAULT | INCLUDE | FREQUENCY | DENYLIST | PATH | NUMERIC_CONSTANT | COLON | SEMICOLON | COMMA
  | BITWISE_COMPLEMENT | LPAREN | RPAREN | LBRACE | RBRACE | RBRACKET | LBRACKET | OR | AND | BITWISE_OR | OP | EQUAL
  | ARGUMENT | RETURN | ACTION | IDENTIFIER.
Definition TOKEN_SPECIFICATION : list (ttype * re) :=
  [(COMMENT, Cat (Chr (is_c "#")) (Cat (Many (fun c => negb (is_c "010" c))) Eol));
   (WHITESPACE, some1 is_space);
   (CONTINUATION, Cat (Chr (is_c "\")) Eol);
   (DEFAULT, Cat (lit "@default") Bound);
   (INCLUDE, Cat (lit "@include") Bound);
   (FREQUENCY, Cat (lit "@frequency") Bound);
   (DENYLIST, Cat (lit "@denylist") Eol);
   (PATH, Cat (maybe (Chr (is_c "."))) (Cat (Chr (is_c "/")) (some1 (fun c => negb (is_space c)))));
   (NUMERIC_CONSTANT, alts [HEX_REGEX; OCTAL_REGEX; DECIMAL_REGEX]);
   (COLON, lit ":"); (SEMICOLON, lit ";"); (COMMA, lit ","); (BITWISE_COMPLEMENT, lit "~"); (LPAREN, lit "("); (RPAREN, lit ")");
   (LBRACE, lit "{"); (RBRACE, lit "}"); (RBRACKET, lit "]"); (LBRACKET, lit "["); (OR, lit "||"); (AND, lit "&&");
   (BITWISE_OR, lit "|");
   (OP, alts [lit "&"; word_lit "in"; lit "=="; lit "!="; lit "<="; lit "<"; lit ">="; lit ">"]);
   (EQUAL, lit "=");
   (ARGUMENT, Cat Bound (Cat (lit "arg") (Cat (some1 is_digit) Bound)));
   (RETURN, word_lit "return");
   (ACTION, alts [word_lit "allow"; word_lit "kill-process"; word_lit "kill-thread"; word_lit "kill"; word_lit "trap";
                  word_lit "trace"; word_lit "log"; word_lit "user-notify"]);
   (IDENTIFIER, Cat (Chr (fun c => is_letter c || is_c "_" c))
                    (Many (fun c => is_letter c || is_c "_" c || is_digit c || is_c "-" c || is_c "@" c)))].

(* ---- 120-171 ParserState.tokenize ---- *)
Record token := Tok { t_type : ttype; t_value : string }.
Definition is_type (a b : ttype) : bool :=
  match a, b with
  | COMMENT, COMMENT | WHITESPACE, WHITESPACE | CONTINUATION, CONTINUATION | DEFAULT, DEFAULT | INCLUDE, INCLUDE
  | FREQUENCY, FREQUENCY | DENYLIST, DENYLIST | PATH, PATH | NUMERIC_CONSTANT, NUMERIC_CONSTANT | COLON, COLON
  | SEMICOLON, SEMICOLON | COMMA, COMMA | BITWISE_COMPLEMENT, BITWISE_COMPLEMENT | LPAREN, LPAREN | RPAREN, RPAREN
  | LBRACE, LBRACE | RBRACE, RBRACE | RBRACKET, RBRACKET | LBRACKET, LBRACKET | OR, OR | AND, AND | BITWISE_OR, BITWISE_OR
  | OP, OP | EQUAL, EQUAL | ARGUMENT, ARGUMENT | RETURN, RETURN | ACTION, ACTION | IDENTIFIER, IDENTIFIER => true
  | _, _ => false
  end.
(* The first alternative that matches at [s], and the length of the match. *)
Fixpoint token_at (specs : list (ttype * re)) (prev : option ascii) (s : string) : option (ttype * nat) :=
  match specs with
  | [] => None
  | (ty, r) :: t => match re_match r prev s with
                    | Some rest => Some (ty, (String.length s - String.length rest)%nat)
                    | None => token_at t prev s
                    end
  end.
(* 129-166: all matches of the line.  A gap between two matches, or after the
   last one, is an exception, so a token has to begin where the last one ended:
   [skip] characters of it are still to come. *)
Fixpoint lex (prev : option ascii) (s : string) (skip : nat) : option (list token) :=
  match s with
  | EmptyString => Some []
  | String c t =>
      match skip with
      | S n => lex (Some c) t n
      | O => match token_at TOKEN_SPECIFICATION prev s with
             | Some (ty, n) => match lex (Some c) t (n - 1) with
                               | Some l => Some (Tok ty (substring 0 n s) :: l)
                               | None => None
                               end
             | None => None
             end
      end
  end.
(* 143-144 *)
Definition kept (t : token) : bool :=
  match t_type t with WHITESPACE | COMMENT | CONTINUATION => false | _ => true end.
Fixpoint ends_with (x : ascii) (s : string) : bool :=
  match s with
  | EmptyString => false
  | String c EmptyString => Ascii.eqb c x
  | String _ t => ends_with x t
  end.
(* A text file read line by line in text mode, without the line ends
   (universal newlines; 126). *)
Fixpoint text_lines (s cur : string) : list string :=
  match s with
  | EmptyString => match cur with EmptyString => [] | _ => [cur] end
  | String "010"%char t => cur :: text_lines t ""
  | String "013"%char t => cur :: text_lines (match t with String "010"%char t' => t' | _ => t end) ""
  | String c t => text_lines t (cur ++ String c "")
  end.
(* 120-171: the logical lines that have tokens *)
Fixpoint tokenize (lines : list string) (tokens : list token) : option (list (list token)) :=
  match lines with
  | [] => Some []
  | l :: r =>
      match lex None l 0 with
      | None => None
      | Some ts =>
          let tokens := (tokens ++ filter kept ts)%list in
          if ends_with "\" l then tokenize r tokens
          else match tokenize r [] with
               | None => None
               | Some ls => Some (match tokens with [] => ls | _ => tokens :: ls end)
               end
      end
  end.

(* ---- arch.py:11-37 ---- *)
Record parch := PArch {
  pa_arch : arch; pa_name : string;
  pa_syscalls : list (string * N); pa_constants : list (string * Z);
  pa_groups : list (string * list (string * list string))
}.
Fixpoint lookup {A} (n : string) (l : list (string * A)) : option A :=
  match l with [] => None | (m, a) :: t => if String.eqb m n then Some a else lookup n t end.
Definition truncate_word (a : parch) (v : Z) : N := Z.to_N (v mod 2 ^ Z.of_N (arch_bits (pa_arch a))).
Definition min_signed (a : parch) : Z := (- 2 ^ (Z.of_N (arch_bits (pa_arch a)) - 1))%Z.
Definition max_unsigned (a : parch) : Z := (2 ^ Z.of_N (arch_bits (pa_arch a)) - 1)%Z.

(* ---- int(text, base) for the texts of NUMERIC_CONSTANT ---- *)
Definition digit_value (c : ascii) : N :=
  if is_digit c then N_of_ascii c - 48
  else if in_range "a" "f" c then N_of_ascii c - 87 else N_of_ascii c - 55.
Fixpoint digits_value (base acc : N) (s : string) : N :=
  match s with EmptyString => acc | String c t => digits_value base (base * acc + digit_value c) t end.
Definition py_int (base : N) (s : string) : Z :=
  let '(neg, s) := match s with String "-"%char t => (true, t) | _ => (false, s) end in
  let s := if base =? 16 then match s with String _ (String _ t) => t | _ => s end else s in
  let v := Z.of_N (digits_value base 0 s) in if neg then (- v)%Z else v.
Definition re_test (r : re) (s : string) : bool := match re_match r None s with Some _ => true | None => false end.
(* 259-281 *)
Definition number_value (s : string) : option Z :=
  if re_test HEX_REGEX s then Some (py_int 16 s)
  else if re_test OCTAL_REGEX s then Some (py_int 8 s)
  else if re_test DECIMAL_REGEX s then Some (py_int 10 s) else None.

Section parser.
Variable a : parch.
(* A parser of a part of a line: its result, and the tokens that are left. *)
Definition parser (A : Type) : Type := list token -> option (A * list token).
Definition next_is (ty : ttype) (ts : list token) : bool := match ts with t :: _ => is_type (t_type t) ty | [] => false end.

(* 252-294 *)
Definition single_constant (t : token) : option N :=
  let value := match t_type t with
               | IDENTIFIER => lookup (t_value t) (pa_constants a)
               | NUMERIC_CONSTANT => number_value (t_value t)
               | _ => None
               end in
  match value with
  | None => None
  | Some v => if (max_unsigned a <? v)%Z || (v <? min_signed a)%Z then None
              else if (v <? 0)%Z then Some (truncate_word a v) else Some (Z.to_N v)
  end.
(* 299-355 parse_value and _parse_constant; [fuel]: nesting and length *)
Fixpoint parse_value (fuel : nat) (ts : list token) : option (N * list token) :=
  match fuel with
  | O => None
  | S fuel =>
      let constant :=
        let '(negate, ts) := match ts with
                             | Tok BITWISE_COMPLEMENT _ :: r => (true, r)
                             | _ => (false, ts)
                             end in
        match ts with
        | [] => None
        | Tok LPAREN _ :: r =>
            match parse_value fuel r with
            | Some (v, Tok RPAREN _ :: r) => Some (negate, v, r)
            | _ => None
            end
        | t :: r => match single_constant t with Some v => Some (negate, v, r) | None => None end
        end in
      match constant with
      | None => None
      | Some (negate, v, ts) =>
          let v := if negate then truncate_word a (Z.lnot (Z.of_N v)) else v in
          match ts with
          | Tok BITWISE_OR _ :: r =>
              match parse_value fuel r with
              | Some (w, r) => Some (N.lor v w, r)
              | None => None
              end
          | _ => Some (v, ts)
          end
      end
  end.
(* bpf.py:14 *)
Definition MAX_SYSCALL_ARGUMENTS : N := 7.
(* bpf.py:313-356: the operators by their names *)
Definition op_of (s : string) : option op :=
  lookup s [("==", EQ); ("!=", NE); ("<=", LE); ("<", LT); (">=", GE); (">", GT); ("&", SET); ("in", IN)]%string.
(* 357-374 *)
Definition parse_atom (ts : list token) : option (patom * list token) :=
  match ts with
  | Tok ARGUMENT arg :: Tok OP o :: r =>
      match parse_value (S (length r)) r, op_of o with
      | Some (v, r), Some o =>
          let i := digits_value 10 0 (substring 3 (String.length arg - 3) arg) in
          if i <? MAX_SYSCALL_ARGUMENTS then Some (PAtom i o v, r) else None
      | _, _ => None
      end
  | _ => None
  end.
(* 378-387 and 391-410: at least one, separated by tokens of one type; [fuel]:
   the number of tokens *)
Fixpoint separated {A} (fuel : nat) (p : parser A) (sep : ttype) (ts : list token) : option (list A * list token) :=
  match fuel with
  | O => None
  | S fuel =>
      match p ts with
      | None => None
      | Some (x, ts) =>
          if next_is sep ts then match separated fuel p sep (tl ts) with
                                 | Some (l, r) => Some (x :: l, r)
                                 | None => None
                                 end
          else Some ([x], ts)
      end
  end.
Definition parse_clause (ts : list token) : option (list patom * list token) := separated (S (length ts)) parse_atom AND ts.
Definition parse_argument_expression (ts : list token) : option (list (list patom) * list token) :=
  separated (S (length ts)) parse_clause OR ts.

(* Actions: the shared kill action, or a new object with its return value. *)
Inductive paction := Kill | New (v : N).
Definition RET_KILL_PROCESS : N := 0x80000000.
Definition RET_KILL_THREAD : N := 0.
Definition RET_TRAP : N := 0x00030000.
Definition RET_ERRNO : N := 0x00050000.
Definition RET_TRACE : N := 0x7ff00000.
Definition RET_USER_NOTIF : N := 0x7fc00000.
Definition RET_LOG : N := 0x7ffc0000.
(* 418-441 *)
Definition parse_default_action (ts : list token) : option (paction * list token) :=
  match ts with
  | Tok ACTION s :: r =>
      match lookup s [("kill-process", New RET_KILL_PROCESS); ("kill-thread", New RET_KILL_THREAD); ("kill", Kill);
                      ("trap", New RET_TRAP); ("user-notify", New RET_USER_NOTIF)]%string with
      | Some x => Some (x, r)
      | None => None
      end
  | _ => None
  end.
Variables (denylist ret_log : bool).
(* 454-487 *)
Definition parse_action (ts : list token) : option (paction * list token) :=
  match ts with
  | [] => None
  | t :: r =>
      if denylist && negb (is_type (t_type t) RETURN) then None
      else match t_type t with
      | ACTION =>
          match lookup (t_value t)
                  [("allow", New RET_ALLOW); ("kill", Kill); ("kill-process", New RET_KILL_PROCESS);
                   ("kill-thread", New RET_KILL_THREAD); ("trap", New RET_TRAP); ("trace", New RET_TRACE);
                   ("user-notify", New RET_USER_NOTIF); ("log", New RET_LOG)]%string with
          | Some x => Some (x, r)
          | None => None
          end
      | NUMERIC_CONSTANT => match single_constant t with
                            | Some v => if v =? 1 then Some (New RET_ALLOW, r) else None
                            | None => None
                            end
      | RETURN =>
          match r with
          | [] => None
          | t :: r =>
              if ret_log then Some (New RET_LOG, r)
              else match single_constant t with
                   | Some v => Some (New (N.lor RET_ERRNO (N.land v 0xffff)), r)      (* bpf.py:232-247 *)
                   | None => None
                   end
          end
      | _ => None
      end
  end.
Record pfilt := PFilt { pf_expr : option (list (list patom)); pf_act : paction }.
(* 493-506 *)
Definition parse_single_filter (ts : list token) : option (pfilt * list token) :=
  if next_is ARGUMENT ts then
    match parse_argument_expression ts with
    | None => None
    | Some (e, ts) =>
        if next_is SEMICOLON ts then match parse_action (tl ts) with
                                     | Some (x, r) => Some (PFilt (Some e) x, r)
                                     | None => None
                                     end
        else Some (PFilt (Some e) (New RET_ALLOW), ts)
    end
  else match parse_action ts with Some (x, r) => Some (PFilt None x, r) | None => None end.
(* 511-529, 650-668: "{ x , ... }" or "x" *)
Definition braced {A} (p : parser A) (ts : list token) : option (list A * list token) :=
  if next_is LBRACE ts then
    match separated (S (length ts)) p COMMA (tl ts) with
    | Some (l, r) => if next_is RBRACE r then Some (l, tl r) else None
    | None => None
    end
  else match p ts with Some (x, r) => Some ([x], r) | None => None end.
Definition parse_filter (ts : list token) : option (list pfilt * list token) := braced parse_single_filter ts.

(* 533-555 *)
Definition parse_identifier (ts : list token) : option (string * list token) :=
  match ts with Tok IDENTIFIER s :: r => Some (s, r) | _ => None end.
Definition parse_key_value_pair (ts : list token) : option (string * list string * list token) :=
  match ts with
  | Tok IDENTIFIER key :: Tok EQUAL _ :: r =>
      match separated (S (length r)) parse_identifier COMMA r with
      | Some (l, r) => Some (key, l, r)
      | None => None
      end
  | _ => None
  end.
(* 559-583; the pairs, without the duplicate test *)
Definition no_duplicate (l : list (string * list string)) : bool :=
  (fix go l := match l with
               | [] => true
               | p :: t => negb (existsb (fun q => String.eqb (fst q) (fst p)) t) && go t
               end) l.
Definition parse_metadata (ts : list token) : option (list (string * list string) * list token) :=
  if next_is LBRACKET ts then
    match separated (S (length ts)) parse_key_value_pair SEMICOLON (tl ts) with
    | Some (l, r) => if no_duplicate l && next_is RBRACKET r then Some (l, tl r) else None
    | None => None
    end
  else None.
(* str.split *)
Fixpoint split_at (x : ascii) (s cur : string) : list string :=
  match s with
  | EmptyString => [cur]
  | String c t => if Ascii.eqb c x then cur :: split_at x t "" else split_at x t (cur ++ String c "")
  end.
Fixpoint all_numbers (l : list string) : option (list (string * N)) :=
  match l with
  | [] => Some []
  | n :: t => match lookup n (pa_syscalls a), all_numbers t with
              | Some v, Some r => Some ((n, v) :: r)
              | _, _ => None
              end
  end.
(* 609-641: the system calls a name stands for *)
Definition calls_of (name : string) : option (list (string * N)) :=
  if existsb (Ascii.eqb "@") (list_ascii_of_string name) then
    match split_at "@" name "" with
    | [group; namespace] =>
        match lookup namespace (pa_groups a) with
        | Some gs => match lookup group gs with Some names => all_numbers names | None => None end
        | None => None
        end
    | _ => None
    end
  else match lookup name (pa_syscalls a) with Some v => Some [(name, v)] | None => None end.
(* 588-641.  Names for another architecture are not looked up. *)
Definition parse_syscall_descriptor (ts : list token) : option (list (string * N) * list token) :=
  match ts with
  | [] => None
  | t :: r =>
      if is_type (t_type t) IDENTIFIER || String.eqb (t_value t) "kill" then
        match (if next_is LBRACKET r then parse_metadata r else Some ([], r)) with
        | None => None
        | Some (meta, r) =>
            match lookup "arch" meta with
            | Some names => if existsb (String.eqb (pa_name a)) names
                            then match calls_of (t_value t) with Some l => Some (l, r) | None => None end
                            else Some ([], r)
            | None => match calls_of (t_value t) with Some l => Some (l, r) | None => None end
            end
        end
      else None
  end.
Record pstatement := PStatement { ps_calls : list (string * N); ps_filters : list pfilt }.
(* 648-682; no statement: all system calls are for another architecture *)
Definition parse_filter_statement (ts : list token) : option (option pstatement * list token) :=
  match braced parse_syscall_descriptor ts with
  | Some (cs, Tok COLON _ :: r) =>
      match parse_filter r with
      | Some (fs, r) =>
          match concat cs with
          | [] => Some (None, r)
          | l => Some (Some (PStatement l fs), r)
          end
      | None => None
      end
  | _ => None
  end.

(* ---- Files ---- *)
(* [resolve filename path]: the file that [path] names inside [filename];
   [text]: the content of a regular file. *)
Variables (resolve : string -> string -> string) (text : string -> option string).
(* int(text, base=0): no leading zero except in 0, 00, ... *)
Definition frequency_value (s : string) : option N :=
  if re_test HEX_REGEX s then (if (py_int 16 s <? 0)%Z then None else Some (Z.to_N (py_int 16 s)))
  else match (match s with String "-"%char t => t | _ => s end) with
       | String "0"%char _ => if digits_value 10 0 (match s with String "-"%char t => t | _ => s end) =? 0 then Some 0 else None
       | _ => if (py_int 10 s <? 0)%Z then None else Some (Z.to_N (py_int 10 s))
       end.
(* 709-739: tokens after the number are not looked at *)
Fixpoint frequency_lines (ls : list (list token)) : option (list (string * N * N)) :=
  match ls with
  | [] => Some []
  | ts :: r =>
      match parse_syscall_descriptor ts with
      | Some (cs, Tok COLON _ :: Tok NUMERIC_CONSTANT n :: _) =>
          match frequency_value n, frequency_lines r with
          | Some v, Some l => Some (map (fun c => (c, v)) cs ++ l)%list
          | _, _ => None
          end
      | _ => None
      end
  end.
(* What a file contributes: statements, additions to frequencies, the last
   default action if there is one. *)
Record contents := Contents { ct_statements : list pstatement; ct_freq : list (string * N * N); ct_default : option paction }.
Definition contents0 : contents := Contents [] [] None.
Definition join (x y : contents) : contents :=
  Contents (ct_statements x ++ ct_statements y) (ct_freq x ++ ct_freq y)
           (match ct_default y with Some d => Some d | None => ct_default x end).
(* 789-816, one logical line: what it contributes, and is it @denylist?
   [include] reads a file. *)
Definition policy_line (include : string -> option contents) (filename : string) (ts : list token) : option (contents * bool) :=
  match ts with
  | Tok INCLUDE _ :: Tok PATH p :: [] =>                     (* 686-707 *)
      match include (resolve filename p) with Some c => Some (c, false) | None => None end
  | Tok FREQUENCY _ :: Tok PATH p :: [] =>                   (* 743-767 *)
      match text (resolve filename p) with
      | None => None
      | Some t => match tokenize (text_lines t "") [] with
                  | None => None
                  | Some ls => match frequency_lines ls with
                               | Some f => Some (Contents [] f None, false)
                               | None => None
                               end
                  end
      end
  | Tok DEFAULT _ :: r =>                                    (* 771-779 *)
      match parse_default_action r with
      | Some (d, []) => Some (Contents [] [] (Some d), false)
      | _ => None
      end
  | Tok DENYLIST _ :: r =>
      if denylist then match removelast ts with [] => Some (contents0, true) | _ => None end else None
  | Tok INCLUDE _ :: _ | Tok FREQUENCY _ :: _ => None
  | _ =>
      match parse_filter_statement ts with
      | Some (None, _) => Some (contents0, false)            (* 804-808: what is left is not looked at *)
      | Some (Some s, []) => Some (Contents [s] [] None, false)
      | _ => None
      end
  end.
Fixpoint policy_lines (include : string -> option contents) (filename : string) (ls : list (list token)) : option (contents * bool) :=
  match ls with
  | [] => Some (contents0, false)
  | ts :: r =>
      match policy_line include filename ts with
      | None => None
      | Some (c, b) => match policy_lines include filename r with
                       | Some (c', b') => Some (join c c', b || b')
                       | None => None
                       end
      end
  end.
(* 782-824.  [levels]: how many more files may be nested; 696-697 with a limit
   of at least 2, the stack of states starting with "<memory>". *)
Fixpoint parse_policy_file (levels : nat) (filename : string) : option contents :=
  match text filename with
  | None => None
  | Some t =>
      match tokenize (text_lines t "") [] with
      | None => None
      | Some ls =>
          let include := match levels with O => fun _ => None | S n => parse_policy_file n end in
          match policy_lines include filename ls with
          | None => None
          | Some (c, b) => if denylist && negb b then None else Some c
          end
      end
  end.
End parser.

(* ---- 230-245, 826-841, 857 ---- *)
(* Objects: the kill action is number 0, the default action 1 if it is another
   one, all others are numbered in order. *)
Section objects.
Variable kill : N.
Definition act_of (n : N) (x : paction) : act := match x with Kill => Act 0 kill | New v => Act n v end.
Fixpoint filters_of (n : N) (l : list pfilt) : list filt :=
  match l with [] => [] | f :: t => Filt (pf_expr f) (act_of n (pf_act f)) :: filters_of (n + 1) t end.
Fixpoint statements_of (n : N) (l : list pstatement) : list statement :=
  match l with
  | [] => []
  | s :: t => Statement (ps_calls s) (filters_of n (ps_filters s)) :: statements_of (n + N.of_nat (length (ps_filters s))) t
  end.
End objects.
(* _frequency_mapping.get(syscall, 1) *)
Fixpoint frequency (l : list (string * N * N)) (c : string * N) : option N :=
  match l with
  | [] => None
  | (d, v) :: t => if String.eqb (fst d) (fst c) && (snd d =? snd c)
                   then Some (v + match frequency t c with Some w => w | None => 0 end) else frequency t c
  end.
Definition freq_of (l : list (string * N * N)) (c : string * N) : N := match frequency l c with Some v => v | None => 1 end.

(* The options of compile_seccomp_policy.py:120-160; [o_override] is the value
   of --default-action. *)
Record popts := POpts { o_kill : N; o_denylist : bool; o_ret_log : bool; o_levels : nat; o_override : option N; o_strategy : strategy }.
(* 826-895 parse_file *)
Definition default_of (o : popts) (c : contents) : act :=
  match o_override o with
  | Some v => Act 1 v
  | None => match ct_default c with
            | Some x => act_of (o_kill o) 1 x
            | None => if o_denylist o then Act 1 RET_ALLOW else Act 0 (o_kill o)
            end
  end.
Definition parse_text (a : parch) (o : popts) (resolve : string -> string -> string) (text : string -> option string) (filename : string)
  : option (act * list statement * parsed) :=
  match parse_policy_file a (o_denylist o) (o_ret_log o) resolve text (o_levels o) filename with
  | None => None
  | Some c =>
      let default := default_of o c in
      let ss := statements_of (o_kill o) 2 (ct_statements c) in
      match parse_file (freq_of (ct_freq c)) default ss with
      | Some p => Some (default, ss, p)
      | None => None
      end
  end.
(* compiler.py:293-346 and compile_seccomp_policy.py:150-160: from the file to the program *)
Definition compile_text (a : parch) (o : popts) (resolve : string -> string -> string) (text : string -> option string) (filename : string)
  : option (list instr) :=
  match parse_text a o resolve text filename with
  | Some (_, _, p) => compile_file (pa_arch a) (o_kill o) (o_denylist o) (o_strategy o) p
  | None => None
  end.
