(* Model of the policy compiler in Python: tools/compiler.py and the parts of
   tools/bpf.py it uses.  It starts from the statements of a policy: of
   tools/parser.py only the end of parse_file is here, the reading of the text
   is in M_PyParse.
   Simplifications: object identity, which the visitors use, is an explicit
   number (garbage collected numbers are not used again); the visited sets are
   left out, because an object is in them exactly when it has an offset (or a
   copy), objects forming no cycle; memoized_costs is left out,
   because the result is a function of the bounds, and no tree has two subtrees
   with the same bounds.  None is an exception. *)
From Coq Require Export List NArith ZArith Bool.
From Verif Require Export S_Bpf.
From Verif Require Export M_Bpf.
Export ListNotations.
Local Open Scope N_scope.

(* ---- bpf.py:23-70 ---- *)
Definition BPF_JEQ : N := 16.
Definition BPF_JGT : N := 32.
Definition BPF_JGE : N := 48.
Definition BPF_JSET : N := 64.
Definition RET_ALLOW : N := 0x7fff0000.
(* 69-73 *)
Definition arg_offset (arg_index : N) (hi : bool) : N := 16 + 8 * arg_index + (if hi then 4 else 0).
(* 178-256: the blocks that return an action *)
Definition ret (v : N) : list instr := [I 6 0 0 v].

(* ---- The parsed policy: parser.py:174-228 ---- *)
(* An action object: its identity and its return value. *)
Record act := Act { a_id : N; a_val : N }.
Record patom := PAtom { p_arg : N; p_op : op; p_val : N }.
Record filt := Filt { f_expr : option (list (list patom)); f_act : act }.
Record stmt := Stmt { s_name : string; s_nr : N; s_freq : N; s_filters : list filt }.
Record parsed := Parsed { p_default : act; p_stmts : list stmt }.
(* arch.py *)
Record arch := Arch { arch_nr : N; arch_bits : N }.

(* ---- Collecting the filters of a system call: parser.py:826-895 ---- *)
(* ParsedFilterStatement: names and numbers, filters *)
Record statement := Statement { st_calls : list (string * N); st_filters : list filt }.
Definition same_call (c : string * N) (s : stmt) : bool := (fst c =? s_name s)%string && (snd c =? s_nr s).
(* 843-856, one system call of one statement *)
Fixpoint add_filters (freq : string * N -> N) (c : string * N) (fs : list filt) (l : list stmt) : list stmt :=
  match l with
  | [] => [Stmt (fst c) (snd c) (freq c) fs]
  | s :: r => if same_call c s then Stmt (s_name s) (s_nr s) (s_freq s) (s_filters s ++ fs) :: r
              else s :: add_filters freq c fs r
  end.
Fixpoint add_calls (freq : string * N -> N) (cs : list (string * N)) (fs : list filt) (l : list stmt) : list stmt :=
  match cs with [] => l | c :: r => add_calls freq r fs (add_filters freq c fs l) end.
Fixpoint collect (freq : string * N -> N) (ss : list statement) (l : list stmt) : list stmt :=
  match ss with [] => l | s :: r => collect freq r (add_calls freq (st_calls s) (st_filters s) l) end.
(* 859-865 *)
Fixpoint unconditional_suffix (fs : list filt) : list filt :=
  match fs with [] => [] | x :: r => match f_expr x with Some _ => unconditional_suffix r | None => fs end end.
(* 858-894; None: ParseException *)
Fixpoint finish (default : act) (l : list stmt) : option (list stmt) :=
  match l with
  | [] => Some []
  | s :: r =>
      match unconditional_suffix (s_filters s), finish default r with
      | [], Some r => Some (Stmt (s_name s) (s_nr s) (s_freq s) (s_filters s ++ [Filt None default]) :: r)
      | [_], Some r => Some (s :: r)
      | _, _ => None
      end
  end.
Definition parse_file (freq : string * N -> N) (default : act) (ss : list statement) : option parsed :=
  match finish default (collect freq ss []) with Some l => Some (Parsed default l) | None => None end.

(* ---- Blocks: bpf.py:139-370 ---- *)
(* before lowering: actions and Atoms *)
Inductive ablock := AAct (a : act) | AAtom (i arg op value : N) (t f : ablock).
Definition aid (b : ablock) : N := match b with AAct a => a_id a | AAtom i _ _ _ _ _ => i end.
(* after lowering; [is_action]: an instance of one of the action classes *)
Inductive block :=
  | Basic (i : N) (is_action : bool) (ins : list instr)
  | Entry (i op nr : N) (t f : block)
  | Wide (i off op value : N) (t f : block).
Definition bid (b : block) : N := match b with Basic i _ _ => i | Entry i _ _ _ _ => i | Wide i _ _ _ _ _ => i end.

(* A dictionary with numbers as keys. *)
Fixpoint assoc {A} (i : N) (l : list (N * A)) : option A :=
  match l with [] => None | (j, a) :: r => if j =? i then Some a else assoc i r end.

(* 313-356 Atom.__init__ *)
Definition mk_atom (i : N) (a : patom) (t f : ablock) : ablock :=
  match p_op a with
  | EQ => AAtom i (p_arg a) BPF_JEQ (p_val a) t f
  | NE => AAtom i (p_arg a) BPF_JEQ (p_val a) f t
  | GT => AAtom i (p_arg a) BPF_JGT (p_val a) t f
  | LE => AAtom i (p_arg a) BPF_JGT (p_val a) f t
  | GE => AAtom i (p_arg a) BPF_JGE (p_val a) t f
  | LT => AAtom i (p_arg a) BPF_JGE (p_val a) f t
  | SET => AAtom i (p_arg a) BPF_JSET (p_val a) t f
  | IN => AAtom i (p_arg a) BPF_JSET (N.ldiff (N.ones 64) (p_val a)) f t
  end.

(* compiler.py:366-382, the loops; [n] is the next identity *)
Fixpoint conj (atoms : list patom) (t f : ablock) (n : N) : ablock * N :=
  match atoms with
  | [] => (t, n)
  | a :: r => conj r (mk_atom n a t f) f (n + 1)
  end.
Fixpoint disj (clauses : list (list patom)) (action f : ablock) (n : N) : ablock * N :=
  match clauses with
  | [] => (f, n)
  | c :: r => let '(f, n) := conj c action f n in disj r action f n
  end.
Fixpoint chain (filters : list filt) (f : ablock) (n : N) : option (ablock * N) :=   (* filters[:-1][::-1] *)
  match filters with
  | [] => Some (f, n)
  | x :: r => match f_expr x with
              | None => None
              | Some e => let '(f, n) := disj e (AAct (f_act x)) f n in chain r f n
              end
  end.

(* ---- Lowering: bpf.py:468-640 ---- *)
(* 563-640 *)
Definition lower_atom (bits arg op value : N) (t f : block) (n : N) : block * N :=
  let lo := N.land value 0xffffffff in
  let hi := N.land (N.shiftr value 32) 0xffffffff in
  let lo_block := Wide n (arg_offset arg false) op lo t f in
  if bits =? 32 then (lo_block, n + 1)
  else if (op =? BPF_JGE) || (op =? BPF_JGT) then
    if hi =? 0 then (Wide (n + 1) (arg_offset arg true) BPF_JGT hi t lo_block, n + 2)
    else let hi_eq := Wide (n + 1) (arg_offset arg true) BPF_JEQ hi lo_block f in
         (Wide (n + 2) (arg_offset arg true) BPF_JGT hi t hi_eq, n + 3)
  else if op =? BPF_JSET then
    if hi =? 0 then (lo_block, n + 1)
    else (Wide (n + 1) (arg_offset arg true) op hi t lo_block, n + 2)
  else (Wide (n + 1) (arg_offset arg true) op hi lo_block f, n + 2).
(* 468-478 and accept: the copies of the blocks, and the next identity *)
Fixpoint lower (bits : N) (b : ablock) (st : list (N * block) * N) : option (list (N * block) * N) :=
  match assoc (aid b) (fst st) with
  | Some _ => Some st
  | None =>
      match b with
      | AAct a => Some ((a_id a, Basic (snd st) true (ret (a_val a))) :: fst st, snd st + 1)
      | AAtom i arg op value t f =>
          match lower bits t st with
          | None => None
          | Some st =>
              match lower bits f st with
              | None => None
              | Some st =>
                  match assoc (aid t) (fst st), assoc (aid f) (fst st) with
                  | Some t', Some f' =>
                      let '(b', n) := lower_atom bits arg op value t' f' (snd st) in Some ((i, b') :: fst st, n)
                  | _, _ => None
                  end
              end
          end
      end
  end.
Definition lowered (bits : N) (b : ablock) : option block :=
  match lower bits b ([], 0) with None => None | Some st => assoc (aid b) (fst st) end.

(* ---- Flattening: bpf.py:643-735 ---- *)
(* The instructions, and for each placed block the length of the program from
   its first instruction on (the code keeps the negated length). *)
Record flat := Flat { fl_ins : list instr; fl_off : list (N * nat) }.
Definition flat0 : flat := Flat [] [].
(* 657-660 *)
Definition distance (st : flat) (b : block) : option N :=
  match assoc (bid b) (fl_off st) with Some l => Some (N.of_nat (length (fl_ins st) - l)) | None => None end.
(* 665-686 *)
Definition emit_jmp (op value jt jf : N) : list instr :=
  if (jt <? 256) && (jf <? 256) then [I (N.lor 5 op) jt jf value]
  else if jt + 1 <? 256 then [I (N.lor 5 op) (jt + 1) 0 value; I 5 0 0 jf]
  else if jf + 1 <? 256 then [I (N.lor 5 op) 0 (jf + 1) value; I 5 0 0 jt]
  else [I (N.lor 5 op) 0 1 value; I 5 0 0 (jt + 1); I 5 0 0 jf].
(* 734-735 *)
Definition place (i : N) (ins : list instr) (st : flat) : flat :=
  Flat (ins ++ fl_ins st) ((i, (length ins + length (fl_ins st))%nat) :: fl_off st).
(* accept (152-156, 292-303, 320-325) and visit (694-735) *)
Fixpoint accept (b : block) (st : flat) : option flat :=
  match assoc (bid b) (fl_off st) with
  | Some _ => Some st
  | None =>
      match b with
      | Basic i _ ins => Some (place i ins st)
      | Entry i op nr t f =>
          match accept t st with
          | None => None
          | Some st =>
              match accept f st with
              | None => None
              | Some st =>
                  match distance st t, distance st f with
                  | Some dt, Some df => Some (place i (emit_jmp op nr dt df) st)
                  | _, _ => None
                  end
              end
          end
      | Wide i off op value t f =>
          match accept t st with
          | None => None
          | Some st =>
              match accept f st with
              | None => None
              | Some st =>
                  match distance st t, distance st f with
                  | Some dt, Some df => Some (place i (I 32 0 0 off :: emit_jmp op value dt df) st)
                  | _, _ => None
                  end
              end
          end
      end
  end.
(* 261-270 and 699-713: ValidateArch *)
Definition validate_arch (a : arch) (kill : N) (next : block) (st : flat) : option (list instr) :=
  match accept next st with
  | None => None
  | Some st =>
      match distance st next with
      | None => None
      | Some d => Some ([I 32 0 0 4; I 21 (d + 1) 0 (arch_nr a)] ++ ret kill ++ [I 32 0 0 0] ++ fl_ins st)
      end
  end.
(* 738-771 ArgFilterForwardingVisitor: the filters reached from a block *)
Fixpoint forward (b : block) (st : flat) : option flat :=
  match b with
  | Basic _ is_action _ => if is_action then Some st else accept b st
  | Entry _ _ _ t f | Wide _ _ _ _ t f => match forward t st with None => None | Some st => forward f st end
  end.

(* ---- compiler.py:348-396 compile_filter_statement ---- *)
(* An identity that no action of the statement has. *)
Definition next_id (filters : list filt) : N := fold_right (fun x n => N.max n (a_id (f_act x) + 1)) 0 filters.
(* The filter of the entry; Some None: no filter *)
Definition compile_filter_statement (a : arch) (denylist : bool) (s : stmt) : option (option (list instr)) :=
  match rev (s_filters s) with
  | [] => None
  | last :: before =>
      if negb denylist && (a_val (f_act last) =? RET_ALLOW) then Some None
      else match chain before (AAct (f_act last)) (next_id (s_filters s)) with
           | None => None
           | Some (b, _) =>
               match lowered (arch_bits a) b with
               | None => None
               | Some b => match accept b flat0 with None => None | Some st => Some (Some (fl_ins st)) end
               end
           end
  end.

(* ---- Ranges: compiler.py:35-145 ---- *)
Record entry := PEntry { e_nr : N; e_freq : N; e_filter : option (list instr) }.
(* numbers[0], numbers[1] (exclusive), frequency, filter object *)
Record range := Range { r_lo : N; r_hi : N; r_freq : N; r_filter : option (N * list instr) }.
(* sorted(): stable *)
Fixpoint insert {A} (key : A -> N) (x : A) (l : list A) : list A :=
  match l with [] => [x] | y :: r => if key x <=? key y then x :: l else y :: insert key x r end.
Definition sorted {A} (key : A -> N) (l : list A) : list A := fold_right (insert key) [] l.
Definition instr_eqb (a b : instr) : bool :=
  (code a =? code b) && (jt a =? jt b) && (jf a =? jf b) && (k a =? k b).
Fixpoint ins_eqb (a b : list instr) : bool :=
  match a, b with
  | [], [] => true
  | x :: a, y :: b => instr_eqb x y && ins_eqb a b
  | _, _ => false
  end.
Definition filter_eqb (a b : option (list instr)) : bool :=    (* bpf.py:169-172 *)
  match a, b with None, None => true | Some x, Some y => ins_eqb x y | _, _ => false end.
(* 87-99 _convert_to_ranges on the sorted entries; [n] names the filter
   objects.  It goes from the end of the list: the entry after [e] is the
   first one of the range [g].  The frequency of a range is the sum of its
   entries' (67-70), its filter the one of the first. *)
Definition named (n : N) (f : option (list instr)) : option (N * list instr) :=
  match f with Some f => Some (n, f) | None => None end.
Definition unnamed (f : option (N * list instr)) : option (list instr) :=
  match f with Some (_, f) => Some f | None => None end.
Fixpoint group (l : list entry) (n : N) : list range :=
  match l with
  | [] => []
  | e :: r =>
      match group r (n + 1) with
      | [] => [Range (e_nr e) (e_nr e + 1) (e_freq e) (named n (e_filter e))]
      | g :: gs =>
          if filter_eqb (e_filter e) (unnamed (r_filter g)) && (e_nr e + 1 =? r_lo g)
          then Range (e_nr e) (r_hi g) (e_freq e + r_freq g) (named n (e_filter e)) :: gs
          else Range (e_nr e) (e_nr e + 1) (e_freq e) (named n (e_filter e)) :: g :: gs
      end
  end.
Definition convert_to_ranges (l : list entry) : list range := group (sorted e_nr l) 2.

Definition action_of (accept_action : block) (r : range) : block :=
  match r_filter r with Some (i, ins) => Basic i false ins | None => accept_action end.
(* 102-145; every caller leaves lower_bound and upper_bound at 0 and 1e99; no
   system call number is 1e99 *)
Definition compile_single_range (r : range) (acc rej : block) (n : N) : N * block * N :=
  let action := action_of acc r in
  if r_hi r - r_lo r =? 1 then (1, Entry n BPF_JEQ (r_lo r) action rej, n + 1)
  else if r_lo r =? 0 then (1, Entry n BPF_JGE (r_hi r) rej action, n + 1)
  else (2, Entry (n + 1) BPF_JGE (r_lo r) (Entry n BPF_JGE (r_hi r) rej action) rej, n + 2).
(* 148-162 _compile_ranges_linear *)
Fixpoint linear_loop (l : list range) (acc next : block) (cost accum n : N) : N * block * N :=
  match l with
  | [] => (cost, next, n)
  | r :: t =>
      let '(c, next, n) := compile_single_range r acc next n in
      linear_loop t acc next (cost + (accum + r_freq r) * c) (accum + r_freq r) n
  end.
Definition compile_ranges_linear (l : list range) (acc rej : block) (n : N) : N * block * N :=
  linear_loop (sorted r_freq l) acc rej 0 0 n.

(* 171-284 _compile_entries_bst.  The slice ranges[i:j] is the list [l]; the
   accumulated frequencies only serve to sum up the frequencies of a slice.
   [splits]: the partitions with a non-empty left part, in order. *)
Fixpoint splits (before l : list range) : list (list range * list range) :=
  match l with
  | [] => []
  | r :: t => match before with [] => [] | _ => [(before, l)] end ++ splits (before ++ [r]) t
  end.
Definition freq_sum (l : list range) : N := fold_right (fun r s => r_freq r + s) 0 l.
Section bst.
Variables (acc rej : block).
(* A candidate tree: cost, root, next identity *)
Definition tree : Type := N * block * N.
(* 222-281, the inner loop *)
Definition try_cut (rec : list range -> N -> N -> N -> option tree) (total lo hi : N) (low high : list range)
  (cut : N) (best : tree) : option tree :=
  if negb ((lo <? cut) && (cut <? hi)) then Some best
  else match rec low lo cut (snd best) with
       | None => None
       | Some (cl, tl, n) =>
           match rec high cut hi n with
           | None => None
           | Some (cr, tr, n) =>
               let cost := total + cl + cr in
               let '(c, t, _) := best in
               if cost <? c then Some (cost, Entry n BPF_JGE cut tr tl, n + 1) else Some (c, t, n)
           end
       end.
Fixpoint try_splits (rec : list range -> N -> N -> N -> option tree) (total lo hi : N)
  (l : list (list range * list range)) (best : tree) : option tree :=
  match l with
  | [] => Some best
  | (low, high) :: t =>
      match high, rev low with
      | r :: _, r' :: _ =>
          match try_cut rec total lo hi low high (r_lo r) best with
          | None => None
          | Some best =>
              match try_cut rec total lo hi low high (r_hi r') best with
              | None => None
              | Some best => try_splits rec total lo hi t best
              end
          end
      | _, _ => None
      end
  end.
Fixpoint generate_syscall_bst (fuel : nat) (l : list range) (lo hi n : N) : option tree :=
  match fuel with
  | O => None
  | S fuel =>
      match l, rev l with
      | first :: rest, last :: _ =>
          if negb ((lo <=? r_lo first) && (r_hi last <=? hi)) then None else      (* 208-209 *)
          match rest with
          | [] =>
              if (lo =? r_lo first) && (hi =? r_hi first) then Some (0, action_of acc first, n)
              else let '(c, t, n) := compile_single_range first acc rej n in Some (c * r_freq first, t, n)
          | _ => try_splits (generate_syscall_bst fuel) (freq_sum l) lo hi (splits [] l) (compile_ranges_linear l acc rej n)
          end
      | _, _ => None
      end
  end.
End bst.

(* ---- compiler.py:293-346 compile_file ---- *)
Inductive strategy := LINEAR | BST.
Fixpoint compile_stmts (a : arch) (denylist : bool) (l : list stmt) : option (list entry) :=
  match l with
  | [] => Some []
  | s :: t => match compile_filter_statement a denylist s, compile_stmts a denylist t with
              | Some f, Some r => Some (PEntry (s_nr s) (s_freq s) f :: r)
              | _, _ => None
              end
  end.
Definition compile_file (a : arch) (kill : N) (denylist : bool) (strat : strategy) (p : parsed) : option (list instr) :=
  match compile_stmts a denylist (p_stmts p) with
  | None => None
  | Some entries =>
      let acc := Basic 0 true (ret (if denylist then kill else RET_ALLOW)) in
      let rej := Basic 1 true (ret (if denylist then RET_ALLOW else a_val (p_default p))) in
      match entries with
      | [] => match accept rej flat0 with None => None | Some st => validate_arch a kill rej st end
      | _ =>
          let ranges := convert_to_ranges entries in
          let n := 2 + N.of_nat (length entries) in
          match (match strat with
                 | BST => generate_syscall_bst acc rej (length ranges) ranges 0 (2 ^ 64 - 1) n
                 | LINEAR => Some (compile_ranges_linear ranges acc rej n)
                 end) with
          | None => None
          | Some (_, next, _) =>
              match forward next flat0 with
              | None => None
              | Some st =>
                  match accept rej st with
                  | None => None
                  | Some st => match accept acc st with None => None | Some st => validate_arch a kill next st end
                  end
              end
          end
      end
  end.
