(* Model of /repo/bpf.c and the macros of /repo/bpf.h. *)
From Verif Require Export M_CStr S_Bpf.
Local Open Scope N_scope.

(* Build-time platform: /repo/bpf.h:25-29 (BITS32/BITS64), the endianness
   tests of bpf.h:112-117 and MINIJAIL_ARCH_NR of /repo/arch.h. *)
Record platform := Plat { bits64 : bool; little : bool; arch_no : N }.

(* Width of long / of a syscall argument. *)
Definition wordN (p : platform) : N := if bits64 p then 64 else 32.

(* bpf.h:50-58 *)
Definition RET_KILL_PROCESS : N := 2147483648.
Definition RET_KILL_THREAD  : N := 0.
Definition RET_KILL : N := RET_KILL_THREAD.
Definition RET_TRAP  : N := 196608.
Definition RET_ERRNO : N := 327680.
Definition RET_LOG   : N := 2147221504.
Definition RET_ALLOW : N := 2147418112.
Definition RET_DATA  : N := 65535.

(* bpf.h:147-190 set_bpf_* *)
Definition stmt (c kk : N) : instr := I c 0 0 kk.
Definition jump (c kk t f : N) : instr := I c t f kk.
Definition lbl (id : N) : instr := I op_ja 254 254 id.
Definition jump_lbl (id : N) : instr := I op_ja 255 255 id.
Definition ret_kill : instr := stmt op_ret RET_KILL.
Definition ret_kill_process : instr := stmt op_ret RET_KILL_PROCESS.
Definition ret_trap : instr := stmt op_ret RET_TRAP.
Definition ret_errno (e : N) : instr := stmt op_ret (N.lor RET_ERRNO (N.land e RET_DATA)).
Definition ret_log : instr := stmt op_ret RET_LOG.
Definition ret_allow : instr := stmt op_ret RET_ALLOW.
(* bpf.h:189-190; offsetof(nr) = 0, offsetof(arch) = 4 *)
Definition load_syscall_nr : instr := stmt op_ld_abs 0.

(* bpf.c:15-23 *)
Definition bpf_validate_arch (p : platform) : list instr :=
  [ stmt op_ld_abs 4; jump op_jeq (arch_no p) 1 0; ret_kill ].

(* bpf.c:26-32.  nr is the 32-bit pattern of the int argument. *)
Definition bpf_allow_syscall (nr : N) : list instr :=
  [ jump op_jeq nr 0 1; stmt op_ret RET_ALLOW ].

(* bpf.c:34-41 *)
Definition bpf_allow_syscall_args (nr id : N) : list instr :=
  [ jump op_jeq nr 0 1; jump_lbl id ].

(* bpf.h:90,113-114: offsetof(struct seccomp_data, args[idx]) (+4) stored in
   the 32-bit k field.  idx is the int argument, possibly negative. *)
Definition lo_arg (idx : Z) : N := to_word 32 (16 + 8 * idx).
Definition hi_arg (idx : Z) : N := to_word 32 (16 + 8 * idx + 4).

(* bpf.c:45-49 and 51-59 *)
Definition bpf_load_arg (p : platform) (idx : Z) : list instr :=
  if bits64 p then
    [ stmt op_ld_abs (lo_arg idx); stmt op_st 0;
      stmt op_ld_abs (hi_arg idx); stmt op_st 1 ]
  else [ stmt op_ld_abs (lo_arg idx) ].

(* bpf.c:63-69, 93-99, 101-107, 165-171: c & 0xFFFFFFFF *)
Definition comp_jeq32 (c t f : N) : list instr := [ jump op_jeq (lo32 c) t f ].
Definition comp_jgt32 (c t f : N) : list instr := [ jump op_jgt (lo32 c) t f ].
Definition comp_jge32 (c t f : N) : list instr := [ jump op_jge (lo32 c) t f ].
Definition comp_jset32 (c t f : N) : list instr := [ jump op_jset (lo32 c) t f ].

(* bpf.c:76-90 *)
Definition comp_jeq64 (c t f : N) : list instr :=
  let lo := lo32 c in let hi := hi32 c in
  comp_jeq32 hi 0 (2 + f) ++ [ stmt op_ld_mem 0 ] ++ comp_jeq32 lo t f.

(* bpf.c:115-137 *)
Definition comp_jgt64 (c t f : N) : list instr :=
  let lo := lo32 c in let hi := hi32 c in
  (if hi =? 0 then comp_jgt32 hi (2 + t) 0
   else comp_jgt32 hi (3 + t) 0 ++ comp_jeq32 hi 0 (2 + f))
  ++ [ stmt op_ld_mem 0 ] ++ comp_jgt32 lo t f.

(* bpf.c:139-161 *)
Definition comp_jge64 (c t f : N) : list instr :=
  let lo := lo32 c in let hi := hi32 c in
  (if hi =? 0 then comp_jgt32 hi (2 + t) 0
   else comp_jgt32 hi (3 + t) 0 ++ comp_jeq32 hi 0 (2 + f))
  ++ [ stmt op_ld_mem 0 ] ++ comp_jge32 lo t f.

(* bpf.c:178-192 *)
Definition comp_jset64 (c t f : N) : list instr :=
  let lo := lo32 c in let hi := hi32 c in
  comp_jset32 hi (2 + t) 0 ++ [ stmt op_ld_mem 0 ] ++ comp_jset32 lo t f.

(* bpf.h:85-88, 106-109 *)
Definition comp_jeq (p : platform) := if bits64 p then comp_jeq64 else comp_jeq32.
Definition comp_jgt (p : platform) := if bits64 p then comp_jgt64 else comp_jgt32.
Definition comp_jge (p : platform) := if bits64 p then comp_jge64 else comp_jge32.
Definition comp_jset (p : platform) := if bits64 p then comp_jset64 else comp_jset32.

(* bpf.c:195-205: ~mask on an unsigned long *)
Definition comp_jin (p : platform) (mask t f : N) : list instr :=
  comp_jset p (N.lxor mask (N.ones (wordN p))) f t.

(* bpf.h:33-42.  Invalid operators are rejected by the caller
   (syscall_filter.c:286), so the default branch of bpf_arg_comp is not
   modelled. *)
Inductive op := EQ | NE | LT | LE | GT | GE | SET | IN.

(* bpf.c:228-299: load, compare (true skips the jump), jump to label.
   The allocation of bpf.c:231-242 is assumed to succeed; P_Bpf.arg_comp_len
   shows the allocated size of bpf.c:207-226 is exactly what is written. *)
Definition bpf_arg_comp (p : platform) (o : op) (idx : Z) (c id : N) : list instr :=
  bpf_load_arg p idx ++
  (match o with
   | EQ  => comp_jeq p c 1 0
   | NE  => comp_jeq p c 0 1
   | LT  => comp_jge p c 0 1
   | LE  => comp_jgt p c 0 1
   | GT  => comp_jgt p c 1 0
   | GE  => comp_jge p c 1 0
   | SET => comp_jset p c 1 0
   | IN  => comp_jin p c 1 0
   end) ++ [ jump_lbl id ].

(* bpf.c:207-226 with the lengths of bpf.h:76-83, 97-104 *)
Definition bpf_arg_comp_len (p : platform) (o : op) (c : N) : nat :=
  match o with
  | LT | LE | GT | GE =>
      if bits64 p then
        if hi32 c =? 0 then (4 + 3 + 1)%nat else (4 + 4 + 1)%nat
      else (1 + 1 + 1)%nat
  | _ => if bits64 p then (4 + 3 + 1)%nat else (1 + 1 + 1)%nat
  end.

(* Label table of bpf.h:137-144: the strings, in order of id.  The location
   field is kept separately by bpf_resolve_jumps below. *)
Definition BPF_LABELS_MAX : nat := 512.
Definition MAX_BPF_LABEL_LEN : nat := 32.

Fixpoint find_index (s : string) (l : list string) (i : N) : option N :=
  match l with
  | [] => None
  | x :: l' => if String.eqb s x then Some i else find_index s l' (i + 1)
  end.

(* bpf.c:352-383: id and the new table; None models -1 (table full).
   strndup(label, 32) keeps at most 32 characters. *)
Definition bpf_label_id (labels : list string) (s : string)
  : option N * list string :=
  match find_index s labels 0 with
  | Some i => (Some i, labels)
  | None =>
      if Nat.eqb (length labels) BPF_LABELS_MAX then (None, labels)
      else (Some (N.of_nat (length labels)),
            (labels ++ [stake MAX_BPF_LABEL_LEN s])%list)
  end.

(* Outcome of bpf_resolve_jumps.  RUb: the LABEL case indexes
   labels->labels[k] with k not below labels->count (bpf.c:336), i.e. reads an
   uninitialised or out-of-bounds entry; C gives that no meaning. *)
Inductive rres (A : Type) := ROk (a : A) | RErr | RUb.
Arguments ROk {A} a.
Arguments RErr {A}.
Arguments RUb {A}.

Fixpoint loc_find (id : N) (locs : list (N * N)) : option N :=
  match locs with
  | [] => None
  | (j, o) :: t => if j =? id then Some o else loc_find id t
  end.

Definition is_jump (i : instr) : bool :=
  (code i =? op_ja) && (jt i =? 255) && (jf i =? 255).
Definition is_label (i : instr) : bool :=
  (code i =? op_ja) && (jt i =? 254) && (jf i =? 254).

(* bpf.c:314-347: walk backwards; [off] is the index of the head of [p].
   Locations are an association list instead of the array field (entry absent
   = 0xffffffff; offsets are below 4096 so they never equal it). *)
Fixpoint resolve_from (count : nat) (off : N) (p : list instr)
  : rres (list instr * list (N * N)) :=
  match p with
  | [] => ROk ([], [])
  | i :: rest =>
      match resolve_from count (off + 1) rest with
      | ROk (rest', locs) =>
          if is_jump i then
            if N.of_nat count <=? k i then RErr
            else match loc_find (k i) locs with
                 | None => RErr
                 | Some l => ROk (I op_ja 0 0 (l - (off + 1)) :: rest', locs)
                 end
          else if is_label i then
            if N.of_nat count <=? k i then RUb
            else match loc_find (k i) locs with
                 | Some _ => RErr
                 | None => ROk (I op_ja 0 0 0 :: rest', (k i, off) :: locs)
                 end
          else ROk (i :: rest', locs)
      | RErr => RErr
      | RUb => RUb
      end
  end.

(* bpf.c:301-349 *)
Definition bpf_resolve_jumps (count : nat) (p : list instr) : rres (list instr) :=
  if Nat.ltb BPF_MAXINSNS (length p) then RErr
  else match resolve_from count 0 p with
       | ROk (p', _) => ROk p'
       | RErr => RErr
       | RUb => RUb
       end.
