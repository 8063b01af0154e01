(* Specification: the classic-BPF machine of the kernel as seccomp runs it,
   and the kernel's static checks on a filter.  This is not part of /repo; it
   is what the programs built by /repo/bpf.c are run on.  Only the opcodes
   minijail emits are given a meaning; any other opcode is a fault. *)
From Coq Require Import List ZArith NArith Bool.
Import ListNotations.
Local Open Scope N_scope.

(* struct sock_filter of <linux/filter.h>: u16 code, u8 jt, u8 jf, u32 k. *)
Record instr := I { code : N; jt : N; jf : N; k : N }.

(* struct seccomp_data (also /repo/bpf.h:60-65). *)
Record sdata := SD {
  sd_nr : N;             (* system call number, as a 32-bit word *)
  sd_arch : N;           (* AUDIT_ARCH_* of the calling convention *)
  sd_ip : N;             (* instruction pointer *)
  sd_args : list N       (* six 64-bit arguments *)
}.

Definition sd_arg (d : sdata) (i : nat) : N := nth i (sd_args d) 0.

Definition sd_ok (d : sdata) : Prop :=
  sd_nr d < 2 ^ 32 /\ sd_arch d < 2 ^ 32 /\ sd_ip d < 2 ^ 64 /\
  length (sd_args d) = 6%nat /\ Forall (fun a => a < 2 ^ 64) (sd_args d).

Definition lo32 (v : N) : N := v mod 2 ^ 32.
Definition hi32 (v : N) : N := v / 2 ^ 32.

(* The 32-bit word at byte offset [off] of seccomp_data; [le] says whether
   the machine is little-endian.  None: out of range or not aligned. *)
Definition sd_word (le : bool) (d : sdata) (off : N) : option N :=
  if negb (off mod 4 =? 0) then None
  else if 64 <=? off then None
  else if off =? 0 then Some (sd_nr d)
  else if off =? 4 then Some (sd_arch d)
  else
    let v := if off <? 16 then sd_ip d
             else sd_arg d (N.to_nat ((off - 16) / 8)) in
    let first := (off mod 8 =? 0) in
    Some (if Bool.eqb first le then lo32 v else hi32 v).

(* Machine state: accumulator and the 16 scratch words (None: never
   written). *)
Record vm := VM { acc : N; mem : N -> option N }.
Definition vm0 : vm := VM 0 (fun _ => None).
Definition mem_set (m : N -> option N) (i v : N) : N -> option N :=
  fun j => if j =? i then Some v else m j.

Inductive vres :=
| VRet (v : N)      (* the filter returned v *)
| VFault            (* illegal instruction, load, or jump out of the program *)
| VFuel.            (* fuel exhausted: see exec_fuel_enough *)

Definition op_ld_abs : N := 32.   (* BPF_LD | BPF_W | BPF_ABS *)
Definition op_ld_mem : N := 96.   (* BPF_LD | BPF_MEM *)
Definition op_st     : N := 2.    (* BPF_ST *)
Definition op_ja     : N := 5.    (* BPF_JMP | BPF_JA *)
Definition op_jeq    : N := 21.   (* BPF_JMP | BPF_JEQ | BPF_K *)
Definition op_jgt    : N := 37.
Definition op_jge    : N := 53.
Definition op_jset   : N := 69.
Definition op_ret    : N := 6.    (* BPF_RET | BPF_K *)

(* The test of a conditional jump, if the opcode is one. *)
Definition jump_test (c a kk : N) : option bool :=
  if c =? op_jeq then Some (a =? kk)
  else if c =? op_jgt then Some (kk <? a)
  else if c =? op_jge then Some (kk <=? a)
  else if c =? op_jset then Some (negb (N.land a kk =? 0))
  else None.

(* Execution.  The program counter is represented by the rest of the program,
   which is possible because every BPF jump is forward. *)
Fixpoint exec (le : bool) (fuel : nat) (p : list instr) (d : sdata) (s : vm)
  : vres :=
  match fuel with
  | O => VFuel
  | S fuel' =>
    match p with
    | [] => VFault
    | i :: rest =>
      if code i =? op_ret then VRet (k i)
      else if code i =? op_ja then exec le fuel' (skipn (N.to_nat (k i)) rest) d s
      else if code i =? op_ld_abs then
        match sd_word le d (k i) with
        | Some w => exec le fuel' rest d (VM w (mem s))
        | None => VFault
        end
      else if code i =? op_ld_mem then
        match mem s (k i) with
        | Some w => exec le fuel' rest d (VM w (mem s))
        | None => VFault
        end
      else if code i =? op_st then
        if k i <? 16 then exec le fuel' rest d (VM (acc s) (mem_set (mem s) (k i) (acc s)))
        else VFault
      else
        match jump_test (code i) (acc s) (k i) with
        | Some b => exec le fuel' (skipn (N.to_nat (if b then jt i else jf i)) rest) d s
        | None => VFault
        end
    end
  end.

(* Running a whole filter on one system call.  One unit of fuel per
   instruction is always enough because jumps are forward. *)
Definition run (le : bool) (p : list instr) (d : sdata) : vres :=
  exec le (S (length p)) p d vm0.

(* ---- The kernel's checks before it accepts a filter ---- *)

Definition BPF_MAXINSNS : nat := 4096.

(* bpf_check_classic: known opcode, jumps inside the program, scratch index
   in range; seccomp_check_filter: aligned in-range loads of seccomp_data. *)
Definition insn_ok (i : instr) (after : nat) : bool :=
  if code i =? op_ret then true
  else if code i =? op_ja then Nat.ltb (N.to_nat (k i)) after
  else if code i =? op_ld_abs then (k i mod 4 =? 0) && (k i <? 64)
  else if (code i =? op_ld_mem) || (code i =? op_st) then k i <? 16
  else match jump_test (code i) 0 0 with
       | Some _ => Nat.ltb (N.to_nat (jt i)) after && Nat.ltb (N.to_nat (jf i)) after
       | None => false
       end.

Fixpoint insns_ok (p : list instr) : bool :=
  match p with
  | [] => true
  | i :: rest => insn_ok i (length rest) && insns_ok rest
  end.

Fixpoint last_is_ret (p : list instr) : bool :=
  match p with
  | [] => false
  | [i] => code i =? op_ret
  | _ :: rest => last_is_ret rest
  end.

(* Field widths of struct sock_filter. *)
Definition insn_fits (i : instr) : bool :=
  (code i <? 65536) && (jt i <? 256) && (jf i <? 256) && (k i <? 2 ^ 32).

(* check_load_and_stores of net/core/filter.c, for one scratch word [c] (the
   kernel does the sixteen words in parallel, one bit each).  [valid]: the
   word is known to be written; [masks j]: what earlier jumps said about the
   instruction at distance j. *)
Definition mask_at (n : N) (v : bool) (masks : nat -> bool) : nat -> bool :=
  fun j => if Nat.eqb j (N.to_nat n) then masks j && v else masks j.
Fixpoint cell_ok (c : N) (p : list instr) (valid : bool) (masks : nat -> bool) : bool :=
  match p with
  | [] => true
  | i :: rest =>
      let valid := valid && masks 0%nat in
      let masks := fun j => masks (S j) in
      if code i =? op_st then cell_ok c rest (valid || (k i =? c)) masks
      else if code i =? op_ld_mem then
        (negb (k i =? c) || valid) && cell_ok c rest valid masks
      else if code i =? op_ja then cell_ok c rest true (mask_at (k i) valid masks)
      else match jump_test (code i) 0 0 with
           | Some _ => cell_ok c rest true (mask_at (jt i) valid (mask_at (jf i) valid masks))
           | None => cell_ok c rest valid masks
           end
  end.

(* A filter the kernel loads. *)
Definition kernel_accepts (p : list instr) : Prop :=
  Nat.leb 1 (length p) && Nat.leb (length p) BPF_MAXINSNS &&
  insns_ok p && last_is_ret p && forallb insn_fits p = true /\
  forall c, c < 16 -> cell_ok c p false (fun _ => true) = true.
