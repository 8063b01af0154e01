(* Specification: which policies the compiler of syscall_filter.c has room
   for, and how long the filter is. *)
From Coq Require Import String Ascii List ZArith NArith Bool.
From Verif Require Import S_Text S_Const S_Policy.
From Verif Require M_Filter.
Import ListNotations.

(* Instructions for one comparison: 3 on 32-bit builds; 8 on 64-bit builds, 9
   when an order is tested against a value with a high half. *)
Definition atom_size (b64 : bool) (a : atom) : nat :=
  if b64 then
    match at_op a with
    | M_Bpf.LT | M_Bpf.LE | M_Bpf.GT | M_Bpf.GE => if (at_val a <? 2 ^ 32)%N then 8 else 9
    | _ => 8
    end
  else 3.
Definition sum (l : list nat) : nat := fold_right Nat.add 0 l.
(* Every line takes two instructions in the dispatch; one that is not a plain
   "1" has a block of its own. *)
Definition rule_size (b64 : bool) (r : rule) : nat :=
  match r with
  | Allow => 2
  | Return _ => 2 + 2
  | Cond alts _ => 2 + (4 + sum (map (fun g => sum (map (atom_size b64) g) + 2) alts))
  end.
Definition policy_size (b : build) (o : fopts) (p : policy) : nat :=
  5 + (if M_Filter.fo_allow_syscalls_for_logging o then 2 * length (M_Filter.b_log b) else 0)
    + (if M_Filter.fo_libc_compat o then 2 * length (M_Filter.b_libc b) else 0)
    + sum (map (fun e => rule_size (M_Bpf.bits64 (M_Filter.b_plat b)) (e_rule e)) p).

(* The lines with a block of their own, and those with a condition. *)
Definition with_block (e : entry) : bool := match e_rule e with Allow => false | _ => true end.
Definition with_condition (e : entry) : bool := match e_rule e with Cond _ _ => true | _ => false end.

Record acceptable (b : build) (o : fopts) (p : policy) : Prop := {
  ac_log : M_Filter.fo_action o = M_Filter.ACT_LOG -> M_Filter.fo_allow_logging o = true;
  (* no name twice, unless that is allowed; never two blocks for a name or
     two conditions for a number *)
  ac_once : M_Filter.fo_allow_dup o = false -> NoDup (map e_name p);
  ac_blocks : NoDup (map e_name (filter with_block p));
  ac_conditions : NoDup (map e_nr (filter with_condition p));
  ac_labels : policy_labels p <= 512;
  ac_size : policy_size b o p <= 4096
}.

(* System calls have names of at most 32 characters that do not begin with a
   digit, and 32-bit numbers. *)
Definition syscall_table (tbl : list (string * N)) : Prop :=
  forall n nr, first_entry tbl n nr ->
    String.length n <= 32 /\ (nr < 2 ^ 32)%N /\
    forall c t, n = String c t -> ~ (48 <= N_of_ascii c <= 57)%N.
