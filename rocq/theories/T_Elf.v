(* Property theorems: program linkage (C21). *)
From Coq Require Import List NArith.
From Verif Require Import P_Elf.
Local Open Scope N_scope.

(* C21 for ELF files in the host's byte order with all program headers
   present: dynamic exactly with an interpreter segment, static exactly
   without.  (h_long: width of the offset fseek takes.) *)
Theorem C21_linkage_exact_partial : forall h f e, 0 < h_long h -> is_elf f e -> HEADERSIZE <= N.of_nat (length f) ->
  eh_little e = h_little h -> eh_phoff e < 2 ^ (h_long h - 1) -> eh_phentsize e = phdr_size e -> table_complete f e ->
  (get_elf_linkage h (Some f) = ELFDYNAMIC <-> exists i, interp f e i) /\
  (get_elf_linkage h (Some f) = ELFSTATIC <-> forall i, ~ interp f e i).
Proof. exact linkage_dynamic. Qed.
Print Assumptions C21_linkage_exact_partial.
(* Static is never reported for anything else. *)
Theorem C21_static_only : forall h f, 0 < h_long h -> get_elf_linkage h (Some f) = ELFSTATIC ->
  exists e, is_elf f e /\ eh_phentsize e = phdr_size e /\
   (eh_phoff e < 2 ^ (h_long h - 1) -> table_complete f e /\ (eh_little e = h_little h -> forall i, ~ interp f e i)).
Proof. exact linkage_static. Qed.
Print Assumptions C21_static_only.
Theorem C21_truncated_not_static : forall h f e, is_elf f e -> HEADERSIZE <= N.of_nat (length f) ->
  0 < h_long h -> eh_phoff e < 2 ^ (h_long h - 1) -> ~ table_complete f e -> get_elf_linkage h (Some f) <> ELFSTATIC.
Proof. exact linkage_truncated. Qed.
Print Assumptions C21_truncated_not_static.
Theorem C21_scripts_dynamic : forall h f, N.of_nat (length f) < HEADERSIZE \/ ~ elf_magic f ->
  get_elf_linkage h (Some f) = ELFDYNAMIC.
Proof. exact linkage_short. Qed.
Print Assumptions C21_scripts_dynamic.
Example C21_case : get_elf_linkage (Host true 64) (Some (elf_sample true 3)) = ELFDYNAMIC /\
  get_elf_linkage (Host true 64) (Some (elf_sample true 1)) = ELFSTATIC /\
  is_elf (elf_sample true 3) (sample_header true) /\
  table_complete (elf_sample true 3) (sample_header true) /\
  order_ok (Host true 64) (sample_header true) /\ off_ok (Host true 64) (sample_header true).
Proof. exact sample_case. Qed.
(* In the other byte order the segment type is not swapped: a dynamic program
   is reported static. *)
Theorem C21_other_byte_order_refuted : exists f e, is_elf f e /\ (exists i, interp f e i) /\ table_complete f e /\
  eh_little e = false /\ get_elf_linkage (Host true 64) (Some f) = ELFSTATIC.
Proof. exact foreign_order. Qed.
Print Assumptions C21_other_byte_order_refuted.
