(* Specification: the part of the ELF format that decides linkage (elf(5)).
   A file is a list of bytes. *)
From Coq Require Import List NArith Bool.
Import ListNotations.
Local Open Scope N_scope.

(* The [n]-byte number at offset [off], in the given byte order; None when
   the file is too short. *)
Fixpoint le_number (l : list N) : N :=
  match l with [] => 0 | b :: t => b + 256 * le_number t end.
Definition number (little : bool) (file : list N) (off n : N) : option N :=
  if off + n <=? N.of_nat (length file) then
    let l := firstn (N.to_nat n) (skipn (N.to_nat off) file) in
    Some (le_number (if little then l else rev l))
  else None.

Record elf_header := ElfHeader {
  eh_little : bool;        (* byte order *)
  eh_64 : bool;            (* word size *)
  eh_phoff : N;            (* where the program headers are *)
  eh_phentsize : N;
  eh_phnum : N
}.

Definition elf_magic (file : list N) : Prop := exists t, file = 127 :: 69 :: 76 :: 70 :: t.

(* [file] starts with ELF header [h]. *)
Definition is_elf (file : list N) (h : elf_header) : Prop :=
  elf_magic file /\
  number true file 4 1 = Some (if eh_64 h then 2 else 1) /\
  number true file 5 1 = Some (if eh_little h then 1 else 2) /\
  number (eh_little h) file (if eh_64 h then 32 else 28) (if eh_64 h then 8 else 4) = Some (eh_phoff h) /\
  number (eh_little h) file (if eh_64 h then 54 else 42) 2 = Some (eh_phentsize h) /\
  number (eh_little h) file (if eh_64 h then 56 else 44) 2 = Some (eh_phnum h).

Definition phdr_size (h : elf_header) : N := if eh_64 h then 56 else 32.
Definition phdr_off (h : elf_header) (i : N) : N := eh_phoff h + i * phdr_size h.
Definition phdr_present (file : list N) (h : elf_header) (i : N) : Prop :=
  phdr_off h i + phdr_size h <= N.of_nat (length file).
(* Program header [i] names an interpreter (PT_INTERP = 3). *)
Definition interp (file : list N) (h : elf_header) (i : N) : Prop :=
  i < eh_phnum h /\ phdr_present file h i /\
  number (eh_little h) file (phdr_off h i) 4 = Some 3.
Definition table_complete (file : list N) (h : elf_header) : Prop :=
  forall i, i < eh_phnum h -> phdr_present file h i.
