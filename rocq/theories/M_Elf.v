(* Model of /repo/elfparse.c. *)
From Coq Require Import List NArith ZArith Bool.
Import ListNotations.
From Verif Require Import M_CStr.
Local Open Scope N_scope.

(* elfparse.h:84-89 *)
Inductive elf_type := ELFERROR | ELFSTATIC | ELFDYNAMIC.
Definition HEADERSIZE : N := 128.                 (* elfparse.h:96 *)

(* The host: byte order, and width of long (fseek's offset). *)
Record host := Host { h_little : bool; h_long : N }.

(* fread(buf, n, 1, f) at position pos: the bytes if all n are there. *)
Definition fread (file : list N) (pos n : N) : option (list N) :=
  if pos + n <=? N.of_nat (length file)
  then Some (firstn (N.to_nat n) (skipn (N.to_nat pos) file))
  else None.

Fixpoint le_value (l : list N) : N :=
  match l with [] => 0 | b :: t => b + 256 * le_value t end.
Definition load (little : bool) (l : list N) : N := le_value (if little then l else rev l).
(* Bytes off .. off+n-1 of a buffer. *)
Definition slice (l : list N) (off n : N) : list N :=
  firstn (N.to_nat n) (skipn (N.to_nat off) l).

(* elfparse.c:16-20 *)
Definition is_elf_magic (buf : list N) : bool :=
  match buf with
  | a :: b :: c :: d :: _ => (a =? 127) && (b =? 69) && (c =? 76) && (d =? 70)
  | _ => false
  end.

(* elfparse.c:50-62: the loop over the remaining [n] program headers at
   position [pos].  p_type is used as loaded, without byte swapping
   (elfparse.c:53). *)
Fixpoint scan_phdrs (h : host) (file : list N) (size : N) (n : nat) (pos : N) : elf_type :=
  match n with
  | O => ELFSTATIC
  | S n' =>
      match fread file pos size with
      | None => ELFERROR
      | Some p => if load (h_little h) (slice p 0 4) =? 3 then ELFDYNAMIC
                  else scan_phdrs h file size n' (pos + size)
      end
  end.

(* elfparse.c:22-63 for bit = 64 / 32.  The le##toh / be##toh conversions of a
   host load give the number in the file's order on every host. *)
Definition parse_elf (h : host) (is64 : bool) (file : list N) (pHead : list N) (little_endian : bool)
  : elf_type :=
  let phoff := load little_endian (if is64 then slice pHead 32 8 else slice pHead 28 4) in
  let phentsize := load little_endian (if is64 then slice pHead 54 2 else slice pHead 42 2) in
  let phnum := load little_endian (if is64 then slice pHead 56 2 else slice pHead 44 2) in
  let size := if is64 then 56 else 32 in
  if negb (phentsize =? size) then ELFERROR
  else
    let off := to_signed (h_long h) phoff in
    if (off <? 0)%Z then ELFERROR               (* fseek: EINVAL *)
    else scan_phdrs h file size (N.to_nat phnum) (Z.to_N off).

(* elfparse.c:67-117.  None: fopen failed. *)
Definition get_elf_linkage (h : host) (file : option (list N)) : elf_type :=
  match file with
  | None => ELFERROR
  | Some f =>
      match fread f 0 HEADERSIZE with
      | None => ELFDYNAMIC
      | Some p =>
          if is_elf_magic p then
            let data := load true (slice p 5 1) in
            let cls := load true (slice p 4 1) in
            if (data =? 1) && (cls =? 2) then parse_elf h true f p true
            else if (data =? 2) && (cls =? 2) then parse_elf h true f p false
            else if (data =? 1) && (cls =? 1) then parse_elf h false f p true
            else if (data =? 2) && (cls =? 1) then parse_elf h false f p false
            else ELFERROR
          else ELFDYNAMIC
      end
  end.
