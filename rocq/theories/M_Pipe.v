(* Sending a jail through a pipe. *)
From Verif Require Export M_Marshal.
Local Open Scope N_scope.

(* What the kernel answers to one write(2) or read(2): a number of bytes (a
   larger number than asked for or available means all of it) or an errno. *)
Inductive answer := Bytes (n : N) | Fail (errno : Z).
(* The answer to the i-th call. *)
Definition script := nat -> answer.

(* libminijail.c:281-298.  [More]: the calls allowed by the fuel were all
   made.  [sent] is what the kernel took so far. *)
Inductive wresult := Wrote (rc : Z) (sent : string) (calls : nat) | More (sent : string).
Fixpoint write_exactly (fuel : nat) (w : script) (i : nat) (p sent : string) : wresult :=
  match p with
  | EmptyString => Wrote 0 sent i
  | _ =>
      match fuel with
      | O => More sent
      | S fuel' =>
          match w i with
          | Fail errno =>
              if (errno =? EINTR)%Z then write_exactly fuel' w (S i) p sent
              else Wrote (- errno) sent (S i)
          | Bytes n =>
              let written := N.to_nat (N.min n (sizeof p)) in
              write_exactly fuel' w (S i) (sdrop written p) (sent ++ stake written p)%string
          end
      end
  end.

(* libminijail.c:3043-3063; None: undefined behaviour while serializing.  The
   malloc is assumed to succeed. *)
Definition minijail_to_fd (addr : N -> N) (j : jail) (fuel : nat) (w : script) : option wresult :=
  match minijail_size addr j with
  | None => None
  | Some sz =>
      if sz =? 0 then Some (Wrote (- EINVAL) EmptyString 0) else
      match minijail_marshal addr j sz with
      | None => None
      | Some (err, buf) =>
          if negb (err =? 0)%Z then Some (Wrote err EmptyString 0) else
          match write_exactly fuel w 0 (num 8 sz) EmptyString with
          | Wrote 0 sent i => Some (write_exactly fuel w i buf sent)
          | r => Some r
          end
      end
  end.

(* One read(2) of at most n bytes from a pipe holding s: the bytes obtained
   (None: failure) and what is left. *)
Definition read_once (a : answer) (n : N) (s : string) : option string * string :=
  match a with
  | Fail _ => (None, s)
  | Bytes m => let got := N.to_nat (N.min m n) in (Some (stake got s), sdrop got s)
  end.

(* libminijail.c:3023-3041: a return code, or what minijail_unmarshal did. *)
Inductive fresult := FErr (rc : Z) (j : jail) | FOk (j : jail) | FUb.
Definition minijail_from_fd (e : kenv) (j : jail) (r : script) (s : string) : fresult :=
  let '(got, s) := read_once (r O) 8 s in
  match got with
  | None => FErr (- EINVAL) j
  | Some b =>
      if negb (sizeof b =? 8) then FErr (- EINVAL) j else
      let sz := val b in
      if USHRT_MAX <? sz then FErr (- E2BIG) j else
      let '(got, s) := read_once (r 1%nat) sz s in
      match got with
      | None => FErr (- EINVAL) j
      | Some buf =>
          if negb (sizeof buf =? sz) then FErr (- EINVAL) j
          else match minijail_unmarshal e j buf with
               | UOk j' => FOk j'
               | UErr j' => FErr (- EINVAL) j'
               | UUb | UFuel => FUb
               end
      end
  end.
