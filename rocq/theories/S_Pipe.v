(* Specification of what a pipe does with the bytes written to it. *)
From Verif Require Export M_Pipe.
Local Open Scope N_scope.

(* errno is positive *)
Definition real_errors (w : script) : Prop := forall i n, w i = Fail n -> (0 < n)%Z.
(* bytes are taken, or there is an error other than an interruption *)
Definition progress (a : answer) : Prop := match a with Bytes n => 1 <= n | Fail n => n <> EINTR end.
(* the bytes that went into the pipe, however the writer ended *)
Definition delivered (r : wresult) : string := match r with Wrote _ s _ => s | More s => s end.
