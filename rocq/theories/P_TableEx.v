(* C85: headers as examples and counterexamples. *)
From Verif Require Import P_CStr P_Const S_Policy S_PyPolicy P_PyFile.
From Verif Require Import M_PyParse S_PyText P_PyLex P_PyGram S_Common P_CommonPy P_GenText P_GenRead.
From Verif Require Import M_Json S_Json P_Json P_JsonFile P_JsonEx M_Table S_Table P_Table.
Local Open Scope string_scope.

Definition text_okb (t : string) : bool := every any t && negb (M_Gen.py_in "#define " t).
Definition identb (n : string) : bool := negb (String.eqb n "") && every is_word n.
Definition okb (d : directive) : bool :=
  match d with Define n t | Define_fun n t => identb n && text_okb t | Undef n => identb n | Other l => text_okb l end.
Lemma text_okb_ok t : text_okb t = true -> text_ok t.
Proof.
  intros H. apply andb_true_iff in H as [A B]. split; [|apply contains_check, negb_true_iff, B]. apply every_all in A. revert A. apply all_chars_impl.
  intros c C. apply but_true. exact C.
Qed.
Lemma identb_ok n : identb n = true -> identifier n.
Proof.
  intros H. apply andb_true_iff in H as [A B]. split; [intros ->; discriminate A|]. apply every_all in B. revert B. apply all_chars_impl. intros c. apply is_word_spec.
Qed.
Lemma okb_ok d : okb d = true -> directive_ok d.
Proof.
  destruct d as [n t|n t|n|l]; cbn [okb directive_ok]; intros H; [apply andb_true_iff in H as [A B]|apply andb_true_iff in H as [A B]| |];
  auto using text_okb_ok, identb_ok.
Qed.
Lemma okb_all ds : forallb okb ds = true -> Forall directive_ok ds.
Proof. rewrite forallb_forall, Forall_forall. intros H d I. apply okb_ok, H, I. Qed.

Definition unistd : list directive :=
  [Other "# 1 ""./gen_syscalls.c"""; Define "__x86_64__" "1"; Define "__NR_read" "0"; Define "__NR_old" "9"; Undef "__NR_old"; Define "__NR__llseek" "140";
   Define "__ARM_NR_breakpoint" "(__ARM_NR_BASE+1)"; Define "__NR_SYSCALL_BASE" "0"; Define_fun "__NR_f" "x) x"; Define "__NR_syscalls" "463"].
Definition unistd_value (m : string) : option Z :=
  lookup m [("__x86_64__", 1); ("__NR_read", 0); ("__NR__llseek", 140); ("__ARM_NR_breakpoint", 983041); ("__NR_SYSCALL_BASE", 0); ("__NR_syscalls", 463)]%Z.
Definition headers : list directive :=
  [Define "EPERM" "1"; Define "O_TMPFILE" "(__O_TMPFILE | O_DIRECTORY)"; Define "SIG_BLOCK" "0"; Define "PROT_READ" "0x1"; Define "AT_FDCWD" "-100"; Define "le16toh" "1"].
Definition headers_value (m : string) : option Z :=
  lookup m [("EPERM", 1); ("O_TMPFILE", 4259840); ("SIG_BLOCK", 0); ("PROT_READ", 1); ("AT_FDCWD", -100); ("le16toh", 1)]%Z.
(* the macros that are left at the end *)
Fixpoint left_at_end (ds : list directive) : list string :=
  match ds with
  | [] => []
  | Define m _ :: t => if existsb (fun d => match d with Undef n => String.eqb n m | _ => false end) t then left_at_end t else m :: left_at_end t
  | _ :: t => left_at_end t
  end.
Lemma left_defined ds m : In m (left_at_end ds) <-> defined ds m.
Proof.
  assert (forall (n : string) l, existsb (fun d => match d with Undef k => String.eqb k n | _ => false end) l = false <-> ~ In (Undef n) l) as U.
  { intros n l. rewrite <- not_true_iff_false, existsb_exists. split; intros H I; apply H.
    - exists (Undef n). split; [exact I|apply String.eqb_refl].
    - destruct I as ([ | |k| ] & I & E); try discriminate E. apply String.eqb_eq in E as ->. exact I. }
  assert (forall d ds, defined ds m -> defined (d :: ds) m) as LATER by (intros d l (a & t & b & -> & N); exists (d :: a), t, b; split; [reflexivity|exact N]).
  assert (forall d ds, (forall t, d <> Define m t) -> defined (d :: ds) m -> defined ds m) as BACK.
  { intros d l ND (a & t & b & E & N). destruct a as [|x a]; injection E as -> ->; [exfalso; exact (ND t eq_refl)|exists a, t, b; split; [reflexivity|exact N]]. }
  induction ds as [|d ds IH]; cbn [left_at_end].
  - split; [intros []|]. intros (a & t & b & E & _). destruct a; discriminate.
  - destruct d as [n t|n t|n|l]; cycle 1.
    1-3: rewrite IH; split; [apply LATER|apply BACK; discriminate].
    destruct (existsb _ ds) eqn:E.
    + rewrite IH. split; [apply LATER|]. destruct (string_dec n m) as [->|NE]; [|apply BACK; congruence].
      intros (a & t' & b & X & N). destruct a as [|x a]; injection X; [intros -> _; apply U in N; congruence|]. intros -> _. exists a, t', b. split; [reflexivity|exact N].
    + apply U in E. cbn [In]. rewrite IH. split.
      * intros [->|H]; [exists [], t, ds; split; [reflexivity|exact E]|apply LATER, H].
      * destruct (string_dec n m) as [->|NE]; [left; reflexivity|]. intros H. right. revert H. apply BACK. congruence.
Qed.
Lemma table_sees (l : list (string * Z)) ds : (forall m, In m (map fst l) <-> In m (left_at_end ds)) -> sees ds (fun m => lookup m l).
Proof.
  intros H m. rewrite <- left_defined, <- H. clear H. induction l as [|[k x] l IH]; cbn; [intuition congruence|].
  destruct (String.eqb_spec k m) as [->|N]; [split; [auto|discriminate]|]. rewrite IH. intuition congruence.
Qed.
Lemma unistd_case : Forall directive_ok unistd /\ sees unistd unistd_value.
Proof. split; [apply okb_all; vm_compute; reflexivity|]. apply table_sees. intros m. vm_compute. tauto. Qed.
Lemma headers_case : Forall directive_ok headers /\ sees headers headers_value.
Proof. split; [apply okb_all; vm_compute; reflexivity|]. apply table_sees. intros m. vm_compute. tauto. Qed.
Lemma unistd_table : option_map (built unistd_value) (sys_entries (map line_of unistd)) = Some [("read", 0); ("_llseek", 140); ("ARM_breakpoint", 983041); ("syscalls", 463)]%Z.
Proof. vm_compute. reflexivity. Qed.
Lemma headers_table : built headers_value (const_entries (map line_of headers)) = [("EPERM", 1); ("PROT_READ", 1)]%Z.
Proof. vm_compute. reflexivity. Qed.
(* Constants of the headers that are not in the table. *)
Lemma headers_missing : exists ds value, Forall directive_ok ds /\ sees ds value /\
  forall n, In n ["O_TMPFILE"; "SIG_BLOCK"; "AT_FDCWD"] -> constant_macro n /\ defined ds n /\ forall v, ~ In (n, v) (built value (const_entries (map line_of ds))).
Proof.
  exists headers, headers_value. split; [exact (proj1 headers_case)|]. split; [exact (proj2 headers_case)|]. intros n I. split; [|split].
  - apply const_macro_parts. destruct I as [<-|[<-|[<-|[]]]]; eexists _, _; (split; [reflexivity|split; reflexivity]).
  - apply left_defined. destruct I as [<-|[<-|[<-|[]]]]; vm_compute; tauto.
  - intros v. rewrite headers_table. intros [H|[H|[]]]; injection H as H _; subst n; destruct I as [I|[I|[I|[]]]]; discriminate I.
Qed.
