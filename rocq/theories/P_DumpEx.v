(* Runs of parse_seccomp_policy. *)
From Verif Require Export P_Dump P_PolicyEx.
Local Open Scope N_scope.

(* A disk with room, and one that fills up when the last buffered bytes are
   written. *)
Definition parse_files : files := fun p => if (p =? "/etc/app.policy")%string then Some ex_policy else None.
Definition parse_world : dump_world := DumpWorld ex_build false parse_files ex_policy (fun _ => true) (fun _ => true) (@length N).
Definition full_disk : dump_world := DumpWorld ex_build false parse_files ex_policy (fun _ => true) (fun _ => true) (fun l => (length l - 7)%nat).
Definition parse_args : dump_line := DumpLine [O_dump (Some "/tmp/a.bin"%string); O_unknown; O_dump None; O_dump (Some "/tmp/app.bin"%string)] ["/etc/app.policy"%string] false.
Definition list_args : dump_line := DumpLine [] ["-"%string] false.
Definition ex_prog : list instr := match compile_filter ex_build ex_opts no_files (Some ex_policy) with COk p => p | _ => [] end.
Lemma parse_compiles w : d_build w = ex_build -> d_dup w = false -> d_files w = parse_files ->
  compile_filter (d_build w) (plain_opts w) (d_files w) (Some ex_policy) = COk ex_prog.
Proof. unfold plain_opts. intros -> -> ->. vm_compute. reflexivity. Qed.
Lemma parse_reads : reads_policy (d_build parse_world) (plain_opts parse_world) (d_files parse_world) ex_policy ex_rules.
Proof. apply policy_of_spec; [exact ex_names|]. vm_compute. reflexivity. Qed.
Lemma parse_runs : dump_main parse_world parse_args = (D_exits 0, Out_bytes (Some "/tmp/app.bin"%string) (program_bytes parse_world ex_prog)).
Proof. vm_compute. reflexivity. Qed.
Lemma list_runs : dump_main parse_world list_args = (D_exits 0, Out_listing (show_prog ex_prog)).
Proof. vm_compute. reflexivity. Qed.
Lemma parse_no_help : ~ asks_help parse_args /\ ~ asks_help list_args /\ asks_dump parse_args /\ ~ asks_dump list_args.
Proof.
  unfold asks_help, asks_dump. cbn [parse_args list_args p_opts In]. split; [intros [X|[X|[X|[X|[]]]]]; discriminate X|]. split; [intros []|].
  split; [exists None; right; right; left; reflexivity|intros (a & [])].
Qed.
Lemma ex_stdin_rule : no_statements ex_policy /\ Exists rule_line (multilines (s_bytes ex_policy)).
Proof.
  unfold no_statements. match goal with |- context[Forall _ ?l] => let v := eval vm_compute in l in change l with v end. split.
  - repeat constructor; match goal with |- context[strip ?l] => let v := eval vm_compute in (strip l) in change (strip l) with v end; discriminate.
  - apply Exists_cons_tl, Exists_cons_hd. unfold rule_line. match goal with |- context[strip ?l] => let v := eval vm_compute in (strip l) in change (strip l) with v end.
    split; [discriminate|split; discriminate].
Qed.
Lemma full_runs : dump_main full_disk parse_args = (D_exits 0, Out_bytes (Some "/tmp/app.bin"%string) (firstn (length (program_bytes full_disk ex_prog) - 7) (program_bytes full_disk ex_prog))).
Proof. vm_compute. reflexivity. Qed.
Lemma full_short : firstn (length (program_bytes full_disk ex_prog) - 7) (program_bytes full_disk ex_prog) <> program_bytes full_disk ex_prog.
Proof. intros H. apply (f_equal (@length N)) in H. vm_compute in H. discriminate H. Qed.
