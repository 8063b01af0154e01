(* Specification for the serialization of a jail. *)
From Verif Require Export M_Marshal.
Local Open Scope N_scope.

(* ---- A jail as a C object: every member holds a value of its C type. ---- *)
Fixpoint no_nul (s : string) : Prop :=
  match s with EmptyString => True | String c s' => c <> NUL /\ no_nul s' end.
Definition u8 (n : N) : Prop := n < 2 ^ 8.
Definition u16 (n : N) : Prop := n < 2 ^ 16.
Definition u32 (n : N) : Prop := n < 2 ^ 32.
Definition u64 (n : N) : Prop := n < 2 ^ 64.
Definition i32 (z : Z) : Prop := (- 2 ^ 31 <= z < 2 ^ 31)%Z.
Definition text (c : cell string) : Prop := forall s, c = Own s -> no_nul s.
Definition c_typed (j : jail) : Prop :=
  j_flags j < 2 ^ 46 /\ u32 (j_uid j) /\ u32 (j_gid j) /\ u32 (j_usergid j) /\
  text (j_user j) /\ u64 (j_suppl_gid_count j) /\
  (forall l, j_suppl_gid_list j = Own l -> Forall u32 l) /\
  u64 (j_caps j) /\ u64 (j_cap_bset j) /\
  i32 (j_initpid j) /\ i32 (j_mountns_fd j) /\ i32 (j_netns_fd j) /\ i32 (j_fs_rules_fd j) /\
  i32 (j_fs_rules_landlock_abi j) /\
  text (j_chrootdir j) /\ text (j_hostname j) /\
  (forall p, j_filter_prog j = Own p -> u16 (N.of_nat (length p)) /\
     Forall (fun i => u16 (code i) /\ u8 (jt i) /\ u8 (jf i) /\ u32 (k i)) p) /\
  text (j_alt_syscall_table j) /\
  u64 (N.of_nat (length (j_mounts j))) /\
  Forall (fun m => no_nul (m_src m) /\ no_nul (m_dest m) /\ no_nul (m_type m) /\
            (forall d, m_data m = Some d -> no_nul d) /\ u64 (m_flags m)) (j_mounts j) /\
  u64 (j_remount_mode j) /\ u64 (j_tmpfs_size j) /\
  u64 (N.of_nat (length (j_fs_rules j))) /\
  Forall (fun r => no_nul (fr_path r) /\ u64 (fr_flags r)) (j_fs_rules j) /\
  Forall text (j_cgroups j) /\
  Forall (fun r => i32 (rl_type r) /\ u64 (rl_cur r) /\ u64 (rl_max r)) (j_rlimits j) /\
  u64 (j_securebits_skip_mask j) /\
  Forall (fun p => i32 (fst p) /\ i32 (snd p)) (j_preserved_fds j) /\
  text (j_seccomp_policy_path j).

(* Live pointers are not null. *)
Definition nonnull (addr : N -> N) : Prop := forall i, 0 < addr i < 2 ^ 64.

(* ---- What arrives at the other end. ----
   The same jail, except for the parts only the launching process uses: the
   program and preload paths, the pid file, the user namespace maps, the
   remount list and the hooks; and a filter is only sent when filtering is
   on. *)
Definition received (j : jail) : jail :=
  set_preload_path Null (set_filename Null (set_pid_file_path Null (set_uidmap Null
  (set_gidmap Null (set_remounts [] (set_hooks []
  (set_filter_prog (if hasf F_seccomp_filter j
                    then match j_filter_prog j with Own [] => Null | p => p end else Null) j))))))).

(* ---- The layout of serialized bytes, independently of how they are read.
   [strings n s r]: s starts with n NUL-terminated strings followed by r. *)
Inductive strings : N -> string -> string -> Prop :=
  | strs_0 s : strings 0 s s
  | strs_S n a s r : no_nul a -> strings n s r -> strings (N.succ n) (a ++ String NUL s)%string r.
(* [fixed n s r]: s is n bytes followed by r. *)
Definition fixed (n : N) (s r : string) : Prop :=
  exists b, s = (b ++ r)%string /\ N.of_nat (String.length b) = n.
(* One serialized mount that can be added (its target is absolute). *)
Definition mount_text (s r : string) : Prop :=
  exists src dest type has_data s1 fl,
    no_nul src /\ no_nul dest /\ no_nul type /\ starts_slash dest = true /\
    s = (src ++ String NUL (dest ++ String NUL (type ++ String NUL (has_data ++ s1))))%string /\
    N.of_nat (String.length has_data) = 4 /\
    ((has_data = num 4 0 /\ s1 = (fl ++ r)%string) \/
     (has_data <> num 4 0 /\ exists d, no_nul d /\ s1 = (d ++ String NUL (fl ++ r))%string)) /\
    N.of_nat (String.length fl) = 8.
Inductive mounts_text : N -> string -> string -> Prop :=
  | mts_0 s : mounts_text 0 s s
  | mts_S n s s1 r : mount_text s s1 -> mounts_text n s1 r -> mounts_text (N.succ n) s r.
(* One filesystem rule: a path and a non-zero mask of 8 bytes. *)
Inductive rules_text : N -> string -> string -> Prop :=
  | rts_0 s : rules_text 0 s s
  | rts_S n p m s r : no_nul p -> N.of_nat (String.length m) = 8 -> m <> num 8 0 ->
      rules_text n s r -> rules_text (N.succ n) (p ++ String NUL (m ++ s))%string r.

(* What the header announces: a member of w bytes at offset off. *)
Definition at_offset (off w : nat) (s : string) : N := val (stake w (sdrop off s)).
Definition present (off : nat) (s : string) : N := if at_offset off 8 s =? 0 then 0 else 1.
Definition announced_gids (s : string) : N := if at_offset 40 8 s =? 0 then 0 else at_offset 32 8 s.
Definition announced_filter (s : string) : N :=
  if N.testbit (at_offset 0 6 s) 22 then at_offset 144 8 s else 0.
Definition announced_mounts (s : string) : N := at_offset 184 8 s.
Definition announced_cgroups (s : string) : N := at_offset 328 8 s.
Definition announced_rules (s : string) : N := at_offset 240 8 s.

(* The bytes up to the cgroups are well formed, followed by r. *)
Definition up_to_cgroups (s r : string) : Prop :=
  exists h r0 r1 r2 r3 r4 r5 r6,
    s = (h ++ r0)%string /\ N.of_nat (String.length h) = 2176 /\
    strings (present 24 s) r0 r1 /\
    announced_gids s <= 65536 /\ fixed (announced_gids s * 4) r1 r2 /\
    strings (present 88 s) r2 r3 /\ strings (present 120 s) r3 r4 /\ strings (present 160 s) r4 r5 /\
    announced_filter s <= 65535 /\ fixed (announced_filter s * 8) r5 r6 /\
    mounts_text (announced_mounts s) r6 r.

(* The three ways the code goes wrong: more cgroups than a jail can hold; the
   end of the bytes inside the mask of a rule; the end of the bytes inside the
   ruleset descriptor. *)
Definition too_many_cgroups (s : string) : Prop :=
  exists r r', up_to_cgroups s r /\ 10 < announced_cgroups s /\ strings 11 r r'.
Definition truncated_mask (s : string) : Prop :=
  exists r r1 i r2 p r3, up_to_cgroups s r /\ announced_cgroups s <= 10 /\
    strings (announced_cgroups s) r r1 /\ i < announced_rules s /\ rules_text i r1 r2 /\
    r2 = (p ++ String NUL r3)%string /\ no_nul p /\ N.of_nat (String.length r3) < 8.
Definition truncated_descriptor (s : string) : Prop :=
  exists r r1 r2, up_to_cgroups s r /\ announced_cgroups s <= 10 /\
    strings (announced_cgroups s) r r1 /\ rules_text (announced_rules s) r1 r2 /\
    N.of_nat (String.length r2) < 4.
