(* File access rules and propagation modes, as calls observed (C43, C53). *)
From Verif Require Export S_Mount.
Local Open Scope N_scope.

Definition is_add (c : call) : bool := match c with C_landlock_add _ _ _ => true | _ => false end.
(* The rights a rule may give: all it asks for on a directory (file type 4 in
   the mode); elsewhere only execute, write and read (1, 2, 4). *)
Definition rights_on (mode asked : N) : N :=
  if N.land mode 61440 =? 16384 then asked else N.land asked 7.
(* The calls made for one rule: the path is opened, its type looked up, the
   rule added for that descriptor.  A rule whose path cannot be opened or
   looked up is not added. *)
Inductive rule_calls (ruleset : Z) (r : fs_rule) : list event -> Prop :=
  | rule_no_path e : rule_calls ruleset r [(C_open (fr_path r) PathOnly, No e)]
  | rule_no_type fd z e x :
      rule_calls ruleset r [(C_open (fr_path r) PathOnly, Yes fd z); (C_fstat (Z.of_N fd), No e); (C_close (Z.of_N fd), x)]
  | rule_add fd z mode z' x y :
      rule_calls ruleset r [(C_open (fr_path r) PathOnly, Yes fd z); (C_fstat (Z.of_N fd), Yes mode z');
        (C_landlock_add ruleset (Z.of_N fd) (rights_on mode (fr_flags r)), x); (C_close (Z.of_N fd), y)].

(* mount(NULL, name, NULL, MS_REC | mode, NULL) *)
Definition propagate (name : string) (mode : N) : call := C_mount None name None (N.lor 16384 mode) None.
Definition is_propagate (c : call) : bool := match c with C_mount None _ None _ None => true | _ => false end.

(* The rules a configuration call adds (the minijail_add_fs_restriction calls), in
   terms of the Landlock rights: execute 1, write a file 2, read a file 4 and a
   directory 8, remove a directory 16 and a file 32, make a device 64 or 2048,
   directory 128, file 256, socket 512, fifo 1024, link 4096; refer 8192, from
   Landlock's version 2 on. *)
Definition rule_added (landlock : Z) (a : api) : list fs_rule :=
  match a with
  | A_fs_rx p => [FsRule p (1 + 4 + 8)]
  | A_fs_ro p => [FsRule p (4 + 8)]
  | A_fs_rw p => [FsRule p (4 + 8 + 2 + 16 + 32 + 128 + 256)]
  | A_fs_advanced_rw p =>
      [FsRule p (4 + 8 + 2 + 16 + 32 + 64 + 128 + 256 + 512 + 1024 + 2048 + 4096
                 + (if (2 <=? landlock)%Z then 8192 else 0))]
  | A_fs_edit p => [FsRule p (4 + 8 + 2 + 16 + 32)]
  | A_fs_access_rights p r => [FsRule p r]
  | A_enable_default_fs_restrictions =>
      map (fun p => FsRule p (1 + 4 + 8))
        ["/lib"; "/lib64"; "/usr/lib"; "/usr/lib64"; "/bin"; "/sbin"; "/usr/sbin"; "/usr/bin"]%string
      ++ map (fun p => FsRule p (4 + 8)) ["/etc/group"; "/etc/passwd"]%string
  | _ => []
  end.
Definition rules_added (landlock : Z) (h : list (api * Z)) : list fs_rule :=
  flat_map (fun p => rule_added landlock (fst p)) h.
