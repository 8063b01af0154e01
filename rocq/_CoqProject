-Q theories Verif
theories/M_Audit.v
theories/M_Bpf.v
theories/M_Bucket.v
theories/M_CStr.v
theories/M_Cli.v
theories/M_Config.v
theories/M_Const.v
theories/M_Dump.v
theories/M_Elf.v
theories/M_Enter.v
theories/M_Fds.v
theories/M_Filter.v
theories/M_Freq.v
theories/M_Gen.v
theories/M_Io.v
theories/M_Jail.v
theories/M_JailRec.v
theories/M_Json.v
theories/M_Launch.v
theories/M_Lines.v
theories/M_Lint.v
theories/M_Lookup.v
theories/M_Main.v
theories/M_Marshal.v
theories/M_Pipe.v
theories/M_PyComp.v
theories/M_PyMain.v
theories/M_PyParse.v
theories/M_Run.v
theories/M_Rust.v
theories/M_Session.v
theories/M_Signal.v
theories/M_Sync.v
theories/M_Table.v
theories/M_Util.v
theories/M_Wait.v
theories/P_Accept.v
theories/P_AcceptEx.v
theories/P_Atom.v
theories/P_Audit.v
theories/P_AuditEx.v
theories/P_Bpf.v
theories/P_Bucket.v
theories/P_BucketEx.v
theories/P_Bytes.v
theories/P_CStr.v
theories/P_Caps.v
theories/P_Claims.v
theories/P_Cli.v
theories/P_CliCalls.v
theories/P_CliConf.v
theories/P_CliCrash.v
theories/P_CliEx.v
theories/P_CliFilter.v
theories/P_CliFin.v
theories/P_CliIds.v
theories/P_CliLast.v
theories/P_CliNum.v
theories/P_CliRefused.v
theories/P_CliRun.v
theories/P_CliRunEx.v
theories/P_CliSetup.v
theories/P_CliSetupEx.v
theories/P_CliTab.v
theories/P_Common.v
theories/P_CommonC.v
theories/P_CommonEx.v
theories/P_CommonFit.v
theories/P_CommonPy.v
theories/P_Compile.v
theories/P_Config.v
theories/P_Const.v
theories/P_ConstExpr.v
theories/P_Copy.v
theories/P_Creds.v
theories/P_Dirs.v
theories/P_Dump.v
theories/P_DumpCli.v
theories/P_DumpEx.v
theories/P_Elf.v
theories/P_Enter.v
theories/P_EnterClaims.v
theories/P_EnterEx.v
theories/P_EnterFail.v
theories/P_Fds.v
theories/P_Fds2.v
theories/P_Fds3.v
theories/P_FdsClaims.v
theories/P_FdsEx.v
theories/P_Freq.v
theories/P_FreqEx.v
theories/P_Gen.v
theories/P_GenEx.v
theories/P_GenRead.v
theories/P_GenText.v
theories/P_Holders.v
theories/P_HoldersEx.v
theories/P_Include.v
theories/P_Io.v
theories/P_Jail.v
theories/P_JailInv.v
theories/P_Json.v
theories/P_JsonEx.v
theories/P_JsonFile.v
theories/P_Kernel.v
theories/P_Labels.v
theories/P_Launch.v
theories/P_LaunchChild.v
theories/P_LaunchEx.v
theories/P_Lines.v
theories/P_Lint.v
theories/P_LintEx.v
theories/P_Lookup.v
theories/P_Main.v
theories/P_MainCli.v
theories/P_MainEx.v
theories/P_Marshal.v
theories/P_Mount.v
theories/P_Mounts.v
theories/P_MountsSent.v
theories/P_Order.v
theories/P_Paths.v
theories/P_Pipe.v
theories/P_Pivot.v
theories/P_Policy.v
theories/P_PolicyEx.v
theories/P_PyBpf.v
theories/P_PyComp.v
theories/P_PyEx.v
theories/P_PyFile.v
theories/P_PyGram.v
theories/P_PyLex.v
theories/P_PyLow.v
theories/P_PyMain.v
theories/P_PyMainCli.v
theories/P_PyMean.v
theories/P_PyStmt.v
theories/P_PyText.v
theories/P_PyTextEx.v
theories/P_Resolve.v
theories/P_Reuse.v
theories/P_ReuseEx.v
theories/P_Round.v
theories/P_Rules.v
theories/P_RulesApi.v
theories/P_Run.v
theories/P_RunClaims.v
theories/P_RunEnv.v
theories/P_RunEx.v
theories/P_Rust.v
theories/P_RustEx.v
theories/P_RustRun.v
theories/P_Safe.v
theories/P_Secc.v
theories/P_Session.v
theories/P_SessionEx.v
theories/P_Settings.v
theories/P_Signal.v
theories/P_SignalEx.v
theories/P_Sync.v
theories/P_SyncEx.v
theories/P_Table.v
theories/P_TableEx.v
theories/P_Ub.v
theories/P_Util.v
theories/P_Verdict.v
theories/P_Wait.v
theories/P_Wants.v
theories/S_Accept.v
theories/S_Audit.v
theories/S_Bpf.v
theories/S_Bucket.v
theories/S_Cli.v
theories/S_CliCalls.v
theories/S_CliRun.v
theories/S_CliSetup.v
theories/S_Common.v
theories/S_Config.v
theories/S_Const.v
theories/S_Creds.v
theories/S_Dirs.v
theories/S_Dump.v
theories/S_Elf.v
theories/S_Enter.v
theories/S_Fds.v
theories/S_Freq.v
theories/S_Gen.v
theories/S_Holders.v
theories/S_Jail.v
theories/S_Json.v
theories/S_Launch.v
theories/S_Lint.v
theories/S_Lookup.v
theories/S_Main.v
theories/S_Marshal.v
theories/S_Mount.v
theories/S_Order.v
theories/S_Paths.v
theories/S_Pipe.v
theories/S_Policy.v
theories/S_PyMain.v
theories/S_PyPolicy.v
theories/S_PyText.v
theories/S_Reuse.v
theories/S_Rules.v
theories/S_Run.v
theories/S_Rust.v
theories/S_Session.v
theories/S_Settings.v
theories/S_Signal.v
theories/S_Sync.v
theories/S_Table.v
theories/S_Text.v
theories/S_Trace.v
theories/S_Util.v
theories/S_Wait.v
theories/S_Wants.v
theories/T_Accept.v
theories/T_Audit.v
theories/T_Bpf.v
theories/T_Bucket.v
theories/T_Cli.v
theories/T_CliRun.v
theories/T_Common.v
theories/T_Config.v
theories/T_Dirs.v
theories/T_Dump.v
theories/T_Elf.v
theories/T_Enter.v
theories/T_Fds.v
theories/T_Freq.v
theories/T_Gen.v
theories/T_Holders.v
theories/T_Jail.v
theories/T_Json.v
theories/T_Launch.v
theories/T_Lint.v
theories/T_Lookup.v
theories/T_Main.v
theories/T_Marshal.v
theories/T_Pipe.v
theories/T_Policy.v
theories/T_PyComp.v
theories/T_PyMain.v
theories/T_PyText.v
theories/T_Reuse.v
theories/T_Run.v
theories/T_Rust.v
theories/T_Session.v
theories/T_Signal.v
theories/T_Sync.v
theories/T_Table.v
theories/T_Text.v
theories/T_Util.v
theories/T_Wait.v
