-Q theories Verif
theories/M_Base.v
theories/M_Util.v
theories/M_Modes.v
theories/S_Modes.v
theories/P_Modes.v
theories/P_Util.v
theories/C_Modes.v
theories/C_Util.v
theories/M_Registry.v
theories/M_Kernel.v
theories/S_Locks.v
theories/P_Registry.v
theories/C_Registry.v
theories/M_LockSys.v
theories/P_Kernel.v
theories/S_LockSys.v
theories/P_RegEff.v
theories/P_LockInv.v
theories/P_LockStep.v
theories/P_LockMicro.v
theories/P_LockMain.v
theories/P_LockExtra.v
theories/C_LockSys.v
theories/M_World.v
theories/M_Raw.v
theories/S_Bytes.v
theories/S_Raw.v
theories/S_Demo.v
theories/P_Bytes.v
theories/P_Raw.v
theories/C_Raw.v
theories/S_LockFile.v
theories/P_Lock.v
theories/P_LockFile.v
theories/C_Lock.v
theories/M_Open.v
theories/P_Close.v
theories/P_Frame.v
theories/S_Open.v
theories/P_Open.v
theories/C_Open.v
theories/M_Buffered.v
theories/S_Buffered.v
theories/P_Buffered.v
theories/P_BufOps.v
theories/P_BufRun.v
theories/C_Buffered.v
theories/S_Sync.v
theories/C_Sync.v
theories/S_Files.v
theories/P_LockEnv.v
theories/M_Files.v
theories/P_Files.v
theories/C_Files.v
theories/M_Windows.v
theories/C_Windows.v
theories/M_Options.v
theories/S_Options.v
theories/C_Options.v
theories/M_Wrapper.v
theories/C_Wrapper.v
theories/M_Newline.v
theories/S_Newline.v
theories/P_Newline.v
theories/C_Newline.v
theories/M_Text.v
theories/S_Text.v
theories/P_Decode.v
theories/P_TextBase.v
theories/P_TextRead.v
theories/P_TextLine.v
theories/P_TextTell.v
theories/S_Codecs.v
theories/P_Codecs.v
theories/C_Text.v
theories/M_TextFiles.v
theories/S_TextFiles.v
theories/P_TextFiles.v
theories/C_TextFiles.v
theories/M_BufLines.v
theories/S_BufLine.v
theories/P_BufLine.v
theories/C_BufLine.v
theories/S_Args.v
theories/C_Args.v
theories/M_WinHandles.v
theories/S_WinHandles.v
theories/C_WinHandles.v
theories/M_WinLocks.v
theories/S_WinLocks.v
theories/C_WinLocks.v
theories/C_Given.v
theories/S_Reject.v
theories/C_Reject.v
theories/S_Closed.v
theories/C_Closed.v
theories/S_ReadFail.v
theories/C_ReadFail.v
theories/S_Confined.v
theories/C_Confined.v
theories/C_TextWrite.v
theories/S_Isolation.v
theories/C_Isolation.v
theories/C_LockFree.v
theories/S_Append.v
theories/C_Append.v
theories/S_Plain.v
theories/P_TextPlain.v
theories/C_Plain.v
theories/S_TextOut.v
theories/C_TextOut.v
theories/S_Sections.v
theories/M_Waiting.v
theories/S_Waiting.v
theories/P_Turns.v
theories/P_Sections.v
theories/C_Sections.v
theories/C_Waiting.v
theories/M_Patch.v
theories/C_Patch.v
theories/M_Threads.v
theories/S_Threads.v
theories/P_Threads.v
theories/C_Threads.v
theories/S_Refused.v
theories/C_Refused.v
theories/S_Malformed.v
theories/P_Malformed.v
theories/C_Malformed.v
theories/S_Logs.v
theories/C_Logs.v
theories/S_Appends.v
theories/P_Grow.v
theories/M_WinSteps.v
theories/C_Appends.v
theories/M_Fork.v
theories/S_Fork.v
theories/C_Fork.v
theories/M_WinInfo.v
theories/S_WinInfo.v
theories/C_WinInfo.v
theories/S_Helpers.v
theories/C_Helpers.v
theories/S_Snapshot.v
theories/C_Snapshot.v
theories/C_AppendLock.v
theories/S_Opening.v
theories/C_Opening.v
theories/M_Perms.v
theories/S_Perms.v
theories/C_Perms.v
theories/S_Pipes.v
theories/M_Pipes.v
theories/S_PipeEnds.v
theories/P_Pipes.v
theories/C_Pipes.v
theories/S_TextPipe.v
theories/M_TextPipe.v
theories/P_TextPipe.v
theories/C_TextPipe.v
theories/M_Layers.v
theories/S_Attrs.v
theories/M_Attrs.v
theories/C_Layers.v
theories/C_Attrs.v
theories/S_WinBuffered.v
theories/M_WinBuffered.v
theories/P_WinBuffered.v
theories/C_WinBuffered.v
theories/S_Raises.v
theories/P_Raises.v
theories/C_Raises.v
theories/M_Drop.v
theories/C_Drop.v
theories/M_WinWait.v
theories/S_WinWait.v
theories/C_WinWait.v
theories/M_Detach.v
theories/C_Detach.v
theories/S_SharedLog.v
theories/C_SharedLog.v
theories/M_Racing.v
theories/S_Racing.v
theories/C_Racing.v
theories/M_Mutexed.v
theories/S_Mutexed.v
theories/C_Mutexed.v
theories/M_Interrupt.v
theories/S_Interrupt.v
theories/C_Interrupt.v
theories/M_IntWrite.v
theories/S_IntWrite.v
theories/C_IntWrite.v
theories/M_LeftAlone.v
theories/S_LeftAlone.v
theories/C_LeftAlone.v
theories/M_IntRead.v
theories/S_IntRead.v
theories/C_IntRead.v
theories/M_IntClose.v
theories/S_IntClose.v
theories/C_IntClose.v
theories/M_IntUnlock.v
theories/C_IntUnlock.v
theories/C_IntLock.v
theories/M_IntOpen.v
theories/C_IntOpen.v
