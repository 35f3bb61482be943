-Q theories Verif
theories/Base.v
theories/M_Api.v
theories/M_Attr.v
theories/M_Buf.v
theories/M_Examples.v
theories/M_Fds.v
theories/M_Geom.v
theories/M_Input.v
theories/M_InputExample.v
theories/M_Keys.v
theories/M_Leak.v
theories/M_Lines.v
theories/M_LockResult.v
theories/M_Locks.v
theories/M_Macros.v
theories/M_Poison.v
theories/M_Prepare.v
theories/M_Process.v
theories/M_ReadShare.v
theories/M_Reader.v
theories/M_RelBuf.v
theories/M_RelReader.v
theories/M_RelRun.v
theories/M_RelScreen.v
theories/M_RelWin.v
theories/M_Screen.v
theories/M_ScreenApi.v
theories/M_ScreenExample.v
theories/M_Seq.v
theories/M_SeqMut.v
theories/M_Signal.v
theories/M_Stderr.v
theories/M_StyleExample.v
theories/M_UnixScreen.v
theories/M_Utf8.v
theories/M_Util.v
theories/M_WinApi.v
theories/M_WinInputExample.v
theories/M_WinLocks.v
theories/M_WinMacros.v
theories/M_WinPoison.v
theories/M_WinReader.v
theories/M_WinScreen.v
theories/M_WinScreenExample.v
theories/M_WinShare.v
theories/M_WinStderr.v
theories/M_WinWriter.v
theories/M_Writer.v
theories/P_Alike.v
theories/P_Api.v
theories/P_Attr.v
theories/P_Blocks.v
theories/P_Blocks2.v
theories/P_Buf.v
theories/P_Buf2.v
theories/P_Buf3.v
theories/P_Buf4.v
theories/P_Canvas.v
theories/P_Canvas2.v
theories/P_Caught.v
theories/P_Continue.v
theories/P_CursorMode.v
theories/P_CursorMode2.v
theories/P_Drawing.v
theories/P_Driver.v
theories/P_Emu.v
theories/P_Errs.v
theories/P_Events.v
theories/P_Events2.v
theories/P_Examples.v
theories/P_Examples2.v
theories/P_Examples3.v
theories/P_Examples4.v
theories/P_Examples5.v
theories/P_Fair.v
theories/P_Fds.v
theories/P_Geom.v
theories/P_Input.v
theories/P_InputExample.v
theories/P_Interact.v
theories/P_Interact2.v
theories/P_Keys.v
theories/P_Keys2.v
theories/P_Leak.v
theories/P_LeakDrop.v
theories/P_Lines.v
theories/P_LockResult.v
theories/P_Locks.v
theories/P_Locks2.v
theories/P_Loop.v
theories/P_MacroArgs.v
theories/P_MacroLines.v
theories/P_Macros.v
theories/P_Memory.v
theories/P_Modes.v
theories/P_NoPanic.v
theories/P_NoPanic2.v
theories/P_NoPanic3.v
theories/P_NoPanic4.v
theories/P_OneThread.v
theories/P_Overrun.v
theories/P_Poison.v
theories/P_Poison2.v
theories/P_Portable.v
theories/P_Portions.v
theories/P_Prepare.v
theories/P_Prepare2.v
theories/P_Process.v
theories/P_Program.v
theories/P_Program2.v
theories/P_Program3.v
theories/P_ReadShare.v
theories/P_ReadShare2.v
theories/P_Reader.v
theories/P_Reader2.v
theories/P_Reader3.v
theories/P_Release.v
theories/P_Release2.v
theories/P_Release3.v
theories/P_Release4.v
theories/P_SamePicture.v
theories/P_SamePicture2.v
theories/P_Sched.v
theories/P_Screen.v
theories/P_Screen2.v
theories/P_Screen3.v
theories/P_Screen4.v
theories/P_Screen5.v
theories/P_ScreenEnd.v
theories/P_ScreenExample.v
theories/P_ScreenExample2.v
theories/P_Seq.v
theories/P_SeqMut.v
theories/P_Short.v
theories/P_Signal.v
theories/P_SignalsExample.v
theories/P_Stderr.v
theories/P_StyleExample.v
theories/P_Styled.v
theories/P_Succeeds.v
theories/P_Succeeds2.v
theories/P_Succeeds3.v
theories/P_Succeeds4.v
theories/P_TermOneThread.v
theories/P_TermProgram.v
theories/P_TermProgram2.v
theories/P_TermProgram3.v
theories/P_TermProgram4.v
theories/P_Timed.v
theories/P_Timeout.v
theories/P_Together.v
theories/P_Together2.v
theories/P_Typing.v
theories/P_UnixFail.v
theories/P_UnixScreen.v
theories/P_UnixScreen2.v
theories/P_UnixScreen3.v
theories/P_UnixSignalsExample.v
theories/P_Utf8.v
theories/P_Util.v
theories/P_WholeScreen.v
theories/P_WholeScreen2.v
theories/P_WholeScreen3.v
theories/P_WholeScreen4.v
theories/P_WideCanvas.v
theories/P_WideCanvas2.v
theories/P_WideExact.v
theories/P_WideExact2.v
theories/P_WideProgram.v
theories/P_WideProgram2.v
theories/P_WideProgram3.v
theories/P_WideTogether.v
theories/P_WinApi.v
theories/P_WinCanvas.v
theories/P_WinCursor.v
theories/P_WinDraw.v
theories/P_WinDraw2.v
theories/P_WinFail.v
theories/P_WinFair.v
theories/P_WinInput.v
theories/P_WinInputExample.v
theories/P_WinLeak.v
theories/P_WinLines.v
theories/P_WinLocks.v
theories/P_WinLocks2.v
theories/P_WinLocks3.v
theories/P_WinMacroLines.v
theories/P_WinMinimal.v
theories/P_WinNoPanic.v
theories/P_WinNoPanic2.v
theories/P_WinOneThread.v
theories/P_WinPoison.v
theories/P_WinPrepare.v
theories/P_WinProgram.v
theories/P_WinProgram2.v
theories/P_WinProgram3.v
theories/P_WinRaw.v
theories/P_WinReader.v
theories/P_WinSched.v
theories/P_WinScreen.v
theories/P_WinScreenExample.v
theories/P_WinStderr.v
theories/P_WinTogether.v
theories/P_WinView.v
theories/P_WinWide.v
theories/P_WinWide2.v
theories/P_WinWideProgram.v
theories/P_WinWriter.v
theories/P_Writer.v
theories/P_Writer2.v
theories/P_Writer3.v
theories/P_XTerm.v
theories/Prop_Alike.v
theories/Prop_Api.v
theories/Prop_Blocks.v
theories/Prop_Buf.v
theories/Prop_Canvas.v
theories/Prop_Caught.v
theories/Prop_CursorMode.v
theories/Prop_Driver.v
theories/Prop_Errs.v
theories/Prop_Events.v
theories/Prop_Examples.v
theories/Prop_Fair.v
theories/Prop_Fds.v
theories/Prop_Geom.v
theories/Prop_Input.v
theories/Prop_InputExample.v
theories/Prop_Interact.v
theories/Prop_Keys.v
theories/Prop_Leak.v
theories/Prop_Lines.v
theories/Prop_LockResult.v
theories/Prop_Locks.v
theories/Prop_Loop.v
theories/Prop_MacroArgs.v
theories/Prop_MacroLines.v
theories/Prop_Macros.v
theories/Prop_Memory.v
theories/Prop_Modes.v
theories/Prop_NoPanic.v
theories/Prop_OneThread.v
theories/Prop_Overrun.v
theories/Prop_Poison.v
theories/Prop_Portable.v
theories/Prop_Portions.v
theories/Prop_Prepare.v
theories/Prop_Process.v
theories/Prop_Program.v
theories/Prop_ReadShare.v
theories/Prop_Reader.v
theories/Prop_Release.v
theories/Prop_SamePicture.v
theories/Prop_Screen.v
theories/Prop_ScreenEnd.v
theories/Prop_ScreenExample.v
theories/Prop_Seq.v
theories/Prop_SeqMut.v
theories/Prop_Short.v
theories/Prop_Signal.v
theories/Prop_SignalsExample.v
theories/Prop_Stderr.v
theories/Prop_StyleExample.v
theories/Prop_Styled.v
theories/Prop_Succeeds.v
theories/Prop_TermOneThread.v
theories/Prop_TermProgram.v
theories/Prop_Timed.v
theories/Prop_Timeout.v
theories/Prop_Together.v
theories/Prop_Typing.v
theories/Prop_UnixFail.v
theories/Prop_UnixScreen.v
theories/Prop_UnixSignalsExample.v
theories/Prop_Util.v
theories/Prop_WholeScreen.v
theories/Prop_WideCanvas.v
theories/Prop_WideExact.v
theories/Prop_WideProgram.v
theories/Prop_WideTogether.v
theories/Prop_WinApi.v
theories/Prop_WinCanvas.v
theories/Prop_WinDraw.v
theories/Prop_WinExamples.v
theories/Prop_WinFail.v
theories/Prop_WinInputExample.v
theories/Prop_WinLines.v
theories/Prop_WinLocks.v
theories/Prop_WinMacroLines.v
theories/Prop_WinMinimal.v
theories/Prop_WinNoPanic.v
theories/Prop_WinOneThread.v
theories/Prop_WinPoison.v
theories/Prop_WinProgram.v
theories/Prop_WinReader.v
theories/Prop_WinScreen.v
theories/Prop_WinScreenExample.v
theories/Prop_WinStderr.v
theories/Prop_WinTogether.v
theories/Prop_WinWide.v
theories/Prop_WinWideProgram.v
theories/Prop_WinWriter.v
theories/Prop_Writer.v
theories/S_Alike.v
theories/S_Api.v
theories/S_Blocks.v
theories/S_Buf.v
theories/S_Canvas.v
theories/S_Caught.v
theories/S_Constants.v
theories/S_CursorMode.v
theories/S_Drawing.v
theories/S_Driver.v
theories/S_Emu.v
theories/S_Errs.v
theories/S_Events.v
theories/S_Examples.v
theories/S_Fair.v
theories/S_Fds.v
theories/S_Geom.v
theories/S_Input.v
theories/S_InputExample.v
theories/S_Interact.v
theories/S_Keys.v
theories/S_Leak.v
theories/S_Lines.v
theories/S_LockResult.v
theories/S_Locks.v
theories/S_Loop.v
theories/S_MacroArgs.v
theories/S_MacroLines.v
theories/S_Macros.v
theories/S_Memory.v
theories/S_Modes.v
theories/S_NoPanic.v
theories/S_OneThread.v
theories/S_Overrun.v
theories/S_Poison.v
theories/S_Portable.v
theories/S_Portions.v
theories/S_Prepare.v
theories/S_Process.v
theories/S_Program.v
theories/S_ReadShare.v
theories/S_Reader.v
theories/S_Release.v
theories/S_SamePicture.v
theories/S_Screen.v
theories/S_ScreenExample.v
theories/S_Seq.v
theories/S_SeqMut.v
theories/S_Short.v
theories/S_Signal.v
theories/S_SignalsExample.v
theories/S_Stderr.v
theories/S_StyleExample.v
theories/S_Styled.v
theories/S_Succeeds.v
theories/S_TermOneThread.v
theories/S_TermProgram.v
theories/S_Timed.v
theories/S_Timeout.v
theories/S_Together.v
theories/S_Tty.v
theories/S_Typing.v
theories/S_UnixFail.v
theories/S_UnixScreen.v
theories/S_UnixSignalsExample.v
theories/S_Utf8.v
theories/S_WholeScreen.v
theories/S_WideCanvas.v
theories/S_WideExact.v
theories/S_WideProgram.v
theories/S_WideTogether.v
theories/S_WinApi.v
theories/S_WinCanvas.v
theories/S_WinCursor.v
theories/S_WinFail.v
theories/S_WinFair.v
theories/S_WinInputExample.v
theories/S_WinLines.v
theories/S_WinLocks.v
theories/S_WinMinimal.v
theories/S_WinNoPanic.v
theories/S_WinOneThread.v
theories/S_WinPoison.v
theories/S_WinProgram.v
theories/S_WinReader.v
theories/S_WinScreen.v
theories/S_WinScreenExample.v
theories/S_WinStderr.v
theories/S_WinTogether.v
theories/S_WinWide.v
theories/S_WinWideProgram.v
theories/S_WinWriter.v
theories/S_Writer.v
theories/S_XTerm.v
