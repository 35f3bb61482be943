(** Specification vocabulary for any programs that share a [Screen] on Windows, also when
    accesses to the console fail (C123). *)
From Verif Require Import Base M_Utf8 M_Geom M_Attr M_Buf S_Buf M_Writer M_ScreenApi M_Locks M_WinWriter M_WinReader M_WinScreen
  S_Program S_OneThread.

(** What a program may have done, in pieces that nothing interrupts, as [did] in S_Program.
    What it does next depends on the answers.  [Screen::refresh] and dropping the write
    guard show the screen (once more) without reporting an error. *)
Inductive wdid_so : option (list deed) -> client -> list (list deed) -> Prop :=
| wso_end : wdid_so None Finish []
| wso_draw m k r l : wdid_so None (k r) l -> wdid_so None (Call (SBuf (sforward m)) k) ([Did (Drawn m) r] :: l)
| wso_show k r r' l : wdid_so None (k r) l -> wdid_so None (Call M_Locks.SRefresh k) ([Did Shown r; Did Shown r'] :: l)
| wso_mode m k r l : wdid_so None (k r) l -> wdid_so None (Call (SSetCursorMode m) k) ([Did (Asked m) r] :: l)
| wso_lock c k l : c = SLockWrite \/ c = STryLockWrite -> wdid_so (Some []) (k AOk) l -> wdid_so None (Call c k) l
| wso_locked k l : wdid_so None (k AWouldBlock) l -> wdid_so None (Call STryLockWrite k) l
| wso_through c k x r g l : through c x -> wdid_so (Some (g ++ [Did x r])) (k r) l -> wdid_so (Some g) (Call c k) l
| wso_drop k g r l : wdid_so None (k AOk) l -> wdid_so (Some g) (Call SWDrop k) ((g ++ [Did Shown r]) :: l)
| wso_told c k sz r l : reads c -> wdid_so None (k (AResized sz)) l -> wdid_so None (Call c k) ([Did (Fitted sz) r] :: l)
| wso_input g c k r l : input_answer c r -> wdid_so g (k r) l -> wdid_so g (Call c k) l.

(** What a result of the screen is to the caller. *)
Inductive wanswers {S A} : out S N A -> S -> ans -> Prop :=
| wanswers_ok s a : wanswers (Ret s a) s AOk
| wanswers_err s e : wanswers (Fail s e) s (AErr (EOs e)).

(** One after the other, without threads and locks: [s] becomes [s']. *)
Inductive wperformed (draw : list N -> N -> view -> view) (E : env) : list deed -> wscr -> wscr -> Prop :=
| wperf_end s : wperformed draw E [] s s
| wperf_drawn m l s b s' : screen_method E m (g_sb s) = Val b ->
    wperformed draw E l (with_gsb b s) s' -> wperformed draw E (Did (Drawn m) AOk :: l) s s'
| wperf_shown l s s1 r s' : wanswers (win_refresh draw E s) s1 r ->
    wperformed draw E l s1 s' -> wperformed draw E (Did Shown r :: l) s s'
| wperf_asked m l s s1 r s' : wanswers (run_wsop draw E (SCursorMode m) s) s1 r ->
    wperformed draw E l s1 s' -> wperformed draw E (Did (Asked m) r :: l) s s'
| wperf_fitted sz l s s1 u s' : win_update_size E sz s = Ret s1 u ->
    wperformed draw E l s1 s' -> wperformed draw E (Did (Fitted sz) AOk :: l) s s'.
