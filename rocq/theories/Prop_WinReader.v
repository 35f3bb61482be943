(** Property theorems for the Windows input side (C57, C59, C60, C62, C72-C77). *)
From Verif Require Import Base M_Utf8 S_Utf8 M_Geom M_Signal M_Util M_Input M_Buf S_Buf M_Writer M_Prepare M_Reader
  M_WinWriter M_WinReader S_WinReader P_WinInput P_WinReader P_WinRaw P_WinPrepare.
Local Open Scope N_scope.

(** C57, what holds: over any sequence of mouse records none of which changes more than
    one button or turns the horizontal wheel, exactly the right events are reported, with
    their position and modifiers. *)
Theorem C57_mouse_partial :
  forall E track rs p is,
  (32768 <= Z.of_nat (umax E))%Z -> p < 4294967296 -> Forall mouse_ok rs -> says_all track p rs is ->
  exists rd', run_mouse E rs (WReader track p) = Val (rd', map (fun ri => as_event (fst ri) (snd ri)) (combine rs is)).
Proof. exact mouse_sequence. Qed.
Print Assumptions C57_mouse_partial.

(** C57 does not hold if two buttons change in one record: only the first is reported,
    and the record counts as seen, so the second never is. *)
Theorem C57_two_changes_refuted :
  forall E track p b pos ctl fl i j,
  (32768 <= Z.of_nat (umax E))%Z -> p < 4294967296 -> mouse_ok (MouseRec pos b ctl fl) ->
  wheel fl = false -> first_change p b i -> i < j -> N.testbit p j <> N.testbit b j ->
  win_mouse_event E (MouseRec pos b ctl fl) (WReader track p) =
    Val (WReader track b,
         as_event (MouseRec pos b ctl fl)
           (Some (if N.testbit p i then MReleased (button_no i) else MPressed (button_no i)))).
Proof. exact two_changes. Qed.
Print Assumptions C57_two_changes_refuted.

(** C57 does not hold for the horizontal wheel: turning it by [d] is reported as a press of
    a button that does not exist, and the next record as its release. *)
Theorem C57_horizontal_wheel_refuted :
  forall E track pos pos' ctl ctl' b0 d,
  (32768 <= Z.of_nat (umax E))%Z -> b0 < 65536 -> 0 < d < 65536 ->
  (0 <= cX pos < 32768 /\ 0 <= cY pos < 32768)%Z -> (0 <= cX pos' < 32768 /\ 0 <= cY pos' < 32768)%Z ->
  exists k rd', 16 <= k < 32 /\
    let r := MouseRec pos (b0 + d * 65536) ctl MOUSE_HWHEELED in
    let r' := MouseRec pos' b0 ctl' 0 in
    run_mouse E [r; r'] (WReader track b0) =
      Val (rd', [as_event r (Some (MPressed (MOther k))); as_event r' (Some (MReleased (MOther k)))]).
Proof. exact horizontal_wheel. Qed.
Print Assumptions C57_horizontal_wheel_refuted.

(** Press left, move, press right too, turn the wheel, release left, release right, move. *)
Example C57_example :
  let at' x := Coord x 5 in
  let rs := [MouseRec (at' 1%Z) 1 0 0; MouseRec (at' 2%Z) 1 0 1; MouseRec (at' 2%Z) 3 8 0;
             MouseRec (at' 2%Z) (0xff880000 + 3) 0 4; MouseRec (at' 2%Z) 2 0 0; MouseRec (at' 2%Z) 0 16 0;
             MouseRec (at' 9%Z) 0 0 1] in
  let is := [Some (MPressed MLeft); Some MMotion; Some (MPressed MRight); Some MWheelDown;
             Some (MReleased MLeft); Some (MReleased MRight); None] in
  says_all false 0 rs is /\ Forall mouse_ok rs /\
  forall E, (32768 <= Z.of_nat (umax E))%Z -> exists rd',
    run_mouse E rs (WReader false 0) =
      Val (rd', [Some (MouseEvent (Cursor 5 1) (MPressed MLeft) 0); Some (MouseEvent (Cursor 5 2) MMotion 0);
                 Some (MouseEvent (Cursor 5 2) (MPressed MRight) 2); Some (MouseEvent (Cursor 5 2) MWheelDown 0);
                 Some (MouseEvent (Cursor 5 2) (MReleased MLeft) 0); Some (MouseEvent (Cursor 5 2) (MReleased MRight) 4);
                 None]).
Proof.
  cbv zeta.
  assert (H : says_all false 0
    [MouseRec (Coord 1 5) 1 0 0; MouseRec (Coord 2 5) 1 0 1; MouseRec (Coord 2 5) 3 8 0;
     MouseRec (Coord 2 5) (0xff880000 + 3) 0 4; MouseRec (Coord 2 5) 2 0 0; MouseRec (Coord 2 5) 0 16 0;
     MouseRec (Coord 9 5) 0 0 1]
    [Some (MPressed MLeft); Some MMotion; Some (MPressed MRight); Some MWheelDown;
     Some (MReleased MLeft); Some (MReleased MRight); None]).
  { apply says_cons with (p' := 1).
    { change MLeft with (button_no 0). apply says_press; try reflexivity.
      intros [|[j|j|]]; cbn; split; try congruence; try discriminate. }
    apply says_cons with (p' := 1).
    { apply says_motion; try reflexivity. left. discriminate. }
    apply says_cons with (p' := 3).
    { change MRight with (button_no 1). apply says_press; try reflexivity.
      intros [|[[j|j|]|[j|j|]|]]; cbn; split; try congruence; try discriminate. }
    apply says_cons with (p' := 3).
    { change MWheelDown with (if wheel_up (0xff880000 + 3) then MWheelUp else MWheelDown). apply says_wheel. reflexivity. }
    apply says_cons with (p' := 2).
    { change MLeft with (button_no 0). apply says_release; try reflexivity.
      intros [|[[j|j|]|[j|j|]|]]; cbn; split; try congruence; try discriminate. }
    apply says_cons with (p' := 0).
    { change MRight with (button_no 1). apply says_release; try reflexivity.
      intros [|[[j|j|]|[j|j|]|]]; cbn; split; try congruence; try discriminate. }
    apply says_cons with (p' := 0); [|constructor]. apply says_nothing; reflexivity. }
  split; [exact H|].
  assert (Hok : Forall mouse_ok [MouseRec (Coord 1 5) 1 0 0; MouseRec (Coord 2 5) 1 0 1; MouseRec (Coord 2 5) 3 8 0;
     MouseRec (Coord 2 5) (0xff880000 + 3) 0 4; MouseRec (Coord 2 5) 2 0 0; MouseRec (Coord 2 5) 0 16 0;
     MouseRec (Coord 9 5) 0 0 1]).
  { repeat (constructor; [cbn; lia|]). constructor. }
  split; [exact Hok|]. intros E HE. destruct (mouse_sequence E false _ 0 _ HE eq_refl Hok H) as [rd' R].
  exists rd'. exact R.
Qed.

(** C59, what holds: a timeout of less than 4294967.295 seconds is waited for exactly (in
    whole milliseconds) and is not taken for "no limit". *)
Theorem C59_exact_partial :
  forall d, nanos d < 1000000000 -> secs d * 1000 + nanos d / 1000000 < INFINITE ->
  as_millis (Some d) = Val (secs d * 1000 + nanos d / 1000000).
Proof. exact millis_exact. Qed.
Print Assumptions C59_exact_partial.

(** C59 does not hold beyond: the wait is shorter than requested, without limit, or the
    conversion panics. *)
Theorem C59_too_short_refuted :
  forall d ms, nanos d < 1000000000 -> 4294967296 <= secs d * 1000 -> as_millis (Some d) = Val ms ->
  ms < secs d * 1000 + nanos d / 1000000.
Proof. exact millis_short. Qed.
Print Assumptions C59_too_short_refuted.

Theorem C59_overflow_refuted :
  forall d, 18446744073709551616 <= secs d * 1000 -> as_millis (Some d) = Boom.
Proof. exact millis_panics. Qed.
Print Assumptions C59_overflow_refuted.

(** 2.5 s; 49 days and 17.047296 h (0 ms); 4294967.295 s (no limit); 4294967.296 s (panic). *)
Example C59_example :
  as_millis (Some (Duration 2 500999999)) = Val 2500 /\
  as_millis (Some (Duration 536870912 0)) = Val 0 /\
  as_millis (Some (Duration 4294967 295000000)) = Val INFINITE /\ as_millis None = Val INFINITE /\
  as_millis (Some (Duration 4294967 296000000)) = Boom.
Proof. repeat split; vm_compute; reflexivity. Qed.

(** C60, what holds: every key-down record with a listed virtual key gives that key; other
    records give no key if the key goes up, Alt is held or there is no character; without
    Alt and Ctrl the key of the character; with Ctrl and a control character the letter it
    belongs to. *)
Theorem C60_keys_partial :
  forall down vk ctl u, u < 65536 ->
  (down = false -> key_press_event (KeyRec down vk ctl u) = None) /\
  (forall k, down = true -> In (vk, k) vk_table -> key_press_event (KeyRec down vk ctl u) = Some k) /\
  (down = true -> other_vk vk ->
     (alt_held ctl = true -> key_press_event (KeyRec down vk ctl u) = None) /\
     (u = 0 -> key_press_event (KeyRec down vk ctl u) = None) /\
     (alt_held ctl = false -> ctrl_held ctl = false -> u <> 0 -> scalar u ->
        key_press_event (KeyRec down vk ctl u) = Some (key_from_char u)) /\
     (alt_held ctl = false -> ctrl_held ctl = true -> 0 < u < 32 ->
        exists l, key_press_event (KeyRec down vk ctl u) = Some (KCtrl l) /\ ctrl l = u)).
Proof. exact key_record. Qed.
Print Assumptions C60_keys_partial.

(** C60 does not hold for Ctrl with a character that is not a control character: the key
    reported belongs to another character. *)
Theorem C60_ctrl_refuted :
  forall vk ctl u,
  other_vk vk -> alt_held ctl = false -> ctrl_held ctl = true -> 32 <= u < 65536 -> scalar u ->
  exists l, key_press_event (KeyRec true vk ctl u) = Some (KCtrl l) /\ M_Util.ctrl l <> u.
Proof. exact ctrl_confused. Qed.
Print Assumptions C60_ctrl_refuted.

(** Ctrl+1 and Ctrl+Q are the same key. *)
Example C60_example :
  key_press_event (KeyRec true 0x31 LEFT_CTRL_PRESSED 0x31) = Some (KCtrl 113) /\
  key_press_event (KeyRec true 0x51 RIGHT_CTRL_PRESSED 0x11) = Some (KCtrl 113) /\
  key_press_event (KeyRec true 0x0D LEFT_ALT_PRESSED 0x0D) = Some KEnter /\
  key_press_event (KeyRec true 0x41 SHIFT_PRESSED 0x41) = Some (KChar 0x41).
Proof. repeat split; vm_compute; reflexivity. Qed.

(** C76, what holds: a printable character of the basic plane, typed without Alt or Ctrl,
    is reported as itself. *)
Theorem C76_basic_plane_partial :
  forall vk ctl c,
  other_vk vk -> alt_held ctl = false -> ctrl_held ctl = false ->
  32 <= c < 65536 -> c <> 127 -> scalar c -> key_press_event (KeyRec true vk ctl c) = Some (KChar c).
Proof. exact typed_bmp. Qed.
Print Assumptions C76_basic_plane_partial.

(** C76 does not hold for other characters: each of the two records of a character beyond
    the basic plane gives no key, and nor does a character typed with AltGr. *)
Theorem C76_other_planes_refuted :
  forall vk ctl u, other_vk vk -> scalar u -> 65536 <= u ->
  Forall (fun w => key_press_event (KeyRec true vk ctl w) = None) (encode_wide [u]).
Proof. exact surrogates_lost. Qed.
Print Assumptions C76_other_planes_refuted.

Example C76_example :
  key_press_event (KeyRec true 0x32 0 0xE9) = Some (KChar 0xE9) /\
  key_press_event (KeyRec true 0x51 (N.lor RIGHT_ALT_PRESSED LEFT_CTRL_PRESSED) 0x40) = None /\
  encode_wide [0x1F600] = [0xD83D; 0xDE00] /\
  map (fun w => key_press_event (KeyRec true 0xE7 0 w)) [0xD83D; 0xDE00] = [None; None].
Proof. repeat split; vm_compute; reflexivity. Qed.

(** C62: what [prepare] sets up if no call fails. *)
Theorem C62_prepare_sets :
  forall cfg s, os_works s ->
  exists s' st, win_prepare cfg s = Ret s' st /\ os_works s' /\
    (forall i, N.testbit (w_mode s') i = mode_bit cfg (w_mode s) i) /\
    (cfg_mouse cfg = true -> always_track (w_rd s') = always_track_motion cfg) /\
    (forall c, c < 2 -> ss_contains (report_signals cfg) Break || ss_contains (report_signals cfg) Interrupt = true ->
       caught (w_catch s') (w_regs s') c = ss_contains (report_signals cfg) (ctrl_signal c)).
Proof. exact prepare_sets. Qed.
Print Assumptions C62_prepare_sets.

(** C62, what holds: after any nesting of [prepare] and [restore] in which no call fails,
    the input mode is what it was, except for bit 7 ([ENABLE_EXTENDED_FLAGS]), and the
    control handler is registered as often as before. *)
Theorem C62_nesting_partial :
  forall l s, os_works s ->
  exists s', run_nests l s = Ret s' tt /\ w_regs s' = w_regs s /\ w_queue s' = w_queue s /\
    forall i, N.testbit (w_mode s') i = N.testbit (w_mode s) i || (match l with [] => false | _ => i =? 7 end).
Proof. exact nesting. Qed.
Print Assumptions C62_nesting_partial.

(** C62 does not hold for the signals caught (nor for the mouse setting): after the inner
    [restore] those of the inner [prepare] are still in force. *)
Theorem C62_signals_refuted :
  forall cfg1 cfg2 s, os_works s ->
  ss_contains (report_signals cfg1) Break || ss_contains (report_signals cfg1) Interrupt = true ->
  ss_contains (report_signals cfg2) Break || ss_contains (report_signals cfg2) Interrupt = true ->
  exists s1 st1 s2 st2 s', win_prepare cfg1 s = Ret s1 st1 /\ win_prepare cfg2 s1 = Ret s2 st2 /\
    win_restore st2 s2 = Ret s' tt /\
    (forall c, c < 2 -> caught (w_catch s') (w_regs s') c = ss_contains (report_signals cfg2) (ctrl_signal c)) /\
    (cfg_mouse cfg2 = true -> always_track (w_rd s') = always_track_motion cfg2).
Proof. exact inner_stays. Qed.
Print Assumptions C62_signals_refuted.

(** C62 does not hold if [prepare] fails while registering the control handler: the mode
    stays changed, and there is no state to restore it with. *)
Theorem C62_failed_prepare_refuted :
  forall cfg s e o,
  ss_contains (report_signals cfg) Break || ss_contains (report_signals cfg) Interrupt = true ->
  w_os s = None :: None :: Some e :: o ->
  exists s', win_prepare cfg s = Fail s' e /\ w_mode s' = prepared_mode cfg (w_mode s).
Proof. exact failed_prepare. Qed.
Print Assumptions C62_failed_prepare_refuted.

(** The usual mode of a console (0x1f7); a program that reports Ctrl-C, and an inner part
    that reports Ctrl-Break with mouse: Ctrl-C is no longer caught after the inner part. *)
Definition demo_wsys (l : list wtick) : wsys :=
  WSys (WReader false 0) 0 NO_SIGNAL 0x1f7 0 [] None [] [] l.
Definition demo_cfg1 : config := Config true false true false false (ss_from Interrupt).
Definition demo_cfg2 : config := Config false false true true true (ss_from Break).
Example C62_example :
  os_works (demo_wsys []) /\
  (exists s' st, win_prepare demo_cfg1 (demo_wsys []) = Ret s' st /\ w_mode s' = 0x1a8 /\
     caught (w_catch s') (w_regs s') 0 = true) /\
  (exists s', run_nests [Nest demo_cfg1 [Nest demo_cfg2 []]; Nest demo_cfg2 []] (demo_wsys []) = Ret s' tt /\
     w_mode s' = 0x1f7 /\ w_regs s' = 0%nat) /\
  (exists s1 st1 s2 st2 s', win_prepare demo_cfg1 (demo_wsys []) = Ret s1 st1 /\
     win_prepare demo_cfg2 s1 = Ret s2 st2 /\ win_restore st2 s2 = Ret s' tt /\
     caught (w_catch s') (w_regs s') 0 = false /\ w_passed (raise_ctrl 0 true s') = [0]).
Proof.
  split; [constructor|]. split; [do 2 eexists; vm_compute; repeat split|].
  split; [eexists; vm_compute; repeat split|]. do 5 eexists. vm_compute. repeat split.
Qed.

(** C74: over any history of waiting and reading, every input record is handed out once,
    in order, and each event is the one for its record. *)
Theorem C74_records :
  forall E os s s' rs, run_wr E os s = Some (s', rs) ->
  fits_all E os (w_rd s) rs (w_rd s') /\ records s = concat (map handed rs) ++ records s'.
Proof. intros E os s s' rs H. destruct (history E os s s' rs H) as (A & B & _). exact (conj A B). Qed.
Print Assumptions C74_records.

(** C73: over any history of waiting and reading, the control events caught are reported
    as [told] describes, and those not caught are left to the system. *)
Theorem C73_signals_partial :
  forall E os s s' rs, run_wr E os s = Some (s', rs) ->
  exists l, w_time s = l ++ w_time s' /\
    told (unreported s) (catches (w_catch s) (w_regs s) l) rs (unreported s') /\
    w_passed s' = w_passed s ++ misses (w_catch s) (w_regs s) l.
Proof. intros E os s s' rs H. destruct (history E os s s' rs H) as (_ & _ & C). exact C. Qed.
Print Assumptions C73_signals_partial.

(** C73 does not hold for events between two reads: the later one replaces the earlier,
    which is never reported. *)
Theorem C73_replaced_refuted :
  forall E t s c c' w w' l,
  caught (w_catch s) (w_regs s) c = true -> caught (w_catch s) (w_regs s) c' = true ->
  w_time s = WCtrl c w :: WCtrl c' w' :: WStep :: WStep :: l ->
  exists s', win_read_event E t s = Ret s' (Some (ESignal (ctrl_signal c')), []) /\ unreported s' = [].
Proof. exact replaced. Qed.
Print Assumptions C73_replaced_refuted.

(** Ctrl-C while waiting; the record that wakes the reader up gives [NoEvent]; a key;
    Ctrl-C and Ctrl-Break before the next read, of which Ctrl-Break is reported, and the
    records that should have woken the reader; then closing the window (2), which is
    not caught. *)
Example C73_example :
  let s := WSys (WReader false 0) 3 NO_SIGNAL 0x1a8 1 [] None [] []
             [WStep; WStep; WCtrl 0 true; WStep; WStep; WStep; WStep; WStep; WRec (KeyRec true 0x26 0 0); WStep; WStep; WStep;
              WStep; WCtrl 0 true; WCtrl 1 true; WStep; WStep; WStep; WStep; WStep; WCtrl 2 true; WStep] in
  let os := [RWait None; REvent None; REvent None; REvent None; REvent None; RRawEvent 5 None] in
  exists s', run_wr (demo_env 1000) os s =
    Some (s', [RBool true; RGot (Some (ESignal Interrupt)) []; RGot (Some ENoEvent) [wake_record];
               RGot (Some (EKey KUp)) [KeyRec true 0x26 0 0]; RGot (Some (ESignal Break)) [];
               RGot (Some (ERaw 2)) [wake_record; wake_record]]) /\ w_passed s' = [2].
Proof. eexists. split; vm_compute; reflexivity. Qed.
Example C74_example :
  let s := WSys (WReader false 0) 3 NO_SIGNAL 0x1a8 1 [SizeRec (Coord 80 25)] None [] []
             [WRec (KeyRec true 0x41 0 0x61); WStep] in
  exists s', run_wr (demo_env 1000) [REvent None; RRawEvent 4 (Some (Duration 0 0))] s =
    Some (s', [RGot (Some (EResize (Size 25 80))) [SizeRec (Coord 80 25)];
               RGot (Some (ERaw 1)) [KeyRec true 0x41 0 0x61]]).
Proof. eexists. vm_compute. reflexivity. Qed.

(** C75: [read_raw] with a timeout can wait without end: if the only record waiting has no
    character (a key going up, the mouse), [wait_event] reports input, [read_event]
    returns, but [read_raw] blocks although time passes. *)
Theorem C75_read_raw_refuted :
  forall E len t s r,
  as_millis t <> Boom -> (0 < len)%nat -> rec_char r = None ->
  w_queue s = [r] -> w_failing s = None -> unreported s = [] -> Forall quiet_tick (w_time s) ->
  (exists s', win_wait_event t s = Ret s' true) /\ win_read_raw len t s = Blocked /\
  exists s' e, win_read_event E t s = Ret s' (Some e, [r]).
Proof. exact read_raw_hangs. Qed.
Print Assumptions C75_read_raw_refuted.

Example C75_example :
  let s := WSys (WReader false 0) 0 NO_SIGNAL 0x1a8 0 [KeyRec false 0x41 0 0x61] None [] []
             [WStep; WStep; WTime; WStep; WTime; WStep; WTime; WTime] in
  win_read_raw 10 (Some (Duration 1 0)) s = Blocked /\
  exists s', win_read_event (demo_env 1000) (Some (Duration 1 0)) s = Ret s' (Some ENoEvent, [KeyRec false 0x41 0 0x61]).
Proof. split; [|eexists]; vm_compute; reflexivity. Qed.

(** C75, what holds: if a record with a character is waiting or still to come,
    [read_raw] returns, with whatever records before it. *)
Theorem C75_returns_for_characters_partial :
  forall len t s, as_millis t <> Boom -> 0 < to_dword len ->
  (exists r u, rec_char r = Some u /\ (In r (w_queue s) \/ In (WRec r) (w_time s))) ->
  win_read_raw len t s <> Blocked.
Proof. exact raw_returns. Qed.
Print Assumptions C75_returns_for_characters_partial.

Example C75_returns_example :
  let s := WSys (WReader false 0) 0 NO_SIGNAL 0x1a8 0 [KeyRec false 0x41 0 0x61] None [] []
             [WStep; WTime; WStep; WTime; WRec (KeyRec true 0x10 0 0); WRec (KeyRec true 0x42 0 0x62); WTime] in
  rec_char (KeyRec true 0x42 0 0x62) = Some 0x62 /\ to_dword 10 = 10 /\
  match win_read_raw 10 (Some (Duration 1 0)) s with
  | Ret s' r => r = (Some (ERaw 1), [0x62]) /\ w_queue s' = []
  | _ => False
  end.
Proof. vm_compute. repeat split. Qed.

(** C77: [wait_event] says yes only if there is a record or a signal, and no only if it
    has a timeout and there is no record; with a timeout that is not [INFINITE]
    milliseconds, waiting and reading events end once the time has passed. *)
Theorem C77_waiting :
  forall t s ms, as_millis t = Val ms ->
  (forall s', win_wait_event t s = Ret s' true -> w_queue s' <> [] \/ unreported s' <> []) /\
  (forall s', win_wait_event t s = Ret s' false -> t <> None /\ w_queue s' = []) /\
  (ms <> INFINITE -> In WTime (after_steps 2 (w_time s)) ->
   win_wait_event t s <> Blocked /\ (forall E, win_read_event E t s <> Blocked) /\
   (forall len, win_read_raw_event len t s <> Blocked)).
Proof. exact waiting. Qed.
Print Assumptions C77_waiting.

(** A record that is there or arrives ends every wait. *)
Theorem C77_woken :
  forall t s r, as_millis t <> Boom -> w_queue s <> [] \/ In (WRec r) (after_steps 2 (w_time s)) ->
  win_wait_event t s <> Blocked /\ win_wait_event t s <> Panic.
Proof. exact woken. Qed.
Print Assumptions C77_woken.

Example C77_example :
  as_millis (Some (Duration 1 0)) = Val 1000 /\
  In WTime (after_steps 2 [WStep; WCtrl 0 true; WStep; WCtrl 0 true; WTime]) /\
  (exists s', win_wait_event (Some (Duration 1 0)) (demo_wsys [WStep; WCtrl 0 true; WStep; WCtrl 0 true; WTime]) = Ret s' false
     /\ w_passed s' = [0; 0]) /\
  (exists s', win_wait_event None (demo_wsys [WStep; WStep; WTime; WRec OtherRec]) = Ret s' true).
Proof. split; [reflexivity|]. split; [cbn; auto|]. split; eexists; vm_compute; repeat split. Qed.
