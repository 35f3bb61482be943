(** Property theorems for the events a program can be told (C129). *)
From Coq Require Import String.
From Verif Require Import Base M_Utf8 S_Utf8 M_Geom M_Seq S_Seq M_Signal M_Util M_Input S_Input P_Input M_Buf S_Buf M_Writer S_Writer S_Emu
  M_Prepare M_Reader S_Prepare S_Reader M_Keys S_Keys M_WinWriter M_WinReader S_WinReader S_Events P_Events P_Events2
  Prop_Input Prop_Prepare Prop_Keys Prop_WinReader.
Local Open Scope N_scope.

(** C129 on Unix: whatever a program does with a terminal, and whatever input and signals
    come, [read_event] and [read_raw] answer with the events of [event_told] and
    [raw_told] only. *)
Theorem C129_unix_events :
  forall C info name m, terminal_sequences info name = Some m ->
  forall ops s s' rs, M_Prepare.report s = ss_new -> resume_cfg s = None -> rrun C m ops s = Some (s', rs) ->
  forall i,
    (forall t e, nth_error ops i = Some (RRead t) -> nth_error rs i = Some (YEvent (Some e)) ->
       event_told (firstn i ops) e) /\
    (forall room t e bs, nth_error ops i = Some (RRaw room t) -> nth_error rs i = Some (YRaw (Some e) bs) ->
       raw_told (firstn i ops) room e bs).
Proof. exact events_told. Qed.
Print Assumptions C129_unix_events.

(** F10, Ctrl-A, Ctrl-I, Ctrl-M and "A" typed, one more byte read raw; then a quit signal,
    which was not asked for, and a suspend signal, which was. *)
Definition told_cfg : config := Config true false true false false (ss_from Suspend).
Example C129_unix_example :
  match terminal_sequences (fun c => xterm_db (cap_name c)) ex_name with
  | Some m =>
      let s := ex_sys [TInput [27; 91; 50; 49; 126; 1; 9; 13; 65; 66]; TStep; TStep; TStep; TStep; TStep; TStep; TStep; TStep; TStep; TStep;
                       TSig 3; TSig 20; TStep; TStep] in
      M_Prepare.report s = ss_new /\ resume_cfg s = None /\
      match rrun ansi_cfg m [RPrepare told_cfg; RRead None; RRead None; RRead None; RRead None; RRead None; RRaw 9 None; RRead None] s with
      | Some (_, rs) => skipn 1 rs =
          [YEvent (Some (EKey (KF 10))); YEvent (Some (EKey (KCtrl 97))); YEvent (Some (EKey KTab)); YEvent (Some (EKey KEnter));
           YEvent (Some (EKey (KChar 65))); YRaw (Some (ERaw 1)) [66]; YEvent (Some (ESignal Suspend))]
      | None => False
      end
  | None => False
  end.
Proof. vm_compute. repeat split. Qed.

(** C129 on Windows, but for capital letters beyond ASCII in [Key::Ctrl]. *)
Theorem C129_windows_events_partial :
  forall E ops s s' rs, w_catch s = 0 -> win_conv_signal (w_last s) = None -> xrun E ops s = Some (s', rs) ->
  forall i,
    (forall t e, nth_error ops i = Some (XRead t) -> nth_error rs i = Some (ZEvent (Some e)) ->
       win_event_told (firstn i ops) e) /\
    (forall room t e l, nth_error ops i = Some (XRawEvents room t) -> nth_error rs i = Some (ZRecords (Some e) l) ->
       win_raw_told (firstn i ops) room e (length l)) /\
    (forall room t e l, nth_error ops i = Some (XRawText room t) -> nth_error rs i = Some (ZText (Some e) l) ->
       win_raw_told (firstn i ops) room e (length l)).
Proof. exact win_events_told. Qed.
Print Assumptions C129_windows_events_partial.

(** Ctrl with a capital letter of Latin-1 beyond ASCII is told as [Key::Ctrl] of that
    capital letter. *)
Theorem C129_windows_capital_refuted :
  forall E t s vk ctl c rest,
  capital c -> 128 <= c -> other_vk vk -> alt_held ctl = false -> ctrl_held ctl = true ->
  as_millis t <> Boom -> w_queue s = KeyRec true vk ctl c :: rest -> w_failing s = None -> unreported s = [] ->
  Forall quiet_tick (w_time s) ->
  exists s', xrun E [XRead t] s = Some (s', [ZEvent (Some (EKey (KCtrl c)))]).
Proof. exact capital_told. Qed.
Print Assumptions C129_windows_capital_refuted.

(** Ctrl-A, a key going up, Ctrl-C caught with the record that wakes the reader up, then
    two units of text and at last Ctrl with E acute. *)
Example C129_windows_example :
  let s := demo_wsys [WRec (KeyRec true 0x41 8 1); WRec (KeyRec false 0x41 8 1); WStep; WStep; WStep; WStep; WStep; WStep; WStep; WStep;
                      WStep; WStep; WCtrl 0 true; WStep; WStep; WStep; WStep; WStep; WStep; WStep;
                      WRec (KeyRec true 0x41 0 97); WRec (KeyRec true 0x42 0 98); WStep; WStep; WStep; WStep;
                      WRec (KeyRec true 0x45 8 201)] in
  w_catch s = 0 /\ win_conv_signal (w_last s) = None /\
  match xrun (demo_env 1000) [XPrepare demo_cfg1; XRead None; XRead None; XRead None; XRead None; XRawText 9 None; XRead None] s with
  | Some (_, rs) => rs =
      [ZOther; ZEvent (Some (EKey (KCtrl 97))); ZEvent (Some ENoEvent); ZEvent (Some (ESignal Interrupt)); ZEvent (Some ENoEvent);
       ZText (Some (ERaw 2)) [97; 98]; ZEvent (Some (EKey (KCtrl 201)))]
  | None => False
  end.
Proof. vm_compute. repeat split. Qed.
