(** Property theorems for terminal output (C28-C34, C63). *)
From Verif Require Import Base M_Utf8 S_Utf8 M_Geom S_Geom M_Attr M_Buf S_Buf M_Writer S_Tty S_Writer
  P_Buf P_Buf3 P_Writer P_Attr P_Writer2 P_Writer3 S_Emu P_Emu.

(** The contract the theorems below rest on is met by an ANSI terminal. *)
Theorem C28_contract_is_met :
  forall E, env_ok E -> implements E ansi_cfg (ansi_tty E) /\ all_attr_caps ansi_cfg.
Proof. exact (fun E HE => conj (ansi_implements E HE) ansi_all_caps). Qed.
Print Assumptions C28_contract_is_met.

(** C28: after any successful operations the attributes in force at the terminal are
    the ones asked for, if the terminal has all attribute capabilities; [t0], [v0] is
    the terminal before, in agreement with what the writer believes. *)
Theorem C28_attributes_track :
  forall E C K t0 v0 ops w w',
    implements E C K -> all_attr_caps C -> whole_writes (script w) ->
    Forall (plain_op E) ops -> Forall op_style_ok ops -> style_ok (sty (wat w)) ->
    look K (feed K t0 (stream w)) = Some v0 -> vattrs v0 = wat w ->
    run_ok C ops w = Some w' ->
    exists v, look K (feed K t0 (stream w')) = Some v /\ vattrs v = fold_left request ops (wat w).
Proof. exact attrs_track. Qed.
Print Assumptions C28_attributes_track.

(** The same for terminals that lack capabilities, as long as whatever can be switched
    on can be switched off: the supported part of the attributes is in force. *)
Theorem C28_attributes_track_limited_terminal :
  forall E C K t0 v0 ops w w',
    implements E C K -> caps_coherent C -> whole_writes (script w) ->
    Forall (plain_op E) ops ->
    look K (feed K t0 (stream w)) = Some v0 -> vattrs v0 = shown_attrs C (wat w) ->
    run_ok C ops w = Some w' ->
    exists v, look K (feed K t0 (stream w')) = Some v /\
              vattrs v = shown_attrs C (fold_left request ops (wat w)).
Proof. exact attrs_track_any. Qed.
Print Assumptions C28_attributes_track_limited_terminal.

Example C28_example :
  let E := demo_env 1000 in
  let ops := [OSetFg (Some Red); OAddStyle 5%N; OSetBg (Some Blue); OWriteStr [97; 0xFF21]%N;
              ORemoveStyle 1%N; OSetFg None; OClearScreen; OFlush; OSetAttrs (Attrs (Some Cyan) None 8%N)] in
  let w := writer_new 16 (repeat WAll 9) in
  let t0 := emu_new (Size 3 8) in
  implements E ansi_cfg (ansi_tty E) /\ all_attr_caps ansi_cfg /\ whole_writes (script w) /\
  Forall (plain_op E) ops /\ Forall op_style_ok ops /\ style_ok (sty (wat w)) /\
  (exists v0, look (ansi_tty E) (feed (ansi_tty E) t0 (stream w)) = Some v0 /\ vattrs v0 = wat w) /\
  run_ok ansi_cfg ops w <> None /\ fold_left request ops (wat w) = Attrs (Some Cyan) None 8%N.
Proof.
  cbv zeta. split; [apply ansi_implements, demo_env_ok|]. split; [apply ansi_all_caps|].
  split; [repeat constructor|]. split.
  - repeat constructor; unfold texty, scalar, printable; cbn; intuition discriminate.
  - split; [repeat constructor; unfold style_ok; cbn; lia|]. split; [reflexivity|].
    split; [eexists; split; reflexivity|]. split; [vm_compute; discriminate|reflexivity].
Qed.

(** Without the coherence condition C28 fails: on a terminal that can start italics
    but not end them, [remove_style(ITALIC)] reports success and italics stay on. *)
Theorem C28_missing_exit_italics_refuted :
  forall E, env_ok E -> exists C w' v,
    implements E C (ansi_tty E) /\
    run_ok C [OAddStyle ITALIC; ORemoveStyle ITALIC] (writer_new 64 []) = Some w' /\
    emu_look (feed (ansi_tty E) (emu_new (Size 2 2)) (stream w')) = Some v /\
    fold_left request [OAddStyle ITALIC; ORemoveStyle ITALIC] no_attrs = no_attrs /\
    vattrs v = Attrs None None ITALIC.
Proof. exact missing_exit_italics. Qed.
Print Assumptions C28_missing_exit_italics_refuted.

(** C29: an attribute operation that asks for what is already in force changes
    nothing at all: no byte is appended, nothing is written. *)
Theorem C29_no_redundant_output :
  forall C o w, attr_op o -> request (wat w) o = wat w -> run_wop C o w = Ret w tt.
Proof. exact already_in_force. Qed.
Print Assumptions C29_no_redundant_output.

Example C29_example :
  let w := with_wat (Attrs (Some Red) (Some Blue) 13%N) (writer_new 64 []) in
  Forall (fun o => attr_op o /\ request (wat w) o = wat w)
    [OSetFg (Some Red); OSetBg (Some Blue); OAddStyle 9%N; ORemoveStyle 2%N; OSetStyle 13%N;
     OSetAttrs (Attrs (Some Red) (Some Blue) 13%N)].
Proof. repeat constructor. Qed.

(** C30 (does not hold): if the OS accepts the buffer [k] bytes at a time, the first
    [k] bytes are sent over and over, and success is reported. *)
Theorem C30_short_writes_refuted :
  forall k n w sc, 0 < k -> length (obuf w) = n * k -> script w = repeat (WOk k) n ++ sc ->
    flush w = Ret (with_io (dev w ++ concat (repeat (firstn k (obuf w)) n)) sc (with_obuf [] w)) tt.
Proof. exact flush_short_garbles. Qed.
Print Assumptions C30_short_writes_refuted.

Example C30_short_writes_example :
  exists w', flush (W [97; 98; 99; 100]%N 512 no_attrs 0 [] (repeat (WOk 2) 2)) = Ret w' tt /\
    dev w' = [97; 98; 97; 98]%N.
Proof. eexists. split; reflexivity. Qed.

(** C30, what holds: if each [write] takes the whole buffer, is interrupted or fails,
    the device together with the buffer has received exactly the contributions of the
    operations, in order; text contributes its encoding if the operation reported
    success and nothing if it reported an error. *)
Theorem C30_in_order_partial :
  forall C ops w rs w', whole_writes (script w) -> run_any C ops w = Some (rs, w') ->
    whole_writes (script w') /\ length rs = length ops /\
    exists xs, stream w' = stream w ++ concat xs /\ length xs = length ops /\
      forall i o r x, nth_error ops i = Some o -> nth_error rs i = Some r -> nth_error xs i = Some x ->
        contributes o r x.
Proof. exact history_whole. Qed.
Print Assumptions C30_in_order_partial.

Theorem C30_no_panic_partial :
  forall C o w, whole_writes (script w) -> run_wop C o w <> Panic.
Proof. exact op_no_panic. Qed.
Print Assumptions C30_no_panic_partial.

(** Text operations under these conditions deliver exactly their text: with nothing but
    text written, the stream is the text of the successful writes. *)
Theorem C30_text_stream_partial :
  forall C ss w rs w', whole_writes (script w) ->
    run_any C (map OWriteStr ss) w = Some (rs, w') ->
    stream w' = stream w ++
      concat (map (fun p => match fst p with None => utf8s (snd p) | Some _ => [] end) (combine rs ss)).
Proof. exact text_stream. Qed.
Print Assumptions C30_text_stream_partial.

Example C30_example :
  let w := writer_new 4 [WIntr; WAll; WErr 5; WOk 0; WAll; WAll]%N in
  let ops := map OWriteStr [[97; 98]; [99; 100; 101]; [102; 103; 104; 105; 106]; [107; 108]; [109; 110]]%N in
  whole_writes (script w) /\
  exists rs w', run_any ansi_cfg ops w = Some (rs, w') /\ rs = [None; None; Some (EOs 5); Some EWriteZero; None].
Proof. cbv zeta. split; [repeat constructor|]. do 2 eexists. split; vm_compute; reflexivity. Qed.

(** C31 (does not hold): if the OS accepts [k] bytes per call and [k] does not divide
    the length of the buffer, flush never returns, however often the OS answers. *)
Theorem C31_flush_never_returns_refuted :
  forall k w n, 0 < k < length (obuf w) -> length (obuf w) mod k <> 0 ->
    script w = repeat (WOk k) n -> flush w = Blocked.
Proof. exact flush_short_forever. Qed.
Print Assumptions C31_flush_never_returns_refuted.

(** If the OS fails in the end, flush panics. *)
Theorem C31_flush_panics_refuted :
  forall k n e w, 0 < k < length (obuf w) -> length (obuf w) mod k <> 0 ->
    length (obuf w) < n * k -> script w = repeat (WOk k) n ++ [WErr e] -> flush w = Panic.
Proof. exact flush_short_panics. Qed.
Print Assumptions C31_flush_panics_refuted.

Example C31_refuted_example :
  let w := W [97; 98; 99]%N 512 no_attrs 0 [] (repeat (WOk 2) 1000) in
  0 < 2 < length (obuf w) /\ length (obuf w) mod 2 <> 0 /\ length (obuf w) < 2 * 2.
Proof. cbn. lia. Qed.

(** C31, what holds: with whole writes every operation returns, as soon as the OS has
    answered twice other than by an interrupt. *)
Theorem C31_returns_partial :
  forall C o w, whole_writes (script w) -> 1 < responses (script w) -> run_wop C o w <> Blocked.
Proof. exact op_returns. Qed.
Print Assumptions C31_returns_partial.

Example C31_example :
  let w := W [97]%N 4 no_attrs 0 [] [WIntr; WAll; WIntr; WErr 5; WIntr]%N in
  whole_writes (script w) /\ 1 < responses (script w).
Proof. cbn. split; [repeat constructor|lia]. Qed.

(** C32 (does not hold with several short writes before the error): the device is sent
    the beginning again and bytes in between are dropped. *)
Theorem C32_short_writes_then_error_refuted :
  exists w w1 w2 e, flush w = Fail w1 e /\ flush w1 = Ret w2 tt /\ stream w = [97; 98; 99]%N /\
    dev w2 = [97; 97; 99]%N.
Proof. exact short_then_error. Qed.
Print Assumptions C32_short_writes_then_error_refuted.

(** C32, what holds, with whole writes: a flush that fails sends and loses nothing, and
    a flush that succeeds sends everything. *)
Theorem C32_errors_lose_nothing_partial :
  forall w, whole_writes (script w) ->
    match flush w with
    | Ret w' _ => obuf w' = [] /\ dev w' = dev w ++ obuf w
    | Fail w' _ => obuf w' = obuf w /\ dev w' = dev w /\ whole_writes (script w')
    | Panic => False
    | Blocked => True
    end.
Proof. exact flush_loses_nothing. Qed.
Print Assumptions C32_errors_lose_nothing_partial.

Example C32_example :
  let w := W [97; 98]%N 4 no_attrs 0 [96]%N [WIntr; WErr 5; WOk 0; WAll]%N in
  whole_writes (script w) /\
  exists w1 w2 w3, flush w = Fail w1 (EOs 5) /\ flush w1 = Fail w2 EWriteZero /\ flush w2 = Ret w3 tt /\
    dev w3 = [96; 97; 98]%N.
Proof. cbv zeta. split; [repeat constructor|]. do 3 eexists. repeat split. Qed.

(** C33 (does not hold): if the device fails, [Terminal::write_str] of any text that
    fits the buffer reports success although nothing was written. *)
Theorem C33_error_swallowed_refuted :
  forall C cap s e sc, length (utf8s s) <= cap -> s <> [] ->
    exists w', run_terminal_op C (OWriteStr s) (writer_new cap (WErr e :: sc)) = Ret w' tt /\
      dev w' = [] /\ obuf w' = utf8s s.
Proof. exact error_swallowed. Qed.
Print Assumptions C33_error_swallowed_refuted.

Example C33_refuted_example : length (utf8s [97; 98]%N) <= 512 /\ ([97; 98]%N : list N) <> [].
Proof. split; [cbn; lia|discriminate]. Qed.

(** C33, what holds: if the device does not fail, success means delivery, and the
    delivered bytes are those of the operation. *)
Theorem C33_success_means_delivered_partial :
  forall C o w w' u, perfect (script w) -> obuf w = [] -> run_terminal_op C o w = Ret w' u ->
    obuf w' = [] /\ perfect (script w') /\ exists x, dev w' = dev w ++ x /\ contributes o None x.
Proof. exact terminal_op_delivers. Qed.
Print Assumptions C33_success_means_delivered_partial.

Example C33_example :
  let w := writer_new 4 [WIntr; WAll; WAll] in
  perfect (script w) /\ obuf w = [] /\
  exists w', run_terminal_op ansi_cfg (OWriteStr [97; 98; 99; 100; 101]%N) w = Ret w' tt.
Proof. cbv zeta. split; [repeat (apply Forall_cons; [auto|]); constructor|].
  split; [reflexivity|]. eexists. reflexivity. Qed.

(** C34: a movement by [n > 0] moves the terminal's cursor [min n u32::MAX] cells,
    stopping at the edge, and does nothing else; a missing capability is reported and
    leaves the output alone. *)
Theorem C34_relative_movement :
  forall E C d n w, n <> 0 ->
    match run_wop C (move_op d n) w with
    | Ret w' _ => exists x, obuf w' = obuf w ++ x /\ dev w' = dev w /\
        forall K, implements E C K -> forall t v, look K t = Some v -> column (vcur v) < columns (vsize v) ->
          look K (feed K t x) =
          Some (set_vcur (shift d (N.to_nat (N.min (N.of_nat n) u32_max)) (vsize v) (vcur v)) v)
    | Fail w' e => has C (move_cap d n) = false -> w' = w /\ e = ENotSupported (move_cap d n)
    | _ => False
    end.
Proof. exact move_moves. Qed.
Print Assumptions C34_relative_movement.

Theorem C34_no_movement_no_output :
  forall C d w, run_wop C (move_op d 0) w = Ret w tt.
Proof. exact move_zero. Qed.
Print Assumptions C34_no_movement_no_output.

Theorem C34_missing_capability :
  forall C d n w, n <> 0 -> has C (move_cap d n) = false ->
    run_wop C (move_op d n) w = Fail w (ENotSupported (move_cap d n)).
Proof. exact move_missing. Qed.
Print Assumptions C34_missing_capability.

Theorem C34_absolute_movement :
  forall E C p w,
    match run_wop C (OMoveCursor p) w with
    | Ret w' _ => exists x, obuf w' = obuf w ++ x /\ dev w' = dev w /\ wat w' = wat w /\ script w' = script w /\
        forall K, implements E C K -> forall t v, look K t = Some v ->
          in_bounds p (vsize v) -> (N.of_nat (lines (vsize v)) <= u32_max)%N ->
          (N.of_nat (columns (vsize v)) <= u32_max)%N ->
          look K (feed K t x) = Some (set_vcur p v)
    | Fail w' e => has C CursorAddress = false -> w' = w /\ e = ENotSupported CursorAddress
                   \/ (p = Cursor 0 0 /\ has C CursorHome = true)
    | _ => False
    end.
Proof. exact move_cursor_moves. Qed.
Print Assumptions C34_absolute_movement.

Example C34_example :
  let w := writer_new 64 [] in
  (exists w', run_wop ansi_cfg (OMoveDown 3) w = Ret w' tt /\ obuf w' = [27; 91; 51; 66]%N) /\
  (exists w', run_wop ansi_cfg (OMoveCursor (Cursor 4 11)) w = Ret w' tt /\
     obuf w' = [27; 91; 53; 59; 49; 50; 72]%N) /\
  move_cap Left 1 = CursorLeft /\ has (TCfg (fun _ => None) Nat.max false) CursorLeft = false.
Proof. cbv zeta. repeat split; eexists; split; vm_compute; reflexivity. Qed.

(** C63: the output of a successful [write_styled] is three pieces: after the first the
    terminal has the given attributes, the second is the text, after the third no
    attributes are in force. *)
Theorem C63_write_styled :
  forall C E a s w w' u, whole_writes (script w) -> write_styled C a s w = Ret w' u ->
    whole_writes (script w') /\ wat w' = no_attrs /\
    exists pre post, stream w' = stream w ++ pre ++ utf8s s ++ post /\
    forall K, caps_coherent C -> implements E C K -> Forall (texty E) s ->
      forall t v, look K t = Some v -> vattrs v = shown_attrs C (wat w) ->
      look K (feed K t pre) = Some (set_vattrs (shown_attrs C a) v) /\
      exists v2, look K (feed K t (pre ++ utf8s s)) = Some v2 /\ vattrs v2 = shown_attrs C a /\
        look K (feed K t (pre ++ utf8s s ++ post)) = Some (set_vattrs no_attrs v2).
Proof. exact write_styled_detail. Qed.
Print Assumptions C63_write_styled.

Example C63_example :
  let w := writer_new 64 [] in
  whole_writes (script w) /\ caps_coherent ansi_cfg /\
  exists w', write_styled ansi_cfg (Attrs (Some Green) None 3%N) [97; 98]%N w = Ret w' tt /\
    obuf w' = [27;91;49;109; 27;91;51;109; 27;91;51;50;109; 97;98; 27;91;109]%N.
Proof.
  cbv zeta. split; [constructor|]. split; [repeat split; auto|]. eexists. split; vm_compute; reflexivity.
Qed.

(** C64: the erasing operations blank exactly the documented cells and change nothing
    else, except that clearing the screen moves the cursor to the first cell; missing
    capabilities are reported and leave the output alone. *)
Theorem C64_erasing :
  forall E C o w w' u, o = OClearScreen \/ o = OClearToLineEnd \/ o = OClearToScreenEnd ->
    run_wop C o w = Ret w' u ->
    dev w' = dev w /\ script w' = script w /\ wat w' = wat w /\
    exists x, obuf w' = obuf w ++ x /\
      forall K, implements E C K -> forall t v, look K t = Some v ->
      (o <> OClearScreen -> on_cell v) ->
      exists v', look K (feed K t x) = Some v' /\
        vsize v' = vsize v /\ vattrs v' = vattrs v /\ vvis v' = vvis v /\
        vcur v' = (match o with OClearScreen => Cursor 0 0 | _ => vcur v end) /\
        let from := match o with OClearScreen => 0 | _ => cell_no (vsize v) (vcur v) end in
        let to := match o with
                  | OClearToLineEnd => S (line (vcur v)) * columns (vsize v)
                  | _ => total (vsize v) end in
        erased from to v v'.
Proof. exact clear_effect. Qed.
Print Assumptions C64_erasing.

Theorem C64_missing_capability :
  forall C o w, o = OClearScreen \/ o = OClearToLineEnd \/ o = OClearToScreenEnd ->
    let c := match o with OClearScreen => ClearScreen | OClearToLineEnd => ClrEol | _ => ClrEos end in
    has C c = false -> run_wop C o w = Fail w (ENotSupported c).
Proof. exact clear_missing. Qed.
Print Assumptions C64_missing_capability.

Example C64_example :
  exists w', run_wop ansi_cfg OClearToLineEnd (writer_new 64 []) = Ret w' tt /\ obuf w' = [27; 91; 75]%N.
Proof. eexists. split; reflexivity. Qed.

(** C65: [set_cursor_mode] makes the cursor visible or invisible and nothing else. *)
Theorem C65_cursor_visibility :
  forall E C m w w' u, run_wop C (OSetCursorMode m) w = Ret w' u ->
    dev w' = dev w /\ wat w' = wat w /\
    exists x, obuf w' = obuf w ++ x /\
      forall K, implements E C K -> has C CursorNormal = true -> has C CursorInvisible = true ->
      forall t v, look K t = Some v ->
      look K (feed K t x) = Some (set_vvis (match m with CInvisible => false | _ => true end) v).
Proof. exact cursor_mode_effect. Qed.
Print Assumptions C65_cursor_visibility.

Example C65_example :
  has ansi_cfg CursorNormal = true /\ has ansi_cfg CursorInvisible = true /\
  exists w', run_wop ansi_cfg (OSetCursorMode CInvisible) (writer_new 64 []) = Ret w' tt.
Proof. repeat split. eexists. reflexivity. Qed.

(** C66: after entering a full screen, nothing is on it, the cursor is at its first
    cell and no attributes are in force; leaving sends everything buffered. *)
Theorem C66_enter_screen :
  forall E C sz w w' u, caps_coherent C -> enter_screen C (inr sz) w = Ret w' u ->
    (N.of_nat (lines sz) <= u32_max)%N ->
    dev w' = dev w /\ wat w' = no_attrs /\ exists x, obuf w' = obuf w ++ x /\
      forall K, implements E C K -> forall t v, look K t = Some v -> vsize v = sz ->
      vattrs v = shown_attrs C (wat w) ->
      exists v', look K (feed K t x) = Some v' /\ vsize v' = sz /\ vcur v' = Cursor 0 0 /\
        vattrs v' = no_attrs /\ vvis v' = vvis v /\
        forall i, i < total sz -> nth_error (vcells v') i = Some (VC [SPACE] no_attrs).
Proof. exact enter_effect. Qed.
Print Assumptions C66_enter_screen.

Theorem C66_exit_screen :
  forall C w, perfect (script w) ->
    match exit_screen C w with
    | Ret w' _ => (has C ExitCaMode = true -> obuf w' = [] /\ exists x, dev w' = dev w ++ obuf w ++ x) /\
                  (has C ExitCaMode = false -> w' = w)
    | Fail _ e => e = EExpand
    | Panic => False
    | Blocked => True
    end.
Proof. exact exit_effect. Qed.
Print Assumptions C66_exit_screen.

Example C66_example :
  caps_coherent ansi_cfg /\
  (exists w', enter_screen ansi_cfg (inr (Size 24 80)) (with_wat (Attrs (Some Red) None 1%N) (writer_new 64 [])) = Ret w' tt) /\
  (exists w', exit_screen ansi_cfg (writer_new 64 [WAll]) = Ret w' tt).
Proof. repeat split; auto; eexists; vm_compute; reflexivity. Qed.
