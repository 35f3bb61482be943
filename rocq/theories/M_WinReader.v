(** Model of the input half of the Windows terminal (/repo/src/windows/terminal.rs):
    preparing and restoring the console, control signals, reading records and decoding
    them.  The console calls are specified here after their documentation; locking is
    not modelled here (M_Locks.v). *)
From Verif Require Import Base M_Utf8 M_Geom M_Signal M_Util M_Input M_Buf M_Writer M_Prepare M_Reader M_WinWriter.
Local Open Scope N_scope.

(** ** Input records: [INPUT_RECORD] of [wincon], by [EventType].  [KeyRec] has
    [bKeyDown], [wVirtualKeyCode], [dwControlKeyState] and [uChar]; [MouseRec] has
    [dwMousePosition], [dwButtonState], [dwControlKeyState] and [dwEventFlags];
    [SizeRec] has [dwSize]; all other types are [OtherRec]. *)
Inductive record : Type :=
| KeyRec (down : bool) (vk ctl uchar : N)
| MouseRec (pos : coord) (buttons ctl flags : N)
| SizeRec (sz : coord)
| OtherRec.

(** [wincon] key state and mouse flags. *)
Definition RIGHT_ALT_PRESSED : N := 0x1.
Definition LEFT_ALT_PRESSED : N := 0x2.
Definition RIGHT_CTRL_PRESSED : N := 0x4.
Definition LEFT_CTRL_PRESSED : N := 0x8.
Definition SHIFT_PRESSED : N := 0x10.
Definition MOUSE_WHEELED : N := 0x4.
Definition MOUSE_HWHEELED : N := 0x8.

(** [has_alt], [has_ctrl], [has_shift], windows/terminal.rs:1126-1136. *)
Definition has_alt (state : N) : bool := negb (N.land state (N.lor LEFT_ALT_PRESSED RIGHT_ALT_PRESSED) =? 0).
Definition has_ctrl (state : N) : bool := negb (N.land state (N.lor LEFT_CTRL_PRESSED RIGHT_CTRL_PRESSED) =? 0).
Definition has_shift (state : N) : bool := negb (N.land state SHIFT_PRESSED =? 0).

(** ** Keys *)

(** The virtual keys of [key_press_event] (windows/terminal.rs:1176-1202), with the
    codes of [winuser]. *)
Definition vk_key (vk : N) : option key :=
  match vk with
  | 0x08 => Some KBackspace   (* VK_BACK *)
  | 0x0D => Some KEnter       (* VK_RETURN *)
  | 0x1B => Some KEscape      (* VK_ESCAPE *)
  | 0x09 => Some KTab         (* VK_TAB *)
  | 0x26 => Some KUp          (* VK_UP *)
  | 0x28 => Some KDown        (* VK_DOWN *)
  | 0x25 => Some KLeft        (* VK_LEFT *)
  | 0x27 => Some KRight       (* VK_RIGHT *)
  | 0x2E => Some KDelete      (* VK_DELETE *)
  | 0x2D => Some KInsert      (* VK_INSERT *)
  | 0x24 => Some KHome        (* VK_HOME *)
  | 0x23 => Some KEnd         (* VK_END *)
  | 0x21 => Some KPageUp      (* VK_PRIOR *)
  | 0x22 => Some KPageDown    (* VK_NEXT *)
  | 0x70 => Some (KF 1)       (* VK_F1 *)
  | 0x71 => Some (KF 2)
  | 0x72 => Some (KF 3)
  | 0x73 => Some (KF 4)
  | 0x74 => Some (KF 5)
  | 0x75 => Some (KF 6)
  | 0x76 => Some (KF 7)
  | 0x77 => Some (KF 8)
  | 0x78 => Some (KF 9)
  | 0x79 => Some (KF 10)
  | 0x7A => Some (KF 11)
  | 0x7B => Some (KF 12)      (* VK_F12 *)
  | _ => None
  end.

(** [char::from_u32] of a 16-bit unit. *)
Definition from_u32 (u : N) : option N := if M_Utf8.is_scalar u then Some u else None.

(** [key_press_event], windows/terminal.rs:1168-1228. *)
Definition key_press_event (r : record) : option key :=
  match r with
  | KeyRec down vk ctl uchar =>
      if negb down then None else
      match vk_key vk with
      | Some k => Some k
      | None =>
          if has_alt ctl then None else
          let is_ctrl := has_ctrl ctl in
          if negb (uchar =? 0) then
            match from_u32 uchar with
            | Some ch => if is_ctrl then Some (KCtrl (unctrl_lower ch)) else Some (key_from_char ch)
            | None => None
            end
          else None
      end
  | _ => None
  end.

(** ** Mouse *)

(** [bit_to_button], windows/terminal.rs:1077-1096: the loop halves [bit] until it
    is 1; [fuel] bounds it (a [DWORD] has 32 bits); [None] is a panic (the
    assertion) or a loop without end. *)
Fixpoint count_shifts (fuel : nat) (bit n : N) : option N :=
  if bit =? 1 then Some n
  else match fuel with
       | O => None
       | S fuel => count_shifts fuel (N.shiftr bit 1) (n + 1)
       end.
Definition bit_to_button (bit : N) : option mouse_button :=
  if bit =? 0 then None
  else if bit =? 1 then Some MLeft             (* FROM_LEFT_1ST_BUTTON_PRESSED *)
  else if bit =? 2 then Some MRight            (* RIGHTMOST_BUTTON_PRESSED *)
  else if bit =? 4 then Some MMiddle           (* FROM_LEFT_2ND_BUTTON_PRESSED *)
  else match count_shifts 32 (N.shiftr bit 3) 3 with
       | Some n => Some (MOther n)
       | None => None
       end.

(** [button_changed], windows/terminal.rs:1051-1075; the loop from [i] on. *)
Fixpoint changed_from (prev now : N) (n : nat) (i : N) : pan (option mouse_input) :=
  match n with
  | O => Val None
  | S n =>
      let bit := N.shiftl 1 i in
      if negb (N.land (N.lxor prev now) bit =? 0) then
        match bit_to_button bit with
        | None => Boom
        | Some b => Val (Some (if N.land prev bit =? 0 then MPressed b else MReleased b))
        end
      else changed_from prev now n (i + 1)
  end.
Definition button_changed (prev now : N) : pan (option mouse_input) := changed_from prev now 32 0.

(** [(state >> 16) as i16]. *)
Definition high_word (state : N) : Z :=
  let w := Z.of_N (N.shiftr state 16 mod 65536) in
  if (w <? 32768)%Z then w else (w - 65536)%Z.

(** [coord_to_cursor], windows/terminal.rs:1098-1103; [as usize] of a negative number
    wraps around. *)
Definition coord_to_cursor (E : env) (p : coord) : cursor :=
  Cursor (as_usize E (cY p)) (as_usize E (cX p)).

(** [Reader], windows/terminal.rs:107-110. *)
Record wreader : Type := WReader { always_track : bool; prev_buttons : N }.

(** [TerminalReadGuard::mouse_event], windows/terminal.rs:517-569. *)
Definition win_mouse_event (E : env) (r : record) (rd : wreader) : pan (wreader * option mouse_event) :=
  match r with
  | MouseRec pos buttons ctl flags =>
      let input :=
        if negb (N.land flags MOUSE_WHEELED =? 0) then
          Val (rd, Some (if (0 <? high_word buttons)%Z then MWheelUp else MWheelDown))
        else
          let rd' := WReader (always_track rd) buttons in
          if prev_buttons rd =? buttons then
            if (buttons =? 0) && negb (always_track rd) then Val (rd', None)
            else Val (rd', Some MMotion)
          else match button_changed (prev_buttons rd) buttons with
               | Boom => Boom
               | Val i => Val (rd', i)
               end in
      match input with
      | Boom => Boom
      | Val (rd, None) => Val (rd, None)
      | Val (rd, Some i) =>
          let mods := 0 in
          let mods := if has_alt ctl then N.lor mods ALT else mods in
          let mods := if has_ctrl ctl then N.lor mods CTRL else mods in
          let mods := if has_shift ctl then N.lor mods SHIFT else mods in
          Val (rd, Some (MouseEvent (coord_to_cursor E pos) i mods))
      end
  | _ => Val (rd, None)
  end.

(** [size_event], windows/terminal.rs:1230-1241. *)
Definition size_event (E : env) (r : record) : option size :=
  match r with
  | SizeRec sz => Some (Size (as_usize E (cY sz)) (as_usize E (cX sz)))
  | _ => None
  end.

(** ** Timeouts: [as_millis], windows/terminal.rs:933-943; the multiplication is of
    [u64], the sum of [u32]. *)
Definition INFINITE : N := 0xffffffff.
Definition as_millis (timeout : option duration) : pan N :=
  match timeout with
  | Some t =>
      if 18446744073709551616 <=? secs t * 1000 then Boom else
      let s := (secs t * 1000) mod 4294967296 in
      let ms := (nanos t / 1000000) mod 4294967296 in
      if 4294967296 <=? s + ms then Boom else Val (s + ms)
  | None => Val INFINITE
  end.

(** ** The console's input side *)

(** What can happen outside the library, in order of time:
    - [WRec r]: an input record arrives;
    - [WCtrl c w]: the control event [c] is raised; [w]: writing a record to the input
      would succeed;
    - [WTime]: time passes, up to the end of a timeout someone waits for;
    - [WFail e]: the next wait or read will fail with error [e];
    - [WStep]: the library performs one of the operations that look at this state. *)
Inductive wtick : Type :=
| WRec (r : record)
| WCtrl (c : N) (w : bool)
| WTime
| WFail (e : N)
| WStep.

(** The reader, [CATCH_SIGNALS] and [LAST_SIGNAL] (windows/terminal.rs:1267-1271; its
    [!0] is read [as DWORD]), and the console: the input mode, how often [ctrl_handler]
    is registered, the records waiting, a pending failure, the failures that
    [GetConsoleMode], [SetConsoleMode] and [SetConsoleCtrlHandler] will meet, the control
    events [ctrl_handler] left to the system (a ghost), and the future. *)
Record wsys : Type := WSys {
  w_rd : wreader;
  w_catch : N;
  w_last : N;
  w_mode : N;
  w_regs : nat;
  w_queue : list record;
  w_failing : option N;
  w_os : list (option N);
  w_passed : list N;
  w_time : list wtick
}.
Definition with_rd (r : wreader) (s : wsys) : wsys :=
  WSys r (w_catch s) (w_last s) (w_mode s) (w_regs s) (w_queue s) (w_failing s) (w_os s) (w_passed s) (w_time s).
Definition with_catch (n : N) (s : wsys) : wsys :=
  WSys (w_rd s) n (w_last s) (w_mode s) (w_regs s) (w_queue s) (w_failing s) (w_os s) (w_passed s) (w_time s).
Definition with_wlast (n : N) (s : wsys) : wsys :=
  WSys (w_rd s) (w_catch s) n (w_mode s) (w_regs s) (w_queue s) (w_failing s) (w_os s) (w_passed s) (w_time s).
Definition with_mode (n : N) (s : wsys) : wsys :=
  WSys (w_rd s) (w_catch s) (w_last s) n (w_regs s) (w_queue s) (w_failing s) (w_os s) (w_passed s) (w_time s).
Definition with_regs (n : nat) (s : wsys) : wsys :=
  WSys (w_rd s) (w_catch s) (w_last s) (w_mode s) n (w_queue s) (w_failing s) (w_os s) (w_passed s) (w_time s).
Definition with_wqueue (q : list record) (s : wsys) : wsys :=
  WSys (w_rd s) (w_catch s) (w_last s) (w_mode s) (w_regs s) q (w_failing s) (w_os s) (w_passed s) (w_time s).
Definition with_wfailing (f : option N) (s : wsys) : wsys :=
  WSys (w_rd s) (w_catch s) (w_last s) (w_mode s) (w_regs s) (w_queue s) f (w_os s) (w_passed s) (w_time s).
Definition with_wos (o : list (option N)) (s : wsys) : wsys :=
  WSys (w_rd s) (w_catch s) (w_last s) (w_mode s) (w_regs s) (w_queue s) (w_failing s) o (w_passed s) (w_time s).
Definition with_passed (l : list N) (s : wsys) : wsys :=
  WSys (w_rd s) (w_catch s) (w_last s) (w_mode s) (w_regs s) (w_queue s) (w_failing s) (w_os s) l (w_time s).
Definition with_wtime (t : list wtick) (s : wsys) : wsys :=
  WSys (w_rd s) (w_catch s) (w_last s) (w_mode s) (w_regs s) (w_queue s) (w_failing s) (w_os s) (w_passed s) t.

Definition wsres (A : Type) : Type := out wsys N A.

(** *** Control signals *)

Definition CTRL_C_EVENT : N := 0.
Definition CTRL_BREAK_EVENT : N := 1.

(** [catch_signals], windows/terminal.rs:1273-1284. *)
Definition catch_signals (set : sigset) (s : wsys) : wsys :=
  let sigs := 0 in
  let sigs := if ss_contains set Break then N.lor sigs (N.shiftl 1 CTRL_BREAK_EVENT) else sigs in
  let sigs := if ss_contains set Interrupt then N.lor sigs (N.shiftl 1 CTRL_C_EVENT) else sigs in
  with_catch sigs s.

(** The record [ctrl_handler] writes: a key-up record of zeros. *)
Definition wake_record : record := KeyRec false 0 0 0.

(** [ctrl_handler], windows/terminal.rs:1286-1318; true: handled. *)
Definition ctrl_handler (c : N) (writes : bool) (s : wsys) : wsys * bool :=
  if (c =? CTRL_BREAK_EVENT) || (c =? CTRL_C_EVENT) then
    if N.land (w_catch s) (N.shiftl 1 c) =? 0 then (s, false)
    else
      let s := with_wlast c s in
      ((if writes then with_wqueue (w_queue s ++ [wake_record]) s else s), true)
  else (s, false).

(** [conv_signal], windows/terminal.rs:1320-1326. *)
Definition win_conv_signal (n : N) : option signal :=
  if n =? CTRL_BREAK_EVENT then Some Break
  else if n =? CTRL_C_EVENT then Some Interrupt
  else None.
Definition NO_SIGNAL : N := 0xffffffff.

(** The system calls the registered handlers, the last registered first, until one
    handles the event; they are all [ctrl_handler]. *)
Definition raise_ctrl (c : N) (writes : bool) (s : wsys) : wsys :=
  match w_regs s with
  | O => with_passed (w_passed s ++ [c]) s
  | S _ => let '(s', handled) := ctrl_handler c writes s in
           if handled then s' else with_passed (w_passed s' ++ [c]) s'
  end.

(** What a tick changes. *)
Definition whappens (t : wtick) (s : wsys) : wsys :=
  match t with
  | WRec r => with_wqueue (w_queue s ++ [r]) s
  | WCtrl c w => raise_ctrl c w s
  | WFail e => with_wfailing (Some e) s
  | WTime | WStep => s
  end.

(** What happens until the library takes its next step. *)
Fixpoint wpass (l : list wtick) (s : wsys) : wsys :=
  match l with
  | [] => with_wtime [] s
  | WStep :: l => with_wtime l s
  | t :: l => wpass l (whappens t s)
  end.
Definition wadvance (s : wsys) : wsys := wpass (w_time s) s.

(** [get_signal], [take_signal], windows/terminal.rs:1328-1334. *)
Definition win_get_signal (s : wsys) : wsys * option signal :=
  let s := wadvance s in (s, win_conv_signal (w_last s)).
Definition win_take_signal (s : wsys) : wsys * option signal :=
  let s := wadvance s in (with_wlast NO_SIGNAL s, win_conv_signal (w_last s)).

(** *** Console calls *)

(** [WaitForSingleObject] on the input handle: it is signalled while there are records;
    [ms = None] is [INFINITE]. *)
Inductive wwoke : Type := XReady | XTimeout | XError (e : N) | XNever.
Fixpoint wawait (ms : option N) (l : list wtick) (s : wsys) : wsys * wwoke :=
  match w_failing s with
  | Some e => (with_wfailing None (with_wtime l s), XError e)
  | None =>
      match w_queue s with
      | _ :: _ => (with_wtime l s, XReady)
      | [] =>
          if (match ms with Some 0 => true | _ => false end) then (with_wtime l s, XTimeout) else
          match l with
          | [] => (with_wtime [] s, XNever)
          | WTime :: l => match ms with
                          | Some _ => (with_wtime l s, XTimeout)
                          | None => wawait ms l s
                          end
          | t :: l => wawait ms l (whappens t s)
          end
      end
  end.
Definition wait_for_single_object (ms : N) (s : wsys) : wsys * wwoke :=
  let s := wadvance s in
  wawait (if ms =? INFINITE then None else Some ms) (w_time s) s.

(** [ReadConsoleInputW] with room for [len] records: waits for one, takes as many as
    there are and fit.  With no room it takes nothing. *)
Definition read_console_input (len : N) (s : wsys) : wsres (list record) :=
  let s := wadvance s in
  if len =? 0 then Ret s [] else
  match wawait None (w_time s) s with
  | (s, XReady) =>
      let k := Nat.min (N.to_nat len) (length (w_queue s)) in
      Ret (with_wqueue (skipn k (w_queue s)) s) (firstn k (w_queue s))
  | (s, XError e) => Fail s e
  | (s, _) => Blocked
  end.

(** [ReadConsoleW] (not line mode): waits for a key-down record with a character,
    discarding all records that are none; takes the characters there are, as many as
    fit.  With no room it takes nothing. *)
Definition rec_char (r : record) : option N :=
  match r with KeyRec true _ _ u => if u =? 0 then None else Some u | _ => None end.
Fixpoint take_chars (room : nat) (q : list record) : list N * list record :=
  match room, q with
  | O, _ | _, [] => ([], q)
  | S room', r :: q =>
      match rec_char r with
      | Some u => let '(us, q) := take_chars room' q in (u :: us, q)
      | None => take_chars room q
      end
  end.
Fixpoint read_console (fuel : nat) (room : nat) (s : wsys) : wsres (list N) :=
  if (room =? 0)%nat then Ret s [] else
  match wawait None (w_time s) s with
  | (s, XReady) =>
      match take_chars room (w_queue s) with
      | ([], q) => match fuel with
                   | O => Blocked
                   | S fuel => read_console fuel room (with_wqueue q s)
                   end
      | (us, q) => Ret (with_wqueue q s) us
      end
  | (s, XError e) => Fail s e
  | (s, _) => Blocked
  end.

(** Calls that can fail. *)
Definition wos_call {A} (ok : wsys -> wsres A) (s : wsys) : wsres A :=
  match w_os s with
  | Some e :: l => Fail (with_wos l s) e
  | None :: l => ok (with_wos l s)
  | [] => ok s
  end.
(** [console_mode], [set_console_mode] (windows/terminal.rs:1011-1017, 1025-1027);
    [SetConsoleCtrlHandler(ctrl_handler, add)]: every registration counts. *)
Definition console_mode : wsys -> wsres N := wos_call (fun s => Ret s (w_mode s)).
Definition set_console_mode (m : N) : wsys -> wsres unit := wos_call (fun s => Ret (with_mode m s) tt).
Definition set_ctrl_handler (add : bool) : wsys -> wsres unit :=
  wos_call (fun s => if add then Ret (with_regs (S (w_regs s)) s) tt
                     else match w_regs s with
                          | O => Fail s ERROR_INVALID_PARAMETER
                          | S n => Ret (with_regs n s) tt
                          end).

(** ** Preparing and restoring *)

Definition ENABLE_PROCESSED_INPUT : N := 0x1.
Definition ENABLE_LINE_INPUT : N := 0x2.
Definition ENABLE_ECHO_INPUT : N := 0x4.
Definition ENABLE_WINDOW_INPUT : N := 0x8.
Definition ENABLE_MOUSE_INPUT : N := 0x10.
Definition ENABLE_QUICK_EDIT_MODE : N := 0x40.
Definition ENABLE_EXTENDED_FLAGS : N := 0x80.
Definition ENABLE_VIRTUAL_TERMINAL_INPUT : N := 0x200.

(** [PrepareState], windows/terminal.rs:119-122. *)
Record wpstate : Type := WPState { old_in_mode : N; clear_handler : bool }.

(** The mode computed by [prepare_with_lock], windows/terminal.rs:361-394. *)
Definition prepared_mode (cfg : config) (old : N) : N :=
  let m := N.lor old ENABLE_EXTENDED_FLAGS in
  let m := N.ldiff m ENABLE_ECHO_INPUT in
  let m := N.ldiff m ENABLE_LINE_INPUT in
  let m := if block_signals cfg then N.ldiff m ENABLE_PROCESSED_INPUT
           else N.lor m ENABLE_PROCESSED_INPUT in
  let m := if cfg_mouse cfg then N.lor m ENABLE_MOUSE_INPUT else N.ldiff m ENABLE_MOUSE_INPUT in
  let m := N.ldiff m ENABLE_QUICK_EDIT_MODE in
  let m := N.lor m ENABLE_WINDOW_INPUT in
  N.ldiff m ENABLE_VIRTUAL_TERMINAL_INPUT.

(** [TerminalReadGuard::prepare_with_lock], windows/terminal.rs:351-407. *)
Definition win_prepare (cfg : config) (s : wsys) : wsres wpstate :=
  let! (s, old) := console_mode s in
  let s := if cfg_mouse cfg
           then with_rd (WReader (always_track_motion cfg) (prev_buttons (w_rd s))) s else s in
  let! (s, _u) := set_console_mode (prepared_mode cfg old) s in
  if ss_intersects (report_signals cfg) (sig_or Break Interrupt) then
    let s := catch_signals (report_signals cfg) s in
    let! (s, _u) := set_ctrl_handler true s in
    Ret s (WPState old true)
  else Ret s (WPState old false).

(** [TerminalReadGuard::restore_with_lock], windows/terminal.rs:414-426. *)
Definition win_restore (st : wpstate) (s : wsys) : wsres unit :=
  let! (s, _u) := if clear_handler st then set_ctrl_handler false s else Ret s tt in
  set_console_mode (N.lor (old_in_mode st) ENABLE_EXTENDED_FLAGS) s.

(** ** Reading *)

Section WinReader.
  Variable E : env.

  (** [TerminalReadGuard::wait_event], windows/terminal.rs:428-441. *)
  Definition win_wait_event (timeout : option duration) (s : wsys) : wsres bool :=
    match win_get_signal s with
    | (s, Some _) => Ret s true
    | (s, None) =>
        match as_millis timeout with
        | Boom => Panic
        | Val ms =>
            match wait_for_single_object ms s with
            | (s, XReady) => Ret s true
            | (s, XTimeout) => Ret s false
            | (s, XError e) => Fail s e
            | (_, XNever) => Blocked
            end
        end
    end.

  (** [TerminalReadGuard::read_raw_event], windows/terminal.rs:497-515, with room for
      [len] records; also the records. *)
  Definition win_read_raw_event (len : nat) (timeout : option duration) (s : wsys)
      : wsres (option event * list record) :=
    let! (s, ready) := win_wait_event timeout s in
    if negb ready then Ret s (None, [])
    else match win_take_signal s with
         | (s, Some sig) => Ret s (Some (ESignal sig), [])
         | (s, None) =>
             let! (s, rs) := read_console_input (to_dword len) s in
             Ret s (Some (ERaw (length rs)), rs)
         end.

  (** The decoding in [read_event], windows/terminal.rs:454-466. *)
  Definition win_decode (r : record) (s : wsys) : wsres event :=
    match key_press_event r with
    | Some k => Ret s (EKey k)
    | None =>
        match win_mouse_event E r (w_rd s) with
        | Boom => Panic
        | Val (rd, Some m) => Ret (with_rd rd s) (EMouse m)
        | Val (rd, None) =>
            Ret (with_rd rd s) (match size_event E r with
                                | Some z => EResize z
                                | None => ENoEvent
                                end)
        end
    end.

  (** [TerminalReadGuard::read_event], windows/terminal.rs:443-467; also the record
      decoded. *)
  Definition win_read_event (timeout : option duration) (s : wsys) : wsres (option event * list record) :=
    let! (s, r) := win_read_raw_event 1 timeout s in
    match r with
    | (Some (ERaw _), []) => Ret s (None, [])
    | (Some (ERaw _), r :: _) => let! (s, e) := win_decode r s in Ret s (Some e, [r])
    | (r, _) => Ret s (r, [])
    end.

  (** [TerminalReadGuard::read_raw], windows/terminal.rs:469-495, with room for [len]
      code units; also the units read. *)
  Definition win_read_raw (len : nat) (timeout : option duration) (s : wsys)
      : wsres (option event * list N) :=
    let! (s, ready) := win_wait_event timeout s in
    if negb ready then Ret s (None, [])
    else match win_take_signal s with
         | (s, Some sig) => Ret s (Some (ESignal sig), [])
         | (s, None) =>
             let s := wadvance s in
             let room := N.to_nat (to_dword len) in
             let! (s, us) := read_console (S (length (w_queue s) + length (w_time s))) room s in
             match us with
             | [] => Ret s (None, [])
             | _ => Ret s (Some (ERaw (length us)), us)
             end
         end.
End WinReader.
