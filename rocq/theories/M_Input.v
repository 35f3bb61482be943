(** Model of decoding terminal input (/repo/src/unix/terminal.rs:46-64, 1069-1116,
    1205-1362): key sequences, mouse reports and characters. *)

From Verif Require Import Base M_Utf8 M_Geom M_Seq M_Signal M_Util.
Local Open Scope N_scope.

(** [MouseButton], [MouseInput], [MouseEvent] (terminal.rs:303-346); modifiers are the
    bits of [ModifierState] (terminal.rs:348-358). *)
Inductive mouse_button : Type := MLeft | MRight | MMiddle | MOther (n : N).
Inductive mouse_input : Type :=
| MMotion | MPressed (b : mouse_button) | MReleased (b : mouse_button) | MWheelUp | MWheelDown.
Record mouse_event : Type := MouseEvent { mpos : cursor; minput : mouse_input; mmods : N }.
Definition ALT : N := 1.
Definition CTRL : N := 2.
Definition SHIFT : N := 4.

(** [Event] (terminal.rs:207-235). *)
Inductive event : Type :=
| EKey (k : key)
| EMouse (m : mouse_event)
| ERaw (n : nat)
| EResize (s : size)
| ESignal (s : signal)
| ENoEvent.

(** [SeqData] (unix/terminal.rs:60-64) and [SeqMap] (58); a [SmallString] is its
    bytes. *)
Inductive seq_data : Type := XTermMouse | SKey (k : key).
Definition seq_map : Type := seqmap bytes seq_data.
Definition key_ref (k : bytes) : bytes := k.

(** unix/terminal.rs:52-57 *)
Definition XTERM_MOUSE_INTRO : bytes := [27; 91; 60].   (* ESC [ < *)
Definition XTERM_SHIFT_MASK : N := 0x04.
Definition XTERM_META_MASK : N := 0x08.
Definition XTERM_CTRL_MASK : N := 0x10.
Definition XTERM_MODIFIER_MASK : N := N.lor (N.lor XTERM_SHIFT_MASK XTERM_META_MASK) XTERM_CTRL_MASK.

(** [u32::MAX] and [!x] on [u32]. *)
Definition U32_MAX : N := 4294967295.
Definition u32_not (x : N) : N := N.lxor x U32_MAX.

(** [is_xterm] (unix/terminal.rs:1069-1072), [name] as bytes. *)
Definition is_xterm (name : bytes) : bool :=
  let x := [120; 116; 101; 114; 109] in
  (if list_eq_dec N.eq_dec name x then true else false) || starts_with name (x ++ [45]).

(** [ascii_str] (unix/terminal.rs:1389-1397). *)
Definition ascii_str (s : bytes) : option bytes :=
  if forallb (fun b => b <? 128) s then Some s else None.

(** [sequences] (unix/terminal.rs:1074-1116): [caps] are the values of the key
    capabilities the database has, with their keys, in the order of the [add!] calls.
    [None]: an index panic in [SequenceMap]. *)
Fixpoint add_keys (caps : list (option bytes * key)) (m : seq_map) : option seq_map :=
  match caps with
  | [] => Some m
  | (None, _) :: caps => add_keys caps m
  | (Some s, k) :: caps =>
      match ascii_str s with
      | None => add_keys caps m
      | Some s => match sm_insert key_ref m s (SKey k) with
                  | Some (m, _) => add_keys caps m
                  | None => None
                  end
      end
  end.
Definition sequences (caps : list (option bytes * key)) (name : bytes) : option seq_map :=
  match add_keys caps sm_new with
  | None => None
  | Some m =>
      if is_xterm name then
        match sm_insert key_ref m XTERM_MOUSE_INTRO XTermMouse with
        | Some (m, _) => Some m
        | None => None
        end
      else Some m
  end.

(** [parse_integer] (unix/terminal.rs:1312-1330): the number, the byte after it and the
    rest. *)
Fixpoint parse_integer_from (n : N) (buf : bytes) : option (N * N * bytes) :=
  match buf with
  | [] => None
  | b :: rest =>
      if (48 <=? b) && (b <=? 57) then
        let m := n * 10 in
        if m <=? U32_MAX then
          let m := m + (b - 48) in
          if m <=? U32_MAX then parse_integer_from m rest else None
        else None
      else Some (n, b, rest)
  end.
Definition parse_integer (buf : bytes) : option (N * N * bytes) := parse_integer_from 0 buf.

(** [mouse_button_event] (unix/terminal.rs:1332-1345). *)
Definition mouse_button_event (input : N) (is_pressed : bool) : mouse_input :=
  let b := match input with 0 => MLeft | 1 => MMiddle | 2 => MRight | _ => MOther input end in
  if is_pressed then MPressed b else MReleased b.

(** [parse_mouse_data] (unix/terminal.rs:1255-1310): the event and the number of bytes
    used.  [Boom]: [line - 1] or [column - 1] overflows (debug semantics; in release
    builds the value wraps to [u32::MAX]). *)
Definition parse_mouse_data (buf : bytes) : pan (option (mouse_event * nat)) :=
  match parse_integer buf with
  | None => Val None
  | Some (input, e, buf1) =>
      if negb (e =? 59) then Val None else
      match parse_integer buf1 with
      | None => Val None
      | Some (column, e, buf2) =>
          if negb (e =? 59) then Val None else
          match parse_integer buf2 with
          | None => Val None
          | Some (line, e, buf3) =>
              match (if e =? 77 then Some true else if e =? 109 then Some false else None) with
              | None => Val None
              | Some is_pressed =>
                  let mods := 0 in
                  let mods := if negb (N.land input XTERM_SHIFT_MASK =? 0) then N.lor mods SHIFT else mods in
                  let mods := if negb (N.land input XTERM_META_MASK =? 0) then N.lor mods ALT else mods in
                  let mods := if negb (N.land input XTERM_CTRL_MASK =? 0) then N.lor mods CTRL else mods in
                  let input := N.land input (u32_not XTERM_MODIFIER_MASK) in
                  let minput :=
                    if input <=? 3 then mouse_button_event input is_pressed
                    else if input =? 64 then MWheelUp
                    else if input =? 65 then MWheelDown
                    else MMotion in
                  if (line =? 0) || (column =? 0) then Boom
                  else Val (Some (MouseEvent (Cursor (N.to_nat (line - 1)) (N.to_nat (column - 1))) minput mods,
                                  (length buf - length buf3)%nat))
              end
          end
      end
  end.

(** [utf8_prefix] (unix/terminal.rs:1347-1362): [None] is the error "read invalid utf-8
    data from terminal". *)
Definition utf8_prefix (buf : bytes) : option bytes :=
  match from_utf8 buf with
  | UOk => Some buf
  | UErr n e =>
      if negb (n =? 0)%nat then Some (firstn n buf)
      else match e with Some _ => None | None => Some [] end
  end.

(** The loop over prefixes in [peek_event] (unix/terminal.rs:1216-1228). *)
Fixpoint scan (m : seq_map) (l : list (option bytes)) (last : option (bytes * seq_data))
  : pan (option (bytes * seq_data)) :=
  match l with
  | [] => Val last
  | None :: _ => Boom
  | Some pfx :: l =>
      match sm_find key_ref m pfx with
      | None => Boom
      | Some NotFound => Val last
      | Some (Found v) => Val (Some (pfx, v))
      | Some Incomplete => scan m l last
      | Some (Undecided v) => scan m l (Some (pfx, v))
      end
  end.

(** [peek_event] (unix/terminal.rs:1205-1253): error, no event, or an event and the
    bytes it takes. *)
Inductive peeked : Type := PErr | PNone | PEvent (e : event) (n : nat).

Definition peek_event (buf : bytes) (m : seq_map) : pan peeked :=
  match utf8_prefix buf with
  | None => Val PErr
  | Some [] => Val PNone
  | Some s =>
      match scan m (prefixes s) None with
      | Boom => Boom
      | Val last_match =>
          let res :=
            match last_match with
            | None => Val None
            | Some (sq, SKey k) => Val (Some (EKey k, length sq))
            | Some (sq, XTermMouse) =>
                match parse_mouse_data (skipn (length sq) buf) with
                | Boom => Boom
                | Val None => Val None
                | Val (Some (d, len)) => Val (Some (EMouse d, (length sq + len)%nat))
                end
            end in
          match res with
          | Boom => Boom
          | Val (Some (ev, n)) => Val (PEvent ev n)
          | Val None =>
              match next_char s with
              | None => Boom   (* [unwrap] *)
              | Some (ch, _) => Val (PEvent (EKey (key_from_char ch)) (len_utf8 ch))
              end
          end
      end
  end.
