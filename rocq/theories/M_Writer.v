(** Model of the output half of a Unix terminal: [TerminalWriteGuard] and
    [Writer] (/repo/src/unix/terminal.rs:631-1067), at the level of bytes. *)
From Verif Require Import Base M_Utf8 M_Attr M_Geom.

(** The terminfo capabilities the writer asks for. *)
Inductive cap : Type :=
| EnterCaMode | ExitCaMode | ChangeScrollRegion
| CursorHome | CursorAddress
| ClearScreen | ClrEol | ClrEos
| CursorUp | ParmUpCursor | ParmDownCursor
| CursorLeft | ParmLeftCursor | CursorRight | ParmRightCursor
| CursorNormal | CursorInvisible
| ExitAttributeMode | SetAForeground | SetABackground
| EnterBoldMode | EnterItalicsMode | EnterReverseMode | EnterUnderlineMode
| ExitItalicsMode | ExitUnderlineMode
| KeypadLocal | KeypadXmit.

(** Expansion of a capability string by the terminfo crate ([Expansion::to]): from
    the expansion context (static and dynamic variables, an opaque value here) and
    the parameters to the bytes appended to the output, the new context and whether
    the expansion succeeded.  A failing expansion may have appended bytes. *)
Definition expansion : Type := N -> list N -> bytes * N * bool.

(** What the writer gets from its surroundings: [info] is [Database::get] (None: the
    capability is absent), [grow cap need] the capacity of a [Vec] of capacity [cap]
    after it had to grow to hold [need] bytes (std's growth policy), [xterm] is
    [Terminal::is_xterm] (unix/terminal.rs:145-147, 1069-1072). *)
Record tcfg : Type := TCfg {
  info : cap -> option expansion;
  grow : nat -> nat -> nat;
  xterm : bool
}.

(** [io::Error]s the writer can return. *)
Inductive werr : Type :=
| EOs (errno : N)          (* nix_to_io / last_os_error *)
| EWriteZero               (* ErrorKind::WriteZero *)
| EExpand                  (* ti_to_io *)
| ENotSupported (c : cap). (* not_supported(...) *)

(** One response of the OS to [write(fd, buf)]: accepted all of [buf], accepted (at
    most) [n] bytes, interrupted, or failed. *)
Inductive wresp : Type := WAll | WOk (n : nat) | WIntr | WErr (errno : N).

(** [Writer] (unix/terminal.rs:93-99: [out_buffer] and its capacity, [fg]/[bg]/
    [cur_style], [context]) together with the device: [dev] is everything the OS has
    accepted so far, [script] the responses it will give. *)
Record wst : Type := W {
  obuf : bytes;
  ocap : nat;
  wat : attrs;
  wctx : N;
  dev : bytes;
  script : list wresp
}.

Definition with_obuf (x : bytes) (w : wst) : wst := W x (ocap w) (wat w) (wctx w) (dev w) (script w).
Definition with_wat (a : attrs) (w : wst) : wst := W (obuf w) (ocap w) a (wctx w) (dev w) (script w).
Definition with_wctx (k : N) (w : wst) : wst := W (obuf w) (ocap w) (wat w) k (dev w) (script w).
Definition with_io (d : bytes) (sc : list wresp) (w : wst) : wst :=
  W (obuf w) (ocap w) (wat w) (wctx w) d sc.

(** [Writer::new] (unix/terminal.rs:1058-1067).  [Vec::with_capacity(n)] allocates at
    least [n]; the capacity is a parameter. *)
Definition writer_new (capacity : nat) (sc : list wresp) : wst := W [] capacity no_attrs 0 [] sc.

Definition wres : Type := out wst werr unit.

Section Writer.
  Variable C : tcfg.

  (** [Vec::extend]: append, growing the allocation if needed. *)
  Definition push (bs : bytes) (w : wst) : wst :=
    let len := length (obuf w) + length bs in
    W (obuf w ++ bs) (if len <=? ocap w then ocap w else grow C (ocap w) len)
      (wat w) (wctx w) (dev w) (script w).

  (** [expand] (unix/terminal.rs:1040-1047). *)
  Definition expand (e : expansion) (ps : list N) (w : wst) : wres :=
    let '(bs, k, ok) := e (wctx w) ps in
    let w' := with_wctx k (push bs w) in
    if ok : bool then Ret w' tt else Fail w' EExpand.

  (** [expand_opt!] (unix/terminal.rs:631-647) and [expand_req!] (649-663). *)
  Definition expand_opt (c : cap) (ps : list N) (w : wst) : wres :=
    match info C c with
    | Some e => expand e ps w
    | None => Ret w tt
    end.

  Definition expand_req (c : cap) (ps : list N) (w : wst) : wres :=
    match info C c with
    | Some e => expand e ps w
    | None => Fail w (ENotSupported c)
    end.

  (** [write_data] (unix/terminal.rs:1021-1038).  Every iteration passes the whole of
      [buf] to [write], as the code does.  Result: final offset, error if any, and the
      device; [None]: still looping when the responses ran out. *)
  Fixpoint write_data (buf : bytes) (offset : nat) (d : bytes) (sc : list wresp)
      : option (nat * option werr * bytes * list wresp) :=
    if offset =? length buf then Some (offset, None, d, sc) else
    match sc with
    | [] => None
    | WAll :: sc' => write_data buf (offset + length buf) (d ++ buf) sc'
    | WOk n :: sc' =>
        match Nat.min n (length buf) with
        | O => Some (offset, Some EWriteZero, d, sc')
        | S _ => write_data buf (offset + Nat.min n (length buf))
                   (d ++ firstn (Nat.min n (length buf)) buf) sc'
        end
    | WIntr :: sc' => write_data buf offset d sc'
    | WErr e :: sc' => Some (offset, Some (EOs e), d, sc')
    end.

  (** [flush] (unix/terminal.rs:1015-1019); [drain(..n)] panics if [n > len]. *)
  Definition flush (w : wst) : wres :=
    match write_data (obuf w) 0 (dev w) (script w) with
    | None => Blocked
    | Some (n, r, d, sc) =>
        if n <=? length (obuf w) then
          let w' := with_io d sc (with_obuf (skipn n (obuf w)) w) in
          match r with None => Ret w' tt | Some e => Fail w' e end
        else Panic
    end.

  (** [write_bytes] (unix/terminal.rs:1002-1013). *)
  Definition write_bytes (buf : bytes) (w : wst) : wres :=
    let! (w, _u) := if ocap w <? length buf + length (obuf w) then flush w else Ret w tt in
    if ocap w <? length buf then
      match write_data buf 0 (dev w) (script w) with
      | None => Blocked
      | Some (_, r, d, sc) =>
          match r with None => Ret (with_io d sc w) tt | Some e => Fail (with_io d sc w) e end
      end
    else Ret (push buf w) tt.

  (** [clear_attributes] (unix/terminal.rs:741-751). *)
  Definition clear_attributes (w : wst) : wres :=
    if attrs_eqb (wat w) no_attrs then Ret w tt
    else expand_opt ExitAttributeMode [] (with_wat no_attrs w).

  (** [color_code] (unix/terminal.rs:1399-1410). *)
  Definition color_code (c : color) : N :=
    match c with
    | Black => 0 | Red => 1 | Green => 2 | Yellow => 3
    | Blue => 4 | Magenta => 5 | Cyan => 6 | White => 7
    end%N.

  (** [set_fg_color], [set_bg_color] (unix/terminal.rs:887-895). *)
  Definition set_fg_color (c : color) : wst -> wres := expand_opt SetAForeground [color_code c].
  Definition set_bg_color (c : color) : wst -> wres := expand_opt SetABackground [color_code c].

  Definition set_tracked_fg (c : option color) (w : wst) : wst :=
    with_wat (Attrs c (bg (wat w)) (sty (wat w))) w.
  Definition set_tracked_bg (c : option color) (w : wst) : wst :=
    with_wat (Attrs (fg (wat w)) c (sty (wat w))) w.
  Definition set_tracked_style (s : style) (w : wst) : wst :=
    with_wat (Attrs (fg (wat w)) (bg (wat w)) s) w.

  Definition when (b : bool) (f : wst -> wres) (w : wst) : wres := if b then f w else Ret w tt.

  (** [bitflags]' [intersects]. *)
  Definition style_intersects (a b : style) : bool := negb (style_is_empty (style_inter a b)).

  (** [add_style] (unix/terminal.rs:783-802). *)
  Definition add_style (s : style) (w : wst) : wres :=
    let add := style_minus s (sty (wat w)) in
    let! (w, _u) := when (style_contains add BOLD) (expand_opt EnterBoldMode []) w in
    let! (w, _u) := when (style_contains add ITALIC) (expand_opt EnterItalicsMode []) w in
    let! (w, _u) := when (style_contains add REVERSE) (expand_opt EnterReverseMode []) w in
    let! (w, _u) := when (style_contains add UNDERLINE) (expand_opt EnterUnderlineMode []) w in
    Ret (set_tracked_style (style_union (sty (wat w)) add) w) tt.

  (** [set_fg] (753-766), [set_bg] (768-781), [remove_style] (804-829), [set_style]
      (831-850), [clear_fg] (869-876), [clear_bg] (878-885): mutually recursive in the
      code.  [fuel] bounds the depth of the recursion; running out is a stack
      overflow, i.e. [Panic]. *)
  Fixpoint set_fg (fuel : nat) (c : option color) (w : wst) {struct fuel} : wres :=
    match fuel with
    | O => Panic
    | S fuel =>
        if ocolor_eqb (fg (wat w)) c then Ret w tt else
        let! (w, _u) := match c with
                        | Some k => set_fg_color k w
                        | None => clear_fg fuel w
                        end in
        Ret (set_tracked_fg c w) tt
    end
  with set_bg (fuel : nat) (c : option color) (w : wst) {struct fuel} : wres :=
    match fuel with
    | O => Panic
    | S fuel =>
        if ocolor_eqb (bg (wat w)) c then Ret w tt else
        let! (w, _u) := match c with
                        | Some k => set_bg_color k w
                        | None => clear_bg fuel w
                        end in
        Ret (set_tracked_bg c w) tt
    end
  with remove_style (fuel : nat) (s : style) (w : wst) {struct fuel} : wres :=
    match fuel with
    | O => Panic
    | S fuel =>
        let remove := style_inter s (sty (wat w)) in
        if style_intersects remove (style_union BOLD REVERSE) then
          let new_style := style_minus (sty (wat w)) remove in
          let f := fg (wat w) in
          let b := bg (wat w) in
          let! (w, _u) := clear_attributes w in
          let! (w, _u) := add_style new_style w in
          let! (w, _u) := set_fg fuel f w in
          set_bg fuel b w
        else
          let! (w, _u) := when (style_contains remove ITALIC) (expand_opt ExitItalicsMode []) w in
          let! (w, _u) := when (style_contains remove UNDERLINE) (expand_opt ExitUnderlineMode []) w in
          Ret (set_tracked_style (style_minus (sty (wat w)) remove) w) tt
    end
  with set_style (fuel : nat) (s : style) (w : wst) {struct fuel} : wres :=
    match fuel with
    | O => Panic
    | S fuel =>
        let add := style_minus s (sty (wat w)) in
        let remove := style_minus (sty (wat w)) s in
        if style_intersects remove (style_union BOLD REVERSE) then
          let f := fg (wat w) in
          let b := bg (wat w) in
          let! (w, _u) := clear_attributes w in
          let! (w, _u) := set_fg fuel f w in
          let! (w, _u) := set_bg fuel b w in
          add_style s w
        else
          let! (w, _u) := add_style add w in
          remove_style fuel remove w
    end
  with clear_fg (fuel : nat) (w : wst) {struct fuel} : wres :=
    match fuel with
    | O => Panic
    | S fuel =>
        let b := bg (wat w) in
        let s := sty (wat w) in
        let! (w, _u) := clear_attributes w in
        let! (w, _u) := set_bg fuel b w in
        set_style fuel s w
    end
  with clear_bg (fuel : nat) (w : wst) {struct fuel} : wres :=
    match fuel with
    | O => Panic
    | S fuel =>
        let f := fg (wat w) in
        let s := sty (wat w) in
        let! (w, _u) := clear_attributes w in
        let! (w, _u) := set_fg fuel f w in
        set_style fuel s w
    end.

  (** Recursion depth used below (proved never to be exhausted). *)
  Definition depth : nat := 6.

  (** [set_attrs] (unix/terminal.rs:856-867) and [set_theme] (852-854). *)
  Definition set_attrs (a : attrs) (w : wst) : wres :=
    let lost o n := match o, n with Some _, None => true | _, _ => false end in
    let! (w, _u) := when (lost (fg (wat w)) (fg a) || lost (bg (wat w)) (bg a)) clear_attributes w in
    let! (w, _u) := set_style depth (sty a) w in
    let! (w, _u) := set_fg depth (fg a) w in
    set_bg depth (bg a) w.

  (** [clear_screen], [clear_to_line_end], [clear_to_screen_end] (897-907). *)
  Definition clear_screen : wst -> wres := expand_req ClearScreen [].
  Definition clear_to_line_end : wst -> wres := expand_req ClrEol [].
  Definition clear_to_screen_end : wst -> wres := expand_req ClrEos [].

  (** [to_u32] (unix/terminal.rs:1418-1430): the saturating 64-bit version; on 16- and
      32-bit targets [u as u32] agrees with it. *)
  Definition to_u32 (n : nat) : N := N.min (N.of_nat n) 4294967295.

  (** [move_up] (909-917), [move_down] (919-927), [move_left] (929-937),
      [move_right] (939-947). *)
  Definition move_up (n : nat) (w : wst) : wres :=
    match n with
    | O => Ret w tt
    | 1 => expand_req CursorUp [] w
    | _ => expand_req ParmUpCursor [to_u32 n] w
    end.
  Definition move_down (n : nat) (w : wst) : wres :=
    match n with
    | O => Ret w tt
    | _ => expand_req ParmDownCursor [to_u32 n] w
    end.
  Definition move_left (n : nat) (w : wst) : wres :=
    match n with
    | O => Ret w tt
    | 1 => expand_req CursorLeft [] w
    | _ => expand_req ParmLeftCursor [to_u32 n] w
    end.
  Definition move_right (n : nat) (w : wst) : wres :=
    match n with
    | O => Ret w tt
    | 1 => expand_req CursorRight [] w
    | _ => expand_req ParmRightCursor [to_u32 n] w
    end.

  (** [move_to_first_column] (949-951). *)
  Definition move_to_first_column : wst -> wres := write_bytes [13%N].

  (** [move_cursor] (953-967). *)
  Definition move_cursor (pos : cursor) (w : wst) : wres :=
    match info C CursorAddress, info C CursorHome with
    | addr, Some home =>
        if cursor_eqb pos (Cursor 0 0) then expand home [] w
        else match addr with
             | Some a => expand a [to_u32 (line pos); to_u32 (column pos)] w
             | None => Fail w (ENotSupported CursorAddress)
             end
    | Some a, None => expand a [to_u32 (line pos); to_u32 (column pos)] w
    | None, None => Fail w (ENotSupported CursorAddress)
    end.

  (** [set_cursor_mode] (969-983); [CursorMode] is terminal.rs:110-119. *)
  Inductive cursor_mode : Type := CNormal | CInvisible | COverwrite.
  Definition set_cursor_mode (m : cursor_mode) : wst -> wres :=
    match m with
    | CNormal | COverwrite => expand_opt CursorNormal []
    | CInvisible => expand_opt CursorInvisible []
    end.

  (** [write_char] (985-987), [write_str] (989-991); a [&str] is given as its
      characters. *)
  Definition write_str (s : list N) : wst -> wres := write_bytes (utf8s s).
  Definition write_char (c : N) : wst -> wres := write_bytes (utf8 c).

  (** [write_styled] (993-1000). *)
  Definition write_styled (a : attrs) (s : list N) (w : wst) : wres :=
    let! (w, _u) := set_attrs a w in
    let! (w, _u) := write_str s w in
    clear_attributes w.

  (** [enable_keypad]/[disable_keypad] (674-688): whether the capability exists. *)
  Definition disable_keypad : wst -> wres := expand_opt KeypadLocal [].
  Definition enable_keypad (w : wst) : out wst werr bool :=
    match info C KeypadXmit with
    | Some e => let! (w, _u) := expand e [] w in Ret w true
    | None => Ret w false
    end.

  (** The xterm mouse control strings (unix/terminal.rs:48-51): [ESC[?1006h ESC[?1002h]
      and so on. *)
  Definition XTERM_ENABLE_MOUSE : bytes := [27;91;63;49;48;48;54;104; 27;91;63;49;48;48;50;104]%N.
  Definition XTERM_ENABLE_MOUSE_MOTION : bytes := [27;91;63;49;48;48;51;104]%N.
  Definition XTERM_DISABLE_MOUSE : bytes := [27;91;63;49;48;48;54;108; 27;91;63;49;48;48;50;108]%N.
  Definition XTERM_DISABLE_MOUSE_MOTION : bytes := [27;91;63;49;48;48;51;108]%N.

  (** [disable_mouse] (690-693), [enable_mouse] (695-705). *)
  Definition disable_mouse (w : wst) : wres :=
    let! (w, _u) := write_bytes XTERM_DISABLE_MOUSE w in
    write_bytes XTERM_DISABLE_MOUSE_MOTION w.
  Definition enable_mouse (track_motion : bool) (w : wst) : out wst werr bool :=
    if xterm C then
      let! (w, _u) := write_bytes XTERM_ENABLE_MOUSE w in
      let! (w, _u) := when track_motion (write_bytes XTERM_ENABLE_MOUSE_MOTION) w in
      Ret w true
    else Ret w false.

  (** [enter_screen] (707-730).  [sz] is the answer of [get_winsize] (1157-1174);
      [size.lines - 1] underflows (panics) on a terminal reporting 0 lines. *)
  Definition enter_screen (sz : N + size) (w : wst) : wres :=
    match info C ChangeScrollRegion, info C CursorHome with
    | Some scroll, Some home =>
        match sz with
        | inl e => Fail w (EOs e)
        | inr sz =>
            let! (w, _u) := expand_opt EnterCaMode [] w in
            match lines sz with
            | O => Panic
            | S l =>
                let! (w, _u) := expand scroll [0%N; to_u32 l] w in
                let! (w, _u) := expand home [] w in
                let! (w, _u) := clear_attributes w in
                clear_screen w
            end
        end
    | None, _ => Fail w (ENotSupported ChangeScrollRegion)
    | _, None => Fail w (ENotSupported CursorHome)
    end.

  (** [exit_screen] (732-739). *)
  Definition exit_screen (w : wst) : wres :=
    match info C ExitCaMode with
    | Some e => let! (w, _u) := expand e [] w in flush w
    | None => Ret w tt
    end.

  (** Dropping a [TerminalWriteGuard] (1049-1055): flush, the error is only printed. *)
  Definition guard_drop (w : wst) : wres :=
    match flush w with
    | Fail w _ => Ret w tt
    | r => r
    end.

  (** The public methods of [TerminalWriteGuard] (src/terminal.rs:590-830 forward to
      the ones above). *)
  Inductive wop : Type :=
  | OSetFg (c : option color) | OSetBg (c : option color)
  | OAddStyle (s : style) | ORemoveStyle (s : style) | OSetStyle (s : style)
  | OSetAttrs (a : attrs) | OClearAttributes
  | OClearScreen | OClearToLineEnd | OClearToScreenEnd
  | OMoveUp (n : nat) | OMoveDown (n : nat) | OMoveLeft (n : nat) | OMoveRight (n : nat)
  | OMoveToFirstColumn | OMoveCursor (pos : cursor)
  | OSetCursorMode (m : cursor_mode)
  | OWriteChar (c : N) | OWriteStr (s : list N) | OWriteStyled (a : attrs) (s : list N)
  | OFlush.

  Definition run_wop (o : wop) : wst -> wres :=
    match o with
    | OSetFg c => set_fg depth c
    | OSetBg c => set_bg depth c
    | OAddStyle s => add_style s
    | ORemoveStyle s => remove_style depth s
    | OSetStyle s => set_style depth s
    | OSetAttrs a => set_attrs a
    | OClearAttributes => clear_attributes
    | OClearScreen => clear_screen
    | OClearToLineEnd => clear_to_line_end
    | OClearToScreenEnd => clear_to_screen_end
    | OMoveUp n => move_up n
    | OMoveDown n => move_down n
    | OMoveLeft n => move_left n
    | OMoveRight n => move_right n
    | OMoveToFirstColumn => move_to_first_column
    | OMoveCursor p => move_cursor p
    | OSetCursorMode m => set_cursor_mode m
    | OWriteChar c => write_char c
    | OWriteStr s => write_str s
    | OWriteStyled a s => write_styled a s
    | OFlush => flush
    end.

  (** A convenience method of [Terminal] (unix/terminal.rs:181-269): lock, one guard
      method, drop the guard.  The [move_*] methods skip all of it for [n = 0]. *)
  Definition run_terminal_op (o : wop) (w : wst) : wres :=
    match o with
    | OMoveUp 0 | OMoveDown 0 | OMoveLeft 0 | OMoveRight 0 => Ret w tt
    | _ =>
        match run_wop o w with
        | Ret w' _ => guard_drop w'
        | Fail w' e => match guard_drop w' with
                       | Ret w'' _ => Fail w'' e
                       | r => r
                       end
        | r => r
        end
    end.
End Writer.
