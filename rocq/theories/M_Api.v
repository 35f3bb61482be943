(** Model of the public output methods of [Terminal] and [TerminalWriteGuard]
    (/repo/src/terminal.rs:666-846 and 928-1104), which convert their arguments and
    forward to the ones of src/unix/terminal.rs modelled in M_Writer.v. *)
From Verif Require Import Base M_Utf8 M_Geom M_Attr M_Buf M_Writer.

(** The methods with the arguments a caller gives.  [C: Into<Option<Color>>] is
    [option color] ([None], [Color::Red] and [Some(Color::Red)] all convert), and
    [S: Into<Option<Style>>] is [option style]. *)
Inductive tmethod : Type :=
| TFlush
| TClearScreen | TClearToLineEnd | TClearToScreenEnd
| TMoveUp (n : nat) | TMoveDown (n : nat) | TMoveLeft (n : nat) | TMoveRight (n : nat)
| TMoveToFirstColumn
| TSetCursorMode (m : cursor_mode)
| TAddStyle (s : style) | TRemoveStyle (s : style) | TSetStyle (s : option style)
| TSetTheme (fg bg : option color) (s : style)
| TSetFg (c : option color) | TSetBg (c : option color)
| TClearAttributes
| TBold | TItalic | TUnderline | TReverse
| TWriteStyled (fg bg : option color) (s : option style) (text : list N)
| TWriteChar (c : N)
| TWriteStr (text : list N)
| TWriteFmt (pieces : list (list N)).

(** [style.into().unwrap_or_default()] (740-743, 1009-1012). *)
Definition style_or_default (s : option style) : style :=
  match s with Some s => s | None => style_empty end.

(** [args.to_string()] (839, 1095): the text of the pieces the formatting traits
    produce, one after the other.  What [Display] makes of a value is the caller's. *)
Fixpoint to_string (pieces : list (list N)) : list N :=
  match pieces with [] => [] | p :: ps => p ++ to_string ps end.

(** [Terminal::add_style] (730-732) and [TerminalWriteGuard::add_style] (999-1001),
    which [bold], [italic], [underline] and [reverse] call (768-791, 1037-1060). *)
Definition api_add_style (s : style) : wop := OAddStyle s.

(** [Terminal::write_str] (813-815, 1082-1084), which [write_fmt] calls (838-841,
    1094-1097). *)
Definition api_write_str (text : list N) : wop := OWriteStr text.

(** The method of the platform's terminal each of them calls, with its arguments. *)
Definition forward (m : tmethod) : wop :=
  match m with
  | TFlush => OFlush                                         (* 932-934 *)
  | TClearScreen => OClearScreen                             (* 678-680, 947-949 *)
  | TClearToLineEnd => OClearToLineEnd                       (* 683-685, 952-954 *)
  | TClearToScreenEnd => OClearToScreenEnd                   (* 688-690, 957-959 *)
  | TMoveUp n => OMoveUp n                                   (* 693-695, 962-964 *)
  | TMoveDown n => OMoveDown n                               (* 698-700, 967-969 *)
  | TMoveLeft n => OMoveLeft n                               (* 703-705, 972-974 *)
  | TMoveRight n => OMoveRight n                             (* 708-710, 977-979 *)
  | TMoveToFirstColumn => OMoveToFirstColumn                 (* 713-715, 982-984 *)
  | TSetCursorMode m => OSetCursorMode m                     (* 725-727, 994-996 *)
  | TAddStyle s => api_add_style s                           (* 730-732, 999-1001 *)
  | TRemoveStyle s => ORemoveStyle s                         (* 735-737, 1004-1006 *)
  | TSetStyle s => OSetStyle (style_or_default s)            (* 740-743, 1009-1012 *)
  | TSetTheme f b s => OSetAttrs (Attrs f b s)               (* 746-748, 1015-1017;
                                                                unix/terminal.rs:852-854 *)
  | TSetFg c => OSetFg c                                     (* 751-753, 1020-1022 *)
  | TSetBg c => OSetBg c                                     (* 756-758, 1025-1027 *)
  | TClearAttributes => OClearAttributes                     (* 761-763, 1030-1032 *)
  | TBold => api_add_style BOLD                              (* 768-770, 1037-1039 *)
  | TItalic => api_add_style ITALIC                          (* 775-777, 1044-1046 *)
  | TUnderline => api_add_style UNDERLINE                    (* 782-784, 1051-1053 *)
  | TReverse => api_add_style REVERSE                        (* 789-791, 1058-1060 *)
  | TWriteStyled f b s text =>                               (* 796-803, 1065-1072 *)
      OWriteStyled (Attrs f b (style_or_default s)) text
  | TWriteChar c => OWriteChar c                             (* 807-809, 1076-1078 *)
  | TWriteStr text => api_write_str text                     (* 813-815, 1082-1084 *)
  | TWriteFmt pieces => api_write_str (to_string pieces)     (* 838-841, 1094-1097 *)
  end.

(** The method of [TerminalWriteGuard], with the write lock held. *)
Definition guard_method (C : tcfg) (m : tmethod) (w : wst) : wres := run_wop C (forward m) w.

(** The method of [Terminal], which takes the lock, does the same and drops the guard
    (unix/terminal.rs:181-269).  [Terminal] has no [flush]; [TFlush] stands for taking
    the write lock and dropping the guard. *)
Definition terminal_method (C : tcfg) (m : tmethod) (w : wst) : wres :=
  run_terminal_op C (forward m) w.

(** A program: methods of one guard, and of [Terminal]. *)
Inductive api_call : Type := OnGuard (m : tmethod) | OnTerminal (m : tmethod).

Definition api_run1 (C : tcfg) (c : api_call) (w : wst) : wres :=
  match c with OnGuard m => guard_method C m w | OnTerminal m => terminal_method C m w end.

(** Calls one after the other, stopping at the first that does not return [Ok]. *)
Fixpoint api_run (C : tcfg) (cs : list api_call) (w : wst) : option wst :=
  match cs with
  | [] => Some w
  | c :: cs => match api_run1 C c w with Ret w _ => api_run C cs w | _ => None end
  end.
