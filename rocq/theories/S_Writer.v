(** Specifications for the output path, independent of the writer's code. *)
From Verif Require Import Base M_Utf8 M_Geom M_Attr M_Buf M_Writer S_Tty.

(** Everything handed to the terminal so far: what the OS accepted, then what is
    still waiting in the buffer. *)
Definition stream (w : wst) : bytes := dev w ++ obuf w.

(** The OS accepts whole buffers or reports an interrupt, zero bytes, or an error. *)
Definition whole (r : wresp) : Prop :=
  match r with WAll | WIntr | WErr _ | WOk 0 => True | WOk (S _) => False end.
Definition whole_writes (sc : list wresp) : Prop := Forall whole sc.

(** The OS never fails: whole buffers are accepted, possibly after interrupts. *)
Definition perfect (sc : list wresp) : Prop := Forall (fun r => r = WAll \/ r = WIntr) sc.

(** The attributes a program has asked for after an operation. *)
Definition request (a : attrs) (o : wop) : attrs :=
  match o with
  | OSetFg c => Attrs c (bg a) (sty a)
  | OSetBg c => Attrs (fg a) c (sty a)
  | OAddStyle s => Attrs (fg a) (bg a) (N.lor (sty a) s)
  | ORemoveStyle s => Attrs (fg a) (bg a) (N.ldiff (sty a) s)
  | OSetStyle s => Attrs (fg a) (bg a) s
  | OSetAttrs b => b
  | OClearAttributes => no_attrs
  | OWriteStyled _ _ => no_attrs
  | _ => a
  end.

(** The operations of C28. *)
Definition attr_op (o : wop) : Prop :=
  match o with
  | OSetFg _ | OSetBg _ | OAddStyle _ | ORemoveStyle _ | OSetStyle _ | OSetAttrs _
  | OClearAttributes => True
  | _ => False
  end.

(** Capability present in the database. *)
Definition has (C : tcfg) (c : cap) : bool := match info C c with Some _ => true | None => false end.

(** The database has every attribute capability. *)
Definition all_attr_caps (C : tcfg) : Prop :=
  forall c, In c [ExitAttributeMode; SetAForeground; SetABackground; EnterBoldMode;
                  EnterItalicsMode; EnterReverseMode; EnterUnderlineMode;
                  ExitItalicsMode; ExitUnderlineMode] -> has C c = true.

(** The part of the attributes the terminal is able to show. *)
Definition style_mask (C : tcfg) : style :=
  N.lor (if has C EnterBoldMode then BOLD else 0%N)
  (N.lor (if has C EnterItalicsMode then ITALIC else 0%N)
  (N.lor (if has C EnterReverseMode then REVERSE else 0%N)
         (if has C EnterUnderlineMode then UNDERLINE else 0%N))).
Definition shown_attrs (C : tcfg) (a : attrs) : attrs :=
  Attrs (if has C SetAForeground then fg a else None)
        (if has C SetABackground then bg a else None)
        (N.land (sty a) (style_mask C)).

(** What can be switched on can be switched off. *)
Definition caps_coherent (C : tcfg) : Prop :=
  (has C ExitAttributeMode = true \/
   (has C SetAForeground = false /\ has C SetABackground = false /\
    has C EnterBoldMode = false /\ has C EnterItalicsMode = false /\
    has C EnterReverseMode = false /\ has C EnterUnderlineMode = false)) /\
  (has C EnterItalicsMode = true -> has C ExitItalicsMode = true) /\
  (has C EnterUnderlineMode = true -> has C ExitUnderlineMode = true).

(** [Style] values: the four flags. *)
Definition style_ok (s : style) : Prop := (s < 16)%N.
Definition op_style_ok (o : wop) : Prop :=
  match o with
  | OAddStyle s | ORemoveStyle s | OSetStyle s => style_ok s
  | OSetAttrs a | OWriteStyled a _ => style_ok (sty a)
  | _ => True
  end.

(** Running a list of operations, each of which must succeed. *)
Fixpoint run_ok (C : tcfg) (ops : list wop) (w : wst) : option wst :=
  match ops with
  | [] => Some w
  | o :: ops => match run_wop C o w with
                | Ret w' _ => run_ok C ops w'
                | _ => None
                end
  end.

(** Running a list of operations whatever they return: the results and the final
    state; [None] if one panicked or did not return. *)
Fixpoint run_any (C : tcfg) (ops : list wop) (w : wst) : option (list (option werr) * wst) :=
  match ops with
  | [] => Some ([], w)
  | o :: ops =>
      match run_wop C o w with
      | Ret w' _ => option_map (fun p => (None :: fst p, snd p)) (run_any C ops w')
      | Fail w' e => option_map (fun p => (Some e :: fst p, snd p)) (run_any C ops w')
      | _ => None
      end
  end.

(** What an operation with result [r] may have added to the stream. *)
Definition contributes (o : wop) (r : option werr) (x : bytes) : Prop :=
  match o, r with
  | OWriteStr s, None => x = utf8s s
  | OWriteChar c, None => x = utf8 c
  | OMoveToFirstColumn, None => x = [13%N]
  | OWriteStr _, Some _ | OWriteChar _, Some _ | OMoveToFirstColumn, Some _ => x = []
  | OFlush, _ => x = []
  | OWriteStyled a s, None => exists pre post, x = pre ++ utf8s s ++ post
  | OClearScreen, Some (ENotSupported _) | OClearToLineEnd, Some (ENotSupported _)
  | OClearToScreenEnd, Some (ENotSupported _) | OMoveCursor _, Some (ENotSupported _)
  | OMoveUp _, Some (ENotSupported _) | OMoveDown _, Some (ENotSupported _)
  | OMoveLeft _, Some (ENotSupported _) | OMoveRight _, Some (ENotSupported _) => x = []
  | _, _ => True
  end.

(** Operations of a [Terminal] or its write guard, with text that is text. *)
Definition plain_op (E : env) (o : wop) : Prop :=
  match o with
  | OWriteChar c => texty E c
  | OWriteStr s => Forall (texty E) s
  | OWriteStyled a s => Forall (texty E) s
  | OMoveCursor _ => False
  | _ => True
  end.

(** Directions. *)
Inductive dir : Type := Up | Down | Left | Right.
Definition move_op (d : dir) (n : nat) : wop :=
  match d with Up => OMoveUp n | Down => OMoveDown n | Left => OMoveLeft n | Right => OMoveRight n end.
(** [n] cells in a direction, stopping at the edge of the screen. *)
Definition shift (d : dir) (n : nat) (sz : size) (c : cursor) : cursor :=
  match d with
  | Up => Cursor (line c - n) (column c)
  | Down => Cursor (Nat.min (line c + n) (lines sz - 1)) (column c)
  | Left => Cursor (line c) (column c - n)
  | Right => Cursor (line c) (Nat.min (column c + n) (columns sz - 1))
  end.
(** [u32::MAX] *)
Definition u32_max : N := 4294967295.

(** Number of the responses that are not interrupts. *)
Fixpoint responses (sc : list wresp) : nat :=
  match sc with
  | [] => 0
  | WIntr :: sc => responses sc
  | _ :: sc => S (responses sc)
  end.

(** The capability that a movement needs. *)
Definition move_cap (d : dir) (n : nat) : cap :=
  match d, n with
  | Up, 1 => CursorUp | Up, _ => ParmUpCursor
  | Down, _ => ParmDownCursor
  | Left, 1 => CursorLeft | Left, _ => ParmLeftCursor
  | Right, 1 => CursorRight | Right, _ => ParmRightCursor
  end.
