(** Specification vocabulary for the macros (C55): the table in the documentation
    (macros.rs:17-44) and the order of execution. *)
From Coq Require Import String.
From Verif Require Import Base M_Attr M_Buf M_Writer M_Screen M_Macros.
Local Open Scope string_scope.

Definition color_names : list (string * color) :=
  [("black", Black); ("blue", Blue); ("cyan", Cyan); ("green", Green);
   ("magenta", Magenta); ("red", Red); ("white", White); ("yellow", Yellow)].
Definition style_names : list (string * style) :=
  [("bold", BOLD); ("italic", ITALIC); ("reverse", REVERSE); ("underline", UNDERLINE)].

(** What an element asks for, and the methods doing it. *)
Inductive request : Type :=
| RFg (c : option color) | RBg (c : option color)
| RAddStyle (s : style) | RRemoveStyle (s : style) | RStyle (s : style)
| RClear | RTheme (a : attrs) | RText (s : list N).

Definition on_terminal (q : request) : wop :=
  match q with
  | RFg c => OSetFg c | RBg c => OSetBg c
  | RAddStyle s => OAddStyle s | RRemoveStyle s => ORemoveStyle s | RStyle s => OSetStyle s
  | RClear => OClearAttributes | RTheme a => OSetAttrs a | RText s => OWriteStr s
  end.
Definition on_screen (q : request) : buf_op :=
  match q with
  | RFg c => BSetFg c | RBg c => BSetBg c
  | RAddStyle s => BAddStyle s | RRemoveStyle s => BRemoveStyle s | RStyle s => BSetStyle s
  | RClear => BClearAttributes | RTheme a => BSetTheme a | RText s => BWriteStr s
  end.

Section Spec.
  Variable U : Type.

  (** Evaluating an element: the caller's state changes as its expression says; [None]
      when formatting fails. *)
  Definition asks : Type := U -> U * option request.
  Definition just (q : request) : asks := fun u => (u, Some q).
  Definition from {A} (e : ex U A) (k : A -> request) : asks := fun u => (fst (e u), Some (k (snd (e u)))).

  (** The documented elements. *)
  Inductive means : tree U -> asks -> Prop :=
  | m_color n c : In (n, c) color_names -> means (Brackets [Id n]) (just (RFg (Some c)))
  | m_bg_color n c : In (n, c) color_names -> means (Brackets [Hash; Id n]) (just (RBg (Some c)))
  | m_style n s : In (n, s) style_names -> means (Brackets [Id n]) (just (RAddStyle s))
  | m_no_style n s : In (n, s) style_names -> means (Brackets [Bang; Id n]) (just (RRemoveStyle s))
  | m_reset : means (Brackets [Id "reset"]) (just RClear)
  | m_no_fg : means (Brackets [Bang; Id "fg"]) (just (RFg None))
  | m_no_bg : means (Brackets [Bang; Id "bg"]) (just (RBg None))
  | m_no_styles : means (Brackets [Bang; Id "style"]) (just (RStyle style_empty))
  | m_fg e : means (Brackets [Id "fg"; Equals; Arg (XColor e)]) (from e RFg)
  | m_bg e : means (Brackets [Id "bg"; Equals; Arg (XColor e)]) (from e RBg)
  | m_set_style e : means (Brackets [Id "style"; Equals; Arg (XStyle e)]) (from e RStyle)
  | m_add_style e : means (Brackets [Id "style"; PlusEquals; Arg (XStyle e)]) (from e RAddStyle)
  | m_sub_style e : means (Brackets [Id "style"; MinusEquals; Arg (XStyle e)]) (from e RRemoveStyle)
  | m_theme e : means (Brackets [Id "theme"; Equals; Arg (XTheme e)]) (from e RTheme)
  | m_display e : means (Parens [Colon; Arg (XText e)]) (fun u => (fst (e u), option_map RText (snd (e u))))
  | m_debug e : means (Parens [Quest; Arg (XText e)]) (fun u => (fst (e u), option_map RText (snd (e u))))
  | m_format e : means (Parens [Arg (XText e)]) (fun u => (fst (e u), option_map RText (snd (e u))))
  | m_literal s : means (Literal s) (just (RText s)).

  Definition documented (l : list (tree U)) : Prop := Forall (fun t => exists f, means t f) l.

  (** Performing the elements in order on a terminal, up to the first error. *)
  Inductive terminal_run (C : tcfg) : list (tree U) -> U * wst -> out (U * wst) werr unit -> Prop :=
  | tr_end st : terminal_run C [] st (Ret st tt)
  | tr_next t l f u u' q w w' r :
      means t f -> f u = (u', Some q) -> run_wop C (on_terminal q) w = Ret w' tt ->
      terminal_run C l (u', w') r -> terminal_run C (t :: l) (u, w) r
  | tr_error t l f u u' q w w' e :
      means t f -> f u = (u', Some q) -> run_wop C (on_terminal q) w = Fail w' e ->
      terminal_run C (t :: l) (u, w) (Fail (u', w') e)
  | tr_panic t l f u u' q w :
      means t f -> f u = (u', Some q) -> run_wop C (on_terminal q) w = Panic ->
      terminal_run C (t :: l) (u, w) Panic
  | tr_waits t l f u u' q w :
      means t f -> f u = (u', Some q) -> run_wop C (on_terminal q) w = Blocked ->
      terminal_run C (t :: l) (u, w) Blocked
  | tr_format t l f u u' w :
      means t f -> f u = (u', None) -> terminal_run C (t :: l) (u, w) Panic.

  (** Performing all the elements in order on a screen. *)
  Inductive screen_run (E : env) : list (tree U) -> U * sbuf -> pan (U * sbuf) -> Prop :=
  | sr_end st : screen_run E [] st (Val st)
  | sr_next t l f u u' q b b' r :
      means t f -> f u = (u', Some q) -> run_buf_op E b (on_screen q) = Val b' ->
      screen_run E l (u', b') r -> screen_run E (t :: l) (u, b) r
  | sr_panic t l f u u' q b :
      means t f -> f u = (u', Some q) -> run_buf_op E b (on_screen q) = Boom ->
      screen_run E (t :: l) (u, b) Boom
  | sr_format t l f u u' b :
      means t f -> f u = (u', None) -> screen_run E (t :: l) (u, b) Boom.

  (** Giving up the lock: what is buffered is sent, an error of that is not reported. *)
  Definition after_flush (u : U) (w : wst) (k : U * wst -> out (U * wst) werr unit)
    : out (U * wst) werr unit :=
    match flush w with
    | Ret w' _ => k (u, w')
    | Fail w' _ => k (u, w')
    | Panic => Panic
    | Blocked => Blocked
    end.
  Definition unlocked (r : out (U * wst) werr unit) : out (U * wst) werr unit :=
    match r with
    | Ret (u, w) _ => after_flush u w (fun st => Ret st tt)
    | Fail (u, w) e => after_flush u w (fun st => Fail st e)
    | r => r
    end.
End Spec.
