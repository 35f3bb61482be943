(** Model of /repo/src/macros.rs: [term_write!] and [term_writeln!].

    The macros are modelled as what they are: a translation from token trees to an
    expression, which is then evaluated.  [U] is the rest of the caller's program
    state; expressions in the arguments may read and change it, so that it matters
    whether and when they are evaluated. *)
From Coq Require Import String.
From Verif Require Import Base M_Attr M_Geom M_Buf M_Writer M_Screen.
Local Open Scope string_scope.

Section Macros.
  Variables (U : Type).

  (** An argument expression [$e:expr] by its type; a formatted value ([write!]) gives
      its text, or [None] if a [Display] implementation fails. *)
  Definition ex (A : Type) : Type := U -> U * A.
  Inductive argument : Type :=
  | XColor (e : ex (option color))      (* Into<Option<Color>> *)
  | XStyle (e : ex style)               (* Into<Option<Style>>, [None] is the empty style *)
  | XTheme (e : ex attrs)
  | XText (e : ex (option (list N))).   (* anything [write!] can format *)

  (** Tokens inside an element.  Simplification: a multi-token expression is one
      token, and so is the argument list of a [("format", ...)] element. *)
  Inductive token : Type :=
  | Id (name : string)
  | Hash | Bang | Colon | Quest | Equals | PlusEquals | MinusEquals
  | Arg (a : argument).

  (** The token trees [$tt] of the main rules: [[...]], [(...)], or anything else,
      which must be a literal (macros.rs:93-115); a literal is given as its text. *)
  Inductive tree : Type :=
  | Brackets (l : list token)
  | Parens (l : list token)
  | Literal (s : list N).

  (** The method calls the rules expand to, with their unevaluated arguments. *)
  Inductive method : Type :=
  | MSetFg (e : ex (option color)) | MSetBg (e : ex (option color))
  | MAddStyle (e : ex style) | MRemoveStyle (e : ex style) | MSetStyle (e : ex style)
  | MClearAttributes | MSetTheme (e : ex attrs)
  | MWriteFmt (e : ex (option (list N))) | MWriteStr (s : list N).

  (** A constant argument. *)
  Definition const {A} (a : A) : ex A := fun u => (u, a).

  (** macros.rs:117-149 and 151-183: the color names. *)
  Definition color_rule (name : string) : option color :=
    if name =? "black" then Some Black
    else if name =? "blue" then Some Blue
    else if name =? "cyan" then Some Cyan
    else if name =? "green" then Some Green
    else if name =? "magenta" then Some Magenta
    else if name =? "red" then Some Red
    else if name =? "white" then Some White
    else if name =? "yellow" then Some Yellow
    else None.

  (** macros.rs:185-201 and 203-219: the style names. *)
  Definition style_rule (name : string) : option style :=
    if name =? "bold" then Some BOLD
    else if name =? "italic" then Some ITALIC
    else if name =? "reverse" then Some REVERSE
    else if name =? "underline" then Some UNDERLINE
    else None.

  (** The [style:] rules, macros.rs:117-263; [None]: no rule matches or the argument
      has the wrong type (a compile error). *)
  Definition style_rules (l : list token) : option method :=
    match l with
    | [Id n] =>
        match color_rule n with
        | Some c => Some (MSetFg (const (Some c)))
        | None => match style_rule n with
                  | Some s => Some (MAddStyle (const s))
                  | None => if n =? "reset" then Some MClearAttributes else None
                  end
        end
    | [Hash; Id n] => option_map (fun c => MSetBg (const (Some c))) (color_rule n)
    | [Bang; Id n] =>
        match style_rule n with
        | Some s => Some (MRemoveStyle (const s))
        | None => if n =? "fg" then Some (MSetFg (const None))
                  else if n =? "bg" then Some (MSetBg (const None))
                  else if n =? "style" then Some (MSetStyle (const style_empty))
                  else None
        end
    | [Id n; Equals; Arg a] =>
        if n =? "fg" then match a with XColor e => Some (MSetFg e) | _ => None end
        else if n =? "bg" then match a with XColor e => Some (MSetBg e) | _ => None end
        else if n =? "style" then match a with XStyle e => Some (MSetStyle e) | _ => None end
        else if n =? "theme" then match a with XTheme e => Some (MSetTheme e) | _ => None end
        else None
    | [Id n; PlusEquals; Arg (XStyle e)] => if n =? "style" then Some (MAddStyle e) else None
    | [Id n; MinusEquals; Arg (XStyle e)] => if n =? "style" then Some (MRemoveStyle e) else None
    | _ => None
    end.

  (** The [format:] rules, macros.rs:265-277. *)
  Definition format_rules (l : list token) : option method :=
    match l with
    | [Colon; Arg (XText e)] => Some (MWriteFmt e)
    | [Quest; Arg (XText e)] => Some (MWriteFmt e)
    | [Arg (XText e)] => Some (MWriteFmt e)
    | _ => None
    end.

  (** The expansion: [init], or [Chain::chain(result, || term.method(..))]. *)
  Inductive expr : Type :=
  | EInit
  | EChain (result : expr) (m : method).

  (** The [main:] rules, macros.rs:87-115: the first token tree is wrapped around the
      expression collected so far. *)
  Fixpoint main_rules (result : expr) (l : list tree) : option expr :=
    match l with
    | [] => Some result
    | t :: rest =>
        match (match t with
               | Brackets ts => style_rules ts
               | Parens ts => format_rules ts
               | Literal s => Some (MWriteStr s)
               end) with
        | Some m => main_rules (EChain result m) rest
        | None => None
        end
    end.

  (** The entry rule (macros.rs:77-85) needs at least one token tree. *)
  Definition expansion_of (l : list tree) : option expr :=
    match l with
    | [] => None
    | _ => main_rules EInit l
    end.

  (** [term_writeln!], macros.rs:294-301: the same token trees and ["\n"]. *)
  Definition writeln_trees (l : list tree) : list tree :=
    match l with
    | [] => [Literal [10%N]]
    | _ => (l ++ [Literal [10%N]])%list
    end.

  Section Terminal.
    Variables (E : env) (C : tcfg).

    (** The method on a [TerminalWriteGuard]: its argument is evaluated first;
        [write_fmt] formats into a [String], which panics if formatting fails
        (terminal.rs:1094-1097). *)
    Definition term_method (m : method) (st : U * wst) : out (U * wst) werr unit :=
      let '(u, w) := st in
      let run u o := match run_wop C o w with
                     | Ret w' _ => Ret (u, w') tt
                     | Fail w' e => Fail (u, w') e
                     | Panic => Panic
                     | Blocked => Blocked
                     end in
      match m with
      | MSetFg e => let '(u, c) := e u in run u (OSetFg c)
      | MSetBg e => let '(u, c) := e u in run u (OSetBg c)
      | MAddStyle e => let '(u, s) := e u in run u (OAddStyle s)
      | MRemoveStyle e => let '(u, s) := e u in run u (ORemoveStyle s)
      | MSetStyle e => let '(u, s) := e u in run u (OSetStyle s)
      | MClearAttributes => run u OClearAttributes
      | MSetTheme e => let '(u, t) := e u in run u (OSetAttrs t)
      | MWriteFmt e => let '(u, r) := e u in
                       match r with Some s => run u (OWriteStr s) | None => Panic end
      | MWriteStr s => run u (OWriteStr s)
      end.

    (** Evaluation with [Chain for io::Result<()>] (macros.rs:323-329):
        [self.and_then(|_| f())]. *)
    Fixpoint term_eval (e : expr) (st : U * wst) : out (U * wst) werr unit :=
      match e with
      | EInit => Ret st tt
      | EChain r m => let! (st, _u) := term_eval r st in term_method m st
      end.

    (** [term_write!(guard, ...)] with a [TerminalWriteGuard]: the guard is borrowed
        (terminal.rs:1100-1102). *)
    Definition term_write_guard (l : list tree) (st : U * wst) : option (out (U * wst) werr unit) :=
      option_map (fun e => term_eval e st) (expansion_of l).

    (** [term_write!(terminal, ...)]: a guard is locked (terminal.rs:844-846), used for
        all elements and dropped at the end of the [match]. *)
    Definition term_write_terminal (l : list tree) (st : U * wst)
      : option (out (U * wst) werr unit) :=
      let finish r :=
        match r with
        | Ret (u, w) _ => match guard_drop w with
                          | Ret w' _ => Ret (u, w') tt
                          | Fail w' e => Fail (u, w') e
                          | Panic => Panic
                          | Blocked => Blocked
                          end
        | Fail (u, w) e => match guard_drop w with
                           | Ret w' _ => Fail (u, w') e
                           | Fail w' e => Fail (u, w') e
                           | Panic => Panic
                           | Blocked => Blocked
                           end
        | r => r
        end in
      option_map (fun e => finish (term_eval e st)) (expansion_of l).

    (** The method on a [ScreenWriteGuard], which returns [()] (screen.rs:447-576,
        buffer.rs:380-466). *)
    Definition screen_method (m : method) (st : U * sbuf) : pan (U * sbuf) :=
      let '(u, b) := st in
      let run u o := match run_buf_op E b o with
                     | Val b' => Val (u, b')
                     | Boom => Boom
                     end in
      match m with
      | MSetFg e => let '(u, c) := e u in run u (BSetFg c)
      | MSetBg e => let '(u, c) := e u in run u (BSetBg c)
      | MAddStyle e => let '(u, s) := e u in run u (BAddStyle s)
      | MRemoveStyle e => let '(u, s) := e u in run u (BRemoveStyle s)
      | MSetStyle e => let '(u, s) := e u in run u (BSetStyle s)
      | MClearAttributes => run u BClearAttributes
      | MSetTheme e => let '(u, t) := e u in run u (BSetTheme t)
      | MWriteFmt e => let '(u, r) := e u in
                       match r with Some s => run u (BWriteStr s) | None => Boom end
      | MWriteStr s => run u (BWriteStr s)
      end.

    (** Evaluation with [Chain for ()] (macros.rs:315-321): [f()]. *)
    Fixpoint screen_eval (e : expr) (st : U * sbuf) : pan (U * sbuf) :=
      match e with
      | EInit => Val st
      | EChain r m => match screen_eval r st with
                      | Val st => screen_method m st
                      | Boom => Boom
                      end
      end.

    (** [term_write!(guard, ...)] with a [ScreenWriteGuard] (screen.rs:580-582). *)
    Definition screen_write_guard (l : list tree) (st : U * sbuf) : option (pan (U * sbuf)) :=
      option_map (fun e => screen_eval e st) (expansion_of l).

    (** [term_write!(screen, ...)]: a guard is locked (screen.rs:358-360) and dropped
        at the end, which refreshes the screen. *)
    Definition screen_write_screen (l : list tree) (st : U * scr) : option (out (U * scr) werr unit) :=
      let '(u, s) := st in
      option_map (fun e =>
        match screen_eval e (u, sb s) with
        | Boom => Panic
        | Val (u', b) => match s_guard_drop E C (with_sb b s) with
                         | Ret s' _ => Ret (u', s') tt
                         | Fail s' e => Fail (u', s') e
                         | Panic => Panic
                         | Blocked => Blocked
                         end
        end) (expansion_of l).
  End Terminal.
End Macros.
Arguments Id {U}. Arguments Hash {U}. Arguments Bang {U}. Arguments Colon {U}. Arguments Quest {U}.
Arguments Equals {U}. Arguments PlusEquals {U}. Arguments MinusEquals {U}. Arguments Arg {U}.
Arguments Brackets {U}. Arguments Parens {U}. Arguments Literal {U}.
Arguments XColor {U}. Arguments XStyle {U}. Arguments XTheme {U}. Arguments XText {U}.
Arguments const {U A}.
