(** What a line of styled text should look like (C141). *)
From Coq Require Import String.
From Verif Require Import Base M_Utf8 S_Utf8 M_Geom S_Geom M_Attr M_Buf S_Buf M_Writer S_Tty S_Writer M_Api M_Lines.

(** The characters with the attributes [a]: each takes its one or two positions. *)
Fixpoint glyphs (E : env) (a : attrs) (s : list N) : list vcell :=
  match s with
  | [] => []
  | c :: s => VC [c] a :: match cwidth E c with Some 2 => [VTrail] | _ => [] end ++ glyphs E a s
  end.

(** The attributes asked for after a call, if [a] were asked for before it. *)
Definition asked (m : tmethod) (a : attrs) : attrs :=
  match m with
  | TAddStyle s => Attrs (fg a) (bg a) (N.lor (sty a) s)
  | TRemoveStyle s => Attrs (fg a) (bg a) (N.ldiff (sty a) s)
  | TSetStyle s => Attrs (fg a) (bg a) (match s with Some s => s | None => 0%N end)
  | TSetTheme f b s => Attrs f b s
  | TSetFg c => Attrs c (bg a) (sty a)
  | TSetBg c => Attrs (fg a) c (sty a)
  | TBold => Attrs (fg a) (bg a) (N.lor (sty a) BOLD)
  | TItalic => Attrs (fg a) (bg a) (N.lor (sty a) ITALIC)
  | TUnderline => Attrs (fg a) (bg a) (N.lor (sty a) UNDERLINE)
  | TReverse => Attrs (fg a) (bg a) (N.lor (sty a) REVERSE)
  | TClearAttributes | TWriteStyled _ _ _ _ => Attrs None None 0%N
  | _ => a
  end.
(** What a call writes. *)
Definition lettering (E : env) (m : tmethod) (a : attrs) : list vcell :=
  match m with
  | TWriteChar c => glyphs E a [c]
  | TWriteStr s => glyphs E a s
  | TWriteFmt pieces => glyphs E a (concat pieces)
  | TWriteStyled f b s text => glyphs E (Attrs f b (match s with Some s => s | None => 0%N end)) text
  | _ => []
  end.
Fixpoint row (E : env) (ms : list tmethod) (a : attrs) : list vcell :=
  match ms with
  | [] => []
  | m :: ms => lettering E m a ++ row E ms (asked m a)
  end.
Definition asked_at_end (ms : list tmethod) (a : attrs) : attrs := fold_left (fun a m => asked m a) ms a.

(** Calls that write characters of one or two columns, choose attributes, set the cursor's
    look or flush, and nothing else. *)
Definition letter (E : env) (c : N) : Prop := scalar c /\ printable E c.
Definition line_call (E : env) (m : tmethod) : Prop :=
  match m with
  | TAddStyle s | TRemoveStyle s | TSetStyle (Some s) | TSetTheme _ _ s => style_ok s
  | TWriteStyled _ _ s text => match s with Some s => style_ok s | None => True end /\ Forall (letter E) text
  | TWriteChar c => letter E c
  | TWriteStr s => Forall (letter E) s
  | TWriteFmt pieces => Forall (Forall (letter E)) pieces
  | TClearScreen | TClearToLineEnd | TClearToScreenEnd | TMoveUp _ | TMoveDown _ | TMoveLeft _ | TMoveRight _ | TMoveToFirstColumn => False
  | _ => True
  end.

(** From the position [p] on, the cells [x] in place of those that were there. *)
Definition splice {A} (p : nat) (x l : list A) : list A := firstn p l ++ x ++ skipn (p + length x) l.

(** [n] columns are left on the line from the cursor on, and neither there nor just behind
    does a right half of a double-width character come first. *)
Definition space (n : nat) (v : view) : Prop :=
  let p := cell_no (vsize v) (vcur v) in
  line (vcur v) < lines (vsize v) /\ column (vcur v) + n <= columns (vsize v) /\
  forall j, p <= j <= p + n -> nth_error (vcells v) j <> Some VTrail.

(** The texts of attribute_test.rs with the attributes a reader of the program expects. *)
Definition attribute_texts : list (string * attrs) :=
  let red := Some Red in let blue := Some Blue in let green := Some Green in let magenta := Some Magenta in
  [("plain"%string, Attrs None None 0); (" add red fg"%string, Attrs red None 0); (" add blue bg"%string, Attrs red blue 0);
   (" add bold"%string, Attrs red blue BOLD); (" add reverse"%string, Attrs red blue (N.lor BOLD REVERSE));
   (" add underline"%string, Attrs red blue (N.lor BOLD (N.lor REVERSE UNDERLINE)));
   (" add italic"%string, Attrs red blue (N.lor BOLD (N.lor REVERSE (N.lor UNDERLINE ITALIC))));
   (" remove reverse"%string, Attrs red blue (N.lor BOLD (N.lor UNDERLINE ITALIC)));
   (" add magenta fg"%string, Attrs magenta blue (N.lor BOLD (N.lor UNDERLINE ITALIC)));
   (" add green bg"%string, Attrs magenta green (N.lor BOLD (N.lor UNDERLINE ITALIC)));
   (" reset fg"%string, Attrs None green (N.lor BOLD (N.lor UNDERLINE ITALIC)));
   (" remove underline"%string, Attrs None green (N.lor BOLD ITALIC)); (" remove bold"%string, Attrs None green ITALIC);
   (" reset bg"%string, Attrs None None ITALIC); (" remove italic"%string, Attrs None None 0)]%N.

(** ASCII characters take one column each. *)
Definition ascii_plain (E : env) : Prop :=
  forall c, (32 <= c < 127)%N -> letter E c /\ cwidth E c = Some 1.
Definition in_cells (l : list (string * attrs)) : list vcell := concat (map (fun x => map (fun c => VC [c] (snd x)) (chars (fst x))) l).

(** The example programs and what they should show. *)
Definition example_lines : list (list tmethod * list (string * attrs)) :=
  [(attribute_test, attribute_texts);
   (error_line, [("error"%string, Attrs (Some Red) None BOLD); (": error message"%string, Attrs None None 0%N)]);
   (help_line, [("help"%string, Attrs (Some Green) None BOLD); (": help message"%string, Attrs None None 0%N)])].
