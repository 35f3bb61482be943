(** What the documentation of src/terminal.rs says each output method does, in terms
    of what the terminal shows. *)
From Verif Require Import Base M_Utf8 S_Utf8 M_Geom S_Geom M_Attr M_Buf S_Buf M_Writer S_Tty S_Writer M_Api.

(** Typing one character: it appears at the cursor where it fits, a mark joins the
    character before it, a carriage return goes to the first column.  Everything else
    (end of line, tabs, line feeds) is up to the terminal, but never the attributes,
    the size or the cursor's visibility. *)
Definition types (E : env) (c : N) (v v' : view) : Prop :=
  keeps v v' /\
  (forall w, cwidth E c = Some w -> printable E c -> room w v -> put_effect c w v v') /\
  (forall i, mark E c -> left_cell v i -> mark_effect c i v v') /\
  (c = CR -> v' = set_vcur (Cursor (line (vcur v)) 0) v).

Inductive prints (E : env) : list N -> view -> view -> Prop :=
| prints_nil v : prints E [] v v
| prints_cons c s v v1 v2 : types E c v v1 -> prints E s v1 v2 -> prints E (c :: s) v v2.

(** Relative movement of the cursor, stopping at the edges. *)
Definition goes (d : dir) (n : nat) (v v' : view) : Prop :=
  (n = 0 -> v' = v) /\ keeps v v' /\
  (0 < n -> (N.of_nat n <= u32_max)%N -> column (vcur v) < columns (vsize v) ->
   v' = set_vcur (shift d n (vsize v) (vcur v)) v).

Definition with_style (f : style -> style) (v : view) : view :=
  set_vattrs (Attrs (fg (vattrs v)) (bg (vattrs v)) (f (sty (vattrs v)))) v.

(** The effect of a method, from what the terminal showed before to what it shows
    once the output has reached it. *)
Definition effect (E : env) (m : tmethod) (v v' : view) : Prop :=
  let a := vattrs v in
  match m with
  | TFlush => v' = v
  | TClearScreen =>
      vcur v' = Cursor 0 0 /\ vsize v' = vsize v /\ vattrs v' = a /\ vvis v' = vvis v /\
      erased 0 (total (vsize v)) v v'
  | TClearToLineEnd => same_but_cells v v' /\
      (on_cell v -> erased (cell_no (vsize v) (vcur v)) (S (line (vcur v)) * columns (vsize v)) v v')
  | TClearToScreenEnd => same_but_cells v v' /\
      (on_cell v -> erased (cell_no (vsize v) (vcur v)) (total (vsize v)) v v')
  | TMoveUp n => goes Up n v v'
  | TMoveDown n => goes Down n v v'
  | TMoveLeft n => goes Left n v v'
  | TMoveRight n => goes Right n v v'
  | TMoveToFirstColumn => v' = set_vcur (Cursor (line (vcur v)) 0) v
  | TSetCursorMode CInvisible => v' = set_vvis false v
  | TSetCursorMode _ => v' = set_vvis true v
  | TAddStyle s => v' = with_style (fun old => N.lor old s) v
  | TRemoveStyle s => v' = with_style (fun old => N.ldiff old s) v
  | TSetStyle (Some s) => v' = with_style (fun _ => s) v
  | TSetStyle None => v' = with_style (fun _ => 0%N) v
  | TSetTheme f b s => v' = set_vattrs (Attrs f b s) v
  | TSetFg c => v' = set_vattrs (Attrs c (bg a) (sty a)) v
  | TSetBg c => v' = set_vattrs (Attrs (fg a) c (sty a)) v
  | TClearAttributes => v' = set_vattrs (Attrs None None 0%N) v
  | TBold => v' = with_style (fun old => N.lor old BOLD) v
  | TItalic => v' = with_style (fun old => N.lor old ITALIC) v
  | TUnderline => v' = with_style (fun old => N.lor old UNDERLINE) v
  | TReverse => v' = with_style (fun old => N.lor old REVERSE) v
  | TWriteStyled f b s text =>
      let st := match s with Some s => s | None => 0%N end in
      exists v2, prints E text (set_vattrs (Attrs f b st) v) v2 /\
        v' = set_vattrs (Attrs None None 0%N) v2
  | TWriteChar c => types E c v v'
  | TWriteStr text => prints E text v v'
  | TWriteFmt pieces => prints E (concat pieces) v v'
  end.

(** The effects of a sequence of calls. *)
Inductive effects (E : env) : list api_call -> view -> view -> Prop :=
| effects_nil v : effects E [] v v
| effects_cons c m cs v v1 v2 : c = OnGuard m \/ c = OnTerminal m ->
    effect E m v v1 -> effects E cs v1 v2 -> effects E (c :: cs) v v2.

(** Arguments the claims are about: text of characters with a defined appearance, and
    styles made of the four flags. *)
Definition sensible (E : env) (m : tmethod) : Prop :=
  match m with
  | TAddStyle s | TRemoveStyle s | TSetStyle (Some s) | TSetTheme _ _ s => style_ok s
  | TWriteStyled _ _ s text =>
      match s with Some s => style_ok s | None => True end /\ Forall (texty E) text
  | TWriteChar c => texty E c
  | TWriteStr text => Forall (texty E) text
  | TWriteFmt pieces => Forall (Forall (texty E)) pieces
  | _ => True
  end.

Definition on_api (P : tmethod -> Prop) (c : api_call) : Prop :=
  match c with OnGuard m | OnTerminal m => P m end.

(** The terminal has the capabilities for attributes and cursor visibility. *)
Definition full_caps (C : tcfg) : Prop :=
  all_attr_caps C /\ has C CursorNormal = true /\ has C CursorInvisible = true.
