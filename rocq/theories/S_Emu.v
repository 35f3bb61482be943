(** An ANSI terminal and its terminfo entry, to show that the contract of S_Tty.v is
    met by the kind of terminal it is meant to describe.  Not part of mortal. *)
From Coq Require Import Decimal DecimalN.
From Verif Require Import Base M_Utf8 M_Geom S_Geom M_Attr M_Buf S_Buf M_Writer S_Tty.

(** ** Decimal numbers *)
Fixpoint digits (u : uint) : bytes :=
  match u with
  | Nil => []
  | D0 u => 48 :: digits u | D1 u => 49 :: digits u | D2 u => 50 :: digits u
  | D3 u => 51 :: digits u | D4 u => 52 :: digits u | D5 u => 53 :: digits u
  | D6 u => 54 :: digits u | D7 u => 55 :: digits u | D8 u => 56 :: digits u
  | D9 u => 57 :: digits u
  end%N.
Definition dec (n : N) : bytes := digits (N.to_uint n).

(** ** Cells *)
Fixpoint setn {A} (i : nat) (x : A) (l : list A) : list A :=
  match l, i with
  | [], _ => []
  | _ :: l, O => x :: l
  | y :: l, S i => y :: setn i x l
  end.

Definition is_trail (o : option vcell) : bool := match o with Some VTrail => true | _ => false end.

(** Make cells [i] to [k - 1] blank, with the background colour in force ([k] starts a row). *)
Definition erase (i k : nat) (a : attrs) (l : list vcell) : list vcell :=
  let l := if (i <? k) && is_trail (nth_error l i) then setn (i - 1) (VC [SPACE] no_attrs) l else l in
  map (fun p => if (i <=? fst p) && (fst p <? k) then VC [SPACE] (Attrs None (bg a) style_empty) else snd p)
      (combine (seq 0 (length l)) l).

(** Put a character of width [w] at cell [i]. *)
Definition put (i w : nat) (c : N) (a : attrs) (l : list vcell) : list vcell :=
  let l := if is_trail (nth_error l i) then setn (i - 1) (VC [SPACE] no_attrs) l else l in
  let l := if is_trail (nth_error l (i + w)) then setn (i + w) (VC [SPACE] no_attrs) l else l in
  let l := setn i (VC [c] a) l in
  if w =? 2 then setn (i + 1) VTrail l else l.

Definition add_mark (i : nat) (m : N) (l : list vcell) : list vcell :=
  match nth_error l i with
  | Some (VC s a) => setn i (VC (s ++ [m]) a) l
  | _ => l
  end.

(** ** The screen *)
Definition line_feed (v : view) : view :=
  let sz := vsize v in
  if S (line (vcur v)) <? lines sz then set_vcur (Cursor (S (line (vcur v))) (column (vcur v))) v
  else set_vcells (firstn (length (vcells v))
         (skipn (columns sz) (vcells v) ++ repeat (VC [SPACE] no_attrs) (columns sz))) v.

Definition emu_print (E : env) (c : N) (v : view) : view :=
  let sz := vsize v in
  if combining E c then
    let p := cell_no sz (vcur v) - 1 in
    if 0 <? column (vcur v) then
      set_vcells (add_mark (if is_trail (nth_error (vcells v) p) then p - 1 else p) c (vcells v)) v
    else v
  else
    match cwidth E c with
    | Some (S w) =>
        let v := if column (vcur v) + S w <=? columns sz then v
                 else line_feed (set_vcur (Cursor (line (vcur v)) 0) v) in
        set_vcur (Cursor (line (vcur v)) (column (vcur v) + S w))
          (set_vcells (put (cell_no sz (vcur v)) (S w) c (vattrs v) (vcells v)) v)
    | _ => v
    end.

Definition emu_control (E : env) (c : N) (v : view) : view :=
  let sz := vsize v in
  match c with
  | 8%N => set_vcur (Cursor (line (vcur v)) (Nat.min (column (vcur v)) (columns sz - 1) - 1)) v
  | 9%N => set_vcur (Cursor (line (vcur v)) (Nat.min ((column (vcur v) / 8 + 1) * 8) (columns sz - 1))) v
  | 10%N => line_feed v
  | 13%N => set_vcur (Cursor (line (vcur v)) 0) v
  | _ => v
  end.

(** Select Graphic Rendition, one parameter. *)
Definition sgr (a : attrs) (p : N) : attrs :=
  match p with
  | 0 => no_attrs
  | 1 => Attrs (fg a) (bg a) (N.lor (sty a) BOLD)
  | 3 => Attrs (fg a) (bg a) (N.lor (sty a) ITALIC)
  | 4 => Attrs (fg a) (bg a) (N.lor (sty a) UNDERLINE)
  | 7 => Attrs (fg a) (bg a) (N.lor (sty a) REVERSE)
  | 23 => Attrs (fg a) (bg a) (N.ldiff (sty a) ITALIC)
  | 24 => Attrs (fg a) (bg a) (N.ldiff (sty a) UNDERLINE)
  | _ =>
      if (30 <=? p) && (p <=? 37) then Attrs (nth_error ansi_colors (N.to_nat (p - 30))) (bg a) (sty a)
      else if (40 <=? p) && (p <=? 47) then Attrs (fg a) (nth_error ansi_colors (N.to_nat (p - 40))) (sty a)
      else a
  end%N.

Definition arg1 (p : N) : nat := N.to_nat (N.max 1 p).

(** A complete control sequence [ESC [ (?) params final]. *)
Definition csi (q : bool) (ps : list N) (final : N) (v : view) : view :=
  let sz := vsize v in
  let c := vcur v in
  let col := Nat.min (column c) (columns sz - 1) in
  let n := arg1 (hd 0%N ps) in
  let i := cell_no sz c in
  match q, final with
  | false, 65%N (* A *) => set_vcur (Cursor (line c - n) col) v
  | false, 66%N (* B *) => set_vcur (Cursor (Nat.min (line c + n) (lines sz - 1)) col) v
  | false, 67%N (* C *) => set_vcur (Cursor (line c) (Nat.min (col + n) (columns sz - 1))) v
  | false, 68%N (* D *) => set_vcur (Cursor (line c) (col - n)) v
  | false, 72%N (* H *) =>
      set_vcur (Cursor (Nat.min (n - 1) (lines sz - 1))
                       (Nat.min (arg1 (nth 1 ps 0%N) - 1) (columns sz - 1))) v
  | false, 74%N (* J *) =>
      match ps with
      | 2%N :: _ => set_vcells (erase 0 (total sz) (vattrs v) (vcells v)) v
      | _ => set_vcells (erase i (total sz) (vattrs v) (vcells v)) v
      end
  | false, 75%N (* K *) => set_vcells (erase i (S (line c) * columns sz) (vattrs v) (vcells v)) v
  | false, 109%N (* m *) => set_vattrs (fold_left sgr ps (vattrs v)) v
  | false, 114%N (* r *) => set_vcur (Cursor 0 0) v
  | true, 104%N (* ?h *) => match ps with 25%N :: _ => set_vvis true v | _ => v end
  | true, 108%N (* ?l *) => match ps with 25%N :: _ => set_vvis false v | _ => v end
  | _, _ => v
  end.

(** ** The parser *)
Inductive pmode : Type :=
| Ground
| Utf (pending : bytes)
| Esc
| Csi (q : bool) (ps : list N) (cur : N).

Record emu : Type := Emu { ev : view; emode : pmode }.

Definition emu_char (E : env) (pending : bytes) (v : view) : emu :=
  match validate_step pending with
  | VOk _ => match next_char pending with
             | Some (c, _) => Emu (emu_print E c v) Ground
             | None => Emu v Ground
             end
  | VErr None => Emu v (Utf pending)
  | VErr (Some _) => Emu v Ground
  end.

Definition emu_step (E : env) (e : emu) (b : N) : emu :=
  let v := ev e in
  match emode e with
  | Ground =>
      if (b =? 27)%N then Emu v Esc
      else if ((b <? 32) || (b =? 127))%N then Emu (emu_control E b v) Ground
      else emu_char E [b] v
  | Utf p => emu_char E (p ++ [b]) v
  | Esc => if (b =? 91)%N then Emu v (Csi false [] 0) else Emu v Ground
  | Csi q ps cur =>
      if ((48 <=? b) && (b <=? 57))%N then Emu v (Csi q ps (cur * 10 + (b - 48)))
      else if (b =? 59)%N then Emu v (Csi q (ps ++ [cur]) 0)
      else if (b =? 63)%N then Emu v (Csi true ps cur)
      else if ((64 <=? b) && (b <=? 126))%N then Emu (csi q (ps ++ [cur]) b v) Ground
      else Emu v Ground
  end.

Definition emu_look (e : emu) : option view :=
  match emode e with
  | Ground => if length (vcells (ev e)) =? total (vsize (ev e)) then Some (ev e) else None
  | _ => None
  end.

Definition ansi_tty (E : env) : tty := Tty emu (fun e bs => fold_left (emu_step E) bs e) emu_look.

(** A blank screen. *)
Definition emu_new (sz : size) : emu :=
  Emu (View sz (repeat (VC [SPACE] no_attrs) (total sz)) (Cursor 0 0) no_attrs true) Ground.

(** ** The terminfo entry (as xterm's, without padding and character sets) *)
Local Open Scope N_scope.
Definition ansi_string (c : cap) (ps : list N) : option bytes :=
  match c, ps with
  | EnterCaMode, [] => Some [27; 91; 63; 49; 48; 52; 57; 104]            (* ESC [ ? 1049 h *)
  | ExitCaMode, [] => Some [27; 91; 63; 49; 48; 52; 57; 108]             (* ESC [ ? 1049 l *)
  | ChangeScrollRegion, [t; b] => Some ([27; 91] ++ dec (t + 1) ++ [59] ++ dec (b + 1) ++ [114])
  | CursorHome, [] => Some [27; 91; 72]
  | CursorAddress, [l; c] => Some ([27; 91] ++ dec (l + 1) ++ [59] ++ dec (c + 1) ++ [72])
  | ClearScreen, [] => Some [27; 91; 72; 27; 91; 50; 74]                 (* ESC [ H ESC [ 2 J *)
  | ClrEol, [] => Some [27; 91; 75]
  | ClrEos, [] => Some [27; 91; 74]
  | CursorUp, [] => Some [27; 91; 65]
  | ParmUpCursor, [n] => Some ([27; 91] ++ dec n ++ [65])
  | ParmDownCursor, [n] => Some ([27; 91] ++ dec n ++ [66])
  | CursorLeft, [] => Some [8]
  | ParmLeftCursor, [n] => Some ([27; 91] ++ dec n ++ [68])
  | CursorRight, [] => Some [27; 91; 67]
  | ParmRightCursor, [n] => Some ([27; 91] ++ dec n ++ [67])
  | CursorNormal, [] => Some [27; 91; 63; 50; 53; 104]
  | CursorInvisible, [] => Some [27; 91; 63; 50; 53; 108]
  | ExitAttributeMode, [] => Some [27; 91; 109]
  | SetAForeground, [n] => Some ([27; 91; 51] ++ dec n ++ [109])         (* ESC [ 3 n m *)
  | SetABackground, [n] => Some ([27; 91; 52] ++ dec n ++ [109])         (* ESC [ 4 n m *)
  | EnterBoldMode, [] => Some [27; 91; 49; 109]
  | EnterItalicsMode, [] => Some [27; 91; 51; 109]
  | EnterReverseMode, [] => Some [27; 91; 55; 109]
  | EnterUnderlineMode, [] => Some [27; 91; 52; 109]
  | ExitItalicsMode, [] => Some [27; 91; 50; 51; 109]
  | ExitUnderlineMode, [] => Some [27; 91; 50; 52; 109]
  | KeypadLocal, [] => Some [27; 91; 63; 49; 108]
  | KeypadXmit, [] => Some [27; 91; 63; 49; 104]
  | _, _ => None
  end.
Local Close Scope N_scope.

Definition ansi_info (c : cap) : option expansion :=
  Some (fun k ps => match ansi_string c ps with
                    | Some bs => (bs, k, true)
                    | None => ([], k, false)
                    end).

Definition ansi_cfg : tcfg := TCfg ansi_info (fun cap need => Nat.max (2 * cap) need) true.
