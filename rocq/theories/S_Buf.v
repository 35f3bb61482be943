(** Specifications for the screen buffer, independent of the model's helpers. *)
From Verif Require Import Base M_Utf8 S_Utf8 M_Geom S_Geom M_Attr M_Buf.

(** Control characters: C0, DEL and C1. *)
Definition is_control (c : N) : Prop := (c < 32 \/ 127 <= c < 160)%N.

(** What is assumed of the Unicode tables. *)
Definition env_ok (E : env) : Prop :=
  cwidth E SPACE = Some 1 /\
  combining E SPACE = false /\
  (forall c w, cwidth E c = Some w -> w <= 2) /\
  (forall c, is_control c -> width0 E c = 0 /\ combining E c = false).

(** The tables only list characters ([char] values). *)
Definition env_chars (E : env) : Prop :=
  forall c, cwidth E c <> None \/ combining E c = true -> scalar c.

(** A concrete environment: ASCII printables narrow, U+0300..U+036F combining,
    U+FF01..U+FF60 wide (fullwidth forms), everything else as width 1 or
    control. *)
Definition demo_width (c : N) : option nat :=
  if ((c <? 32) || ((127 <=? c) && (c <? 160)) || negb (is_scalar c))%N then None
  else if ((768 <=? c) && (c <=? 879))%N then Some 0
  else if ((0xFF01 <=? c) && (c <=? 0xFF60))%N then Some 2
  else Some 1.
Definition demo_env (u : nat) : env :=
  Env u demo_width (fun c => (768 <=? c)%N && (c <=? 879)%N).

(** A character that occupies cells of its own. *)
Definition printable (E : env) (c : N) : Prop :=
  c <> TAB /\ c <> CR /\ c <> LF /\ combining E c = false /\
  (cwidth E c = Some 1 \/ cwidth E c = Some 2).

Definition narrow (E : env) (c : N) : Prop := printable E c /\ cwidth E c = Some 1.
Definition wide (E : env) (c : N) : Prop := printable E c /\ cwidth E c = Some 2.

(** A combining mark proper (tab, CR and LF are interpreted first). *)
Definition mark (E : env) (c : N) : Prop := c <> TAB /\ c <> CR /\ c <> LF /\ combining E c = true.

(** Content of a cell: one printable character and any number of marks. *)
Definition cell_text_ok (E : env) (t : list N) : Prop :=
  exists c ms, t = c :: ms /\ printable E c /\ Forall (mark E) ms.

(** The cell shown at a position; [None] off screen. *)
Definition cell_at (b : sbuf) (i : nat) : option cell := nth_error (buffer b) i.

(** A screen buffer in good order. *)
Definition buf_ok (E : env) (b : sbuf) : Prop :=
  total (bsize b) <= umax E /\
  length (buffer b) = total (bsize b) /\
  length (back b) = total (bsize b) /\
  Forall (fun c => cell_text_ok E (ctext c)) (buffer b).

(** Line numbers mentioned by an operation, and newlines it performs. *)
Definition op_lines (o : buf_op) : list nat :=
  match o with
  | BResize sz => [lines sz]
  | BSetCursor p => [line p]
  | _ => []
  end.
Definition newlines (s : list N) : nat := count_occ N.eq_dec s LF.
Definition op_newlines (o : buf_op) : nat :=
  match o with
  | BNextLine _ => 1
  | BWriteChar c => newlines [c]
  | BWriteStr s | BWriteAt _ s | BWriteStyled _ s | BWriteStyledAt _ _ s => newlines s
  | _ => 0
  end.

(** Sizes an operation may resize to: at least [mc] columns, and the number of
    cells fits in [usize]. *)
Definition good_size (u mc : nat) (sz : size) : Prop := mc <= columns sz /\ total sz <= u.
Definition op_size_ok (u mc : nat) (o : buf_op) : Prop :=
  match o with BResize sz => good_size u mc sz | _ => True end.

(** The text an operation writes. *)
Definition op_text (o : buf_op) : list N :=
  match o with
  | BWriteChar c => [c]
  | BWriteStr s | BWriteAt _ s | BWriteStyled _ s | BWriteStyledAt _ _ s => s
  | _ => []
  end.
Definition no_wide (E : env) (s : list N) : Prop := Forall (fun c => ~ wide E c) s.

(** No line number can pass [usize::MAX]: the largest line mentioned plus all
    line feeds fit. *)
Definition lines_fit (u : nat) (sz : size) (ops : list buf_op) : Prop :=
  forall l, In l (lines sz :: flat_map op_lines ops) ->
            l + list_sum (map op_newlines ops) <= u.

(** Does the cell with number [j] start with a double-width character? *)
Definition wide_at (E : env) (b : sbuf) (j : nat) : bool :=
  match cell_at b j with
  | Some c => match ctext c with
              | x :: _ => match cwidth E x with Some 2 => true | _ => false end
              | [] => false
              end
  | None => false
  end.

(** Next tab stop, or the end of the line. *)
Definition tab_target (sz : size) (col : nat) : nat := Nat.min (columns sz) (8 * (col / 8 + 1)).

