(** When exactly drawing on a screen panics (C14), in terms of the size of the screen and
    the position of the cursor alone. *)
From Verif Require Import Base M_Geom S_Geom M_Attr M_Buf S_Buf.

(** What a character does: moves the cursor, meets the end of the screen, or panics. *)
Inductive fate : Type := Moved (p : cursor) | Stopped (p : cursor) | Panics.

Definition inside (sz : size) (p : cursor) : bool := (line p <? lines sz) && (column p <? columns sz).

(** The position [w] columns on, or the start of the next line. *)
Definition onwards (sz : size) (p : cursor) (w : nat) : cursor :=
  if column p + w <? columns sz then Cursor (line p) (column p + w) else Cursor (line p + 1) 0.

Definition walk1 (E : env) (sz : size) (ch : N) (p : cursor) : fate :=
  if (ch =? 9)%N then
    if inside sz p then Moved (onwards sz p (8 - column p mod 8)) else Stopped p
  else if (ch =? 13)%N then Moved (Cursor (line p) 0)
  else if (ch =? 10)%N then
    if line p + 1 <=? umax E then Moved (Cursor (line p + 1) 0) else Panics
  else if combining E ch then
    if column p =? 0 then
      if line p =? 0 then Moved p
      else if columns sz =? 0 then Panics            (* a mark on a screen without columns *)
      else if line p <=? lines sz then Moved p else Stopped p
    else if inside sz (Cursor (line p) (column p - 1)) then Moved p else Stopped p
  else match cwidth E ch with
       | Some 1 => if inside sz p then Moved (onwards sz p 1) else Stopped p
       | Some 2 =>
           if inside sz p then
             if column p + 2 <=? columns sz then Moved (onwards sz p 2)
             else if line p + 1 <? lines sz then
               if 2 <=? columns sz then Moved (onwards sz (Cursor (line p + 1) 0) 2)
               else if line p + 2 <? lines sz then Moved (Cursor (line p + 2) 0)
               else Panics                           (* double width on one column *)
             else Stopped (Cursor (line p + 1) 0)
           else Stopped p
       | _ => Moved p
       end.

(** A text: where the cursor is after all of it, where it met the end of the screen, or a
    panic. *)
Fixpoint walk (E : env) (sz : size) (s : list N) (p : cursor) : fate :=
  match s with
  | [] => Moved p
  | ch :: s => match walk1 E sz ch p with
               | Moved p => walk E sz s p
               | f => f
               end
  end.

(** Operations: size and cursor afterwards, [None] for a panic. *)
Definition go (E : env) (st : size * cursor) (o : buf_op) : option (size * cursor) :=
  let '(sz, p) := st in
  let text q s := match walk E sz s q with Moved p | Stopped p => Some (sz, p) | Panics => None end in
  match o with
  | BResize new =>
      if lines new * columns new <=? umax E then
        if (0 <? lines sz * columns sz) && (columns new =? 0) then None else Some (new, p)
      else None
  | BSetCursor q => Some (sz, q)
  | BNextLine c => if line p + 1 <=? umax E then Some (sz, Cursor (line p + 1) c) else None
  | BWriteChar ch => text p [ch]
  | BWriteStr s | BWriteStyled _ s => text p s
  | BWriteAt q s | BWriteStyledAt q _ s => if inside sz q then text q s else Some st
  | _ => Some st
  end.
Fixpoint goes_on (E : env) (st : size * cursor) (l : list buf_op) : option (size * cursor) :=
  match l with
  | [] => Some st
  | o :: l => match go E st o with Some st => goes_on E st l | None => None end
  end.
Definition story (E : env) (sz : size) (l : list buf_op) : option (size * cursor) :=
  if lines sz * columns sz <=? umax E then goes_on E (sz, Cursor 0 0) l else None.

(** The attributes after styled text: none if the text went on the screen, its own if it
    met the end of the screen. *)
Definition attrs_after (f : fate) (a : attrs) : attrs :=
  match f with Stopped _ => a | _ => no_attrs end.
