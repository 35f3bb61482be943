(** Specification vocabulary for builds without overflow checks (C130). *)
From Verif Require Import Base M_Utf8 M_Geom M_Attr M_Util M_Buf M_Input M_Prepare M_Reader M_UnixScreen M_WinWriter M_WinReader M_WinScreen
  M_RelWin S_Input S_Overrun S_WinScreen S_WinNoPanic.

(** The build without checks does what the build with checks does, unless that one
    panics. *)
Definition same_val {A} (checked release : pan A) : Prop := checked = Boom \/ release = checked.
Definition same_out {S E A} (checked release : out S E A) : Prop := checked = Panic \/ release = checked.

(** The line below, counted as a [usize]: below the last there is the first. *)
Definition line_below (E : env) (p : cursor) : nat := (line p + 1) mod S (umax E).

(** Drawing without checks, as a walk of the cursor (see S_Overrun.v): a newline and
    [next_line] wrap around, and a mark on a screen without columns meets the end of the
    screen. *)
Definition free_walk1 (E : env) (sz : size) (ch : N) (p : cursor) : fate :=
  if (ch =? 10)%N then Moved (Cursor (line_below E p) 0)
  else match walk1 E sz ch p with
       | Panics => if combining E ch then Stopped p else Panics
       | f => f
       end.
Fixpoint free_walk (E : env) (sz : size) (s : list N) (p : cursor) : fate :=
  match s with
  | [] => Moved p
  | ch :: s => match free_walk1 E sz ch p with
               | Moved p => free_walk E sz s p
               | f => f
               end
  end.
Definition free_go (E : env) (st : size * cursor) (o : buf_op) : option (size * cursor) :=
  let '(sz, p) := st in
  let text q s := match free_walk E sz s q with Moved p | Stopped p => Some (sz, p) | Panics => None end in
  match o with
  | BNextLine c => Some (sz, Cursor (line_below E p) c)
  | BWriteChar ch => text p [ch]
  | BWriteStr s | BWriteStyled _ s => text p s
  | BWriteAt q s | BWriteStyledAt q _ s => if inside sz q then text q s else Some st
  | o => go E st o
  end.
Fixpoint free_goes_on (E : env) (st : size * cursor) (l : list buf_op) : option (size * cursor) :=
  match l with
  | [] => Some st
  | o :: l => match free_go E st o with Some st => free_goes_on E st l | None => None end
  end.
Definition free_story (E : env) (sz : size) (l : list buf_op) : option (size * cursor) :=
  if lines sz * columns sz <=? umax E then free_goes_on E (sz, Cursor 0 0) l else None.

(** A [Duration] has less than a thousand million nanoseconds. *)
Definition real_timeout (t : option duration) : Prop :=
  match t with Some d => (nanos d < 1000000000)%N | None => True end.
Definition real_call (o : uop) : Prop :=
  match o with UWait t | URead t | URaw _ t => real_timeout t | _ => True end.
Definition real_rop (o : rop) : Prop :=
  match o with RWait t | RRead t | RRaw _ t => real_timeout t | _ => True end.

(** A program on a Windows screen (see [wacts]), without checks. *)
Fixpoint free_acts (draw : list N -> N -> view -> view) (E : env) (l : list wact) (s : wscr) : option wscr :=
  match l with
  | [] => Some s
  | WCall o :: l => match run_wsop_r draw E o s with
                    | Ret s _ | Fail s _ => free_acts draw E l s
                    | _ => None
                    end
  | WConsole v :: l => free_acts draw E l (seeing v s)
  end.

(** The position a mouse report tells without checks: one less than the number sent, and
    4294967295 for 0. *)
Definition told_coordinate (n : N) : nat := N.to_nat (if n =? 0 then U32_MAX else n - 1)%N.
