(** Specifications for drawing a screen. *)
From Verif Require Import Base M_Utf8 M_Geom S_Geom M_Attr M_Buf S_Buf M_Writer S_Tty S_Writer M_Screen.

(** Position [i] is the right half of a double-width character of the buffer. *)
Definition half (E : env) (b : sbuf) (i : nat) : bool :=
  match i with O => false | S j => wide_at E b j end.

(** The terminal shows the buffer: same size, and every position has the text of its
    cell with its attributes (as far as the terminal can show them), or is the right
    half of the character before it. *)
Definition shows (E : env) (C : tcfg) (v : view) (b : sbuf) : Prop :=
  vsize v = bsize b /\
  forall i c, cell_at b i = Some c ->
    nth_error (vcells v) i =
    Some (if half E b i then VTrail else VC (ctext c) (shown_attrs C (cattrs c))).

(** Where the cursor should be: the buffer's cursor, or the last cell. *)
Definition cursor_goal (b : sbuf) : cursor :=
  if (line (bcur b) <? lines (bsize b)) && (column (bcur b) <? columns (bsize b))
  then bcur b
  else Cursor (lines (bsize b) - 1) (columns (bsize b) - 1).

(** Double-width characters of the buffer fit their line and do not overlap. *)
Definition wides_fit (E : env) (b : sbuf) : Prop :=
  forall i, wide_at E b i = true ->
    i mod columns (bsize b) + 2 <= columns (bsize b) /\ wide_at E b (S i) = false.

(** Where the terminal shows the right half of a double-width character and the buffer has
    none, the new cell is not the one that was drawn there last, before the character
    covered it. *)
Definition mended (E : env) (v : view) (b : sbuf) : Prop :=
  forall i, nth_error (vcells v) i = Some VTrail -> half E b i = false ->
    nth_error (back b) i <> nth_error (buffer b) i.

(** Sizes of real screens. *)
Definition screen_size (sz : size) : Prop :=
  0 < lines sz /\ 0 < columns sz /\
  (N.of_nat (lines sz) <= u32_max)%N /\ (N.of_nat (columns sz) <= u32_max)%N.

(** Histories of a [Screen] on a terminal [K].  [history s t]: [s] is the state of the
    screen, [t] the terminal once it has received everything sent so far.  The buffer
    operations satisfy [allowed], and at each refresh [careful] holds of the screen and
    what the terminal shows; refreshes succeed, or fail at the very end, and the OS takes
    whole buffers or nothing. *)
Inductive history (E : env) (C : tcfg) (K : tty) (allowed : buf_op -> Prop)
    (careful : scr -> view -> Prop) : scr -> tstate K -> Prop :=
| H_new sz w s t0 v0 :
    screen_size sz -> whole_writes (script w) ->
    look K (feed K t0 (stream w)) = Some v0 -> vsize v0 = sz -> vattrs v0 = shown_attrs C (wat w) ->
    screen_new E C sz (inr sz) w = Ret s tt ->
    history E C K allowed careful s (feed K t0 (stream (wr s)))
| H_buffer s t o b :
    history E C K allowed careful s t ->
    allowed o -> (forall sz, o <> BResize sz) ->
    run_buf_op E (sb s) o = Val b ->
    history E C K allowed careful (with_sb b s) t
| H_mode s t m s' x :
    history E C K allowed careful s t ->
    on_writer (set_cursor_mode C m) s = Ret s' tt ->
    stream (wr s') = stream (wr s) ++ x ->
    history E C K allowed careful s' (feed K t x)
| H_refresh s t s' x :
    history E C K allowed careful s t ->
    (forall v, look K t = Some v -> careful s v) ->
    refresh E C s = Ret s' tt ->
    stream (wr s') = stream (wr s) ++ x ->
    history E C K allowed careful s' (feed K t x)
| H_unflushed s t s1 s2 e x :
    (* a refresh that fails when it finally flushes: everything stays in the output
       buffer *)
    history E C K allowed careful s t ->
    (forall v, look K t = Some v -> careful s v) ->
    compose E C s = Ret s1 tt -> on_writer flush s1 = Fail s2 e ->
    stream (wr s2) = stream (wr s) ++ x ->
    history E C K allowed careful s2 (feed K t x)
| H_resize s t v new s' t' v' :
    (* the terminal changes its size, whatever it shows afterwards *)
    history E C K allowed careful s t ->
    look K t = Some v -> screen_size new -> obuf (wr s) = [] ->
    look K t' = Some v' -> vsize v' = new -> vattrs v' = vattrs v ->
    update_size E new s = Val s' ->
    history E C K allowed careful s' t'.

(** For C23: no double-width characters, no other condition. *)
Definition single_width (E : env) (o : buf_op) : Prop := no_wide E (op_text o).
Definition anyhow (s : scr) (v : view) : Prop := True.

(** For C24: double-width characters fit and, if one is torn apart, the position of its
    right half does not get back the cell that it had before (until a resize, after which
    everything is drawn again). *)
Definition any_text (o : buf_op) : Prop := True.
Definition wides_mend (E : env) (s : scr) (v : view) : Prop :=
  wides_fit E (sb s) /\ (clr s = false -> mended E v (sb s)).

(** For C26: control strings are expansions of the terminal's capabilities, one after
    the other; a drawing is control strings with the given texts in between, each
    exactly once and in order. *)
Inductive control (C : tcfg) : bytes -> Prop :=
| Ctl_nil : control C []
| Ctl_cap c e k ps bs k' f rest :
    info C c = Some e -> e k ps = (bs, k', f) -> control C rest -> control C (bs ++ rest).

Inductive drawing (C : tcfg) : list (list N) -> bytes -> Prop :=
| Dr_end x : control C x -> drawing C [] x
| Dr_text x text texts rest :
    control C x -> drawing C texts rest -> drawing C (text :: texts) (x ++ utf8s text ++ rest).

(** Positions whose cell differs from what was drawn there last ([None] in [back]
    text: never drawn), right halves excepted; and the texts at positions. *)
Definition changed (E : env) (b : sbuf) : list nat :=
  filter (fun i => negb (half E b i) &&
                   match nth_error (buffer b) i, nth_error (back b) i with
                   | Some c, Some k => negb (cell_eqb c k)
                   | _, _ => false
                   end)
         (seq 0 (total (bsize b))).
Definition text_at (b : sbuf) (i : nat) : list N :=
  match cell_at b i with Some c => ctext c | None => [] end.
