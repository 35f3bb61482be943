(** Proofs about builds without overflow checks (C130): the buffer and the Unix side. *)
From Verif Require Import Base M_Utf8 M_Geom M_Attr M_Seq M_Signal M_Util M_Input M_Buf M_Writer M_Screen M_Prepare M_Reader
  M_RelBuf M_RelScreen M_RelReader S_Release.

Definition psame {A} (c r : pan A) : Prop := match c with Boom => True | Val v => r = Val v end.
Definition osame {S E A} (c r : out S E A) : Prop := match c with Panic => True | x => r = x end.
Lemma psame_val {A} (c r : pan A) : psame c r -> same_val c r.
Proof. destruct c; cbn; intros H; [now right|now left]. Qed.
Lemma osame_out {S E A} (c r : out S E A) : osame c r -> same_out c r.
Proof. destruct c; cbn; intros H; (now right) || (now left). Qed.
Lemma psame_refl {A} (c : pan A) : psame c c. Proof. now destruct c. Qed.
Lemma osame_refl {S E A} (c : out S E A) : osame c c. Proof. now destruct c. Qed.
Lemma osame_bind {S E A B} (c r : out S E A) (f g : S -> A -> out S E B) :
  osame c r -> (forall s a, osame (f s a) (g s a)) -> osame (obind c f) (obind r g).
Proof. destruct c; cbn; intros H K; try exact I; rewrite H; cbn; try reflexivity; apply K. Qed.

Tactic Notation "pstep" constr(L) "as" ident(v) :=
  let H := fresh in pose proof L as H;
  match type of H with
  | psame ?c ?r => destruct c as [v|]; cbn [psame] in H; [rewrite H|exact I]
  end.
Ltac ostep L :=
  let H := fresh in pose proof L as H;
  match type of H with
  | osame ?c ?r => destruct c; cbn [osame] in H; try rewrite H; try exact I
  end.
Ltac triv := (apply psame_refl || apply osame_refl || exact I || reflexivity).

Lemma wadd_same u a b : psame (uadd u a b) (wadd u a b).
Proof. unfold uadd, wadd. destruct (Nat.leb_spec (a + b) u); cbn [psame]; [|exact I]. now rewrite Nat.mod_small by lia. Qed.
Lemma wmul_same u a b : psame (umul u a b) (wmul u a b).
Proof. unfold umul, wmul. destruct (Nat.leb_spec (a * b) u); cbn [psame]; [|exact I]. now rewrite Nat.mod_small by lia. Qed.
Lemma wsub_same u a b : psame (usub a b) (wsub u a b).
Proof. unfold usub, wsub. destruct (Nat.leb_spec b a); cbn [psame]; [reflexivity|exact I]. Qed.

(** ** The buffer *)
Lemma next_same u c z : psame (cursor_next u c z) (cursor_next_r u c z).
Proof.
  unfold cursor_next, cursor_next_r. pstep (wadd_same u (column c) 1) as v. destruct (columns z <=? v); [|triv].
  pstep (wadd_same u (line c) 1) as v0. triv.
Qed.
Lemma previous_same u c z : psame (cursor_previous c z) (cursor_previous_r u c z).
Proof.
  unfold cursor_previous, cursor_previous_r. destruct (column c =? 0); [|triv]. destruct (line c =? 0); [triv|].
  pstep (wsub_same u (columns z) 1) as v. triv.
Qed.
Lemma last_same u z : psame (cursor_last z) (cursor_last_r u z).
Proof. unfold cursor_last, cursor_last_r. pstep (wsub_same u (lines z) 1) as v. pstep (wsub_same u (columns z) 1) as v0. triv. Qed.
Lemma index_same u c z : psame (as_index u c z) (as_index_r u c z).
Proof. unfold as_index, as_index_r. pstep (wmul_same u (line c) (columns z)) as v. apply wadd_same. Qed.

Section Buf.
  Variable E : env.
  Lemma next_line_same b col : psame (sb_next_line E b col) (sb_next_line_r E b col).
  Proof. unfold sb_next_line, sb_next_line_r. pstep (wadd_same (umax E) (line (bcur b)) 1) as v. triv. Qed.
  Lemma get_same b p : psame (get_cell E b p) (get_cell_r E b p).
  Proof. unfold get_cell, get_cell_r. pstep (index_same (umax E) p (bsize b)) as v. triv. Qed.
  Lemma put_same b p c : psame (put_cell E b p c) (put_cell_r E b p c).
  Proof. unfold put_cell, put_cell_r. pstep (index_same (umax E) p (bsize b)) as v. triv. Qed.
  Lemma set_same b p ch : psame (set_cell E b p ch) (set_cell_r E b p ch).
  Proof. apply put_same. Qed.
  Lemma cells_same ch : forall n b p, psame (fill_cells E n b p ch) (fill_cells_r E n b p ch).
  Proof.
    induction n as [|n IH]; intros b p; cbn [fill_cells fill_cells_r]; [triv|]. pstep (set_same b p ch) as v.
    pstep (wadd_same (umax E) (column p) 1) as v0. apply IH.
  Qed.
  Lemma spaces_same : forall n b p, psame (fill_spaces E n b p) (fill_spaces_r E n b p).
  Proof.
    induction n as [|n IH]; intros b p; cbn [fill_spaces fill_spaces_r]; [triv|].
    pstep (wadd_same (umax E) (column p) 1) as v. pstep (set_same b (Cursor (line p) v) SPACE) as v0. apply IH.
  Qed.
  Lemma wide_same b : psame (clear_wide_before E b) (clear_wide_before_r E b).
  Proof.
    unfold clear_wide_before, clear_wide_before_r. pstep (previous_same (umax E) (bcur b) (bsize b)) as v. destruct v as [p|]; [|triv].
    pstep (get_same b p) as v0. destruct (is_wide E v0); [apply put_same|triv].
  Qed.
  Lemma wrap_same b ch rem w : osame (wrap_wide E b ch rem w) (wrap_wide_r E b ch rem w).
  Proof.
    unfold wrap_wide, wrap_wide_r. destruct (rem <? w); [|triv]. destruct (try_cursor b); [|triv].
    pstep (cells_same ch rem b (bcur b)) as v. pstep (wadd_same (umax E) (line (bcur v)) 1) as v0. triv.
  Qed.
  Lemma place_same b ch w : osame (place_char E b ch w) (place_char_r E b ch w).
  Proof.
    unfold place_char, place_char_r. destruct (try_cursor b); [|triv]. pstep (set_same b (bcur b) ch) as v.
    pstep (spaces_same (w - 1) v (bcur v)) as v0. pstep (wadd_same (umax E) (column (bcur v0)) w) as v1.
    destruct (columns (bsize v0) <=? v1); [|triv]. pstep (wadd_same (umax E) (line (bcur v0)) 1) as v2. triv.
  Qed.
  Lemma nontab_same b ch : osame (write_nontab E b ch) (write_nontab_r E b ch).
  Proof.
    unfold write_nontab, write_nontab_r. destruct (N.eqb ch CR); [triv|]. destruct (N.eqb ch LF).
    { pstep (wadd_same (umax E) (line (bcur b)) 1) as v. triv. }
    destruct (combining E ch).
    { pstep (previous_same (umax E) (bcur b) (bsize b)) as v. destruct v as [p|]; [|triv]. destruct (try_cursor_at b p); [|triv].
      pstep (get_same b p) as v1. pstep (put_same b p (Cell (cattrs v1) (ctext v1 ++ [ch]))) as v2. triv. }
    destruct (is_visible E ch); [|triv]. destruct (try_cursor b); [|triv]. pstep (wide_same b) as v3.
    pstep (wsub_same (umax E) (columns (bsize v3)) (column (bcur v3))) as v4. apply osame_bind; [apply wrap_same|intros; apply place_same].
  Qed.
  Lemma wspaces_same : forall n b, osame (write_spaces E n b) (write_spaces_r E n b).
  Proof. induction n as [|n IH]; intros b; cbn [write_spaces write_spaces_r]; [triv|]. apply osame_bind; [apply nontab_same|intros; apply IH]. Qed.
  Lemma char_same b ch : osame (M_Buf.write_char E b ch) (write_char_r E b ch).
  Proof.
    unfold M_Buf.write_char, write_char_r. destruct (N.eqb ch TAB); [|apply nontab_same]. destruct (try_cursor b); [|triv].
    pstep (wsub_same (umax E) (columns (bsize b)) (column (bcur b))) as v. apply wspaces_same.
  Qed.
  Lemma str_same : forall s b, osame (M_Buf.write_str E b s) (write_str_r E b s).
  Proof. induction s as [|c s IH]; intros b; cbn; [triv|]. apply osame_bind; [apply char_same|intros; apply IH]. Qed.
  Lemma styled_same b a s : osame (M_Buf.write_styled E b a s) (write_styled_r E b a s).
  Proof. unfold M_Buf.write_styled, write_styled_r. apply osame_bind; [apply str_same|intros; triv]. Qed.
  Lemma ignore_same c r : osame c r -> psame (ignore_err c) (ignore_err r).
  Proof. destruct c; cbn; intros H; try exact I; now rewrite H. Qed.
  Lemma op_same b o : psame (run_buf_op E b o) (run_buf_op_r E b o).
  Proof.
    destruct o; cbn [run_buf_op run_buf_op_r]; try triv.
    - apply next_line_same.
    - apply ignore_same, char_same.
    - apply ignore_same, str_same.
    - apply ignore_same. unfold write_at, write_at_r. destruct (try_cursor_at b p); [apply str_same|triv].
    - apply ignore_same, styled_same.
    - apply ignore_same. unfold write_styled_at, write_styled_at_r. destruct (try_cursor_at b p); [apply styled_same|triv].
  Qed.
  Lemma ops_same : forall l b, psame (run_buf_ops E b l) (run_buf_ops_r E b l).
  Proof. induction l as [|o l IH]; intros b; cbn [run_buf_ops run_buf_ops_r]; [triv|]. pstep (op_same b o) as v. apply IH. Qed.
  Lemma history_same z l : psame (buf_history E z l) (buf_history_r E z l).
  Proof. unfold buf_history, buf_history_r. destruct (sb_new E z); [apply ops_same|triv]. Qed.
End Buf.

(** ** Unix screens *)
Section Scr.
  Variables (E : env) (C : tcfg).
  Lemma on_writer_same f g s : (forall w, osame (f w) (g w)) -> osame (on_writer f s) (on_writer g s).
  Proof. intros H. unfold on_writer. specialize (H (M_Screen.wr s)). destruct (f (M_Screen.wr s)); cbn in H; try rewrite H; triv. Qed.
  Lemma draw_same : forall fuel lo hi s, osame (draw E C fuel lo hi s) (draw_r E C fuel lo hi s).
  Proof.
    induction fuel as [|fuel IH]; intros lo hi s; cbn [draw draw_r]; destruct (next_cell E (sb s) lo hi) as [[[b lo'] [[p c]|]]|]; try triv.
    all: apply osame_bind; [triv|intros]; apply osame_bind; [triv|intros]; apply osame_bind; [triv|intros].
    all: pstep (wadd_same (umax E) (column (real s2)) 1) as v; [triv || apply IH].
  Qed.
  Lemma compose_same s : osame (compose E C s) (compose_r E C s).
  Proof.
    unfold compose, compose_r. apply osame_bind; [triv|intros]. apply osame_bind; [triv|intros].
    destruct (sb_indices E (sb s1)) as [[lo hi]|]; [|triv]. apply osame_bind; [apply draw_same|intros]. apply osame_bind; [triv|intros].
    destruct (is_out_of_bounds _ _); [|triv]. pstep (last_same (umax E) (bsize (sb s3))) as v. triv.
  Qed.
  Lemma refresh_same s : osame (refresh E C s) (refresh_r E C s).
  Proof. unfold refresh, refresh_r. apply osame_bind; [apply compose_same|intros; triv]. Qed.
  Lemma drop_same s : osame (s_guard_drop E C s) (s_guard_drop_r E C s).
  Proof. unfold s_guard_drop, s_guard_drop_r. ostep (refresh_same s); triv. Qed.
  Lemma screen_refresh_same s : osame (screen_refresh E C s) (screen_refresh_r E C s).
  Proof.
    unfold screen_refresh, screen_refresh_r. ostep (refresh_same s); try triv.
    - ostep (drop_same s0); triv.
    - ostep (drop_same s0); triv.
  Qed.
  Lemma enter_same z w : osame (enter_screen C z w) (enter_screen_r E C z w).
  Proof.
    unfold enter_screen, enter_screen_r. destruct (info C ChangeScrollRegion); [|triv]. destruct (info C CursorHome); [|triv].
    destruct z as [er|zz]; [triv|]. apply osame_bind; [triv|intros]. destruct (lines zz); [exact I|triv].
  Qed.
  Lemma new_same z z' w : osame (screen_new E C z z' w) (screen_new_r E C z z' w).
  Proof.
    unfold screen_new, screen_new_r. destruct (sb_new E z) as [b|]; [|triv]. cbv zeta.
    ostep (on_writer_same (enter_screen C z') (enter_screen_r E C z') (Scr b false (Cursor 0 0) w) (enter_same z')); triv.
  Qed.
End Scr.

(** ** Reading on Unix *)
Local Open Scope N_scope.
Lemma mouse_same buf : psame (parse_mouse_data buf) (parse_mouse_data_r buf).
Proof.
  unfold parse_mouse_data, parse_mouse_data_r. destruct (parse_integer buf) as [[[i e] b1]|]; [|triv]. destruct (negb _); [triv|].
  destruct (parse_integer b1) as [[[co e2] b2]|]; [|triv]. destruct (negb _); [triv|].
  destruct (parse_integer b2) as [[[li e3] b3]|]; [|triv].
  destruct (if e3 =? 77 then Some true else if e3 =? 109 then Some false else None); [|triv].
  cbv zeta. unfold pred_u32. destruct (li =? 0); [exact I|]. destruct (co =? 0); [exact I|]. cbn [orb]. reflexivity.
Qed.
Lemma peeked_same buf m : psame (peek_event buf m) (peek_event_r buf m).
Proof.
  unfold peek_event, peek_event_r. destruct (utf8_prefix buf) as [[|x s]|]; try triv. destruct (scan m _ None) as [[[q d]|]|]; try triv. destruct d; try triv.
  cbv zeta. pstep (mouse_same (skipn (length q) buf)) as v. triv.
Qed.

Lemma timeval_same d : nanos d < 1000000000 -> to_timeval_r d = to_timeval d.
Proof.
  intros Hn. unfold to_timeval, to_timeval_r, duration_ms, duration_ms_r, milliseconds, milliseconds_r. cbv zeta.
  change (I64_MAX / 1000) with 9223372036854775. set (s := if _ <? _ then _ else _).
  assert (Hs : s <= 9223372036854775) by (unfold s; destruct (N.ltb_spec 9223372036854775 (secs d)); lia). clearbody s.
  assert (Hm : nanos d / 1000000 < 1000) by (apply N.div_lt_upper_bound; lia). set (m := nanos d / 1000000) in *. clearbody m.
  set (n := s * 1000 + m). assert (Hx : n <= 9223372036854775999) by lia.
  change TV_MAX_SECONDS with 9223372036853. unfold I64_MAX. unfold wrap_i64.
  destruct (N.leb_spec n 9223372036854775807).
  - assert (W : ((Z.of_N n + 9223372036854775808) mod 18446744073709551616 - 9223372036854775808 = Z.of_N n)%Z)
      by (rewrite Z.mod_small by lia; lia).
    rewrite W. change (Z.of_N 9223372036854775807) with 9223372036854775807%Z. change (Z.of_N 9223372036853) with 9223372036853%Z. change (- (9223372036853))%Z with (-9223372036853)%Z.
    replace ((-9223372036854775808 <=? Z.of_N n * 1000)%Z) with true by lia. cbn [andb].
    replace (Z.of_N n / 1000)%Z with (Z.of_N (n / 1000)) by (rewrite N2Z.inj_div; reflexivity).
    replace ((-9223372036853 <=? Z.of_N (n / 1000))%Z) with true by lia. cbn [andb].
    destruct (N.leb_spec (n * 1000) 9223372036854775807); destruct (Z.leb_spec (Z.of_N n * 1000) 9223372036854775807); try lia; [|reflexivity].
    destruct (N.leb_spec (n / 1000) 9223372036853); destruct (Z.leb_spec (Z.of_N (n / 1000)) 9223372036853); try lia; [|reflexivity].
    now rewrite N2Z.id.
  - assert (W : ((Z.of_N n + 9223372036854775808) mod 18446744073709551616 = Z.of_N n - 9223372036854775808)%Z).
    { symmetry. apply Z.mod_unique with (q := 1%Z); lia. }
    rewrite W. destruct (Z.leb_spec (-9223372036854775808) ((Z.of_N n - 9223372036854775808 - 9223372036854775808) * 1000)); [lia|]. reflexivity.
Qed.

Section Rd.
  Variables (C : tcfg) (m : seq_map).
  Lemma peek_same s : osame (peek m s) (peek_r m s).
  Proof. unfold peek, peek_r. pstep (peeked_same (inbuf s) m) as v. triv. Qed.

  Definition sane (t : option duration) : Prop := match t with Some d => nanos d < 1000000000 | None => True end.

  Lemma wait_same t s : sane t -> osame (wait_event m t s) (wait_event_r m t s).
  Proof.
    intros Ht. unfold wait_event, wait_event_r. destruct (get_signal s) as [s1 [sig|]]; [triv|]. apply osame_bind; [apply peek_same|intros].
    destruct a; [triv|]. destruct t as [d|]; [|triv]. rewrite (timeval_same d Ht). triv.
  Qed.
  Lemma input_same room t s : sane t -> osame (read_input m room t s) (read_input_r m room t s).
  Proof.
    intros Ht. unfold read_input, read_input_r. destruct (take_signal s) as [s1 [sig|]]; [triv|]. apply osame_bind; [now apply wait_same|intros; triv].
  Qed.
  Lemma into_same t s : sane t -> osame (read_into_buffer C m t s) (read_into_buffer_r C m t s).
  Proof.
    intros Ht. unfold read_into_buffer, read_into_buffer_r. cbv zeta.
    match goal with |- osame (match read_input m ?r t ?x with _ => _ end) _ => ostep (input_same r t x Ht) end; triv.
  Qed.
  Lemma try_same s : osame (try_read m s) (try_read_r m s).
  Proof. unfold try_read, try_read_r. destruct (inbuf s); [triv|]. apply osame_bind; [apply peek_same|intros; triv]. Qed.
  Lemma read_same t s : sane t -> osame (read_event C m t s) (read_event_r C m t s).
  Proof.
    intros Ht. unfold read_event, read_event_r. apply osame_bind; [apply try_same|intros]. destruct a; [triv|].
    apply osame_bind; [now apply into_same|intros]. destruct a as [[|]|]; try triv. apply try_same.
  Qed.
  Lemma raw_same room t s : sane t -> osame (read_raw C m room t s) (read_raw_r C m room t s).
  Proof.
    intros Ht. unfold read_raw, read_raw_r. destruct (inbuf s); [|triv]. apply osame_bind; [now apply input_same|intros; triv].
  Qed.
End Rd.
