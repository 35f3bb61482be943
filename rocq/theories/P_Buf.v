From Verif Require Import Base M_Geom S_Geom P_Geom M_Attr M_Buf S_Buf.

(** * List updates *)
Definition upd {A} (i : nat) (x : A) (l : list A) : list A := firstn i l ++ x :: skipn (S i) l.

Lemma vec_set_upd {A} i (x : A) l : i < length l -> vec_set i x l = Some (upd i x l).
Proof. intros H. unfold vec_set. now replace (i <? length l) with true by lia. Qed.

Lemma upd_length {A} i (x : A) l : i < length l -> length (upd i x l) = length l.
Proof. intros H. unfold upd. rewrite app_length, firstn_length. cbn [length]. rewrite skipn_length. lia. Qed.

Lemma upd_cons {A} i (x y : A) l : upd (S i) x (y :: l) = y :: upd i x l.
Proof. reflexivity. Qed.

Lemma nth_upd {A} i j (x : A) l : i < length l ->
  nth_error (upd i x l) j = if j =? i then Some x else nth_error l j.
Proof.
  revert i j. induction l as [|y l IH]; intros i j H; simpl in H; [lia|].
  destruct i as [|i].
  - unfold upd; simpl. destruct j; reflexivity.
  - rewrite upd_cons. destruct j as [|j]; [reflexivity|]. simpl. apply IH. lia.
Qed.

Lemma Forall_upd {A} (P : A -> Prop) i x l : P x -> Forall P l -> Forall P (upd i x l).
Proof.
  intros Hx Hl. revert i. induction Hl as [|y l Hy Hl IH]; intros [|i].
  - unfold upd. simpl. auto.
  - unfold upd. simpl. auto.
  - unfold upd. simpl. auto.
  - rewrite upd_cons. auto.
Qed.

(** * Indexing *)
Lemma as_index_in u sz c : total sz <= u -> in_bounds c sz -> as_index u c sz = Val (cell_no sz c).
Proof.
  intros Ht Hc. apply as_index_spec; [|assumption]. destruct Hc. unfold valid_size, total in *. lia.
Qed.

Lemma try_cursor_at_spec b p : try_cursor_at b p = true <-> in_bounds p (bsize b).
Proof. unfold try_cursor_at, in_bounds. lia. Qed.

Lemma try_cursor_at_false b p : try_cursor_at b p = false <-> ~ in_bounds p (bsize b).
Proof. rewrite <- try_cursor_at_spec. destruct (try_cursor_at b p); split; congruence. Qed.

Lemma put_cell_in E b p c : total (bsize b) <= umax E -> length (buffer b) = total (bsize b) ->
  in_bounds p (bsize b) ->
  put_cell E b p c = Val (with_buffer b (upd (cell_no (bsize b) p) c (buffer b))).
Proof.
  intros Ht Hl Hp. unfold put_cell. rewrite as_index_in by assumption.
  rewrite vec_set_upd; [reflexivity|]. rewrite Hl. now apply cell_no_lt.
Qed.

Lemma get_cell_in E b p : total (bsize b) <= umax E -> length (buffer b) = total (bsize b) ->
  in_bounds p (bsize b) ->
  exists c, get_cell E b p = Val c /\ nth_error (buffer b) (cell_no (bsize b) p) = Some c.
Proof.
  intros Ht Hl Hp. unfold get_cell. rewrite as_index_in by assumption.
  destruct (nth_error (buffer b) (cell_no (bsize b) p)) as [c|] eqn:Ec; [now exists c|].
  apply nth_error_None in Ec. rewrite Hl in Ec. assert (Hlt := cell_no_lt _ _ Hp). lia.
Qed.

(** * Effect of the blanking of a split wide character *)
Definition unsplit (E : env) (i : nat) (l : list cell) : list cell :=
  match i with
  | 0 => l
  | S k => match nth_error l k with
           | Some c => if is_wide E c then upd k blank l else l
           | None => l
           end
  end.

Lemma unsplit_length E i l : i <= length l -> length (unsplit E i l) = length l.
Proof.
  intros H. unfold unsplit. destruct i as [|k]; [reflexivity|].
  destruct (nth_error l k) as [c|]; [|reflexivity].
  destruct (is_wide E c); [|reflexivity]. apply upd_length. lia.
Qed.

Lemma nth_unsplit E i j l : i <= length l ->
  nth_error (unsplit E i l) j =
  match nth_error l j with
  | Some c => if (S j =? i) && is_wide E c then Some blank else Some c
  | None => None
  end.
Proof.
  intros H. unfold unsplit. destruct i as [|k].
  - simpl. now destruct (nth_error l j).
  - destruct (nth_error l k) as [c|] eqn:Ek.
    2: { apply nth_error_None in Ek. lia. }
    destruct (is_wide E c) eqn:Ew.
    + rewrite nth_upd by lia. simpl (S j =? S k). destruct (Nat.eqb_spec j k) as [->|Hn].
      * rewrite Ek, Ew. reflexivity.
      * now destruct (nth_error l j).
    + simpl (S j =? S k). destruct (Nat.eqb_spec j k) as [->|Hn].
      * rewrite Ek, Ew. reflexivity.
      * now destruct (nth_error l j).
Qed.

Lemma clear_wide_spec E b : total (bsize b) <= umax E -> length (buffer b) = total (bsize b) ->
  in_bounds (bcur b) (bsize b) ->
  clear_wide_before E b =
  Val (with_buffer b (unsplit E (cell_no (bsize b) (bcur b)) (buffer b))).
Proof.
  intros Ht Hl Hc. unfold clear_wide_before. rewrite previous_spec by assumption.
  assert (Hlt := cell_no_lt _ _ Hc).
  destruct (cell_no (bsize b) (bcur b)) as [|k] eqn:Ek.
  - simpl. destruct b; reflexivity.
  - replace (S k =? 0) with false by reflexivity. replace (S k - 1) with k by lia.
    assert (Hp : in_bounds (cell_pos (bsize b) k) (bsize b)) by (apply cell_pos_in; lia).
    assert (Hk : cell_no (bsize b) (cell_pos (bsize b) k) = k).
    { apply cell_pos_no. destruct Hc. lia. }
    destruct (get_cell_in E b _ Ht Hl Hp) as (c & Hg & Hn). rewrite Hg.
    rewrite Hk in Hn. simpl. rewrite Hn. destruct (is_wide E c).
    + rewrite put_cell_in by assumption. now rewrite Hk.
    + destruct b; reflexivity.
Qed.

(** * Widths *)
Lemma printable_width E c : printable E c -> width0 E c = 1 \/ width0 E c = 2.
Proof. intros (_ & _ & _ & _ & [H|H]); unfold width0; rewrite H; auto. Qed.

Lemma printable_visible E c : printable E c -> is_visible E c = true.
Proof.
  intros H. unfold is_visible. destruct (printable_width E c H) as [->| ->]; now destruct (_ || _).
Qed.

Lemma visible_printable E c : env_ok E -> c <> TAB -> c <> CR -> c <> LF -> combining E c = false ->
  is_visible E c = true -> printable E c.
Proof.
  intros HE H1 H2 H3 H4 H5. repeat (split; [assumption|]).
  destruct HE as (_ & _ & Hw & _). unfold is_visible in H5.
  replace ((c =? TAB)%N) with false in H5 by (unfold TAB in *; lia).
  replace ((c =? CR)%N) with false in H5 by (unfold CR in *; lia).
  replace ((c =? LF)%N) with false in H5 by (unfold LF in *; lia).
  simpl in H5. unfold width0 in H5. destruct (cwidth E c) as [w|] eqn:Ew; [|discriminate].
  specialize (Hw c w Ew). destruct w as [|[|[|w]]]; try discriminate; auto; lia.
Qed.

Lemma space_printable E : env_ok E -> narrow E SPACE.
Proof.
  intros (H1 & H2 & _). split; [|assumption].
  repeat split; try discriminate; auto.
Qed.

Lemma printable_ne E c : printable E c -> ((c =? TAB) = false /\ (c =? CR) = false /\ (c =? LF) = false)%N.
Proof. intros (H1 & H2 & H3 & _). repeat split; apply N.eqb_neq; assumption. Qed.

(** * Effect of writing a printable character that fits on the line *)
Definition new_cell (b : sbuf) (ch : N) : cell := Cell (battrs b) [ch].

Definition put_wide (b : sbuf) (i : nat) (ch : N) (l : list cell) (w : nat) : list cell :=
  if w =? 2 then upd (S i) (new_cell b SPACE) (upd i (new_cell b ch) l)
  else upd i (new_cell b ch) l.

(** cursor after advancing [w] from an in-bounds cursor *)
Definition advance (sz : size) (c : cursor) (w : nat) : cursor :=
  if columns sz <=? column c + w then Cursor (line c + 1) 0 else Cursor (line c) (column c + w).

Lemma lines_bound u sz c : total sz <= u -> in_bounds c sz -> line c + 1 <= u /\ column c + 1 <= u.
Proof. unfold total. intros H [H1 H2]. nia. Qed.

Lemma columns_bound u sz c : total sz <= u -> in_bounds c sz -> columns sz <= u.
Proof. unfold total. intros H [H1 H2]. nia. Qed.

Lemma place_char_spec E b ch w : total (bsize b) <= umax E -> length (buffer b) = total (bsize b) ->
  in_bounds (bcur b) (bsize b) -> w = 1 \/ w = 2 -> column (bcur b) + w <= columns (bsize b) ->
  place_char E b ch w =
  Ret (SBuf (put_wide b (cell_no (bsize b) (bcur b)) ch (buffer b) w)
            (back b) (bsize b) (advance (bsize b) (bcur b) w) (battrs b)) tt.
Proof.
  intros Ht Hl Hc Hw Hfit. unfold place_char.
  assert (Htry : try_cursor b = true) by now apply try_cursor_at_spec.
  rewrite Htry. unfold set_cell. rewrite put_cell_in by assumption.
  assert (Hlb := lines_bound _ _ _ Ht Hc). assert (Hcb := columns_bound _ _ _ Ht Hc).
  assert (Hlt := cell_no_lt _ _ Hc).
  set (i := cell_no (bsize b) (bcur b)) in *.
  unfold advance, uadd.
  destruct Hw as [-> | ->].
  - simpl fill_spaces. cbn [bcur bsize with_buffer].
    replace (column (bcur b) + 1 <=? umax E) with true by lia.
    destruct (columns (bsize b) <=? column (bcur b) + 1).
    + replace (line (bcur b) + 1 <=? umax E) with true by lia. reflexivity.
    + reflexivity.
  - cbn [fill_spaces Nat.sub]. unfold uadd. cbn [bcur bsize with_buffer].
    replace (column (bcur b) + 1 <=? umax E) with true by lia.
    unfold set_cell.
    rewrite put_cell_in; cbn [bcur bsize with_buffer buffer battrs]; try assumption.
    2: { now rewrite upd_length by lia. }
    2: { destruct Hc. split; simpl; lia. }
    replace (cell_no (bsize b) {| line := line (bcur b); column := column (bcur b) + 1 |}) with (S i)
      by (unfold i, cell_no; simpl; lia).
    cbn [bcur bsize with_buffer buffer battrs].
    replace (column (bcur b) + 2 <=? umax E) with true by lia.
    destruct (columns (bsize b) <=? column (bcur b) + 2).
    + replace (line (bcur b) + 1 <=? umax E) with true by lia. reflexivity.
    + reflexivity.
Qed.

Lemma put_wide_length b i ch l w : i + w <= length l -> w = 1 \/ w = 2 -> length (put_wide b i ch l w) = length l.
Proof.
  intros H [-> | ->]; unfold put_wide; simpl.
  - apply upd_length. lia.
  - rewrite !upd_length; try rewrite upd_length; lia.
Qed.

(** Writing a printable character that fits on the current line. *)
Lemma write_fit E b ch : buf_ok E b -> in_bounds (bcur b) (bsize b) -> printable E ch ->
  column (bcur b) + width0 E ch <= columns (bsize b) ->
  write_nontab E b ch =
  Ret (SBuf (put_wide b (cell_no (bsize b) (bcur b)) ch
                      (unsplit E (cell_no (bsize b) (bcur b)) (buffer b)) (width0 E ch))
            (back b) (bsize b) (advance (bsize b) (bcur b) (width0 E ch)) (battrs b)) tt.
Proof.
  intros (Ht & Hl & _) Hc Hp Hfit. unfold write_nontab.
  destruct (printable_ne E ch Hp) as (_ & -> & ->).
  replace (combining E ch) with false by (symmetry; apply Hp).
  rewrite (printable_visible E ch Hp).
  replace (try_cursor b) with true by (symmetry; now apply try_cursor_at_spec).
  rewrite clear_wide_spec by assumption. cbn [bsize bcur with_buffer].
  unfold usub. replace (column (bcur b) <=? columns (bsize b)) with true by lia.
  unfold wrap_wide. replace (columns (bsize b) - column (bcur b) <? width0 E ch) with false by lia.
  cbn [obind]. assert (Hlt := cell_no_lt _ _ Hc).
  rewrite place_char_spec; cbn [bsize bcur with_buffer buffer back battrs]; try assumption.
  - reflexivity.
  - rewrite unsplit_length; lia.
  - now apply printable_width.
Qed.

(** Writing a wide character in the last column. *)
Definition wide_wrapped (E : env) (b : sbuf) (ch : N) : list cell :=
  let i := cell_no (bsize b) (bcur b) in
  upd i (new_cell b ch) (unsplit E i (buffer b)).

Lemma write_wrap E b ch : buf_ok E b -> in_bounds (bcur b) (bsize b) -> wide E ch ->
  2 <= columns (bsize b) -> column (bcur b) + 1 = columns (bsize b) ->
  write_nontab E b ch =
  if lines (bsize b) <=? line (bcur b) + 1 then
    Fail (SBuf (wide_wrapped E b ch) (back b) (bsize b) (Cursor (line (bcur b) + 1) 0) (battrs b)) tt
  else
    Ret (SBuf (put_wide b (S (cell_no (bsize b) (bcur b))) ch (wide_wrapped E b ch) 2)
              (back b) (bsize b) (advance (bsize b) (Cursor (line (bcur b) + 1) 0) 2) (battrs b)) tt.
Proof.
  intros (Ht & Hl & _) Hc [Hp Hw] Hcols Hlast. unfold write_nontab.
  destruct (printable_ne E ch Hp) as (_ & -> & ->).
  replace (combining E ch) with false by (symmetry; apply Hp).
  rewrite (printable_visible E ch Hp).
  replace (try_cursor b) with true by (symmetry; now apply try_cursor_at_spec).
  rewrite clear_wide_spec by assumption. cbn [bsize bcur with_buffer].
  unfold usub. replace (column (bcur b) <=? columns (bsize b)) with true by lia.
  replace (columns (bsize b) - column (bcur b)) with 1 by lia.
  replace (width0 E ch) with 2 by (unfold width0; now rewrite Hw).
  assert (Hlt := cell_no_lt _ _ Hc). assert (Hlb := lines_bound _ _ _ Ht Hc).
  assert (Hcb := columns_bound _ _ _ Ht Hc).
  unfold wrap_wide. replace (1 <? 2) with true by reflexivity.
  unfold try_cursor. cbn [bcur with_buffer].
  replace (try_cursor_at (with_buffer b _) (bcur b)) with true
    by (symmetry; now apply try_cursor_at_spec).
  cbn [fill_cells]. unfold set_cell.
  rewrite put_cell_in; cbn [bsize bcur with_buffer buffer battrs]; try assumption.
  2: { rewrite unsplit_length; lia. }
  unfold uadd. replace (column (bcur b) + 1 <=? umax E) with true by lia.
  cbn [bsize bcur with_buffer].
  replace (line (bcur b) + 1 <=? umax E) with true by lia.
  cbn [obind]. unfold with_buffer, with_cur; cbn [bsize bcur buffer back battrs].
  destruct (Nat.leb_spec (lines (bsize b)) (line (bcur b) + 1)) as [Hend|Hmore].
  - unfold place_char, try_cursor, try_cursor_at. cbn [bsize bcur line column].
    replace (lines (bsize b) <=? line (bcur b) + 1) with true by lia. reflexivity.
  - assert (Hc' : in_bounds (Cursor (line (bcur b) + 1) 0) (bsize b)) by (destruct Hc; split; simpl; lia).
    rewrite place_char_spec; cbn [bsize bcur buffer back battrs]; try assumption; auto.
    + replace (cell_no (bsize b) {| line := line (bcur b) + 1; column := 0 |})
        with (S (cell_no (bsize b) (bcur b))) by (unfold cell_no; simpl; nia).
      reflexivity.
    + rewrite upd_length; rewrite unsplit_length; lia.
Qed.

(** The other branches. *)
Lemma write_cr E b : write_nontab E b CR = Ret (with_cur b (Cursor (line (bcur b)) 0)) tt.
Proof. reflexivity. Qed.

Lemma write_lf E b : write_nontab E b LF =
  if line (bcur b) + 1 <=? umax E then Ret (with_cur b (Cursor (line (bcur b) + 1) 0)) tt else Panic.
Proof. unfold write_nontab, uadd. simpl. now destruct (_ <=? _). Qed.

Lemma write_oob E b ch : printable E ch -> ~ in_bounds (bcur b) (bsize b) ->
  write_nontab E b ch = Fail b tt.
Proof.
  intros Hp Hc. unfold write_nontab.
  destruct (printable_ne E ch Hp) as (_ & -> & ->).
  replace (combining E ch) with false by (symmetry; apply Hp).
  rewrite (printable_visible E ch Hp).
  replace (try_cursor b) with false by (symmetry; now apply try_cursor_at_false).
  reflexivity.
Qed.

Lemma write_mark E b ch : buf_ok E b -> 1 <= columns (bsize b) -> mark E ch ->
  exists b', (write_nontab E b ch = Ret b' tt \/ write_nontab E b ch = Fail b' tt) /\
    (b' = b \/
     exists prev c, cursor_previous (bcur b) (bsize b) = Val (Some prev) /\
       in_bounds prev (bsize b) /\
       nth_error (buffer b) (cell_no (bsize b) prev) = Some c /\
       b' = with_buffer b (upd (cell_no (bsize b) prev) (Cell (cattrs c) (ctext c ++ [ch])) (buffer b))).
Proof.
  intros (Ht & Hl & _) Hcols (H1 & H2 & H3 & H4). unfold write_nontab.
  replace ((ch =? CR)%N) with false by (symmetry; now apply N.eqb_neq).
  replace ((ch =? LF)%N) with false by (symmetry; now apply N.eqb_neq).
  rewrite H4. destruct (cursor_previous (bcur b) (bsize b)) as [[prev|]|] eqn:Ep.
  - destruct (try_cursor_at b prev) eqn:Et.
    + apply try_cursor_at_spec in Et.
      destruct (get_cell_in E b prev Ht Hl Et) as (c & -> & Hn).
      rewrite put_cell_in by assumption. eexists. split; [now left|]. right.
      exists prev, c. auto.
    + exists b. auto.
  - exists b. auto.
  - exfalso. unfold cursor_previous, usub in Ep.
    replace (1 <=? columns (bsize b)) with true in Ep by lia.
    destruct (_ =? _); [destruct (_ =? _)|]; discriminate.
Qed.

Lemma write_nothing E b ch : ch <> TAB -> ch <> CR -> ch <> LF -> combining E ch = false ->
  ~ printable E ch -> env_ok E -> write_nontab E b ch = Ret b tt.
Proof.
  intros H1 H2 H3 H4 H5 HE. unfold write_nontab.
  replace ((ch =? CR)%N) with false by (symmetry; now apply N.eqb_neq).
  replace ((ch =? LF)%N) with false by (symmetry; now apply N.eqb_neq).
  rewrite H4. destruct (is_visible E ch) eqn:Ev; [|reflexivity].
  exfalso. apply H5. now apply visible_printable.
Qed.

(** Case analysis on a character. *)
Lemma char_cases E ch : env_ok E ->
  ch = TAB \/ ch = CR \/ ch = LF \/ mark E ch \/ printable E ch \/
  (ch <> TAB /\ ch <> CR /\ ch <> LF /\ combining E ch = false /\ ~ printable E ch).
Proof.
  intros HE.
  destruct (N.eq_dec ch TAB) as [|H1]; [now left|].
  destruct (N.eq_dec ch CR) as [|H2]; [now (right; left)|].
  destruct (N.eq_dec ch LF) as [|H3]; [now (right; right; left)|].
  right; right; right. destruct (combining E ch) eqn:Ec.
  - left. repeat split; assumption.
  - right. destruct (is_visible E ch) eqn:Ev.
    + left. now apply visible_printable.
    + right. do 3 (split; [assumption|]). split; [reflexivity|]. intros Hp. apply printable_visible in Hp. congruence.
Qed.

(** * Invariant *)
Lemma cell_ok_blank E : env_ok E -> cell_text_ok E (ctext blank).
Proof. intros HE. exists SPACE, []. repeat split; auto; try apply (space_printable E HE). Qed.

Lemma cell_ok_new E b ch : printable E ch -> cell_text_ok E (ctext (new_cell b ch)).
Proof. intros H. exists ch, []. auto. Qed.

Lemma Forall_unsplit E i l : env_ok E -> Forall (fun c => cell_text_ok E (ctext c)) l ->
  Forall (fun c => cell_text_ok E (ctext c)) (unsplit E i l).
Proof.
  intros HE H. unfold unsplit. destruct i as [|k]; [assumption|].
  destruct (nth_error l k) as [c|]; [|assumption]. destruct (is_wide E c); [|assumption].
  apply Forall_upd; [now apply cell_ok_blank|assumption].
Qed.

Lemma Forall_put_wide E b i ch l w : env_ok E -> printable E ch ->
  Forall (fun c => cell_text_ok E (ctext c)) l ->
  Forall (fun c => cell_text_ok E (ctext c)) (put_wide b i ch l w).
Proof.
  intros HE Hp H. unfold put_wide. destruct (w =? 2).
  - apply Forall_upd; [now apply cell_ok_new, space_printable|].
    apply Forall_upd; [now apply cell_ok_new|assumption].
  - apply Forall_upd; [now apply cell_ok_new|assumption].
Qed.

(** the part of the state a write leaves alone *)
Definition same_frame (b b' : sbuf) : Prop :=
  back b' = back b /\ bsize b' = bsize b /\ battrs b' = battrs b.

Definition step_ok_res (E : env) (b : sbuf) (nl : nat) (r : bout) : Prop :=
  exists b', (r = Ret b' tt \/ r = Fail b' tt) /\ buf_ok E b' /\ same_frame b b' /\
    line (bcur b') <= Nat.max (line (bcur b)) (lines (bsize b)) + nl.

Lemma same_frame_refl b : same_frame b b.
Proof. repeat split. Qed.

Lemma same_frame_trans a b c : same_frame a b -> same_frame b c -> same_frame a c.
Proof. intros (H1 & H2 & H3) (H4 & H5 & H6). repeat split; congruence. Qed.

Lemma advance_line sz c w : in_bounds c sz -> line (advance sz c w) <= lines sz.
Proof. intros [H1 H2]. unfold advance. destruct (_ <=? _); simpl; lia. Qed.

Lemma write_nontab_step E b ch : env_ok E -> buf_ok E b -> 1 <= columns (bsize b) ->
  (wide E ch -> 2 <= columns (bsize b)) -> ch <> TAB ->
  (ch = LF -> line (bcur b) + 1 <= umax E) ->
  step_ok_res E b (if N.eqb ch LF then 1 else 0) (write_nontab E b ch).
Proof.
  intros HE Hb Hcols Hwd HT HLF.
  destruct (char_cases E ch HE) as [->|[->|[->|[Hm|[Hp|(H1&H2&H3&H4&H5)]]]]]; [congruence|..].
  - rewrite write_cr. eexists. split; [now left|]. split; [exact Hb|]. split; [repeat split|]. simpl. lia.
  - rewrite write_lf. specialize (HLF eq_refl). replace (_ <=? _) with true by lia.
    eexists. split; [now left|]. split; [exact Hb|]. split; [repeat split|]. simpl. lia.
  - destruct (write_mark E b ch Hb ltac:(lia) Hm) as (b' & Hr & Hb'). exists b'. split; [exact Hr|].
    destruct Hb' as [->|(prev & c & Hprev & Hin & Hn & ->)].
    + split; [exact Hb|]. split; [apply same_frame_refl|]. lia.
    + destruct Hb as (Hb1 & Hb2 & Hb3 & Hb4). assert (Hlt := cell_no_lt _ _ Hin).
      split; [|split; [repeat split|simpl; lia]].
      repeat split; cbn [bsize buffer back with_buffer]; try assumption.
      * now rewrite upd_length by lia.
      * apply Forall_upd; [|assumption]. cbn [ctext].
        rewrite Forall_forall in Hb4. destruct (Hb4 c (nth_error_In _ _ Hn)) as (c0 & ms & -> & Hc0 & Hms).
        exists c0, (ms ++ [ch]). split; [reflexivity|]. split; [assumption|].
        apply Forall_app. auto.
  - destruct (printable_ne E ch Hp) as (_ & _ & ->).
    destruct (try_cursor b) eqn:Et.
    2: { apply try_cursor_at_false in Et. rewrite write_oob by assumption.
         exists b. split; [now right|]. split; [exact Hb|]. split; [apply same_frame_refl|]. lia. }
    apply try_cursor_at_spec in Et. assert (Hlt := cell_no_lt _ _ Et).
    assert (Hb' := Hb). destruct Hb' as (Hb1 & Hb2 & Hb3 & Hb4).
    destruct (Nat.le_gt_cases (column (bcur b) + width0 E ch) (columns (bsize b))) as [Hfit|Hno].
    + rewrite write_fit by assumption. eexists. split; [now left|]. split; [|split; [repeat split|]].
      * assert (Hi : cell_no (bsize b) (bcur b) + width0 E ch <= total (bsize b)).
        { unfold cell_no, total. destruct Et. nia. }
        repeat split; cbn [bsize buffer back]; try assumption.
        -- rewrite put_wide_length; rewrite ?unsplit_length; try lia. now apply printable_width.
        -- now apply Forall_put_wide, Forall_unsplit.
      * cbn [bcur]. assert (H := advance_line (bsize b) (bcur b) (width0 E ch) Et). lia.
    + assert (Hw : wide E ch).
      { split; [assumption|]. assert (H := Hp). destruct H as (_ & _ & _ & _ & [H|H]); [|assumption].
        unfold width0 in Hno. rewrite H in Hno. destruct Et. lia. }
      assert (Hlast : column (bcur b) + 1 = columns (bsize b)).
      { destruct Et. destruct (printable_width E ch Hp); lia. }
      specialize (Hwd Hw). rewrite write_wrap by assumption.
      assert (HF : Forall (fun c => cell_text_ok E (ctext c)) (wide_wrapped E b ch)).
      { apply Forall_upd; [now apply cell_ok_new|now apply Forall_unsplit]. }
      assert (HL : length (wide_wrapped E b ch) = total (bsize b)).
      { unfold wide_wrapped. rewrite upd_length; rewrite unsplit_length; lia. }
      destruct (Nat.leb_spec (lines (bsize b)) (line (bcur b) + 1)) as [Hend|Hmore].
      * eexists. split; [now right|]. split; [|split; [repeat split|]].
        -- repeat split; cbn [bsize buffer back]; assumption.
        -- cbn [bcur line]. destruct Et. lia.
      * assert (Hc' : in_bounds (Cursor (line (bcur b) + 1) 0) (bsize b)) by (destruct Et; split; simpl; lia).
        assert (Hlt' := cell_no_lt _ _ Hc').
        assert (Hi : S (cell_no (bsize b) (bcur b)) + 2 <= total (bsize b)).
        { unfold cell_no, total. destruct Et. nia. }
        eexists. split; [now left|]. split; [|split; [repeat split|]].
        -- repeat split; cbn [bsize buffer back]; try assumption.
           ++ rewrite put_wide_length; rewrite ?HL; auto; lia.
           ++ now apply Forall_put_wide.
        -- cbn [bcur]. assert (H := advance_line (bsize b) _ 2 Hc'). lia.
  - rewrite write_nothing by assumption.
    exists b. split; [now left|]. split; [exact Hb|]. split; [apply same_frame_refl|]. lia.
Qed.

Lemma step_ok_bind E b n m r k :
  step_ok_res E b n r ->
  (forall b', buf_ok E b' -> same_frame b b' ->
     line (bcur b') <= Nat.max (line (bcur b)) (lines (bsize b)) + n ->
     step_ok_res E b' m (k b')) ->
  step_ok_res E b (n + m) (obind r (fun s _ => k s)).
Proof.
  intros (b' & Hr & Hb & Hf & Hl) Hk. destruct Hr as [-> | ->]; cbn [obind].
  - destruct (Hk b' Hb Hf Hl) as (b'' & Hr' & Hb' & Hf' & Hl').
    exists b''. split; [assumption|]. split; [assumption|].
    split; [eapply same_frame_trans; eassumption|]. destruct Hf as (_ & Hs & _). rewrite Hs in Hl'. lia.
  - exists b'. split; [now right|]. split; [assumption|]. split; [assumption|]. lia.
Qed.

Lemma space_not_wide E : env_ok E -> ~ wide E SPACE.
Proof. intros (H & _) [_ H']. congruence. Qed.

Lemma write_spaces_step E n : env_ok E -> forall b, buf_ok E b -> 1 <= columns (bsize b) ->
  step_ok_res E b 0 (write_spaces E n b).
Proof.
  intros HE. induction n as [|n IH]; intros b Hb Hcols.
  - exists b. split; [now left|]. split; [exact Hb|]. split; [apply same_frame_refl|]. lia.
  - cbn [write_spaces]. change 0 with (0 + 0). apply step_ok_bind.
    + apply (write_nontab_step E b SPACE); auto; try discriminate.
      intros Hw. exfalso. now apply (space_not_wide E HE).
    + intros b' Hb' (_ & Hs & _) _. apply IH; [assumption|]. now rewrite Hs.
Qed.

Lemma write_char_step E b ch : env_ok E -> buf_ok E b -> 1 <= columns (bsize b) ->
  (wide E ch -> 2 <= columns (bsize b)) ->
  (ch = LF -> line (bcur b) + 1 <= umax E) ->
  step_ok_res E b (newlines [ch]) (write_char E b ch).
Proof.
  intros HE Hb Hcols Hwd HLF. unfold write_char. destruct (N.eqb_spec ch TAB) as [->|HT].
  - change (newlines [TAB]) with 0. destruct (try_cursor b) eqn:Et.
    + apply try_cursor_at_spec in Et. destruct Et. unfold usub.
      replace (_ <=? _) with true by lia. now apply write_spaces_step.
    + exists b. split; [now right|]. split; [exact Hb|]. split; [apply same_frame_refl|]. lia.
  - replace (newlines [ch]) with (if N.eqb ch LF then 1 else 0).
    + now apply write_nontab_step.
    + unfold newlines. simpl. destruct (N.eqb_spec ch LF), (N.eq_dec ch LF); congruence.
Qed.

Lemma newlines_cons ch s : newlines (ch :: s) = newlines [ch] + newlines s.
Proof. unfold newlines. simpl. destruct (N.eq_dec ch LF); reflexivity. Qed.

Lemma write_str_step E s : env_ok E -> forall b, buf_ok E b -> 1 <= columns (bsize b) ->
  Forall (fun ch => wide E ch -> 2 <= columns (bsize b)) s ->
  line (bcur b) + newlines s <= umax E -> lines (bsize b) + newlines s <= umax E ->
  step_ok_res E b (newlines s) (write_str E b s).
Proof.
  intros HE. induction s as [|ch s IH]; intros b Hb Hcols Hwd H1 H2.
  - exists b. split; [now left|]. split; [exact Hb|]. split; [apply same_frame_refl|]. lia.
  - inversion Hwd; subst. rewrite newlines_cons in *. cbn [write_str]. apply step_ok_bind.
    + apply write_char_step; auto. intros ->. change (newlines [LF]) with 1 in H1. lia.
    + intros b' Hb' (_ & Hs & _) Hl. apply IH; rewrite ?Hs; try assumption; lia.
Qed.

Lemma ignore_step E b n r : step_ok_res E b n r ->
  exists b', ignore_err r = Val b' /\ buf_ok E b' /\ bsize b' = bsize b /\ back b' = back b /\
    line (bcur b') <= Nat.max (line (bcur b)) (lines (bsize b)) + n.
Proof.
  intros (b' & [-> | ->] & Hb & (H1 & H2 & _) & Hl); exists b'; auto.
Qed.
