(** Text layout. *)
From Verif Require Import Base M_Geom S_Geom P_Geom M_Attr M_Buf S_Buf P_Buf P_Buf2.

Lemma cell_pos_S sz c : in_bounds c sz -> advance sz c 1 = cell_pos sz (S (cell_no sz c)).
Proof.
  intros [Hl Hc]. unfold advance. destruct (Nat.leb_spec (columns sz) (column c + 1)) as [H|H].
  - replace (S (cell_no sz c)) with (cell_no sz (Cursor (line c + 1) 0)) by (unfold cell_no; simpl; nia).
    symmetry. apply cell_no_pos. simpl. lia.
  - replace (S (cell_no sz c)) with (cell_no sz (Cursor (line c) (column c + 1))) by (unfold cell_no; simpl; lia).
    symmetry. apply cell_no_pos. simpl. lia.
Qed.

Lemma cell_pos_total sz : 0 < columns sz -> cell_pos sz (total sz) = Cursor (lines sz) 0.
Proof.
  intros H. unfold cell_pos, total. f_equal.
  - now rewrite Nat.div_mul by lia.
  - now rewrite Nat.mod_mul by lia.
Qed.

Lemma narrow_width E c : narrow E c -> width0 E c = 1.
Proof. intros [_ H]. unfold width0. now rewrite H. Qed.

Lemma write_narrow E b ch : buf_ok E b -> in_bounds (bcur b) (bsize b) -> narrow E ch ->
  write_char E b ch =
  Ret (SBuf (upd (cell_no (bsize b) (bcur b)) (new_cell b ch)
                      (unsplit E (cell_no (bsize b) (bcur b)) (buffer b)))
            (back b) (bsize b) (cell_pos (bsize b) (S (cell_no (bsize b) (bcur b)))) (battrs b)) tt.
Proof.
  intros Hb Hc Hn. unfold write_char. destruct (printable_ne E ch (proj1 Hn)) as (-> & _ & _).
  assert (Hw := narrow_width E ch Hn).
  rewrite write_fit; try assumption; [|apply Hn|rewrite Hw; destruct Hc; lia].
  rewrite Hw. rewrite cell_pos_S by assumption. reflexivity.
Qed.

Lemma wide_at_is_wide E b j :
  wide_at E b j = match cell_at b j with Some c => is_wide E c | None => false end.
Proof.
  unfold wide_at, is_wide, width0. destruct (cell_at b j) as [c|]; [|reflexivity].
  destruct (ctext c) as [|x t]; [reflexivity|]. destruct (cwidth E x) as [[|[|[|w]]]|]; reflexivity.
Qed.

(** C15, general form. *)
Lemma layout E s : env_ok E -> forall b, buf_ok E b -> in_bounds (bcur b) (bsize b) -> Forall (narrow E) s ->
  let sz := bsize b in
  let i := cell_no sz (bcur b) in
  let n := Nat.min (length s) (total sz - i) in
  exists b',
    write_str E b s = (if length s <=? total sz - i then Ret b' tt else Fail b' tt) /\
    bsize b' = sz /\ back b' = back b /\ battrs b' = battrs b /\
    buf_ok E b' /\
    bcur b' = cell_pos sz (i + n) /\
    (forall k c, k < n -> nth_error s k = Some c -> cell_at b' (i + k) = Some (Cell (battrs b) [c])) /\
    (forall j, j < i \/ i + n <= j ->
       cell_at b' j = if (S j =? i) && negb (length s =? 0) && wide_at E b j then Some blank else cell_at b j).
Proof.
  intros HE. induction s as [|ch s IH]; intros b Hb Hc Hs; cbv zeta.
  - assert (Hlt := cell_no_lt _ _ Hc). exists b. cbn [length write_str]. rewrite Nat.min_0_l, Nat.add_0_r.
    replace (0 <=? _) with true by reflexivity.
    repeat (split; [try reflexivity; try assumption|]).
    + symmetry. apply cell_no_pos, Hc.
    + intros k c Hk. lia.
    + intros j _. simpl (0 =? 0). now rewrite andb_false_r.
  - inversion Hs as [|? ? Hch Hrest]; subst. assert (Hlt := cell_no_lt _ _ Hc).
    set (sz := bsize b) in *. set (i := cell_no sz (bcur b)) in *.
    assert (Hcols : 0 < columns sz) by (destruct Hc; lia).
    cbn [write_str length]. rewrite write_narrow by assumption. fold sz. fold i. cbn [obind].
    set (b1 := SBuf _ _ _ _ _).
    assert (Hb1len : length (unsplit E i (buffer b)) = total sz).
    { rewrite unsplit_length; [apply Hb|]. destruct Hb as (_ & -> & _). fold sz. lia. }
    assert (Hi_len : i <= length (buffer b)) by (destruct Hb as (_ & -> & _); fold sz; lia).
    assert (Hb1 : buf_ok E b1).
    { destruct Hb as (A & B & C & D). repeat split; cbn; try assumption.
      - rewrite upd_length; lia.
      - apply Forall_upd; [now apply cell_ok_new, Hch|now apply Forall_unsplit]. }
    assert (Hb1n : forall j, cell_at b1 j =
              if j =? i then Some (Cell (battrs b) [ch])
              else if (S j =? i) && wide_at E b j then Some blank else cell_at b j).
    { intros j. unfold cell_at. cbn [buffer b1]. rewrite nth_upd by lia.
      destruct (j =? i); [reflexivity|]. rewrite nth_unsplit by assumption.
      rewrite ?wide_at_is_wide. unfold cell_at. destruct (nth_error (buffer b) j); [reflexivity|].
      now rewrite andb_false_r. }
    destruct (Nat.eq_dec (S i) (total sz)) as [Hend|Hmore].
    + (* the character filled the last cell *)
      replace (Nat.min (S (length s)) (total sz - i)) with 1 by lia.
      assert (Hcur1 : bcur b1 = Cursor (lines sz) 0).
      { cbn [bcur b1]. rewrite Hend. now apply cell_pos_total. }
      exists b1. split.
      { destruct s as [|ch2 s2].
        - simpl. replace (total sz - i) with 1 by lia. reflexivity.
        - replace (S (length (ch2 :: s2)) <=? total sz - i) with false by (simpl length; lia).
          inversion Hrest as [|? ? Hch2 _]; subst. cbn [write_str]. unfold write_char.
          destruct (printable_ne E ch2 (proj1 Hch2)) as (-> & _ & _).
          rewrite write_oob; [reflexivity|apply Hch2|]. rewrite Hcur1. cbn [bsize b1].
          unfold in_bounds. simpl. fold sz. lia. }
      repeat (split; [reflexivity || assumption|]).
      split; [cbn [bcur b1]; f_equal; lia|]. split.
      * intros k c Hk Hnth. replace k with 0 in * by lia. simpl in Hnth. injection Hnth as ->.
        rewrite Nat.add_0_r, Hb1n. now rewrite Nat.eqb_refl.
      * intros j Hj. rewrite Hb1n. replace (j =? i) with false by lia. simpl (negb (S _ =? 0)).
        now rewrite andb_true_r.
    + assert (Hin1 : in_bounds (bcur b1) (bsize b1)).
      { cbn [bcur bsize b1]. fold sz. apply cell_pos_in. lia. }
      destruct (IH b1 Hb1 Hin1 Hrest) as (b' & Hw & H1 & H2 & H3 & H4 & H5 & H6 & H7).
      assert (Hno : cell_no (bsize b1) (bcur b1) = S i).
      { cbn [bcur bsize b1]. fold sz. now apply cell_pos_no. }
      rewrite Hno in *. change (bsize b1) with sz in *.
      exists b'. split.
      { rewrite Hw. replace (S (length s) <=? total sz - i) with (length s <=? total sz - S i); [reflexivity|].
        destruct (Nat.leb_spec (length s) (total sz - S i)), (Nat.leb_spec (S (length s)) (total sz - i)); lia. }
      split; [assumption|]. split; [rewrite H2; reflexivity|]. split; [rewrite H3; reflexivity|].
      split; [assumption|]. split.
      { rewrite H5. f_equal. lia. }
      split.
      * intros [|k] c Hk Hnth.
        -- simpl in Hnth. injection Hnth as ->. rewrite Nat.add_0_r. rewrite H7 by lia.
           replace (S i =? S i) with true by lia.
           assert (Hww : wide_at E b1 i = false).
           { rewrite wide_at_is_wide. rewrite Hb1n, Nat.eqb_refl. unfold is_wide. simpl.
             now rewrite (narrow_width E c Hch). }
           rewrite Hww, andb_false_r. rewrite Hb1n. now rewrite Nat.eqb_refl.
        -- simpl in Hnth. replace (i + S k) with (S i + k) by lia. rewrite (H6 k c); [reflexivity|lia|assumption].
      * intros j Hj. rewrite H7 by lia. replace (S j =? S i) with false by lia. cbn [andb].
        rewrite Hb1n. replace (j =? i) with false by lia. simpl (negb (S _ =? 0)). now rewrite andb_true_r.
Qed.

Lemma write_spaces_str E n : env_ok E -> forall b, write_spaces E n b = write_str E b (repeat SPACE n).
Proof.
  intros HE. induction n as [|n IH]; intros b; [reflexivity|].
  cbn [write_spaces write_str repeat]. unfold write_char. simpl (SPACE =? TAB)%N.
  destruct (write_nontab E b SPACE); cbn [obind]; auto.
Qed.

Lemma tab_count sz col : col < columns sz ->
  Nat.min (columns sz - col) (TAB_STOP - col mod TAB_STOP) = tab_target sz col - col.
Proof.
  intros H. unfold tab_target, TAB_STOP. pose proof (Nat.div_mod col 8). pose proof (Nat.mod_upper_bound col 8). lia.
Qed.

Lemma tab_layout E b : env_ok E -> buf_ok E b -> in_bounds (bcur b) (bsize b) ->
  let sz := bsize b in
  let l := line (bcur b) in
  let t := tab_target sz (column (bcur b)) in
  exists b',
    write_char E b TAB = Ret b' tt /\
    bsize b' = sz /\ back b' = back b /\ battrs b' = battrs b /\
    column (bcur b) < t /\
    bcur b' = (if t <? columns sz then Cursor l t else Cursor (l + 1) 0) /\
    (forall c, column (bcur b) <= c < t ->
       cell_at b' (cell_no sz (Cursor l c)) = Some (Cell (battrs b) [SPACE])) /\
    (forall j, j < cell_no sz (bcur b) \/ cell_no sz (Cursor l t) <= j ->
       cell_at b' j = if (S j =? cell_no sz (bcur b)) && wide_at E b j then Some blank else cell_at b j).
Proof.
  intros HE Hb Hc. cbv zeta. set (sz := bsize b) in *. set (col := column (bcur b)) in *.
  set (l := line (bcur b)) in *. set (t := tab_target sz col).
  assert (Hcl : col < columns sz /\ l < lines sz) by (destruct Hc; auto).
  assert (Ht : col < t /\ t <= columns sz).
  { unfold t, tab_target. pose proof (Nat.div_mod col 8). pose proof (Nat.mod_upper_bound col 8). lia. }
  unfold write_char. simpl (TAB =? TAB)%N. cbv iota.
  replace (try_cursor b) with true by (symmetry; now apply try_cursor_at_spec).
  unfold usub. fold sz. fold col. replace (col <=? columns sz) with true by lia.
  rewrite tab_count by lia. fold t. rewrite write_spaces_str by assumption.
  assert (Hsp : Forall (narrow E) (repeat SPACE (t - col))).
  { apply Forall_forall. intros c Hcc. apply repeat_spec in Hcc as ->. now apply space_printable. }
  destruct (layout E (repeat SPACE (t - col)) HE b Hb Hc Hsp) as (b' & Hw & H1 & H2 & H3 & _ & H5 & H6 & H7).
  fold sz in Hw, H1, H5, H6, H7. rewrite repeat_length in *.
  set (i := cell_no sz (bcur b)) in *.
  assert (Hi : i + (t - col) <= total sz).
  { unfold i, cell_no, total. fold l. fold col. nia. }
  replace (Nat.min (t - col) (total sz - i)) with (t - col) in * by lia.
  replace (t - col <=? total sz - i) with true in Hw by lia.
  exists b'. repeat (split; [assumption|]). split; [apply Ht|]. split.
  { rewrite H5. destruct (Nat.ltb_spec t (columns sz)).
    - replace (i + (t - col)) with (cell_no sz (Cursor l t)) by (unfold i, cell_no; fold l; fold col; simpl; lia).
      now apply cell_no_pos.
    - replace (i + (t - col)) with (cell_no sz (Cursor (l + 1) 0))
        by (unfold i, cell_no; fold l; fold col; simpl; nia).
      apply cell_no_pos. simpl. lia. }
  split.
  - intros c Hcc. replace (cell_no sz {| line := l; column := c |}) with (i + (c - col))
      by (unfold i, cell_no; fold l; fold col; simpl; lia).
    rewrite (H6 (c - col) SPACE); [reflexivity|lia|]. apply nth_repeat. lia.
  - intros j Hj. rewrite H7.
    + replace (t - col =? 0) with false by lia. simpl negb. now rewrite andb_true_r.
    + replace (i + (t - col)) with (cell_no sz (Cursor l t)); [assumption|].
      unfold i, cell_no; fold l; fold col; simpl; lia.
Qed.

Lemma tab_oob E b : ~ in_bounds (bcur b) (bsize b) -> write_char E b TAB = Fail b tt.
Proof. intros H. apply try_cursor_at_false in H. unfold write_char, try_cursor. now rewrite H. Qed.

(** Marks. *)
Lemma mark_layout E b m j : buf_ok E b -> mark E m -> column (bcur b) < columns (bsize b) ->
  cell_no (bsize b) (bcur b) = S j -> j < total (bsize b) ->
  exists c b', cell_at b j = Some c /\ write_char E b m = Ret b' tt /\
    bsize b' = bsize b /\ back b' = back b /\ battrs b' = battrs b /\ bcur b' = bcur b /\
    cell_at b' j = Some (Cell (cattrs c) (ctext c ++ [m])) /\
    (forall k, k <> j -> cell_at b' k = cell_at b k).
Proof.
  intros (Ht & Hl & _) (H1 & H2 & H3 & H4) Hcol Hj Hjt. unfold write_char, write_nontab.
  replace ((m =? TAB)%N) with false by (symmetry; now apply N.eqb_neq).
  replace ((m =? CR)%N) with false by (symmetry; now apply N.eqb_neq).
  replace ((m =? LF)%N) with false by (symmetry; now apply N.eqb_neq).
  rewrite H4.
  assert (Hprev : cursor_previous (bcur b) (bsize b) = Val (Some (cell_pos (bsize b) j))).
  { destruct (bcur b) as [l c] eqn:Ec. unfold cursor_previous, cell_no in *; cbn [line column] in *.
    destruct (Nat.eqb_spec c 0) as [->|Hc0].
    - destruct (Nat.eqb_spec l 0) as [->|Hl0]; [simpl in Hj; lia|]. unfold usub.
      replace (1 <=? columns (bsize b)) with true by lia. f_equal. f_equal.
      replace j with (cell_no (bsize b) (Cursor (l - 1) (columns (bsize b) - 1)))
        by (unfold cell_no; simpl; nia).
      symmetry. apply cell_no_pos. simpl. lia.
    - f_equal. f_equal. replace j with (cell_no (bsize b) (Cursor l (c - 1))) by (unfold cell_no; simpl; lia).
      symmetry. apply cell_no_pos. simpl. lia. }
  rewrite Hprev. assert (Hin := cell_pos_in (bsize b) j Hjt).
  assert (Hno : cell_no (bsize b) (cell_pos (bsize b) j) = j) by (apply cell_pos_no; lia).
  replace (try_cursor_at b (cell_pos (bsize b) j)) with true by (symmetry; now apply try_cursor_at_spec).
  destruct (get_cell_in E b _ Ht Hl Hin) as (c & -> & Hn). rewrite Hno in Hn.
  rewrite put_cell_in by assumption. rewrite Hno.
  exists c. eexists. split; [exact Hn|]. split; [reflexivity|]. cbn.
  repeat (split; [reflexivity|]). unfold cell_at. cbn. split.
  - rewrite nth_upd by lia. now rewrite Nat.eqb_refl.
  - intros k Hk. rewrite nth_upd by lia. now replace (k =? j) with false by lia.
Qed.

Lemma mark_origin E b m : mark E m -> bcur b = Cursor 0 0 -> write_char E b m = Ret b tt.
Proof.
  intros (H1 & H2 & H3 & H4) Hc. unfold write_char, write_nontab.
  replace ((m =? TAB)%N) with false by (symmetry; now apply N.eqb_neq).
  replace ((m =? CR)%N) with false by (symmetry; now apply N.eqb_neq).
  replace ((m =? LF)%N) with false by (symmetry; now apply N.eqb_neq).
  rewrite H4, Hc. reflexivity.
Qed.

(** A narrow character followed by marks ends up in one cell. *)
Lemma marks_after E ms : forall b j c, env_ok E -> buf_ok E b -> Forall (mark E) ms ->
  column (bcur b) < columns (bsize b) -> cell_no (bsize b) (bcur b) = S j -> j < total (bsize b) ->
  cell_at b j = Some c ->
  exists b', write_str E b ms = Ret b' tt /\ bcur b' = bcur b /\ bsize b' = bsize b /\
    cell_at b' j = Some (Cell (cattrs c) (ctext c ++ ms)) /\
    (forall k, k <> j -> cell_at b' k = cell_at b k).
Proof.
  induction ms as [|m ms IH]; intros b j c HE Hb Hms Hcol Hj Hjt Hc.
  - exists b. cbn. rewrite app_nil_r. destruct c. auto.
  - inversion Hms as [|? ? Hm Hms']; subst. destruct (mark_layout E b m j Hb Hm Hcol Hj Hjt)
      as (c1 & b1 & Hc1 & Hw & H1 & H2 & H3 & H4 & H5 & H6).
    assert (c1 = c) by congruence. subst c1.
    assert (Hb1 : buf_ok E b1).
    { destruct (write_mark E b m Hb ltac:(lia) Hm) as (b2 & Hr & _).
      destruct (write_char_step E b m HE Hb ltac:(lia)) as (b3 & Hr3 & Hb3 & _).
      - intros Hw'. destruct Hm as (_ & _ & _ & Hm). destruct Hw' as [(_ & _ & _ & Hp & _) _]. congruence.
      - intros ->. destruct Hm as (_ & _ & Hm & _). congruence.
      - rewrite Hw in Hr3. destruct Hr3 as [Hr3|Hr3]; [|discriminate]. injection Hr3 as <-. assumption. }
    destruct (IH b1 j (Cell (cattrs c) (ctext c ++ [m])) HE Hb1 Hms') as (b' & G1 & G2 & G3 & G4 & G5).
    + now rewrite H4, H1.
    + now rewrite H4, H1.
    + now rewrite H1.
    + assumption.
    + exists b'. cbn [write_str]. rewrite Hw. cbn [obind]. split; [assumption|].
      split; [congruence|]. split; [congruence|]. split.
      * rewrite G4. cbn. now rewrite <- app_assoc.
      * intros k Hk. rewrite G5, H6 by assumption. reflexivity.
Qed.

Lemma char_with_marks E b ch ms : env_ok E -> buf_ok E b -> in_bounds (bcur b) (bsize b) ->
  narrow E ch -> Forall (mark E) ms ->
  exists b', write_str E b (ch :: ms) = Ret b' tt /\
    cell_at b' (cell_no (bsize b) (bcur b)) = Some (Cell (battrs b) (ch :: ms)) /\
    bcur b' = cell_pos (bsize b) (S (cell_no (bsize b) (bcur b))).
Proof.
  intros HE Hb Hc Hch Hms. assert (Hlt := cell_no_lt _ _ Hc).
  destruct (layout E [ch] HE b Hb Hc (Forall_cons _ Hch (Forall_nil _)))
    as (b1 & Hw & H1 & H2 & H3 & H4 & H5 & H6 & H7).
  set (sz := bsize b) in *. set (i := cell_no sz (bcur b)) in *. simpl length in *.
  assert (Hcols : 0 < columns sz) by (destruct Hc; lia).
  replace (Nat.min 1 (total sz - i)) with 1 in * by lia.
  replace (1 <=? total sz - i) with true in Hw by lia.
  specialize (H6 0 ch ltac:(lia) eq_refl). rewrite Nat.add_0_r in H6. replace (i + 1) with (S i) in H5 by lia.
  destruct (marks_after E ms b1 i (Cell (battrs b) [ch]) HE H4 Hms) as (b' & G1 & G2 & G3 & G4 & G5).
  - rewrite H5, H1. unfold cell_pos. simpl. apply Nat.mod_upper_bound. lia.
  - rewrite H5, H1. now apply cell_pos_no.
  - rewrite H1. assumption.
  - assumption.
  - exists b'. split.
    + change (ch :: ms) with ([ch] ++ ms). cbn [app write_str]. cbn [write_str] in Hw.
      destruct (write_char E b ch) as [bx []|bx e| |]; cbn [obind] in *; try discriminate.
      injection Hw as ->. assumption.
    + split; [assumption|congruence].
Qed.

(** Wide characters. *)
Lemma wide_width E c : wide E c -> width0 E c = 2.
Proof. intros [_ H]. unfold width0. now rewrite H. Qed.

Lemma wide_fits E b ch : buf_ok E b -> in_bounds (bcur b) (bsize b) -> wide E ch ->
  column (bcur b) + 2 <= columns (bsize b) ->
  let i := cell_no (bsize b) (bcur b) in
  exists b', write_char E b ch = Ret b' tt /\
    bsize b' = bsize b /\ back b' = back b /\ battrs b' = battrs b /\
    bcur b' = cell_pos (bsize b) (i + 2) /\
    cell_at b' i = Some (Cell (battrs b) [ch]) /\
    cell_at b' (S i) = Some (Cell (battrs b) [SPACE]) /\
    (forall j, j < i \/ i + 2 <= j ->
       cell_at b' j = if (S j =? i) && wide_at E b j then Some blank else cell_at b j).
Proof.
  intros Hb Hc Hw Hfit. cbv zeta. unfold write_char.
  destruct (printable_ne E ch (proj1 Hw)) as (-> & _ & _).
  assert (Hww := wide_width E ch Hw).
  rewrite write_fit; try assumption; [|apply Hw|rewrite Hww; assumption].
  rewrite Hww. eexists. split; [reflexivity|]. cbn [bsize back battrs bcur].
  repeat (split; [reflexivity|]).
  assert (Hlt := cell_no_lt _ _ Hc). assert (Hl : length (buffer b) = total (bsize b)) by apply Hb.
  assert (Hi2 : cell_no (bsize b) (bcur b) + 2 <= total (bsize b)).
  { unfold cell_no, total. destruct Hc. nia. }
  split.
  { unfold advance. set (i := cell_no (bsize b) (bcur b)).
    destruct (Nat.leb_spec (columns (bsize b)) (column (bcur b) + 2)).
    - replace (i + 2) with (cell_no (bsize b) (Cursor (line (bcur b) + 1) 0)) by (unfold i, cell_no; simpl; nia).
      symmetry. apply cell_no_pos. simpl. lia.
    - replace (i + 2) with (cell_no (bsize b) (Cursor (line (bcur b)) (column (bcur b) + 2)))
        by (unfold i, cell_no; simpl; lia).
      symmetry. apply cell_no_pos. simpl. lia. }
  set (i := cell_no (bsize b) (bcur b)) in *.
  assert (Hul : length (unsplit E i (buffer b)) = total (bsize b)) by (rewrite unsplit_length; lia).
  unfold cell_at, put_wide. cbn [buffer]. simpl (2 =? 2). cbv iota.
  assert (Hnth : forall j, nth_error (upd (S i) (new_cell b SPACE) (upd i (new_cell b ch) (unsplit E i (buffer b)))) j =
     if j =? S i then Some (Cell (battrs b) [SPACE]) else if j =? i then Some (Cell (battrs b) [ch])
     else nth_error (unsplit E i (buffer b)) j).
  { intros j. rewrite nth_upd by (rewrite upd_length; lia). now rewrite nth_upd by lia. }
  split; [|split].
  - rewrite Hnth. replace (i =? S i) with false by lia. now rewrite Nat.eqb_refl.
  - rewrite Hnth. now rewrite Nat.eqb_refl.
  - intros j Hj. rewrite Hnth. replace (j =? S i) with false by lia. replace (j =? i) with false by lia.
    rewrite nth_unsplit by lia. rewrite ?wide_at_is_wide. unfold cell_at.
    destruct (nth_error (buffer b) j); [reflexivity|]. now rewrite andb_false_r.
Qed.

(** What really happens in the last column. *)
Lemma wide_last_column E b ch : buf_ok E b -> in_bounds (bcur b) (bsize b) -> wide E ch ->
  2 <= columns (bsize b) -> column (bcur b) + 1 = columns (bsize b) ->
  let i := cell_no (bsize b) (bcur b) in
  exists b', write_char E b ch = (if line (bcur b) + 1 <? lines (bsize b) then Ret b' tt else Fail b' tt) /\
    bsize b' = bsize b /\ back b' = back b /\ battrs b' = battrs b /\
    cell_at b' i = Some (Cell (battrs b) [ch]) /\
    (line (bcur b) + 1 < lines (bsize b) ->
       cell_at b' (S i) = Some (Cell (battrs b) [ch]) /\
       cell_at b' (S (S i)) = Some (Cell (battrs b) [SPACE]) /\
       bcur b' = cell_pos (bsize b) (i + 3)) /\
    (lines (bsize b) <= line (bcur b) + 1 ->
       bcur b' = Cursor (line (bcur b) + 1) 0) /\
    (forall j, j < i \/ i + (if line (bcur b) + 1 <? lines (bsize b) then 3 else 1) <= j ->
       cell_at b' j = if (S j =? i) && wide_at E b j then Some blank else cell_at b j).
Proof.
  intros Hb Hc Hw Hcols Hlast. cbv zeta. unfold write_char.
  destruct (printable_ne E ch (proj1 Hw)) as (-> & _ & _).
  rewrite write_wrap by assumption.
  assert (Hlt := cell_no_lt _ _ Hc). assert (Hl : length (buffer b) = total (bsize b)) by apply Hb.
  set (i := cell_no (bsize b) (bcur b)) in *.
  assert (Hul : length (unsplit E i (buffer b)) = total (bsize b)) by (rewrite unsplit_length; lia).
  assert (Hwn : forall j, nth_error (wide_wrapped E b ch) j =
     if j =? i then Some (Cell (battrs b) [ch]) else nth_error (unsplit E i (buffer b)) j).
  { intros j. unfold wide_wrapped. fold i. now rewrite nth_upd by lia. }
  assert (Hwl : length (wide_wrapped E b ch) = total (bsize b)).
  { unfold wide_wrapped. fold i. rewrite upd_length; lia. }
  assert (Huns : forall j, nth_error (unsplit E i (buffer b)) j =
     if (S j =? i) && wide_at E b j then Some blank else cell_at b j).
  { intros j. rewrite nth_unsplit by lia. rewrite ?wide_at_is_wide. unfold cell_at.
    destruct (nth_error (buffer b) j); [reflexivity|]. now rewrite andb_false_r. }
  destruct (Nat.leb_spec (lines (bsize b)) (line (bcur b) + 1)) as [Hend|Hmore].
  - replace (line (bcur b) + 1 <? lines (bsize b)) with false by lia.
    eexists. split; [reflexivity|]. cbn [bsize back battrs bcur].
    repeat (split; [reflexivity|]). unfold cell_at at 1 2 3 4. cbn [buffer].
    split; [rewrite Hwn; now rewrite Nat.eqb_refl|]. split; [lia|]. split; [reflexivity|].
    intros j Hj. unfold cell_at at 1. cbn [buffer]. rewrite Hwn. replace (j =? i) with false by lia. apply Huns.
  - replace (line (bcur b) + 1 <? lines (bsize b)) with true by lia.
    assert (Hi3 : i + 3 <= total (bsize b)).
    { unfold i, cell_no, total. destruct Hc. nia. }
    eexists. split; [reflexivity|]. cbn [bsize back battrs bcur].
    repeat (split; [reflexivity|]).
    assert (Hnth : forall j, nth_error (put_wide b (S i) ch (wide_wrapped E b ch) 2) j =
      if j =? S (S i) then Some (Cell (battrs b) [SPACE]) else if j =? S i then Some (Cell (battrs b) [ch])
      else nth_error (wide_wrapped E b ch) j).
    { intros j. unfold put_wide. simpl (2 =? 2). cbv iota.
      rewrite nth_upd by (rewrite upd_length; lia). now rewrite nth_upd by lia. }
    unfold cell_at at 1 2 3 4. cbn [buffer]. split.
    { rewrite Hnth. replace (i =? S (S i)) with false by lia. replace (i =? S i) with false by lia.
      rewrite Hwn. now rewrite Nat.eqb_refl. }
    split.
    { intros _. split; [rewrite Hnth; replace (S i =? S (S i)) with false by lia; now rewrite Nat.eqb_refl|].
      split; [rewrite Hnth; now rewrite Nat.eqb_refl|].
      unfold advance. cbn [line column]. simpl (0 + 2).
      destruct (Nat.leb_spec (columns (bsize b)) 2).
      - replace (i + 3) with (cell_no (bsize b) (Cursor (line (bcur b) + 1 + 1) 0)) by (unfold i, cell_no; simpl; nia).
        symmetry. apply cell_no_pos. simpl. lia.
      - replace (i + 3) with (cell_no (bsize b) (Cursor (line (bcur b) + 1) 2)) by (unfold i, cell_no; simpl; nia).
        symmetry. apply cell_no_pos. simpl. lia. }
    split; [lia|].
    intros j Hj. unfold cell_at at 1. cbn [buffer]. rewrite Hnth.
    replace (j =? S (S i)) with false by lia. replace (j =? S i) with false by lia.
    rewrite Hwn. replace (j =? i) with false by lia. apply Huns.
Qed.

(** Out-of-bounds writes. *)
Lemma write_char_oob E b ch : printable E ch \/ ch = TAB -> ~ in_bounds (bcur b) (bsize b) ->
  write_char E b ch = Fail b tt.
Proof.
  intros [Hp | ->] Ho; [|now apply tab_oob]. unfold write_char.
  destruct (printable_ne E ch Hp) as (-> & _ & _). now apply write_oob.
Qed.

Lemma write_str_oob E b ch s : printable E ch \/ ch = TAB -> ~ in_bounds (bcur b) (bsize b) ->
  write_str E b (ch :: s) = Fail b tt.
Proof. intros Hp Ho. cbn [write_str]. now rewrite write_char_oob. Qed.

Lemma write_at_oob E b p s : ~ in_bounds p (bsize b) -> write_at E b p s = Fail b tt.
Proof. intros H. apply try_cursor_at_false in H. unfold write_at. now rewrite H. Qed.

Lemma write_styled_at_oob E b p a s : ~ in_bounds p (bsize b) -> write_styled_at E b p a s = Fail b tt.
Proof. intros H. apply try_cursor_at_false in H. unfold write_styled_at. now rewrite H. Qed.

Lemma write_styled_ok E b a s b' : write_styled E b a s = Ret b' tt -> battrs b' = no_attrs.
Proof.
  unfold write_styled. destruct (write_str E (with_attrs b a) s); cbn; try discriminate.
  injection 1 as <-. reflexivity.
Qed.

Lemma write_styled_at_ok E b p a s b' : write_styled_at E b p a s = Ret b' tt -> battrs b' = no_attrs.
Proof. unfold write_styled_at. destruct (try_cursor_at b p); [apply write_styled_ok|discriminate]. Qed.

(** Control characters do nothing. *)
Lemma control_ignored E b c : env_ok E -> is_control c -> c <> TAB -> c <> CR -> c <> LF ->
  write_char E b c = Ret b tt.
Proof.
  intros HE Hc H1 H2 H3. unfold write_char. replace ((c =? TAB)%N) with false by (symmetry; now apply N.eqb_neq).
  destruct HE as (A & B & C & D). destruct (D c Hc) as [Hw Hcomb].
  apply write_nothing; auto; [|exact (conj A (conj B (conj C D)))].
  intros Hp. apply printable_width in Hp. lia.
Qed.

Lemma invisible_ignored E b c : env_ok E -> c <> TAB -> c <> CR -> c <> LF -> combining E c = false ->
  ~ printable E c -> write_char E b c = Ret b tt.
Proof.
  intros HE H1 H2 H3 H4 H5. unfold write_char.
  replace ((c =? TAB)%N) with false by (symmetry; now apply N.eqb_neq). now apply write_nothing.
Qed.

Lemma cell_text_no_control E t c : env_ok E -> cell_text_ok E t -> In c t -> ~ is_control c.
Proof.
  intros (_ & _ & _ & D) (c0 & ms & -> & Hp & Hms) Hin Hctl. destruct (D c Hctl) as [Hw Hc].
  destruct Hin as [->|Hin].
  - apply printable_width in Hp. lia.
  - rewrite Forall_forall in Hms. destruct (Hms c Hin) as (_ & _ & _ & Hm). congruence.
Qed.

Lemma demo_env_ok u : env_ok (demo_env u).
Proof.
  repeat split; try reflexivity.
  - intros c w. cbn. unfold demo_width. repeat destruct (_ : bool); intros [=]; lia.
  - unfold is_control in H. unfold width0, demo_env, demo_width. cbn.
    replace ((c <? 32)%N || ((127 <=? c)%N && (c <? 160)%N)) with true by lia. reflexivity.
  - unfold is_control in H. cbn. lia.
Qed.

(** One write, or a whole session, never changes size, back buffer or attributes. *)
Lemma write_keeps_frame E b s : env_ok E -> buf_ok E b -> 2 <= columns (bsize b) ->
  line (bcur b) + newlines s <= umax E -> lines (bsize b) + newlines s <= umax E ->
  exists b', (write_str E b s = Ret b' tt \/ write_str E b s = Fail b' tt) /\
    bsize b' = bsize b /\ back b' = back b /\ battrs b' = battrs b.
Proof.
  intros HE Hb Hc H1 H2.
  destruct (write_str_step E s HE b Hb) as (b' & Hr & _ & (A & B & C) & _); auto; [lia| |].
  - apply Forall_forall. auto.
  - exists b'. auto.
Qed.

(** * Packaging for Prop_Buf.v *)
Lemma cells_nonempty E l : Forall (fun c => cell_text_ok E (ctext c)) l -> Forall (fun c => ctext c <> []) l.
Proof. apply Forall_impl. intros c (c0 & ms & -> & _). discriminate. Qed.

Lemma histories_buf_ok E sz ops : env_ok E -> good_size (umax E) 2 sz ->
  Forall (op_size_ok (umax E) 2) ops -> lines_fit (umax E) sz ops ->
  exists b, buf_history E sz ops = Val b /\ buf_ok E b /\ 2 <= columns (bsize b).
Proof.
  intros HE Hsz Hops Hl. apply (history_ok 2); auto.
  apply Forall_forall. intros o _. apply Forall_forall. auto.
Qed.

Lemma history_never_panics E sz ops : env_ok E -> good_size (umax E) 2 sz ->
  Forall (op_size_ok (umax E) 2) ops -> lines_fit (umax E) sz ops ->
  exists b, buf_history E sz ops = Val b /\
    length (buffer b) = lines (bsize b) * columns (bsize b) /\ Forall (fun c => ctext c <> []) (buffer b).
Proof.
  intros HE Hsz Hops Hl. destruct (histories_buf_ok E sz ops HE Hsz Hops Hl) as (b & Hb & (_ & H & _ & H') & _).
  exists b. split; [assumption|]. split; [assumption|]. eapply cells_nonempty, H'.
Qed.

Lemma history_narrow_never_panics E sz ops : env_ok E -> good_size (umax E) 1 sz ->
  Forall (op_size_ok (umax E) 1) ops -> Forall (fun o => no_wide E (op_text o)) ops ->
  lines_fit (umax E) sz ops ->
  exists b, buf_history E sz ops = Val b /\
    length (buffer b) = lines (bsize b) * columns (bsize b) /\ Forall (fun c => ctext c <> []) (buffer b).
Proof.
  intros HE Hsz Hops Hn Hl. destruct (history_ok 1 (le_n 1) E sz ops HE Hsz Hops) as (b & Hb & (_ & H & _ & H') & _).
  - eapply Forall_impl; [|exact Hn]. intros o Ho. eapply Forall_impl; [|exact Ho]. simpl. tauto.
  - assumption.
  - exists b. split; [assumption|]. split; [assumption|]. eapply cells_nonempty, H'.
Qed.

Lemma history_no_control E sz ops : env_ok E -> good_size (umax E) 2 sz ->
  Forall (op_size_ok (umax E) 2) ops -> lines_fit (umax E) sz ops ->
  exists b, buf_history E sz ops = Val b /\
    Forall (fun c => cell_text_ok E (ctext c)) (buffer b) /\
    (forall cell ch, In cell (buffer b) -> In ch (ctext cell) -> ~ is_control ch).
Proof.
  intros HE Hsz Hops Hl. destruct (histories_buf_ok E sz ops HE Hsz Hops Hl) as (b & Hb & (_ & _ & _ & H') & _).
  exists b. split; [assumption|]. split; [assumption|].
  intros cell ch Hin Hch. rewrite Forall_forall in H'. eapply cell_text_no_control; eauto.
Qed.

Lemma one_column_panics :
  exists E sz ops, env_ok E /\ good_size (umax E) 1 sz /\ Forall (op_size_ok (umax E) 1) ops /\
    lines_fit (umax E) sz ops /\ buf_history E sz ops = Boom.
Proof.
  exists (demo_env 1000), (Size 2 1), [BWriteChar 0xFF21%N]. split; [apply demo_env_ok|].
  split; [unfold good_size, total; simpl; lia|]. split; [repeat constructor|]. split.
  - intros l. simpl. intuition (subst; lia).
  - vm_compute. reflexivity.
Qed.

Lemma zero_columns_panics :
  exists E sz n, env_ok E /\ good_size (umax E) 2 sz /\ buf_history E sz [BResize (Size n 0)] = Boom.
Proof.
  exists (demo_env 1000), (Size 2 2), 5. split; [apply demo_env_ok|].
  split; [unfold good_size, total; simpl; lia|]. vm_compute. reflexivity.
Qed.

Lemma zero_columns_mark_panics :
  exists E sz s, env_ok E /\ total sz <= umax E /\ buf_history E sz [BWriteStr s] = Boom.
Proof.
  exists (demo_env 1000), (Size 5 0), [LF; 769%N]. split; [apply demo_env_ok|].
  split; [unfold total; simpl; lia|]. vm_compute. reflexivity.
Qed.

Lemma cr_lf E b :
    write_char E b CR = Ret (SBuf (buffer b) (back b) (bsize b) (Cursor (line (bcur b)) 0) (battrs b)) tt /\
    (line (bcur b) < umax E ->
     write_char E b LF = Ret (SBuf (buffer b) (back b) (bsize b) (Cursor (S (line (bcur b))) 0) (battrs b)) tt).
Proof.
  split; [reflexivity|]. intros H. unfold write_char. simpl (LF =? TAB)%N. rewrite write_lf.
  replace (_ <=? _) with true by lia. now rewrite Nat.add_1_r.
Qed.

Lemma mark_after_wide E b ch m : env_ok E -> buf_ok E b -> in_bounds (bcur b) (bsize b) -> wide E ch -> mark E m ->
    column (bcur b) + 2 <= columns (bsize b) ->
    exists b', write_str E b [ch; m] = Ret b' tt /\
      cell_at b' (cell_no (bsize b) (bcur b)) = Some (Cell (battrs b) [ch]) /\
      cell_at b' (S (cell_no (bsize b) (bcur b))) = Some (Cell (battrs b) [SPACE; m]).
Proof.
  intros HE Hb Hc Hw Hm Hfit.
  destruct (wide_fits E b ch Hb Hc Hw Hfit) as (b1 & Hw1 & H1 & H2 & H3 & H4 & H5 & H6 & H7).
  set (i := cell_no (bsize b) (bcur b)) in *. assert (Hlt := cell_no_lt _ _ Hc). fold i in Hlt.
  assert (Hi2 : i + 2 <= total (bsize b)) by (unfold i, cell_no, total; destruct Hc; nia).
  assert (Hb1 : buf_ok E b1).
  { destruct (write_char_step E b ch HE Hb ltac:(lia)) as (b3 & Hr3 & Hb3 & _); [lia| |].
    - intros ->. destruct Hw as [(_ & _ & Hx & _) _]. congruence.
    - rewrite Hw1 in Hr3. destruct Hr3 as [Hr3|Hr3]; [|discriminate]. injection Hr3 as <-. assumption. }
  destruct (mark_layout E b1 m (S i) Hb1 Hm) as (c & b' & G1 & G2 & _ & _ & _ & _ & G3 & G4).
  - rewrite H4, H1. unfold cell_pos. simpl. apply Nat.mod_upper_bound. lia.
  - rewrite H4, H1. rewrite cell_pos_no; lia.
  - rewrite H1. lia.
  - exists b'. cbn [write_str]. rewrite Hw1. cbn [obind]. rewrite G2. cbn [obind]. split; [reflexivity|].
    split; [rewrite G4 by lia; assumption|]. rewrite H6 in G1. injection G1 as <-. assumption.
Qed.

Lemma resize_theorem E b new : buf_ok E b -> 1 <= columns new -> total new <= umax E ->
  exists b', sb_resize E b new = Val b' /\
    bsize b' = new /\ bcur b' = bcur b /\ battrs b' = battrs b /\
    (forall p, in_bounds p new -> in_bounds p (bsize b) ->
       cell_at b' (cell_no new p) = cell_at b (cell_no (bsize b) p)) /\
    (forall p, in_bounds p new -> ~ in_bounds p (bsize b) ->
       cell_at b' (cell_no new p) = Some (Cell no_attrs [SPACE])) /\
    length (buffer b') = total new /\ length (back b') = total new /\
    (forall j c, cell_at b' j = Some c -> nth_error (back b') j <> Some c).
Proof.
  intros (H1 & H2 & H3 & H4) Hc Ht. destruct (sb_resize_spec E b new H2 Hc Ht) as (l & Hr & Hl & Hn).
  eexists. split; [exact Hr|]. cbn [bsize bcur battrs back buffer]. repeat (split; [reflexivity|]).
  unfold cell_at. cbn [buffer]. split; [|split; [|split; [assumption|split; [apply repeat_length|]]]].
  - intros p Hp Ho. rewrite Hn by assumption. apply oob_spec in Ho. now rewrite Ho.
  - intros p Hp Ho. rewrite Hn by assumption. rewrite <- oob_spec in Ho.
    destruct (is_out_of_bounds p (bsize b)); [reflexivity|congruence].
  - intros j c Hj Hb. apply nth_error_In, repeat_spec in Hb as ->.
    assert (Hjt : j < total new) by (rewrite <- Hl; apply nth_error_Some; congruence).
    specialize (Hn (cell_pos new j) (cell_pos_in new j Hjt)).
    rewrite cell_pos_no in Hn by lia. rewrite Hj in Hn.
    destruct (is_out_of_bounds (cell_pos new j) (bsize b)); [discriminate|].
    symmetry in Hn. apply nth_error_In in Hn. rewrite Forall_forall in H4. destruct (H4 _ Hn) as (x & y & Hx & _).
    discriminate.
Qed.

Lemma oob_text E b ch s : printable E ch \/ ch = TAB -> ~ in_bounds (bcur b) (bsize b) ->
    run_buf_op E b (BWriteChar ch) = Val b /\ run_buf_op E b (BWriteStr (ch :: s)) = Val b.
Proof.
  intros Hp Ho. cbn [run_buf_op]. now rewrite write_char_oob, write_str_oob.
Qed.

Lemma oob_position E b p a s : ~ in_bounds p (bsize b) ->
    run_buf_op E b (BWriteAt p s) = Val b /\ run_buf_op E b (BWriteStyledAt p a s) = Val b.
Proof. intros Ho. cbn [run_buf_op]. now rewrite write_at_oob, write_styled_at_oob. Qed.

Lemma styled_fits E b a s : env_ok E -> buf_ok E b -> in_bounds (bcur b) (bsize b) -> Forall (narrow E) s ->
    cell_no (bsize b) (bcur b) + length s <= total (bsize b) ->
    exists b', run_buf_op E b (BWriteStyled a s) = Val b' /\ battrs b' = no_attrs.
Proof.
  intros HE Hb Hc Hs Hfit. cbn [run_buf_op]. unfold write_styled.
  destruct (layout E s HE (with_attrs b a) Hb Hc Hs) as (b' & Hw & _).
  cbn [with_attrs bsize bcur] in Hw. rewrite Hw. replace (_ <=? _) with true by lia.
  cbn. eexists. split; reflexivity.
Qed.

Lemma styled_overflows E b a s : env_ok E -> buf_ok E b -> in_bounds (bcur b) (bsize b) -> Forall (narrow E) s ->
    total (bsize b) < cell_no (bsize b) (bcur b) + length s ->
    exists b', run_buf_op E b (BWriteStyled a s) = Val b' /\ battrs b' = a.
Proof.
  intros HE Hb Hc Hs Hfit. assert (Hlt := cell_no_lt _ _ Hc). cbn [run_buf_op]. unfold write_styled.
  destruct (layout E s HE (with_attrs b a) Hb Hc Hs) as (b' & Hw & _ & _ & Ha & _).
  cbn [with_attrs bsize bcur battrs] in Hw, Ha. rewrite Hw. replace (_ <=? _) with false by lia.
  cbn. exists b'. auto.
Qed.

(** ** Examples *)
Ltac buf_ok_tac :=
  repeat split; unfold total; cbn; try lia;
  repeat (apply Forall_cons; [eexists _, _; split; [reflexivity|]; split; [repeat split; try discriminate; auto|repeat constructor]|]); try apply Forall_nil.

Ltac narrow_tac := repeat split; try discriminate; auto.

Lemma layout_example :
  let E := demo_env 1000 in
  exists b, buf_history E (Size 2 3) [BWriteStr [97; 98]%N] = Val b /\ buf_ok E b /\
    in_bounds (bcur b) (bsize b) /\ Forall (narrow E) [120; 121]%N /\
    match write_str E b [120; 121]%N with
    | Ret b' _ => map ctext (buffer b') = [[97]; [98]; [120]; [121]; [32]; [32]]%N /\ bcur b' = Cursor 1 1
    | _ => False
    end.
Proof.
  cbv zeta. eexists. split; [vm_compute; reflexivity|]. split; [buf_ok_tac|].
  split; [unfold in_bounds; cbn; lia|]. split; [repeat (apply Forall_cons; [narrow_tac|]); apply Forall_nil|]. vm_compute. auto.
Qed.

Lemma tab_example :
  let E := demo_env 1000 in
  exists b, buf_history E (Size 2 10) [BWriteStr [120; 120; 120]%N] = Val b /\ buf_ok E b /\
    in_bounds (bcur b) (bsize b) /\ tab_target (bsize b) (column (bcur b)) = 8 /\
    match write_char E b TAB with Ret b' _ => bcur b' = Cursor 0 8 | _ => False end.
Proof.
  cbv zeta. eexists. split; [vm_compute; reflexivity|]. split; [buf_ok_tac|].
  split; [unfold in_bounds; cbn; lia|]. vm_compute. auto.
Qed.

Lemma mark_example :
  let E := demo_env 1000 in
  exists b, buf_history E (Size 1 4) [] = Val b /\ buf_ok E b /\ in_bounds (bcur b) (bsize b) /\
    wide E 0xFF21%N /\ mark E 769%N /\ narrow E 97%N /\ column (bcur b) + 2 <= columns (bsize b).
Proof.
  cbv zeta. eexists. split; [vm_compute; reflexivity|]. split; [buf_ok_tac|].
  split; [unfold in_bounds; cbn; lia|]. split; [narrow_tac|]. split; [narrow_tac|]. split; [narrow_tac|]. cbn. lia.
Qed.

Lemma wide_example :
  let E := demo_env 1000 in
  exists b, buf_history E (Size 2 3) [BWriteStr [97; 98]%N] = Val b /\ buf_ok E b /\
    in_bounds (bcur b) (bsize b) /\ wide E 0xFF21%N /\ column (bcur b) + 1 = columns (bsize b) /\
    match write_char E b 0xFF21%N with
    | Ret b' _ => map ctext (buffer b') = [[97]; [98]; [0xFF21]; [0xFF21]; [32]; [32]]%N
    | _ => False
    end.
Proof.
  cbv zeta. eexists. split; [vm_compute; reflexivity|]. split; [buf_ok_tac|].
  split; [unfold in_bounds; cbn; lia|]. split; [narrow_tac|]. vm_compute. auto.
Qed.

Lemma resize_example :
  let E := demo_env 1000 in
  exists b, buf_history E (Size 2 3) [BWriteStr [97; 98; 99; 100; 101; 102]%N] = Val b /\ buf_ok E b /\
    match sb_resize E b (Size 3 2) with
    | Val b' => map ctext (buffer b') = [[97]; [98]; [100]; [101]; [32]; [32]]%N
    | Boom => False
    end.
Proof.
  cbv zeta. eexists. split; [vm_compute; reflexivity|]. split; [buf_ok_tac|]. vm_compute. auto.
Qed.

Lemma oob_example :
  let E := demo_env 1000 in
  exists b, buf_history E (Size 1 2) [BWriteStr [97; 98]%N] = Val b /\
    ~ in_bounds (bcur b) (bsize b) /\ printable E 99%N /\ ~ in_bounds (Cursor 0 2) (bsize b).
Proof.
  cbv zeta. eexists. split; [vm_compute; reflexivity|].
  split; [unfold in_bounds; cbn; lia|]. split; [narrow_tac|]. unfold in_bounds; cbn; lia.
Qed.

Lemma styled_example :
  let E := demo_env 1000 in
  exists b, buf_history E (Size 1 2) [] = Val b /\ buf_ok E b /\ in_bounds (bcur b) (bsize b) /\
    Forall (narrow E) [97; 98; 99]%N /\
    total (bsize b) < cell_no (bsize b) (bcur b) + length [97; 98; 99]%N /\
    buf_history E (Size 1 2)
      [BWriteStyled (Attrs (Some Red) None 0%N) [97; 98; 99]%N; BSetCursor (Cursor 0 0); BWriteChar 100%N] =
    Val (SBuf [Cell (Attrs (Some Red) None 0%N) [100]%N; Cell (Attrs (Some Red) None 0%N) [98]%N]
              [blank; blank] (Size 1 2) (Cursor 0 1) (Attrs (Some Red) None 0%N)).
Proof.
  cbv zeta. eexists. split; [vm_compute; reflexivity|]. split; [buf_ok_tac|].
  split; [unfold in_bounds; cbn; lia|]. split; [repeat (apply Forall_cons; [narrow_tac|]); apply Forall_nil|]. split; [vm_compute; lia|].
  vm_compute. reflexivity.
Qed.
