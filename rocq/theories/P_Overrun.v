From Verif Require Import Base M_Geom S_Geom P_Geom M_Attr M_Buf S_Buf P_Buf P_Buf2 P_Buf3 P_Screen2 S_Overrun.

Lemma inside_spec sz p : inside sz p = true <-> in_bounds p sz.
Proof. unfold inside, in_bounds. lia. Qed.
Lemma inside_false sz p : inside sz p = false <-> ~ in_bounds p sz.
Proof. rewrite <- inside_spec. destruct (inside sz p); split; congruence. Qed.
Lemma onwards_advance sz p w : onwards sz p w = advance sz p w.
Proof.
  unfold onwards, advance. destruct (Nat.ltb_spec (column p + w) (columns sz)), (Nat.leb_spec (columns sz) (column p + w)); try lia; reflexivity.
Qed.

Section Overrun.
  Variable E : env.
  Hypothesis HE : env_ok E.

  Definition agrees (b : sbuf) (sz : size) (p : cursor) : Prop := buf_ok E b /\ bsize b = sz /\ bcur b = p.

  Definition meets (sz : size) (a : attrs) (f : fate) (r : bout) : Prop :=
    match f with
    | Moved p => exists b', r = Ret b' tt /\ agrees b' sz p /\ battrs b' = a
    | Stopped p => exists b', r = Fail b' tt /\ agrees b' sz p /\ battrs b' = a
    | Panics => r = Panic
    end.

  Lemma char_ok b ch b' : buf_ok E b -> ignore_err (write_char E b ch) = Val b' -> buf_ok E b' /\ bsize b' = bsize b.
  Proof.
    intros Hb H. destruct (op_ok E HE b (BWriteChar ch) b' Hb ltac:(discriminate) H) as (H1 & _ & H2). auto.
  Qed.
  Lemma ret_meets b sz ch b' p : buf_ok E b -> bsize b = sz -> write_char E b ch = Ret b' tt -> bcur b' = p ->
    battrs b' = battrs b -> meets sz (battrs b) (Moved p) (write_char E b ch).
  Proof.
    intros Hb Hs H Hp Ha. exists b'. split; [exact H|]. destruct (char_ok b ch b' Hb) as [H1 H2]; [now rewrite H|].
    split; [|exact Ha]. split; [exact H1|]. split; [congruence|exact Hp].
  Qed.
  Lemma fail_meets b sz ch b' p : buf_ok E b -> bsize b = sz -> write_char E b ch = Fail b' tt -> bcur b' = p ->
    battrs b' = battrs b -> meets sz (battrs b) (Stopped p) (write_char E b ch).
  Proof.
    intros Hb Hs H Hp Ha. exists b'. split; [exact H|]. destruct (char_ok b ch b' Hb) as [H1 H2]; [now rewrite H|].
    split; [|exact Ha]. split; [exact H1|]. split; [congruence|exact Hp].
  Qed.

  (** Double width on one column. *)
  Lemma one_column b ch : buf_ok E b -> in_bounds (bcur b) (bsize b) -> wide E ch -> columns (bsize b) = 1 ->
    meets (bsize b) (battrs b)
      (if line (bcur b) + 1 <? lines (bsize b) then
         if line (bcur b) + 2 <? lines (bsize b) then Moved (Cursor (line (bcur b) + 2) 0) else Panics
       else Stopped (Cursor (line (bcur b) + 1) 0)) (write_char E b ch).
  Proof.
    intros Hb Hc [Hp Hw] H1. assert (Hb0 := Hb). destruct Hb as (Ht & Hl & _).
    assert (Htot : total (bsize b) = lines (bsize b)) by (unfold total; rewrite H1; lia).
    assert (Hc0 : column (bcur b) = 0) by (destruct Hc; lia).
    assert (Hwr : write_char E b ch =
      (let b1 := SBuf (wide_wrapped E b ch) (back b) (bsize b) (Cursor (line (bcur b) + 1) 0) (battrs b) in
       if lines (bsize b) <=? line (bcur b) + 1 then Fail b1 tt else place_char E b1 ch 2)).
    { unfold write_char, write_nontab. destruct (printable_ne E ch Hp) as (-> & -> & ->).
      replace (combining E ch) with false by (symmetry; apply Hp).
      rewrite (printable_visible E ch Hp).
      replace (try_cursor b) with true by (symmetry; now apply try_cursor_at_spec).
      rewrite clear_wide_spec by assumption. cbn [bsize bcur with_buffer].
      unfold usub. replace (column (bcur b) <=? columns (bsize b)) with true by lia.
      replace (columns (bsize b) - column (bcur b)) with 1 by lia.
      replace (width0 E ch) with 2 by (unfold width0; now rewrite Hw).
      assert (Hlt := cell_no_lt _ _ Hc). assert (Hlb := lines_bound _ _ _ Ht Hc).
      unfold wrap_wide. replace (1 <? 2) with true by reflexivity.
      unfold try_cursor. cbn [bcur with_buffer].
      replace (try_cursor_at (with_buffer b _) (bcur b)) with true
        by (symmetry; now apply try_cursor_at_spec).
      cbn [fill_cells]. unfold set_cell.
      rewrite put_cell_in; cbn [bsize bcur with_buffer buffer battrs]; try assumption.
      2: { rewrite unsplit_length; lia. }
      unfold uadd. replace (column (bcur b) + 1 <=? umax E) with true by lia.
      cbn [bsize bcur with_buffer]. replace (line (bcur b) + 1 <=? umax E) with true by lia. cbn [obind].
      cbv zeta. destruct (Nat.leb_spec (lines (bsize b)) (line (bcur b) + 1)) as [X|X]; [|reflexivity].
      unfold place_char, try_cursor, try_cursor_at. cbn [bsize bcur with_cur with_buffer line column].
      replace (lines (bsize b) <=? line (bcur b) + 1) with true by lia. reflexivity. }
    cbv zeta in Hwr. assert (Hlt := cell_no_lt _ _ Hc).
    assert (Hlw : length (wide_wrapped E b ch) = total (bsize b)).
    { unfold wide_wrapped. rewrite upd_length; rewrite unsplit_length; lia. }
    destruct (Nat.ltb_spec (line (bcur b) + 1) (lines (bsize b))) as [X|X].
    - replace (lines (bsize b) <=? line (bcur b) + 1) with false in Hwr by lia.
      set (b1 := SBuf _ _ _ _ _) in Hwr.
      assert (Hpl : place_char E b1 ch 2 =
        if line (bcur b) + 2 <? lines (bsize b) then
          Ret (SBuf (upd (line (bcur b) + 2) (new_cell b SPACE) (upd (line (bcur b) + 1) (new_cell b ch) (wide_wrapped E b ch)))
                (back b) (bsize b) (Cursor (line (bcur b) + 2) 0) (battrs b)) tt
        else Panic).
      { unfold place_char. replace (try_cursor b1) with true.
        2:{ symmetry. apply try_cursor_at_spec. unfold b1. split; cbn; lia. }
        unfold set_cell. rewrite put_cell_in; [|exact Ht|exact Hlw|unfold b1; split; cbn; lia].
        cbn [fill_spaces Nat.sub]. unfold uadd. cbn [bcur b1 with_buffer column line].
        replace (0 + 1 <=? umax E) with true by lia. unfold set_cell, put_cell, as_index, umul, uadd.
        cbn [bsize b1 with_buffer line column buffer battrs]. rewrite H1.
        replace ((line (bcur b) + 1) * 1 <=? umax E) with true by lia.
        replace ((line (bcur b) + 1) * 1 + (0 + 1)) with (line (bcur b) + 2) by lia.
        replace (line (bcur b) + 2 <=? umax E) with true by lia.
        unfold vec_set. rewrite upd_length by (rewrite Hlw; unfold cell_no; cbn; lia). rewrite Hlw, Htot.
        replace (cell_no (bsize b) (Cursor (line (bcur b) + 1) 0)) with (line (bcur b) + 1) by (unfold cell_no; cbn; lia).
        destruct (line (bcur b) + 2 <? lines (bsize b)) eqn:Y; [|reflexivity].
        unfold b1. cbn [bcur with_buffer column line bsize battrs back]. replace (0 + 2 <=? umax E) with true by lia.
        rewrite H1. cbn [Nat.leb Nat.add]. replace (line (bcur b) + 1 + 1 <=? umax E) with true by lia.
        unfold with_cur. cbn [buffer back bsize battrs with_buffer line].
        replace (line (bcur b) + 1 + 1) with (line (bcur b) + 2) by lia. reflexivity. }
      rewrite Hpl in Hwr. destruct (line (bcur b) + 2 <? lines (bsize b)).
      + eapply ret_meets; [exact Hb0|reflexivity|exact Hwr|reflexivity|reflexivity].
      + exact Hwr.
    - replace (lines (bsize b) <=? line (bcur b) + 1) with true in Hwr by lia.
      eapply fail_meets; [exact Hb0|reflexivity|exact Hwr|reflexivity|reflexivity].
  Qed.

  Lemma char_meets b ch : buf_ok E b -> meets (bsize b) (battrs b) (walk1 E (bsize b) ch (bcur b)) (write_char E b ch).
  Proof.
    intros Hb. destruct (char_cases E ch HE) as [->|[->|[->|[Hm|[Hp|(N1 & N2 & N3 & N4 & N5)]]]]].
    - change (walk1 E (bsize b) TAB (bcur b)) with
        (if inside (bsize b) (bcur b) then Moved (onwards (bsize b) (bcur b) (8 - column (bcur b) mod 8)) else Stopped (bcur b)).
      destruct (inside (bsize b) (bcur b)) eqn:Eo.
      + apply inside_spec in Eo. destruct (tab_layout E b HE Hb Eo) as (b' & T1 & T2 & T3 & T4 & T5 & T6 & _).
        eapply ret_meets; [exact Hb|reflexivity|exact T1| |exact T4]. rewrite T6. unfold onwards, tab_target.
        pose proof (Nat.div_mod (column (bcur b)) 8). pose proof (Nat.mod_upper_bound (column (bcur b)) 8).
        replace (column (bcur b) + (8 - column (bcur b) mod 8)) with (8 * (column (bcur b) / 8 + 1)) by lia.
        destruct (Nat.ltb_spec (8 * (column (bcur b) / 8 + 1)) (columns (bsize b)));
          destruct (Nat.ltb_spec (Nat.min (columns (bsize b)) (8 * (column (bcur b) / 8 + 1))) (columns (bsize b))); try lia; [|reflexivity].
        f_equal. lia.
      + apply inside_false in Eo. eapply fail_meets; [exact Hb|reflexivity|now apply tab_oob|reflexivity|reflexivity].
    - eapply ret_meets; [exact Hb|reflexivity|reflexivity|reflexivity|reflexivity].
    - change (walk1 E (bsize b) LF (bcur b)) with
        (if line (bcur b) + 1 <=? umax E then Moved (Cursor (line (bcur b) + 1) 0) else Panics).
      assert (Hw : write_char E b LF = if line (bcur b) + 1 <=? umax E then Ret (with_cur b (Cursor (line (bcur b) + 1) 0)) tt else Panic)
        by exact (write_lf E b).
      destruct (_ <=? _); [|exact Hw]. eapply ret_meets; [exact Hb|reflexivity|exact Hw|reflexivity|reflexivity].
    - destruct Hm as (M1 & M2 & M3 & M4).
      assert (Ht : walk1 E (bsize b) ch (bcur b) =
        if column (bcur b) =? 0 then
          if line (bcur b) =? 0 then Moved (bcur b)
          else if columns (bsize b) =? 0 then Panics
          else if line (bcur b) <=? lines (bsize b) then Moved (bcur b) else Stopped (bcur b)
        else if inside (bsize b) (Cursor (line (bcur b)) (column (bcur b) - 1)) then Moved (bcur b) else Stopped (bcur b)).
      { unfold walk1. apply N.eqb_neq in M1, M2, M3. unfold TAB, CR, LF in *. now rewrite M1, M2, M3, M4. }
      assert (Hwr : write_char E b ch = 
        match cursor_previous (bcur b) (bsize b) with
        | Boom => Panic
        | Val None => Ret b tt
        | Val (Some prev) =>
            if try_cursor_at b prev then
              match get_cell E b prev with
              | Boom => Panic
              | Val c =>
                  match put_cell E b prev (Cell (cattrs c) (ctext c ++ [ch])) with
                  | Boom => Panic
                  | Val b => Ret b tt
                  end
              end
            else Fail b tt
        end).
      { unfold write_char, write_nontab. apply N.eqb_neq in M1, M2, M3. now rewrite M1, M2, M3, M4. }
      assert (Hat : forall q, cursor_previous (bcur b) (bsize b) = Val (Some q) ->
        meets (bsize b) (battrs b) (if inside (bsize b) q then Moved (bcur b) else Stopped (bcur b)) (write_char E b ch)).
      { intros q Hq. rewrite Hq in Hwr. destruct (inside (bsize b) q) eqn:Eo.
        - apply inside_spec in Eo. replace (try_cursor_at b q) with true in Hwr by (symmetry; now apply try_cursor_at_spec).
          assert (Hb0 := Hb). destruct Hb as (B1 & B2 & _).
          destruct (get_cell_in E b q B1 B2 Eo) as (c & Hg & _). rewrite Hg in Hwr.
          rewrite put_cell_in in Hwr by assumption. eapply ret_meets; [exact Hb0|reflexivity|exact Hwr|reflexivity|reflexivity].
        - apply inside_false in Eo. replace (try_cursor_at b q) with false in Hwr by (symmetry; now apply try_cursor_at_false).
          eapply fail_meets; [exact Hb|reflexivity|exact Hwr|reflexivity|reflexivity]. }
      rewrite Ht. clear Ht. unfold cursor_previous, usub in *. destruct (Nat.eqb_spec (column (bcur b)) 0) as [C0|C0].
      + destruct (Nat.eqb_spec (line (bcur b)) 0) as [L0|L0].
        * eapply ret_meets; [exact Hb|reflexivity|exact Hwr|reflexivity|reflexivity].
        * destruct (Nat.eqb_spec (columns (bsize b)) 0) as [Z|Z].
          -- replace (1 <=? columns (bsize b)) with false in Hwr by lia. exact Hwr.
          -- replace (1 <=? columns (bsize b)) with true in Hat by lia. specialize (Hat _ eq_refl). unfold inside in Hat. cbn [line column] in Hat.
             destruct (Nat.leb_spec (line (bcur b)) (lines (bsize b))).
             ++ replace ((line (bcur b) - 1 <? lines (bsize b)) && (columns (bsize b) - 1 <? columns (bsize b))) with true in Hat by lia. exact Hat.
             ++ replace ((line (bcur b) - 1 <? lines (bsize b)) && (columns (bsize b) - 1 <? columns (bsize b))) with false in Hat by lia. exact Hat.
      + exact (Hat _ eq_refl).
    - assert (Hpn := Hp). destruct Hp as (P1 & P2 & P3 & P4 & P5).
      assert (Ht : walk1 E (bsize b) ch (bcur b) =
        match cwidth E ch with
        | Some 1 => if inside (bsize b) (bcur b) then Moved (onwards (bsize b) (bcur b) 1) else Stopped (bcur b)
        | Some 2 =>
            if inside (bsize b) (bcur b) then
              if column (bcur b) + 2 <=? columns (bsize b) then Moved (onwards (bsize b) (bcur b) 2)
              else if line (bcur b) + 1 <? lines (bsize b) then
                if 2 <=? columns (bsize b) then Moved (onwards (bsize b) (Cursor (line (bcur b) + 1) 0) 2)
                else if line (bcur b) + 2 <? lines (bsize b) then Moved (Cursor (line (bcur b) + 2) 0)
                else Panics
              else Stopped (Cursor (line (bcur b) + 1) 0)
            else Stopped (bcur b)
        | _ => Moved (bcur b)
        end).
      { unfold walk1. apply N.eqb_neq in P1, P2, P3. unfold TAB, CR, LF in *. now rewrite P1, P2, P3, P4. }
      rewrite Ht. clear Ht.
      assert (Htab : write_char E b ch = write_nontab E b ch) by (unfold write_char; now destruct (printable_ne E ch Hpn) as (-> & _ & _)).
      destruct (inside (bsize b) (bcur b)) eqn:Eo.
      2:{ apply inside_false in Eo. destruct P5 as [-> | ->];
          (eapply fail_meets; [exact Hb|reflexivity|rewrite Htab; now apply write_oob|reflexivity|reflexivity]). }
      apply inside_spec in Eo. destruct P5 as [Hw|Hw]; rewrite Hw.
      + assert (X := write_fit E b ch Hb Eo Hpn). unfold width0 in X. rewrite Hw in X. rewrite <- Htab in X.
        eapply ret_meets; [exact Hb|reflexivity|apply X; destruct Eo; lia| |reflexivity]. cbn [bcur]. now rewrite onwards_advance.
      + destruct (Nat.leb_spec (column (bcur b) + 2) (columns (bsize b))) as [Y|Y].
        * assert (X := write_fit E b ch Hb Eo Hpn). unfold width0 in X. rewrite Hw in X. rewrite <- Htab in X.
          eapply ret_meets; [exact Hb|reflexivity|apply X; exact Y| |reflexivity]. cbn [bcur]. now rewrite onwards_advance.
        * destruct Eo as [O1 O2]. destruct (Nat.leb_spec 2 (columns (bsize b))) as [Z|Z].
          -- assert (X := write_wrap E b ch Hb (conj O1 O2) (conj Hpn Hw) Z ltac:(lia)). rewrite <- Htab in X.
             destruct (Nat.ltb_spec (line (bcur b) + 1) (lines (bsize b))) as [W|W].
             ++ replace (lines (bsize b) <=? line (bcur b) + 1) with false in X by lia.
                eapply ret_meets; [exact Hb|reflexivity|exact X| |reflexivity]. cbn [bcur]. now rewrite onwards_advance.
             ++ replace (lines (bsize b) <=? line (bcur b) + 1) with true in X by lia.
                eapply fail_meets; [exact Hb|reflexivity|exact X|reflexivity|reflexivity].
          -- exact (one_column b ch Hb (conj O1 O2) (conj Hpn Hw) ltac:(lia)).
    - assert (Ht : walk1 E (bsize b) ch (bcur b) = Moved (bcur b)).
      { unfold walk1. destruct (cwidth E ch) as [[|[|[|w]]]|] eqn:Ew.
        2,3: exfalso; apply N5; repeat split; auto.
        all: apply N.eqb_neq in N1, N2, N3; unfold TAB, CR, LF in *; now rewrite N1, N2, N3, N4. }
      rewrite Ht. eapply ret_meets; [exact Hb|reflexivity|now apply invisible_ignored|reflexivity|reflexivity].
  Qed.

  Lemma text_meets s : forall b, buf_ok E b ->
    meets (bsize b) (battrs b) (walk E (bsize b) s (bcur b)) (write_str E b s).
  Proof.
    induction s as [|c s IH]; intros b Hb; cbn [walk write_str].
    - exists b. split; [reflexivity|]. split; [|reflexivity]. split; [exact Hb|]. split; reflexivity.
    - assert (H := char_meets b c Hb). destruct (walk1 E (bsize b) c (bcur b)) as [p|p|]; cbn [meets] in H.
      + destruct H as (b' & -> & (A1 & A2 & A3) & A4). cbn [obind]. specialize (IH b' A1). rewrite A2, A3, A4 in IH. exact IH.
      + destruct H as (b' & -> & A). cbn [obind]. exists b'. auto.
      + rewrite H. reflexivity.
  Qed.

  Definition ends (r : pan sbuf) (f : option (size * cursor)) : Prop :=
    match f with
    | Some (sz, p) => exists b, r = Val b /\ agrees b sz p
    | None => r = Boom
    end.
  Definition lands (sz : size) (f : fate) : option (size * cursor) :=
    match f with Moved p | Stopped p => Some (sz, p) | Panics => None end.

  Lemma text_ends s b : buf_ok E b ->
    ends (ignore_err (write_str E b s)) (lands (bsize b) (walk E (bsize b) s (bcur b))).
  Proof.
    intros Hb. assert (T := text_meets s b Hb). destruct (walk E (bsize b) s (bcur b)) as [p|p|]; cbn [meets] in T.
    - destruct T as (b' & -> & A & _). exists b'. auto.
    - destruct T as (b' & -> & A & _). exists b'. auto.
    - now rewrite T.
  Qed.
  Lemma styled_meets a s b : buf_ok E b ->
    meets (bsize b) (attrs_after (walk E (bsize b) s (bcur b)) a) (walk E (bsize b) s (bcur b)) (write_styled E b a s).
  Proof.
    intros Hb. assert (T := text_meets s (with_attrs b a) Hb). unfold write_styled. cbn [bsize bcur with_attrs battrs] in T.
    destruct (walk E (bsize b) s (bcur b)) as [p|p|]; cbn [meets attrs_after] in *.
    - destruct T as (b' & -> & A & _). cbn [obind]. exists (sb_clear_attributes b'). auto.
    - destruct T as (b' & -> & A & B). exists b'. auto.
    - now rewrite T.
  Qed.
  Lemma styled_ends a s b : buf_ok E b ->
    ends (ignore_err (write_styled E b a s)) (lands (bsize b) (walk E (bsize b) s (bcur b))).
  Proof.
    intros Hb. assert (T := styled_meets a s b Hb). destruct (walk E (bsize b) s (bcur b)) as [p|p|]; cbn [meets] in T.
    - destruct T as (b' & -> & A & _). exists b'. auto.
    - destruct T as (b' & -> & A & _). exists b'. auto.
    - now rewrite T.
  Qed.

  Lemma resize_ends b new : buf_ok E b -> ends (sb_resize E b new) (go E (bsize b, bcur b) (BResize new)).
  Proof.
    intros Hb. cbn [go]. destruct (Nat.leb_spec (lines new * columns new) (umax E)) as [Hn|Hn].
    - destruct (Nat.eqb_spec (columns new) 0) as [Z|Z]; [rewrite andb_true_r|rewrite andb_false_r].
      + assert (Hb0 := Hb). destruct Hb as (B1 & B2 & B3 & B4). unfold total in *. unfold sb_resize, resize_buffer, new_buffer, area, checked_area.
        replace (lines new * columns new <=? umax E) with true by lia.
        replace (lines new * columns new) with 0 by (rewrite Z; lia). cbn [repeat].
        destruct (Nat.ltb_spec 0 (lines (bsize b) * columns (bsize b))) as [P|P].
        * assert (Hd : size_eqb (bsize b) new = false).
          { unfold size_eqb. destruct (columns (bsize b) =? columns new) eqn:Q; [|now rewrite andb_false_r]. nia. }
          rewrite Hd. destruct (buffer b) as [|c l] eqn:Eb; [cbn in B2; lia|]. 
          destruct (columns (bsize b)) as [|n]; [lia|]. rewrite Z. destruct (chunks (S n) (c :: l)); reflexivity.
        * assert (Hbuf : buffer b = []) by (destruct (buffer b); [reflexivity|cbn in B2; lia]).
          rewrite Hbuf. destruct (size_eqb (bsize b) new);
            (eexists; split; [reflexivity|]; split; [|split; reflexivity]; unfold buf_ok, total; cbn [bsize buffer back];
             rewrite Z; repeat split; cbn; try lia; try constructor).
      + destruct (resize_buf_ok E b new HE Hb ltac:(lia) Hn) as (b' & R1 & R2 & R3 & R4). exists b'. split; [exact R1|].
        split; [exact R2|auto].
    - unfold ends, sb_resize, resize_buffer, new_buffer, area, checked_area.
      replace (lines new * columns new <=? umax E) with false by lia.
      destruct (size_eqb (bsize b) new); reflexivity.
  Qed.

  Lemma op_ends b o : buf_ok E b -> ends (run_buf_op E b o) (go E (bsize b, bcur b) o).
  Proof.
    intros Hb. destruct o; cbn [run_buf_op go]; cbv zeta;
      try (eexists; split; [reflexivity|]; split; [exact Hb|split; reflexivity]).
    - apply resize_ends, Hb.
    - unfold sb_next_line, uadd. destruct (_ <=? _); [|reflexivity].
      eexists; split; [reflexivity|]; split; [exact Hb|split; reflexivity].
    - destruct (run_buf_op E b BClearScreen) as [b'|] eqn:R; [|discriminate R].
      destruct (op_ok E HE b BClearScreen b' Hb ltac:(discriminate) R) as (H1 & _ & H2).
      exists b'. split; [exact R|]. split; [exact H1|]. split; [exact H2|]. now injection R as <-.
    - replace (write_char E b ch) with (write_str E b [ch]).
      + apply text_ends, Hb.
      + cbn [write_str]. destruct (write_char E b ch) as [? []|? []| |]; reflexivity.
    - apply text_ends, Hb.
    - unfold write_at. destruct (inside (bsize b) p) eqn:Eo.
      + apply inside_spec in Eo. replace (try_cursor_at b p) with true by (symmetry; now apply try_cursor_at_spec).
        exact (text_ends s (with_cur b p) Hb).
      + apply inside_false in Eo. replace (try_cursor_at b p) with false by (symmetry; now apply try_cursor_at_false).
        exists b. split; [reflexivity|]. split; [exact Hb|auto].
    - apply styled_ends, Hb.
    - unfold write_styled_at. destruct (inside (bsize b) p) eqn:Eo.
      + apply inside_spec in Eo. replace (try_cursor_at b p) with true by (symmetry; now apply try_cursor_at_spec).
        exact (styled_ends a s (with_cur b p) Hb).
      + apply inside_false in Eo. replace (try_cursor_at b p) with false by (symmetry; now apply try_cursor_at_false).
        exists b. split; [reflexivity|]. split; [exact Hb|auto].
  Qed.

  Lemma ops_end l : forall b, buf_ok E b -> ends (run_buf_ops E b l) (goes_on E (bsize b, bcur b) l).
  Proof.
    induction l as [|o l IH]; intros b Hb; cbn [run_buf_ops goes_on].
    - exists b. split; [reflexivity|]. split; [exact Hb|auto].
    - assert (H := op_ends b o Hb). destruct (go E (bsize b, bcur b) o) as [[sz p]|]; cbn [ends] in H.
      + destruct H as (b' & -> & A1 & <- & <-). apply IH, A1.
      + rewrite H. reflexivity.
  Qed.

  Lemma history_ends sz l : ends (buf_history E sz l) (story E sz l).
  Proof.
    unfold buf_history, story. destruct (Nat.leb_spec (lines sz * columns sz) (umax E)) as [H|H].
    - destruct (new_ok 1 (le_n 1) E sz HE H) as (b & B1 & B2 & B3 & B4 & _). rewrite B1. rewrite <- B3 at 1. rewrite <- B4. now apply ops_end.
    - unfold sb_new, area, checked_area. replace (lines sz * columns sz <=? umax E) with false by lia. reflexivity.
  Qed.

  (** Styled text: the attributes afterwards. *)
  Lemma styled_leaves b a s : buf_ok E b ->
    match run_buf_op E b (BWriteStyled a s) with
    | Val b' => battrs b' = attrs_after (walk E (bsize b) s (bcur b)) a
    | Boom => walk E (bsize b) s (bcur b) = Panics
    end.
  Proof.
    intros Hb. assert (T := styled_meets a s b Hb). cbn [run_buf_op].
    destruct (walk E (bsize b) s (bcur b)) as [p|p|]; cbn [meets] in T.
    - destruct T as (b' & -> & _ & A). exact A.
    - destruct T as (b' & -> & _ & A). exact A.
    - now rewrite T.
  Qed.
  Lemma any_history_ok sz l b : buf_history E sz l = Val b -> buf_ok E b.
  Proof.
    intros H. assert (X := history_ends sz l). rewrite H in X. destruct (story E sz l) as [[sz' p]|]; [|discriminate].
    destruct X as (b' & X & A). injection X as <-. apply A.
  Qed.
  Lemma styled_leaves_history sz l b a s : buf_history E sz l = Val b ->
    match run_buf_op E b (BWriteStyled a s) with
    | Val b' => battrs b' = attrs_after (walk E (bsize b) s (bcur b)) a
    | Boom => walk E (bsize b) s (bcur b) = Panics
    end.
  Proof. intros H. apply styled_leaves. exact (any_history_ok _ _ _ H). Qed.

  Lemma panics_exactly sz l :
    match story E sz l with
    | None => buf_history E sz l = Boom
    | Some (sz', p) => exists b, buf_history E sz l = Val b /\ bsize b = sz' /\ bcur b = p
    end.
  Proof.
    assert (H := history_ends sz l). destruct (story E sz l) as [[sz' p]|]; [|exact H].
    destruct H as (b & H & _ & A & B). exists b. auto.
  Qed.
End Overrun.

(** Examples: degenerate sizes, on both sides of each boundary. *)
Definition outcome_is (r : pan sbuf) (o : option (size * cursor)) : bool :=
  match r, o with
  | Boom, None => true
  | Val b, Some (sz, p) => size_eqb (bsize b) sz && (line (bcur b) =? line p) && (column (bcur b) =? column p)
  | _, _ => false
  end.
Lemma overrun_example :
  let E := demo_env 20 in
  (* two and three lines of one column, a double-width character on the first *)
  story E (Size 2 1) [BWriteStr [65313]%N] = None /\
  story E (Size 3 1) [BWriteStr [65313]%N] = Some (Size 3 1, Cursor 2 0) /\
  (* a mark on a screen without columns *)
  story E (Size 3 0) [BWriteStr [10; 769]%N] = None /\
  story E (Size 3 0) [BWriteStr [769; 10; 97]%N] = Some (Size 3 0, Cursor 1 0) /\
  (* resizing *)
  story E (Size 3 2) [BResize (Size 3 0)] = None /\
  story E (Size 0 2) [BResize (Size 3 0); BResize (Size 4 5)] = Some (Size 4 5, Cursor 0 0) /\
  story E (Size 4 5) [BResize (Size 3 7)] = None /\
  (* line numbers *)
  story E (Size 2 2) [BSetCursor (Cursor 19 0); BWriteStr [10]%N; BNextLine 1] = None /\
  forallb (fun x => outcome_is (buf_history E (fst x) (snd x)) (story E (fst x) (snd x)))
    [(Size 2 1, [BWriteStr [65313]%N]); (Size 3 1, [BWriteStr [65313]%N]); (Size 3 0, [BWriteStr [10; 769]%N]);
     (Size 3 0, [BWriteStr [769; 10; 97]%N]); (Size 3 2, [BResize (Size 3 0)]);
     (Size 0 2, [BResize (Size 3 0); BResize (Size 4 5)]); (Size 4 5, [BResize (Size 3 7)]);
     (Size 2 2, [BSetCursor (Cursor 19 0); BWriteStr [10]%N; BNextLine 1])] = true.
Proof. vm_compute. repeat split. Qed.
Lemma leaves_example :
  let E := demo_env 1000 in let a := Attrs (Some Red) None 0%N in
  exists b, buf_history E (Size 1 4) [BWriteStr [97]%N] = Val b /\
    walk E (bsize b) [65313; 98]%N (bcur b) = Moved (Cursor 1 0) /\
    walk E (bsize b) [98; 65313; 99]%N (bcur b) = Stopped (Cursor 1 0).
Proof. eexists. split; [vm_compute; reflexivity|]. vm_compute. auto. Qed.
