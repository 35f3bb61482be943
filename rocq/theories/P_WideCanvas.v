From Verif Require Import Base M_Utf8 S_Utf8 M_Geom S_Geom P_Geom M_Attr S_Buf M_Writer S_Tty S_Writer
  M_Screen S_Screen P_Buf P_Buf2 P_Buf3 P_Screen P_Screen2 P_Screen5 M_Api M_ScreenApi M_Buf S_Canvas P_Canvas S_WideCanvas.

Section WideCanvas.
  Variable E : env.
  Hypothesis HE : env_ok E.

  Definition isw (t : list N) : bool := match t with x :: _ => width0 E x =? 2 | [] => false end.
  Lemma isw_space : isw [32%N] = false.
  Proof. unfold isw, width0. change 32%N with SPACE. destruct HE as (-> & _). reflexivity. Qed.

  Definition good_at (b : sbuf) (k : wcanvas) (q : cursor) : Prop :=
    match wink k (line q) (column q) with
    | Glyph t a => cell_at b (cell_no (wsize k) q) = Some (Cell a t) /\
        (isw t = true -> column q + 1 < columns (wsize k) /\ wink k (line q) (column q + 1) = Right)
    | Right => exists c t a, column q = S c /\ wink k (line q) c = Glyph t a /\ isw t = true /\
        cell_at b (cell_no (wsize k) q) = Some (Cell a [32%N])
    end.
  Record wfits (b : sbuf) (k : wcanvas) : Prop := {
    w_ok : buf_ok E b;
    w_cols : 1 <= columns (wsize k);
    w_size : bsize b = wsize k;
    w_cur : bcur b = wpen k;
    w_attrs : battrs b = wbrush k;
    w_good : forall q, in_bounds q (wsize k) -> good_at b k q
  }.

  Lemma good_held b k q : good_at b k q -> cell_at b (cell_no (wsize k) q) = Some (held k q).
  Proof.
    unfold good_at, held. destruct (wink k (line q) (column q)) as [t a|]; [tauto|].
    intros (c & t & a & H1 & H2 & _ & H3). rewrite H1. replace (S c - 1) with c by lia. rewrite H2. exact H3.
  Qed.
  Lemma wfits_holds b k : wfits b k -> wholds b k.
  Proof.
    intros [F1 F2 F3 F4 F5 F6]. refine (conj F3 (conj F4 (conj F5 _))). intros p Hp. apply good_held, F6, Hp.
  Qed.

  Lemma wide_at_isw b j a t : cell_at b j = Some (Cell a t) -> wide_at E b j = isw t.
  Proof. intros H. rewrite wide_at_is_wide, H. reflexivity. Qed.

  (** Which cells are wide, and which are right halves. *)
  Lemma good_wide b k q : good_at b k q -> wide_at E b (cell_no (wsize k) q) = true ->
    column q + 1 < columns (wsize k) /\ wink k (line q) (column q + 1) = Right.
  Proof.
    unfold good_at. destruct (wink k (line q) (column q)) as [t a|].
    - intros (H1 & H2) Hw. rewrite (wide_at_isw _ _ _ _ H1) in Hw. auto.
    - intros (c & t & a & _ & _ & _ & H) Hw. rewrite (wide_at_isw _ _ _ _ H), isw_space in Hw. discriminate.
  Qed.

  Lemma put_cells b k ch w : wfits b k -> in_bounds (wpen k) (wsize k) -> printable E ch -> width0 E ch = w ->
    column (wpen k) + w <= columns (wsize k) ->
    exists b', write_nontab E b ch = Ret b' tt /\ wfits b' (put w ch k).
  Proof.
    intros F Hc Hp Hw Hfit. assert (F0 := F). destruct F as [F1 F2 F3 F4 F5 F6].
    assert (Hww : w = 1 \/ w = 2) by (rewrite <- Hw; now apply printable_width).
    assert (Hwr := write_fit E b ch F1 ltac:(now rewrite F3, F4) Hp ltac:(now rewrite F3, F4, Hw)).
    eexists. split; [exact Hwr|]. rewrite F3, F4, Hw in Hwr |- *.
    assert (Hok : buf_ok E (SBuf (put_wide b (cell_no (wsize k) (wpen k)) ch
        (unsplit E (cell_no (wsize k) (wpen k)) (buffer b)) w) (back b) (wsize k) (advance (wsize k) (wpen k) w) (battrs b))).
    { refine (proj1 (op_ok E HE b (BWriteChar ch) _ F1 _ _)); [discriminate|]. cbn. unfold write_char.
      destruct (printable_ne E ch Hp) as (-> & _ & _). now rewrite Hwr. }
    constructor; cbn [wsize wpen wbrush put wset_pen wset_ink bsize bcur battrs]; auto.
    - unfold advance. destruct (Nat.leb_spec (columns (wsize k)) (column (wpen k) + w));
        destruct (Nat.ltb_spec (column (wpen k) + w) (columns (wsize k))); try lia; reflexivity.
    - set (p := wpen k) in *. set (sz := wsize k) in *. set (i := cell_no sz p) in *.
      assert (Hlen : length (buffer b) = total sz) by (destruct F1 as (_ & X & _); rewrite X, F3; reflexivity).
      assert (Hi : i + w <= total sz).
      { unfold i, cell_no, total. destruct Hc. nia. }
      assert (Hul : length (unsplit E i (buffer b)) = total sz) by (rewrite unsplit_length; lia).
      set (b' := SBuf _ _ _ _ _) in *.
      assert (Hcell : forall j, cell_at b' j =
        if (w =? 2) && (j =? S i) then Some (Cell (wbrush k) [32%N])
        else if j =? i then Some (Cell (wbrush k) [ch])
        else if (S j =? i) && wide_at E b j then Some blank else cell_at b j).
      { intros j. unfold cell_at at 1, b', put_wide. cbn [buffer]. unfold new_cell. rewrite F5. fold SPACE.
        assert (Hu : nth_error (unsplit E i (buffer b)) j = if (S j =? i) && wide_at E b j then Some blank else cell_at b j).
        { rewrite nth_unsplit by lia. rewrite wide_at_is_wide. unfold cell_at.
          destruct (nth_error (buffer b) j); [reflexivity|]. now rewrite andb_false_r. }
        destruct Hww as [-> | ->]; cbn [Nat.eqb andb].
        - rewrite nth_upd by lia. now rewrite Hu.
        - rewrite nth_upd by (rewrite upd_length; lia). rewrite nth_upd by lia. now rewrite Hu. }
      clearbody b'.
      (* a right half is not wide, and nothing wide is in the last column *)
      intros [l c] Hq. assert (Hq' := Hq). destruct Hq' as [Q1 Q2]. cbn [line column] in Q1, Q2.
      assert (G := F6 _ Hq). unfold good_at in G |- *.
      cbn [wink wsize put wset_pen wset_ink line column] in G |- *. fold p sz in G |- *.
      assert (Hno : forall l' c', cell_no sz (Cursor l' c') = l' * columns sz + c') by reflexivity.
      assert (Hi' : i = line p * columns sz + column p) by reflexivity. destruct Hc as [C1 C2].
      destruct (Nat.eqb_spec l (line p)) as [->|Hl]; cbn [negb].
      2:{ (* another line *)
        replace (cell_at b' (cell_no sz (Cursor l c))) with (cell_at b (cell_no sz (Cursor l c))); [exact G|].
        rewrite Hcell. rewrite !Hno.
        assert (Hd : l < line p \/ line p < l) by lia.
        assert (Hd2 : l * columns sz + c < line p * columns sz \/ line p * columns sz + columns sz <= l * columns sz + c).
        { destruct Hd; [left|right]; nia. }
        replace ((w =? 2) && (l * columns sz + c =? S i)) with false by lia.
        replace (l * columns sz + c =? i) with false by lia.
        destruct (Nat.eqb_spec (S (l * columns sz + c)) i) as [Hs|]; cbn [andb]; [|reflexivity].
        destruct (wide_at E b (l * columns sz + c)) eqn:Ew; [|reflexivity]. exfalso.
        destruct (good_wide b k (Cursor l c) (F6 _ Hq) Ew) as (W1 & _). cbn [column] in W1. fold sz in W1.
        assert (l < line p) by (destruct (Nat.le_gt_cases (line p) l); [exfalso; nia|assumption]).
        assert ((l + 1) * columns sz <= line p * columns sz) by (apply Nat.mul_le_mono_r; lia). lia. }
      rewrite Hcell, Hno.
      destruct (Nat.eqb_spec c (column p)) as [->|Hcc].
      { (* the character *)
        replace (line p * columns sz + column p =? S i) with false by lia. rewrite andb_false_r.
        replace (line p * columns sz + column p =? i) with true by lia. split; [reflexivity|].
        intros X. unfold isw in X. rewrite Hw in X. apply Nat.eqb_eq in X. split; [lia|].
        replace (column p + 1 =? column p) with false by lia.
        replace ((column p <? column p + 1) && (column p + 1 <? column p + w)) with true by lia. reflexivity. }
      destruct ((column p <? c) && (c <? column p + w)) eqn:Er.
      { (* its right half *)
        assert (w = 2 /\ c = column p + 1) as [-> ->] by lia.
        exists (column p), [ch], (wbrush k). split; [cbn; lia|]. rewrite !Nat.eqb_refl. cbn [negb].
        split; [reflexivity|]. split; [unfold isw; rewrite Hw; reflexivity|].
        replace (line p * columns sz + (column p + 1) =? S i) with true by lia. reflexivity. }
      replace ((w =? 2) && (line p * columns sz + c =? S i)) with false by lia.
      replace (line p * columns sz + c =? i) with false by lia.
      destruct ((c + 1 =? column p) && is_right (wink k (line p) (column p))) eqn:El.
      { (* what was left of the character *)
        apply andb_prop in El as [L1 L2]. apply Nat.eqb_eq in L1.
        assert (Gp := F6 p (conj C1 C2)). unfold good_at in Gp. fold sz in Gp.
        destruct (wink k (line p) (column p)) as [|]; [discriminate|].
        destruct Gp as (c1 & t & a & X1 & X2 & X3 & _). assert (c1 = c) as -> by lia.
        cbn [line] in *. rewrite X2 in G. destruct G as [G1 G2]. rewrite Hno in G1.
        rewrite (wide_at_isw _ _ _ _ G1), X3. replace (S (line p * columns sz + c) =? i) with true by lia. cbn [andb].
        split; [reflexivity|]. intros X. rewrite isw_space in X. discriminate. }
      rewrite Hno in G.
      destruct (wink k (line p) c) as [t a|] eqn:Eg; cbn [is_right]; rewrite ?andb_false_r, ?andb_true_r.
      * (* another character *)
        destruct G as [G1 G2]. split.
        ** destruct ((S (line p * columns sz + c) =? i) && wide_at E b (line p * columns sz + c)) eqn:Ew; [|exact G1].
          apply andb_prop in Ew as [W1 W2]. rewrite (wide_at_isw _ _ _ _ G1) in W2. destruct (G2 W2) as [_ W3].
          assert (c + 1 = column p) as W4 by lia. rewrite W4 in W3. rewrite W3 in El. rewrite W4, Nat.eqb_refl in El. discriminate.
        ** intros X. destruct (G2 X) as [G3 G4]. split; [exact G3|].
          destruct (Nat.eqb_spec (c + 1) (column p)) as [Y|Y].
          { rewrite Y in G4. rewrite G4 in El. discriminate. }
          replace ((column p <? c + 1) && (c + 1 <? column p + w)) with false by lia.
          replace (c + 1 =? column p + w) with false by lia. rewrite andb_false_l.
          destruct ((c + 1 + 1 =? column p) && is_right (wink k (line p) (column p))) eqn:Ez; [|exact G4].
          (* two right halves in a row *)
          exfalso. apply andb_prop in Ez as [Z1 Z2]. apply Nat.eqb_eq in Z1.
          assert (Gp := F6 p (conj C1 C2)). unfold good_at in Gp.
          destruct (wink k (line p) (column p)) as [|]; [discriminate|]. destruct Gp as (c1 & t1 & a1 & X1 & X2 & _).
          assert (c1 = c + 1) as -> by lia. congruence.
      * destruct G as (c1 & t & a & X1 & X2 & X3 & X4). cbn [column line] in *. subst c.
        destruct (Nat.eqb_spec (S c1) (column p + w)) as [Y|Y].
        ** (* what was right of the character *)
          replace (S c1 - 1) with c1 by lia. rewrite X2. cbn [glyph_attrs].
          replace (S (line p * columns sz + S c1) =? i) with false by lia. cbn [andb]. split; [exact X4|].
          intros X. rewrite isw_space in X. discriminate.
        ** exists c1, t, a. split; [reflexivity|].
          replace (c1 =? column p) with false by lia.
          replace ((column p <? c1) && (c1 <? column p + w)) with false by lia.
          replace (c1 + 1 =? column p) with false by lia. cbn [andb]. rewrite X2. cbn [is_right]. rewrite andb_false_r.
          split; [reflexivity|]. split; [exact X3|].
          rewrite (wide_at_isw _ _ _ _ X4), isw_space, andb_false_r. exact X4.
  Qed.

  Lemma iter_first {A} (f : A -> A) n : forall x, Nat.iter (S n) f x = Nat.iter n f (f x).
  Proof. induction n as [|n IH]; intros x; [reflexivity|]. change (f (Nat.iter (S n) f x) = f (Nat.iter n f (f x))). now rewrite IH. Qed.

  Lemma spaces_cells n : forall b k, wfits b k -> (n = 0 \/ in_bounds (wpen k) (wsize k)) ->
    column (wpen k) + n <= columns (wsize k) \/ n = 0 ->
    exists b', write_spaces E n b = Ret b' tt /\ wfits b' (Nat.iter n (put 1 32%N) k).
  Proof.
    induction n as [|n IH]; intros b k F Hi Hn.
    - exists b. auto.
    - destruct Hi as [|Hi]; [discriminate|]. destruct Hn as [Hn|]; [|discriminate].
      destruct (space_printable E HE) as [Hp Hs].
      destruct (put_cells b k SPACE 1 F Hi Hp) as (b1 & W1 & F1); [unfold width0; now rewrite Hs|lia|].
      rewrite iter_first. cbn [write_spaces]. rewrite W1. cbn [obind].
      apply (IH b1 (put 1 32%N k) F1).
      + destruct n as [|n]; [now left|right]. cbn [put wpen wsize wset_pen wset_ink]. destruct Hi.
        replace (column (wpen k) + 1 <? columns (wsize k)) with true by lia. split; cbn [line column]; lia.
      + destruct n as [|n]; [now right|left]. cbn [put wpen wsize wset_pen wset_ink].
        replace (column (wpen k) + 1 <? columns (wsize k)) with true by lia. cbn [column]. lia.
  Qed.

  Lemma wkeep b k p : wfits b k -> wfits (with_cur b p) (wset_pen p k).
  Proof. intros [F1 F2 F3 F4 F5 F6]. constructor; try assumption. reflexivity. Qed.
  Lemma wbrush_fits b k a : wfits b k -> wfits (with_attrs b a) (wset_brush a k).
  Proof. intros [F1 F2 F3 F4 F5 F6]. constructor; try assumption. reflexivity. Qed.

  Lemma isw_mark t m : t <> [] -> isw (t ++ [m]) = isw t.
  Proof. destruct t; [congruence|reflexivity]. Qed.

  (** A mark on a character that is not a right half. *)
  Lemma mark_cells b k q m : wfits b k -> mark E m -> in_bounds q (wsize k) -> wink k (line q) (column q) <> Right ->
    exists c, get_cell E b q = Val c /\
    exists b', put_cell E b q (Cell (cattrs c) (ctext c ++ [m])) = Val b' /\ 
      (buf_ok E b' -> wfits b' (add_mark m q k)).
  Proof.
    intros [F1 F2 F3 F4 F5 F6] Hm Hq Hr. assert (B := F1). destruct B as (B1 & B2 & B3 & B4).
    destruct (get_cell_in E b q B1 B2 ltac:(now rewrite F3)) as (c & Hg & Hc). exists c. split; [exact Hg|].
    rewrite put_cell_in by (try assumption; now rewrite F3). eexists. split; [reflexivity|]. intros Hb.
    assert (Gq := F6 q Hq). unfold good_at in Gq. rewrite F3 in Hc.
    destruct (wink k (line q) (column q)) as [t a|] eqn:Eq; [|congruence]. destruct Gq as [G1 G2].
    assert (c = Cell a t) as -> by (unfold cell_at in G1; congruence). cbn [cattrs ctext] in *.
    assert (Ht : t <> []).
    { rewrite Forall_forall in B4. destruct (B4 _ (nth_error_In _ _ G1)) as (x & ms & X & _). cbn in X. rewrite X. discriminate. }
    constructor; try assumption. rewrite F3 in *. intros p Hp. 
    assert (Hcell : cell_at (with_buffer b (upd (cell_no (wsize k) q) (Cell a (t ++ [m])) (buffer b))) (cell_no (wsize k) p) =
      if (line p =? line q) && (column p =? column q) then Some (Cell a (t ++ [m])) else cell_at b (cell_no (wsize k) p)).
    { unfold cell_at. cbn [buffer with_buffer]. rewrite nth_upd by (rewrite B2; now apply cell_no_lt).
      now rewrite same_place by assumption. }
    assert (Gp := F6 p Hp). unfold good_at in *. cbn [wsize wink add_mark wset_ink] in *. rewrite Hcell. clear Hcell.
    destruct (Nat.eqb_spec (line p) (line q)) as [El|El]; cbn [andb].
    2:{ exact Gp. }
    destruct (Nat.eqb_spec (column p) (column q)) as [Ec|Ec].
    - rewrite El, Ec, Eq. split; [reflexivity|]. rewrite isw_mark by assumption. intros X. destruct (G2 X) as [X1 X2].
      split; [exact X1|]. replace (column q + 1 =? column q) with false by lia. exact X2.
    - destruct (wink k (line p) (column p)) as [t1 a1|] eqn:Ep.
      + destruct Gp as [P1 P2]. split; [exact P1|]. intros X. destruct (P2 X) as [X1 X2]. split; [exact X1|].
        destruct (Nat.eqb_spec (column p + 1) (column q)) as [Y|Y]; [|exact X2]. rewrite X2. reflexivity.
      + destruct Gp as (c1 & t1 & a1 & X1 & X2 & X3 & X4).
        destruct (Nat.eqb_spec c1 (column q)) as [Y|Y].
        * rewrite El, Y, Eq in X2. injection X2 as <- <-. exists c1, (t ++ [m]), a. split; [exact X1|].
          rewrite Y, Nat.eqb_refl, El, Eq. split; [reflexivity|]. split; [now rewrite isw_mark|exact X4].
        * exists c1, t1, a1. split; [exact X1|]. apply Nat.eqb_neq in Y. rewrite Y. auto.
  Qed.

  (** One character. *)
  Lemma wtype_char b k ch : wfits b k -> easy_char E ch k ->
    match wtyped E ch k with
    | Some k' => write_char E b ch = Panic \/ exists b', write_char E b ch = Ret b' tt /\ wfits b' k'
    | None => write_char E b ch = Fail b tt
    end.
  Proof.
    intros F [Hew Hem]. assert (F0 := F). destruct F as [F1 F2 F3 F4 F5 F6].
    destruct (char_cases E ch HE) as [->|[->|[->|[Hm|[Hp|(N1 & N2 & N3 & N4 & N5)]]]]].
    - change (wtyped E TAB k) with
        (if on_canvas (wsize k) (wpen k) then
           Some (Nat.iter (Nat.min (columns (wsize k)) (8 * (column (wpen k) / 8 + 1)) - column (wpen k)) (put 1 32%N) k)
         else None).
      destruct (on_canvas (wsize k) (wpen k)) eqn:Eo.
      + apply on_canvas_spec in Eo. right. unfold write_char. rewrite N.eqb_refl.
        replace (try_cursor b) with true by (symmetry; apply try_cursor_at_spec; now rewrite F3, F4).
        rewrite F3, F4. unfold usub. destruct Eo as [O1 O2].
        replace (column (wpen k) <=? columns (wsize k)) with true by lia.
        rewrite tab_count by assumption. unfold tab_target.
        apply spaces_cells; [assumption|right; split; assumption|left; lia].
      + apply on_canvas_false in Eo. rewrite <- F3, <- F4 in Eo. now apply tab_oob.
    - right. eexists. split; [reflexivity|]. rewrite F4. exact (wkeep b k _ F0).
    - change (wtyped E LF k) with (Some (wset_pen (Cursor (line (wpen k) + 1) 0) k)).
      change (write_char E b LF) with (write_nontab E b LF). rewrite write_lf.
      destruct (_ <=? _) eqn:El; [|now left]. right. eexists. split; [reflexivity|]. rewrite F4. exact (wkeep b k _ F0).
    - assert (Hm0 := Hm). destruct Hm as (M1 & M2 & M3 & M4).
      assert (Ht : wtyped E ch k =
        match before (wsize k) (wpen k) with
        | None => Some k
        | Some q => if on_canvas (wsize k) q then Some (add_mark ch (whole_at k q) k) else None
        end).
      { unfold wtyped. apply N.eqb_neq in M1, M2, M3. unfold TAB, CR, LF in *. now rewrite M1, M2, M3, M4. }
      assert (Hwr : write_char E b ch = 
        match cursor_previous (bcur b) (bsize b) with
        | Boom => Panic
        | Val None => Ret b tt
        | Val (Some prev) =>
            if try_cursor_at b prev then
              match get_cell E b prev with
              | Boom => Panic
              | Val c =>
                  match put_cell E b prev (Cell (cattrs c) (ctext c ++ [ch])) with
                  | Boom => Panic
                  | Val b => Ret b tt
                  end
              end
            else Fail b tt
        end).
      { unfold write_char, write_nontab. apply N.eqb_neq in M1, M2, M3. now rewrite M1, M2, M3, M4. }
      assert (Hpre : cursor_previous (bcur b) (bsize b) = Val (before (wsize k) (wpen k))).
      { rewrite F3, F4. unfold cursor_previous, before, usub. destruct (wpen k) as [l c]. cbn [line column].
        destruct c as [|c]; cbn [Nat.eqb].
        - destruct l as [|l]; cbn [Nat.eqb]; [reflexivity|].
          replace (1 <=? columns (wsize k)) with true by lia. cbn. rewrite ?Nat.sub_0_r. reflexivity.
        - cbn. rewrite ?Nat.sub_0_r. reflexivity. }
      assert (Hok : forall b', write_char E b ch = Ret b' tt -> buf_ok E b').
      { intros b' Hr. refine (proj1 (op_ok E HE b (BWriteChar ch) b' F1 _ _)); [discriminate|]. cbn. now rewrite Hr. }
      rewrite Ht. rewrite Hwr, Hpre in *. destruct (before (wsize k) (wpen k)) as [q|] eqn:Eq.
      + assert (Hnr := Hem Hm0 q eq_refl). destruct (on_canvas (wsize k) q) eqn:Eo.
        * apply on_canvas_spec in Eo. replace (try_cursor_at b q) with true in *
            by (symmetry; apply try_cursor_at_spec; now rewrite F3).
          destruct (mark_cells b k q ch F0 Hm0 Eo Hnr) as (c & G1 & b' & G2 & G3). rewrite G1, G2 in *.
          right. exists b'. split; [reflexivity|]. unfold whole_at.
          destruct (wink k (line q) (column q)); [|congruence]. apply G3, Hok. reflexivity.
        * apply on_canvas_false in Eo. replace (try_cursor_at b q) with false
            by (symmetry; apply try_cursor_at_false; now rewrite F3). reflexivity.
      + right. exists b. auto.
    - assert (Hwd : exists w, cwidth E ch = Some w /\ (w = 1 \/ w = 2)).
      { destruct (proj2 (proj2 (proj2 (proj2 Hp)))) as [X|X]; eauto. }
      destruct Hwd as (w & Hw & Hw12).
      assert (Hfit : on_canvas (wsize k) (wpen k) = true -> column (wpen k) + w <= columns (wsize k)).
      { intros Ho. destruct Hw12 as [-> | ->].
        - apply on_canvas_spec in Ho. destruct Ho. lia.
        - apply Hew; [split; assumption|assumption]. }
      assert (Ht : wtyped E ch k = if on_canvas (wsize k) (wpen k) then Some (put w ch k) else None).
      { unfold wtyped. destruct Hp as (P1 & P2 & P3 & P4 & _). apply N.eqb_neq in P1, P2, P3. unfold TAB, CR, LF in *.
        rewrite P1, P2, P3, P4, Hw. destruct Hw12 as [-> | ->]; [reflexivity|].
        destruct (on_canvas (wsize k) (wpen k)); [|reflexivity].
        replace (column (wpen k) + 2 <=? columns (wsize k)) with true; [reflexivity|].
        symmetry. apply Nat.leb_le. now apply Hfit. }
      rewrite Ht. unfold write_char. destruct (printable_ne E ch Hp) as (-> & _ & _).
      destruct (on_canvas (wsize k) (wpen k)) eqn:Eo.
      + right. apply on_canvas_spec in Eo. apply put_cells; auto. unfold width0. now rewrite Hw.
      + apply on_canvas_false in Eo. rewrite <- F3, <- F4 in Eo. now apply write_oob.
    - assert (Ht : wtyped E ch k = Some k).
      { unfold wtyped. destruct (cwidth E ch) as [[|[|[|w]]]|] eqn:Ew.
        2,3: exfalso; apply N5; repeat split; auto.
        all: apply N.eqb_neq in N1, N2, N3; unfold TAB, CR, LF in *; now rewrite N1, N2, N3, N4. }
      rewrite Ht. right. exists b. split; [now apply invisible_ignored|assumption].
  Qed.

  Lemma wtype_text s : forall b k, wfits b k -> easy_text E s k ->
    let '(k', fitted) := wtyping E s k in
    write_str E b s = Panic \/
    exists b', write_str E b s = (if fitted : bool then Ret b' tt else Fail b' tt) /\ wfits b' k'.
  Proof.
    induction s as [|c s IH]; intros b k F Hn; cbn [wtyping write_str easy_text] in *.
    - right. exists b. auto.
    - destruct Hn as [Hc Hn']. assert (T := wtype_char b k c F Hc).
      destruct (wtyped E c k) as [k'|].
      + destruct T as [T|(b' & T & F')]; rewrite T; [destruct (wtyping E s k'); now left|]. exact (IH b' k' F' Hn').
      + rewrite T. right. exists b. auto.
  Qed.

  Lemma wwriting b k s b' : wfits b k -> easy_text E s k -> ignore_err (write_str E b s) = Val b' -> wfits b' (wwrite E s k).
  Proof.
    intros F Hn H. assert (T := wtype_text s b k F Hn). unfold wwrite. destruct (wtyping E s k) as [k' f].
    destruct T as [T|(b2 & T & F')]; rewrite T in H; [discriminate|]. destruct f; injection H as <-; exact F'.
  Qed.
  Lemma wwriting_with b k a s b' : wfits b k -> easy_text E s (wset_brush a k) -> ignore_err (write_styled E b a s) = Val b' ->
    wfits b' (wwrite_with E a s k).
  Proof.
    intros F Hn H. assert (T := wtype_text s _ _ (wbrush_fits b k a F) Hn). unfold wwrite_with. 
    unfold write_styled in H. destruct (wtyping E s (wset_brush a k)) as [k' f].
    destruct T as [T|(b2 & T & F')]; rewrite T in H; [discriminate|]. destruct f; cbn in H; injection H as <-; [|exact F'].
    now apply wbrush_fits.
  Qed.

  Lemma wmethod_draws b k m b' : wfits b k -> easy E m k -> screen_method E m b = Val b' -> wfits b' (wdraw E m k).
  Proof.
    intros F Hn H. assert (F0 := F). destruct F as [F1 F2 F3 F4 F5 F6].
    destruct m; cbn [screen_method sforward run_buf_op wdraw easy] in *; unfold screen_method in H;
      cbn [sforward run_buf_op] in H; rewrite <- ?F5;
      try (injection H as <-; exact (wbrush_fits b k _ F0)).
    - injection H as <-. now apply wkeep.
    - unfold sb_next_line, uadd in H. destruct (_ <=? _); [|discriminate]. injection H as <-. rewrite <- F4. now apply wkeep.
    - injection H as <-. destruct (op_ok E HE b BClearScreen _ F1 ltac:(discriminate) eq_refl) as (G1 & _).
      constructor; try assumption. intros q Hq. change (in_bounds q (wsize k)) in Hq. unfold good_at. cbn [wink wset_ink wsize empty_glyph]. split.
      + unfold cell_at. cbn [buffer sb_clear_screen with_buffer]. rewrite nth_error_map.
        destruct F1 as (_ & X & _). rewrite F3 in X. assert (Y := cell_no_lt _ _ Hq). rewrite <- X in Y.
        apply nth_error_Some in Y. destruct (nth_error (buffer b) _); [reflexivity|congruence].
      + intros X. rewrite isw_space in X. discriminate.
    - destruct (on_canvas (wsize k) (where_ p)) eqn:Eo.
      + specialize (Hn eq_refl). apply on_canvas_spec in Eo. unfold write_at in H. 
        replace (try_cursor_at b (into_cursor p)) with true in H by (symmetry; apply try_cursor_at_spec; rewrite F3; exact Eo).
        exact (wwriting _ _ _ _ (wkeep _ _ _ F0) Hn H).
      + apply on_canvas_false in Eo. rewrite write_at_oob in H by (rewrite F3; exact Eo). injection H as <-. exact F0.
    - exact (wwriting_with _ _ _ _ _ F0 Hn H).
    - destruct (on_canvas (wsize k) (where_ p)) eqn:Eo.
      + specialize (Hn eq_refl). apply on_canvas_spec in Eo. unfold write_styled_at in H. 
        replace (try_cursor_at b (into_cursor p)) with true in H by (symmetry; apply try_cursor_at_spec; rewrite F3; exact Eo).
        exact (wwriting_with _ _ _ _ _ (wkeep _ _ _ F0) Hn H).
      + apply on_canvas_false in Eo. rewrite write_styled_at_oob in H by (rewrite F3; exact Eo). injection H as <-. exact F0.
    - apply (wwriting b k [c] b' F0 Hn). cbn [write_str]. destruct (write_char E b c) as [? []|? []| |]; exact H.
    - exact (wwriting _ _ _ _ F0 Hn H).
    - unfold screen_write_str in H. cbn [run_buf_op] in H. exact (wwriting _ _ _ _ F0 Hn H).
  Qed.

  Lemma wnew_fits sz b : 1 <= columns sz -> sb_new E sz = Val b -> wfits b (wblank sz).
  Proof.
    intros Hc H. destruct (new_fits E HE sz b Hc H) as [F1 _ _ (H1 & H2 & H3 & H4)].
    constructor; try assumption. intros q Hq. unfold good_at. cbn [wink wblank empty_glyph]. split; [exact (H4 q Hq)|].
    intros X. rewrite isw_space in X. discriminate.
  Qed.

  Lemma wmethods_draw ms : forall b k b', wfits b k -> all_easy E ms k ->
    screen_methods E ms b = Val b' -> wfits b' (wdraws E ms k).
  Proof.
    induction ms as [|m ms IH]; intros b k b' F Hn H; cbn [screen_methods wdraws all_easy] in *.
    - injection H as <-. exact F.
    - destruct (screen_method E m b) as [b1|] eqn:E1; [|discriminate]. destruct Hn as [N1 N2].
      exact (IH _ _ _ (wmethod_draws _ _ _ _ F N1 E1) N2 H).
  Qed.

  Lemma wdrawing_is_held sz b ms b' : 1 <= columns sz -> all_easy E ms (wblank sz) ->
    sb_new E sz = Val b -> screen_methods E ms b = Val b' -> wholds b' (wdraws E ms (wblank sz)).
  Proof. intros Hc Hn Hb H. exact (wfits_holds _ _ (wmethods_draw ms _ _ _ (wnew_fits sz b Hc Hb) Hn H)). Qed.

  Lemma wrefit_fits b k new b' : wfits b k -> cuts_nothing new k -> screen_size new -> sb_resize E b new = Val b' ->
    wfits b' (wrefit new k).
  Proof.
    intros [F1 F2 F3 F4 F5 F6] Hcut Hz H.
    destruct (sb_resize_ok E HE _ _ _ F1 Hz H) as (R1 & R2 & _ & R4). destruct Hz as (Z1 & Z2 & _).
    destruct (resize_theorem E b new F1 ltac:(lia)) as (b2 & X0 & X1 & X2 & X3 & X4 & X5 & _).
    { destruct R1 as (R1 & _). now rewrite R2 in R1. }
    rewrite H in X0. injection X0 as <-.
    constructor; cbn [wsize wpen wbrush wrefit]; try congruence; [assumption|].
    intros q Hq. unfold good_at. cbn [wink wsize wrefit].
    destruct ((line q <? lines (wsize k)) && (column q <? columns (wsize k))) eqn:Eo.
    - assert (Hi : in_bounds q (wsize k)) by (unfold in_bounds; lia). assert (G := F6 q Hi). unfold good_at in G.
      replace (line q <? lines (wsize k)) with true by lia. cbn [andb].
      assert (Hc : cell_at b' (cell_no new q) = cell_at b (cell_no (wsize k) q)).
      { rewrite X4; [|assumption|now rewrite F3]. now rewrite F3. }
      rewrite Hc. destruct Hq as [Q1 Q2], Hi as [I1 I2].
      destruct (wink k (line q) (column q)) as [t a|].
      + destruct G as [G1 G2]. split; [exact G1|]. intros X. destruct (G2 X) as [G3 G4].
        replace (column q + 1 <? columns (wsize k)) with true by lia. split; [|exact G4].
        destruct (Nat.lt_ge_cases (column q + 1) (columns new)) as [Y|Y]; [exact Y|]. exfalso.
        assert (column q + 1 = columns new) as Y2 by lia. rewrite Y2 in *. apply (Hcut ltac:(lia) (line q) I1 Q1 G4).
      + destruct G as (c & t & a & G1 & G2 & G3 & G4). exists c, t, a. split; [exact G1|].
        replace (c <? columns (wsize k)) with true by lia. auto.
    - cbn [empty_glyph]. split.
      + rewrite X5; [reflexivity|assumption|]. rewrite F3. unfold in_bounds. lia.
      + intros X. rewrite isw_space in X. discriminate.
  Qed.

  Lemma wback_fits b k l : wfits b k -> buf_ok E (with_back b l) -> wfits (with_back b l) k.
  Proof. intros [F1 F2 F3 F4 F5 F6] Hb. constructor; try assumption. Qed.

  (** Right halves of the canvas are right halves in the buffer, and the other way round. *)
  Lemma wfits_half b k p : wfits b k -> in_bounds p (wsize k) ->
    half E b (cell_no (wsize k) p) = is_right (wink k (line p) (column p)).
  Proof.
    intros F Hp. assert (F0 := F). destruct F as [F1 F2 F3 F4 F5 F6]. destruct p as [l c]. destruct Hp as [P1 P2]. cbn [line column] in *.
    assert (G := F6 (Cursor l c) (conj P1 P2)). unfold good_at in G. cbn [line column] in G.
    destruct (wink k l c) as [t a|] eqn:Eg; cbn [is_right].
    - unfold half, cell_no. cbn [line column]. destruct (l * columns (wsize k) + c) as [|j] eqn:Ej; [reflexivity|].
      destruct (wide_at E b j) eqn:Ew; [|reflexivity]. exfalso.
      destruct c as [|c].
      + destruct l as [|l]; [cbn in Ej; discriminate|].
        assert (Hq : in_bounds (Cursor l (columns (wsize k) - 1)) (wsize k)) by (split; cbn; lia).
        assert (Hj : j = cell_no (wsize k) (Cursor l (columns (wsize k) - 1))) by (unfold cell_no; cbn [line column]; cbn in Ej; lia).
        rewrite Hj in Ew. destruct (good_wide b k _ (F6 _ Hq) Ew) as (W & _). cbn [column] in W. lia.
      + assert (Hq : in_bounds (Cursor l c) (wsize k)) by (split; cbn; lia).
        assert (Hj : j = cell_no (wsize k) (Cursor l c)) by (unfold cell_no; cbn [line column]; lia).
        rewrite Hj in Ew. destruct (good_wide b k _ (F6 _ Hq) Ew) as (_ & W). cbn [column line] in W.
        replace (c + 1) with (S c) in W by lia. congruence.
    - destruct G as (c1 & t & a & G1 & G2 & G3 & G4). subst c.
      assert (G' := F6 (Cursor l c1) ltac:(split; cbn; lia)). unfold good_at in G'. cbn [line column] in G'. rewrite G2 in G'.
      unfold half, cell_no. cbn [line column]. replace (l * columns (wsize k) + S c1) with (S (l * columns (wsize k) + c1)) by lia.
      rewrite (wide_at_isw b _ a t); [exact G3|]. exact (proj1 G').
  Qed.

  Lemma wfits_fit b k : wfits b k -> wides_fit E b.
  Proof.
    intros F i Hi. assert (F0 := F). destruct F as [F1 F2 F3 F4 F5 F6].
    assert (Hlt : i < total (wsize k)).
    { destruct F1 as (_ & X & _). rewrite <- F3, <- X. unfold wide_at, cell_at in Hi.
      destruct (nth_error (buffer b) i) eqn:En; [|discriminate]. apply nth_error_Some. congruence. }
    assert (Hq := P_Screen.cell_pos_in (wsize k) i Hlt). assert (Hn := P_Screen.cell_pos_no (wsize k) i ltac:(lia)).
    assert (Hi' := Hi). rewrite <- Hn in Hi'. destruct (good_wide b k _ (F6 _ Hq) Hi') as (W1 & W2). rewrite F3.
    assert (Hcol : column (cell_pos (wsize k) i) = i mod columns (wsize k)) by reflexivity. split; [lia|].
    assert (Hs : cell_no (wsize k) (Cursor (line (cell_pos (wsize k) i)) (column (cell_pos (wsize k) i) + 1)) = S i).
    { transitivity (S (cell_no (wsize k) (cell_pos (wsize k) i))); [unfold cell_no; cbn [line column]; lia|now rewrite Hn]. }
    assert (G := F6 (Cursor (line (cell_pos (wsize k) i)) (column (cell_pos (wsize k) i) + 1))).
    destruct Hq as [Q1 Q2]. specialize (G ltac:(split; cbn [line column]; assumption)). unfold good_at in G.
    rewrite Hs in G. cbn [line column] in G. rewrite W2 in G. destruct G as (c & t & a & _ & _ & _ & G).
    rewrite (wide_at_isw _ _ _ _ G). exact isw_space.
  Qed.
End WideCanvas.
