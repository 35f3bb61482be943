(** Refreshing a Windows screen writes the changed cells only (C125). *)
From Verif Require Import Base M_Utf8 S_Utf8 M_Geom S_Geom M_Attr M_Signal M_Util M_Input M_Buf S_Buf M_Writer M_Prepare M_Reader
  M_WinWriter M_WinReader S_WinReader M_WinScreen S_WinScreen P_Buf2 P_Buf3 P_WinScreen P_WinDraw S_WinMinimal.
From Verif Require S_WinWriter S_Screen P_Buf P_Buf4 P_Screen P_Screen2 P_Screen3 P_Screen4 P_WinWriter P_WinView P_Attr.

Lemma clear_same d a s s' u : win_set_attributes d a s = Ret s' u -> w_at s' = a.
Proof.
  unfold win_set_attributes. intros H.
  destruct (ocolor_eqb (fg (w_at s)) (fg a)) eqn:Ef; cbn [negb orb] in H;
    [|apply P_WinWriter.update_ok in H; apply H].
  destruct (ocolor_eqb (bg (w_at s)) (bg a)) eqn:Eb; cbn [negb orb] in H;
    [|apply P_WinWriter.update_ok in H; apply H].
  destruct (N.eqb_spec (sty (w_at s)) (sty a)) as [Es|Es]; cbn [negb] in H;
    [|apply P_WinWriter.update_ok in H; apply H].
  injection H as <- _. apply P_WinWriter.ocolor_eqb_eq in Ef, Eb.
  destruct (w_at s), a; cbn in *. congruence.
Qed.

Lemma set_same d a s : w_at s = a -> win_set_attributes d a s = Ret s tt.
Proof.
  intros <-. unfold win_set_attributes.
  assert (R : forall c, ocolor_eqb c c = true) by (intros [[]|]; reflexivity).
  now rewrite !R, N.eqb_refl.
Qed.

Lemma with_gt_id s : with_gt (with_w (t_w (g_t s)) (g_t s)) s = s.
Proof. now destruct s as [b c r st o []]. Qed.
Lemma with_gsb_id s : with_gsb (g_sb s) s = s.
Proof. now destruct s. Qed.

Section Settle.
  Variables (draw : list N -> N -> view -> view) (E : env).

  Lemma gmove_keeps p s s' u : gs_move_cursor p s = Ret s' u ->
    g_sb s' = g_sb s /\ g_clr s' = g_clr s /\ g_real s' = p /\ ats s' = ats s.
  Proof.
    unfold gs_move_cursor. destruct (cursor_eqb (g_real s) p) eqn:Ec; intros H.
    - apply P_Screen.cursor_eqb_eq in Ec. injection H as <- _. auto.
    - apply bind_ret in H. destruct H as (s1 & u1 & H1 & H). injection H as <- _.
      apply on_inv in H1. destruct H1 as (w & H1 & ->). apply move_inv in H1.
      destruct H1 as (_ & A & _). unfold ats. cbn. auto.
  Qed.

  Lemma gdraw_settled fuel : forall lo hi at_ s s' u, gs_draw draw E fuel lo hi at_ s = Ret s' u ->
    P_Screen3.settled E (g_sb s') hi lo /\ g_sb s' = with_back (g_sb s) (back (g_sb s')) /\ g_clr s' = g_clr s /\
    (forall j, j < lo -> nth_error (back (g_sb s')) j = nth_error (back (g_sb s)) j).
  Proof.
    induction fuel as [|fuel IH]; intros lo hi at_ s s' u H; cbn [gs_draw] in H; unfold next_cell in H;
      destruct (next_cell_aux E (hi - lo) (g_sb s) lo hi) as [[[b' lo'] [[p c]|]]|] eqn:En; try discriminate.
    1, 3: apply bind_ret in H; destruct H as (s1 & u1 & H1 & H);
      apply bind_ret in H; destruct H as (s2 & u2 & H2 & H);
      apply bind_ret in H; destruct H as (s3 & u3 & H3 & H);
      destruct (uadd (umax E) (column (g_real s3)) 1) as [cc|]; try discriminate.
    1: { destruct (gmove_keeps _ _ _ _ H1) as (M1 & M2 & _). cbn [g_sb g_clr with_gsb] in M1, M2.
      assert (K2 : g_sb s2 = g_sb s1 /\ g_clr s2 = g_clr s1).
      { unfold gs_apply_attrs in H2. destruct (attrs_eqb _ _); [injection H2 as <- _; auto|].
        apply on_inv in H2. destruct H2 as (w2 & _ & ->). auto. }
      destruct K2 as (K2 & K2').
      apply on_inv in H3. destruct H3 as (w3 & _ & ->).
      destruct (P_Screen3.some_settled E _ _ _ _ _ _ _ _ (le_n _) En) as (i & bk & I1 & I2 & I3 & I4 & I5).
      apply IH in H. cbn [g_sb g_clr with_greal with_gt] in H. destruct H as (D1 & D2 & D3 & D4).
      rewrite K2, M1, I4 in *. cbn [back with_back] in D4.
      split; [|split; [rewrite D2; reflexivity|split; [congruence|]]].
      - apply I5; auto. rewrite D2. reflexivity.
      - intros j Hj. rewrite D4 by lia. apply P_Buf4.vec_set_some in I3. destruct I3 as [I3 ->]. rewrite P_Buf.nth_upd by assumption.
        destruct (Nat.eqb_spec j i); [lia|reflexivity]. }
    all: injection H as <- _; apply P_Screen3.none_settled in En; [|lia]; destruct En as [-> En];
      rewrite with_gsb_id; split; [assumption|]; split; [now destruct (g_sb s)|]; auto.
  Qed.

  Lemma wrefresh_settles s s' u : win_refresh draw E s = Ret s' u ->
    g_clr s' = false /\ ats s' = no_attrs /\
    g_sb s' = with_back (g_sb s) (back (g_sb s')) /\
    exists n, sb_indices E (g_sb s') = Val (0, n) /\ P_Screen3.settled E (g_sb s') n 0 /\
      (if is_out_of_bounds (bcur (g_sb s')) (bsize (g_sb s')) then cursor_last (bsize (g_sb s')) = Val (g_real s')
       else g_real s' = bcur (g_sb s')).
  Proof.
    intros H. unfold win_refresh in H. apply bind_ret in H. destruct H as (s1 & u1 & H1 & H).
    assert (S1 : g_sb s1 = g_sb s /\ g_clr s1 = false).
    { destruct (g_clr s) eqn:Ec.
      - apply bind_ret in H1. destruct H1 as (s0 & u0 & H0 & H1). injection H1 as <- _.
        apply on_inv in H0. destruct H0 as (w & H0 & ->). split; reflexivity.
      - injection H1 as <- _. auto. }
    destruct S1 as [S1 C1].
    apply bind_ret in H. destruct H as (s2 & u2 & H2 & H).
    apply on_inv in H2. destruct H2 as (w2 & H2 & ->). cbn [g_sb with_gt] in H.
    destruct (sb_indices E (g_sb s1)) as [[lo hi]|] eqn:Ei; [|discriminate].
    assert (lo = 0) by (unfold sb_indices in Ei; destruct (area _ _); congruence). subst lo.
    apply bind_ret in H. destruct H as (s3 & u3 & H3 & H).
    destruct (gdraw_settled _ _ _ _ _ _ _ H3) as (D1 & D2 & D3 & D4). cbn [g_sb g_clr with_gt] in D2, D3, D4.
    apply bind_ret in H. destruct H as (s4 & u4 & H4 & H).
    apply on_inv in H4. destruct H4 as (w4 & H4 & ->).
    assert (A4 := clear_same _ _ _ _ _ H4). cbn [g_sb with_gt] in H.
    assert (G : exists p, gs_move_cursor p (with_gt (with_w w4 (g_t s3)) s3) = Ret s' u /\
      (if is_out_of_bounds (bcur (g_sb s3)) (bsize (g_sb s3)) then cursor_last (bsize (g_sb s3)) = Val p else p = bcur (g_sb s3))).
    { destruct (is_out_of_bounds _ _); [|eauto]. destruct (cursor_last _); [eauto|discriminate]. }
    destruct G as (p & G1 & G2).
    destruct (gmove_keeps _ _ _ _ G1) as (M1 & M2 & M3 & M4). cbn [g_sb g_clr with_gt] in M1, M2.
    rewrite M1, M3. split; [congruence|]. split; [rewrite M4; exact A4|]. split; [rewrite <- S1; exact D2|].
    exists hi. split; [rewrite D2; exact Ei|]. split; [exact D1|exact G2].
  Qed.

  Lemma wrefresh_twice s s' u : win_refresh draw E s = Ret s' u -> win_refresh draw E s' = Ret s' tt.
  Proof.
    intros H. apply wrefresh_settles in H. destruct H as (C & A & _ & n & Hi & Hs & Hp).
    unfold win_refresh. rewrite C. cbn [obind].
    assert (K : gs_clear_attributes s' = Ret s' tt).
    { unfold gs_clear_attributes, on_term, on_wins, win_clear_attributes. rewrite (set_same _ _ _ A). now rewrite with_gt_id. }
    rewrite K. cbn [obind]. rewrite Hi.
    assert (Kd : gs_draw draw E (n - 0) 0 n no_attrs s' = Ret s' tt).
    { destruct (P_Screen3.settled_none E _ _ _ Hs (n - 0)) as (lo' & Hn).
      destruct (n - 0) eqn:En; cbn [gs_draw]; unfold next_cell; rewrite En; rewrite Hn; now rewrite with_gsb_id. }
    rewrite Kd. cbn [obind]. rewrite K. cbn [obind].
    assert (R : forall p, cursor_eqb p p = true) by (intros p; now apply P_Screen.cursor_eqb_eq).
    destruct (is_out_of_bounds _ _); [rewrite Hp|rewrite <- Hp]; unfold gs_move_cursor; now rewrite R.
  Qed.
End Settle.

(** ** What the console receives *)
Section Words.
  Variables (draw : list N -> N -> view -> view) (E : env).

  Definition tracks_word (s : wscr) : Prop := P_WinWriter.tracked (t_default (g_t s)) (t_w (g_t s)).

  (** The screen [s'] is [s], but for its writer. *)
  Definition rest_same (s s' : wscr) : Prop := exists w, s' = with_gt (with_w w (g_t s)) s.

  Lemma on_both {A} (f : wins -> winres A) s :
    match on_term (on_wins f) s, f (t_w (g_t s)) with
    | Ret s' a, Ret w b => s' = with_gt (with_w w (g_t s)) s /\ a = b
    | Fail s' e, Fail w e' => s' = with_gt (with_w w (g_t s)) s /\ e = e'
    | Panic, Panic | Blocked, Blocked => True
    | _, _ => False
    end.
  Proof. unfold on_term, on_wins. destruct (f (t_w (g_t s))); auto. Qed.

  Lemma set_fail d a s s' e : win_set_attributes d a s = Fail s' e -> c_text (w_con s') = c_text (w_con s).
  Proof.
    unfold win_set_attributes, win_update_attrs, set_console_attr, ask. destruct s as [at_ [v w tx cu an]]. cbn.
    destruct (_ || _); [|intros H; discriminate H]. destruct an as [|[e'|n] l]; cbn; intros H; try discriminate H.
    now injection H as <- _.
  Qed.

  Lemma gmove_words p s :
    match gs_move_cursor p s with
    | Ret s' _ => g_sb s' = g_sb s /\ t_default (g_t s') = t_default (g_t s) /\ ats s' = ats s /\ heard s' = heard s /\
                  (tracks_word s -> tracks_word s')
    | Fail s' _ => heard s' = heard s
    | _ => True
    end.
  Proof.
    unfold gs_move_cursor. destruct (cursor_eqb (g_real s) p); [auto 10|].
    assert (B := on_both (win_move_cursor p) s).
    assert (Q := P_WinWriter.quiet_op draw 0 E (OMoveCursor p) (t_w (g_t s))). cbn [run_win] in Q.
    destruct (on_term (on_wins (win_move_cursor p)) s) as [s1 u|s1 e| |]; cbn [obind]; auto;
      destruct (win_move_cursor p (t_w (g_t s))) as [w u'|w e'| |]; try contradiction; destruct B as (-> & _);
      destruct Q as (Q1 & Q2 & Q3); unfold ats, heard, tracks_word, P_WinWriter.tracked; cbn.
    - repeat split; auto. now rewrite Q1, Q2.
    - exact Q3.
  Qed.

  Lemma gattrs_words a s : tracks_word s ->
    match on_term (on_wins (win_set_attributes (t_default (g_t s)) a)) s with
    | Ret s' _ => g_sb s' = g_sb s /\ t_default (g_t s') = t_default (g_t s) /\ ats s' = a /\ heard s' = heard s /\ tracks_word s'
    | Fail s' _ => heard s' = heard s
    | _ => True
    end.
  Proof.
    intros T. assert (B := on_both (win_set_attributes (t_default (g_t s)) a) s).
    destruct (on_term (on_wins (win_set_attributes (t_default (g_t s)) a)) s) as [s1 u|s1 e| |]; auto;
      destruct (win_set_attributes (t_default (g_t s)) a (t_w (g_t s))) as [w u'|w e'| |] eqn:H; try contradiction; destruct B as (-> & _).
    - apply P_WinWriter.set_attributes_ok in H; [|exact T]. destruct H as (H1 & H2 & H3).
      repeat split; auto.
    - apply set_fail in H. exact H.
  Qed.

  Lemma gapply_words src a s : tracks_word s -> ats s = src ->
    match gs_apply_attrs src a s with
    | Ret s' _ => g_sb s' = g_sb s /\ t_default (g_t s') = t_default (g_t s) /\ ats s' = a /\ heard s' = heard s /\ tracks_word s'
    | Fail s' _ => heard s' = heard s
    | _ => True
    end.
  Proof.
    intros T Ha. unfold gs_apply_attrs. destruct (attrs_eqb src a) eqn:Eq.
    - apply P_Attr.attrs_eqb_eq in Eq. subst. auto 10.
    - now apply gattrs_words.
  Qed.

  Definition words (d : N) (a : attrs) (t : list N) : list (N * N) := map (fun u => (u, win_word d a)) (encode_wide t).

  Lemma gwrite_words t s : tracks_word s ->
    match on_term (on_wins (win_write_str draw t)) s with
    | Ret s' _ => g_sb s' = g_sb s /\ t_default (g_t s') = t_default (g_t s) /\ ats s' = ats s /\
                  heard s' = heard s ++ words (t_default (g_t s)) (ats s) t /\ tracks_word s'
    | Fail s' _ => exists x y, heard s' = heard s ++ x /\ x ++ y = words (t_default (g_t s)) (ats s) t
    | _ => True
    end.
  Proof.
    intros T. assert (B := on_both (win_write_str draw t) s). assert (W := P_WinWriter.write_str_ok draw 0%N t (t_w (g_t s))).
    unfold tracks_word, P_WinWriter.tracked in T.
    destruct (on_term (on_wins (win_write_str draw t)) s) as [s1 u|s1 e| |]; auto;
      destruct (win_write_str draw t (t_w (g_t s))) as [w u'|w e'| |]; try contradiction; destruct B as (-> & _).
    - destruct W as (W1 & W2 & W3). rewrite T in W3.
      split; [reflexivity|]. split; [reflexivity|]. split; [exact W1|]. split; [exact W3|].
      unfold tracks_word, P_WinWriter.tracked. cbn. rewrite W1, W2. exact T.
    - destruct W as (k & _ & _ & W3). rewrite T in W3. exists (map (fun u => (u, win_word (t_default (g_t s)) (ats s))) (firstn k (encode_wide t))).
      exists (map (fun u => (u, win_word (t_default (g_t s)) (ats s))) (skipn k (encode_wide t))).
      split; [exact W3|]. rewrite <- map_app, firstn_skipn. reflexivity.
  Qed.

  Definition piece (d : N) (b : sbuf) (i : nat) : list (N * N) := words d (attrs_at b i) (S_Screen.text_at b i).

  Lemma gdraw_words fuel : forall lo hi at_ s, buf_ok E (g_sb s) -> 0 < columns (bsize (g_sb s)) -> S_Screen.wides_fit E (g_sb s) ->
    hi = total (bsize (g_sb s)) -> lo <= hi -> S_Screen.half E (g_sb s) lo = false -> tracks_word s -> ats s = at_ ->
    let l := flat_map (piece (t_default (g_t s)) (g_sb s)) (filter (P_Screen4.chg E (g_sb s)) (seq lo (hi - lo))) in
    match gs_draw draw E fuel lo hi at_ s with
    | Ret s' _ => heard s' = heard s ++ l /\ tracks_word s' /\ t_default (g_t s') = t_default (g_t s)
    | Fail s' _ => exists x y, heard s' = heard s ++ x /\ x ++ y = l
    | _ => True
    end.
  Proof.
    induction fuel as [|fuel IH]; intros lo hi at_ s Hb Hcol Hf Hhi Hlo Hh T Ha; cbv zeta;
      cbn [gs_draw]; unfold next_cell;
      destruct (next_cell_aux E (hi - lo) (g_sb s) lo hi) as [[[b' lo'] o]|] eqn:En; try exact I;
      assert (Hs := P_Screen.next_cell_spec E hi (g_sb s) Hb Hf Hhi Hcol (hi - lo) lo _ Hlo (le_n _) Hh En);
      destruct o as [[p c]|]; cbn in Hs.
    2, 4: destruct Hs as (Hs1 & Hs2); subst b'; rewrite with_gsb_id;
      rewrite P_Screen4.filter_none; [cbn [flat_map]; rewrite app_nil_r; auto|]; intros j Hj; apply in_seq in Hj;
      destruct (S_Screen.half E (g_sb s) j) eqn:Eh; [unfold P_Screen4.chg; now rewrite Eh|apply P_Screen4.same_chg; apply Hs2; [lia|assumption]].
    all: destruct Hs as (i & I1 & I2 & I3 & I4 & I5 & I6 & I7 & I8).
    all: assert (Hl : length (back (g_sb s)) = total (bsize (g_sb s))) by (destruct Hb as (_ & _ & Hl & _); exact Hl).
    all: assert (Hlo' : lo' <= hi) by
      (rewrite I8; unfold P_Screen.next_of; destruct (wide_at E (g_sb s) i) eqn:Ew; [|lia];
       assert (S i < total (bsize (g_sb s))) by (now apply (P_Screen.wide_room E)); lia).
    all: assert (Hi' : i < lo') by (rewrite I8; unfold P_Screen.next_of; destruct (wide_at _ _ _); lia).
    all: assert (Hsplit : seq lo (hi - lo) = seq lo (i - lo) ++ [i] ++ seq (S i) (lo' - S i) ++ seq lo' (hi - lo')) by
      (replace (hi - lo) with ((i - lo) + (1 + ((lo' - S i) + (hi - lo')))) by lia;
       rewrite !seq_app; replace (lo + (i - lo)) with i by lia; replace (i + 1) with (S i) by lia;
       replace (S i + (lo' - S i)) with lo' by lia; reflexivity).
    all: assert (Hci : P_Screen4.chg E (g_sb s) i = true) by
      (unfold P_Screen4.chg; rewrite I2; unfold cell_at in I4; rewrite I4;
       destruct (nth_error (back (g_sb s)) i) as [k|] eqn:Ek;
       [destruct (cell_eqb c k) eqn:Eq; [apply P_Screen.cell_eqb_eq in Eq; congruence|reflexivity]
       |apply nth_error_None in Ek; lia]).
    all: assert (Hl1 : flat_map (piece (t_default (g_t s)) (g_sb s)) (filter (P_Screen4.chg E (g_sb s)) (seq lo (hi - lo)))
      = words (t_default (g_t s)) (cattrs c) (ctext c) ++
        flat_map (piece (t_default (g_t s)) (g_sb s)) (filter (P_Screen4.chg E (g_sb s)) (seq lo' (hi - lo')))).
    1, 3: rewrite Hsplit, !filter_app;
      rewrite (P_Screen4.filter_none _ (seq lo (i - lo)));
      [rewrite (P_Screen4.filter_none _ (seq (S i) (lo' - S i)));
       [cbn [filter app]; rewrite Hci; cbn [flat_map app]; f_equal; unfold piece, attrs_at, S_Screen.text_at; now rewrite I4
       |intros j Hj; apply in_seq in Hj; unfold P_Screen4.chg; destruct (S_Screen.half E (g_sb s) j) eqn:Eh; [reflexivity|];
        exfalso; assert (j = i); [|lia]; eapply P_Screen.next_of_half; eauto; lia]
      |intros j Hj; apply in_seq in Hj; destruct (S_Screen.half E (g_sb s) j) eqn:Eh; [unfold P_Screen4.chg; now rewrite Eh|];
       apply P_Screen4.same_chg, I6; [lia|assumption]].
    all: rewrite Hl1.
    all: assert (M := gmove_words p (with_gsb b' s));
      destruct (gs_move_cursor p (with_gsb b' s)) as [s1 u1|s1 e| |]; cbn [obind]; try exact I;
      [|exists [], (words (t_default (g_t s)) (cattrs c) (ctext c) ++
         flat_map (piece (t_default (g_t s)) (g_sb s)) (filter (P_Screen4.chg E (g_sb s)) (seq lo' (hi - lo'))));
        split; [rewrite app_nil_r; exact M|reflexivity]].
    all: destruct M as (M1 & M2 & M3 & M4 & M5); cbn [g_sb with_gsb] in M1;
      change (g_t (with_gsb b' s)) with (g_t s) in M2; change (ats (with_gsb b' s)) with (ats s) in M3;
      change (heard (with_gsb b' s)) with (heard s) in M4; specialize (M5 T).
    all: assert (A := gapply_words at_ (cattrs c) s1 M5 ltac:(congruence));
      destruct (gs_apply_attrs at_ (cattrs c) s1) as [s2 u2|s2 e| |]; cbn [obind]; try exact I;
      [|exists [], (words (t_default (g_t s)) (cattrs c) (ctext c) ++
         flat_map (piece (t_default (g_t s)) (g_sb s)) (filter (P_Screen4.chg E (g_sb s)) (seq lo' (hi - lo'))));
        split; [rewrite app_nil_r; congruence|reflexivity]].
    all: destruct A as (A1 & A2 & A3 & A4 & A5).
    all: assert (W := gwrite_words (ctext c) s2 A5); rewrite A3, A2, M2 in W;
      destruct (on_term (on_wins (win_write_str draw (ctext c))) s2) as [s3 u3|s3 e| |]; cbn [obind]; try exact I;
      [|destruct W as (x & y & W1 & W2); exists x, (y ++ flat_map (piece (t_default (g_t s)) (g_sb s)) (filter (P_Screen4.chg E (g_sb s)) (seq lo' (hi - lo'))));
        split; [congruence|rewrite app_assoc, W2; reflexivity]].
    all: destruct W as (W1 & W2 & W3 & W4 & W5); destruct (uadd (umax E) (column (g_real s3)) 1) as [cc|]; try exact I.
    set (s4 := with_greal _ s3).
    assert (Hsb : g_sb s4 = with_back (g_sb s) (P_Buf.upd i c (back (g_sb s)))) by (cbn [s4 with_greal g_sb]; congruence).
    assert (Hd4 : t_default (g_t s4) = t_default (g_t s)) by (cbn [s4 with_greal g_t]; congruence).
    assert (Hh4 : heard s4 = heard s ++ words (t_default (g_t s)) (cattrs c) (ctext c)).
    { change (heard s4) with (heard s3). rewrite W4. congruence. }
    assert (R : S_Screen.half E (g_sb s4) = S_Screen.half E (g_sb s)) by (now rewrite Hsb).
    specialize (IH lo' hi (cattrs c) s4). cbv zeta in IH. rewrite Hd4 in IH.
    assert (El : flat_map (piece (t_default (g_t s)) (g_sb s4)) (filter (P_Screen4.chg E (g_sb s4)) (seq lo' (hi - lo')))
      = flat_map (piece (t_default (g_t s)) (g_sb s)) (filter (P_Screen4.chg E (g_sb s)) (seq lo' (hi - lo')))).
    { rewrite (P_Screen4.filter_ext_in' (P_Screen4.chg E (g_sb s4)) (P_Screen4.chg E (g_sb s))).
      - apply flat_map_ext. intros j. now rewrite Hsb.
      - intros j Hj. apply in_seq in Hj. unfold P_Screen4.chg. rewrite R, Hsb. cbn [buffer back with_back].
        rewrite P_Buf.nth_upd by lia. destruct (Nat.eqb_spec j i); [lia|reflexivity]. }
    rewrite El in IH. clear El.
    assert (IH' : match gs_draw draw E fuel lo' hi (cattrs c) s4 with
      | Ret s' _ => heard s' = heard s4 ++ flat_map (piece (t_default (g_t s)) (g_sb s)) (filter (P_Screen4.chg E (g_sb s)) (seq lo' (hi - lo'))) /\
                    tracks_word s' /\ t_default (g_t s') = t_default (g_t s)
      | Fail s' _ => exists x y, heard s' = heard s4 ++ x /\
                     x ++ y = flat_map (piece (t_default (g_t s)) (g_sb s)) (filter (P_Screen4.chg E (g_sb s)) (seq lo' (hi - lo')))
      | _ => True
      end).
    { apply IH.
      - rewrite Hsb. apply P_Screen.buf_ok_back; [exact Hb|lia].
      - rewrite Hsb. exact Hcol.
      - rewrite Hsb. exact Hf.
      - rewrite Hsb. exact Hhi.
      - exact Hlo'.
      - rewrite R, I8. now apply P_Screen.half_next.
      - exact W5.
      - change (ats s4) with (ats s3). congruence. }
    destruct (gs_draw draw E fuel lo' hi (cattrs c) s4) as [s5 u5|s5 e| |]; auto.
    - destruct IH' as (R1 & R2 & R3). split; [rewrite R1, Hh4, app_assoc; reflexivity|auto].
    - destruct IH' as (x & y & R1 & R2). exists (words (t_default (g_t s)) (cattrs c) (ctext c) ++ x), y.
      split; [rewrite R1, Hh4, app_assoc; reflexivity|]. rewrite <- app_assoc, R2. reflexivity.
  Qed.

  Lemma gclear_words s :
    match on_term (on_wins (win_clear_screen (t_default (g_t s)))) s with
    | Ret s' _ => g_sb s' = g_sb s /\ t_default (g_t s') = t_default (g_t s) /\ ats s' = ats s /\ heard s' = heard s /\
                  (tracks_word s -> tracks_word s')
    | Fail s' _ => heard s' = heard s
    | _ => True
    end.
  Proof.
    assert (B := on_both (win_clear_screen (t_default (g_t s))) s).
    assert (Q := P_WinWriter.quiet_op draw (t_default (g_t s)) E OClearScreen (t_w (g_t s))). cbn [run_win] in Q.
    destruct (on_term (on_wins (win_clear_screen (t_default (g_t s)))) s) as [s1 u|s1 e| |]; cbn [obind]; auto;
      destruct (win_clear_screen (t_default (g_t s)) (t_w (g_t s))) as [w u'|w e'| |]; try contradiction; destruct B as (-> & _);
      destruct Q as (Q1 & Q2 & Q3); unfold ats, heard, tracks_word, P_WinWriter.tracked; cbn.
    - repeat split; auto. now rewrite Q1, Q2.
    - exact Q3.
  Qed.

  Lemma wrefresh_words s : buf_ok E (g_sb s) -> 0 < columns (bsize (g_sb s)) -> S_Screen.wides_fit E (g_sb s) -> tracks_word s ->
    let l := flat_map (piece (t_default (g_t s)) (g_sb s)) (S_Screen.changed E (g_sb s)) in
    match win_refresh draw E s with
    | Ret s' _ => heard s' = heard s ++ l
    | Fail s' _ => exists x y, heard s' = heard s ++ x /\ x ++ y = l
    | _ => True
    end.
  Proof.
    intros Hb Hcol Hf T. cbv zeta. unfold win_refresh.
    set (l := flat_map _ _).
    assert (S1 : match (if g_clr s then
                      let! (s, _u) := on_term (on_wins (win_clear_screen (t_default (g_t s)))) s in
                      Ret (with_gclr false s) tt
                    else Ret s tt) with
      | Ret s' _ => g_sb s' = g_sb s /\ t_default (g_t s') = t_default (g_t s) /\ ats s' = ats s /\ heard s' = heard s /\ tracks_word s'
      | Fail s' _ => heard s' = heard s
      | _ => True
      end).
    { destruct (g_clr s); [|auto 10]. assert (K := gclear_words s).
      destruct (on_term _ s) as [s0 u0|s0 e0| |]; cbn [obind]; auto. destruct K as (K1 & K2 & K3 & K4 & K5).
      repeat split; auto. }
    destruct (if g_clr s then _ else _) as [s1 u1|s1 e1| |]; cbn [obind]; auto.
    2: { exists [], l. split; [rewrite app_nil_r; exact S1|reflexivity]. }
    destruct S1 as (A1 & A2 & A3 & A4 & A5).
    assert (S2 := gattrs_words no_attrs s1 A5). unfold gs_clear_attributes at 1, win_clear_attributes.
    destruct (on_term _ s1) as [s2 u2|s2 e2| |]; cbn [obind]; auto.
    2: { exists [], l. split; [rewrite app_nil_r; congruence|reflexivity]. }
    destruct S2 as (B1 & B2 & B3 & B4 & B5).
    unfold sb_indices. destruct (area (umax E) (bsize (g_sb s2))) as [n|] eqn:Ea; [|solve [auto]].
    assert (Hn : n = total (bsize (g_sb s2))).
    { unfold area, checked_area in Ea. destruct (_ <=? _); [|discriminate]. injection Ea as <-. reflexivity. }
    assert (Hsb : g_sb s2 = g_sb s) by congruence.
    assert (D := gdraw_words (n - 0) 0 n no_attrs s2 ltac:(now rewrite Hsb) ltac:(now rewrite Hsb) ltac:(now rewrite Hsb) Hn ltac:(lia) eq_refl B5 B3).
    cbv zeta in D. rewrite Hsb, B2, A2 in D.
    replace (flat_map _ _) with l in D.
    2: { unfold l, S_Screen.changed. rewrite Nat.sub_0_r, Hn, Hsb. reflexivity. }
    destruct (gs_draw draw E (n - 0) 0 n no_attrs s2) as [s3 u3|s3 e3| |]; cbn [obind]; auto.
    2: { destruct D as (x & y & D1 & D2). exists x, y. split; [congruence|exact D2]. }
    destruct D as (D1 & D2 & D3).
    assert (F : heard s3 = heard s ++ l) by congruence.
    assert (S4 := gattrs_words no_attrs s3 D2). unfold gs_clear_attributes, win_clear_attributes.
    destruct (on_term _ s3) as [s4 u4|s4 e4| |]; cbn [obind]; auto.
    2: { exists l, []. split; [congruence|apply app_nil_r]. }
    destruct S4 as (G1 & G2 & G3 & G4 & G5).
    assert (Fin : forall p, match gs_move_cursor p s4 with
      | Ret s' _ => heard s' = heard s ++ l
      | Fail s' _ => exists x y, heard s' = heard s ++ x /\ x ++ y = l
      | _ => True end).
    { intros p. assert (M := gmove_words p s4). destruct (gs_move_cursor p s4) as [s5 u5|s5 e5| |]; auto.
      - destruct M as (_ & _ & _ & M & _). congruence.
      - exists l, []. split; [congruence|apply app_nil_r]. }
    destruct (is_out_of_bounds _ _); [|apply Fin]. destruct (cursor_last _); [apply Fin|exact I].
  Qed.
End Words.

(** ** Histories *)
Section Histories.
  Variables (draw : list N -> N -> view -> view) (E : env) (careful : wscr -> Prop).
  Hypothesis HE : env_ok E.
  Hypothesis HU : (32767 <= Z.of_nat (umax E))%Z.

  Record sound (s : wscr) : Prop := {
    so_buf : buf_ok E (g_sb s);
    so_size : 0 < lines (bsize (g_sb s)) /\ 0 < columns (bsize (g_sb s));
    so_word : tracks_word s;
    so_default : (t_default (g_t s) < 65536)%N
  }.

  Lemma gdraw_keeps fuel : forall lo hi at_ s s' u, buf_ok E (g_sb s) -> hi = total (bsize (g_sb s)) -> tracks_word s -> ats s = at_ ->
    gs_draw draw E fuel lo hi at_ s = Ret s' u ->
    buf_ok E (g_sb s') /\ bsize (g_sb s') = bsize (g_sb s) /\ t_default (g_t s') = t_default (g_t s) /\ tracks_word s'.
  Proof.
    induction fuel as [|fuel IH]; intros lo hi at_ s s' u Hb Hhi T Ha H; cbn [gs_draw] in H; unfold next_cell in H;
      destruct (P_Screen4.next_cell_val E hi (g_sb s) Hb Hhi (hi - lo) lo) as ([[b' lo'] o] & Hn & Hs); rewrite Hn in H;
      destruct o as [[p c]|].
    2, 4: injection H as <- _; subst b'; rewrite with_gsb_id; auto.
    all: destruct Hs as (_ & S2 & S3 & _);
      apply bind_ret in H; destruct H as (s1 & u1 & H1 & H);
      apply bind_ret in H; destruct H as (s2 & u2 & H2 & H);
      apply bind_ret in H; destruct H as (s3 & u3 & H3 & H);
      destruct (uadd (umax E) (column (g_real s3)) 1) as [cc|]; try discriminate.
    assert (M := gmove_words draw E p (with_gsb b' s)). rewrite H1 in M. destruct M as (M1 & M2 & M3 & _ & M5). cbn [g_sb with_gsb] in M1. specialize (M5 T).
    change (ats (with_gsb b' s)) with (ats s) in M3. change (g_t (with_gsb b' s)) with (g_t s) in M2.
    assert (A := gapply_words at_ (cattrs c) s1 M5 ltac:(congruence)). rewrite H2 in A. destruct A as (A1 & A2 & A3 & _ & A5).
    assert (W := gwrite_words draw (ctext c) s2 A5). rewrite H3 in W. destruct W as (W1 & W2 & W3 & _ & W5).
    apply IH in H; cbn [g_sb g_t with_greal] in *.
    - destruct H as (R1 & R2 & R3 & R4). split; [exact R1|]. split; [congruence|]. split; [congruence|exact R4].
    - rewrite W1, A1, M1. exact S2.
    - rewrite W1, A1, M1, S3. exact Hhi.
    - exact W5.
    - change (ats s3 = cattrs c). congruence.
  Qed.

  Lemma wrefresh_sound s s' u : sound s -> win_refresh draw E s = Ret s' u -> sound s'.
  Proof.
    intros [S1 S2 S3 S4] H. unfold win_refresh in H. apply bind_ret in H. destruct H as (s1 & u1 & H1 & H).
    assert (A : g_sb s1 = g_sb s /\ t_default (g_t s1) = t_default (g_t s) /\ tracks_word s1).
    { destruct (g_clr s); [|injection H1 as <- _; auto].
      apply bind_ret in H1. destruct H1 as (s0 & u0 & H0 & H1). injection H1 as <- _.
      assert (K := gclear_words draw E s). rewrite H0 in K. destruct K as (K1 & K2 & _ & _ & K5). repeat split; auto. }
    destruct A as (A1 & A2 & A3).
    apply bind_ret in H. destruct H as (s2 & u2 & H2 & H).
    assert (K := gattrs_words no_attrs s1 A3). unfold gs_clear_attributes, win_clear_attributes in H2. rewrite H2 in K.
    destruct K as (B1 & B2 & B3 & _ & B5).
    unfold sb_indices in H. destruct (area (umax E) (bsize (g_sb s2))) as [n|] eqn:Ea; [|discriminate H].
    assert (Hn : n = total (bsize (g_sb s2))).
    { unfold area, checked_area in Ea. destruct (_ <=? _); [|discriminate]. injection Ea as <-. reflexivity. }
    apply bind_ret in H. destruct H as (s3 & u3 & H3 & H).
    apply gdraw_keeps in H3; auto; [|rewrite B1, A1; exact S1]. destruct H3 as (D1 & D2 & D3 & D4).
    apply bind_ret in H. destruct H as (s4 & u4 & H4 & H).
    assert (K := gattrs_words no_attrs s3 D4). unfold gs_clear_attributes, win_clear_attributes in H4. rewrite H4 in K.
    destruct K as (G1 & G2 & _ & _ & G5).
    assert (F : exists p, gs_move_cursor p s4 = Ret s' u).
    { destruct (is_out_of_bounds _ _); [|eauto]. destruct (cursor_last _); [eauto|discriminate H]. }
    destruct F as (p & F). assert (M := gmove_words draw E p s4). rewrite F in M. destruct M as (M1 & M2 & _ & _ & M5).
    assert (Z : bsize (g_sb s') = bsize (g_sb s)) by congruence.
    split; [rewrite M1, G1; exact D1|now rewrite Z|apply M5; exact G5|].
    replace (t_default (g_t s')) with (t_default (g_t s)) by congruence. exact S4.
  Qed.

  Lemma hist_sound s : whistory draw E careful s -> sound s.
  Proof.
    induction 1 as [cfg t t1 s Hd Hv Hdef Ha Hc H|s o b _ IH Ho Hr|s m s' u _ IH Hr|s s' u _ IH _ Hr|s v s' u _ IH Hv Hr].
    - destruct Hd as (Hd & Hn). unfold win_screen_new in H.
      destruct (win_screen_open E cfg t) as [t2 s2|t2 e| |] eqn:Eo; try discriminate H.
      2: { destruct (win_terminal_drop t2); discriminate H. }
      injection H as <- <-. apply open_inv in Eo; [|exact Hn].
      destruct Eo as (G1 & _ & _ & G4 & G5 & G6 & _ & _ & _ & _ & G11 & G12 & _ & G14 & G15).
      unfold buf_of in G14, G15. rewrite Hd, N.eqb_refl in G14, G15. cbn [cur_buf b_attr b_view fresh_buffer] in G14, G15.
      rewrite <- G1 in *. rewrite Hc in *.
      set (v := c_view (w_con (t_w t))) in *. unfold S_WinWriter.view_ok in Hv.
      assert (Hz : size_of E v = Size (Z.to_nat (cY (v_size v))) (Z.to_nat (cX (v_size v)))).
      { unfold size_of, as_usize. f_equal; f_equal; apply Z.mod_small; lia. }
      rewrite Hz in *.
      assert (Hsb : total (Size (Z.to_nat (cY (v_size v))) (Z.to_nat (cX (v_size v)))) <= umax E).
      { unfold sb_new, area, checked_area in G6. unfold total.
        match type of G6 with context [?a <=? ?b] => destruct (Nat.leb_spec a b) end; [assumption|discriminate G6]. }
      destruct (new_ok 1 (le_n 1) E _ HE Hsb) as (b & N1 & N2 & N3 & N4 & N5 & N6 & N7). rewrite G6 in N1. injection N1 as <-.
      split.
      + exact N2.
      + rewrite N3. cbn [lines columns]. lia.
      + unfold tracks_word, P_WinWriter.tracked. rewrite G12, Ha, G15, G11, word_none. reflexivity.
      + rewrite G11. exact Hdef.
    - destruct IH as [S1 S2 S3 S4]. destruct (P_Screen2.op_ok E HE _ _ _ S1 Ho Hr) as (O1 & O2 & O3).
      split; [exact O1|cbn [g_sb with_gsb]; now rewrite O3|exact S3|exact S4].
    - destruct IH as [S1 S2 S3 S4]. cbn [run_wsop] in Hr.
      assert (B := on_both (win_set_cursor_mode m) s). rewrite Hr in B.
      assert (Q := P_WinWriter.quiet_op draw 0 E (OSetCursorMode m) (t_w (g_t s))). cbn [run_win] in Q.
      destruct (win_set_cursor_mode m (t_w (g_t s))) as [w u'|w e'| |]; try contradiction. destruct B as (-> & _).
      destruct Q as (Q1 & Q2 & Q3). split; auto. unfold tracks_word, P_WinWriter.tracked. cbn. rewrite Q1, Q2. exact S3.
    - eapply wrefresh_sound; eauto.
    - destruct IH as [S1 S2 S3 S4]. unfold win_update_size in Hr. cbn [seeing with_gt g_sb g_real g_state g_old g_t] in Hr.
      destruct (sb_resize E (g_sb s) _) as [b|] eqn:Er; [|discriminate Hr]. injection Hr as <- _.
      unfold S_WinWriter.view_ok in Hv.
      assert (Hsz : S_Screen.screen_size (Size (Z.to_nat (cY (v_size v))) (Z.to_nat (cX (v_size v))))).
      { unfold S_Screen.screen_size, S_Writer.u32_max. cbn [lines columns]. lia. }
      destruct (P_Screen2.sb_resize_ok E HE _ _ _ S1 Hsz Er) as (R1 & R2 & R3 & _).
      split; [exact R1| |exact S3|exact S4].
      cbn [g_sb]. rewrite R2. cbn [lines columns]. lia.
  Qed.

  Lemma pieces_text d b l :
    flat_map (piece d b) l = P_WinWriter.text_words d (flat_map (fun i => map (fun c => (c, attrs_at b i)) (S_Screen.text_at b i)) l).
  Proof.
    induction l as [|i l IH]; [reflexivity|]. cbn [flat_map]. rewrite IH. unfold P_WinWriter.text_words at 2. rewrite flat_map_app. f_equal.
    unfold piece, words. symmetry. apply (P_WinWriter.text_words_str d).
  Qed.

  Lemma changes_scalar b : env_chars E -> buf_ok E b -> Forall (fun ca => scalar (fst ca)) (changes E b).
  Proof.
    intros HC (_ & _ & _ & Ht). apply Forall_forall. intros [c a] H. unfold changes in H. apply in_flat_map in H.
    destruct H as (i & _ & H). apply in_map_iff in H. destruct H as (c' & H & Hc). injection H as -> _. cbn [fst].
    unfold S_Screen.text_at in Hc. destruct (cell_at b i) as [k|] eqn:Ek; [|destruct Hc].
    apply nth_error_In in Ek. rewrite Forall_forall in Ht. destruct (Ht k Ek) as (x & ms & Hx & Hp & Hm).
    rewrite Hx in Hc. destruct Hc as [<-|Hc].
    - apply HC. left. destruct Hp as (_ & _ & _ & _ & [Hw|Hw]); rewrite Hw; discriminate.
    - apply HC. right. rewrite Forall_forall in Hm. apply (Hm c Hc).
  Qed.

  Lemma refresh_minimal s : env_chars E -> whistory draw E careful s -> S_Screen.wides_fit E (g_sb s) ->
    match win_refresh draw E s with
    | Ret s' _ => exists x, heard s' = heard s ++ x /\ S_WinWriter.typed (t_default (g_t s)) (changes E (g_sb s)) x
    | Fail s' _ => exists x y, heard s' = heard s ++ x /\ S_WinWriter.typed (t_default (g_t s)) (changes E (g_sb s)) (x ++ y)
    | _ => True
    end.
  Proof.
    intros HC Hh Hf. destruct (hist_sound s Hh) as [S1 S2 S3 S4].
    assert (W := wrefresh_words draw E s S1 (proj2 S2) Hf S3). cbv zeta in W. rewrite pieces_text in W. fold (changes E (g_sb s)) in W.
    assert (T := P_WinWriter.text_words_typed (t_default (g_t s)) _ S4 (changes_scalar _ HC S1)).
    destruct (win_refresh draw E s) as [s' u|s' e| |]; auto.
    - eauto.
    - destruct W as (x & y & W1 & W2). exists x, y. rewrite W2. auto.
  Qed.

  Lemma refresh_minimal_ret s s' u : env_chars E -> whistory draw E careful s -> S_Screen.wides_fit E (g_sb s) ->
    win_refresh draw E s = Ret s' u ->
    exists x, heard s' = heard s ++ x /\ S_WinWriter.typed (t_default (g_t s)) (changes E (g_sb s)) x.
  Proof. intros HC Hh Hf H. assert (M := refresh_minimal s HC Hh Hf). now rewrite H in M. Qed.
  Lemma refresh_minimal_fail s s' e : env_chars E -> whistory draw E careful s -> S_Screen.wides_fit E (g_sb s) ->
    win_refresh draw E s = Fail s' e ->
    exists x y, heard s' = heard s ++ x /\ S_WinWriter.typed (t_default (g_t s)) (changes E (g_sb s)) (x ++ y).
  Proof. intros HC Hh Hf H. assert (M := refresh_minimal s HC Hh Hf). now rewrite H in M. Qed.
End Histories.
