(** Refreshing a Windows screen succeeds when the console's calls do; interactive programs
    (C137, C138). *)
From Verif Require Import Base M_Utf8 S_Utf8 M_Geom S_Geom M_Attr M_Seq S_Seq M_Signal M_Util M_Input S_Input M_Buf S_Buf M_Writer M_Prepare M_Reader
  M_WinWriter M_WinReader S_WinReader M_WinScreen S_WinScreen P_WinScreen P_WinDraw M_ScreenApi S_WinCanvas P_WinCanvas.
From Verif Require S_WinWriter S_Screen S_Canvas P_Canvas P_Screen P_Screen2 P_Screen4 P_Buf P_WinApi P_WinView P_WinWriter P_Portable S_Portable P_WinMinimal.
From Verif Require Import S_Interact P_Interact P_Interact2 S_Succeeds P_Succeeds P_Succeeds2.
Local Open Scope nat_scope.

Section Windows.
  Variables (draw : list N -> N -> view -> view) (shown : list N -> option N) (E : env).
  Hypothesis HP : places draw shown.
  Hypothesis HE : env_ok E.

  Definition willing (s : wscr) : Prop := S_WinWriter.no_failure (c_answers (w_con (t_w (g_t s)))).
  (** The same screen on the console, in order. *)
  Definition kept (s s' : wscr) : Prop :=
    frame E s' /\ willing s' /\ g_sb s' = g_sb s /\ g_clr s' = g_clr s.

  Lemma on_fine (f : wins -> winres unit) s w : f (t_w (g_t s)) = Ret w tt -> on_term (on_wins f) s = Ret (with_gt (with_w w (g_t s)) s) tt.
  Proof. intros H. unfold on_term, on_wins. now rewrite H. Qed.

  Lemma move_fine p s : frame E s -> willing s -> in_bounds p (sz s) ->
    exists s', gs_move_cursor p s = Ret s' tt /\ kept s s' /\ g_real s' = p.
  Proof.
    intros F W Hp. unfold gs_move_cursor. destruct (cursor_eqb (g_real s) p) eqn:Eq.
    - apply P_Screen.cursor_eqb_eq in Eq. exists s. unfold kept. auto 10.
    - destruct (in_size E s p F Hp) as (T1 & T2 & T3 & T4).
      assert (Hv : in_buffer (c_view (w_con (t_w (g_t s)))) (at_pos p) = true).
      { unfold in_buffer, at_pos. cbn [cX cY]. unfold sees in T3, T4. lia. }
      assert (Hq : exists w, win_move_cursor p (t_w (g_t s)) = Ret w tt /\ S_WinWriter.no_failure (c_answers (w_con w))).
      { unfold win_move_cursor, move_abs, set_cursor_position. rewrite T1, T2. fold (at_pos p). rewrite Hv. unfold ask.
        unfold willing in W. destruct (c_answers (w_con (t_w (g_t s)))) as [|[e|n] l] eqn:Ea.
        - cbn [on_view]. eexists. split; [reflexivity|]. cbn. rewrite Ea. constructor.
        - inversion W as [|? ? (n & Q) _]. discriminate Q.
        - cbn [on_view]. eexists. split; [reflexivity|]. cbn. now inversion W. }
      destruct Hq as (w & Q1 & Q2). rewrite (on_fine _ _ _ Q1). cbn [obind]. eexists. split; [reflexivity|].
      unfold win_move_cursor, move_abs in Q1. rewrite T1, T2 in Q1. fold (at_pos p) in Q1.
      apply move_inv in Q1. destruct Q1 as (B0 & B1 & B2 & B3). fold (sees s) in B3.
      destruct F as [F1 F2 F3 F4 F5]. set (s2 := with_greal p (with_gt (with_w w (g_t s)) s)).
      assert (Hs : sees s2 = View (v_size (sees s)) (at_pos p) (reveal (at_pos p) (v_win (sees s))) (v_cell (sees s))) by exact B3.
      split; [|reflexivity]. split; [|split; [exact Q2|split; reflexivity]]. split; try assumption.
      + rewrite Hs. apply P_WinView.reveal_ok; [exact F3|exact B0].
      + rewrite Hs. exact F4.
      + unfold word, ats in *. cbn. rewrite B1, B2. exact F5.
  Qed.

  Lemma attrs_fine a s : frame E s -> willing s ->
    exists s', on_term (on_wins (win_set_attributes (t_default (g_t s)) a)) s = Ret s' tt /\ kept s s' /\ g_real s' = g_real s.
  Proof.
    intros F W. destruct (P_WinApi.attributes_fine (t_default (g_t s)) a (t_w (g_t s)) W) as (w & Q1 & Q2).
    assert (R := on_fine _ _ _ Q1). eexists. split; [exact R|].
    destruct (attrs_ok E a s _ tt F R) as (G1 & _ & _ & G2 & G3 & G4 & _). split; [|reflexivity]. split; [exact G1|]. split; [exact Q2|]. auto.
  Qed.
  Lemma apply_fine src a s : frame E s -> willing s ->
    exists s', gs_apply_attrs src a s = Ret s' tt /\ kept s s' /\ g_real s' = g_real s.
  Proof. intros F W. unfold gs_apply_attrs. destruct (attrs_eqb src a); [exists s; unfold kept; auto 10|now apply attrs_fine]. Qed.
  Lemma text_fine t s : frame E s -> willing s -> shown t <> None ->
    exists s', on_term (on_wins (win_write_str draw t)) s = Ret s' tt /\ kept s s' /\ g_real s' = g_real s.
  Proof.
    intros F W Ht. destruct (shown t) as [g|] eqn:Eg; [|contradiction].
    destruct (P_WinApi.write_fine draw 0%N E eq_refl t (t_w (g_t s)) W) as (w & Q1 & Q2).
    assert (R := on_fine _ _ _ Q1). eexists. split; [exact R|].
    destruct (write_ok draw shown E HP t g s _ tt F Eg R) as (G1 & _ & G2 & G3 & G4 & _). split; [|reflexivity]. split; [exact G1|]. split; [exact Q2|]. auto.
  Qed.

  Lemma gdraw_fine fuel : forall lo hi a s, hi - lo <= fuel -> hi = total (sz s) -> frame E s -> willing s -> one_position E shown (g_sb s) ->
    exists s', gs_draw draw E fuel lo hi a s = Ret s' tt /\ frame E s' /\ willing s' /\ sz s' = sz s /\ bcur (g_sb s') = bcur (g_sb s).
  Proof.
    induction fuel as [|fuel IH]; intros lo hi a s Hfu Hhi F W Ho; cbn [gs_draw]; unfold next_cell;
      assert (Hb := f_buf E s F); assert (Hst := next_stale E hi (g_sb s) Hb Hhi (hi - lo) lo);
      destruct (P_Screen4.next_cell_val E hi (g_sb s) Hb Hhi (hi - lo) lo) as ([[b' lo'] [[p c]|]] & R1 & R2); rewrite R1 in *.
    1: destruct R2 as (_ & _ & _ & _ & R2 & _); lia.
    1, 3: subst b'; eexists; split; [reflexivity|]; replace (with_gsb (g_sb s) s) with s by (now destruct s); auto.
    destruct R2 as (P1 & P2 & P3 & P4 & P5 & P6). destruct Hst as (_ & Q2 & Q3).
    assert (F0 : frame E (with_gsb b' s)).
    { assert (Hz0 : sz (with_gsb b' s) = sz s) by exact P3. destruct F as [F1 F2 F3 F4 F5]. split; rewrite ?Hz0; assumption. }
    destruct (move_fine p (with_gsb b' s) F0 W) as (s1 & M0 & (M1 & M2 & M3 & M4) & M5); [change (sz (with_gsb b' s)) with (bsize b'); now rewrite P3|].
    rewrite M0. cbn [obind].
    destruct (apply_fine a (cattrs c) s1 M1 M2) as (s2 & A0 & (A1 & A2 & A3 & A4) & A5). rewrite A0. cbn [obind].
    assert (Hc : shown (ctext c) <> None) by (unfold one_position in Ho; rewrite Forall_forall in Ho; now apply Ho).
    destruct (text_fine (ctext c) s2 A1 A2 Hc) as (s3 & T0 & (T1 & T2 & T3 & T4) & T5). rewrite T0. cbn [obind].
    rewrite T5, A5, M5. destruct Hb as (B1 & _). destruct (P_Buf.lines_bound _ _ _ B1 P1) as [_ Hcb].
    unfold uadd. destruct (Nat.leb_spec (column p + 1) (umax E)); [|lia].
    set (s4 := with_greal _ s3). assert (S4 : g_sb s4 = b') by (cbn [s4 with_greal g_sb]; rewrite T3, A3, M3; reflexivity).
    destruct (IH lo' hi (cattrs c) s4) as (s' & D1 & D2 & D3 & D4 & D5).
    { lia. } { unfold sz in *. rewrite S4, P3. exact Hhi. } { destruct T1 as [X1 X2 X3 X4 X5]. split; assumption. } { exact T2. }
    { rewrite S4. unfold one_position in *. rewrite Q2. exact Ho. }
    exists s'. split; [exact D1|]. split; [exact D2|]. split; [exact D3|]. rewrite D4, D5. unfold sz. rewrite S4. auto.
  Qed.

  Lemma wrefresh_fine s : frame E s -> willing s -> one_position E shown (g_sb s) -> exists s', win_refresh draw E s = Ret s' tt /\ willing s'.
  Proof.
    intros F W Ho. unfold win_refresh.
    assert (H1 : exists s1, (if g_clr s then let! (s, _u) := on_term (on_wins (win_clear_screen (t_default (g_t s)))) s in Ret (with_gclr false s) tt
        else Ret s tt) = Ret s1 tt /\ frame E s1 /\ willing s1 /\ g_sb s1 = g_sb s).
    { destruct (g_clr s); [|exists s; auto].
      assert (F' := F). destruct F' as [F1 F2 F3 F4 F5].
      destruct (P_WinApi.clear_screen_any (t_default (g_t s)) (t_w (g_t s)) F3 W) as (w & Q1 & _).
      assert (U := P_WinApi.uses_screen (t_default (g_t s)) (t_w (g_t s))). rewrite Q1 in U. cbn [P_WinApi.uses_up] in U. specialize (U W).
      rewrite (on_fine _ _ _ Q1). cbn [obind]. eexists. split; [reflexivity|]. split; [|split; [exact U|reflexivity]].
      destruct (clear_view _ _ _ _ Q1 F3) as (V1 & V2 & V3 & V4 & _). split; try assumption.
      - change (v_size (c_view (w_con w)) = Coord (Z.of_nat (columns (sz s))) (Z.of_nat (lines (sz s)))). rewrite V4. exact F4.
      - change (c_attr (w_con w) = win_word (t_default (g_t s)) (w_at w)). rewrite V1, V2. exact F5. }
    destruct H1 as (s1 & E1 & F1 & W1 & S1). rewrite E1. cbn [obind].
    destruct (attrs_fine no_attrs s1 F1 W1) as (s2 & E2 & (F2 & W2 & S2 & _) & _).
    change (gs_clear_attributes s1) with (on_term (on_wins (win_set_attributes (t_default (g_t s1)) no_attrs)) s1). rewrite E2. cbn [obind].
    assert (Hs2 : g_sb s2 = g_sb s) by congruence. assert (Hb := f_buf E s F). destruct Hb as (B1 & _).
    unfold sb_indices, area, checked_area. rewrite Hs2. unfold total in B1.
    destruct (Nat.leb_spec (lines (bsize (g_sb s)) * columns (bsize (g_sb s))) (umax E)); [|lia].
    set (n := lines (bsize (g_sb s)) * columns (bsize (g_sb s))) in *.
    destruct (gdraw_fine (n - 0) 0 n no_attrs s2) as (s3 & D1 & D2 & D3 & D4 & D5).
    { lia. } { unfold sz. now rewrite Hs2. } { exact F2. } { exact W2. } { now rewrite Hs2. }
    rewrite D1. cbn [obind].
    destruct (attrs_fine no_attrs s3 D2 D3) as (s4 & E4 & (F4 & W4 & S4 & _) & _).
    change (gs_clear_attributes s3) with (on_term (on_wins (win_set_attributes (t_default (g_t s3)) no_attrs)) s3). rewrite E4. cbn [obind].
    assert (Fz := f_size E s4 F4). fold (sz s4).
    destruct (is_out_of_bounds (bcur (g_sb s4)) (sz s4)) eqn:Eo.
    - unfold cursor_last, usub. destruct (Nat.leb_spec 1 (lines (sz s4))); [|lia]. destruct (Nat.leb_spec 1 (columns (sz s4))); [|lia].
      destruct (move_fine (Cursor (lines (sz s4) - 1) (columns (sz s4) - 1)) s4 F4 W4) as (s5 & E5 & (_ & W5 & _) & _).
      { unfold in_bounds. cbn [line column]. lia. }
      exists s5. split; [exact E5|exact W5].
    - destruct (move_fine (bcur (g_sb s4)) s4 F4 W4) as (s5 & E5 & (_ & W5 & _) & _).
      { unfold is_out_of_bounds in Eo. unfold in_bounds. lia. }
      exists s5. split; [exact E5|exact W5].
  Qed.
End Windows.

Section SureWin.
  Variables (M : Type) (react : M -> key -> M * list smethod) (draw : list N -> N -> view -> view) (shown : list N -> option N) (E : env).
  Hypothesis HP : places draw shown.
  Hypothesis HE : env_ok E.
  Hypothesis Hr : writes_single react E shown.

  Lemma sure_win_round d x w k rs : win_at shown E d w k -> whears w rs -> willing w ->
    match win_round M react E draw x w with Going x' w' => willing w' | Unshown => False | _ => True end.
  Proof.
    intros Hw (Hc & Hq & Hn) W. unfold win_round, gs_read_event, on_term, on_reader. destruct rs as [|r rs].
    - rewrite wread_nothing by assumption. cbn [obind]. auto.
    - destruct (P_Portable.read_one E _ r rs Hc Hq) as (i & e & R & C1 & R1 & K). rewrite R. cbn [obind].
      inversion Hn as [|? ? N1 N2]; subst.
      assert (Nz := read_not_size E _ _ _ _ R N1).
      set (w1 := with_gt (with_in i (g_t w)) w). assert (A1 : win_at shown E d w1 k) by exact (win_at_reader _ _ _ _ _ i Hw).
      assert (Fo : forall (y : option event * list record), fst y = Some e -> follow_resize E y w1 = Ret w1 y).
      { intros [a b] Q. unfold follow_resize. cbn [fst] in *. rewrite Q. destruct e; try reflexivity. now destruct (Nz s). }
      rewrite Fo by reflexivity. clear Fo. cbn [fst]. destruct e; try exact W.
      destruct (screen_methods E (snd (react x k0)) (g_sb w1)) as [b|] eqn:Em; [|exact Logic.I].
      assert (A2 := win_at_methods draw shown E HP HE d _ w1 k b A1 (Hr x k0) Em).
      destruct A2 as (I2 & _ & _ & F2 & S2 & _).
      destruct (wrefresh_fine draw shown E HP (with_gsb b w1)) as (w2 & Q1 & Q2).
      { destruct I2. assumption. } { exact W. } { exact (sheer_one shown E _ _ F2 S2). }
      rewrite Q1, (P_WinMinimal.wrefresh_twice draw E _ _ _ Q1). exact Q2.
  Qed.

  Lemma sure_win_rounds d n : forall x w k rs, win_at shown E d w k -> whears w rs -> willing w ->
    rounds M (win_round M react E draw) n x w <> Unshown.
  Proof.
    induction n as [|n IH]; intros x w k rs Hw Hh W; cbn [rounds]; [discriminate|].
    pose proof (sure_win_round d x w k rs Hw Hh W) as R. pose proof (one_win_round M react draw shown E HP HE Hr d x w k rs Hw Hh) as O.
    destruct (win_round M react E draw x w) as [x' w'|x' w'| | |]; try discriminate; [|contradiction].
    destruct O as (r & rs' & -> & O1 & O2). destruct (key_press_event r).
    - destruct O2 as (_ & O2 & _). exact (IH _ _ _ _ O2 O1 R).
    - destruct O2 as (_ & _ & O2). exact (IH _ _ _ _ O2 O1 R).
  Qed.
End SureWin.

Lemma windows_always_shows M (react : M -> key -> M * list smethod) draw shown E :
  places draw shown -> env_ok E -> (32767 <= Z.of_nat (umax E))%Z -> writes_single react E shown ->
  forall z w rs x n, win_start E z w rs -> S_WinWriter.no_failure (c_answers (w_con (t_w (g_t w)))) ->
    rounds M (win_round M react E draw) n x w <> Unshown.
Proof.
  intros HP HE HU Hr z w rs x n Hst W. destruct (win_start_at draw shown E z w rs HP HE HU Hst) as [A H].
  exact (sure_win_rounds M react draw shown E HP HE Hr _ n x w _ rs A H W).
Qed.

Lemma whistory_goes draw shown E s : places draw shown -> env_ok E -> (32767 <= Z.of_nat (umax E))%Z ->
  whistory draw E (fun s => one_position E shown (g_sb s) /\ window_fits s) s ->
  one_position E shown (g_sb s) -> S_WinWriter.no_failure (c_answers (w_con (t_w (g_t s)))) ->
  exists s', win_refresh draw E s = Ret s' tt.
Proof.
  intros HP HE HU Hh Ho W. destruct (P_WinDraw.hist_inv draw shown E HP HE s HU Hh) as (I & _).
  destruct (wrefresh_fine draw shown E HP s (i_frame _ _ _ I) W Ho) as (s' & Q & _). eauto.
Qed.
