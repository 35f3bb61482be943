(** Proofs about refreshes of a Windows screen that fail (C128). *)
From Verif Require Import Base M_Utf8 S_Utf8 M_Geom S_Geom M_Attr M_Signal M_Util M_Input M_Buf S_Buf M_Writer M_Prepare M_Reader
  M_WinWriter M_WinReader S_WinReader M_WinScreen S_WinScreen M_ScreenApi P_Buf2 P_Buf3 P_WinScreen P_WinDraw P_WinDraw2 S_WinCanvas P_WinCanvas S_WinFail.
From Verif Require S_WinWriter S_Screen S_Canvas P_Canvas P_Buf P_Screen P_Screen2 P_WinWriter P_Attr P_Geom.

Lemma bind_fail {S E A B} (m : out S E A) (f : S -> A -> out S E B) s' e :
  obind m f = Fail s' e -> m = Fail s' e \/ exists s1 a, m = Ret s1 a /\ f s1 a = Fail s' e.
Proof. destruct m; cbn; intros H; try discriminate H; [eauto|left; now injection H as <- <-]. Qed.

Lemma ask_fail {A} v (f : option nat -> con -> con * A) s s' e : ask v f s = Fail s' e ->
  w_at s' = w_at s /\ c_attr (w_con s') = c_attr (w_con s) /\ c_view (w_con s') = c_view (w_con s).
Proof.
  unfold ask. destruct (c_answers (w_con s)) as [|[e'|n] l].
  - destruct v; [destruct (f None _)|]; intros H; try discriminate H. injection H as <- _. auto.
  - intros H. injection H as <- _. auto.
  - destruct v; [destruct (f (Some n) _)|]; intros H; try discriminate H. injection H as <- _. auto.
Qed.

Lemma on_fail {A} (f : wins -> winres A) s s' e : on_term (on_wins f) s = Fail s' e ->
  exists w, f (t_w (g_t s)) = Fail w e /\ s' = with_gt (with_w w (g_t s)) s.
Proof.
  unfold on_term, on_wins. destruct (f (t_w (g_t s))) as [w b|w e'| |] eqn:Ef; intros H; try discriminate H.
  injection H as <- <-. eauto.
Qed.

Section Screen.
  Variables (draw : list N -> N -> view -> view) (shown : list N -> option N) (E : env).
  Hypothesis HP : places draw shown.
  Hypothesis HE : env_ok E.
  Notation frame := (P_WinDraw.frame E).
  Notation backed_but := (P_WinDraw.backed_but shown).

  (** Nothing but the attributes that the terminal thinks are set. *)
  Definition still (s s' : wscr) : Prop :=
    sees s' = sees s /\ g_sb s' = g_sb s /\ g_real s' = g_real s /\ g_clr s' = g_clr s /\ t_default (g_t s') = t_default (g_t s).

  Lemma still_frame s s' : still s s' -> frame s -> in_step s' -> frame s'.
  Proof.
    intros (S1 & S2 & S3 & S4 & S5) [F1 F2 F3 F4 F5] H. split; unfold sz in *; rewrite ?S1, ?S2; assumption.
  Qed.
  Lemma still_backed X s s' : still s s' -> backed_but X s -> backed_but X s'.
  Proof. intros (S1 & S2 & S3 & S4 & S5) B i k. unfold sz. rewrite S1, S2, S5. apply B. Qed.
  Lemma still_tracks n s s' : still s s' -> tracks n s -> tracks n s'.
  Proof. intros (S1 & S2 & S3 & S4 & S5) T. unfold tracks, sz. rewrite S1, S2, S3. exact T. Qed.

  Lemma move_fails p s s' e : gs_move_cursor p s = Fail s' e -> still s s'.
  Proof.
    unfold gs_move_cursor. destruct (cursor_eqb _ _); intros H; [discriminate H|]. apply bind_fail in H.
    destruct H as [H|(s1 & a & _ & H)]; [|discriminate H]. apply on_fail in H. destruct H as (w & H & ->).
    unfold win_move_cursor, move_abs, set_cursor_position in H. apply ask_fail in H. destruct H as (_ & _ & H).
    repeat split. exact H.
  Qed.
  Lemma set_fails d a s s' e : on_term (on_wins (win_set_attributes d a)) s = Fail s' e -> still s s'.
  Proof.
    intros H. apply on_fail in H. destruct H as (w & H & ->). unfold win_set_attributes in H.
    destruct (_ || _); [|discriminate H]. unfold win_update_attrs, set_console_attr in H. apply ask_fail in H.
    destruct H as (_ & _ & H). repeat split. exact H.
  Qed.
  Lemma apply_fails src a s s' e : gs_apply_attrs src a s = Fail s' e -> still s s'.
  Proof. unfold gs_apply_attrs. destruct (attrs_eqb src a); intros H; [discriminate H|]. exact (set_fails _ _ _ _ _ H). Qed.

  Lemma loop_fails rounds buf : forall s s' e, length buf <= 1 -> write_loop draw rounds buf 0 s = Fail s' e ->
    w_at s' = w_at s /\ c_attr (w_con s') = c_attr (w_con s) /\ c_view (w_con s') = c_view (w_con s).
  Proof.
    induction rounds as [|rounds IH]; intros s s' e Hl H; cbn [write_loop] in H; destruct (Nat.ltb_spec 0 (length buf)) as [Hb|Hb]; try discriminate H.
    apply bind_fail in H. destruct H as [H|(s1 & k & H1 & H)].
    - exact (ask_fail _ _ _ _ _ H).
    - unfold write_console in H1. apply ask_inv in H1. destruct H1 as (_ & A1 & m & l & H1). cbv zeta in H1.
      set (len := N.to_nat (to_dword (length buf - 0))) in *. set (u := firstn len (skipn 0 buf)) in *.
      assert (Hu : length u <= 1) by (unfold u; rewrite firstn_length, skipn_length; lia).
      set (j := match m with Some n => Nat.min n (length u) | None => length u end) in *.
      clearbody j. injection H1 as H1 Hk. destruct j as [|j].
      + subst k. cbn [firstn] in H1. rewrite (p_nil _ _ HP) in H1. cbn [Nat.add] in H. destruct (IH s1 s' e Hl H) as (R1 & R2 & R3).
        rewrite R1, R2, R3, A1, <- H1. auto.
      + exfalso. subst k. destruct rounds as [|rounds]; cbn [write_loop] in H; destruct (Nat.ltb_spec (0 + S j) (length buf)); try discriminate H; lia.
  Qed.
  Lemma write_fails t s s' e : one_unit t -> on_term (on_wins (win_write_str draw t)) s = Fail s' e -> still s s'.
  Proof.
    intros Ht H. apply on_fail in H. destruct H as (w & H & ->). unfold win_write_str in H. apply loop_fails in H; [|exact Ht].
    destruct H as (_ & _ & H). repeat split. exact H.
  Qed.

  Definition plus (X : nat -> cell -> Prop) (i : nat) (c : cell) (j : nat) (k : cell) : Prop := X j k \/ (j = i /\ k = c).

  Lemma draw_fails X fuel : forall lo hi at_ s s' e,
    frame s -> backed_but X s -> one_position E shown (g_sb s) ->
    (forall i c, cell_at (g_sb s) i = Some c -> one_unit (ctext c)) -> hi = total (sz s) -> lo <= hi ->
    caught_up lo (g_sb s) -> tracks 1 s -> ats s = at_ ->
    gs_draw draw E fuel lo hi at_ s = Fail s' e ->
    exists i c, cell_at (g_sb s) i = Some c /\ i < total (sz s) /\
      (in_step s' -> frame s') /\ backed_but (plus X i c) s' /\ unchanged s s' /\ tracks 1 s'.
  Proof.
    induction fuel as [|fuel IH]; intros lo hi at_ s s' e F B Ho Hun Hhi Hlo Hcu Htr Hat H;
      assert (Hb := f_buf E s F); assert (Hz := f_size E s F); cbn [gs_draw] in H;
      unfold next_cell in H;
      destruct (next_cell_aux E (hi - lo) (g_sb s) lo hi) as [[[b' lo'] o]|] eqn:En; try discriminate H;
      (assert (Hs := P_Screen.next_cell_spec E hi (g_sb s) Hb
         ltac:(intros i Hi; rewrite (one_narrow shown E _ Ho Hb) in Hi; discriminate Hi) Hhi (proj2 Hz) (hi - lo) lo _ Hlo (le_n _)
         (one_half shown E _ Ho Hb lo) En));
      destruct o as [[p c]|]; cbn in Hs; try discriminate H;
      destruct Hs as (i & I1 & I2 & I3 & I4 & I5 & I6 & I7 & I8);
      set (s0 := with_gsb b' s) in *; fold (sz s) in I3;
      (assert (Hlen : length (back (g_sb s)) = total (sz s)) by (destruct Hb as (_ & _ & Hl & _); exact Hl));
      (assert (Hlenb : length (buffer (g_sb s)) = total (sz s)) by (destruct Hb as (_ & Hl & _); exact Hl));
      (assert (Hz0 : sz s0 = sz s) by (unfold sz; cbn; now rewrite I7));
      (assert (F0 : frame s0) by
        (destruct F as [F1 F2 F3 F4 F5]; split; rewrite ?Hz0; try assumption;
         cbn; rewrite I7; apply P_Screen.buf_ok_back; [exact F1|unfold sz in *; lia]));
      (assert (B0 : backed_but (plus X i c) s0) by
        (intros j k Hj Hk; cbn [s0 with_gsb g_sb] in Hj; rewrite I7 in Hj; cbn [back with_back] in Hj;
         rewrite P_Buf.nth_upd in Hj by lia; destruct (Nat.eqb_spec j i) as [->|Hji];
         [injection Hj as <-; left; right; auto|];
         rewrite Hz0; change (sees s0) with (sees s); change (t_default (g_t s0)) with (t_default (g_t s));
         destruct (B j k Hj Hk) as [HX|HS]; [left; left; exact HX|right; exact HS]));
      (assert (T0 : tracks 1 s0) by
        (destruct Htr as [Htr|(T & _)]; [left; rewrite Hz0; exact Htr|discriminate T]));
      (assert (U0 : unchanged s s0) by (split; [eexists; exact I7|split; reflexivity]));
      (assert (Hpi : in_bounds p (sz s)) by (rewrite I3; apply P_Screen.cell_pos_in; lia));
      (assert (Hc : shown (ctext c) <> None /\ ctext c <> []) by
        (unfold cell_at in I4; apply nth_error_In in I4; unfold one_position in Ho; rewrite Forall_forall in Ho;
         split; [now apply Ho|]; destruct Hb as (_ & _ & _ & Ht); rewrite Forall_forall in Ht;
         destruct (Ht c I4) as (x & ms & -> & _); intros K; discriminate K));
      destruct Hc as (Hc & Hne); destruct (shown (ctext c)) as [g|] eqn:Eg; [|contradiction| |contradiction];
      (assert (Hlost : forall s1, frame s1 -> backed_but (plus X i c) s1 -> tracks 1 s1 -> unchanged s s1 -> still s1 s' ->
         exists i c, cell_at (g_sb s) i = Some c /\ i < total (sz s) /\
           (in_step s' -> frame s') /\ backed_but (plus X i c) s' /\ unchanged s s' /\ tracks 1 s') by
        (intros s1 X1 X2 X3 X4 X5; exists i, c; split; [exact I4|]; split; [lia|]; split; [now apply still_frame with s1|];
         split; [now apply still_backed with s1|]; split; [|now apply still_tracks with s1];
         apply (unchanged_trans s s1 s' X4); destruct X5 as (_ & Y2 & _ & Y4 & Y5); split; [exists (back (g_sb s1)); rewrite Y2; now destruct (g_sb s1)|auto]));
      (apply bind_fail in H; destruct H as [H|(s1 & u1 & H1 & H)]; [exact (Hlost s0 F0 B0 T0 U0 (move_fails _ _ _ _ H))|]);
      (destruct (move_ok E p s0 s1 u1 F0 ltac:(now rewrite Hz0) H1) as (G1 & G2 & G3 & G4 & G5 & G6 & G7 & G8);
       [cbn [s0 with_gsb g_real]; change (sees s0) with (sees s); intros Hr;
        destruct Htr as [Htr|(T & _)]; [rewrite <- Hr; apply Htr; rewrite Hr; apply Hpi|discriminate T]|]);
      (assert (Hz1 : sz s1 = sz s) by (unfold sz in *; rewrite G5; exact Hz0));
      (assert (B1 : backed_but (plus X i c) s1) by
        (intros j k; rewrite G5, G7, Hz1, <- Hz0; unfold shows_at; rewrite G4; apply B0));
      (assert (T1 : tracks 1 s1) by (left; intros _; rewrite G2; exact G3));
      (assert (U1 : unchanged s s1) by (split; [eexists; rewrite G5; exact I7|split; [exact G7|exact G6]]));
      (apply bind_fail in H; destruct H as [H|(s2 & u2 & H2 & H)]; [exact (Hlost s1 G1 B1 T1 U1 (apply_fails _ _ _ _ _ H))|]);
      destruct (apply_ok E at_ (cattrs c) s1 s2 u2 G1 ltac:(now rewrite G8) H2) as (K1 & K2 & K3 & K4 & K5 & K6 & K7);
      (assert (St : still s1 s2) by (repeat split; assumption));
      (apply bind_fail in H; destruct H as [H|(s3 & u3 & H3 & H)];
       [apply (Hlost s2 K1); [now apply still_backed with s1|now apply still_tracks with s1| |exact (write_fails _ _ _ _ (Hun _ _ I4) H)];
        apply (unchanged_trans s s1 s2 U1); split; [exists (back (g_sb s1)); rewrite K4; now destruct (g_sb s1)|auto]|]).
    - exfalso. destruct (uadd _ _ _); discriminate H.
    - destruct (uadd (umax E) (column (g_real s3)) 1) as [cc|] eqn:Eu; [|discriminate H].
      assert (Hcc : cc = column (g_real s3) + 1) by (unfold uadd in Eu; destruct (_ <=? _); congruence). subst cc. clear Eu.
      destruct (write_ok draw shown E HP (ctext c) g s2 s3 u3 K1 Eg H3) as (L1 & L2 & L3 & L4 & L5 & L6 & L7 & L8).
      set (s4 := with_greal _ s3) in *.
      assert (Hsb : g_sb s4 = with_back (g_sb s) (P_Buf.upd i c (back (g_sb s)))).
      { cbn [s4 with_greal g_sb]. rewrite L3, K4, G5. exact I7. }
      assert (Hz4 : sz s4 = sz s) by (unfold sz; now rewrite Hsb).
      assert (Hd4 : t_default (g_t s4) = t_default (g_t s)) by (cbn [s4 with_greal g_t]; now rewrite L6, K7, G7).
      assert (F4 : frame s4).
      { destruct L1 as [X1 X2 X3 X4 X5]. split; assumption. }
      change (sees s3) with (sees s4) in *. rewrite K3, G3 in L7, L8. rewrite G4 in L8. rewrite K2, K7, G7 in L8.
      change (sees s0) with (sees s) in *. change (t_default (g_t s0)) with (t_default (g_t s)) in *.
      assert (Hvs : v_size (sees s1) = v_size (sees s)).
      { rewrite (f_same E s1 G1), (f_same E s F). now rewrite Hz1. }
      rewrite Hvs in L7, L8. cbn [at_pos cX cY] in L7, L8.
      assert (Hr4 : g_real s4 = Cursor (line p) (column p + 1)).
      { cbn [s4 with_greal g_real]. now rewrite L4, K5, G2. }
      assert (B4 : backed_but X s4).
      { intros j k Hj Hk. rewrite Hsb in Hj. cbn [back with_back] in Hj. rewrite Hd4, Hz4.
        rewrite P_Buf.nth_upd in Hj by lia.
        assert (Hjt : j < total (sz s)).
        { destruct (Nat.eqb_spec j i); [lia|]. rewrite <- Hlen. apply nth_error_Some. congruence. }
        assert (Hjb := P_Screen.cell_pos_in _ _ Hjt). destruct (in_size E s _ F Hjb) as (_ & _ & Y & Y').
        unfold shows_at. rewrite (L8 _ _ Y Y'). destruct (Nat.eqb_spec j i) as [->|Hji].
        - injection Hj as <-. right. rewrite <- I3, !Z.eqb_refl. exists g. auto.
        - replace ((_ =? _) && (_ =? _))%Z with false; [now apply B|].
          symmetry. apply Bool.not_true_is_false. intros Q. apply Hji.
          rewrite <- (P_Screen.cell_pos_no (sz s) j), <- (P_Screen.cell_pos_no (sz s) i) by (unfold sz in *; lia).
          f_equal. rewrite <- I3. destruct (cell_pos (sz s) j) as [a1 a2], p as [b1 b2]. cbn [line column] in Q. f_equal; lia. }
      assert (U : unchanged s s4).
      { split; [eexists; exact Hsb|]. split; [exact Hd4|]. cbn [s4 with_greal g_clr]. now rewrite L5, K6, G6. }
      assert (Hlo' : lo' = S i) by (rewrite I8; unfold P_Screen.next_of; now rewrite (one_narrow shown E _ Ho Hb)).
      destruct (IH lo' hi (cattrs c) s4 s' e F4 B4) as (i2 & c2 & R1 & R2 & R3 & R4 & R5 & R6); auto.
      + rewrite Hsb. exact Ho.
      + rewrite Hsb. exact Hun.
      + now rewrite Hz4.
      + lia.
      + intros j Hj. rewrite Hsb. cbn [back with_back buffer]. rewrite P_Buf.nth_upd by lia.
        destruct (Nat.eqb_spec j i) as [->|]; [symmetry; exact I4|].
        destruct (Nat.ltb_spec j lo); [now apply Hcu|]. apply I6; [lia|]. now apply (one_half shown E).
      + left. rewrite Hr4, Hz4. cbn [column]. intros Hcol. unfold at_pos. cbn [line column].
        rewrite L7; [f_equal; lia|]. rewrite (f_same E s F). cbn [cX]. lia.
      + unfold ats. cbn [s4 with_greal g_t]. fold (ats s3). now rewrite L2.
      + rewrite Hsb in R1. rewrite Hz4 in R2. exists i2, c2. split; [exact R1|]. split; [exact R2|]. split; [exact R3|]. split; [exact R4|].
        split; [eapply unchanged_trans; eauto|exact R6].
  Qed.

  Lemma still_unchanged s s' : still s s' -> unchanged s s'.
  Proof. intros (_ & Y2 & _ & Y4 & Y5). split; [exists (back (g_sb s)); rewrite Y2; now destruct (g_sb s)|auto]. Qed.
  Lemma back_more X i c s : backed_but X s -> backed_but (plus X i c) s.
  Proof. intros B j k Hj Hk. destruct (B j k Hj Hk); [left; now left|now right]. Qed.

  Lemma refresh_fails X s s' e :
    frame s -> backed_but X s -> g_clr s = false -> tracks 1 s -> one_position E shown (g_sb s) ->
    (forall i c, cell_at (g_sb s) i = Some c -> one_unit (ctext c)) ->
    win_refresh draw E s = Fail s' e -> in_step s' ->
    exists i c, cell_at (g_sb s) i = Some c /\ i < total (sz s) /\
      frame s' /\ backed_but (plus X i c) s' /\ unchanged s s' /\ tracks 1 s'.
  Proof.
    intros F B Hc T Ho Hun H Hin. unfold win_refresh in H. rewrite Hc in H. cbn [obind] in H.
    assert (H0 : exists c0, cell_at (g_sb s) 0 = Some c0 /\ 0 < total (sz s)).
    { destruct (f_buf E s F) as (_ & B2 & _). destruct (f_size E s F) as (S1 & S2).
      assert (0 < total (sz s)) by (unfold total; nia). unfold cell_at. destruct (nth_error (buffer (g_sb s)) 0) eqn:En; [eauto|].
      apply nth_error_None in En. unfold sz in *. lia. }
    destruct H0 as (c0 & H0 & H0').
    assert (Hnone : forall s1, frame s1 -> backed_but X s1 -> tracks 1 s1 -> unchanged s s1 -> still s1 s' ->
      exists i c, cell_at (g_sb s) i = Some c /\ i < total (sz s) /\
        frame s' /\ backed_but (plus X i c) s' /\ unchanged s s' /\ tracks 1 s').
    { intros s1 X1 X2 X3 X4 X5. exists 0, c0. split; [exact H0|]. split; [exact H0'|]. split; [now apply still_frame with s1|].
      split; [apply back_more; now apply still_backed with s1|]. split; [|now apply still_tracks with s1].
      apply (unchanged_trans s s1 s' X4). now apply still_unchanged. }
    apply bind_fail in H. destruct H as [H|(s2 & u2 & H2 & H)].
    { apply (Hnone s F B T (unchanged_refl s)). exact (set_fails _ _ _ _ _ H). }
    destruct (clear_attrs_ok E _ _ _ F H2) as (F2 & A2 & V2 & S2 & R2 & C2 & D2).
    assert (St : still s s2) by (repeat split; assumption).
    assert (B2 := still_backed X _ _ St B). assert (T2 := still_tracks 1 _ _ St T).
    destruct (sb_indices E (g_sb s2)) as [[lo hi]|] eqn:Ei; [|discriminate H].
    assert (Hlh : lo = 0 /\ hi = total (sz s2)).
    { unfold sb_indices, area, checked_area in Ei. destruct (_ <=? _); [|discriminate Ei].
      injection Ei as <- <-. split; reflexivity. }
    destruct Hlh as (-> & Hhi).
    apply bind_fail in H. destruct H as [H|(s3 & u3 & H3 & H)].
    { destruct (draw_fails X _ 0 hi no_attrs s2 s' e F2 B2 ltac:(now rewrite S2) ltac:(rewrite S2; exact Hun) Hhi ltac:(lia) ltac:(intros j Hj; lia) T2 A2 H)
        as (i & c & Q1 & Q2 & Q3 & Q4 & Q5 & Q6).
      rewrite S2 in Q1. unfold sz in Q2. rewrite S2 in Q2. fold (sz s) in Q2. exists i, c. split; [exact Q1|]. split; [exact Q2|].
      split; [exact (Q3 Hin)|]. split; [exact Q4|]. split; [|exact Q6]. exact (unchanged_trans _ _ _ (still_unchanged _ _ St) Q5). }
    assert (T2' : tracks 0 s2) by (destruct T2 as [T2|(Q & _)]; [now left|discriminate Q]).
    destruct (draw_but draw shown E HP X _ 0 hi no_attrs s2 s3 u3 F2 B2 ltac:(now rewrite S2) Hhi ltac:(lia) ltac:(intros j Hj; lia) T2' A2 H3)
      as (F3 & B3 & U3 & _ & T3).
    assert (U : unchanged s s3) by exact (unchanged_trans _ _ _ (still_unchanged _ _ St) U3).
    apply bind_fail in H. destruct H as [H|(s4 & u4 & H4 & H)].
    { apply (Hnone s3 F3 B3 T3 U). exact (set_fails _ _ _ _ _ H). }
    destruct (clear_attrs_ok E _ _ _ F3 H4) as (F4 & A4 & V4 & S4 & R4 & C4 & D4).
    assert (St4 : still s3 s4) by (repeat split; assumption).
    assert (B4 := still_backed X _ _ St4 B3). assert (T4 := still_tracks 1 _ _ St4 T3).
    assert (U4 : unchanged s s4) by exact (unchanged_trans _ _ _ U (still_unchanged _ _ St4)).
    apply (Hnone s4 F4 B4 T4 U4).
    destruct (is_out_of_bounds _ _); [destruct (cursor_last _); [|discriminate H]|]; exact (move_fails _ _ _ _ H).
  Qed.

  (** The window covers the console: clearing changes only cells. *)
  Lemma clear_fails d w w' e : win_clear_screen d w = Fail w' e -> covers (c_view (w_con w)) ->
    S_WinWriter.view_ok (c_view (w_con w)) ->
    v_size (c_view (w_con w')) = v_size (c_view (w_con w)) /\ S_WinWriter.view_ok (c_view (w_con w')) /\
    w_at w' = w_at w /\ c_attr (w_con w') = c_attr (w_con w).
  Proof.
    intros H (_ & Hh) Hv. unfold win_clear_screen in H. apply bind_fail in H. destruct H as [H|(s1 & info & H1 & H)].
    { apply ask_fail in H. destruct H as (A1 & A2 & A3). now rewrite A1, A2, A3. }
    apply info_inv in H1. destruct H1 as (-> & A1 & A2 & A3). cbv zeta in H. unfold S_WinWriter.win_height in Hh.
    unfold short in H. destruct (_ && _) in H; [|discriminate H]. destruct (_ && _) in H; [|discriminate H].
    replace (rBottom (v_win (c_view (w_con w))) - rTop (v_win (c_view (w_con w))) + 1 =? cY (v_size (c_view (w_con w))))%Z with true in H
      by (symmetry; apply Z.eqb_eq; exact Hh).
    unfold dword in H. destruct (_ && _) in H; [|discriminate H].
    apply bind_fail in H. destruct H as [H|(s2 & u2 & H2 & H)].
    - unfold clear_area in H. apply bind_fail in H. destruct H as [H|(s3 & u3 & H3 & H)].
      + apply ask_fail in H. destruct H as (B1 & B2 & B3). now rewrite B1, B2, B3, A1, A2, A3.
      + apply on_view_inv in H3. destruct H3 as (_ & C1 & C2 & C3). apply ask_fail in H. destruct H as (B1 & B2 & B3).
        rewrite B1, B2, B3, C1, C2, C3, A1, A2, A3. auto.
    - unfold clear_area in H2. apply bind_ret in H2. destruct H2 as (s3 & u3 & H3 & H2).
      apply on_view_inv in H3, H2. destruct H3 as (_ & C1 & C2 & C3). destruct H2 as (_ & D1 & D2 & D3).
      apply ask_fail in H. destruct H as (B1 & B2 & B3). rewrite B1, B2, B3, D1, D2, D3, C1, C2, C3, A1, A2, A3. auto.
  Qed.

  (** ** Histories *)
  Definition lost_at (z : size) (lost : list cursor) (l : list S_Canvas.canvas) (i : nat) (c : cell) : Prop :=
    exists k0, In (cell_pos z i, k0) (combine lost l) /\
      S_Canvas.ink k0 (line (cell_pos z i)) (column (cell_pos z i)) = (ctext c, cattrs c).
  Definition sound (s : wscr) (k : S_Canvas.canvas) (r : bool) (l : list S_Canvas.canvas) : Prop :=
    frame s /\ P_Canvas.fits E (g_sb s) k /\ sheer shown k /\ g_clr s = r /\ (t_default (g_t s) < 65536)%N /\
    (g_clr s = true -> P_Screen.all_invalid (g_sb s)) /\ (g_clr s = false -> tracks 1 s) /\
    exists lost, length lost = length l /\ backed_but (lost_at (S_Canvas.ksize k) lost l) s.

  Lemma still_sound s s' k r l : still s s' -> in_step s' -> sound s k r l -> sound s' k r l.
  Proof.
    intros St Hi (F & X1 & X2 & X3 & X4 & X5 & X6 & lost & X7 & X8). assert (St' := St). destruct St' as (S1 & S2 & S3 & S4 & S5).
    split; [now apply still_frame with s|]. rewrite S2, S4, S5. do 5 (split; [assumption|]).
    split; [intros Hc; apply still_tracks with s; auto|]. exists lost. split; [exact X7|]. now apply still_backed with s.
  Qed.

  Lemma struck_sound s k r l : (32767 <= Z.of_nat (umax E))%Z -> struck draw shown E s k r l -> sound s k r l.
  Proof.
    intros HU. induction 1 as [s k r Hw|s k r l m b _ IH Hs Hm|s k r l m s' u _ IH Hr|s k r l m s' e _ IH Hr
      |s k r l s' u _ IH Hcv Hr|s k l s' e _ IH Hun Hr Hin|s k l s' e _ IH Hcv Hr (w & e0 & Hw)|s k r l v s' u _ IH Hv Hr].
    - destruct (wpainted_history draw shown E HP HE s k r HU Hw) as (H1 & H2 & H3 & H4).
      destruct (hist_inv draw shown E HP HE s HU H1) as ([F B I C] & D).
      repeat (split; [assumption|]). exists []. split; [reflexivity|]. intros i c Hi Hc. right. now apply B.
    - destruct IH as (F & X1 & X2 & X3 & X4 & X5 & X6 & lost & X7 & X8).
      destruct (P_Screen2.op_ok E HE _ _ _ (f_buf E s F) (P_Canvas.not_resize m) Hm) as (O1 & O2 & O3).
      assert (Hz : sz (with_gsb b s) = sz s) by exact O3.
      assert (Hf := P_Canvas.method_draws E HE _ _ _ _ X1 (single_narrow shown E _ Hs) Hm).
      assert (Hk : S_Canvas.ksize (S_Canvas.draw E m k) = S_Canvas.ksize k).
      { destruct X1 as [_ _ _ (K1 & _)]. destruct Hf as [_ _ _ (K2 & _)]. unfold screen_get_size in *. rewrite <- K1, <- K2. exact O3. }
      split; [destruct F as [F1 F2 F3 F4 F5]; split; rewrite ?Hz; assumption|].
      split; [exact Hf|]. split; [now apply (draw_sheer draw shown E HP)|]. split; [exact X3|]. split; [exact X4|].
      split; [intros Hc j c Hj; cbn in Hj; rewrite O2 in Hj; now apply (X5 Hc j c)|].
      split; [intros Hc; destruct (X6 Hc) as [T|(T & _)]; [left; rewrite Hz; exact T|discriminate T]|].
      exists lost. split; [exact X7|]. intros i c Hi Hc. cbn in Hi. rewrite O2 in Hi. rewrite Hz, Hk. now apply X8.
    - assert (Hst : still s s' /\ in_step s'); [|now apply still_sound with s].
      cbn [run_wsop] in Hr. apply on_inv in Hr. destruct Hr as (w & Hr & ->).
      unfold win_set_cursor_mode, set_cursor_info in Hr. apply ask_inv in Hr. destruct Hr as (_ & A & n & q & Hr). injection Hr as Hr _.
      destruct IH as (F & _). split; [repeat split; unfold sees; cbn; now rewrite <- Hr|].
      unfold in_step. cbn. rewrite A, <- Hr. exact (f_track E s F).
    - assert (Hst : still s s' /\ in_step s'); [|now apply still_sound with s].
      cbn [run_wsop] in Hr. apply on_fail in Hr. destruct Hr as (w & Hr & ->).
      unfold win_set_cursor_mode, set_cursor_info in Hr. apply ask_fail in Hr. destruct Hr as (A1 & A2 & A3).
      destruct IH as (F & _). split; [repeat split; exact A3|]. unfold in_step. cbn. rewrite A1, A2. exact (f_track E s F).
    - destruct IH as (F & X1 & X2 & X3 & X4 & X5 & X6 & lost & X7 & X8).
      assert (Ho := sheer_one shown E _ _ X1 X2).
      assert (Hw : window_fits s) by (intros Hc; left; apply Hcv; congruence).
      destruct (refresh_but draw shown E HP _ s s' u F X8 X5 X6 Ho Hw Hr) as ((F' & B' & I' & T') & Hc & Hd & (bk & Hk) & _).
      split; [exact F'|]. split; [destruct F' as [Fb _ _ _ _]; rewrite Hk in Fb |- *; apply P_Canvas.back_fits; [exact X1|exact Fb]|].
      split; [exact X2|]. split; [exact Hc|]. split; [now rewrite Hd|]. split; [exact I'|]. split; [exact T'|]. exists lost. auto.
    - destruct IH as (F & X1 & X2 & X3 & X4 & X5 & X6 & lost & X7 & X8).
      assert (Ho := sheer_one shown E _ _ X1 X2). assert (X1' := X1). destruct X1' as [Y1 Y2 Y3 (Z1 & Z2 & Z3 & Z4)]. unfold screen_get_size in Z1.
      assert (Hat : forall i c, cell_at (g_sb s) i = Some c -> in_bounds (cell_pos (S_Canvas.ksize k) i) (S_Canvas.ksize k) /\
        S_Canvas.ink k (line (cell_pos (S_Canvas.ksize k) i)) (column (cell_pos (S_Canvas.ksize k) i)) = (ctext c, cattrs c)).
      { intros i c Hi. assert (Hlt : i < total (S_Canvas.ksize k)).
        { rewrite <- Z1. destruct Y1 as (_ & <- & _). apply nth_error_Some. unfold cell_at in Hi. congruence. }
        assert (Hb := P_Screen.cell_pos_in _ _ Hlt). split; [exact Hb|]. specialize (Z4 _ Hb).
        rewrite P_Screen.cell_pos_no in Z4 by (destruct Hb; lia). rewrite Hi in Z4. injection Z4 as ->. cbn [ctext cattrs].
        now destruct (S_Canvas.ink k _ _). }
      destruct (refresh_fails (lost_at (S_Canvas.ksize k) lost l) s s' e F X8 X3 (X6 X3) Ho) as (i & c & Q1 & Q2 & Q3 & Q4 & Q5 & Q6); auto.
      { intros i c Hi. destruct (Hat i c Hi) as (Hb & Hk). specialize (Hun _ Hb). rewrite Hk in Hun. exact Hun. }
      destruct Q5 as ((bk & Hk) & Hd & Hc').
      split; [exact Q3|]. split; [destruct Q3 as [Fb _ _ _ _]; rewrite Hk in Fb |- *; apply P_Canvas.back_fits; [exact X1|exact Fb]|].
      split; [exact X2|]. split; [congruence|]. split; [now rewrite Hd|]. split; [rewrite Hc', X3; intros Q; discriminate Q|]. split; [intros _; exact Q6|].
      exists (cell_pos (S_Canvas.ksize k) i :: lost). split; [cbn; now rewrite X7|].
      intros j d Hj Hn. destruct (Q4 j d Hj Hn) as [[(k0 & K1 & K2)|(-> & ->)]|Hs]; [left|left|now right].
      + exists k0. split; [right; exact K1|exact K2].
      + exists k. split; [now left|]. exact (proj2 (Hat _ _ Q1)).
    - destruct IH as (F & X1 & X2 & X3 & X4 & X5 & X6 & lost & X7 & X8).
      unfold win_refresh in Hr. rewrite X3 in Hr. unfold on_term, on_wins in Hr. rewrite Hw in Hr. cbn [obind] in Hr. injection Hr as <- _.
      destruct F as [F1 F2 F3 F4 F5]. destruct (clear_fails _ _ _ _ Hw Hcv F3) as (C1 & C2 & C3 & C4).
      split; [split; [exact F1|exact F2|exact C2|unfold sees; cbn; now rewrite C1|unfold word, ats in *; cbn [with_gt with_w g_t t_w t_default] in *; rewrite C3, C4; exact F5]|].
      split; [exact X1|]. split; [exact X2|]. split; [exact X3|]. split; [exact X4|]. split; [exact X5|].
      split; [cbn; rewrite X3; intros Q; discriminate Q|]. exists lost. split; [exact X7|].
      intros i c Hi Hn. exfalso. exact (Hn (X5 X3 i c Hi)).
    - destruct IH as ([F1 F2 F3 F4 F5] & X1 & X2 & X3 & X4 & X5 & X6 & lost & X7 & X8).
      unfold win_update_size in Hr. cbn [seeing with_gt g_sb g_real g_state g_old g_t] in Hr.
      destruct (sb_resize E (g_sb s) _) as [b|] eqn:Er; [|discriminate Hr]. injection Hr as <- _.
      assert (Hv' := Hv). unfold S_WinWriter.view_ok in Hv'.
      assert (Hsz : S_Screen.screen_size (size_of_view v)).
      { unfold S_Screen.screen_size, S_Writer.u32_max, size_of_view. cbn [lines columns]. lia. }
      destruct (P_Screen2.sb_resize_ok E HE _ _ _ F1 Hsz Er) as (R1 & R2 & R3 & _).
      split; [split|].
      + exact R1.
      + unfold sz. cbn [g_sb]. rewrite R2. unfold size_of_view. cbn [lines columns]. lia.
      + exact Hv.
      + unfold sz. cbn [g_sb]. rewrite R2. unfold size_of_view. cbn [lines columns].
        change (v_size v = Coord (Z.of_nat (Z.to_nat (cX (v_size v)))) (Z.of_nat (Z.to_nat (cY (v_size v))))).
        rewrite !Z2Nat.id by lia. now destruct (v_size v).
      + exact F5.
      + split; [apply (P_Canvas.refit_fits E HE _ _ _ _ X1 Hsz Er)|]. split; [now apply (refit_sheer draw shown HP)|]. split; [reflexivity|]. split; [exact X4|].
        split; [intros _; exact R3|]. split; [intros Q; discriminate Q|]. exists []. split; [reflexivity|].
        intros i c Hi Hn. exfalso. exact (Hn (R3 i c Hi)).
  Qed.

  Lemma struck_shows s k r l : (32767 <= Z.of_nat (umax E))%Z -> struck draw shown E s k r l ->
    forall s' u, (r = true -> covers (sees s)) -> win_refresh draw E s = Ret s' u ->
    size_of_view (sees s') = S_Canvas.ksize k /\
    v_cur (sees s') = Coord (Z.of_nat (column (S_Canvas.pen_goal k))) (Z.of_nat (line (S_Canvas.pen_goal k))) /\
    exists lost, length lost = length l /\
      forall p, in_bounds p (S_Canvas.ksize k) ->
        shows_ink shown (t_default (g_t s)) (sees s') k p \/
        exists k0, In (p, k0) (combine lost l) /\
          S_Canvas.ink k0 (line p) (column p) = S_Canvas.ink k (line p) (column p).
  Proof.
    intros HU H s' u Hcv Hr. destruct (struck_sound _ _ _ _ HU H) as (F & X1 & X2 & X3 & X4 & X5 & X6 & lost & X7 & X8).
    assert (Ho := sheer_one shown E _ _ X1 X2).
    assert (Hw : window_fits s) by (intros Hc; left; apply Hcv; congruence).
    destruct (refresh_but draw shown E HP _ s s' u F X8 X5 X6 Ho Hw Hr) as ((F' & B' & _) & _ & Hd & (bk & Hk) & U & V).
    destruct X1 as [Y1 Y2 Y3 (Z1 & Z2 & Z3 & Z4)]. unfold screen_get_size, screen_get_cursor in *.
    assert (Hz : sz s' = S_Canvas.ksize k) by (unfold sz; rewrite Hk; exact Z1).
    split; [|split].
    - unfold size_of_view. rewrite (f_same E s' F'), Hz. cbn [cX cY]. rewrite !Nat2Z.id. now destruct (S_Canvas.ksize k).
    - rewrite V. unfold at_pos, S_Screen.cursor_goal, S_Canvas.pen_goal, S_Canvas.on_canvas. now rewrite Z1, Z2.
    - exists lost. split; [exact X7|]. intros p Hp. assert (Hc := Z4 p Hp). 
      assert (Hn : cell_no (S_Canvas.ksize k) p < total (S_Canvas.ksize k)) by (destruct Hp; unfold cell_no, total; nia).
      assert (Hb : nth_error (back (g_sb s')) (cell_no (S_Canvas.ksize k) p) =
        Some (Cell (snd (S_Canvas.ink k (line p) (column p))) (fst (S_Canvas.ink k (line p) (column p))))).
      { rewrite U by now rewrite Hz. rewrite Hk. exact Hc. }
      assert (Hne : fst (S_Canvas.ink k (line p) (column p)) <> []).
      { destruct Y1 as (_ & _ & _ & Ht). rewrite Forall_forall in Ht. unfold cell_at in Hc. apply nth_error_In in Hc.
        destruct (Ht _ Hc) as (x & ms & Hx & _). cbn [ctext] in Hx. rewrite Hx. intros Q; discriminate Q. }
      destruct (B' _ _ Hb Hne) as [(k0 & K1 & K2)|(g & G1 & G2)].
      + right. rewrite P_Screen.cell_no_pos in K1, K2 by apply Hp. exists k0. split; [exact K1|]. rewrite K2. cbn [ctext cattrs]. now destruct (S_Canvas.ink k _ _).
      + left. rewrite Hz, P_Screen.cell_no_pos in G2 by apply Hp. cbn [ctext cattrs] in *. exists g, (win_word (t_default (g_t s)) (snd (S_Canvas.ink k (line p) (column p)))).
        rewrite <- Hd at 1. split; [exact G2|]. split; [exact G1|]. now apply P_WinWriter.word_shows.
  Qed.
End Screen.

(** ** Cases *)
Local Notation struck' := (struck demo_draw demo_shown wide_env).
Definition plain_text (s : list N) : bool := forallb (fun c => (32 <=? c) && (c <? 127))%N s.
Lemma plain_single s : plain_text s = true -> Forall (single wide_env demo_shown) s.
Proof.
  unfold plain_text. rewrite forallb_forall, Forall_forall. intros H c Hc. specialize (H c Hc). right. right. right.
  unfold wide_env. cbn [demo_env combining cwidth]. split; [lia|]. split.
  - intros (_ & Hw). cbn [demo_env cwidth] in Hw. unfold demo_width in Hw.
    destruct (_ || _) in Hw; [discriminate Hw|]. replace ((768 <=? c) && (c <=? 879))%N with false in Hw by lia.
    replace ((65281 <=? c) && (c <=? 65376))%N with false in Hw by lia. discriminate Hw.
  - intros _. unfold demo_shown. replace (c <? 65536)%N with true by lia. intros Q; discriminate Q.
Qed.
Lemma struck_new v l : S_WinWriter.view_ok v ->
  is_ret (win_screen_new wide_env default_config (some_term v l)) = true ->
  struck' (some_screen v l) (S_Canvas.blank_canvas (size_of_view v)) false [].
Proof.
  intros Hv H. apply made_ok in H. destruct H as (t1 & H). apply WF_painted.
  refine (WP_new demo_draw demo_shown wide_env default_config (some_term v l) t1 _ _ Hv _ _ _ H); try reflexivity.
  split; [reflexivity|]. intros [].
Qed.
Lemma struck_method s k r l m : struck' s k r l -> plain_text (S_Canvas.method_text m) = true ->
  is_val (screen_method wide_env m (g_sb s)) = true ->
  struck' (wrote s (sforward m)) (S_Canvas.draw wide_env m k) r l.
Proof.
  intros H1 H2 H3. unfold wrote. unfold screen_method in H3.
  destruct (run_buf_op wide_env (g_sb s) (sforward m)) as [b|] eqn:Eb; [|discriminate H3].
  eapply WF_method; [exact H1|exact (plain_single _ H2)|exact Eb].
Qed.
Definition in_stepb (s : wscr) : bool := N.eqb (c_attr (w_con (t_w (g_t s)))) (win_word (t_default (g_t s)) (w_at (t_w (g_t s)))).
Lemma in_stepb_ok s : in_stepb s = true -> in_step s.
Proof. apply N.eqb_eq. Qed.
Definition all_places (z : size) : list cursor := map (cell_pos z) (seq 0 (total z)).
Lemma all_places_in z p : in_bounds p z -> In p (all_places z).
Proof.
  intros Hp. assert (Hn := P_Geom.cell_no_lt _ _ Hp). rewrite <- (P_Screen.cell_no_pos z p) by apply Hp. apply in_map, in_seq. lia.
Qed.
Definition unitsb (k : S_Canvas.canvas) : bool :=
  forallb (fun p => length (encode_wide (fst (S_Canvas.ink k (line p) (column p)))) <=? 1) (all_places (S_Canvas.ksize k)).
Lemma unitsb_ok k : unitsb k = true ->
  forall p, in_bounds p (S_Canvas.ksize k) -> one_unit (fst (S_Canvas.ink k (line p) (column p))).
Proof.
  intros H p Hp. unfold unitsb in H. rewrite forallb_forall in H. specialize (H p (all_places_in _ _ Hp)).
  apply Nat.leb_le in H. exact H.
Qed.
(** The console shows another character at [p]. *)
Definition offb (v : view) (k : S_Canvas.canvas) (p : cursor) : bool :=
  match demo_shown (fst (S_Canvas.ink k (line p) (column p))) with
  | Some g => negb (N.eqb (fst (v_cell v (Z.of_nat (line p)) (Z.of_nat (column p)))) g)
  | None => true
  end && (line p <? lines (S_Canvas.ksize k)) && (column p <? columns (S_Canvas.ksize k)).
Lemma offb_ok v k p d : offb v k p = true -> in_bounds p (S_Canvas.ksize k) /\ ~ shows_ink demo_shown d v k p.
Proof.
  unfold offb. intros H. apply andb_prop in H. destruct H as (H & H3). apply andb_prop in H. destruct H as (H1 & H2).
  split; [split; lia|]. intros (g & w & G1 & G2 & _). rewrite G1, G2 in H1. cbn [fst] in H1. rewrite N.eqb_refl in H1. discriminate H1.
Qed.

(** "ab" is written on a screen of one line; writing the "b" to the console fails; "c" is
    written and the screen refreshed: the "b" never comes. *)
Definition lost_1 : wscr := wrote (some_screen (some_view 4 1 0 0 SPACE) (repeat (CTake 9) 8 ++ [CFail 5])) (BWriteStr [97; 98]%N).
Definition lost_k1 : S_Canvas.canvas := S_Canvas.draw wide_env (SWriteStr [97; 98]%N) (S_Canvas.blank_canvas (Size 1 4)).
Definition lost_2 : wscr := done (win_refresh demo_draw wide_env lost_1).
Definition lost_3 : wscr := wrote lost_2 (BWriteStr [99]%N).
Definition lost_k3 : S_Canvas.canvas := S_Canvas.draw wide_env (SWriteStr [99]%N) lost_k1.
Definition lost_4 : wscr := done (win_refresh demo_draw wide_env lost_3).
Lemma lost_struck : struck' lost_3 lost_k3 false [lost_k1].
Proof.
  apply (struck_method lost_2 lost_k1 false [lost_k1] (SWriteStr [99]%N)); [|reflexivity|vm_compute; reflexivity].
  assert (H : is_fail (win_refresh demo_draw wide_env lost_1) = true) by (vm_compute; reflexivity).
  apply done_fail in H. destruct H as (e & H).
  refine (WF_failed demo_draw demo_shown wide_env lost_1 lost_k1 [] lost_2 e _ _ H _).
  - apply (struck_method _ _ false [] (SWriteStr [97; 98]%N)); [|reflexivity|vm_compute; reflexivity].
    apply (struck_new (some_view 4 1 0 0 SPACE)); [unfold S_WinWriter.view_ok; cbn; lia|vm_compute; reflexivity].
  - apply unitsb_ok. vm_compute. reflexivity.
  - apply in_stepb_ok. vm_compute. reflexivity.
Qed.
Lemma failing_loses : exists draw shown E s k l s' u p,
  places draw shown /\ env_ok E /\ (32767 <= Z.of_nat (umax E))%Z /\
  struck draw shown E s k false l /\ win_refresh draw E s = Ret s' u /\
  in_bounds p (S_Canvas.ksize k) /\ ~ shows_ink shown (t_default (g_t s)) (sees s') k p.
Proof.
  exists demo_draw, demo_shown, wide_env, lost_3, lost_k3, [lost_k1], lost_4, tt, (Cursor 0 1).
  split; [exact demo_places|]. split; [exact wide_env_ok|]. split; [exact wide_env_max|]. split; [exact lost_struck|].
  split; [apply done_ok; vm_compute; reflexivity|]. apply offb_ok. vm_compute. reflexivity.
Qed.

(** The pen is at the second column of a screen of one line when it is refreshed and the
    size is reported; "abc" is written; the next refresh fails after the clearing, when it
    moves the cursor; the one after it succeeds. *)
Definition slip_v : view := some_view 4 1 0 0 120.
Definition slip_1 : wscr := wrote (some_screen (some_view 4 1 0 0 SPACE) (repeat (CTake 9) 12 ++ [CFail 5])) (BSetCursor (Cursor 0 1)).
Definition slip_2 : wscr := done (win_refresh demo_draw wide_env slip_1).
Definition slip_3 : wscr := done (win_update_size wide_env (Size 1 4) (seeing slip_v slip_2)).
Definition slip_4 : wscr := wrote slip_3 (BWriteAt (Cursor 0 0) [97; 98; 99]%N).
Definition slip_5 : wscr := done (win_refresh demo_draw wide_env slip_4).
Definition slip_6 : wscr := done (win_refresh demo_draw wide_env slip_5).
Definition slip_k : S_Canvas.canvas :=
  S_Canvas.draw wide_env (SWriteAt (At (Cursor 0 0)) [97; 98; 99]%N)
    (S_Canvas.refit (Size 1 4) (S_Canvas.draw wide_env (SSetCursor (At (Cursor 0 1))) (S_Canvas.blank_canvas (Size 1 4)))).
Lemma resized_fails : exists draw shown E s k s1 e s' u p q,
  places draw shown /\ env_ok E /\ (32767 <= Z.of_nat (umax E))%Z /\
  struck draw shown E s k true [] /\ covers (sees s) /\
  (forall p, in_bounds p (S_Canvas.ksize k) -> one_unit (fst (S_Canvas.ink k (line p) (column p)))) /\
  win_refresh draw E s = Fail s1 e /\ in_step s1 /\ win_refresh draw E s1 = Ret s' u /\
  in_bounds p (S_Canvas.ksize k) /\ in_bounds q (S_Canvas.ksize k) /\ p <> q /\
  ~ shows_ink shown (t_default (g_t s)) (sees s') k p /\ ~ shows_ink shown (t_default (g_t s)) (sees s') k q.
Proof.
  assert (H : is_fail (win_refresh demo_draw wide_env slip_4) = true) by (vm_compute; reflexivity).
  apply done_fail in H. destruct H as (e & H).
  assert (O1 : offb (sees slip_6) slip_k (Cursor 0 0) = true) by (vm_compute; reflexivity).
  assert (O2 : offb (sees slip_6) slip_k (Cursor 0 1) = true) by (vm_compute; reflexivity).
  apply (offb_ok _ _ _ (t_default (g_t slip_4))) in O1, O2. destruct O1 as (O1 & O1'). destruct O2 as (O2 & O2').
  exists demo_draw, demo_shown, wide_env, slip_4, slip_k, slip_5, e, slip_6, tt, (Cursor 0 0), (Cursor 0 1).
  split; [exact demo_places|]. split; [exact wide_env_ok|]. split; [exact wide_env_max|].
  split; [|split; [split; vm_compute; reflexivity|split; [apply unitsb_ok; vm_compute; reflexivity|split; [exact H|
    split; [apply in_stepb_ok; vm_compute; reflexivity|split; [apply done_ok; vm_compute; reflexivity|]]]]]].
  - apply (struck_method slip_3 _ true [] (SWriteAt (At (Cursor 0 0)) [97; 98; 99]%N)); [|reflexivity|vm_compute; reflexivity].
    refine (WF_resize demo_draw demo_shown wide_env slip_2 _ false [] slip_v slip_3 tt _ _ _).
    + refine (WF_refresh demo_draw demo_shown wide_env slip_1 _ false [] slip_2 tt _ _ _).
      * apply (struck_method _ _ false [] (SSetCursor (At (Cursor 0 1)))); [|reflexivity|vm_compute; reflexivity].
        apply (struck_new (some_view 4 1 0 0 SPACE)); [unfold S_WinWriter.view_ok; cbn; lia|vm_compute; reflexivity].
      * intros Q; discriminate Q.
      * apply done_ok. vm_compute. reflexivity.
    + unfold S_WinWriter.view_ok; cbn; lia.
    + apply done_ok. vm_compute. reflexivity.
  - do 2 (split; [assumption|]). split; [intros Q; discriminate Q|]. now split.
Qed.
