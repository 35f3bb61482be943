From Verif Require Import Base M_Utf8 S_Utf8 M_Geom S_Geom P_Geom M_Attr M_Signal M_Util M_Input M_Buf S_Buf M_Writer M_Prepare M_Reader
  M_WinWriter M_WinReader S_WinReader M_WinScreen S_WinScreen P_WinScreen P_WinDraw M_ScreenApi S_WinCanvas P_Buf P_Buf2 P_Buf3.
From Verif Require S_WinWriter S_Screen S_Canvas P_Canvas P_Screen2.
Import S_Canvas.

Section WinCanvas.
  Variables (draw : list N -> N -> view -> view) (shown : list N -> option N) (E : env).
  Hypothesis HP : places draw shown.
  Hypothesis HE : env_ok E.

  (** Every position of the canvas has one character, which the console shows. *)
  Definition sheer (k : canvas) : Prop :=
    forall l c, exists x, fst (ink k l c) = [x] /\ shown [x] <> None.

  Lemma blank_sheer sz : sheer (blank_canvas sz).
  Proof. intros l c. exists 32%N. split; [reflexivity|]. intros Q. assert (X := p_space _ _ HP). unfold SPACE in X. congruence. Qed.

  Lemma space_sheer a : exists x, fst ([32%N], a : attrs) = [x] /\ shown [x] <> None.
  Proof. exists 32%N. split; [reflexivity|]. intros Q. assert (X := p_space _ _ HP). unfold SPACE in X. congruence. Qed.

  Lemma typed_sheer c k k' : single E shown c -> sheer k -> S_Canvas.typed E c k = Some k' -> sheer k'.
  Proof.
    intros Hs Hk H. unfold S_Canvas.typed in H.
    destruct (N.eqb_spec c 13) as [C1|C1]; [injection H as <-; exact Hk|].
    destruct (N.eqb_spec c 10) as [C2|C2]; [injection H as <-; exact Hk|].
    destruct (N.eqb_spec c 9) as [C3|C3].
    { destruct (on_canvas _ _); [|discriminate H]. cbv zeta in H. injection H as <-.
      intros l j. cbn [ink set_pen set_ink]. destruct (_ && _); [apply space_sheer|apply Hk]. }
    destruct Hs as [X|[X|[X|(M & W & Hs)]]]; [contradiction|contradiction|contradiction|].
    rewrite M in H. destruct (cwidth E c) as [[|[|n]]|] eqn:Ew; try (injection H as <-; exact Hk).
    destruct (on_canvas _ _); [|discriminate H]. injection H as <-.
    intros l j. cbn [ink set_pen set_ink]. destruct (_ && _); [|apply Hk].
    exists c. split; [reflexivity|auto].
  Qed.

  Lemma typing_sheer s : forall k, Forall (single E shown) s -> sheer k -> sheer (fst (typing E s k)).
  Proof.
    induction s as [|c s IH]; intros k Hs Hk; cbn [typing fst]; [exact Hk|].
    inversion Hs as [|? ? S1 S2]; subst. destruct (S_Canvas.typed E c k) as [k'|] eqn:Et; [|exact Hk].
    apply IH; [exact S2|]. exact (typed_sheer _ _ _ S1 Hk Et).
  Qed.

  Lemma write_with_sheer a s k : Forall (single E shown) s -> sheer k -> sheer (write_with E a s k).
  Proof.
    intros Hs Hk. unfold write_with. assert (T := typing_sheer s (set_brush a k) Hs Hk).
    destruct (typing E s (set_brush a k)) as [k' []]; exact T.
  Qed.

  Lemma draw_sheer m k : Forall (single E shown) (method_text m) -> sheer k -> sheer (S_Canvas.draw E m k).
  Proof.
    intros Hs Hk. destruct m; cbn [S_Canvas.draw method_text] in *; try exact Hk.
    - intros l c. apply space_sheer.
    - destruct (on_canvas _ _); [|exact Hk]. apply typing_sheer; [exact Hs|exact Hk].
    - now apply write_with_sheer.
    - destruct (on_canvas _ _); [|exact Hk]. apply write_with_sheer; [exact Hs|exact Hk].
    - now apply typing_sheer.
    - now apply typing_sheer.
    - now apply typing_sheer.
  Qed.

  Lemma refit_sheer sz k : sheer k -> sheer (refit sz k).
  Proof. intros Hk l c. cbn [ink refit]. destruct (_ && _); [apply Hk|apply space_sheer]. Qed.

  Lemma single_narrow s : Forall (single E shown) s -> S_Buf.no_wide E s.
  Proof.
    intros H. unfold S_Buf.no_wide. rewrite Forall_forall in *. intros c Hc. destruct (H c Hc) as [X|[X|[X|(_ & X & _)]]]; [| | |exact X].
    all: intros (W & _); subst c; destruct W as (W1 & W2 & W3 & _); unfold TAB, LF, CR in *; congruence.
  Qed.

  (** A cell of the buffer has an index, and so a position. *)
  Lemma sheer_one b k : P_Canvas.fits E b k -> sheer k -> one_position E shown b.
  Proof.
    intros [F1 F2 F3 (H1 & H2 & H3 & H4)] Hk. unfold one_position. apply Forall_forall. intros c Hc.
    apply In_nth_error in Hc. destruct Hc as (i & Hi).
    destruct F1 as (B1 & B2 & B3 & B4). unfold screen_get_size in H1.
    assert (Hlt : i < total (ksize k)) by (rewrite <- H1, <- B2; apply nth_error_Some; congruence).
    assert (Hp : in_bounds (cell_pos (ksize k) i) (ksize k)) by (apply cell_pos_in; exact Hlt).
    assert (Hn := H4 _ Hp). rewrite cell_pos_no in Hn by lia. unfold cell_at in Hn. rewrite Hi in Hn. injection Hn as ->.
    cbn [ctext]. destruct (Hk (line (cell_pos (ksize k) i)) (column (cell_pos (ksize k) i))) as (x & X1 & X2).
    unfold cell_pos in X1; cbn [line column] in X1. split; [rewrite X1; exact X2|].
    unfold P_Canvas.slim in F2. rewrite Forall_forall in F2. apply nth_error_In in Hi. specialize (F2 _ Hi). cbn [ctext] in F2.
    rewrite X1 in *. exact F2.
  Qed.

  Definition fine_at (s : wscr) : Prop := one_position E shown (g_sb s) /\ window_fits s.

  Lemma wpainted_history s k r : (32767 <= Z.of_nat (umax E))%Z -> wpainted draw shown E s k r ->
    whistory draw E fine_at s /\ P_Canvas.fits E (g_sb s) k /\ sheer k /\ g_clr s = r.
  Proof.
    intros HU. induction 1 as [cfg t t1 s Hd Hv Hdef Ha Hc Hnew|s k r m b _ (I1 & I2 & I3 & I4) Hs Hm|s k r m s' u _ (I1 & I2 & I3 & I4) Hr
      |s k r s' u _ (I1 & I2 & I3 & I4) Hcv Hr|s k r v s' u _ (I1 & I2 & I3 & I4) Hv Hr].
    - split; [eapply WH_new; eassumption|].
      unfold win_screen_new in Hnew. destruct (win_screen_open E cfg t) as [t2 s2|t2 e| |] eqn:Eo; try discriminate Hnew.
      2: { destruct (win_terminal_drop t2); discriminate Hnew. }
      injection Hnew as <- <-. apply open_inv in Eo; [|exact (proj2 Hd)].
      destruct Eo as (G1 & _ & _ & G4 & G5 & G6 & _).
      assert (Hz : size_of E (c_view (w_con (t_w t))) = size_of_view (c_view (w_con (t_w t)))).
      { unfold S_WinWriter.view_ok in Hv. unfold size_of, size_of_view, as_usize. f_equal; f_equal; apply Z.mod_small; lia. }
      rewrite Hz in G6. split; [|split; [apply blank_sheer|exact G4]].
      apply P_Canvas.new_fits; [exact HE| |exact G6]. unfold S_WinWriter.view_ok in Hv. cbn. lia.
    - split; [|split; [|split; [now apply draw_sheer|exact I4]]].
      + eapply WH_buffer; [exact I1|exact (P_Canvas.not_resize m)|exact Hm].
      + exact (P_Canvas.method_draws E HE _ _ _ _ I2 (single_narrow _ Hs) Hm).
    - split; [eapply WH_mode; eassumption|].
      cbn [run_wsop] in Hr. apply on_inv in Hr. destruct Hr as (w & Hr & ->). split; [exact I2|]. split; [exact I3|exact I4].
    - assert (Hf : fine_at s).
      { split; [exact (sheer_one _ _ I2 I3)|]. intros Hc. left. apply Hcv. congruence. }
      split; [eapply WH_refresh; [exact I1|exact Hf|exact Hr]|].
      destruct (P_WinDraw.hist_inv draw shown E HP HE s HU I1) as (I & D).
      destruct (P_WinDraw.refresh_ok draw shown E HP _ _ _ I (proj1 Hf) (proj2 Hf) Hr) as ([F B _ _] & Hc & _ & (l & Hl) & _).
      split; [|split; [exact I3|exact Hc]].
      destruct F as [Fb _ _ _ _]. rewrite Hl in Fb |- *. apply P_Canvas.back_fits; [exact I2|exact Fb].
    - split; [eapply WH_resize; [exact I1|exact Hv|exact Hr]|].
      unfold win_update_size in Hr. cbn [seeing with_gt g_sb g_real g_state g_old g_t] in Hr.
      destruct (sb_resize E (g_sb s) _) as [b|] eqn:Er; [|discriminate Hr]. injection Hr as <- _.
      split; [|split; [now apply refit_sheer|reflexivity]]. cbn [g_sb].
      apply (P_Canvas.refit_fits E HE _ _ _ _ I2); [|exact Er].
      unfold S_WinWriter.view_ok in Hv. unfold S_Screen.screen_size, S_Writer.u32_max, size_of_view. cbn [lines columns]. lia.
  Qed.

  Lemma winpainting_shows s k r : (32767 <= Z.of_nat (umax E))%Z -> wpainted draw shown E s k r ->
    screen_get_size (g_sb s) = ksize k /\ screen_get_cursor (g_sb s) = pen k /\
    forall s' u, (r = true -> covers (sees s)) -> win_refresh draw E s = Ret s' u ->
      wdisplays shown (t_default (g_t s)) (sees s') k /\
      v_cur (sees s') = Coord (Z.of_nat (column (pen_goal k))) (Z.of_nat (line (pen_goal k))).
  Proof.
    intros HU H. destruct (wpainted_history _ _ _ HU H) as (I1 & I2 & I3 & I4).
    assert (I2' := I2). destruct I2 as [F1 F2 F3 (H1 & H2 & H3 & H4)].
    split; [exact H1|]. split; [exact H2|]. intros s' u Hcv Hr.
    assert (Hf : fine_at s).
    { split; [exact (sheer_one _ _ I2' I3)|]. intros Hc. left. apply Hcv. congruence. }
    destruct (P_WinDraw.history_shows draw shown E HP HE s s' u HU I1 Hf Hr) as ((V1 & V2) & V3 & V4 & V5 & V6).
    unfold screen_get_size, screen_get_cursor in *. split.
    - split.
      + unfold size_of_view. rewrite V1. cbn [cX cY]. rewrite !Nat2Z.id, V5, H1. now destruct (ksize k).
      + intros p Hp. specialize (H4 p Hp). unfold cell_at in *. 
        destruct (V2 p (Cell (snd (ink k (line p) (column p))) (fst (ink k (line p) (column p))))) as (g & w & G).
        * now rewrite V5, H1.
        * unfold cell_at. rewrite V4, V5, H1. exact H4.
        * exists g, w. exact G.
    - rewrite V3. unfold at_pos, S_Screen.cursor_goal, pen_goal, on_canvas. now rewrite H1, H2.
  Qed.
End WinCanvas.
