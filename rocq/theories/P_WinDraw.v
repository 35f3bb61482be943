(** Refreshing a Windows screen shows its buffer (C79). *)
From Verif Require Import Base M_Utf8 S_Utf8 M_Geom S_Geom M_Attr M_Signal M_Util M_Input M_Buf S_Buf M_Writer M_Prepare M_Reader
  M_WinWriter M_WinReader S_WinReader M_WinScreen S_WinScreen P_Buf2 P_Buf3 P_WinScreen.
From Verif Require S_WinWriter S_Screen P_Buf P_Screen P_Screen2 P_WinWriter P_WinView P_Attr.

(** ** Console calls *)

Lemma ask_inv {A} v (f : option nat -> con -> con * A) s s' a : ask v f s = Ret s' a ->
  v = true /\ w_at s' = w_at s /\ exists n l, f n (with_answers l (w_con s)) = (w_con s', a).
Proof.
  unfold ask. destruct (c_answers (w_con s)) as [|[e|n] l] eqn:Ea; [| intros H; discriminate H|].
  - destruct v; [|intros H; discriminate H]. destruct (f None (w_con s)) as [c b] eqn:Ef. intros H. injection H as <- <-.
    split; [reflexivity|]. split; [reflexivity|]. exists None, []. rewrite <- Ea.
    replace (with_answers (c_answers (w_con s)) (w_con s)) with (w_con s) by now destruct (w_con s). exact Ef.
  - destruct v; [|intros H; discriminate H]. destruct (f (Some n) _) as [c b] eqn:Ef. intros H. injection H as <- <-.
    split; [reflexivity|]. split; [reflexivity|]. exists (Some n), l. exact Ef.
Qed.

(** [s'] differs from [s] in what the buffer shows, now [v]. *)
Definition redrawn (s s' : wins) (v : view) : Prop :=
  w_at s' = w_at s /\ c_attr (w_con s') = c_attr (w_con s) /\ c_view (w_con s') = v.

Lemma on_view_inv v g s s' u : ask v (on_view g) s = Ret s' u ->
  v = true /\ redrawn s s' (g (c_view (w_con s))).
Proof.
  intros H. apply ask_inv in H. destruct H as (Hv & Ha & n & l & H). split; [exact Hv|].
  unfold on_view in H. injection H as H _. unfold redrawn. rewrite <- H. auto.
Qed.
Lemma info_inv s s' v : get_info s = Ret s' v -> v = c_view (w_con s) /\ redrawn s s' v.
Proof.
  intros H. apply ask_inv in H. destruct H as (_ & Ha & n & l & H). injection H as H <-.
  split; [reflexivity|]. unfold redrawn. rewrite <- H. auto.
Qed.
Lemma move_inv p s s' u : set_cursor_position p s = Ret s' u ->
  in_buffer (c_view (w_con s)) p = true /\
  redrawn s s' (let v := c_view (w_con s) in View (v_size v) p (reveal p (v_win v)) (v_cell v)).
Proof. intros H. apply on_view_inv in H. exact H. Qed.

Lemma set_attributes_view d a s s' u : win_set_attributes d a s = Ret s' u -> c_view (w_con s') = c_view (w_con s).
Proof.
  unfold win_set_attributes. destruct (_ || _); [|intros H; now injection H as <- _].
  unfold win_update_attrs, set_console_attr. intros H. apply ask_inv in H. destruct H as (_ & _ & n & l & H).
  injection H as H _. now rewrite <- H.
Qed.

Section Text.
  Variables (draw : list N -> N -> view -> view) (shown : list N -> option N).
  Hypothesis HP : places draw shown.

  Lemma write_loop_view rounds buf : forall n s s' u,
    write_loop draw rounds buf n s = Ret s' u ->
    redrawn s s' (draw (skipn n buf) (c_attr (w_con s)) (c_view (w_con s))).
  Proof.
    induction rounds as [|rounds IH]; intros n s s' u H; cbn [write_loop] in H;
      (destruct (Nat.ltb_spec n (length buf)) as [Hlt|Hge];
       [|injection H as <- _; rewrite skipn_all2 by lia; rewrite (p_nil _ _ HP); repeat split]).
    - discriminate H.
    - apply bind_ret in H. destruct H as (s1 & k & H1 & H).
      unfold write_console in H1. apply ask_inv in H1. destruct H1 as (_ & A1 & m & l & H1).
      set (len := N.to_nat (to_dword (length buf - n))) in *. cbv zeta in H1. injection H1 as H1 Hk.
      specialize (IH _ _ _ _ H). destruct IH as (R1 & R2 & R3). unfold redrawn.
      rewrite R1, R2, R3, A1, <- H1. cbn [c_attr c_view with_answers].
      split; [reflexivity|]. split; [reflexivity|]. rewrite <- (p_app _ _ HP). f_equal. rewrite Hk.
      assert (Hlen : len <= length buf - n) by (unfold len, to_dword, DWORD_MAX; lia). clearbody len.
      assert (Hk2 : k <= len).
      { rewrite <- Hk. destruct m; rewrite firstn_length; lia. }
      rewrite firstn_firstn, Nat.min_l by lia.
      replace (skipn (n + k) buf) with (skipn k (skipn n buf)); [apply firstn_skipn|].
      clear. revert buf. induction n as [|n IHn]; intros [|x buf]; cbn; rewrite ?skipn_nil; auto.
  Qed.
  Lemma write_view str s s' u : win_write_str draw str s = Ret s' u ->
    redrawn s s' (draw (encode_wide str) (c_attr (w_con s)) (c_view (w_con s))).
  Proof. unfold win_write_str. intros H. apply write_loop_view in H. exact H. Qed.
End Text.

(** Clearing the screen leaves the buffer in order; a window that covers it and starts at
    its first column leaves the cursor at the origin. *)
Definition orderly (v v' : view) : Prop := S_WinWriter.view_ok v -> S_WinWriter.view_ok v' /\ v_size v' = v_size v.

Lemma short_inv {A} z (k : Z -> winres A) s a : short z k = Ret s a -> (-32768 <= z <= 32767)%Z /\ k z = Ret s a.
Proof. unfold short. destruct (_ && _) eqn:E; [|intros H; discriminate H]. intros H. split; [lia|exact H]. Qed.
Lemma dword_inv {A} z (k : Z -> winres A) s a : dword z k = Ret s a -> k z = Ret s a.
Proof. unfold dword. destruct (_ && _) eqn:E; [|intros H; discriminate H]. auto. Qed.

Lemma clear_rest_view info h w s s' u : clear_rest info h w s = Ret s' u ->
  let v := c_view (w_con s) in
  w_at s' = w_at s /\ c_attr (w_con s') = c_attr (w_con s) /\
  in_buffer v (Coord (rLeft w) (rTop w)) = true /\
  v_size (c_view (w_con s')) = v_size v /\ (S_WinWriter.view_ok v -> S_WinWriter.view_ok (c_view (w_con s'))) /\
  v_cur (c_view (w_con s')) = Coord (rLeft w) (rTop w).
Proof.
  intros H. unfold clear_rest in H. apply short_inv in H. destruct H as (_ & H). cbv zeta in H.
  destruct (_ <? h)%Z.
  - apply short_inv in H. destruct H as (_ & H). apply bind_ret in H. destruct H as (s1 & u1 & H1 & H).
    apply on_view_inv in H1. destruct H1 as (_ & A1 & A2 & A3).
    apply move_inv in H. destruct H as (B0 & B1 & B2 & B3). rewrite B3, B1, B2, A1, A2, A3. rewrite A3 in B0.
    do 4 (split; [solve [auto]|]). split; [|reflexivity]. intros Hv.
    apply (P_WinView.reveal_ok _ (View (v_size (c_view (w_con s))) (v_cur (c_view (w_con s))) (v_win (c_view (w_con s))) _)); [exact Hv|exact B0].
  - apply move_inv in H. destruct H as (B0 & B1 & B2 & B3). rewrite B3, B1, B2.
    do 4 (split; [solve [auto]|]). split; [|reflexivity]. intros Hv. apply P_WinView.reveal_ok; [exact Hv|exact B0].
Qed.

Lemma clear_view d s s' u : win_clear_screen d s = Ret s' u -> S_WinWriter.view_ok (c_view (w_con s)) ->
  let v := c_view (w_con s) in let v' := c_view (w_con s') in
  w_at s' = w_at s /\ c_attr (w_con s') = c_attr (w_con s) /\
  S_WinWriter.view_ok v' /\ v_size v' = v_size v /\
  (rLeft (v_win v) = 0%Z -> S_WinWriter.win_height v = cY (v_size v) -> v_cur v' = Coord 0 0).
Proof.
  intros H Hv v v'. unfold win_clear_screen in H.
  apply bind_ret in H. destruct H as (s1 & info & H1 & H). apply info_inv in H1. destruct H1 as (-> & A1 & A2 & A3).
  fold v in A3, H. cbv zeta in H. fold v in Hv.
  apply short_inv in H. destruct H as (_ & H). apply short_inv in H. destruct H as (_ & H).
  destruct (Z.eqb_spec (rBottom (v_win v) - rTop (v_win v) + 1) (cY (v_size v))) as [He|He].
  - apply dword_inv in H. apply bind_ret in H. destruct H as (s2 & u2 & H2 & H).
    unfold clear_area in H2. apply bind_ret in H2. destruct H2 as (s3 & u3 & H3 & H2).
    apply on_view_inv in H3, H2. destruct H3 as (_ & C1 & C2 & C3). destruct H2 as (_ & D1 & D2 & D3).
    apply move_inv in H. destruct H as (B0 & B1 & B2 & B3). unfold v'. rewrite B3, B1, B2, D1, D2, C1, C2, A1, A2.
    rewrite D3, C3, A3 in *. cbn [v_size v_cur v_win] in *. split; [reflexivity|]. split; [reflexivity|].
    split; [apply (P_WinView.reveal_ok _ (View (v_size v) (v_cur v) (v_win v) _)); [exact Hv|exact B0]|].
    unfold S_WinWriter.view_ok in Hv. split; [reflexivity|]. intros HL _. rewrite HL. f_equal. lia.
  - assert (K : forall w s2, w_at s2 = w_at s -> c_attr (w_con s2) = c_attr (w_con s) ->
        S_WinWriter.view_ok (c_view (w_con s2)) -> v_size (c_view (w_con s2)) = v_size v ->
        clear_rest v (rBottom (v_win v) - rTop (v_win v) + 1) w s2 = Ret s' u ->
        w_at s' = w_at s /\ c_attr (w_con s') = c_attr (w_con s) /\ S_WinWriter.view_ok v' /\ v_size v' = v_size v /\
        (rLeft (v_win v) = 0%Z -> S_WinWriter.win_height v = cY (v_size v) -> v_cur v' = Coord 0 0)).
    { intros w s2 K1 K2 K3 K4 K5. apply clear_rest_view in K5. cbv zeta in K5. fold v' in K5.
      destruct K5 as (L1 & L2 & L3 & L4 & L5 & L6). rewrite L1, L2.
      split; [exact K1|]. split; [exact K2|]. split; [|split; [congruence|]].
      - exact (L5 K3).
      - intros _ Hh. unfold S_WinWriter.win_height in Hh. contradiction. }
    do 4 (apply short_inv in H; destruct H as (_ & H)). cbv zeta in H.
    destruct (0 <? _)%Z.
    + do 2 (apply short_inv in H; destruct H as (? & H)). apply bind_ret in H. destruct H as (s2 & u2 & H2 & H).
      apply on_view_inv in H2. destruct H2 as (Hin & C1 & C2 & C3).
      eapply K; [| | | |exact H]; rewrite ?C1, ?C2, ?C3, ?A1, ?A2, ?A3; auto.
      rewrite A3 in Hin. unfold in_buffer in Hin. cbn [cX cY rLeft rTop rRight rBottom] in Hin.
      unfold S_WinWriter.view_ok in *. cbn [v_size v_cur v_win rLeft rTop rRight rBottom]. lia.
    + eapply K; [| | | |exact H]; rewrite ?A1, ?A2, ?A3; auto.
Qed.

(** ** The screen *)

Lemma on_inv {A} (f : wins -> winres A) s s' a : on_term (on_wins f) s = Ret s' a ->
  exists w, f (t_w (g_t s)) = Ret w a /\ s' = with_gt (with_w w (g_t s)) s.
Proof.
  unfold on_term, on_wins. destruct (f (t_w (g_t s))) as [w b|w e| |] eqn:Ef; intros H; try discriminate H.
  injection H as <- <-. eauto.
Qed.

Section Screen.
  Variables (draw : list N -> N -> view -> view) (shown : list N -> option N) (E : env).
  Hypothesis HP : places draw shown.
  Hypothesis HE : env_ok E.

  Definition sz (s : wscr) : size := bsize (g_sb s).
  Definition ats (s : wscr) : attrs := w_at (t_w (g_t s)).
  Definition word (s : wscr) : N := c_attr (w_con (t_w (g_t s))).
  Definition at_pos (c : cursor) : coord := Coord (Z.of_nat (column c)) (Z.of_nat (line c)).

  (** The console shows [k] at position [p]. *)
  Definition shows_at (d : N) (v : view) (p : cursor) (k : cell) : Prop :=
    exists g, shown (ctext k) = Some g /\ v_cell v (Z.of_nat (line p)) (Z.of_nat (column p)) = (g, win_word d (cattrs k)).

  Record frame (s : wscr) : Prop := {
    f_buf : buf_ok E (g_sb s);
    f_size : 0 < lines (sz s) /\ 0 < columns (sz s);
    f_view : S_WinWriter.view_ok (sees s);
    f_same : v_size (sees s) = Coord (Z.of_nat (columns (sz s))) (Z.of_nat (lines (sz s)));
    f_track : word s = win_word (t_default (g_t s)) (ats s)
  }.
  Definition tracks (lo : nat) (s : wscr) : Prop :=
    (column (g_real s) < columns (sz s) -> v_cur (sees s) = at_pos (g_real s)) \/
    (lo = 0 /\ P_Screen.all_invalid (g_sb s) /\ (g_real s = Cursor 0 0 -> v_cur (sees s) = Coord 0 0)).
  Definition backed (s : wscr) : Prop :=
    forall i k, nth_error (back (g_sb s)) i = Some k -> ctext k <> [] ->
      shows_at (t_default (g_t s)) (sees s) (cell_pos (sz s) i) k.
  (** The same, but for the positions and cells of [X]. *)
  Definition backed_but (X : nat -> cell -> Prop) (s : wscr) : Prop :=
    forall i k, nth_error (back (g_sb s)) i = Some k -> ctext k <> [] ->
      X i k \/ shows_at (t_default (g_t s)) (sees s) (cell_pos (sz s) i) k.
  Definition none (i : nat) (k : cell) : Prop := False.
  Lemma backed_none s : backed s -> backed_but none s.
  Proof. intros B i k Hk Hn. right. now apply B. Qed.
  Lemma none_backed s : backed_but none s -> backed s.
  Proof. intros B i k Hk Hn. destruct (B i k Hk Hn) as [[]|H]; exact H. Qed.
  Record inv (s : wscr) : Prop := {
    i_frame : frame s;
    i_back : backed s;
    i_clr : g_clr s = true -> P_Screen.all_invalid (g_sb s);
    i_cur : g_clr s = false -> tracks 1 s
  }.

  Lemma in_size s p : frame s -> in_bounds p (sz s) ->
    to_short (column p) = Z.of_nat (column p) /\ to_short (line p) = Z.of_nat (line p) /\
    (0 <= Z.of_nat (line p) < cY (v_size (sees s)))%Z /\ (0 <= Z.of_nat (column p) < cX (v_size (sees s)))%Z.
  Proof.
    intros [_ _ Fv Fs _] (H1 & H2). unfold S_WinWriter.view_ok in Fv. rewrite Fs in *. cbn [cX cY] in *. unfold to_short. lia.
  Qed.

  Lemma move_ok p s s' u : frame s -> in_bounds p (sz s) -> gs_move_cursor p s = Ret s' u ->
    (g_real s = p -> v_cur (sees s) = at_pos p) ->
    frame s' /\ g_real s' = p /\ v_cur (sees s') = at_pos p /\ v_cell (sees s') = v_cell (sees s) /\
    g_sb s' = g_sb s /\ g_clr s' = g_clr s /\ t_default (g_t s') = t_default (g_t s) /\ ats s' = ats s.
  Proof.
    intros F Hp H Hc. unfold gs_move_cursor in H. destruct (cursor_eqb (g_real s) p) eqn:Eq.
    - injection H as <- _. apply P_Screen.cursor_eqb_eq in Eq. auto 10.
    - apply bind_ret in H. destruct H as (s1 & u1 & H1 & H). injection H as <- _.
      apply on_inv in H1. destruct H1 as (w & H1 & ->). unfold win_move_cursor, move_abs in H1.
      destruct (in_size s p F Hp) as (T1 & T2 & T3 & T4). rewrite T1, T2 in H1.
      apply move_inv in H1. destruct H1 as (B0 & B1 & B2 & B3). fold (sees s) in B3.
      destruct F as [F1 F2 F3 F4 F5].
      set (s2 := with_greal p (with_gt (with_w w (g_t s)) s)).
      assert (Hs : sees s2 = View (v_size (sees s)) (at_pos p) (reveal (at_pos p) (v_win (sees s))) (v_cell (sees s))) by exact B3.
      split; [|rewrite Hs; unfold ats; cbn [s2]; auto 10].
      split; try assumption.
      * rewrite Hs. apply P_WinView.reveal_ok; [exact F3|exact B0].
      * rewrite Hs. exact F4.
      * unfold word, ats in *. cbn. rewrite B1, B2. exact F5.
  Qed.

  Lemma attrs_ok a s s' u : frame s -> on_term (on_wins (win_set_attributes (t_default (g_t s)) a)) s = Ret s' u ->
    frame s' /\ ats s' = a /\ sees s' = sees s /\ g_sb s' = g_sb s /\ g_real s' = g_real s /\ g_clr s' = g_clr s /\
    t_default (g_t s') = t_default (g_t s).
  Proof.
    intros [F1 F2 F3 F4 F5] H. apply on_inv in H. destruct H as (w & H & ->).
    assert (V := set_attributes_view _ _ _ _ _ H).
    destruct (P_WinWriter.set_attributes_ok (t_default (g_t s)) a _ w u F5 H) as (W1 & W2 & _).
    set (s2 := with_gt (with_w w (g_t s)) s). assert (Hs : sees s2 = sees s) by exact V.
    split; [|split; [exact W1|]; split; [exact Hs|]; auto 10].
    split; try assumption; rewrite ?Hs; assumption.
  Qed.
  Lemma apply_ok src a s s' u : frame s -> ats s = src -> gs_apply_attrs src a s = Ret s' u ->
    frame s' /\ ats s' = a /\ sees s' = sees s /\ g_sb s' = g_sb s /\ g_real s' = g_real s /\ g_clr s' = g_clr s /\
    t_default (g_t s') = t_default (g_t s).
  Proof.
    intros F Ha H. unfold gs_apply_attrs in H. destruct (attrs_eqb src a) eqn:Eq.
    - injection H as <- _. apply P_Attr.attrs_eqb_eq in Eq. subst. auto 10.
    - eapply attrs_ok; eauto.
  Qed.

  Lemma write_ok t g s s' u : frame s -> shown t = Some g -> on_term (on_wins (win_write_str draw t)) s = Ret s' u ->
    frame s' /\ ats s' = ats s /\ g_sb s' = g_sb s /\ g_real s' = g_real s /\ g_clr s' = g_clr s /\
    t_default (g_t s') = t_default (g_t s) /\
    (cX (v_cur (sees s)) + 1 < cX (v_size (sees s)) -> v_cur (sees s') = Coord (cX (v_cur (sees s)) + 1) (cY (v_cur (sees s))))%Z /\
    (forall y x, (0 <= y < cY (v_size (sees s)))%Z -> (0 <= x < cX (v_size (sees s)))%Z ->
       v_cell (sees s') y x =
       if ((y =? cY (v_cur (sees s))) && (x =? cX (v_cur (sees s))))%Z then (g, win_word (t_default (g_t s)) (ats s))
       else v_cell (sees s) y x).
  Proof.
    intros [F1 F2 F3 F4 F5] Hg H. apply on_inv in H. destruct H as (w & H & ->).
    apply (write_view draw shown HP) in H. destruct H as (W1 & W2 & W3).
    fold (sees s) in W3. change (c_attr (w_con (t_w (g_t s)))) with (word s) in *.
    set (s2 := with_gt (with_w w (g_t s)) s).
    assert (Hs : sees s2 = draw (encode_wide t) (word s) (sees s)) by exact W3.
    destruct (p_cell _ _ HP t g (word s) (sees s) Hg F3) as (P1 & P2 & P3 & P4). rewrite <- Hs in *.
    split; [|split; [exact W1|]; do 4 (split; [reflexivity|]); split; [exact P3|]].
    - split; try assumption.
      + now rewrite P2.
      + change (c_attr (w_con w) = win_word (t_default (g_t s)) (w_at w)). now rewrite W1, W2.
    - intros y x Hy Hx. rewrite (P4 y x Hy Hx), <- F5. reflexivity.
  Qed.

  (** No cell is wide. *)
  Lemma one_narrow b : one_position E shown b -> buf_ok E b -> forall i, wide_at E b i = false.
  Proof.
    intros Ho (_ & _ & _ & Ht) i. unfold wide_at, cell_at. destruct (nth_error (buffer b) i) as [c|] eqn:Ec; [|reflexivity].
    apply nth_error_In in Ec. unfold one_position in Ho. rewrite Forall_forall in Ho, Ht.
    specialize (Ho c Ec). specialize (Ht c Ec). destruct Ho as (_ & Ho). destruct Ht as (x & ms & Hx & Hp & _). rewrite Hx in *.
    destruct (cwidth E x) as [[|[|[|n]]]|] eqn:Ew; try reflexivity. exfalso. apply Ho. split; assumption.
  Qed.
  Lemma one_half b : one_position E shown b -> buf_ok E b -> forall i, S_Screen.half E b i = false.
  Proof. intros Ho Hb [|i]; [reflexivity|]. now apply one_narrow. Qed.

  Lemma pos_inj p q z : in_bounds p z -> in_bounds q z -> cell_no z p = cell_no z q -> p = q.
  Proof.
    intros (_ & Hp) (_ & Hq) H. rewrite <- (P_Screen.cell_no_pos z p Hp), H. now apply P_Screen.cell_no_pos.
  Qed.

  (** The back buffer is caught up below [lo]. *)
  Definition caught_up (lo : nat) (b : sbuf) : Prop :=
    forall j, j < lo -> nth_error (back b) j = nth_error (buffer b) j.

  Definition unchanged (s s' : wscr) : Prop :=
    (exists k, g_sb s' = with_back (g_sb s) k) /\ t_default (g_t s') = t_default (g_t s) /\ g_clr s' = g_clr s.
  Lemma unchanged_refl s : unchanged s s.
  Proof. split; [exists (back (g_sb s)); now destruct (g_sb s)|auto]. Qed.
  Lemma unchanged_trans a b c : unchanged a b -> unchanged b c -> unchanged a c.
  Proof.
    intros ((k & K) & D & C) ((k' & K') & D' & C'). split; [|split; congruence]. exists k'. rewrite K', K. reflexivity.
  Qed.

  Lemma draw_done X lo hi s : frame s -> backed_but X s -> hi = total (sz s) -> tracks lo s -> caught_up hi (g_sb s) ->
    frame s /\ backed_but X s /\ unchanged s s /\ caught_up hi (g_sb s) /\ tracks 1 s.
  Proof.
    intros F B Hhi Htr Hcu. split; [exact F|]. split; [exact B|]. split; [apply unchanged_refl|]. split; [exact Hcu|].
    left. destruct Htr as [Htr|(_ & T & _)]; [exact Htr|]. exfalso.
    destruct (f_buf s F) as (_ & B2 & B3 & B4). destruct (f_size s F) as (S1 & S2).
    assert (0 < total (sz s)) by (unfold total; nia).
    destruct (nth_error (back (g_sb s)) 0) as [k|] eqn:Ek; [|apply nth_error_None in Ek; unfold sz in *; lia].
    assert (J := Hcu 0 ltac:(lia)). rewrite Ek in J. symmetry in J. apply nth_error_In in J.
    rewrite Forall_forall in B4. destruct (B4 k J) as (x & ms & Hx & _). rewrite (T 0 k Ek) in Hx. discriminate Hx.
  Qed.

  Lemma draw_but X fuel : forall lo hi at_ s s' u,
    frame s -> backed_but X s -> one_position E shown (g_sb s) -> hi = total (sz s) -> lo <= hi ->
    caught_up lo (g_sb s) -> tracks lo s -> ats s = at_ ->
    gs_draw draw E fuel lo hi at_ s = Ret s' u ->
    frame s' /\ backed_but X s' /\ unchanged s s' /\ caught_up hi (g_sb s') /\ tracks 1 s'.
  Proof.
    induction fuel as [|fuel IH]; intros lo hi at_ s s' u F B Ho Hhi Hlo Hcu Htr Hat H;
      assert (Hb := f_buf s F); assert (Hz := f_size s F); cbn [gs_draw] in H;
      unfold next_cell in H;
      destruct (next_cell_aux E (hi - lo) (g_sb s) lo hi) as [[[b' lo'] o]|] eqn:En; try discriminate H;
      (assert (Hs := P_Screen.next_cell_spec E hi (g_sb s) Hb
         ltac:(intros i Hi; rewrite (one_narrow _ Ho Hb) in Hi; discriminate Hi) Hhi (proj2 Hz) (hi - lo) lo _ Hlo (le_n _)
         (one_half _ Ho Hb lo) En));
      destruct o as [[p c]|]; cbn in Hs.
    1, 3: destruct Hs as (i & I1 & I2 & I3 & I4 & I5 & I6 & I7 & I8).
    3, 4: destruct Hs as (Hs1 & Hs2).
    - exfalso. apply bind_ret in H. destruct H as (s1 & u1 & H1 & H).
      apply bind_ret in H. destruct H as (s2 & u2 & H2 & H).
      apply bind_ret in H. destruct H as (s3 & u3 & H3 & H). destruct (uadd _ _ _); discriminate H.
    - apply bind_ret in H. destruct H as (s1 & u1 & H1 & H).
      apply bind_ret in H. destruct H as (s2 & u2 & H2 & H).
      apply bind_ret in H. destruct H as (s3 & u3 & H3 & H).
      destruct (uadd (umax E) (column (g_real s3)) 1) as [cc|] eqn:Eu; [|discriminate H].
      assert (Hcc : cc = column (g_real s3) + 1) by (unfold uadd in Eu; destruct (_ <=? _); congruence). subst cc. clear Eu.
      set (s0 := with_gsb b' s) in *. fold (sz s) in I3.
      assert (Hlen : length (back (g_sb s)) = total (sz s)) by (destruct Hb as (_ & _ & Hl & _); exact Hl).
      assert (Hlenb : length (buffer (g_sb s)) = total (sz s)) by (destruct Hb as (_ & Hl & _); exact Hl).
      assert (Hz0 : sz s0 = sz s) by (unfold sz; cbn; now rewrite I7).
      assert (F0 : frame s0).
      { destruct F as [F1 F2 F3 F4 F5]. split; rewrite ?Hz0; try assumption.
        cbn. rewrite I7. apply P_Screen.buf_ok_back; [exact F1|unfold sz in *; lia]. }
      assert (Hpi : in_bounds p (sz s)) by (rewrite I3; apply P_Screen.cell_pos_in; lia).
      assert (Hc : shown (ctext c) <> None /\ ctext c <> []).
      { unfold cell_at in I4. apply nth_error_In in I4. unfold one_position in Ho. rewrite Forall_forall in Ho.
        split; [now apply Ho|]. destruct Hb as (_ & _ & _ & Ht). rewrite Forall_forall in Ht.
        destruct (Ht c I4) as (x & ms & -> & _). intros K; discriminate K. }
      destruct Hc as (Hc & Hne). destruct (shown (ctext c)) as [g|] eqn:Eg; [|contradiction].
      destruct (move_ok p s0 s1 u1 F0 ltac:(now rewrite Hz0) H1) as (G1 & G2 & G3 & G4 & G5 & G6 & G7 & G8).
      { cbn [s0 with_gsb g_real]. change (sees s0) with (sees s). intros Hr. destruct Htr as [Htr|(T1 & T2 & T3)].
        - rewrite <- Hr. apply Htr. rewrite Hr. apply Hpi.
        - assert (i = 0).
          { destruct i as [|i]; [reflexivity|]. exfalso. subst lo.
            assert (J := I6 0 ltac:(lia) eq_refl).
            destruct (nth_error (back (g_sb s)) 0) as [k|] eqn:Ek.
            - assert (Hk := T2 0 k Ek). symmetry in J. apply nth_error_In in J.
              destruct Hb as (_ & _ & _ & Ht). rewrite Forall_forall in Ht. destruct (Ht k J) as (x & ms & Hx & _).
              rewrite Hk in Hx. discriminate Hx.
            - apply nth_error_None in Ek. lia. }
          subst i. assert (Hp0 : p = Cursor 0 0).
          { rewrite I3. unfold cell_pos. rewrite Nat.div_0_l, Nat.mod_0_l by (unfold sz in *; lia). reflexivity. }
          rewrite Hp0 in *. now apply T3. }
      destruct (apply_ok at_ (cattrs c) s1 s2 u2 G1 ltac:(now rewrite G8) H2) as (K1 & K2 & K3 & K4 & K5 & K6 & K7).
      destruct (write_ok (ctext c) g s2 s3 u3 K1 Eg H3) as (L1 & L2 & L3 & L4 & L5 & L6 & L7 & L8).
      set (s4 := with_greal _ s3) in *.
      assert (Hsb : g_sb s4 = with_back (g_sb s) (P_Buf.upd i c (back (g_sb s)))).
      { cbn [s4 with_greal g_sb]. rewrite L3, K4, G5. exact I7. }
      assert (Hz4 : sz s4 = sz s) by (unfold sz; now rewrite Hsb).
      assert (Hd4 : t_default (g_t s4) = t_default (g_t s)) by (cbn [s4 with_greal g_t]; now rewrite L6, K7, G7).
      assert (F4 : frame s4).
      { destruct L1 as [X1 X2 X3 X4 X5]. split; assumption. }
      change (sees s3) with (sees s4) in *. rewrite K3, G3 in L7, L8. rewrite G4 in L8. rewrite K2, K7, G7 in L8.
      change (sees s0) with (sees s) in *. change (t_default (g_t s0)) with (t_default (g_t s)) in *.
      assert (Hvs : v_size (sees s1) = v_size (sees s)).
      { rewrite (f_same s1 G1), (f_same s F). unfold sz. rewrite G5. fold (sz s0). now rewrite Hz0. }
      rewrite Hvs in L7, L8. cbn [at_pos cX cY] in L7, L8.
      assert (Hr4 : g_real s4 = Cursor (line p) (column p + 1)).
      { cbn [s4 with_greal g_real]. now rewrite L4, K5, G2. }
      assert (B4 : backed_but X s4).
      { intros j k Hj Hk. rewrite Hsb in Hj. cbn [back with_back] in Hj. rewrite Hd4, Hz4.
        rewrite P_Buf.nth_upd in Hj by lia.
        assert (Hjt : j < total (sz s)).
        { destruct (Nat.eqb_spec j i); [lia|]. rewrite <- Hlen. apply nth_error_Some. congruence. }
        assert (Hjb := P_Screen.cell_pos_in _ _ Hjt). destruct (in_size s _ F Hjb) as (_ & _ & Y & Y').
        unfold shows_at. rewrite (L8 _ _ Y Y'). destruct (Nat.eqb_spec j i) as [->|Hji].
        - injection Hj as <-. right. rewrite <- I3, !Z.eqb_refl. exists g. auto.
        - replace ((_ =? _) && (_ =? _))%Z with false; [now apply B|].
          symmetry. apply Bool.not_true_is_false. intros Q. apply Hji.
          rewrite <- (P_Screen.cell_pos_no (sz s) j), <- (P_Screen.cell_pos_no (sz s) i) by (unfold sz in *; lia).
          f_equal. rewrite <- I3. destruct (cell_pos (sz s) j) as [a1 a2], p as [b1 b2]. cbn [line column] in Q. f_equal; lia. }
      assert (U : unchanged s s4).
      { split; [eexists; exact Hsb|]. split; [exact Hd4|]. cbn [s4 with_greal g_clr]. now rewrite L5, K6, G6. }
      assert (Hlo' : lo' = S i) by (rewrite I8; unfold P_Screen.next_of; now rewrite (one_narrow _ Ho Hb)).
      destruct (IH lo' hi (cattrs c) s4 s' u F4 B4) as (R1 & R2 & R3 & R4 & R5); auto.
      + rewrite Hsb. exact Ho.
      + now rewrite Hz4.
      + lia.
      + intros j Hj. rewrite Hsb. cbn [back with_back buffer]. rewrite P_Buf.nth_upd by lia.
        destruct (Nat.eqb_spec j i) as [->|]; [symmetry; exact I4|].
        destruct (Nat.ltb_spec j lo); [now apply Hcu|]. apply I6; [lia|]. now apply one_half.
      + left. rewrite Hr4, Hz4. cbn [column]. intros Hcol. unfold at_pos. cbn [line column].
        rewrite L7; [f_equal; lia|]. rewrite (f_same s F). cbn [cX]. lia.
      + unfold ats. cbn [s4 with_greal g_t]. fold (ats s3). now rewrite L2.
      + split; [exact R1|]. split; [exact R2|]. split; [eapply unchanged_trans; eauto|]. auto.
    - injection H as <- _. subst b'. replace (with_gsb (g_sb s) s) with s by now destruct s.
      apply (draw_done X lo); auto. intros j Hj. destruct (Nat.ltb_spec j lo); [now apply Hcu|]. apply Hs2; [lia|now apply one_half].
    - injection H as <- _. subst b'. replace (with_gsb (g_sb s) s) with s by now destruct s.
      apply (draw_done X lo); auto. intros j Hj. destruct (Nat.ltb_spec j lo); [now apply Hcu|]. apply Hs2; [lia|now apply one_half].
  Qed.

  (** One refresh *)
  Lemma clear_attrs_ok s s' u : frame s -> gs_clear_attributes s = Ret s' u ->
    frame s' /\ ats s' = no_attrs /\ sees s' = sees s /\ g_sb s' = g_sb s /\ g_real s' = g_real s /\ g_clr s' = g_clr s /\
    t_default (g_t s') = t_default (g_t s).
  Proof. intros F H. eapply attrs_ok; [exact F|exact H]. Qed.

  Lemma refresh_but X s s' u : frame s -> backed_but X s -> (g_clr s = true -> P_Screen.all_invalid (g_sb s)) ->
    (g_clr s = false -> tracks 1 s) -> one_position E shown (g_sb s) -> window_fits s ->
    win_refresh draw E s = Ret s' u ->
    (frame s' /\ backed_but X s' /\ (g_clr s' = true -> P_Screen.all_invalid (g_sb s')) /\ (g_clr s' = false -> tracks 1 s')) /\
    g_clr s' = false /\ t_default (g_t s') = t_default (g_t s) /\
    (exists k, g_sb s' = with_back (g_sb s) k) /\
    caught_up (total (sz s')) (g_sb s') /\
    v_cur (sees s') = at_pos (S_Screen.cursor_goal (g_sb s)).
  Proof.
    intros F B Hi Hc Ho Hw H. unfold win_refresh in H.
    apply bind_ret in H. destruct H as (s1 & u1 & H1 & H).
    assert (C1 : frame s1 /\ backed_but X s1 /\ g_sb s1 = g_sb s /\ t_default (g_t s1) = t_default (g_t s) /\ g_clr s1 = false /\
                 tracks 0 s1).
    { destruct (g_clr s) eqn:Ec.
      - apply bind_ret in H1. destruct H1 as (s2 & u2 & H2 & H1). injection H1 as <- _.
        apply on_inv in H2. destruct H2 as (w & H2 & ->). destruct F as [F1 F2 F3 F4 F5].
        destruct (clear_view _ _ _ _ H2 F3) as (V1 & V2 & V3 & V4 & V5).
        set (s3 := with_gclr false _). specialize (Hi eq_refl).
        change (c_view (w_con w)) with (sees s3) in *. change (c_view (w_con (t_w (g_t s)))) with (sees s) in *.
        split; [|split; [|repeat split]].
        + split; try assumption.
          * rewrite V4. exact F4.
          * change (c_attr (w_con w) = win_word (t_default (g_t s)) (w_at w)). rewrite V1, V2. exact F5.
        + intros i k Hk Hn. exfalso. exact (Hn (Hi i k Hk)).
        + right. split; [reflexivity|]. split; [exact Hi|]. intros Hr. destruct (Hw Ec) as [(W1 & W2)|W]; [now apply V5|].
          exfalso. exact (W Hr).
      - injection H1 as <- _. repeat (split; [assumption || reflexivity|]).
        destruct (Hc eq_refl) as [T|(T & _)]; [now left|discriminate T]. }
    clear H1. destruct C1 as (F1 & B1 & S1 & D1 & C1 & T1).
    apply bind_ret in H. destruct H as (s2 & u2 & H2 & H).
    destruct (clear_attrs_ok _ _ _ F1 H2) as (F2 & A2 & V2 & S2 & R2 & C2 & D2).
    assert (B2 : backed_but X s2) by (intros i k Hk Hn; unfold sz; rewrite V2, S2, D2; rewrite S2 in Hk; now apply B1).
    assert (T2 : tracks 0 s2) by (unfold tracks, sz in *; rewrite R2, V2, S2; exact T1).
    destruct (sb_indices E (g_sb s2)) as [[lo hi]|] eqn:Ei; [|discriminate H].
    assert (Hlh : lo = 0 /\ hi = total (sz s2)).
    { unfold sb_indices, area, checked_area in Ei. destruct (_ <=? _); [|discriminate Ei].
      injection Ei as <- <-. split; reflexivity. }
    destruct Hlh as (-> & Hhi).
    apply bind_ret in H. destruct H as (s3 & u3 & H3 & H).
    destruct (draw_but X _ 0 hi no_attrs s2 s3 u3 F2 B2 ltac:(now rewrite S2, S1) Hhi ltac:(lia) ltac:(intros j Hj; lia) T2 A2 H3)
      as (F3 & B3 & ((k3 & S3) & D3 & C3) & U3 & T3).
    apply bind_ret in H. destruct H as (s4 & u4 & H4 & H).
    destruct (clear_attrs_ok _ _ _ F3 H4) as (F4 & A4 & V4 & S4 & R4 & C4 & D4).
    assert (Hz4 : sz s4 = bsize (g_sb s) /\ bcur (g_sb s4) = bcur (g_sb s)).
    { unfold sz. rewrite S4, S3, S2, S1. split; reflexivity. }
    destruct Hz4 as (Hz4 & Hcur).
    assert (Hm : gs_move_cursor (S_Screen.cursor_goal (g_sb s)) s4 = Ret s' u /\ in_bounds (S_Screen.cursor_goal (g_sb s)) (sz s4)).
    { assert (Fz := f_size s4 F4). fold (sz s4) in H. rewrite Hcur, Hz4 in H. rewrite Hz4 in *.
      unfold S_Screen.cursor_goal. unfold is_out_of_bounds, in_bounds in *.
      destruct (bcur (g_sb s)) as [cl cc]. cbn [line column] in *.
      destruct (Nat.ltb_spec cl (lines (bsize (g_sb s)))); destruct (Nat.ltb_spec cc (columns (bsize (g_sb s))));
        cbn [andb line column];
        (destruct (_ || _) eqn:Eo in H; [|split; [exact H || (exfalso; lia)|lia]]); try (exfalso; lia);
        unfold cursor_last, usub in H; 
        repeat (destruct (_ <=? _) eqn:? in H; [|discriminate H]); split; try exact H; lia. }
    destruct Hm as (Hm & Hin).
    assert (T4 : tracks 1 s4) by (unfold tracks, sz in *; rewrite R4, V4, S4; exact T3).
    destruct (move_ok _ _ _ _ F4 Hin Hm) as (F5 & R5 & V5 & W5 & S5 & C5 & D5 & A5).
    { intros Hr. destruct T4 as [T4|(T4 & _)]; [|discriminate T4]. rewrite <- Hr. apply T4. rewrite Hr. apply Hin. }
    assert (S6 : g_sb s' = g_sb s3) by congruence.
    assert (Hclr : g_clr s' = false) by congruence.
    assert (Hd : t_default (g_t s') = t_default (g_t s)) by congruence.
    split; [split; [|split; [|split]]|].
    - exact F5.
    - intros i k Hk Hn. rewrite S6 in Hk. destruct (B3 i k Hk Hn) as [HX|(g & G1 & G2)]; [now left|]. right. exists g. split; [exact G1|].
      rewrite D5, D4, W5, V4. unfold sz. rewrite S6. exact G2.
    - rewrite Hclr. intros Q; discriminate Q.
    - intros _. left. intros _. rewrite R5. exact V5.
    - split; [exact Hclr|]. split; [exact Hd|]. split; [exists k3; congruence|]. split; [|exact V5].
      unfold sz. rewrite S6, S3. cbn [bsize with_back]. change (bsize (g_sb s2)) with (sz s2). rewrite <- Hhi, <- S3. exact U3.
  Qed.

  Lemma refresh_ok s s' u : inv s -> one_position E shown (g_sb s) -> window_fits s ->
    win_refresh draw E s = Ret s' u ->
    inv s' /\ g_clr s' = false /\ t_default (g_t s') = t_default (g_t s) /\
    (exists k, g_sb s' = with_back (g_sb s) k) /\
    caught_up (total (sz s')) (g_sb s') /\
    v_cur (sees s') = at_pos (S_Screen.cursor_goal (g_sb s)).
  Proof.
    intros [F B Hi Hc] Ho Hw H.
    destruct (refresh_but none s s' u F (backed_none _ B) Hi Hc Ho Hw H) as ((F' & B' & Hi' & Hc') & R).
    split; [|exact R]. split; auto. now apply none_backed.
  Qed.

  (** ** Histories *)
  Lemma word_none d : win_word d no_attrs = d.
  Proof. unfold win_word. cbn. apply N.lor_0_r. Qed.

  Definition careful (s : wscr) : Prop := one_position E shown (g_sb s) /\ window_fits s.

  Lemma new_inv cfg t t1 s : (32767 <= Z.of_nat (umax E))%Z ->
    displayed t -> S_WinWriter.view_ok (c_view (w_con (t_w t))) ->
    w_at (t_w t) = no_attrs -> c_attr (w_con (t_w t)) = t_default t ->
    win_screen_new E cfg t = Ret t1 s -> inv s /\ t_default (g_t s) = t_default t.
  Proof.
    intros HU (Hd & Hn) Hv Ha Hc H. unfold win_screen_new in H.
    destruct (win_screen_open E cfg t) as [t2 s2|t2 e| |] eqn:Eo; try discriminate H.
    2: { destruct (win_terminal_drop t2); discriminate H. }
    injection H as <- <-. apply open_inv in Eo; [|exact Hn].
    destruct Eo as (G1 & _ & _ & G4 & G5 & G6 & _ & _ & _ & _ & G11 & G12 & _ & G14 & G15).
    unfold buf_of in G14, G15. rewrite Hd, N.eqb_refl in G14, G15. cbn [cur_buf b_attr b_view fresh_buffer] in G14, G15.
    rewrite <- G1 in *. rewrite Hc in *.
    set (v := c_view (w_con (t_w t))) in *. unfold S_WinWriter.view_ok in Hv.
    assert (Hz : size_of E v = Size (Z.to_nat (cY (v_size v))) (Z.to_nat (cX (v_size v)))).
    { unfold size_of, as_usize. f_equal; f_equal; apply Z.mod_small; lia. }
    rewrite Hz in *. cbn [lines columns] in G14.
    assert (Hsb : total (Size (Z.to_nat (cY (v_size v))) (Z.to_nat (cX (v_size v)))) <= umax E).
    { unfold sb_new, area, checked_area in G6. unfold total. destruct (Nat.leb_spec (lines (Size (Z.to_nat (cY (v_size v))) (Z.to_nat (cX (v_size v)))) * columns (Size (Z.to_nat (cY (v_size v))) (Z.to_nat (cX (v_size v)))))  (umax E)); [assumption|discriminate G6]. }
    destruct (new_ok 1 (le_n 1) E _ HE Hsb) as (b & N1 & N2 & N3 & N4 & N5 & N6 & N7). rewrite G6 in N1. injection N1 as <-.
    change (c_view (w_con (t_w (g_t s2)))) with (sees s2) in G14.
    assert (F : frame s2).
    { split.
      - exact N2.
      - unfold sz. rewrite N3. cbn [lines columns]. lia.
      - rewrite G14. unfold S_WinWriter.view_ok, resize_view, to_short. cbn [v_size v_cur v_win cX cY rTop rBottom rLeft rRight]. lia.
      - unfold sz. rewrite N3, G14. cbn [v_size resize_view lines columns]. unfold to_short. f_equal; lia.
      - unfold word, ats. rewrite G12, Ha, G15, G11, word_none. reflexivity. }
    split; [|exact G11]. split; [exact F| | |].
    - intros i k Hk _. rewrite N6 in Hk. apply nth_error_In, repeat_spec in Hk. subst k.
      exists SPACE. cbn [blank ctext cattrs]. split; [apply (p_space _ _ HP)|].
      rewrite G14, G11. change (cattrs blank) with no_attrs. rewrite word_none. cbn [v_cell resize_view]. now destruct (in_buffer _ _).
    - rewrite G4. intros Q; discriminate Q.
    - intros _. left. intros _. rewrite G14, G5. reflexivity.
  Qed.

  Lemma hist_inv s : (32767 <= Z.of_nat (umax E))%Z -> whistory draw E careful s -> inv s /\ (t_default (g_t s) < 65536)%N.
  Proof.
    intros HU. induction 1 as [cfg t t1 s Hd Hv Hdef Ha Hc Hnew|s o b _ (IH & D) Ho Hr|s m s' u _ (IH & D) Hr|s s' u _ (IH & D) (C1 & C2) Hr|s v s' u _ (IH & D) Hv Hr].
    - destruct (new_inv _ _ _ _ HU Hd Hv Ha Hc Hnew) as (I & ->). auto.
    - split; [|exact D]. destruct IH as [[F1 F2 F3 F4 F5] B I C].
      destruct (P_Screen2.op_ok E HE _ _ _ F1 Ho Hr) as (O1 & O2 & O3).
      assert (Hz : sz (with_gsb b s) = sz s) by exact O3.
      split; [split; rewrite ?Hz; assumption| | |].
      + intros i k Hk Hn. cbn in Hk. rewrite O2 in Hk. rewrite Hz. now apply B.
      + intros Hc j k Hk. cbn in Hk. rewrite O2 in Hk. now apply (I Hc j k).
      + intros Hc. destruct (C Hc) as [T|(T & _)]; [|discriminate T]. left. rewrite Hz. exact T.
    - cbn [run_wsop] in Hr. apply on_inv in Hr. destruct Hr as (w & Hr & ->). split; [|exact D].
      unfold win_set_cursor_mode, set_cursor_info in Hr. apply ask_inv in Hr. destruct Hr as (_ & A & n & l & Hr). injection Hr as Hr _.
      assert (V : c_view (w_con w) = sees s) by now rewrite <- Hr.
      assert (W : c_attr (w_con w) = word s) by now rewrite <- Hr.
      set (s2 := with_gt _ s). assert (Hs : sees s2 = sees s) by exact V.
      destruct IH as [[F1 F2 F3 F4 F5] B I C]. split; [split|intros i k Hk Hn| |]; rewrite ?Hs; try assumption.
      + change (c_attr (w_con w) = win_word (t_default (g_t s)) (w_at w)). rewrite W, A. exact F5.
      + now apply B.
      + intros Hc. destruct (C Hc) as [T|(T & _)]; [|discriminate T]. left. rewrite Hs. exact T.
    - destruct (refresh_ok _ _ _ IH C1 C2 Hr) as (I & _ & -> & _). auto.
    - unfold win_update_size in Hr. cbn [seeing with_gt g_sb g_real g_state g_old g_t] in Hr.
      destruct (sb_resize E (g_sb s) _) as [b|] eqn:Er; [|discriminate Hr]. injection Hr as <- _. split; [|exact D].
      destruct IH as [[F1 F2 F3 F4 F5] B I C].
      unfold S_WinWriter.view_ok in Hv.
      assert (Hsz : S_Screen.screen_size (Size (Z.to_nat (cY (v_size v))) (Z.to_nat (cX (v_size v))))).
      { unfold S_Screen.screen_size, S_Writer.u32_max. cbn [lines columns]. lia. }
      destruct (P_Screen2.sb_resize_ok E HE _ _ _ F1 Hsz Er) as (R1 & R2 & R3 & _).
      split; [split| | |].
      + exact R1.
      + unfold sz. cbn [g_sb]. rewrite R2. cbn [lines columns]. lia.
      + exact Hv.
      + unfold sz. cbn [g_sb]. rewrite R2. cbn [lines columns].
        change (v_size v = Coord (Z.of_nat (Z.to_nat (cX (v_size v)))) (Z.of_nat (Z.to_nat (cY (v_size v))))).
        rewrite !Z2Nat.id by lia. now destruct (v_size v).
      + exact F5.
      + intros i k Hk Hn. exfalso. exact (Hn (R3 i k Hk)).
      + intros _. exact R3.
      + intros Q. discriminate Q.
  Qed.

  Lemma caught_shows s : frame s -> backed s -> (t_default (g_t s) < 65536)%N -> caught_up (total (sz s)) (g_sb s) ->
    shows_buffer shown (t_default (g_t s)) (sees s) (g_sb s).
  Proof.
    intros F B D U. split; [apply (f_same s F)|]. intros p c Hp Hc.
    assert (Hi : cell_no (sz s) p < total (sz s)).
    { destruct Hp. unfold cell_no, total, sz in *. nia. }
    unfold cell_at in Hc. fold (sz s) in Hc. rewrite <- (U _ Hi) in Hc.
    destruct (B _ c Hc) as (g & G1 & G2).
    { assert (Hc' := Hc). rewrite (U _ Hi) in Hc'. apply nth_error_In in Hc'. destruct (f_buf s F) as (_ & _ & _ & Ht).
      rewrite Forall_forall in Ht. destruct (Ht c Hc') as (x & ms & -> & _). intros Q; discriminate Q. }
    rewrite P_Screen.cell_no_pos in G2 by apply Hp. exists g, (win_word (t_default (g_t s)) (cattrs c)).
    split; [exact G2|]. split; [exact G1|]. now apply P_WinWriter.word_shows.
  Qed.

  Lemma history_shows s s' u : (32767 <= Z.of_nat (umax E))%Z -> whistory draw E careful s -> careful s ->
    win_refresh draw E s = Ret s' u ->
    shows_buffer shown (t_default (g_t s)) (sees s') (g_sb s') /\
    v_cur (sees s') = at_pos (S_Screen.cursor_goal (g_sb s)) /\
    buffer (g_sb s') = buffer (g_sb s) /\ bsize (g_sb s') = bsize (g_sb s) /\ bcur (g_sb s') = bcur (g_sb s).
  Proof.
    intros HU Hh (C1 & C2) Hr. destruct (hist_inv s HU Hh) as (I & D).
    destruct (refresh_ok _ _ _ I C1 C2 Hr) as ([F B _ _] & _ & Hd & (k & Hk) & U & V).
    split; [rewrite <- Hd; apply caught_shows; auto; now rewrite Hd|]. split; [exact V|]. rewrite Hk. auto.
  Qed.
End Screen.
