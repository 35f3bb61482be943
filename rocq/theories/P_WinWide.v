(** Refreshing a Windows screen with double-width characters shows its buffer (C126). *)
From Verif Require Import Base M_Utf8 S_Utf8 M_Geom S_Geom M_Attr M_Signal M_Util M_Input M_Buf S_Buf M_Writer M_Prepare M_Reader
  M_WinWriter M_WinReader S_WinReader M_WinScreen S_WinScreen P_Buf2 P_Buf3 P_WinScreen P_WinDraw M_ScreenApi S_WinCanvas.
From Verif Require S_WinWriter S_Screen P_Buf P_Screen P_Screen2 P_WinWriter P_WinView P_Attr.
From Verif Require Import S_WideCanvas S_WinWide.

(** ** The demonstration console *)
Lemma duo_places : wide_places duo_draw duo_shown duo_shown2 duo_half.
Proof.
  split.
  - reflexivity.
  - reflexivity.
  - intros l1 l2 a v. apply fold_left_app.
  - intros t g H. unfold duo_shown in H. destruct t as [|u [|u2 t]]; try discriminate H.
    destruct (_ && _) eqn:Eu in H; [|discriminate H]. injection H as <-. unfold duo_half. lia.
  - intros t g h H. unfold duo_shown2 in H. destruct t as [|u [|u2 t]]; try discriminate H.
    destruct (duo u) eqn:Eu; [|discriminate H]. injection H as <- <-. unfold duo in Eu. unfold duo_half. lia.
  - intros t g a v H Hv Hc. unfold duo_shown in H. destruct t as [|u [|u2 t]]; try discriminate H.
    destruct (_ && _) eqn:Eu in H; [|discriminate H]. injection H as <-.
    unfold encode_wide. cbn [flat_map]. unfold utf16_units. replace (u <? 65536)%N with true by lia.
    cbn [app duo_draw fold_left]. unfold duo_unit. replace (duo u) with false by (destruct (duo u); [rewrite Bool.andb_false_r in Eu; discriminate Eu|reflexivity]).
    destruct Hc as (C1 & C2). cbv zeta. replace (cX (v_cur v) + 1 <=? cX (v_size v))%Z with true by lia.
    unfold set_from, orphan, S_WinWriter.view_ok in *. cbv zeta. cbn [v_size v_cur v_win v_cell].
    split; [|split; [reflexivity|split]].
    + destruct (Z.ltb_spec (cX (v_cur v) + 1) (cX (v_size v))); cbn [cX cY]; lia.
    + intros Hx. replace (cX (v_cur v) + 1 <? cX (v_size v))%Z with true by lia. reflexivity.
    + intros y x Hy Hx. destruct (Z.eqb_spec y (cY (v_cur v))) as [->|Ny]; cbn [negb andb]; [|reflexivity].
      destruct (Z.eqb_spec x (cX (v_cur v))) as [->|Nx].
      { replace ((cX (v_cur v) <=? cX (v_cur v)) && (cX (v_cur v) <? cX (v_cur v) + 1))%Z with true by lia. reflexivity. }
      replace ((cX (v_cur v) <? x) && (x <? cX (v_cur v) + 1))%Z with false by lia.
      replace ((cX (v_cur v) <=? x) && (x <? cX (v_cur v) + 1))%Z with false by lia.
      rewrite C2, Bool.andb_false_r. cbn [orb].
      destruct (Z.eqb_spec x (cX (v_cur v) + 1)) as [->|Nx2]; cbn [andb]; [|reflexivity].
      destruct (half_at duo_half v (cY (v_cur v)) (cX (v_cur v) + 1)) eqn:Eh; [|reflexivity].
      unfold half_at at 1, glyph_at. cbn [v_cell]. rewrite Z.eqb_refl. cbn [negb].
      replace (cX (v_cur v) + 1 =? cX (v_cur v))%Z with false by lia.
      replace ((cX (v_cur v) <? cX (v_cur v) + 1) && (cX (v_cur v) + 1 <? cX (v_cur v) + 1))%Z with false by lia.
      rewrite Eh, Z.eqb_refl, Bool.orb_true_r. reflexivity.
  - intros t g h a v H Hv Hc. unfold duo_shown2 in H. destruct t as [|u [|u2 t]]; try discriminate H.
    destruct (duo u) eqn:Eu; [|discriminate H]. injection H as <- <-.
    unfold encode_wide. cbn [flat_map]. unfold utf16_units. replace (u <? 65536)%N with true by (unfold duo in Eu; lia).
    cbn [app duo_draw fold_left]. unfold duo_unit. rewrite Eu.
    destruct Hc as (C1 & C2). cbv zeta. replace (cX (v_cur v) + 2 <=? cX (v_size v))%Z with true by lia.
    unfold set_from, orphan, S_WinWriter.view_ok in *. cbv zeta. cbn [v_size v_cur v_win v_cell].
    split; [|split; [reflexivity|split]].
    + destruct (Z.ltb_spec (cX (v_cur v) + 2) (cX (v_size v))); cbn [cX cY]; lia.
    + intros Hx. replace (cX (v_cur v) + 2 <? cX (v_size v))%Z with true by lia. reflexivity.
    + intros y x Hy Hx. destruct (Z.eqb_spec y (cY (v_cur v))) as [->|Ny]; cbn [negb andb]; [|reflexivity].
      destruct (Z.eqb_spec x (cX (v_cur v))) as [->|Nx].
      { replace ((cX (v_cur v) <=? cX (v_cur v)) && (cX (v_cur v) <? cX (v_cur v) + 2))%Z with true by lia.
        replace (cX (v_cur v) - cX (v_cur v) =? 0)%Z with true by lia. reflexivity. }
      destruct (Z.ltb_spec (cX (v_cur v)) x); cbn [andb].
      * destruct (Z.ltb_spec x (cX (v_cur v) + 2)).
        { replace (cX (v_cur v) <=? x)%Z with true by lia. cbn [andb]. replace (x - cX (v_cur v) =? 0)%Z with false by lia. reflexivity. }
        rewrite Bool.andb_false_r, C2, Bool.andb_false_r. cbn [orb].
        destruct (Z.eqb_spec x (cX (v_cur v) + 2)) as [->|Nx2]; cbn [andb]; [|reflexivity].
        destruct (half_at duo_half v (cY (v_cur v)) (cX (v_cur v) + 2)) eqn:Eh; [|reflexivity].
        unfold half_at at 1, glyph_at. cbn [v_cell]. rewrite Z.eqb_refl. cbn [negb].
        replace (cX (v_cur v) + 2 =? cX (v_cur v))%Z with false by lia.
        replace ((cX (v_cur v) <? cX (v_cur v) + 2) && (cX (v_cur v) + 2 <? cX (v_cur v) + 2))%Z with false by lia.
        rewrite Eh, Z.eqb_refl, Bool.orb_true_r. reflexivity.
      * replace (cX (v_cur v) <=? x)%Z with false by lia. cbn [andb]. rewrite C2, Bool.andb_false_r. cbn [orb].
        replace (x =? cX (v_cur v) + 2)%Z with false by lia. reflexivity.
Qed.

(** ** Console calls *)
Section Text.
  Variables (draw : list N -> N -> view -> view) (shown : list N -> option N)
    (shown2 : list N -> option (N * N)) (is_half : N -> bool).
  Hypothesis HP : wide_places draw shown shown2 is_half.

  Lemma wide_loop_view rounds buf : forall n s s' u,
    write_loop draw rounds buf n s = Ret s' u ->
    redrawn s s' (draw (skipn n buf) (c_attr (w_con s)) (c_view (w_con s))).
  Proof.
    induction rounds as [|rounds IH]; intros n s s' u H; cbn [write_loop] in H;
      (destruct (Nat.ltb_spec n (length buf)) as [Hlt|Hge];
       [|injection H as <- _; rewrite skipn_all2 by lia; rewrite (q_nil _ _ _ _ HP); repeat split]).
    - discriminate H.
    - apply bind_ret in H. destruct H as (s1 & k & H1 & H).
      unfold write_console in H1. apply ask_inv in H1. destruct H1 as (_ & A1 & m & l & H1).
      set (len := N.to_nat (to_dword (length buf - n))) in *. cbv zeta in H1. injection H1 as H1 Hk.
      specialize (IH _ _ _ _ H). destruct IH as (R1 & R2 & R3). unfold redrawn.
      rewrite R1, R2, R3, A1, <- H1. cbn [c_attr c_view with_answers].
      split; [reflexivity|]. split; [reflexivity|]. rewrite <- (q_app _ _ _ _ HP). f_equal. rewrite Hk.
      assert (Hlen : len <= length buf - n) by (unfold len, to_dword, DWORD_MAX; lia). clearbody len.
      assert (Hk2 : k <= len).
      { rewrite <- Hk. destruct m; rewrite firstn_length; lia. }
      rewrite firstn_firstn, Nat.min_l by lia.
      replace (skipn (n + k) buf) with (skipn k (skipn n buf)); [apply firstn_skipn|].
      clear. revert buf. induction n as [|n IHn]; intros [|x buf]; cbn; rewrite ?skipn_nil; auto.
  Qed.
  Lemma wide_write_view str s s' u : win_write_str draw str s = Ret s' u ->
    redrawn s s' (draw (encode_wide str) (c_attr (w_con s)) (c_view (w_con s))).
  Proof. unfold win_write_str. intros H. apply wide_loop_view in H. exact H. Qed.
End Text.

(** A window that covers the buffer: all of it is cleared. *)
Lemma clear_cells d s s' u : win_clear_screen d s = Ret s' u -> S_WinWriter.view_ok (c_view (w_con s)) ->
  covers (c_view (w_con s)) ->
  let v := c_view (w_con s) in
  forall y x, (0 <= y < cY (v_size v))%Z -> (0 <= x < cX (v_size v))%Z ->
    fst (v_cell (c_view (w_con s')) y x) = SPACE.
Proof.
  intros H Hv (Hl & Hh) v y x Hy Hx. unfold win_clear_screen in H.
  apply bind_ret in H. destruct H as (s1 & info & H1 & H). apply info_inv in H1. destruct H1 as (-> & A1 & A2 & A3).
  fold v in A3, H, Hv, Hl, Hh. cbv zeta in H.
  apply short_inv in H. destruct H as (_ & H). apply short_inv in H. destruct H as (_ & H).
  unfold S_WinWriter.win_height in Hh. rewrite (proj2 (Z.eqb_eq _ _) Hh) in H.
  apply dword_inv in H. apply bind_ret in H. destruct H as (s2 & u2 & H2 & H).
  unfold clear_area in H2. apply bind_ret in H2. destruct H2 as (s3 & u3 & H3 & H2).
  apply on_view_inv in H3, H2. destruct H3 as (_ & C1 & C2 & C3). destruct H2 as (_ & D1 & D2 & D3).
  apply move_inv in H. destruct H as (B0 & B1 & B2 & B3). rewrite B3. cbn [v_cell]. rewrite D3, C3, A3. cbn [v_cell v_size].
  assert (K : forall vv, v_size vv = v_size v ->
    in_fill vv (Coord 0 0) (as_dword (cX (v_size v)) * as_dword (cY (v_size v)))%Z y x = true).
  { intros vv Hz. unfold in_fill. rewrite Hz. unfold S_WinWriter.view_ok in Hv. rewrite !P_WinView.as_dword_ok by lia. cbn [cX cY]. nia. }
  rewrite K by reflexivity. reflexivity.
Qed.

(** ** Positions by their numbers *)
Definition at_no (v : view) (z : size) (j : nat) : N * N :=
  v_cell v (Z.of_nat (line (cell_pos z j))) (Z.of_nat (column (cell_pos z j))).

Lemma same_run z i j w : 0 < columns z -> column (cell_pos z i) + w <= columns z ->
  (i <= j < i + w <-> line (cell_pos z j) = line (cell_pos z i) /\
     column (cell_pos z i) <= column (cell_pos z j) < column (cell_pos z i) + w) /\
  (line (cell_pos z j) = line (cell_pos z i) -> column (cell_pos z i) <= column (cell_pos z j) ->
     j - i = column (cell_pos z j) - column (cell_pos z i)).
Proof.
  intros Hc. unfold cell_pos. cbn [line column]. intros Hw.
  assert (Hi := Nat.div_mod i (columns z) ltac:(lia)). assert (Hj := Nat.div_mod j (columns z) ltac:(lia)).
  assert (Mi := Nat.mod_upper_bound i (columns z) ltac:(lia)). assert (Mj := Nat.mod_upper_bound j (columns z) ltac:(lia)).
  set (qi := i / columns z) in *. set (qj := j / columns z) in *.
  set (ri := i mod columns z) in *. set (rj := j mod columns z) in *. clearbody qi qj ri rj.
  split; [split|].
  - intros (H1 & H2). assert (qj = qi) by nia. subst qj. nia.
  - intros (-> & H2). nia.
  - intros -> H. nia.
Qed.

Lemma set_flat is_half w f v v' z i : set_from is_half (Z.of_nat w) f v v' ->
  v_size v = Coord (Z.of_nat (columns z)) (Z.of_nat (lines z)) -> v_cur v = at_pos (cell_pos z i) ->
  0 < columns z -> column (cell_pos z i) + w <= columns z ->
  forall j, j < total z ->
    (i <= j < i + w -> at_no v' z j = f (Z.of_nat (j - i))) /\
    (j < i \/ i + w <= j -> j <> i + w \/ is_half (fst (at_no v z j)) = false -> at_no v' z j = at_no v z j) /\
    (j = i + w -> is_half (fst (at_no v z j)) = true -> column (cell_pos z i) + w < columns z -> is_half (fst (at_no v' z j)) = false).
Proof.
  intros (_ & _ & _ & F) Hz Hp Hc Hw j Hj. unfold at_no.
  assert (Hb := P_Screen.cell_pos_in z j Hj). destruct Hb as (B1 & B2).
  specialize (F (Z.of_nat (line (cell_pos z j))) (Z.of_nat (column (cell_pos z j)))).
  rewrite Hz in F. cbn [cX cY] in F. specialize (F ltac:(lia) ltac:(lia)). rewrite Hp in F. cbn [at_pos cX cY] in F.
  destruct (same_run z i j w Hc Hw) as (R1 & R2).
  unfold orphan, half_at, glyph_at in F. rewrite Hp in F. cbn [at_pos cX cY] in F.
  split; [|split].
  - intros Hr. assert (Hr' := Hr). apply R1 in Hr'. destruct Hr' as (Q1 & Q2).
    replace (_ && _ && _) with true in F by lia. rewrite F, (R2 Q1 (proj1 Q2)). f_equal. lia.
  - intros Hout Ho. replace ((Z.of_nat (line (cell_pos z j)) =? Z.of_nat (line (cell_pos z i)))%Z &&
      (Z.of_nat (column (cell_pos z i)) <=? Z.of_nat (column (cell_pos z j)))%Z &&
      (Z.of_nat (column (cell_pos z j)) <? Z.of_nat (column (cell_pos z i)) + Z.of_nat w)%Z) with false in F.
    2: { symmetry. apply Bool.not_true_is_false. intros Q. assert (i <= j < i + w) by (apply R1; lia). lia. }
    destruct Ho as [Ho|Ho]; [|rewrite Ho, Bool.andb_false_r in F; exact F].
    destruct (Z.eqb_spec (Z.of_nat (line (cell_pos z j))) (Z.of_nat (line (cell_pos z i)))) as [El|Nl]; [|exact F].
    destruct (Z.eqb_spec (Z.of_nat (column (cell_pos z j))) (Z.of_nat (column (cell_pos z i)) + Z.of_nat w)) as [Ec|Nc]; [|exact F].
    exfalso. apply Ho. specialize (R2 ltac:(lia) ltac:(lia)).
    destruct (Nat.le_gt_cases i j); [lia|].
    assert (Hi := Nat.div_mod i (columns z) ltac:(lia)). assert (Hjj := Nat.div_mod j (columns z) ltac:(lia)).
    unfold cell_pos in El, Ec. cbn [line column] in El, Ec. apply Nat2Z.inj in El. rewrite El in Hjj. lia.
  - intros -> Hh Hlt. destruct (same_run z i (i + w) (w + 1) Hc ltac:(lia)) as ((Q & _) & Q4).
    destruct (Q ltac:(lia)) as (Q1 & Q2 & Q3). specialize (Q4 Q1 Q2).
    replace ((Z.of_nat (line (cell_pos z (i + w))) =? Z.of_nat (line (cell_pos z i)))%Z &&
      (Z.of_nat (column (cell_pos z i)) <=? Z.of_nat (column (cell_pos z (i + w))))%Z &&
      (Z.of_nat (column (cell_pos z (i + w))) <? Z.of_nat (column (cell_pos z i)) + Z.of_nat w)%Z) with false in F by lia.
    rewrite Hh in F. replace ((Z.of_nat (line (cell_pos z (i + w))) =? Z.of_nat (line (cell_pos z i)))%Z &&
      (Z.of_nat (column (cell_pos z (i + w))) =? Z.of_nat (column (cell_pos z i)) + Z.of_nat w)%Z && true) with true in F by lia.
    exact F.
Qed.

Lemma not_first z i w : 0 < columns z -> column (cell_pos z i) + w <= columns z ->
  0 < column (cell_pos z (i + w)) -> column (cell_pos z i) + w < columns z.
Proof.
  unfold cell_pos. cbn [column]. intros Hc Hle H. destruct (Nat.eq_dec (i mod columns z + w) (columns z)) as [Q|]; [exfalso|lia].
  rewrite Nat.add_mod in H by lia. assert (Hw : w <= columns z) by lia.
  destruct (Nat.eq_dec w (columns z)) as [->|].
  - rewrite Nat.mod_same, Nat.add_0_r, Nat.mod_mod in H by lia. lia.
  - rewrite (Nat.mod_small w) in H by lia. rewrite Q, Nat.mod_same in H by lia. lia.
Qed.

Lemma two_is_wide E c : two_wide E (ctext c) = is_wide E c.
Proof.
  unfold two_wide, is_wide, width0. destruct (ctext c) as [|x r]; [reflexivity|].
  destruct (cwidth E x) as [[|[|[|n]]]|]; reflexivity.
Qed.

(** ** The screen *)
Section Screen.
  Variables (draw : list N -> N -> view -> view) (shown : list N -> option N)
    (shown2 : list N -> option (N * N)) (is_half : N -> bool) (E : env).
  Hypothesis HP : wide_places draw shown shown2 is_half.
  Hypothesis HE : env_ok E.
  Notation half := (S_Screen.half E).

  Definition halfn (v : view) (z : size) (j : nat) : bool := is_half (fst (at_no v z j)).

  (** The console shows the cell [k] at position [j]. *)
  Definition sync (d : N) (v : view) (z : size) (k : cell) (j : nat) : Prop :=
    if is_wide E k then
      S j < total z /\ column (cell_pos z j) + 2 <= columns z /\
      exists g h, shown2 (ctext k) = Some (g, h) /\ at_no v z j = (g, win_word d (cattrs k)) /\
                  at_no v z (S j) = (h, win_word d (cattrs k))
    else exists g, shown (ctext k) = Some g /\ at_no v z j = (g, win_word d (cattrs k)).

  Lemma sync_same d v v' z k j : at_no v' z j = at_no v z j ->
    (is_wide E k = true -> S j < total z -> at_no v' z (S j) = at_no v z (S j)) ->
    sync d v z k j -> sync d v' z k j.
  Proof.
    intros H1 H2. unfold sync. destruct (is_wide E k).
    - intros (S1 & S2 & g & h & S3 & S4 & S5). split; [exact S1|]. split; [exact S2|]. exists g, h.
      rewrite H1, H2 by auto. auto.
    - rewrite H1. auto.
  Qed.

  Definition wtracks (lo : nat) (s : wscr) : Prop :=
    (column (g_real s) < columns (sz s) -> v_cur (sees s) = at_pos (g_real s)) \/
    (in_bounds (g_real s) (sz s) /\ (half (g_sb s) (cell_no (sz s) (g_real s)) = true \/
                                    halfn (sees s) (sz s) (cell_no (sz s) (g_real s)) = true)) \/
    (lo = 0 /\ P_Screen.all_invalid (g_sb s) /\ (g_real s = Cursor 0 0 -> v_cur (sees s) = Coord 0 0)).

  (** The right half at [j] belongs to a double-width character shown by the last refresh. *)
  Definition belongs (lo : nat) (s : wscr) (j : nat) : Prop :=
    exists i k, j = S i /\ lo <= i /\ nth_error (back (g_sb s)) i = Some k /\ is_wide E k = true /\
      halfn (sees s) (sz s) i = false /\ 0 < column (cell_pos (sz s) j).

  Record wloop (lo : nat) (s : wscr) : Prop := {
    w_frame : frame E s;
    w_start : half (g_sb s) lo = false;
    w_done : forall j c, j < lo -> cell_at (g_sb s) j = Some c -> half (g_sb s) j = false ->
      sync (t_default (g_t s)) (sees s) (sz s) c j;
    w_trail : forall j, lo <= j < total (sz s) -> halfn (sees s) (sz s) j = true -> half (g_sb s) j = false ->
      nth_error (back (g_sb s)) j <> nth_error (buffer (g_sb s)) j;
    w_left : forall j, lo <= j < total (sz s) -> halfn (sees s) (sz s) j = true -> belongs lo s j;
    w_sync : forall j k, lo <= j -> nth_error (back (g_sb s)) j = Some k -> ctext k <> [] ->
      halfn (sees s) (sz s) j = false -> sync (t_default (g_t s)) (sees s) (sz s) k j \/
      half (g_sb s) j = false /\ nth_error (back (g_sb s)) j <> nth_error (buffer (g_sb s)) j;
    w_cur : wtracks lo s
  }.

  Definition wcaught (lo : nat) (b : sbuf) : Prop :=
    forall j, j < lo -> half b j = false -> nth_error (back b) j = nth_error (buffer b) j.

  Lemma back_len s : frame E s -> length (back (g_sb s)) = total (sz s) /\ length (buffer (g_sb s)) = total (sz s).
  Proof. intros F. destruct (f_buf E s F) as (_ & L1 & L2 & _). split; assumption. Qed.

  Lemma not_all_invalid b : buf_ok E b -> 0 < total (bsize b) ->
    nth_error (back b) 0 = nth_error (buffer b) 0 -> P_Screen.all_invalid b -> False.
  Proof.
    intros (_ & L1 & L2 & Ht) H0 Hb Hi. destruct (nth_error (back b) 0) as [k|] eqn:Ek.
    - symmetry in Hb. apply nth_error_In in Hb. rewrite Forall_forall in Ht. destruct (Ht k Hb) as (x & ms & Hx & _).
      rewrite (Hi 0 k Ek) in Hx. discriminate Hx.
    - apply nth_error_None in Ek. lia.
  Qed.

  Lemma total_pos s : frame E s -> 0 < total (sz s).
  Proof. intros F. destruct (f_size E s F). unfold total. nia. Qed.

  (** No double-width character begins just before a cell that is about to be drawn. *)
  Lemma skip_whole lo i s : S_Screen.wides_fit E (g_sb s) -> lo <= i -> half (g_sb s) i = false ->
    (forall j, lo <= j < i -> half (g_sb s) j = false -> nth_error (back (g_sb s)) j = nth_error (buffer (g_sb s)) j) ->
    wloop lo s -> i < total (sz s) -> halfn (sees s) (sz s) i = false.
  Proof.
    intros Hf Hlo Hi Hsame [L1 L2 L3 L4 Ll L5 L6] Hit.
    destruct (halfn (sees s) (sz s) i) eqn:Eh; [|reflexivity]. exfalso.
    destruct (Ll i ltac:(lia) Eh) as (j & k & -> & Hj & Hk & Hw & Hn & _). cbn [S_Screen.half] in Hi.
    destruct (half (g_sb s) j) eqn:Ej.
    - destruct j as [|j]; [discriminate Ej|]. cbn [S_Screen.half] in Ej.
      assert (Hlj : lo <= j).
      { destruct (Nat.eq_dec lo (S j)) as [Q|Q]; [|lia]. rewrite Q in L2. cbn [S_Screen.half] in L2. congruence. }
      assert (Hjh : half (g_sb s) j = false).
      { destruct j as [|j']; [reflexivity|]. cbn [S_Screen.half]. destruct (wide_at E (g_sb s) j') eqn:Ew; [|reflexivity].
        destruct (Hf j' Ew). congruence. }
      destruct (cell_at (g_sb s) j) as [c|] eqn:Ec; [|unfold wide_at in Ej; rewrite Ec in Ej; discriminate Ej].
      assert (Hb := Hsame j ltac:(lia) Hjh). assert (Hne := P_Screen.cell_nonempty E (g_sb s) j c (f_buf E s L1) Ec).
      assert (Hnh : halfn (sees s) (sz s) j = false).
      { destruct (halfn (sees s) (sz s) j) eqn:Q; [|reflexivity]. exfalso. exact (L4 j ltac:(lia) Q Hjh Hb). }
      destruct (L5 j c Hlj ltac:(rewrite Hb; exact Ec) Hne Hnh) as [Sy|(_ & Q)]; [|exact (Q Hb)].
      unfold sync in Sy. rewrite (P_Screen.is_wide_at E _ _ _ Ec), Ej in Sy.
      destruct Sy as (_ & _ & g & h & S1 & S2 & S3). unfold halfn in Hn. rewrite S3 in Hn. cbn [fst] in Hn.
      apply (q_two_half _ _ _ _ HP) in S1. destruct S1. congruence.
    - assert (Hb := Hsame j ltac:(lia) Ej). rewrite Hk in Hb. symmetry in Hb.
      rewrite (P_Screen.is_wide_at E (g_sb s) j k Hb) in Hw. congruence.
  Qed.

  Lemma wloop_skip lo i s : S_Screen.wides_fit E (g_sb s) -> lo <= i -> i <= total (sz s) -> half (g_sb s) i = false ->
    (forall j, lo <= j < i -> half (g_sb s) j = false -> nth_error (back (g_sb s)) j = nth_error (buffer (g_sb s)) j) ->
    wloop lo s -> wloop i s.
  Proof.
    intros Hf Hlo Hit Hi Hsame L. assert (L' := L). destruct L' as [L1 L2 L3 L4 Ll L5 L6]. constructor; auto.
    - intros j c Hj Hc Hh. destruct (Nat.ltb_spec j lo); [now apply L3|].
      assert (Hne := P_Screen.cell_nonempty E (g_sb s) j c (f_buf E s L1) Hc).
      assert (Hb := Hsame j ltac:(lia) Hh).
      destruct (L5 j c ltac:(lia) ltac:(rewrite Hb; exact Hc) Hne) as [Sy|(_ & Q)]; [|exact Sy|exfalso; exact (Q Hb)].
      destruct (halfn (sees s) (sz s) j) eqn:Eh; [|reflexivity]. exfalso. exact (L4 j ltac:(lia) Eh Hh Hb).
    - intros j Hj. apply L4. lia.
    - intros j Hj Hv. destruct (Ll j ltac:(lia) Hv) as (q & k & -> & Q1 & Q2).
      exists q, k. split; [reflexivity|]. split; [|exact Q2]. destruct (Nat.eq_dec i (S q)) as [Q|Q]; [|lia].
      rewrite <- Q in Hv. rewrite (skip_whole lo i s) in Hv; auto; [discriminate Hv|lia].
    - intros j k Hj. apply L5. lia.
    - destruct L6 as [L6|[L6|(-> & L6 & L7)]]; [now left|right; now left|].
      destruct i as [|i]; [right; right; auto|]. exfalso.
      apply (not_all_invalid (g_sb s) (f_buf E s L1) (total_pos s L1)); [|exact L6]. apply Hsame; [lia|reflexivity].
  Qed.

  Lemma wwrite_ok w t f s s' u : frame E s -> on_term (on_wins (win_write_str draw t)) s = Ret s' u ->
    (S_WinWriter.view_ok (sees s) -> set_from is_half w (f (win_word (t_default (g_t s)) (ats s))) (sees s)
       (draw (encode_wide t) (win_word (t_default (g_t s)) (ats s)) (sees s))) ->
    frame E s' /\ ats s' = ats s /\ g_sb s' = g_sb s /\ g_real s' = g_real s /\ g_clr s' = g_clr s /\
    t_default (g_t s') = t_default (g_t s) /\ set_from is_half w (f (win_word (t_default (g_t s)) (ats s))) (sees s) (sees s').
  Proof.
    intros [F1 F2 F3 F4 F5] H Hd. apply on_inv in H. destruct H as (wn & H & ->).
    apply (wide_write_view draw shown shown2 is_half HP) in H. destruct H as (W1 & W2 & W3).
    fold (sees s) in W3. change (c_attr (w_con (t_w (g_t s)))) with (word s) in *. rewrite <- F5 in *.
    set (s2 := with_gt (with_w wn (g_t s)) s).
    assert (Hs : sees s2 = draw (encode_wide t) (word s) (sees s)) by exact W3.
    specialize (Hd F3). rewrite <- Hs in Hd. assert (Hd' := Hd). destruct Hd' as (P1 & P2 & P3 & P4).
    split; [|split; [exact W1|]; do 4 (split; [reflexivity|]); exact Hd].
    split; try assumption.
    - now rewrite P2.
    - change (c_attr (w_con wn) = win_word (t_default (g_t s)) (w_at wn)). now rewrite W1, W2.
  Qed.

  (** One cell drawn. *)
  Lemma wdraw_cell i c at_ s s1 s2 s3 u1 u2 u3 : S_Screen.wides_fit E (g_sb s) -> all_shown E shown shown2 (g_sb s) ->
    i < total (sz s) -> half (g_sb s) i = false -> cell_at (g_sb s) i = Some c -> ats s = at_ ->
    wloop i s ->
    gs_move_cursor (cell_pos (sz s) i) (with_gsb (with_back (g_sb s) (P_Buf.upd i c (back (g_sb s)))) s) = Ret s1 u1 ->
    gs_apply_attrs at_ (cattrs c) s1 = Ret s2 u2 ->
    on_term (on_wins (win_write_str draw (ctext c))) s2 = Ret s3 u3 ->
    let s4 := with_greal (Cursor (line (g_real s3)) (column (g_real s3) + 1)) s3 in
    wloop (P_Screen.next_of E (g_sb s) i) s4 /\
    g_sb s4 = with_back (g_sb s) (P_Buf.upd i c (back (g_sb s))) /\
    t_default (g_t s4) = t_default (g_t s) /\ g_clr s4 = g_clr s /\ ats s4 = cattrs c.
  Proof.
    intros Hf Hsh Hi Hh Hc Hat L H1 H2 H3 s4. assert (L' := L). destruct L' as [F L2 L3 L4 Ll L5 L6].
    set (s0 := with_gsb _ s) in *.
    destruct (back_len s F) as (Hlen & Hlenb). assert (Hz := f_size E s F).
    assert (F0 : frame E s0).
    { destruct F as [F1 F2 F3 F4 F5]. split; try assumption. apply P_Screen.buf_ok_back; assumption. }
    set (p := cell_pos (sz s) i) in *.
    assert (Hpi : in_bounds p (sz s)) by (apply P_Screen.cell_pos_in; exact Hi).
    assert (Hno : cell_no (sz s) p = i) by (apply P_Screen.cell_pos_no; lia).
    assert (Hwh : halfn (sees s) (sz s) i = false).
    { apply (skip_whole i i s); auto. intros j Hj. lia. }
    destruct (move_ok E p s0 s1 u1 F0 Hpi H1) as (G1 & G2 & G3 & G4 & G5 & G6 & G7 & G8).
    { cbn [s0 with_gsb g_real]. change (sees s0) with (sees s). intros Hr. destruct L6 as [T|[(_ & T)|(T1 & T2 & T3)]].
      - rewrite <- Hr. apply T. rewrite Hr. apply Hpi.
      - rewrite Hr, Hno in T. destruct T; congruence.
      - assert (Hp0 : p = Cursor 0 0).
        { unfold p. rewrite T1. unfold cell_pos. rewrite Nat.div_0_l, Nat.mod_0_l by lia. reflexivity. }
        rewrite Hp0 in *. now apply T3. }
    destruct (apply_ok E at_ (cattrs c) s1 s2 u2 G1 ltac:(now rewrite G8) H2) as (K1 & K2 & K3 & K4 & K5 & K6 & K7).
    change (sees s0) with (sees s) in *. change (t_default (g_t s0)) with (t_default (g_t s)) in *.
    (* widths *)
    assert (Hww : is_wide E c = wide_at E (g_sb s) i) by now apply P_Screen.is_wide_at.
    remember (if wide_at E (g_sb s) i then 2 else 1) as w eqn:Hwd.
    assert (Hw12 : 1 <= w <= 2) by (rewrite Hwd; destruct (wide_at E (g_sb s) i); lia).
    assert (Hnext : P_Screen.next_of E (g_sb s) i = i + w) by (unfold P_Screen.next_of; rewrite Hwd; destruct (wide_at E (g_sb s) i); lia).
    assert (Hfit : column p + w <= columns (sz s)).
    { rewrite Hwd. destruct (wide_at E (g_sb s) i) eqn:Ew; [destruct (Hf i Ew) as (X & _); exact X|destruct Hpi; lia]. }
    assert (Hiw : i + w <= total (sz s)).
    { destruct Hpi as (X & _). rewrite <- Hno. unfold cell_no, total. nia. }
    assert (Hvz : v_size (sees s2) = Coord (Z.of_nat (columns (sz s))) (Z.of_nat (lines (sz s)))).
    { rewrite (f_same E s2 K1). unfold sz. rewrite K4, G5. reflexivity. }
    assert (Hvc : v_cur (sees s2) = at_pos p) by (rewrite K3; exact G3).
    assert (Hcl : v_cell (sees s2) = v_cell (sees s)) by (rewrite K3; exact G4).
    assert (Hat2 : forall j, at_no (sees s2) (sz s) j = at_no (sees s) (sz s) j) by (intros j; unfold at_no; now rewrite Hcl).
    assert (Hcuts : starts_whole is_half (Z.of_nat w) (sees s2)).
    { unfold starts_whole. cbv zeta. rewrite Hvz, Hvc. cbn [cX cY at_pos]. split; [lia|].
      unfold half_at, glyph_at. rewrite Hcl. exact Hwh. }
    assert (Hd2 : t_default (g_t s2) = t_default (g_t s)) by congruence.
    assert (Wr : exists f, frame E s3 /\ ats s3 = ats s2 /\ g_sb s3 = g_sb s2 /\ g_real s3 = g_real s2 /\ g_clr s3 = g_clr s2 /\
      t_default (g_t s3) = t_default (g_t s2) /\ set_from is_half (Z.of_nat w) f (sees s2) (sees s3) /\
      (if is_wide E c then exists g h, shown2 (ctext c) = Some (g, h) /\
           f 0%Z = (g, win_word (t_default (g_t s)) (cattrs c)) /\ f 1%Z = (h, win_word (t_default (g_t s)) (cattrs c))
       else exists g, shown (ctext c) = Some g /\ f 0%Z = (g, win_word (t_default (g_t s)) (cattrs c)))).
    { assert (Hs := Hsh i c Hc Hh). rewrite two_is_wide in Hs. rewrite <- Hww in Hwd.
      destruct (is_wide E c) eqn:Ew; subst w.
      - destruct (shown2 (ctext c)) as [[g h]|] eqn:Es; [|contradiction].
        destruct (wwrite_ok (Z.of_nat 2) (ctext c) (fun a i => if (i =? 0)%Z then (g, a) else (h, a)) s2 s3 u3 K1 H3) as (M1 & M2 & M3 & M4 & M5 & M6 & M7).
        { intros Hv. apply (q_two _ _ _ _ HP); assumption. }
        eexists. do 6 (split; [eassumption|]). split; [exact M7|]. exists g, h. rewrite Hd2, K2. auto.
      - destruct (shown (ctext c)) as [g|] eqn:Es; [|contradiction].
        destruct (wwrite_ok (Z.of_nat 1) (ctext c) (fun a i => (g, a)) s2 s3 u3 K1 H3) as (M1 & M2 & M3 & M4 & M5 & M6 & M7).
        { intros Hv. apply (q_one _ _ _ _ HP); assumption. }
        eexists. do 6 (split; [eassumption|]). split; [exact M7|]. exists g. rewrite Hd2, K2. auto. }
    destruct Wr as (f & M1 & M2 & M3 & M4 & M5 & M6 & M7 & M8).
    assert (Fl := set_flat is_half w f _ _ (sz s) i M7 Hvz Hvc (proj2 Hz) Hfit).
    assert (Hsb : g_sb s4 = with_back (g_sb s) (P_Buf.upd i c (back (g_sb s)))).
    { cbn [s4 with_greal g_sb]. now rewrite M3, K4, G5. }
    assert (Hz4 : sz s4 = sz s) by (unfold sz; now rewrite Hsb).
    assert (Hd4 : t_default (g_t s4) = t_default (g_t s)) by (cbn [s4 with_greal g_t]; congruence).
    assert (Hh4 : forall j, half (g_sb s4) j = half (g_sb s) j) by (intros; rewrite Hsb; reflexivity).
    assert (F4 : frame E s4) by (destruct M1 as [X1 X2 X3 X4 X5]; split; assumption).
    assert (Hr4 : g_real s4 = Cursor (line p) (column p + 1)) by (cbn [s4 with_greal g_real]; now rewrite M4, K5, G2).
    change (sees s3) with (sees s4) in *.
    split; [|split; [exact Hsb|]; split; [exact Hd4|]; split; [cbn [s4 with_greal g_clr]; rewrite M5, K6, G6; reflexivity|]].
    2: { unfold ats in *. cbn [s4 with_greal g_t]. rewrite M2. exact K2. }
    clear G1 G2 G3 G4 G5 G6 G7 G8 K1 K2 K3 K4 K5 K6 K7 L2 M1 M2 M3 M4 M5 M6 H1 H2 H3 Hat F0 Hcl.
    assert (Far : forall j, j < total (sz s) -> j < i \/ i + w <= j -> j <> i + w \/ halfn (sees s) (sz s) j = false ->
      at_no (sees s4) (sz s) j = at_no (sees s) (sz s) j).
    { intros j Hj Ho Hq. destruct (Fl j Hj) as (_ & Q & _). rewrite <- (Hat2 j). apply Q; [exact Ho|]. rewrite Hat2. exact Hq. }
    assert (Next : forall q, q = i + w -> q < total (sz s) -> halfn (sees s4) (sz s) q = false).
    { intros q -> Hj. destruct (halfn (sees s) (sz s) (i + w)) eqn:Eh.
      - destruct (Fl (i + w) Hj) as (_ & _ & Q). apply Q; [reflexivity|rewrite Hat2; exact Eh|].
        destruct (Ll (i + w) (conj (Nat.le_add_r i w) Hj) Eh) as (_ & _ & _ & _ & _ & _ & _ & Q2). fold p.
        exact (not_first (sz s) i w (proj2 Hz) Hfit Q2).
      - unfold halfn. rewrite Far; [exact Eh|exact Hj|right; apply Nat.le_refl|now right]. }
    constructor.
    - exact F4.
    - rewrite Hh4. now apply P_Screen.half_next.
    - intros j cj Hj Hcj Hjh. rewrite Hh4 in Hjh. rewrite Hsb in Hcj. change (cell_at (g_sb s) j = Some cj) in Hcj. rewrite Hd4, Hz4.
      destruct (Nat.ltb_spec j i) as [Hlt|Hge].
      + apply (sync_same _ (sees s)); [apply Far; [lia|now left|lia]| |now apply L3].
        intros Hw _. apply Far; [lia| |lia]. left. destruct (Nat.eq_dec (S j) i) as [Q|Q]; [|lia].
        exfalso. rewrite <- Q in Hh. cbn [S_Screen.half] in Hh. rewrite <- (P_Screen.is_wide_at E _ _ _ Hcj) in Hh. congruence.
      + assert (j = i) by (eapply P_Screen.next_of_half; eauto). subst j.
        assert (cj = c) by congruence. subst cj. unfold sync. 
        assert (A0 : at_no (sees s4) (sz s) i = f 0%Z).
        { destruct (Fl i Hi) as (Q & _). rewrite Q by lia. now rewrite Nat.sub_diag. }
        destruct (is_wide E c) eqn:Ew.
        * rewrite <- Hww in Hwd. subst w. destruct M8 as (g & h & Q1 & Q2 & Q3).
          split; [lia|]. split; [exact Hfit|]. exists g, h. split; [exact Q1|].
          split; [now rewrite A0|]. destruct (Fl (S i) ltac:(lia)) as (Q & _). rewrite Q by lia.
          replace (S i - i) with 1 by lia. exact Q3.
        * destruct M8 as (g & Q1 & Q2). exists g. split; [exact Q1|]. now rewrite A0.
    - clear Hwd Hww Hwh Hh M8. intros j Hj Hv Hjh. rewrite Hz4 in *. rewrite Hh4 in Hjh. rewrite Hnext in Hj.
      destruct (Nat.eq_dec j (i + w)) as [->|Nj]; [rewrite (Next _ eq_refl) in Hv by lia; discriminate Hv|].
      unfold halfn in Hv. rewrite Far in Hv by lia. rewrite Hsb. cbn [back buffer with_back].
      rewrite P_Buf.nth_upd by lia. destruct (Nat.eqb_spec j i); [lia|]. apply L4; [lia|exact Hv|exact Hjh].
    - clear Hwd Hww Hwh Hh M8. intros j Hj Hv. rewrite Hz4 in *. rewrite Hnext in *.
      destruct (Nat.eq_dec j (i + w)) as [->|Nj]; [rewrite (Next _ eq_refl) in Hv by lia; discriminate Hv|].
      unfold halfn in Hv. rewrite Far in Hv by lia. destruct (Ll j ltac:(lia) Hv) as (q & k & -> & Q1 & Q2 & Q3 & Q4 & Q5).
      exists q, k. split; [reflexivity|]. split; [lia|]. rewrite Hz4, Hsb. cbn [back with_back].
      rewrite P_Buf.nth_upd by lia. destruct (Nat.eqb_spec q i); [lia|]. split; [exact Q2|]. split; [exact Q3|].
      split; [|exact Q5]. destruct (Nat.eq_dec q (i + w)) as [->|Nq]; [apply (Next _ eq_refl); lia|].
      unfold halfn. rewrite Far by lia. exact Q4.
    - clear Hwd Hww Hwh Hh M8. intros j k Hj Hk Hn Hv. rewrite Hz4, Hd4, Hh4 in *. rewrite Hnext in Hj. rewrite Hsb in Hk |- *. cbn [back buffer with_back] in Hk |- *.
      rewrite P_Buf.nth_upd in Hk |- * by lia. destruct (Nat.eqb_spec j i); [lia|].
      assert (Hjt : j < total (sz s)) by (rewrite <- Hlen; apply nth_error_Some; congruence).
      destruct (halfn (sees s) (sz s) j) eqn:Eh.
      + destruct (Nat.eq_dec j (i + w)) as [->|Nj].
        * assert (Hjh : half (g_sb s) (i + w) = false) by (rewrite <- Hnext; now apply P_Screen.half_next).
          right. split; [exact Hjh|]. exact (L4 (i + w) ltac:(lia) Eh Hjh).
        * unfold halfn in Hv. rewrite Far in Hv by lia. unfold halfn in Eh. congruence.
      + destruct (L5 j k ltac:(lia) Hk Hn Eh) as [Sy|Q]; [left|now right].
        apply (sync_same _ (sees s)); [apply Far; auto; lia|intros _ HS; apply Far; lia|exact Sy].
    - unfold wtracks. rewrite Hr4, Hz4. cbn [line column]. destruct (wide_at E (g_sb s) i) eqn:Ew.
      + right. left. subst w. split; [destruct Hpi; split; cbn [line column]; lia|].
        left. rewrite Hh4. replace (cell_no (sz s) (Cursor (line p) (column p + 1))) with (S i)
          by (rewrite <- Hno; unfold cell_no; cbn [line column]; lia). exact Ew.
      + left. intros Hlt. destruct M7 as (_ & _ & M7 & _). rewrite Hvc, Hvz in M7. cbn [cX cY at_pos] in M7. subst w.
        rewrite M7 by lia. unfold at_pos. cbn [line column]. f_equal. lia.
  Qed.

  Lemma wdraw_ok fuel : forall lo hi at_ s s' u,
    S_Screen.wides_fit E (g_sb s) -> all_shown E shown shown2 (g_sb s) -> hi = total (sz s) -> lo <= hi ->
    wcaught lo (g_sb s) -> wloop lo s -> ats s = at_ ->
    gs_draw draw E fuel lo hi at_ s = Ret s' u ->
    wloop hi s' /\ unchanged s s' /\ wcaught hi (g_sb s') /\
    (forall j, half (g_sb s) j = true -> nth_error (back (g_sb s')) j = nth_error (back (g_sb s)) j).
  Proof.
    induction fuel as [|fuel IH]; intros lo hi at_ s s' u Hf Hsh Hhi Hlo Hcu L Hat H;
      assert (F := w_frame lo s L); assert (Hb := f_buf E s F); assert (Hz := f_size E s F); cbn [gs_draw] in H;
      unfold next_cell in H;
      destruct (next_cell_aux E (hi - lo) (g_sb s) lo hi) as [[[b' lo'] o]|] eqn:En; try discriminate H;
      (assert (Hs := P_Screen.next_cell_spec E hi (g_sb s) Hb Hf Hhi (proj2 Hz) (hi - lo) lo _ Hlo (le_n _) (w_start lo s L) En));
      destruct o as [[p c]|]; cbn in Hs.
    1, 3: destruct Hs as (i & I1 & I2 & I3 & I4 & I5 & I6 & I7 & I8).
    3, 4: destruct Hs as (Hs1 & Hs2).
    - exfalso. apply bind_ret in H. destruct H as (s1 & u1 & H1 & H).
      apply bind_ret in H. destruct H as (s2 & u2 & H2 & H).
      apply bind_ret in H. destruct H as (s3 & u3 & H3 & H). destruct (uadd _ _ _); discriminate H.
    - apply bind_ret in H. destruct H as (s1 & u1 & H1 & H).
      apply bind_ret in H. destruct H as (s2 & u2 & H2 & H).
      apply bind_ret in H. destruct H as (s3 & u3 & H3 & H).
      destruct (uadd (umax E) (column (g_real s3)) 1) as [cc|] eqn:Eu; [|discriminate H].
      assert (Hcc : cc = column (g_real s3) + 1) by (unfold uadd in Eu; destruct (_ <=? _); congruence). subst cc. clear Eu.
      subst p b'. fold (sz s) in H1.
      assert (Li : wloop i s) by (apply (wloop_skip lo); auto; unfold sz in *; lia).
      destruct (wdraw_cell i c at_ s s1 s2 s3 u1 u2 u3 Hf Hsh ltac:(lia) I2 I4 Hat Li H1 H2 H3) as (D1 & D2 & D3 & D4 & D5).
      set (s4 := with_greal _ s3) in *. rewrite <- I8 in D1.
      assert (Hz4 : sz s4 = sz s) by (unfold sz; now rewrite D2).
      assert (Hlo' : lo' <= hi).
      { rewrite I8. unfold P_Screen.next_of. destruct (wide_at E (g_sb s) i) eqn:Ew; [|lia].
        assert (X := P_Screen.wide_room E (g_sb s) i Hf Hb (proj2 Hz) Ew). unfold sz in *. lia. }
      assert (Hcu4 : wcaught lo' (g_sb s4)).
      { intros j Hj Hjh. rewrite D2 in *. cbn [back buffer with_back]. change (half (g_sb s) j = false) in Hjh.
        rewrite P_Buf.nth_upd by (destruct (back_len s F); lia).
        destruct (Nat.eqb_spec j i) as [->|Nj]; [now symmetry|].
        destruct (Nat.ltb_spec j lo); [now apply Hcu|].
        destruct (Nat.ltb_spec j i); [apply I6; [lia|assumption]|].
        rewrite I8 in Hj. exfalso. apply Nj. eapply P_Screen.next_of_half; eauto. }
      destruct (IH lo' hi (cattrs c) s4 s' u) as (R1 & R2 & R3 & R4); auto.
      { rewrite D2. exact Hf. }
      { rewrite D2. exact Hsh. }
      { now rewrite Hz4. }
      split; [exact R1|]. split; [|split; [exact R3|]].
      { eapply unchanged_trans; [|exact R2]. split; [eexists; exact D2|auto]. }
      intros j Hj. rewrite R4 by (rewrite D2; exact Hj). rewrite D2. cbn [back with_back].
      rewrite P_Buf.nth_upd by (destruct (back_len s F); lia). destruct (Nat.eqb_spec j i) as [->|]; [congruence|reflexivity].
    - injection H as <- _. subst b'. replace (with_gsb (g_sb s) s) with s by now destruct s.
      split; [|split; [apply unchanged_refl|split; [|reflexivity]]].
      + apply (wloop_skip lo); auto; [lia|]. rewrite Hhi. apply P_Screen.half_end; [exact Hb|exact Hf|apply Hz].
      + intros j Hj Hjh. destruct (Nat.ltb_spec j lo); [now apply Hcu|]. apply Hs2; [lia|exact Hjh].
    - injection H as <- _. subst b'. replace (with_gsb (g_sb s) s) with s by now destruct s.
      split; [|split; [apply unchanged_refl|split; [|reflexivity]]].
      + apply (wloop_skip lo); auto; [lia|]. rewrite Hhi. apply P_Screen.half_end; [exact Hb|exact Hf|apply Hz].
      + intros j Hj Hjh. destruct (Nat.ltb_spec j lo); [now apply Hcu|]. apply Hs2; [lia|exact Hjh].
  Qed.

  (** ** Between refreshes *)
  Record winv (s : wscr) : Prop := {
    v_frame : frame E s;
    v_sync : forall j k, nth_error (back (g_sb s)) j = Some k -> ctext k <> [] ->
      halfn (sees s) (sz s) j = false -> sync (t_default (g_t s)) (sees s) (sz s) k j;
    v_left : g_clr s = false -> forall j, j < total (sz s) -> halfn (sees s) (sz s) j = true -> belongs 0 s j;
    v_clr : g_clr s = true -> P_Screen.all_invalid (g_sb s);
    v_curs : g_clr s = false ->
      (column (g_real s) < columns (sz s) -> v_cur (sees s) = at_pos (g_real s)) \/
      (in_bounds (g_real s) (sz s) /\ halfn (sees s) (sz s) (cell_no (sz s) (g_real s)) = true)
  }.

  (** Right halves are shown as such, and nothing else is. *)
  Lemma loop_half s j : S_Screen.wides_fit E (g_sb s) -> wloop (total (sz s)) s -> j < total (sz s) ->
    halfn (sees s) (sz s) j = half (g_sb s) j.
  Proof.
    intros Hf [F L2 L3 L4 Ll L5 L6] Hj. destruct (back_len s F) as (Hl1 & Hl2). destruct (half (g_sb s) j) eqn:Eh.
    - destruct j as [|j]; [discriminate Eh|]. cbn [S_Screen.half] in Eh.
      destruct (cell_at (g_sb s) j) as [c|] eqn:Ec; [|unfold wide_at in Eh; rewrite Ec in Eh; discriminate Eh].
      assert (Hjh : half (g_sb s) j = false).
      { destruct j as [|j']; [reflexivity|]. cbn [S_Screen.half]. destruct (wide_at E (g_sb s) j') eqn:Ew; [|reflexivity].
        destruct (Hf j' Ew). congruence. }
      assert (Hs := L3 j c ltac:(lia) Ec Hjh). unfold sync in Hs. rewrite (P_Screen.is_wide_at E _ _ _ Ec), Eh in Hs.
      destruct Hs as (_ & _ & g & h & S1 & S2 & S3). unfold halfn. rewrite S3. cbn [fst].
      apply (q_two_half _ _ _ _ HP) in S1. apply S1.
    - destruct (cell_at (g_sb s) j) as [c|] eqn:Ec; [|unfold cell_at in Ec; apply nth_error_None in Ec; lia].
      assert (Hs := L3 j c Hj Ec Eh). unfold sync in Hs. unfold halfn. destruct (is_wide E c).
      + destruct Hs as (_ & _ & g & h & S1 & S2 & S3). rewrite S2. cbn [fst]. apply (q_two_half _ _ _ _ HP) in S1. apply S1.
      + destruct Hs as (g & S1 & S2). rewrite S2. cbn [fst]. exact (q_one_half _ _ _ _ HP _ _ S1).
  Qed.

  Notation careful := (win_ready E shown shown2 is_half).

  Lemma space_whole : is_half SPACE = false.
  Proof. exact (q_one_half _ _ _ _ HP _ _ (q_space _ _ _ _ HP)). Qed.

  Lemma bounds_no p z : in_bounds p z -> cell_no z p < total z /\ cell_pos z (cell_no z p) = p.
  Proof.
    intros (H1 & H2). split; [unfold cell_no, total; nia|]. now apply P_Screen.cell_no_pos.
  Qed.

  (** After a refresh, right halves belong to what was refreshed. *)
  Lemma shown_belongs s : frame E s -> S_Screen.wides_fit E (g_sb s) ->
    (forall j c, cell_at (g_sb s) j = Some c -> half (g_sb s) j = false -> sync (t_default (g_t s)) (sees s) (sz s) c j) ->
    (forall j, j < total (sz s) -> halfn (sees s) (sz s) j = half (g_sb s) j) ->
    wcaught (total (sz s)) (g_sb s) ->
    forall j, j < total (sz s) -> halfn (sees s) (sz s) j = true -> belongs 0 s j.
  Proof.
    intros F Hf Sy Hv U j Hj Hhf. rewrite Hv in Hhf by exact Hj.
    destruct j as [|j]; [discriminate Hhf|]. cbn [S_Screen.half] in Hhf.
    destruct (cell_at (g_sb s) j) as [c|] eqn:Ec; [|unfold wide_at in Hhf; rewrite Ec in Hhf; discriminate Hhf].
    assert (Hjh : half (g_sb s) j = false).
    { destruct j as [|j']; [reflexivity|]. cbn [S_Screen.half]. destruct (wide_at E (g_sb s) j') eqn:Ew; [|reflexivity].
      destruct (Hf j' Ew). congruence. }
    assert (Hwc := P_Screen.is_wide_at E _ _ _ Ec). rewrite Hhf in Hwc.
    assert (Hs := Sy j c Ec Hjh). unfold sync in Hs. rewrite Hwc in Hs. destruct Hs as (Q1 & Q2 & _).
    assert (Hlt : j < total (sz s)) by (apply Nat.lt_succ_l; exact Hj).
    exists j, c. split; [reflexivity|]. split; [apply Nat.le_0_l|].
    split; [|split; [exact Hwc|split]].
    - rewrite U; [exact Ec|exact Hlt|exact Hjh].
    - rewrite Hv; [exact Hjh|exact Hlt].
    - assert (Hzp := f_size E s F). destruct (same_run (sz s) j (S j) 2 (proj2 Hzp) Q2) as ((R1 & _) & R2).
      clear - R1 R2. destruct (R1 ltac:(lia)) as (R3 & R4). specialize (R2 R3 (proj1 R4)). lia.
  Qed.

  Lemma wrefresh_ok s s' u : winv s -> careful s -> win_refresh draw E s = Ret s' u ->
    winv s' /\ g_clr s' = false /\ t_default (g_t s') = t_default (g_t s) /\
    (exists k, g_sb s' = with_back (g_sb s) k) /\
    (forall j c, cell_at (g_sb s') j = Some c -> half (g_sb s') j = false ->
       sync (t_default (g_t s')) (sees s') (sz s') c j) /\
    (forall j, j < total (sz s') -> halfn (sees s') (sz s') j = half (g_sb s') j) /\
    (half (g_sb s) (cell_no (sz s) (S_Screen.cursor_goal (g_sb s))) = false ->
     v_cur (sees s') = at_pos (S_Screen.cursor_goal (g_sb s))) /\
    wcaught (total (sz s')) (g_sb s') /\
    (forall j, half (g_sb s') j = true -> nth_error (back (g_sb s')) j = nth_error (back (g_sb s)) j).
  Proof.
    intros [F B Bl Hi Hc] (Hf & Hsh & Hun & Hw) H. unfold win_refresh in H.
    apply bind_ret in H. destruct H as (s1 & u1 & H1 & H).
    assert (C1 : wloop 0 s1 /\ g_sb s1 = g_sb s /\ t_default (g_t s1) = t_default (g_t s) /\ g_clr s1 = false).
    { destruct (g_clr s) eqn:Ec.
      - apply bind_ret in H1. destruct H1 as (s2 & u2 & H2 & H1). injection H1 as <- _.
        apply on_inv in H2. destruct H2 as (w & H2 & ->). assert (F0 := F). destruct F as [F1 F2 F3 F4 F5].
        destruct (clear_view _ _ _ _ H2 F3) as (V1 & V2 & V3 & V4 & V5).
        assert (Cl := clear_cells _ _ _ _ H2 F3 (Hw eq_refl)). cbv zeta in Cl.
        set (s3 := with_gclr false _). specialize (Hi eq_refl).
        change (c_view (w_con w)) with (sees s3) in *. change (c_view (w_con (t_w (g_t s)))) with (sees s) in *.
        split; [|repeat split]. constructor.
        + split; try assumption.
          * rewrite V4. exact F4.
          * change (c_attr (w_con w) = win_word (t_default (g_t s)) (w_at w)). rewrite V1, V2. exact F5.
        + reflexivity.
        + intros j c Hj. lia.
        + intros j Hj Hv. exfalso. unfold halfn, at_no in Hv. change (sz s3) with (sz s) in *.
          destruct (in_size E s _ F0 (P_Screen.cell_pos_in (sz s) j (proj2 Hj))) as (_ & _ & Y & X).
          rewrite Cl in Hv by assumption. rewrite space_whole in Hv. discriminate Hv.
        + intros j Hj Hv. exfalso. unfold halfn, at_no in Hv. change (sz s3) with (sz s) in *.
          destruct (in_size E s _ F0 (P_Screen.cell_pos_in (sz s) j (proj2 Hj))) as (_ & _ & Y & X).
          rewrite Cl in Hv by assumption. rewrite space_whole in Hv. discriminate Hv.
        + intros j k _ Hk Hn. exfalso. exact (Hn (Hi j k Hk)).
        + right. right. split; [reflexivity|]. split; [exact Hi|]. intros Hr. destruct (Hw eq_refl) as (W1 & W2). now apply V5.
      - injection H1 as <- _. split; [|auto]. constructor; auto.
        + intros j c Hj. lia.
        + intros j Hj Hv Hjh. assert (Hno := P_Screen.cell_pos_no (sz s) j ltac:(destruct (f_size E s F); lia)).
          assert (X := Hun eq_refl (cell_pos (sz s) j) (P_Screen.cell_pos_in _ _ (proj2 Hj)) Hv).
          fold (sz s) in X. rewrite Hno in X. exact (X Hjh).
        + intros j Hj. apply (Bl eq_refl). lia.
        + destruct (Hc eq_refl) as [T|(T1 & T2)]; [now left|right; left]. auto. }
    clear H1. destruct C1 as (L1 & S1 & D1 & C1).
    apply bind_ret in H. destruct H as (s2 & u2 & H2 & H).
    destruct (clear_attrs_ok E _ _ _ (w_frame _ _ L1) H2) as (F2 & A2 & V2 & S2 & R2 & C2 & D2).
    assert (L2 : wloop 0 s2).
    { destruct L1 as [X1 X2 X3 X4 Xl X5 X6]. constructor; unfold belongs, wtracks, sz in *; rewrite ?V2, ?S2, ?D2, ?R2; auto. }
    destruct (sb_indices E (g_sb s2)) as [[lo hi]|] eqn:Ei; [|discriminate H].
    assert (Hlh : lo = 0 /\ hi = total (sz s2)).
    { unfold sb_indices, area, checked_area in Ei. destruct (_ <=? _); [|discriminate Ei].
      injection Ei as <- <-. split; reflexivity. }
    destruct Hlh as (-> & Hhi).
    apply bind_ret in H. destruct H as (s3 & u3 & H3 & H).
    destruct (wdraw_ok _ 0 hi no_attrs s2 s3 u3 ltac:(now rewrite S2, S1) ltac:(now rewrite S2, S1) Hhi ltac:(lia)
      ltac:(intros j Hj; lia) L2 A2 H3) as (L3 & ((k3 & S3) & D3 & C3) & U3 & W3).
    apply bind_ret in H. destruct H as (s4 & u4 & H4 & H).
    destruct (clear_attrs_ok E _ _ _ (w_frame _ _ L3) H4) as (F4 & A4 & V4 & S4 & R4 & C4 & D4).
    assert (Hz4 : sz s4 = sz s /\ bcur (g_sb s4) = bcur (g_sb s)).
    { unfold sz. rewrite S4, S3, S2, S1. split; reflexivity. }
    destruct Hz4 as (Hz4 & Hcur).
    assert (Hsb4 : g_sb s4 = with_back (g_sb s) k3) by (rewrite S4, S3, S2, S1; reflexivity).
    assert (Hhi4 : hi = total (sz s4)) by (rewrite Hhi; unfold sz; rewrite S4, S3; reflexivity).
    assert (L4 : wloop (total (sz s4)) s4).
    { rewrite <- Hhi4. destruct L3 as [X1 X2 X3 X4 Xl X5 X6]. constructor; unfold belongs, wtracks, sz in *; rewrite ?V4, ?S4, ?D4, ?R4; auto. }
    assert (Hf4 : S_Screen.wides_fit E (g_sb s4)) by (rewrite Hsb4; exact Hf).
    assert (Hh4 := loop_half s4).
    assert (Hm : gs_move_cursor (S_Screen.cursor_goal (g_sb s)) s4 = Ret s' u /\ in_bounds (S_Screen.cursor_goal (g_sb s)) (sz s4)).
    { assert (Fz := f_size E s4 F4). fold (sz s4) in H. rewrite Hcur, Hz4 in H. rewrite Hz4 in *. unfold sz in *.
      unfold S_Screen.cursor_goal. unfold is_out_of_bounds, in_bounds in *.
      destruct (bcur (g_sb s)) as [cl cc]. cbn [line column] in *.
      destruct (Nat.ltb_spec cl (lines (bsize (g_sb s)))); destruct (Nat.ltb_spec cc (columns (bsize (g_sb s))));
        cbn [andb line column];
        (destruct (_ || _) eqn:Eo in H; [|split; [exact H || (exfalso; lia)|lia]]); try (exfalso; lia);
        unfold cursor_last, usub in H; 
        repeat (destruct (_ <=? _) eqn:? in H; [|discriminate H]); split; try exact H; lia. }
    destruct Hm as (Hm & Hin). set (goal := S_Screen.cursor_goal (g_sb s)) in *.
    assert (Hgh : half (g_sb s4) (cell_no (sz s4) goal) = half (g_sb s) (cell_no (sz s) goal)) by (rewrite Hsb4, Hz4; reflexivity).
    (* the last move *)
    assert (Fin : frame E s' /\ g_real s' = goal /\ v_cell (sees s') = v_cell (sees s4) /\ g_sb s' = g_sb s4 /\
      g_clr s' = g_clr s4 /\ t_default (g_t s') = t_default (g_t s4) /\
      (v_cur (sees s') = at_pos goal \/ half (g_sb s4) (cell_no (sz s4) goal) = true)).
    { destruct (cursor_eqb (g_real s4) goal) eqn:Eg.
      - apply P_Screen.cursor_eqb_eq in Eg. assert (Hs' : s' = s4).
        { unfold gs_move_cursor in Hm. rewrite Eg in Hm. replace (cursor_eqb goal goal) with true in Hm
            by (symmetry; now apply P_Screen.cursor_eqb_eq). now injection Hm as <- _. }
        rewrite Hs'. do 6 (split; [assumption || reflexivity|]).
        destruct (w_cur _ _ L4) as [T|[(_ & T)|(T & _)]].
        + left. rewrite <- Eg. apply T. rewrite Eg. apply Hin.
        + right. rewrite <- Eg. destruct T as [T|T]; [exact T|]. rewrite <- Hh4; auto. rewrite Eg. now apply bounds_no.
        + exfalso. assert (Tp := total_pos s4 F4). lia.
      - destruct (move_ok E _ _ _ _ F4 Hin Hm) as (F5 & R5 & V5 & W5 & S5 & C5 & D5 & A5).
        { intros Hr. apply P_Screen.cursor_eqb_eq in Hr. congruence. }
        auto 10. }
    destruct Fin as (F5 & R5 & W5 & S5 & C5 & D5 & Cu).
    assert (At : forall j, at_no (sees s') (sz s4) j = at_no (sees s4) (sz s4) j) by (intros j; unfold at_no; now rewrite W5).
    assert (Hz5 : sz s' = sz s4) by (unfold sz; now rewrite S5).
    assert (Hclr : g_clr s' = false) by congruence.
    assert (Hd : t_default (g_t s') = t_default (g_t s)) by congruence.
    assert (Sy : forall j c, cell_at (g_sb s') j = Some c -> half (g_sb s') j = false ->
       sync (t_default (g_t s')) (sees s') (sz s') c j).
    { intros j c Hj Hjh. rewrite S5 in *. rewrite Hz5, D5. apply (sync_same _ (sees s4)); auto.
      assert (Hlt : j < total (sz s4)).
      { destruct (back_len s4 F4) as (_ & <-). apply nth_error_Some. unfold cell_at in Hj. congruence. }
      exact (w_done _ _ L4 j c Hlt Hj Hjh). }
    assert (Hv : forall j, j < total (sz s') -> halfn (sees s') (sz s') j = half (g_sb s') j).
    { intros j Hj. rewrite S5, Hz5 in *. unfold halfn. rewrite At. now apply Hh4. }
    split; [constructor|].
    - exact F5.
    - intros j k Hk Hn Hhf.
      assert (Hlt : j < total (sz s')).
      { destruct (back_len s' F5) as (<- & _). apply nth_error_Some. congruence. }
      rewrite Hv in Hhf by exact Hlt. apply Sy; [|exact Hhf]. rewrite Hz5, <- Hhi4 in Hlt.
      rewrite S5, S4 in Hk, Hhf |- *. unfold cell_at. rewrite <- (U3 j Hlt Hhf). exact Hk.
    - intros _. apply shown_belongs; auto; [rewrite S5; exact Hf4|].
      rewrite Hz5, <- Hhi4, S5, S4. exact U3.
    - rewrite Hclr. intros Q; discriminate Q.
    - intros _. rewrite R5, Hz5. destruct Cu as [Cu|Cu]; [left; auto|right].
      split; [exact Hin|]. rewrite <- Hz5, Hv by (rewrite Hz5; now apply bounds_no). now rewrite S5, Hz5.
    - split; [exact Hclr|]. split; [exact Hd|]. split; [exists k3; congruence|]. split; [exact Sy|]. split; [exact Hv|].
      split; [intros Hg; destruct Cu as [Cu|Cu]; [exact Cu|]; congruence|].
      split; [rewrite Hz5, <- Hhi4, S5, S4; exact U3|].
      intros j Hj. rewrite S5, S4 in *. rewrite W3; [now rewrite S2, S1|]. rewrite S3 in Hj. exact Hj.
  Qed.

  (** ** Histories *)
  Lemma wnew_inv cfg t t1 s : (32767 <= Z.of_nat (umax E))%Z ->
    displayed t -> S_WinWriter.view_ok (c_view (w_con (t_w t))) ->
    w_at (t_w t) = no_attrs -> c_attr (w_con (t_w t)) = t_default t ->
    win_screen_new E cfg t = Ret t1 s ->
    winv s /\ t_default (g_t s) = t_default t /\ g_clr s = false /\
    (forall y x, fst (v_cell (sees s) y x) = SPACE) /\ sb_new E (size_of_view (c_view (w_con (t_w t)))) = Val (g_sb s).
  Proof.
    intros HU (Hd & Hn) Hv Ha Hc H. unfold win_screen_new in H.
    destruct (win_screen_open E cfg t) as [t2 s2|t2 e| |] eqn:Eo; try discriminate H.
    2: { destruct (win_terminal_drop t2); discriminate H. }
    injection H as <- <-. apply open_inv in Eo; [|exact Hn].
    destruct Eo as (G1 & _ & _ & G4 & G5 & G6 & _ & _ & _ & _ & G11 & G12 & _ & G14 & G15).
    unfold buf_of in G14, G15. rewrite Hd, N.eqb_refl in G14, G15. cbn [cur_buf b_attr b_view fresh_buffer] in G14, G15.
    rewrite <- G1 in *. rewrite Hc in *.
    set (v := c_view (w_con (t_w t))) in *. unfold S_WinWriter.view_ok in Hv.
    assert (Hz : size_of E v = size_of_view v).
    { unfold size_of, size_of_view, as_usize. f_equal; f_equal; apply Z.mod_small; lia. }
    rewrite Hz in *. unfold size_of_view in G14, G6. cbn [lines columns] in G14. fold (size_of_view v) in G6.
    assert (Hsb : total (size_of_view v) <= umax E).
    { unfold sb_new, area, checked_area in G6. unfold total.
      destruct (Nat.leb_spec (lines (size_of_view v) * columns (size_of_view v)) (umax E)); [assumption|discriminate G6]. }
    destruct (new_ok 1 (le_n 1) E _ HE Hsb) as (b & N1 & N2 & N3 & N4 & N5 & N6 & N7). rewrite G6 in N1. injection N1 as <-.
    change (c_view (w_con (t_w (g_t s2)))) with (sees s2) in G14.
    assert (Cells : forall y x, v_cell (sees s2) y x = (SPACE, t_default t)).
    { intros y x. rewrite G14. cbn [v_cell resize_view]. now destruct (in_buffer _ _). }
    split; [|split; [exact G11|]; split; [exact G4|]; split; [intros y x; now rewrite Cells|exact G6]].
    constructor.
    - split.
      + exact N2.
      + unfold sz. rewrite N3. unfold size_of_view. cbn [lines columns]. lia.
      + rewrite G14. unfold S_WinWriter.view_ok, resize_view, to_short. cbn [v_size v_cur v_win cX cY rTop rBottom rLeft rRight]. lia.
      + unfold sz. rewrite N3, G14. unfold size_of_view. cbn [v_size resize_view lines columns]. unfold to_short. f_equal; lia.
      + unfold word, ats. rewrite G12, Ha, G15, G11, word_none. reflexivity.
    - intros i k Hk _ _. rewrite N6 in Hk. apply nth_error_In, repeat_spec in Hk. subst k.
      unfold sync. replace (is_wide E blank) with false
        by (unfold is_wide, blank, width0; cbn [ctext]; destruct HE as (-> & _); reflexivity).
      exists SPACE. split; [apply (q_space _ _ _ _ HP)|]. change (cattrs blank) with no_attrs. unfold at_no. rewrite Cells, G11, word_none. reflexivity.
    - intros _ j _ Hvh. exfalso. unfold halfn, at_no in Hvh. rewrite Cells in Hvh. cbn [fst] in Hvh. rewrite space_whole in Hvh. discriminate Hvh.
    - rewrite G4. intros Q; discriminate Q.
    - intros _. left. intros _. rewrite G14, G5. reflexivity.
  Qed.

  Lemma whist_inv s : (32767 <= Z.of_nat (umax E))%Z -> whistory draw E careful s -> winv s /\ (t_default (g_t s) < 65536)%N.
  Proof.
    intros HU. induction 1 as [cfg t t1 s Hd Hv Hdef Ha Hc Hnew|s o b _ (IH & D) Ho Hr|s m s' u _ (IH & D) Hr|s s' u _ (IH & D) C Hr|s v s' u _ (IH & D) Hv Hr].
    - destruct (wnew_inv _ _ _ _ HU Hd Hv Ha Hc Hnew) as (I & -> & _). auto.
    - split; [|exact D]. destruct IH as [[F1 F2 F3 F4 F5] B Bl I C].
      destruct (P_Screen2.op_ok E HE _ _ _ F1 Ho Hr) as (O1 & O2 & O3).
      assert (Hz : sz (with_gsb b s) = sz s) by exact O3.
      constructor; [split; rewrite ?Hz; assumption| | | |].
      + intros i k Hk Hn. cbn in Hk. rewrite O2 in Hk. rewrite Hz. now apply B.
      + intros Hc j Hj. unfold belongs. rewrite Hz in *. change (g_sb (with_gsb b s)) with b. rewrite O2. exact (Bl Hc j Hj).
      + intros Hc j k Hk. cbn in Hk. rewrite O2 in Hk. now apply (I Hc j k).
      + intros Hc. rewrite Hz. exact (C Hc).
    - cbn [run_wsop] in Hr. apply on_inv in Hr. destruct Hr as (w & Hr & ->). split; [|exact D].
      unfold win_set_cursor_mode, set_cursor_info in Hr. apply ask_inv in Hr. destruct Hr as (_ & A & n & l & Hr). injection Hr as Hr _.
      assert (V : c_view (w_con w) = sees s) by now rewrite <- Hr.
      assert (W : c_attr (w_con w) = word s) by now rewrite <- Hr.
      set (s2 := with_gt _ s). assert (Hs : sees s2 = sees s) by exact V.
      destruct IH as [[F1 F2 F3 F4 F5] B Bl I C]. constructor; [split|intros i k Hk Hn| | |]; unfold belongs; rewrite ?Hs; try assumption.
      + change (c_attr (w_con w) = win_word (t_default (g_t s)) (w_at w)). rewrite W, A. exact F5.
      + now apply B.
    - destruct (wrefresh_ok _ _ _ IH C Hr) as (I & _ & -> & _). auto.
    - unfold win_update_size in Hr. cbn [seeing with_gt g_sb g_real g_state g_old g_t] in Hr.
      destruct (sb_resize E (g_sb s) _) as [b|] eqn:Er; [|discriminate Hr]. injection Hr as <- _. split; [|exact D].
      destruct IH as [[F1 F2 F3 F4 F5] B Bl I C].
      unfold S_WinWriter.view_ok in Hv.
      assert (Hsz : S_Screen.screen_size (Size (Z.to_nat (cY (v_size v))) (Z.to_nat (cX (v_size v))))).
      { unfold S_Screen.screen_size, S_Writer.u32_max. cbn [lines columns]. lia. }
      destruct (P_Screen2.sb_resize_ok E HE _ _ _ F1 Hsz Er) as (R1 & R2 & R3 & _).
      constructor; [split| | | |].
      + exact R1.
      + unfold sz. cbn [g_sb]. rewrite R2. cbn [lines columns]. lia.
      + exact Hv.
      + unfold sz. cbn [g_sb]. rewrite R2. cbn [lines columns].
        change (v_size v = Coord (Z.of_nat (Z.to_nat (cX (v_size v)))) (Z.of_nat (Z.to_nat (cY (v_size v))))).
        rewrite !Z2Nat.id by lia. now destruct (v_size v).
      + exact F5.
      + intros i k Hk Hn. exfalso. exact (Hn (R3 i k Hk)).
      + intros Q. discriminate Q.
      + intros _. exact R3.
      + intros Q. discriminate Q.
  Qed.

  Lemma sync_shows s : frame E s -> (t_default (g_t s) < 65536)%N ->
    (forall j c, cell_at (g_sb s) j = Some c -> half (g_sb s) j = false -> sync (t_default (g_t s)) (sees s) (sz s) c j) ->
    shows_wide E shown shown2 (t_default (g_t s)) (sees s) (g_sb s).
  Proof.
    intros F D Sy. split; [apply (f_same E s F)|]. intros p c Hp Hc Hh.
    destruct (bounds_no p (sz s) Hp) as (B1 & B2). fold (sz s) in Hc, Hh, Hp.
    assert (S0 := Sy _ _ Hc Hh). exists (win_word (t_default (g_t s)) (cattrs c)).
    split; [now apply P_WinWriter.word_shows|]. rewrite two_is_wide. unfold sync, at_no in S0. rewrite B2 in S0.
    destruct (is_wide E c).
    - destruct S0 as (S1 & S2 & g & h & S3 & S4 & S5). exists g, h. split; [exact S3|]. split; [exact S4|].
      rewrite <- S5. assert (Hz := f_size E s F).
      destruct (same_run (sz s) (cell_no (sz s) p) (S (cell_no (sz s) p)) 2 (proj2 Hz)) as ((R1 & _) & R2).
      { rewrite B2. exact S2. }
      destruct (R1 ltac:(lia)) as (R3 & R4). specialize (R2 R3 (proj1 R4)). rewrite B2 in *. rewrite R3.
      f_equal. lia.
    - exact S0.
  Qed.

  Lemma whistory_shows s s' u : (32767 <= Z.of_nat (umax E))%Z -> whistory draw E careful s -> careful s ->
    win_refresh draw E s = Ret s' u ->
    shows_wide E shown shown2 (t_default (g_t s)) (sees s') (g_sb s') /\
    (half (g_sb s) (cell_no (bsize (g_sb s)) (S_Screen.cursor_goal (g_sb s))) = false ->
     v_cur (sees s') = at_pos (S_Screen.cursor_goal (g_sb s))) /\
    buffer (g_sb s') = buffer (g_sb s) /\ bsize (g_sb s') = bsize (g_sb s) /\ bcur (g_sb s') = bcur (g_sb s).
  Proof.
    intros HU Hh C Hr. destruct (whist_inv s HU Hh) as (I & D).
    destruct (wrefresh_ok _ _ _ I C Hr) as ([F _ _ _ _] & _ & Hd & (k & Hk) & Sy & _ & V & _).
    split; [rewrite <- Hd; apply sync_shows; auto; now rewrite Hd|]. split; [exact V|]. rewrite Hk. auto.
  Qed.
End Screen.
