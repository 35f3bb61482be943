(** [refresh]: what it writes, and that it does not panic. *)
From Verif Require Import Base M_Utf8 S_Utf8 M_Geom S_Geom M_Attr M_Buf S_Buf M_Writer S_Tty S_Writer
  M_Screen S_Screen P_Buf P_Buf2 P_Buf3 P_Buf4 P_Writer P_Attr P_Writer2 P_Writer3 P_Screen P_Screen2 P_Screen3.

Section Output.
  Variable E : env.
  Variable C : tcfg.
  Hypothesis HC : env_chars E.

  Definition emits (s s' : scr) (ts : list (list N)) : Prop :=
    whole_writes (script (wr s')) /\ exists x, stream (wr s') = stream (wr s) ++ x /\ drawing C ts x.

  Lemma drawing_control x ts y : control C x -> drawing C ts y -> drawing C ts (x ++ y).
  Proof.
    intros Hx H. destruct H.
    - constructor. now apply control_app.
    - rewrite app_assoc. constructor; [now apply control_app|assumption].
  Qed.

  Lemma drawing_app ts1 x ts2 y : drawing C ts1 x -> drawing C ts2 y -> drawing C (ts1 ++ ts2) (x ++ y).
  Proof.
    induction 1 as [x Hx|x t ts r Hx Hr IH]; intros Hy.
    - now apply drawing_control.
    - rewrite <- !app_assoc. cbn. constructor; auto.
  Qed.

  Lemma emits_trans s1 s2 s3 a b : emits s1 s2 a -> emits s2 s3 b -> emits s1 s3 (a ++ b).
  Proof.
    intros (_ & x & X1 & X2) (W & y & Y1 & Y2). split; [assumption|]. exists (x ++ y).
    split; [now rewrite Y1, X1, app_assoc|now apply drawing_app].
  Qed.

  Lemma emits_nil s s' : whole_writes (script (wr s)) -> wr s' = wr s -> emits s s' [].
  Proof.
    intros H Hs. unfold emits. rewrite Hs. split; [assumption|]. exists []. rewrite app_nil_r. split; [reflexivity|].
    constructor. constructor.
  Qed.

  Lemma cq_emits f s s' u : whole_writes (script (wr s)) -> (forall w, cq C w (f w)) -> on_writer f s = Ret s' u -> emits s s' [].
  Proof.
    intros Hw Hf H. apply on_writer_ret in H. destruct H as (w & H & ->).
    specialize (Hf (wr s)). rewrite H in Hf. destruct Hf as (X1 & X2 & x & X3 & X4).
    split; [cbn; congruence|]. exists x. cbn [wr with_wr]. split; [unfold stream; now rewrite X1, X3, app_assoc|].
    now constructor.
  Qed.

  Lemma move_emits p s s' u : whole_writes (script (wr s)) -> s_move_cursor C p s = Ret s' u -> emits s s' [].
  Proof.
    intros Hw H. unfold s_move_cursor in H. destruct (cursor_eqb (real s) p).
    - injection H as <- _. now apply emits_nil.
    - apply bind_ret in H. destruct H as (s1 & u1 & H1 & H). injection H as <- _.
      apply (cq_emits (move_cursor C p)) in H1; auto using cq_move_cursor.
  Qed.

  Lemma write_emits t s s' u : whole_writes (script (wr s)) -> on_writer (write_str C t) s = Ret s' u -> emits s s' [t].
  Proof.
    intros Hw H. apply on_writer_ret in H. destruct H as (w & H & ->). unfold write_str in H.
    assert (Hb := write_bytes_whole C (utf8s t) (wr s) Hw). rewrite H in Hb. destruct Hb as (B1 & _ & B3).
    split; [assumption|]. exists (utf8s t). split; [assumption|].
    rewrite <- (app_nil_r (utf8s t)). change (utf8s t ++ []) with ([] ++ utf8s t ++ []).
    constructor; [constructor|]. constructor. constructor.
  Qed.

  Definition chg (b : sbuf) (i : nat) : bool :=
    negb (half E b i) &&
    match nth_error (buffer b) i, nth_error (back b) i with
    | Some c, Some k => negb (cell_eqb c k)
    | _, _ => false
    end.

  Lemma filter_none {A} (f : A -> bool) l : (forall x, In x l -> f x = false) -> filter f l = [].
  Proof.
    induction l as [|a l IH]; intros H; [reflexivity|]. cbn. rewrite H by now left. apply IH. intros x Hx. apply H. now right.
  Qed.

  Lemma filter_ext_in' {A} (f g : A -> bool) l : (forall x, In x l -> f x = g x) -> filter f l = filter g l.
  Proof.
    induction l as [|a l IH]; intros H; [reflexivity|]. cbn. rewrite H by now left. rewrite IH; [reflexivity|].
    intros x Hx. apply H. now right.
  Qed.

  Lemma same_chg b j : nth_error (back b) j = nth_error (buffer b) j -> chg b j = false.
  Proof.
    intros H. unfold chg. rewrite H. destruct (nth_error (buffer b) j) as [c|]; [|now rewrite andb_false_r].
    replace (cell_eqb c c) with true by (symmetry; now apply cell_eqb_eq). apply andb_false_r.
  Qed.

  Lemma draw_emits fuel : forall lo hi s s' u, frame E s -> wides_fit E (sb s) ->
    hi = total (bsize (sb s)) -> lo <= hi -> half E (sb s) lo = false ->
    draw E C fuel lo hi s = Ret s' u ->
    emits s s' (map (text_at (sb s)) (filter (chg (sb s)) (seq lo (hi - lo)))).
  Proof.
    induction fuel as [|fuel IH]; intros lo hi s s' u F Hf Hhi Hlo Hh H; assert (F' := F); destruct F' as [F1 F2 F3];
      assert (Hcol : 0 < columns (bsize (sb s))) by apply F2;
      cbn [draw] in H; unfold next_cell in H;
      destruct (next_cell_aux E (hi - lo) (sb s) lo hi) as [[[b' lo'] o]|] eqn:En; try discriminate;
      assert (Hs := next_cell_spec E hi (sb s) F1 Hf Hhi Hcol (hi - lo) lo _ Hlo (le_n _) Hh En);
      destruct o as [[p c]|]; cbn in Hs.
    1, 3: destruct Hs as (i & I1 & I2 & I3 & I4 & I5 & I6 & I7 & I8).
    3, 4: destruct Hs as (Hs1 & Hs2).
    3, 4: injection H as <- <-; subst b'; assert (Hw : with_sb (sb s) s = s) by (now destruct s); rewrite Hw;
      rewrite filter_none; [now apply emits_nil|]; intros j Hj; apply in_seq in Hj;
      destruct (half E (sb s) j) eqn:Eh; [unfold chg; now rewrite Eh|apply same_chg; apply Hs2; [lia|assumption]].
    - exfalso. apply bind_ret in H. destruct H as (s1 & u1 & H1 & H).
      apply bind_ret in H. destruct H as (s2 & u2 & H2 & H).
      apply bind_ret in H. destruct H as (s3 & u3 & H3 & H). destruct (uadd _ _ _); discriminate.
    - apply bind_ret in H. destruct H as (s1 & u1 & H1 & H).
      apply bind_ret in H. destruct H as (s2 & u2 & H2 & H).
      apply bind_ret in H. destruct H as (s3 & u3 & H3 & H).
      destruct (uadd (umax E) (column (real s3)) 1) as [cc|] eqn:Eu; [|discriminate].
      assert (Hcc : cc = column (real s3) + 1) by (unfold uadd in Eu; destruct (_ <=? _); congruence). subst cc.
      subst p b'.
      destruct (draw_cell E C HC s i c s1 s2 s3 u1 u2 u3 F Hf ltac:(lia) I2 I4 H1 H2 H3) as (D1 & D2 & D3 & D4).
      set (s4 := with_real _ s3) in *.
      assert (Hlo' : lo' <= hi).
      { rewrite I8. unfold next_of. destruct (wide_at E (sb s) i) eqn:Ew; [|lia].
        assert (S i < total (bsize (sb s))) by now apply (wide_room E). lia. }
      assert (Hi' : i < lo') by (rewrite I8; unfold next_of; destruct (wide_at _ _ _); lia).
      assert (Hb4 : buffer (sb s4) = buffer (sb s)) by (destruct D1 as (-> & _); reflexivity).
      assert (G1 : emits s s1 []).
      { apply (move_emits _ (with_sb (with_back (sb s) (upd i c (back (sb s)))) s) s1 u1) in H1; [exact H1|exact F3]. }
      assert (G2 := cq_emits _ _ _ _ (proj1 G1) (cq_set_attrs C (cattrs c)) H2).
      assert (G3 := write_emits _ _ _ _ (proj1 G2) H3).
      assert (G : emits s s4 [ctext c]).
      { exact (emits_trans _ _ _ _ _ G1 (emits_trans _ _ _ _ _ G2 G3)). }
      assert (G4 : emits s4 s' (map (text_at (sb s4)) (filter (chg (sb s4)) (seq lo' (hi - lo'))))).
      { apply (IH lo' hi s4 s' u D2 (after_fit E _ _ D1 Hf)); auto.
        - destruct D1 as (-> & _). exact Hhi.
        - rewrite (after_half E _ _ _ D1), I8. now apply half_next. }
      assert (Hsplit : seq lo (hi - lo) = seq lo (i - lo) ++ [i] ++ seq (S i) (lo' - S i) ++ seq lo' (hi - lo')).
      { replace (hi - lo) with ((i - lo) + (1 + ((lo' - S i) + (hi - lo')))) by lia.
        rewrite !seq_app. replace (lo + (i - lo)) with i by lia. replace (i + 1) with (S i) by lia.
        replace (S i + (lo' - S i)) with lo' by lia. reflexivity. }
      rewrite Hsplit, !filter_app, !map_app.
      rewrite (filter_none _ (seq lo (i - lo))).
      2: { intros j Hj. apply in_seq in Hj. destruct (half E (sb s) j) eqn:Eh; [unfold chg; now rewrite Eh|].
           apply same_chg, I6; [lia|assumption]. }
      rewrite (filter_none _ (seq (S i) (lo' - S i))).
      2: { intros j Hj. apply in_seq in Hj. unfold chg. destruct (half E (sb s) j) eqn:Eh; [reflexivity|].
           exfalso. assert (j = i); [|lia]. eapply next_of_half; eauto. lia. }
      assert (Hci : chg (sb s) i = true).
      { unfold chg. rewrite I2. unfold cell_at in I4. rewrite I4.
        destruct (nth_error (back (sb s)) i) as [k|] eqn:Ek.
        - destruct (cell_eqb c k) eqn:Eq; [|reflexivity]. apply cell_eqb_eq in Eq. congruence.
        - apply nth_error_None in Ek. destruct F1 as (_ & _ & Hl & _). lia. }
      cbn [filter map app]. rewrite Hci. cbn [map app].
      assert (Ht : text_at (sb s) i = ctext c) by (unfold text_at; now rewrite I4). rewrite Ht.
      replace (map (text_at (sb s)) (filter (chg (sb s)) (seq lo' (hi - lo'))))
        with (map (text_at (sb s4)) (filter (chg (sb s4)) (seq lo' (hi - lo')))).
      { exact (emits_trans _ _ _ _ _ G G4). }
      rewrite (filter_ext_in' (chg (sb s4)) (chg (sb s))).
      { apply map_ext. intros j. unfold text_at, cell_at. now rewrite Hb4. }
      intros j Hj. apply in_seq in Hj. unfold chg. rewrite (after_half E _ _ j D1), Hb4, D3.
      rewrite nth_upd by (destruct F1 as (_ & _ & Hl & _); lia). destruct (Nat.eqb_spec j i); [lia|reflexivity].
  Qed.

  Lemma refresh_emits s s' u : frame E s -> wides_fit E (sb s) -> refresh E C s = Ret s' u ->
    emits s s' (map (text_at (sb s)) (changed E (sb s))).
  Proof.
    intros F Hf H. unfold refresh in H. apply bind_ret in H. destruct H as (sc & uc & H & Hfl).
    unfold compose in H. apply bind_ret in H. destruct H as (s1 & u1 & H1 & H).
    assert (G1 : sb s1 = sb s /\ emits s s1 []).
    { destruct (clr s) eqn:Ec.
      - apply bind_ret in H1. destruct H1 as (s0 & u0 & H0 & H1). injection H1 as <- _.
        assert (H0' := H0). apply on_writer_ret in H0'. destruct H0' as (w & _ & ->). split; [reflexivity|].
        apply (cq_emits (clear_screen C)) in H0; [exact H0|apply F|intros; apply cq_req].
      - injection H1 as <- _. split; [reflexivity|]. apply emits_nil; [apply F|reflexivity]. }
    destruct G1 as [S1 G1].
    apply bind_ret in H. destruct H as (s2 & u2 & H2 & H).
    assert (G2 := cq_emits _ _ _ _ (proj1 G1) (cq_clear C) H2).
    apply on_writer_ret in H2. destruct H2 as (w2 & _ & ->). cbn [sb with_wr] in H.
    unfold sb_indices in H. destruct (area (umax E) (bsize (sb s1))) as [n|] eqn:Ea; [|discriminate].
    assert (Hn : n = total (bsize (sb s))).
    { rewrite S1 in Ea. unfold area, checked_area in Ea. destruct (_ <=? _); [|discriminate]. injection Ea as <-. reflexivity. }
    apply bind_ret in H. destruct H as (s3 & u3 & H3 & H).
    set (s2 := with_wr w2 s1) in *.
    assert (Hs2 : sb s2 = sb s) by exact S1.
    assert (F2 : frame E s2) by (constructor; [rewrite Hs2; apply F|rewrite Hs2; apply F|exact (proj1 G2)]).
    assert (G3 := draw_emits _ 0 n s2 s3 u3 F2 ltac:(now rewrite Hs2) ltac:(now rewrite Hs2) ltac:(lia) eq_refl H3).
    apply bind_ret in H. destruct H as (s4 & u4 & H4 & H).
    assert (G4 := cq_emits _ _ _ _ (proj1 G3) (cq_clear C) H4).
    apply final_move in H. assert (G5 := move_emits _ _ _ _ (proj1 G4) H).
    destruct (goes_flush _ _ _ (proj1 G5) Hfl) as (T1 & T2 & T3 & T4 & T5 & T6 & T7).
    assert (G6 : emits sc s' []).
    { split; [assumption|]. exists []. rewrite app_nil_r. split; [assumption|]. constructor. constructor. }
    assert (G := emits_trans _ _ _ _ _ G1 (emits_trans _ _ _ _ _ G2 (emits_trans _ _ _ _ _ G3
                (emits_trans _ _ _ _ _ G4 (emits_trans _ _ _ _ _ G5 G6))))).
    cbn [app] in G. rewrite !app_nil_r in G. rewrite Hs2, Nat.sub_0_r, Hn in G. exact G.
  Qed.

  (** ** No panics *)
  Lemma next_cell_val hi b : buf_ok E b -> hi = total (bsize b) -> forall fuel lo,
    exists r, next_cell_aux E fuel b lo hi = Val r /\
      match r with
      | (b', lo', Some (p, c)) => in_bounds p (bsize b) /\ buf_ok E b' /\ bsize b' = bsize b /\ bcur b' = bcur b /\
                                  lo < hi /\ lo < lo'
      | (b', _, None) => b' = b
      end.
  Proof.
    intros Hb Hhi. assert (Hb' := Hb). destruct Hb' as (B1 & B2 & B3 & B4).
    induction fuel as [|fuel IH]; intros lo; cbn [next_cell_aux]; [eexists; split; [reflexivity|reflexivity]|].
    destruct (Nat.leb_spec hi lo); [eexists; split; [reflexivity|reflexivity]|].
    destruct (nth_error (buffer b) lo) as [c|] eqn:Ec; [|apply nth_error_None in Ec; lia].
    destruct (nth_error (back b) lo) as [k|] eqn:Ek; [|apply nth_error_None in Ek; lia].
    assert (Ht : ctext c <> []) by (eapply (cell_nonempty E); eauto).
    unfold first_char. destruct (ctext c) as [|ch r]; [congruence|].
    fold (wstep E ch lo hi). assert (Hst : lo < wstep E ch lo hi) by (unfold wstep; destruct (_ && _); lia).
    destruct (cell_eqb c k).
    - destruct (IH (wstep E ch lo hi)) as ([[b' lo'] [[p c']|]] & R1 & R2); rewrite R1; eexists; (split; [reflexivity|]); cbn in *.
      + destruct R2 as (R2 & R3 & R4 & R5 & R6 & R7). repeat (split; [solve [auto|lia]|]). lia.
      + assumption.
    - destruct (columns (bsize b)) as [|cl] eqn:Ecl; [unfold total in Hhi; rewrite Ecl in Hhi; lia|].
      rewrite vec_set_upd by lia. eexists. split; [reflexivity|]. cbn [bsize bcur with_back].
      split; [rewrite <- Ecl; apply P_Screen.cell_pos_in; lia|].
      split; [apply (buf_ok_back E); [assumption|lia]|]. repeat (split; [reflexivity|]). lia.
  Qed.

  Definition no_panic (r : sres) : Prop := match r with Panic => False | _ => True end.

  Lemma move_total p s : whole_writes (script (wr s)) ->
    match s_move_cursor C p s with
    | Ret s' _ => sb s' = sb s /\ real s' = p /\ whole_writes (script (wr s'))
    | Panic => False | _ => True end.
  Proof.
    intros Hw. assert (Hk := fun s' u => move_keeps E C p s s' u). assert (He := fun s' u => move_emits p s s' u Hw).
    destruct (s_move_cursor C p s) as [s' u| | |] eqn:Em; auto.
    - destruct (Hk s' u eq_refl) as (K1 & _ & K3 & _). destruct (He s' u eq_refl) as (W & _). auto.
    - unfold s_move_cursor in Em. destruct (cursor_eqb _ _); [discriminate|]. unfold on_writer in Em.
      assert (Hm := move_cursor_moves E C p (wr s)). cbn [run_wop] in Hm.
      destruct (move_cursor C p (wr s)); cbn [obind] in Em; try discriminate. contradiction.
  Qed.

  Lemma adv_total f s : whole_writes (script (wr s)) -> (forall w, ok (f w) (fun w' => script w' = script w)) ->
    match on_writer f s with
    | Ret s' _ => sb s' = sb s /\ real s' = real s /\ whole_writes (script (wr s'))
    | Panic => False | _ => True end.
  Proof.
    intros Hw Hf. specialize (Hf (wr s)). unfold on_writer. destruct (f (wr s)); cbn in *; auto.
    split; [reflexivity|]. split; [reflexivity|]. congruence.
  Qed.

  Lemma attrs_total a w : ok (set_attrs C a w) (fun w' => script w' = script w).
  Proof. eapply ok_impl; [apply set_attrs_adv|]. intros w' (_ & _ & H & _). exact H. Qed.
  Lemma clear_total w : ok (clear_attributes C w) (fun w' => script w' = script w).
  Proof. eapply ok_impl; [apply clear_adv|]. intros w' (_ & _ & H & _). exact H. Qed.

  Lemma write_total t s : whole_writes (script (wr s)) ->
    match on_writer (write_str C t) s with
    | Ret s' _ => sb s' = sb s /\ real s' = real s /\ whole_writes (script (wr s'))
    | Panic => False | _ => True end.
  Proof.
    intros Hw. unfold on_writer, write_str. assert (Hb := write_bytes_whole C (utf8s t) (wr s) Hw).
    destruct (write_bytes C (utf8s t) (wr s)); auto. cbn. repeat split; auto. apply Hb.
  Qed.

  Lemma draw_total fuel : forall lo hi s, hi - lo <= fuel -> hi = total (bsize (sb s)) ->
    buf_ok E (sb s) -> whole_writes (script (wr s)) ->
    match draw E C fuel lo hi s with
    | Ret s' _ => bsize (sb s') = bsize (sb s) /\ whole_writes (script (wr s'))
    | Panic => False | _ => True end.
  Proof.
    induction fuel as [|fuel IH]; intros lo hi s Hfu Hhi Hb Hw; cbn [draw]; unfold next_cell;
      destruct (next_cell_val hi (sb s) Hb Hhi (hi - lo) lo) as ([[b' lo'] [[p c]|]] & R1 & R2); rewrite R1.
    1: destruct R2 as (_ & _ & _ & _ & R2 & _); lia.
    1, 3: subst b'; cbn; auto.
    destruct R2 as (P1 & P2 & P3 & P4 & P5 & P6).
    assert (M := move_total p (with_sb b' s) Hw). destruct (s_move_cursor C p (with_sb b' s)) as [s1 u1| | |]; cbn [obind]; auto.
    destruct M as (M1 & M2 & M3).
    assert (A := adv_total _ s1 M3 (attrs_total (cattrs c))).
    destruct (on_writer (set_attrs C (cattrs c)) s1) as [s2 u2| | |]; cbn [obind]; auto. destruct A as (A1 & A2 & A3).
    assert (T := write_total (ctext c) s2 A3).
    destruct (on_writer (write_str C (ctext c)) s2) as [s3 u3| | |]; cbn [obind]; auto. destruct T as (T1 & T2 & T3).
    assert (Hr : real s3 = p) by congruence. rewrite Hr.
    destruct Hb as (B1 & _). destruct (lines_bound _ _ _ B1 P1) as [_ Hcb].
    unfold uadd. destruct (Nat.leb_spec (column p + 1) (umax E)); [|lia].
    assert (Hs3 : sb s3 = b') by (rewrite T1, A1, M1; reflexivity).
    specialize (IH lo' hi (with_real (Cursor (line p) (column p + 1)) s3)). cbn [sb wr with_real] in IH.
    rewrite Hs3 in IH. specialize (IH ltac:(lia) ltac:(congruence) P2 T3).
    destruct (draw E C fuel lo' hi _); auto. destruct IH. split; congruence.
  Qed.

  Lemma refresh_total s : buf_ok E (sb s) -> 0 < lines (bsize (sb s)) -> 0 < columns (bsize (sb s)) ->
    whole_writes (script (wr s)) -> refresh E C s <> Panic.
  Proof.
    intros Hb Hl Hc Hw. assert (no_panic (refresh E C s)); [|intros Hx; rewrite Hx in *; assumption].
    unfold refresh, compose.
    assert (H1 : match (if clr s then let! (s, _u) := on_writer (clear_screen C) s in Ret (with_clr false s) tt else Ret s tt) with
                 | Ret s' _ => sb s' = sb s /\ whole_writes (script (wr s')) | Panic => False | _ => True end).
    { destruct (clr s); [|auto]. unfold on_writer. assert (Hq := quiet_req C ClearScreen [] (wr s)). unfold clear_screen.
      unfold expand_req, expand in *. destruct (info C ClearScreen) as [e|]; [|exact I].
      destruct (e (wctx (wr s)) []) as [[bs k] []]; [|exact I]. split; [reflexivity|assumption]. }
    destruct (if clr s then _ else _) as [s1 u1| | |]; cbn [obind no_panic]; auto. destruct H1 as [S1 W1].
    assert (A := adv_total _ s1 W1 clear_total).
    destruct (on_writer (clear_attributes C) s1) as [s2 u2| | |]; cbn [obind no_panic]; auto. destruct A as (A1 & A2 & A3).
    assert (Hs2 : sb s2 = sb s) by congruence. assert (Hb' := Hb). destruct Hb' as (B1 & _).
    unfold sb_indices, area, checked_area. rewrite Hs2. unfold total in B1.
    destruct (Nat.leb_spec (lines (bsize (sb s)) * columns (bsize (sb s))) (umax E)); [|lia].
    set (n := lines (bsize (sb s)) * columns (bsize (sb s))) in *.
    assert (D := draw_total (n - 0) 0 n s2 (le_n _)). rewrite Hs2 in D. specialize (D eq_refl Hb A3).
    destruct (draw E C (n - 0) 0 n s2) as [s3 u3| | |]; cbn [obind no_panic]; auto. destruct D as (D1 & D2).
    assert (A' := adv_total _ s3 D2 clear_total).
    destruct (on_writer (clear_attributes C) s3) as [s4 u4| | |]; cbn [obind no_panic]; auto. destruct A' as (A4 & A5 & A6).
    assert (Hm : match (if is_out_of_bounds (bcur (sb s4)) (bsize (sb s4))
              then match cursor_last (bsize (sb s4)) with Val p => s_move_cursor C p s4 | Boom => Panic end
              else s_move_cursor C (bcur (sb s4)) s4) with
              | Ret s' _ => whole_writes (script (wr s')) | Panic => False | _ => True end).
    { destruct (is_out_of_bounds _ _).
      - unfold cursor_last, usub. rewrite A4, D1. destruct (Nat.leb_spec 1 (lines (bsize (sb s)))); [|lia].
        destruct (Nat.leb_spec 1 (columns (bsize (sb s)))); [|lia].
        assert (M := move_total (Cursor (lines (bsize (sb s)) - 1) (columns (bsize (sb s)) - 1)) s4 A6).
        destruct (s_move_cursor C _ s4); auto. apply M.
      - assert (M := move_total (bcur (sb s4)) s4 A6). destruct (s_move_cursor C _ s4); auto. apply M. }
    match goal with |- no_panic (obind ?m _) => set (r := m); change (match r with Ret s' _ => whole_writes (script (wr s')) | Panic => False | _ => True end) in Hm end.
    destruct r as [s5 u5| | |]; cbn [obind no_panic]; auto.
    unfold on_writer. assert (Hf := flush_whole (wr s5) Hm). destruct (flush (wr s5)); cbn [no_panic]; auto.
  Qed.
End Output.
