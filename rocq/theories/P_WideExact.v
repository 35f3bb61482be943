From Verif Require Import Base M_Utf8 S_Utf8 M_Geom S_Geom P_Geom M_Attr S_Buf M_Writer S_Tty S_Writer
  M_Screen S_Screen P_Buf P_Buf2 P_Buf3 P_Screen P_Screen2 P_Screen5 M_Api M_ScreenApi M_Buf S_Canvas P_Canvas S_WideCanvas
  P_WideCanvas S_WideExact.

(** Where a character is not easy, the screen does not hold the canvas afterwards. *)
Section WideExact.
  Variable E : env.
  Hypothesis HE : env_ok E.

  Lemma space_narrow c : wide E c -> c <> 32%N.
  Proof. intros (_ & H) ->. change 32%N with SPACE in H. destruct HE as (X & _). congruence. Qed.

  Lemma hard_differs b k c : wfits E b k -> 2 <= columns (wsize k) -> hard_char E c k ->
    exists b', screen_method E (SWriteChar c) b = Val b' /\ ~ wholds b' (wdraw E (SWriteChar c) k).
  Proof.
    intros F H2. assert (F0 := F). destruct F as [F1 F2 F3 F4 F5 F6].
    intros [(Hw & Ho & Hcol)|(Hm & q & Hq & Ho & Hr)].
    - apply on_canvas_spec in Ho. rewrite <- F3, <- F4 in Ho, Hcol. rewrite <- F3 in H2.
      destruct (wide_last_column E b c F1 Ho Hw H2 Hcol) as (b' & W1 & W2 & _ & W4 & W5 & _ & W7 & _).
      exists b'. split.
      { unfold screen_method. cbn [sforward run_buf_op]. rewrite W1. now destruct (_ <? _). }
      assert (Hwt : wtyped E c k =
        if (2 <=? columns (wsize k)) && (line (wpen k) + 1 <? lines (wsize k)) then Some (put 2 c (put 1 32%N k)) else None).
      { unfold wtyped. destruct Hw as (Hp & Hw). destruct Hp as (P1 & P2 & P3 & P4 & _). apply N.eqb_neq in P1, P2, P3.
        unfold TAB, CR, LF in *. rewrite P1, P2, P3, P4, Hw. rewrite <- F3, <- F4.
        replace (on_canvas (bsize b) (bcur b)) with true by (symmetry; now apply on_canvas_spec).
        now replace (column (bcur b) + 2 <=? columns (bsize b)) with false by lia. }
      cbn [wdraw]. unfold wwrite. cbn [wtyping]. rewrite Hwt. rewrite <- F3, <- F4.
      replace (2 <=? columns (bsize b)) with true by lia. cbn [andb].
      destruct (Nat.ltb_spec (line (bcur b) + 1) (lines (bsize b))) as [Hl|Hl]; cbn [fst]; intros (_ & X2 & _ & X4).
      + assert (X := X4 (bcur b)). cbn [wsize put wset_pen wset_ink] in X. rewrite <- F3 in X. specialize (X Ho).
        rewrite W5 in X. injection X as X. unfold held in X. cbn [wink put wset_pen wset_ink wpen wsize line column] in X.
        rewrite <- F3, <- F4 in X. replace (column (bcur b) + 1 <? columns (bsize b)) with false in X by lia.
        cbn [line column] in X. replace (line (bcur b) =? line (bcur b) + 1) with false in X by lia.
        rewrite !Nat.eqb_refl in X. cbn [negb] in X. injection X as _ X. exact (space_narrow c Hw X).
      + unfold screen_get_cursor in X2. rewrite (W7 Hl), <- F4 in X2. apply (f_equal line) in X2. cbn [line] in X2. lia.
    - assert (Hm0 := Hm). destruct Hm as (M1 & M2 & M3 & M4).
      assert (Hwr : write_char E b c = 
        match cursor_previous (bcur b) (bsize b) with
        | Boom => Panic
        | Val None => Ret b tt
        | Val (Some prev) =>
            if try_cursor_at b prev then
              match get_cell E b prev with
              | Boom => Panic
              | Val ce =>
                  match put_cell E b prev (Cell (cattrs ce) (ctext ce ++ [c])) with
                  | Boom => Panic
                  | Val b => Ret b tt
                  end
              end
            else Fail b tt
        end).
      { unfold write_char, write_nontab. apply N.eqb_neq in M1, M2, M3. now rewrite M1, M2, M3, M4. }
      assert (Hpre : cursor_previous (bcur b) (bsize b) = Val (before (wsize k) (wpen k))).
      { rewrite F3, F4. unfold cursor_previous, before, usub. destruct (wpen k) as [l cc]. cbn [line column].
        destruct cc as [|cc]; cbn [Nat.eqb].
        - destruct l as [|l]; cbn [Nat.eqb]; [reflexivity|].
          replace (1 <=? columns (wsize k)) with true by lia. cbn. rewrite ?Nat.sub_0_r. reflexivity.
        - cbn. rewrite ?Nat.sub_0_r. reflexivity. }
      assert (Hin := Ho). apply on_canvas_spec in Hin.
      rewrite Hpre, Hq in Hwr. replace (try_cursor_at b q) with true in Hwr by (symmetry; apply try_cursor_at_spec; now rewrite F3).
      assert (G := F6 q Hin). unfold good_at in G. rewrite Hr in G. destruct G as (c1 & t & a & G1 & G2 & _ & G3).
      assert (Hlen : length (buffer b) = total (bsize b)) by apply F1.
      assert (Hi := cell_no_lt _ _ Hin).
      assert (Hin' : in_bounds q (bsize b)) by now rewrite F3.
      assert (B1 := proj1 F1).
      destruct (get_cell_in E b q B1 Hlen Hin') as (ce & Hg & Hce). rewrite F3 in Hce.
      assert (ce = Cell a [32%N]) as -> by (unfold cell_at in G3; congruence).
      rewrite Hg in Hwr. rewrite put_cell_in in Hwr by assumption. cbn [cattrs ctext app] in Hwr.
      eexists. split.
      { unfold screen_method. cbn [sforward run_buf_op]. rewrite Hwr. reflexivity. }
      assert (Hwt : wtyped E c k = Some (add_mark c (whole_at k q) k)).
      { unfold wtyped. apply N.eqb_neq in M1, M2, M3. unfold TAB, CR, LF in *. now rewrite M1, M2, M3, M4, Hq, Ho. }
      cbn [wdraw]. unfold wwrite. cbn [wtyping]. rewrite Hwt. cbn [fst]. intros (_ & _ & _ & X4).
      assert (X := X4 q Hin). cbn [wsize add_mark wset_ink] in X. unfold cell_at in X. cbn [buffer with_buffer] in X.
      rewrite F3 in X. rewrite nth_upd in X by (rewrite Hlen, F3; exact Hi). rewrite Nat.eqb_refl in X.
      injection X as X. unfold held, whole_at in X. cbn [wink add_mark wset_ink] in X. rewrite Hr in X. cbn [is_right line column] in X.
      replace (column q =? column q - 1) with false in X by (rewrite G1; lia). rewrite andb_false_r in X.
      discriminate X.
  Qed.

  Lemma drawn_size ms : forall b k b', wfits E b k -> all_easy E ms k -> screen_methods E ms b = Val b' ->
    wsize (wdraws E ms k) = wsize k.
  Proof.
    induction ms as [|m ms IH]; intros b k b' F Hn H; cbn [screen_methods wdraws all_easy] in *; [reflexivity|].
    destruct (screen_method E m b) as [b1|] eqn:E1; [|discriminate]. destruct Hn as [N1 N2].
    assert (F1 := wmethod_draws E HE _ _ _ _ F N1 E1). rewrite (IH _ _ _ F1 N2 H).
    assert (X := w_size _ _ _ F). assert (Y := w_size _ _ _ F1).
    destruct (op_ok E HE _ _ _ (w_ok _ _ _ F) (not_resize m) E1) as (_ & _ & Z). congruence.
  Qed.

  Lemma first_hard sz b0 ms b c : 2 <= columns sz -> all_easy E ms (wblank sz) ->
    sb_new E sz = Val b0 -> screen_methods E ms b0 = Val b -> hard_char E c (wdraws E ms (wblank sz)) ->
    exists b', screen_method E (SWriteChar c) b = Val b' /\ ~ wholds b' (wdraw E (SWriteChar c) (wdraws E ms (wblank sz))).
  Proof.
    intros H2 Hn Hb H Hh. assert (F := wmethods_draw E HE ms _ _ _ (wnew_fits E HE sz b0 ltac:(lia) Hb) Hn H).
    apply hard_differs; [exact F| |exact Hh].
    rewrite (drawn_size ms _ _ _ (wnew_fits E HE sz b0 ltac:(lia) Hb) Hn H). exact H2.
  Qed.
End WideExact.
