(** [refresh] as a whole, and histories. *)
From Verif Require Import Base M_Utf8 S_Utf8 M_Geom S_Geom M_Attr M_Buf S_Buf M_Writer S_Tty S_Writer
  M_Screen S_Screen P_Buf P_Buf2 P_Buf3 P_Buf4 P_Writer P_Attr P_Writer2 P_Writer3 P_Screen.
From Verif Require P_Geom.

Section Refresh.
  Variable E : env.
  Variable C : tcfg.
  Hypothesis HE : env_ok E.
  Hypothesis HC : env_chars E.

  Record inv (s : scr) (v : view) : Prop := {
    i_frame : frame E s;
    i_size : vsize v = bsize (sb s);
    i_len : length (vcells v) = total (bsize (sb s));
    i_attr : vattrs v = shown_attrs C (wat (wr s));
    i_sync : clr s = false ->
      (forall j, synced_at E C (sb s) v j) /\
      (vcur v = real s \/ (in_bounds (real s) (bsize (sb s)) /\
         nth_error (vcells v) (cell_no (bsize (sb s)) (real s)) = Some VTrail));
    i_inval : clr s = true -> all_invalid (sb s);
    i_left : clr s = false -> forall j, nth_error (vcells v) j = Some VTrail -> belongs E 0 (sb s) v j
  }.

  Notation goes := (goes E C).

  Lemma last_goal sz p : cursor_last sz = Val p -> p = Cursor (lines sz - 1) (columns sz - 1).
  Proof.
    unfold cursor_last, usub. destruct (1 <=? lines sz); [|discriminate]. destruct (1 <=? columns sz); [|discriminate].
    intros H. injection H as <-. reflexivity.
  Qed.

  Lemma goal_in b : screen_size (bsize b) -> in_bounds (cursor_goal b) (bsize b).
  Proof.
    intros (H1 & H2 & _). unfold cursor_goal, in_bounds.
    destruct (Nat.ltb_spec (line (bcur b)) (lines (bsize b))); cbn [andb];
      [destruct (Nat.ltb_spec (column (bcur b)) (columns (bsize b)))|]; cbn [line column]; lia.
  Qed.

  (** The last step of [compose]. *)
  Lemma final_move s s' u :
    (if is_out_of_bounds (bcur (sb s)) (bsize (sb s)) then
       match cursor_last (bsize (sb s)) with
       | Boom => Panic
       | Val p => s_move_cursor C p s
       end
     else s_move_cursor C (bcur (sb s)) s) = Ret s' u ->
    s_move_cursor C (cursor_goal (sb s)) s = Ret s' u.
  Proof.
    unfold is_out_of_bounds, cursor_goal.
    destruct (Nat.leb_spec (lines (bsize (sb s))) (line (bcur (sb s))));
      destruct (Nat.ltb_spec (line (bcur (sb s))) (lines (bsize (sb s)))); try lia; cbn [orb andb].
    - destruct (cursor_last (bsize (sb s))) eqn:El; [|discriminate]. apply last_goal in El. now subst.
    - destruct (Nat.leb_spec (columns (bsize (sb s))) (column (bcur (sb s))));
        destruct (Nat.ltb_spec (column (bcur (sb s))) (columns (bsize (sb s)))); try lia; auto.
      destruct (cursor_last (bsize (sb s))) eqn:El; [|discriminate]. apply last_goal in El. now subst.
  Qed.

  (** Ready to draw: the terminal agrees with the buffer as far as the loop needs. *)
  Lemma loop_start s v : inv s v -> clr s = false -> mended E v (sb s) -> loop E C 0 s v.
  Proof.
    intros [F I1 I2 I3 I4 I5 I6] Hc Hu. destruct (I4 Hc) as [Hs Hcur]. constructor; auto.
    - intros; lia.
    - destruct Hcur as [Hcur|(Hb & Ht)]; [now left|]. right. left. split; [assumption|]. now right.
  Qed.

  Lemma total_pos b : screen_size (bsize b) -> 0 < total (bsize b).
  Proof. intros (H1 & H2 & _). unfold total. nia. Qed.

  Definition done (s' : scr) (v' : view) : Prop :=
    inv s' v' /\ shows E C v' (sb s') /\ vattrs v' = no_attrs /\
    (vcur v' = cursor_goal (sb s') \/ half E (sb s') (cell_no (bsize (sb s')) (cursor_goal (sb s'))) = true).

  (** Every cell is drawn, but those covered by double-width characters. *)
  Definition kept (s s' : scr) : Prop :=
    caught_up E (total (bsize (sb s'))) (sb s') /\
    forall j, half E (sb s) j = true -> nth_error (back (sb s')) j = nth_error (back (sb s)) j.

  Lemma compose_kept s s' u : frame E s -> wides_fit E (sb s) ->
    compose E C s = Ret s' u ->
    frame E s' /\ sb s' = with_back (sb s) (back (sb s')) /\ clr s' = false /\ wat (wr s') = no_attrs /\
    kept s s' /\
    goes s s' (fun v => inv s v /\ (clr s = false -> mended E v (sb s))) (fun _ v' => done s' v').
  Proof.
    intros F Hf H. unfold compose in H.
    apply bind_ret in H. destruct H as (s1 & u1 & H1 & H).
    apply bind_ret in H. destruct H as (s2 & u2 & H2 & H).
    (* clearing the screen *)
    assert (Hclr : sb s1 = sb s /\ clr s1 = false /\
      goes s s1 (fun v => inv s v /\ (clr s = false -> mended E v (sb s))) (fun _ v' => loop E C 0 s1 v')).
    { destruct (clr s) eqn:Ec.
      - apply bind_ret in H1. destruct H1 as (s0 & u0 & H0 & H1). injection H1 as <- _.
        apply on_writer_ret in H0. destruct H0 as (w & H0 & ->).
        split; [reflexivity|]. split; [reflexivity|].
        destruct (clear_effect E C OClearScreen (wr s) w u0 ltac:(auto) H0) as (X1 & X2 & X3 & x & X4 & X5).
        split; [cbn; rewrite X2; apply F|]. exists x. cbn [wr with_clr with_wr].
        split; [unfold stream; now rewrite X1, X4, app_assoc|].
        intros K _ HK t v Hl [Hi _]. destruct (X5 K HK t v Hl ltac:(congruence)) as (v' & V1 & V2 & V3 & V4 & V5 & V6 & V7).
        exists v'. split; [assumption|]. destruct Hi as [_ I1 I2 I3 I4 I5].
        cbn zeta in *.
        assert (Hlen : length (vcells v') = total (vsize v')) by exact (look_ok _ _ _ HK _ _ V1).
        assert (Hblank : forall j, nth_error (vcells v') j <> Some VTrail).
        { intros j Hj. assert (j < total (vsize v)).
          { rewrite <- V2, <- Hlen. apply nth_error_Some. congruence. }
          destruct (V7 j ltac:(lia)) as (a & Ha & _). congruence. }
        constructor; cbn [sb wr real with_clr with_wr].
        + congruence.
        + rewrite Hlen. congruence.
        + congruence.
        + reflexivity.
        + intros; lia.
        + intros j _ Hj. now destruct (Hblank j).
        + intros j _ Hj. now destruct (Hblank j).
        + intros j _. left. intros k Hk Hkt. destruct (Hkt (I5 Ec j k Hk)).
        + right. right. split; [reflexivity|]. split; [assumption|]. exact (I5 Ec).
      - injection H1 as <- _. split; [reflexivity|]. split; [assumption|].
        apply goes_refl; [apply F|reflexivity|]. intros v [Hi Hu]. apply loop_start; auto. }
    destruct Hclr as (S1 & C1 & G1).
    destruct (clear_goes E C _ _ _ (proj1 G1) H2) as (A1 & A2 & A3 & A4 & G2).
    assert (F2 : frame E s2).
    { destruct F as [F1 F2 F3]. constructor; [now rewrite A1, S1|now rewrite A1, S1|exact (proj1 G2)]. }
    assert (G12 : goes s s2 (fun v => inv s v /\ (clr s = false -> mended E v (sb s))) (fun _ v' => loop E C 0 s2 v')).
    { eapply goes_trans; [exact G1|exact G2| |].
      - cbn beta. intros v v' _ L. exact (l_attr _ _ _ _ _ L).
      - cbn beta. intros v v' v'' _ [L1 L2 L3 L4 L5 L6 Ll L7 L8] ->.
        constructor; rewrite ?A1, ?A3, ?A4; auto. cbn. now rewrite shown_none. }
    assert (Hs2 : sb s2 = sb s) by congruence.
    unfold sb_indices in H. destruct (area (umax E) (bsize (sb s2))) as [n|] eqn:Ea; [|discriminate].
    assert (Hn : n = total (bsize (sb s2))).
    { unfold area, checked_area in Ea. destruct (_ <=? _); [|discriminate]. injection Ea as <-. reflexivity. }
    apply bind_ret in H. destruct H as (s3 & u3 & H3 & H).
    apply bind_ret in H. destruct H as (s4 & u4 & H4 & H).
    destruct (draw_spec E C HC (n - 0) 0 n s2 s3 u3 F2) as (D1 & D2 & D3 & D4 & Dk); auto; try lia.
    { now rewrite Hs2. }
    { intros j Hj. lia. }
    destruct (clear_goes E C _ _ _ (f_whole _ _ D2) H4) as (B1 & B2 & B3 & B4 & G5).
    apply final_move in H.
    destruct (move_goes E C _ _ _ _ (proj1 G5) H) as (M1 & M2 & M3 & M4 & G6).
    assert (Hb : sb s' = with_back (sb s) (back (sb s'))).
    { rewrite M1, B1. destruct D1 as (D1 & _). rewrite D1, Hs2. reflexivity. }
    assert (F' : frame E s').
    { destruct D2 as [F3 F4 F5]. constructor; [rewrite M1, B1; exact F3|rewrite M1, B1; exact F4|exact (proj1 G6)]. }
    split; [assumption|]. split; [assumption|]. split.
    { destruct D1 as (_ & _ & Dc). congruence. }
    split; [congruence|].
    assert (Hsz : screen_size (bsize (sb s'))) by apply F'.
    assert (Hfit' : wides_fit E (sb s')) by (rewrite Hb; exact Hf).
    assert (Hok' : buf_ok E (sb s')) by apply F'.
    assert (Hcu : caught_up E (total (bsize (sb s'))) (sb s')).
    { replace (total (bsize (sb s'))) with n; [rewrite M1, B1; exact D3|].
      rewrite Hn, Hs2, Hb. reflexivity. }
    split.
    { split; [exact Hcu|]. intros j Hj. rewrite M1, B1, Dk, Hs2; [reflexivity|]. rewrite Hs2. exact Hj. }
    eapply goes_trans; [exact G12| |intros; eassumption|intros v v' v'' _ _ HR; exact HR].
    eapply goes_trans; [exact D4| |intros; eassumption|intros v v' v'' _ _ HR; exact HR].
    eapply goes_weaken with (P' := fun v => loop E C n s3 v) (R' := fun v v' => loop E C n s3 v /\ v' = set_vattrs no_attrs v) in G5;
      [|intros v L; exact (l_attr _ _ _ _ _ L)|auto].
    eapply goes_trans; [exact G5|exact G6| |].
    - cbn beta. intros v v' _ [L ->]. cbn [vsize set_vattrs]. rewrite (l_size _ _ _ _ _ L), <- B1.
      split; [|rewrite <- M1; exact Hsz]. apply goal_in. now rewrite <- M1.
    - cbn beta. intros v v' v'' _ [L ->] HR.
      destruct L as [L1 L2 L3 L4 L5 L6 Ll L7 L8].
      assert (Hs3 : sb s' = sb s3) by congruence.
      assert (Htot : n = total (bsize (sb s'))) by (rewrite Hn, Hs2, Hb; reflexivity).
      rewrite <- Hs3 in *. rewrite B1, B3 in HR.
      set (v1 := set_vattrs no_attrs v) in *.
      assert (Hv'' : vsize v'' = vsize v /\ vcells v'' = vcells v /\ vattrs v'' = no_attrs /\
                (vcur v'' = cursor_goal (sb s') \/ half E (sb s') (cell_no (bsize (sb s')) (cursor_goal (sb s'))) = true)).
      { destruct HR as [HR1 HR2]. destruct (cursor_eqb (real s3) (cursor_goal (sb s'))) eqn:Eg.
        - apply cursor_eqb_eq in Eg. rewrite (HR1 Eg). repeat (split; [reflexivity|]). cbn [v1 vcur set_vattrs].
          assert (Hp : 0 < total (bsize (sb s'))) by now apply total_pos.
          assert (Hge : cell_no (bsize (sb s')) (cursor_goal (sb s')) < total (bsize (sb s'))).
          { apply P_Geom.cell_no_lt. now apply goal_in. }
          rewrite <- Eg in *. destruct L8 as [L8|[(_ & [L8|L8])|(L8 & _)]]; auto.
          { right. destruct (nth_error (buffer (sb s')) (cell_no (bsize (sb s')) (real s3))) as [c|] eqn:Ec.
            - assert (Hd := L5 (cell_no (bsize (sb s')) (real s3)) c ltac:(rewrite Htot; exact Hge) Ec). destruct (half E (sb s') (cell_no (bsize (sb s')) (real s3))); [reflexivity|]. rewrite Hd in L8. discriminate L8.
            - apply nth_error_None in Ec. destruct Hok' as (_ & Hl & _). lia. }
          assert (0 < total (bsize (sb s'))) by now apply total_pos. lia.
        - rewrite HR2 by (intros Hx; apply cursor_eqb_eq in Hx; congruence). repeat (split; [reflexivity|]). now left. }
      destruct Hv'' as (V1 & V2 & V3 & V4).
      assert (Hshow : shows E C v'' (sb s')).
      { split; [congruence|]. intros i c Hc. rewrite V2. apply L5; [|assumption].
        rewrite Htot. destruct Hok' as (_ & Hl & _). rewrite <- Hl. apply nth_error_Some. unfold cell_at in Hc. congruence. }
      split; [|split; [exact Hshow|split; assumption]].
      destruct Hshow as (W1 & W2).
      assert (Hhalf : forall j, half E (sb s') j = true -> nth_error (vcells v'') j = Some VTrail).
      { intros j Hj. destruct j as [|j]; [discriminate|]. cbn [half] in Hj.
        assert (S j < total (bsize (sb s'))) by (apply (wide_room E); auto; apply Hsz).
        destruct (nth_error (buffer (sb s')) (S j)) as [c|] eqn:Ec.
        - rewrite (W2 (S j) c Ec). cbn [half]. now rewrite Hj.
        - apply nth_error_None in Ec. destruct Hok' as (_ & Hl & _). lia. }
      constructor; auto.
      + congruence.
      + rewrite V3, M4, B4. symmetry. apply shown_none.
      + intros _. split.
        * intros j k Hk Hkt Hkv. destruct (half E (sb s') j) eqn:Eh; [now destruct (Hkv (Hhalf j Eh))|].
          assert (Hj : j < total (bsize (sb s'))).
          { destruct Hok' as (_ & _ & Hl & _). rewrite <- Hl. apply nth_error_Some. congruence. }
          rewrite (Hcu j Hj Eh) in Hk. split; [rewrite (W2 j k Hk), Eh; reflexivity|].
          intros Hw. apply Hhalf. cbn [half]. rewrite <- Hw. symmetry. now apply is_wide_at.
        * rewrite M3, B1. destruct V4 as [V4|V4]; [now left|]. right. split; [now apply goal_in|]. now apply Hhalf.
      + intros Hx. destruct D1 as (_ & _ & Dc). congruence.
      + intros _ j Hj.
        assert (Hjl : j < total (bsize (sb s'))).
        { rewrite <- L2, <- V2. apply nth_error_Some. congruence. }
        destruct (nth_error (buffer (sb s')) j) as [c|] eqn:Ec.
        2: { apply nth_error_None in Ec. destruct Hok' as (_ & Hl & _). lia. }
        destruct (half E (sb s') j) eqn:Eh; [|rewrite (W2 j c Ec), Eh in Hj; discriminate Hj].
        destruct j as [|j]; [discriminate Eh|]. assert (Hjh := half_before E _ _ Hfit' Eh). cbn [half] in Eh.
        destruct (cell_at (sb s') j) as [k|] eqn:Ek; [|unfold wide_at in Eh; rewrite Ek in Eh; discriminate Eh].
        exists j, k. split; [reflexivity|]. split; [lia|]. split; [rewrite (Hcu j ltac:(lia) Hjh); exact Ek|].
        split; [rewrite (is_wide_at E _ _ _ Ek); exact Eh|]. rewrite (W2 j k Ek), Hjh. discriminate.
  Qed.

  Lemma compose_spec s s' u : frame E s -> wides_fit E (sb s) ->
    compose E C s = Ret s' u ->
    frame E s' /\ sb s' = with_back (sb s) (back (sb s')) /\ clr s' = false /\ wat (wr s') = no_attrs /\
    goes s s' (fun v => inv s v /\ (clr s = false -> mended E v (sb s))) (fun _ v' => done s' v').
  Proof. intros F Hf H. destruct (compose_kept s s' u F Hf H) as (A & B & D & G & _ & I). auto. Qed.

  Lemma goes_flush s s' u : whole_writes (script (wr s)) -> on_writer flush s = Ret s' u ->
    obuf (wr s') = [] /\ sb s' = sb s /\ clr s' = clr s /\ real s' = real s /\ wat (wr s') = wat (wr s) /\
    whole_writes (script (wr s')) /\ stream (wr s') = stream (wr s).
  Proof.
    intros Hw H. apply on_writer_ret in H. destruct H as (w & H & ->).
    assert (Hf := flush_whole (wr s) Hw). rewrite H in Hf. destruct Hf as (F1 & (F2 & _) & F3 & F4 & F5).
    cbn. repeat (split; [auto|]). unfold stream. rewrite F4, F5. now rewrite app_nil_r.
  Qed.

  Lemma flush_failed s s' e : whole_writes (script (wr s)) -> on_writer flush s = Fail s' e ->
    sb s' = sb s /\ clr s' = clr s /\ real s' = real s /\ wat (wr s') = wat (wr s) /\
    whole_writes (script (wr s')) /\ stream (wr s') = stream (wr s).
  Proof.
    intros Hw H. unfold on_writer in H. assert (Hf := flush_whole (wr s) Hw).
    destruct (flush (wr s)) as [| w e'| |]; try discriminate. injection H as <- <-.
    destruct Hf as (F1 & (F2 & _) & F3 & F4 & F5).
    cbn. repeat (split; [auto|]). unfold stream. rewrite F4, F5. reflexivity.
  Qed.

  Lemma done_same s s' v : sb s' = sb s -> clr s' = clr s -> real s' = real s -> wat (wr s') = wat (wr s) ->
    whole_writes (script (wr s')) -> done s v -> done s' v.
  Proof.
    intros H1 H2 H3 H4 H5 ([[F1 F2 F3] I1 I2 I3 I4 I5 I6] & D2 & D3 & D4).
    unfold done. rewrite H1. split; [|auto].
    constructor; rewrite ?H1, ?H2, ?H3, ?H4; auto. constructor; rewrite ?H1; auto.
  Qed.

  Lemma refresh_spec s s' u : frame E s -> wides_fit E (sb s) ->
    refresh E C s = Ret s' u ->
    sb s' = with_back (sb s) (back (sb s')) /\ clr s' = false /\ wat (wr s') = no_attrs /\ obuf (wr s') = [] /\
    goes s s' (fun v => inv s v /\ (clr s = false -> mended E v (sb s))) (fun _ v' => done s' v').
  Proof.
    intros F Hf H. unfold refresh in H. apply bind_ret in H. destruct H as (s1 & u1 & H1 & H).
    destruct (compose_spec _ _ _ F Hf H1) as (S1 & S2 & S3 & S4 & S5).
    destruct (goes_flush _ _ _ (f_whole _ _ S1) H) as (T1 & T2 & T3 & T4 & T5 & T6 & T7).
    rewrite T2. split; [assumption|]. split; [congruence|]. split; [congruence|]. split; [assumption|].
    destruct S5 as (_ & x & X1 & X2). split; [assumption|]. exists x. split; [congruence|].
    intros K Hco HK t v Hl Hp. destruct (X2 K Hco HK t v Hl Hp) as (v' & V1 & V2). exists v'. split; [assumption|].
    now apply (done_same s1).
  Qed.

  Lemma refresh_kept s s' u : frame E s -> wides_fit E (sb s) -> refresh E C s = Ret s' u -> kept s s'.
  Proof.
    intros F Hf H. unfold refresh in H. apply bind_ret in H. destruct H as (s1 & u1 & H1 & H).
    destruct (compose_kept _ _ _ F Hf H1) as (S1 & S2 & S3 & S4 & S5 & _).
    destruct (goes_flush _ _ _ (f_whole _ _ S1) H) as (_ & T2 & _). unfold kept in *. now rewrite T2.
  Qed.

  (** ** Histories *)
  Lemma ctx_text_ok : forall ch, good_char E (cell_text_ok E) ch.
  Proof.
    intros ch. split.
    - intros H. exists ch, []. auto.
    - intros H t (c & ms & -> & Hc & Hm). exists c, (ms ++ [ch]). split; [reflexivity|]. split; [assumption|].
      apply Forall_app. auto.
  Qed.

  Lemma op_ok b o b' : buf_ok E b -> (forall sz, o <> BResize sz) -> run_buf_op E b o = Val b' ->
    buf_ok E b' /\ back b' = back b /\ bsize b' = bsize b.
  Proof.
    intros (B1 & B2 & B3 & B4) Hr H.
    assert (Hsp : cell_text_ok E [SPACE]) by exact (cell_ok_blank E HE).
    assert (Hg : Forall (good_char E (cell_text_ok E)) (op_text o)) by (apply Forall_forall; intros; apply ctx_text_ok).
    destruct (op_kept E HE (cell_text_ok E) Hsp b o b' Hr Hg H) as (K1 & K2 & K3 & K4).
    split; [|auto]. unfold buf_ok. rewrite K1, K2, K3. repeat split; auto. now apply K4.
  Qed.

  Definition narrow_text (t : list N) : Prop := match t with x :: _ => ~ wide E x | [] => True end.

  Lemma op_narrow b o b' : (forall sz, o <> BResize sz) -> no_wide E (op_text o) -> run_buf_op E b o = Val b' ->
    Forall (fun c => narrow_text (ctext c)) (buffer b) -> Forall (fun c => narrow_text (ctext c)) (buffer b').
  Proof.
    intros Hr Hn H Hb.
    assert (Hsp : narrow_text [SPACE]) by exact (space_not_wide E HE).
    assert (Hg : Forall (good_char E narrow_text) (op_text o)).
    { eapply Forall_impl; [|exact Hn]. intros ch Hch. split; [auto|]. intros Hm [|x t] Ht; [|exact Ht].
      cbn. destruct Hm as (_ & _ & _ & Hm). intros (Hw & _). 
      destruct Hw as (_ & _ & _ & Hw & _). congruence. }
    destruct (op_kept E HE narrow_text Hsp b o b' Hr Hg H) as (K1 & K2 & K3 & K4). now apply K4.
  Qed.

  Lemma mode_goes m s s' u : whole_writes (script (wr s)) -> on_writer (set_cursor_mode C m) s = Ret s' u ->
    sb s' = sb s /\ clr s' = clr s /\ real s' = real s /\ wat (wr s') = wat (wr s) /\
    goes s s' (fun _ => True) (fun v v' => exists b, v' = set_vvis b v).
  Proof.
    intros Hw H. apply on_writer_ret in H. destruct H as (w & H & ->).
    assert (Hm : exists c, (c = CursorNormal \/ c = CursorInvisible) /\ expand_opt C c [] (wr s) = Ret w u).
    { destruct m; eauto. }
    destruct Hm as (c & Hc & Hm). unfold expand_opt in Hm. cbn [sb clr real wr with_wr].
    do 3 (split; [reflexivity|]). destruct (info C c) as [e|] eqn:Ei.
    - destruct (expand_effect E C c e [] (wr s) w u Ei Hm) as (X1 & X2 & X3 & x & X4 & X5).
      split; [assumption|]. split; [cbn; congruence|]. exists x. cbn [wr with_wr].
      split; [unfold stream; now rewrite X1, X4, app_assoc|].
      intros K _ HK t v Hl _. destruct (X5 K HK t v Hl) as (v' & V1 & V2).
      { destruct Hc as [->| ->]; exact I. }
      exists v'. split; [assumption|]. destruct Hc as [->| ->]; cbn in V2; eauto.
    - injection Hm as <- _. split; [reflexivity|]. apply goes_refl; auto. intros v _. exists (vvis v). now destruct v.
  Qed.

  Variable K : tty.
  Hypothesis Hco : caps_coherent C.
  Hypothesis HK : implements E C K.

  Lemma goes_here s s' (P : view -> Prop) (R : view -> view -> Prop) x t v : goes s s' P R ->
    stream (wr s') = stream (wr s) ++ x -> look K t = Some v -> P v ->
    exists v', look K (feed K t x) = Some v' /\ R v v'.
  Proof.
    intros (_ & y & Y1 & Y2) Hx Hl Hp. rewrite Y1 in Hx. apply app_inv_head in Hx. subst y. eauto.
  Qed.

  Lemma sb_resize_ok b new b' : buf_ok E b -> screen_size new -> sb_resize E b new = Val b' ->
    buf_ok E b' /\ bsize b' = new /\ all_invalid b' /\
    forall T : list N -> Prop, T [SPACE] -> Forall (fun c => T (ctext c)) (buffer b) -> Forall (fun c => T (ctext c)) (buffer b').
  Proof.
    intros Hb (N1 & N2 & _) H.
    assert (Ht : total new <= umax E).
    { unfold sb_resize in H. destruct (resize_buffer _ _ _ _); [|discriminate]. unfold new_buffer, area, checked_area in H.
      unfold total. destruct (Nat.leb_spec (lines new * columns new) (umax E)); [assumption|discriminate]. }
    destruct (resize_buf_ok E b new HE Hb ltac:(lia) Ht) as (b2 & R1 & R2 & R3 & R4).
    rewrite H in R1. injection R1 as <-. split; [assumption|]. split; [assumption|].
    destruct Hb as (B1 & B2 & B3 & B4).
    destruct (sb_resize_spec E b new B2 ltac:(lia) Ht) as (l & R5 & R6 & R7). rewrite H in R5. injection R5 as ->.
    split.
    - intros j k Hj. cbn in Hj. apply nth_error_In, repeat_spec in Hj. now subst.
    - intros T HT Hall. cbn [buffer]. apply Forall_nth. intros i c Hi.
      assert (Hit : i < total new) by (rewrite <- R6; apply nth_error_Some; congruence).
      specialize (R7 (cell_pos new i) (P_Screen.cell_pos_in new i Hit)).
      rewrite P_Screen.cell_pos_no in R7 by lia. rewrite Hi in R7.
      destruct (is_out_of_bounds (cell_pos new i) (bsize b)).
      + injection R7 as ->. exact HT.
      + symmetry in R7. apply nth_error_In in R7. rewrite Forall_forall in Hall. now apply Hall.
  Qed.

  Lemma history_inv allowed (careful : scr -> view -> Prop) s t :
    (forall s v, inv s v -> careful s v -> wides_fit E (sb s) /\ (clr s = false -> mended E v (sb s))) ->
    history E C K allowed careful s t -> exists v, look K t = Some v /\ inv s v.
  Proof.
    intros Hcare H. induction H as [sz w s t0 v0 Hsz Hw Hl Hs Ha H|s t o b H IH Ho Hr Hb|s t m s' x H IH Hm Hx
      |s t s' x H IH Hca Hre Hx|s t s1 s2 e x H IH Hca Hco1 Hfl Hx|s t v new s' t' v' H IH Hl Hsz Hob Hl' Hs' Ha' Hu].
    - unfold screen_new in H. destruct (sb_new E sz) as [b|] eqn:Eb; [|discriminate].
      assert (Ht : total sz <= umax E).
      { unfold sb_new, area, checked_area in Eb. unfold total.
        destruct (Nat.leb_spec (lines sz * columns sz) (umax E)); [assumption|discriminate]. }
      destruct (new_ok 1 (le_n 1) E sz HE Ht) as (b' & N1 & N2 & N3 & N4 & N5 & N6 & N7). rewrite Eb in N1. injection N1 as <-.
      unfold on_writer in H. cbn [wr] in H.
      destruct (enter_screen C (inr sz) w) as [w1 u1|w1 e1| |] eqn:Ee; try discriminate.
      2: { cbn [with_wr wr sb clr real] in H. destruct (guard_drop w1); discriminate. }
      destruct (enter_effect0 E C sz w w1 u1 Hco Ee ltac:(apply Hsz)) as (X1 & X2 & X3 & x & X4 & X5).
      cbn [with_wr wr sb clr real] in H.
      assert (Hg := flush_whole w1 ltac:(congruence)).
      assert (Hgd : exists w2, guard_drop w1 = Ret w2 tt /\ wat w2 = wat w1 /\ stream w2 = stream w1 /\ whole_writes (script w2)).
      { unfold guard_drop in *. destruct (flush w1) as [w2 []|w2 e2| |]; try contradiction; try discriminate.
        - exists w2. destruct Hg as (G1 & (G2 & _) & G3 & G4 & G5). split; [reflexivity|]. split; [assumption|].
          split; [|assumption]. unfold stream. rewrite G4, G5. now rewrite app_nil_r.
        - exists w2. destruct Hg as (G1 & (G2 & _) & G3 & G4 & G5). split; [reflexivity|]. split; [assumption|].
          split; [|assumption]. unfold stream. rewrite G4, G5. reflexivity. }
      destruct Hgd as (w2 & G1 & G2 & G3 & G4). rewrite G1 in H. injection H as <-. cbn [wr with_wr].
      assert (Hst : stream w1 = stream w ++ x) by (unfold stream; now rewrite X2, X4, app_assoc).
      rewrite G3, Hst, (feed_app _ _ _ HK).
      destruct (X5 K HK _ v0 Hl Hs Ha) as (v' & V1 & V2 & V3 & V4 & V5 & V6).
      exists v'. split; [assumption|].
      assert (Hlen := look_ok _ _ _ HK _ _ V1). unfold view_ok in Hlen.
      constructor; cbn [sb clr real wr with_wr].
      + constructor; cbn [sb wr with_wr]; auto. now rewrite N3.
      + congruence.
      + congruence.
      + rewrite V4, G2, X3. symmetry. apply shown_none.
      + intros _. split; [|now left]. intros j k Hk Hkt Hkv. rewrite N6 in Hk.
        assert (Hj : j < total sz) by (rewrite <- (repeat_length blank (total sz)); apply nth_error_Some; congruence).
        rewrite nth_repeat in Hk by assumption. injection Hk as <-. rewrite V6 by assumption.
        cbn [cattrs ctext blank]. rewrite shown_none. split; [reflexivity|].
        unfold is_wide, blank. cbn [ctext]. unfold width0. destruct HE as (-> & _). discriminate.
      + discriminate.
      + intros _ j Hj. assert (Hjt : j < total sz) by (rewrite <- V2, <- Hlen; apply nth_error_Some; congruence).
        rewrite V6 in Hj by assumption. discriminate Hj.
    - destruct IH as (v & V1 & [F I1 I2 I3 I4 I5 I6]). exists v. split; [assumption|].
      destruct F as [F1 F2 F3]. destruct (op_ok _ _ _ F1 Hr Hb) as (B1 & B2 & B3).
      assert (Hsy : forall j, synced_at E C (sb s) v j -> synced_at E C b v j).
      { unfold synced_at. now rewrite B2. }
      constructor; cbn [sb clr real wr with_sb]; rewrite ?B3; auto.
      + constructor; cbn [sb wr with_sb]; rewrite ?B3; auto.
      + intros Hc. destruct (I4 Hc). split; auto.
      + unfold all_invalid. rewrite B2. exact I5.
      + unfold belongs. rewrite B2. exact I6.
    - destruct IH as (v & V1 & [F I1 I2 I3 I4 I5 I6]).
      destruct (mode_goes _ _ _ _ (f_whole _ _ F) Hm) as (M1 & M2 & M3 & M4 & M5).
      destruct (goes_here _ _ _ _ x t v M5 Hx V1 I) as (v' & V2 & b & ->). exists (set_vvis b v). split; [assumption|].
      destruct F as [F1 F2 F3].
      constructor; rewrite ?M1, ?M2, ?M3, ?M4; auto. constructor; rewrite ?M1; auto. apply M5.
    - destruct IH as (v & V1 & Hi). destruct (Hcare s v Hi (Hca v V1)) as [Hf Hu].
      destruct (refresh_spec _ _ _ (i_frame _ _ Hi) Hf Hre) as (R1 & R2 & R3 & R4 & R5).
      destruct (goes_here _ _ _ _ x t v R5 Hx V1 (conj Hi Hu)) as (v' & V2 & V3). exists v'. split; [assumption|]. apply V3.
    - destruct IH as (v & V1 & Hi). destruct (Hcare s v Hi (Hca v V1)) as [Hf Hu].
      destruct (compose_spec _ _ _ (i_frame _ _ Hi) Hf Hco1) as (R1 & R2 & R3 & R4 & R5).
      destruct (flush_failed _ _ _ (f_whole _ _ R1) Hfl) as (T2 & T3 & T4 & T5 & T6 & T7).
      rewrite T7 in Hx.
      destruct (goes_here _ _ _ _ x t v R5 Hx V1 (conj Hi Hu)) as (v' & V2 & V3). exists v'. split; [assumption|].
      apply (done_same s1 s2 v' T2 T3 T4 T5 T6 V3).
    - destruct IH as (v1 & V1 & [F I1 I2 I3 I4 I5]). rewrite Hl in V1. injection V1 as <-.
      exists v'. split; [assumption|]. unfold update_size in Hu.
      destruct (sb_resize E (sb s) new) as [b|] eqn:Eb; [|discriminate]. injection Hu as <-.
      destruct F as [F1 F2 F3]. destruct (sb_resize_ok _ _ _ F1 Hsz Eb) as (B1 & B2 & B3 & _).
      assert (Hlen := look_ok _ _ _ HK _ _ Hl'). unfold view_ok in Hlen.
      constructor; cbn [sb clr real wr]; auto; try congruence.
      + constructor; cbn [sb wr]; auto. congruence.
  Qed.

  Lemma done_history allowed (careful : scr -> view -> Prop) s t s' u x :
    (forall s v, inv s v -> careful s v -> wides_fit E (sb s) /\ (clr s = false -> mended E v (sb s))) ->
    history E C K allowed careful s t ->
    (forall v, look K t = Some v -> careful s v) ->
    refresh E C s = Ret s' u -> stream (wr s') = stream (wr s) ++ x ->
    obuf (wr s') = [] /\ sb s' = with_back (sb s) (back (sb s')) /\
    exists v', look K (feed K t x) = Some v' /\ done s' v'.
  Proof.
    intros Hcare H Hca Hr Hx. destruct (history_inv _ _ _ _ Hcare H) as (v & V1 & Hi).
    destruct (Hcare s v Hi (Hca v V1)) as [Hf Hu].
    destruct (refresh_spec _ _ _ (i_frame _ _ Hi) Hf Hr) as (R1 & R2 & R3 & R4 & R5).
    split; [assumption|]. split; [assumption|].
    exact (goes_here _ _ _ _ x t v R5 Hx V1 (conj Hi Hu)).
  Qed.

  (** Single-width histories. *)
  Definition no_halves (s : scr) (v : view) : Prop :=
    Forall (fun c => narrow_text (ctext c)) (buffer (sb s)) /\
    (clr s = false -> forall i, nth_error (vcells v) i <> Some VTrail).

  Lemma narrow_no_wide b : buf_ok E b -> Forall (fun c => narrow_text (ctext c)) (buffer b) -> forall i, wide_at E b i = false.
  Proof.
    intros (_ & _ & _ & Hok) H i. unfold wide_at, cell_at. destruct (nth_error (buffer b) i) as [c|] eqn:Ec; [|reflexivity].
    apply nth_error_In in Ec. rewrite Forall_forall in H, Hok. specialize (H c Ec).
    destruct (Hok c Ec) as (x & ms & Et & Hp & _). rewrite Et in *.
    destruct (cwidth E x) as [[|[|[|n]]]|] eqn:Ew; try reflexivity. exfalso. apply H. split; assumption.
  Qed.

  Lemma no_halves_ok s v : inv s v -> no_halves s v ->
    (forall i, half E (sb s) i = false) /\ wides_fit E (sb s) /\ (clr s = false -> mended E v (sb s)).
  Proof.
    intros Hi [H1 H2]. assert (Hw := narrow_no_wide _ (f_buf _ _ (i_frame _ _ Hi)) H1). split; [|split].
    - intros [|i]; [reflexivity|apply Hw].
    - intros i Hx. rewrite Hw in Hx. discriminate.
    - intros Hc i Hx. destruct (H2 Hc i Hx).
  Qed.

  Lemma done_no_halves s v : done s v -> (forall i, half E (sb s) i = false) -> forall i, nth_error (vcells v) i <> Some VTrail.
  Proof.
    intros (Hi & (_ & Hs) & _) Hh i Hx. assert (Hi' := Hi). destruct Hi' as [[F1 _ _] I1 I2 I3 I4 I5].
    assert (Hj : i < length (buffer (sb s))).
    { destruct F1 as (_ & -> & _). rewrite <- I2. apply nth_error_Some. congruence. }
    destruct (nth_error (buffer (sb s)) i) as [c|] eqn:Ec; [|apply nth_error_None in Ec; lia].
    rewrite (Hs i c Ec), Hh in Hx. discriminate.
  Qed.

  Lemma history_narrow s t : history E C K (single_width E) anyhow s t ->
    exists v, look K t = Some v /\ inv s v /\ no_halves s v.
  Proof.
    (* first restrict the history to the careful one *)
    intros H.
    assert (Hg : history E C K (single_width E) (fun s v => no_halves s v) s t /\
                 forall v, look K t = Some v -> no_halves s v).
    { assert (Hcare : forall s v, inv s v -> no_halves s v -> wides_fit E (sb s) /\ (clr s = false -> mended E v (sb s))).
      { intros s0 v0 A B. apply (no_halves_ok s0 v0 A B). }
      induction H as [sz w s t0 v0 Hsz Hw Hl Hs Ha H|s t o b H IH Ho Hr Hb|s t m s' x H IH Hm Hx
      |s t s' x H IH Hca Hre Hx|s t s1 s2 e x H IH Hca Hco1 Hfl Hx|s t v new s' t' v' H IH Hl Hsz Hob Hl' Hs' Ha' Hu].
      - assert (Hh : history E C K (single_width E) (fun s v => no_halves s v) s (feed K t0 (stream (wr s)))) by (econstructor; eauto).
        split; [assumption|]. intros v Hv.
        destruct (history_inv _ _ _ _ Hcare Hh) as (v1 & V1 & Hi). rewrite Hv in V1. injection V1 as <-.
        unfold screen_new in H. destruct (sb_new E sz) as [b|] eqn:Eb; [|discriminate].
        assert (Ht : total sz <= umax E).
        { unfold sb_new, area, checked_area in Eb. unfold total.
          destruct (Nat.leb_spec (lines sz * columns sz) (umax E)); [assumption|discriminate]. }
        destruct (new_ok 1 (le_n 1) E sz HE Ht) as (b' & N1 & N2 & N3 & N4 & N5 & N6 & N7). rewrite Eb in N1. injection N1 as <-.
        unfold on_writer in H. cbn [wr] in H.
        destruct (enter_screen C (inr sz) w) as [w1 u1|w1 e1| |] eqn:Ee; try discriminate.
        2: { cbn [with_wr wr sb clr real] in H. destruct (guard_drop w1); discriminate. }
        cbn [with_wr wr sb clr real] in H.
        destruct (guard_drop w1) as [w2 []|w2 e2| |] eqn:Eg; try discriminate. injection H as <-.
        split; cbn [sb clr with_wr].
        + rewrite N5. apply Forall_forall. intros c Hc. apply repeat_spec in Hc as ->. exact (space_not_wide E HE).
        + intros _ i Hx. assert (Hi' := Hi). destruct Hi' as [F I1 I2 I3 I4 I5]. cbn [sb clr real with_wr] in *.
          destruct (I4 eq_refl) as [Hsy _].
          (* the terminal was cleared, so it agrees with the (blank) back buffer everywhere *)
          destruct (enter_effect0 E C sz w w1 u1 Hco Ee ltac:(apply Hsz)) as (X1 & X2 & X3 & x & X4 & X5).
          destruct (X5 K HK _ v0 Hl Hs Ha) as (v' & V1 & V2 & V3 & V4 & V5 & V6).
          assert (Hg := flush_whole w1 ltac:(congruence)).
          assert (G3 : stream w2 = stream w1).
          { unfold guard_drop, stream in *. destruct (flush w1) as [w3 u3|w3 e3| |]; try discriminate; injection Eg; intros; subst w3;
              destruct Hg as (_ & _ & _ & G4 & G5); rewrite G4, G5, ?app_nil_r; reflexivity. }
          assert (Hst : stream w1 = stream w ++ x) by (unfold stream; now rewrite X2, X4, app_assoc).
          cbn [wr with_wr] in Hv. rewrite G3, Hst, (feed_app _ _ _ HK) in Hv. rewrite V1 in Hv. injection Hv as <-.
          assert (Hlt : i < total sz).
          { rewrite N3 in I2. rewrite <- I2. apply nth_error_Some. congruence. }
          rewrite V6 in Hx by assumption. discriminate.
      - destruct IH as [IH1 IH2]. split; [eapply H_buffer; eauto|]. intros v Hv. destruct (IH2 v Hv) as [A1 A2].
        split; [|exact A2]. cbn [sb with_sb]. eapply op_narrow; eauto.
      - destruct IH as [IH1 IH2]. split; [eapply H_mode; eauto|]. intros v Hv.
        destruct (history_inv _ _ _ _ Hcare IH1) as (v1 & V1 & Hi). destruct (IH2 v1 V1) as [A1 A2].
        destruct (mode_goes _ _ _ _ (f_whole _ _ (i_frame _ _ Hi)) Hm) as (M1 & M2 & M3 & M4 & M5).
        destruct (goes_here _ _ _ _ x t v1 M5 Hx V1 I) as (v2 & V2 & b & ->). rewrite Hv in V2. injection V2 as ->.
        split; [now rewrite M1|]. intros Hc. apply A2. congruence.
      - destruct IH as [IH1 IH2]. split; [eapply H_refresh; eauto|]. intros v Hv.
        destruct (history_inv _ _ _ _ Hcare IH1) as (v1 & V1 & Hi).
        destruct (no_halves_ok s v1 Hi (IH2 v1 V1)) as (B1 & B2 & B3).
        destruct (done_history _ _ _ _ _ _ _ Hcare IH1 IH2 Hre Hx) as (D1 & D2 & v2 & D3 & D4).
        rewrite Hv in D3. injection D3 as <-. split.
        + rewrite D2. cbn [buffer with_back]. apply (IH2 v1 V1).
        + intros _. apply (done_no_halves s'); [assumption|]. intros i. rewrite D2. apply B1.
      - destruct IH as [IH1 IH2]. split; [eapply H_unflushed; eauto|]. intros v Hv.
        destruct (history_inv _ _ _ _ Hcare IH1) as (v1 & V1 & Hi).
        destruct (no_halves_ok s v1 Hi (IH2 v1 V1)) as (B1 & B2 & B3).
        destruct (compose_spec _ _ _ (i_frame _ _ Hi) B2 Hco1) as (R1 & R2 & R3 & R4 & R5).
        destruct (flush_failed _ _ _ (f_whole _ _ R1) Hfl) as (T2 & T3 & T4 & T5 & T6 & T7).
        rewrite T7 in Hx.
        destruct (goes_here _ _ _ _ x t v1 R5 Hx V1 (conj Hi B3)) as (v2 & V2 & V3).
        rewrite Hv in V2. injection V2 as <-. split.
        + rewrite T2, R2. cbn [buffer with_back]. apply (IH2 v1 V1).
        + intros _. apply (done_no_halves s1); [assumption|]. intros i. rewrite R2. apply B1.
      - destruct IH as [IH1 IH2]. split; [eapply H_resize; eauto|]. intros v2 Hv.
        destruct (history_inv _ _ _ _ Hcare IH1) as (v1 & V1 & Hi).
        unfold update_size in Hu. destruct (sb_resize E (sb s) new) as [b|] eqn:Eb; [|discriminate]. injection Hu as <-.
        destruct (sb_resize_ok _ _ _ (f_buf _ _ (i_frame _ _ Hi)) Hsz Eb) as (_ & _ & _ & B4).
        split; cbn [sb clr]; [|discriminate]. apply (B4 narrow_text); [exact (space_not_wide E HE)|]. apply (IH2 v1 V1). }
    destruct Hg as [Hg1 Hg2].
    destruct (history_inv (single_width E) (fun s v => no_halves s v) s t) as (v & V1 & Hi); auto.
    { intros s0 v0 A B. apply (no_halves_ok s0 v0 A B). }
    exists v. split; [assumption|]. split; auto.
  Qed.
End Refresh.
