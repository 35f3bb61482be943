(** Proofs about a program that is stopped and continued (C83). *)
From Verif Require Import Base M_Utf8 S_Utf8 M_Geom S_Geom M_Attr M_Buf S_Buf P_Buf P_Buf2 P_Buf3 P_Buf4 M_Seq M_Signal M_Util M_Input M_Writer S_Tty S_Writer
  P_Writer P_Attr P_Writer2 P_Writer3 M_Screen S_Screen P_Screen P_Screen2 P_Screen3 P_Screen4 P_Screen5
  M_Prepare M_Reader S_Prepare P_Prepare P_Prepare2 P_Reader M_UnixScreen S_UnixScreen P_UnixScreen P_UnixScreen2 P_WinScreen P_UnixScreen3 S_WholeScreen
  P_WholeScreen P_WholeScreen2 P_WholeScreen3.

Section Continue.
  Variables (E : env) (C : tcfg) (m : seq_map) (K : tty).
  Hypothesis HK : implements E C K.
  Hypothesis Hpc : plain_caps C.

  (** A settled screen draws nothing, whatever is in its output buffer. *)
  Lemma settled_quiet s w : refresh E C s = Ret s tt -> clr s = false -> wat (M_Screen.wr s) = no_attrs -> obuf (M_Screen.wr s) = [] ->
    whole_writes (script w) -> wat w = no_attrs ->
    forall s', refresh E C (M_Screen.with_wr w s) = Ret s' tt -> exists w', s' = M_Screen.with_wr w' s /\ stream w' = stream w /\ obuf w' = [] /\ wat w' = no_attrs /\ whole_writes (script w').
  Proof.
    intros H Hc Ha Ho Hw Hwa s'. destruct (refresh_settles E C _ _ _ H) as (R1 & R2 & R3 & R4 & R5 & n & R6 & R7 & R8).
    assert (He : refresh E C (M_Screen.with_wr w s) = on_writer flush (M_Screen.with_wr w s)).
    { unfold refresh, compose. cbn [M_Screen.wr M_Screen.with_wr clr]. rewrite Hc. cbn [obind].
      assert (Hca : on_writer (clear_attributes C) (M_Screen.with_wr w s) = Ret (M_Screen.with_wr w s) tt).
      { unfold on_writer, clear_attributes. cbn [M_Screen.wr M_Screen.with_wr]. rewrite Hwa. reflexivity. }
      rewrite Hca. cbn [obind sb M_Screen.with_wr]. rewrite R6.
      assert (Hd : draw E C (n - 0) 0 n (M_Screen.with_wr w s) = Ret (M_Screen.with_wr w s) tt).
      { destruct (settled_none E _ _ _ R7 (n - 0)) as (lo' & Hn).
        destruct (n - 0) eqn:En; cbn [draw sb M_Screen.with_wr]; unfold next_cell; rewrite En, Hn; reflexivity. }
      rewrite Hd. cbn [obind]. rewrite Hca. cbn [obind sb M_Screen.with_wr].
      assert (Hm : forall p, real s = p -> s_move_cursor C p (M_Screen.with_wr w s) = Ret (M_Screen.with_wr w s) tt).
      { intros p Hp. unfold s_move_cursor. cbn [real M_Screen.with_wr]. replace (cursor_eqb (real s) p) with true; [reflexivity|].
        symmetry. now apply cursor_eqb_eq. }
      assert (Hg : (if is_out_of_bounds (bcur (sb s)) (bsize (sb s))
                    then match cursor_last (bsize (sb s)) with Val p => s_move_cursor C p (M_Screen.with_wr w s) | Boom => Panic end
                    else s_move_cursor C (bcur (sb s)) (M_Screen.with_wr w s)) = Ret (M_Screen.with_wr w s) tt).
      { unfold cursor_goal in R4. destruct (is_out_of_bounds (bcur (sb s)) (bsize (sb s))) eqn:Eo.
        - destruct (R8 eq_refl) as (p & Hp). rewrite Hp. apply Hm. rewrite R4. apply last_goal in Hp. subst p.
          unfold is_out_of_bounds in Eo.
          destruct (Nat.ltb_spec (line (bcur (sb s))) (lines (bsize (sb s)))); cbn [andb]; [|reflexivity].
          destruct (Nat.ltb_spec (column (bcur (sb s))) (columns (bsize (sb s)))); [|reflexivity].
          exfalso. lia.
        - apply Hm. rewrite R4. unfold is_out_of_bounds in Eo.
          destruct (Nat.ltb_spec (line (bcur (sb s))) (lines (bsize (sb s)))); cbn [andb]; [|lia].
          destruct (Nat.ltb_spec (column (bcur (sb s))) (columns (bsize (sb s)))); [reflexivity|lia]. }
      match goal with |- obind ?x _ = _ => assert (Hg' : x = Ret (M_Screen.with_wr w s) tt) by exact Hg; rewrite Hg' end. reflexivity. }
    rewrite He. intros Hf. destruct (goes_flush (M_Screen.with_wr w s) s' tt Hw Hf) as (G1 & G2 & G3 & G4 & G5 & G6 & G7).
    exists (M_Screen.wr s'). destruct s'. cbn in *. subst. rewrite ?G5, Hwa. auto.
  Qed.

  Lemma refreshed u u1 : ustep E C m URefresh u = Some (u1, YUnit) -> refresh E C (out_side u1) = Ret (out_side u1) tt /\ exists x, refresh E C x = Ret (out_side u1) tt.
  Proof.
    cbn [ustep]. unfold on_out, screen_refresh. destruct (refresh E C (out_side u)) as [x []|x e| |] eqn:R; try discriminate.
    - destruct (refresh_and_drop E C _ _ _ (refresh_twice E C _ _ _ R)) as [_ ->]. intros [= <-]. rewrite out_with_out.
      split; [exact (refresh_twice E C _ _ _ R)|eauto].
    - destruct (s_guard_drop E C x); discriminate.
  Qed.

  Lemma not_redrawn u u1 o u2 r2 u3 : ustep E C m URefresh u = Some (u1, YUnit) -> whole_writes (script (pwr (u_sys u1))) ->
    (exists t, o = URead t) \/ (exists n t, o = URaw n t) ->
    ustep E C m o u1 = Some (u2, r2) -> resize_of r2 = None ->
    ustep E C m URefresh u2 = Some (u3, YUnit) ->
    exists x, stream (pwr (u_sys u3)) = stream (pwr (u_sys u1)) ++ x /\
      forall t v, look K t = Some v -> look K (feed K t x) = Some v.
  Proof.
    intros H1 Hw Ho H2 Hr H3. destruct (refreshed _ _ H1) as (S1 & xx & S2). destruct (refresh_settles E C _ _ _ S2) as (R1 & R2 & R3 & _).
    assert (S : exists w, still K (pwr (u_sys u1)) w /\ out_side u2 = M_Screen.with_wr w (out_side u1)).
    { destruct Ho as [(t & ->)|(n & t & ->)]; cbn [ustep] in H2.
      - pose proof (calmly_read E C m K HK Hpc t (u_sys u1) Hw) as S. unfold calmly in S.
        destruct (read_event C m t (u_sys u1)) as [x b|x e| |]; try discriminate; cbn [ends] in S; exists (pwr x); (split; [exact S|]).
        + destruct (follow E b (with_sys x u1)) as [v|] eqn:Ef; [|discriminate]. injection H2 as <- <-.
          apply follow_none in Ef; [|intros z ->; discriminate Hr]. now subst v.
        + now injection H2 as <- <-.
      - pose proof (calmly_raw E C m K HK Hpc n t (u_sys u1) Hw) as S. unfold calmly in S.
        destruct (read_raw C m n t (u_sys u1)) as [x [b bs]|x e| |]; try discriminate; cbn [ends] in S; exists (pwr x); (split; [exact S|]).
        + destruct (follow E b (with_sys x u1)) as [v|] eqn:Ef; [|discriminate]. injection H2 as <- <-.
          apply follow_none in Ef; [|intros z ->; discriminate Hr]. now subst v.
        + now injection H2 as <- <-. }
    destruct S as (w & (W1 & W2 & x & W3 & W4) & Hs). cbn [ustep] in H3. unfold on_out, screen_refresh in H3. rewrite Hs in H3.
    destruct (refresh E C (M_Screen.with_wr w (out_side u1))) as [y []|y e| |] eqn:R; try discriminate.
    2:{ destruct (s_guard_drop E C y); discriminate. }
    destruct (refresh_and_drop E C _ _ _ (refresh_twice E C _ _ _ R)) as [_ Q]. rewrite Q in H3. injection H3 as <-.
    destruct (settled_quiet (out_side u1) w S1 R1 R2 R3 W1 ltac:(rewrite W2; exact R2) y R) as (w' & -> & Y2 & _).
    exists x. cbn [u_sys with_out M_Prepare.wr M_Prepare.with_wr M_Screen.wr M_Screen.with_wr]. rewrite Y2. auto.
  Qed.
End Continue.
