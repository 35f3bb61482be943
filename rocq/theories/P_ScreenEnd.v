(** The end of the example program examples/screen.rs (C143). *)
From Verif Require Import Base M_Utf8 M_Geom M_Attr M_Seq M_Signal M_Util M_Input S_Input M_Buf M_Writer M_Prepare M_Reader
  M_ScreenApi M_UnixScreen S_UnixScreen P_UnixScreen2 M_WinWriter M_WinReader M_WinScreen S_WinScreen P_WinScreen M_ScreenExample M_WinScreenExample.
From Verif Require M_Screen S_Writer.

Lemma urun_app E C m a b : forall u u1 r1 u2 r2, urun E C m a u = Some (u1, r1) -> urun E C m b u1 = Some (u2, r2) ->
  urun E C m (a ++ b) u = Some (u2, r1 ++ r2).
Proof.
  induction a as [|o a IH]; intros u u1 r1 u2 r2 H1 H2; cbn [app urun] in *.
  - injection H1 as <- <-. exact H2.
  - destruct (ustep E C m o u) as [[v r]|]; [|discriminate]. destruct (urun E C m a v) as [[v1 s1]|] eqn:Ea; [|discriminate].
    injection H1 as <- <-. now rewrite (IH _ _ _ _ _ Ea H2).
Qed.

Section Unix.
  Variables (debug : event -> list (list N)) (E : env) (C : tcfg) (m : seq_map).

  (** A state that a program can reach from another. *)
  Definition reached (u u' : uscr) : Prop := exists ops rs, urun E C m ops u = Some (u', rs).
  Lemma reached_refl u : reached u u.
  Proof. exists [], []. reflexivity. Qed.
  Lemma reached_trans a b c : reached a b -> reached b c -> reached a c.
  Proof. intros (o1 & r1 & H1) (o2 & r2 & H2). exists (o1 ++ o2), (r1 ++ r2). eapply urun_app; eauto. Qed.
  Lemma reached_step o u u' r : ustep E C m o u = Some (u', r) -> reached u u'.
  Proof. intros H. exists [o], [r]. cbn [urun]. now rewrite H. Qed.

  Lemma methods_reach ms : forall u b, screen_methods E ms (u_sb u) = Val b -> reached u (with_out (M_Screen.with_sb b (out_side u)) u).
  Proof.
    induction ms as [|o ms IH]; intros u b H; cbn [screen_methods] in H.
    - injection H as <-. destruct u as [? ? ? ? []]. apply reached_refl.
    - unfold screen_method in H. destruct (run_buf_op E (u_sb u) (sforward o)) as [b1|] eqn:E1; [|discriminate].
      eapply reached_trans; [|exact (IH (with_out (M_Screen.with_sb b1 (out_side u)) u) b H)].
      apply (reached_step (UBuffer (sforward o)) _ _ YUnit). cbn [ustep]. unfold on_out, g_step. cbn [out_side M_Screen.sb]. now rewrite E1.
  Qed.
  Definition at_end (u : uscr) (d : dstage) : Prop :=
    match d with DGoing u' | DQuit u' | DFailed u' => reached u u' | _ => True end.
  Lemma at_end_trans u u1 d : reached u u1 -> at_end u1 d -> at_end u d.
  Proof. intros H. destruct d; cbn; eauto using reached_trans. Qed.

  Lemma show_end ms u : at_end u (show E C ms u).
  Proof.
    unfold show. destruct (screen_methods E ms (u_sb u)) as [b|] eqn:Em; [|exact Logic.I]. apply methods_reach in Em.
    set (u1 := with_out (M_Screen.with_sb b (out_side u)) u) in *.
    assert (H : ustep E C m URefresh u1 = on_out (M_Screen.screen_refresh E C) u1) by reflexivity. unfold on_out in H.
    replace (out_side u1) with (M_Screen.with_sb b (out_side u)) in H by reflexivity.
    destruct (M_Screen.screen_refresh E C (M_Screen.with_sb b (out_side u))) as [y v|y e| |]; cbn [at_end]; try exact Logic.I;
      (eapply reached_trans; [exact Em|]; eapply reached_step; rewrite H; unfold u1, with_out; cbn [u_st u_sys]; reflexivity).
  Qed.
  Lemma round_end u : at_end u (demo_round debug E C m u).
  Proof.
    unfold demo_round. pose proof (fun u' r => reached_step (URead None) u u' r) as H. cbn [ustep] in H.
    destruct (read_event C m None (u_sys u)) as [s e|s e| |]; try exact Logic.I; [|eapply H; reflexivity].
    destruct (follow E e (with_sys s u)) as [u1|]; [|exact Logic.I]. specialize (H u1 _ eq_refl).
    destruct e as [e|]; [|exact H].
    assert (S : at_end u (if is_q e then DQuit u1 else show E C (show_event debug e) u1)).
    { destruct (is_q e); [exact H|]. eapply at_end_trans; [exact H|]. apply show_end. }
    destruct e; try exact S. exact H.
  Qed.
  Lemma rounds_end n : forall u, at_end u (demo_rounds debug E C m n u).
  Proof.
    induction n as [|n IH]; intros u; cbn [demo_rounds]; [apply reached_refl|]. pose proof (round_end u) as R.
    destruct (demo_round debug E C m u); try exact R. eapply at_end_trans; [exact R|apply IH].
  Qed.
  Lemma demo_end n u : at_end u (demo debug E C m n u).
  Proof.
    unfold demo. pose proof (show_end draw_screen u) as R. destruct (show E C draw_screen u); try exact R.
    eapply at_end_trans; [exact R|apply rounds_end].
  Qed.

  Lemma screen_example_ends (Hm : key_map m) (Hc : plain_caps C) n s0 :
    match demo_main debug E C m n s0 with
    | EEnded u ok r => works (u_sys u) ->
        match r with
        | Ret s printed =>
            printed = (None, None) /\ same_terminal s0 s /\ obuf (M_Prepare.wr s) = [] /\
            exists off k k', modes_off C (xterm C) (S_Writer.has C KeypadXmit) off /\
              dev (M_Prepare.wr s) = S_Writer.stream (M_Prepare.wr (u_sys u)) ++ off ++ cap_bytes C ExitCaMode k ++ cap_bytes C CursorNormal k'
        | Blocked => True
        | _ => False
        end
    | _ => True
    end.
  Proof.
    unfold demo_main. destruct (unix_screen_new E C demo_config s0) as [s1 u|? ?| |] eqn:En; try exact Logic.I.
    pose proof (demo_end n u) as R. destruct (demo debug E C m n u) as [v|v|v|v| |]; try exact Logic.I; destruct R as (ops & rs & R); intros Hw;
      exact (gives_back E C m Hm demo_config ops s0 s1 u v rs Hc En R Hw).
  Qed.
End Unix.

Section Windows.
  Variables (debug : event -> list (list N)) (draw : list N -> N -> view -> view) (E : env).

  Lemma with_gsb_stays b w : stays w (with_gsb b w).
  Proof. destruct w. repeat split. Qed.
  Definition wat_end (w : wscr) (d : wstage) : Prop :=
    match d with WGoing w' | WQuit w' | WFailed w' => stays w w' | _ => True end.
  Lemma wat_end_trans w w1 d : stays w w1 -> wat_end w1 d -> wat_end w d.
  Proof. intros H. destruct d; cbn; eauto using stays_trans. Qed.

  Lemma wshow_end ms w : wat_end w (wshow draw E ms w).
  Proof.
    unfold wshow. destruct (screen_methods E ms (g_sb w)) as [b|]; [|exact Logic.I]. pose proof (with_gsb_stays b w) as H.
    pose proof (stays_refresh draw E (with_gsb b w)) as R. destruct (win_refresh draw E (with_gsb b w)) as [w1 ?|w1 ?| |]; try exact Logic.I;
      pose proof (stays_refresh draw E w1) as R1; destruct (win_refresh draw E w1) as [w2 ?|w2 ?| |]; try exact Logic.I; cbn in *; eauto using stays_trans.
  Qed.
  Lemma wround_end w : wat_end w (wdemo_round debug draw E w).
  Proof.
    unfold wdemo_round. pose proof (stays_op draw E (SReadEvent None) w) as R. cbn [run_wsop] in R.
    destruct (gs_read_event E None w) as [w1 [e x]|w1 e| |]; try exact Logic.I; cbn in R; [|exact R].
    destruct e as [e|]; [|exact R].
    assert (S : wat_end w (if is_q e then WQuit w1 else wshow draw E (show_event debug e) w1)).
    { destruct (is_q e); [exact R|]. eapply wat_end_trans; [exact R|]. apply wshow_end. }
    destruct e; try exact S. exact R.
  Qed.
  Lemma wrounds_end n : forall w, wat_end w (wdemo_rounds debug draw E n w).
  Proof.
    induction n as [|n IH]; intros w; cbn [wdemo_rounds]; [apply stays_refl|]. pose proof (wround_end w) as R.
    destruct (wdemo_round debug draw E w); try exact R. eapply wat_end_trans; [exact R|apply IH].
  Qed.
  Lemma wdemo_end n w : wat_end w (wdemo debug draw E n w).
  Proof.
    unfold wdemo. pose proof (wshow_end draw_screen w) as R. destruct (wshow draw E draw_screen w); try exact R.
    eapply wat_end_trans; [exact R|apply wrounds_end].
  Qed.

  Lemma screen_example_ends_console n t : displayed t ->
    match wdemo_main debug draw E n t with
    | WEnded w ok r => calls_work (g_t w) ->
        exists t', r = Ret t' tt /\ same_buffers t t' /\ t_mode t' = t_old t /\ c_cursor (w_con (t_w t')) = (25%N, true) /\
          w_mode (t_in t') = N.lor (w_mode (t_in t)) ENABLE_EXTENDED_FLAGS /\ w_regs (t_in t') = w_regs (t_in t)
    | _ => True
    end.
  Proof.
    intros Hd. unfold wdemo_main. destruct (win_screen_new E demo_config t) as [t1 w|? ?| |] eqn:En; try exact Logic.I.
    pose proof (wdemo_end n w) as R. destruct (wdemo debug draw E n w) as [v|v|v|v| |]; try exact Logic.I; intros Hw;
      exact (round_trip_stays E demo_config t t1 w v Hd En R Hw).
  Qed.
End Windows.
