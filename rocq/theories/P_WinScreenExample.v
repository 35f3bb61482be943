(** The example program examples/screen.rs on a Windows console (C143). *)
From Coq Require Import String.
From Verif Require Import Base M_Utf8 S_Utf8 M_Geom S_Geom P_Geom M_Attr M_Seq S_Seq M_Signal M_Util M_Input S_Input M_Buf S_Buf M_Writer M_Prepare M_Reader
  M_WinWriter M_WinReader S_WinReader M_WinScreen S_WinScreen P_WinScreen P_WinDraw M_ScreenApi S_WinCanvas P_WinCanvas M_Lines.
From Verif Require S_WinWriter S_Screen P_Canvas P_Screen2 P_WinReader S_Portable P_Portable P_WinMinimal S_Lines S_WinLines.
From Verif Require Import S_Canvas S_Interact P_Interact P_Interact2 S_Succeeds P_Succeeds P_Succeeds2 P_Succeeds3 M_ScreenExample S_ScreenExample P_ScreenExample
  P_ScreenExample2 M_WinScreenExample S_WinScreenExample.
Local Open Scope nat_scope.

(** One record is read as the event it is decoded to. *)
Lemma read_tells E s r rest : S_Portable.wcalm s -> records s = r :: rest ->
  exists s' e, win_read_event E None s = Ret s' (Some e, [r]) /\ S_Portable.wcalm s' /\ records s' = rest /\
    decoded E (w_rd s) r (w_rd s') e.
Proof.
  intros Hc Hr. destruct (P_Portable.read_one E s r rest Hc Hr) as (s' & e & R & C1 & R1 & _).
  exists s', e. split; [exact R|]. split; [exact C1|]. split; [exact R1|].
  pose proof (P_WinReader.read_event_did E None s) as D. rewrite R in D. destruct D as [_ D]. cbn [fits] in D. destruct e; exact D.
Qed.

Lemma latest_telling es e : latest (telling (es ++ [e])) = match e with ENoEvent => latest (telling es) | _ => Some e end.
Proof.
  unfold telling. rewrite filter_app. cbn [filter]. destruct e; try apply latest_snoc. now rewrite app_nil_r.
Qed.
Lemma tells_snoc E rd rs es rd1 r e rd2 : tells E rd rs es rd1 -> decoded E rd1 r rd2 e -> tells E rd (rs ++ [r]) (es ++ [e]) rd2.
Proof.
  induction 1 as [|? ? ? ? ? ? ? H1 H2 IH]; intros Hd; cbn [app]; [econstructor; [exact Hd|constructor]|econstructor; eauto].
Qed.

Section Demo.
  Variables (debug : event -> list (list N)) (draw : list N -> N -> view -> view) (shown : list N -> option N) (E : env) (z : size) (h : nat).
  Hypothesis HP : places draw shown.
  Hypothesis HE : env_ok E.
  Hypothesis HA : S_Lines.ascii_plain E.
  Hypothesis HS : S_WinLines.ascii_shown shown.
  Hypothesis Hn : forall e, Forall (single E shown) (concat (debug e)).
  Hypothesis Hh : forall e, newlines (concat (debug e)) <= h.
  Hypothesis Hu : 4 + lines z + 2 * h <= umax E.
  Hypothesis Hl : 3 <= lines z.
  Hypothesis Hc : 33 <= columns z.

  Lemma plain_single s : Forall (fun c => (32 <= c < 127)%N) s -> Forall (single E shown) s.
  Proof.
    apply Forall_impl. intros c Hx. right. right. right. destruct (HA c Hx) as ((_ & P) & W). split; [destruct P; tauto|].
    split; [intros (_ & Q); congruence|]. intros _. now apply HS.
  Qed.
  Lemma ms_single e ms : ms = draw_screen \/ ms = show_event debug e -> Forall (single E shown) (concat (map method_text ms)).
  Proof.
    assert (D : Forall (single E shown) (concat (map method_text draw_screen))).
    { cbn [draw_screen map method_text concat app]. apply Forall_app. split; [apply plain_single; exact (text1_ascii z Hl Hc)|]. rewrite app_nil_r. apply plain_single; exact (text2_ascii z Hl Hc). }
    intros [->| ->]; [exact D|]. unfold show_event. rewrite map_app, concat_app. apply Forall_app. split; [exact D|].
    cbn [map method_text concat app]. rewrite app_nil_r. apply Hn.
  Qed.
  Lemma wshows_alike d w k k' : alike k k' -> wshows shown d w k -> wshows shown d w k'.
  Proof.
    intros H ((W1 & W2) & W3). destruct (H) as (A1 & A2 & A3 & A4). split; [|now rewrite <- (alike_goal _ _ H)]. split; [congruence|].
    intros p Hp. rewrite <- A4. apply W2. now rewrite A1.
  Qed.

  Record wready (d : N) (es : list event) (rs : list record) (w : wscr) : Prop := {
    wr_at : exists k, win_at shown E d w k /\ alike k (picture E debug z (latest (telling es)));
    wr_shows : wshows shown d w (picture E debug z (latest (telling es)));
    wr_hears : whears w rs;
    wr_willing : willing w
  }.

  Lemma wshow_ready d es rs ms e w k : win_at shown E d w k -> ksize k = z -> line (pen k) <= 4 + lines z + h -> whears w rs -> willing w ->
    ms = draw_screen \/ ms = show_event debug e -> alike (draws E ms k) (picture E debug z (latest (telling es))) ->
    exists w', wshow draw E ms w = WGoing w' /\ wready d es rs w' /\ t_in (g_t w') = t_in (g_t w).
  Proof.
    intros Hat Hk Hp Hhe W Hms Ha.
    assert (F : P_Canvas.fits E (g_sb w) k) by (destruct Hat as (_ & _ & _ & F & _); exact F).
    destruct (event_runs E debug z HA Hl Hc h e _ _ HE F Hk Hp (single_narrow shown E _ (Hn e)) (Hh e) Hu) as [(b1 & B1) (b2 & B2)].
    assert (Hb : exists b, screen_methods E ms (g_sb w) = Val b) by (destruct Hms as [->| ->]; eauto). destruct Hb as (b & Hb).
    unfold wshow. rewrite Hb. assert (A2 := win_at_methods draw shown E HP HE d ms w k b Hat (ms_single e ms Hms) Hb).
    destruct A2 as (I2 & X2) eqn:EA. clear EA. assert (A2' : win_at shown E d (with_gsb b w) (draws E ms k)) by (split; assumption).
    destruct X2 as (_ & _ & F2 & S2 & _).
    destruct (wrefresh_fine draw shown E HP (with_gsb b w)) as (w2 & Q1 & Q2).
    { destruct I2. assumption. } { exact W. } { exact (sheer_one shown E _ _ F2 S2). }
    rewrite Q1, (P_WinMinimal.wrefresh_twice draw E _ _ _ Q1).
    destruct (win_at_refresh draw shown E HP d _ _ _ _ A2' Q1) as (A3 & S3).
    pose proof (tin_refresh draw E (with_gsb b w)) as T. rewrite Q1 in T. cbn [tin] in T.
    exists w2. split; [reflexivity|]. split; [|exact T]. constructor.
    - exists (draws E ms k). auto.
    - apply (wshows_alike d w2 _ _ Ha). exact S3.
    - unfold whears. rewrite T. exact Hhe.
    - exact Q2.
  Qed.

  Lemma wdemo_runs d n rd0 : forall past es rs w, tells E rd0 past es (w_rd (t_in (g_t w))) -> ~ In the_q es -> wready d es rs w ->
    match wdemo_rounds debug draw E n w with
    | WGoing w' => exists now later es' rd, rs = now ++ later /\ List.length now = n /\ tells E rd0 (past ++ now) es' rd /\ ~ In the_q es' /\
        wshows shown d w' (picture E debug z (latest (telling es')))
    | WWaiting w' => exists es' rd, tells E rd0 (past ++ rs) es' rd /\ ~ In the_q es' /\ wshows shown d w' (picture E debug z (latest (telling es')))
    | WQuit w' => exists now r later es' rd, rs = now ++ r :: later /\ tells E rd0 (past ++ now) es' rd /\ ~ In the_q es' /\
        key_press_event r = Some (KChar 113%N) /\ wshows shown d w' (picture E debug z (latest (telling es')))
    | _ => False
    end.
  Proof.
    induction n as [|n IH]; intros past es rs w Ht Hq R; cbn [wdemo_rounds].
    - exists [], rs, es, (w_rd (t_in (g_t w))). rewrite app_nil_r. split; [reflexivity|]. split; [reflexivity|]. split; [exact Ht|]. split; [exact Hq|exact (wr_shows _ _ _ _ R)].
    - destruct R as [(k & R1 & R1') R2 (Hca & Hre & Hnr) R4].
      unfold wdemo_round, gs_read_event, on_term, on_reader. destruct rs as [|r rs].
      { rewrite wread_nothing by assumption. cbn [obind]. exists es, (w_rd (t_in (g_t w))). rewrite app_nil_r. auto. }
      destruct (read_tells E _ r rs Hca Hre) as (i & e & Rd & C1 & Rr & De). rewrite Rd. cbn [obind].
      inversion Hnr as [|? ? N1 N2]; subst.
      assert (Nz := read_not_size E _ _ _ _ Rd N1).
      set (w1 := with_gt (with_in i (g_t w)) w). assert (A1 : win_at shown E d w1 k) by exact (win_at_reader _ _ _ _ _ i R1).
      assert (H1 : whears w1 (records i)) by (split; [exact C1|split; [reflexivity|exact N2]]).
      assert (Fo : forall (y : option event * list record), fst y = Some e -> follow_resize E y w1 = Ret w1 y).
      { intros [a b] Q. unfold follow_resize. cbn [fst] in *. rewrite Q. destruct e; try reflexivity. now destruct (Nz s). }
      rewrite Fo by reflexivity. clear Fo.
      assert (Ht' := tells_snoc _ _ _ _ _ _ _ _ Ht De).
      assert (Hcase : e = ENoEvent \/ e <> ENoEvent) by (destruct e; auto; right; discriminate). destruct Hcase as [He|He].
      + subst e. assert (R' : wready d (es ++ [ENoEvent]) (records i) w1).
        { constructor; try assumption; rewrite latest_telling; [now exists k|exact R2]. }
        assert (Hq' : ~ In the_q (es ++ [ENoEvent])) by (intros Q; apply in_app_or in Q; destruct Q as [Q|[Q|[]]]; [auto|discriminate Q]).
        specialize (IH (past ++ [r]) (es ++ [ENoEvent]) (records i) w1 Ht' Hq' R').
        destruct (wdemo_rounds debug draw E n w1) as [v|v|v|v| |]; try exact IH.
        * destruct IH as (now & later & es' & rd & I1 & I2 & I3 & I4). exists (r :: now), later, es', rd. rewrite <- app_assoc in I3. cbn [app List.length] in *.
          split; [now rewrite I1|]. split; [now rewrite I2|]. auto.
        * destruct IH as (es' & rd & I3 & I4). exists es', rd. rewrite <- app_assoc in I3. auto.
        * destruct IH as (now & r' & later & es' & rd & I1 & I3 & I4). exists (r :: now), r', later, es', rd. rewrite <- app_assoc in I3. cbn [app] in *.
          split; [now rewrite I1|]. auto.
      + assert (Hne : forall X (x y : X), match e with ENoEvent => x | _ => y end = y) by (intros X x y; destruct e; try reflexivity; now elim He).
        rewrite Hne. destruct (is_q e) eqn:Eq.
        { apply is_q_spec in Eq. exists [], r, (records i), es, (w_rd (t_in (g_t w))). rewrite app_nil_r. split; [reflexivity|]. split; [exact Ht|]. split; [exact Hq|].
          split; [|exact R2]. rewrite Eq in De. unfold decoded in De. destruct (key_press_event r) as [key|].
          - destruct De as (_ & De). unfold the_q in De. injection De as ->. reflexivity.
          - destruct De as (mo & _ & De). destruct mo; [discriminate De|]. destruct (size_event E r); discriminate De. }
        assert (Hq' : ~ In the_q (es ++ [e])).
        { intros Q. apply in_app_or in Q. destruct Q as [Q|[Q|[]]]; [auto|]. apply is_q_spec in Q. congruence. }
        destruct (picture_frame E debug z Hl Hc h _ k Hh R1') as (F1 & F2 & F3).
        destruct (wshow_ready d (es ++ [e]) (records i) (show_event debug e) e w1 k A1 F1 F3 H1 R4 (or_intror eq_refl)) as (w2 & U1 & U2 & U3).
        { rewrite latest_telling, Hne. now apply shows_event. }
        rewrite U1. assert (Ht2 : tells E rd0 (past ++ [r]) (es ++ [e]) (w_rd (t_in (g_t w2)))) by (rewrite U3; exact Ht').
        specialize (IH (past ++ [r]) (es ++ [e]) (records i) w2 Ht2 Hq' U2).
        destruct (wdemo_rounds debug draw E n w2) as [v|v|v|v| |]; try exact IH.
        * destruct IH as (now & later & es' & rd & I1 & I2 & I3 & I4). exists (r :: now), later, es', rd. rewrite <- app_assoc in I3. cbn [app List.length] in *.
          split; [now rewrite I1|]. split; [now rewrite I2|]. auto.
        * destruct IH as (es' & rd & I3 & I4). exists es', rd. rewrite <- app_assoc in I3. auto.
        * destruct IH as (now & r' & later & es' & rd & I1 & I3 & I4). exists (r :: now), r', later, es', rd. rewrite <- app_assoc in I3. cbn [app] in *.
          split; [now rewrite I1|]. auto.
  Qed.
End Demo.

Lemma screen_example_console debug draw shown E h :
  places draw shown -> env_ok E -> (32767 <= Z.of_nat (umax E))%Z -> S_Lines.ascii_plain E -> S_WinLines.ascii_shown shown ->
  (forall e, Forall (single E shown) (concat (debug e)) /\ newlines (concat (debug e)) <= h) ->
  forall z w rs n, win_start E z w rs ->
    3 <= lines z -> 33 <= columns z -> 4 + lines z + 2 * h <= umax E ->
    S_WinWriter.no_failure (c_answers (w_con (t_w (g_t w)))) ->
    let d := t_default (g_t w) in
    let rd0 := w_rd (t_in (g_t w)) in
    match wdemo debug draw E n w with
    | WGoing w' => exists now later es rd, rs = now ++ later /\ List.length now = n /\ tells E rd0 now es rd /\ ~ In the_q es /\
        wshows shown d w' (picture E debug z (latest (telling es)))
    | WWaiting w' => exists es rd, tells E rd0 rs es rd /\ ~ In the_q es /\ wshows shown d w' (picture E debug z (latest (telling es)))
    | WQuit w' => exists now r later es rd, rs = now ++ r :: later /\ tells E rd0 now es rd /\ ~ In the_q es /\
        key_press_event r = Some (KChar 113%N) /\ wshows shown d w' (picture E debug z (latest (telling es)))
    | _ => False
    end.
Proof.
  intros HP HE HU HA HS Hd z w rs n Hst Hl Hc Hu Hf d rd0. destruct (win_start_at draw shown E z w rs HP HE HU Hst) as [A H].
  assert (Hn : forall e, Forall (single E shown) (concat (debug e))) by (intros e; apply Hd). assert (Hh : forall e, newlines (concat (debug e)) <= h) by (intros e; apply Hd).
  destruct (wshow_ready debug draw shown E z h HP HE HA HS Hn Hh Hu Hl Hc d [] rs draw_screen ENoEvent w (blank_canvas z) A eq_refl ltac:(cbn; lia) H Hf (or_introl eq_refl))
    as (w' & U1 & U2 & U3).
  { apply (greets E debug z HA Hl Hc (blank_canvas z)); reflexivity. }
  unfold wdemo. rewrite U1.
  apply (wdemo_runs debug draw shown E z h HP HE HA HS Hn Hh Hu Hl Hc d n rd0 [] [] rs w'); [rewrite U3; constructor|intros []|exact U2].
Qed.
