(** The example program examples/screen.rs on a Unix terminal (C143). *)
From Coq Require Import String.
From Verif Require Import Base M_Utf8 S_Utf8 M_Geom S_Geom M_Attr M_Seq S_Seq M_Signal M_Util M_Input S_Input M_Buf S_Buf M_Writer M_Prepare M_Reader
  S_Reader P_Reader P_Reader2 S_Typing P_Typing M_ScreenApi M_UnixScreen M_Lines.
From Verif Require S_Prepare S_Tty S_Writer M_Screen S_Screen P_Canvas P_Screen3 P_Screen5 S_UnixScreen S_Lines.
From Verif Require Import S_Canvas S_Interact P_Interact S_Succeeds P_Succeeds P_Succeeds2 M_ScreenExample S_ScreenExample P_ScreenExample.
Local Open Scope nat_scope.

Lemma latest_snoc es e : latest (es ++ [e]) = Some e.
Proof. unfold latest. rewrite map_app. apply last_last. Qed.
Lemma is_q_spec e : is_q e = true <-> e = the_q.
Proof.
  unfold the_q. destruct e as [k| | | | |]; cbn; try (split; intros H; discriminate H).
  destruct k; try (split; intros H; discriminate H). split; intros H.
  - apply N.eqb_eq in H. now subst.
  - injection H as ->. reflexivity.
Qed.

Section Demo.
  Variables (debug : event -> list (list N)) (E : env) (C : tcfg) (m : seq_map) (K : S_Tty.tty) (z : size) (h : nat).
  Hypothesis Hm : key_map m.
  Hypothesis Hgrow : forall c n, n <= grow C c n.
  Hypothesis HE : env_ok E.
  Hypothesis HC : env_chars E.
  Hypothesis HA : S_Lines.ascii_plain E.
  Hypothesis Hco : S_Writer.caps_coherent C.
  Hypothesis HK : S_Tty.implements E C K.
  Hypothesis HD : drawable C.
  Hypothesis Hn : forall e, no_wide E (concat (debug e)).
  Hypothesis Hh : forall e, newlines (concat (debug e)) <= h.
  Hypothesis Hu : 4 + lines z + 2 * h <= umax E.
  Hypothesis Hz : S_Screen.screen_size z.
  Hypothesis Hl : 3 <= lines z.
  Hypothesis Hc : 33 <= columns z.

  Lemma show_goes t0 ms u k b : unix_at E C K t0 u k -> ksize k = z -> no_wide E (concat (map method_text ms)) ->
    screen_methods E ms (u_sb u) = Val b -> S_Writer.perfect (script (wr (u_sys u))) -> 2 * total z < writes_left (script (wr (u_sys u))) ->
    exists u', show E C ms u = DGoing u' /\ unix_at E C K t0 u' (draws E ms k) /\
      shows C (unix_sees K t0 u') (draws E ms k) /\
      S_Writer.perfect (script (wr (u_sys u'))) /\
      writes_left (script (wr (u_sys u))) <= writes_left (script (wr (u_sys u'))) + (2 * total z + 1) /\
      exists w, u_sys u' = with_wr w (u_sys u).
  Proof.
    intros Hat Hk Hms Em Hp Hw. unfold show. rewrite Em.
    assert (P1 := methods_painted E C K _ (out_side u) _ _ b Hat Hms Em).
    destruct (P_Canvas.painted_history E HE C K HC Hco HK _ _ _ Hat) as [_ F0].
    destruct (P_Canvas.painted_history E HE C K HC Hco HK _ _ _ P1) as [Hhist F1].
    assert (Hz1 := methods_ksize E HE _ _ _ _ F0 Hms Em).
    set (sc := M_Screen.with_sb b (out_side u)) in *. set (k1 := draws E ms k) in *.
    assert (Hsz : bsize (M_Screen.sb sc) = z) by (destruct F1 as [_ _ _ (Z & _)]; unfold screen_get_size in Z; congruence).
    assert (Hst := stale_total (M_Screen.sb sc)). rewrite Hsz in Hst. destruct Hz as (Hz2 & Hz3 & _).
    destruct (screen_refresh_goes E C sc HD Hgrow (P_Canvas.f_ok _ _ _ F1)) as (y & Y1 & Y2 & Y3 & Y4); rewrite ?Hsz; auto.
    { change (M_Screen.wr sc) with (wr (u_sys u)). lia. }
    rewrite Y1. exists (with_out y u). split; [reflexivity|].
    destruct (P_Screen5.minimal_history E C K HE HC Hco HK _ _ _ _ Hhist Y2) as (x & G & _).
    assert (P2 := S_Canvas.Pt_refresh E C K _ _ _ _ _ P1 Y2 G).
    destruct (P_Canvas.painting_shows E HE C K HC Hco HK _ _ _ P1) as (_ & _ & S).
    destruct (S y x Y2 G) as (_ & v1 & V1 & V2 & V3).
    assert (W : S_Tty.feed K (S_Tty.feed K t0 (S_Writer.stream (wr (u_sys u)))) x =
      S_Tty.feed K t0 (S_Writer.stream (wr (u_sys (with_out y u))))).
    { rewrite <- (S_Tty.feed_app _ _ _ HK). f_equal. symmetry. exact G. }
    rewrite W in P2, V1. split.
    { unfold unix_at. replace (out_side (with_out y u)) with y by (destruct y; reflexivity). exact P2. }
    split; [exists v1; auto|]. split; [exact Y3|]. split.
    { change (M_Screen.wr sc) with (wr (u_sys u)) in Y4. change (wr (u_sys (with_out y u))) with (M_Screen.wr y). lia. }
    eexists. reflexivity.
  Qed.

  Lemma at_fits t0 u k : unix_at E C K t0 u k -> P_Canvas.fits E (u_sb u) k.
  Proof. intros H. exact (proj2 (P_Canvas.painted_history E HE C K HC Hco HK _ _ _ H)). Qed.
  Lemma shows_alike v k k' : alike k k' -> shows C v k -> shows C v k'.
  Proof. intros H (w & W1 & W2 & W3). exists w. split; [exact W1|]. split; [exact (alike_displays _ _ _ _ H W2)|]. now rewrite <- (alike_goal _ _ H). Qed.

  (** The program between two rounds: [past] it has been told of, [l] is to come. *)
  Record ready (t0 : S_Tty.tstate K) (past : list event) (l : list act) (n : nat) (u : uscr) : Prop := {
    rd_at : exists k, unix_at E C K t0 u k /\ alike k (picture E debug z (latest past));
    rd_shows : shows C (unix_sees K t0 u) (picture E debug z (latest past));
    rd_hears : hears m (u_sys u) l;
    rd_perfect : S_Writer.perfect (script (wr (u_sys u)));
    rd_left : n * (2 * total z + 1) <= writes_left (script (wr (u_sys u)))
  }.

  Lemma show_ready t0 past l n ms e u k : unix_at E C K t0 u k -> ksize k = z -> line (pen k) <= 4 + lines z + h ->
    hears m (u_sys u) l -> S_Writer.perfect (script (wr (u_sys u))) -> (n + 1) * (2 * total z + 1) <= writes_left (script (wr (u_sys u))) ->
    ms = draw_screen \/ ms = show_event debug e -> alike (draws E ms k) (picture E debug z (latest past)) ->
    exists u', show E C ms u = DGoing u' /\ ready t0 past l n u' /\ portions (u_sys u') = portions (u_sys u).
  Proof.
    intros Hat Hk Hp Hhe Hpf Hw Hms Ha.
    destruct (event_runs E debug z HA Hl Hc h e _ _ HE (at_fits _ _ _ Hat) Hk Hp (Hn e) (Hh e) Hu) as [(b1 & B1) (b2 & B2)].
    assert (Hb : exists b, screen_methods E ms (u_sb u) = Val b) by (destruct Hms as [->| ->]; eauto). destruct Hb as (b & Hb).
    assert (Ht : no_wide E (concat (map method_text ms))) by (destruct Hms as [->| ->]; [exact (draw_narrow E z HA Hl Hc)|exact (event_narrow E debug z HA Hl Hc e (Hn e))]).
    destruct (show_goes t0 ms u k b Hat Hk Ht Hb Hpf ltac:(nia)) as (u' & U1 & U2 & U3 & U4 & U5 & w & U6).
    exists u'. split; [exact U1|]. split; [|rewrite U6; reflexivity]. constructor.
    - exists (draws E ms k). auto.
    - exact (shows_alike _ _ _ Ha U3).
    - rewrite U6. exact Hhe.
    - exact U4.
    - nia.
  Qed.

  Lemma ready_read t0 past l n u s : ready t0 past l (S n) u -> wr s = wr (u_sys u) -> forall l', hears m s l' -> ready t0 past l' n (with_sys s u).
  Proof.
    intros [(k & R1 & R1') R2 R3 R4 R5] Hw l' Hs. constructor.
    - exists k. split; [|exact R1']. unfold unix_at, out_side in *. cbn [u_sb u_clr u_real u_sys with_sys]. now rewrite Hw.
    - unfold unix_sees in *. cbn [u_sys with_sys]. now rewrite Hw.
    - exact Hs.
    - cbn [u_sys with_sys]. now rewrite Hw.
    - cbn [u_sys with_sys]. rewrite Hw. lia.
  Qed.

  Lemma demo_runs t0 n : forall past l u, ready t0 past l n u ->
    match demo_rounds debug E C m n u with
    | DGoing u' => n <= List.length l + List.length (portions (u_sys u)) /\
        exists now later, l = now ++ later /\ ~ In the_q (map heard now) /\
          shows C (unix_sees K t0 u') (picture E debug z (latest (past ++ map heard now)))
    | DWaiting u' => ~ In the_q (map heard l) /\ shows C (unix_sees K t0 u') (picture E debug z (latest (past ++ map heard l)))
    | DQuit u' => exists now a later, l = now ++ a :: later /\ ~ In the_q (map heard now) /\ heard a = the_q /\
        shows C (unix_sees K t0 u') (picture E debug z (latest (past ++ map heard now)))
    | _ => False
    end.
  Proof.
    induction n as [|n IH]; intros past l u R; cbn [demo_rounds].
    - split; [lia|]. exists [], l. split; [reflexivity|]. split; [intros []|]. cbn [map]. rewrite app_nil_r. exact (rd_shows _ _ _ _ _ R).
    - unfold demo_round.
      destruct (hears_read C m Hm Hgrow _ _ (rd_hears _ _ _ _ _ R)) as [(-> & ->)|[(s' & -> & H1 & H2 & H3)|(s' & a & l' & -> & -> & H1 & H2 & H3)]].
      + split; [intros []|]. cbn [map]. rewrite app_nil_r. exact (rd_shows _ _ _ _ _ R).
      + cbn [follow]. specialize (IH past l (with_sys s' u) (ready_read t0 past l n u s' R H3 l H1)). cbn [u_sys with_sys] in IH.
        destruct (demo_rounds debug E C m n (with_sys s' u)); try exact IH. destruct IH as [I1 I2]. split; [lia|exact I2].
      + rewrite heard_follow. assert (Hne : forall X (x y : X), match heard a with ENoEvent => x | _ => y end = y)
          by (intros X x y; destruct a; reflexivity).
        rewrite Hne. assert (R' := ready_read t0 past _ n u s' R H3 l' H1).
        destruct (is_q (heard a)) eqn:Eq.
        { apply is_q_spec in Eq. exists [], a, l'. split; [reflexivity|]. split; [intros []|]. split; [exact Eq|]. cbn [map]. rewrite app_nil_r.
          exact (rd_shows _ _ _ _ _ R'). }
        assert (Hq : heard a <> the_q) by (intros Q; apply is_q_spec in Q; congruence).
        destruct R' as [(k & R1 & R1') R2 R3 R4 R5]. destruct (picture_frame E debug z Hl Hc h _ k Hh R1') as (F1 & F2 & F3).
        assert (Hw' : (n + 1) * (2 * total z + 1) <= writes_left (script (wr (u_sys (with_sys s' u))))).
        { cbn [u_sys with_sys]. rewrite H3. rewrite Nat.add_1_r. exact (rd_left _ _ _ _ _ R). }
        destruct (show_ready t0 (past ++ [heard a]) l' n (show_event debug (heard a)) (heard a) (with_sys s' u) k R1 F1 F3 R3 R4 Hw' (or_intror eq_refl)) as (u' & U1 & U2 & U3).
        { rewrite latest_snoc. now apply shows_event. }
        rewrite U1. specialize (IH (past ++ [heard a]) l' u' U2). rewrite U3 in IH. cbn [u_sys with_sys] in IH.
        assert (As : forall x, (past ++ [heard a]) ++ map heard x = past ++ map heard (a :: x)) by (intros x; rewrite <- app_assoc; reflexivity).
        destruct (demo_rounds debug E C m n u') as [v|v|v|v| |]; try exact IH.
        * destruct IH as (I1 & now & later & -> & I2 & I3). split; [cbn [List.length]; lia|]. exists (a :: now), later. split; [reflexivity|].
          split; [cbn [map In]; tauto|]. now rewrite <- As.
        * destruct IH as (I1 & I2). split; [cbn [map In]; tauto|]. now rewrite <- As.
        * destruct IH as (now & b & later & -> & I2 & I3 & I4). exists (a :: now), b, later. split; [reflexivity|]. split; [cbn [map In]; tauto|].
          split; [exact I3|]. now rewrite <- As.
  Qed.
End Demo.

Lemma screen_example debug E C m K h :
  key_map m -> (forall c n, n <= grow C c n) -> env_ok E -> env_chars E -> S_Lines.ascii_plain E -> S_Writer.caps_coherent C ->
  S_Tty.implements E C K -> S_UnixScreen.plain_caps C -> drawable C ->
  (forall e, no_wide E (concat (debug e)) /\ newlines (concat (debug e)) <= h) ->
  forall z t0 u acts n, unix_start E C m K z t0 u acts ->
    3 <= lines z -> 33 <= columns z -> 4 + lines z + 2 * h <= umax E ->
    S_Writer.perfect (script (wr (u_sys u))) -> (n + 1) * (2 * total z + 1) <= writes_left (script (wr (u_sys u))) ->
    match demo debug E C m n u with
    | DGoing u' => n <= List.length acts + List.length (portions (u_sys u)) /\
        exists now later, acts = now ++ later /\ ~ In the_q (map heard now) /\
          shows C (unix_sees K t0 u') (picture E debug z (latest (map heard now)))
    | DWaiting u' => ~ In the_q (map heard acts) /\ shows C (unix_sees K t0 u') (picture E debug z (latest (map heard acts)))
    | DQuit u' => exists now a later, acts = now ++ a :: later /\ ~ In the_q (map heard now) /\ heard a = the_q /\
        shows C (unix_sees K t0 u') (picture E debug z (latest (map heard now)))
    | _ => False
    end.
Proof.
  intros Hm Hg HE HC HA Hco HK Hpc HD Hd z t0 u acts n Hst Hl Hc Hu Hp Hw.
  assert (Hz : S_Screen.screen_size z) by (destruct Hst as [(cfg & s0 & s1 & v0 & _ & Hz & _) _ _ _ _]; exact Hz).
  assert (Hat := start_painted E C m K HK Hpc z t0 u acts Hst). assert (Hhe := start_hears E C m K z t0 u acts Hst).
  assert (Hn : forall e, no_wide E (concat (debug e))) by (intros e; apply Hd). assert (Hh : forall e, newlines (concat (debug e)) <= h) by (intros e; apply Hd).
  destruct (show_ready debug E C m K z h Hg HE HC HA Hco HK HD Hn Hh Hu Hz Hl Hc t0 [] acts n draw_screen ENoEvent u (blank_canvas z) Hat eq_refl ltac:(cbn; lia) Hhe Hp Hw (or_introl eq_refl))
    as (u' & U1 & U2 & U3).
  { apply (greets E debug z HA Hl Hc (blank_canvas z)); reflexivity. }
  unfold demo. rewrite U1. pose proof (demo_runs debug E C m K z h Hm Hg HE HC HA Hco HK HD Hn Hh Hu Hz Hl Hc t0 n [] acts u' U2) as D. rewrite U3 in D. exact D.
Qed.
