(** Proofs about any programs that share a [Screen] (C116): the picture. *)
From Verif Require Import Base M_Utf8 M_Geom S_Geom M_Attr M_Buf S_Buf M_Writer S_Tty S_Writer P_Buf P_Buf2 P_Buf3 P_Writer P_Attr P_Writer3 M_Screen S_Screen P_Screen P_Screen2 P_Screen5 M_ScreenApi
  S_Canvas P_Canvas P_WholeScreen2 M_Locks S_Locks P_Locks P_Locks2 P_Blocks S_Together P_Together S_Loop P_Loop S_CursorMode P_CursorMode S_Program P_Program.

Lemma marked_app E l1 : forall l2 k, marked E (l1 ++ l2) k = marked E l2 (marked E l1 k).
Proof. induction l1 as [|[m| |m|sz] l1 IH]; intros l2 k; cbn; auto. Qed.
Lemma last_shown_app E l1 : forall l2 k o, last_shown E (l1 ++ l2) k o = last_shown E l2 (marked E l1 k) (last_shown E l1 k o).
Proof. induction l1 as [|[m| |m|sz] l1 IH]; intros l2 k o; cbn; auto. Qed.
Lemma asked_app l1 : forall l2 b, asked (l1 ++ l2) b = asked l2 (asked l1 b).
Proof. induction l1 as [|[m| |m|sz] l1 IH]; intros l2 b; cbn; auto. Qed.
Lemma sent_all_app l1 : forall l2 b, sent_all (l1 ++ l2) b = sent_all l2 (sent_all l1 b).
Proof. induction l1 as [|[m| |m|sz] l1 IH]; intros l2 b; cbn; auto. Qed.

(** ** The new sizes in the history *)
Lemma events_session i tr : forall a r, In (EvAct i a r) tr -> In (a, r) (s_cur (sess_of i tr)) \/ In (a, r) (concat (sessions i tr)).
Proof.
  induction tr as [|e tr IH] using rev_ind; intros a r H; [destruct H|].
  unfold sessions in *. rewrite sess_snoc. apply in_app_or in H.
  assert (D : In (EvAct i a r) tr -> In (a, r) (s_cur (sess_of i tr)) \/ In (a, r) (concat (s_done (sess_of i tr)))) by apply IH.
  destruct (sess_of i tr) as [sw sd sc sn]. cbn [s_cur s_done] in D.
  assert (Q : e <> EvAct i a r -> In (a, r) sc \/ In (a, r) (concat sn)).
  { intros Hn. apply D. destruct H as [H|[H|[]]]; [exact H|congruence]. }
  destruct e as [j [| |]|j [| |]|j b q|j]; cbn [sess_step]; try (apply Q; discriminate);
    destruct (Nat.eqb_spec j i) as [->|Hj]; try (apply Q; congruence); cbn [s_cur s_done s_w s_d].
  - destruct sd; cbn [s_cur s_done]; [apply Q; discriminate|]. right. rewrite concat_app. cbn. rewrite app_nil_r. apply in_or_app.
    destruct (Q ltac:(discriminate)); auto.
  - destruct sw; cbn [s_cur s_done]; [apply Q; discriminate|]. right. rewrite concat_app. cbn. rewrite app_nil_r. apply in_or_app.
    destruct (Q ltac:(discriminate)); auto.
  - destruct H as [H|[H|[]]].
    + destruct (D H); [left; apply in_or_app|]; auto.
    + injection H as -> ->. left. apply in_or_app. right. now left.
Qed.
Lemma mv_fits x sz : In (AD (DUpdateSize sz)) (mv_acts x) <-> In (Fitted sz) (concat (vis x)).
Proof.
  assert (G : forall g, In (AD (DUpdateSize sz)) (map mark_act g) <-> In (Fitted sz) g).
  { intros g. rewrite in_map_iff. split; [intros (y & Hy & Hi)|intros Hi; exists (Fitted sz); auto].
    destruct y; try discriminate Hy. injection Hy as ->. exact Hi. }
  destruct x as [[m| |m|sz']|g| |]; cbn; try (intuition discriminate).
  - split; (intros [H|[]]; injection H as ->; auto).
  - rewrite app_nil_r, !in_app_iff, G. cbn. intuition discriminate.
Qed.
Lemma fits_told i tr l : map (map fst) (sessions i tr) = map mv_acts l -> s_cur (sess_of i tr) = [] ->
  forall sz, In (Fitted sz) (concat (flat_map vis l)) <-> exists r, In (EvAct i (AD (DUpdateSize sz)) r) tr.
Proof.
  intros Hm Hc sz.
  assert (A : (exists r, In (EvAct i (AD (DUpdateSize sz)) r) tr) <-> In (AD (DUpdateSize sz)) (concat (map (map fst) (sessions i tr)))).
  { rewrite <- concat_map, in_map_iff. split.
    - intros (r & Hr). destruct (events_session _ _ _ _ Hr) as [X|X]; [rewrite Hc in X; destruct X|]. eexists. split; [|exact X]. reflexivity.
    - intros ([a r] & Ha & Hi). cbn in Ha. subst a. exists r. apply session_events. now right. }
  rewrite A, Hm. clear. induction l as [|x l IH]; [reflexivity|]. cbn [flat_map map concat]. rewrite concat_app, !in_app_iff, IH, mv_fits. reflexivity.
Qed.
Lemma visible_fits plan sz : In (Fitted sz) (concat (map snd (flat_map (fun x => map (pair (fst x)) (vis (snd x))) plan))) <->
  exists i, In (Fitted sz) (concat (flat_map vis (done_by (A := mv) i plan))).
Proof.
  split.
  - intros H. apply in_concat in H. destruct H as (z & Z1 & Z2). apply in_map_iff in Z1. destruct Z1 as ([i y] & Hy & Z1). cbn in Hy. subst y.
    apply in_flat_map in Z1. destruct Z1 as ([j x] & X1 & X2). cbn in X2. apply in_map_iff in X2. destruct X2 as (q & Hq & X2). injection Hq as -> ->.
    exists i. apply in_concat. exists z. split; [|exact Z2]. apply in_flat_map. exists x. split; [|exact X2].
    unfold done_by. apply in_map_iff. exists (i, x). split; [reflexivity|]. apply filter_In. split; [exact X1|]. apply Nat.eqb_refl.
  - intros (i & H). apply in_concat in H. destruct H as (z & Z1 & Z2). apply in_flat_map in Z1. destruct Z1 as (x & X1 & X2).
    unfold done_by in X1. apply in_map_iff in X1. destruct X1 as ([j y] & Hy & X1). cbn in Hy. subst y. apply filter_In in X1. destruct X1 as [X1 _].
    apply in_concat. exists z. split; [|exact Z2]. apply in_map_iff. exists (j, z). split; [reflexivity|]. apply in_flat_map. exists (j, x).
    split; [exact X1|]. cbn. now apply in_map.
Qed.

Section Program.
  Variables (E : env) (C : tcfg) (K : tty).
  Hypothesis HE : env_ok E.
  Hypothesis HC : env_chars E.
  Hypothesis Hco : caps_coherent C.
  Hypothesis HK : implements E C K.

  Definition seen (v0 v : view) (last : option canvas) : Prop :=
    match last with
    | Some k => displays C v k /\ vcur v = pen_goal k
    | None => vcells v = vcells v0 /\ vcur v = vcur v0
    end.
  (** The state of a screen in use, since the writer was in the state [w0] and the terminal
      in one of the states [T0]. *)
  Definition inked (T0 : tstate K -> Prop) (w0 : wst) (s : scr) (k : canvas) (last : option canvas) (ask : bool -> bool) (all : bool) : Prop :=
    frame E s /\ fits E (sb s) k /\ wat (wr s) = no_attrs /\ (all = true -> obuf (wr s) = []) /\
    exists x, stream (wr s) = stream w0 ++ x /\
      forall t v0, T0 t -> look K t = Some v0 ->
      exists v, look K (feed K t x) = Some v /\ P_Screen2.inv E C s v /\ no_halves E s v /\
        (S_Writer.has C CursorNormal = true -> S_Writer.has C CursorInvisible = true -> vvis v = ask (vvis v0)) /\ seen v0 v last.

  Lemma inked_draw T0 w0 s k last ask all m b : inked T0 w0 s k last ask all -> no_wide E (method_text m) ->
    screen_method E m (sb s) = Val b -> inked T0 w0 (with_sb b s) (S_Canvas.draw E m k) last ask all.
  Proof.
    intros (D1 & D2 & D3 & D4 & x & X1 & X2) Hn Hm.
    destruct (op_ok E HE _ _ _ (f_buf _ _ D1) (not_resize m) Hm) as (B1 & B2 & B3).
    assert (Hs : single_width E (sforward m)) by (unfold single_width; rewrite method_text_op; exact Hn).
    split; [destruct D1 as [F1 F2 F3]; constructor; cbn [sb wr with_sb]; rewrite ?B3; auto|].
    split; [exact (method_draws E HE _ _ _ _ D2 Hn Hm)|]. split; [exact D3|]. split; [exact D4|]. exists x. split; [exact X1|].
    intros t v0 Ht Hv. destruct (X2 t v0 Ht Hv) as (v & V1 & V2 & V3 & V4).
    destruct (moves_buffer E C K HE HK _ _ _ (not_resize m) Hs Hm (feed K t x)) as (y & Y1 & v' & Y2 & Y3 & Y4); [exists v; auto|].
    cbn [wr with_sb] in Y1. rewrite <- (app_nil_r (stream (wr s))) in Y1 at 1. apply app_inv_head in Y1. subst y.
    rewrite (feed_nil _ _ _ HK) in Y2. rewrite V1 in Y2. injection Y2 as <-. exists v. auto.
  Qed.

  Lemma inked_show T0 w0 s k last ask all s' : inked T0 w0 s k last ask all -> refresh E C s = Ret s' tt ->
    inked T0 w0 s' k (Some k) ask true.
  Proof.
    intros (D1 & D2 & D3 & D4 & x & X1 & X2) Hr. destruct D2 as [G1 G2 G3 G4].
    assert (Hw := narrow_no_wide E (sb s) G1 G2). assert (Hf : wides_fit E (sb s)) by (intros i Hx; rewrite Hw in Hx; discriminate).
    destruct (refresh_spec E C HC _ _ _ D1 Hf Hr) as (R1 & R2 & R3 & R4 & R5).
    assert (Fr := refresh_frame E C HC _ _ _ D1 Hf Hr).
    destruct R5 as (_ & y & Y1 & Y2).
    split; [exact Fr|]. split; [rewrite R1; apply back_fits; [constructor; auto|rewrite <- R1; apply Fr]|].
    split; [exact R3|]. split; [intros _; exact R4|]. exists (x ++ y). split; [rewrite Y1, X1; now rewrite app_assoc|].
    intros t v0 Ht Hv. destruct (X2 t v0 Ht Hv) as (v & V1 & V2 & V3 & V4 & _). rewrite (feed_app _ _ _ HK).
    destruct (moves_drawn E C K HC Hco HK s s' (or_introl Hr) (feed K t x)) as (y' & Z1 & v' & Z2 & Z3 & Z4); [exists v; auto|].
    rewrite Y1 in Z1. apply app_inv_head in Z1. subst y'.
    exists v'. split; [exact Z2|]. split; [apply Z3|]. split; [exact Z4|]. split.
    - intros C1 C2. rewrite <- (V4 C1 C2). destruct (no_halves_ok E C s v V2 V3) as (_ & N1 & N2).
      unfold refresh in Hr. apply bind_ret in Hr. destruct Hr as (s1 & u1 & Q1 & Q2).
      destruct (compose_spec E C HC s s1 u1 D1 Hf Q1) as (F1 & _).
      destruct (goes_flush s1 s' tt (f_whole _ _ F1) Q2) as (_ & _ & _ & _ & _ & _ & T7). rewrite T7 in Y1.
      exact (compose_visible E C K HC Hco HK _ _ _ _ _ _ Q1 Y1 V2 N1 N2 V1 v' Z2).
    - destruct Z3 as (I1 & (W2 & W3) & W4 & W5). destruct (no_halves_ok E C s' v' I1 Z4) as (N1 & _).
      destruct G4 as (H1 & H2 & H3 & H4). unfold screen_get_size, screen_get_cursor in *. split.
      + split; [rewrite W2, R1; exact H1|]. intros p Hp. assert (X := H4 p Hp).
        rewrite (W3 _ (Cell (snd (ink k (line p) (column p))) (fst (ink k (line p) (column p))))); [now rewrite N1|]. rewrite R1. exact X.
      + destruct W5 as [W5|W5]; [|rewrite N1 in W5; discriminate]. rewrite W5, R1. unfold cursor_goal, pen_goal, on_canvas.
        cbn [bsize bcur with_back]. now rewrite H1, H2.
  Qed.

  Lemma inked_mode T0 w0 s k last ask all m s' : inked T0 w0 s k last ask all -> on_writer (set_cursor_mode C m) s = Ret s' tt ->
    inked T0 w0 s' k last (fun _ => visible_in m) false.
  Proof.
    intros (D1 & D2 & D3 & D4 & x & X1 & X2) Hm.
    destruct (mode_goes E C _ _ _ _ (f_whole _ _ D1) Hm) as (M1 & M2 & M3 & M4 & M5).
    assert (M6 := M5). destruct M6 as (M6 & y & Y1 & _).
    split; [destruct D1; constructor; rewrite ?M1; auto|]. split; [now rewrite M1|]. split; [congruence|]. split; [discriminate|].
    exists (x ++ y). split; [rewrite Y1, X1; now rewrite app_assoc|].
    intros t v0 Ht Hv. destruct (X2 t v0 Ht Hv) as (v & V1 & [F I1 I2 I3 I4 I5 I6] & V3 & V4 & V5). rewrite (feed_app _ _ _ HK).
    destruct (goes_here E C K Hco HK _ _ _ _ y (feed K t x) v M5 Y1 V1 I) as (v' & W2 & b & ->). exists (set_vvis b v). split; [assumption|].
    split; [|split; [|split]].
    - destruct F as [F1 F2 F3]. constructor; rewrite ?M1, ?M2, ?M3, ?M4; auto. constructor; rewrite ?M1; auto.
    - destruct V3 as [A1 A2]. split; [now rewrite M1|]. intros Hc. apply A2. congruence.
    - intros C1 C2. apply on_writer_ret in Hm. destruct Hm as (w & Hm & ->).
      destruct (cursor_mode_effect E C m (wr s) w tt Hm) as (Z1 & _ & z & Z2 & Z3).
      assert (Y : stream w = stream (wr s) ++ z) by (unfold stream; now rewrite Z1, Z2, app_assoc).
      cbn [wr with_wr] in Y1. rewrite Y1 in Y. apply app_inv_head in Y. subst z.
      rewrite (Z3 K HK C1 C2 _ v V1) in W2. injection W2 as Hb. cbn. now rewrite <- Hb.
    - destruct last; exact V5.
  Qed.

  Lemma inked_drop T0 w0 s k last ask all w u : inked T0 w0 s k last ask all -> guard_drop (wr s) = Ret w u ->
    inked T0 w0 (with_wr w s) k last ask all.
  Proof.
    intros (D1 & D2 & D3 & D4 & x & X1 & X2) H. assert (S := drop_same (wr s) (f_whole _ _ D1)). rewrite H in S.
    destruct S as (S1 & S2 & S3 & S4). split; [destruct D1; constructor; auto|]. split; [exact D2|]. split; [cbn; congruence|].
    split; [cbn; auto|]. exists x. split; [cbn; congruence|].
    intros t v0 Ht Hv. destruct (X2 t v0 Ht Hv) as (v & V1 & [[F1 F2 F3] I1 I2 I3 I4 I5 I6] & V3). exists v. split; [exact V1|]. split; [|exact V3].
    constructor; cbn [sb clr real wr with_wr]; rewrite ?S2; auto. constructor; auto.
  Qed.

  Lemma inked_told T0 w0 s k last ask all sz s' : inked T0 w0 s k last ask all -> screen_size sz -> update_size E sz s = Val s' ->
    inked (of_size K sz) (wr s) s' (refit sz k) None (fun b => b) false.
  Proof.
    intros (D1 & D2 & D3 & _) Hz H. unfold update_size in H. destruct (sb_resize E (sb s) sz) as [b|] eqn:Eb; [|discriminate]. injection H as <-.
    destruct D1 as [F1 F2 F3]. destruct (sb_resize_ok E HE _ _ _ F1 Hz Eb) as (R1 & R2 & R3 & R4).
    split; [constructor; cbn [sb wr]; auto; now rewrite R2|]. split; [exact (refit_fits E HE _ _ _ _ D2 Hz Eb)|]. split; [exact D3|]. split; [discriminate|].
    exists []. split; [symmetry; apply app_nil_r|].
    intros t v0 (v & V1 & V2 & V3) Hv. rewrite V1 in Hv. injection Hv as <-. rewrite (feed_nil _ _ _ HK). exists v. split; [exact V1|].
    assert (Hlen := look_ok _ _ _ HK _ _ V1). unfold view_ok in Hlen. split; [|split; [|split; [reflexivity|split; reflexivity]]].
    - constructor; cbn [sb clr real wr]; auto; try congruence.
      + constructor; cbn [sb wr]; auto. congruence.
      + rewrite D3, V3. symmetry. apply shown_none.
    - split; cbn [sb clr]; [|discriminate]. apply (R4 (narrow_text E)); [exact (space_not_wide E HE)|apply D2].
  Qed.

  (** What happened so far, since the screen was in the state [s0]. *)
  Definition came (s0 : scr) (t : tstate K) (k : canvas) (l : list mark) (s : scr) : Prop :=
    exists pre post x w0, l = pre ++ post /\ one_size post /\ (pre = [] \/ exists p sz, pre = p ++ [Fitted sz]) /\
      stream w0 = stream (wr s0) ++ x /\ (pre = [] -> x = []) /\
      inked (fun t' => (pre = [] -> t' = t) /\ (pre <> [] -> of_size K (ksize (marked E pre k)) t')) w0 s
        (marked E post (marked E pre k)) (last_shown E post (marked E pre k) None) (asked post) (sent_all post false).

  Lemma one_size_snoc l x : one_size l -> (forall sz, x <> Fitted sz) -> one_size (l ++ [x]).
  Proof. intros H Hx sz Hi. apply in_app_or in Hi. destruct Hi as [Hi|[Hi|[]]]; [exact (H sz Hi)|exact (Hx sz Hi)]. Qed.

  Lemma came_draw s0 t k l s m b : came s0 t k l s -> no_wide E (method_text m) -> screen_method E m (sb s) = Val b ->
    came s0 t k (l ++ [Drawn m]) (with_sb b s).
  Proof.
    intros (pre & post & x & w0 & L1 & L0 & L2 & L3 & L4 & L5) Hn Hm. exists pre, (post ++ [Drawn m]), x, w0.
    split; [now rewrite app_assoc, L1|]. split; [now apply one_size_snoc|]. split; [exact L2|]. split; [exact L3|]. split; [exact L4|].
    rewrite marked_app, last_shown_app, sent_all_app. cbn [marked last_shown sent_all].
    destruct (inked_draw _ _ _ _ _ _ _ _ _ L5 Hn Hm) as (D1 & D2 & D3 & D4 & y & Y1 & Y2). repeat (split; [assumption|]). exists y.
    split; [exact Y1|]. intros t' v0 A B. rewrite asked_app. exact (Y2 t' v0 A B).
  Qed.
  Lemma came_show s0 t k l s s' : came s0 t k l s -> refresh E C s = Ret s' tt -> came s0 t k (l ++ [Shown]) s'.
  Proof.
    intros (pre & post & x & w0 & L1 & L0 & L2 & L3 & L4 & L5) Hr. exists pre, (post ++ [Shown]), x, w0.
    split; [now rewrite app_assoc, L1|]. split; [now apply one_size_snoc|]. split; [exact L2|]. split; [exact L3|]. split; [exact L4|].
    rewrite marked_app, last_shown_app, sent_all_app. cbn [marked last_shown sent_all].
    destruct (inked_show _ _ _ _ _ _ _ _ L5 Hr) as (D1 & D2 & D3 & D4 & y & Y1 & Y2). repeat (split; [assumption|]). exists y.
    split; [exact Y1|]. intros t' v0 A B. rewrite asked_app. exact (Y2 t' v0 A B).
  Qed.
  Lemma came_mode s0 t k l s m s' : came s0 t k l s -> on_writer (set_cursor_mode C m) s = Ret s' tt -> came s0 t k (l ++ [Asked m]) s'.
  Proof.
    intros (pre & post & x & w0 & L1 & L0 & L2 & L3 & L4 & L5) Hr. exists pre, (post ++ [Asked m]), x, w0.
    split; [now rewrite app_assoc, L1|]. split; [now apply one_size_snoc|]. split; [exact L2|]. split; [exact L3|]. split; [exact L4|].
    rewrite marked_app, last_shown_app, sent_all_app. cbn [marked last_shown sent_all].
    destruct (inked_mode _ _ _ _ _ _ _ _ _ L5 Hr) as (D1 & D2 & D3 & D4 & y & Y1 & Y2). repeat (split; [assumption|]). exists y.
    split; [exact Y1|]. intros t' v0 A B. rewrite asked_app. exact (Y2 t' v0 A B).
  Qed.
  Lemma came_drop s0 t k l s w u : came s0 t k l s -> guard_drop (wr s) = Ret w u -> came s0 t k l (with_wr w s).
  Proof.
    intros (pre & post & x & w0 & L1 & L0 & L2 & L3 & L4 & L5) H. exists pre, post, x, w0. repeat (split; [assumption|]).
    exact (inked_drop _ _ _ _ _ _ _ _ _ L5 H).
  Qed.
  Lemma came_told s0 t k l s sz s' : came s0 t k l s -> screen_size sz -> update_size E sz s = Val s' ->
    came s0 t k (l ++ [Fitted sz]) s'.
  Proof.
    intros (pre & post & x & w0 & L1 & L0 & L2 & L3 & L4 & L5) Hz H. assert (D := inked_told _ _ _ _ _ _ _ _ _ L5 Hz H).
    destruct L5 as (_ & _ & _ & _ & y & Y & _).
    exists (l ++ [Fitted sz]), [], (x ++ y), (wr s). rewrite app_nil_r. split; [reflexivity|]. split; [intros z []|]. split; [right; eauto|].
    split; [rewrite Y, L3; now rewrite app_assoc|]. split; [intros X; apply app_eq_nil in X; destruct X as [_ X]; discriminate X|].
    assert (Hev : marked E (l ++ [Fitted sz]) k = refit sz (marked E post (marked E pre k))).
    { rewrite marked_app, L1, marked_app. reflexivity. }
    rewrite Hev. cbn [marked last_shown sent_all]. destruct D as (D1 & D2 & D3 & D4 & z & Z1 & Z2). repeat (split; [assumption|]).
    exists z. split; [exact Z1|]. intros t' v0 [_ A] B. refine (Z2 t' v0 _ B). apply A.
    intros X. apply app_eq_nil in X. destruct X as [_ X]. discriminate X.
  Qed.
  (** [refresh] called on the screen draws twice, which does not matter. *)
  Lemma came_twice s0 t k l s : came s0 t k (l ++ [Shown; Shown]) s -> came s0 t k (l ++ [Shown]) s.
  Proof.
    intros (pre & post & x & w0 & L1 & L0 & L2 & L3 & L4 & L5).
    assert (Hs : forall l0 post, pre ++ post = l0 ++ [Shown] -> exists q, post = q ++ [Shown] /\ pre ++ q = l0).
    { intros l0 p0 H. destruct p0 as [|z q _] using rev_ind.
      - rewrite app_nil_r in H. destruct L2 as [->|(p & sz & ->)]; [destruct l0; discriminate H|].
        apply app_inj_tail in H. destruct H as [_ H]. discriminate H.
      - rewrite app_assoc in H. apply app_inj_tail in H. destruct H as [H1 ->]. eauto. }
    change (l ++ [Shown; Shown]) with (l ++ [Shown] ++ [Shown]) in L1. rewrite app_assoc in L1. symmetry in L1.
    destruct (Hs _ _ L1) as (q & -> & L6). destruct (Hs _ _ L6) as (q' & -> & L7).
    exists pre, (q' ++ [Shown]), x, w0. split; [rewrite app_assoc; congruence|].
    split; [intros sz Hi; apply (L0 sz), in_or_app; now left|]. split; [exact L2|]. split; [exact L3|]. split; [exact L4|].
    destruct L5 as (D1 & D2 & D3 & D4 & y & Y1 & Y2). 
    split; [exact D1|]. split; [rewrite !marked_app in *; exact D2|]. split; [exact D3|].
    split; [rewrite !sent_all_app in *; exact D4|]. exists y. split; [exact Y1|]. intros t' v0 A B. specialize (Y2 t' v0 A B).
    rewrite !asked_app in *. rewrite !last_shown_app, !marked_app in *. cbn [asked last_shown marked] in *. exact Y2.
  Qed.

  (** ** The replay *)
  Lemma answer_kind a s : snd (meaning E C a s) = AOk \/ snd (meaning E C a s) = AGone \/ exists e, snd (meaning E C a s) = AErr e.
  Proof.
    destruct s as [w d]. destruct a as [a|a|]; cbn.
    - destruct (wmeaning C a w) as [w' r] eqn:Ew. cbn. unfold wmeaning in Ew. destruct w as [w|]; [|injection Ew as <- <-; auto].
      unfold wresult in Ew. destruct (match a with WOp _ => _ | _ => _ end); injection Ew as <- <-; eauto.
    - destruct (dmeaning E a d) as [d' r] eqn:Ed. cbn. unfold dmeaning in Ed. destruct d as [d|]; [|injection Ed as <- <-; auto].
      destruct a; [destruct (run_buf_op _ _ _)|destruct (update_size _ _ _)]; injection Ed as <- <-; eauto.
    - destruct w as [w|]; [|cbn; auto]. destruct d as [d|]; [|cbn; auto]. destruct (refresh E C _); cbn; eauto.
  Qed.
  Lemma replays_ok l : forall s w' d', replays E C l s (Some w', Some d') -> fine l -> forall a r, In (a, r) l -> r = AOk.
  Proof.
    induction l as [|[b q] l IH]; intros s w' d' H Hf a r Hi; [destruct Hi|destruct Hi as [Hi|Hi]].
    - injection Hi as -> ->. assert (Hg := alive_not_gone E C _ _ _ _ _ _ H). destruct (fine_cons _ _ _ Hf) as [He _].
      destruct H as [H _]. destruct (answer_kind a s) as [A|[A|(e & A)]]; rewrite H in A; auto; [congruence|]. destruct (He e A).
    - destruct (fine_cons _ _ _ Hf) as [_ Hf']. destruct H as [_ H]. exact (IH _ _ _ H Hf' a r Hi).
  Qed.

  Lemma mark_came s0 t k l s x r rest w' d' : came s0 t k l s -> (match x with Drawn m => no_wide E (method_text m) | Fitted sz => screen_size sz | _ => True end) ->
    replays E C ((mark_act x, r) :: rest) (share s) (Some w', Some d') -> (forall e, r <> AErr e) ->
    exists s', replays E C rest (share s') (Some w', Some d') /\ came s0 t k (l ++ [x]) s'.
  Proof.
    intros Ha Hx H Hf. assert (Hg := alive_not_gone E C _ _ _ _ _ _ H).
    cbn [replays] in H. destruct H as [H1 H2]. destruct x as [m| |m|sz]; cbn [mark_act] in *.
    - unfold share, meaning, dmeaning in H1, H2. cbn [dbuf dclr dreal] in H1, H2.
      destruct (run_buf_op E (sb s) (sforward m)) as [b|] eqn:Eb; cbn in H1, H2; [|congruence].
      exists (with_sb b s). split; [exact H2|]. now apply came_draw.
    - destruct (refresh_replay E C s r H1 Hg Hf) as (s' & R1 & R2). exists s'. rewrite R1 in H2. split; [exact H2|]. now apply (came_show _ _ _ _ s).
    - unfold share, meaning, wmeaning in H1, H2. cbn [run_wop] in H1, H2.
      destruct (set_cursor_mode C m (wr s)) as [w []|w e| |] eqn:Em; cbn in H1, H2; try congruence.
      exists (with_wr w s). split; [exact H2|]. apply (came_mode _ _ _ _ s); [exact Ha|]. unfold on_writer. now rewrite Em.
    - unfold share, meaning, dmeaning in H1, H2. cbn [dbuf dclr dreal] in H1, H2.
      assert (U := update_writer E sz (sb s) (clr s) (real s) (wr s) (writer_new 0 [])).
      destruct (update_size E sz (Scr (sb s) (clr s) (real s) (writer_new 0 []))) as [s1|] eqn:Eu; cbn in H1, H2; [|congruence].
      exists (with_wr (wr s) s1). split; [exact H2|]. apply (came_told _ _ _ _ s); [exact Ha|exact Hx|]. destruct s; exact U.
  Qed.
  Lemma dropped_came s0 t k l s r rest w' d' : came s0 t k l s ->
    replays E C ((AW WGuardDrop, r) :: rest) (share s) (Some w', Some d') ->
    exists s', replays E C rest (share s') (Some w', Some d') /\ came s0 t k l s'.
  Proof.
    intros Ha H. assert (Hg := alive_not_gone E C _ _ _ _ _ _ H). cbn [replays] in H. destruct H as [H1 H2].
    unfold share, meaning, wmeaning in H1, H2.
    destruct (guard_drop (wr s)) as [w u|w e| |] eqn:Ed; cbn in H1, H2; try congruence.
    - exists (with_wr w s). split; [exact H2|]. exact (came_drop _ _ _ _ _ _ _ Ha Ed).
    - unfold guard_drop in Ed. destruct (flush (wr s)); discriminate.
  Qed.

  Definition usable_mark (x : mark) : Prop := match x with Drawn m => no_wide E (method_text m) | Fitted sz => screen_size sz | _ => True end.
  Lemma marks_came q : forall s0 t k l s rs rest w' d', came s0 t k l s -> Forall usable_mark q ->
    map fst rs = map mark_act q -> fine rs -> replays E C (rs ++ rest) (share s) (Some w', Some d') ->
    exists s', replays E C rest (share s') (Some w', Some d') /\ came s0 t k (l ++ q) s'.
  Proof.
    induction q as [|x q IH]; intros s0 t k l s rs rest w' d' Ha Hn Hm Hf H.
    - destruct rs; [|discriminate Hm]. exists s. rewrite app_nil_r. auto.
    - destruct rs as [|[a r] rs]; [discriminate Hm|]. cbn [map fst] in Hm. injection Hm as -> Hm.
      inversion Hn as [|? ? N1 N2]; subst. destruct (fine_cons _ _ _ Hf) as [Hr Hf']. cbn [app] in H.
      destruct (mark_came _ _ _ _ _ _ _ _ _ _ Ha N1 H Hr) as (s' & H' & A').
      destruct (IH _ _ _ _ _ _ _ _ _ A' N2 Hm Hf' H') as (s2 & H2 & A2). exists s2. rewrite <- app_assoc in A2. auto.
  Qed.

  Definition usable_mv (x : mv) : Prop :=
    match x with VAlone x => usable_mark x | VGuard g => Forall usable_mark g | _ => True end.
  Lemma mv_came x s0 t k l s rs rest w' d' : came s0 t k l s -> usable_mv x ->
    map fst rs = mv_acts x -> fine rs -> replays E C (rs ++ rest) (share s) (Some w', Some d') ->
    exists s', replays E C rest (share s') (Some w', Some d') /\ came s0 t k (l ++ concat (vis x)) s'.
  Proof.
    intros Ha Hn Hm Hf H.
    assert (G : forall q, Forall usable_mark q -> map fst rs = map mark_act q ++ [AW WGuardDrop] ->
      exists s', replays E C rest (share s') (Some w', Some d') /\ came s0 t k (l ++ q) s').
    { intros q Hq Hmq. apply map_eq_app in Hmq. destruct Hmq as (r1 & r2 & -> & M1 & M2).
      destruct r2 as [|[a r] [|]]; try discriminate M2. injection M2 as ->.
      apply fine_app in Hf. rewrite <- app_assoc in H. cbn [app] in H.
      destruct (marks_came _ _ _ _ _ _ _ _ _ _ Ha Hq M1 (proj1 Hf) H) as (s' & H' & A'). exact (dropped_came _ _ _ _ _ _ _ _ _ A' H'). }
    assert (G1 : forall x, usable_mark x -> map fst rs = [mark_act x] -> exists s', replays E C rest (share s') (Some w', Some d') /\ came s0 t k (l ++ [x]) s').
    { intros y Hy Hmy. apply (marks_came [y] _ _ _ _ _ rs rest w' d' Ha); auto. }
    destruct x as [x|g| |]; cbn [vis concat mv_acts usable_mv] in *; rewrite ?app_nil_r.
    - destruct x as [m| |m|sz]; auto.
      destruct (G [Shown; Shown]) as (s' & H' & A'); [repeat constructor|exact Hm|]. exists s'. split; [exact H'|]. now apply came_twice.
    - apply G; [apply Forall_app; split; [exact Hn|repeat constructor]|]. rewrite map_app, Hm, <- app_assoc. reflexivity.
    - apply (G []) in Hm; [|constructor]. rewrite app_nil_r in Hm. exact Hm.
    - destruct rs; [|discriminate Hm]. exists s. auto.
  Qed.
  Lemma mvs_came plan : forall order s0 t k l s w' d', came s0 t k l s -> Forall usable_mv plan ->
    map (map fst) order = map mv_acts plan -> fine (concat order) ->
    replays E C (concat order) (share s) (Some w', Some d') ->
    exists s', share s' = (Some w', Some d') /\ came s0 t k (l ++ concat (flat_map vis plan)) s'.
  Proof.
    induction plan as [|x plan IH]; intros order s0 t k l s w' d' Ha Hn Hm Hf H.
    - destruct order; [|discriminate Hm]. cbn in H. exists s. cbn. rewrite app_nil_r. auto.
    - destruct order as [|rs order]; [discriminate Hm|]. cbn [map] in Hm. injection Hm as M1 M2. cbn [concat] in H, Hf.
      apply fine_app in Hf. inversion Hn as [|? ? N1 N2]; subst.
      destruct (mv_came x _ _ _ _ _ _ _ _ _ Ha N1 M1 (proj1 Hf) H) as (s' & H' & A').
      destruct (IH order _ _ _ _ _ _ _ A' N2 M2 (proj2 Hf) H') as (s2 & H2 & A2).
      exists s2. split; [exact H2|]. cbn [flat_map]. rewrite concat_app, app_assoc. exact A2.
  Qed.

  Definition visible_marks (plan : list (nat * mv)) : list (nat * list mark) := flat_map (fun p => map (pair (fst p)) (vis (snd p))) plan.
  Lemma visible_marks_by i plan : done_by i (visible_marks plan) = flat_map vis (done_by i plan).
  Proof.
    unfold done_by, visible_marks. induction plan as [|[j x] plan IH]; [reflexivity|]. cbn [flat_map fst snd filter].
    rewrite filter_app, map_app, IH. destruct (Nat.eqb_spec j i) as [->|H]; cbn [map flat_map snd].
    - f_equal. destruct x; cbn; rewrite ?Nat.eqb_refl; reflexivity.
    - apply Nat.eqb_neq in H. destruct x; cbn; rewrite ?H; reflexivity.
  Qed.
  Lemma visible_marks_snd plan : map snd (visible_marks plan) = flat_map vis (map snd plan).
  Proof.
    unfold visible_marks. induction plan as [|[j x] plan IH]; [reflexivity|]. cbn [flat_map fst snd map]. rewrite map_app, IH. f_equal.
    destruct x; reflexivity.
  Qed.
  Lemma follows_less p : forall r w, follows true r w p -> follows false r w p.
  Proof.
    induction p as [|c k IH]; intros r w H; [exact H|]. destruct H as [H1 H2]. split; [|intros a; apply IH, H2].
    destruct c; cbn in *; auto; destruct H1; split; auto; discriminate.
  Qed.

  Lemma good_usable is tr i x : (forall a r, In (JAct a r) is -> In (EvAct i a r) tr) -> usable_sizes tr -> good_mark E is x -> usable_mark x.
  Proof. intros W Hu. destruct x; cbn; auto. intros (r & Hr). exact (Hu _ _ _ (W _ _ Hr)). Qed.

  Lemma share_screen (progs : list client) s t k tr c w' d' : painted E C K s t k -> wat (wr s) = no_attrs ->
    Forall (fun p => follows true None None p /\ screen_program E p) progs ->
    run E C (start progs (share s)) tr c -> finished c -> no_failure tr -> not_continued tr ->
    usable_sizes tr -> shared c = (Some w', Some d') ->
    exists order : list (nat * list mark), (forall i, did None (nth i progs Finish) (done_by i order)) /\
      (forall sz, In (Fitted sz) (concat (map snd order)) <-> exists i r, In (EvAct i (AD (DUpdateSize sz)) r) tr) /\
      let l := concat (map snd order) in
      holds (dbuf d') (marked E l k) /\
      exists pre post x y, l = pre ++ post /\ one_size post /\ (pre = [] \/ exists p sz, pre = p ++ [Fitted sz]) /\
        stream w' = stream (wr s) ++ x ++ y /\ (pre = [] -> x = []) /\ (sent_all post false = true -> obuf w' = []) /\
        forall t' v0, (pre = [] -> t' = t) -> (pre <> [] -> of_size K (ksize (marked E pre k)) t') -> look K t' = Some v0 ->
          exists v, look K (feed K t' y) = Some v /\
            (S_Writer.has C CursorNormal = true -> S_Writer.has C CursorInvisible = true -> vvis v = asked post (vvis v0)) /\
            match last_shown E post (marked E pre k) None with
            | Some k' => displays C v k' /\ vcur v = pen_goal k'
            | None => vcells v = vcells v0 /\ vcur v = vcur v0
            end.
  Proof.
    intros Hp Ha Hn R F Hf Hc Hu Hs.
    assert (L1 : Forall (follows true None None) progs) by (refine (Forall_impl _ _ Hn); intros p [H _]; exact H).
    assert (L2 : Forall (follows false None None) progs) by (refine (Forall_impl _ _ L1); intros p; apply follows_less).
    assert (U := finished_unlocked E C _ _ _ _ L1 R F).
    destruct (sessions_atomic E C _ _ tr c L2 R (U LWriter) (U LData)) as (order & O1 & O2).
    rewrite Hs in O2. assert (Hfine := fine_order order tr Hf O1).
    assert (Hok := replays_ok _ _ _ _ O2 Hfine).
    assert (Hwalk : forall i, exists l, map (map fst) (sessions i tr) = map mv_acts l /\ did None (nth i progs Finish) (flat_map vis l) /\
      Forall usable_mv l /\ (forall sz, In (Fitted sz) (concat (flat_map vis l)) <-> exists r, In (EvAct i (AD (DUpdateSize sz)) r) tr)).
    { intros i. destruct (jwalk_run E C i _ _ _ R) as (is & W1 & W2 & W3). rewrite (F i) in W1. cbn [start threads] in W1.
      assert (Hi : follows true None None (nth i progs Finish) /\ screen_program E (nth i progs Finish)).
      { destruct (Nat.lt_ge_cases i (length progs)) as [Hi|Hi]; [apply (proj1 (Forall_forall _ _) Hn); now apply nth_In|].
        rewrite nth_overflow by exact Hi. repeat split. }
      assert (Hq : forall mo tk kp r, ~ In (JAct (AW (WPrepare mo tk kp)) r) is) by (intros mo tk kp r Hx; exact (Hc _ _ _ _ _ (W3 _ _ Hx))).
      assert (Hcur : cur_ok E None []) by reflexivity.
      destruct (client_walks E (nth i progs Finish) None None is [] [] (proj1 Hi) (proj2 Hi) W1 Hq Hcur) as (ls & l & T1 & T2 & T3 & T4 & T5).
      cbn [holds_guard] in T1. rewrite T1 in W2. assert (Hls : sessions i tr = ls) by (unfold sessions; now rewrite W2).
      assert (Hm : map (map fst) ls = map mv_acts l) by (clear - T2; induction T2 as [|x y xs ys H _ IH]; cbn; congruence).
      exists l. rewrite Hls. split; [exact Hm|]. split; [|split; [|apply fits_told; [now rewrite Hls|now rewrite W2]]].
      - apply T5. intros a r Hx. apply (Hok a r). rewrite <- Hls, <- O1 in Hx. apply in_concat in Hx. destruct Hx as (z & Z1 & Z2).
        apply in_concat. exists z. split; [|exact Z2]. unfold done_by in Z1. apply in_map_iff in Z1. destruct Z1 as (u & <- & Z1).
        apply in_map. apply filter_In in Z1. apply Z1.
      - refine (Forall_impl _ _ T4). intros [x|g| |]; cbn; auto.
        + exact (good_usable is tr i x W3 Hu).
        + intros [G _]. refine (Forall_impl _ _ G). intros x. exact (good_usable is tr i x W3 Hu). }
    assert (Hch : forall n, exists f : nat -> list mv, forall i, i < n -> map (map fst) (sessions i tr) = map mv_acts (f i) /\
      did None (nth i progs Finish) (flat_map vis (f i)) /\ Forall usable_mv (f i) /\
      (forall sz, In (Fitted sz) (concat (flat_map vis (f i))) <-> exists r, In (EvAct i (AD (DUpdateSize sz)) r) tr)).
    { induction n as [|n [f Hfn]]; [exists (fun _ => []); intros i Hi; lia|]. destruct (Hwalk n) as (l & Hl).
      exists (fun i => if i =? n then l else f i). intros i Hi. destruct (Nat.eqb_spec i n) as [->|Hni]; [exact Hl|]. apply Hfn. lia. }
    destruct (Hch (length progs)) as (f & Hfl).
    set (want := fun i => if i <? length progs then f i else []).
    assert (Hend : forall i, length progs <= i -> sessions i tr = []).
    { intros i Hi. destruct (jwalk_run E C i _ _ _ R) as (is & W1 & W2 & _). rewrite (F i) in W1. cbn [start threads] in W1.
      rewrite nth_overflow in W1 by exact Hi. inversion W1; subst. unfold sessions. now rewrite W2. }
    destruct (order_plan_of mv_acts order want) as (plan & P1 & P2).
    { intros i. unfold done_by. rewrite O1. unfold want. destruct (Nat.ltb_spec i (length progs)) as [Hi|Hi].
      - apply Hfl, Hi.
      - now rewrite Hend. }
    assert (Hus : Forall usable_mv (map snd plan)).
    { apply Forall_forall. intros x Hx. apply in_map_iff in Hx. destruct Hx as ([j y] & Hy & Hx). cbn in Hy. subst y.
      assert (X : In x (want j)).
      { rewrite <- P1. unfold done_by. apply in_map_iff. exists (j, x). split; [reflexivity|]. apply filter_In. split; [exact Hx|]. apply Nat.eqb_refl. }
      unfold want in X. destruct (Nat.ltb_spec j (length progs)) as [Hi|Hi]; [|destruct X].
      destruct (Hfl j Hi) as (_ & _ & Q & _). exact (proj1 (Forall_forall _ _) Q x X). }
    assert (A0 : came s t k [] s).
    { exists [], [], [], (wr s). split; [reflexivity|]. split; [intros z []|]. split; [now left|]. split; [symmetry; apply app_nil_r|]. split; [reflexivity|].
      destruct (painted_history E HE C K HC Hco HK _ _ _ Hp) as [Hh Hfit].
      destruct (history_narrow E C HE HC K Hco HK s t Hh) as (v & V1 & Hi & Hnh).
      split; [exact (i_frame _ _ _ _ Hi)|]. split; [exact Hfit|]. split; [exact Ha|]. split; [discriminate|]. exists [].
      split; [symmetry; apply app_nil_r|]. intros t' v0 [X _] Hv0. rewrite (X eq_refl) in *. rewrite (feed_nil _ _ _ HK).
      rewrite V1 in Hv0. injection Hv0 as <-. exists v. split; [exact V1|]. split; [exact Hi|]. split; [exact Hnh|]. split; [reflexivity|split; reflexivity]. }
    destruct (mvs_came (map snd plan) (map snd order) s t k [] s w' d' A0 Hus P2 Hfine O2) as (s' & Q1 & Q2).
    exists (visible_marks plan). split.
    - intros i. rewrite visible_marks_by, P1. unfold want. destruct (Nat.ltb_spec i (length progs)) as [Hi|Hi]; [apply Hfl, Hi|].
      rewrite nth_overflow by exact Hi. constructor.
    - split.
      { intros sz. unfold visible_marks. rewrite visible_fits. split; intros (i & X); exists i.
        - rewrite P1 in X. unfold want in X. destruct (Nat.ltb_spec i (length progs)) as [Hi|Hi]; [|destruct X]. now apply (Hfl i Hi).
        - rewrite P1. unfold want. destruct (Nat.ltb_spec i (length progs)) as [Hi|Hi]; [now apply (Hfl i Hi)|]. exfalso. destruct X as (r & X).
          destruct (jwalk_run E C i _ _ _ R) as (is & W1 & W2 & _). rewrite (F i) in W1. cbn [start threads] in W1.
          rewrite nth_overflow in W1 by exact Hi. inversion W1; subst. destruct (events_session _ _ _ _ X) as [Y|Y]; [rewrite W2 in Y; destruct Y|].
          rewrite (Hend i Hi) in Y. destruct Y. }
      cbv zeta. rewrite visible_marks_snd. cbn [app] in Q2. set (l := concat (flat_map vis (map snd plan))) in *. clearbody l.
      unfold share in Q1. injection Q1 as <- <-. cbn [dbuf].
      destruct Q2 as (pre & post & x & w0 & M1 & M0 & M2 & M3 & M4 & (D1 & D2 & D3 & D4 & y & Y1 & Y2)). split.
      + rewrite M1, marked_app. apply D2.
      + exists pre, post, x, y. split; [exact M1|]. split; [exact M0|]. split; [exact M2|]. split; [rewrite Y1, M3; now rewrite app_assoc|].
        split; [exact M4|]. split; [exact D4|]. intros t' v0 T1 T2 T3.
        destruct (Y2 t' v0 (conj T1 T2) T3) as (v & V1 & _ & _ & V2 & V3). exists v. auto.
  Qed.
End Program.
