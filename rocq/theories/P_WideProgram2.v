(** Proofs about any programs that share a [Screen], whatever text they write (C121):
    the picture. *)
From Verif Require Import Base M_Utf8 M_Geom S_Geom M_Attr M_Buf S_Buf M_Writer S_Tty S_Writer P_Buf P_Buf2 P_Buf3 P_Writer P_Attr P_Writer3 M_Screen S_Screen P_Screen P_Screen2 P_Screen5 M_ScreenApi
  S_Canvas P_Canvas S_WideCanvas P_WideCanvas P_WideCanvas2 P_WholeScreen2 M_Locks S_Locks P_Locks P_Locks2 P_Blocks S_Together P_Together S_Loop P_Loop S_CursorMode P_CursorMode S_Program P_Program P_Program2
  S_WideProgram P_WideProgram.
From Verif Require P_Screen3.

Lemma wmarked_app E l1 : forall l2 k, wmarked E (l1 ++ l2) k = wmarked E l2 (wmarked E l1 k).
Proof. induction l1 as [|[m| |m|sz] l1 IH]; intros l2 k; cbn; auto. Qed.
Lemma wlast_shown_app E l1 : forall l2 k o, wlast_shown E (l1 ++ l2) k o = wlast_shown E l2 (wmarked E l1 k) (wlast_shown E l1 k o).
Proof. induction l1 as [|[m| |m|sz] l1 IH]; intros l2 k o; cbn; auto. Qed.

Fixpoint wlast_shot (E : env) (l : list mark) (k : wcanvas) (last : option shot) : option shot :=
  match l with
  | [] => last
  | Drawn m :: l => wlast_shot E l (wdraw E m k) last
  | Fitted sz :: l => wlast_shot E l (wrefit sz k) None
  | Shown :: l => wlast_shot E l k (Some (next_shot last k))
  | Asked _ :: l => wlast_shot E l k last
  end.
Lemma wlast_shot_app E l1 : forall l2 k o, wlast_shot E (l1 ++ l2) k o = wlast_shot E l2 (wmarked E l1 k) (wlast_shot E l1 k o).
Proof. induction l1 as [|[m| |m|sz] l1 IH]; intros l2 k o; cbn; auto. Qed.

Section Program.
  Variables (E : env) (C : tcfg) (K : tty).
  Hypothesis HE : env_ok E.
  Hypothesis HC : env_chars E.
  Hypothesis Hco : caps_coherent C.
  Hypothesis HK : implements E C K.

  Definition wseen (v0 v : view) (last : option wcanvas) : Prop :=
    match last with
    | Some k => wdisplays C v k /\ (wink k (line (wpen_goal k)) (column (wpen_goal k)) <> Right -> vcur v = wpen_goal k)
    | None => vcells v = vcells v0 /\ vcur v = vcur v0
    end.
  Definition winked (T0 : tstate K -> Prop) (w0 : wst) (s : scr) (k : wcanvas) (tl : option shot) (last : option wcanvas) (ask : bool -> bool) (all : bool) : Prop :=
    frame E s /\ wfits E (sb s) k /\ wat (wr s) = no_attrs /\ (all = true -> obuf (wr s) = []) /\
    exists x, stream (wr s) = stream w0 ++ x /\
      forall t v0, T0 t -> look K t = Some v0 ->
      exists v, look K (feed K t x) = Some v /\ P_Screen2.inv E C s v /\ traced K s (feed K t x) k tl /\
        (S_Writer.has C CursorNormal = true -> S_Writer.has C CursorInvisible = true -> vvis v = ask (vvis v0)) /\ wseen v0 v last.

  Lemma winked_draw T0 w0 s k tl last ask all m b : winked T0 w0 s k tl last ask all -> easy E m k ->
    screen_method E m (sb s) = Val b -> winked T0 w0 (with_sb b s) (wdraw E m k) tl last ask all.
  Proof.
    intros (D1 & D2 & D3 & D4 & x & X1 & X2) Hn Hm.
    destruct (op_ok E HE _ _ _ (f_buf _ _ D1) (not_resize m) Hm) as (B1 & B2 & B3).
    assert (D2' := wmethod_draws E HE _ _ _ _ D2 Hn Hm).
    assert (Hsz : wsize (wdraw E m k) = wsize k).
    { assert (Q1 := w_size _ _ _ D2). assert (Q2 := w_size _ _ _ D2'). congruence. }
    split; [destruct D1 as [F1 F2 F3]; constructor; cbn [sb wr with_sb]; rewrite ?B3; auto|].
    split; [exact D2'|]. split; [exact D3|]. split; [exact D4|]. exists x. split; [exact X1|].
    intros t v0 Ht Hv. destruct (X2 t v0 Ht Hv) as (v & V1 & [[F1 F2 F3] I1 I2 I3 I4 I5 I6] & V3 & V4). exists v. split; [exact V1|]. split; [|split; [|exact V4]].
    - assert (Hsy : forall j, synced_at E C (sb s) v j -> synced_at E C b v j) by (unfold synced_at; now rewrite B2).
      constructor; cbn [sb clr real wr with_sb]; rewrite ?B3; auto.
      + constructor; cbn [sb wr with_sb]; rewrite ?B3; auto.
      + intros Hc. destruct (I4 Hc). split; auto.
      + unfold all_invalid. rewrite B2. exact I5.
      + unfold belongs. rewrite B2. exact I6.
    - unfold traced in *. destruct tl as [h|]; [|exact V3]. rewrite Hsz. cbn [sb clr with_sb]. unfold was_under. rewrite B2. exact V3.
  Qed.

  Lemma winked_show T0 w0 s k tl last ask all s' : winked T0 w0 s k tl last ask all -> (forall h, tl = Some h -> mends h k) ->
    refresh E C s = Ret s' tt -> winked T0 w0 s' k (Some (next_shot tl k)) (Some k) ask true.
  Proof.
    intros (D1 & D2 & D3 & D4 & x & X1 & X2) Ho Hr. assert (Hf := wfits_fit E HE _ _ D2).
    destruct (refresh_spec E C HC _ _ _ D1 Hf Hr) as (R1 & R2 & R3 & R4 & R5).
    assert (Fr := refresh_frame E C HC _ _ _ D1 Hf Hr).
    assert (R6 := R5). destruct R6 as (_ & y & Y1 & _).
    assert (D2' : wfits E (sb s') k) by (assert (B := f_buf _ _ Fr); rewrite R1 in B |- *; now apply wback_fits).
    split; [exact Fr|]. split; [exact D2'|].
    split; [exact R3|]. split; [intros _; exact R4|]. exists (x ++ y). split; [rewrite Y1, X1; now rewrite app_assoc|].
    intros t v0 Ht Hv. destruct (X2 t v0 Ht Hv) as (v & V1 & V2 & V3 & V4 & _). rewrite (feed_app _ _ _ HK).
    destruct (traced_stays E HE C K s _ k tl v D2 V2 V1 V3 Ho) as [_ Hu].
    destruct (goes_here E C K Hco HK _ _ _ _ y (feed K t x) v R5 Y1 V1 (conj V2 Hu)) as (v' & Z2 & Z3).
    exists v'. split; [exact Z2|]. split; [apply Z3|]. split; [exact (done_traced E HE C K s s' _ _ k tl v' v V2 V3 Z2 D2' (proj1 (proj2 Z3)) R1 (refresh_kept E C HC _ _ _ D1 Hf Hr))|]. split.
    - intros C1 C2. rewrite <- (V4 C1 C2).
      unfold refresh in Hr. apply bind_ret in Hr. destruct Hr as (s1 & u1 & Q1 & Q2).
      destruct (compose_spec E C HC s s1 u1 D1 Hf Q1) as (F1 & _).
      destruct (goes_flush s1 s' tt (f_whole _ _ F1) Q2) as (_ & _ & _ & _ & _ & _ & T7). rewrite T7 in Y1.
      exact (compose_visible E C K HC Hco HK _ _ _ _ _ _ Q1 Y1 V2 Hf Hu V1 v' Z2).
    - destruct Z3 as (I1 & (W2 & W3) & W4 & W5). assert (F0 := D2'). destruct D2' as [F1 F2 F3 F4 F5 F6].
      assert (Hgoal : cursor_goal (sb s') = wpen_goal k) by (unfold cursor_goal, wpen_goal, on_canvas; now rewrite F3, F4).
      split.
      + split; [congruence|]. intros p Hp. rewrite (W3 _ _ (good_held E _ _ _ (F6 p Hp))).
        rewrite (wfits_half E HE _ k p F0 Hp). unfold S_WideCanvas.held. destruct (wink k (line p) (column p)); reflexivity.
      + intros Hnr. destruct W5 as [W5|W5]; [congruence|]. exfalso.
        assert (Hg := goal_in (sb s') (f_size _ _ Fr)). rewrite Hgoal, F3 in *.
        rewrite (wfits_half E HE _ k _ F0 Hg) in W5. destruct (wink k (line (wpen_goal k)) (column (wpen_goal k))); [discriminate|congruence].
  Qed.

  Lemma winked_mode T0 w0 s k tl last ask all m s' : winked T0 w0 s k tl last ask all -> on_writer (set_cursor_mode C m) s = Ret s' tt ->
    winked T0 w0 s' k tl last (fun _ => visible_in m) false.
  Proof.
    intros (D1 & D2 & D3 & D4 & x & X1 & X2) Hm.
    destruct (mode_goes E C _ _ _ _ (f_whole _ _ D1) Hm) as (M1 & M2 & M3 & M4 & M5).
    assert (M6 := M5). destruct M6 as (M6 & y & Y1 & _).
    split; [destruct D1; constructor; rewrite ?M1; auto|]. split; [now rewrite M1|]. split; [congruence|]. split; [discriminate|].
    exists (x ++ y). split; [rewrite Y1, X1; now rewrite app_assoc|].
    intros t v0 Ht Hv. destruct (X2 t v0 Ht Hv) as (v & V1 & [F I1 I2 I3 I4 I5 I6] & V3 & V4 & V5). rewrite (feed_app _ _ _ HK).
    destruct (goes_here E C K Hco HK _ _ _ _ y (feed K t x) v M5 Y1 V1 I) as (v' & W2 & b & ->). exists (set_vvis b v). split; [assumption|].
    split; [|split; [|split]].
    - destruct F as [F1 F2 F3]. constructor; rewrite ?M1, ?M2, ?M3, ?M4; auto. constructor; rewrite ?M1; auto.
    - unfold traced in *. rewrite M1, M2. destruct tl as [h|]; [|exact V3].
      destruct V3 as (T1 & T3 & T2). split; [exact T1|]. split; [exact T3|]. intros v3 Hv3 Hc p Hp Hx3. rewrite W2 in Hv3. injection Hv3 as <-.
      exact (T2 v V1 Hc p Hp Hx3).
    - intros C1 C2. apply on_writer_ret in Hm. destruct Hm as (w & Hm & ->).
      destruct (cursor_mode_effect E C m (wr s) w tt Hm) as (Z1 & _ & z & Z2 & Z3).
      assert (Y : stream w = stream (wr s) ++ z) by (unfold stream; now rewrite Z1, Z2, app_assoc).
      cbn [wr with_wr] in Y1. rewrite Y1 in Y. apply app_inv_head in Y. subst z.
      rewrite (Z3 K HK C1 C2 _ v V1) in W2. injection W2 as Hb. cbn. now rewrite <- Hb.
    - destruct last; exact V5.
  Qed.

  Lemma winked_drop T0 w0 s k tl last ask all w u : winked T0 w0 s k tl last ask all -> guard_drop (wr s) = Ret w u ->
    winked T0 w0 (with_wr w s) k tl last ask all.
  Proof.
    intros (D1 & D2 & D3 & D4 & x & X1 & X2) H. assert (S := drop_same (wr s) (f_whole _ _ D1)). rewrite H in S.
    destruct S as (S1 & S2 & S3 & S4). split; [destruct D1; constructor; auto|]. split; [exact D2|]. split; [cbn; congruence|].
    split; [cbn; auto|]. exists x. split; [cbn; congruence|].
    intros t v0 Ht Hv. destruct (X2 t v0 Ht Hv) as (v & V1 & [[F1 F2 F3] I1 I2 I3 I4 I5 I6] & V3). exists v. split; [exact V1|]. split; [|exact V3].
    constructor; cbn [sb clr real wr with_wr]; rewrite ?S2; auto. constructor; auto.
  Qed.

  Lemma winked_told T0 w0 s k tl last ask all sz s' : winked T0 w0 s k tl last ask all -> screen_size sz -> cuts_nothing sz k ->
    update_size E sz s = Val s' ->
    winked (of_size K sz) (wr s) s' (wrefit sz k) None None (fun b => b) false.
  Proof.
    intros (D1 & D2 & D3 & _) Hz Hcut H. unfold update_size in H. destruct (sb_resize E (sb s) sz) as [b|] eqn:Eb; [|discriminate]. injection H as <-.
    destruct D1 as [F1 F2 F3]. destruct (sb_resize_ok E HE _ _ _ F1 Hz Eb) as (R1 & R2 & R3 & R4).
    split; [constructor; cbn [sb wr]; auto; now rewrite R2|]. split; [exact (wrefit_fits E HE _ _ _ _ D2 Hcut Hz Eb)|]. split; [exact D3|]. split; [discriminate|].
    exists []. split; [symmetry; apply app_nil_r|].
    intros t v0 (v & V1 & V2 & V3) Hv. rewrite V1 in Hv. injection Hv as <-. rewrite (feed_nil _ _ _ HK). exists v. split; [exact V1|].
    assert (Hlen := look_ok _ _ _ HK _ _ V1). unfold view_ok in Hlen. split; [|split; [reflexivity|split; [reflexivity|split; reflexivity]]].
    constructor; cbn [sb clr real wr]; auto; try congruence.
    - constructor; cbn [sb wr]; auto. congruence.
    - rewrite D3, V3. symmetry. apply shown_none.
  Qed.

  Definition wcame (s0 : scr) (t : tstate K) (k : wcanvas) (last : option shot) (l : list mark) (s : scr) : Prop :=
    exists pre post x w0, l = pre ++ post /\ one_size post /\ (pre = [] \/ exists p sz, pre = p ++ [Fitted sz]) /\
      stream w0 = stream (wr s0) ++ x /\ (pre = [] -> x = []) /\
      winked (fun t' => (pre = [] -> t' = t) /\ (pre <> [] -> of_size K (wsize (wmarked E pre k)) t')) w0 s
        (wmarked E l k) (wlast_shot E l k last) (wlast_shown E post (wmarked E pre k) None) (asked post) (sent_all post false).

  Lemma wcame_draw s0 t k last l s m b : wcame s0 t k last l s -> easy E m (wmarked E l k) -> screen_method E m (sb s) = Val b ->
    wcame s0 t k last (l ++ [Drawn m]) (with_sb b s).
  Proof.
    intros (pre & post & x & w0 & L1 & L0 & L2 & L3 & L4 & L5) Hn Hm. exists pre, (post ++ [Drawn m]), x, w0.
    split; [now rewrite app_assoc, L1|]. split; [now apply one_size_snoc|]. split; [exact L2|]. split; [exact L3|]. split; [exact L4|].
    rewrite wmarked_app, wlast_shot_app, wlast_shown_app, sent_all_app. cbn [wmarked wlast_shot wlast_shown sent_all].
    destruct (winked_draw _ _ _ _ _ _ _ _ _ _ L5 Hn Hm) as (D1 & D2 & D3 & D4 & y & Y1 & Y2). repeat (split; [assumption|]). exists y.
    split; [exact Y1|]. intros t' v0 A B. rewrite asked_app. exact (Y2 t' v0 A B).
  Qed.
  Lemma wcame_show s0 t k last l s s1 s' : wcame s0 t k last l s -> (forall h, wlast_shot E l k last = Some h -> mends h (wmarked E l k)) ->
    refresh E C s = Ret s1 tt -> s' = s1 \/ refresh E C s1 = Ret s' tt -> wcame s0 t k last (l ++ [Shown]) s'.
  Proof.
    intros (pre & post & x & w0 & L1 & L0 & L2 & L3 & L4 & L5) Ho Hr Hr2. exists pre, (post ++ [Shown]), x, w0.
    split; [now rewrite app_assoc, L1|]. split; [now apply one_size_snoc|]. split; [exact L2|]. split; [exact L3|]. split; [exact L4|].
    rewrite wmarked_app, wlast_shot_app, wlast_shown_app, sent_all_app. cbn [wmarked wlast_shot wlast_shown sent_all].
    rewrite <- wmarked_app, <- L1.
    assert (L6 := winked_show _ _ _ _ _ _ _ _ _ L5 Ho Hr).
    assert (Hs : s' = s1).
    { destruct Hr2 as [->|Hr2]; [reflexivity|]. rewrite (P_Screen3.refresh_twice E C _ _ _ Hr) in Hr2. now injection Hr2. }
    subst s'.
    destruct L6 as (D1 & D2 & D3 & D4 & y & Y1 & Y2). repeat (split; [assumption|]). exists y.
    split; [exact Y1|]. intros t' v0 A B. rewrite asked_app. exact (Y2 t' v0 A B).
  Qed.
  Lemma wcame_mode s0 t k last l s m s' : wcame s0 t k last l s -> on_writer (set_cursor_mode C m) s = Ret s' tt -> wcame s0 t k last (l ++ [Asked m]) s'.
  Proof.
    intros (pre & post & x & w0 & L1 & L0 & L2 & L3 & L4 & L5) Hr. exists pre, (post ++ [Asked m]), x, w0.
    split; [now rewrite app_assoc, L1|]. split; [now apply one_size_snoc|]. split; [exact L2|]. split; [exact L3|]. split; [exact L4|].
    rewrite wmarked_app, wlast_shot_app, wlast_shown_app, sent_all_app. cbn [wmarked wlast_shot wlast_shown sent_all].
    destruct (winked_mode _ _ _ _ _ _ _ _ _ _ L5 Hr) as (D1 & D2 & D3 & D4 & y & Y1 & Y2). repeat (split; [assumption|]). exists y.
    split; [exact Y1|]. intros t' v0 A B. rewrite asked_app. exact (Y2 t' v0 A B).
  Qed.
  Lemma wcame_drop s0 t k last l s w u : wcame s0 t k last l s -> guard_drop (wr s) = Ret w u -> wcame s0 t k last l (with_wr w s).
  Proof.
    intros (pre & post & x & w0 & L1 & L0 & L2 & L3 & L4 & L5) H. exists pre, post, x, w0. repeat (split; [assumption|]).
    exact (winked_drop _ _ _ _ _ _ _ _ _ _ L5 H).
  Qed.
  Lemma wcame_told s0 t k last l s sz s' : wcame s0 t k last l s -> screen_size sz -> cuts_nothing sz (wmarked E l k) ->
    update_size E sz s = Val s' -> wcame s0 t k last (l ++ [Fitted sz]) s'.
  Proof.
    intros (pre & post & x & w0 & L1 & L0 & L2 & L3 & L4 & L5) Hz Hcut H. assert (D := winked_told _ _ _ _ _ _ _ _ _ _ L5 Hz Hcut H).
    destruct L5 as (_ & _ & _ & _ & y & Y & _).
    exists (l ++ [Fitted sz]), [], (x ++ y), (wr s). rewrite app_nil_r. split; [reflexivity|]. split; [intros z []|]. split; [right; eauto|].
    split; [rewrite Y, L3; now rewrite app_assoc|]. split; [intros X; apply app_eq_nil in X; destruct X as [_ X]; discriminate X|].
    rewrite wlast_shot_app, wmarked_app. cbn [wmarked wlast_shot wlast_shown sent_all asked].
    destruct D as (D1 & D2 & D3 & D4 & z & Z1 & Z2). repeat (split; [assumption|]).
    exists z. split; [exact Z1|]. intros t' v0 [_ A] B. refine (Z2 t' v0 _ B). apply A.
    intros X. apply app_eq_nil in X. destruct X as [_ X]. discriminate X.
  Qed.

  Definition sizes_usable (l : list mark) : Prop := forall sz, In (Fitted sz) l -> screen_size sz.
  Lemma turn_came s0 t k last l s s' : in_turn E C l s s' -> forall l0, wcame s0 t k last l0 s ->
    gentle E l (wmarked E l0 k) (wlast_shot E l0 k last) -> sizes_usable l -> wcame s0 t k last (l0 ++ l) s'.
  Proof.
    induction 1 as [s|m l s b s' H _ IH|l s s1 s' H _ IH|l s s1 s2 s' H H2 _ IH|m l s s1 s' H _ IH|sz l s s1 s' H _ IH|l s w u s' H _ IH];
      intros l0 Hc Hg Hu; cbn [gentle] in Hg.
    - now rewrite app_nil_r.
    - destruct Hg as [G1 G2]. assert (X := IH _ (wcame_draw _ _ _ _ _ _ _ _ Hc G1 H)). rewrite <- app_assoc in X.
      rewrite wmarked_app, wlast_shot_app in X. apply X; [exact G2|]. intros z Hz. apply Hu. now right.
    - destruct Hg as [G1 G2]. assert (X := IH _ (wcame_show _ _ _ _ _ _ _ _ Hc G1 H (or_introl eq_refl))). rewrite <- app_assoc in X.
      rewrite wmarked_app, wlast_shot_app in X. apply X; [exact G2|]. intros z Hz. apply Hu. now right.
    - destruct Hg as [G1 G2]. assert (X := IH _ (wcame_show _ _ _ _ _ _ _ _ Hc G1 H (or_intror H2))). rewrite <- app_assoc in X.
      rewrite wmarked_app, wlast_shot_app in X. apply X; [exact G2|]. intros z Hz. apply Hu. now right.
    - assert (X := IH _ (wcame_mode _ _ _ _ _ _ _ _ Hc H)). rewrite <- app_assoc in X.
      rewrite wmarked_app, wlast_shot_app in X. apply X; [exact Hg|]. intros z Hz. apply Hu. now right.
    - destruct Hg as [G1 G2]. assert (X := IH _ (wcame_told _ _ _ _ _ _ _ _ Hc (Hu sz (or_introl eq_refl)) G1 H)). rewrite <- app_assoc in X.
      rewrite wmarked_app, wlast_shot_app in X. apply X; [exact G2|]. intros z Hz. apply Hu. now right.
    - apply IH; auto. exact (wcame_drop _ _ _ _ _ _ _ _ Hc H).
  Qed.

  Lemma wcame_start s t k last : wpainted E C K s t k last -> wat (wr s) = no_attrs -> wcame s t k last [] s.
  Proof.
    intros Hp Ha. exists [], [], [], (wr s). split; [reflexivity|]. split; [intros z []|]. split; [now left|]. split; [symmetry; apply app_nil_r|]. split; [reflexivity|].
    destruct (wpainted_history E HE C K HC Hco HK _ _ _ _ Hp) as (Hh & Hfit & Ht).
    destruct (history_inv E C HE HC K Hco HK _ _ _ _ (stay_care E C) Hh) as (v & V1 & Hi).
    split; [exact (i_frame _ _ _ _ Hi)|]. split; [exact Hfit|]. split; [exact Ha|]. split; [discriminate|]. exists [].
    split; [symmetry; apply app_nil_r|]. intros t' v0 [X _] Hv0. rewrite (X eq_refl) in *. rewrite (feed_nil _ _ _ HK).
    rewrite V1 in Hv0. injection Hv0 as <-. exists v. split; [exact V1|]. split; [exact Hi|]. split; [exact Ht|]. split; [reflexivity|split; reflexivity].
  Qed.

  Lemma share_wide (progs : list client) s t k last tr c w' d' : wpainted E C K s t k last -> wat (wr s) = no_attrs ->
    Forall (fun p => follows true None None p /\ uses_screen p) progs ->
    run E C (start progs (share s)) tr c -> finished c -> no_failure tr -> not_continued tr ->
    usable_sizes tr -> shared c = (Some w', Some d') ->
    exists order : list (nat * list mark), (forall i, did None (nth i progs Finish) (done_by i order)) /\
      let l := concat (map snd order) in
      (exists s', in_turn E C l s s' /\ share s' = (Some w', Some d')) /\
      (gentle E l k last ->
       wholds (dbuf d') (wmarked E l k) /\
       exists pre post x y, l = pre ++ post /\ one_size post /\ (pre = [] \/ exists p sz, pre = p ++ [Fitted sz]) /\
         stream w' = stream (wr s) ++ x ++ y /\ (pre = [] -> x = []) /\ (sent_all post false = true -> obuf w' = []) /\
         forall t' v0, (pre = [] -> t' = t) -> (pre <> [] -> of_size K (wsize (wmarked E pre k)) t') -> look K t' = Some v0 ->
           exists v, look K (feed K t' y) = Some v /\
             (S_Writer.has C CursorNormal = true -> S_Writer.has C CursorInvisible = true -> vvis v = asked post (vvis v0)) /\
             match wlast_shown E post (wmarked E pre k) None with
             | Some k' => wdisplays C v k' /\
                 (wink k' (line (wpen_goal k')) (column (wpen_goal k')) <> Right -> vcur v = wpen_goal k')
             | None => vcells v = vcells v0 /\ vcur v = vcur v0
             end).
  Proof.
    intros Hp Ha Hn R F Hf Hc Hu Hs.
    destruct (share_in_turn E C progs s tr c w' d' Hn R F Hf Hc Hs) as (order & O1 & O2 & s' & O3 & O4).
    exists order. split; [exact O1|]. cbv zeta. split; [eauto|]. intros Hg. set (l := concat (map snd order)) in *. clearbody l.
    assert (Hl : sizes_usable l).
    { intros sz Hi. destruct (proj1 (O2 sz) Hi) as (i & r & X). exact (Hu _ _ _ X). }
    assert (Q := turn_came s t k last l s s' O3 [] (wcame_start s t k last Hp Ha) Hg Hl). cbn [app] in Q.
    unfold share in O4. injection O4 as <- <-. cbn [dbuf].
    destruct Q as (pre & post & x & w0 & M1 & M0 & M2 & M3 & M4 & (D1 & D2 & D3 & D4 & y & Y1 & Y2)). split; [now apply (wfits_holds E)|].
    exists pre, post, x, y. split; [exact M1|]. split; [exact M0|]. split; [exact M2|]. split; [rewrite Y1, M3; now rewrite app_assoc|].
    split; [exact M4|]. split; [exact D4|]. intros t' v0 T1 T2 T3.
    destruct (Y2 t' v0 (conj T1 T2) T3) as (v & V1 & _ & _ & V2 & V3). exists v. auto.
  Qed.
End Program.
