From Coq Require Import Decimal DecimalN.
From Verif Require Import Base M_Utf8 S_Utf8 M_Geom M_Attr M_Buf S_Buf M_Writer S_Tty S_Writer S_Emu M_Prepare S_Prepare
  P_Writer P_Emu P_Prepare P_Prepare2 S_Modes.

Section Modes.
  Variable E : env.
  Variable C : tcfg.

  (** Strings that leave the modes alone. *)
  Inductive mild : bytes -> Prop :=
  | Mi_nil : mild []
  | Mi_cap c e k ps bs k' x : info C c = Some e -> keypad_cap c = false -> e k ps = (bs, k', true) -> mild x -> mild (bs ++ x)
  | Mi_text c x : texty E c -> mild x -> mild (utf8 c ++ x).

  Lemma mild_app x y : mild x -> mild y -> mild (x ++ y).
  Proof.
    induction 1; intros; [assumption| |]; rewrite <- app_assoc; [eapply Mi_cap; eauto|apply Mi_text; auto].
  Qed.

  Lemma mild_text s : Forall (texty E) s -> mild (utf8s s).
  Proof.
    unfold utf8s. induction 1; cbn [flat_map]; [constructor|]. now apply Mi_text.
  Qed.

  Definition mext (w w' : wst) : Prop :=
    whole_writes (script w) -> whole_writes (script w') /\ exists x, stream w' = stream w ++ x /\ mild x.
  Definition mq {A} (w : wst) (r : out wst werr A) : Prop := forall w' a, r = Ret w' a -> mext w w'.

  Lemma mext_refl w : mext w w.
  Proof. intros H. split; [assumption|]. exists []. rewrite app_nil_r. split; [reflexivity|constructor]. Qed.
  Lemma mext_trans a b c : mext a b -> mext b c -> mext a c.
  Proof.
    intros H1 H2 H. destruct (H1 H) as (W1 & x & X1 & X2). destruct (H2 W1) as (W2 & y & Y1 & Y2).
    split; [assumption|]. exists (x ++ y). split; [now rewrite Y1, X1, app_assoc|]. now apply mild_app.
  Qed.

  Lemma mq_bind {A B} w (r : out wst werr A) (k : wst -> A -> out wst werr B) :
    mq w r -> (forall w' a, mq w' (k w' a)) -> mq w (obind r k).
  Proof.
    intros H1 H2 w' a H. destruct r as [w1 a1| | |]; try discriminate. cbn in H.
    eapply mext_trans; [exact (H1 _ _ eq_refl)|exact (H2 _ _ _ _ H)].
  Qed.
  Lemma mq_ret {A} w (a : A) : mq w (Ret w a).
  Proof. intros w' b [= <- _]. apply mext_refl. Qed.
  Lemma mq_track a w : mq w (Ret (with_wat a w) tt : wres).
  Proof. intros w' b [= <- _] H. split; [exact H|]. exists []. rewrite app_nil_r. split; [reflexivity|constructor]. Qed.
  Lemma mq_from {A} w w' (r : out wst werr A) : mext w w' -> mq w' r -> mq w r.
  Proof. intros H1 H2 w2 a H. eapply mext_trans; [exact H1|exact (H2 _ _ H)]. Qed.
  Lemma mq_expand c e ps w : info C c = Some e -> keypad_cap c = false -> mq w (expand C e ps w).
  Proof.
    intros Hi Hk w' a. unfold expand. destruct (e (wctx w) ps) as [[bs k] ok] eqn:Ee. destruct ok; [|discriminate].
    intros [= <- _] H. split; [exact H|]. exists bs. split; [unfold stream; cbn; now rewrite app_assoc|].
    rewrite <- (app_nil_r bs). eapply Mi_cap; eauto. constructor.
  Qed.
  Lemma mq_opt c ps w : keypad_cap c = false -> mq w (expand_opt C c ps w).
  Proof. intros Hk. unfold expand_opt. destruct (info C c) eqn:Ei; [eapply mq_expand; eauto|apply mq_ret]. Qed.
  Lemma mq_req c ps w : keypad_cap c = false -> mq w (expand_req C c ps w).
  Proof. intros Hk. unfold expand_req. destruct (info C c) eqn:Ei; [eapply mq_expand; eauto|intros ? ? H; discriminate H]. Qed.
  Lemma mq_when b f w : (forall w, mq w (f w)) -> mq w (when b f w).
  Proof. intros H. unfold when. destruct b; [apply H|apply mq_ret]. Qed.
  Lemma mq_clear w : mq w (clear_attributes C w).
  Proof.
    unfold clear_attributes. destruct (attrs_eqb (wat w) no_attrs); [apply mq_ret|].
    apply (mq_from w (with_wat no_attrs w)); [apply (mq_track no_attrs w _ _ eq_refl)|now apply mq_opt].
  Qed.
  Lemma mq_bytes b w : mild b -> mq w (write_bytes C b w).
  Proof.
    intros Hb w' a H Hw. pose proof (write_bytes_whole C b w Hw) as X. rewrite H in X.
    split; [apply X|]. exists b. split; [apply X|assumption].
  Qed.
  Lemma mq_flush w : mq w (flush w).
  Proof. intros w' a H Hw. destruct (sends_flush _ _ _ Hw H) as [X Y]. split; [assumption|]. exists []. split; [assumption|constructor]. Qed.

  Ltac q := repeat first
    [ apply mq_ret | apply mq_track | apply mq_opt; reflexivity | apply mq_req; reflexivity | apply mq_clear
    | apply mq_when; intros | apply mq_bind; [|intros] ].

  Lemma mq_add s w : mq w (add_style C s w).
  Proof. unfold add_style. q. Qed.
  Lemma mq_attrs : forall fuel,
    (forall c w, mq w (set_fg C fuel c w)) /\
    (forall c w, mq w (set_bg C fuel c w)) /\
    (forall s w, mq w (remove_style C fuel s w)) /\
    (forall s w, mq w (set_style C fuel s w)) /\
    (forall w, mq w (clear_fg C fuel w)) /\
    (forall w, mq w (clear_bg C fuel w)).
  Proof.
    induction fuel as [|fuel (I1 & I2 & I3 & I4 & I5 & I6)].
    - refine (conj _ (conj _ (conj _ (conj _ (conj _ _))))); intros; intros ? ? HH; discriminate HH.
    - refine (conj _ (conj _ (conj _ (conj _ (conj _ _))))); intros; cbn [set_fg set_bg remove_style set_style clear_fg clear_bg];
        repeat match goal with |- context [if ?b then _ else _] => destruct b end;
        try destruct c; unfold set_fg_color, set_bg_color, set_tracked_fg, set_tracked_bg, set_tracked_style; q;
        auto using mq_add.
  Qed.
  Lemma mq_set_attrs a w : mq w (set_attrs C a w).
  Proof. unfold set_attrs. destruct (mq_attrs depth) as (I1 & I2 & I3 & I4 & I5 & I6). q; auto. Qed.
  Lemma mq_move_cursor p w : mq w (move_cursor C p w).
  Proof.
    unfold move_cursor. destruct (info C CursorAddress) eqn:E1, (info C CursorHome) eqn:E2; try destruct (cursor_eqb _ _);
      try (eapply mq_expand; [eassumption|reflexivity]); intros ? ? H; discriminate H.
  Qed.

  Lemma cr_mild : mild [13%N].
  Proof.
    change [13%N] with (utf8 13 ++ []). apply Mi_text; [|constructor]. split; [reflexivity|]. right. right. auto.
  Qed.

  Lemma mq_op o w : Forall (texty E) (wop_text o) -> mq w (run_wop C o w).
  Proof.
    intros Ht. destruct (mq_attrs depth) as (I1 & I2 & I3 & I4 & I5 & I6).
    destruct o; cbn [run_wop wop_text] in *; auto using mq_add, mq_set_attrs, mq_clear, mq_move_cursor, mq_flush.
    1-3: apply mq_req; reflexivity.
    1-4: unfold move_up, move_down, move_left, move_right; destruct n as [|[|n]]; try apply mq_ret; apply mq_req; reflexivity.
    - apply mq_bytes, cr_mild.
    - destruct m; apply mq_opt; reflexivity.
    - apply mq_bytes. rewrite <- (app_nil_r (utf8 c)). apply (mild_text [c] Ht).
    - now apply mq_bytes, mild_text.
    - unfold write_styled. apply mq_bind; [apply mq_set_attrs|]. intros w1 a1. apply mq_bind; [now apply mq_bytes, mild_text|].
      intros w2 a2. apply mq_clear.
  Qed.

  Variable M : modal.
  Hypothesis HM : obeys E C M.

  Lemma same_refl m : same_modes m m. Proof. split; auto. Qed.
  Lemma same_trans a b c : same_modes a b -> same_modes b c -> same_modes a c.
  Proof. intros [A1 A2] [B1 B2]. split; [|congruence]. intros n Hn. now rewrite B1, A1. Qed.

  Lemma mild_keeps x : mild x -> forall t m, mlook M t = Some m -> exists m', mlook M (mfeed M t x) = Some m' /\ same_modes m m'.
  Proof.
    induction 1 as [|c e k ps bs k' x Hi Hk He Hx IH|c x Hc Hx IH]; intros t m Hl.
    - rewrite (ob_nil _ _ _ HM). exists m. split; [assumption|apply same_refl].
    - destruct (ob_cap _ _ _ HM t m c e k ps bs k' Hl Hi Hk He) as (m1 & L1 & S1).
      destruct (IH _ _ L1) as (m2 & L2 & S2). rewrite (ob_app _ _ _ HM). exists m2. split; [assumption|]. eapply same_trans; eauto.
    - destruct (ob_text _ _ _ HM t m c Hl Hc) as (m1 & L1 & S1).
      destruct (IH _ _ L1) as (m2 & L2 & S2). rewrite (ob_app _ _ _ HM). exists m2. split; [assumption|]. eapply same_trans; eauto.
  Qed.

  Lemma output_keeps o w w' x : Forall (texty E) (wop_text o) -> whole_writes (script w) ->
    run_wop C o w = Ret w' tt -> stream w' = stream w ++ x ->
    forall t m, mlook M t = Some m -> exists m', mlook M (mfeed M t x) = Some m' /\ same_modes m m'.
  Proof.
    intros Ht Hw H Hx. destruct (mq_op o w Ht _ _ H Hw) as (_ & y & Y1 & Y2).
    rewrite Hx in Y1. apply app_inv_head in Y1. subst y. now apply mild_keeps.
  Qed.

  (** ** [prepare] *)
  Definition mouse_on (cfg : config) : bytes :=
    if cfg_mouse cfg && xterm C then XTERM_ENABLE_MOUSE ++ (if always_track_motion cfg then XTERM_ENABLE_MOUSE_MOTION else []) else [].

  Lemma prepare_output cfg s s' st : whole_writes (script (wr s)) -> prepare C cfg s = Ret s' st ->
    whole_writes (script (wr s')) /\ obuf (wr s') = [] /\
    exists kp, stream (wr s') = stream (wr s) ++ mouse_on cfg ++ kp /\
      (if cfg_keypad cfg && has C KeypadXmit
       then exists e k k', info C KeypadXmit = Some e /\ e k [] = (kp, k', true) else kp = []).
  Proof.
    intros Hw E0. unfold prepare, with_guard in E0.
    destruct (prepare_with_lock C cfg s) as [s1 u1|s1 e1| |] eqn:E1; try discriminate.
    2:{ destruct (on_wr guard_drop s1); discriminate. }
    destruct (on_wr guard_drop s1) as [s2 u2| | |] eqn:E2; try discriminate. injection E0 as <- <-.
    apply on_wr_ret in E2 as (w2 & -> & E2). cbn [wr with_wr].
    unfold prepare_with_lock in E1.
    destruct (tcgetattr s) as [sa ta| | |] eqn:Ea; cbn [obind] in E1; try discriminate. apply tcgetattr_ret in Ea as (la & -> & ->).
    destruct (tcsetattr _ _) as [sb tb| | |] eqn:Eb; cbn [obind] in E1; try discriminate. apply tcsetattr_ret in Eb as (lb & ->).
    set (s0 := with_tio _ _) in *. assert (Hw0 : whole_writes (script (wr s0))) by exact Hw.
    match type of E1 with obind ?x _ = _ => assert (H3 : forall a b, x = Ret a b -> exists w, a = with_wr w s0 /\ sends (wr s) (mouse_on cfg) w) end.
    { unfold mouse_on. destruct (cfg_mouse cfg); cbn [andb]; intros a b H.
      - apply on_wr_ret in H as (w & -> & H). exists w. split; [reflexivity|]. unfold enable_mouse in H. destruct (xterm C).
        + destruct (write_bytes C XTERM_ENABLE_MOUSE (wr s0)) as [wa ua| | |] eqn:Ea; try discriminate. cbn [obind] in H.
          apply sends_bytes in Ea; [|exact Hw0]. unfold when in H. destruct (always_track_motion cfg).
          * destruct (write_bytes C XTERM_ENABLE_MOUSE_MOTION wa) as [wb ub| | |] eqn:Eb; try discriminate. injection H as <- <-.
            apply sends_bytes in Eb; [|apply Ea]. eapply sends_trans; eauto.
          * injection H as <- <-. now rewrite app_nil_r.
        + injection H as <- <-. split; [exact Hw|]. now rewrite app_nil_r.
      - injection H as <- <-. exists (wr s). split; [reflexivity|]. split; [exact Hw|]. now rewrite app_nil_r. }
    match type of E1 with obind ?x _ = _ => destruct x as [s3 mo| | |]; cbn [obind] in E1; try discriminate end.
    destruct (H3 _ _ eq_refl) as (w3 & -> & S3). clear H3.
    match type of E1 with obind ?x _ = _ => assert (H3 : forall a b, x = Ret a b -> exists w kp, a = with_wr w s0 /\
       (if cfg_keypad cfg && has C KeypadXmit
        then exists e k k', info C KeypadXmit = Some e /\ e k [] = (kp, k', true) else kp = []) /\ sends w3 kp w) end.
    { destruct (cfg_keypad cfg); cbn [andb]; intros a b H.
      - apply on_wr_ret in H as (w & -> & H). unfold enable_keypad, has in *. cbn [wr with_wr] in H.
        destruct (info C KeypadXmit) as [e|].
        + unfold expand in H. destruct (e (wctx w3) []) as [[bs k] []] eqn:Ee; [|discriminate]. cbn [obind] in H. injection H as <- _.
          eexists. exists bs. split; [reflexivity|]. split; [exists e, (wctx w3), k; auto|].
          split; [apply S3|]. unfold stream. cbn. now rewrite app_assoc.
        + injection H as <- _. exists w3, []. split; [reflexivity|]. split; [reflexivity|]. split; [apply S3|now rewrite app_nil_r].
      - injection H as <- <-. exists w3, []. split; [reflexivity|]. split; [reflexivity|]. split; [apply S3|now rewrite app_nil_r]. }
    match type of E1 with obind ?x _ = _ => destruct x as [s4 kp| | |]; cbn [obind] in E1; try discriminate end.
    destruct (H3 _ _ eq_refl) as (w4 & kpb & -> & Hkp & S4). clear H3.
    destruct (on_wr flush _) as [s5 u5| | |] eqn:E5; cbn [obind] in E1; try discriminate.
    apply on_wr_ret in E5 as (w5 & -> & E5). cbn [wr with_wr] in E5.
    assert (Hb5 : obuf w5 = []). { pose proof (flush_whole w4 (proj1 S4)) as X. rewrite E5 in X. apply X. }
    apply sends_flush in E5; [|apply S4].
    assert (Hin : forall b n s s' o, install b n s = Ret s' o -> wr s' = wr s).
    { intros b n a a' o H. destruct (install_ret _ _ _ _ _ H) as (l & Hx). destruct Hx as (-> & _). destruct b; reflexivity. }
    destruct (install true SIGCONT _) as [s6 a6| | |] eqn:E6; cbn [obind] in E1; try discriminate. apply Hin in E6.
    destruct (install true SIGWINCH _) as [s7 a7| | |] eqn:E7; cbn [obind] in E1; try discriminate. apply Hin in E7.
    destruct (install _ SIGINT _) as [s8 a8| | |] eqn:E8; cbn [obind] in E1; try discriminate. apply Hin in E8.
    destruct (install _ SIGTSTP _) as [s9 a9| | |] eqn:E9; cbn [obind] in E1; try discriminate. apply Hin in E9.
    destruct (install _ SIGQUIT _) as [s10 a10| | |] eqn:E10; cbn [obind] in E1; try discriminate. apply Hin in E10.
    injection E1 as <- _.
    assert (Ew : wr s10 = w5) by (rewrite E10, E9, E8, E7, E6; reflexivity).
    cbn [wr with_resume with_report] in E2. rewrite Ew in E2.
    assert (Hb2 : obuf w2 = []).
    { unfold guard_drop in E2. pose proof (flush_whole w5 (proj1 E5)) as X. destruct (flush w5) as [a b|a b| |]; try discriminate;
        injection E2 as <- _; destruct X as (_ & _ & _ & X & _); [exact X|now rewrite X]. }
    apply sends_drop in E2; [|apply E5].
    pose proof (sends_trans _ _ _ _ _ S3 (sends_trans _ _ _ _ _ S4 (sends_trans _ _ _ _ _ E5 E2))) as [H1 H2].
    rewrite !app_nil_r in H2. split; [exact H1|]. split; [exact Hb2|]. exists kpb. split; [exact H2|exact Hkp].
  Qed.

  Lemma is1002 : mouse_mode 1002. Proof. left. reflexivity. Qed.
  Lemma is1003 : mouse_mode 1003. Proof. right. left. reflexivity. Qed.
  Lemma is1006 : mouse_mode 1006. Proof. right. right. reflexivity. Qed.

  Lemma mouse_string on t m : mlook M t = Some m ->
    exists m', mlook M (mfeed M t (if on : bool then XTERM_ENABLE_MOUSE else XTERM_DISABLE_MOUSE)) = Some m' /\
      private m' 1002 = on /\ private m' 1006 = on /\ private m' 1003 = private m 1003 /\
      application_keypad m' = application_keypad m.
  Proof.
    intros Hl.
    assert (Hs : (if on : bool then XTERM_ENABLE_MOUSE else XTERM_DISABLE_MOUSE) =
      (([27; 91; 63] ++ dec 1006 ++ [if on then 104 else 108]) ++ ([27; 91; 63] ++ dec 1002 ++ [if on then 104 else 108]))%N)
      by (destruct on; reflexivity).
    rewrite Hs, (ob_app _ _ _ HM).
    destruct (ob_mode _ _ _ HM t m 1006 on Hl is1006) as (m1 & L1 & P1 & K1).
    destruct (ob_mode _ _ _ HM _ m1 1002 on L1 is1002) as (m2 & L2 & P2 & K2).
    exists m2. split; [exact L2|]. rewrite !P2, !P1 by (exact is1002 || exact is1003 || exact is1006).
    cbn. repeat split; congruence.
  Qed.
  Lemma motion_string on t m : mlook M t = Some m ->
    exists m', mlook M (mfeed M t (if on : bool then XTERM_ENABLE_MOUSE_MOTION else XTERM_DISABLE_MOUSE_MOTION)) = Some m' /\
      private m' 1002 = private m 1002 /\ private m' 1006 = private m 1006 /\ private m' 1003 = on /\
      application_keypad m' = application_keypad m.
  Proof.
    intros Hl.
    assert (Hs : (if on : bool then XTERM_ENABLE_MOUSE_MOTION else XTERM_DISABLE_MOUSE_MOTION) =
      ([27; 91; 63] ++ dec 1003 ++ [if on then 104 else 108])%N)
      by (destruct on; reflexivity).
    rewrite Hs. destruct (ob_mode _ _ _ HM t m 1003 on Hl is1003) as (m1 & L1 & P1 & K1).
    exists m1. split; [exact L1|]. rewrite !P1 by (exact is1002 || exact is1003 || exact is1006).
    cbn. repeat split; congruence.
  Qed.

  Lemma prepare_turns_on cfg s s' st x : whole_writes (script (wr s)) -> prepare C cfg s = Ret s' st ->
    stream (wr s') = stream (wr s) ++ x ->
    obuf (wr s') = [] /\
    forall t m, mlook M t = Some m -> exists m', mlook M (mfeed M t x) = Some m' /\ turned_on C cfg m m'.
  Proof.
    intros Hw Hp Hx. destruct (prepare_output cfg s s' st Hw Hp) as (_ & Ho & kp & P1 & P2). split; [assumption|].
    intros t m Hl. rewrite Hx in P1. apply app_inv_head in P1. subst x. rewrite (ob_app _ _ _ HM).
    assert (H1 : exists m1, mlook M (mfeed M t (mouse_on cfg)) = Some m1 /\
      private m1 1002 = (cfg_mouse cfg && xterm C || private m 1002) /\
      private m1 1006 = (cfg_mouse cfg && xterm C || private m 1006) /\
      private m1 1003 = ((cfg_mouse cfg && xterm C) && always_track_motion cfg || private m 1003) /\
      application_keypad m1 = application_keypad m).
    { unfold mouse_on. destruct (cfg_mouse cfg && xterm C); cbn [andb orb].
      - destruct (mouse_string true t m Hl) as (m1 & L1 & A1 & A2 & A3 & A4). rewrite (ob_app _ _ _ HM).
        destruct (always_track_motion cfg).
        + destruct (motion_string true _ _ L1) as (m2 & L2 & B1 & B2 & B3 & B4). exists m2. cbn [orb]. repeat split; congruence.
        + rewrite (ob_nil _ _ _ HM). exists m1. cbn [orb]. repeat split; congruence.
      - rewrite (ob_nil _ _ _ HM). exists m. auto 10. }
    destruct H1 as (m1 & L1 & A1 & A2 & A3 & A4). unfold turned_on.
    destruct (cfg_keypad cfg && has C KeypadXmit).
    - destruct P2 as (e & k & k' & Hi & He).
      destruct (ob_keypad _ _ _ HM _ m1 KeypadXmit e k kp k' L1 Hi eq_refl He) as (m2 & L2 & B1 & B2).
      exists m2. split; [assumption|]. rewrite !B1 by (exact is1002 || exact is1003 || exact is1006). auto.
    - subst kp. rewrite (ob_nil _ _ _ HM). exists m1. split; [assumption|]. cbn [orb]. auto.
  Qed.

  Lemma resume_turns_on cfg s s' x : whole_writes (script (wr s)) -> resume_cfg s = Some cfg -> resume C s = Ret s' tt ->
    stream (wr s') = stream (wr s) ++ x ->
    obuf (wr s') = [] /\
    forall t m, mlook M t = Some m -> exists m', mlook M (mfeed M t x) = Some m' /\ turned_on C cfg m m'.
  Proof.
    intros Hw Hc Hr Hx. unfold resume in Hr. rewrite Hc in Hr. destruct (prepare C cfg s) as [s1 st| | |] eqn:Ep; try discriminate.
    injection Hr as <-. exact (prepare_turns_on cfg s s1 st x Hw Ep Hx).
  Qed.

  Lemma restore_output_said st s s' u : whole_writes (script (wr s)) -> restore C st s = Ret s' u ->
    obuf (wr s') = [] /\ exists kp, (if restore_keypad st && has C KeypadLocal then exists e k k', info C KeypadLocal = Some e /\ e k [] = (kp, k', true) else kp = []) /\
      stream (wr s') = stream (wr s) ++ (if restore_mouse st then XTERM_DISABLE_MOUSE ++ XTERM_DISABLE_MOUSE_MOTION else []) ++ kp.
  Proof.
    intros Hw E0. unfold restore, with_guard in E0.
    destruct (restore_with_lock C st s) as [s1 u1|s1 e1| |] eqn:E1; try discriminate.
    2:{ destruct (on_wr guard_drop s1); discriminate. }
    destruct (on_wr guard_drop s1) as [s2 u2| | |] eqn:E2; try discriminate. injection E0 as <- <-.
    apply on_wr_ret in E2 as (w2 & -> & E2).
    unfold restore_with_lock in E1.
    set (s0 := with_resume (prev_resume st) s) in *.
    assert (Hw0 : whole_writes (script (wr s0))) by exact Hw.
    match type of E1 with obind ?x _ = _ => assert (H3 : forall a b, x = Ret a b -> exists w, a = with_wr w s0 /\
       sends (wr s) (if restore_mouse st then XTERM_DISABLE_MOUSE ++ XTERM_DISABLE_MOUSE_MOTION else []) w) end.
    { destruct (restore_mouse st); intros a b H.
      - apply on_wr_ret in H as (w & -> & H). exists w. split; [reflexivity|]. unfold disable_mouse in H.
        destruct (write_bytes C XTERM_DISABLE_MOUSE (wr s0)) as [wa ua| | |] eqn:Ea; try discriminate. cbn [obind] in H.
        apply sends_bytes in Ea; [|exact Hw0]. apply sends_bytes in H; [|apply Ea]. eapply sends_trans; eauto.
      - injection H as <- <-. exists (wr s). split; [reflexivity|]. split; [exact Hw|]. now rewrite app_nil_r. }
    match type of E1 with obind ?x _ = _ => destruct x as [s3 mo| | |]; cbn [obind] in E1; try discriminate end.
    destruct (H3 _ _ eq_refl) as (w3 & -> & S3). clear H3.
    match type of E1 with obind ?x _ = _ => assert (H3 : forall a b, x = Ret a b -> exists w kp, a = with_wr w s0 /\
       (if restore_keypad st && has C KeypadLocal then exists e k k', info C KeypadLocal = Some e /\ e k [] = (kp, k', true) else kp = []) /\ sends w3 kp w) end.
    { destruct (restore_keypad st); cbn [andb]; intros a b H.
      - apply on_wr_ret in H as (w & -> & H). unfold disable_keypad, expand_opt, has in *. cbn [wr with_wr] in H.
        destruct (info C KeypadLocal) as [e|].
        + unfold expand in H. destruct (e (wctx w3) []) as [[bs k] []] eqn:Ee; [|discriminate]. injection H as <- _.
          eexists. exists bs. split; [reflexivity|]. split; [exists e, (wctx w3), k; auto|].
          split; [apply S3|]. unfold stream. cbn. now rewrite app_assoc.
        + injection H as <- _. exists w3, []. split; [reflexivity|]. split; [reflexivity|]. split; [apply S3|now rewrite app_nil_r].
      - injection H as <- <-. exists w3, []. split; [reflexivity|]. split; [reflexivity|]. split; [apply S3|now rewrite app_nil_r]. }
    match type of E1 with obind ?x _ = _ => destruct x as [s4 kp| | |]; cbn [obind] in E1; try discriminate end.
    destruct (H3 _ _ eq_refl) as (w4 & kpb & -> & Hkp & S4). clear H3.
    destruct (on_wr flush _) as [s5 u5| | |] eqn:E5; cbn [obind] in E1; try discriminate.
    apply on_wr_ret in E5 as (w5 & -> & E5). cbn [wr with_wr] in E5.
    assert (Hb5 : obuf w5 = []). { pose proof (flush_whole w4 (proj1 S4)) as X. rewrite E5 in X. apply X. }
    apply sends_flush in E5; [|apply S4].
    destruct (tcsetattr _ _) as [s6 u6| | |] eqn:E6; cbn [obind] in E1; try discriminate.
    apply tcsetattr_ret in E6 as (l6 & ->).
    assert (Hput : forall n o s s' u, put_back n o s = Ret s' u -> wr s' = wr s).
    { intros n o a b c H. apply put_back_ret in H as (l & ->). destruct o; reflexivity. }
    destruct (put_back SIGCONT _ _) as [s7 u7| | |] eqn:E7; cbn [obind] in E1; try discriminate. apply Hput in E7.
    destruct (put_back SIGINT _ _) as [s8 u8| | |] eqn:E8; cbn [obind] in E1; try discriminate. apply Hput in E8.
    destruct (put_back SIGTSTP _ _) as [s9 u9| | |] eqn:E9; cbn [obind] in E1; try discriminate. apply Hput in E9.
    destruct (put_back SIGQUIT _ _) as [s10 u10| | |] eqn:E10; cbn [obind] in E1; try discriminate. apply Hput in E10.
    apply Hput in E1.
    assert (Ew : wr s1 = w5) by (rewrite E1, E10, E9, E8, E7; reflexivity).
    rewrite Ew in E2.
    assert (Hb2 : obuf w2 = []).
    { unfold guard_drop in E2. pose proof (flush_whole w5 (proj1 E5)) as X. destruct (flush w5) as [a b|a b| |]; try discriminate;
        injection E2 as <- _; destruct X as (_ & _ & _ & X & _); [exact X|now rewrite X]. }
    apply sends_drop in E2; [|apply E5].
    pose proof (sends_trans _ _ _ _ _ S3 (sends_trans _ _ _ _ _ S4 (sends_trans _ _ _ _ _ E5 E2))) as [_ H].
    rewrite !app_nil_r in H. split; [exact Hb2|]. exists kpb. split; [exact Hkp|exact H].
  Qed.

  Lemma restore_turns_off cfg s0 s1 st s2 s3 x : prepare C cfg s0 = Ret s1 st -> whole_writes (script (wr s2)) ->
    restore C st s2 = Ret s3 tt -> stream (wr s3) = stream (wr s2) ++ x ->
    obuf (wr s3) = [] /\
    forall t m, mlook M t = Some m -> exists m', mlook M (mfeed M t x) = Some m' /\ turned_off C cfg m m'.
  Proof.
    intros Hp Hw Hr Hx. destruct (prepare_flags _ _ _ _ _ Hp) as [F1 F2].
    destruct (restore_output_said _ _ _ _ Hw Hr) as (Ho & kp & K1 & K2). split; [exact Ho|]. intros t m Hl.
    rewrite Hx in K2. apply app_inv_head in K2. subst x. rewrite (ob_app _ _ _ HM), F1. rewrite F2 in K1.
    assert (H1 : exists m1, mlook M (mfeed M t (if cfg_mouse cfg && xterm C then XTERM_DISABLE_MOUSE ++ XTERM_DISABLE_MOUSE_MOTION else [])) = Some m1 /\
      (forall n, mouse_mode n -> private m1 n = negb (cfg_mouse cfg && xterm C) && private m n) /\
      application_keypad m1 = application_keypad m).
    { destruct (cfg_mouse cfg && xterm C); cbn [negb andb].
      - rewrite (ob_app _ _ _ HM). destruct (mouse_string false t m Hl) as (m1 & L1 & A1 & A2 & A3 & A4).
        destruct (motion_string false _ _ L1) as (m2 & L2 & B1 & B2 & B3 & B4). exists m2. split; [exact L2|].
        split; [|congruence]. intros n Hn. cbn [negb andb]. destruct Hn as [Hn|[Hn|Hn]]; subst n; congruence.
      - rewrite (ob_nil _ _ _ HM). exists m. auto. }
    destruct H1 as (m1 & L1 & A1 & A2). unfold turned_off.
    destruct (cfg_keypad cfg && has C KeypadXmit && has C KeypadLocal); cbn [andb negb].
    - destruct K1 as (e & k & k' & Hi & He).
      destruct (ob_keypad _ _ _ HM _ m1 KeypadLocal e k kp k' L1 Hi eq_refl He) as (m2 & L2 & B1 & B2).
      exists m2. split; [assumption|]. split; [intros n Hn; rewrite B1; auto|assumption].
    - subst kp. rewrite (ob_nil _ _ _ HM). exists m1. auto.
  Qed.
End Modes.

(** ** The xterm *)
Notation xrun bs s := (fold_left xstep bs s).
Lemma xrun_digits u : forall f q ps p, xrun (digits u) (XCsi q ps p, f) = (XCsi q ps (value u p), f).
Proof. induction u; intros f q ps p; cbn [digits fold_left value]; [reflexivity|..]; rewrite <- IHu; reflexivity. Qed.
Lemma xrun_dec n f q ps : xrun (dec n) (XCsi q ps 0%N, f) = (XCsi q ps n, f).
Proof. unfold dec. now rewrite xrun_digits, value_of, DecimalN.Unsigned.of_to. Qed.

Lemma xrun_quiet bs : Forall (fun b => b <> 27%N) bs -> forall f, xrun bs (XGround, f) = (XGround, f).
Proof.
  induction 1 as [|b bs Hb _ IH]; intros f; [reflexivity|]. cbn [fold_left xstep].
  destruct (N.eqb_spec b 27); [contradiction|]. apply IH.
Qed.

Lemma xrun_final q ps cur final f : (64 <= final <= 126)%N ->
  xstep (XCsi q ps cur, f) final =
  (XGround, if q && (final =? 104)%N then xset true (ps ++ [cur]) f
            else if q && (final =? 108)%N then xset false (ps ++ [cur]) f else f).
Proof.
  intros H. cbn [xstep]. replace ((48 <=? final) && (final <=? 57))%N with false by lia.
  replace (final =? 59)%N with false by lia. replace (final =? 63)%N with false by lia. reflexivity.
Qed.

Lemma xrun_plain1 n final f : (64 <= final <= 126)%N -> xrun ([27; 91] ++ dec n ++ [final])%N (XGround, f) = (XGround, f).
Proof.
  intros H. rewrite fold_left_app. change (xrun [27; 91]%N (XGround, f)) with (XCsi false [] 0%N, f).
  rewrite fold_left_app, xrun_dec. cbn [fold_left]. rewrite xrun_final by assumption. reflexivity.
Qed.
Lemma xrun_plain2 a b final f : (64 <= final <= 126)%N ->
  xrun ([27; 91] ++ dec a ++ [59] ++ dec b ++ [final])%N (XGround, f) = (XGround, f).
Proof.
  intros H. rewrite fold_left_app. change (xrun [27; 91]%N (XGround, f)) with (XCsi false [] 0%N, f).
  rewrite fold_left_app, xrun_dec, fold_left_app.
  change (xrun [59]%N (XCsi false [] a, f)) with (XCsi false [a] 0%N, f).
  rewrite fold_left_app, xrun_dec. cbn [fold_left]. rewrite xrun_final by assumption. reflexivity.
Qed.
Lemma xrun_plain3 p n final f : (48 <= p <= 57)%N -> (64 <= final <= 126)%N ->
  xrun ([27; 91; p] ++ dec n ++ [final])%N (XGround, f) = (XGround, f).
Proof.
  intros Hp H. rewrite fold_left_app.
  assert (X : xrun [27; 91; p]%N (XGround, f) = (XCsi false [] (0 * 10 + (p - 48))%N, f)).
  { cbn [fold_left]. change (xstep (xstep (XGround, f) 27) 91)%N with (XCsi false [] 0%N, f). cbn [xstep].
    replace ((48 <=? p) && (p <=? 57))%N with true by lia. reflexivity. }
  rewrite X. rewrite fold_left_app. unfold dec. rewrite xrun_digits. cbn [fold_left]. rewrite xrun_final by assumption. reflexivity.
Qed.
Lemma xrun_mode n on f : xrun ([27; 91; 63] ++ dec n ++ [if on : bool then 104 else 108])%N (XGround, f) = (XGround, xset on [n] f).
Proof.
  rewrite fold_left_app. change (xrun [27; 91; 63]%N (XGround, f)) with (XCsi true [] 0%N, f).
  rewrite fold_left_app, xrun_dec. cbn [fold_left]. rewrite xrun_final by (destruct on; lia). destruct on; reflexivity.
Qed.

Lemma utf8_no_escape c : c <> 27%N -> Forall (fun b => b <> 27%N) (utf8 c).
Proof.
  intros H. unfold utf8. destruct (c <? 128)%N; [repeat constructor; assumption|].
  destruct (c <? 2048)%N; [|destruct (c <? 65536)%N]; repeat (apply Forall_cons; [lia|]); apply Forall_nil.
Qed.

Lemma xterm_obeys E : env_ok E -> obeys E ansi_cfg xterm_modes.
Proof.
  intros HE. split; cbn [mfeed mlook xterm_modes mstate].
  - intros t x y. apply fold_left_app.
  - reflexivity.
  - intros [[| |q0 ps0 cur0] f] m n on Hl Hn; cbn [fst snd] in Hl; try discriminate. injection Hl as <-.
    rewrite xrun_mode. cbn [fst snd]. eexists. split; [reflexivity|]. cbn [private application_keypad]. split.
    + intros k _. unfold xset. cbn [existsb]. now rewrite orb_false_r.
    + unfold xset. cbn [existsb]. destruct Hn as [->|[->| ->]]; reflexivity.
  - intros [[| |q0 ps0 cur0] f] m c e k ps bs k' Hl Hi Hk He; cbn [fst snd] in Hl; try discriminate. injection Hl as <-.
    cbn in Hi. unfold ansi_info in Hi. injection Hi as <-.
    destruct (ansi_string c ps) as [b|] eqn:Es; [|discriminate]. injection He as <- <-.
    assert (Hs : forall g, xrun b (XGround, f) = (XGround, g) -> (forall n, mouse_mode n \/ n = 1%N -> g n = f n) ->
      exists m', match fst (xrun b (XGround, f)) with XGround => Some (Modes (snd (xrun b (XGround, f))) (snd (xrun b (XGround, f)) 1%N))
                 | _ => None end = Some m' /\ same_modes (Modes f (f 1%N)) m').
    { intros g -> Hg. cbn [fst snd]. eexists. split; [reflexivity|]. split; cbn [private application_keypad]; auto. }
    destruct c; try discriminate Hk; cbn [ansi_string] in Es;
      (destruct ps as [|p1 [|p2 [|p3 ps']]]; try discriminate Es; injection Es as <-;
       first [ apply (Hs f); [first [reflexivity | apply xrun_plain1; lia | apply xrun_plain2; lia | apply xrun_plain3; lia]|auto]
             | eapply Hs; [reflexivity|]; intros n Hn; unfold xset; cbn [existsb app];
               destruct Hn as [[->|[->| ->]]| ->]; reflexivity ]).
  - intros [[| |q0 ps0 cur0] f] m c e k bs k' Hl Hi Hk He; cbn [fst snd] in Hl; try discriminate. injection Hl as <-.
    cbn in Hi. unfold ansi_info in Hi. injection Hi as <-.
    destruct c; try discriminate Hk; cbn in He; injection He as <- <-; cbn [fold_left]; eexists; (split; [reflexivity|]);
      (split; [|reflexivity]); intros n [->|[->| ->]]; reflexivity.
  - intros [[| |q0 ps0 cur0] f] m c Hl Hc; cbn [fst snd] in Hl; try discriminate. injection Hl as <-.
    assert (Hn : c <> 27%N).
    { destruct Hc as (Hs & Hc). intros ->.
      assert (X : (printable E 27 \/ mark E 27) \/ 27%N = TAB \/ 27%N = LF \/ 27%N = CR) by tauto.
      destruct X as [X|[X|[X|X]]]; try discriminate X. destruct (texty_char E HE 27 Hs X) as [Y _]. apply Y. reflexivity. }
    rewrite xrun_quiet by (now apply utf8_no_escape). cbn [fst snd]. eexists. split; [reflexivity|]. split; auto.
Qed.

(** ** A session *)
Section Session.
  Variable E : env.
  Variable C : tcfg.
  Variable M : modal.
  Hypothesis HM : obeys E C M.

  Lemma outputs_mild os w w' : outputs C os w w' -> Forall (fun o => Forall (texty E) (wop_text o)) os -> mext E C w w'.
  Proof.
    induction 1 as [w|o os w w1 w' Ho Hs IH]; intros Ht; [apply mext_refl|]. inversion Ht as [|? ? T1 T2]; subst.
    eapply mext_trans; [exact (mq_op E C o w T1 _ _ Ho)|exact (IH T2)].
  Qed.

  Lemma outputs_keep os w w' x : outputs C os w w' -> Forall (fun o => Forall (texty E) (wop_text o)) os ->
    whole_writes (script w) -> stream w' = stream w ++ x ->
    forall t m, mlook M t = Some m -> exists m', mlook M (mfeed M t x) = Some m' /\ same_modes m m'.
  Proof.
    intros Ho Ht Hw Hx. destruct (outputs_mild _ _ _ Ho Ht Hw) as (_ & y & Y1 & Y2).
    rewrite Hx in Y1. apply app_inv_head in Y1. subst y. exact (mild_keeps E C M HM x Y2).
  Qed.

  Lemma session cfg s0 s1 st os w s3 t m :
    whole_writes (script (wr s0)) -> obuf (wr s0) = [] -> mlook M (mfeed M t (dev (wr s0))) = Some m ->
    prepare C cfg s0 = Ret s1 st ->
    outputs C os (wr s1) w -> Forall (fun o => Forall (texty E) (wop_text o)) os ->
    restore C st (with_wr w s1) = Ret s3 tt ->
    exists m1 m3, mlook M (mfeed M t (dev (wr s1))) = Some m1 /\ turned_on C cfg m m1 /\
      mlook M (mfeed M t (dev (wr s3))) = Some m3 /\ turned_off C cfg m1 m3.
  Proof.
    intros Hw Ho Hl Hp Hos Ht Hr.
    destruct (prepare_output C cfg _ _ _ Hw Hp) as (Hw1 & Ho1 & kp & P1 & _).
    destruct (prepare_turns_on E C M HM cfg _ _ _ _ Hw Hp P1) as (_ & T1). destruct (T1 _ _ Hl) as (m1 & L1 & O1). clear T1.
    rewrite <- (ob_app _ _ _ HM) in L1.
    assert (D1 : dev (wr s1) = dev (wr s0) ++ mouse_on C cfg ++ kp).
    { unfold stream in P1. now rewrite Ho, Ho1, !app_nil_r in P1. }
    rewrite <- D1 in L1.
    destruct (outputs_mild _ _ _ Hos Ht Hw1) as (Hw2 & y & Y1 & Y2).
    destruct (mild_keeps E C M HM y Y2 _ _ L1) as (m2 & L2 & S2).
    rewrite <- (ob_app _ _ _ HM) in L2.
    destruct (restore_output_said C st (with_wr w s1) s3 tt Hw2 Hr) as (Ho3 & kp3 & _ & R2).
    destruct (restore_turns_off E C M HM cfg _ _ _ (with_wr w s1) _ _ Hp Hw2 Hr R2) as (_ & T3).
    destruct (T3 _ _ L2) as (m3 & L3 & O3). rewrite <- (ob_app _ _ _ HM) in L3.
    assert (D3 : dev (wr s3) = (dev (wr s1) ++ y) ++ (if restore_mouse st then XTERM_DISABLE_MOUSE ++ XTERM_DISABLE_MOUSE_MOTION else []) ++ kp3).
    { cbn [wr with_wr] in R2. unfold stream in *. rewrite Ho3, app_nil_r in R2. rewrite R2, Y1, Ho1, app_nil_r. reflexivity. }
    rewrite <- D3 in L3. exists m1, m3. split; [exact L1|]. split; [exact O1|]. split; [exact L3|].
    destruct S2 as [S2 S3]. destruct O3 as [O3 O4]. split.
    - intros n Hn. rewrite O3, S2 by exact Hn. reflexivity.
    - now rewrite O4, S3.
  Qed.
End Session.
