(** Proofs about programs on a Unix screen, concluded (C82). *)
From Verif Require Import Base M_Utf8 S_Utf8 M_Geom S_Geom M_Attr M_Buf S_Buf P_Buf P_Buf2 P_Buf3 P_Buf4 M_Seq M_Signal M_Util M_Input M_Writer S_Tty S_Writer
  P_Writer P_Attr P_Writer2 P_Writer3 M_Screen S_Screen P_Screen P_Screen2 P_Screen3 P_Screen4 P_Screen5
  M_Prepare M_Reader S_Prepare P_Prepare P_Prepare2 P_Reader M_UnixScreen S_UnixScreen P_UnixScreen P_UnixScreen2 P_WinScreen P_UnixScreen3 S_WholeScreen
  P_WholeScreen P_WholeScreen2.

(** ** The window's size while preparing *)
Definition wins {A} (s : sys) (r : rres A) : Prop := ends (fun s' => win s' = win s) (fun s' _ => win s' = win s) r.
Lemma wins_bind {A B} s (r : rres A) (k : sys -> A -> rres B) :
  wins s r -> (forall s' a, wins s' (k s' a)) -> wins s (obind r k).
Proof.
  unfold wins. destruct r as [s1 a|s1 e| |]; cbn [obind ends]; auto. intros H1 H2. specialize (H2 s1 a).
  destruct (k s1 a); cbn [ends] in *; auto; congruence.
Qed.
Lemma wins_on {A} (f : wst -> out wst werr A) s : wins s (on_wr f s).
Proof. unfold on_wr. destruct (f (pwr s)); exact I || reflexivity. Qed.
Lemma wins_guard {A} (f : sys -> rres A) s : wins s (f s) -> wins s (with_guard f s).
Proof.
  unfold with_guard, wins. destruct (f s) as [s1 a|s1 e| |]; cbn [ends]; auto; intros H; pose proof (wins_on guard_drop s1) as D; unfold wins in D;
    destruct (on_wr guard_drop s1); cbn [obind ends] in *; auto; congruence.
Qed.
Lemma wins_os {A} (ok : sys -> rres A) s : (forall s', win s' = win s -> wins s (ok s')) -> wins s (os_call ok s).
Proof. intros H. unfold os_call. destruct (os s) as [|[e|] l]; [now apply H|reflexivity|now apply H]. Qed.
Lemma wins_install b n s : wins s (install b n s).
Proof.
  unfold install. destruct b; [|reflexivity]. apply wins_bind; [|intros; reflexivity].
  unfold sigaction. apply wins_os. intros s' Hs. exact Hs.
Qed.
Lemma wins_prepare C cfg s : wins s (prepare C cfg s).
Proof.
  unfold prepare. apply wins_guard. unfold prepare_with_lock.
  apply wins_bind; [apply wins_os; intros s' Hs; exact Hs|]. intros s1 old.
  apply wins_bind; [apply wins_os; intros s' Hs; exact Hs|]. intros s2 u.
  apply wins_bind; [destruct (cfg_mouse cfg); [apply wins_on|reflexivity]|]. intros s3 mo.
  apply wins_bind; [destruct (cfg_keypad cfg); [apply wins_on|reflexivity]|]. intros s4 kp.
  apply wins_bind; [apply wins_on|]. intros s5 u5.
  do 5 (apply wins_bind; [apply wins_install|]; intros ? ?). reflexivity.
Qed.

Section Whole3.
  Variables (E : env) (C : tcfg) (m : seq_map) (K : tty).
  Hypothesis HE : env_ok E.
  Hypothesis HC : env_chars E.
  Hypothesis Hco : caps_coherent C.
  Hypothesis HK : implements E C K.
  Hypothesis Hpc : plain_caps C.
  Notation syn := (syn E C K).
  Notation synd := (synd E C K).
  Notation nice := (nice E).

  Lemma out_with_out x u : out_side (with_out x u) = x.
  Proof. destruct x. reflexivity. Qed.
  Definition reaches (P : scr -> tstate K -> Prop) (x x' : scr) (t : tstate K) : Prop :=
    exists y, stream (M_Screen.wr x') = stream (M_Screen.wr x) ++ y /\ P x' (feed K t y).

  Lemma syn_whole x t : syn x t -> whole_writes (script (M_Screen.wr x)).
  Proof. intros (v & _ & [[_ _ F] _ _ _ _ _] & _). exact F. Qed.
  Lemma reaches_sys u w t x : still K (pwr (u_sys u)) w -> x = Scr (u_sb u) (u_clr u) (u_real u) w -> syn (out_side u) t -> reaches syn (out_side u) x t.
  Proof. intros S -> Ht. exact (moves_still E C K syn (out_side u) w (or_introl eq_refl) S t Ht). Qed.

  Lemma follow_none e u u' : follow E e u = Val u' -> (forall z, e <> Some (EResize z)) -> u' = u.
  Proof. unfold follow. destruct e as [[]|]; intros H H'; try (now injection H as <-). now destruct (H' s). Qed.

  Lemma step_locked l u u' r t : public_op (ULocked l) -> single_op E (ULocked l) -> g_calm E C l (out_side u) ->
    on_out (g_run E C l) u = Some (u', r) -> syn (out_side u) t -> reaches synd (out_side u) (out_side u') t.
  Proof.
    intros Hp Hs Hc H Ht. unfold on_out in H. destruct (g_run E C l (out_side u)) as [x []|x e| |] eqn:Eg; try discriminate.
    - injection H as <- <-. rewrite out_with_out. exact (moves_grun E C K HE HC Hco HK l _ _ Hp Hs Hc Eg t Ht).
    - destruct (grun_no_error E C l _ _ _ Eg).
  Qed.
  Lemma step_refresh u u' r t : g_calm E C [GRefresh] (out_side u) ->
    on_out (screen_refresh E C) u = Some (u', r) -> syn (out_side u) t -> reaches synd (out_side u) (out_side u') t.
  Proof.
    intros Hc H Ht. pose proof (refresh_run E C (out_side u)) as R.
    apply (step_locked [GRefresh] u u' YUnit t); try assumption; try (repeat constructor).
    unfold on_out in *. rewrite R. destruct (screen_refresh E C (out_side u)) as [x []|x e| |]; try discriminate; injection H as <- <-; reflexivity.
  Qed.

  Lemma step_syn o u u' r t : public_op o -> single_op E o -> calm E C o u -> ustep E C m o u = Some (u', r) -> resize_of r = None ->
    syn (out_side u) t -> reaches syn (out_side u) (out_side u') t.
  Proof.
    intros Hp Hs Hc H Hr Ht. destruct o; cbn [ustep calm public_op single_op] in *.
    - unfold on_out in H. cbn [g_step] in H. destruct (run_buf_op E (sb (out_side u)) o) as [b|] eqn:R; [|discriminate]. injection H as <- <-.
      rewrite out_with_out. apply (moves_buffer E C K HE HK o (out_side u) b); [|exact Hs|exact R|exact Ht].
      intros z ->. exact Hp.
    - destruct Hc as (w & Hw). unfold on_out, screen_set_cursor_mode, on_writer in H. cbn [M_Screen.wr out_side run_terminal_op run_wop] in H. rewrite Hw in H.
      destruct (guard_drop w) as [w' u1|w' e| |] eqn:Eg; try discriminate.
      2:{ unfold guard_drop in Eg. destruct (flush w); discriminate. }
      injection H as <- <-. rewrite out_with_out.
      assert (M1 : on_writer (set_cursor_mode C c) (out_side u) = Ret (M_Screen.with_wr w (out_side u)) tt).
      { unfold on_writer. cbn [M_Screen.wr out_side]. now rewrite Hw. }
      destruct (moves_mode E C K Hco HK c _ _ _ M1 t Ht) as (y & Y1 & Y2).
      assert (M2 : on_writer guard_drop (M_Screen.with_wr w (out_side u)) = Ret (M_Screen.with_wr w' (out_side u)) u1).
      { unfold on_writer. cbn [M_Screen.wr M_Screen.with_wr]. now rewrite Eg. }
      destruct (moves_on_drop E C K HK syn _ _ _ _ (or_introl eq_refl) M2 Y2) as (z & Z1 & Z2).
      exists (y ++ z). split; [now rewrite Z1, Y1, app_assoc|]. now rewrite (feed_app _ _ _ HK).
    - destruct (step_refresh u u' r t Hc H Ht) as (y & Y1 & Y2). exists y. split; [exact Y1|]. now apply synd_syn.
    - destruct (step_locked l u u' r t Hp Hs Hc H Ht) as (y & Y1 & Y2). exists y. split; [exact Y1|]. now apply synd_syn.
    - pose proof (silent_calmly E C K HK (u_sys u) _ (syn_whole _ _ Ht) (silent_wait m timeout (u_sys u))) as S. unfold calmly in S.
      destruct (wait_event m timeout (u_sys u)) as [x b|x e| |]; try discriminate; injection H as <- <-; cbn [ends] in S;
        exact (reaches_sys u _ t _ S eq_refl Ht).
    - pose proof (calmly_read E C m K HK Hpc timeout (u_sys u) (syn_whole _ _ Ht)) as S. unfold calmly in S.
      destruct (read_event C m timeout (u_sys u)) as [x b|x e| |]; try discriminate; cbn [ends] in S.
      + destruct (follow E b (with_sys x u)) as [v|] eqn:Ef; [|discriminate]. injection H as <- <-.
        apply follow_none in Ef; [|intros z ->; discriminate Hr]. subst v. exact (reaches_sys u _ t _ S eq_refl Ht).
      + injection H as <- <-. exact (reaches_sys u _ t _ S eq_refl Ht).
    - pose proof (calmly_raw E C m K HK Hpc room timeout (u_sys u) (syn_whole _ _ Ht)) as S. unfold calmly in S.
      destruct (read_raw C m room timeout (u_sys u)) as [x [b bs]|x e| |]; try discriminate; cbn [ends] in S.
      + destruct (follow E b (with_sys x u)) as [v|] eqn:Ef; [|discriminate]. injection H as <- <-.
        apply follow_none in Ef; [|intros z ->; discriminate Hr]. subst v. exact (reaches_sys u _ t _ S eq_refl Ht).
      + injection H as <- <-. exact (reaches_sys u _ t _ S eq_refl Ht).
  Qed.

  (** ** The start *)
  Lemma new_syn cfg s0 s1 u z t0 v0 : win s0 = inr z -> screen_size z -> whole_writes (script (pwr s0)) ->
    look K (feed K t0 (stream (pwr s0))) = Some v0 -> vsize v0 = z -> vattrs v0 = shown_attrs C (wat (pwr s0)) ->
    unix_screen_new E C cfg s0 = Ret s1 u -> syn (out_side u) (feed K t0 (stream (pwr (u_sys u)))).
  Proof.
    intros Hw Hz Hs Hl Hv Ha. unfold unix_screen_new.
    pose proof (size_wr s0) as H1. pose proof (calmly_size E C K HK s0 Hs) as S1. unfold calmly in S1.
    destruct (term_size s0) as [sa za|sa e| |]; [|destruct (terminal_drop C sa); discriminate|discriminate|discriminate].
    destruct H1 as (Hwa & wa & ->). rewrite Hw in Hwa. injection Hwa as <-. cbn [ends] in S1.
    pose proof (calmly_prepare E C K HK Hpc cfg _ (proj1 S1)) as S2. unfold calmly in S2.
    pose proof (wins_prepare C cfg (M_Prepare.with_wr wa s0)) as W. unfold wins in W.
    destruct (prepare C cfg (M_Prepare.with_wr wa s0)) as [sp st|sp e| |]; [|destruct (terminal_drop C sp); discriminate|discriminate|discriminate].
    cbn [ends] in S2, W. cbn [win M_Prepare.with_wr] in W. rewrite W, Hw.
    destruct (sb_new E z) as [b|] eqn:Eb; [|discriminate].
    assert (S := still_trans E C K HK _ _ _ S1 S2). destruct S as (T1 & T2 & y & T3 & T4).
    destruct (locked (enter_screen C (inr z)) sp) as [sl ul|sl e| |] eqn:El; try discriminate.
    2:{ destruct (leave C st sl) as [s3 e3|s3 e3| |]; try discriminate. destruct (terminal_drop C s3); discriminate. }
    intros [= <- <-]. cbn [out_side u_sb u_clr u_real u_sys].
    assert (Hn : screen_new E C z (inr z) (pwr sp) = Ret (Scr b false (Cursor 0 0) (pwr sl)) tt).
    { unfold screen_new. rewrite Eb. unfold locked, with_guard, on_wr in El. unfold on_writer. cbn [M_Screen.wr].
      destruct (enter_screen C (inr z) (pwr sp)) as [w2 u2|w2 e2| |]; try discriminate.
      - cbn [pwr M_Prepare.with_wr M_Screen.wr M_Screen.with_wr] in *. destruct (guard_drop w2) as [w3 []|w3 e3| |]; try discriminate.
        cbn [obind] in El. injection El as <- _. reflexivity.
      - cbn [pwr M_Prepare.with_wr] in *. destruct (guard_drop w2) as [w3 []|w3 e3| |]; discriminate. }
    assert (Hh : history E C K (single_width E) anyhow (Scr b false (Cursor 0 0) (pwr sl)) (feed K t0 (stream (pwr sl)))).
    { eapply (H_new E C K (single_width E) anyhow z (pwr sp) (Scr b false (Cursor 0 0) (pwr sl)) t0 v0); try assumption.
      - rewrite T3, (feed_app _ _ _ HK). now apply T4.
      - now rewrite T2. }
    exact (history_narrow E C HE HC K Hco HK _ _ Hh).
  Qed.

  (** ** The size is told *)
  Lemma told_syn o u u' r z t' v' : public_op o -> nice (u_sb u) -> ustep E C m o u = Some (u', r) -> resize_of r = Some z -> screen_size z ->
    whole_writes (script (pwr (u_sys u'))) ->
    look K t' = Some v' -> vsize v' = z -> vattrs v' = shown_attrs C (wat (pwr (u_sys u'))) -> syn (out_side u') t'.
  Proof.
    intros Hp (B1 & B2 & B3) H Hr Hz Hs Hl Hv Ha.
    assert (Hf : forall x, follow E (Some (EResize z)) (with_sys x u) = Val u' -> syn (out_side u') t').
    { intros x Hf. unfold follow, update_size in Hf. cbn [sb out_side u_sb with_sys] in Hf. destruct (sb_resize E (u_sb u) z) as [b|] eqn:Eb; [|discriminate].
      injection Hf as <-. rewrite out_with_out. cbn [u_sys with_out M_Prepare.wr M_Prepare.with_wr M_Screen.wr] in Hs, Ha.
      destruct (sb_resize_ok E HE _ _ _ B1 Hz Eb) as (R1 & R2 & R3 & R4). exists v'. split; [exact Hl|].
      assert (Hlen := look_ok _ _ _ HK _ _ Hl). unfold view_ok in Hlen. split.
      - constructor; cbn [sb clr real M_Screen.wr out_side u_sys with_sys]; auto; try congruence.
        constructor; cbn [sb M_Screen.wr]; auto. congruence.
      - split; cbn [sb clr]; [|discriminate]. apply (R4 (narrow_text E)); [exact (space_not_wide E HE)|exact B3]. }
    assert (Hout : forall f, on_out f u = Some (u', r) -> False).
    { intros f. unfold on_out. destruct (f (out_side u)); try discriminate; intros [= <- <-]; discriminate Hr. }
    destruct o; cbn [ustep] in H; try (now destruct (Hout _ H)).
    - destruct (wait_event m timeout (u_sys u)); try discriminate; injection H as <- <-; discriminate Hr.
    - destruct (read_event C m timeout (u_sys u)) as [x b|x e| |]; try discriminate; [|injection H as <- <-; discriminate Hr].
      destruct (follow E b (with_sys x u)) as [v|] eqn:Ef; [|discriminate]. injection H as <- <-.
      destruct b as [[]|]; try discriminate Hr. injection Hr as ->. now apply (Hf x).
    - destruct (read_raw C m room timeout (u_sys u)) as [x [b bs]|x e| |]; try discriminate; [|injection H as <- <-; discriminate Hr].
      destruct (follow E b (with_sys x u)) as [v|] eqn:Ef; [|discriminate]. injection H as <- <-.
      destruct b as [[]|]; try discriminate Hr. injection Hr as ->. now apply (Hf x).
  Qed.

  Lemma syn_nice x t : syn x t -> nice (sb x).
  Proof. intros (v & _ & [[F1 F2 _] _ _ _ _ _] & N & _). split; [exact F1|]. split; [exact F2|exact N]. Qed.

  Definition good (u : uscr) (t : option (tstate K)) : Prop :=
    nice (u_sb u) /\ forall t', t = Some t' -> syn (out_side u) t'.
  Lemma program_good u t : program E C m K u t -> good u t.
  Proof.
    induction 1 as [cfg s0 s1 u z t0 v0 H1 H2 H3 H4 H5 H6 H7|u t o u' r x H IH Hp Hs Hc Hst Hr Hw Hx|u t o u' r H IH Hp Hs Hst Hr
      |u t o u' r z t' v' H IH Hp Hs Hst Hr Hz Hw Hl Hv Ha].
    - assert (S := new_syn cfg s0 s1 u z t0 v0 H1 H2 H3 H4 H5 H6 H7). split; [exact (syn_nice _ _ S)|]. intros t' [= <-]. exact S.
    - destruct IH as [_ IH]. destruct (step_syn o u u' r t Hp Hs Hc Hst Hr (IH t eq_refl)) as (y & Y1 & Y2).
      cbn [M_Screen.wr out_side] in Y1. rewrite Hx in Y1. apply app_inv_head in Y1. subst y.
      split; [exact (syn_nice _ _ Y2)|]. intros t' [= <-]. exact Y2.
    - split; [|discriminate]. exact (nice_step E C m HE o u u' r Hp Hs Hr (proj1 IH) Hst).
    - assert (S := told_syn o u u' r z _ v' Hp (proj1 IH) Hst Hr Hz Hw Hl Hv Ha). split; [exact (syn_nice _ _ S)|]. intros t1 [= <-]. exact S.
  Qed.

  Lemma drawing_shows u t o u' r x : program E C m K u (Some t) -> draws o -> public_op o -> single_op E o -> calm E C o u ->
    ustep E C m o u = Some (u', r) -> stream (pwr (u_sys u')) = stream (pwr (u_sys u)) ++ x ->
    (o = URefresh -> r = YUnit -> obuf (pwr (u_sys u')) = []) /\
    exists v, look K (feed K t x) = Some v /\ vsize v = bsize (u_sb u') /\ vattrs v = no_attrs /\ vcur v = cursor_goal (u_sb u') /\
      forall i c, cell_at (u_sb u') i = Some c -> nth_error (vcells v) i = Some (VC (ctext c) (shown_attrs C (cattrs c))).
  Proof.
    intros H Hd Hp Hs Hc Hst Hx. destruct (program_good _ _ H) as [_ S]. specialize (S t eq_refl). split.
    - intros -> ->. cbn [ustep calm] in *. unfold on_out in Hst. inversion Hc as [| | |l0 x0 x1 D D2 Q1 Q2]. subst.
      destruct (drawn_state E C _ _ D) as [R|[e R]].
      + destruct (refresh_and_drop E C _ _ _ R) as [R1 _]. rewrite R1 in Hst. injection Hst as <-.
        destruct S as (v & _ & Hi & Hh). destruct (no_halves_ok E C _ v Hi Hh) as (_ & Hf & _).
        destruct (refresh_spec E C HC _ _ _ (i_frame _ _ _ _ Hi) Hf R) as (_ & _ & _ & R4 & _). exact R4.
      + unfold screen_refresh in Hst. rewrite R in Hst. destruct (s_guard_drop E C x1); discriminate.
    - assert (Y : reaches synd (out_side u) (out_side u') t).
      { destruct o; try contradiction; cbn [ustep calm] in *; [exact (step_refresh u u' r t Hc Hst S)|exact (step_locked l u u' r t Hp Hs Hc Hst S)]. }
      destruct Y as (y & Y1 & v & V1 & (D1 & (D2 & D3) & D4 & D5) & N). cbn [M_Screen.wr out_side] in Y1. rewrite Hx in Y1. apply app_inv_head in Y1. subst y.
      destruct (no_halves_ok E C _ v D1 N) as (Hh & _). exists v. cbn [sb out_side] in *.
      split; [exact V1|]. split; [exact D2|]. split; [exact D4|]. split.
      + destruct D5 as [D5|D5]; [exact D5|]. rewrite Hh in D5. discriminate.
      + intros i c Hi. rewrite (D3 i c Hi), Hh. reflexivity.
  Qed.

  (** After any history, failed drawing included: once the program is told the size of the
      window, drawing shows the buffer again. *)
  Lemma told_shows u t o1 u1 r1 z t' v' o u' r x : program E C m K u t -> public_op o1 -> single_op E o1 ->
    ustep E C m o1 u = Some (u1, r1) -> resize_of r1 = Some z -> screen_size z ->
    whole_writes (script (pwr (u_sys u1))) ->
    look K (feed K t' (obuf (pwr (u_sys u1)))) = Some v' -> vsize v' = z -> vattrs v' = shown_attrs C (wat (pwr (u_sys u1))) ->
    draws o -> public_op o -> single_op E o -> calm E C o u1 ->
    ustep E C m o u1 = Some (u', r) -> stream (pwr (u_sys u')) = stream (pwr (u_sys u1)) ++ x ->
    exists v, look K (feed K (feed K t' (obuf (pwr (u_sys u1)))) x) = Some v /\ vsize v = bsize (u_sb u') /\ vattrs v = no_attrs /\ vcur v = cursor_goal (u_sb u') /\
      forall i c, cell_at (u_sb u') i = Some c -> nth_error (vcells v) i = Some (VC (ctext c) (shown_attrs C (cattrs c))).
  Proof.
    intros H P1 S1 Hst Hr Hz Hw Hl Hv Ha Hd P2 S2 Hc Hst2 Hx.
    assert (Hp : program E C m K u1 (Some (feed K t' (obuf (pwr (u_sys u1)))))) by exact (P_told E C m K u t o1 u1 r1 z t' v' H P1 S1 Hst Hr Hz Hw Hl Hv Ha).
    exact (proj2 (drawing_shows _ _ _ _ _ _ Hp Hd P2 S2 Hc Hst2 Hx)).
  Qed.
End Whole3.
