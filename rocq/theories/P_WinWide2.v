(** Drawing with double-width characters on a Windows screen (C126): the canvas, examples. *)
From Verif Require Import Base M_Utf8 S_Utf8 M_Geom S_Geom M_Attr M_Signal M_Util M_Input M_Buf S_Buf M_Writer M_Prepare M_Reader
  M_WinWriter M_WinReader S_WinReader M_WinScreen S_WinScreen P_Buf2 P_Buf3 P_WinScreen P_WinDraw M_ScreenApi S_WinCanvas.
From Verif Require S_WinWriter S_Screen S_Canvas P_Buf P_Screen P_Screen2 P_WinWriter P_Canvas P_WideCanvas.
From Verif Require Import S_WideCanvas S_WinWide P_WinWide.

Section Canvas.
  Variables (draw : list N -> N -> view -> view) (shown : list N -> option N)
    (shown2 : list N -> option (N * N)) (is_half : N -> bool) (E : env).
  Hypothesis HP : wide_places draw shown shown2 is_half.
  Hypothesis HE : env_ok E.
  Notation careful := (win_ready E shown shown2 is_half).
  Notation painted := (win_painted draw shown shown2 E).

  (** The right halves the console shows are those of the picture [k0]. *)
  Definition halves_in (v : view) (k0 : wcanvas) : Prop :=
    forall p, in_bounds p (wsize k0) -> half_at is_half v (Z.of_nat (line p)) (Z.of_nat (column p)) = true ->
      wink k0 (line p) (column p) = Right.
  (** What was refreshed last is as [h] says. *)
  Definition known (h : shot) (z : size) (b : sbuf) : Prop :=
    forall p c, in_bounds p z -> nth_error (back b) (cell_no z p) = Some c -> ctext c <> [] ->
      under h (line p) (column p) = Some (ctext c, cattrs c).
  Definition pictured (s : wscr) (k : wcanvas) (last : option shot) : Prop :=
    match last with
    | Some h => g_clr s = false /\ wsize (pic h) = wsize k /\ halves_in (sees s) (pic h) /\ known h (wsize k) (g_sb s)
    | None => g_clr s = true
    end.

  Lemma new_area z b : sb_new E z = Val b -> total z <= umax E.
  Proof.
    unfold sb_new, area, checked_area, total. destruct (Nat.leb_spec (lines z * columns z) (umax E)); [auto|discriminate].
  Qed.

  Lemma isw_two t : P_WideCanvas.isw E t = two_wide E t.
  Proof. exact (eq_sym (two_is_wide E (Cell no_attrs t))). Qed.

  Lemma readable_shown b k : P_WideCanvas.wfits E b k -> readable E shown shown2 k -> all_shown E shown shown2 b.
  Proof.
    intros W Hr i c Hc Hh. assert (W' := W). destruct W as [W1 W2 W3 W4 W5 W6].
    assert (Hlt : i < total (wsize k)).
    { destruct W1 as (_ & X & _). rewrite <- W3, <- X. apply nth_error_Some. unfold cell_at in Hc. congruence. }
    assert (Hp := P_Screen.cell_pos_in _ _ Hlt). assert (Hn := P_Screen.cell_pos_no (wsize k) i ltac:(lia)).
    assert (G := W6 _ Hp). rewrite <- Hn in Hh. rewrite (P_WideCanvas.wfits_half E HE b k _ W' Hp) in Hh.
    unfold P_WideCanvas.good_at in G. rewrite Hn in G. specialize (Hr (cell_pos (wsize k) i)).
    destruct (wink k _ _) as [t a|]; [|discriminate Hh]. destruct G as (G & _). rewrite Hc in G. injection G as ->.
    cbn [ctext]. exact (Hr t a Hp eq_refl).
  Qed.

  Lemma pictured_careful s k last : P_WideCanvas.wfits E (g_sb s) k -> pictured s k last -> readable E shown shown2 k ->
    match last with Some h => mends h k | None => covers (sees s) end -> careful s.
  Proof.
    intros W P Hr Ho. split; [exact (P_WideCanvas.wfits_fit E HE _ _ W)|]. split; [exact (readable_shown _ _ W Hr)|].
    destruct last as [h|]; cbn in P.
    - destruct P as (P1 & P2 & P3 & P4). split; [|rewrite P1; intros Q; discriminate Q]. intros _ p Hp Hh Hn Hsame.
      rewrite (P_WideCanvas.w_size E _ _ W) in *. rewrite (P_WideCanvas.wfits_half E HE _ k p W Hp) in Hn.
      assert (G := P_WideCanvas.w_good E _ _ W p Hp). unfold P_WideCanvas.good_at in G.
      destruct (wink k (line p) (column p)) as [t a|] eqn:Eg; [|discriminate Hn]. destruct G as (G & _).
      unfold cell_at in G. rewrite G in Hsame. 
      assert (Hne := P_Screen.cell_nonempty E (g_sb s) _ _ (P_WideCanvas.w_ok E _ _ W) G).
      assert (Hu := P4 p _ Hp Hsame Hne). cbn [ctext cattrs] in Hu.
      refine (Ho p t a Hp _ Eg Hu). apply P3; [now rewrite P2|exact Hh].
    - rewrite P. split; [intros Q; discriminate Q|]. intros _. exact Ho.
  Qed.

  Lemma win_painted_history s k last : (32767 <= Z.of_nat (umax E))%Z -> painted s k last ->
    whistory draw E careful s /\ P_WideCanvas.wfits E (g_sb s) k /\ pictured s k last.
  Proof.
    intros HU. induction 1 as [cfg t t1 s Hd Hv Hdef Ha Hc Hnew|s k last m b _ (I1 & I2 & I3) Hs Hm|s k last m s' u _ (I1 & I2 & I3) Hr
      |s k last s' u _ (I1 & I2 & I3) Hrd Hov Hr|s k last v s' u _ (I1 & I2 & I3) Hv Hcut Hr].
    - split; [eapply WH_new; eassumption|].
      destruct (wnew_inv draw shown shown2 is_half E HP HE _ _ _ _ HU Hd Hv Ha Hc Hnew) as (_ & _ & N1 & N2 & N3).
      split; [|split; [exact N1|split; [reflexivity|split]]].
      + apply P_WideCanvas.wnew_fits; [exact HE| |exact N3]. unfold S_WinWriter.view_ok in Hv. unfold size_of_view. cbn [columns]. lia.
      + intros p _ Hh. unfold half_at, glyph_at in Hh. rewrite N2 in Hh.
        rewrite (space_whole draw shown shown2 is_half HP) in Hh. discriminate Hh.
      + intros p c Hp Hcb _. destruct (new_ok 1 (le_n 1) E _ HE (new_area _ _ N3)) as (b & Q1 & _ & _ & _ & _ & Q6 & _).
        rewrite N3 in Q1. injection Q1 as <-. rewrite Q6 in Hcb. apply nth_error_In, repeat_spec in Hcb. subst c. reflexivity.
    - split; [eapply WH_buffer; [exact I1|exact (P_Canvas.not_resize m)|exact Hm]|].
      assert (W := P_WideCanvas.wmethod_draws E HE _ _ _ _ I2 Hs Hm). split; [exact W|].
      unfold pictured in *. destruct last as [h|]; [|exact I3]. destruct I3 as (P1 & P2 & P3 & P4).
      destruct (P_Screen2.op_ok E HE _ _ _ (P_WideCanvas.w_ok E _ _ I2) (P_Canvas.not_resize m) Hm) as (_ & Hb & Z).
      assert (Hz : wsize (wdraw E m k) = wsize k).
      { rewrite <- (P_WideCanvas.w_size E _ _ I2), <- Z. symmetry. exact (P_WideCanvas.w_size E _ _ W). }
      split; [exact P1|]. rewrite Hz. split; [exact P2|]. split; [exact P3|].
      unfold known. cbn [with_gsb g_sb]. rewrite Hb. exact P4.
    - split; [eapply WH_mode; eassumption|].
      cbn [run_wsop] in Hr. apply on_inv in Hr. destruct Hr as (w & Hr & ->). split; [exact I2|].
      unfold win_set_cursor_mode, set_cursor_info in Hr. apply ask_inv in Hr. destruct Hr as (_ & _ & n & l & Hr). injection Hr as Hr _.
      assert (V : c_view (w_con w) = sees s) by now rewrite <- Hr.
      unfold pictured in *. destruct last as [h|]; [|exact I3]. destruct I3 as (P1 & P2 & P3 & P4).
      split; [exact P1|]. split; [exact P2|]. split; [|exact P4]. intros p Hp Hh. apply P3; [exact Hp|]. rewrite <- V. exact Hh.
    - assert (C := pictured_careful _ _ _ I2 I3 Hrd Hov). split; [eapply WH_refresh; eassumption|].
      destruct (whist_inv draw shown shown2 is_half E HP HE s HU I1) as (I & _).
      destruct (wrefresh_ok draw shown shown2 is_half E HP _ _ _ I C Hr) as ([F _ _ _ _] & Hc & _ & (l & Hl) & _ & Hh & _ & Hca & Hke).
      assert (W : P_WideCanvas.wfits E (g_sb s') k).
      { assert (Fb := f_buf E s' F). rewrite Hl in Fb |- *. now apply P_WideCanvas.wback_fits. }
      split; [exact W|]. split; [exact Hc|]. split; [reflexivity|]. split.
      { intros p Hp Hv.
      assert (Hz : sz s' = wsize k) by exact (P_WideCanvas.w_size E _ _ W).
      destruct (bounds_no p (wsize k) Hp) as (B1 & B2).
      assert (X := Hh (cell_no (wsize k) p)). rewrite Hz in X. specialize (X B1).
      unfold halfn, at_no in X. rewrite B2 in X. rewrite (P_WideCanvas.wfits_half E HE _ k p W Hp) in X.
      unfold half_at, glyph_at in Hv. rewrite Hv in X. cbn [pic next_shot]. destruct (wink k _ _); [discriminate X|reflexivity]. }
      intros p c Hp Hb Hn. assert (Hz : sz s' = wsize k) by exact (P_WideCanvas.w_size E _ _ W).
      destruct (bounds_no p (wsize k) Hp) as (B1 & _). assert (Hhp := P_WideCanvas.wfits_half E HE _ k p W Hp).
      assert (G := P_WideCanvas.w_good E _ _ W p Hp). unfold P_WideCanvas.good_at in G. cbn [under next_shot].
      destruct (wink k (line p) (column p)) as [t a|] eqn:Eg; cbn [is_right] in Hhp.
      + destruct G as (G & _). rewrite Hca in Hb by (rewrite ?Hz; auto). unfold cell_at in G. rewrite G in Hb. now injection Hb as <-.
      + rewrite Hke in Hb by exact Hhp. unfold pictured in I3. destruct last as [h|].
        * destruct I3 as (_ & _ & _ & P4). now apply P4.
        * exfalso. exact (Hn (v_clr shown shown2 is_half E s I I3 _ _ Hb)).
    - split; [eapply WH_resize; [exact I1|exact Hv|exact Hr]|].
      unfold win_update_size in Hr. cbn [seeing with_gt g_sb g_real g_state g_old g_t] in Hr.
      destruct (sb_resize E (g_sb s) _) as [b|] eqn:Er; [|discriminate Hr]. injection Hr as <- _.
      split; [|reflexivity]. cbn [g_sb].
      apply (P_WideCanvas.wrefit_fits E HE _ _ _ _ I2 Hcut); [|exact Er].
      unfold S_WinWriter.view_ok in Hv. unfold S_Screen.screen_size, S_Writer.u32_max, size_of_view. cbn [lines columns]. lia.
  Qed.

  Lemma win_painting_shows s k last : (32767 <= Z.of_nat (umax E))%Z -> painted s k last ->
    screen_get_size (g_sb s) = wsize k /\ screen_get_cursor (g_sb s) = wpen k /\
    forall s' u, readable E shown shown2 k ->
      match last with Some h => mends h k | None => covers (sees s) end -> win_refresh draw E s = Ret s' u ->
      win_wdisplays E shown shown2 (t_default (g_t s)) (sees s') k /\
      (wink k (line (wpen_goal k)) (column (wpen_goal k)) <> Right ->
       v_cur (sees s') = Coord (Z.of_nat (column (wpen_goal k))) (Z.of_nat (line (wpen_goal k)))).
  Proof.
    intros HU H. destruct (win_painted_history _ _ _ HU H) as (I1 & W & I3).
    assert (W' := W). destruct W' as [W1 W2 W3 W4 W5 W6].
    split; [exact W3|]. split; [exact W4|]. intros s' u Hrd Hov Hr.
    assert (C := pictured_careful _ _ _ W I3 Hrd Hov).
    destruct (whistory_shows draw shown shown2 is_half E HP HE s s' u HU I1 C Hr) as ((V1 & V2) & V3 & V4 & V5 & V6).
    destruct (whist_inv draw shown shown2 is_half E HP HE s HU I1) as (I & _).
    destruct (wrefresh_ok draw shown shown2 is_half E HP _ _ _ I C Hr) as ([F _ _ _ _] & _ & _ & (l & Hl) & _).
    assert (WS : P_WideCanvas.wfits E (g_sb s') k).
    { assert (Fb := f_buf E s' F). rewrite Hl in Fb |- *. now apply P_WideCanvas.wback_fits. }
    rewrite (P_WideCanvas.w_size E _ _ WS) in V1, V2.
    split.
    - split.
      + unfold size_of_view. rewrite V1. cbn [cX cY]. rewrite !Nat2Z.id. now destruct (wsize k).
      + intros p Hp. assert (G := P_WideCanvas.w_good E _ _ WS p Hp). unfold P_WideCanvas.good_at in G.
        assert (Hh := P_WideCanvas.wfits_half E HE _ k p WS Hp).
        destruct (wink k (line p) (column p)) as [t a|] eqn:Eg; cbn [is_right] in Hh.
        * destruct G as (G & _). destruct (V2 p _ Hp G Hh) as (w & S1 & S2). cbn [ctext cattrs] in *.
          destruct (two_wide E t).
          -- destruct S2 as (g & h & Q1 & Q2 & Q3). exists g, w. split; [exact Q2|]. split; [exact S1|]. now exists h.
          -- destruct S2 as (g & Q1 & Q2). exists g, w. auto.
        * destruct G as (c & t & a & G1 & G2 & G3 & G4). rewrite isw_two in G3.
          set (q := Cursor (line p) c).
          assert (Hq : in_bounds q (wsize k)) by (destruct Hp; split; cbn [q line column]; lia).
          assert (Gq := P_WideCanvas.w_good E _ _ WS q Hq). unfold P_WideCanvas.good_at in Gq. cbn [q line column] in Gq.
          rewrite G2 in Gq. destruct Gq as (Gq & _).
          assert (Hhq := P_WideCanvas.wfits_half E HE _ k q WS Hq). cbn [q line column] in Hhq. rewrite G2 in Hhq. cbn [is_right] in Hhq.
          destruct (V2 q _ Hq Gq Hhq) as (w & S1 & S2). cbn [ctext cattrs] in *. rewrite G3 in S2.
          destruct S2 as (g & h & Q1 & Q2 & Q3). exists h, w.
          split; [|exists c, t, a, g; auto]. rewrite <- Q3. cbn [q line column]. rewrite G1. f_equal. lia.
    - intros Hg. rewrite V3.
      + unfold at_pos, S_Screen.cursor_goal, wpen_goal, S_Canvas.on_canvas. now rewrite W3, W4.
      + assert (Hgoal : S_Screen.cursor_goal (g_sb s) = wpen_goal k).
        { unfold S_Screen.cursor_goal, wpen_goal, S_Canvas.on_canvas. now rewrite W3, W4. }
        rewrite Hgoal, W3. 
        assert (Hin : in_bounds (wpen_goal k) (wsize k)).
        { destruct (whist_inv draw shown shown2 is_half E HP HE s HU I1) as ([Fs _ _ _ _] & _). destruct (f_size E s Fs) as (Z1 & Z2).
          unfold sz in Z1, Z2. rewrite W3 in Z1, Z2. unfold wpen_goal, S_Canvas.on_canvas.
          destruct ((line (wpen k) <? lines (wsize k)) && (column (wpen k) <? columns (wsize k))) eqn:Eo; split; cbn [line column]; lia. }
        rewrite (P_WideCanvas.wfits_half E HE _ k _ W Hin). destruct (wink k _ _); [reflexivity|contradiction].
  Qed.
End Canvas.

(** ** Examples *)
From Verif Require Import P_WinDraw2 P_WideCanvas2.

Section Play.
  Variable E : env.

  Definition text_shown (t : list N) : bool :=
    if two_wide E t then match duo_shown2 t with Some _ => true | None => false end
    else match duo_shown t with Some _ => true | None => false end.
  Lemma text_shown_ok t : text_shown t = true -> if two_wide E t then duo_shown2 t <> None else duo_shown t <> None.
  Proof.
    unfold text_shown. destruct (two_wide E t).
    - destruct (duo_shown2 t); [intros _ Q|intros Q]; discriminate Q.
    - destruct (duo_shown t); [intros _ Q|intros Q]; discriminate Q.
  Qed.
  Definition readableb (k : wcanvas) : bool :=
    forallb (fun l => forallb (fun c => match wink k l c with Glyph t _ => text_shown t | Right => true end)
                              (seq 0 (columns (wsize k)))) (seq 0 (lines (wsize k))).
  Lemma readableb_ok k : readableb k = true -> readable E duo_shown duo_shown2 k.
  Proof.
    unfold readableb. rewrite forallb_forall. intros H [l c] t a [P1 P2] Hr. cbn [line column] in *.
    specialize (H l). rewrite in_seq in H. specialize (H ltac:(lia)). rewrite forallb_forall in H.
    specialize (H c). rewrite in_seq in H. specialize (H ltac:(lia)). rewrite Hr in H. now apply text_shown_ok.
  Qed.
  Definition coversb (v : view) : bool :=
    ((rLeft (v_win v) =? 0) && (rBottom (v_win v) - rTop (v_win v) + 1 =? cY (v_size v)))%Z.
  Lemma coversb_ok v : coversb v = true -> covers v.
  Proof. unfold coversb, covers, S_WinWriter.win_height. lia. Qed.
  Definition view_okb (v : view) : bool :=
    ((1 <=? cX (v_size v)) && (cX (v_size v) <=? 32767) && (1 <=? cY (v_size v)) && (cY (v_size v) <=? 32767) &&
     (0 <=? cX (v_cur v)) && (cX (v_cur v) <? cX (v_size v)) && (0 <=? cY (v_cur v)) && (cY (v_cur v) <? cY (v_size v)) &&
     (0 <=? rLeft (v_win v)) && (rLeft (v_win v) <=? rRight (v_win v)) && (rRight (v_win v) <? cX (v_size v)) &&
     (0 <=? rTop (v_win v)) && (rTop (v_win v) <=? rBottom (v_win v)) && (rBottom (v_win v) <? cY (v_size v)))%Z.
  Lemma view_okb_ok v : view_okb v = true -> S_WinWriter.view_ok v.
  Proof. unfold view_okb, S_WinWriter.view_ok. lia. Qed.
  Definition readyb (s : wscr) (k : wcanvas) (last : option shot) : bool :=
    readableb k && match last with Some h => mendsb h k | None => coversb (sees s) end.
  Lemma readyb_ok s k last : readyb s k last = true -> readable E duo_shown duo_shown2 k /\
    match last with Some h => mends h k | None => covers (sees s) end.
  Proof.
    unfold readyb. intros H. apply andb_prop in H as [H1 H2]. split; [now apply readableb_ok|].
    destruct last; [now apply mendsb_ok|now apply coversb_ok].
  Qed.

  Inductive deed : Type := DDo (m : smethod) | DRefresh | DResize (v : view).
  Definition state : Type := (wscr * wcanvas * option shot)%type.
  Definition dstep (st : state) (d : deed) : option state :=
    let '(s, k, last) := st in
    match d with
    | DDo m => if easyb E m k then
                 match screen_method E m (g_sb s) with Val b => Some (with_gsb b s, wdraw E m k, last) | Boom => None end
               else None
    | DRefresh => if readyb s k last then
                    match win_refresh duo_draw E s with Ret s' _ => Some (s', k, Some (next_shot last k)) | _ => None end
                  else None
    | DResize v => if view_okb v && cutsb (size_of_view v) k then
                     match win_update_size E (size_of_view v) (seeing v s) with
                     | Ret s' _ => Some (s', wrefit (size_of_view v) k, None)
                     | _ => None
                     end
                   else None
    end.
  Fixpoint dsteps (st : state) (l : list deed) : option state :=
    match l with [] => Some st | d :: l => match dstep st d with Some st => dsteps st l | None => None end end.

  Lemma dstep_ok s k last d s' k' last' : win_painted duo_draw duo_shown duo_shown2 E s k last ->
    dstep (s, k, last) d = Some (s', k', last') -> win_painted duo_draw duo_shown duo_shown2 E s' k' last'.
  Proof.
    intros H Hp. destruct d as [m| |v]; cbn [dstep] in Hp.
    - destruct (easyb E m k) eqn:Ee; [|discriminate Hp]. destruct (screen_method E m (g_sb s)) as [b|] eqn:Em; [|discriminate Hp].
      injection Hp as <- <- <-. apply WW_method; [assumption|now apply easyb_ok|assumption].
    - destruct (readyb s k last) eqn:Er; [|discriminate Hp]. apply readyb_ok in Er as [R1 R2].
      destruct (win_refresh duo_draw E s) as [s2 u| | |] eqn:Ef; try discriminate Hp. injection Hp as <- <- <-.
      exact (WW_refresh duo_draw duo_shown duo_shown2 E s k last s2 u H R1 R2 Ef).
    - destruct (view_okb v && cutsb (size_of_view v) k) eqn:Ev; [|discriminate Hp]. apply andb_prop in Ev as [V1 V2].
      destruct (win_update_size E (size_of_view v) (seeing v s)) as [s2 u| | |] eqn:Eu; try discriminate Hp. injection Hp as <- <- <-.
      exact (WW_resize duo_draw duo_shown duo_shown2 E s k last v s2 u H (view_okb_ok v V1) (cutsb_ok _ _ V2) Eu).
  Qed.
  Lemma dsteps_ok l : forall s k last s' k' last', win_painted duo_draw duo_shown duo_shown2 E s k last ->
    dsteps (s, k, last) l = Some (s', k', last') -> win_painted duo_draw duo_shown duo_shown2 E s' k' last'.
  Proof.
    induction l as [|d l IH]; intros s k last s' k' last' H Hp; cbn [dsteps] in Hp.
    - injection Hp as <- <- <-. exact H.
    - destruct (dstep (s, k, last) d) as [[[s1 k1] l1]|] eqn:E1; [|discriminate Hp].
      exact (IH _ _ _ _ _ _ (dstep_ok _ _ _ _ _ _ _ H E1) Hp).
  Qed.
End Play.

Definition playing (v : view) (l : list deed) (P : wcanvas -> view -> bool) : bool :=
  is_ret (win_screen_new wide_env default_config (some_term v [])) && view_okb v &&
  match dsteps wide_env (some_screen v [], wblank (size_of_view v), Some (first_shot (wblank (size_of_view v)))) l with
  | Some (s, k, last) =>
      readyb wide_env s k last && match win_refresh duo_draw wide_env s with Ret s' _ => P k (sees s') | _ => false end
  | None => false
  end.
Lemma playing_ok v l P : playing v l P = true ->
  exists s k last s' u, win_painted duo_draw duo_shown duo_shown2 wide_env s k last /\
    readable wide_env duo_shown duo_shown2 k /\ match last with Some h => mends h k | None => covers (sees s) end /\
    win_refresh duo_draw wide_env s = Ret s' u /\ P k (sees s') = true.
Proof.
  unfold playing. intros H. apply andb_prop in H as [H H3]. apply andb_prop in H as [H1 H2].
  destruct (dsteps _ _ l) as [[[s k] last]|] eqn:Ed; [|discriminate H3]. apply andb_prop in H3 as [H3 H4].
  destruct (win_refresh duo_draw wide_env s) as [s' u| | |] eqn:Er; try discriminate H4.
  apply readyb_ok in H3 as [R1 R2]. exists s, k, last, s', u. split; [|auto].
  refine (dsteps_ok wide_env l _ _ _ _ _ _ _ Ed). apply made_ok in H1. destruct H1 as (t1 & H1).
  refine (WW_new duo_draw duo_shown duo_shown2 wide_env default_config (some_term v []) t1 _ _ _ _ _ _ H1).
  - split; [reflexivity|]. intros [].
  - now apply view_okb_ok.
  - reflexivity.
  - reflexivity.
  - reflexivity.
Qed.

(** *** What happens when a double-width character is torn *)
Definition anyhow_ready (s : wscr) : Prop :=
  S_Screen.wides_fit wide_env (g_sb s) /\ all_shown wide_env duo_shown duo_shown2 (g_sb s) /\
  (g_clr s = true -> covers (sees s)).
Definition fitsb (b : sbuf) : bool :=
  forallb (fun i => implb (wide_at wide_env b i)
      ((i mod columns (bsize b) + 2 <=? columns (bsize b)) && negb (wide_at wide_env b (S i)))) (seq 0 (length (buffer b))).
Lemma fitsb_ok b : fitsb b = true -> S_Screen.wides_fit wide_env b.
Proof.
  unfold fitsb. rewrite forallb_forall. intros H i Hi.
  assert (Hlt : i < length (buffer b)).
  { apply nth_error_Some. unfold wide_at, cell_at in Hi. destruct (nth_error (buffer b) i); [discriminate|congruence]. }
  specialize (H i). rewrite in_seq, Hi in H. specialize (H ltac:(lia)). cbn [implb] in H. apply andb_prop in H as [H1 H2].
  split; [now apply Nat.leb_le|]. now destruct (wide_at wide_env b (S i)).
Qed.
Definition shownb (b : sbuf) : bool := forallb (fun c => text_shown wide_env (ctext c)) (buffer b).
Lemma shownb_ok b : shownb b = true -> all_shown wide_env duo_shown duo_shown2 b.
Proof.
  unfold shownb. rewrite forallb_forall. intros H i c Hc _. apply text_shown_ok, H. exact (nth_error_In _ _ Hc).
Qed.
Definition readyany (s : wscr) : bool := fitsb (g_sb s) && shownb (g_sb s) && implb (g_clr s) (coversb (sees s)).
Lemma readyany_ok s : readyany s = true -> anyhow_ready s.
Proof.
  unfold readyany. intros H. apply andb_prop in H as [H H3]. apply andb_prop in H as [H1 H2].
  split; [now apply fitsb_ok|]. split; [now apply shownb_ok|]. intros Hc. rewrite Hc in H3. now apply coversb_ok.
Qed.

Definition torn_1 : wscr := wrote (some_screen (some_view 4 1 0 0 SPACE) []) (BWriteAt (Cursor 0 1) [120%N]).
Definition torn_2 : wscr := done (win_refresh duo_draw wide_env torn_1).
Definition torn_3 : wscr := wrote torn_2 (BWriteAt (Cursor 0 0) [65345%N]).
Definition torn_4 : wscr := done (win_refresh duo_draw wide_env torn_3).
Definition torn_5 : wscr := wrote torn_4 (BWriteAt (Cursor 0 0) [97; 120]%N).
Definition torn_6 : wscr := done (win_refresh duo_draw wide_env torn_5).

Lemma torn_wrong : exists draw shown shown2 is_half E s s' u,
  env_ok E /\ (32767 <= Z.of_nat (umax E))%Z /\ wide_places draw shown shown2 is_half /\
  whistory draw E (fun s => S_Screen.wides_fit E (g_sb s) /\ all_shown E shown shown2 (g_sb s) /\
                            (g_clr s = true -> covers (sees s))) s /\
  S_Screen.wides_fit E (g_sb s) /\ all_shown E shown shown2 (g_sb s) /\ (g_clr s = true -> covers (sees s)) /\
  win_refresh draw E s = Ret s' u /\ ~ shows_wide E shown shown2 (t_default (g_t s)) (sees s') (g_sb s').
Proof.
  exists duo_draw, duo_shown, duo_shown2, duo_half, wide_env, torn_5, torn_6, tt.
  split; [exact wide_env_ok|]. split; [exact wide_env_max|]. split; [exact duo_places|].
  assert (W : forall s o, whistory duo_draw wide_env anyhow_ready s -> (forall sz, o <> BResize sz) ->
    is_val (run_buf_op wide_env (g_sb s) o) = true -> whistory duo_draw wide_env anyhow_ready (wrote s o)).
  { intros s o Hh Ho H. unfold wrote. destruct (run_buf_op wide_env (g_sb s) o) as [b|] eqn:Eb; [|discriminate H].
    eapply WH_buffer; eauto. }
  assert (R : forall s, whistory duo_draw wide_env anyhow_ready s -> readyany s = true ->
    is_ret (win_refresh duo_draw wide_env s) = true -> whistory duo_draw wide_env anyhow_ready (done (win_refresh duo_draw wide_env s))).
  { intros s Hh Hr H. eapply WH_refresh; [exact Hh|now apply readyany_ok|now apply done_ok]. }
  assert (H5 : anyhow_ready torn_5) by (apply readyany_ok; vm_compute; reflexivity).
  split; [|split; [apply H5|split; [apply H5|split; [apply H5|split]]]].
  - apply W; [|intros ? Q; discriminate Q|vm_compute; reflexivity].
    apply R; [|vm_compute; reflexivity|vm_compute; reflexivity].
    apply W; [|intros ? Q; discriminate Q|vm_compute; reflexivity].
    apply R; [|vm_compute; reflexivity|vm_compute; reflexivity].
    apply W; [|intros ? Q; discriminate Q|vm_compute; reflexivity].
    assert (H : is_ret (win_screen_new wide_env default_config (some_term (some_view 4 1 0 0 SPACE) [])) = true)
      by (vm_compute; reflexivity).
    apply made_ok in H. destruct H as (t1 & H).
    refine (WH_new duo_draw wide_env anyhow_ready default_config _ t1 _ _ _ _ _ _ H).
    + split; [reflexivity|]. intros [].
    + apply view_okb_ok. reflexivity.
    + reflexivity.
    + reflexivity.
    + reflexivity.
  - apply done_ok. vm_compute. reflexivity.
  - intros (_ & H). 
    assert (Hc : exists c, cell_at (g_sb torn_6) 1 = Some c /\ ctext c = [120%N]).
    { assert (X : match cell_at (g_sb torn_6) 1 with Some c => text_eqb (ctext c) [120%N] | None => false end = true) by (vm_compute; reflexivity).
      destruct (cell_at (g_sb torn_6) 1) as [c|]; [|discriminate X]. exists c. split; [reflexivity|].
      now apply P_Screen.text_eqb_eq. }
    destruct Hc as (c & Hc & Ht).
    assert (Hz : bsize (g_sb torn_6) = Size 1 4) by (vm_compute; reflexivity).
    assert (Hg : fst (v_cell (sees torn_6) 0 1) = SPACE) by (vm_compute; reflexivity).
    specialize (H (Cursor 0 1) c). rewrite Hz in H.
    destruct H as (w & _ & H).
    + split; cbn; lia.
    + exact Hc.
    + vm_compute. reflexivity.
    + rewrite Ht in H. replace (two_wide wide_env [120%N]) with false in H by (vm_compute; reflexivity).
      destruct H as (g & H1 & H2). cbn [line column Z.of_nat Pos.of_succ_nat] in H2. rewrite H2 in Hg. cbn [fst] in Hg.
      vm_compute in H1. rewrite Hg in H1. discriminate H1.
Qed.
