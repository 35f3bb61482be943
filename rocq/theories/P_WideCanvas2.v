From Verif Require Import Base M_Utf8 S_Utf8 M_Geom S_Geom P_Geom M_Attr S_Buf M_Writer S_Tty S_Writer
  M_Screen S_Screen P_Buf P_Buf2 P_Buf3 P_Screen P_Screen2 S_Emu P_Emu P_Screen5 M_Api M_ScreenApi M_Buf S_Canvas P_Canvas
  P_Canvas2 S_WideCanvas P_WideCanvas.

Section Screen.
  Variable E : env.
  Hypothesis HE : env_ok E.
  Variable C : tcfg.
  Variable K : tty.
  Hypothesis HC : env_chars E.
  Hypothesis Hco : caps_coherent C.
  Hypothesis HK : implements E C K.

  (** What is known about the right halves on the terminal. *)
  Definition was_under (h : shot) (z : size) (b : sbuf) : Prop :=
    forall p c, in_bounds p z -> nth_error (back b) (cell_no z p) = Some c -> ctext c <> [] ->
      under h (line p) (column p) = Some (ctext c, cattrs c).
  Definition traced (s : scr) (t : tstate K) (k : wcanvas) (last : option shot) : Prop :=
    match last with
    | Some h => wsize (pic h) = wsize k /\ was_under h (wsize k) (sb s) /\
        forall v, look K t = Some v -> clr s = false -> forall p, in_bounds p (wsize k) ->
          nth_error (vcells v) (cell_no (wsize k) p) = Some VTrail -> wink (pic h) (line p) (column p) = Right
    | None => clr s = true
    end.

  Lemma traced_stays s t k last v : wfits E (sb s) k -> inv E C s v -> look K t = Some v -> traced s t k last ->
    (forall h, last = Some h -> mends h k) -> wides_mend E s v.
  Proof.
    intros F Hi Hl Ht Ho. split; [now apply (wfits_fit E HE _ k)|]. intros Hc i Hx.
    assert (Hs : bsize (sb s) = wsize k) by apply F.
    assert (Hlt : i < total (wsize k)).
    { rewrite <- Hs, <- (i_len _ _ _ _ Hi). apply nth_error_Some. congruence. }
    assert (Hn := P_Screen.cell_pos_no (wsize k) i ltac:(destruct F; lia)).
    assert (Hq := P_Screen.cell_pos_in (wsize k) i Hlt). rewrite <- Hn in Hx |- *.
    set (p := cell_pos (wsize k) i) in *. clearbody p. clear Hn Hlt.
    rewrite (wfits_half E HE _ k p F Hq). intros Hr Hsame.
    destruct last as [h|]; [|cbn in Ht; congruence]. destruct Ht as (_ & Hu & Ht).
    assert (G := w_good _ _ _ F p Hq). unfold good_at in G.
    destruct (wink k (line p) (column p)) as [tx a|] eqn:Eg; [|discriminate Hr]. destruct G as (G & _).
    unfold cell_at in G. rewrite G in Hsame.
    assert (Hne := P_Screen.cell_nonempty E (sb s) _ _ (w_ok _ _ _ F) G).
    refine (Ho h eq_refl p tx a Hq (Ht v Hl Hc p Hq Hx) Eg _). exact (Hu p _ Hq Hsame Hne).
  Qed.

  (** After a refresh the terminal's right halves are the canvas's. *)
  Lemma done_traced s s' t t' k last v v0 : inv E C s v0 -> traced s t k last -> look K t' = Some v -> wfits E (sb s') k ->
    shows E C v (sb s') -> sb s' = with_back (sb s) (back (sb s')) -> kept E s s' ->
    traced s' t' k (Some (next_shot last k)).
  Proof.
    intros Hi Ht Hl F (Hz & Hs) Hb (Hca & Hke). split; [reflexivity|]. split.
    - intros p c Hp Hc Hne. assert (Hh := wfits_half E HE _ k p F Hp).
      assert (G := w_good _ _ _ F p Hp). unfold good_at in G. cbn [under next_shot].
      assert (Hh' : half E (sb s) (cell_no (wsize k) p) = half E (sb s') (cell_no (wsize k) p)) by (rewrite Hb; reflexivity).
      assert (Hsz : bsize (sb s') = wsize k) by apply F.
      destruct (wink k (line p) (column p)) as [tx a|] eqn:Eg; cbn [is_right] in Hh.
      + destruct G as (G & _). rewrite Hca in Hc; [|rewrite Hsz; now apply cell_no_lt|exact Hh].
        unfold cell_at in G. rewrite G in Hc. now injection Hc as <-.
      + rewrite Hke in Hc by congruence. destruct last as [h|].
        * destruct Ht as (_ & Hu & _). now apply Hu.
        * exfalso. exact (Hne (i_inval _ _ _ _ Hi Ht _ _ Hc)).
    - intros v1 Hv _ p Hp Hx. rewrite Hl in Hv. injection Hv as <-.
      assert (Hcell := good_held E (sb s') k p (w_good _ _ _ F p Hp)). specialize (Hs _ _ Hcell).
      rewrite (wfits_half E HE _ k _ F Hp) in Hs. rewrite Hx in Hs. cbn [pic next_shot].
      destruct (wink k (line p) (column p)); [discriminate|reflexivity].
  Qed.

  Let careful := wides_mend E.
  Lemma stay_care : forall s v, inv E C s v -> careful s v -> wides_fit E (sb s) /\ (clr s = false -> mended E v (sb s)).
  Proof. intros s v _ H. exact H. Qed.

  Lemma wpainted_history s t k last : wpainted E C K s t k last ->
    history E C K any_text (wides_mend E) s t /\ wfits E (sb s) k /\ traced s t k last.
  Proof.
    induction 1 as [sz w s t0 v0 Hsz Hw Hl Hs Ha H|s t k last m b H (IH1 & IH2 & IH3) Hn Hm|s t k last m s' x H (IH1 & IH2 & IH3) Hm Hx
      |s t k last s' x H (IH1 & IH2 & IH3) Hov Hr Hx|s t k last s1 s2 e x H (IH1 & IH2 & IH3) Hov Hc Hf Hx
      |s t k last v new s' t' v' H (IH1 & IH2 & IH3) Hcut Hl Hsz Hob Hl' Hs' Ha' Hu].
    - split; [eapply H_new; eassumption|].
      assert (Hh : history E C K (single_width E) anyhow s (feed K t0 (stream (wr s)))) by (eapply H_new; eassumption).
      assert (P0 : painted E C K s (feed K t0 (stream (wr s))) (blank_canvas sz)) by (eapply Pt_new; eassumption).
      destruct (painted_history E HE C K HC Hco HK _ _ _ P0) as [_ [G1 _ _ (H1 & H2 & H3 & H4)]].
      assert (F : wfits E (sb s) (wblank sz)).
      { constructor; try assumption; [apply Hsz|]. intros q Hq. unfold good_at. cbn [wink wblank empty_glyph].
        split; [exact (H4 q Hq)|]. intros X. rewrite (isw_space E HE) in X. discriminate. }
      split; [exact F|]. split; [reflexivity|]. split.
      { intros p c Hp Hc _. unfold screen_new in H. destruct (sb_new E sz) as [b|] eqn:Eb; [|discriminate].
        assert (Ht : total sz <= umax E).
        { unfold sb_new, area, checked_area in Eb. unfold total.
          destruct (Nat.leb_spec (lines sz * columns sz) (umax E)); [assumption|discriminate]. }
        destruct (new_ok 1 (le_n 1) E sz HE Ht) as (b' & N1 & _ & _ & _ & _ & N6 & _). rewrite Eb in N1. injection N1 as <-.
        unfold on_writer in H. cbn [wr] in H. destruct (enter_screen C (inr sz) w) as [w1 u1|w1 e1| |]; try discriminate;
          cbn [with_wr wr sb clr real] in H; destruct (guard_drop w1) as [w2 u2|w2 e2| |]; try discriminate.
        injection H as <-. cbn [sb with_wr] in Hc. rewrite N6 in Hc. apply nth_error_In, repeat_spec in Hc. subst c. reflexivity. }
      intros v Hv Hc p Hp Hx. exfalso.
      destruct (history_narrow E C HE HC K Hco HK _ _ Hh) as (v1 & V1 & Hi & Hnh). rewrite Hv in V1. injection V1 as <-.
      destruct Hnh as [_ Hnh]. exact (Hnh Hc _ Hx).
    - split; [|split].
      + exact (H_buffer E C K _ _ s t (sforward m) b IH1 I (not_resize m) Hm).
      + exact (wmethod_draws E HE _ _ _ _ IH2 Hn Hm).
      + assert (Hsz : wsize (wdraw E m k) = wsize k).
        { assert (X := w_size _ _ _ IH2). assert (Y := w_size _ _ _ (wmethod_draws E HE _ _ _ _ IH2 Hn Hm)).
          destruct (op_ok E HE _ _ _ (w_ok _ _ _ IH2) (not_resize m) Hm) as (_ & _ & Z). congruence. }
        unfold traced in *. destruct last as [h|]; [|exact IH3]. rewrite Hsz. cbn [sb clr with_sb].
        destruct (op_ok E HE _ _ _ (w_ok _ _ _ IH2) (not_resize m) Hm) as (_ & Hbk & _). unfold was_under. rewrite Hbk. exact IH3.
    - assert (Hh := H_mode E C K _ _ _ _ _ _ _ IH1 Hm Hx).
      destruct (history_inv E C HE HC K Hco HK _ _ _ _ stay_care IH1) as (v & V1 & Hi).
      destruct (mode_goes E C _ _ _ _ (f_whole _ _ (i_frame _ _ _ _ Hi)) Hm) as (M1 & M2 & M3 & M4 & M5).
      destruct (goes_here E C K Hco HK _ _ _ _ x t v M5 Hx V1 I) as (v2 & V2 & bb & ->).
      split; [exact Hh|]. rewrite M1. split; [exact IH2|]. unfold traced in *. rewrite M1, M2. destruct last as [h|]; [|exact IH3].
      destruct IH3 as (T1 & T3 & T2). split; [exact T1|]. split; [exact T3|]. intros v3 Hv3 Hc p Hp Hx3. rewrite V2 in Hv3. injection Hv3 as <-.
      exact (T2 v V1 Hc p Hp Hx3).
    - destruct (history_inv E C HE HC K Hco HK _ _ _ _ stay_care IH1) as (v & V1 & Hi).
      assert (Hst : forall v, look K t = Some v -> wides_mend E s v).
      { intros v2 Hv2. rewrite V1 in Hv2. injection Hv2 as <-. exact (traced_stays s t k last v IH2 Hi V1 IH3 Hov). }
      destruct (done_history E C HE HC K Hco HK _ _ _ _ _ _ _ stay_care IH1 Hst Hr Hx) as (D1 & D2 & v2 & D3 & D4).
      split; [eapply H_refresh; eassumption|].
      assert (F : wfits E (sb s') k).
      { destruct D4 as (D4 & _). assert (B := f_buf _ _ (i_frame _ _ _ _ D4)). rewrite D2 in B |- *. now apply wback_fits. }
      split; [exact F|]. apply (done_traced s s' t _ k last v2 v Hi IH3 D3 F); [apply D4|exact D2|].
      exact (refresh_kept E C HC _ _ _ (i_frame _ _ _ _ Hi) (proj1 (Hst v V1)) Hr).
    - destruct (history_inv E C HE HC K Hco HK _ _ _ _ stay_care IH1) as (v & V1 & Hi).
      assert (Hst : forall v, look K t = Some v -> wides_mend E s v).
      { intros v2 Hv2. rewrite V1 in Hv2. injection Hv2 as <-. exact (traced_stays s t k last v IH2 Hi V1 IH3 Hov). }
      destruct (Hst v V1) as [Hfit Hun].
      destruct (compose_kept E C HC _ _ _ (i_frame _ _ _ _ Hi) Hfit Hc) as (R0 & R1 & R2 & R3 & Rk & R5).
      destruct (flush_failed _ _ _ (f_whole _ _ R0) Hf) as (T2 & T3 & T4 & T5 & T6 & T7).
      split; [eapply H_unflushed; eassumption|].
      assert (Hx1 : stream (wr s1) = stream (wr s) ++ x) by congruence.
      destruct (goes_here E C K Hco HK _ _ _ _ x t v R5 Hx1 V1 (conj Hi Hun)) as (v2 & V2 & D4).
      assert (F : wfits E (sb s2) k).
      { rewrite T2. assert (B := f_buf _ _ R0). rewrite R1 in B |- *. now apply wback_fits. }
      split; [exact F|]. apply (done_traced s s2 t _ k last v2 v Hi IH3 V2 F); unfold kept; rewrite T2; [apply D4|exact R1|exact Rk].
    - split; [eapply H_resize; eassumption|].
      unfold update_size in Hu. destruct (sb_resize E (sb s) new) as [b|] eqn:Eb; [|discriminate]. injection Hu as <-.
      cbn [sb]. split; [exact (wrefit_fits E HE _ _ _ _ IH2 Hcut Hsz Eb)|]. reflexivity.
  Qed.

  Lemma wpainting_shows s t k last : wpainted E C K s t k last ->
    screen_get_size (sb s) = wsize k /\ screen_get_cursor (sb s) = wpen k /\
    forall s' x, (forall h, last = Some h -> mends h k) ->
      refresh E C s = Ret s' tt -> stream (wr s') = stream (wr s) ++ x ->
      obuf (wr s') = [] /\
      exists v, look K (feed K t x) = Some v /\ wdisplays C v k /\
        (wink k (line (wpen_goal k)) (column (wpen_goal k)) <> Right -> vcur v = wpen_goal k).
  Proof.
    intros H. destruct (wpainted_history _ _ _ _ H) as (Hh & F & Ht). assert (F0 := F).
    destruct F as [F1 F2 F3 F4 F5 F6]. split; [exact F3|]. split; [exact F4|]. intros s' x Hov Hr Hx.
    destruct (history_inv E C HE HC K Hco HK _ _ _ _ stay_care Hh) as (v & V1 & Hi).
    assert (Hst : forall v, look K t = Some v -> wides_mend E s v).
    { intros v2 Hv2. rewrite V1 in Hv2. injection Hv2 as <-. exact (traced_stays s t k last v F0 Hi V1 Ht Hov). }
    destruct (wide_refresh E C K HE HC Hco HK s t s' tt x Hh Hst Hr Hx) as (R1 & _ & _ & _ & v' & W1 & (W2 & W3) & _ & W4).
    split; [exact R1|]. exists v'. split; [exact W1|].
    assert (Hgoal : cursor_goal (sb s) = wpen_goal k) by (unfold cursor_goal, wpen_goal, on_canvas; now rewrite F3, F4).
    split.
    - split; [congruence|]. intros p Hp. rewrite (W3 _ _ (good_held E _ _ _ (F6 p Hp))).
      rewrite (wfits_half E HE _ k p F0 Hp). unfold held. destruct (wink k (line p) (column p)); reflexivity.
    - intros Hnr. rewrite <- Hgoal. apply W4. rewrite F3, Hgoal.
      assert (Hg := goal_in (sb s) (f_size _ _ (i_frame _ _ _ _ Hi))). rewrite F3, Hgoal in Hg.
      rewrite (wfits_half E HE _ k _ F0 Hg). destruct (wink k (line (wpen_goal k)) (column (wpen_goal k))); [reflexivity|congruence].
  Qed.
End Screen.

(** Deciding the conditions, for the examples. *)
Section Play.
  Variable E : env.
  Hypothesis HE : env_ok E.

  Definition easy_charb (c : N) (k : wcanvas) : bool :=
    implb (match cwidth E c with Some 2 => true | _ => false end)
          (implb (on_canvas (wsize k) (wpen k)) (column (wpen k) + 2 <=? columns (wsize k))) &&
    implb (combining E c)
          match before (wsize k) (wpen k) with
          | Some q => negb (is_right (wink k (line q) (column q)))
          | None => true
          end.
  Lemma easy_charb_ok c k : easy_charb c k = true -> easy_char E c k.
  Proof.
    unfold easy_charb. intros H. apply andb_prop in H as [H1 H2]. split.
    - intros [_ Hw] Ho. rewrite Hw, Ho in H1. cbn in H1. now apply Nat.leb_le.
    - intros (_ & _ & _ & Hm) q Hq Hr. rewrite Hm, Hq, Hr in H2. discriminate.
  Qed.
  Fixpoint easy_textb (s : list N) (k : wcanvas) : bool :=
    match s with
    | [] => true
    | c :: s => easy_charb c k && match wtyped E c k with Some k => easy_textb s k | None => true end
    end.
  Lemma easy_textb_ok s : forall k, easy_textb s k = true -> easy_text E s k.
  Proof.
    induction s as [|c s IH]; intros k H; cbn [easy_textb easy_text] in *; [exact I|].
    apply andb_prop in H as [H1 H2]. split; [now apply easy_charb_ok|]. destruct (wtyped E c k); [now apply IH|exact I].
  Qed.
  Definition easyb (m : smethod) (k : wcanvas) : bool :=
    match m with
    | SWriteAt p s => easy_textb s (wset_pen (where_ p) k)
    | SWriteStyled f b st s => easy_textb s (wset_brush (Attrs f b (pick st)) k)
    | SWriteStyledAt p f b st s => easy_textb s (wset_brush (Attrs f b (pick st)) (wset_pen (where_ p) k))
    | SWriteChar c => easy_textb [c] k
    | SWriteStr s => easy_textb s k
    | SWriteFmt ps => easy_textb (concat ps) k
    | _ => true
    end.
  Lemma easyb_ok m k : easyb m k = true -> easy E m k.
  Proof.
    destruct m; cbn [easyb easy]; intros H; try exact I; try intros _; now apply easy_textb_ok.
  Qed.

  Fixpoint all_easyb (ms : list smethod) (k : wcanvas) : bool :=
    match ms with [] => true | m :: ms => easyb m k && all_easyb ms (wdraw E m k) end.
  Lemma all_easyb_ok ms : forall k, all_easyb ms k = true -> all_easy E ms k.
  Proof.
    induction ms as [|m ms IH]; intros k H; cbn [all_easyb all_easy] in *; [exact I|].
    apply andb_prop in H as [H1 H2]. split; [now apply easyb_ok|now apply IH].
  Qed.

  Definition mendsb (h : shot) (k : wcanvas) : bool :=
    forallb (fun l => forallb (fun c =>
        match wink (pic h) l c, wink k l c, under h l c with
        | Right, Glyph t a, Some (t0, a0) => negb (cell_eqb (Cell a t) (Cell a0 t0))
        | _, _, _ => true
        end) (seq 0 (columns (wsize k)))) (seq 0 (lines (wsize k))).
  Lemma mendsb_ok h k : mendsb h k = true -> mends h k.
  Proof.
    unfold mendsb. rewrite forallb_forall. intros H [l c] t a [P1 P2] Hr Hg Hu. cbn [line column] in *.
    specialize (H l). rewrite in_seq in H. specialize (H ltac:(lia)). rewrite forallb_forall in H.
    specialize (H c). rewrite in_seq in H. specialize (H ltac:(lia)). rewrite Hr, Hg, Hu in H.
    replace (cell_eqb (Cell a t) (Cell a t)) with true in H by (symmetry; now apply P_Screen.cell_eqb_eq). discriminate H.
  Qed.
  Definition mends_last (last : option shot) (k : wcanvas) : bool :=
    match last with Some h => mendsb h k | None => true end.
  Lemma mends_last_ok last k : mends_last last k = true -> forall h, last = Some h -> mends h k.
  Proof. intros H h ->. now apply mendsb_ok. Qed.
  Definition cutsb (sz : size) (k : wcanvas) : bool :=
    forallb (fun l => negb (is_right (wink k l (columns sz)))) (seq 0 (lines (wsize k))).
  Lemma cutsb_ok sz k : cutsb sz k = true -> cuts_nothing sz k.
  Proof.
    unfold cutsb. rewrite forallb_forall. intros H _ l Hl _ Hr. specialize (H l). rewrite in_seq, Hr in H.
    specialize (H ltac:(lia)). discriminate.
  Qed.

  Inductive wact : Type := WDo (m : smethod) | WRefresh | WResize (sz : size).

  Definition wstep (st : scr * emu * wcanvas * option shot) (a : wact) : option (scr * emu * wcanvas * option shot) :=
    let '(s, t, k, last) := st in
    match a with
    | WDo m => if easyb m k then
                 match screen_method E m (sb s) with
                 | Val b => Some (with_sb b s, t, wdraw E m k, last)
                 | Boom => None
                 end
               else None
    | WRefresh => if mends_last last k then
                    match refresh E ansi_cfg s with
                    | Ret s' _ => match grown s s' with
                                  | Some x => Some (s', feed (ansi_tty E) t x, k, Some (next_shot last k))
                                  | None => None
                                  end
                    | _ => None
                    end
                  else None
    | WResize sz =>
        match look (ansi_tty E) t, update_size E sz s with
        | Some v, Val s' => if cutsb sz k && attrs_eqb (vattrs v) no_attrs && (length (obuf (wr s)) =? 0)
                            then Some (s', emu_new sz, wrefit sz k, None) else None
        | _, _ => None
        end
    end.
  Fixpoint wpaint (st : scr * emu * wcanvas * option shot) (l : list wact) : option (scr * emu * wcanvas * option shot) :=
    match l with
    | [] => Some st
    | a :: l => match wstep st a with Some st => wpaint st l | None => None end
    end.

  Definition act_size (a : wact) : Prop := match a with WResize sz => screen_size sz | _ => True end.

  Lemma wstep_ok s t k last a s' t' k' last' : wpainted E ansi_cfg (ansi_tty E) s t k last -> act_size a ->
    wstep (s, t, k, last) a = Some (s', t', k', last') -> wpainted E ansi_cfg (ansi_tty E) s' t' k' last'.
  Proof.
    intros H Ha Hp. destruct a as [m| |sz]; cbn [wstep] in Hp.
    - destruct (easyb m k) eqn:Ee; [|discriminate]. destruct (screen_method E m (sb s)) as [b|] eqn:Em; [|discriminate].
      injection Hp as <- <- <- <-. apply WPt_method; [assumption|now apply easyb_ok|assumption].
    - destruct (mends_last last k) eqn:Eo; [|discriminate].
      destruct (refresh E ansi_cfg s) as [s2 []| | |] eqn:Er; try discriminate.
      destruct (grown s s2) as [x|] eqn:Eg; [|discriminate]. injection Hp as <- <- <- <-.
      exact (WPt_refresh E ansi_cfg (ansi_tty E) s t k last s2 x H (mends_last_ok last k Eo) Er (grown_ok s s2 x Eg)).
    - destruct (look (ansi_tty E) t) as [v|] eqn:El; [|discriminate].
      destruct (update_size E sz s) as [s2|] eqn:Eu; [|discriminate].
      destruct (cutsb sz k && attrs_eqb (vattrs v) no_attrs && (length (obuf (wr s)) =? 0)) eqn:Ec; [|discriminate].
      injection Hp as <- <- <- <-. apply andb_prop in Ec as [Ec Eb]. apply andb_prop in Ec as [Ec Ed].
      apply (WPt_resize E ansi_cfg (ansi_tty E) s t k last v sz s2 (emu_new sz)
        (View sz (repeat (VC [SPACE] no_attrs) (total sz)) (Cursor 0 0) no_attrs true)).
      + exact H.
      + now apply cutsb_ok.
      + exact El.
      + exact Ha.
      + destruct (obuf (wr s)); [reflexivity|discriminate].
      + apply emu_new_look.
      + reflexivity.
      + cbn [vattrs]. symmetry. now apply P_Attr.attrs_eqb_eq.
      + exact Eu.
  Qed.
  Lemma wpaint_ok l : forall s t k last s' t' k' last', wpainted E ansi_cfg (ansi_tty E) s t k last -> Forall act_size l ->
    wpaint (s, t, k, last) l = Some (s', t', k', last') -> wpainted E ansi_cfg (ansi_tty E) s' t' k' last'.
  Proof.
    induction l as [|a l IH]; intros s t k last s' t' k' last' H Hl Hp; cbn [wpaint] in Hp.
    - injection Hp as <- <- <- <-. exact H.
    - inversion Hl as [|? ? Ha Hl2]; subst. destruct (wstep (s, t, k, last) a) as [[[[s1 t1] k1] l1]|] eqn:E1; [|discriminate].
      exact (IH _ _ _ _ _ _ _ _ (wstep_ok _ _ _ _ _ _ _ _ _ H Ha E1) Hl2 Hp).
  Qed.

  Definition wpainting (sz : size) (sc : list wresp) (l : list wact) (P : wcanvas -> view -> bool) : bool :=
    match start E sz sc with
    | Some (s, t) => match wpaint (s, t, wblank sz, Some (first_shot (wblank sz))) l with
                     | Some (s, t, k, last) =>
                         mends_last last k && match refreshed E s t with Some (_, _, v) => P k v | None => false end
                     | None => false
                     end
    | None => false
    end.

  Lemma wpainting_ok sz sc l P : screen_size sz -> whole_writes sc -> Forall act_size l ->
    wpainting sz sc l P = true ->
    exists s t k last s' x v, wpainted E ansi_cfg (ansi_tty E) s t k last /\
      (forall h, last = Some h -> mends h k) /\
      refresh E ansi_cfg s = Ret s' tt /\ stream (wr s') = stream (wr s) ++ x /\
      look (ansi_tty E) (feed (ansi_tty E) t x) = Some v /\ P k v = true.
  Proof.
    intros Hs Hw Hl H. unfold wpainting in H. destruct (start E sz sc) as [[s0 t0]|] eqn:Es; [|discriminate].
    destruct (wpaint (s0, t0, wblank sz, Some (first_shot (wblank sz))) l) as [[[[s t] k] last]|] eqn:Ep; [|discriminate].
    apply andb_prop in H as [Ho H].
    destruct (refreshed E s t) as [[[s' x] v]|] eqn:Ef; [|discriminate].
    destruct (refreshed_ok _ _ _ _ _ _ Ef) as (A & B & D). exists s, t, k, last, s', x, v.
    split; [|split; [now apply mends_last_ok|auto]]. refine (wpaint_ok l _ _ _ _ _ _ _ _ _ Hl Ep).
    unfold start in Es. destruct (screen_new _ _ _ _ _) as [s2 []| | |] eqn:En; try discriminate.
    injection Es as <- <-.
    apply (WPt_new E ansi_cfg (ansi_tty E) sz (writer_new (N.to_nat 8192) sc) s2 (emu_new sz)
      (View sz (repeat (VC [SPACE] no_attrs) (total sz)) (Cursor 0 0) no_attrs true)); auto.
    cbn [stream writer_new dev obuf app]. rewrite (feed_nil _ _ _ (ansi_implements E HE)). apply emu_new_look.
  Qed.
End Play.

(** Looking at positions, for the examples. *)
Definition glyph_is (t : list N) (a : attrs) (g : glyph) : bool :=
  match g with Glyph t' a' => text_eqb t t' && attrs_eqb a a' | Right => false end.
Definition vcell_is (t : list N) (a : attrs) (c : option vcell) : bool :=
  match c with Some (VC t' a') => text_eqb t t' && attrs_eqb a a' | _ => false end.
