(** Proofs about interactive programs on a Windows console (C137). *)
From Verif Require Import Base M_Utf8 S_Utf8 M_Geom S_Geom P_Geom M_Attr M_Seq S_Seq M_Signal M_Util M_Input S_Input M_Buf S_Buf M_Writer M_Prepare M_Reader
  M_WinWriter M_WinReader S_WinReader M_WinScreen S_WinScreen P_WinScreen P_WinDraw M_ScreenApi S_WinCanvas P_WinCanvas.
From Verif Require S_WinWriter S_Screen S_Canvas P_Canvas P_Screen2 S_Portable P_Portable P_WinReader P_WinMinimal S_Typing S_Reader S_Tty S_Writer M_UnixScreen S_UnixScreen S_SamePicture.
From Verif Require Import S_Interact P_Interact.
Local Open Scope nat_scope.

Section Win.
  Variables (draw : list N -> N -> view -> view) (shown : list N -> option N) (E : env).
  Hypothesis HP : places draw shown.
  Hypothesis HE : env_ok E.
  Hypothesis HU : (32767 <= Z.of_nat (umax E))%Z.

  Definition win_at (d : N) (s : wscr) (k : S_Canvas.canvas) : Prop :=
    P_WinDraw.inv shown E s /\ t_default (g_t s) = d /\ (d < 65536)%N /\ P_Canvas.fits E (g_sb s) k /\ sheer shown k /\ g_clr s = false.

  Lemma win_at_reader d s k i : win_at d s k -> win_at d (with_gt (with_in i (g_t s)) s) k.
  Proof.
    intros ([[F1 F2 F3 F4 F5] B I C] & Hd & D & F & S & G). split; [|exact (conj Hd (conj D (conj F (conj S G))))].
    split; [split; assumption|exact B|exact I|exact C].
  Qed.

  Lemma win_at_method d s k o b : win_at d s k -> Forall (single E shown) (S_Canvas.method_text o) ->
    screen_method E o (g_sb s) = Val b -> win_at d (with_gsb b s) (S_Canvas.draw E o k).
  Proof.
    intros (IH & Hd & D & F & S & G) Hs Hm.
    split; [|split; [exact Hd|split; [exact D|split; [|split; [exact (draw_sheer draw shown E HP o k Hs S)|exact G]]]]].
    - destruct IH as [[F1 F2 F3 F4 F5] B I C].
      destruct (P_Screen2.op_ok E HE _ _ _ F1 (P_Canvas.not_resize o) Hm) as (O1 & O2 & O3).
      assert (Hz : sz (with_gsb b s) = sz s) by exact O3.
      split; [split; rewrite ?Hz; assumption| | |].
      + intros i c Hk Hn. cbn in Hk. rewrite O2 in Hk. rewrite Hz. now apply B.
      + intros Hc j c Hk. cbn in Hk. rewrite O2 in Hk. now apply (I Hc j c).
      + intros Hc. destruct (C Hc) as [T|(T & _)]; [|discriminate T]. left. rewrite Hz. exact T.
    - exact (P_Canvas.method_draws E HE _ _ _ _ F (single_narrow shown E _ Hs) Hm).
  Qed.
  Lemma win_at_methods d ms : forall s k b, win_at d s k -> Forall (single E shown) (concat (map S_Canvas.method_text ms)) ->
    screen_methods E ms (g_sb s) = Val b -> win_at d (with_gsb b s) (S_Canvas.draws E ms k).
  Proof.
    induction ms as [|o ms IH]; intros s k b H Hn Hs; cbn [screen_methods S_Canvas.draws map concat] in *.
    - injection Hs as <-. destruct s; exact H.
    - apply Forall_app in Hn as [N1 N2]. destruct (screen_method E o (g_sb s)) as [b1|] eqn:E1; [|discriminate].
      exact (IH _ _ _ (win_at_method _ _ _ _ _ H N1 E1) N2 Hs).
  Qed.

  Definition wshown_at (d : N) (s : wscr) (k : S_Canvas.canvas) : Prop :=
    wdisplays shown d (sees s) k /\
    v_cur (sees s) = Coord (Z.of_nat (column (S_Canvas.pen_goal k))) (Z.of_nat (line (S_Canvas.pen_goal k))).

  Lemma win_at_refresh d s k s' u : win_at d s k -> win_refresh draw E s = Ret s' u -> win_at d s' k /\ wshown_at d s' k.
  Proof.
    intros (IH & Hd & D & F & S & G) H.
    assert (Ho : one_position E shown (g_sb s)) by exact (sheer_one shown E _ _ F S).
    assert (Hw : window_fits s) by (intros Hc; congruence).
    destruct (P_WinDraw.refresh_ok draw shown E HP _ _ _ IH Ho Hw H) as (I' & Hc & Hd' & (l & Hl) & U & V).
    assert (F0 := F). destruct F as [F1 F2 F3 (H1 & H2 & H3 & H4)]. unfold screen_get_size, screen_get_cursor in *. split.
    - split; [exact I'|]. split; [congruence|]. split; [exact D|]. split; [|split; [exact S|exact Hc]].
      destruct I' as [[Fb _ _ _ _] _ _ _]. rewrite Hl in Fb |- *. apply P_Canvas.back_fits; [exact F0|exact Fb].
    - assert (X : shows_buffer shown d (sees s') (g_sb s')).
      { destruct I' as [Fr B _ _]. rewrite <- Hd, <- Hd'. apply caught_shows with (E := E); auto. congruence. }
      destruct X as (V1 & V2). split.
      + split.
        * unfold size_of_view. rewrite V1, Hl. cbn [cX cY]. rewrite !Nat2Z.id. cbn [bsize with_back]. rewrite H1. now destruct (S_Canvas.ksize k).
        * intros p Hp. specialize (H4 p Hp). 
          destruct (V2 p (Cell (snd (S_Canvas.ink k (line p) (column p))) (fst (S_Canvas.ink k (line p) (column p))))) as (g & w & Q).
          -- rewrite Hl. cbn [bsize with_back]. now rewrite H1.
          -- rewrite Hl. unfold cell_at in *. cbn [bsize buffer with_back]. rewrite H1. exact H4.
          -- exists g, w. exact Q.
      + rewrite V. unfold at_pos, S_Screen.cursor_goal, S_Canvas.pen_goal, S_Canvas.on_canvas. now rewrite H1, H2.
  Qed.

  (** ** Reading *)
  Lemma wawait_nothing l : forall s, Forall S_Portable.wcalm_tick l -> w_failing s = None -> w_queue s = [] -> P_Portable.recs l = [] ->
    snd (wawait None l s) = XNever.
  Proof.
    induction l as [|t l IH]; intros s H Hf Hq Hr; cbn [wawait]; rewrite Hf, Hq; [reflexivity|].
    inversion H as [|? ? Ht Hl]; subst. destruct t; cbn [S_Portable.wcalm_tick] in Ht; try contradiction; try discriminate Hr.
    - exact (IH s Hl Hf Hq Hr).
    - exact (IH (whappens WStep s) Hl Hf Hq Hr).
  Qed.
  Lemma wread_nothing s : S_Portable.wcalm s -> records s = [] -> win_read_event E None s = Blocked.
  Proof.
    intros Hc Hr. pose proof Hc as (Hf & Hu & Ht).
    unfold win_read_event, win_read_raw_event, win_wait_event, win_get_signal.
    pose proof (P_Portable.advance_same s Hc) as A1. destruct (P_Portable.same_calm _ _ _ Hu A1) as [C1 R1].
    set (s1 := wadvance s) in *. clearbody s1.
    rewrite (P_Portable.quiet_conv s1) by apply C1. cbn [as_millis]. unfold wait_for_single_object.
    change (if (INFINITE =? INFINITE)%N then None else Some INFINITE) with (@None N).
    pose proof (P_Portable.advance_same s1 C1) as A2. destruct (P_Portable.same_calm _ _ _ (proj1 (proj2 C1)) A2) as [C2 R2]. rewrite R1, Hr in R2.
    set (s2 := wadvance s1) in *. clearbody s2. rewrite P_Portable.records_recs in R2 by exact C2. apply app_eq_nil in R2 as [R2 R3].
    pose proof (wawait_nothing (w_time s2) s2 (proj2 (proj2 C2)) (proj1 C2) R2 R3) as W.
    destruct (wawait None (w_time s2) s2) as [s3 w]. cbn [snd] in W. subst w. reflexivity.
  Qed.

  Lemma read_not_size s s' e r : win_read_event E None s = Ret s' (Some e, [r]) -> no_resize r -> forall z, e <> EResize z.
  Proof.
    intros H Hn z ->. unfold win_read_event in H. destruct (win_read_raw_event 1 None s) as [s1 [e1 rs]| | |]; try discriminate H.
    cbn [obind] in H. destruct e1 as [[]|]; try discriminate H. destruct rs as [|r1 rs]; [discriminate H|].
    destruct (P_WinReader.decode_ok E r1 s1) as (rd & e & De & Dd & _). rewrite De in H. cbn [obind] in H. injection H as _ -> ->.
    unfold decoded in Dd. destruct (key_press_event r); [destruct Dd; discriminate|]. destruct Dd as (mo & _ & Q). destruct mo; [discriminate|].
    destruct r; try discriminate. contradiction.
  Qed.
End Win.

(** Drawing leaves the input alone. *)
Section Input.
  Variables (draw : list N -> N -> view -> view) (E : env).
  Definition tin {A} (s : wscr) (r : gres A) : Prop :=
    match r with Ret s' _ => t_in (g_t s') = t_in (g_t s) | _ => True end.
  Lemma tin_bind {A B} s (r : gres A) (f : wscr -> A -> gres B) : tin s r -> (forall s' a, tin s' (f s' a)) -> tin s (obind r f).
  Proof.
    unfold tin. destruct r as [s1 a|s1 e| |]; cbn [obind]; auto. intros H1 H2. specialize (H2 s1 a). destruct (f s1 a); auto. congruence.
  Qed.
  Lemma tin_wins {A} (f : wins -> winres A) s : tin s (on_term (on_wins f) s).
  Proof. unfold tin, on_term, on_wins. destruct (f (t_w (g_t s))); reflexivity || exact I. Qed.
  Lemma tin_move p s : tin s (gs_move_cursor p s).
  Proof. unfold gs_move_cursor. destruct (cursor_eqb _ _); [reflexivity|]. apply tin_bind; [apply tin_wins|]. intros; reflexivity. Qed.
  Lemma tin_attrs a b s : tin s (gs_apply_attrs a b s).
  Proof. unfold gs_apply_attrs. destruct (attrs_eqb _ _); [reflexivity|]. apply tin_wins. Qed.
  Lemma tin_gdraw fuel : forall lo hi a s, tin s (gs_draw draw E fuel lo hi a s).
  Proof.
    induction fuel as [|fuel IH]; intros lo hi a s; cbn [gs_draw]; (destruct (next_cell E (g_sb s) lo hi) as [[[b lo'] [[pos cell]|]]|]; [|reflexivity|exact I]).
    - assert (G : tin (with_gsb b s) (let! (s, _u) := gs_move_cursor pos (with_gsb b s) in
        let! (s, _u) := gs_apply_attrs a (cattrs cell) s in
        let! (s, _u) := on_term (on_wins (win_write_str draw (ctext cell))) s in
        match uadd (umax E) (column (g_real s)) 1 with Boom => Panic | Val c => @Panic _ _ unit end)).
      { apply tin_bind; [apply tin_move|intros]. apply tin_bind; [apply tin_attrs|intros]. apply tin_bind; [apply tin_wins|intros].
        destruct (uadd _ _ _); exact I. }
      exact G.
    - apply (tin_bind (with_gsb b s)); [apply tin_move|intros s1 u1]. apply tin_bind; [apply tin_attrs|intros s2 u2]. apply tin_bind; [apply tin_wins|intros s3 u3].
      destruct (uadd _ _ _) as [c|]; [|exact I]. exact (IH lo' hi (cattrs cell) (with_greal (Cursor (line (g_real s3)) c) s3)).
  Qed.
  Lemma tin_refresh s : tin s (win_refresh draw E s).
  Proof.
    unfold win_refresh. apply tin_bind.
    { destruct (g_clr s); [|reflexivity]. apply tin_bind; [apply tin_wins|]. intros; reflexivity. }
    intros s1 u1. apply tin_bind; [apply tin_wins|]. intros s2 u2. destruct (sb_indices E (g_sb s2)) as [[lo hi]|]; [|exact I].
    apply tin_bind; [apply tin_gdraw|]. intros s3 u3. apply tin_bind; [apply tin_wins|]. intros s4 u4.
    destruct (is_out_of_bounds _ _); [|apply tin_move]. destruct (cursor_last _); [apply tin_move|exact I].
  Qed.
End Input.

Section WinRounds.
  Variables (M : Type) (react : M -> key -> M * list smethod).
  Variables (draw : list N -> N -> view -> view) (shown : list N -> option N) (E : env).
  Hypothesis HP : places draw shown.
  Hypothesis HE : env_ok E.
  Hypothesis HU : (32767 <= Z.of_nat (umax E))%Z.
  Hypothesis Hr : writes_single react E shown.

  Definition whears (w : wscr) (rs : list record) : Prop :=
    S_Portable.wcalm (t_in (g_t w)) /\ records (t_in (g_t w)) = rs /\ Forall no_resize rs.

  Lemma one_win_round d x w k rs : win_at shown E d w k -> whears w rs ->
    match win_round M react E draw x w with
    | Going x' w' => exists r rs', rs = r :: rs' /\ whears w' rs' /\
        match key_press_event r with
        | None => x' = x /\ sees w' = sees w /\ win_at shown E d w' k
        | Some key => x' = fst (react x key) /\ win_at shown E d w' (S_Canvas.draws E (snd (react x key)) k) /\
            wshown_at shown d w' (S_Canvas.draws E (snd (react x key)) k)
        end
    | Waiting x' w' => x' = x /\ w' = w /\ rs = []
    | Panicked => True
    | Unshown => True
    | Unread => False
    end.
  Proof.
    intros Hw (Hc & Hq & Hn). unfold win_round, gs_read_event, on_term, on_reader. destruct rs as [|r rs].
    - rewrite wread_nothing by assumption. cbn [obind]. auto.
    - destruct (P_Portable.read_one E _ r rs Hc Hq) as (i & e & R & C1 & R1 & K). rewrite R. cbn [obind].
      inversion Hn as [|? ? N1 N2]; subst.
      assert (Nz := read_not_size E _ _ _ _ R N1).
      set (w1 := with_gt (with_in i (g_t w)) w). assert (A1 : win_at shown E d w1 k) by exact (win_at_reader _ _ _ _ _ i Hw).
      assert (H1 : whears w1 (records i)) by (split; [exact C1|split; [reflexivity|exact N2]]).
      assert (Fo : forall (y : option event * list record), fst y = Some e -> follow_resize E y w1 = Ret w1 y).
      { intros [a b] Q. unfold follow_resize. cbn [fst] in *. rewrite Q. destruct e; try reflexivity. now destruct (Nz s). }
      rewrite Fo by reflexivity. clear Fo.
      destruct (key_press_event r) as [key|] eqn:Ek.
      + assert (Q : e = EKey key) by (apply K; reflexivity). subst e.
        destruct (screen_methods E (snd (react x key)) (g_sb w1)) as [b|] eqn:Em; [|exact I].
        assert (A2 := win_at_methods draw shown E HP HE d _ w1 k b A1 (Hr x key) Em).
        destruct (win_refresh draw E (with_gsb b w1)) as [w2 u2| | |] eqn:E2; try exact I.
        destruct (win_at_refresh draw shown E HP d _ _ _ _ A2 E2) as (A3 & S3).
        rewrite (P_WinMinimal.wrefresh_twice draw E _ _ _ E2).
        exists r, (records i). split; [reflexivity|]. rewrite Ek. split; [|auto].
        pose proof (tin_refresh draw E (with_gsb b w1)) as T. rewrite E2 in T. cbn [tin] in T. unfold whears. rewrite T. exact H1.
      + assert (Q : forall X (f : key -> X) (a b : X), match Some e with Some (EKey key) => f key | _ => a end = a).
        { intros. destruct e; try reflexivity. destruct (K k0) as [K1 _]. discriminate (K1 eq_refl). }
        assert (G : exists r0 rs', r :: records i = r0 :: rs' /\ whears w1 rs' /\
          match key_press_event r0 with
          | None => x = x /\ sees w1 = sees w /\ win_at shown E d w1 k
          | Some key => x = fst (react x key) /\ win_at shown E d w1 (S_Canvas.draws E (snd (react x key)) k) /\
              wshown_at shown d w1 (S_Canvas.draws E (snd (react x key)) k)
          end).
        { exists r, (records i). split; [reflexivity|]. split; [exact H1|]. rewrite Ek. auto. }
        destruct e; try exact G. destruct (K k0) as [K1 _]. discriminate (K1 eq_refl).
  Qed.

  Definition win_done (d : N) (x : M) (w : wscr) (k : S_Canvas.canvas) (rs : list record) (x' : M) (w' : wscr) (k' : S_Canvas.canvas) : Prop :=
    answers M react E (record_keys rs) x k = (x', k') /\
    ((record_keys rs = [] /\ sees w' = sees w) \/ wshown_at shown d w' k').

  Lemma record_keys_cons r rs : record_keys (r :: rs) = match key_press_event r with Some key => [key] | None => [] end ++ record_keys rs.
  Proof. reflexivity. Qed.
  Lemma wdone_cons d x w k r rs x1 w1 x' w' k' :
    match key_press_event r with
    | None => x1 = x /\ sees w1 = sees w /\ win_done d x1 w1 k rs x' w' k'
    | Some key => x1 = fst (react x key) /\ wshown_at shown d w1 (S_Canvas.draws E (snd (react x key)) k) /\
        win_done d x1 w1 (S_Canvas.draws E (snd (react x key)) k) rs x' w' k'
    end -> win_done d x w k (r :: rs) x' w' k'.
  Proof.
    unfold win_done. rewrite record_keys_cons. destruct (key_press_event r) as [key|]; cbn [app answers].
    - intros (-> & S & D1 & D2). split; [exact D1|]. right. destruct D2 as [(D2 & D3)|D2]; [|exact D2].
      rewrite D2 in D1. cbn [answers] in D1. injection D1 as _ <-. unfold wshown_at in *. now rewrite D3.
    - intros (-> & S & D1 & D2). rewrite <- S. auto.
  Qed.

  Lemma all_win_rounds d n : forall x w k rs, win_at shown E d w k -> whears w rs ->
    match rounds M (win_round M react E draw) n x w with
    | Going x' w' => exists now later k', rs = now ++ later /\ win_done d x w k now x' w' k' /\ whears w' later /\ length now = n
    | Waiting x' w' => exists k', win_done d x w k rs x' w' k'
    | Panicked => True
    | Unshown => True
    | Unread => False
    end.
  Proof.
    induction n as [|n IH]; intros x w k rs Hw Hh; cbn [rounds].
    - exists [], rs, k. split; [reflexivity|]. split; [split; [reflexivity|left; auto]|]. auto.
    - pose proof (one_win_round d x w k rs Hw Hh) as R. destruct (win_round M react E draw x w) as [x1 w1|x1 w1| | |]; [| |exact I|exact I|contradiction].
      + destruct R as (r & rs' & -> & H1 & H2).
        assert (X : exists k1, win_at shown E d w1 k1 /\ forall l x' w' k', win_done d x1 w1 k1 l x' w' k' -> win_done d x w k (r :: l) x' w' k').
        { destruct (key_press_event r) as [key|] eqn:Ek.
          - destruct H2 as (-> & A & S). eexists. split; [exact A|]. intros. eapply wdone_cons. rewrite Ek. split; [reflexivity|]. split; [exact S|]. assumption.
          - destruct H2 as (-> & S & A). exists k. split; [exact A|]. intros. eapply wdone_cons. rewrite Ek. split; [reflexivity|]. split; [exact S|]. assumption. }
        destruct X as (k1 & A & X). specialize (IH x1 w1 k1 rs' A H1).
        destruct (rounds M (win_round M react E draw) n x1 w1) as [x' w'|x' w'| | |]; [| |exact I|exact I|contradiction].
        * destruct IH as (now & later & k' & -> & D & H & L). exists (r :: now), later, k'. split; [reflexivity|]. split; [now apply X|].
          split; [exact H|]. cbn. now rewrite L.
        * destruct IH as (k' & D). exists k'. now apply X.
      + destruct R as (-> & -> & ->). exists k. split; [reflexivity|left; auto].
  Qed.
End WinRounds.

Lemma win_start_at draw shown E z w rs : places draw shown -> env_ok E -> (32767 <= Z.of_nat (umax E))%Z ->
  win_start E z w rs -> win_at shown E (t_default (g_t w)) w (S_Canvas.blank_canvas z) /\ whears w rs.
Proof.
  intros HP HE HU [(cfg & t & t1 & H1 & H2 & H3 & H4 & H5 & H6 & H7) Hc Hq Hn]. split; [|split; [exact Hc|split; [exact Hq|exact Hn]]].
  assert (W := WP_new draw shown E cfg t t1 w H1 H2 H3 H4 H5 H7). rewrite H6 in W.
  destruct (wpainted_history draw shown E HP HE _ _ _ HU W) as (I1 & I2 & I3 & I4).
  destruct (P_WinDraw.hist_inv draw shown E HP HE w HU I1) as (I & D).
  split; [exact I|]. split; [reflexivity|]. split; [exact D|]. split; [exact I2|]. split; [exact I3|exact I4].
Qed.

Lemma windows_interacts M (react : M -> key -> M * list smethod) draw shown E :
  places draw shown -> env_ok E -> (32767 <= Z.of_nat (umax E))%Z -> writes_single react E shown ->
  forall z w rs x n, win_start E z w rs ->
    match rounds M (win_round M react E draw) n x w with
    | Going x' w' =>
        exists now later k', rs = now ++ later /\ length now = n /\ answers M react E (record_keys now) x (S_Canvas.blank_canvas z) = (x', k') /\
          (record_keys now <> [] -> wdisplays shown (t_default (g_t w)) (sees w') k' /\
            v_cur (sees w') = Coord (Z.of_nat (column (S_Canvas.pen_goal k'))) (Z.of_nat (line (S_Canvas.pen_goal k'))))
    | Waiting x' w' =>
        exists k', answers M react E (record_keys rs) x (S_Canvas.blank_canvas z) = (x', k') /\
          (record_keys rs <> [] -> wdisplays shown (t_default (g_t w)) (sees w') k' /\
            v_cur (sees w') = Coord (Z.of_nat (column (S_Canvas.pen_goal k'))) (Z.of_nat (line (S_Canvas.pen_goal k'))))
    | Panicked => True
    | Unshown => True
    | Unread => False
    end.
Proof.
  intros HP HE HU Hr z w rs x n Hst. destruct (win_start_at draw shown E z w rs HP HE HU Hst) as [A H].
  pose proof (all_win_rounds M react draw shown E HP HE Hr _ n x w _ rs A H) as R.
  destruct (rounds M (win_round M react E draw) n x w) as [x' w'|x' w'| | |]; auto.
  - destruct R as (now & later & k' & -> & (D1 & D2) & _ & L). exists now, later, k'. split; [reflexivity|]. split; [exact L|]. split; [exact D1|].
    intros Hk. destruct D2 as [(D2 & _)|D2]; [contradiction|exact D2].
  - destruct R as (k' & D1 & D2). exists k'. split; [exact D1|]. intros Hk. destruct D2 as [(D2 & _)|D2]; [contradiction|exact D2].
Qed.

(** ** Both *)
Lemma typed_record_keys l rs : S_Portable.win_types l rs -> map EKey (record_keys rs) = map S_Portable.meant l.
Proof.
  induction 1 as [|l r rs Hb _ IH|p l r rs Hp _ IH]; [reflexivity| |]; rewrite record_keys_cons.
  - now rewrite (P_Portable.beside_no_key r Hb).
  - destruct (P_Portable.press_key p r Hp) as (k & K1 & K2). rewrite K2. cbn [app map]. now rewrite IH, K1.
Qed.
Lemma keys_ekeys l : keys (map EKey l) = l.
Proof. induction l as [|k l IH]; [reflexivity|]. cbn. now rewrite <- IH at 2. Qed.

Lemma both_interact M (react : M -> key -> M * list smethod) draw shown E C m K :
  places draw shown -> env_ok E -> (32767 <= Z.of_nat (umax E))%Z -> env_chars E -> S_Writer.caps_coherent C ->
  S_Tty.implements E C K -> S_UnixScreen.plain_caps C -> key_map m -> (forall c n, n <= grow C c n) -> writes_single react E shown ->
  forall z l t0 u acts w rs x n n' xu u' xw w',
    l <> [] -> Forall S_Portable.portable l -> Forall2 S_Portable.unix_press l acts -> S_Portable.win_types l rs ->
    unix_start E C m K z t0 u acts -> win_start E z w rs ->
    rounds M (unix_round M react E C m) n x u = Waiting xu u' ->
    rounds M (win_round M react E draw) n' x w = Waiting xw w' ->
    xu = xw /\ exists v, unix_sees K t0 u' = Some v /\ S_SamePicture.same_picture C shown (t_default (g_t w)) v (sees w').
Proof.
  intros HP HE HU HC Hco HK Hpc Hm Hg Hr z l t0 u acts w rs x n n' xu u' xw w' Hl Hpo Hpr Hty Hu Hw Ru Rw.
  assert (Hn : writes_narrow react E) by (intros y key; exact (single_narrow shown E _ (Hr y key))).
  pose proof (unix_interacts M react E C m K Hm Hg HE HC Hco HK Hpc Hn z t0 u acts x n Hu) as A. rewrite Ru in A.
  pose proof (windows_interacts M react draw shown E HP HE HU Hr z w rs x n' Hw) as B. rewrite Rw in B.
  assert (K1 : keys (map S_Typing.heard acts) = record_keys rs).
  { rewrite (P_Portable.unix_means_all l acts Hpr Hpo), <- (typed_record_keys l rs Hty). apply keys_ekeys. }
  assert (K2 : record_keys rs <> []).
  { intros Q. apply (f_equal (map EKey)) in Q. rewrite (typed_record_keys l rs Hty) in Q. destruct l; [congruence|discriminate]. }
  destruct A as (k & A1 & A2). destruct B as (k' & B1 & B2). rewrite K1, B1 in A1. injection A1 as <- <-. split; [reflexivity|].
  destruct A2 as (v & V1 & (D1 & D2) & V3); [congruence|]. destruct (B2 K2) as ((Q1 & Q2) & Q3).
  exists v. split; [exact V1|]. split; [congruence|]. split; [now rewrite V3|]. intros p Hp. rewrite D1 in *.
  destruct (Q2 p Hp) as (g & i & C1 & C2 & C3). do 4 eexists. split; [exact (D2 p Hp)|]. split; [exact C1|]. split; [exact C2|exact C3].
Qed.
