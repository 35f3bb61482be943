(** Proofs about interactive programs on a Unix terminal (C137). *)
From Verif Require Import Base M_Utf8 S_Utf8 M_Geom S_Geom M_Attr M_Seq S_Seq M_Signal M_Util M_Input S_Input M_Buf S_Buf M_Writer M_Prepare M_Reader
  S_Reader P_Reader P_Reader2 S_Typing P_Typing M_ScreenApi M_UnixScreen.
From Verif Require S_Prepare S_Tty S_Writer M_Screen S_Screen S_Canvas P_Canvas P_Canvas2 P_Screen3 P_Screen5 P_WholeScreen P_WholeScreen3 S_Prepare S_UnixScreen P_UnixScreen3 P_WinScreen P_UnixScreen2 P_UnixScreen P_WinCanvas.
From Verif Require Import S_Interact.
Local Open Scope nat_scope.

Section Reading.
  Variables (C : tcfg) (m : seq_map).
  Hypothesis Hm : key_map m.
  Hypothesis Hgrow : forall c n, n <= grow C c n.

  (** With nothing to come, a read waits. *)
  Lemma await_nothing l : forall s, Forall calm_tick l -> failing s = None -> conv_signal (last_sig s) = None ->
    queue s = [] -> inputs l = [] ->
    let r := await None l s in calm (fst r) /\ portions (fst r) = [] /\ (snd r = WNever \/ snd r = WEintr).
  Proof.
    induction l as [|t l IH]; intros s Hl Hf Hc Hq Hi; unfold await; fold await; rewrite Hf, Hq; cbn [fst snd].
    - unfold calm, portions. cbn. rewrite Hf, Hq. auto 10.
    - inversion Hl as [|? ? Ht Hl']; subst. destruct (happens_calm t s Ht Hf Hc) as [F1 F2].
      destruct t as [n| |bs| |e|r|]; cbn [calm_tick inputs] in *; try contradiction; try discriminate.
      + unfold calm, portions. cbn. rewrite Hf, Hq, Hi. auto 10.
      + exact (IH s Hl' F1 F2 Hq Hi).
      + exact (IH (happens (TWin r) s) Hl' F1 F2 Hq Hi).
      + exact (IH (happens TStep s) Hl' F1 F2 Hq Hi).
  Qed.
  Lemma wait_nothing fuel : forall s, calm s -> portions s = [] -> wait_loop fuel None s = Blocked.
  Proof.
    induction fuel as [|fuel IH]; intros s Hc Hp; [reflexivity|]. cbn [wait_loop]. unfold select.
    destruct (advance_calm s Hc) as ((_ & A2 & A3) & _). rewrite Hp in A2. unfold portions in A2. apply app_eq_nil in A2 as [A2 A4].
    destruct (await_nothing (time (advance s)) (advance s) (proj2 (proj2 A3)) (proj1 A3) (proj1 (proj2 A3)) A2 A4) as (I1 & I2 & I3).
    destruct (await None (time (advance s)) (advance s)) as [s1 w]. cbn [fst snd] in *. destruct I3 as [->| ->]; [reflexivity|].
    unfold get_signal. destruct (advance_calm s1 I1) as ((_ & B2 & B3) & _). rewrite (proj1 (proj2 B3)).
    apply IH; [exact B3|congruence].
  Qed.
  Lemma read_nothing s : calm s -> portions s = [] -> inbuf s = [] -> read_event C m None s = Blocked.
  Proof.
    intros Hc Hp Hi. unfold read_event, try_read. rewrite Hi. cbn [obind]. unfold read_into_buffer. rewrite Hi.
    set (cap := if (_ <=? _) then incap s else _). clearbody cap. unfold read_input, take_signal.
    assert (Hc0 : calm (with_inbuf [] 0 s)) by exact Hc. assert (Hp0 : portions (with_inbuf [] 0 s) = []) by exact Hp.
    assert (Hi0 : inbuf (with_inbuf [] 0 s) = []) by reflexivity. set (s0 := with_inbuf [] 0 s) in *. clearbody s0.
    destruct (advance_calm s0 Hc0) as ((A1 & A2 & A3) & _). rewrite (proj1 (proj2 A3)).
    set (s1 := with_last 0 (advance s0)).
    assert (C1 : calm s1) by (split; [apply A3|split; [reflexivity|apply A3]]).
    assert (P1 : portions s1 = []) by (unfold s1; rewrite <- Hp0; exact A2).
    assert (I1 : inbuf s1 = []). { destruct A1 as (_ & _ & _ & _ & _ & _ & A1 & _). unfold s1. cbn [inbuf with_last]. congruence. }
    clearbody s1. unfold wait_event, get_signal. destruct (advance_calm s1 C1) as ((B1 & B2 & B3) & _). rewrite (proj1 (proj2 B3)).
    assert (I2 : inbuf (advance s1) = []). { destruct B1 as (_ & _ & _ & _ & _ & _ & B1 & _). congruence. }
    unfold peek. rewrite I2. change (peek_event [] m) with (Val PNone). cbn [obind].
    rewrite wait_nothing; [reflexivity|exact B3|congruence].
  Qed.

  (** A portion is read; the output is left alone. *)
  Lemma read_portion_wr s b q : calm s -> portions s = b :: q -> length b <= 128 ->
    try_read m s = Ret s None ->
    exists s', read_event C m None s = try_read m s' /\ inbuf s' = inbuf s ++ b /\ portions s' = q /\ calm s' /\ wr s' = wr s.
  Proof.
    intros Hc Hp Hl Ht. unfold read_event. rewrite Ht. cbn [obind]. unfold read_into_buffer.
    set (cap := if (_ <=? _) then incap s else _).
    destruct (read_input_calm m (cap - length (inbuf s)) (with_inbuf [] 0 s) b q) as (s1 & E & V & P1 & C1); auto.
    { unfold cap. destruct (Nat.leb_spec (length (inbuf s) + 128) (incap s)); [lia|].
      pose proof (Hgrow (incap s) (length (inbuf s) + 128)). lia. }
    rewrite E. cbn [obind]. eexists. split; [reflexivity|]. split; [reflexivity|]. split; [exact P1|]. split; [exact C1|].
    destruct V as (_ & _ & V & _). exact V.
  Qed.

  (** What the user has done and the program has not been told. *)
  Definition hears (s : sys) (l : list act) : Prop :=
    exists now held later, l = now ++ later /\ inbuf s = all_sent now ++ held /\ legible m now held /\ in_part held /\
      arriving m held (portions s) later /\ calm s.

  Lemma hears_next s a now held later s1 : legible m (a :: now) held -> in_part held -> arriving m held (portions s) later -> calm s ->
    inbuf s = all_sent (a :: now) ++ held -> s1 = with_inbuf (all_sent now ++ held) (incap s) s ->
    try_read m s = Ret s1 (Some (heard a)) /\ hears s1 (now ++ later) /\ portions s1 = portions s /\ wr s1 = wr s.
  Proof.
    intros [Ha Hl] Hh Har Hc Hi ->. cbn [all_sent flat_map] in Hi. rewrite <- app_assoc in Hi. fold (all_sent now) in Hi.
    pose proof (sent_nonempty m Hm _ _ Ha) as Hn. split.
    - unfold try_read. rewrite Hi. destruct (sent a ++ all_sent now ++ held) eqn:E; [destruct (sent a); discriminate||congruence|]. rewrite <- E in *.
      unfold peek. rewrite Hi, (peek_clear m Hm a _ Ha). cbn [obind]. rewrite Hi.
      rewrite skipn_app, skipn_all, Nat.sub_diag. reflexivity.
    - split; [|split; reflexivity]. exists now, held, later. auto 10.
  Qed.

  Lemma hears_read s l : hears s l ->
    (l = [] /\ read_event C m None s = Blocked) \/
    (exists s', read_event C m None s = Ret s' None /\ hears s' l /\ length (portions s') < length (portions s) /\ wr s' = wr s) \/
    (exists s' a l', l = a :: l' /\ read_event C m None s = Ret s' (Some (heard a)) /\ hears s' l' /\
       length (portions s') <= length (portions s) /\ wr s' = wr s).
  Proof.
    intros (now & held & later & -> & Hi & Hl & Hh & Har & Hc). destruct now as [|a now].
    - cbn [app all_sent flat_map] in *. remember (portions s) as ps eqn:Hps. destruct Har as [|held b l held' ps l' Hb Hlen Hs Hl' Hh' Har].
      + left. split; [reflexivity|]. now apply read_nothing.
      + assert (Ht : try_read m s = Ret s None) by (apply try_truncated; rewrite Hi; destruct Hh; auto).
        destruct (read_portion_wr s b ps Hc (eq_sym Hps) Hlen Ht) as (s1 & E1 & I1 & P1 & C1 & W1). rewrite Hi, Hs in I1.
        destruct l as [|a l].
        * right. left. exists s1. rewrite E1. split.
          { apply try_truncated. cbn in I1. rewrite I1. destruct Hh'; auto. }
          split; [|split; [rewrite P1; cbn; lia|exact W1]]. exists [], held', l'. rewrite P1. auto 10.
        * right. right. rewrite <- P1 in Har.
          destruct (hears_next s1 a l held' l' _ Hl' Hh' Har C1 I1 eq_refl) as (T & H & P & W).
          eexists _, a, (l ++ l'). split; [reflexivity|]. rewrite E1, T. split; [reflexivity|]. split; [exact H|].
          rewrite P, P1, W. split; [cbn; lia|exact W1].
    - right. right. destruct (hears_next s a now held later _ Hl Hh Har Hc Hi eq_refl) as (T & H & P & W).
      eexists _, a, (now ++ later). split; [reflexivity|]. unfold read_event. rewrite T. split; [reflexivity|]. split; [exact H|].
      rewrite P, W. split; [lia|reflexivity].
  Qed.

  Lemma hears_writer s l w : hears s l -> hears (with_wr w s) l.
  Proof. intros H. exact H. Qed.
  Lemma heard_follow E a u : follow E (Some (heard a)) u = Val u.
  Proof. destruct a; reflexivity. Qed.
End Reading.

Section Unix.
  Variables (M : Type) (react : M -> key -> M * list smethod).
  Variables (E : env) (C : tcfg) (m : seq_map) (K : S_Tty.tty).
  Hypothesis Hm : key_map m.
  Hypothesis Hgrow : forall c n, n <= grow C c n.
  Hypothesis HE : env_ok E.
  Hypothesis HC : env_chars E.
  Hypothesis Hco : S_Writer.caps_coherent C.
  Hypothesis HK : S_Tty.implements E C K.
  Hypothesis Hr : writes_narrow react E.

  Definition unix_at (t0 : S_Tty.tstate K) (u : uscr) (k : S_Canvas.canvas) : Prop :=
    S_Canvas.painted E C K (out_side u) (S_Tty.feed K t0 (S_Writer.stream (wr (u_sys u)))) k.

  Lemma methods_painted ms : forall s t k b, S_Canvas.painted E C K s t k -> S_Buf.no_wide E (concat (map S_Canvas.method_text ms)) ->
    screen_methods E ms (M_Screen.sb s) = Val b -> S_Canvas.painted E C K (M_Screen.with_sb b s) t (S_Canvas.draws E ms k).
  Proof.
    induction ms as [|o ms IH]; intros s t k b H Hn Hs; cbn [screen_methods S_Canvas.draws map concat] in *.
    - injection Hs as <-. destruct s; exact H.
    - apply Forall_app in Hn as [N1 N2]. destruct (screen_method E o (M_Screen.sb s)) as [b1|] eqn:E1; [|discriminate].
      exact (IH _ _ _ _ (S_Canvas.Pt_method E C K _ _ _ _ _ H N1 E1) N2 Hs).
  Qed.

  Definition shown_at (t0 : S_Tty.tstate K) (u : uscr) (k : S_Canvas.canvas) : Prop :=
    exists v, unix_sees K t0 u = Some v /\ S_Canvas.displays C v k /\ S_Tty.vcur v = S_Canvas.pen_goal k.

  (** One round. *)
  Lemma one_round t0 x u k l : unix_at t0 u k -> hears m (u_sys u) l ->
    match unix_round M react E C m x u with
    | Going x' u' =>
        (x' = x /\ unix_sees K t0 u' = unix_sees K t0 u /\ unix_at t0 u' k /\
         ((hears m (u_sys u') l /\ length (portions (u_sys u')) < length (portions (u_sys u))) \/
          (exists a l', l = a :: l' /\ keys [heard a] = [] /\ hears m (u_sys u') l' /\ length (portions (u_sys u')) <= length (portions (u_sys u))))) \/
        (exists a l' key, l = a :: l' /\ heard a = EKey key /\ hears m (u_sys u') l' /\ length (portions (u_sys u')) <= length (portions (u_sys u)) /\
           x' = fst (react x key) /\ unix_at t0 u' (S_Canvas.draws E (snd (react x key)) k) /\
           shown_at t0 u' (S_Canvas.draws E (snd (react x key)) k))
    | Waiting x' u' => x' = x /\ u' = u /\ l = []
    | Panicked => True
    | Unshown => True
    | Unread => False
    end.
  Proof.
    intros Hu Hl. unfold unix_round.
    destruct (hears_read C m Hm Hgrow _ _ Hl) as [(-> & ->)|[(s' & -> & H1 & H2 & H3)|(s' & a & l' & -> & -> & H1 & H2 & H3)]]; [auto| |].
    - cbn [follow]. left. split; [reflexivity|]. unfold unix_sees, unix_at in *. cbn [u_sys with_sys]. rewrite H3. split; [reflexivity|].
      split; [|left; auto]. unfold out_side in *. cbn [u_sb u_clr u_real u_sys with_sys]. rewrite H3. exact Hu.
    - rewrite heard_follow.
      assert (Hu' : unix_at t0 (with_sys s' u) k).
      { unfold unix_at, out_side in *. cbn [u_sb u_clr u_real u_sys with_sys]. rewrite H3. exact Hu. }
      assert (Hq : unix_sees K t0 (with_sys s' u) = unix_sees K t0 u) by (unfold unix_sees; cbn [u_sys with_sys]; now rewrite H3).
      assert (Hk : keys [heard a] = [] \/ exists key, heard a = EKey key) by (destruct a; cbn; eauto).
      destruct Hk as [Hk|(key & Hk)].
      + assert (Hx : forall X (f : key -> X) y, match Some (heard a) with Some (EKey key) => f key | _ => y end = y) by (destruct a; try discriminate; reflexivity).
        rewrite Hx. left. split; [reflexivity|]. split; [exact Hq|]. split; [exact Hu'|]. right. exists a, l'. auto 10.
      + rewrite Hk. set (u1 := with_sys s' u) in *.
        destruct (screen_methods E (snd (react x key)) (u_sb u1)) as [b|] eqn:Em; [|exact I].
        assert (P1 := methods_painted _ (out_side u1) _ _ b Hu' (Hr x key) Em).
        set (sc := M_Screen.with_sb b (out_side u1)) in *.
        destruct (M_Screen.screen_refresh E C sc) as [y v| | |] eqn:Er; try exact I.
        right. exists a, l', key. split; [reflexivity|]. split; [exact Hk|].
        assert (R : M_Screen.refresh E C sc = Ret y tt).
        { unfold M_Screen.screen_refresh in Er. destruct (M_Screen.refresh E C sc) as [y1 []|y1 e| |] eqn:R; try discriminate.
          - destruct (P_Screen3.refresh_and_drop E C _ _ _ R) as [_ D].
            assert (D2 := P_Screen3.refresh_twice E C _ _ _ R). destruct (P_Screen3.refresh_and_drop E C _ _ _ D2) as [_ D3].
            rewrite D3 in Er. injection Er as <- <-. reflexivity.
          - destruct (M_Screen.s_guard_drop E C y1); discriminate. }
        split; [exact H1|]. split; [exact H2|]. split; [reflexivity|].
        assert (G : exists z, S_Writer.stream (M_Screen.wr y) = S_Writer.stream (M_Screen.wr sc) ++ z).
        { destruct (P_Canvas.painted_history E HE C K HC Hco HK _ _ _ P1) as [Hh _].
          destruct (P_Screen5.minimal_history E C K HE HC Hco HK _ _ _ _ Hh R) as (z & Z & _). now exists z. }
        destruct G as (z & G). assert (P2 := S_Canvas.Pt_refresh E C K _ _ _ _ _ P1 R G).
        destruct (P_Canvas.painting_shows E HE C K HC Hco HK _ _ _ P1) as (_ & _ & S).
        destruct (S y z R G) as (_ & v1 & V1 & V2 & V3).
        assert (W : S_Tty.feed K (S_Tty.feed K t0 (S_Writer.stream (wr (u_sys u1)))) z =
          S_Tty.feed K t0 (S_Writer.stream (wr (u_sys (with_out y u1))))).
        { rewrite <- (S_Tty.feed_app _ _ _ HK). f_equal. symmetry. exact G. }
        rewrite W in P2, V1. split.
        * unfold unix_at. replace (out_side (with_out y u1)) with y by (destruct y; reflexivity). exact P2.
        * exists v1. split; [exact V1|]. split; [exact V2|exact V3].
  Qed.

  Definition unix_done (t0 : S_Tty.tstate K) (x : M) (u : uscr) (k : S_Canvas.canvas) (l : list act) (x' : M) (u' : uscr) (k' : S_Canvas.canvas) : Prop :=
    answers M react E (keys (map heard l)) x k = (x', k') /\
    ((keys (map heard l) = [] /\ unix_sees K t0 u' = unix_sees K t0 u) \/ shown_at t0 u' k').

  Lemma keys_cons e es : keys (e :: es) = keys [e] ++ keys es.
  Proof. unfold keys. cbn [flat_map]. now rewrite app_nil_r. Qed.

  Lemma done_quiet t0 x u k a l x' u1 u' k' : keys [heard a] = [] -> unix_sees K t0 u1 = unix_sees K t0 u ->
    unix_done t0 x u1 k l x' u' k' -> unix_done t0 x u k (a :: l) x' u' k'.
  Proof. intros H1 H2 (D1 & D2). unfold unix_done. cbn [map]. rewrite keys_cons, H1, <- H2. cbn [app]. auto. Qed.
  Lemma done_key t0 x u k a l key x' u1 u' k' : heard a = EKey key ->
    shown_at t0 u1 (S_Canvas.draws E (snd (react x key)) k) ->
    unix_done t0 (fst (react x key)) u1 (S_Canvas.draws E (snd (react x key)) k) l x' u' k' ->
    unix_done t0 x u k (a :: l) x' u' k'.
  Proof.
    intros H1 H2 (D1 & D2). unfold unix_done. cbn [map]. rewrite H1, keys_cons. cbn [keys flat_map app answers]. split; [exact D1|].
    right. destruct D2 as [(D2 & D3)|D2]; [|exact D2]. fold (keys (map heard l)) in D1. rewrite D2 in D1. cbn [answers] in D1. injection D1 as _ <-.
    unfold shown_at in *. now rewrite D3.
  Qed.

  Lemma all_rounds t0 n : forall x u k l, unix_at t0 u k -> hears m (u_sys u) l ->
    match rounds M (unix_round M react E C m) n x u with
    | Going x' u' => exists now later k', l = now ++ later /\ unix_done t0 x u k now x' u' k' /\ unix_at t0 u' k' /\ hears m (u_sys u') later /\
        n + length later + length (portions (u_sys u')) <= length l + length (portions (u_sys u))
    | Waiting x' u' => exists k', unix_done t0 x u k l x' u' k' /\ unix_at t0 u' k' /\ hears m (u_sys u') []
    | Panicked => True
    | Unshown => True
    | Unread => False
    end.
  Proof.
    induction n as [|n IH]; intros x u k l Hu Hl; cbn [rounds].
    - exists [], l, k. split; [reflexivity|]. split; [split; [reflexivity|left; auto]|]. split; [exact Hu|]. split; [exact Hl|]. cbn; lia.
    - pose proof (one_round t0 x u k l Hu Hl) as R. destruct (unix_round M react E C m x u) as [x1 u1|x1 u1| | |]; [| |exact I|exact I|contradiction].
      + destruct R as [(-> & S & A & [(H1 & H2)|(a & l' & -> & H0 & H1 & H2)])|(a & l' & key & -> & H0 & H1 & H2 & -> & A & S)].
        * specialize (IH x u1 k l A H1). destruct (rounds M (unix_round M react E C m) n x u1) as [x' u'|x' u'| | |]; [| |exact I|exact I|contradiction].
          -- destruct IH as (now & later & k' & I1 & I2 & I3 & I4 & I5). exists now, later, k'. unfold unix_done in *. rewrite <- S.
             repeat (split; [assumption|]). lia.
          -- destruct IH as (k' & I2 & I3). exists k'. unfold unix_done in *. rewrite <- S. auto.
        * specialize (IH x u1 k l' A H1). destruct (rounds M (unix_round M react E C m) n x u1) as [x' u'|x' u'| | |]; [| |exact I|exact I|contradiction].
          -- destruct IH as (now & later & k' & -> & I2 & I3 & I4 & I5). exists (a :: now), later, k'. split; [reflexivity|].
             split; [exact (done_quiet _ _ _ _ _ _ _ _ _ _ H0 S I2)|]. repeat (split; [assumption|]). cbn [length app]. lia.
          -- destruct IH as (k' & I2 & I3). exists k'. split; [exact (done_quiet _ _ _ _ _ _ _ _ _ _ H0 S I2)|exact I3].
        * specialize (IH (fst (react x key)) u1 _ l' A H1).
          destruct (rounds M (unix_round M react E C m) n (fst (react x key)) u1) as [x' u'|x' u'| | |]; [| |exact I|exact I|contradiction].
          -- destruct IH as (now & later & k' & -> & I2 & I3 & I4 & I5). exists (a :: now), later, k'. split; [reflexivity|].
             split; [exact (done_key _ _ _ _ _ _ _ _ _ _ _ H0 S I2)|]. repeat (split; [assumption|]). cbn [length app]. lia.
          -- destruct IH as (k' & I2 & I3). exists k'. split; [exact (done_key _ _ _ _ _ _ _ _ _ _ _ H0 S I2)|exact I3].
      + destruct R as (-> & -> & ->). exists k. split; [split; [reflexivity|left; auto]|]. auto.
  Qed.
End Unix.

Section Start.
  Variables (E : env) (C : tcfg) (m : seq_map) (K : S_Tty.tty).
  Hypothesis HE : env_ok E.
  Hypothesis HC : env_chars E.
  Hypothesis Hco : S_Writer.caps_coherent C.
  Hypothesis HK : S_Tty.implements E C K.
  Hypothesis Hpc : S_UnixScreen.plain_caps C.

  Lemma start_painted z t0 u acts : unix_start E C m K z t0 u acts -> unix_at E C K t0 u (S_Canvas.blank_canvas z).
  Proof.
    intros [(cfg & s0 & s1 & v0 & Hw & Hz & Hs & Hl & Hv & Ha & Hnew) _ _ _ _]. revert Hnew. unfold unix_screen_new.
    pose proof (P_UnixScreen2.size_wr s0) as H1. pose proof (P_WholeScreen.calmly_size E C K HK s0 Hs) as S1. unfold P_WholeScreen.calmly in S1.
    destruct (term_size s0) as [sa za|sa e| |]; [|destruct (terminal_drop C sa); discriminate|discriminate|discriminate].
    destruct H1 as (Hwa & wa & ->). rewrite Hw in Hwa. injection Hwa as <-. cbn [S_Prepare.ends] in S1.
    pose proof (P_WholeScreen.calmly_prepare E C K HK Hpc cfg _ (proj1 S1)) as S2. unfold P_WholeScreen.calmly in S2.
    pose proof (P_WholeScreen3.wins_prepare C cfg (M_Prepare.with_wr wa s0)) as W. unfold P_WholeScreen3.wins in W.
    destruct (prepare C cfg (M_Prepare.with_wr wa s0)) as [sp st|sp e| |]; [|destruct (terminal_drop C sp); discriminate|discriminate|discriminate].
    cbn [S_Prepare.ends] in S2, W. cbn [win M_Prepare.with_wr] in W. rewrite W, Hw.
    destruct (sb_new E z) as [b|] eqn:Eb; [|discriminate].
    assert (S := P_WholeScreen.still_trans E C K HK _ _ _ S1 S2). destruct S as (T1 & T2 & y & T3 & T4).
    destruct (locked (enter_screen C (inr z)) sp) as [sl ul|sl e| |] eqn:El; try discriminate.
    2:{ destruct (leave C st sl) as [s3 e3|s3 e3| |]; try discriminate. destruct (terminal_drop C s3); discriminate. }
    intros [= <- <-]. unfold unix_at. cbn [out_side u_sb u_clr u_real u_sys].
    assert (Hn : M_Screen.screen_new E C z (inr z) (wr sp) = Ret (M_Screen.Scr b false (Cursor 0 0) (wr sl)) tt).
    { unfold M_Screen.screen_new. rewrite Eb. unfold locked, with_guard, on_wr in El. unfold M_Screen.on_writer. cbn [M_Screen.wr].
      destruct (enter_screen C (inr z) (wr sp)) as [w2 u2|w2 e2| |]; try discriminate.
      - cbn [wr M_Prepare.with_wr M_Screen.wr M_Screen.with_wr] in *. destruct (guard_drop w2) as [w3 []|w3 e3| |]; try discriminate.
        cbn [obind] in El. injection El as <- _. reflexivity.
      - cbn [wr M_Prepare.with_wr] in *. destruct (guard_drop w2) as [w3 []|w3 e3| |]; discriminate. }
    exact (S_Canvas.Pt_new E C K z (wr sp) _ t0 v0 Hz T1 ltac:(rewrite T3, (S_Tty.feed_app _ _ _ HK); now apply T4) Hv ltac:(now rewrite T2) Hn).
  Qed.

  Lemma start_hears z t0 u acts : unix_start E C m K z t0 u acts -> hears m (u_sys u) acts.
  Proof.
    intros [_ Hc _ Hi Ht]. exists [], [], acts. split; [reflexivity|]. split; [exact Hi|]. split; [exact I|]. split; [now left|]. auto.
  Qed.
End Start.

Lemma unix_interacts M (react : M -> key -> M * list smethod) E C m K :
  key_map m -> (forall c n, n <= grow C c n) -> env_ok E -> env_chars E -> S_Writer.caps_coherent C ->
  S_Tty.implements E C K -> S_UnixScreen.plain_caps C -> writes_narrow react E ->
  forall z t0 u acts x n, unix_start E C m K z t0 u acts ->
    match rounds M (unix_round M react E C m) n x u with
    | Going x' u' =>
        (n <= length acts + length (portions (u_sys u)))%nat /\
        exists now later k', acts = now ++ later /\ answers M react E (keys (map heard now)) x (S_Canvas.blank_canvas z) = (x', k') /\
          (keys (map heard now) <> [] -> exists v, unix_sees K t0 u' = Some v /\ S_Canvas.displays C v k' /\ S_Tty.vcur v = S_Canvas.pen_goal k')
    | Waiting x' u' =>
        exists k', answers M react E (keys (map heard acts)) x (S_Canvas.blank_canvas z) = (x', k') /\
          (keys (map heard acts) <> [] -> exists v, unix_sees K t0 u' = Some v /\ S_Canvas.displays C v k' /\ S_Tty.vcur v = S_Canvas.pen_goal k')
    | Panicked => True
    | Unshown => True
    | Unread => False
    end.
Proof.
  intros Hm Hg HE HC Hco HK Hpc Hr z t0 u acts x n Hst.
  pose proof (all_rounds M react E C m K Hm Hg HE HC Hco HK Hr t0 n x u _ acts (start_painted E C m K HK Hpc z t0 u acts Hst) (start_hears E C m K z t0 u acts Hst)) as R.
  destruct (rounds M (unix_round M react E C m) n x u) as [x' u'|x' u'| | |]; auto.
  - destruct R as (now & later & k' & -> & (D1 & D2) & _ & _ & L). split; [lia|]. exists now, later, k'. split; [reflexivity|]. split; [exact D1|].
    intros Hk. destruct D2 as [(D2 & _)|D2]; [contradiction|exact D2].
  - destruct R as (k' & (D1 & D2) & _). exists k'. split; [exact D1|]. intros Hk. destruct D2 as [(D2 & _)|D2]; [contradiction|exact D2].
Qed.
