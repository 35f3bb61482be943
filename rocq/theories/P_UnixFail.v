(** Refreshes of a Unix screen that fail: what they cost. *)
From Verif Require Import Base M_Utf8 S_Utf8 M_Geom S_Geom M_Attr M_Buf S_Buf M_Writer S_Tty S_Writer
  M_Screen S_Screen P_Buf P_Buf2 P_Buf3 P_Buf4 P_Writer P_Attr P_Writer2 P_Writer3 P_Screen P_Screen2 P_Screen5
  M_Api M_ScreenApi S_Canvas P_Canvas S_UnixFail.
From Verif Require P_Geom.

(** ** Control strings never fail for want of the OS *)
Definition quiet (r : wres) : Prop := match r with Fail _ e => ~ io_error e | _ => True end.

Lemma quiet_bind r k : quiet r -> (forall w u, quiet (k w u)) -> quiet (obind r k).
Proof. destruct r as [w u|w e| |]; cbn; auto. Qed.

Section Quiet.
  Variable C : tcfg.

  Lemma quiet_expand e ps w : quiet (expand C e ps w).
  Proof. unfold expand. destruct (e (wctx w) ps) as [[bs k] []]; cbn; auto. Qed.
  Lemma quiet_opt c ps w : quiet (expand_opt C c ps w).
  Proof. unfold expand_opt. destruct (info C c); [apply quiet_expand|exact I]. Qed.
  Lemma quiet_req c ps w : quiet (expand_req C c ps w).
  Proof. unfold expand_req. destruct (info C c); [apply quiet_expand|cbn; auto]. Qed.
  Lemma quiet_when b f w : (forall w, quiet (f w)) -> quiet (when b f w).
  Proof. intros H. destruct b; [apply H|exact I]. Qed.
  Lemma quiet_clear w : quiet (clear_attributes C w).
  Proof. unfold clear_attributes. destruct (attrs_eqb _ _); [exact I|apply quiet_opt]. Qed.
  Lemma quiet_add s w : quiet (add_style C s w).
  Proof.
    unfold add_style. repeat (apply quiet_bind; [apply quiet_when; intros; apply quiet_opt|intros ? _]). exact I.
  Qed.

  Lemma quiet_deep fuel : (forall c w, quiet (set_fg C fuel c w)) /\ (forall c w, quiet (set_bg C fuel c w)) /\
    (forall s w, quiet (remove_style C fuel s w)) /\ (forall s w, quiet (set_style C fuel s w)) /\
    (forall w, quiet (clear_fg C fuel w)) /\ (forall w, quiet (clear_bg C fuel w)).
  Proof.
    induction fuel as [|fuel (I1 & I2 & I3 & I4 & I5 & I6)]; [repeat split; intros; exact I|].
    split; [|split; [|split; [|split; [|split]]]].
    - intros c w. cbn [set_fg]. destruct (ocolor_eqb _ _); [exact I|].
      apply quiet_bind; [destruct c; [apply quiet_opt|apply I5]|intros; exact I].
    - intros c w. cbn [set_bg]. destruct (ocolor_eqb _ _); [exact I|].
      apply quiet_bind; [destruct c; [apply quiet_opt|apply I6]|intros; exact I].
    - intros s w. cbn [remove_style]. destruct (style_intersects _ _).
      + apply quiet_bind; [apply quiet_clear|intros w1 _]. apply quiet_bind; [apply quiet_add|intros w2 _].
        apply quiet_bind; [apply I1|intros w3 _; apply I2].
      + do 2 (apply quiet_bind; [apply quiet_when; intros; apply quiet_opt|intros ? _]). exact I.
    - intros s w. cbn [set_style]. destruct (style_intersects _ _).
      + apply quiet_bind; [apply quiet_clear|intros w1 _]. apply quiet_bind; [apply I1|intros w2 _].
        apply quiet_bind; [apply I2|intros w3 _; apply quiet_add].
      + apply quiet_bind; [apply quiet_add|intros w1 _; apply I3].
    - intros w. cbn [clear_fg]. apply quiet_bind; [apply quiet_clear|intros w1 _].
      apply quiet_bind; [apply I2|intros w2 _; apply I4].
    - intros w. cbn [clear_bg]. apply quiet_bind; [apply quiet_clear|intros w1 _].
      apply quiet_bind; [apply I1|intros w2 _; apply I4].
  Qed.

  Lemma quiet_set_attrs a w : quiet (set_attrs C a w).
  Proof.
    unfold set_attrs. destruct (quiet_deep depth) as (I1 & I2 & I3 & I4 & _).
    apply quiet_bind; [apply quiet_when; apply quiet_clear|intros w1 _].
    apply quiet_bind; [apply I4|intros w2 _]. apply quiet_bind; [apply I1|intros w3 _; apply I2].
  Qed.

  Lemma quiet_move p w : quiet (move_cursor C p w).
  Proof.
    unfold move_cursor. destruct (info C CursorAddress), (info C CursorHome); try destruct (cursor_eqb _ _);
      try apply quiet_expand; cbn; auto.
  Qed.

  Lemma quiet_on f s s' e : (forall w, quiet (f w)) -> on_writer f s = Fail s' e -> ~ io_error e.
  Proof.
    intros H Hf. unfold on_writer in Hf. specialize (H (wr s)). destruct (f (wr s)) as [| w e0| |]; try discriminate Hf.
    injection Hf as _ <-. exact H.
  Qed.

  Lemma quiet_s_move p s s' e : s_move_cursor C p s = Fail s' e -> ~ io_error e.
  Proof.
    unfold s_move_cursor. destruct (cursor_eqb _ _); [discriminate|].
    destruct (on_writer (move_cursor C p) s) as [| s1 e1| |] eqn:E1; cbn [obind]; try discriminate.
    intros H. injection H as _ <-. eapply quiet_on; [|exact E1]. intros; apply quiet_move.
  Qed.
End Quiet.

Lemma bind_fail {S E A B} (m : out S E A) (k : S -> A -> out S E B) s e : obind m k = Fail s e ->
  m = Fail s e \/ exists s1 a, m = Ret s1 a /\ k s1 a = Fail s e.
Proof. destruct m as [s1 a|s1 e1| |]; cbn; intros H; try discriminate; [right; eauto|left; now injection H as -> ->]. Qed.

Definition plus (X : nat -> cell -> Prop) (i : nat) (c : cell) : nat -> cell -> Prop :=
  fun j d => X j d \/ (j = i /\ d = c).

Section Fail.
  Variable E : env.
  Variable C : tcfg.
  Hypothesis HE : env_ok E.
  Hypothesis HC : env_chars E.
  Notation goes := (goes E C).
  Notation drawn c := (VC (ctext c) (shown_attrs C (cattrs c))).

  Lemma slim_half b : buf_ok E b -> slim E b -> (forall j, half E b j = false) /\ wides_fit E b.
  Proof.
    intros Hb Hs. assert (Hw := narrow_no_wide E b Hb Hs). split; [intros [|j]; [reflexivity|apply Hw]|].
    intros j Hj. rewrite Hw in Hj. discriminate.
  Qed.

  (** The terminal against what the screen remembers to have drawn, positions in [X] left out. *)
  Record drawing_but (X : nat -> cell -> Prop) (s : scr) (v : view) : Prop := {
    d_size : vsize v = bsize (sb s);
    d_len : length (vcells v) = total (bsize (sb s));
    d_attr : vattrs v = shown_attrs C (wat (wr s));
    d_whole : forall j, nth_error (vcells v) j <> Some VTrail;
    d_back : forall j k, nth_error (back (sb s)) j = Some k -> ctext k <> [] ->
      X j k \/ nth_error (vcells v) j = Some (drawn k);
    d_cur : vcur v = real s \/ (vcur v = Cursor 0 0 /\ all_invalid (sb s))
  }.

  (** The cursor goes to the next cell to be drawn, and its attributes are set. *)
  Lemma ready_goes X s i c s1 s2 u1 u2 : frame E s -> slim E (sb s) ->
    i < total (bsize (sb s)) -> cell_at (sb s) i = Some c -> ctext c <> [] ->
    (all_invalid (sb s) -> i = 0) ->
    let s0 := with_sb (with_back (sb s) (upd i c (back (sb s)))) s in
    s_move_cursor C (cell_pos (bsize (sb s)) i) s0 = Ret s1 u1 ->
    on_writer (set_attrs C (cattrs c)) s1 = Ret s2 u2 ->
    sb s2 = sb s0 /\ clr s2 = clr s /\ real s2 = cell_pos (bsize (sb s)) i /\ wat (wr s2) = cattrs c /\
    goes s s2 (drawing_but X s) (fun _ v' => drawing_but (plus X i c) s2 v' /\ vcur v' = real s2 /\
      forall j k, j <> i -> nth_error (back (sb s2)) j = Some k -> ctext k <> [] ->
        X j k \/ nth_error (vcells v') j = Some (drawn k)).
  Proof.
    intros [F1 F2 F3] Hsl Hi Hc Hne Hz s0 H1 H2.
    assert (Hcol : 0 < columns (bsize (sb s))) by apply F2.
    destruct (move_goes E C _ _ _ _ (F3 : whole_writes (script (wr s0))) H1) as (M1 & M2 & M3 & M4 & M5).
    destruct (set_attrs_goes E C _ _ _ _ (proj1 M5) H2) as (A1 & A2 & A3 & A4 & A5).
    assert (Hs2 : sb s2 = sb s0) by congruence.
    assert (Hr2 : real s2 = cell_pos (bsize (sb s)) i) by congruence.
    assert (Hc2 : clr s2 = clr s) by (rewrite A2, M2; reflexivity).
    do 4 (split; [assumption|]).
    assert (Hlb : i < length (back (sb s))) by (destruct F1 as (_ & _ & Hl & _); lia).
    set (pos := cell_pos (bsize (sb s)) i) in *.
    assert (Hpos : in_bounds pos (bsize (sb s))) by now apply cell_pos_in.
    destruct M5 as (_ & x1 & X1 & G1). destruct A5 as (W2 & x2 & X2 & G2).
    split; [exact W2|]. exists (x1 ++ x2). split.
    { rewrite X2, X1. cbn [wr s0 with_sb]. now rewrite app_assoc. }
    intros K Hco HK t v Hl [D1 D2 D3 D4 D5 D6]. rewrite (feed_app _ _ _ HK).
    destruct (G1 K Hco HK t v Hl) as (v1 & V1 & V1a & V1b). { rewrite D1. now split. }
    assert (E1 : v1 = set_vcur pos v).
    { cbn [real s0 with_sb] in V1a, V1b. destruct (cursor_eqb (real s) pos) eqn:Ec.
      - apply cursor_eqb_eq in Ec. rewrite (V1a Ec).
        assert (Hvc : vcur v = pos).
        { destruct D6 as [D6|(D6 & Hinv)]; [congruence|]. rewrite D6. unfold pos. rewrite (Hz Hinv). unfold cell_pos.
          rewrite Nat.div_0_l, Nat.mod_0_l by lia. reflexivity. }
        rewrite <- Hvc. now destruct v.
      - apply V1b. intros Hx. apply cursor_eqb_eq in Hx. congruence. }
    destruct (G2 K Hco HK _ v1 V1) as (v2 & V2 & E2).
    { rewrite E1. cbn [vattrs set_vcur]. rewrite D3, M4. reflexivity. }
    exists v2. split; [exact V2|]. subst v2 v1.
    assert (Hb : forall j k, j <> i -> nth_error (back (sb s2)) j = Some k -> ctext k <> [] ->
        X j k \/ nth_error (vcells v) j = Some (drawn k)).
    { intros j k Hj Hk Hkt. rewrite Hs2 in Hk. cbn [s0 sb with_sb back with_back] in Hk.
      rewrite nth_upd in Hk by assumption. destruct (Nat.eqb_spec j i); [contradiction|]. now apply D5. }
    split; [|split; [cbn; congruence|exact Hb]].
    constructor; cbn [vsize vcells vattrs vcur set_vattrs set_vcur].
    - rewrite Hs2. exact D1.
    - rewrite Hs2. exact D2.
    - now rewrite A4.
    - exact D4.
    - intros j k Hk Hkt. destruct (Nat.eq_dec j i) as [->|Hj].
      + left. right. split; [reflexivity|]. rewrite Hs2 in Hk. cbn [s0 sb with_sb back with_back] in Hk.
        rewrite nth_upd, Nat.eqb_refl in Hk by assumption. congruence.
      + destruct (Hb j k Hj Hk Hkt) as [Q|Q]; [left; now left|now right].
    - left. congruence.
  Qed.

  (** One cell drawn. *)
  Lemma draw_cell_but X s i c s1 s2 s3 u1 u2 u3 : frame E s -> slim E (sb s) ->
    i < total (bsize (sb s)) -> cell_at (sb s) i = Some c -> (all_invalid (sb s) -> i = 0) ->
    let s0 := with_sb (with_back (sb s) (upd i c (back (sb s)))) s in
    s_move_cursor C (cell_pos (bsize (sb s)) i) s0 = Ret s1 u1 ->
    on_writer (set_attrs C (cattrs c)) s1 = Ret s2 u2 ->
    on_writer (write_str C (ctext c)) s2 = Ret s3 u3 ->
    let s4 := with_real (Cursor (line (real s3)) (column (real s3) + 1)) s3 in
    after s s4 /\ frame E s4 /\ back (sb s4) = upd i c (back (sb s)) /\
    goes s s4 (drawing_but X s) (fun _ v' => drawing_but X s4 v').
  Proof.
    intros F Hsl Hi Hc Hz s0 H1 H2 H3 s4. assert (F' := F). destruct F' as [F1 F2 F3].
    assert (Hct : cell_text_ok E (ctext c)).
    { destruct F1 as (_ & _ & _ & Ht). rewrite Forall_forall in Ht. apply Ht. eapply nth_error_In. exact Hc. }
    destruct Hct as (ch & ms & Et & Hp & Hms).
    destruct (ready_goes X s i c s1 s2 u1 u2 F Hsl Hi Hc ltac:(rewrite Et; discriminate) Hz H1 H2) as (R1 & R2 & R3 & R4 & R5).
    assert (Hcw : cwidth E ch = Some 1).
    { assert (Hn : narrow_text E (ctext c)) by (unfold slim in Hsl; rewrite Forall_forall in Hsl; apply Hsl; eapply nth_error_In; exact Hc).
      rewrite Et in Hn. cbn in Hn. assert (Hp' := Hp). destruct Hp' as (_ & _ & _ & _ & [Q|Q]); [exact Q|].
      exfalso. apply Hn. split; [exact Hp|exact Q]. }
    rewrite Et in H3.
    destruct (text_goes E C HC ch ms 1 _ _ _ (proj1 R5) Hp Hms Hcw H3) as (T1 & T2 & T3 & T4 & T5).
    assert (Hcol : 0 < columns (bsize (sb s))) by apply F2.
    set (pos := cell_pos (bsize (sb s)) i) in *.
    assert (Hpos : in_bounds pos (bsize (sb s))) by now apply cell_pos_in.
    assert (Hno : cell_no (bsize (sb s)) pos = i) by now apply cell_pos_no.
    assert (Hlb : i < length (back (sb s))) by (destruct F1 as (_ & _ & Hl & _); lia).
    assert (Hsb : sb s4 = with_back (sb s) (upd i c (back (sb s)))).
    { cbn [sb s4 with_real]. rewrite T1, R1. reflexivity. }
    assert (Haf : after s s4).
    { split; [rewrite Hsb; reflexivity|]. split; [rewrite Hsb; cbn [back with_back]; now apply upd_length|].
      cbn [clr s4 with_real]. now rewrite T2, R2. }
    split; [exact Haf|]. split.
    { constructor; [eapply after_ok; eauto|rewrite Hsb; assumption|exact (proj1 T5)]. }
    split; [rewrite Hsb; reflexivity|].
    assert (G4 : goes s3 s4 (fun _ => True) (fun v v' => v' = v)) by (apply goes_refl; [exact (proj1 T5)|reflexivity|auto]).
    set (P2 := fun v' => drawing_but (plus X i c) s2 v' /\ vcur v' = real s2 /\
        forall j k, j <> i -> nth_error (back (sb s2)) j = Some k -> ctext k <> [] ->
          X j k \/ nth_error (vcells v') j = Some (drawn k)) in *.
    assert (G : goes s2 s4 P2 (fun _ v'' => drawing_but X s4 v'')).
    { refine (goes_trans E C s2 s3 s4 P2 (fun _ => True) _ _ _ (goes_weaken E C s2 s3 _ P2 _ (cell_effect (ch :: ms) 1) T5 _ _) G4 _ _); auto.
      + intros v ([D1 D2 D3 D4 D5 D6] & Q2 & Q3). unfold room. rewrite Q2, R3, D1, R1.
        cbn [s0 sb with_sb with_back bsize]. destruct Hpos. split; [lia|]. split; [lia|]. apply D4.
      + intros v v' v'' ([D1 D2 D3 D4 D5 D6] & Q2 & Q3) HQ ->. unfold cell_effect in HQ.
        destruct HQ as (S1 & S2 & S3 & S4 & S5 & S6 & _ & S8 & S9 & S10).
        rewrite Q2, R3, D1, R1 in *. cbn [s0 sb with_sb with_back bsize] in *. rewrite Hno in *.
        assert (S8' : forall j, j <> i -> nth_error (vcells v') j = nth_error (vcells v) j).
        { intros j Hj. destruct (Nat.eq_dec j (i + 1)) as [->|]; [apply S9, D4|apply S8; lia]. }
        constructor.
        * rewrite Hsb, S1. reflexivity.
        * rewrite Hsb, S4. exact D2.
        * rewrite S2, D3, R4. cbn [wr s4 with_real]. now rewrite T4, R4.
        * intros j. destruct (Nat.eq_dec j i) as [->|Hj]; [rewrite S6; discriminate|rewrite S8' by exact Hj; apply D4].
        * intros j k Hk Hkt. destruct (Nat.eq_dec j i) as [->|Hj].
          -- right. rewrite Hsb in Hk. cbn [back with_back] in Hk. rewrite nth_upd, Nat.eqb_refl in Hk by assumption.
             injection Hk as <-. rewrite S6, D3, R4, Et. reflexivity.
          -- rewrite S8' by exact Hj. apply Q3; [exact Hj| |exact Hkt]. rewrite Hsb in Hk. exact Hk.
        * left. rewrite S5. cbn [real s4 with_real]. now rewrite T3. }
    refine (goes_trans E C s s2 s4 _ P2 _ _ _ R5 G _ _); cbn beta; auto.
  Qed.

  Lemma invalid_first lo i b : buf_ok E b -> slim E b -> i < total (bsize b) ->
    caught_up E lo b ->
    (forall j, lo <= j < i -> half E b j = false -> nth_error (back b) j = nth_error (buffer b) j) ->
    all_invalid b -> i = 0.
  Proof.
    intros Hb Hs Hi Hcu Hsame Hinv. destruct i as [|i]; [reflexivity|]. exfalso.
    destruct (slim_half b Hb Hs) as [Hh _].
    assert (Hq : nth_error (back b) 0 = nth_error (buffer b) 0).
    { destruct (Nat.ltb_spec 0 lo); [apply Hcu|apply Hsame]; auto; lia. }
    destruct (nth_error (buffer b) 0) as [c|] eqn:Ec.
    - apply (cell_nonempty E b 0 c Hb Ec). exact (Hinv 0 c Hq).
    - apply nth_error_None in Ec. destruct Hb as (_ & Hl & _). lia.
  Qed.

  (** The whole loop. *)
  Lemma draw_but X fuel : forall lo hi s, frame E s -> slim E (sb s) ->
    hi = total (bsize (sb s)) -> lo <= hi -> caught_up E lo (sb s) ->
    match M_Screen.draw E C fuel lo hi s with
    | Ret s' _ => after s s' /\ frame E s' /\ caught_up E hi (sb s') /\
        goes s s' (drawing_but X s) (fun _ v' => drawing_but X s' v' /\ vcur v' = real s')
    | Fail s' e => io_error e -> after s s' /\ frame E s' /\
        exists i c, cell_at (sb s) i = Some c /\
          goes s s' (drawing_but X s) (fun _ v' => drawing_but (plus X i c) s' v' /\ vcur v' = real s')
    | _ => True
    end.
  Proof.
    induction fuel as [|fuel IH]; intros lo hi s F Hsl Hhi Hlo Hcu; assert (F' := F); destruct F' as [F1 F2 F3];
      assert (Hcol : 0 < columns (bsize (sb s))) by apply F2;
      assert (Htot : 0 < total (bsize (sb s))) by (unfold total; destruct F2 as (? & ? & _); nia);
      destruct (slim_half _ F1 Hsl) as [Hh Hf];
      cbn [M_Screen.draw]; unfold next_cell;
      destruct (next_cell_aux E (hi - lo) (sb s) lo hi) as [[[b' lo'] o]|] eqn:En; try exact I;
      assert (Hs := next_cell_spec E hi (sb s) F1 Hf Hhi Hcol (hi - lo) lo _ Hlo (le_n _) (Hh lo) En);
      destruct o as [[p c]|]; cbn in Hs.
    1, 3: destruct Hs as (i & I1 & _ & -> & I4 & I5 & I6 & -> & ->).
    3, 4: destruct Hs as (-> & Hs2).
    1, 2: assert (Hi0 := invalid_first lo i (sb s) F1 Hsl ltac:(lia) Hcu I6);
      assert (Hne := cell_nonempty E (sb s) i c F1 I4).
    3, 4: assert (Hw : with_sb (sb s) s = s) by (now destruct s); rewrite Hw;
      assert (Hcu' : caught_up E hi (sb s)) by (intros j Hj Hjh; destruct (Nat.ltb_spec j lo); [now apply Hcu|apply Hs2; [lia|assumption]]);
      (split; [apply after_refl|]); (split; [assumption|]); (split; [exact Hcu'|]);
      apply goes_refl; [assumption|reflexivity|]; intros v D; (split; [exact D|]); destruct (d_cur _ _ _ D) as [Q|(_ & Q)]; [exact Q|];
      exfalso; destruct (nth_error (buffer (sb s)) 0) as [c|] eqn:Ec;
      [apply (cell_nonempty E (sb s) 0 c F1 Ec); apply (Q 0 c); rewrite (Hcu' 0 ltac:(lia) (Hh 0)); exact Ec
      |apply nth_error_None in Ec; destruct F1 as (_ & Hl & _); lia].
    all: destruct (s_move_cursor C (cell_pos (bsize (sb s)) i) _) as [s1 u1|s1 e1| |] eqn:H1; cbn [obind]; try exact I;
      [|intros He; destruct (quiet_s_move C _ _ _ _ H1 He)].
    all: destruct (on_writer (set_attrs C (cattrs c)) s1) as [s2 u2|s2 e2| |] eqn:H2; cbn [obind]; try exact I;
      [|intros He; destruct (quiet_on _ _ _ _ (quiet_set_attrs C (cattrs c)) H2 He)].
    all: destruct (ready_goes X s i c s1 s2 u1 u2 F Hsl ltac:(lia) I4 Hne Hi0 H1 H2) as (R1 & R2 & R3 & R4 & R5).
    all: assert (Hlb : i < length (back (sb s))) by (destruct F1 as (_ & _ & Hl & _); lia).
    all: destruct (on_writer (write_str C (ctext c)) s2) as [s3 u3|s3 e3| |] eqn:H3; cbn [obind]; try exact I.
    (* the text fails *)
    2, 4: intros _; unfold on_writer, write_str in H3;
      assert (Hw := write_bytes_whole C (utf8s (ctext c)) (wr s2) (proj1 R5));
      destruct (write_bytes C (utf8s (ctext c)) (wr s2)) as [|w3 e4| |]; try discriminate H3; injection H3 as <- <-;
      destruct Hw as (W1 & (W2 & _) & W3);
      assert (Haf : after s (with_wr w3 s2)) by
        (split; [cbn [sb with_wr]; rewrite R1; reflexivity|]; split; [cbn [sb with_wr]; rewrite R1; cbn [sb with_sb back with_back]; now apply upd_length|exact R2]);
      (split; [exact Haf|]);
      (split; [constructor; [eapply after_ok; eauto|cbn [sb with_wr]; rewrite R1; exact F2|exact W1]|]);
      exists i, c; (split; [exact I4|]);
      destruct R5 as (_ & x & X1 & X2); (split; [exact W1|]); exists x; (split; [cbn [wr with_wr]; now rewrite W3|]);
      intros K Hco HK t v Hl HD; destruct (X2 K Hco HK t v Hl HD) as (v' & V1 & [D1 D2 D3 D4 D5 D6] & V3 & _); exists v';
      (split; [exact V1|]); (split; [|exact V3]); constructor; auto; cbn [wr with_wr]; now rewrite W2.
    all: destruct (uadd (umax E) (column (real s3)) 1) as [cc|] eqn:Eu; [|exact I].
    1: exact I.
    assert (Hcc : cc = column (real s3) + 1) by (unfold uadd in Eu; destruct (_ <=? _); congruence). subst cc.
    destruct (draw_cell_but X s i c s1 s2 s3 u1 u2 u3 F Hsl ltac:(lia) I4 Hi0 H1 H2 H3) as (D1 & D2 & D3 & D4).
    set (s4 := with_real _ s3) in *.
    assert (Hz : bsize (sb s4) = bsize (sb s)) by (destruct D1 as (-> & _); reflexivity).
    assert (Hb4 : buffer (sb s4) = buffer (sb s)) by (destruct D1 as (-> & _); reflexivity).
    assert (Hlo' : next_of E (sb s) i <= hi).
    { unfold next_of. destruct (wide_at E (sb s) i) eqn:Ew; [|lia]. assert (Q := Hh (S i)). cbn [half] in Q. congruence. }
    assert (Hcu4 : caught_up E (next_of E (sb s) i) (sb s4)).
    { intros j Hj _. rewrite D3, Hb4. rewrite nth_upd by assumption.
      destruct (Nat.eqb_spec j i); [subst j; now symmetry|].
      destruct (Nat.ltb_spec j lo); [now apply Hcu|].
      destruct (Nat.ltb_spec j i); [apply I6; [lia|apply Hh]|].
      exfalso. apply n. apply (next_of_half E (sb s) i j); auto. }
    assert (Hsl4 : slim E (sb s4)) by (unfold slim; rewrite Hb4; exact Hsl).
    specialize (IH (next_of E (sb s) i) hi s4 D2 Hsl4 ltac:(congruence) Hlo' Hcu4).
    destruct (M_Screen.draw E C fuel _ hi s4) as [s' u|s' e| |]; auto.
    - destruct IH as (R1' & R2' & R3' & R4'). split; [eapply after_trans; eauto|]. do 2 (split; [assumption|]).
      eapply goes_trans; [exact D4|exact R4'| |]; cbn beta; auto.
    - intros He. destruct (IH He) as (R1' & R2' & j & d & R3' & R4'). split; [eapply after_trans; eauto|]. split; [assumption|].
      exists j, d. split; [unfold cell_at in *; now rewrite <- Hb4|].
      eapply goes_trans; [exact D4|exact R4'| |]; cbn beta; auto.
  Qed.
End Fail.

Section Refresh.
  Variable E : env.
  Variable C : tcfg.
  Hypothesis HE : env_ok E.
  Hypothesis HC : env_chars E.
  Notation goes := (goes E C).
  Notation drawn c := (VC (ctext c) (shown_attrs C (cattrs c))).

  Record inv_but (X : nat -> cell -> Prop) (s : scr) (v : view) : Prop := {
    b_frame : frame E s;
    b_slim : slim E (sb s);
    b_size : vsize v = bsize (sb s);
    b_len : length (vcells v) = total (bsize (sb s));
    b_attr : vattrs v = shown_attrs C (wat (wr s));
    b_sync : clr s = false -> drawing_but C X s v /\ vcur v = real s;
    b_inval : clr s = true -> all_invalid (sb s)
  }.

  Lemma inv_of X s v : frame E s -> slim E (sb s) -> clr s = false -> drawing_but C X s v -> vcur v = real s -> inv_but X s v.
  Proof. intros F S Hc D Q. assert (D' := D). destruct D'. constructor; auto. rewrite Hc. discriminate. Qed.

  (** The first part of [refresh]: the terminal is cleared after a change of the size. *)
  Lemma cleared_but X s s1 u1 s2 u2 : frame E s -> slim E (sb s) ->
    (if clr s then let! (s, _u) := on_writer (clear_screen C) s in Ret (with_clr false s) tt else Ret s tt) = Ret s1 u1 ->
    on_writer (clear_attributes C) s1 = Ret s2 u2 ->
    sb s2 = sb s /\ clr s2 = false /\ frame E s2 /\
    goes s s2 (inv_but X s) (fun _ v' => drawing_but C X s2 v').
  Proof.
    intros F Hsl H1 H2.
    assert (Hclr : sb s1 = sb s /\ clr s1 = false /\ goes s s1 (inv_but X s) (fun _ v' => drawing_but C X s1 v')).
    { destruct (clr s) eqn:Ec.
      - apply bind_ret in H1. destruct H1 as (s0 & u0 & H0 & H1). injection H1 as <- _.
        apply on_writer_ret in H0. destruct H0 as (w & H0 & ->).
        split; [reflexivity|]. split; [reflexivity|].
        destruct (clear_effect E C OClearScreen (wr s) w u0 ltac:(auto) H0) as (X1 & X2 & X3 & x & X4 & X5).
        split; [cbn; rewrite X2; apply F|]. exists x. cbn [wr with_clr with_wr].
        split; [unfold stream; now rewrite X1, X4, app_assoc|].
        intros K _ HK t v Hl Hi. destruct (X5 K HK t v Hl ltac:(congruence)) as (v' & V1 & V2 & V3 & V4 & V5 & V6 & V7).
        exists v'. split; [assumption|]. destruct Hi as [_ _ I1 I2 I3 I4 I5].
        cbn zeta in *.
        assert (Hlen : length (vcells v') = total (vsize v')) by exact (look_ok _ _ _ HK _ _ V1).
        constructor; cbn [sb wr real with_clr with_wr].
        + congruence.
        + rewrite Hlen. congruence.
        + congruence.
        + intros j Hj. assert (j < total (vsize v)).
          { rewrite <- V2, <- Hlen. apply nth_error_Some. congruence. }
          destruct (V7 j ltac:(lia)) as (a & Ha & _). congruence.
        + intros j k Hk Hkt. destruct (Hkt (I5 Ec j k Hk)).
        + right. split; [assumption|]. exact (I5 Ec).
      - injection H1 as <- _. split; [reflexivity|]. split; [assumption|].
        apply goes_refl; [apply F|reflexivity|]. intros v Hi. apply (b_sync _ _ _ Hi Ec). }
    destruct Hclr as (S1 & C1 & G1).
    destruct (clear_goes E C _ _ _ (proj1 G1) H2) as (A1 & A2 & A3 & A4 & G2).
    split; [congruence|]. split; [congruence|]. split.
    { destruct F as [F1 F2 F3]. constructor; [now rewrite A1, S1|now rewrite A1, S1|exact (proj1 G2)]. }
    eapply goes_trans; [exact G1|exact G2| |].
    - cbn beta. intros v v' _ D. exact (d_attr _ _ _ _ D).
    - cbn beta. intros v v' v'' _ [L1 L2 L3 L4 L5 L6] ->.
      constructor; rewrite ?A1, ?A3, ?A4; auto. cbn. now rewrite shown_none.
  Qed.

  Definition done_but (X : nat -> cell -> Prop) (s' : scr) (v' : view) : Prop :=
    inv_but X s' v' /\ vattrs v' = no_attrs /\ vcur v' = cursor_goal (sb s') /\
    forall i c, cell_at (sb s') i = Some c -> X i c \/ nth_error (vcells v') i = Some (drawn c).

  Lemma compose_but X s s' u : frame E s -> slim E (sb s) -> compose E C s = Ret s' u ->
    frame E s' /\ sb s' = with_back (sb s) (back (sb s')) /\ clr s' = false /\
    goes s s' (inv_but X s) (fun _ v' => done_but X s' v').
  Proof.
    intros F Hsl H. unfold compose in H.
    apply bind_ret in H. destruct H as (s1 & u1 & H1 & H).
    apply bind_ret in H. destruct H as (s2 & u2 & H2 & H).
    destruct (cleared_but X s s1 u1 s2 u2 F Hsl H1 H2) as (S1 & S2 & F2 & G1).
    unfold sb_indices in H. destruct (area (umax E) (bsize (sb s2))) as [n|] eqn:Ea; [|discriminate].
    assert (Hn : n = total (bsize (sb s2))).
    { unfold area, checked_area in Ea. destruct (_ <=? _); [|discriminate]. injection Ea as <-. reflexivity. }
    apply bind_ret in H. destruct H as (s3 & u3 & H3 & H).
    apply bind_ret in H. destruct H as (s4 & u4 & H4 & H).
    assert (D := draw_but E C HC X (n - 0) 0 n s2 F2 ltac:(rewrite S1; exact Hsl) Hn ltac:(lia) ltac:(intros j Hj; lia)).
    rewrite H3 in D. destruct D as (D1 & D2 & D3 & D4).
    destruct (clear_goes E C _ _ _ (f_whole _ _ D2) H4) as (B1 & B2 & B3 & B4 & G5).
    apply final_move in H.
    destruct (move_goes E C _ _ _ _ (proj1 G5) H) as (M1 & M2 & M3 & M4 & G6).
    assert (Hb : sb s' = with_back (sb s) (back (sb s'))).
    { rewrite M1, B1. destruct D1 as (D1 & _). rewrite D1, S1. reflexivity. }
    assert (F' : frame E s').
    { destruct D2 as [F3 F4 F5]. constructor; [rewrite M1, B1; exact F3|rewrite M1, B1; exact F4|exact (proj1 G6)]. }
    assert (Hc : clr s' = false) by (destruct D1 as (_ & _ & Dc); congruence).
    split; [assumption|]. split; [assumption|]. split; [assumption|].
    assert (Hsl' : slim E (sb s')) by (unfold slim; rewrite Hb; exact Hsl).
    assert (Hs3 : sb s' = sb s3) by congruence.
    set (DR := fun (_ v' : view) => done_but X s' v').
    set (P3 := fun v => drawing_but C X s3 v /\ vcur v = real s3) in *.
    assert (G56 : goes s3 s' P3 DR).
    2: { refine (goes_trans E C _ _ _ _ _ _ DR DR G1 (goes_trans E C _ _ _ _ P3 _ DR DR D4 G56 _ _) _ _); cbn beta; auto. }
    refine (goes_trans E C s3 s4 s' P3 _ (fun v v' => v' = set_vattrs no_attrs v) _ DR (goes_weaken E C _ _ _ P3 _ _ G5 _ _) G6 _ _); cbn beta; auto.
    - intros v [D _]. exact (d_attr _ _ _ _ D).
    - intros v v' [D _] ->. cbn [vsize set_vattrs]. rewrite (d_size _ _ _ _ D), <- Hs3.
      split; [|apply F']. rewrite B1, <- Hs3. apply goal_in. apply F'.
    - intros v v' v'' [[L1 L2 L3 L4 L5 L6] Q] -> HR. rewrite B3, B1, <- Hs3 in HR. rewrite <- Hs3 in L1, L2, L5, D3.
      assert (Hv : v'' = set_vcur (cursor_goal (sb s')) (set_vattrs no_attrs v)).
      { destruct HR as [HR1 HR2]. destruct (cursor_eqb (real s3) (cursor_goal (sb s'))) eqn:Eg.
        - apply cursor_eqb_eq in Eg. rewrite (HR1 Eg). rewrite <- Eg, <- Q. now destruct v.
        - apply HR2. intros Hx. apply cursor_eqb_eq in Hx. congruence. }
      assert (Hr : real s' = cursor_goal (sb s')) by (rewrite M3, B1, Hs3; reflexivity).
      assert (DD : drawing_but C X s' v'').
      { rewrite Hv. constructor; cbn [vsize vcells vattrs vcur set_vattrs set_vcur]; auto.
        rewrite M4, B4. symmetry. apply shown_none. }
      split; [apply inv_of; auto; rewrite Hv, Hr; reflexivity|]. rewrite Hv. cbn [vcells vattrs vcur set_vattrs set_vcur].
      do 2 (split; [reflexivity|]). intros i c Hi.
      assert (Hok := f_buf _ _ F'). destruct (slim_half E _ Hok Hsl') as [Hh _].
      apply L5; [|now apply (cell_nonempty E (sb s') i c Hok)].
      rewrite (D3 i); [exact Hi| |apply Hh]. rewrite Hn. destruct Hok as (_ & Hl & _).
      replace (bsize (sb s2)) with (bsize (sb s')) by (rewrite Hb, S1; reflexivity).
      rewrite <- Hl. apply nth_error_Some. unfold cell_at in Hi. congruence.
  Qed.

  Lemma same_but X s s' v : sb s' = sb s -> clr s' = clr s -> real s' = real s -> wat (wr s') = wat (wr s) ->
    whole_writes (script (wr s')) -> inv_but X s v -> inv_but X s' v.
  Proof.
    intros H1 H2 H3 H4 H5 [[F1 F2 F3] I0 I1 I2 I3 I4 I5].
    constructor; rewrite ?H1, ?H2, ?H4; auto; [constructor; rewrite ?H1; auto|].
    intros Hc. destruct (I4 Hc) as [[L1 L2 L3 L4 L5 L6] Q]. split; [|congruence].
    constructor; rewrite ?H1, ?H3, ?H4; auto.
  Qed.

  Lemma refresh_but X s s' u : frame E s -> slim E (sb s) -> refresh E C s = Ret s' u ->
    sb s' = with_back (sb s) (back (sb s')) /\ clr s' = false /\ obuf (wr s') = [] /\
    goes s s' (inv_but X s) (fun _ v' => done_but X s' v').
  Proof.
    intros F Hsl H. unfold refresh in H. apply bind_ret in H. destruct H as (s1 & u1 & H1 & H).
    destruct (compose_but X _ _ _ F Hsl H1) as (S1 & S2 & S3 & S5).
    destruct (goes_flush _ _ _ (f_whole _ _ S1) H) as (T1 & T2 & T3 & T4 & T5 & T6 & T7).
    rewrite T2. split; [assumption|]. split; [congruence|]. split; [assumption|].
    destruct S5 as (_ & x & X1 & X2). split; [assumption|]. exists x. split; [congruence|].
    intros K Hco HK t v Hl Hp. destruct (X2 K Hco HK t v Hl Hp) as (v' & V1 & V2 & V3). exists v'. split; [assumption|].
    split; [now apply (same_but X s1)|]. rewrite T2. exact V3.
  Qed.

  (** A refresh that fails while it draws. *)
  Lemma compose_fails X s s' e : frame E s -> slim E (sb s) -> compose E C s = Fail s' e -> io_error e ->
    sb s' = with_back (sb s) (back (sb s')) /\
    exists i c, cell_at (sb s) i = Some c /\ goes s s' (inv_but X s) (fun _ v' => inv_but (plus X i c) s' v').
  Proof.
    intros F Hsl H He. unfold compose in H.
    apply bind_fail in H. destruct H as [H|(s1 & u1 & H1 & H)].
    { exfalso. destruct (clr s); [|discriminate]. apply bind_fail in H. destruct H as [H|(? & ? & _ & H)]; [|discriminate].
      exact (quiet_on _ _ _ _ (quiet_req C ClearScreen []) H He). }
    apply bind_fail in H. destruct H as [H|(s2 & u2 & H2 & H)].
    { exfalso. exact (quiet_on _ _ _ _ (quiet_clear C) H He). }
    destruct (cleared_but X s s1 u1 s2 u2 F Hsl H1 H2) as (S1 & S2 & F2 & G1).
    unfold sb_indices in H. destruct (area (umax E) (bsize (sb s2))) as [n|] eqn:Ea; [|discriminate].
    assert (Hn : n = total (bsize (sb s2))).
    { unfold area, checked_area in Ea. destruct (_ <=? _); [|discriminate]. injection Ea as <-. reflexivity. }
    assert (D := draw_but E C HC X (n - 0) 0 n s2 F2 ltac:(rewrite S1; exact Hsl) Hn ltac:(lia) ltac:(intros j Hj; lia)).
    apply bind_fail in H. destruct H as [H|(s3 & u3 & H3 & H)].
    - rewrite H in D. destruct (D He) as ((D1 & D1' & D1'') & D2 & i & c & D3 & D4).
      split; [rewrite D1, S1; reflexivity|]. exists i, c. rewrite <- S1. split; [exact D3|].
      set (DR := fun (_ v' : view) => inv_but (plus X i c) s' v').
      refine (goes_trans E C _ _ _ _ _ _ _ DR G1 D4 _ _); cbn beta; auto.
      intros v v' v'' _ _ [Q1 Q2]. apply inv_of; auto; [unfold slim; rewrite D1, S1; exact Hsl|congruence].
    - exfalso. apply bind_fail in H. destruct H as [H|(s4 & u4 & H4 & H)]; [exact (quiet_on _ _ _ _ (quiet_clear C) H He)|].
      destruct (is_out_of_bounds _ _); [destruct (cursor_last _); [|discriminate]|]; exact (quiet_s_move C _ _ _ _ H He).
  Qed.

  Variable K : tty.
  Hypothesis Hco : caps_coherent C.
  Hypothesis HK : implements E C K.

  (** ** Histories *)
  Definition lost_at (z : size) (lost : list cursor) (l : list canvas) (i : nat) (c : cell) : Prop :=
    exists k0, In (cell_pos z i, k0) (combine lost l) /\
      ink k0 (line (cell_pos z i)) (column (cell_pos z i)) = (ctext c, cattrs c).

  Lemma held_at b k i c : fits E b k -> cell_at b i = Some c ->
    in_bounds (cell_pos (ksize k) i) (ksize k) /\
    ink k (line (cell_pos (ksize k) i)) (column (cell_pos (ksize k) i)) = (ctext c, cattrs c).
  Proof.
    intros [F1 F2 F3 (Z1 & Z2 & Z3 & Z4)] Hi. unfold screen_get_size in Z1. destruct F1 as (_ & Hl & _).
    assert (Hit : i < total (ksize k)).
    { rewrite <- Z1, <- Hl. apply nth_error_Some. unfold cell_at in Hi. congruence. }
    assert (Hb := cell_pos_in _ _ Hit). split; [exact Hb|]. specialize (Z4 _ Hb).
    rewrite cell_pos_no in Z4 by lia. rewrite Hi in Z4. injection Z4 as ->. cbn [ctext cattrs]. now destruct (ink k _ _).
  Qed.

  Lemma fit_frame s k : fits E (sb s) k -> slim E (sb s).
  Proof. intros [_ H _ _]. exact H. Qed.

  Definition sound (s : scr) (t : tstate K) (k : canvas) (l : list canvas) : Prop :=
    fits E (sb s) k /\ exists v lost, look K t = Some v /\ length lost = length l /\
      inv_but (lost_at (ksize k) lost l) s v.

  Lemma inv_weaken (X Y : nat -> cell -> Prop) s v : (forall i c, X i c -> Y i c) ->
    inv_but X s v -> inv_but Y s v.
  Proof.
    intros H [I0 I1 I2 I3 I4 I5 I6]. constructor; auto. intros Hc. destruct (I5 Hc) as [[L1 L2 L3 L4 L5 L6] Q].
    split; [|exact Q]. constructor; auto. intros j k Hk Hn. destruct (L5 j k Hk Hn); auto.
  Qed.

  Lemma battered_sound s t k l : battered E C K s t k l -> sound s t k l.
  Proof.
    induction 1 as [s t k H|s t k l m b _ (Hf & v & lost & V1 & V2 & V3) Hn Hm|s t k l m s' x _ (Hf & v & lost & V1 & V2 & V3) Hm Hx
      |s t k l s' x _ (Hf & v & lost & V1 & V2 & V3) Hr Hx|s t k l s1 s' e x _ (Hf & v & lost & V1 & V2 & V3) Hc Hfl Hx
      |s t k l s' e x _ (Hf & v & lost & V1 & V2 & V3) Hc He Hx|s t k l s' _ (Hf & v & lost & V1 & V2 & V3) Hg|s t k l v new s' t' v' _ (Hf & v0 & lost & V1 & V2 & V3) Hl Hsz Hl' Hs' Ha' Hu].
    - destruct (painted_history E HE C K HC Hco HK s t k H) as [Hh Hf]. split; [exact Hf|].
      destruct (history_narrow E C HE HC K Hco HK s t Hh) as (v & V1 & Hi & Hn).
      destruct (no_halves_ok E C s v Hi Hn) as (N1 & _ & _). destruct Hi as [F I1 I2 I3 I4 I5 I6]. destruct Hn as [Hn1 Hn2].
      exists v, []. split; [exact V1|]. split; [reflexivity|]. constructor; auto.
      intros Hc. destruct (I4 Hc) as [Hsy Hcur]. specialize (Hn2 Hc).
      assert (Hq : vcur v = real s) by (destruct Hcur as [Q|(_ & Q)]; [exact Q|destruct (Hn2 _ Q)]).
      split; [|exact Hq]. constructor; auto. intros j c Hj Hjt. right. apply (Hsy j c Hj Hjt). apply Hn2.
    - assert (Hf' := method_draws E HE _ _ _ _ Hf Hn Hm). split; [exact Hf'|].
      assert (Hz : ksize (draw E m k) = ksize k).
      { destruct V3 as [[F1 _ _] _ _ _ _ _ _].
        destruct (op_ok E HE (sb s) (sforward m) b F1 (not_resize m) Hm) as (_ & _ & B3).
        destruct Hf as [_ _ _ (Z1 & _)], Hf' as [_ _ _ (Z2 & _)]. unfold screen_get_size in *. congruence. }
      rewrite Hz. exists v, lost. split; [exact V1|]. split; [exact V2|].
      destruct V3 as [[F1 F2 F3] I0 I1 I2 I3 I4 I5].
      destruct (op_ok E HE (sb s) (sforward m) b F1 (not_resize m) Hm) as (B1 & B2 & B3).
      constructor; cbn [sb clr real wr with_sb]; rewrite ?B3; auto.
      + constructor; cbn [sb wr with_sb]; rewrite ?B3; auto.
      + now destruct Hf'.
      + intros Hc. destruct (I4 Hc) as [[L1 L2 L3 L4 L5 L6] Q]. split; [|exact Q].
        constructor; cbn [sb real wr with_sb]; rewrite ?B3, ?B2; auto.
      + unfold all_invalid. rewrite B2. exact I5.
    - assert (I0 := b_frame _ _ _ V3). destruct (mode_goes E C _ _ _ _ (f_whole _ _ I0) Hm) as (M1 & M2 & M3 & M4 & M5).
      split; [now rewrite M1|].
      destruct (goes_here E C K Hco HK _ _ _ _ x t v M5 Hx V1 I) as (v' & V4 & b & ->). exists (set_vvis b v), lost.
      split; [exact V4|]. split; [exact V2|]. apply (same_but _ s); auto; [apply M5|].
      destruct V3 as [J0 J1 J2 J3 J4 J5 J6]. constructor; auto. intros Hc. destruct (J5 Hc) as [[L1 L2 L3 L4 L5 L6] Q].
      split; [|exact Q]. constructor; auto.
    - destruct (refresh_but (lost_at (ksize k) lost l) s s' tt (b_frame _ _ _ V3) (b_slim _ _ _ V3) Hr) as (R1 & R2 & R3 & R4).
      destruct (goes_here E C K Hco HK _ _ _ _ x t v R4 Hx V1 V3) as (v' & V4 & V5 & _).
      split; [rewrite R1; apply back_fits; [exact Hf|rewrite <- R1; apply (b_frame _ _ _ V5)]|].
      exists v', lost. auto.
    - destruct (compose_but (lost_at (ksize k) lost l) s s1 tt (b_frame _ _ _ V3) (b_slim _ _ _ V3) Hc) as (R0 & R1 & R2 & R4).
      destruct (flush_failed _ _ _ (f_whole _ _ R0) Hfl) as (T2 & T3 & T4 & T5 & T6 & T7). rewrite T7 in Hx.
      destruct (goes_here E C K Hco HK _ _ _ _ x t v R4 Hx V1 V3) as (v' & V4 & V5 & _).
      split; [rewrite T2, R1; apply back_fits; [exact Hf|rewrite <- R1; apply (b_frame _ _ _ V5)]|].
      exists v', lost. split; [exact V4|]. split; [exact V2|]. apply (same_but _ s1); auto.
    - destruct (compose_fails (lost_at (ksize k) lost l) s s' e (b_frame _ _ _ V3) (b_slim _ _ _ V3) Hc He) as (R1 & i & c & R2 & R4).
      destruct (goes_here E C K Hco HK _ _ _ _ x t v R4 Hx V1 V3) as (v' & V4 & V5).
      split; [rewrite R1; apply back_fits; [exact Hf|rewrite <- R1; apply (b_frame _ _ _ V5)]|].
      exists v', (cell_pos (ksize k) i :: lost). split; [exact V4|]. split; [cbn; now rewrite V2|].
      revert V5. apply inv_weaken. intros j d [(k0 & K1 & K2)|(-> & ->)].
      + exists k0. split; [right; exact K1|exact K2].
      + exists k. split; [now left|]. exact (proj2 (held_at _ _ _ _ Hf R2)).
    - assert (Hw := flush_whole (wr s) (f_whole _ _ (b_frame _ _ _ V3))).
      apply on_writer_ret in Hg. destruct Hg as (w & Hg & ->). unfold guard_drop in Hg.
      assert (Hq : whole_writes (script w) /\ same_side (wr s) w).
      { destruct (flush (wr s)) as [w1 u1|w1 e1| |]; try discriminate Hg; injection Hg as <-; now destruct Hw as (A & B & _). }
      destruct Hq as (Q1 & Q2 & _). split; [exact Hf|]. exists v, lost. split; [exact V1|]. split; [exact V2|].
      now apply (same_but _ s).
    - rewrite V1 in Hl. injection Hl as ->. unfold update_size in Hu.
      destruct (sb_resize E (sb s) new) as [b|] eqn:Eb; [|discriminate]. injection Hu as <-.
      assert (Hf' := refit_fits E HE _ _ _ _ Hf Hsz Eb). split; [exact Hf'|].
      exists v', []. split; [exact Hl'|]. split; [reflexivity|].
      destruct V3 as [[F1 F2 F3] I0 I1 I2 I3 I4 I5]. destruct (sb_resize_ok E HE _ _ _ F1 Hsz Eb) as (B1 & B2 & B3 & _).
      assert (Hlen := look_ok _ _ _ HK _ _ Hl'). unfold view_ok in Hlen.
      constructor; cbn [sb clr real wr]; auto; try congruence; try discriminate.
      + constructor; cbn [sb wr]; auto. congruence.
      + now destruct Hf'.
  Qed.

  Lemma battered_shows s t k l : battered E C K s t k l ->
    forall s' u x, refresh E C s = Ret s' u -> stream (wr s') = stream (wr s) ++ x ->
      obuf (wr s') = [] /\
      exists v, look K (feed K t x) = Some v /\ vsize v = ksize k /\ vcur v = pen_goal k /\
        exists lost, length lost = length l /\
          forall p, in_bounds p (ksize k) ->
            displays_at C v k p \/
            exists k0, In (p, k0) (combine lost l) /\ ink k0 (line p) (column p) = ink k (line p) (column p).
  Proof.
    intros H s' u x Hr Hx. destruct (battered_sound _ _ _ _ H) as (Hf & v & lost & V1 & V2 & V3).
    destruct (refresh_but (lost_at (ksize k) lost l) s s' u (b_frame _ _ _ V3) (b_slim _ _ _ V3) Hr) as (R1 & R2 & R3 & R4).
    destruct (goes_here E C K Hco HK _ _ _ _ x t v R4 Hx V1 V3) as (v' & V4 & V5 & V6 & V7 & V8).
    split; [exact R3|]. exists v'. split; [exact V4|]. assert (Hf' := Hf). destruct Hf' as [F1 F2 F3 (H1 & H2 & H3 & H4)].
    unfold screen_get_size, screen_get_cursor in *.
    split; [rewrite (b_size _ _ _ V5), R1; exact H1|].
    split; [rewrite V7, R1; unfold cursor_goal, pen_goal, on_canvas; cbn [bcur bsize with_back]; now rewrite H1, H2|].
    exists lost. split; [exact V2|]. intros p Hp. specialize (H4 p Hp).
    destruct (V8 (cell_no (ksize k) p) (Cell (snd (ink k (line p) (column p))) (fst (ink k (line p) (column p))))) as [(k0 & Q1 & Q2)|Q].
    - rewrite R1. exact H4.
    - right. rewrite cell_no_pos in Q1, Q2 by apply Hp. exists k0. split; [exact Q1|]. rewrite Q2. cbn. now destruct (ink k _ _).
    - left. exact Q.
  Qed.
End Refresh.

(** ** Playing programs, for the examples *)
From Verif Require Import S_Emu P_Emu.

Inductive bact : Type := BDo (m : smethod) | BDraw | BBreak.

Section Play.
  Variable E : env.
  Hypothesis HE : env_ok E.

  Fixpoint batter (st : scr * emu * canvas * list canvas) (l : list bact) : option (scr * emu * canvas * list canvas) :=
    match l with
    | [] => Some st
    | a :: l =>
        let '(s, t, k, ks) := st in
        match a with
        | BDo m => match screen_method E m (sb s) with
                   | Val b => batter (with_sb b s, t, draw E m k, ks) l
                   | Boom => None
                   end
        | BDraw => match refresh E ansi_cfg s with
                   | Ret s' _ => match grown s s' with Some x => batter (s', feed (ansi_tty E) t x, k, ks) l | None => None end
                   | _ => None
                   end
        | BBreak => match compose E ansi_cfg s with
                    | Fail s' (EOs _) => match grown s s' with Some x => batter (s', feed (ansi_tty E) t x, k, k :: ks) l | None => None end
                    | _ => None
                    end
        end
    end.

  Definition narrow_bact (a : bact) : Prop := match a with BDo m => no_wide E (method_text m) | _ => True end.

  Lemma batter_ok l : forall s t k ks s' t' k' ks', battered E ansi_cfg (ansi_tty E) s t k ks -> Forall narrow_bact l ->
    batter (s, t, k, ks) l = Some (s', t', k', ks') -> battered E ansi_cfg (ansi_tty E) s' t' k' ks'.
  Proof.
    induction l as [|a l IH]; intros s t k ks s' t' k' ks' H Hl Hp; cbn [batter] in Hp.
    - injection Hp as <- <- <- <-. exact H.
    - inversion Hl; subst. destruct a as [m| |].
      + destruct (screen_method E m (sb s)) as [b|] eqn:Em; [|discriminate].
        refine (IH _ _ _ _ _ _ _ _ _ _ Hp); [|assumption]. now apply UF_method.
      + destruct (refresh E ansi_cfg s) as [s2 []| | |] eqn:Er; try discriminate.
        destruct (grown s s2) as [x|] eqn:Eg; [|discriminate].
        refine (IH _ _ _ _ _ _ _ _ _ _ Hp); [|assumption]. eapply UF_refresh; [exact H|exact Er|]. now apply grown_ok.
      + destruct (compose E ansi_cfg s) as [|s2 [n| | |c]| |] eqn:Er; try discriminate.
        destruct (grown s s2) as [x|] eqn:Eg; [|discriminate].
        refine (IH _ _ _ _ _ _ _ _ _ _ Hp); [|assumption]. eapply UF_failed; [exact H|exact Er|exact I|]. now apply grown_ok.
  Qed.

  Definition battering (sz : size) (sc : list wresp) (l : list bact) (P : canvas -> list canvas -> view -> bool) : bool :=
    match start E sz sc with
    | Some (s, t) => match batter (s, t, blank_canvas sz, []) l with
                     | Some (s, t, k, ks) => match refreshed E s t with Some (_, _, v) => P k ks v | None => false end
                     | None => false
                     end
    | None => false
    end.

  Lemma battering_ok sz sc l P : screen_size sz -> whole_writes sc -> Forall narrow_bact l ->
    battering sz sc l P = true ->
    exists s t k ks s' x v, battered E ansi_cfg (ansi_tty E) s t k ks /\
      refresh E ansi_cfg s = Ret s' tt /\ stream (wr s') = stream (wr s) ++ x /\
      look (ansi_tty E) (feed (ansi_tty E) t x) = Some v /\ P k ks v = true.
  Proof.
    intros Hs Hw Hl H. unfold battering in H. destruct (start E sz sc) as [[s0 t0]|] eqn:Es; [|discriminate].
    destruct (batter (s0, t0, blank_canvas sz, []) l) as [[[[s t] k] ks]|] eqn:Ep; [|discriminate].
    destruct (refreshed E s t) as [[[s' x] v]|] eqn:Ef; [|discriminate].
    destruct (refreshed_ok _ _ _ _ _ _ Ef) as (A & B & D). exists s, t, k, ks, s', x, v.
    split; [|auto]. refine (batter_ok l _ _ _ _ _ _ _ _ _ Hl Ep). apply UF_painted.
    unfold start in Es. destruct (screen_new _ _ _ _ _) as [s2 []| | |] eqn:En; try discriminate.
    injection Es as <- <-.
    apply (Pt_new E ansi_cfg (ansi_tty E) sz (writer_new (N.to_nat 8192) sc) s2 (emu_new sz)
      (View sz (repeat (VC [SPACE] no_attrs) (total sz)) (Cursor 0 0) no_attrs true)); auto.
    cbn [stream writer_new dev obuf app]. rewrite (feed_nil _ _ _ (ansi_implements E HE)). apply emu_new_look.
  Qed.
End Play.

(** A text of 8191 bytes at the first position, "e" with an accent at the second. *)
Definition fill_acts : list bact := [BDo (SWriteAt (Pair 0 0) big_text); BBreak; BDo (SWriteAt (Pair 0 2) [122]%N)].
Definition cell_text (v : view) (i : nat) : list N := match nth_error (vcells v) i with Some (VC t _) => t | _ => [] end.
Definition fill_shows (t1 : list N) (n : nat) (k : canvas) (ks : list canvas) (v : view) : bool :=
  (length (cell_text v 0) =? N.to_nat 4096) && bytes_eqb (cell_text v 1) t1 && bytes_eqb (cell_text v 2) [122]%N &&
  (length ks =? n).
Lemma fill_narrow : Forall (narrow_bact (demo_env 1000)) fill_acts.
Proof.
  apply Forall_cons; [exact big_text_narrow|]. apply Forall_cons; [exact I|]. apply Forall_cons; [|constructor].
  apply Forall_cons; [intros (_ & H); discriminate|constructor].
Qed.
