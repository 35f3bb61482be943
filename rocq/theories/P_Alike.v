(** Proofs for C136. *)
From Verif Require Import Base M_Utf8 S_Utf8 M_Geom S_Geom P_Geom M_Attr M_Buf S_Buf M_Writer S_Tty S_Writer M_Api S_Api P_Api S_Alike.
From Verif Require M_WinWriter S_WinWriter P_WinWriter S_WinScreen M_WinApi S_WinApi P_WinApi P_Attr.
Import M_WinWriter.

Lemma decode_units : forall n l text, length l <= n -> Forall (fun u => (u < 65536)%N) l ->
  S_WinWriter.utf16_decode l = Some text -> l = encode_wide text.
Proof.
  induction n as [|n IH]; intros l text Hn Hl Hd.
  - destruct l; [|cbn in Hn; lia]. cbn in Hd. injection Hd as <-. reflexivity.
  - destruct l as [|u l]; cbn [S_WinWriter.utf16_decode] in Hd; [injection Hd as <-; reflexivity|].
    inversion Hl as [|? ? Hu Hl']; subst. cbn [length] in Hn.
    destruct ((0xD800 <=? u) && (u <? 0xDC00))%N eqn:Hs.
    + destruct l as [|v l]; [discriminate Hd|]. inversion Hl' as [|? ? Hv Hl2]; subst. cbn [length] in Hn.
      destruct ((0xDC00 <=? v) && (v <? 0xE000))%N eqn:Ht; [|discriminate Hd].
      destruct (S_WinWriter.utf16_decode l) as [t|] eqn:Hr; [|discriminate Hd]. unfold option_map in Hd.
      remember (0x10000 + (u - 0xD800) * 0x400 + (v - 0xDC00))%N as c eqn:Hceq. injection Hd as <-.
      unfold encode_wide. cbn [flat_map]. fold (encode_wide t). rewrite <- (IH l t) by (assumption || lia).
      unfold utf16_units.
      replace (c <? 0x10000)%N with false by lia.
      assert (Hsr : (N.shiftr (c - 0x10000) 10 = (c - 0x10000) / 0x400)%N) by apply N.shiftr_div_pow2.
      assert (Hla : (N.land (c - 0x10000) 0x3FF = (c - 0x10000) mod 0x400)%N) by apply (N.land_ones _ 10).
      rewrite Hsr, Hla. replace (c - 0x10000)%N with ((u - 0xD800) * 0x400 + (v - 0xDC00))%N by lia.
      rewrite N.div_add_l by discriminate. rewrite (N.div_small (v - 0xDC00)) by lia.
      replace ((u - 0xD800) * 0x400 + (v - 0xDC00))%N with ((v - 0xDC00) + (u - 0xD800) * 0x400)%N by lia.
      rewrite N.mod_add by discriminate. rewrite N.mod_small by lia. cbn [app]. f_equal; [lia|f_equal; lia].
    + destruct ((0xDC00 <=? u) && (u <? 0xE000))%N; [discriminate Hd|].
      destruct (S_WinWriter.utf16_decode l) as [t|] eqn:Hr; [|discriminate Hd]. cbn [option_map] in Hd. injection Hd as <-.
      unfold encode_wide. cbn [flat_map]. fold (encode_wide t). rewrite <- (IH l t) by (assumption || lia).
      unfold utf16_units. replace (u <? 0x10000)%N with true by lia. reflexivity.
Qed.

(** Writing [app] in units. *)
Lemma encode_wide_cons c l : encode_wide (c :: l) = encode_wide [c] ++ encode_wide l.
Proof. unfold encode_wide. cbn [flat_map]. now rewrite app_nil_r. Qed.

(** The part of [alike] about what is seen. *)
Definition pic (shown : list N -> option N) (default : N) (u : S_Tty.view) (v : view) : Prop :=
  S_WinWriter.view_ok v /\ whole_window v /\
  v_size v = Coord (Z.of_nat (columns (vsize u))) (Z.of_nat (lines (vsize u))) /\
  v_cur v = Coord (Z.of_nat (column (vcur u))) (Z.of_nat (line (vcur u))) /\
  forall p, in_bounds p (vsize u) ->
    exists text a w g,
      nth_error (vcells u) (cell_no (vsize u) p) = Some (VC text a) /\
      v_cell v (Z.of_nat (line p)) (Z.of_nat (column p)) = (g, w) /\
      shown text = Some g /\ S_WinWriter.shows default a w.
Lemma alike_pic shown default u F : alike shown default u F <->
  pic shown default u (S_WinApi.f_view F) /\ S_WinApi.f_attrs F = vattrs u /\ snd (S_WinApi.f_cursor F) = vvis u.
Proof. unfold alike, pic. tauto. Qed.

Lemma pic_bounds shown default u v : pic shown default u v -> in_bounds (vcur u) (vsize u).
Proof.
  intros ((H1 & H2 & H3 & H4 & _) & _ & Hs & Hc & _). rewrite Hs, Hc in *. cbn [cX cY] in *. unfold in_bounds. lia.
Qed.

Section Steps.
  Variables (draw : list N -> N -> view -> view) (shown : list N -> option N) (default : N) (E : env).
  Hypothesis HP : S_WinScreen.places draw shown.
  Hypothesis HW : keeps_window draw.
  Hypothesis Hd : (default < 65536)%N.

  Lemma default_shows : S_WinWriter.shows default no_attrs default.
  Proof.
    pose proof (P_WinWriter.word_shows default no_attrs Hd) as H.
    assert (X : win_word default no_attrs = default) by (change (N.lor default 0 = default); apply N.lor_0_r).
    now rewrite X in H.
  Qed.

  (** Moving. *)
  Lemma pic_to u v v' q : pic shown default u v -> in_bounds q (vsize u) ->
    S_WinApi.to (Coord (Z.of_nat (column q)) (Z.of_nat (line q))) v v' -> pic shown default (set_vcur q u) v'.
  Proof.
    intros (Hok & Hw & Hs & Hc & Hcells) (Q1 & Q2) (T1 & T2 & T3 & (F1 & F2 & F3 & F4 & F5)).
    unfold whole_window in Hw. rewrite Hw, Hs in F5. cbn [rTop rBottom rLeft rRight cX cY] in F5.
    specialize (F5 ltac:(lia) ltac:(lia)). rewrite Hs in Hw. cbn [cX cY] in Hw.
    pose proof Hok as (O1 & O2 & _). rewrite Hs in O1, O2. cbn [cX cY] in O1, O2.
    unfold pic. cbn [vsize vcells vcur set_vcur]. split.
    { unfold S_WinWriter.view_ok. rewrite T1, T2, Hs, F5. cbn [rTop rBottom rLeft rRight cX cY]. lia. }
    split; [unfold whole_window; rewrite T1, Hs, F5; reflexivity|].
    split; [rewrite T1; exact Hs|]. split; [exact T2|]. rewrite T3. exact Hcells.
  Qed.
  Lemma pic_stay u v v' : pic shown default u v ->
    S_WinApi.to (v_cur v) v v' -> pic shown default u v'.
  Proof.
    intros P T. pose proof (pic_bounds _ _ _ _ P) as B. pose proof P as (_ & _ & _ & Hc & _). rewrite Hc in T.
    replace u with (set_vcur (vcur u) u) by (destruct u; reflexivity). now apply (pic_to u v v').
  Qed.

  (** Erasing. *)
  Lemma pic_wiped u u' v v' i k (P : Z -> Z -> bool) : pic shown default u v -> vattrs u = no_attrs ->
    same_but_cells u u' -> erased i k u u' -> S_WinApi.wiped default P v v' ->
    (forall p, in_bounds p (vsize u) ->
       P (Z.of_nat (line p)) (Z.of_nat (column p)) = true <-> i <= cell_no (vsize u) p < k) ->
    pic shown default u' v'.
  Proof.
    intros (Hok & Hw & Hs & Hc & Hcells) Ha (S1 & S2 & S3 & S4 & _) (E1 & E2) (W1 & W2 & W3 & W4) HPi.
    unfold pic. rewrite S1, S2. split.
    { unfold S_WinWriter.view_ok in *. now rewrite W1, W2, W3. }
    split; [unfold whole_window in *; now rewrite W1, W3|].
    split; [now rewrite W1|]. split; [now rewrite W2|].
    intros p Hp. specialize (HPi p Hp). pose proof Hp as (Hp1 & Hp2).
    rewrite W4 by (rewrite Hs; cbn [cX cY]; lia).
    destruct (P (Z.of_nat (line p)) (Z.of_nat (column p))) eqn:HPp.
    - destruct (E2 (cell_no (vsize u) p)) as (a & N & A); [now apply HPi|]. rewrite (A Ha) in N.
      exists [SPACE], no_attrs, default, SPACE. split; [exact N|]. split; [reflexivity|].
      split; [apply (S_WinScreen.p_space _ _ HP)|exact default_shows].
    - rewrite E1; [now apply Hcells|].
      destruct (Nat.lt_ge_cases (cell_no (vsize u) p) i) as [H|H]; [auto|].
      destruct (Nat.lt_ge_cases (cell_no (vsize u) p) k) as [H2|H2]; [|auto].
      discriminate (proj2 HPi (conj H H2)).
  Qed.

  (** One character. *)
  Lemma pic_types c w u u' v : scalar c -> narrow E c -> shown [c] <> None -> pic shown default u v ->
    column (vcur u) + 1 < columns (vsize u) -> S_WinWriter.shows default (vattrs u) w -> types E c u u' ->
    pic shown default u' (draw (encode_wide [c]) w v) /\
    vcur u' = Cursor (line (vcur u)) (column (vcur u) + 1) /\ vsize u' = vsize u /\ vattrs u' = vattrs u /\ vvis u' = vvis u.
  Proof.
    intros Hsc (Hpr & Hwi) Hsh P Hcol Hw (_ & Hput & _).
    pose proof (pic_bounds _ _ _ _ P) as B.
    pose proof P as (Hok & Hww & Hs & Hc & Hcells).
    destruct (shown [c]) as [g|] eqn:Hg; [|congruence]. clear Hsh.
    assert (R : room 1 u).
    { split; [exact (proj1 B)|]. split; [lia|]. cbn zeta.
      destruct (Hcells _ B) as (t & a & w0 & g0 & X & _). rewrite X. discriminate. }
    destruct (Hput 1 Hwi Hpr R) as (U1 & U2 & U3 & _ & U5 & U6 & _ & U8 & U9 & _).
    destruct (S_WinScreen.p_cell _ _ HP [c] g w v Hg Hok) as (D1 & D2 & D3 & D4).
    rewrite Hs, Hc in D3. cbn [cX cY] in D3.
    split; [|rewrite U1, U2, U3, U5; auto].
    unfold pic. split; [exact D1|]. split; [now apply HW|]. rewrite U1, U5. split; [rewrite D2; exact Hs|].
    split; [rewrite D3 by lia; cbn [line column]; f_equal; lia|].
    intros p Hp. pose proof Hp as (Hp1 & Hp2). rewrite D4 by (rewrite Hs; cbn [cX cY]; lia). rewrite Hc. cbn [cX cY].
    destruct ((Z.of_nat (line p) =? Z.of_nat (line (vcur u))) && (Z.of_nat (column p) =? Z.of_nat (column (vcur u))))%Z eqn:Hpp.
    - assert (p = vcur u) as -> by (destruct p as [pl pc], (vcur u) as [ul uc]; cbn [line column] in *; f_equal; lia).
      exists [c], (vattrs u), w, g. auto.
    - assert (Hne : cell_no (vsize u) p <> cell_no (vsize u) (vcur u)).
      { intros X. apply (cell_no_inj _ _ _ Hp B) in X. subst p. lia. }
      assert (X : nth_error (vcells u') (cell_no (vsize u) p) = nth_error (vcells u) (cell_no (vsize u) p)).
      { destruct (Nat.eq_dec (cell_no (vsize u) p) (cell_no (vsize u) (vcur u) + 1)) as [Heq|Hneq].
        - rewrite Heq. apply U9. rewrite <- Heq. destruct (Hcells p Hp) as (t & a & w0 & g0 & Y & _). rewrite Y. discriminate.
        - apply U8. lia. }
      rewrite X. now apply Hcells.
  Qed.

  (** A text. *)
  Lemma pic_prints w text : forall u u' v, plain_text E shown text -> pic shown default u v ->
    column (vcur u) + length text < columns (vsize u) -> S_WinWriter.shows default (vattrs u) w -> prints E text u u' ->
    pic shown default u' (draw (encode_wide text) w v) /\
    vcur u' = Cursor (line (vcur u)) (column (vcur u) + length text) /\ vsize u' = vsize u /\ vattrs u' = vattrs u /\ vvis u' = vvis u.
  Proof.
    induction text as [|c text IH]; intros u u' v Ht P Hcol Hw Hpr.
    - inversion Hpr; subst. change (encode_wide []) with (@nil N). rewrite (S_WinScreen.p_nil _ _ HP).
      split; [exact P|]. cbn [length]. rewrite Nat.add_0_r. destruct (vcur u'); auto.
    - inversion Hpr as [|? ? ? u1 ? T1 T2]; subst. inversion Ht as [|? ? (C1 & C2 & C3) Ht']; subst. cbn [length] in *.
      destruct (pic_types c w u u1 v C1 C2 C3 P ltac:(lia) Hw T1) as (Q1 & Q2 & Q3 & Q4 & Q5).
      rewrite encode_wide_cons, (S_WinScreen.p_app _ _ HP).
      destruct (IH u1 u' _ Ht' Q1) as (R1 & R2 & R3 & R4 & R5); [rewrite Q2, Q3; cbn [column]; lia|now rewrite Q4|exact T2|].
      split; [exact R1|]. rewrite R2, R3, R4, R5, Q2, Q3, Q4, Q5. cbn [line column]. split; [f_equal; lia|auto].
  Qed.

  Lemma pic_text u u' v v' text : plain_text E shown text -> pic shown default u v ->
    column (vcur u) + length text < columns (vsize u) -> prints E text u u' ->
    S_WinApi.types_text draw default (vattrs u) text v v' ->
    pic shown default u' v' /\
    vcur u' = Cursor (line (vcur u)) (column (vcur u) + length text) /\ vsize u' = vsize u /\ vattrs u' = vattrs u /\ vvis u' = vvis u.
  Proof.
    intros Ht P Hcol Hpr (units & w & U1 & U2 & U3 & ->).
    rewrite (decode_units (length units) units text (le_n _) U1 U2). now apply (pic_prints w text u u' v).
  Qed.

  Lemma set_vattrs_pic u v a : pic shown default u v -> pic shown default (set_vattrs a u) v.
  Proof. exact (fun H => H). Qed.
  Lemma set_vvis_pic u v a : pic shown default u v -> pic shown default (set_vvis a u) v.
  Proof. exact (fun H => H). Qed.

  Lemma method_alike m u u' F F' p a : plain_method E shown m -> alike shown default u F ->
    effect E m u u' -> S_WinApi.win_effect draw default m F F' ->
    walk (vsize u) m (vcur u) (vattrs u) = Some (p, a) ->
    alike shown default u' F' /\ vsize u' = vsize u /\ vcur u' = p /\ vattrs u' = a.
  Proof.
    intros Hm HA HE HF Hwk. apply alike_pic in HA as (P & A & V).
    pose proof (pic_bounds _ _ _ _ P) as B. pose proof P as (Hok & Hww & Hs & Hc & Hcells).
    assert (OC : on_cell u).
    { split; [exact B|]. destruct (Hcells _ B) as (t & a0 & w0 & g0 & X & _). rewrite X. discriminate. }
    destruct B as (B1 & B2).
    destruct F as [v fa fc]. cbn [S_WinApi.f_view S_WinApi.f_attrs S_WinApi.f_cursor] in *.
    destruct m; cbn [effect S_WinApi.win_effect walk plain_method] in *;
      cbn [S_WinApi.f_view S_WinApi.f_attrs S_WinApi.f_cursor] in *; unfold S_WinApi.on_view_only, S_WinApi.restyled, with_style, goes in *;
      cbn [S_WinApi.f_view S_WinApi.f_attrs S_WinApi.f_cursor] in *.
    all: try (subst F' u'; rewrite ?A; injection Hwk as <- <-;
      split; [apply alike_pic; cbn [S_WinApi.f_view S_WinApi.f_attrs S_WinApi.f_cursor set_vattrs vattrs vvis]; auto|
              cbn [set_vattrs vsize vcur vattrs]; auto]; fail).
    - (* clear_screen *) destruct (attrs_eqb (vattrs u) no_attrs) eqn:Ea; [|discriminate Hwk]. injection Hwk as <- <-.
      apply P_Attr.attrs_eqb_eq in Ea. destruct HE as (U1 & U2 & U3 & U4 & U5).
      destruct HF as (A1 & A2 & A3 & A4 & A5 & _ & A6).
      destruct A6 as (A6 & A7); [unfold S_WinWriter.win_height; rewrite Hww, Hs; cbn [rTop rBottom cY]; lia|].
      split; [|auto]. apply alike_pic. rewrite U3, U4, A1, A2. split; [|auto].
      unfold pic. rewrite U1, U2. unfold whole_window in *. rewrite Hs in *. cbn [cX cY] in *.
      rewrite A6, Hww in A5. cbn [rLeft rTop] in A5.
      split; [|split; [|split; [|split]]].
      + unfold S_WinWriter.view_ok in *. rewrite A3, A5, A6, Hww in *. rewrite Hs in *. cbn [cX cY rTop rLeft rRight rBottom] in *. lia.
      + rewrite A6, A3. exact Hww.
      + exact A3.
      + exact A5.
      + intros q (Q1 & Q2). destruct U5 as (_ & U5).
        destruct (U5 (cell_no (vsize u) q)) as (b & N & Ab); [pose proof (cell_no_lt (vsize u) q (conj Q1 Q2)); lia|].
        rewrite (Ab Ea) in N. exists [SPACE], no_attrs, default, SPACE. split; [exact N|].
        split; [apply A7; lia|]. split; [apply (S_WinScreen.p_space _ _ HP)|exact default_shows].
    - (* clear_to_line_end *) destruct (attrs_eqb (vattrs u) no_attrs) eqn:Ea; [|discriminate Hwk]. injection Hwk as <- <-.
      apply P_Attr.attrs_eqb_eq in Ea. destruct HE as (U1 & U2). destruct HF as (A1 & A2 & A3). specialize (U2 OC).
      pose proof U1 as (S1 & S2 & S3 & S4 & S5). split; [|auto]. apply alike_pic. rewrite S3, S4, A1, A2. split; [|auto].
      apply (pic_wiped u u' v _ _ _ _ P Ea U1 U2 A3).
      intros q (Q1 & Q2). rewrite Hc. cbn [cX cY]. unfold cell_no. split; [intros X|intros X; assert (line q = line (vcur u)) by nia; nia].
      assert (line q = line (vcur u)) by lia. nia.
    - (* clear_to_screen_end *) destruct (attrs_eqb (vattrs u) no_attrs) eqn:Ea; [|discriminate Hwk]. injection Hwk as <- <-.
      apply P_Attr.attrs_eqb_eq in Ea. destruct HE as (U1 & U2). destruct HF as (A1 & A2 & A3). specialize (U2 OC).
      pose proof U1 as (S1 & S2 & S3 & S4 & S5). split; [|auto]. apply alike_pic. rewrite S3, S4, A1, A2. split; [|auto].
      apply (pic_wiped u u' v _ _ _ _ P Ea U1 U2 A3).
      intros q (Q1 & Q2). rewrite Hc. cbn [cX cY]. pose proof (cell_no_lt (vsize u) q (conj Q1 Q2)) as L. unfold cell_no in *.
      split; [intros X; split; [|exact L]|intros X].
      + assert (line (vcur u) < line q \/ line q = line (vcur u) /\ column (vcur u) <= column q) as [Y|Y] by lia; nia.
      + assert (line (vcur u) < line q \/ line q = line (vcur u) /\ column (vcur u) <= column q) as [Y|Y] by nia; lia.
    - (* move_up *) destruct (Nat.leb_spec n (line (vcur u))) as [L|L]; [|discriminate Hwk]. injection Hwk as <- <-.
      destruct HF as (_ & A1 & A2 & A3). destruct HE as (M0 & _ & M1).
      assert (u' = set_vcur (Cursor (line (vcur u) - n) (column (vcur u))) u) as ->.
      { destruct (Nat.eq_dec n 0) as [->|N0].
        - rewrite M0 by reflexivity. rewrite Nat.sub_0_r. destruct u as [? ? [? ?] ? ?]; reflexivity.
        - apply M1; [lia| |exact B2]. pose proof Hok as (_ & O2 & _). rewrite Hs in O2. cbn [cY] in O2. unfold u32_max. lia. }
      split; [|auto]. apply alike_pic. cbn [set_vcur vattrs vvis]. rewrite A1, A2. split; [|auto].
      apply (pic_to u v); [exact P|split; cbn [line column]; lia|]. rewrite Hc in A3. cbn [cX cY line column] in *.
      replace (Z.of_nat (line (vcur u) - n)) with (Z.of_nat (line (vcur u)) - Z.of_nat n)%Z by lia. exact A3.
    - (* move_down *) destruct (N.leb_spec (N.of_nat n) u32_max) as [L|L]; [|discriminate Hwk]. injection Hwk as <- <-.
      destruct HF as (A1 & A2 & A3). destruct HE as (M0 & _ & M1).
      assert (u' = set_vcur (Cursor (Nat.min (line (vcur u) + n) (lines (vsize u) - 1)) (column (vcur u))) u) as ->.
      { destruct (Nat.eq_dec n 0) as [->|N0].
        - rewrite M0 by reflexivity. rewrite Nat.add_0_r, Nat.min_l by lia. destruct u as [? ? [? ?] ? ?]; reflexivity.
        - apply M1; [lia|exact L|exact B2]. }
      split; [|auto]. apply alike_pic. cbn [set_vcur vattrs vvis]. rewrite A1, A2. split; [|auto].
      apply (pic_to u v); [exact P|split; cbn [line column]; lia|]. rewrite Hc, Hs in A3. cbn [cX cY line column] in *.
      replace (Z.of_nat (Nat.min (line (vcur u) + n) (lines (vsize u) - 1)))
        with (Z.min (Z.of_nat (line (vcur u)) + Z.of_nat n) (Z.of_nat (lines (vsize u)) - 1)) by lia. exact A3.
    - (* move_left *) destruct (Nat.leb_spec n (column (vcur u))) as [L|L]; [|discriminate Hwk]. injection Hwk as <- <-.
      destruct HF as (_ & A1 & A2 & A3). destruct HE as (M0 & _ & M1).
      assert (u' = set_vcur (Cursor (line (vcur u)) (column (vcur u) - n)) u) as ->.
      { destruct (Nat.eq_dec n 0) as [->|N0].
        - rewrite M0 by reflexivity. rewrite Nat.sub_0_r. destruct u as [? ? [? ?] ? ?]; reflexivity.
        - apply M1; [lia| |exact B2]. pose proof Hok as (O2 & _). rewrite Hs in O2. cbn [cX] in O2. unfold u32_max. lia. }
      split; [|auto]. apply alike_pic. cbn [set_vcur vattrs vvis]. rewrite A1, A2. split; [|auto].
      apply (pic_to u v); [exact P|split; cbn [line column]; lia|]. rewrite Hc in A3. cbn [cX cY line column] in *.
      replace (Z.of_nat (column (vcur u) - n)) with (Z.of_nat (column (vcur u)) - Z.of_nat n)%Z by lia. exact A3.
    - (* move_right *) destruct (N.leb_spec (N.of_nat n) u32_max) as [L|L]; [|discriminate Hwk]. injection Hwk as <- <-.
      destruct HF as (A1 & A2 & A3). destruct HE as (M0 & _ & M1).
      assert (u' = set_vcur (Cursor (line (vcur u)) (Nat.min (column (vcur u) + n) (columns (vsize u) - 1))) u) as ->.
      { destruct (Nat.eq_dec n 0) as [->|N0].
        - rewrite M0 by reflexivity. rewrite Nat.add_0_r, Nat.min_l by lia. destruct u as [? ? [? ?] ? ?]; reflexivity.
        - apply M1; [lia|exact L|exact B2]. }
      split; [|auto]. apply alike_pic. cbn [set_vcur vattrs vvis]. rewrite A1, A2. split; [|auto].
      apply (pic_to u v); [exact P|split; cbn [line column]; lia|]. rewrite Hc, Hs in A3. cbn [cX cY line column] in *.
      replace (Z.of_nat (Nat.min (column (vcur u) + n) (columns (vsize u) - 1)))
        with (Z.min (Z.of_nat (column (vcur u)) + Z.of_nat n) (Z.of_nat (columns (vsize u)) - 1)) by lia. exact A3.
    - (* move_to_first_column *) injection Hwk as <- <-. subst u'. destruct HF as (A1 & A2 & A3).
      split; [|auto]. apply alike_pic. cbn [set_vcur vattrs vvis]. rewrite A1, A2. split; [|auto].
      apply (pic_to u v); [exact P|split; cbn [line column]; lia|]. rewrite Hc in A3. exact A3.
    - (* set_cursor_mode *) injection Hwk as <- <-. destruct m; [subst F'|destruct HF as (n & ->)|subst F']; subst u';
        (split; [apply alike_pic; cbn [S_WinApi.f_view S_WinApi.f_attrs S_WinApi.f_cursor set_vvis vattrs vvis snd]; auto|auto]).
    - (* set_style *) destruct s as [s|]; subst F' u'; injection Hwk as <- <-;
        (split; [apply alike_pic; cbn [S_WinApi.f_view S_WinApi.f_attrs S_WinApi.f_cursor set_vattrs vattrs vvis]; rewrite ?A; auto|auto]).
    - (* write_styled *) destruct Hm as (_ & Ht). unfold along in Hwk.
      destruct (Nat.ltb_spec (column (vcur u) + length text) (columns (vsize u))) as [L|L]; [|discriminate Hwk].
      cbn [option_map] in Hwk. injection Hwk as <- <-. destruct HE as (u2 & U1 & ->). destruct HF as (v' & V1 & ->).
      destruct (pic_text _ _ _ _ _ Ht (set_vattrs_pic _ _ _ P) L U1 V1) as (R1 & R2 & R3 & R4 & R5).
      split; [|auto]. apply alike_pic. cbn [S_WinApi.f_view S_WinApi.f_attrs S_WinApi.f_cursor set_vattrs vattrs vvis] in *.
      split; [exact R1|]. split; [reflexivity|]. rewrite R5. exact V.
    - (* write_char *) unfold along in Hwk.
      destruct (Nat.ltb_spec (column (vcur u) + 1) (columns (vsize u))) as [L|L]; [|discriminate Hwk].
      cbn [option_map] in Hwk. injection Hwk as <- <-. destruct HF as (A1 & A2 & A3). rewrite A in A3.
      assert (U1 : prints E [c] u u') by (econstructor; [exact HE|constructor]).
      destruct (pic_text _ _ _ _ _ Hm P L U1 A3) as (R1 & R2 & R3 & R4 & R5).
      split; [|auto]. apply alike_pic. rewrite A1, A2, R4, R5. auto.
    - (* write_str *) unfold along in Hwk.
      destruct (Nat.ltb_spec (column (vcur u) + length text) (columns (vsize u))) as [L|L]; [|discriminate Hwk].
      cbn [option_map] in Hwk. injection Hwk as <- <-. destruct HF as (A1 & A2 & A3). rewrite A in A3.
      destruct (pic_text _ _ _ _ _ Hm P L HE A3) as (R1 & R2 & R3 & R4 & R5).
      split; [|auto]. apply alike_pic. rewrite A1, A2, R4, R5. auto.
    - (* write_fmt *) unfold along in Hwk.
      destruct (Nat.ltb_spec (column (vcur u) + length (concat pieces)) (columns (vsize u))) as [L|L]; [|discriminate Hwk].
      cbn [option_map] in Hwk. injection Hwk as <- <-. destruct HF as (A1 & A2 & A3). rewrite A in A3.
      destruct (pic_text _ _ _ _ _ Hm P L HE A3) as (R1 & R2 & R3 & R4 & R5).
      split; [|auto]. apply alike_pic. rewrite A1, A2, R4, R5. auto.
  Qed.

  Lemma call_alike c m u u' F F' p a : c = OnGuard m \/ c = OnTerminal m -> plain_method E shown m -> alike shown default u F ->
    effect E m u u' -> S_WinApi.call_effect draw default c F F' ->
    walk (vsize u) m (vcur u) (vattrs u) = Some (p, a) ->
    alike shown default u' F' /\ vsize u' = vsize u /\ vcur u' = p /\ vattrs u' = a.
  Proof.
    intros [->| ->] Hm HA HE HF Hwk; cbn [S_WinApi.call_effect] in HF; [now apply (method_alike m u u' F F')|].
    destruct (S_WinApi.no_move m) eqn:N; [|now apply (method_alike m u u' F F')]. subst F'.
    pose proof (proj1 (proj1 (alike_pic _ _ _ _) HA)) as P. pose proof (pic_bounds _ _ _ _ P) as (B1 & B2).
    destruct m; cbn [S_WinApi.no_move] in N; try discriminate N; apply Nat.eqb_eq in N; subst n;
      cbn [effect walk] in *; destruct HE as (M0 & _); rewrite (M0 eq_refl) in *.
    all: split; [exact HA|]; split; [reflexivity|].
    all: repeat match type of Hwk with (if ?b then _ else _) = _ => destruct b; [|discriminate Hwk] end; injection Hwk as <- <-; split; [|reflexivity].
    all: rewrite ?Nat.sub_0_r, ?Nat.add_0_r, ?Nat.min_l by lia; destruct (vcur u); reflexivity.
  Qed.

  Lemma calls_alike cs : forall u u' F F' p a, Forall (fun c => plain_method E shown (method_of c)) cs -> alike shown default u F ->
    effects E cs u u' -> S_WinApi.win_effects draw default cs F F' ->
    walks (vsize u) cs (vcur u) (vattrs u) = Some (p, a) ->
    alike shown default u' F' /\ vcur u' = p /\ vattrs u' = a.
  Proof.
    induction cs as [|c cs IH]; intros u u' F F' p a Hm HA HE HF Hwk.
    - inversion HE; inversion HF; subst. cbn [walks] in Hwk. injection Hwk as <- <-. auto.
    - inversion HE as [|? m ? ? u1 ? Hcm E1 E2]; inversion HF as [|? ? ? F1 ? G1 G2]; subst. inversion Hm as [|? ? Hm1 Hm2]; subst.
      assert (method_of c = m) as Hmo by (destruct Hcm as [->| ->]; reflexivity). rewrite Hmo in Hm1. cbn [walks] in Hwk. rewrite Hmo in Hwk.
      destruct (walk (vsize u) m (vcur u) (vattrs u)) as [[q b]|] eqn:W; [|discriminate Hwk].
      destruct (call_alike c m u u1 F F1 q b Hcm Hm1 HA E1 G1 W) as (R1 & R2 & R3 & R4).
      apply (IH u1 u' F1 F'); try assumption. now rewrite R2, R3, R4.
  Qed.
End Steps.

Lemma narrow_texty E c : scalar c -> narrow E c -> texty E c.
Proof. intros S (P & _). split; [exact S|auto]. Qed.
Lemma plain_texty E shown t : plain_text E shown t -> Forall (texty E) t.
Proof. apply Forall_impl. intros c (H1 & H2 & _). now apply narrow_texty. Qed.
Lemma plain_scalar E shown t : plain_text E shown t -> Forall scalar t.
Proof. apply Forall_impl. intros c (H1 & _). exact H1. Qed.
Lemma Forall_concat_inv {A} (P : A -> Prop) l : Forall P (concat l) -> Forall (Forall P) l.
Proof.
  induction l as [|x l IH]; cbn [concat]; intros H; [constructor|]. apply Forall_app in H as (H1 & H2). constructor; auto.
Qed.

Lemma plain_sensible E shown c : plain_method E shown (method_of c) -> on_api (sensible E) c.
Proof.
  enough (X : forall m, plain_method E shown m -> sensible E m) by (destruct c as [m|m]; apply X).
  intros m. destruct m; cbn [plain_method sensible]; auto.
  - intros (H1 & H2). split; [exact H1|]. exact (plain_texty _ _ _ H2).
  - intros H. apply plain_texty in H. now inversion H.
  - apply plain_texty.
  - intros H. apply Forall_concat_inv. exact (plain_texty _ _ _ H).
Qed.
Lemma plain_call_scalar E shown c : plain_method E shown (method_of c) -> S_WinApi.call_scalar c.
Proof.
  enough (X : forall m, plain_method E shown m -> S_WinApi.scalar_text m) by (destruct c as [m|m]; apply X).
  intros m. destruct m; cbn [plain_method S_WinApi.scalar_text]; auto.
  - intros (H1 & H2). exact (plain_scalar _ _ _ H2).
  - intros H. apply plain_scalar in H. now inversion H.
  - apply plain_scalar.
  - intros H. apply Forall_concat_inv. exact (plain_scalar _ _ _ H).
Qed.

(** C136. *)
Lemma same_calls draw shown default E C K t0 cs w w' s s' u F p a :
  S_WinScreen.places draw shown -> S_WinApi.draws draw -> keeps_window draw -> (default < 65536)%N -> (65536 <= Z.of_nat (umax E))%Z ->
  implements E C K -> full_caps C ->
  Forall (fun c => plain_method E shown (method_of c)) cs ->
  whole_writes (script w) -> style_ok (sty (wat w)) ->
  look K (feed K t0 (stream w)) = Some u -> vattrs u = wat w ->
  S_WinApi.faces default (w_con s) F -> S_WinApi.f_attrs F = w_at s ->
  alike shown default u F ->
  walks (vsize u) cs (vcur u) (vattrs u) = Some (p, a) ->
  api_run C cs w = Some w' -> M_WinApi.win_api_run draw default E cs s = Some s' ->
  exists u' F', look K (feed K t0 (stream w')) = Some u' /\ S_WinApi.faces default (w_con s') F' /\
    alike shown default u' F' /\ vcur u' = p /\ vattrs u' = a.
Proof.
  intros HP HD HW Hd HE HK HC Hm Hw Hs Hl Hv Hf Hfa HA Hwk R1 R2.
  destruct (api_does E C K t0 cs HK HC w w' u) as (u' & L & Ef & _); try assumption.
  { eapply Forall_impl; [|exact Hm]. intros c. apply plain_sensible. }
  destruct (P_WinApi.win_api_does draw default E HD Hd HE cs s s' F) as (F' & G1 & G2 & _); try assumption.
  { eapply Forall_impl; [|exact Hm]. intros c. apply plain_call_scalar. }
  { exact (proj1 HA). }
  exists u', F'. split; [exact L|]. split; [exact G1|].
  exact (calls_alike draw shown default E HP HW Hd cs u u' F F' p a Hm HA Ef G2 Hwk).
Qed.

(** The calls succeed on Windows, as long as the console does not fail. *)
Lemma calls_work draw shown default E : S_WinScreen.places draw shown -> S_WinApi.draws draw -> keeps_window draw -> (default < 65536)%N ->
  (65536 <= Z.of_nat (umax E))%Z -> forall cs u u' s F p a,
  Forall (fun c => plain_method E shown (method_of c)) cs -> effects E cs u u' ->
  S_WinApi.faces default (w_con s) F -> S_WinApi.f_attrs F = w_at s -> alike shown default u F ->
  S_WinWriter.no_failure (c_answers (w_con s)) ->
  walks (vsize u) cs (vcur u) (vattrs u) = Some (p, a) ->
  exists s', M_WinApi.win_api_run draw default E cs s = Some s'.
Proof.
  intros HP HD HW Hd HU. induction cs as [|c cs IH]; intros u u' s F p a Hm HE Hf Hfa HA Hn Hwk; [cbn; eauto|].
  inversion HE as [|? m ? ? u1 ? Hcm E1 E2]; subst. inversion Hm as [|? ? Hm1 Hm2]; subst.
  assert (Hmo : method_of c = m) by (destruct Hcm as [->| ->]; reflexivity). rewrite Hmo in Hm1. cbn [walks] in Hwk. rewrite Hmo in Hwk.
  destruct (walk (vsize u) m (vcur u) (vattrs u)) as [[q b]|] eqn:W; [|discriminate Hwk].
  pose proof (proj1 HA) as Hok. pose proof HA as (_ & _ & Hs & Hc & _).
  assert (Hok' : S_WinWriter.view_ok (c_view (w_con s))) by (destruct Hf as (-> & _); exact Hok).
  pose proof (P_WinApi.call_fine draw default E Hd HU c s Hok' Hn) as CF.
  cbn [M_WinApi.win_api_run].
  destruct (M_WinApi.win_api_run1 draw default E c s) as [s1 []|s1 e| |] eqn:R; try contradiction.
  - destruct CF as (_ & Hn1).
    destruct (P_WinApi.win_api_does draw default E HD Hd HU [c] s s1 F) as (F1 & G1 & G2 & G3 & _); try assumption.
    { constructor; [|constructor]. apply (plain_call_scalar E shown). now rewrite Hmo. }
    { cbn [M_WinApi.win_api_run]. now rewrite R. }
    inversion G2 as [|? ? ? F2 ? K1 K2]; subst. inversion K2; subst.
    destruct (call_alike draw shown default E HP HW Hd c _ u u1 F F1 q b Hcm Hm1 HA E1 K1 W) as (R1 & R2 & R3 & R4).
    apply (IH u1 u' s1 F1 p a); try assumption. now rewrite R2, R3, R4.
  - exfalso. destruct CF as (O & _). destruct Hf as (Hv & _). rewrite Hv in O.
    destruct Hcm as [->| ->]; destruct m; cbn [S_WinApi.over_edge walk] in *; try contradiction; rewrite Hc in O; cbn [cX cY] in O.
    all: match type of W with (if ?b then _ else _) = _ => destruct b eqn:B; [lia|discriminate W] end.
Qed.

Lemma same_calls_work draw shown default E C K t0 cs w w' s u F p a :
  S_WinScreen.places draw shown -> S_WinApi.draws draw -> keeps_window draw -> (default < 65536)%N -> (65536 <= Z.of_nat (umax E))%Z ->
  implements E C K -> full_caps C ->
  Forall (fun c => plain_method E shown (method_of c)) cs ->
  whole_writes (script w) -> style_ok (sty (wat w)) ->
  look K (feed K t0 (stream w)) = Some u -> vattrs u = wat w ->
  S_WinApi.faces default (w_con s) F -> S_WinApi.f_attrs F = w_at s ->
  alike shown default u F ->
  walks (vsize u) cs (vcur u) (vattrs u) = Some (p, a) ->
  api_run C cs w = Some w' -> S_WinWriter.no_failure (c_answers (w_con s)) ->
  exists s', M_WinApi.win_api_run draw default E cs s = Some s'.
Proof.
  intros HP HD HW Hd HE HK HC Hm Hw Hs Hl Hv Hf Hfa HA Hwk R1 Hn.
  destruct (api_does E C K t0 cs HK HC w w' u) as (u' & L & Ef & _); try assumption.
  { eapply Forall_impl; [|exact Hm]. intros c. apply plain_sensible. }
  now apply (calls_work draw shown default E HP HD HW Hd HE cs u u' s F p a).
Qed.
