(** The writer's attribute methods against the terminal contract. *)
From Verif Require Import Base M_Utf8 S_Utf8 M_Geom M_Attr M_Buf M_Writer S_Tty S_Writer P_Writer.

(** ** Styles as bits *)
Lemma contains_BOLD a : style_contains a BOLD = N.testbit a 0.
Proof. destruct a as [|[p|p|]]; reflexivity. Qed.
Lemma contains_ITALIC a : style_contains a ITALIC = N.testbit a 1.
Proof. destruct a as [|[[p|p|]|[p|p|]|]]; reflexivity. Qed.
Lemma contains_REVERSE a : style_contains a REVERSE = N.testbit a 2.
Proof. destruct a as [|[[[p|p|]|[p|p|]|]|[[p|p|]|[p|p|]|]|]]; reflexivity. Qed.
Lemma contains_UNDERLINE a : style_contains a UNDERLINE = N.testbit a 3.
Proof.
  destruct a as [|[[[[p|p|]|[p|p|]|]|[[p|p|]|[p|p|]|]|]|[[[p|p|]|[p|p|]|]|[[p|p|]|[p|p|]|]|]|]]; reflexivity.
Qed.

Lemma bit_flags n :
  N.testbit BOLD n = (n =? 0)%N /\ N.testbit ITALIC n = (n =? 1)%N /\
  N.testbit REVERSE n = (n =? 2)%N /\ N.testbit UNDERLINE n = (n =? 3)%N.
Proof. destruct n as [|[[p|p|]|[p|p|]|]]; repeat split; reflexivity. Qed.

Lemma bits4 (P : N -> Prop) : P 0%N -> P 1%N -> P 2%N -> P 3%N ->
  (forall n, (n =? 0)%N = false -> (n =? 1)%N = false -> (n =? 2)%N = false -> (n =? 3)%N = false -> P n) ->
  forall n, P n.
Proof.
  intros H0 H1 H2 H3 H n.
  destruct (N.eqb_spec n 0) as [->|?]; auto. destruct (N.eqb_spec n 1) as [->|?]; auto.
  destruct (N.eqb_spec n 2) as [->|?]; auto. destruct (N.eqb_spec n 3) as [->|?]; auto.
  apply H; apply N.eqb_neq; assumption.
Qed.

Lemma style_ok_bits s : style_ok s -> forall n, (3 < n)%N -> N.testbit s n = false.
Proof.
  unfold style_ok. intros H n Hn. destruct (N.eq_dec s 0) as [->|Hs]; [apply N.bits_0|].
  apply N.bits_above_log2. apply N.log2_lt_pow2; [lia|].
  apply N.lt_le_trans with (2 ^ 4)%N; [exact H|]. apply N.pow_le_mono_r; lia.
Qed.

Lemma testbit_if (b : bool) x y n : N.testbit (if b then x else y) n = if b then N.testbit x n else N.testbit y n.
Proof. now destruct b. Qed.

(** ** Outcomes *)
Definition ok (r : wres) (P : wst -> Prop) : Prop :=
  match r with Ret w _ => P w | Fail _ _ => True | Panic => False | Blocked => False end.

Lemma ok_bind r k P : ok r (fun w => ok (k w tt) P) -> ok (obind r k) P.
Proof. destruct r as [w []|w e| |]; auto. Qed.

Lemma ok_impl r (P Q : wst -> Prop) : ok r P -> (forall w, P w -> Q w) -> ok r Q.
Proof. destruct r; cbn; auto. Qed.

Section Attr.
  Variable C : tcfg.

  (** From [w] to [w'] the writer appended bytes that take any terminal with
      attributes [p] in force to attributes [q], everything else unchanged. *)
  Definition tr (w w' : wst) (p q : attrs) : Prop :=
    dev w' = dev w /\ script w' = script w /\
    exists x, obuf w' = obuf w ++ x /\
      forall E K, caps_coherent C -> implements E C K ->
        forall t v, look K t = Some v -> vattrs v = p ->
        look K (feed K t x) = Some (set_vattrs q v).

  Lemma set_vattrs_id v p : vattrs v = p -> set_vattrs p v = v.
  Proof. intros <-. destruct v; reflexivity. Qed.

  Lemma set_vattrs_2 v p q : set_vattrs p (set_vattrs q v) = set_vattrs p v.
  Proof. reflexivity. Qed.

  Lemma tr_refl w p : tr w w p p.
  Proof.
    repeat split. exists []. rewrite app_nil_r. split; [reflexivity|]. intros E K Hco HK t v H1 H2.
    rewrite (feed_nil _ _ _ HK), set_vattrs_id; auto.
  Qed.

  Lemma tr_track w a p : tr w (with_wat a w) p p.
  Proof. exact (tr_refl w p). Qed.

  Lemma tr_eq w p q : (caps_coherent C -> q = p) -> tr w w p q.
  Proof.
    intros H. repeat split. exists []. rewrite app_nil_r. split; [reflexivity|]. intros E K Hco HK t v H1 H2.
    rewrite (feed_nil _ _ _ HK), (H Hco), set_vattrs_id; auto.
  Qed.

  Lemma tr_trans w1 w2 w3 p q r : tr w1 w2 p q -> tr w2 w3 q r -> tr w1 w3 p r.
  Proof.
    intros (A1 & A2 & x & A3 & A4) (B1 & B2 & y & B3 & B4). repeat split; try congruence.
    exists (x ++ y). rewrite B3, A3, app_assoc. split; [reflexivity|].
    intros E K Hco HK t v H1 H2. rewrite (feed_app _ _ _ HK).
    rewrite (B4 E K Hco HK _ (set_vattrs q v)); auto.
    rewrite (A4 E K Hco HK t v); auto.
  Qed.

  Lemma opt_tr c ps w p q :
    (has C c = true -> forall v, cap_dom c ps v) ->
    (has C c = true -> forall v v', vattrs v = p -> cap_effect c ps v v' -> v' = set_vattrs q v) ->
    (caps_coherent C -> has C c = false -> q = p) ->
    ok (expand_opt C c ps w) (fun w' => wat w' = wat w /\ tr w w' p q).
  Proof.
    intros H1 H2 H3. unfold expand_opt, has in *. destruct (info C c) as [e|] eqn:Ei.
    - unfold expand. destruct (e (wctx w) ps) as [[bs k] []] eqn:Ee; [|exact I]. cbn.
      split; [reflexivity|]. repeat split. exists bs. split; [reflexivity|].
      intros E K Hco HK t v Hl Hv.
      destruct (cap_ok _ _ _ HK c e Ei _ _ _ _ Ee t v Hl (H1 eq_refl v)) as (v' & E1 & E2).
      rewrite E1. f_equal. apply (H2 eq_refl); auto.
    - cbn. split; [reflexivity|]. apply tr_eq. auto.
  Qed.

  Lemma opt_when b c w p q :
    (has C c = true -> forall v, cap_dom c [] v) ->
    (has C c = true -> forall v v', vattrs v = p -> cap_effect c [] v v' -> v' = set_vattrs q v) ->
    ok (when b (expand_opt C c []) w)
       (fun w' => wat w' = wat w /\ tr w w' p (if b && has C c then q else p)).
  Proof.
    intros H1 H2. destruct b; cbn [when andb].
    - apply opt_tr; auto; destruct (has C c); intros; try discriminate; auto.
    - split; [reflexivity|]. apply tr_refl.
  Qed.

  (** ** clear_attributes *)
  Lemma style_mask_bit n : N.testbit (style_mask C) n =
    ((has C EnterBoldMode && (n =? 0)%N) || (has C EnterItalicsMode && (n =? 1)%N) ||
     (has C EnterReverseMode && (n =? 2)%N) || (has C EnterUnderlineMode && (n =? 3)%N))%bool.
  Proof.
    unfold style_mask. destruct (bit_flags n) as (B0 & B1 & B2 & B3).
    rewrite !N.lor_spec, !testbit_if, B0, B1, B2, B3, N.bits_0.
    destruct (has C EnterBoldMode), (has C EnterItalicsMode), (has C EnterReverseMode), (has C EnterUnderlineMode);
      cbn; rewrite ?orb_false_r, ?orb_false_l, ?orb_assoc; reflexivity.
  Qed.

  Lemma shown_none : shown_attrs C no_attrs = no_attrs.
  Proof. unfold shown_attrs, no_attrs; cbn. now destruct (has C SetAForeground), (has C SetABackground). Qed.

  Lemma attrs_eqb_eq a b : attrs_eqb a b = true <-> a = b.
  Proof.
    unfold attrs_eqb. destruct a as [f1 b1 s1], b as [f2 b2 s2]; cbn. rewrite !andb_true_iff, N.eqb_eq.
    assert (Hc : forall x y, ocolor_eqb x y = true <-> x = y).
    { intros [x|] [y|]; cbn; split; intros H; try discriminate; auto.
      - f_equal. now apply internal_color_dec_bl.
      - injection H as ->. now apply internal_color_dec_lb. }
    rewrite !Hc. split; [intros [[-> ->] ->]; reflexivity|intros H; injection H; auto].
  Qed.

  Lemma ocolor_eqb_eq x y : ocolor_eqb x y = true <-> x = y.
  Proof.
    destruct x as [x|], y as [y|]; cbn; split; intros H; try discriminate; auto.
    - f_equal. now apply internal_color_dec_bl.
    - injection H as ->. now apply internal_color_dec_lb.
  Qed.

  Lemma clear_spec w :
    ok (clear_attributes C w) (fun w' => wat w' = no_attrs /\ tr w w' (shown_attrs C (wat w)) no_attrs).
  Proof.
    unfold clear_attributes. destruct (attrs_eqb (wat w) no_attrs) eqn:Ea.
    - apply attrs_eqb_eq in Ea. cbn. split; [assumption|]. rewrite Ea, shown_none. apply tr_refl.
    - eapply ok_impl.
      + apply (opt_tr ExitAttributeMode [] _ (shown_attrs C (wat w)) no_attrs).
        * intros _ v. exact I.
        * intros _ v v' _ H. exact H.
        * intros Hco Hn. destruct Hco as [[H|(H1 & H2 & H3 & H4 & H5 & H6)] _]; [congruence|].
          unfold shown_attrs, style_mask. rewrite H1, H2, H3, H4, H5, H6. cbn. now rewrite N.land_0_r.
      + cbn. auto.
  Qed.

  (** ** add_style *)
  Definition with_sty (s : style) (a : attrs) : attrs := Attrs (fg a) (bg a) s.

  Lemma mask_if b c s f k :
    (if b && has C c then Attrs f k (N.lor s N0) else Attrs f k s) = Attrs f k s.
  Proof. rewrite N.lor_0_r. now destruct (b && has C c). Qed.

  Lemma enter_spec c flag b w f k s :
    (c = EnterBoldMode /\ flag = BOLD) \/ (c = EnterItalicsMode /\ flag = ITALIC) \/
    (c = EnterReverseMode /\ flag = REVERSE) \/ (c = EnterUnderlineMode /\ flag = UNDERLINE) ->
    ok (when b (expand_opt C c []) w)
       (fun w' => wat w' = wat w /\
          tr w w' (Attrs f k s) (Attrs f k (if b && has C c then N.lor s flag else s))).
  Proof.
    intros Hc. eapply ok_impl.
    - apply (opt_when b c w (Attrs f k s) (Attrs f k (N.lor s flag))).
      + intros _ v. destruct Hc as [[-> ->]|[[-> ->]|[[-> ->]|[-> ->]]]]; exact I.
      + intros _ v v' Hv. destruct Hc as [[-> ->]|[[-> ->]|[[-> ->]|[-> ->]]]]; cbn; rewrite Hv; auto.
    - cbn beta. intros w' [H1 H2]. split; [assumption|]. now destruct (b && has C c).
  Qed.

  Lemma exit_spec c flag b w f k s :
    (c = ExitItalicsMode /\ flag = ITALIC) \/ (c = ExitUnderlineMode /\ flag = UNDERLINE) ->
    ok (when b (expand_opt C c []) w)
       (fun w' => wat w' = wat w /\
          tr w w' (Attrs f k s) (Attrs f k (if b && has C c then N.ldiff s flag else s))).
  Proof.
    intros Hc. eapply ok_impl.
    - apply (opt_when b c w (Attrs f k s) (Attrs f k (N.ldiff s flag))).
      + intros _ v. destruct Hc as [[-> ->]|[-> ->]]; exact I.
      + intros _ v v' Hv. destruct Hc as [[-> ->]|[-> ->]]; cbn; rewrite Hv; auto.
    - cbn beta. intros w' [H1 H2]. split; [assumption|]. now destruct (b && has C c).
  Qed.

  Lemma add_spec s w f k :
    ok (add_style C s w) (fun w' => wat w' = with_sty (N.lor (sty (wat w)) s) (wat w) /\
      tr w w' (Attrs f k (N.land (sty (wat w)) (style_mask C)))
              (Attrs f k (N.land (N.lor (sty (wat w)) s) (style_mask C)))).
  Proof.
    unfold add_style. set (add := style_minus s (sty (wat w))).
    apply ok_bind. eapply ok_impl; [apply (enter_spec _ BOLD); auto|]. cbn beta. intros w1 [A1 T1].
    apply ok_bind. eapply ok_impl; [apply (enter_spec _ ITALIC); auto|]. cbn beta. intros w2 [A2 T2].
    apply ok_bind. eapply ok_impl; [apply (enter_spec _ REVERSE); auto|]. cbn beta. intros w3 [A3 T3].
    apply ok_bind. eapply ok_impl; [apply (enter_spec _ UNDERLINE); auto|]. cbn beta. intros w4 [A4 T4].
    cbn [ok]. unfold set_tracked_style, with_sty. cbn [wat with_wat].
    assert (EA : wat w4 = wat w) by congruence. rewrite EA.
    assert (ES : N.lor (sty (wat w)) s = style_union (sty (wat w)) add).
    { subst add. unfold style_union, style_minus. apply N.bits_inj. intros n.
      rewrite !N.lor_spec, N.ldiff_spec. now destruct (N.testbit s n), (N.testbit (sty (wat w)) n). }
    rewrite ES. split; [reflexivity|].
    eapply tr_trans; [exact T1|]. eapply tr_trans; [exact T2|]. eapply tr_trans; [exact T3|].
    eapply tr_trans; [exact T4|].
    match goal with |- tr _ _ (Attrs _ _ ?x) (Attrs _ _ ?y) => replace y with x; [apply tr_track|] end.
    rewrite contains_BOLD, contains_ITALIC, contains_REVERSE, contains_UNDERLINE. unfold style_union.
    apply N.bits_inj. intros n. destruct (bit_flags n) as (B0 & B1 & B2 & B3).
    rewrite !(N.land_spec (N.lor _ _)), !testbit_if, !N.lor_spec, !testbit_if, !N.lor_spec, !testbit_if, !N.lor_spec,
      !testbit_if, !N.lor_spec, !N.land_spec, style_mask_bit, B0, B1, B2, B3.
    clear B0 B1 B2 B3. revert n. apply bits4.
    1-4: cbn; destruct (N.testbit add 0), (N.testbit add 1), (N.testbit add 2), (N.testbit add 3),
      (has C EnterBoldMode), (has C EnterItalicsMode), (has C EnterReverseMode), (has C EnterUnderlineMode);
      cbn; rewrite ?andb_true_r, ?andb_false_r, ?orb_true_r, ?orb_false_r; reflexivity.
    intros n -> -> -> ->. rewrite !andb_false_r. cbn. rewrite ?andb_false_r, ?orb_false_r.
    now repeat match goal with |- context [if ?b then _ else _] => destruct b end.
  Qed.

  (** ** Colours: the non-recursive cases *)
  Lemma color_code_dom k : (color_code k < 8)%N.
  Proof. destruct k; reflexivity. Qed.

  Lemma ansi_code k : nth_error ansi_colors (N.to_nat (color_code k)) = Some k.
  Proof. destruct k; reflexivity. Qed.

  Definition set_fg_of (c : option color) (a : attrs) : attrs := Attrs c (bg a) (sty a).
  Definition set_bg_of (c : option color) (a : attrs) : attrs := Attrs (fg a) c (sty a).

  Definition adv (w w' : wst) (a : attrs) : Prop :=
    wat w' = a /\ tr w w' (shown_attrs C (wat w)) (shown_attrs C a).

  Lemma adv_trans w1 w2 w3 a b : adv w1 w2 a -> adv w2 w3 b -> adv w1 w3 b.
  Proof. intros [A1 A2] [B1 B2]. split; [assumption|]. rewrite A1 in B2. eapply tr_trans; eauto. Qed.

  Lemma adv_refl w : adv w w (wat w).
  Proof. split; [reflexivity|apply tr_refl]. Qed.

  Lemma clear_adv w : ok (clear_attributes C w) (fun w' => adv w w' no_attrs).
  Proof. eapply ok_impl; [apply clear_spec|]. intros w' [H1 H2]. split; [assumption|]. now rewrite shown_none. Qed.

  Lemma add_adv s w : ok (add_style C s w) (fun w' => adv w w' (with_sty (N.lor (sty (wat w)) s) (wat w))).
  Proof. eapply ok_impl; [apply add_spec|]. cbn beta. intros w' [H1 H2]. split; [assumption|]. exact H2. Qed.

  Lemma attrs_eta a : Attrs (fg a) (bg a) (sty a) = a.
  Proof. now destruct a. Qed.

  Lemma set_fg_easy n c w : c <> None \/ fg (wat w) = c ->
    ok (set_fg C (S n) c w) (fun w' => adv w w' (set_fg_of c (wat w))).
  Proof.
    intros Hc. cbn [set_fg]. destruct (ocolor_eqb (fg (wat w)) c) eqn:Eq.
    - apply ocolor_eqb_eq in Eq. subst c. cbn. unfold set_fg_of. rewrite attrs_eta. apply adv_refl.
    - destruct c as [k|].
      + apply ok_bind. eapply ok_impl.
        * apply (opt_tr SetAForeground [color_code k] w (shown_attrs C (wat w)) (shown_attrs C (set_fg_of (Some k) (wat w)))).
          -- intros _ v. apply color_code_dom.
          -- intros Hh v v' Hv (k' & E1 & E2). cbn [hd] in E1. rewrite ansi_code in E1. injection E1 as <-.
             rewrite E2, Hv. unfold shown_attrs, set_fg_of. cbn. now rewrite Hh.
          -- intros _ Hh. unfold shown_attrs, set_fg_of. cbn. now rewrite Hh.
        * cbn beta. intros w' [H1 H2]. cbn [ok]. unfold set_tracked_fg. rewrite H1. split; [reflexivity|]. exact H2.
      + exfalso. destruct Hc as [Hc|Hc]; [congruence|]. rewrite Hc in Eq. discriminate.
  Qed.

  Lemma set_bg_easy n c w : c <> None \/ bg (wat w) = c ->
    ok (set_bg C (S n) c w) (fun w' => adv w w' (set_bg_of c (wat w))).
  Proof.
    intros Hc. cbn [set_bg]. destruct (ocolor_eqb (bg (wat w)) c) eqn:Eq.
    - apply ocolor_eqb_eq in Eq. subst c. cbn. unfold set_bg_of. rewrite attrs_eta. apply adv_refl.
    - destruct c as [k|].
      + apply ok_bind. eapply ok_impl.
        * apply (opt_tr SetABackground [color_code k] w (shown_attrs C (wat w)) (shown_attrs C (set_bg_of (Some k) (wat w)))).
          -- intros _ v. apply color_code_dom.
          -- intros Hh v v' Hv (k' & E1 & E2). cbn [hd] in E1. rewrite ansi_code in E1. injection E1 as <-.
             rewrite E2, Hv. unfold shown_attrs, set_bg_of. cbn. now rewrite Hh.
          -- intros _ Hh. unfold shown_attrs, set_bg_of. cbn. now rewrite Hh.
        * cbn beta. intros w' [H1 H2]. cbn [ok]. unfold set_tracked_bg. rewrite H1. split; [reflexivity|]. exact H2.
      + exfalso. destruct Hc as [Hc|Hc]; [congruence|]. rewrite Hc in Eq. discriminate.
  Qed.

  (** ** remove_style, set_style *)
  Lemma none_or (c d : option color) : d = None -> c <> None \/ d = c.
  Proof. destruct c; [left; discriminate|]. auto. Qed.

  Lemma remove_adv n s w :
    ok (remove_style C (2 + n) s w) (fun w' => adv w w' (with_sty (N.ldiff (sty (wat w)) s) (wat w))).
  Proof.
    change (2 + n) with (S (S n)). cbn [remove_style]. set (rem := style_inter s (sty (wat w))).
    assert (Es : N.ldiff (sty (wat w)) s = style_minus (sty (wat w)) rem).
    { subst rem. unfold style_minus, style_inter. apply N.bits_inj. intros i.
      rewrite !N.ldiff_spec, N.land_spec. now destruct (N.testbit s i), (N.testbit (sty (wat w)) i). }
    rewrite Es. destruct (style_intersects rem (style_union BOLD REVERSE)) eqn:Ei.
    - apply ok_bind. eapply ok_impl; [apply clear_adv|]. cbn beta. intros w1 D1.
      apply ok_bind. eapply ok_impl; [apply add_adv|]. cbn beta. intros w2 D2.
      destruct D1 as [F1 D1], D2 as [F2 D2]. rewrite F1 in F2, D2. cbn in F2.
      apply ok_bind. eapply ok_impl; [apply set_fg_easy; apply none_or; now rewrite F2|]. cbn beta. intros w3 [F3 D3].
      eapply ok_impl; [apply set_bg_easy; apply none_or; now rewrite F3, F2|]. cbn beta. intros w4 [F4 D4].
      rewrite F3 in F4, D4. rewrite F2 in F3, D3, D4, F4. cbn in F4. split.
      + rewrite F4. reflexivity.
      + cbn in D2. rewrite shown_none in *. eapply tr_trans; [exact D1|].
        eapply tr_trans; [exact D2|]. eapply tr_trans; [exact D3|]. exact D4.
    - apply ok_bind. eapply ok_impl.
      { apply (exit_spec ExitItalicsMode ITALIC _ _ (fg (shown_attrs C (wat w))) (bg (shown_attrs C (wat w)))
                 (sty (shown_attrs C (wat w)))); auto. }
      cbn beta. intros w1 [A1 T1].
      apply ok_bind. eapply ok_impl; [apply (exit_spec ExitUnderlineMode UNDERLINE); auto|]. cbn beta.
      intros w2 [A2 T2]. cbn [ok]. unfold set_tracked_style. rewrite A2, A1. split; [reflexivity|].
      eapply tr_trans; [exact T1|]. eapply tr_trans; [exact T2|].
      match goal with |- tr _ _ ?x ?y => apply (tr_eq w2 x y) end. intros Hco. symmetry.
      unfold shown_attrs, with_sty. cbn [fg bg sty]. f_equal. unfold style_minus.
      assert (Hz : forall i, (i = 0 \/ i = 2)%N -> N.testbit rem i = false).
      { intros i Hi. unfold style_intersects, style_is_empty, style_inter in Ei.
        apply negb_false_iff, N.eqb_eq in Ei. assert (Hb : N.testbit (N.land rem (style_union BOLD REVERSE)) i = false)
          by now rewrite Ei, N.bits_0. rewrite N.land_spec in Hb.
        destruct Hi as [->| ->]; cbn in Hb; now rewrite andb_true_r in Hb. }
      rewrite contains_ITALIC, contains_UNDERLINE. destruct Hco as (_ & HI & HU).
      apply N.bits_inj. intros i. destruct (bit_flags i) as (B0 & B1 & B2 & B3).
      rewrite !(N.land_spec (N.ldiff _ _)), !testbit_if, !N.ldiff_spec, !testbit_if, !N.ldiff_spec, !N.land_spec,
        style_mask_bit, B1, B3. clear B0 B1 B2 B3.
      assert (Hz0 := Hz 0%N (or_introl eq_refl)). assert (Hz2 := Hz 2%N (or_intror eq_refl)). clear Hz.
      revert i. apply bits4.
      1-4: rewrite ?Hz0, ?Hz2; cbn; destruct (N.testbit rem 1), (N.testbit rem 3), (has C EnterItalicsMode), (has C EnterUnderlineMode);
        rewrite ?HI, ?HU by reflexivity; cbn; rewrite ?andb_true_r, ?andb_false_r, ?orb_false_r, ?orb_true_r;
        repeat match goal with |- context [if ?b then _ else _] => destruct b end;
        rewrite ?andb_true_r, ?andb_false_r, ?orb_false_r, ?orb_true_r; reflexivity.
      intros i -> -> -> ->. rewrite ?andb_false_r. cbn. rewrite ?andb_false_r.
      repeat match goal with |- context [if ?b then _ else _] => destruct b end; reflexivity.
  Qed.

  Lemma set_style_adv n s w :
    ok (set_style C (3 + n) s w) (fun w' => adv w w' (with_sty s (wat w))).
  Proof.
    change (3 + n) with (S (2 + n)). cbn [set_style]. set (rem := style_minus (sty (wat w)) s).
    destruct (style_intersects rem (style_union BOLD REVERSE)) eqn:Ei.
    - apply ok_bind. eapply ok_impl; [apply clear_adv|]. cbn beta. intros w1 [F1 D1].
      apply ok_bind. eapply ok_impl; [apply set_fg_easy; apply none_or; now rewrite F1|]. cbn beta. intros w2 [F2 D2].
      rewrite F1 in F2, D2. cbn in F2.
      apply ok_bind. eapply ok_impl; [apply set_bg_easy; apply none_or; now rewrite F2|]. cbn beta. intros w3 [F3 D3].
      rewrite F2 in F3, D3. cbn in F3.
      eapply ok_impl; [apply add_adv|]. cbn beta. intros w4 [F4 D4].
      rewrite F3 in F4, D4. unfold with_sty in *. cbn in F4, D4. split; [assumption|].
      eapply tr_trans; [exact D1|]. eapply tr_trans; [exact D2|]. eapply tr_trans; [exact D3|]. exact D4.
    - apply ok_bind. eapply ok_impl; [apply add_adv|]. cbn beta. intros w1 [F1 D1].
      eapply ok_impl; [apply remove_adv|]. cbn beta. intros w2 [F2 D2].
      rewrite F1 in F2, D2. unfold with_sty in *. cbn [fg bg sty] in F2, D2.
      assert (Es : N.ldiff (N.lor (sty (wat w)) (style_minus s (sty (wat w)))) rem = s).
      { subst rem. unfold style_minus. apply N.bits_inj. intros i.
        rewrite !N.ldiff_spec, !N.lor_spec, !N.ldiff_spec.
        now destruct (N.testbit s i), (N.testbit (sty (wat w)) i). }
      rewrite Es in F2, D2. split; [assumption|]. eapply tr_trans; [exact D1|exact D2].
  Qed.

  (** ** The recursive cases *)
  Lemma clear_fg_adv n w : ok (clear_fg C (4 + n) w) (fun w' => adv w w' (set_fg_of None (wat w))).
  Proof.
    change (4 + n) with (S (3 + n)). cbn [clear_fg].
    apply ok_bind. eapply ok_impl; [apply clear_adv|]. cbn beta. intros w1 [F1 D1].
    apply ok_bind. eapply ok_impl; [apply (set_bg_easy (2 + n)); apply none_or; now rewrite F1|]. cbn beta. intros w2 [F2 D2].
    rewrite F1 in F2, D2. cbn in F2.
    eapply ok_impl; [apply set_style_adv|]. cbn beta. intros w3 [F3 D3].
    rewrite F2 in F3, D3. split; [exact F3|]. eapply tr_trans; [exact D1|]. eapply tr_trans; [exact D2|exact D3].
  Qed.

  Lemma clear_bg_adv n w : ok (clear_bg C (4 + n) w) (fun w' => adv w w' (set_bg_of None (wat w))).
  Proof.
    change (4 + n) with (S (3 + n)). cbn [clear_bg].
    apply ok_bind. eapply ok_impl; [apply clear_adv|]. cbn beta. intros w1 [F1 D1].
    apply ok_bind. eapply ok_impl; [apply (set_fg_easy (2 + n)); apply none_or; now rewrite F1|]. cbn beta. intros w2 [F2 D2].
    rewrite F1 in F2, D2. cbn in F2.
    eapply ok_impl; [apply set_style_adv|]. cbn beta. intros w3 [F3 D3].
    rewrite F2 in F3, D3. split; [exact F3|]. eapply tr_trans; [exact D1|]. eapply tr_trans; [exact D2|exact D3].
  Qed.

  Lemma set_fg_adv n c w : ok (set_fg C (5 + n) c w) (fun w' => adv w w' (set_fg_of c (wat w))).
  Proof.
    destruct c as [k|]; [apply (set_fg_easy (4 + n)); left; discriminate|].
    destruct (fg (wat w)) as [k|] eqn:Ef; [|apply (set_fg_easy (4 + n)); right; assumption].
    change (5 + n) with (S (4 + n)). cbn [set_fg]. rewrite Ef. cbn [ocolor_eqb].
    apply ok_bind. eapply ok_impl; [apply clear_fg_adv|]. cbn beta. intros w1 [F1 D1]. cbn [ok].
    unfold set_tracked_fg. rewrite F1. split; [reflexivity|]. exact D1.
  Qed.

  Lemma set_bg_adv n c w : ok (set_bg C (5 + n) c w) (fun w' => adv w w' (set_bg_of c (wat w))).
  Proof.
    destruct c as [k|]; [apply (set_bg_easy (4 + n)); left; discriminate|].
    destruct (bg (wat w)) as [k|] eqn:Ef; [|apply (set_bg_easy (4 + n)); right; assumption].
    change (5 + n) with (S (4 + n)). cbn [set_bg]. rewrite Ef. cbn [ocolor_eqb].
    apply ok_bind. eapply ok_impl; [apply clear_bg_adv|]. cbn beta. intros w1 [F1 D1]. cbn [ok].
    unfold set_tracked_bg. rewrite F1. split; [reflexivity|]. exact D1.
  Qed.

  Lemma set_attrs_adv a w : ok (set_attrs C a w) (fun w' => adv w w' a).
  Proof.
    unfold set_attrs. apply ok_bind.
    match goal with |- ok (when ?b _ _) _ => set (bb := b) end.
    assert (H1 : ok (when bb (clear_attributes C) w) (fun w1 => adv w w1 (wat w1))).
    { destruct bb; cbn [when].
      - eapply ok_impl; [apply clear_adv|]. cbn beta. intros w1 [F D]. split; [reflexivity|]. now rewrite F.
      - apply adv_refl. }
    eapply ok_impl; [exact H1|]. cbn beta. intros w1 D1.
    apply ok_bind. eapply ok_impl; [apply (set_style_adv 3)|]. cbn beta. intros w2 D2.
    apply ok_bind. eapply ok_impl; [apply (set_fg_adv 1)|]. cbn beta. intros w3 D3.
    eapply ok_impl; [apply (set_bg_adv 1)|]. cbn beta. intros w4 D4.
    assert (E : set_bg_of (bg a) (wat w3) = a).
    { destruct D3 as [-> _], D2 as [-> _]. destruct a. reflexivity. }
    rewrite E in D4. eapply adv_trans; [exact D1|]. eapply adv_trans; [exact D2|].
    eapply adv_trans; [exact D3|exact D4].
  Qed.

  Lemma attr_op_adv o w : attr_op o -> ok (run_wop C o w) (fun w' => adv w w' (request (wat w) o)).
  Proof.
    intros Ho. destruct o; try contradiction; cbn [run_wop request].
    - apply (set_fg_adv 1).
    - apply (set_bg_adv 1).
    - apply add_adv.
    - apply (remove_adv 4).
    - apply (set_style_adv 3).
    - apply set_attrs_adv.
    - apply clear_adv.
  Qed.
End Attr.
