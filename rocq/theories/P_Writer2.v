(** Whole operations of the writer against the terminal contract. *)
From Verif Require Import Base M_Utf8 P_Utf8 S_Utf8 M_Geom S_Geom M_Attr M_Buf S_Buf M_Writer S_Tty S_Writer P_Writer P_Attr.

(** ** Text *)
Lemma feed_text E C K : implements E C K -> forall s, Forall (texty E) s ->
  forall t v, look K t = Some v -> exists v', look K (feed K t (utf8s s)) = Some v' /\ keeps v v'.
Proof.
  intros HK s Hs. induction Hs as [|c s Hc Hs IH]; intros t v Hl.
  - exists v. cbn. rewrite (feed_nil _ _ _ HK). repeat split; auto.
  - destruct (text_ok _ _ _ HK c Hc t v Hl) as (v1 & E1 & K1 & _).
    destruct (IH _ _ E1) as (v2 & E2 & K2). exists v2.
    change (utf8s (c :: s)) with (utf8 c ++ utf8s s). rewrite (feed_app _ _ _ HK). split; [assumption|].
    unfold keeps in *. intuition congruence.
Qed.

Lemma keeps_attrs v v' : keeps v v' -> vattrs v' = vattrs v.
Proof. unfold keeps. tauto. Qed.

(** ** A single operation *)
Definition sim (C : tcfg) (E : env) (o : wop) (w w' : wst) : Prop :=
  whole_writes (script w') /\ wat w' = request (wat w) o /\
  exists x, stream w' = stream w ++ x /\
  forall K, caps_coherent C -> implements E C K -> forall t v, look K t = Some v ->
    vattrs v = shown_attrs C (wat w) ->
    exists v', look K (feed K t x) = Some v' /\ vattrs v' = shown_attrs C (wat w').

Lemma adv_sim C E o w w' : whole_writes (script w) -> adv C w w' (request (wat w) o) -> sim C E o w w'.
Proof.
  intros Hw (H1 & H2 & H3 & x & H4 & H5). split; [now rewrite H3|]. split; [assumption|].
  exists x. unfold stream. rewrite H2, H4, app_assoc. split; [reflexivity|].
  intros K Hc HK t v Hl Hv. eexists. split; [eapply H5; eauto|]. cbn. now rewrite H1.
Qed.

Lemma bytes_sim C E o bs w : whole_writes (script w) -> request (wat w) o = wat w ->
  (forall K, implements E C K -> forall t v, look K t = Some v ->
     exists v', look K (feed K t bs) = Some v' /\ vattrs v' = vattrs v) ->
  forall w' u, write_bytes C bs w = Ret w' u -> sim C E o w w'.
Proof.
  intros Hw Hr Hf w' u Hrun. assert (H := write_bytes_whole C bs w Hw). rewrite Hrun in H.
  destruct H as (H1 & (H2 & _) & H3). split; [assumption|]. rewrite Hr. split; [assumption|].
  exists bs. split; [assumption|]. intros K Hc HK t v Hl Hv. destruct (Hf K HK t v Hl) as (v' & E1 & E2).
  exists v'. split; [assumption|]. congruence.
Qed.

Lemma cap_sim C E o c e ps w : whole_writes (script w) -> request (wat w) o = wat w ->
  info C c = Some e ->
  (forall v, cap_dom c ps v) ->
  (forall v v', cap_effect c ps v v' -> vattrs v' = vattrs v) ->
  forall w' u, expand C e ps w = Ret w' u -> sim C E o w w'.
Proof.
  intros Hw Hr Hi Hd He w' u Hrun. unfold expand in Hrun.
  destruct (e (wctx w) ps) as [[bs k] []] eqn:Ee; [|discriminate]. injection Hrun as <- _.
  split; [assumption|]. rewrite Hr. split; [reflexivity|]. exists bs. unfold stream. cbn [push with_wctx dev obuf wat].
  rewrite app_assoc. split; [reflexivity|]. intros K Hc HK t v Hl Hv.
  destruct (cap_ok _ _ _ HK c e Hi _ _ _ _ Ee t v Hl (Hd v)) as (v' & E1 & E2).
  exists v'. split; [assumption|]. rewrite (He v v' E2). assumption.
Qed.

Lemma opt_sim C E o c w : whole_writes (script w) -> request (wat w) o = wat w ->
  (forall v, cap_dom c [] v) ->
  (forall v v', cap_effect c [] v v' -> vattrs v' = vattrs v) ->
  forall w' u, expand_opt C c [] w = Ret w' u -> sim C E o w w'.
Proof.
  intros Hw Hr Hd He w' u. unfold expand_opt. destruct (info C c) as [e|] eqn:Ei.
  - eapply cap_sim; eauto.
  - intros H. injection H as <- _. split; [assumption|]. rewrite Hr. split; [reflexivity|]. exists [].
    rewrite app_nil_r. split; [reflexivity|]. intros K Hc HK t v Hl Hv. exists v.
    now rewrite (feed_nil _ _ _ HK).
Qed.

Lemma req_sim C E o c ps w : whole_writes (script w) -> request (wat w) o = wat w ->
  (forall v, cap_dom c ps v) ->
  (forall v v', cap_effect c ps v v' -> vattrs v' = vattrs v) ->
  forall w' u, expand_req C c ps w = Ret w' u -> sim C E o w w'.
Proof.
  intros Hw Hr Hd He w' u. unfold expand_req. destruct (info C c) as [e|] eqn:Ei; [|discriminate].
  eapply cap_sim; eauto.
Qed.

Lemma nil_sim C E o w : whole_writes (script w) -> request (wat w) o = wat w -> sim C E o w w.
Proof.
  intros Hw Hr. split; [assumption|]. rewrite Hr. split; [reflexivity|]. exists [].
  rewrite app_nil_r. split; [reflexivity|]. intros K Hc HK t v Hl Hv. exists v. now rewrite (feed_nil _ _ _ HK).
Qed.

Lemma to_u32_pos n : (0 < to_u32 (S n))%N.
Proof. unfold to_u32. lia. Qed.

Lemma moved_attrs p v v' : moved p v v' -> vattrs v' = vattrs v.
Proof. unfold moved, keeps. tauto. Qed.

Lemma same_attrs v v' : same_but_cells v v' -> vattrs v' = vattrs v.
Proof. unfold same_but_cells. tauto. Qed.

Lemma texty_CR E : texty E CR.
Proof. split; [reflexivity|tauto]. Qed.

(** Write_styled, in detail. *)
Lemma write_styled_detail C E a s w w' u : whole_writes (script w) ->
  write_styled C a s w = Ret w' u ->
  whole_writes (script w') /\ wat w' = no_attrs /\
  exists pre post, stream w' = stream w ++ pre ++ utf8s s ++ post /\
  forall K, caps_coherent C -> implements E C K -> Forall (texty E) s ->
    forall t v, look K t = Some v -> vattrs v = shown_attrs C (wat w) ->
    look K (feed K t pre) = Some (set_vattrs (shown_attrs C a) v) /\
    exists v2, look K (feed K t (pre ++ utf8s s)) = Some v2 /\ vattrs v2 = shown_attrs C a /\
      look K (feed K t (pre ++ utf8s s ++ post)) = Some (set_vattrs no_attrs v2).
Proof.
  intros Hw. unfold write_styled. assert (Ha := set_attrs_adv C a w).
  destruct (set_attrs C a w) as [w1 u1|w1 e| |]; cbn [obind]; try discriminate.
  destruct Ha as (A1 & A2 & A3 & pre & A4 & A5). unfold write_str. rewrite <- A3 in Hw.
  assert (Hb := write_bytes_whole C (utf8s s) w1 Hw).
  destruct (write_bytes C (utf8s s) w1) as [w2 u2|w2 e| |]; cbn [obind]; try discriminate.
  destruct Hb as (B1 & (B2 & _) & B3). assert (Hcl := clear_spec C w2).
  destruct (clear_attributes C w2) as [w3 u3|w3 e| |]; try discriminate. intros H. injection H as <- _.
  destruct Hcl as (D1 & D2 & D3 & post & D4 & D5). split; [now rewrite D3|]. split; [assumption|].
  exists pre, post. split.
  - unfold stream in *. rewrite D2, D4, app_assoc, B3, A2, A4, <- !app_assoc. reflexivity.
  - intros K Hc HK Hs t v Hl Hv. assert (P1 := A5 E K Hc HK t v Hl Hv). split; [exact P1|].
    destruct (feed_text E C K HK s Hs _ _ P1) as (v2 & E2 & K2). exists v2. rewrite !(feed_app _ _ _ HK).
    apply keeps_attrs in K2. cbn in K2. split; [assumption|]. split; [assumption|].
    eapply D5; eauto. rewrite K2, B2, A1. reflexivity.
Qed.

Lemma styled_sim C E a s w w' u : whole_writes (script w) -> Forall (texty E) s ->
  write_styled C a s w = Ret w' u -> sim C E (OWriteStyled a s) w w'.
Proof.
  intros Hw Hs Hrun. destruct (write_styled_detail C E a s w w' u Hw Hrun) as (H1 & H2 & pre & post & H3 & H4).
  split; [assumption|]. split; [assumption|]. exists (pre ++ utf8s s ++ post). split; [assumption|].
  intros K Hc HK t v Hl Hv. destruct (H4 K Hc HK Hs t v Hl Hv) as (_ & v2 & _ & _ & H5).
  eexists. split; [exact H5|]. cbn. now rewrite H2, shown_none.
Qed.

Lemma op_sim C E o w w' u : whole_writes (script w) -> plain_op E o ->
  run_wop C o w = Ret w' u -> sim C E o w w'.
Proof.
  intros Hw Hp Hrun.
  assert (Hd : attr_op o \/ ~ attr_op o) by (destruct o; cbn; auto).
  destruct Hd as [Hd|Hd].
  - apply adv_sim; [assumption|]. assert (H := attr_op_adv C o w Hd). rewrite Hrun in H. exact H.
  - destruct o; try (exfalso; apply Hd; exact I); cbn [run_wop plain_op] in *.
    + eapply req_sim; eauto; [intros; exact I|]. intros v v' (_ & H & _). now apply same_attrs in H.
    + eapply req_sim; eauto; [intros; exact I|]. intros v v' (H & _). now apply same_attrs in H.
    + eapply req_sim; eauto; [intros; exact I|]. intros v v' (H & _). now apply same_attrs in H.
    + unfold move_up in Hrun. destruct n as [|[|n]].
      * injection Hrun as <- _. now apply nil_sim.
      * eapply req_sim; eauto; [intros; exact I|]. intros v v' H. eapply moved_attrs; exact H.
      * eapply req_sim; eauto; [intros; apply to_u32_pos|]. intros v v' H. eapply moved_attrs; exact H.
    + unfold move_down in Hrun. destruct n as [|n].
      * injection Hrun as <- _. now apply nil_sim.
      * eapply req_sim; eauto; [intros; apply to_u32_pos|]. intros v v' H. eapply moved_attrs; exact H.
    + unfold move_left in Hrun. destruct n as [|[|n]].
      * injection Hrun as <- _. now apply nil_sim.
      * eapply req_sim; eauto; [intros; exact I|]. intros v v' H. eapply moved_attrs; exact H.
      * eapply req_sim; eauto; [intros; apply to_u32_pos|]. intros v v' H. eapply moved_attrs; exact H.
    + unfold move_right in Hrun. destruct n as [|[|n]].
      * injection Hrun as <- _. now apply nil_sim.
      * eapply req_sim; eauto; [intros; exact I|]. intros v v' H. eapply moved_attrs; exact H.
      * eapply req_sim; eauto; [intros; apply to_u32_pos|]. intros v v' H. eapply moved_attrs; exact H.
    + eapply bytes_sim; eauto. intros K HK t v Hl.
      destruct (text_ok _ _ _ HK CR (texty_CR E) t v Hl) as (v1 & E1 & K1 & _).
      exists v1. split; [exact E1|now apply keeps_attrs].
    + contradiction.
    + unfold set_cursor_mode in Hrun. destruct m;
        (eapply opt_sim; eauto; [intros; exact I|]; intros v v' H; cbn in H; now subst v').
    + eapply bytes_sim; eauto. intros K HK t v Hl.
      destruct (text_ok _ _ _ HK c Hp t v Hl) as (v1 & E1 & K1 & _).
      exists v1. split; [exact E1|now apply keeps_attrs].
    + eapply bytes_sim; eauto. intros K HK t v Hl.
      destruct (feed_text E C K HK s Hp t v Hl) as (v1 & E1 & K1).
      exists v1. split; [exact E1|now apply keeps_attrs].
    + eapply styled_sim; eauto.
    + assert (H := flush_whole w Hw). rewrite Hrun in H. destruct H as (H1 & (H2 & _) & H3 & H4 & H5).
      split; [assumption|]. split; [assumption|]. exists []. unfold stream. rewrite H4, H5, !app_nil_r.
      split; [reflexivity|]. intros K Hc HK t v Hl Hv. exists v. rewrite (feed_nil _ _ _ HK), H2. auto.
Qed.

(** ** Histories *)
Lemma history_sim C E ops : forall w w', whole_writes (script w) -> Forall (plain_op E) ops ->
  run_ok C ops w = Some w' ->
  whole_writes (script w') /\ wat w' = fold_left request ops (wat w) /\
  forall K t0 v0, caps_coherent C -> implements E C K ->
    look K (feed K t0 (stream w)) = Some v0 -> vattrs v0 = shown_attrs C (wat w) ->
    exists v, look K (feed K t0 (stream w')) = Some v /\ vattrs v = shown_attrs C (wat w').
Proof.
  induction ops as [|o ops IH]; intros w w' Hw Hp Hrun; cbn [run_ok fold_left] in *.
  - injection Hrun as <-. repeat split; eauto.
  - inversion Hp as [|? ? Ho Hops]; subst.
    destruct (run_wop C o w) as [w1 u|w1 e| |] eqn:E1; try discriminate.
    destruct (op_sim C E o w w1 u Hw Ho E1) as (S1 & S2 & x & S3 & S4).
    destruct (IH w1 w' S1 Hops Hrun) as (I1 & I2 & I3). split; [assumption|]. split; [now rewrite I2, S2|].
    intros K t0 v0 Hc HK Hl Hv. destruct (S4 K Hc HK _ _ Hl Hv) as (v1 & V1 & V2).
    rewrite <- (feed_app _ _ _ HK), <- S3 in V1. eapply I3; eauto.
Qed.

(** A database with all capabilities shows everything. *)
Lemma all_caps_coherent C : all_attr_caps C -> caps_coherent C.
Proof.
  intros H. split; [left; apply H; cbn; tauto|]. split; intros _; apply H; cbn; tauto.
Qed.

Lemma all_caps_mask C : all_attr_caps C -> style_mask C = 15%N.
Proof. intros H. unfold style_mask. rewrite !H by (cbn; tauto). reflexivity. Qed.

Lemma land_15 s : style_ok s -> N.land s 15 = s.
Proof.
  intros H. change 15%N with (N.ones 4). rewrite N.land_ones. apply N.mod_small. exact H.
Qed.

Lemma all_caps_shown C a : all_attr_caps C -> style_ok (sty a) -> shown_attrs C a = a.
Proof.
  intros H Hs. unfold shown_attrs. rewrite all_caps_mask, land_15, !H by (auto; cbn; tauto). now destruct a.
Qed.

Lemma lor_ok a b : style_ok a -> style_ok b -> style_ok (N.lor a b).
Proof.
  unfold style_ok. intros Ha Hb. destruct (N.eq_dec (N.lor a b) 0) as [->|Hn]; [reflexivity|].
  change 16%N with (2 ^ 4)%N. apply N.log2_lt_pow2; [lia|]. rewrite N.log2_lor.
  assert (H : forall x, (x < 16 -> N.log2 x < 4)%N).
  { intros x Hx. destruct (N.eq_dec x 0) as [->|H0]; [reflexivity|]. apply N.log2_lt_pow2; [lia|exact Hx]. }
  apply N.max_lub_lt; auto.
Qed.

Lemma ldiff_ok a b : style_ok a -> style_ok (N.ldiff a b).
Proof.
  unfold style_ok. intros Ha. assert (H : N.ldiff (N.ldiff a b) 15 = 0%N).
  { apply N.bits_inj. intros i. rewrite !N.ldiff_spec, N.bits_0.
    assert (Hi : N.ldiff a 15 = 0%N). { change 15%N with (N.ones 4). rewrite N.ldiff_ones_r.
      rewrite N.shiftr_div_pow2, N.div_small by exact Ha. reflexivity. }
    assert (Hb : N.testbit (N.ldiff a 15) i = false) by now rewrite Hi, N.bits_0.
    rewrite N.ldiff_spec in Hb. destruct (N.testbit a i), (N.testbit b i); cbn in *; auto. }
  change 15%N with (N.ones 4) in H. rewrite N.ldiff_ones_r in H.
  rewrite N.shiftr_div_pow2, N.shiftl_mul_pow2 in H. change (2 ^ 4)%N with 16%N in H.
  assert (N.ldiff a b / 16 = 0)%N by lia. apply N.div_small_iff in H0; lia.
Qed.

Lemma request_ok o a : op_style_ok o -> style_ok (sty a) -> style_ok (sty (request a o)).
Proof. destruct o; cbn; intros Ho Ha; auto using lor_ok, ldiff_ok; reflexivity. Qed.

Lemma requests_ok ops : forall a, Forall op_style_ok ops -> style_ok (sty a) -> style_ok (sty (fold_left request ops a)).
Proof.
  induction ops as [|o ops IH]; intros a Ho Ha; cbn; [assumption|].
  inversion Ho; subst. apply IH; auto using request_ok.
Qed.

(** C28. *)
Lemma attrs_track E C K t0 v0 ops w w' :
  implements E C K -> all_attr_caps C -> whole_writes (script w) ->
  Forall (plain_op E) ops -> Forall op_style_ok ops -> style_ok (sty (wat w)) ->
  look K (feed K t0 (stream w)) = Some v0 -> vattrs v0 = wat w ->
  run_ok C ops w = Some w' ->
  exists v, look K (feed K t0 (stream w')) = Some v /\ vattrs v = fold_left request ops (wat w).
Proof.
  intros HK Ha Hw Hp Ho Hs Hl Hv Hrun.
  destruct (history_sim C E ops w w' Hw Hp Hrun) as (_ & H2 & H3).
  destruct (H3 K t0 v0 (all_caps_coherent C Ha) HK Hl) as (v & V1 & V2).
  { now rewrite all_caps_shown. }
  exists v. split; [assumption|]. rewrite V2, H2. apply all_caps_shown; [assumption|]. now apply requests_ok.
Qed.

Lemma attrs_track_any E C K t0 v0 ops w w' :
  implements E C K -> caps_coherent C -> whole_writes (script w) ->
  Forall (plain_op E) ops ->
  look K (feed K t0 (stream w)) = Some v0 -> vattrs v0 = shown_attrs C (wat w) ->
  run_ok C ops w = Some w' ->
  exists v, look K (feed K t0 (stream w')) = Some v /\
            vattrs v = shown_attrs C (fold_left request ops (wat w)).
Proof.
  intros HK Ha Hw Hp Hl Hv Hrun.
  destruct (history_sim C E ops w w' Hw Hp Hrun) as (_ & H2 & H3).
  destruct (H3 K t0 v0 Ha HK Hl Hv) as (v & V1 & V2). exists v. split; [assumption|]. now rewrite V2, H2.
Qed.

(** ** C29: nothing to do, nothing written *)
Lemma with_wat_id w : with_wat (wat w) w = w. Proof. now destruct w. Qed.
Lemma track_style_id w : set_tracked_style (sty (wat w)) w = w.
Proof. unfold set_tracked_style. rewrite attrs_eta. apply with_wat_id. Qed.

Lemma add_none C s w : style_minus s (sty (wat w)) = 0%N -> add_style C s w = Ret w tt.
Proof.
  intros H. unfold add_style. rewrite H. cbn [style_contains BOLD ITALIC REVERSE UNDERLINE N.land N.eqb when obind].
  unfold style_union. rewrite N.lor_0_r, track_style_id. reflexivity.
Qed.

Lemma remove_none C n s w : style_inter s (sty (wat w)) = 0%N -> remove_style C (S n) s w = Ret w tt.
Proof.
  intros H. cbn [remove_style]. rewrite H.
  cbn [style_intersects style_is_empty style_inter style_contains ITALIC UNDERLINE N.land N.eqb negb when obind].
  unfold style_minus. rewrite N.ldiff_0_r, track_style_id. reflexivity.
Qed.

Lemma set_style_none C n s w : sty (wat w) = s -> set_style C (S (S n)) s w = Ret w tt.
Proof.
  intros <-. cbn [set_style]. unfold style_minus. rewrite N.ldiff_diag.
  cbn [style_intersects style_is_empty style_inter N.land N.eqb negb].
  rewrite add_none; [|reflexivity]. cbn [obind].
  cbn [style_contains ITALIC UNDERLINE N.land N.eqb when obind]. now rewrite N.ldiff_0_r, track_style_id.
Qed.

Lemma ocolor_refl c : ocolor_eqb c c = true.
Proof. now apply ocolor_eqb_eq. Qed.

Lemma already_in_force C o w : attr_op o -> request (wat w) o = wat w -> run_wop C o w = Ret w tt.
Proof.
  intros Ho Hr. destruct o; try contradiction; cbn [request] in Hr; cbn [run_wop].
  - unfold depth. cbn [set_fg]. assert (E := f_equal fg Hr). cbn in E. now rewrite <- E, ocolor_refl.
  - unfold depth. cbn [set_bg]. assert (E := f_equal bg Hr). cbn in E. now rewrite <- E, ocolor_refl.
  - apply add_none. assert (E := f_equal sty Hr). cbn in E. unfold style_minus. rewrite <- E.
    apply N.bits_inj. intros i. rewrite N.ldiff_spec, N.lor_spec, N.bits_0.
    now destruct (N.testbit s i), (N.testbit (sty (wat w)) i).
  - apply remove_none. assert (E := f_equal sty Hr). cbn in E. unfold style_inter. rewrite <- E.
    apply N.bits_inj. intros i. rewrite N.land_spec, N.ldiff_spec, N.bits_0.
    now destruct (N.testbit s i), (N.testbit (sty (wat w)) i).
  - assert (E := f_equal sty Hr). cbn in E. now apply set_style_none.
  - subst a. unfold set_attrs.
    match goal with |- context [when ?b _ _] => replace b with false
      by (now destruct (fg (wat w)), (bg (wat w))) end.
    cbn [orb when obind]. unfold depth. rewrite set_style_none by reflexivity. cbn [obind set_fg].
    rewrite ocolor_refl. cbn [obind set_bg]. now rewrite ocolor_refl.
  - unfold clear_attributes. rewrite <- Hr. reflexivity.
Qed.

(** ** No panic, and when operations return *)
Lemma op_no_panic C o w : whole_writes (script w) -> run_wop C o w <> Panic.
Proof.
  intros Hw.
  assert (Hd : attr_op o \/ ~ attr_op o) by (destruct o; cbn; auto).
  destruct Hd as [Hd|Hd].
  { assert (H := attr_op_adv C o w Hd). destruct (run_wop C o w); try discriminate. contradiction. }
  assert (Hreq : forall c ps, expand_req C c ps w <> Panic).
  { intros c ps. unfold expand_req, expand. destruct (info C c); [|discriminate].
    destruct (e (wctx w) ps) as [[? ?] []]; discriminate. }
  assert (Hb : forall bs, write_bytes C bs w <> Panic).
  { intros bs. assert (H := write_bytes_whole C bs w Hw). destruct (write_bytes C bs w); try discriminate. contradiction. }
  destruct o; try (exfalso; apply Hd; exact I); cbn [run_wop]; try apply Hreq; try apply Hb.
  1: unfold move_up. 2: unfold move_down. 3: unfold move_left. 4: unfold move_right.
  1-4: destruct n as [|[|n]]; try discriminate; apply Hreq.
  - unfold move_cursor, expand. destruct (info C CursorAddress), (info C CursorHome); try destruct (cursor_eqb _ _);
      try destruct (_ (wctx w) _) as [[bs k'] []]; discriminate.
  - unfold set_cursor_mode, expand_opt, expand.
    destruct m; destruct (info C _) as [e|]; try discriminate; destruct (e (wctx w) []) as [[? ?] []]; discriminate.
  - unfold write_styled. assert (Ha := set_attrs_adv C a w). assert (Hq := quiet_set_attrs C a w).
    destruct (set_attrs C a w) as [w1 u1|w1 e| |]; cbn [obind]; try discriminate; try contradiction.
    destruct Hq as (_ & Hq & _). rewrite <- Hq in Hw. unfold write_str.
    assert (H := write_bytes_whole C (utf8s s) w1 Hw).
    destruct (write_bytes C (utf8s s) w1) as [w2 u2|w2 e| |]; cbn [obind]; try discriminate; try contradiction.
    assert (Hcl := clear_spec C w2). destruct (clear_attributes C w2); try discriminate. contradiction.
  - assert (H := flush_whole w Hw). destruct (flush w); try discriminate. contradiction.
Qed.

Lemma write_data_responses buf : forall sc d, whole_writes sc -> 0 < responses sc ->
  exists n r d' sc', write_data buf 0 d sc = Some (n, r, d', sc') /\ responses sc <= S (responses sc').
Proof.
  induction sc as [|x sc IH]; intros d Hw Hr; cbn [responses] in Hr; [lia|]. cbn [write_data].
  destruct (Nat.eqb_spec 0 (length buf)) as [E|E]; [do 4 eexists; split; [reflexivity|lia]|].
  inversion Hw as [|? ? Hx Hs]; subst.
  destruct x as [|[|n]| |e]; cbn in Hx; try contradiction.
  - cbn [Nat.add]. destruct sc; cbn [write_data]; rewrite Nat.eqb_refl; do 4 eexists; (split; [reflexivity|cbn; lia]).
  - do 4 eexists. split; [reflexivity|]. cbn [responses]. lia.
  - destruct (IH d Hs Hr) as (n & r & d' & sc' & E1 & E2). do 4 eexists. split; [exact E1|]. exact E2.
  - do 4 eexists. split; [reflexivity|]. cbn [responses]. lia.
Qed.

Lemma flush_returns w : whole_writes (script w) -> 0 < responses (script w) ->
  match flush w with
  | Ret w' _ => responses (script w) <= S (responses (script w'))
  | Fail _ _ => True
  | Panic => True
  | Blocked => False
  end.
Proof.
  intros Hw Hr. unfold flush. destruct (write_data_responses (obuf w) (script w) (dev w) Hw Hr) as (n & r & d & sc & E & Hl).
  rewrite E. destruct (n <=? length (obuf w)); auto. now destruct r.
Qed.

Lemma write_bytes_returns C bs w : whole_writes (script w) -> 1 < responses (script w) ->
  write_bytes C bs w <> Blocked.
Proof.
  intros Hw Hr. unfold write_bytes.
  assert (Hf := flush_returns w Hw ltac:(lia)). assert (Hg := flush_whole w Hw).
  assert (Hlast : forall w1, whole_writes (script w1) -> 0 < responses (script w1) ->
     (if ocap w1 <? length bs then
      match write_data bs 0 (dev w1) (script w1) with
      | None => Blocked
      | Some (_, r, d, sc) =>
          match r with None => Ret (with_io d sc w1) tt | Some e => Fail (with_io d sc w1) e end
      end
    else Ret (push C bs w1) tt) <> Blocked).
  { intros w1 H1 H2. destruct (ocap w1 <? length bs); [|discriminate].
    destruct (write_data_responses bs (script w1) (dev w1) H1 H2) as (n & r & d & sc & E & _). rewrite E.
    destruct r; discriminate. }
  destruct (ocap w <? length bs + length (obuf w)); cbn [obind].
  - destruct (flush w) as [w1 u|w1 e| |]; cbn [obind]; try discriminate; try contradiction.
    apply Hlast; [apply Hg|lia].
  - apply Hlast; auto. lia.
Qed.

Lemma op_returns C o w : whole_writes (script w) -> 1 < responses (script w) -> run_wop C o w <> Blocked.
Proof.
  intros Hw Hr Hb.
  assert (Hd : writes o \/ ~ writes o) by (destruct o; cbn; auto).
  destruct Hd as [Hd|Hd].
  - destruct o; try contradiction; cbn [run_wop] in Hb; try (now apply write_bytes_returns in Hb).
    + unfold write_styled in Hb. assert (Hq := quiet_set_attrs C a w).
      destruct (set_attrs C a w) as [w1 u1|w1 e| |]; cbn [obind] in Hb; try discriminate; try contradiction.
      destruct Hq as (_ & Hq & _). unfold write_str in Hb.
      assert (H := write_bytes_returns C (utf8s s) w1). rewrite Hq in H. specialize (H Hw Hr).
      destruct (write_bytes C (utf8s s) w1) as [w2 u2|w2 e| |]; cbn [obind] in Hb; try discriminate; try contradiction.
      assert (Hc := quiet_clear C w2). rewrite Hb in Hc. exact Hc.
    + assert (H := flush_returns w Hw ltac:(lia)). now rewrite Hb in H.
  - assert (H := quiet_op C o w Hd). rewrite Hb in H. exact H.
Qed.

(** ** Terminal convenience methods *)
Lemma flush_perfect w : perfect (script w) ->
  match flush w with
  | Ret w' _ => perfect (script w') /\ obuf w' = [] /\ dev w' = stream w /\ wat w' = wat w
  | Blocked => True
  | _ => False
  end.
Proof.
  intros Hp. assert (H := flush_whole w (perfect_whole _ Hp)). assert (H2 := write_data_perfect (obuf w) (script w) 0 (dev w) Hp).
  unfold flush in *. destruct (write_data (obuf w) 0 (dev w) (script w)) as [[[[n r] d] sc]|]; [|trivial].
  destruct H2 as [-> Hsc]. destruct (n <=? length (obuf w)); [|contradiction].
  destruct H as (H3 & (H4 & _) & H5 & H6 & H7). auto.
Qed.

Lemma write_bytes_perfect C bs w : perfect (script w) ->
  match write_bytes C bs w with
  | Ret w' _ => perfect (script w')
  | Blocked => True
  | _ => False
  end.
Proof.
  intros Hp. unfold write_bytes.
  assert (Hlast : forall w1, perfect (script w1) ->
     match (if ocap w1 <? length bs then
      match write_data bs 0 (dev w1) (script w1) with
      | None => Blocked
      | Some (_, r, d, sc) =>
          match r with None => Ret (with_io d sc w1) tt | Some e => Fail (with_io d sc w1) e end
      end
    else Ret (push C bs w1) tt : wres) with Ret w' _ => perfect (script w') | Blocked => True | _ => False end).
  { intros w1 H1. destruct (ocap w1 <? length bs); [|exact H1].
    assert (H2 := write_data_perfect bs (script w1) 0 (dev w1) H1).
    destruct (write_data bs 0 (dev w1) (script w1)) as [[[[n r] d] sc]|]; [|trivial].
    destruct H2 as [-> H2]. exact H2. }
  assert (Hf := flush_perfect w Hp).
  destruct (ocap w <? length bs + length (obuf w)); cbn [obind].
  - destruct (flush w) as [w1 u|w1 e| |]; cbn [obind]; try contradiction; auto. apply Hlast. apply Hf.
  - apply Hlast. exact Hp.
Qed.

Lemma op_perfect C o w : perfect (script w) ->
  match run_wop C o w with
  | Ret w' _ | Fail w' _ => perfect (script w')
  | Panic => True
  | Blocked => True
  end.
Proof.
  intros Hp.
  assert (Hd : writes o \/ ~ writes o) by (destruct o; cbn; auto).
  destruct Hd as [Hd|Hd].
  - destruct o; try contradiction; cbn [run_wop].
    + assert (H := write_bytes_perfect C [13%N] w Hp). unfold move_to_first_column. destruct (write_bytes C [13%N] w); auto; contradiction.
    + assert (H := write_bytes_perfect C (utf8 c) w Hp). unfold write_char. destruct (write_bytes C (utf8 c) w); auto; contradiction.
    + assert (H := write_bytes_perfect C (utf8s s) w Hp). unfold write_str. destruct (write_bytes C (utf8s s) w); auto; contradiction.
    + unfold write_styled. assert (Hq := quiet_set_attrs C a w).
      destruct (set_attrs C a w) as [w1 u1|w1 e| |]; cbn [obind]; auto; destruct Hq as (_ & Hq & _); [|now rewrite Hq].
      unfold write_str. rewrite <- Hq in Hp. assert (H := write_bytes_perfect C (utf8s s) w1 Hp).
      destruct (write_bytes C (utf8s s) w1) as [w2 u2|w2 e| |]; cbn [obind]; auto; try contradiction.
      assert (Hc := quiet_clear C w2). destruct (clear_attributes C w2); auto; destruct Hc as (_ & Hc & _); now rewrite Hc.
    + assert (H := flush_perfect w Hp). destruct (flush w); auto; try contradiction. apply H.
  - assert (H := quiet_op C o w Hd). destruct (run_wop C o w); auto; destruct H as (_ & H & _); now rewrite H.
Qed.

(** C33 with a device that does not fail. *)
Lemma terminal_op_delivers C o w w' u : perfect (script w) -> obuf w = [] ->
  run_terminal_op C o w = Ret w' u ->
  obuf w' = [] /\ perfect (script w') /\
  exists x, dev w' = dev w ++ x /\ contributes o None x.
Proof.
  intros Hp Ho. 
  assert (Hskip : forall d, (Ret w tt : wres) = Ret w' u -> contributes (move_op d 0) None [] ->
    obuf w' = [] /\ perfect (script w') /\ exists x, dev w' = dev w ++ x /\ contributes (move_op d 0) None x).
  { intros d H Hc. injection H as <- _. repeat split; auto. exists []. now rewrite app_nil_r. }
  assert (Hmain : match run_wop C o w with
        | Ret w' _ => guard_drop w'
        | Fail w' e => match guard_drop w' with
                       | Ret w'' _ => Fail w'' e
                       | r => r
                       end
        | r => r
        end = Ret w' u ->
    obuf w' = [] /\ perfect (script w') /\ exists x, dev w' = dev w ++ x /\ contributes o None x).
  { assert (H1 := op_whole C o w (perfect_whole _ Hp)). assert (H2 := op_perfect C o w Hp).
    destruct (run_wop C o w) as [w1 u1|w1 e| |]; try discriminate.
    - unfold guard_drop. assert (H3 := flush_perfect w1 H2). destruct (flush w1) as [w2 u2|w2 e| |]; try discriminate; try contradiction.
      intros H. injection H as <- _. destruct H3 as (H3 & H4 & H5 & _). repeat split; auto.
      destruct H1 as (_ & x & E & Hc). exists x. rewrite H5, E. unfold stream. rewrite Ho, app_nil_r. auto.
    - destruct (guard_drop w1); discriminate. }
  unfold run_terminal_op. destruct o; try exact Hmain; destruct n as [|n]; try exact Hmain.
  - intros H; apply (Hskip Up H); exact I.
  - intros H; apply (Hskip Down H); exact I.
  - intros H; apply (Hskip Left H); exact I.
  - intros H; apply (Hskip Right H); exact I.
Qed.

(** ** C34: movement *)
Lemma req_moves E C c ps p w : 
  (forall v, cap_dom c ps v) ->
  (forall v v', cap_effect c ps v v' -> moved (p v) v v') ->
  match expand_req C c ps w with
  | Ret w' _ => exists x, obuf w' = obuf w ++ x /\ dev w' = dev w /\
      forall K, implements E C K -> forall t v, look K t = Some v -> column (vcur v) < columns (vsize v) ->
        look K (feed K t x) = Some (set_vcur (p v) v)
  | Fail w' e => has C c = false -> w' = w /\ e = ENotSupported c
  | _ => False
  end.
Proof.
  intros Hd He. unfold expand_req, expand, has. destruct (info C c) as [e|] eqn:Ei.
  - destruct (e (wctx w) ps) as [[bs k] []] eqn:Ee; [|discriminate].
    exists bs. repeat split. intros K HK t v Hl Hc.
    destruct (cap_ok _ _ _ HK c e Ei _ _ _ _ Ee t v Hl (Hd v)) as (v' & E1 & E2).
    rewrite E1. f_equal. now apply He.
  - auto.
Qed.

Lemma move_moves E C d n w : n <> 0 ->
  match run_wop C (move_op d n) w with
  | Ret w' _ => exists x, obuf w' = obuf w ++ x /\ dev w' = dev w /\
      forall K, implements E C K -> forall t v, look K t = Some v -> column (vcur v) < columns (vsize v) ->
        look K (feed K t x) = Some (set_vcur (shift d (N.to_nat (N.min (N.of_nat n) u32_max)) (vsize v) (vcur v)) v)
  | Fail w' e => has C (move_cap d n) = false -> w' = w /\ e = ENotSupported (move_cap d n)
  | _ => False
  end.
Proof.
  intros Hn. assert (Hu : forall m, to_u32 m = N.min (N.of_nat m) u32_max) by reflexivity.
  assert (H1 : N.to_nat (N.min (N.of_nat 1) u32_max) = 1) by reflexivity.
  destruct n as [|[|n]]; [congruence| |].
  - rewrite H1. clear Hu.
    destruct d; cbn [move_op run_wop move_up move_down move_left move_right move_cap].
    + apply (req_moves E C CursorUp [] (fun v => shift Up 1 (vsize v) (vcur v)) w); [intros; exact I|]. intros v v' H; exact H.
    + apply (req_moves E C ParmDownCursor [to_u32 1] (fun v => shift Down 1 (vsize v) (vcur v)) w); [intros; apply to_u32_pos|].
      intros v v' H. unfold cap_effect in H. cbn [hd] in H.
      change (N.to_nat (to_u32 1)) with (N.to_nat (N.min (N.of_nat 1) u32_max)) in H. rewrite H1 in H. exact H.
    + apply (req_moves E C CursorLeft [] (fun v => shift Left 1 (vsize v) (vcur v)) w); [intros; exact I|]. intros v v' H; exact H.
    + apply (req_moves E C CursorRight [] (fun v => shift Right 1 (vsize v) (vcur v)) w); [intros; exact I|]. intros v v' H; exact H.
  - rewrite <- Hu. set (m := S (S n)).
    assert (Hd : run_wop C (move_op d m) w = expand_req C (move_cap d m) [to_u32 m] w) by (destruct d; reflexivity).
    rewrite Hd. assert (Hp : (0 < to_u32 m)%N) by apply to_u32_pos. generalize (to_u32 m) Hp. intros q Hq.
    apply (req_moves E C (move_cap d m) [q] (fun v => shift d (N.to_nat q) (vsize v) (vcur v)) w);
      destruct d; cbn [move_cap m]; intros v; try exact Hq; intros v' H; exact H.
Qed.

Lemma move_cursor_moves E C p w :
  match run_wop C (OMoveCursor p) w with
  | Ret w' _ => exists x, obuf w' = obuf w ++ x /\ dev w' = dev w /\ wat w' = wat w /\ script w' = script w /\
      forall K, implements E C K -> forall t v, look K t = Some v ->
        in_bounds p (vsize v) -> (N.of_nat (lines (vsize v)) <= u32_max)%N -> (N.of_nat (columns (vsize v)) <= u32_max)%N ->
        look K (feed K t x) = Some (set_vcur p v)
  | Fail w' e => has C CursorAddress = false -> w' = w /\ e = ENotSupported CursorAddress
                 \/ (p = Cursor 0 0 /\ has C CursorHome = true)
  | _ => False
  end.
Proof.
  assert (Hhome : forall home, info C CursorHome = Some home -> p = Cursor 0 0 ->
    match expand C home [] w with
    | Ret w' _ => exists x, obuf w' = obuf w ++ x /\ dev w' = dev w /\ wat w' = wat w /\ script w' = script w /\
      forall K, implements E C K -> forall t v, look K t = Some v ->
        in_bounds p (vsize v) -> (N.of_nat (lines (vsize v)) <= u32_max)%N -> (N.of_nat (columns (vsize v)) <= u32_max)%N ->
        look K (feed K t x) = Some (set_vcur p v)
    | Fail w' e => has C CursorAddress = false -> w' = w /\ e = ENotSupported CursorAddress
                   \/ (p = Cursor 0 0 /\ has C CursorHome = true)
    | _ => False end).
  { intros home Hi ->. unfold expand. destruct (home (wctx w) []) as [[bs k] []] eqn:Ee.
    - exists bs. repeat split. intros K HK t v Hl Hb _ _.
      destruct (cap_ok _ _ _ HK _ _ Hi _ _ _ _ Ee t v Hl I) as (v' & E1 & E2). cbn in E2. now subst v'.
    - intros _. right. unfold has. rewrite Hi. auto. }
  assert (Haddr : forall a, info C CursorAddress = Some a ->
    match expand C a [to_u32 (line p); to_u32 (column p)] w with
    | Ret w' _ => exists x, obuf w' = obuf w ++ x /\ dev w' = dev w /\ wat w' = wat w /\ script w' = script w /\
      forall K, implements E C K -> forall t v, look K t = Some v ->
        in_bounds p (vsize v) -> (N.of_nat (lines (vsize v)) <= u32_max)%N -> (N.of_nat (columns (vsize v)) <= u32_max)%N ->
        look K (feed K t x) = Some (set_vcur p v)
    | Fail w' e => has C CursorAddress = false -> w' = w /\ e = ENotSupported CursorAddress
                   \/ (p = Cursor 0 0 /\ has C CursorHome = true)
    | _ => False end).
  { intros a Hi. unfold expand. destruct (a (wctx w) _) as [[bs k] []] eqn:Ee.
    - exists bs. repeat split. intros K HK t v Hl [B1 B2] L1 L2. unfold u32_max in *.
      assert (T1 : to_u32 (line p) = N.of_nat (line p)) by (unfold to_u32; lia).
      assert (T2 : to_u32 (column p) = N.of_nat (column p)) by (unfold to_u32; lia).
      rewrite T1, T2 in Ee.
      destruct (cap_ok _ _ _ HK _ _ Hi _ _ _ _ Ee t v Hl) as (v' & E1 & E2); [split; lia|].
      rewrite E1. f_equal. cbn in E2. rewrite !Nat2N.id in E2. rewrite E2. now destruct p.
    - unfold has. rewrite Hi. discriminate. }
  cbn [run_wop]. unfold move_cursor. destruct (info C CursorAddress) as [a|] eqn:Ea, (info C CursorHome) as [h|] eqn:Eh.
  - destruct (cursor_eqb p (Cursor 0 0)) eqn:Ep; [|now apply Haddr].
    apply Hhome; [reflexivity|]. unfold cursor_eqb in Ep. cbn in Ep. destruct p. cbn in *. f_equal; lia.
  - now apply Haddr.
  - destruct (cursor_eqb p (Cursor 0 0)) eqn:Ep; [|left; auto].
    apply Hhome; [reflexivity|]. unfold cursor_eqb in Ep. cbn in Ep. destruct p. cbn in *. f_equal; lia.
  - left; auto.
Qed.

(** ** Short writes *)
Lemma write_data_short_err k buf e : 0 < k < length buf -> length buf mod k <> 0 ->
  forall n m d, write_data buf (m * k) d (repeat (WOk k) n ++ [WErr e]) =
    Some ((m + n) * k, Some (EOs e), d ++ concat (repeat (firstn k buf) n), []).
Proof.
  intros Hk Hm. induction n as [|n IH]; intros m d; cbn [repeat app write_data];
    destruct (Nat.eqb_spec (m * k) (length buf)) as [E|E];
    try (exfalso; apply Hm; rewrite <- E; apply Nat.mod_mul; lia).
  - now rewrite Nat.add_0_r, app_nil_r.
  - rewrite Nat.min_l by lia. destruct k as [|k']; [lia|].
    replace (m * S k' + S k') with (S m * S k') by lia. rewrite IH. cbn [concat].
    rewrite app_assoc. do 4 f_equal. lia.
Qed.

Lemma flush_short_panics k n e w : 0 < k < length (obuf w) -> length (obuf w) mod k <> 0 ->
  length (obuf w) < n * k ->
  script w = repeat (WOk k) n ++ [WErr e] -> flush w = Panic.
Proof.
  intros H1 H2 H3 H4. unfold flush. rewrite H4.
  assert (H := write_data_short_err k (obuf w) e H1 H2 n 0 (dev w)). cbn [Nat.mul Nat.add] in H. rewrite H.
  destruct (Nat.leb_spec (n * k) (length (obuf w))); [lia|reflexivity].
Qed.

(** ** Corollaries *)
Lemma text_stream C ss : forall w rs w', whole_writes (script w) ->
  run_any C (map OWriteStr ss) w = Some (rs, w') ->
  stream w' = stream w ++
    concat (map (fun p => match fst p with None => utf8s (snd p) | Some _ => [] end) (combine rs ss)).
Proof.
  induction ss as [|s ss IH]; intros w rs w' Hw H; cbn [map run_any] in H.
  - injection H as <- <-. cbn. now rewrite app_nil_r.
  - assert (Ho := op_whole C (OWriteStr s) w Hw). destruct (run_wop C (OWriteStr s) w) as [w1 u|w1 e| |]; try discriminate.
    + destruct Ho as (Hw1 & x & Hx & Hc). cbn in Hc. subst x.
      destruct (run_any C (map OWriteStr ss) w1) as [[rs1 w2]|] eqn:E; [|discriminate]. injection H as <- <-.
      rewrite (IH _ _ _ Hw1 E), Hx. cbn [combine map concat fst snd]. now rewrite <- app_assoc.
    + destruct Ho as (Hw1 & x & Hx & Hc). cbn in Hc. subst x. rewrite app_nil_r in Hx.
      destruct (run_any C (map OWriteStr ss) w1) as [[rs1 w2]|] eqn:E; [|discriminate]. injection H as <- <-.
      rewrite (IH _ _ _ Hw1 E), Hx. reflexivity.
Qed.

Lemma short_then_error : exists w w1 w2 e, flush w = Fail w1 e /\ flush w1 = Ret w2 tt /\
  stream w = [97; 98; 99]%N /\ dev w2 = [97; 97; 99]%N.
Proof.
  exists (W [97; 98; 99]%N 512 no_attrs 0 [] [WOk 1; WOk 1; WErr 5; WAll]%N). do 3 eexists. repeat split.
Qed.

Lemma flush_loses_nothing w : whole_writes (script w) ->
  match flush w with
  | Ret w' _ => obuf w' = [] /\ dev w' = dev w ++ obuf w
  | Fail w' _ => obuf w' = obuf w /\ dev w' = dev w /\ whole_writes (script w')
  | Panic => False
  | Blocked => True
  end.
Proof. intros H. assert (H1 := flush_whole w H). destruct (flush w); tauto. Qed.

Lemma error_swallowed C cap s e sc : length (utf8s s) <= cap -> s <> [] ->
  exists w', run_terminal_op C (OWriteStr s) (writer_new cap (WErr e :: sc)) = Ret w' tt /\
    dev w' = [] /\ obuf w' = utf8s s.
Proof.
  intros Hl Hs. unfold run_terminal_op, run_wop, write_str, write_bytes, writer_new. cbn [ocap obuf length].
  replace (cap <? length (utf8s s) + 0) with false by lia. cbn [obind ocap].
  replace (cap <? length (utf8s s)) with false by lia.
  unfold guard_drop, flush, push. cbn [obuf script dev app].
  assert (Hne : utf8s s <> []).
  { destruct s as [|c s]; [congruence|]. unfold utf8s. cbn [flat_map]. intros H. apply app_eq_nil in H.
    now apply (utf8_nonempty c). }
  unfold write_data. destruct (Nat.eqb_spec 0 (length (utf8s s))) as [H|_];
    [destruct (utf8s s); [congruence|discriminate]|].
  eexists. split; [reflexivity|]. split; reflexivity.
Qed.

Lemma move_zero C d w : run_wop C (move_op d 0) w = Ret w tt.
Proof. destruct d; reflexivity. Qed.

Lemma move_missing C d n w : n <> 0 -> has C (move_cap d n) = false ->
  run_wop C (move_op d n) w = Fail w (ENotSupported (move_cap d n)).
Proof.
  intros Hn. unfold has. destruct d; destruct n as [|[|n]]; try congruence;
    cbn [move_op run_wop move_up move_down move_left move_right move_cap]; unfold expand_req;
    destruct (info C _); intros; congruence.
Qed.
