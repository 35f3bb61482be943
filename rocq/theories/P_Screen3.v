(** [refresh]: idempotence, minimal output, no panics. *)
From Verif Require Import Base M_Utf8 S_Utf8 M_Geom S_Geom M_Attr M_Buf S_Buf M_Writer S_Tty S_Writer
  M_Screen S_Screen P_Buf P_Buf2 P_Buf3 P_Buf4 P_Writer P_Attr P_Writer2 P_Writer3 P_Screen P_Screen2.

(** ** Control strings *)
Section Control.
  Variable C : tcfg.

  Lemma control_app x y : control C x -> control C y -> control C (x ++ y).
  Proof. induction 1; intros; [assumption|]. rewrite <- app_assoc. econstructor; eauto. Qed.

  Definition cext (w w' : wst) : Prop :=
    dev w' = dev w /\ script w' = script w /\ exists x, obuf w' = obuf w ++ x /\ control C x.

  Lemma cext_refl w : cext w w.
  Proof. repeat split. exists []. rewrite app_nil_r. split; [reflexivity|constructor]. Qed.

  Lemma cext_trans w1 w2 w3 : cext w1 w2 -> cext w2 w3 -> cext w1 w3.
  Proof.
    intros (A1 & A2 & x & A3 & A4) (B1 & B2 & y & B3 & B4). repeat split; try congruence.
    exists (x ++ y). split; [now rewrite app_assoc, <- A3|]. now apply control_app.
  Qed.

  Definition cq {A} (w : wst) (r : out wst werr A) : Prop :=
    match r with
    | Ret w' _ => cext w w'
    | Fail w' _ => cext w w'
    | Panic => True
    | Blocked => False
    end.

  Lemma cq_bind {A B} w (r : out wst werr A) (k : wst -> A -> out wst werr B) :
    cq w r -> (forall w' a, cext w w' -> cq w' (k w' a)) -> cq w (obind r k).
  Proof.
    intros H1 H2. destruct r as [w' a|w' e| |]; cbn in *; auto.
    specialize (H2 w' a H1). unfold cq in *. destruct (k w' a); auto; eapply cext_trans; eauto.
  Qed.

  Lemma cq_ret w a : cq w (Ret w a : wres).
  Proof. apply cext_refl. Qed.

  Lemma cq_track a w : cq w (Ret (with_wat a w) tt : wres).
  Proof. repeat split. exists []. cbn. rewrite app_nil_r. split; [reflexivity|constructor]. Qed.

  Lemma cq_from {A} w w' (r : out wst werr A) : cext w w' -> cq w' r -> cq w r.
  Proof. unfold cq. destruct r; auto; intros; eapply cext_trans; eauto. Qed.

  Lemma cq_expand c e ps w : info C c = Some e -> cq w (expand C e ps w).
  Proof.
    intros Hi. unfold expand. destruct (e (wctx w) ps) as [[bs k] ok] eqn:Ee.
    assert (cext w (with_wctx k (push C bs w))).
    { repeat split. exists bs. split; [reflexivity|]. rewrite <- (app_nil_r bs). econstructor; eauto. constructor. }
    destruct ok; assumption.
  Qed.

  Lemma cq_opt c ps w : cq w (expand_opt C c ps w).
  Proof. unfold expand_opt. destruct (info C c) eqn:Ei; [eapply cq_expand; eauto|apply cq_ret]. Qed.

  Lemma cq_req c ps w : cq w (expand_req C c ps w).
  Proof. unfold expand_req. destruct (info C c) eqn:Ei; [eapply cq_expand; eauto|apply cext_refl]. Qed.

  Lemma cq_when b f w : (forall w, cq w (f w)) -> cq w (when b f w).
  Proof. intros H. unfold when. destruct b; [apply H|apply cq_ret]. Qed.

  Lemma cq_clear w : cq w (clear_attributes C w).
  Proof.
    unfold clear_attributes. destruct (attrs_eqb (wat w) no_attrs); [apply cq_ret|].
    apply (cq_from w (with_wat no_attrs w)); [apply (cq_track no_attrs w)|apply cq_opt].
  Qed.

  Ltac q := repeat first
    [ apply cq_ret | apply cq_track | apply cq_opt | apply cq_req | apply cq_clear
    | apply cq_when; intros | apply cq_bind; [|intros] ].

  Lemma cq_add s w : cq w (add_style C s w).
  Proof. unfold add_style. q. Qed.

  Lemma cq_attrs : forall fuel,
    (forall c w, cq w (set_fg C fuel c w)) /\
    (forall c w, cq w (set_bg C fuel c w)) /\
    (forall s w, cq w (remove_style C fuel s w)) /\
    (forall s w, cq w (set_style C fuel s w)) /\
    (forall w, cq w (clear_fg C fuel w)) /\
    (forall w, cq w (clear_bg C fuel w)).
  Proof.
    induction fuel as [|fuel (I1 & I2 & I3 & I4 & I5 & I6)].
    - repeat split; intros; exact I.
    - repeat split; intros; cbn [set_fg set_bg remove_style set_style clear_fg clear_bg];
        repeat match goal with |- context [if ?b then _ else _] => destruct b end;
        try destruct c; unfold set_fg_color, set_bg_color, set_tracked_fg, set_tracked_bg, set_tracked_style; q;
        auto using cq_add.
  Qed.

  Lemma cq_set_attrs a w : cq w (set_attrs C a w).
  Proof.
    unfold set_attrs. destruct (cq_attrs depth) as (I1 & I2 & I3 & I4 & I5 & I6). q; auto.
  Qed.

  Lemma cq_move_cursor p w : cq w (move_cursor C p w).
  Proof.
    unfold move_cursor. destruct (info C CursorAddress) eqn:E1, (info C CursorHome) eqn:E2; try destruct (cursor_eqb _ _);
      try (eapply cq_expand; eauto); apply cext_refl.
  Qed.
End Control.

(** ** The walk over the cells *)
Section Walk.
  Variable E : env.

  Definition wstep (ch : N) (lo hi : nat) : nat := if (width0 E ch =? 2) && (S lo <? hi) then S (S lo) else S lo.

  Inductive settled (b : sbuf) (hi : nat) : nat -> Prop :=
  | St_end lo : hi <= lo -> settled b hi lo
  | St_cell lo c ch r : lo < hi -> nth_error (buffer b) lo = Some c -> nth_error (back b) lo = Some c ->
      ctext c = ch :: r -> settled b hi (wstep ch lo hi) -> settled b hi lo.

  Lemma settled_none b hi lo : settled b hi lo -> forall fuel, exists lo', next_cell_aux E fuel b lo hi = Val (b, lo', None).
  Proof.
    induction 1 as [lo Hl|lo c ch r Hl Hb Hk Ht Hs IH]; intros [|fuel]; cbn [next_cell_aux]; eauto.
    - destruct (Nat.leb_spec hi lo); [eauto|lia].
    - destruct (Nat.leb_spec hi lo); [lia|]. rewrite Hb. unfold first_char. rewrite Ht, Hk.
      replace (cell_eqb c c) with true by (symmetry; now apply cell_eqb_eq). apply IH.
  Qed.

  Lemma none_settled hi b : forall fuel lo b' lo', hi - lo <= fuel ->
    next_cell_aux E fuel b lo hi = Val (b', lo', None) -> b' = b /\ settled b hi lo.
  Proof.
    induction fuel as [|fuel IH]; intros lo b' lo' Hf H; cbn [next_cell_aux] in H.
    - injection H as <- _. split; [reflexivity|]. constructor. lia.
    - destruct (Nat.leb_spec hi lo); [injection H as <- _; split; [reflexivity|now constructor]|].
      destruct (nth_error (buffer b) lo) as [c|] eqn:Eb; [|discriminate]. unfold first_char in H.
      destruct (ctext c) as [|ch r] eqn:Et; [discriminate|].
      destruct (nth_error (back b) lo) as [k|] eqn:Ek; [|discriminate].
      destruct (cell_eqb c k) eqn:Eq.
      + apply cell_eqb_eq in Eq. subst k. apply IH in H; [|destruct (_ && _); lia].
        destruct H as [-> H]. split; [reflexivity|]. eapply St_cell; eauto.
      + destruct (columns (bsize b)); [discriminate|]. destruct (vec_set lo c (back b)); discriminate.
  Qed.

  Lemma some_settled hi b : forall fuel lo b' lo' p c, hi - lo <= fuel ->
    next_cell_aux E fuel b lo hi = Val (b', lo', Some (p, c)) ->
    exists i bk, lo <= i < lo' /\ i < hi /\ vec_set i c (back b) = Some bk /\ b' = with_back b bk /\
      forall b2, buffer b2 = buffer b -> (forall j, j < lo' -> nth_error (back b2) j = nth_error bk j) ->
        settled b2 hi lo' -> settled b2 hi lo.
  Proof.
    induction fuel as [|fuel IH]; intros lo b' lo' p c Hf H; cbn [next_cell_aux] in H; [discriminate|].
    destruct (Nat.leb_spec hi lo); [discriminate|].
    destruct (nth_error (buffer b) lo) as [c0|] eqn:Eb; [|discriminate]. unfold first_char in H.
    destruct (ctext c0) as [|ch r] eqn:Et; [discriminate|].
    destruct (nth_error (back b) lo) as [k|] eqn:Ek; [|discriminate].
    fold (wstep ch lo hi) in H.
    assert (Hst : lo < wstep ch lo hi) by (unfold wstep; destruct (_ && _); lia).
    destruct (cell_eqb c0 k) eqn:Eq.
    - apply cell_eqb_eq in Eq. subst k. apply IH in H; [|lia].
      destruct H as (i & bk & H1 & H2 & H3 & H4 & H5). exists i, bk. split; [lia|]. repeat (split; [assumption|]).
      intros b2 B1 B2 B3. eapply (St_cell b2 hi lo c0 ch r); auto.
      + now rewrite B1.
      + rewrite B2 by lia. apply vec_set_some in H3. destruct H3 as [H3 ->]. rewrite nth_upd by assumption.
        destruct (Nat.eqb_spec lo i); [lia|assumption].
    - destruct (columns (bsize b)); [discriminate|]. destruct (vec_set lo c0 (back b)) as [bk|] eqn:Ev; [|discriminate].
      injection H as <- <- _ <-. exists lo, bk. split; [lia|]. repeat (split; [solve [assumption|reflexivity]|]).
      intros b2 B1 B2 B3. eapply (St_cell b2 hi lo c0 ch r); auto.
      + now rewrite B1.
      + rewrite B2 by lia. apply vec_set_some in Ev. destruct Ev as [Hl ->]. rewrite nth_upd by assumption.
        now rewrite Nat.eqb_refl.
  Qed.

  Variable C : tcfg.

  Lemma move_keeps p s s' u : s_move_cursor C p s = Ret s' u ->
    sb s' = sb s /\ clr s' = clr s /\ real s' = p /\ wat (wr s') = wat (wr s).
  Proof.
    unfold s_move_cursor. destruct (cursor_eqb (real s) p) eqn:Ec; intros H.
    - apply cursor_eqb_eq in Ec. injection H as <- _. auto.
    - apply bind_ret in H. destruct H as (s1 & u1 & H1 & H). injection H as <- _.
      apply on_writer_ret in H1. destruct H1 as (w & H1 & ->).
      assert (Hm := move_cursor_moves E C p (wr s)). cbn [run_wop] in Hm. rewrite H1 in Hm.
      destruct Hm as (x & X1 & X2 & X3 & X4 & X5). repeat split; auto.
  Qed.

  Lemma draw_settled fuel : forall lo hi s s' u, draw E C fuel lo hi s = Ret s' u ->
    settled (sb s') hi lo /\ sb s' = with_back (sb s) (back (sb s')) /\ clr s' = clr s /\
    (forall j, j < lo -> nth_error (back (sb s')) j = nth_error (back (sb s)) j).
  Proof.
    induction fuel as [|fuel IH]; intros lo hi s s' u H; cbn [draw] in H; unfold next_cell in H;
      destruct (next_cell_aux E (hi - lo) (sb s) lo hi) as [[[b' lo'] [[p c]|]]|] eqn:En; try discriminate.
    1, 3: apply bind_ret in H; destruct H as (s1 & u1 & H1 & H);
      apply bind_ret in H; destruct H as (s2 & u2 & H2 & H);
      apply bind_ret in H; destruct H as (s3 & u3 & H3 & H);
      destruct (uadd (umax E) (column (real s3)) 1) as [cc|]; try discriminate.
    1: { destruct (move_keeps _ _ _ _ H1) as (M1 & M2 & _). cbn [sb clr with_sb] in M1, M2.
      apply on_writer_ret in H2. destruct H2 as (w2 & _ & ->).
      apply on_writer_ret in H3. destruct H3 as (w3 & _ & ->).
      destruct (some_settled _ _ _ _ _ _ _ _ (le_n _) En) as (i & bk & I1 & I2 & I3 & I4 & I5).
      apply IH in H. cbn [sb clr with_real with_wr] in H. destruct H as (D1 & D2 & D3 & D4).
      rewrite M1, I4 in *. cbn [back with_back] in D4.
      split; [|split; [rewrite D2; reflexivity|split; [congruence|]]].
      - apply I5; auto. rewrite D2. reflexivity.
      - intros j Hj. rewrite D4 by lia. apply vec_set_some in I3. destruct I3 as [I3 ->]. rewrite nth_upd by assumption.
        destruct (Nat.eqb_spec j i); [lia|reflexivity]. }
    all: injection H as <- _; apply none_settled in En; [|lia]; destruct En as [-> En];
      assert (Hw : with_sb (sb s) s = s) by (now destruct s); rewrite Hw;
      split; [assumption|]; split; [now destruct (sb s)|]; auto.
  Qed.

  Lemma flush_empties w w' u : flush w = Ret w' u -> obuf w' = [] /\ wat w' = wat w.
  Proof.
    unfold flush. destruct (write_data (obuf w) 0 (dev w) (script w)) as [[[[n r] d] sc]|] eqn:Ew; [|discriminate].
    destruct (Nat.leb_spec n (length (obuf w))); [|discriminate]. destruct r; [discriminate|].
    intros Hr. injection Hr as <- _. cbn. split; [|reflexivity].
    assert (Hg : forall sc off d n d' sc', write_data (obuf w) off d sc = Some (n, None, d', sc') -> n = length (obuf w)).
    { clear. intros sc. induction sc as [|r sc IH]; intros off d n d' sc'; cbn [write_data];
        destruct (Nat.eqb_spec off (length (obuf w))); try congruence; try discriminate.
      destruct r; eauto; try discriminate. destruct (Nat.min n1 (length (obuf w))); [discriminate|eauto]. }
    apply Hg in Ew. subst n. apply skipn_all.
  Qed.

  Lemma flush_nothing w : obuf w = [] -> flush w = Ret w tt.
  Proof.
    intros H. unfold flush. rewrite H. destruct (script w) eqn:Es; cbn; destruct w; cbn in *; now subst.
  Qed.

  (** [refresh] twice is [refresh] once. *)
  Lemma refresh_settles s s' u : refresh E C s = Ret s' u ->
    clr s' = false /\ wat (wr s') = no_attrs /\ obuf (wr s') = [] /\ real s' = cursor_goal (sb s') /\
    sb s' = with_back (sb s) (back (sb s')) /\
    exists n, sb_indices E (sb s') = Val (0, n) /\ settled (sb s') n 0 /\
      (is_out_of_bounds (bcur (sb s')) (bsize (sb s')) = true -> exists p, cursor_last (bsize (sb s')) = Val p).
  Proof.
    intros H. unfold refresh in H. apply bind_ret in H. destruct H as (sc & uc & H & Hfl).
    unfold compose in H.
    apply bind_ret in H. destruct H as (s1 & u1 & H1 & H).
    assert (S1 : sb s1 = sb s /\ clr s1 = false).
    { destruct (clr s) eqn:Ec.
      - apply bind_ret in H1. destruct H1 as (s0 & u0 & H0 & H1). injection H1 as <- _.
        apply on_writer_ret in H0. destruct H0 as (w & H0 & ->). split; reflexivity.
      - injection H1 as <- _. auto. }
    destruct S1 as [S1 C1].
    apply bind_ret in H. destruct H as (s2 & u2 & H2 & H).
    apply on_writer_ret in H2. destruct H2 as (w2 & H2 & ->). cbn [sb with_wr] in H.
    destruct (sb_indices E (sb s1)) as [[lo hi]|] eqn:Ei; [|discriminate].
    assert (lo = 0) by (unfold sb_indices in Ei; destruct (area _ _); congruence). subst lo.
    apply bind_ret in H. destruct H as (s3 & u3 & H3 & H).
    destruct (draw_settled _ _ _ _ _ _ H3) as (D1 & D2 & D3 & D4). cbn [sb clr with_wr] in D2, D3, D4.
    apply bind_ret in H. destruct H as (s4 & u4 & H4 & H).
    apply on_writer_ret in H4. destruct H4 as (w4 & H4 & ->).
    assert (A4 : wat w4 = no_attrs).
    { assert (Ha := clear_adv C (wr s3)). rewrite H4 in Ha. apply Ha. }
    assert (Hlast : is_out_of_bounds (bcur (sb s3)) (bsize (sb s3)) = true -> exists p, cursor_last (bsize (sb s3)) = Val p).
    { intros Ho. cbn [sb with_wr] in H. rewrite Ho in H. destruct (cursor_last (bsize (sb s3))); [eauto|discriminate]. }
    apply final_move in H. cbn [sb with_wr] in H.
    destruct (move_keeps _ _ _ _ H) as (M1 & M2 & M3 & M4). cbn [sb clr wr with_wr] in M1, M2, M4.
    apply on_writer_ret in Hfl. destruct Hfl as (w5 & Hfl & ->). cbn [sb clr wr real with_wr].
    destruct (flush_empties _ _ _ Hfl) as (F1 & F2).
    split; [congruence|]. split; [congruence|]. split; [assumption|]. split; [congruence|].
    split; [rewrite M1; rewrite D2 at 1; rewrite S1; reflexivity|].
    exists hi. split; [|rewrite M1; auto]. rewrite M1, D2. exact Ei.
  Qed.

  Lemma with_sb_id s : with_sb (sb s) s = s. Proof. now destruct s. Qed.
  Lemma with_wr_id s : with_wr (wr s) s = s. Proof. now destruct s. Qed.

  Lemma settled_refresh s n : clr s = false -> wat (wr s) = no_attrs -> obuf (wr s) = [] ->
    real s = cursor_goal (sb s) -> sb_indices E (sb s) = Val (0, n) -> settled (sb s) n 0 ->
    (is_out_of_bounds (bcur (sb s)) (bsize (sb s)) = true -> exists p, cursor_last (bsize (sb s)) = Val p) ->
    refresh E C s = Ret s tt.
  Proof.
    intros H1 H2 H3 H4 H5 H6 H7. unfold refresh, compose. rewrite H1. cbn [obind].
    assert (Hc : on_writer (clear_attributes C) s = Ret s tt).
    { unfold on_writer, clear_attributes. rewrite H2. cbn. now rewrite with_wr_id. }
    rewrite Hc. cbn [obind]. rewrite H5.
    assert (Hd : draw E C (n - 0) 0 n s = Ret s tt).
    { destruct (settled_none _ _ _ H6 (n - 0)) as (lo' & Hn).
      destruct (n - 0) eqn:En; cbn [draw]; unfold next_cell; rewrite En, Hn; now rewrite with_sb_id. }
    rewrite Hd. cbn [obind]. rewrite Hc. cbn [obind].
    assert (Hm : forall p, real s = p -> s_move_cursor C p s = Ret s tt).
    { intros p Hp. unfold s_move_cursor. replace (cursor_eqb (real s) p) with true; [reflexivity|].
      symmetry. now apply cursor_eqb_eq. }
    assert (Hg : (if is_out_of_bounds (bcur (sb s)) (bsize (sb s))
                  then match cursor_last (bsize (sb s)) with Val p => s_move_cursor C p s | Boom => Panic end
                  else s_move_cursor C (bcur (sb s)) s) = Ret s tt).
    { unfold cursor_goal in H4. destruct (is_out_of_bounds (bcur (sb s)) (bsize (sb s))) eqn:Eo.
      - destruct (H7 eq_refl) as (p & Hp). rewrite Hp. apply Hm. rewrite H4. apply last_goal in Hp. subst p.
        unfold is_out_of_bounds in Eo.
        destruct (Nat.ltb_spec (line (bcur (sb s))) (lines (bsize (sb s)))); cbn [andb]; [|reflexivity].
        destruct (Nat.ltb_spec (column (bcur (sb s))) (columns (bsize (sb s)))); [|reflexivity].
        exfalso. lia.
      - apply Hm. rewrite H4. unfold is_out_of_bounds in Eo.
        destruct (Nat.ltb_spec (line (bcur (sb s))) (lines (bsize (sb s)))); cbn [andb]; [|lia].
        destruct (Nat.ltb_spec (column (bcur (sb s))) (columns (bsize (sb s)))); [reflexivity|lia]. }
    match goal with |- obind ?m _ = _ => assert (Hg' : m = Ret s tt) by exact Hg; rewrite Hg' end. cbn [obind]. unfold on_writer. rewrite flush_nothing by assumption. now rewrite with_wr_id.
  Qed.

  Lemma refresh_twice s s' u : refresh E C s = Ret s' u -> refresh E C s' = Ret s' tt.
  Proof.
    intros H. destruct (refresh_settles _ _ _ H) as (R1 & R2 & R3 & R4 & R5 & n & R6 & R7 & R8).
    eapply settled_refresh; eauto.
  Qed.

  Lemma refresh_and_drop s s' u : refresh E C s = Ret s' u -> screen_refresh E C s = Ret s' tt /\ s_guard_drop E C s = Ret s' tt.
  Proof.
    intros H. assert (H2 := refresh_twice _ _ _ H).
    destruct (refresh_settles _ _ _ H) as (R1 & R2 & R3 & _).
    assert (Hg : on_writer guard_drop s' = Ret s' tt).
    { unfold on_writer, guard_drop. rewrite flush_nothing by assumption. now rewrite with_wr_id. }
    split.
    - unfold screen_refresh. rewrite H. unfold s_guard_drop. rewrite H2, Hg. now destruct u.
    - unfold s_guard_drop. now rewrite H.
  Qed.
End Walk.
