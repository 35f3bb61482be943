(** Buffer operations only store text they are given. *)
From Verif Require Import Base M_Utf8 M_Geom S_Geom M_Attr M_Buf S_Buf P_Buf P_Buf2.

Section Texts.
  Variable E : env.
  Hypothesis HE : env_ok E.
  Variable T : list N -> Prop.
  Hypothesis Tspace : T [SPACE].

  Definition good_char (ch : N) : Prop :=
    (printable E ch -> T [ch]) /\ (mark E ch -> forall t, T t -> T (t ++ [ch])).

  Definition texts (b : sbuf) : Prop := Forall (fun c => T (ctext c)) (buffer b).

  (** [b'] differs from [b] in cells and cursor only, and its cells are good. *)
  Definition kept (b b' : sbuf) : Prop :=
    back b' = back b /\ bsize b' = bsize b /\ length (buffer b') = length (buffer b) /\ (texts b -> texts b').

  Lemma kept_refl b : kept b b. Proof. repeat split; auto. Qed.
  Lemma kept_trans a b c : kept a b -> kept b c -> kept a c.
  Proof. unfold kept. intros (H1 & H2 & H3 & H4) (K1 & K2 & K3 & K4). repeat split; try congruence. auto. Qed.
  Lemma kept_cur b p : kept b (with_cur b p). Proof. repeat split; auto. Qed.
  Lemma kept_attrs b a : kept b (with_attrs b a). Proof. repeat split; auto. Qed.

  Lemma vec_set_some {A} i (x : A) l l' : vec_set i x l = Some l' -> i < length l /\ l' = upd i x l.
  Proof.
    intros H. destruct (Nat.ltb_spec i (length l)) as [Hi|Hi].
    - rewrite vec_set_upd in H by assumption. split; [assumption|congruence].
    - exfalso. unfold vec_set in H. destruct (Nat.ltb_spec i (length l)); [lia|discriminate].
  Qed.

  Lemma put_kept b p c b' : put_cell E b p c = Val b' -> (texts b -> T (ctext c)) -> kept b b'.
  Proof.
    unfold put_cell. destruct (as_index _ _ _) as [i|]; [|discriminate].
    destruct (vec_set i c (buffer b)) as [l|] eqn:Ev; [|discriminate]. intros H Hc. injection H as <-.
    apply vec_set_some in Ev. destruct Ev as [Hi ->].
    repeat split; cbn [buffer with_buffer]; [now apply upd_length|].
    intros Hb. unfold texts. cbn [buffer with_buffer]. apply Forall_upd; auto.
  Qed.

  Lemma get_text b p c : get_cell E b p = Val c -> texts b -> T (ctext c).
  Proof.
    unfold get_cell. destruct (as_index _ _ _) as [i|]; [|discriminate].
    destruct (nth_error (buffer b) i) eqn:En; [|discriminate]. intros H Hb. injection H as <-.
    unfold texts in Hb. rewrite Forall_forall in Hb. apply Hb. eapply nth_error_In; eauto.
  Qed.

  Lemma set_kept b p ch b' : set_cell E b p ch = Val b' -> T [ch] -> kept b b'.
  Proof. unfold set_cell. intros H Hc. eapply put_kept; eauto. Qed.

  Lemma clear_wide_kept b b' : clear_wide_before E b = Val b' -> kept b b'.
  Proof.
    unfold clear_wide_before. destruct (cursor_previous _ _) as [[p|]|]; try discriminate.
    - destruct (get_cell E b p) as [c|]; [|discriminate]. destruct (is_wide E c).
      + intros H. eapply put_kept; eauto.
      + intros H. injection H as <-. apply kept_refl.
    - intros H. injection H as <-. apply kept_refl.
  Qed.

  Lemma fill_cells_kept ch : T [ch] -> forall n b p b', fill_cells E n b p ch = Val b' -> kept b b'.
  Proof.
    intros Hc. induction n as [|n IH]; intros b p b' H; cbn in H.
    - injection H as <-. apply kept_refl.
    - destruct (set_cell E b p ch) as [b1|] eqn:E1; [|discriminate].
      destruct (uadd _ _ _) as [c|]; [|discriminate].
      eapply kept_trans; [eapply set_kept; eauto|eauto].
  Qed.

  Lemma fill_spaces_kept : forall n b p b', fill_spaces E n b p = Val b' -> kept b b'.
  Proof.
    induction n as [|n IH]; intros b p b' H; cbn in H.
    - injection H as <-. apply kept_refl.
    - destruct (uadd _ _ _) as [c|]; [|discriminate].
      destruct (set_cell E b _ SPACE) as [b1|] eqn:E1; [|discriminate].
      eapply kept_trans; [eapply set_kept; eauto|eauto].
  Qed.

  Definition keeps_res (b : sbuf) (r : bout) : Prop :=
    match r with Ret b' _ | Fail b' _ => kept b b' | _ => True end.

  Lemma keeps_bind b r k : keeps_res b r -> (forall b', kept b b' -> keeps_res b' (k b')) ->
    keeps_res b (obind r (fun b' _ => k b')).
  Proof.
    destruct r as [b1 u|b1 e| |]; cbn; auto. intros H Hk. specialize (Hk b1 H).
    destruct (k b1); cbn in *; auto; eapply kept_trans; eauto.
  Qed.

  Lemma place_kept b ch w : T [ch] -> keeps_res b (place_char E b ch w).
  Proof.
    intros Hc. unfold place_char. destruct (try_cursor b); [|apply kept_refl].
    destruct (set_cell E b (bcur b) ch) as [b1|] eqn:E1; [|exact I].
    destruct (fill_spaces E (w - 1) b1 (bcur b1)) as [b2|] eqn:E2; [|exact I].
    assert (K : kept b b2) by (eapply kept_trans; [eapply set_kept; eauto|eapply fill_spaces_kept; eauto]).
    destruct (uadd _ _ _) as [c|]; [|exact I]. destruct (_ <=? _).
    - destruct (uadd _ _ _); [|exact I]. cbn. eapply kept_trans; [exact K|apply kept_cur].
    - cbn. eapply kept_trans; [exact K|apply kept_cur].
  Qed.

  Lemma wrap_kept b ch r w : T [ch] -> keeps_res b (wrap_wide E b ch r w).
  Proof.
    intros Hc. unfold wrap_wide. destruct (r <? w); [|apply kept_refl].
    destruct (try_cursor b); [|apply kept_refl].
    destruct (fill_cells E r b (bcur b) ch) as [b1|] eqn:E1; [|exact I].
    destruct (uadd _ _ _); [|exact I]. cbn.
    eapply kept_trans; [eapply fill_cells_kept; eauto|apply kept_cur].
  Qed.

  Lemma nontab_kept b ch : good_char ch -> ch <> TAB -> keeps_res b (write_nontab E b ch).
  Proof.
    intros (Hp & Hm) Ht. unfold write_nontab.
    destruct (N.eqb_spec ch CR) as [->|Hcr]; [apply kept_cur|].
    destruct (N.eqb_spec ch LF) as [->|Hlf]; [destruct (uadd _ _ _); [apply kept_cur|exact I]|].
    destruct (combining E ch) eqn:Ec.
    - assert (Hmark : mark E ch) by (repeat split; assumption).
      destruct (cursor_previous _ _) as [[p|]|]; [|apply kept_refl|exact I].
      destruct (try_cursor_at b p); [|apply kept_refl].
      destruct (get_cell E b p) as [c|] eqn:Eg; [|exact I].
      destruct (put_cell E b p _) as [b'|] eqn:Ep; [|exact I]. cbn.
      eapply put_kept; eauto. cbn. intros Hb. apply Hm; [assumption|]. eapply get_text; eauto.
    - destruct (is_visible E ch) eqn:Ev; [|apply kept_refl].
      destruct (try_cursor b); [|apply kept_refl].
      destruct (clear_wide_before E b) as [b1|] eqn:E1; [|exact I].
      destruct (usub _ _) as [rem|]; [|exact I].
      assert (Hpr : T [ch]) by (apply Hp; eapply visible_printable; eauto).
      assert (K1 := clear_wide_kept _ _ E1).
      assert (K2 : keeps_res b1 (let! (b2, _) := wrap_wide E b1 ch rem (width0 E ch) in place_char E b2 ch (width0 E ch))).
      { apply (keeps_bind b1 _ (fun b2 => place_char E b2 ch (width0 E ch))); [now apply wrap_kept|].
        intros. now apply place_kept. }
      cbv zeta. destruct (obind _ _); cbn in *; auto; eapply kept_trans; eauto.
  Qed.

  Lemma good_space : good_char SPACE.
  Proof.
    split; [auto|]. destruct HE as (_ & H & _). intros (_ & _ & _ & Hm). congruence.
  Qed.

  Lemma spaces_kept : forall n b, keeps_res b (write_spaces E n b).
  Proof.
    induction n as [|n IH]; intros b; [apply kept_refl|]. cbn [write_spaces].
    apply (keeps_bind b _ (write_spaces E n)); [|auto].
    apply nontab_kept; [apply good_space|discriminate].
  Qed.

  Lemma char_kept b ch : good_char ch -> keeps_res b (write_char E b ch).
  Proof.
    intros Hc. unfold write_char. destruct (N.eqb_spec ch TAB); [|now apply nontab_kept].
    destruct (try_cursor b); [|apply kept_refl]. destruct (usub _ _); [|exact I]. apply spaces_kept.
  Qed.

  Lemma str_kept s : Forall good_char s -> forall b, keeps_res b (write_str E b s).
  Proof.
    induction 1 as [|c s Hc Hs IH]; intros b; [apply kept_refl|]. cbn [write_str].
    apply (keeps_bind b _ (fun b' => write_str E b' s)); [now apply char_kept|auto].
  Qed.

  Lemma styled_kept s a b : Forall good_char s -> keeps_res b (write_styled E b a s).
  Proof.
    intros Hs. unfold write_styled.
    assert (K := str_kept s Hs (with_attrs b a)). destruct (write_str E (with_attrs b a) s); cbn in *; auto.
  Qed.

  Lemma ignore_kept b r b' : keeps_res b r -> ignore_err r = Val b' -> kept b b'.
  Proof. destruct r; cbn; intros H H1; try discriminate; injection H1 as <-; assumption. Qed.

  Lemma op_kept b o b' : (forall sz, o <> BResize sz) -> Forall good_char (op_text o) ->
    run_buf_op E b o = Val b' -> kept b b'.
  Proof.
    intros Hr Hs H. destruct o; cbn [run_buf_op op_text] in *;
      try (injection H as <-; repeat split; solve [auto]).
    - now destruct (Hr sz).
    - unfold sb_next_line in H. destruct (uadd _ _ _); [|discriminate]. injection H as <-. apply kept_cur.
    - injection H as <-. unfold sb_clear_screen. repeat split; cbn; [now rewrite map_length|].
      intros _. unfold texts. cbn. apply Forall_forall. intros x Hx. apply in_map_iff in Hx.
      destruct Hx as (y & <- & _). exact Tspace.
    - eapply ignore_kept; [|exact H]. apply char_kept. now inversion Hs.
    - eapply ignore_kept; [|exact H]. now apply str_kept.
    - eapply ignore_kept; [|exact H]. unfold write_at. destruct (try_cursor_at b p); [|apply kept_refl].
      exact (str_kept s Hs (with_cur b p)).
    - eapply ignore_kept; [|exact H]. now apply styled_kept.
    - eapply ignore_kept; [|exact H]. unfold write_styled_at. destruct (try_cursor_at b p); [|apply kept_refl].
      exact (styled_kept s a (with_cur b p) Hs).
  Qed.
End Texts.
