(** Proofs about builds without overflow checks (C130): when they panic. *)
From Verif Require Import Base M_Geom S_Geom P_Geom M_Attr M_Buf S_Buf P_Buf P_Buf2 P_Buf3 S_Overrun P_Overrun
  M_RelBuf S_Release P_Release.

Lemma wadd_small u a b : a + b <= u -> wadd u a b = Val (a + b).
Proof. intros H. unfold wadd. now rewrite Nat.mod_small by lia. Qed.
Lemma wmul_small u a b : a * b <= u -> wmul u a b = Val (a * b).
Proof. intros H. unfold wmul. now rewrite Nat.mod_small by lia. Qed.
Lemma wsub_small u a b : b <= a -> wsub u a b = Val (a - b).
Proof. intros H. unfold wsub. now replace (b <=? a) with true by lia. Qed.

Section Free.
  Variable E : env.
  Hypothesis HE : env_ok E.

  Lemma put_cell_in_r b p c : total (bsize b) <= umax E -> length (buffer b) = total (bsize b) ->
    in_bounds p (bsize b) ->
    put_cell_r E b p c = Val (with_buffer b (upd (cell_no (bsize b) p) c (buffer b))).
  Proof. intros A B D. pose proof (put_same E b p c) as H. rewrite put_cell_in in H by assumption. exact H. Qed.

  (** Double width on the last line but one of a screen with one column: a write past the
      end of the buffer, whichever the build. *)
  Lemma one_column_r b ch : buf_ok E b -> in_bounds (bcur b) (bsize b) -> wide E ch -> columns (bsize b) = 1 ->
    line (bcur b) + 1 < lines (bsize b) -> lines (bsize b) <= line (bcur b) + 2 -> write_char_r E b ch = Panic.
  Proof.
    intros Hb Hc [Hp Hw] H1 X Y. assert (Hb0 := Hb). destruct Hb as (Ht & Hl & _).
    assert (Htot : total (bsize b) = lines (bsize b)) by (unfold total; rewrite H1; lia).
    assert (Hc0 : column (bcur b) = 0) by (destruct Hc; lia).
    assert (Hwr : write_char_r E b ch =
      (let b1 := SBuf (wide_wrapped E b ch) (back b) (bsize b) (Cursor (line (bcur b) + 1) 0) (battrs b) in place_char_r E b1 ch 2)).
    { unfold write_char_r, write_nontab_r. destruct (printable_ne E ch Hp) as (-> & -> & ->).
      replace (combining E ch) with false by (symmetry; apply Hp).
      rewrite (printable_visible E ch Hp).
      replace (try_cursor b) with true by (symmetry; now apply try_cursor_at_spec).
      pose proof (wide_same E b) as W. rewrite clear_wide_spec in W by assumption. cbn [psame] in W. rewrite W. cbn [bsize bcur with_buffer].
      rewrite wsub_small by lia.
      replace (columns (bsize b) - column (bcur b)) with 1 by lia.
      replace (width0 E ch) with 2 by (unfold width0; now rewrite Hw).
      assert (Hlt := cell_no_lt _ _ Hc). assert (Hlb := lines_bound _ _ _ Ht Hc).
      unfold wrap_wide_r. replace (1 <? 2) with true by reflexivity.
      unfold try_cursor. cbn [bcur with_buffer].
      replace (try_cursor_at (with_buffer b _) (bcur b)) with true
        by (symmetry; now apply try_cursor_at_spec).
      cbn [fill_cells_r]. unfold set_cell_r.
      rewrite put_cell_in_r; cbn [bsize bcur with_buffer buffer battrs]; try assumption.
      2: { rewrite unsplit_length; lia. }
      rewrite wadd_small by lia. cbn [bsize bcur with_buffer]. rewrite wadd_small by lia. reflexivity. }
    cbv zeta in Hwr. assert (Hlt := cell_no_lt _ _ Hc).
    assert (Hlw : length (wide_wrapped E b ch) = total (bsize b)).
    { unfold wide_wrapped. rewrite upd_length; rewrite unsplit_length; lia. }
    set (b1 := SBuf _ _ _ _ _) in Hwr. rewrite Hwr.
    unfold place_char_r. replace (try_cursor b1) with true.
    2:{ symmetry. apply try_cursor_at_spec. unfold b1. split; cbn; lia. }
    unfold set_cell_r. rewrite put_cell_in_r; [|exact Ht|exact Hlw|unfold b1; split; cbn; lia].
    cbn [fill_spaces_r Nat.sub]. cbn [bcur b1 with_buffer column line]. rewrite wadd_small by lia.
    unfold set_cell_r, put_cell_r, as_index_r.
    cbn [bsize b1 with_buffer line column buffer battrs]. rewrite H1.
    rewrite wmul_small by lia. rewrite wadd_small by lia.
    unfold vec_set. rewrite upd_length by (rewrite Hlw; unfold cell_no; cbn; lia). rewrite Hlw, Htot.
    replace ((line (bcur b) + 1) * 1 + (0 + 1) <? lines (bsize b)) with false by lia. reflexivity.
  Qed.

  Lemma char_free b ch : buf_ok E b -> meets E (bsize b) (battrs b) (free_walk1 E (bsize b) ch (bcur b)) (write_char_r E b ch).
  Proof.
    intros Hb. unfold free_walk1. destruct (N.eqb_spec ch 10) as [->|Hn].
    { exists (with_cur b (Cursor (line_below E (bcur b)) 0)). split; [reflexivity|]. split; [|reflexivity]. split; [exact Hb|]. split; reflexivity. }
    pose proof (char_meets E HE b ch Hb) as K. pose proof (char_same E b ch) as S.
    destruct (walk1 E (bsize b) ch (bcur b)) as [p|p|] eqn:W.
    - destruct K as (b' & K1 & K2). rewrite K1 in S. exists b'. split; [exact S|exact K2].
    - destruct K as (b' & K1 & K2). rewrite K1 in S. exists b'. split; [exact S|exact K2].
    - clear K S. revert W. unfold walk1. replace (ch =? 10)%N with false by lia.
      destruct (N.eqb_spec ch 9) as [|H9]; [now destruct (inside _ _)|]. destruct (N.eqb_spec ch 13) as [|H13]; [discriminate|].
      destruct (combining E ch) eqn:Ec.
      + destruct (Nat.eqb_spec (column (bcur b)) 0) as [C0|]; [|now destruct (inside _ _)].
        destruct (Nat.eqb_spec (line (bcur b)) 0) as [|L0]; [discriminate|].
        destruct (Nat.eqb_spec (columns (bsize b)) 0) as [Z|]; [intros _|now destruct (_ <=? _)].
        exists b. split; [|split; [split; [exact Hb|split; reflexivity]|reflexivity]].
        unfold write_char_r, write_nontab_r. unfold TAB, CR, LF. replace (ch =? 9)%N with false by lia. replace (ch =? 13)%N with false by lia.
        replace (ch =? 10)%N with false by lia. rewrite Ec. unfold cursor_previous_r. rewrite C0. cbn [Nat.eqb].
        replace (line (bcur b) =? 0) with false by lia. unfold wsub. rewrite Z. cbn [Nat.leb].
        replace (try_cursor_at b _) with false; [reflexivity|]. symmetry. apply try_cursor_at_false. intros [_ H]. cbn in H. lia.
      + destruct (cwidth E ch) as [[|[|[|w]]]|] eqn:Ew; try discriminate; [now destruct (inside _ _)|].
        destruct (inside (bsize b) (bcur b)) eqn:Ei; [|discriminate]. destruct (Nat.leb_spec (column (bcur b) + 2) (columns (bsize b))); [discriminate|].
        destruct (Nat.ltb_spec (line (bcur b) + 1) (lines (bsize b))); [|discriminate].
        destruct (Nat.leb_spec 2 (columns (bsize b))); [discriminate|].
        destruct (Nat.ltb_spec (line (bcur b) + 2) (lines (bsize b))); [discriminate|]. intros _.
        apply inside_spec in Ei. assert (Ei' := Ei). destruct Ei' as [_ Ei'].
        assert (Hp : printable E ch).
        { destruct (char_cases E ch HE) as [->|[->|[->|[Hm|[Hp|(N1 & N2 & N3 & N4 & N5)]]]]]; try congruence; try exact Hp.
          - unfold TAB in *. lia.
          - unfold CR in *. lia.
          - unfold LF in *. lia.
          - destruct Hm as (_ & _ & _ & M). congruence.
          - exfalso. apply N5. repeat split; auto. }
        apply one_column_r; auto; try lia. split; auto.
  Qed.

  Lemma text_free s : forall b, buf_ok E b ->
    meets E (bsize b) (battrs b) (free_walk E (bsize b) s (bcur b)) (write_str_r E b s).
  Proof.
    induction s as [|c s IH]; intros b Hb; cbn [free_walk write_str_r].
    - exists b. split; [reflexivity|]. split; [|reflexivity]. split; [exact Hb|]. split; reflexivity.
    - assert (H := char_free b c Hb). destruct (free_walk1 E (bsize b) c (bcur b)) as [p|p|]; cbn [meets] in H.
      + destruct H as (b' & -> & (A1 & <- & <-) & <-). cbn [obind]. apply IH, A1.
      + destruct H as (b' & -> & A & Ha). exists b'. auto.
      + cbn [meets]. now rewrite H.
  Qed.
  Lemma text_ends_free s b : buf_ok E b ->
    ends E (ignore_err (write_str_r E b s)) (lands (bsize b) (free_walk E (bsize b) s (bcur b))).
  Proof.
    intros Hb. assert (T := text_free s b Hb). destruct (free_walk E (bsize b) s (bcur b)) as [p|p|]; cbn [meets] in T.
    - destruct T as (b' & -> & A & _). exists b'. auto.
    - destruct T as (b' & -> & A & _). exists b'. auto.
    - rewrite T. reflexivity.
  Qed.
  Lemma styled_ends_free a s b : buf_ok E b ->
    ends E (ignore_err (write_styled_r E b a s)) (lands (bsize b) (free_walk E (bsize b) s (bcur b))).
  Proof.
    intros Hb. assert (T := text_free s (with_attrs b a) Hb). unfold write_styled_r. cbn [bsize bcur with_attrs battrs] in T.
    destruct (free_walk E (bsize b) s (bcur b)) as [p|p|]; cbn [meets] in *.
    - destruct T as (b' & -> & A & _). cbn [obind]. exists (sb_clear_attributes b'). split; [reflexivity|]. exact A.
    - destruct T as (b' & -> & A & _). exists b'. auto.
    - rewrite T. reflexivity.
  Qed.

  Lemma op_free b o : buf_ok E b -> ends E (run_buf_op_r E b o) (free_go E (bsize b, bcur b) o).
  Proof.
    intros Hb. destruct o; cbn [run_buf_op_r free_go]; cbv zeta;
      try (exact (op_ends E HE b (BResize _) Hb)); try (exact (op_ends E HE b BClearScreen Hb));
      try (eexists; split; [reflexivity|]; split; [exact Hb|split; reflexivity]).
    - replace (write_char_r E b ch) with (write_str_r E b [ch]).
      + apply text_ends_free, Hb.
      + cbn [write_str_r]. destruct (write_char_r E b ch) as [? []|? []| |]; reflexivity.
    - apply text_ends_free, Hb.
    - unfold write_at_r. destruct (inside (bsize b) p) eqn:Eo.
      + apply inside_spec in Eo. replace (try_cursor_at b p) with true by (symmetry; now apply try_cursor_at_spec).
        exact (text_ends_free s (with_cur b p) Hb).
      + apply inside_false in Eo. replace (try_cursor_at b p) with false by (symmetry; now apply try_cursor_at_false).
        exists b. split; [reflexivity|]. split; [exact Hb|auto].
    - apply styled_ends_free, Hb.
    - unfold write_styled_at_r. destruct (inside (bsize b) p) eqn:Eo.
      + apply inside_spec in Eo. replace (try_cursor_at b p) with true by (symmetry; now apply try_cursor_at_spec).
        exact (styled_ends_free a s (with_cur b p) Hb).
      + apply inside_false in Eo. replace (try_cursor_at b p) with false by (symmetry; now apply try_cursor_at_false).
        exists b. split; [reflexivity|]. split; [exact Hb|auto].
  Qed.
  Lemma ops_free l : forall b, buf_ok E b -> ends E (run_buf_ops_r E b l) (free_goes_on E (bsize b, bcur b) l).
  Proof.
    induction l as [|o l IH]; intros b Hb; cbn [run_buf_ops_r free_goes_on].
    - exists b. split; [reflexivity|]. split; [exact Hb|auto].
    - assert (H := op_free b o Hb). destruct (free_go E (bsize b, bcur b) o) as [[sz p]|]; cbn [ends] in H.
      + destruct H as (b' & -> & A1 & <- & <-). apply IH, A1.
      + rewrite H. reflexivity.
  Qed.
  Lemma history_free sz l : ends E (buf_history_r E sz l) (free_story E sz l).
  Proof.
    unfold buf_history_r, free_story. destruct (Nat.leb_spec (lines sz * columns sz) (umax E)) as [H|H].
    - destruct (new_ok 1 (le_n 1) E sz HE H) as (b & B1 & B2 & B3 & B4 & _). rewrite B1. rewrite <- B3 at 1. rewrite <- B4. now apply ops_free.
    - unfold sb_new, area, checked_area. replace (lines sz * columns sz <=? umax E) with false by lia. reflexivity.
  Qed.
  Lemma free_panics_exactly sz l :
    match free_story E sz l with
    | None => buf_history_r E sz l = Boom
    | Some (sz', p) => exists b, buf_history_r E sz l = Val b /\ bsize b = sz' /\ bcur b = p
    end.
  Proof.
    pose proof (history_free sz l) as H. destruct (free_story E sz l) as [[sz' p]|]; [|exact H].
    destruct H as (b & H & _ & A & B). eauto.
  Qed.
  Lemma free_ok sz l b : buf_history_r E sz l = Val b -> buf_ok E b.
  Proof.
    intros H. pose proof (history_free sz l) as X. rewrite H in X. destruct (free_story E sz l) as [[sz' p]|]; [|discriminate].
    destruct X as (b' & X & A). injection X as <-. apply A.
  Qed.

  (** With two columns text panics in no build without checks. *)
  Lemma walk_free sz s : columns sz <> 1 -> forall p, free_walk E sz s p <> Panics.
  Proof.
    intros H. induction s as [|c s IH]; intros p; cbn [free_walk]; [discriminate|].
    destruct (free_walk1 E sz c p) as [q|q|] eqn:W; [apply IH|discriminate|]. exfalso. revert W. unfold free_walk1.
    destruct (_ =? _)%N eqn:E10; [discriminate|]. destruct (walk1 E sz c p) eqn:W; try discriminate.
    destruct (combining E c) eqn:Ec; [discriminate|]. intros _. revert W. unfold walk1. rewrite E10, Ec.
    destruct (c =? 9)%N; [now destruct (inside _ _)|]. destruct (c =? 13)%N; [discriminate|].
    destruct (cwidth E c) as [[|[|[|w]]]|]; try discriminate; [now destruct (inside _ _)|].
    unfold inside. destruct (Nat.ltb_spec (line p) (lines sz)); [|discriminate]. destruct (Nat.ltb_spec (column p) (columns sz)); [|discriminate]. cbn [andb].
    destruct (_ <=? _); [discriminate|]. destruct (_ <? _); [|discriminate]. replace (2 <=? columns sz) with true by lia. discriminate.
  Qed.
  Lemma go_free sz p o : columns sz <> 1 -> (forall z, o <> BResize z) -> free_go E (sz, p) o <> None.
  Proof.
    intros H Hr. destruct o; cbn [free_go go]; cbv zeta; try discriminate; try (exfalso; eapply Hr; reflexivity).
    all: try (match goal with |- context [inside ?z ?q] => destruct (inside z q); [|discriminate] end).
    all: match goal with |- context [free_walk E ?z ?s ?q] => pose proof (walk_free z s H q); destruct (free_walk E z s q); congruence end.
  Qed.
End Free.
