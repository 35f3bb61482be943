From Verif Require Import Base M_Geom S_Geom.
Ltac Zify.zify_post_hook ::= Z.div_mod_to_equations.

Lemma cell_no_lt sz c : in_bounds c sz -> cell_no sz c < total sz.
Proof. unfold in_bounds, cell_no, total. intros [H1 H2]. nia. Qed.

Lemma cell_no_pos sz c : column c < columns sz -> cell_pos sz (cell_no sz c) = c.
Proof.
  intros H. unfold cell_pos, cell_no. destruct c as [l k]; simpl in *. f_equal.
  - rewrite Nat.div_add_l by lia. rewrite Nat.div_small by lia. lia.
  - rewrite Nat.add_comm, Nat.mod_add by lia. now apply Nat.mod_small.
Qed.

Lemma cell_pos_no sz i : 0 < columns sz -> cell_no sz (cell_pos sz i) = i.
Proof.
  intros H. unfold cell_pos, cell_no; simpl.
  pose proof (Nat.div_mod i (columns sz)). lia.
Qed.

Lemma cell_pos_in sz i : i < total sz -> in_bounds (cell_pos sz i) sz.
Proof.
  unfold in_bounds, cell_pos, total; simpl. intros H.
  assert (Hc : columns sz <> 0) by (intros E; rewrite E in H; lia). split.
  - apply Nat.div_lt_upper_bound; lia.
  - now apply Nat.mod_upper_bound.
Qed.

Lemma cell_no_inj sz c d : in_bounds c sz -> in_bounds d sz -> cell_no sz c = cell_no sz d -> c = d.
Proof.
  intros [_ Hc] [_ Hd] E. rewrite <- (cell_no_pos sz c Hc), <- (cell_no_pos sz d Hd). now rewrite E.
Qed.

Lemma as_index_spec umax sz c : valid_size umax sz -> in_bounds c sz ->
  as_index umax c sz = Val (cell_no sz c).
Proof.
  intros (H1 & H2 & H3) H. assert (Hlt := cell_no_lt sz c H). unfold total, cell_no in *.
  destruct H as [Hl Hc]. unfold as_index, umul, uadd.
  replace (line c * columns sz <=? umax) with true by lia.
  now replace (line c * columns sz + column c <=? umax) with true by lia.
Qed.

Lemma lines_le sz umax : valid_size umax sz -> lines sz <= umax /\ columns sz <= umax.
Proof. unfold valid_size. intros (H1 & H2 & H3). nia. Qed.

Lemma next_spec umax sz c : valid_size umax sz -> in_bounds c sz ->
  cursor_next umax c sz =
  if S (cell_no sz c) =? total sz then Val None else Val (Some (cell_pos sz (S (cell_no sz c)))).
Proof.
  intros Hv H. assert (Hlc := lines_le sz umax Hv). destruct Hv as (H1 & H2 & H3).
  destruct H as [Hl Hc]. destruct c as [l k]. cbn [line column] in Hl, Hc.
  unfold cursor_next, uadd; cbn [line column].
  replace (k + 1 <=? umax) with true by lia.
  destruct (Nat.leb_spec (columns sz) (k + 1)) as [Hge|Hlt].
  - assert (k + 1 = columns sz) by lia.
    replace (l + 1 <=? umax) with true by lia.
    assert (E : S (cell_no sz (Cursor l k)) = (l + 1) * columns sz) by (unfold cell_no; simpl; nia).
    rewrite E. destruct (Nat.leb_spec (lines sz) (l + 1)).
    + replace ((l + 1) * columns sz =? total sz) with true; [reflexivity|].
      symmetry. apply Nat.eqb_eq. unfold total. f_equal. lia.
    + replace ((l + 1) * columns sz =? total sz) with false.
      * f_equal. f_equal. unfold cell_pos. f_equal.
        -- now rewrite Nat.div_mul by lia.
        -- now rewrite Nat.mod_mul by lia.
      * symmetry. apply Nat.eqb_neq. unfold total. nia.
  - replace (lines sz <=? l) with false by lia.
    replace (S (cell_no sz (Cursor l k)) =? total sz) with false.
    + f_equal. f_equal. replace (S (cell_no sz (Cursor l k))) with (cell_no sz (Cursor l (k + 1)))
        by (unfold cell_no; simpl; lia).
      symmetry. apply cell_no_pos. simpl. lia.
    + symmetry. apply Nat.eqb_neq. unfold total, cell_no; simpl. nia.
Qed.

Lemma previous_spec sz c : in_bounds c sz ->
  cursor_previous c sz =
  if cell_no sz c =? 0 then Val None else Val (Some (cell_pos sz (cell_no sz c - 1))).
Proof.
  intros [Hl Hc]. destruct c as [l k]; cbn [line column] in Hl, Hc. unfold cursor_previous; cbn [line column].
  destruct (Nat.eqb_spec k 0) as [->|Hk].
  - destruct (Nat.eqb_spec l 0) as [->|Hl0]; [reflexivity|].
    unfold usub. replace (1 <=? columns sz) with true by lia.
    replace (cell_no sz (Cursor l 0) =? 0) with false
      by (symmetry; apply Nat.eqb_neq; unfold cell_no; simpl; nia).
    f_equal. f_equal.
    replace (cell_no sz (Cursor l 0) - 1) with (cell_no sz (Cursor (l - 1) (columns sz - 1)))
      by (unfold cell_no; simpl; nia).
    symmetry. apply cell_no_pos. simpl. lia.
  - replace (cell_no sz (Cursor l k) =? 0) with false
      by (symmetry; apply Nat.eqb_neq; unfold cell_no; simpl; lia).
    f_equal. f_equal.
    replace (cell_no sz (Cursor l k) - 1) with (cell_no sz (Cursor l (k - 1)))
      by (unfold cell_no; simpl; lia).
    symmetry. apply cell_no_pos. simpl. lia.
Qed.

Lemma last_spec umax sz : valid_size umax sz ->
  cursor_last sz = Val (cell_pos sz (total sz - 1)) /\ in_bounds (cell_pos sz (total sz - 1)) sz.
Proof.
  intros (H1 & H2 & H3). split.
  - unfold cursor_last, usub. replace (1 <=? lines sz) with true by lia.
    replace (1 <=? columns sz) with true by lia. f_equal.
    replace (total sz - 1) with (cell_no sz (Cursor (lines sz - 1) (columns sz - 1)))
      by (unfold total, cell_no; simpl; nia).
    symmetry. apply cell_no_pos. simpl. lia.
  - apply cell_pos_in. unfold total. nia.
Qed.

Lemma oob_spec c sz : is_out_of_bounds c sz = false <-> in_bounds c sz.
Proof. unfold is_out_of_bounds, in_bounds. lia. Qed.

Lemma iter_next_spec umax sz k : forall c, valid_size umax sz -> in_bounds c sz ->
  iter_next umax sz k c =
  if cell_no sz c + k <? total sz then Val (Some (cell_pos sz (cell_no sz c + k))) else Val None.
Proof.
  induction k as [|k IH]; intros c Hv H.
  - simpl. rewrite Nat.add_0_r. assert (Hlt := cell_no_lt sz c H).
    replace (cell_no sz c <? total sz) with true by lia. rewrite cell_no_pos by apply H. reflexivity.
  - cbn [iter_next]. rewrite next_spec by assumption. assert (Hlt := cell_no_lt sz c H).
    assert (Hcols : 0 < columns sz) by apply Hv.
    destruct (Nat.eqb_spec (S (cell_no sz c)) (total sz)) as [E|E].
    + replace (cell_no sz c + S k <? total sz) with false by lia. reflexivity.
    + rewrite IH; [|assumption|apply cell_pos_in; lia].
      rewrite cell_pos_no by assumption.
      replace (S (cell_no sz c) + k) with (cell_no sz c + S k) by lia. reflexivity.
Qed.

Lemma next_previous umax sz c d : valid_size umax sz -> in_bounds c sz -> in_bounds d sz ->
  (cursor_next umax c sz = Val (Some d) <-> cursor_previous d sz = Val (Some c)).
Proof.
  intros Hv Hc Hd. rewrite next_spec, previous_spec by assumption.
  assert (Hlt := cell_no_lt sz c Hc). assert (Hlt' := cell_no_lt sz d Hd).
  assert (Hcols : 0 < columns sz) by apply Hv. split.
  - destruct (Nat.eqb_spec (S (cell_no sz c)) (total sz)) as [E|E]; [discriminate|].
    injection 1 as <-. rewrite cell_pos_no by assumption. simpl. rewrite Nat.sub_0_r.
    now rewrite cell_no_pos by apply Hc.
  - destruct (Nat.eqb_spec (cell_no sz d) 0) as [E|E]; [discriminate|].
    injection 1 as <-. rewrite cell_pos_no by assumption.
    replace (S (cell_no sz d - 1)) with (cell_no sz d) by lia.
    replace (cell_no sz d =? total sz) with false by lia.
    now rewrite cell_no_pos by apply Hd.
Qed.

Lemma walk umax sz : valid_size umax sz ->
  in_bounds cursor_first sz /\
  (forall c, in_bounds c sz -> cursor_next umax c sz <> Boom /\ cursor_previous c sz <> Boom) /\
  (forall c d, in_bounds c sz -> cursor_next umax c sz = Val (Some d) -> in_bounds d sz) /\
  (forall c d, in_bounds c sz -> cursor_previous c sz = Val (Some d) -> in_bounds d sz) /\
  (forall c, in_bounds c sz -> (cursor_next umax c sz = Val None <-> cursor_last sz = Val c)) /\
  (forall c, in_bounds c sz -> (cursor_previous c sz = Val None <-> c = cursor_first)) /\
  (forall c, in_bounds c sz ->
     exists k, k < total sz /\ iter_next umax sz k cursor_first = Val (Some c) /\
       forall j, iter_next umax sz j cursor_first = Val (Some c) -> j = k) /\
  iter_next umax sz (total sz) cursor_first = Val None.
Proof.
  intros Hv. assert (Hcols : 0 < columns sz) by apply Hv. assert (Hlines : 0 < lines sz) by apply Hv.
  assert (Hf : in_bounds cursor_first sz) by (split; assumption).
  assert (Hf0 : cell_no sz cursor_first = 0) by reflexivity.
  split; [assumption|]. repeat split.
  - rewrite next_spec by assumption. destruct (_ =? _); discriminate.
  - rewrite previous_spec by assumption. destruct (_ =? _); discriminate.
  - rewrite next_spec in H0 by assumption. assert (Hlt := cell_no_lt sz c H).
    destruct (Nat.eqb_spec (S (cell_no sz c)) (total sz)); [discriminate|].
    injection H0 as <-. apply cell_pos_in. lia.
  - rewrite next_spec in H0 by assumption. assert (Hlt := cell_no_lt sz c H).
    destruct (Nat.eqb_spec (S (cell_no sz c)) (total sz)); [discriminate|].
    injection H0 as <-. apply cell_pos_in. lia.
  - rewrite previous_spec in H0 by assumption. assert (Hlt := cell_no_lt sz c H).
    destruct (Nat.eqb_spec (cell_no sz c) 0); [discriminate|].
    injection H0 as <-. apply cell_pos_in. lia.
  - rewrite previous_spec in H0 by assumption. assert (Hlt := cell_no_lt sz c H).
    destruct (Nat.eqb_spec (cell_no sz c) 0); [discriminate|].
    injection H0 as <-. apply cell_pos_in. lia.
  - rewrite next_spec by assumption. rewrite (proj1 (last_spec umax sz Hv)).
    destruct (Nat.eqb_spec (S (cell_no sz c)) (total sz)) as [E|E]; [|discriminate].
    intros _. f_equal. rewrite <- E. simpl. rewrite Nat.sub_0_r. apply cell_no_pos, H.
  - rewrite next_spec by assumption. rewrite (proj1 (last_spec umax sz Hv)). injection 1 as <-.
    rewrite cell_pos_no by assumption.
    replace (S (total sz - 1) =? total sz) with true; [reflexivity|].
    symmetry. apply Nat.eqb_eq. unfold total. nia.
  - rewrite previous_spec by assumption.
    destruct (Nat.eqb_spec (cell_no sz c) 0) as [E|E]; [|discriminate].
    intros _. apply (cell_no_inj sz); assumption.
  - intros ->. reflexivity.
  - intros c Hc. exists (cell_no sz c). assert (Hlt := cell_no_lt sz c Hc).
    rewrite iter_next_spec by assumption. rewrite Hf0. simpl (0 + _).
    replace (cell_no sz c <? total sz) with true by lia. rewrite cell_no_pos by apply Hc.
    repeat split; auto. intros j. rewrite iter_next_spec by assumption. rewrite Hf0. simpl (0 + _).
    destruct (Nat.ltb_spec j (total sz)); [|discriminate]. injection 1 as <-.
    now rewrite cell_pos_no by assumption.
  - rewrite iter_next_spec by assumption. rewrite Hf0. simpl (0 + _).
    now replace (total sz <? total sz) with false by lia.
Qed.

Lemma area_spec umax sz :
  (checked_area umax sz = Some (lines sz * columns sz) <-> lines sz * columns sz <= umax) /\
  (checked_area umax sz = None <-> umax < lines sz * columns sz) /\
  (area umax sz = Boom <-> umax < lines sz * columns sz) /\
  (forall n, area umax sz = Val n -> n = lines sz * columns sz).
Proof.
  unfold area, checked_area. destruct (Nat.leb_spec (lines sz * columns sz) umax).
  - split; [tauto|]. split; [split; [discriminate|lia]|]. split; [split; [discriminate|lia]|]. congruence.
  - split; [split; [discriminate|lia]|]. split; [tauto|]. split; [tauto|]. discriminate.
Qed.

Lemma index_bijection umax sz : valid_size umax sz ->
  (forall c, in_bounds c sz -> exists i, as_index umax c sz = Val i /\ i < total sz) /\
  (forall c d i, in_bounds c sz -> in_bounds d sz ->
     as_index umax c sz = Val i -> as_index umax d sz = Val i -> c = d) /\
  (forall i, i < total sz -> exists c, in_bounds c sz /\ as_index umax c sz = Val i).
Proof.
  intros Hv. repeat split.
  - intros c Hc. exists (cell_no sz c). split; [now apply as_index_spec|now apply cell_no_lt].
  - intros c d i Hc Hd. rewrite !as_index_spec by assumption. intros E1 E2.
    apply (cell_no_inj sz); auto. congruence.
  - intros i Hi. exists (cell_pos sz i). split; [now apply cell_pos_in|].
    rewrite as_index_spec by (auto using cell_pos_in). now rewrite cell_pos_no by apply Hv.
Qed.
