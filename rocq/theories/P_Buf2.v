(** Resizing, and histories of buffer operations. *)
From Verif Require Import Base M_Geom S_Geom P_Geom M_Attr M_Buf S_Buf P_Buf.

Lemma nth_skipn {A} k i (l : list A) : nth_error (skipn k l) i = nth_error l (k + i).
Proof.
  revert l. induction k as [|k IH]; intros l; [reflexivity|].
  destruct l as [|x l]; simpl; [now destruct i|apply IH].
Qed.

Lemma nth_firstn {A} k i (l : list A) : i < k -> nth_error (firstn k l) i = nth_error l i.
Proof.
  revert i l. induction k as [|k IH]; intros i l H; [lia|].
  destruct l as [|x l]; simpl; [reflexivity|]. destruct i; simpl; [reflexivity|]. apply IH. lia.
Qed.

Lemma nth_repeat {A} (x : A) n i : i < n -> nth_error (repeat x n) i = Some x.
Proof. revert i. induction n as [|n IH]; intros [|i] H; simpl; try lia; auto. apply IH. lia. Qed.

(** ** Rows *)
Lemma chunks_rows {A} n L : 0 < n -> forall fuel (l : list A), length l = L * n -> length l <= fuel ->
  length (chunks_aux fuel n l) = L /\
  forall r, r < L -> nth_error (chunks_aux fuel n l) r = Some (firstn n (skipn (r * n) l)).
Proof.
  intros Hn. induction L as [|L IH]; intros fuel l Hl Hf.
  - destruct l; [|simpl in Hl; discriminate]. destruct fuel; simpl; split; auto; lia.
  - destruct l as [|x l]; [simpl in Hl; lia|].
    destruct fuel as [|fuel]; [simpl in Hf; lia|].
    cbn [chunks_aux].
    assert (Hs : length (skipn n (x :: l)) = L * n) by (rewrite skipn_length; lia).
    destruct (IH fuel (skipn n (x :: l))) as [H1 H2]; [assumption|rewrite Hs; simpl in *; nia|].
    split; [simpl length; now rewrite H1|].
    intros [|r] Hr; [reflexivity|]. cbn [nth_error]. rewrite H2 by lia.
    f_equal. f_equal. clear. revert n. generalize (x :: l) as m. intros m n.
    revert m. simpl (S r * n). generalize (r * n) as k. induction n as [|n IH]; intros k m; [reflexivity|].
    destruct m as [|y m]; [now destruct k|]. simpl. apply IH.
Qed.

Lemma swap_cols_spec {A} n : forall (o w : list A), n <= length o -> n <= length w ->
  swap_cols n o w = Some (firstn n o ++ skipn n w).
Proof.
  induction n as [|n IH]; intros o w Ho Hw; [reflexivity|].
  destruct o as [|x o], w as [|y w]; simpl in *; try lia. rewrite IH by lia. reflexivity.
Qed.

Lemma zip_swap_spec {A} n : forall (olds news : list (list A)),
  Forall (fun o => n <= length o) olds -> Forall (fun w => n <= length w) news ->
  exists r, zip_swap n olds news = Some r /\ length r = length news /\
    forall k w, nth_error news k = Some w ->
      nth_error r k = Some (match nth_error olds k with
                            | Some o => firstn n o ++ skipn n w
                            | None => w
                            end).
Proof.
  induction olds as [|o olds IH]; intros news Ho Hw.
  - exists news. repeat split; auto. intros k w H. rewrite H. now destruct k.
  - destruct news as [|w news].
    + exists []. repeat split; auto. intros k w H. destruct k; discriminate.
    + inversion Ho; subst. inversion Hw; subst. simpl. rewrite swap_cols_spec by assumption.
      destruct (IH news) as (r & -> & Hlen & Hnth); try assumption.
      eexists. split; [reflexivity|]. split; [simpl; now rewrite Hlen|].
      intros [|k] v Hv; simpl in *; [congruence|now apply Hnth].
Qed.

Lemma concat_rows {A} C : forall (rows : list (list A)), Forall (fun r => length r = C) rows ->
  length (concat rows) = length rows * C /\
  forall r c, c < C -> nth_error (concat rows) (r * C + c) =
    match nth_error rows r with Some row => nth_error row c | None => None end.
Proof.
  induction rows as [|row rows IH]; intros H.
  - split; [reflexivity|]. intros r c Hc. simpl. destruct (r * C + c), r; reflexivity.
  - inversion H; subst. destruct IH as [H1 H2]; [assumption|]. split.
    + simpl. rewrite app_length, H1. reflexivity.
    + intros [|r] c Hc; simpl.
      * rewrite nth_error_app1 by lia. reflexivity.
      * rewrite nth_error_app2 by lia.
        replace (length row + r * length row + c - length row) with (r * length row + c) by lia.
        now apply H2.
Qed.

Lemma Forall_nth {A} (P : A -> Prop) l : (forall i x, nth_error l i = Some x -> P x) -> Forall P l.
Proof.
  intros H. apply Forall_forall. intros x Hx. apply In_nth_error in Hx as [i Hi]. eauto.
Qed.

Lemma size_eqb_eq a b : size_eqb a b = true -> a = b.
Proof. destruct a, b. unfold size_eqb; simpl. intros H. f_equal; lia. Qed.

Lemma rows_nth {A} L C (l : list A) r c : length l = L * C -> c < C -> r < L ->
  nth_error (firstn C (skipn (r * C) l)) c = nth_error l (r * C + c).
Proof. intros H Hc Hr. rewrite nth_firstn by assumption. now rewrite nth_skipn. Qed.

Lemma chunk_length {A} L C (l : list A) r : length l = L * C -> r < L ->
  length (firstn C (skipn (r * C) l)) = C.
Proof. intros H Hr. rewrite firstn_length, skipn_length. nia. Qed.

(** The effect of [resize_buffer] on every position. *)
Lemma resize_buffer_spec E buf old new :
  length buf = total old -> 1 <= columns new -> total new <= umax E ->
  exists l, resize_buffer E buf old new = Val l /\ length l = total new /\
    forall p, in_bounds p new ->
      nth_error l (cell_no new p) =
      if is_out_of_bounds p old then Some blank else nth_error buf (cell_no old p).
Proof.
  intros Hl Hc Ht. unfold resize_buffer. destruct (size_eqb old new) eqn:Es.
  - apply size_eqb_eq in Es as ->. exists buf. repeat split; auto.
    intros p Hp. apply oob_spec in Hp. now rewrite Hp.
  - unfold area, checked_area. unfold total in Ht. replace (_ <=? _) with true by lia.
    fold (total new).
    assert (Hrep : length (repeat blank (total new)) = total new) by apply repeat_length.
    destruct buf as [|c0 buf0].
    + eexists. split; [reflexivity|]. split; [assumption|]. intros p Hp.
      rewrite nth_repeat by now apply cell_no_lt.
      destruct (is_out_of_bounds p old) eqn:Eo; [reflexivity|].
      apply oob_spec in Eo. apply cell_no_lt in Eo. simpl in Hl. lia.
    + remember (c0 :: buf0) as buf eqn:Eb.
      assert (Hpos : 0 < total old) by (rewrite <- Hl, Eb; simpl; lia).
      assert (Hco : 0 < columns old) by (unfold total in Hpos; nia).
      assert (Hch : forall n (l : list cell), 0 < n -> chunks n l = Val (chunks_aux (length l) n l)).
      { intros n l H. unfold chunks. destruct n; [lia|reflexivity]. }
      rewrite !Hch by lia.
      destruct (chunks_rows (columns old) (lines old) Hco (length buf) buf) as [HoL Hor];
        [assumption|lia|].
      destruct (chunks_rows (columns new) (lines new) Hc (length (repeat blank (total new)))
                  (repeat blank (total new))) as [HnL Hnr]; [assumption|lia|].
      set (oc := chunks_aux _ (columns old) buf) in *.
      set (nc := chunks_aux _ (columns new) _) in *.
      assert (Hofa : Forall (fun o => length o = columns old) oc).
      { apply Forall_nth. intros i x Hx. assert (Hi : i < lines old).
        { rewrite <- HoL. apply nth_error_Some. congruence. }
        rewrite Hor in Hx by assumption. injection Hx as <-. now apply chunk_length with (L := lines old). }
      assert (Hnfa : Forall (fun o => length o = columns new) nc).
      { apply Forall_nth. intros i x Hx. assert (Hi : i < lines new).
        { rewrite <- HnL. apply nth_error_Some. congruence. }
        rewrite Hnr in Hx by assumption. injection Hx as <-. now apply chunk_length with (L := lines new). }
      set (n := Nat.min (columns old) (columns new)).
      destruct (zip_swap_spec n oc nc) as (r & -> & Hrl & Hrn).
      { eapply Forall_impl; [|exact Hofa]. simpl. intros; lia. }
      { eapply Forall_impl; [|exact Hnfa]. simpl. intros; lia. }
      assert (Hrfa : Forall (fun o => length o = columns new) r).
      { apply Forall_nth. intros i x Hx.
        assert (Hi : i < lines new).
        { rewrite <- HnL, <- Hrl. apply nth_error_Some. congruence. }
        assert (Hnl : length (firstn (columns new) (skipn (i * columns new) (repeat blank (total new)))) = columns new).
        { apply chunk_length with (L := lines new); assumption. }
        rewrite (Hrn i _ (Hnr i Hi)) in Hx. injection Hx as <-.
        destruct (nth_error oc i) as [o|] eqn:Eo; [|exact Hnl].
        rewrite app_length, firstn_length, skipn_length, Hnl.
        rewrite Forall_forall in Hofa. rewrite (Hofa o (nth_error_In _ _ Eo)). lia. }
      destruct (concat_rows (columns new) r Hrfa) as [Hcl Hcn].
      exists (concat r). split; [reflexivity|]. split; [rewrite Hcl, Hrl, HnL; reflexivity|].
      intros p [Hpl Hpc]. unfold cell_no at 1. rewrite Hcn by assumption.
      rewrite (Hrn (line p) _ (Hnr (line p) Hpl)).
      assert (Hnl : length (firstn (columns new) (skipn (line p * columns new) (repeat blank (total new)))) = columns new).
      { apply chunk_length with (L := lines new); assumption. }
      assert (Hbl : nth_error (firstn (columns new) (skipn (line p * columns new) (repeat blank (total new))))
                      (column p) = Some blank).
      { rewrite rows_nth with (L := lines new) by assumption. apply nth_repeat. unfold total. nia. }
      unfold is_out_of_bounds. destruct (Nat.leb_spec (lines old) (line p)) as [Hlo|Hlo].
      * replace (nth_error oc (line p)) with (@None (list cell)).
        2: { symmetry. apply nth_error_None. lia. }
        simpl. exact Hbl.
      * rewrite Hor by assumption. cbn [orb].
        assert (Hol : length (firstn (columns old) (skipn (line p * columns old) buf)) = columns old).
        { apply chunk_length with (L := lines old); assumption. }
        destruct (Nat.leb_spec (columns old) (column p)) as [Hpo|Hpo].
        -- rewrite nth_error_app2; rewrite firstn_length, Hol; [|lia].
           replace (column p - Nat.min n (columns old)) with (column p - n) by lia.
           rewrite nth_skipn. replace (n + (column p - n)) with (column p) by lia. exact Hbl.
        -- rewrite nth_error_app1; [|rewrite firstn_length, Hol; lia].
           rewrite nth_firstn by lia. now apply rows_nth with (L := lines old).
Qed.

Lemma sb_resize_spec E b new :
  length (buffer b) = total (bsize b) -> 1 <= columns new -> total new <= umax E ->
  exists l, sb_resize E b new = Val (SBuf l (repeat invalid (total new)) new (bcur b) (battrs b)) /\
    length l = total new /\
    forall p, in_bounds p new ->
      nth_error l (cell_no new p) =
      if is_out_of_bounds p (bsize b) then Some blank
      else nth_error (buffer b) (cell_no (bsize b) p).
Proof.
  intros Hl Hc Ht. destruct (resize_buffer_spec E _ _ _ Hl Hc Ht) as (l & Hr & Hlen & Hn).
  exists l. unfold sb_resize. rewrite Hr. unfold new_buffer, area, checked_area.
  unfold total in Ht. replace (_ <=? _) with true by lia. auto.
Qed.

Lemma resize_buf_ok E b new : env_ok E -> buf_ok E b -> 1 <= columns new -> total new <= umax E ->
  exists b', sb_resize E b new = Val b' /\ buf_ok E b' /\ bsize b' = new /\ bcur b' = bcur b.
Proof.
  intros HE (H1 & H2 & H3 & H4) Hc Ht.
  destruct (sb_resize_spec E b new H2 Hc Ht) as (l & -> & Hlen & Hn).
  eexists. split; [reflexivity|]. split; [|auto].
  repeat split; cbn [bsize buffer back]; try assumption.
  - apply repeat_length.
  - apply Forall_nth. intros i c Hi.
    assert (Hit : i < total new) by (rewrite <- Hlen; apply nth_error_Some; congruence).
    specialize (Hn (cell_pos new i) (cell_pos_in new i Hit)).
    rewrite cell_pos_no in Hn by lia. rewrite Hi in Hn.
    destruct (is_out_of_bounds (cell_pos new i) (bsize b)).
    + injection Hn as ->. now apply cell_ok_blank.
    + symmetry in Hn. apply nth_error_In in Hn. rewrite Forall_forall in H4. now apply H4.
Qed.

(** ** Histories *)
Section Hist.
Variable mc : nat.
Hypothesis Hmc : 1 <= mc.

Definition hist_inv (E : env) (rest : nat) (b : sbuf) : Prop :=
  buf_ok E b /\ mc <= columns (bsize b) /\
  line (bcur b) + rest <= umax E /\ lines (bsize b) + rest <= umax E.

Definition chars_ok (E : env) (s : list N) : Prop := Forall (fun ch => wide E ch -> 2 <= mc) s.

Lemma chars_cols E s (b : sbuf) : chars_ok E s -> mc <= columns (bsize b) ->
  Forall (fun ch => wide E ch -> 2 <= columns (bsize b)) s.
Proof. intros H Hc. eapply Forall_impl; [|exact H]. simpl. intros ch Hw Hch. specialize (Hw Hch). lia. Qed.

Lemma str_op E b s rest : env_ok E -> hist_inv E (newlines s + rest) b -> chars_ok E s ->
  forall r, r = write_str E b s ->
  exists b', ignore_err r = Val b' /\ hist_inv E rest b'.
Proof.
  intros HE (H1 & H2 & H3 & H4) Hch r ->.
  destruct (ignore_step E b _ _ (write_str_step E s HE b H1 ltac:(lia) (chars_cols E s b Hch H2) ltac:(lia) ltac:(lia)))
    as (b' & Hr & Hb & Hs & _ & Hl).
  exists b'. split; [assumption|]. split; [assumption|]. rewrite Hs. repeat split; lia.
Qed.

Lemma hist_inv_weaken E n m b : m <= n -> hist_inv E n b -> hist_inv E m b.
Proof. intros H (H1 & H2 & H3 & H4). repeat split; try apply H1; lia. Qed.

Lemma hist_inv_frame E n b b' : buf_ok E b' -> bsize b' = bsize b -> bcur b' = bcur b ->
  hist_inv E n b -> hist_inv E n b'.
Proof. intros Hb Hs Hc (H1 & H2 & H3 & H4). unfold hist_inv. rewrite Hs, Hc. auto. Qed.

Lemma try_in_lines b p : try_cursor_at b p = true -> line p < lines (bsize b).
Proof. intros H. apply try_cursor_at_spec in H. apply H. Qed.

Lemma map_blank_ok E l : env_ok E -> Forall (fun c => cell_text_ok E (ctext c)) (map (fun _ : cell => blank) l).
Proof. intros HE. apply Forall_map, Forall_forall. intros. now apply cell_ok_blank. Qed.

Lemma op_step E b o rest : env_ok E -> hist_inv E (op_newlines o + rest) b ->
  op_size_ok (umax E) mc o -> chars_ok E (op_text o) -> (forall l, In l (op_lines o) -> l + (op_newlines o + rest) <= umax E) ->
  exists b', run_buf_op E b o = Val b' /\ hist_inv E rest b'.
Proof.
  intros HE Hi Hsz Hch Hln. assert (Hi' := Hi). destruct Hi' as (H1 & H2 & H3 & H4).
  destruct o; cbn [run_buf_op op_newlines op_lines op_size_ok op_text] in *.
  - destruct Hsz as [Hsz1 Hsz2].
    destruct (resize_buf_ok E b sz HE H1) as (b' & -> & Hb & Hs & Hc); [lia|assumption|].
    exists b'. split; [reflexivity|]. specialize (Hln (lines sz) (or_introl eq_refl)).
    repeat split; try apply Hb; rewrite ?Hs, ?Hc; lia.
  - eexists. split; [reflexivity|]. specialize (Hln (line p) (or_introl eq_refl)).
    split; [exact H1|]. cbn. repeat split; lia.
  - unfold sb_next_line, uadd. replace (_ <=? _) with true by lia.
    eexists. split; [reflexivity|]. split; [exact H1|]. cbn. repeat split; lia.
  - eexists. split; [reflexivity|]. apply (hist_inv_frame E rest b); [|reflexivity|reflexivity|exact Hi].
    destruct H1 as (A & B & C & D). repeat split; cbn; try assumption.
    + now rewrite map_length.
    + now apply map_blank_ok.
  - eexists. split; [reflexivity|]. apply (hist_inv_frame E rest b); [|reflexivity|reflexivity|exact Hi]. exact H1.
  - eexists. split; [reflexivity|]. apply (hist_inv_frame E rest b); [|reflexivity|reflexivity|exact Hi]. exact H1.
  - eexists. split; [reflexivity|]. apply (hist_inv_frame E rest b); [|reflexivity|reflexivity|exact Hi]. exact H1.
  - eexists. split; [reflexivity|]. apply (hist_inv_frame E rest b); [|reflexivity|reflexivity|exact Hi]. exact H1.
  - eexists. split; [reflexivity|]. apply (hist_inv_frame E rest b); [|reflexivity|reflexivity|exact Hi]. exact H1.
  - eexists. split; [reflexivity|]. apply (hist_inv_frame E rest b); [|reflexivity|reflexivity|exact Hi]. exact H1.
  - eexists. split; [reflexivity|]. apply (hist_inv_frame E rest b); [|reflexivity|reflexivity|exact Hi]. exact H1.
  - assert (Hstep : step_ok_res E b (newlines [ch]) (write_char E b ch)).
    { apply write_char_step; auto; [lia|apply Forall_inv in Hch; intros Hw; specialize (Hch Hw); lia|]. intros ->. change (newlines [LF]) with 1 in *. lia. }
    destruct (ignore_step E b _ _ Hstep) as (b' & Hr & Hb & Hs & _ & Hl).
    exists b'. split; [assumption|]. split; [assumption|]. rewrite Hs. repeat split; lia.
  - exact (str_op E b s rest HE Hi Hch _ eq_refl).
  - unfold write_at. destruct (try_cursor_at b p) eqn:Et.
    + apply try_in_lines in Et. eapply str_op; [exact HE| |exact Hch|reflexivity].
      split; [exact H1|]. cbn. repeat split; lia.
    + exists b. split; [reflexivity|]. eapply hist_inv_weaken; [|exact Hi]. lia.
  - unfold write_styled.
    destruct (write_str_step E s HE (with_attrs b a) H1 ltac:(cbn; lia) (chars_cols E s b Hch H2) ltac:(cbn; lia) ltac:(cbn; lia))
      as (b' & Hr & Hb & (_ & Hs & _) & Hl). cbn in Hs, Hl.
    destruct Hr as [-> | ->]; cbn; (eexists; split; [reflexivity|]; split; [exact Hb|]);
      cbn; rewrite ?Hs; repeat split; lia.
  - unfold write_styled_at. destruct (try_cursor_at b p) eqn:Et.
    + apply try_in_lines in Et. unfold write_styled.
      destruct (write_str_step E s HE (with_attrs (with_cur b p) a) H1 ltac:(cbn; lia) (chars_cols E s b Hch H2) ltac:(cbn; lia) ltac:(cbn; lia))
        as (b' & Hr & Hb & (_ & Hs & _) & Hl). cbn in Hs, Hl.
      destruct Hr as [-> | ->]; cbn; (eexists; split; [reflexivity|]; split; [exact Hb|]);
        cbn; rewrite ?Hs; repeat split; lia.
    + exists b. split; [reflexivity|]. eapply hist_inv_weaken; [|exact Hi]. lia.
Qed.

Lemma history_step E ops : env_ok E -> forall b, hist_inv E (list_sum (map op_newlines ops)) b ->
  Forall (op_size_ok (umax E) mc) ops -> Forall (fun o => chars_ok E (op_text o)) ops ->
  (forall l, In l (flat_map op_lines ops) -> l + list_sum (map op_newlines ops) <= umax E) ->
  exists b', run_buf_ops E b ops = Val b' /\ buf_ok E b' /\ mc <= columns (bsize b').
Proof.
  intros HE. induction ops as [|o ops IH]; intros b Hi Hsz Hch Hln.
  - exists b. repeat split; try apply Hi.
  - inversion Hsz; subst. inversion Hch; subst. cbn [map list_sum fold_right flat_map] in *.
    destruct (op_step E b o (list_sum (map op_newlines ops)) HE Hi) as (b' & Hr & Hi'); [assumption|assumption| |].
    { intros l Hin. apply Hln. apply in_or_app. now left. }
    cbn [run_buf_ops]. rewrite Hr. apply IH; [assumption|assumption|assumption|].
    intros l Hin. specialize (Hln l (in_or_app _ _ _ (or_intror Hin))). fold (list_sum (map op_newlines ops)) in Hln. lia.
Qed.

Lemma new_ok E sz : env_ok E -> total sz <= umax E ->
  exists b, sb_new E sz = Val b /\ buf_ok E b /\ bsize b = sz /\ bcur b = Cursor 0 0 /\
    buffer b = repeat blank (total sz) /\ back b = repeat blank (total sz) /\ battrs b = no_attrs.
Proof.
  intros HE Ht. unfold sb_new, area, checked_area. unfold total in *. replace (_ <=? _) with true by lia.
  eexists. split; [reflexivity|]. split; [|auto 10].
  repeat split; cbn; try assumption; try apply repeat_length.
  apply Forall_forall. intros c Hc. apply repeat_spec in Hc as ->. now apply cell_ok_blank.
Qed.

Lemma history_ok E sz ops : env_ok E -> good_size (umax E) mc sz -> Forall (op_size_ok (umax E) mc) ops ->
  Forall (fun o => chars_ok E (op_text o)) ops ->
  lines_fit (umax E) sz ops ->
  exists b, buf_history E sz ops = Val b /\ buf_ok E b /\ mc <= columns (bsize b).
Proof.
  intros HE [Hc Ht] Hops Hch Hl. unfold buf_history.
  destruct (new_ok E sz HE Ht) as (b & -> & Hb & Hs & Hcur & _).
  apply history_step; auto.
  - assert (H := Hl (lines sz) (or_introl eq_refl)).
    split; [assumption|]. rewrite Hs, Hcur. simpl. repeat split; lia.
  - intros l Hin. apply Hl. now right.
Qed.

End Hist.
