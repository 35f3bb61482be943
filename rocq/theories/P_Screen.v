(** Drawing the buffer: the loop of [refresh] against the terminal contract. *)
From Verif Require Import Base M_Utf8 S_Utf8 M_Geom S_Geom M_Attr M_Buf S_Buf M_Writer S_Tty S_Writer
  M_Screen S_Screen P_Buf P_Buf2 P_Buf3 P_Writer P_Attr P_Writer2 P_Writer3.

Lemma cursor_eqb_eq a b : cursor_eqb a b = true <-> a = b.
Proof.
  unfold cursor_eqb. destruct a as [l c], b as [l' c']. cbn. split.
  - intros H. apply andb_prop in H. destruct H as [H1 H2]. apply Nat.eqb_eq in H1, H2. now subst.
  - intros H. injection H as -> ->. now rewrite !Nat.eqb_refl.
Qed.

Lemma text_eqb_eq a : forall b, text_eqb a b = true <-> a = b.
Proof.
  induction a as [|x a IH]; intros [|y b]; cbn; split; try discriminate; auto.
  - intros H. apply andb_prop in H. destruct H as [H1 H2]. apply N.eqb_eq in H1. apply IH in H2. now subst.
  - intros H. injection H as -> ->. rewrite N.eqb_refl. now apply IH.
Qed.

Lemma cell_eqb_eq a b : cell_eqb a b = true <-> a = b.
Proof.
  unfold cell_eqb. destruct a as [x s], b as [y t]. cbn. split.
  - intros H. apply andb_prop in H. destruct H as [H1 H2]. apply attrs_eqb_eq in H1. apply text_eqb_eq in H2. now subst.
  - intros H. injection H as -> ->. apply andb_true_intro. split; [now apply attrs_eqb_eq|now apply text_eqb_eq].
Qed.

Lemma cell_pos_no sz i : 0 < columns sz -> cell_no sz (cell_pos sz i) = i.
Proof. intros H. unfold cell_no, cell_pos. cbn. rewrite Nat.mul_comm. symmetry. apply Nat.div_mod. lia. Qed.

Lemma cell_no_pos sz p : column p < columns sz -> cell_pos sz (cell_no sz p) = p.
Proof.
  intros H. unfold cell_no, cell_pos. destruct p as [l c]. cbn in *. f_equal.
  - rewrite Nat.div_add_l by lia. rewrite Nat.div_small by assumption. lia.
  - rewrite Nat.add_comm, Nat.mod_add by lia. now apply Nat.mod_small.
Qed.

Lemma cell_pos_in sz i : i < total sz -> in_bounds (cell_pos sz i) sz.
Proof.
  unfold total, in_bounds, cell_pos. intros H. cbn. assert (0 < columns sz) by nia.
  split; [apply Nat.div_lt_upper_bound; lia|apply Nat.mod_upper_bound; lia].
Qed.

Section Screen.
  Variable E : env.
  Variable C : tcfg.
  Hypothesis HE : env_ok E.
  Hypothesis HC : env_chars E.

  (** ** Text of one cell *)
  Definition cell_effect (s : list N) (w : nat) (v v' : view) : Prop :=
    let i := cell_no (vsize v) (vcur v) in
    vsize v' = vsize v /\ vattrs v' = vattrs v /\ vvis v' = vvis v /\
    length (vcells v') = length (vcells v) /\
    vcur v' = Cursor (line (vcur v)) (column (vcur v) + w) /\
    nth_error (vcells v') i = Some (VC s (vattrs v)) /\
    (w = 2 -> nth_error (vcells v') (i + 1) = Some VTrail) /\
    (forall j, j < i \/ i + w < j -> nth_error (vcells v') j = nth_error (vcells v) j) /\
    (nth_error (vcells v) (i + w) <> Some VTrail -> nth_error (vcells v') (i + w) = nth_error (vcells v) (i + w)) /\
    nth_error (vcells v') (i + w) <> Some VTrail.

  Lemma utf8s_cons c s : utf8s (c :: s) = utf8 c ++ utf8s s. Proof. reflexivity. Qed.

  Lemma mark_texty m : mark E m -> texty E m.
  Proof. intros H. split; [|auto]. apply HC. right. apply H. Qed.
  Lemma printable_texty c : printable E c -> texty E c.
  Proof.
    intros H. split; [|auto]. apply HC. left. destruct H as (_ & _ & _ & _ & [H|H]); rewrite H; discriminate.
  Qed.

  Lemma feed_marks K (HK : implements E C K) w ms : Forall (mark E) ms -> (w = 1 \/ w = 2) ->
    forall s v0 t v, room w v0 -> cell_effect s w v0 v -> look K t = Some v ->
    exists v', look K (feed K t (utf8s ms)) = Some v' /\ cell_effect (s ++ ms) w v0 v'.
  Proof.
    intros Hms Hw. induction Hms as [|m ms Hm Hms IH]; intros s v0 t v Hr He Hl.
    - exists v. cbn. rewrite (feed_nil _ _ _ HK), app_nil_r. auto.
    - rewrite utf8s_cons, (feed_app _ _ _ HK).
      destruct (text_ok _ _ _ HK m (mark_texty m Hm) t v Hl) as (v1 & E1 & _ & _ & E2 & _).
      destruct He as (S1 & S2 & S3 & S4 & S5 & S6 & S7 & S8 & S9 & S10). destruct Hr as (R1 & R2 & R3).
      set (i := cell_no (vsize v0) (vcur v0)) in *.
      assert (Hp : cell_no (vsize v) (vcur v) - 1 = i + w - 1).
      { rewrite S1, S5. unfold i, cell_no. cbn. lia. }
      destruct (E2 i) as (M1 & M2 & M3 & M4 & M5 & M6 & M7); [assumption| |].
      { unfold left_cell. rewrite S1, S5. cbn [line column]. split; [lia|]. split; [lia|].
        rewrite S1, S5 in Hp. rewrite Hp. destruct Hw as [->| ->].
        - left. split; [lia|]. replace (i + 1 - 1) with i by lia. rewrite S6. discriminate.
        - right. split; [lia|]. replace (i + 2 - 1) with (i + 1) by lia. now apply S7. }
      replace (s ++ m :: ms) with ((s ++ [m]) ++ ms) by now rewrite <- app_assoc.
      apply (IH (s ++ [m]) v0 _ v1).
      { repeat split; assumption. }
      2: assumption.
      split; [congruence|]. split; [congruence|]. split; [congruence|]. split; [congruence|]. split; [congruence|].
      split; [now apply M6|]. split; [|split; [|split]].
      + intros Hw2. rewrite M7 by lia. auto.
      + intros j Hj. rewrite M7 by lia. auto.
      + rewrite M7 by lia. exact S9.
      + rewrite M7 by lia. exact S10.
  Qed.

  Lemma feed_cell K (HK : implements E C K) c ms w t v :
    printable E c -> Forall (mark E) ms -> cwidth E c = Some w -> room w v -> look K t = Some v ->
    exists v', look K (feed K t (utf8s (c :: ms))) = Some v' /\ cell_effect (c :: ms) w v v'.
  Proof.
    intros Hc Hms Hw Hr Hl. rewrite utf8s_cons, (feed_app _ _ _ HK).
    destruct (text_ok _ _ _ HK c (printable_texty c Hc) t v Hl) as (v1 & E1 & _ & E2 & _).
    assert (Hw2 : w = 1 \/ w = 2) by (destruct Hc as (_ & _ & _ & _ & [H|H]); rewrite Hw in H; injection H; auto).
    change (c :: ms) with ([c] ++ ms). eapply (feed_marks K HK w ms Hms Hw2 [c] v _ v1); auto.
    exact (E2 w Hw Hc Hr).
  Qed.

  (** ** Steps *)
  Definition goes (s s' : scr) (P : view -> Prop) (R : view -> view -> Prop) : Prop :=
    whole_writes (script (wr s')) /\
    exists x, stream (wr s') = stream (wr s) ++ x /\
      forall K, caps_coherent C -> implements E C K -> forall t v, look K t = Some v -> P v ->
      exists v', look K (feed K t x) = Some v' /\ R v v'.

  Lemma goes_trans s1 s2 s3 (P P2 : view -> Prop) (R1 R2 R : view -> view -> Prop) :
    goes s1 s2 P R1 -> goes s2 s3 P2 R2 ->
    (forall v v', P v -> R1 v v' -> P2 v') ->
    (forall v v' v'', P v -> R1 v v' -> R2 v' v'' -> R v v'') ->
    goes s1 s3 P R.
  Proof.
    intros (W1 & x & X1 & H1) (W2 & y & X2 & H2) HP HR. split; [assumption|]. exists (x ++ y).
    split; [now rewrite X2, X1, app_assoc|]. intros K Hco HK t v Hl Hp.
    destruct (H1 K Hco HK t v Hl Hp) as (v1 & L1 & Q1).
    destruct (H2 K Hco HK _ v1 L1 (HP _ _ Hp Q1)) as (v2 & L2 & Q2).
    exists v2. rewrite (feed_app _ _ _ HK). split; [assumption|]. eapply HR; eauto.
  Qed.

  Lemma goes_refl s s' (P : view -> Prop) (R : view -> view -> Prop) :
    whole_writes (script (wr s)) -> wr s' = wr s -> (forall v, P v -> R v v) -> goes s s' P R.
  Proof.
    intros Hw Hs Hr. rewrite <- Hs in Hw. split; [assumption|]. exists []. rewrite Hs. split; [now rewrite app_nil_r|].
    intros K _ HK t v Hl Hp. exists v. rewrite (feed_nil _ _ _ HK). auto.
  Qed.

  Lemma goes_weaken s s' (P P' : view -> Prop) (R R' : view -> view -> Prop) :
    goes s s' P R -> (forall v, P' v -> P v) -> (forall v v', P' v -> R v v' -> R' v v') -> goes s s' P' R'.
  Proof.
    intros (W1 & x & X1 & H1) HP HR. split; [assumption|]. exists x. split; [assumption|].
    intros K Hco HK t v Hl Hp. destruct (H1 K Hco HK t v Hl (HP v Hp)) as (v' & L & Q). eauto.
  Qed.

  Lemma on_writer_ret f s s' u : on_writer f s = Ret s' u -> exists w, f (wr s) = Ret w u /\ s' = with_wr w s.
  Proof. unfold on_writer. destruct (f (wr s)) as [w a| | |]; intros H; try discriminate. injection H as <- <-. eauto. Qed.

  (** Attributes. *)
  Lemma adv_goes s w a : whole_writes (script (wr s)) -> adv C (wr s) w a ->
    goes s (with_wr w s) (fun v => vattrs v = shown_attrs C (wat (wr s)))
      (fun v v' => v' = set_vattrs (shown_attrs C a) v).
  Proof.
    intros Hw (Ha & Hd & Hs & x & Hx & Ht). split; [cbn; congruence|]. exists x. cbn [wr with_wr].
    split; [unfold stream; now rewrite Hd, Hx, app_assoc|].
    intros K Hco HK t v Hl Hv. eexists. split; [eapply Ht; eauto|reflexivity].
  Qed.

  Lemma set_attrs_goes a s s' u : whole_writes (script (wr s)) ->
    on_writer (set_attrs C a) s = Ret s' u ->
    sb s' = sb s /\ clr s' = clr s /\ real s' = real s /\ wat (wr s') = a /\
    goes s s' (fun v => vattrs v = shown_attrs C (wat (wr s))) (fun v v' => v' = set_vattrs (shown_attrs C a) v).
  Proof.
    intros Hw H. apply on_writer_ret in H. destruct H as (w & H & ->).
    assert (Ha := set_attrs_adv C a (wr s)). rewrite H in Ha. cbn beta iota delta [ok] in Ha.
    do 3 (split; [reflexivity|]). split; [apply Ha|]. now apply adv_goes.
  Qed.

  Lemma clear_goes s s' u : whole_writes (script (wr s)) ->
    on_writer (clear_attributes C) s = Ret s' u ->
    sb s' = sb s /\ clr s' = clr s /\ real s' = real s /\ wat (wr s') = no_attrs /\
    goes s s' (fun v => vattrs v = shown_attrs C (wat (wr s))) (fun v v' => v' = set_vattrs no_attrs v).
  Proof.
    intros Hw H. apply on_writer_ret in H. destruct H as (w & H & ->).
    assert (Ha := clear_adv C (wr s)). rewrite H in Ha. cbn beta iota delta [ok] in Ha.
    do 3 (split; [reflexivity|]). split; [apply Ha|].
    eapply goes_weaken; [apply (adv_goes s w no_attrs Hw Ha)|auto|]. cbn beta. intros v v' _ ->. now rewrite shown_none.
  Qed.

  (** Cursor. *)
  Lemma move_goes p s s' u : whole_writes (script (wr s)) ->
    s_move_cursor C p s = Ret s' u ->
    sb s' = sb s /\ clr s' = clr s /\ real s' = p /\ wat (wr s') = wat (wr s) /\
    goes s s' (fun v => in_bounds p (vsize v) /\ screen_size (vsize v))
      (fun v v' => (real s = p -> v' = v) /\ (real s <> p -> v' = set_vcur p v)).
  Proof.
    intros Hw H. unfold s_move_cursor in H. destruct (cursor_eqb (real s) p) eqn:Ec.
    - injection H as <- _. apply cursor_eqb_eq in Ec. do 4 (split; [auto|]).
      apply goes_refl; auto. intros v _. split; [auto|]. intros H. contradiction.
    - assert (Hn : real s <> p) by (intros Hx; apply cursor_eqb_eq in Hx; congruence).
      apply bind_ret in H. destruct H as (s1 & a & H & H1). injection H1 as <- _.
      apply on_writer_ret in H. destruct H as (w & H & ->).
      assert (Hm := move_cursor_moves E C p (wr s)). cbn [run_wop] in Hm. rewrite H in Hm.
      destruct Hm as (x & X1 & X2 & X3 & X4 & X5).
      do 4 (split; [auto|]). split; [cbn; congruence|]. exists x. cbn [wr with_wr with_real].
      split; [unfold stream; now rewrite X1, X2, app_assoc|].
      intros K _ HK t v Hl (Hb & _ & _ & Hs1 & Hs2). eexists. split; [eapply X5; eauto|].
      split; [contradiction|auto].
  Qed.

  (** Text. *)
  Lemma text_goes c ms w s s' u : whole_writes (script (wr s)) ->
    printable E c -> Forall (mark E) ms -> cwidth E c = Some w ->
    on_writer (write_str C (c :: ms)) s = Ret s' u ->
    sb s' = sb s /\ clr s' = clr s /\ real s' = real s /\ wat (wr s') = wat (wr s) /\
    goes s s' (fun v => room w v) (fun v v' => cell_effect (c :: ms) w v v').
  Proof.
    intros Hw Hc Hm Hcw H. apply on_writer_ret in H. destruct H as (w' & H & ->).
    unfold write_str in H. assert (Hb := write_bytes_whole C (utf8s (c :: ms)) (wr s) Hw). rewrite H in Hb.
    destruct Hb as (H1 & (H2 & _) & H3). do 4 (split; [auto|]).
    split; [assumption|]. exists (utf8s (c :: ms)). split; [assumption|].
    intros K _ HK t v Hl Hr. eapply feed_cell; eauto.
  Qed.

  (** ** The loop *)
  Notation drawn c := (VC (ctext c) (shown_attrs C (cattrs c))).

  (** What the view and the back buffer have in common at position [j]. *)
  Definition synced_at (b : sbuf) (v : view) (j : nat) : Prop :=
    forall k, nth_error (back b) j = Some k -> ctext k <> [] -> nth_error (vcells v) j <> Some VTrail ->
      nth_error (vcells v) j = Some (drawn k) /\
      (is_wide E k = true -> nth_error (vcells v) (S j) = Some VTrail).

  Definition all_invalid (b : sbuf) : Prop := forall j k, nth_error (back b) j = Some k -> ctext k = [].

  Record frame (s : scr) : Prop := {
    f_buf : buf_ok E (sb s);
    f_size : screen_size (bsize (sb s));
    f_whole : whole_writes (script (wr s))
  }.

  (** The right half at [j] belongs to a double-width character drawn last. *)
  Definition belongs (lo : nat) (b : sbuf) (v : view) (j : nat) : Prop :=
    exists i k, j = S i /\ lo <= i /\ nth_error (back b) i = Some k /\ is_wide E k = true /\
      nth_error (vcells v) i <> Some VTrail.

  Record loop (lo : nat) (s : scr) (v : view) : Prop := {
    l_size : vsize v = bsize (sb s);
    l_len : length (vcells v) = total (bsize (sb s));
    l_attr : vattrs v = shown_attrs C (wat (wr s));
    l_start : half E (sb s) lo = false;
    l_done : forall j c, j < lo -> cell_at (sb s) j = Some c ->
      nth_error (vcells v) j = Some (if half E (sb s) j then VTrail else drawn c);
    l_trail : forall j, lo <= j -> nth_error (vcells v) j = Some VTrail -> half E (sb s) j = false ->
      nth_error (back (sb s)) j <> nth_error (buffer (sb s)) j;
    l_left : forall j, lo <= j -> nth_error (vcells v) j = Some VTrail -> belongs lo (sb s) v j;
    l_sync : forall j, lo <= j -> synced_at (sb s) v j \/
      half E (sb s) j = false /\ nth_error (back (sb s)) j <> nth_error (buffer (sb s)) j;
    l_cur : vcur v = real s \/
            (in_bounds (real s) (bsize (sb s)) /\
              (half E (sb s) (cell_no (bsize (sb s)) (real s)) = true \/
               nth_error (vcells v) (cell_no (bsize (sb s)) (real s)) = Some VTrail)) \/
            (lo = 0 /\ vcur v = Cursor 0 0 /\ all_invalid (sb s))
  }.

  (** Cells from [lo] on: the part of the back buffer already brought up to date. *)
  Definition caught_up (lo : nat) (b : sbuf) : Prop :=
    forall j, j < lo -> half E b j = false -> nth_error (back b) j = nth_error (buffer b) j.

  Lemma wide_at_text b i c ch r : cell_at b i = Some c -> ctext c = ch :: r ->
    wide_at E b i = (width0 E ch =? 2).
  Proof.
    intros H1 H2. unfold wide_at, width0. rewrite H1, H2. destruct (cwidth E ch) as [[|[|[|n]]]|]; reflexivity.
  Qed.

  Lemma is_wide_text c ch r : ctext c = ch :: r -> is_wide E c = (width0 E ch =? 2).
  Proof. intros H. unfold is_wide. now rewrite H. Qed.

  Definition next_of (b : sbuf) (i : nat) : nat := if wide_at E b i then S (S i) else S i.

  Lemma half_next b i : wides_fit E b -> half E b (next_of b i) = false.
  Proof.
    intros H. unfold next_of. destruct (wide_at E b i) eqn:Ew; cbn [half]; [|assumption].
    now apply H.
  Qed.

  Lemma next_of_half b i j : half E b i = false -> i <= j < next_of b i -> half E b j = false -> j = i.
  Proof.
    intros Hi Hj Hh. unfold next_of in Hj. destruct (wide_at E b i) eqn:Ew; [|lia].
    destruct (Nat.eq_dec j (S i)) as [->|]; [cbn in Hh; congruence|lia].
  Qed.

  Lemma wide_room b i : wides_fit E b -> buf_ok E b -> 0 < columns (bsize b) -> wide_at E b i = true -> S i < total (bsize b).
  Proof.
    intros Hf Hb Hc Hw. destruct (Hf i Hw) as [H1 _].
    assert (Hi : i < total (bsize b)).
    { destruct Hb as (_ & Hl & _). rewrite <- Hl. apply nth_error_Some. unfold wide_at, cell_at in Hw.
      destruct (nth_error (buffer b) i); [discriminate|congruence]. }
    unfold total in *. assert (Hd : i / columns (bsize b) < lines (bsize b)) by (apply Nat.div_lt_upper_bound; lia).
    assert (Hm := Nat.div_mod i (columns (bsize b)) ltac:(lia)). nia.
  Qed.

  (** What [next_cell] does. *)
  Lemma next_cell_spec hi b0 : buf_ok E b0 -> wides_fit E b0 -> hi = total (bsize b0) -> 0 < columns (bsize b0) ->
    forall fuel lo r, lo <= hi -> hi - lo <= fuel -> half E b0 lo = false ->
    next_cell_aux E fuel b0 lo hi = Val r ->
    match r with
    | (b', _, None) => b' = b0 /\
        (forall j, lo <= j < hi -> half E b0 j = false -> nth_error (back b0) j = nth_error (buffer b0) j)
    | (b', lo', Some (p, c)) =>
        exists i, lo <= i < hi /\ half E b0 i = false /\ p = cell_pos (bsize b0) i /\ cell_at b0 i = Some c /\
          nth_error (back b0) i <> Some c /\
          (forall j, lo <= j < i -> half E b0 j = false -> nth_error (back b0) j = nth_error (buffer b0) j) /\
          b' = with_back b0 (upd i c (back b0)) /\ lo' = next_of b0 i
    end.
  Proof.
    intros Hb Hf Hhi Hcol. assert (Hb' := Hb). destruct Hb as (Hu & Hl & Hk & Ht).
    induction fuel as [|fuel IH]; intros lo r Hlo Hfu Hh H; cbn [next_cell_aux] in H.
    - injection H as <-. split; [reflexivity|]. intros j Hj. lia.
    - destruct (Nat.leb_spec hi lo).
      { injection H as <-. split; [reflexivity|]. intros j Hj. lia. }
      destruct (nth_error (buffer b0) lo) as [c|] eqn:Ec; [|discriminate].
      unfold first_char in H. destruct (ctext c) as [|ch rest] eqn:Et; [discriminate|].
      destruct (nth_error (back b0) lo) as [k|] eqn:Ek; [|discriminate].
      assert (Hw : wide_at E b0 lo = (width0 E ch =? 2)) by (eapply wide_at_text; eauto).
      assert (Hn : (if (width0 E ch =? 2) && (S lo <? hi) then S (S lo) else S lo) = next_of b0 lo).
      { unfold next_of. rewrite <- Hw. destruct (wide_at E b0 lo) eqn:Ew; [|reflexivity].
        assert (S lo < total (bsize b0)) by now apply wide_room. cbn [andb].
        destruct (Nat.ltb_spec (S lo) hi); [reflexivity|lia]. }
      rewrite Hn in H.
      assert (Hn2 : lo < next_of b0 lo <= hi).
      { unfold next_of. destruct (wide_at E b0 lo) eqn:Ew; [|lia].
        assert (S lo < total (bsize b0)) by now apply wide_room. lia. }
      destruct (cell_eqb c k) eqn:Eq.
      + apply cell_eqb_eq in Eq. subst k.
        specialize (IH (next_of b0 lo) r ltac:(lia) ltac:(lia) (half_next b0 lo Hf) H).
        assert (Hext : forall j m, lo <= j < m ->
                  (forall j, next_of b0 lo <= j < m -> half E b0 j = false -> nth_error (back b0) j = nth_error (buffer b0) j) ->
                  half E b0 j = false -> nth_error (back b0) j = nth_error (buffer b0) j).
        { intros j m Hj Hx Hjh. destruct (Nat.ltb_spec j (next_of b0 lo)).
          - rewrite (next_of_half b0 lo j) by (auto; lia). congruence.
          - apply Hx; [lia|assumption]. }
        destruct r as [[b' lo'] [[p c']|]].
        * destruct IH as (i & I1 & I2 & I3 & I4 & I5 & I6 & I7). exists i.
          repeat (split; [solve [auto|lia]|]). split; [|assumption]. intros j Hj. eauto.
        * destruct IH as (I1 & I2). split; [assumption|]. intros j Hj. eauto.
      + destruct (columns (bsize b0)) as [|col] eqn:Ecol; [lia|].
        destruct (vec_set lo c (back b0)) as [bk|] eqn:Ev; [|discriminate].
        rewrite vec_set_upd in Ev by lia. injection Ev as <-. injection H as <-.
        exists lo. split; [lia|]. split; [assumption|]. split; [unfold cell_pos; now rewrite Ecol|].
        split; [exact Ec|]. split.
        { rewrite Ek. intros Hx. injection Hx as ->.
          assert (cell_eqb c c = true) by now apply cell_eqb_eq. congruence. }
        split; [intros j Hj; lia|]. split; reflexivity.
  Qed.

  Lemma half_back b l i : half E (with_back b l) i = half E b i. Proof. reflexivity. Qed.
  Lemma wide_back b l i : wide_at E (with_back b l) i = wide_at E b i. Proof. reflexivity. Qed.

  (** Skipping cells that are up to date. *)
  Lemma cell_nonempty b j c : buf_ok E b -> cell_at b j = Some c -> ctext c <> [].
  Proof.
    intros Hb Hc. destruct Hb as (_ & _ & _ & Ht). rewrite Forall_forall in Ht.
    destruct (Ht c (nth_error_In _ _ Hc)) as (x & ms & -> & _). discriminate.
  Qed.

  Lemma is_wide_at b j c : cell_at b j = Some c -> is_wide E c = wide_at E b j.
  Proof.
    intros H. unfold is_wide, wide_at, width0. rewrite H. destruct (ctext c) as [|x r]; [reflexivity|].
    destruct (cwidth E x) as [[|[|[|n]]]|]; reflexivity.
  Qed.

  Lemma half_before b j : wides_fit E b -> half E b (S j) = true -> half E b j = false.
  Proof.
    intros Hf Hw. destruct j as [|j']; [reflexivity|]. cbn [half] in *. destruct (wide_at E b j') eqn:Ew; [|reflexivity].
    destruct (Hf j' Ew). congruence.
  Qed.

  (** The cell to be drawn next is not on a right half. *)
  Lemma skip_whole lo i s v : buf_ok E (sb s) -> wides_fit E (sb s) -> lo <= i -> half E (sb s) i = false ->
    (forall j, lo <= j < i -> half E (sb s) j = false -> nth_error (back (sb s)) j = nth_error (buffer (sb s)) j) ->
    loop lo s v -> nth_error (vcells v) i <> Some VTrail.
  Proof.
    intros Hb Hf Hlo Hi Hsame [L1 L2 L3 L4 L5 L6 Ll L7 L8] Hv.
    destruct (Ll i Hlo Hv) as (j & k & -> & Hj & Hk & Hw & Hn). cbn [half] in Hi.
    destruct (half E (sb s) j) eqn:Ej.
    - destruct j as [|j]; [discriminate Ej|].
      assert (Hlj : lo <= j) by (destruct (Nat.eq_dec lo (S j)) as [Q|Q]; [rewrite Q in L4; congruence|lia]).
      assert (Hjh := half_before _ _ Hf Ej). cbn [half] in Ej.
      destruct (cell_at (sb s) j) as [c|] eqn:Ec; [|unfold wide_at in Ej; rewrite Ec in Ej; discriminate Ej].
      assert (Hbk := Hsame j ltac:(lia) Hjh). assert (Hne := cell_nonempty (sb s) j c Hb Ec).
      destruct (L7 j Hlj) as [Sy|(_ & Q)]; [|exact (Q Hbk)].
      destruct (Sy c ltac:(rewrite Hbk; exact Ec) Hne) as (_ & Ht).
      + intros Q. exact (L6 j Hlj Q Hjh Hbk).
      + apply Hn, Ht. now rewrite (is_wide_at _ _ _ Ec).
    - assert (Hbk := Hsame j ltac:(lia) Ej). rewrite Hk in Hbk. symmetry in Hbk.
      rewrite (is_wide_at (sb s) j k Hbk) in Hw. congruence.
  Qed.

  Lemma loop_skip b lo i s v : sb s = b -> buf_ok E b -> wides_fit E b -> 0 < total (bsize b) ->
    lo <= i -> half E b i = false ->
    (forall j, lo <= j < i -> half E b j = false -> nth_error (back b) j = nth_error (buffer b) j) ->
    loop lo s v -> loop i s v.
  Proof.
    intros Hs Hb Hf Htot Hlo Hi Hsame L. assert (L' := L). destruct L' as [L1 L2 L3 L4 L5 L6 Ll L7 L8]. subst b.
    assert (Hcell := fun j c => cell_nonempty (sb s) j c Hb).
    assert (Hsyn : forall j c, lo <= j < i -> cell_at (sb s) j = Some c -> half E (sb s) j = false ->
      nth_error (vcells v) j = Some (drawn c) /\ (is_wide E c = true -> nth_error (vcells v) (S j) = Some VTrail)).
    { intros j c Hj Hc Hh. assert (Hbk := Hsame j Hj Hh). destruct (L7 j (proj1 Hj)) as [Sy|(_ & Q)]; [|destruct (Q Hbk)].
      apply Sy; [rewrite Hbk; exact Hc|exact (Hcell j c Hc)|]. intros Q. exact (L6 j (proj1 Hj) Q Hh Hbk). }
    assert (Hdone : forall j c, j < i -> cell_at (sb s) j = Some c ->
      nth_error (vcells v) j = Some (if half E (sb s) j then VTrail else drawn c)).
    { intros j c Hj Hc. destruct (Nat.ltb_spec j lo); [now apply L5|].
      destruct (half E (sb s) j) eqn:Eh.
      - destruct j as [|j]; [discriminate|]. assert (Hjh := half_before _ _ Hf Eh).
        assert (Hjl : lo <= j) by (destruct (Nat.eq_dec lo (S j)) as [->|]; [congruence|lia]). cbn [half] in Eh.
        destruct (cell_at (sb s) j) as [cj|] eqn:Ecj; [|unfold wide_at in Eh; now rewrite Ecj in Eh].
        destruct (Hsyn j cj ltac:(lia) Ecj Hjh) as (_ & Ht). apply Ht. now rewrite (is_wide_at _ _ _ Ecj).
      - apply (Hsyn j c); auto. }
    constructor; auto.
    - intros j Hj. apply L6. lia.
    - intros j Hj Hv. destruct (Ll j ltac:(lia) Hv) as (q & k & -> & Q1 & Q2).
      exists q, k. split; [reflexivity|]. split; [|exact Q2]. destruct (Nat.eq_dec i (S q)) as [Q|Q]; [|lia].
      rewrite <- Q in Hv. destruct (skip_whole lo i s v Hb Hf Hlo Hi Hsame L Hv).
    - intros j Hj. apply L7. lia.
    - destruct L8 as [L8|[L8|(-> & L8 & L9)]]; auto.
      destruct i as [|i]; [auto|]. exfalso.
      destruct (nth_error (buffer (sb s)) 0) as [c|] eqn:E0.
      + apply (Hcell 0 c E0). apply (L9 0). rewrite Hsame; [exact E0|lia|reflexivity].
      + apply nth_error_None in E0. destruct Hb as (_ & Hl & _ & _). lia.
  Qed.

  Definition after (s s' : scr) : Prop :=
    sb s' = with_back (sb s) (back (sb s')) /\ length (back (sb s')) = length (back (sb s)) /\ clr s' = clr s.

  Lemma after_refl s : after s s.
  Proof. repeat split. destruct (sb s); reflexivity. Qed.

  Lemma after_trans a b c : after a b -> after b c -> after a c.
  Proof.
    intros (A1 & A2 & A3) (B1 & B2 & B3). split; [rewrite B1, A1; reflexivity|]. split; congruence.
  Qed.

  Lemma after_half a b i : after a b -> half E (sb b) i = half E (sb a) i.
  Proof. intros (H & _). now rewrite H. Qed.
  Lemma after_fit a b : after a b -> wides_fit E (sb a) -> wides_fit E (sb b).
  Proof. intros (H & _). now rewrite H. Qed.
  Lemma after_ok a b : after a b -> buf_ok E (sb a) -> buf_ok E (sb b).
  Proof.
    intros (H & H2 & _) (B1 & B2 & B3 & B4). rewrite H. unfold buf_ok in *. cbn [bsize buffer back with_back].
    repeat split; auto. congruence.
  Qed.

  Lemma buf_ok_back b i c : buf_ok E b -> i < total (bsize b) -> buf_ok E (with_back b (upd i c (back b))).
  Proof.
    intros (B1 & B2 & B3 & B4) Hi. unfold buf_ok. cbn [bsize buffer back with_back].
    repeat split; auto. rewrite upd_length; [assumption|lia].
  Qed.

  Lemma half_end b : buf_ok E b -> wides_fit E b -> 0 < columns (bsize b) -> half E b (total (bsize b)) = false.
  Proof.
    intros Hb Hf Hc. destruct (total (bsize b)) as [|n] eqn:Et; [reflexivity|]. cbn [half].
    destruct (wide_at E b n) eqn:Ew; [|reflexivity]. assert (S n < total (bsize b)) by now apply wide_room. lia.
  Qed.

  (** One cell drawn. *)
  Lemma draw_cell s i c s1 s2 s3 u1 u2 u3 : frame s -> wides_fit E (sb s) ->
    i < total (bsize (sb s)) -> half E (sb s) i = false -> cell_at (sb s) i = Some c ->
    let s0 := with_sb (with_back (sb s) (upd i c (back (sb s)))) s in
    s_move_cursor C (cell_pos (bsize (sb s)) i) s0 = Ret s1 u1 ->
    on_writer (set_attrs C (cattrs c)) s1 = Ret s2 u2 ->
    on_writer (write_str C (ctext c)) s2 = Ret s3 u3 ->
    let s4 := with_real (Cursor (line (real s3)) (column (real s3) + 1)) s3 in
    after s s4 /\ frame s4 /\ back (sb s4) = upd i c (back (sb s)) /\
    goes s s4 (loop i s) (fun _ v' => loop (next_of (sb s) i) s4 v').
  Proof.
    intros [F1 F2 F3] Hf Hi Hh Hc s0 H1 H2 H3 s4.
    assert (Hcol : 0 < columns (bsize (sb s))) by apply F2.
    destruct (move_goes _ _ _ _ (F3 : whole_writes (script (wr s0))) H1) as (M1 & M2 & M3 & M4 & M5).
    destruct (set_attrs_goes _ _ _ _ (proj1 M5) H2) as (A1 & A2 & A3 & A4 & A5).
    assert (Hct : cell_text_ok E (ctext c)).
    { destruct F1 as (_ & _ & _ & Ht). rewrite Forall_forall in Ht. apply Ht. eapply nth_error_In. exact Hc. }
    destruct Hct as (ch & ms & Et & Hp & Hms). rewrite Et in H3.
    assert (Hcw : exists w, cwidth E ch = Some w /\ (w = 1 \/ w = 2)).
    { destruct Hp as (_ & _ & _ & _ & [H|H]); eauto. }
    destruct Hcw as (w & Hcw & Hw12).
    destruct (text_goes ch ms w _ _ _ (proj1 A5) Hp Hms Hcw H3) as (T1 & T2 & T3 & T4 & T5).
    assert (Hsb : sb s4 = with_back (sb s) (upd i c (back (sb s)))).
    { cbn [sb s4 with_real]. rewrite T1, A1, M1. reflexivity. }
    assert (Hlb : i < length (back (sb s))) by (destruct F1 as (_ & _ & Hl & _); lia).
    assert (Haf : after s s4).
    { split; [rewrite Hsb; reflexivity|]. split; [rewrite Hsb; cbn [back with_back]; now apply upd_length|].
      cbn [clr s4 with_real]. rewrite T2, A2, M2. reflexivity. }
    split; [assumption|]. split.
    { constructor; [eapply after_ok; eauto|rewrite Hsb; assumption|exact (proj1 T5)]. }
    split; [rewrite Hsb; reflexivity|].
    (* widths *)
    assert (Hwide : wide_at E (sb s) i = (w =? 2)).
    { rewrite (wide_at_text _ _ _ _ _ Hc Et). unfold width0. now rewrite Hcw. }
    assert (Hnext : next_of (sb s) i = i + w).
    { unfold next_of. rewrite Hwide. destruct Hw12 as [->| ->]; cbn; lia. }
    set (pos := cell_pos (bsize (sb s)) i) in *.
    assert (Hpos : in_bounds pos (bsize (sb s))) by now apply cell_pos_in.
    assert (Hno : cell_no (bsize (sb s)) pos = i) by now apply cell_pos_no.
    assert (Hfit : column pos + w <= columns (bsize (sb s))).
    { destruct Hw12 as [->| ->]; [destruct Hpos; lia|]. destruct (Hf i Hwide) as [Hx _]. exact Hx. }
    assert (Hreal : real s3 = pos) by congruence.
    (* the view *)
    destruct M5 as (_ & x1 & X1 & G1). destruct A5 as (_ & x2 & X2 & G2). destruct T5 as (W3 & x3 & X3 & G3).
    split; [exact W3|]. exists (x1 ++ x2 ++ x3).
    split.
    { cbn [wr s4 with_real]. rewrite X3, X2, X1. cbn [wr s0 with_sb]. now rewrite <- !app_assoc. }
    intros K Hco HK t v Hl L. assert (L' := L). destruct L' as [L1 L2 L3 L4 L5 L6 Ll L7 L8].
    assert (Hwh : nth_error (vcells v) i <> Some VTrail).
    { apply (skip_whole i i s v); auto. intros j Hj. lia. }
    rewrite !(feed_app _ _ _ HK).
    destruct (G1 K Hco HK t v Hl) as (v1 & V1 & V1a & V1b).
    { rewrite L1. now split. }
    assert (E1 : v1 = set_vcur pos v).
    { cbn [real s0 with_sb] in V1a, V1b. destruct (cursor_eqb (real s) pos) eqn:Ec.
      - apply cursor_eqb_eq in Ec. rewrite (V1a Ec).
        assert (Hvc : vcur v = pos).
        { destruct L8 as [L8|[(_ & L8)|(-> & L8 & _)]].
          - congruence.
          - rewrite Ec, Hno in L8. destruct L8; congruence.
          - rewrite L8. unfold pos, cell_pos. rewrite Nat.div_0_l, Nat.mod_0_l by lia. reflexivity. }
        rewrite <- Hvc. now destruct v.
      - apply V1b. intros Hx. apply cursor_eqb_eq in Hx. congruence. }
    destruct (G2 K Hco HK _ v1 V1) as (v2 & V2 & E2).
    { rewrite E1. cbn [vattrs set_vcur]. rewrite L3, M4. reflexivity. }
    assert (Hv2 : vsize v2 = bsize (sb s) /\ vcells v2 = vcells v /\ vcur v2 = pos /\
                  vattrs v2 = shown_attrs C (cattrs c)).
    { rewrite E2, E1. cbn. repeat split; auto. }
    destruct Hv2 as (Z1 & Z2 & Z3 & Z4).
    destruct (G3 K Hco HK _ v2 V2) as (v3 & V3 & E3).
    { unfold room. rewrite Z1, Z2, Z3, Hno. split; [apply Hpos|]. split; [assumption|]. exact Hwh. }
    exists v3. split; [assumption|].
    destruct E3 as (S1 & S2 & S3 & S4 & S5 & S6 & S7 & S8 & S9 & S10). rewrite Z1, Z3, Hno in *. rewrite Z2, Z4 in *.
    assert (Hs4 : forall j, half E (sb s4) j = half E (sb s) j) by (intros; rewrite Hsb; reflexivity).
    assert (Hc4 : forall j, cell_at (sb s4) j = cell_at (sb s) j) by (intros; rewrite Hsb; reflexivity).
    assert (Hz4 : bsize (sb s4) = bsize (sb s)) by (rewrite Hsb; reflexivity).
    assert (Hr4 : real s4 = Cursor (line pos) (column pos + 1)) by (cbn [real s4 with_real]; now rewrite Hreal).
    assert (Ha4 : vattrs v3 = shown_attrs C (wat (wr s4))) by (rewrite S2; cbn [wr s4 with_real]; now rewrite T4, A4).
    clearbody s4 pos. clear Haf T1 T2 T3 T4 A1 A2 A3 A4 M1 M2 M3 M4 E1 E2 Hreal.
    constructor.
    - congruence.
    - rewrite Hz4. congruence.
    - exact Ha4.
    - rewrite Hs4. now apply half_next.
    - intros j cj Hj Hcj. rewrite Hc4 in Hcj. rewrite Hs4. destruct (lt_eq_lt_dec j i) as [[Hji| ->]|Hji].
      + rewrite S8 by lia. now apply L5.
      + assert (cj = c) by congruence. subst cj. now rewrite Hh, S6, Et.
      + rewrite Hnext in Hj. assert (w = 2) by lia. subst w. assert (j = S i) by lia. subst j.
        cbn [half]. rewrite Hwide. cbn [Nat.eqb]. replace (S i) with (i + 1) by lia. now apply S7.
    - intros j Hj Hv Hjh. rewrite Hs4 in Hjh. rewrite Hnext in Hj.
      destruct (Nat.eq_dec j (i + w)) as [->|Nj]; [destruct (S10 Hv)|].
      rewrite S8 in Hv by lia. rewrite Hsb. cbn [back buffer with_back].
      rewrite nth_upd by assumption. destruct (Nat.eqb_spec j i); [lia|]. apply L6; [lia|assumption|assumption].
    - intros j Hj Hv. rewrite Hnext in Hj |- *.
      destruct (Nat.eq_dec j (i + w)) as [->|Nj]; [destruct (S10 Hv)|].
      rewrite S8 in Hv by lia. destruct (Ll j ltac:(lia) Hv) as (q & k & -> & Q1 & Q2 & Q3 & Q4).
      exists q, k. split; [reflexivity|]. split; [lia|]. rewrite Hsb. cbn [back with_back].
      rewrite nth_upd by assumption. destruct (Nat.eqb_spec q i); [lia|]. split; [exact Q2|]. split; [exact Q3|].
      destruct (Nat.eq_dec q (i + w)) as [->|Nq]; [exact S10|]. rewrite S8 by lia. exact Q4.
    - intros j Hj. rewrite Hnext in Hj. rewrite Hs4. unfold synced_at. rewrite Hsb. cbn [back buffer with_back].
      rewrite nth_upd by assumption. destruct (Nat.eqb_spec j i); [lia|].
      assert (Dec : nth_error (vcells v) j = Some VTrail \/ nth_error (vcells v) j <> Some VTrail).
      { destruct (nth_error (vcells v) j) as [[? ?|]|]; [right; discriminate|now left|right; discriminate]. }
      destruct (Nat.eq_dec j (i + w)) as [->|Nj]; [destruct Dec as [Ht|Hn]|].
      + assert (Hjh : half E (sb s) (i + w) = false) by (rewrite <- Hnext; now apply half_next).
        right. split; [exact Hjh|]. exact (L6 (i + w) ltac:(lia) Ht Hjh).
      + destruct (L7 (i + w) ltac:(lia)) as [Sy|Q]; [left|now right].
        intros k Hk Hkt Hkv. rewrite S9 in * by exact Hn. rewrite S8 by lia. now apply Sy.
      + destruct (L7 j ltac:(lia)) as [Sy|Q]; [left|now right].
        intros k Hk Hkt Hkv. rewrite S8 in Hkv by lia. rewrite !S8 by lia. now apply Sy.
    - rewrite Hr4, Hz4, S5. destruct Hw12 as [->| ->]; [now left|]. right. left. split.
      + destruct Hpos. split; cbn [line column]; lia.
      + left. rewrite Hs4. replace (cell_no (bsize (sb s)) (Cursor (line pos) (column pos + 1))) with (S i)
          by (unfold cell_no in *; cbn [line column]; lia). cbn [half]. exact Hwide.
  Qed.

  (** The whole loop. *)
  Lemma draw_spec fuel : forall lo hi s s' u, frame s -> wides_fit E (sb s) ->
    hi = total (bsize (sb s)) -> lo <= hi -> half E (sb s) lo = false -> caught_up lo (sb s) ->
    draw E C fuel lo hi s = Ret s' u ->
    after s s' /\ frame s' /\ caught_up hi (sb s') /\
    goes s s' (loop lo s) (fun _ v' => loop hi s' v') /\
    (forall j, half E (sb s) j = true -> nth_error (back (sb s')) j = nth_error (back (sb s)) j).
  Proof.
    induction fuel as [|fuel IH]; intros lo hi s s' u F Hf Hhi Hlo Hh Hcu H; assert (F' := F); destruct F' as [F1 F2 F3];
      assert (Hcol : 0 < columns (bsize (sb s))) by apply F2;
      assert (Htot : 0 < total (bsize (sb s))) by (unfold total; destruct F2 as (? & ? & _); nia);
      cbn [draw] in H; unfold next_cell in H;
      destruct (next_cell_aux E (hi - lo) (sb s) lo hi) as [[[b' lo'] o]|] eqn:En; try discriminate;
      assert (Hs := next_cell_spec hi (sb s) F1 Hf Hhi Hcol (hi - lo) lo _ Hlo (le_n _) Hh En);
      destruct o as [[p c]|]; cbn in Hs.
    1, 3: destruct Hs as (i & I1 & I2 & I3 & I4 & I5 & I6 & I7 & I8).
    3, 4: destruct Hs as (Hs1 & Hs2).
    - exfalso. apply bind_ret in H. destruct H as (s1 & u1 & H1 & H).
      apply bind_ret in H. destruct H as (s2 & u2 & H2 & H).
      apply bind_ret in H. destruct H as (s3 & u3 & H3 & H). destruct (uadd _ _ _); discriminate.
    - apply bind_ret in H. destruct H as (s1 & u1 & H1 & H).
      apply bind_ret in H. destruct H as (s2 & u2 & H2 & H).
      apply bind_ret in H. destruct H as (s3 & u3 & H3 & H).
      destruct (uadd (umax E) (column (real s3)) 1) as [cc|] eqn:Eu; [|discriminate].
      assert (Hcc : cc = column (real s3) + 1) by (unfold uadd in Eu; destruct (_ <=? _); congruence). subst cc.
      subst p b'.
      destruct (draw_cell s i c s1 s2 s3 u1 u2 u3 F Hf ltac:(lia) I2 I4 H1 H2 H3) as (D1 & D2 & D3 & D4).
      set (s4 := with_real _ s3) in *.
      assert (Hz : bsize (sb s4) = bsize (sb s)) by (destruct D1 as (-> & _); reflexivity).
      assert (Hlo' : lo' <= hi).
      { rewrite I8. unfold next_of. destruct (wide_at E (sb s) i) eqn:Ew; [|lia].
        assert (S i < total (bsize (sb s))) by now apply wide_room. lia. }
      assert (Hcu4 : caught_up lo' (sb s4)).
      { intros j Hj Hjh. rewrite (after_half _ _ j D1) in Hjh. rewrite D3.
        assert (Hb4 : buffer (sb s4) = buffer (sb s)) by (destruct D1 as (-> & _); reflexivity).
        rewrite Hb4. rewrite nth_upd by (destruct F1 as (_ & _ & Hl & _); lia).
        destruct (Nat.eqb_spec j i); [subst j; now symmetry|].
        destruct (Nat.ltb_spec j lo); [now apply Hcu|].
        destruct (Nat.ltb_spec j i); [apply I6; [lia|assumption]|].
        rewrite I8 in Hj. exfalso. apply n. eapply next_of_half; eauto. }
      destruct (IH lo' hi s4 s' u D2 (after_fit _ _ D1 Hf) ltac:(congruence) Hlo') as (R1 & R2 & R3 & R4 & R5); auto.
      { rewrite (after_half _ _ _ D1), I8. now apply half_next. }
      split; [eapply after_trans; eauto|]. split; [assumption|]. split; [assumption|]. split.
      2: { intros j Hj. rewrite R5 by (rewrite (after_half _ _ _ D1); exact Hj). rewrite D3.
           rewrite nth_upd by (destruct F1 as (_ & _ & Hl & _); lia). destruct (Nat.eqb_spec j i) as [->|]; [congruence|reflexivity]. }
      eapply goes_trans with (P2 := loop lo' s4).
      + eapply goes_weaken; [exact D4| |].
        * intros v L. eapply (loop_skip (sb s) lo i); eauto. lia.
        * intros v v' _ L. exact L.
      + exact R4.
      + cbn beta. rewrite I8. auto.
      + cbn beta. auto.
    - (* all cells up to date, with and without fuel *)
      injection H as <- <-. subst b'.
      assert (Hw : with_sb (sb s) s = s) by now destruct s. rewrite Hw.
      split; [apply after_refl|]. split; [assumption|]. split.
      { intros j Hj Hjh. destruct (Nat.ltb_spec j lo); [now apply Hcu|apply Hs2; [lia|assumption]]. }
      split; [|reflexivity]. apply goes_refl; auto. intros v L. eapply (loop_skip (sb s) lo hi); eauto.
      rewrite Hhi. now apply half_end.
    - injection H as <- <-. subst b'.
      assert (Hw : with_sb (sb s) s = s) by now destruct s. rewrite Hw.
      split; [apply after_refl|]. split; [assumption|]. split.
      { intros j Hj Hjh. destruct (Nat.ltb_spec j lo); [now apply Hcu|apply Hs2; [lia|assumption]]. }
      split; [|reflexivity]. apply goes_refl; auto. intros v L. eapply (loop_skip (sb s) lo hi); eauto.
      rewrite Hhi. now apply half_end.
  Qed.
End Screen.
