(** Proofs about the Windows screen buffer: moving the cursor and erasing (C61, C70, C71). *)
From Verif Require Import Base M_Geom M_Attr M_Buf M_Writer M_WinWriter S_WinWriter.
Local Open Scope Z_scope.

Lemma no_failure_cases l : no_failure l -> l = [] \/ exists n l', l = CTake n :: l' /\ no_failure l'.
Proof. intros H. destruct H as [|a l [n ->] H]; eauto. Qed.

(** A call that the console accepts. *)
Lemma ask_view g v s : no_failure (c_answers (w_con s)) -> v = true ->
  exists l, no_failure l /\
  ask v (on_view g) s =
    Ret (Wins (w_at s) (Con (g (c_view (w_con s))) (c_attr (w_con s)) (c_text (w_con s)) (c_cursor (w_con s)) l)) tt.
Proof.
  intros H ->. destruct s as [a [vw at_ tx cu an]]. cbn in *. unfold ask; cbn.
  apply no_failure_cases in H. destruct H as [->|(n & l & -> & H)]; cbn.
  - exists []. split; [constructor|reflexivity].
  - exists l. split; [exact H|reflexivity].
Qed.

Lemma ask_view_bad g s : no_failure (c_answers (w_con s)) ->
  exists l, no_failure l /\
  ask false (on_view g) s = Fail (with_con (with_answers l (w_con s)) s) ERROR_INVALID_PARAMETER.
Proof.
  intros H. destruct s as [a [vw at_ tx cu an]]. cbn in *. unfold ask; cbn.
  apply no_failure_cases in H. destruct H as [->|(n & l & -> & H)]; cbn.
  - exists []. split; [constructor|reflexivity].
  - exists l. split; [exact H|reflexivity].
Qed.

Lemma info_ok s : no_failure (c_answers (w_con s)) ->
  exists l, no_failure l /\
  get_info s = Ret (with_con (with_answers l (w_con s)) s) (c_view (w_con s)).
Proof.
  intros H. destruct s as [a [vw at_ tx cu an]]. cbn in *. unfold get_info, ask; cbn.
  apply no_failure_cases in H. destruct H as [->|(n & l & -> & H)]; cbn.
  - exists []. split; [constructor|reflexivity].
  - exists l. split; [exact H|reflexivity].
Qed.

Lemma short_ok {A} z (k : Z -> winres A) : -32768 <= z <= 32767 -> short z k = k z.
Proof. intros H. unfold short. replace ((-32768 <=? z) && (z <=? 32767)) with true by lia. reflexivity. Qed.
Lemma dword_ok {A} z (k : Z -> winres A) : 0 <= z <= 4294967295 -> dword z k = k z.
Proof. intros H. unfold dword. replace ((0 <=? z) && (z <=? 4294967295)) with true by lia. reflexivity. Qed.
Lemma as_dword_ok z : 0 <= z <= 4294967295 -> as_dword z = z.
Proof. intros H. unfold as_dword. apply Z.mod_small. lia. Qed.

Lemma to_short_neg_ok E n : (65536 <= Z.of_nat (umax E)) -> to_short_neg E n = Z.max (- Z.of_nat n) (-32768).
Proof.
  intros H. unfold to_short_neg. destruct (Nat.ltb_spec (umax E / 2) n) as [Hn|Hn]; [|reflexivity].
  assert (32768 <= Z.of_nat (umax E / 2)).
  { rewrite Nat2Z.inj_div. apply Z.div_le_lower_bound; lia. }
  lia.
Qed.

Lemma reveal_follows p v : view_ok v -> follows p (v_win v) (reveal p (v_win v)).
Proof.
  intros (_ & _ & _ & _ & Hl & Hr & Ht & Hb). unfold follows, reveal, to_show. destruct (v_win v) as [t b l r]. cbn in *.
  destruct (Z.ltb_spec (cY p) t), (Z.ltb_spec b (cY p)), (Z.ltb_spec (cX p) l), (Z.ltb_spec r (cX p));
    repeat split; try lia; intros; f_equal; lia.
Qed.
Lemma reveal_top w : rTop w <= rBottom w -> rLeft w <= rRight w -> reveal (Coord (rLeft w) (rTop w)) w = w.
Proof.
  intros H1 H2. unfold reveal, to_show. destruct w as [t b l r]. cbn in *.
  destruct (Z.ltb_spec t t), (Z.ltb_spec b t), (Z.ltb_spec l l), (Z.ltb_spec r l); try lia. f_equal; lia.
Qed.
Lemma reveal_ok p v : view_ok v -> in_buffer v p = true -> view_ok (View (v_size v) p (reveal p (v_win v)) (v_cell v)).
Proof.
  intros Hv Hb. pose proof (reveal_follows p v Hv) as (F1 & F2 & F3 & F4 & F5). unfold view_ok, in_buffer in *.
  cbn [v_size v_cur v_win]. unfold reveal, to_show in *. destruct (v_win v) as [t b l r]. cbn in *.
  destruct (Z.ltb_spec (cY p) t), (Z.ltb_spec b (cY p)), (Z.ltb_spec (cX p) l), (Z.ltb_spec r (cX p)); lia.
Qed.

Section View.
  Variables (default : N) (E : env).

  Lemma move_rel_ok off s : view_ok (c_view (w_con s)) -> no_failure (c_answers (w_con s)) ->
    -32768 <= cX off <= 32767 -> -32768 <= cY off <= 32767 ->
    let v := c_view (w_con s) in
    let x := Z.min (cX (v_cur v) + cX off) (cX (v_size v) - 1) in
    let y := Z.min (cY (v_cur v) + cY off) (cY (v_size v) - 1) in
    if (0 <=? x) && (0 <=? y) then
      exists s', move_rel off s = Ret s' tt /\ no_failure (c_answers (w_con s')) /\ goes_to s s' (Coord x y)
    else
      exists s', move_rel off s = Fail s' ERROR_INVALID_PARAMETER /\ now s s' (v_cur v) (v_cell v).
  Proof.
    intros Hok Ha Hox Hoy v x y. pose proof Hok as (Hx & Hy & Hcx & Hcy & _).
    unfold move_rel. destruct (info_ok s Ha) as (l & Hl & ->). cbn [obind].
    fold v. rewrite short_ok by (subst v; lia). rewrite short_ok by (subst v; lia).
    unfold move_abs, set_cursor_position.
    replace (Z.min (sat_add (cX (v_cur v)) (cX off)) (cX (v_size v) - 1)) with x
      by (unfold x, sat_add; subst v; lia).
    replace (Z.min (sat_add (cY (v_cur v)) (cY off)) (cY (v_size v) - 1)) with y
      by (unfold y, sat_add; subst v; lia).
    unfold with_con, with_answers. cbn [w_con c_view]. fold v.
    destruct ((0 <=? x) && (0 <=? y)) eqn:Exy.
    - destruct (ask_view (fun v => View (v_size v) (Coord x y) (reveal (Coord x y) (v_win v)) (v_cell v)) (in_buffer v (Coord x y))
                 (Wins (w_at s) (Con v (c_attr (w_con s)) (c_text (w_con s)) (c_cursor (w_con s)) l)))
        as (l' & Hl' & ->); [exact Hl| |].
      + unfold in_buffer. cbn. unfold x, y in *. lia.
      + eexists. split; [reflexivity|]. split; [exact Hl'|].
        do 7 (split; [reflexivity|]). apply reveal_follows. exact Hok.
    - replace (in_buffer v (Coord x y)) with false.
      + destruct (ask_view_bad (fun v => View (v_size v) (Coord x y) (reveal (Coord x y) (v_win v)) (v_cell v))
                 (Wins (w_at s) (Con v (c_attr (w_con s)) (c_text (w_con s)) (c_cursor (w_con s)) l)))
          as (l' & Hl' & ->); [exact Hl|]. eexists. split; [reflexivity|]. repeat split.
      + unfold in_buffer. cbn. lia.
  Qed.

  Lemma clear_area_ok start n s : no_failure (c_answers (w_con s)) ->
    in_buffer (c_view (w_con s)) start = true ->
    let v := c_view (w_con s) in
    exists s', clear_area default start n s = Ret s' tt /\ no_failure (c_answers (w_con s')) /\
      w_at s' = w_at s /\ c_attr (w_con s') = c_attr (w_con s) /\ c_text (w_con s') = c_text (w_con s) /\
      c_view (w_con s') = View (v_size v) (v_cur v) (v_win v)
        (fun y x => if in_fill v start n y x then (SPACE, snd (if in_fill v start n y x then (fst (v_cell v y x), default) else v_cell v y x))
                    else if in_fill v start n y x then (fst (v_cell v y x), default) else v_cell v y x).
  Proof.
    intros Ha Hb v. unfold clear_area, fill_attr.
    match goal with |- context[ask ?b (on_view ?g) s] => destruct (ask_view g b s Ha Hb) as (l & Hl & ->) end.
    cbn [obind]. unfold fill_char.
    match goal with |- context[ask ?b (on_view ?g) ?s] => destruct (ask_view g b s Hl Hb) as (l' & Hl' & ->) end.
    eexists. split; [reflexivity|]. split; [exact Hl'|]. repeat split.
  Qed.

  Lemma mult_bounds a b : 0 <= a <= 32767 -> 0 <= b <= 32767 -> 0 <= a * b <= 1073676289.
  Proof. intros. split; [apply Z.mul_nonneg_nonneg; lia|]. nia. Qed.

  (** Cells in reading order. *)
  Lemma before_end X cy cx y x : 0 <= cx < X -> 0 <= x < X ->
    (cy * X + cx <= y * X + x <-> cy < y \/ y = cy /\ cx <= x).
  Proof.
    intros H1 H2. split.
    - intros H. destruct (Z.lt_trichotomy cy y) as [|[->|]]; [now left|right; lia|exfalso; nia].
    - intros [H|[-> H]]; [nia|lia].
  Qed.

  Lemma to_line_end_ok s : view_ok (c_view (w_con s)) -> no_failure (c_answers (w_con s)) ->
    let v := c_view (w_con s) in
    exists s', win_clear_to_line_end default s = Ret s' tt /\ no_failure (c_answers (w_con s')) /\
      now s s' (v_cur v) (fun y x => if (y =? cY (v_cur v)) && (cX (v_cur v) <=? x) then (SPACE, default) else v_cell v y x).
  Proof.
    intros (Hx & Hy & Hcx & Hcy & _) Ha v. unfold win_clear_to_line_end.
    destruct (info_ok s Ha) as (l & Hl & ->). cbn [obind]. fold v in Hx, Hy, Hcx, Hcy |- *.
    rewrite short_ok by lia. rewrite as_dword_ok by lia.
    match goal with |- context[clear_area default ?p ?n ?s] =>
      destruct (clear_area_ok p n s Hl) as (s' & -> & Ha' & H1 & H2 & H3 & H4) end.
    { unfold in_buffer. cbn. fold v. lia. }
    exists s'. split; [reflexivity|]. split; [exact Ha'|]. cbn in H1, H2, H3, H4. fold v in H4.
    unfold now. rewrite H4. cbn. fold v. repeat split; auto.
    intros y x Hy' Hx'. unfold in_fill.
    pose proof (before_end (cX (v_size v)) (cY (v_cur v)) (cX (v_cur v)) y x Hcx Hx') as B.
    pose proof (before_end (cX (v_size v)) (cY (v_cur v)) 0 y x ltac:(lia) Hx') as B0.
    pose proof (before_end (cX (v_size v)) (cY (v_cur v) + 1) 0 y x ltac:(lia) Hx') as B1.
    destruct (Z.eqb_spec y (cY (v_cur v))) as [->|Hne]; cbn [andb].
    - destruct (Z.leb_spec (cX (v_cur v)) x) as [Hle|Hgt].
      + replace ((_ <=? _) && (_ <? _)) with true by lia. reflexivity.
      + replace ((_ <=? _) && (_ <? _)) with false by lia. reflexivity.
    - replace ((_ <=? _) && (_ <? _)) with false; [reflexivity|]. symmetry. apply andb_false_iff.
      destruct (Z.lt_ge_cases (cY (v_cur v)) y) as [Hlt|Hge]; [right|left; apply Z.leb_gt].
      + apply Z.ltb_ge. nia.
      + nia.
  Qed.

  Lemma to_screen_end_ok s : view_ok (c_view (w_con s)) -> no_failure (c_answers (w_con s)) ->
    let v := c_view (w_con s) in
    exists s', win_clear_to_screen_end default s = Ret s' tt /\ no_failure (c_answers (w_con s')) /\
      now s s' (v_cur v) (fun y x => if (cY (v_cur v) <? y) || (y =? cY (v_cur v)) && (cX (v_cur v) <=? x)
                                     then (SPACE, default) else v_cell v y x).
  Proof.
    intros (Hx & Hy & Hcx & Hcy & _) Ha v. unfold win_clear_to_screen_end.
    destruct (info_ok s Ha) as (l & Hl & ->). cbn [obind]. fold v in Hx, Hy, Hcx, Hcy |- *.
    rewrite short_ok by lia. rewrite short_ok by lia. rewrite !as_dword_ok by lia.
    pose proof (mult_bounds (cY (v_size v) - cY (v_cur v)) (cX (v_size v)) ltac:(lia) ltac:(lia)) as Hm.
    rewrite dword_ok by lia. rewrite dword_ok by lia.
    match goal with |- context[clear_area default ?p ?n ?s] =>
      destruct (clear_area_ok p n s Hl) as (s' & -> & Ha' & H1 & H2 & H3 & H4) end.
    { unfold in_buffer. cbn. fold v. lia. }
    exists s'. split; [reflexivity|]. split; [exact Ha'|]. cbn in H1, H2, H3, H4. fold v in H4.
    unfold now. rewrite H4. cbn. fold v. repeat split; auto.
    intros y x Hy' Hx'. unfold in_fill.
    pose proof (before_end (cX (v_size v)) (cY (v_cur v)) (cX (v_cur v)) y x Hcx Hx') as B.
    assert (Hend : y * cX (v_size v) + x < cY (v_cur v) * cX (v_size v) + cX (v_cur v) +
                   ((cY (v_size v) - cY (v_cur v)) * cX (v_size v) + (cX (v_size v) - cX (v_cur v)))) by nia.
    replace (((cY (v_cur v) * cX (v_size v) + cX (v_cur v) <=? y * cX (v_size v) + x) &&
       (y * cX (v_size v) + x <? cY (v_cur v) * cX (v_size v) + cX (v_cur v) +
                   ((cY (v_size v) - cY (v_cur v)) * cX (v_size v) + (cX (v_size v) - cX (v_cur v))))))
      with ((cY (v_cur v) <? y) || (y =? cY (v_cur v)) && (cX (v_cur v) <=? x)) by lia.
    destruct ((cY (v_cur v) <? y) || _); reflexivity.
  Qed.
End View.

Section Screen.
  Variables (default : N) (E : env).

  (** What [clear_screen] does, step by step. *)
  Lemma screen_all s : view_ok (c_view (w_con s)) -> no_failure (c_answers (w_con s)) ->
    let v := c_view (w_con s) in
    win_height v = cY (v_size v) ->
    exists s', win_clear_screen default s = Ret s' tt /\
      now s s' (Coord (rLeft (v_win v)) (rTop (v_win v))) (fun _ _ => (SPACE, default)).
  Proof.
    intros (Hx & Hy & Hcx & Hcy & Hl & Hr & Ht & Hb) Ha v Hh. unfold win_height in Hh. unfold win_clear_screen.
    destruct (info_ok s Ha) as (l & Hal & ->). cbn [obind]. fold v in Hx, Hy, Hcx, Hcy, Hl, Hr, Ht, Hb |- *.
    rewrite short_ok by lia. rewrite short_ok by lia. rewrite (proj2 (Z.eqb_eq _ _) Hh). rewrite !as_dword_ok by lia.
    pose proof (mult_bounds (cX (v_size v)) (cY (v_size v)) ltac:(lia) ltac:(lia)) as Hm.
    rewrite dword_ok by lia.
    match goal with |- context[clear_area default ?p ?n ?s] =>
      destruct (clear_area_ok default p n s Hal) as (s' & -> & Ha' & H1 & H2 & H3 & H4) end.
    { unfold in_buffer. cbn. fold v. lia. }
    cbn [obind]. unfold move_abs, set_cursor_position. cbn in H4. fold v in H4.
    match goal with |- context[ask ?b (on_view ?g) ?s] => destruct (ask_view g b s Ha') as (l' & Hl' & ->) end.
    { rewrite H4. unfold in_buffer. cbn. lia. }
    eexists. split; [reflexivity|]. unfold now. cbn [w_con c_view]. rewrite H4. cbn. fold v.
    cbn in H1, H2, H3. rewrite reveal_top by lia. repeat split; auto.
    intros y x Hy' Hx'. unfold in_fill. cbn [cX cY v_size].
    replace ((0 * cX (v_size v) + 0 <=? y * cX (v_size v) + x) &&
             (y * cX (v_size v) + x <? 0 * cX (v_size v) + 0 + cX (v_size v) * cY (v_size v))) with true by nia.
    reflexivity.
  Qed.

  Lemma screen_part s : view_ok (c_view (w_con s)) -> no_failure (c_answers (w_con s)) ->
    let v := c_view (w_con s) in
    win_height v < cY (v_size v) ->
    let w := lowered v in
    let dist := cY (v_cur v) + 1 - rTop w in
    exists s', win_clear_screen default s = Ret s' tt /\
      let v' := c_view (w_con s') in
      v_size v' = v_size v /\ v_win v' = w /\ v_cur v' = Coord (rLeft w) (rTop w) /\
      forall y x, 0 <= y < cY (v_size v) -> 0 <= x < cX (v_size v) ->
        v_cell v' y x =
          if (0 <? dist) && (y + dist <=? cY (v_cur v)) then v_cell v (y + dist) x
          else if (0 <? dist) && (dist <=? y) && (y <=? cY (v_cur v)) then (SPACE, 0%N)
          else v_cell v y x.
  Proof.
    intros (Hx & Hy & Hcx & Hcy & Hl & Hr & Ht & Hb) Ha v Hh w dist. unfold win_height in Hh. unfold win_clear_screen.
    destruct (info_ok s Ha) as (l & Hal & ->). cbn [obind]. fold v in Hx, Hy, Hcx, Hcy, Hl, Hr, Ht, Hb |- *.
    rewrite short_ok by lia. rewrite short_ok by lia.
    rewrite (proj2 (Z.eqb_neq (rBottom (v_win v) - rTop (v_win v) + 1) (cY (v_size v)))) by lia.
    do 4 rewrite short_ok by lia.
    unfold with_con, with_answers. cbn [w_con w_at c_view c_attr c_text c_cursor]. fold v.
    cbv zeta.
    assert (Hfin : forall l, no_failure l -> exists s',
      clear_rest v (rBottom (v_win v) - rTop (v_win v) + 1) w (Wins (w_at s) (Con (View (v_size v) (v_cur v) w (v_cell v)) (c_attr (w_con s)) (c_text (w_con s)) (c_cursor (w_con s)) l)) = Ret s' tt /\
      let v' := c_view (w_con s') in
      v_size v' = v_size v /\ v_win v' = w /\ v_cur v' = Coord (rLeft w) (rTop w) /\
      forall y x, 0 <= y < cY (v_size v) -> 0 <= x < cX (v_size v) ->
        v_cell v' y x =
          if (0 <? dist) && (y + dist <=? cY (v_cur v)) then v_cell v (y + dist) x
          else if (0 <? dist) && (dist <=? y) && (y <=? cY (v_cur v)) then (SPACE, 0%N)
          else v_cell v y x).
    { intros l' Hl'. unfold clear_rest.
      assert (Hw : rBottom w - rTop w = rBottom (v_win v) - rTop (v_win v) /\ rLeft w = rLeft (v_win v) /\ rRight w = rRight (v_win v) /\
                   0 <= rTop w /\ rBottom w < cY (v_size v)).
      { unfold w, lowered. destruct (0 <? _) eqn:Ed; cbn; lia. }
      destruct Hw as (Hwh & Hwl & Hwr & Hwt & Hwb).
      rewrite short_ok by lia. fold dist.
      destruct (Z.ltb_spec (rBottom w - cY (v_cur v)) (rBottom (v_win v) - rTop (v_win v) + 1)) as [Hc|Hc].
      - rewrite short_ok by lia. unfold scroll.
        replace (rBottom (v_win v) - rTop (v_win v) + 1 - (rBottom w - cY (v_cur v))) with dist by (unfold dist; lia).
        assert (Hd : 0 < dist) by (unfold dist; lia).
        match goal with |- context[ask ?b (on_view ?g) ?s] => destruct (ask_view g b s Hl' eq_refl) as (l1 & Hl1 & ->) end.
        cbn [obind]. unfold move_abs, set_cursor_position.
        match goal with |- context[ask ?b (on_view ?g) ?s] => destruct (ask_view g b s Hl1) as (l2 & Hl2 & ->) end.
        { unfold in_buffer. cbn. lia. }
        eexists. split; [reflexivity|]. cbn. rewrite reveal_top by lia. repeat split.
        intros y x Hy' Hx'. replace (0 <? dist) with true by lia. cbn [andb].
        unfold in_rect, in_buffer. cbn [cX cY rTop rBottom rLeft rRight v_size].
        replace (y - 0 + dist) with (y + dist) by lia. replace (x - 0 + 0) with x by lia.
        destruct (Z.leb_spec (y + dist) (cY (v_cur v))) as [H1|H1].
        + match goal with |- (if ?b then _ else _) = _ => replace b with true by lia end. reflexivity.
        + match goal with |- (if ?b then _ else _) = _ => replace b with false by lia end.
          destruct ((dist <=? y) && (y <=? cY (v_cur v))) eqn:E1.
          * match goal with |- (if ?b then _ else _) = _ => replace b with true by lia end. reflexivity.
          * match goal with |- (if ?b then _ else _) = _ => replace b with false by lia end. reflexivity.
      - assert (Hd : dist <= 0) by (unfold dist; lia).
        unfold move_abs, set_cursor_position.
        match goal with |- context[ask ?b (on_view ?g) ?s] => destruct (ask_view g b s Hl') as (l2 & Hl2 & ->) end.
        { unfold in_buffer. cbn. lia. }
        eexists. split; [reflexivity|]. cbn. rewrite reveal_top by lia. repeat split.
        intros y x Hy' Hx'. replace (0 <? dist) with false by lia. reflexivity. }
    match goal with |- context[if 0 <? ?d then _ else _] => set (down := d) end.
    destruct (Z.ltb_spec 0 down) as [Hd|Hd].
    - do 2 rewrite short_ok by lia. unfold set_window.
      assert (Hweq : Rect (rTop (v_win v) + down) (rBottom (v_win v) + down) (rLeft (v_win v)) (rRight (v_win v)) = w).
      { unfold w, lowered. fold down. destruct (Z.ltb_spec 0 down); [reflexivity|lia]. }
      rewrite Hweq.
      match goal with |- context[ask ?b (on_view ?g) ?s] => destruct (ask_view g b s Hal) as (l2 & Hl2 & ->) end.
      { rewrite <- Hweq. unfold in_buffer. cbn. lia. }
      cbn [obind w_at w_con c_view c_attr c_text c_cursor]. apply Hfin. exact Hl2.
    - assert (Hweq : v_win v = w).
      { unfold w, lowered. fold down. destruct (Z.ltb_spec 0 down); [lia|reflexivity]. }
      specialize (Hfin l Hal). rewrite <- Hweq in Hfin |- *. destruct v as [vs vc vw vcell]. exact Hfin.
  Qed.

  Lemma clear_screen_clears s : view_ok (c_view (w_con s)) -> no_failure (c_answers (w_con s)) ->
    let v := c_view (w_con s) in
    (win_height v = cY (v_size v) \/
     2 * win_height v <= cY (v_size v) /\
     forall y x, cY (v_cur v) < y < cY (v_size v) -> 0 <= x < cX (v_size v) -> blank (v_cell v y x)) ->
    exists s', win_clear_screen default s = Ret s' tt /\ cleared (c_view (w_con s')) /\
      v_size (c_view (w_con s')) = v_size v /\ win_height (c_view (w_con s')) = win_height v.
  Proof.
    intros Hok Ha v. pose proof Hok as (Hx & Hy & Hcx & Hcy & Hl & Hr & Ht & Hb). fold v in Hx, Hy, Hcx, Hcy, Hl, Hr, Ht, Hb.
    intros [Hh|[Hh Hbl]].
    - destruct (screen_all s Hok Ha Hh) as (s' & -> & N). exists s'. split; [reflexivity|].
      destruct N as (_ & _ & _ & Hs & Hw & Hc & Hcell). fold v in Hs, Hw, Hc, Hcell.
      split; [split|].
      + intros y x Hin. unfold in_window in Hin. rewrite Hw in Hin. rewrite Hcell by lia. reflexivity.
      + rewrite Hc, Hw. reflexivity.
      + unfold win_height. rewrite Hs, Hw. auto.
    - unfold win_height in Hh.
      destruct (screen_part s Hok Ha) as (s' & -> & Hs & Hw & Hc & Hcell); [fold v; unfold win_height; lia|].
      fold v in Hs, Hw, Hc, Hcell. exists s'. split; [reflexivity|].
      assert (Hnw : rBottom (lowered v) - rTop (lowered v) = rBottom (v_win v) - rTop (v_win v) /\
                    rLeft (lowered v) = rLeft (v_win v) /\ rRight (lowered v) = rRight (v_win v) /\
                    0 <= rTop (lowered v) /\ rBottom (lowered v) < cY (v_size v) /\
                    (rTop (lowered v) <= cY (v_cur v) -> rBottom (lowered v) = cY (v_size v) - 1)).
      { unfold lowered. cbv zeta. set (dn := Z.min _ _). assert (Hdn : dn = Z.min (cY (v_cur v) + 1 - rTop (v_win v)) (cY (v_size v) - (rBottom (v_win v) + 1))) by reflexivity. clearbody dn.
        destruct (Z.ltb_spec 0 dn) as [Ed|Ed]; cbn [rTop rBottom rLeft rRight]; repeat split; try lia. }
      destruct Hnw as (N1 & N2 & N3 & N4 & N5 & N6).
      split; [split|].
      + intros y x Hin. unfold in_window in Hin. rewrite Hw in Hin.
        rewrite Hcell by lia.
        destruct ((0 <? _) && (y + _ <=? _)) eqn:E1.
        { exfalso. assert (rTop (lowered v) <= cY (v_cur v)) as H1 by lia. specialize (N6 H1). lia. }
        destruct ((0 <? _) && (_ <=? y) && (y <=? _)) eqn:E2; [reflexivity|].
        apply Hbl; [|lia].
        assert (rTop (lowered v) <= cY (v_cur v) -> rBottom (lowered v) = cY (v_size v) - 1) as N6' by exact N6.
        destruct (Z.le_gt_cases (rTop (lowered v)) (cY (v_cur v))) as [H1|H1]; [|lia].
        specialize (N6' H1). lia.
      + rewrite Hc, Hw. reflexivity.
      + unfold win_height. rewrite Hs, Hw. split; [reflexivity|lia].
  Qed.

  Lemma text_below_stays s : view_ok (c_view (w_con s)) -> no_failure (c_answers (w_con s)) ->
    let v := c_view (w_con s) in
    let d := cY (v_cur v) + 1 - rTop (v_win v) in
    rTop (v_win v) <= cY (v_cur v) < rBottom (v_win v) -> d <= cY (v_size v) - (rBottom (v_win v) + 1) ->
    exists s', win_clear_screen default s = Ret s' tt /\
      let v' := c_view (w_con s') in
      rTop (v_win v') = cY (v_cur v) + 1 /\ rBottom (v_win v') = rBottom (v_win v) + d /\
      rBottom (v_win v) < rBottom (v_win v') /\
      forall y x, 0 <= y < cY (v_size v) -> 0 <= x < cX (v_size v) -> v_cell v' y x = v_cell v y x.
  Proof.
    intros Hok Ha v d H1 H2.
    pose proof Hok as (Hx0 & Hy0 & Hcx & Hcy & Hl & Hr & Ht & Hb). fold v in Hx0, Hy0, Hcx, Hcy, Hl, Hr, Ht, Hb.
    destruct (screen_part s Hok Ha) as (s' & -> & Hs & Hw & Hc & Hcell); [fold v; unfold win_height; lia|].
    fold v in Hs, Hw, Hc, Hcell. exists s'. split; [reflexivity|]. cbv zeta.
    assert (Hn : lowered v = Rect (rTop (v_win v) + d) (rBottom (v_win v) + d) (rLeft (v_win v)) (rRight (v_win v))).
    { unfold lowered. cbv zeta. replace (Z.min _ _) with d by (unfold d in *; lia).
      destruct (Z.ltb_spec 0 d); [reflexivity|unfold d in *; lia]. }
    rewrite Hw, Hn. cbn [rTop rBottom]. unfold d in *.
    repeat split; try lia. intros y x Hy Hx. rewrite Hcell by assumption. rewrite Hn. cbn [rTop].
    replace (0 <? _) with false by lia. reflexivity.
  Qed.

  Lemma small_buffer_stays s : view_ok (c_view (w_con s)) -> no_failure (c_answers (w_con s)) ->
    let v := c_view (w_con s) in
    let m := cY (v_size v) - win_height v in
    rTop (v_win v) = 0 -> cY (v_cur v) = rBottom (v_win v) -> 0 < m ->
    exists s', win_clear_screen default s = Ret s' tt /\
      let v' := c_view (w_con s') in
      2 * m < win_height v ->
      (forall y x, m <= y < win_height v - m -> rLeft (v_win v) <= x <= rRight (v_win v) -> in_window v' y x) /\
      (forall y x, m <= y < win_height v - m -> 0 <= x < cX (v_size v) -> v_cell v' y x = v_cell v y x).
  Proof.
    intros Hok Ha v m H1 H2 H3. unfold win_height in *.
    pose proof Hok as (Hx & Hy & Hcx & Hcy & Hl & Hr & Ht & Hb). fold v in Hx, Hy, Hcx, Hcy, Hl, Hr, Ht, Hb.
    destruct (screen_part s Hok Ha) as (s' & -> & Hs & Hw & Hc & Hcell); [fold v; unfold win_height; lia|].
    fold v in Hs, Hw, Hc, Hcell. exists s'. split; [reflexivity|]. cbv zeta. intros H4.
    assert (Hn : lowered v = Rect (rTop (v_win v) + m) (rBottom (v_win v) + m) (rLeft (v_win v)) (rRight (v_win v))).
    { unfold lowered. cbv zeta. replace (Z.min _ _) with m by (unfold m in *; lia).
      destruct (Z.ltb_spec 0 m); [reflexivity|unfold m in *; lia]. }
    split.
    - intros y x Hy' Hx'. unfold in_window. rewrite Hw, Hn. cbn. lia.
    - intros y x Hy' Hx'. rewrite Hcell by lia. rewrite Hn. cbn [rTop].
      replace ((0 <? _) && (y + _ <=? _)) with false by lia.
      replace ((0 <? _) && (_ <=? y) && _) with false by lia. reflexivity.
  Qed.
End Screen.

Lemma moves E n s :
  65536 <= Z.of_nat (umax E) -> view_ok (c_view (w_con s)) -> no_failure (c_answers (w_con s)) ->
  let v := c_view (w_con s) in
  let x := cX (v_cur v) in
  let y := cY (v_cur v) in
  (exists s', win_move_right n s = Ret s' tt /\
     goes_to s s' (Coord (Z.min (x + Z.of_nat n) (cX (v_size v) - 1)) y)) /\
  (exists s', win_move_down n s = Ret s' tt /\
     goes_to s s' (Coord x (Z.min (y + Z.of_nat n) (cY (v_size v) - 1)))) /\
  (Z.of_nat n <= x -> exists s', win_move_left E n s = Ret s' tt /\
     goes_to s s' (Coord (x - Z.of_nat n) y)) /\
  (Z.of_nat n <= y -> exists s', win_move_up E n s = Ret s' tt /\
     goes_to s s' (Coord x (y - Z.of_nat n))).
Proof.
  intros HE Hok Ha v x y.
  pose proof Hok as (Hx & Hy & Hcx & Hcy & _). fold v in Hx, Hy, Hcx, Hcy. fold x in Hcx. fold y in Hcy.
  assert (P : forall off px py, -32768 <= cX off <= 32767 -> -32768 <= cY off <= 32767 ->
    px = Z.min (x + cX off) (cX (v_size v) - 1) -> py = Z.min (y + cY off) (cY (v_size v) - 1) ->
    0 <= px -> 0 <= py ->
    exists s', move_rel off s = Ret s' tt /\ goes_to s s' (Coord px py)).
  { intros off px py H1 H2 -> -> H3 H4. pose proof (move_rel_ok off s Hok Ha H1 H2) as M. cbv zeta in M.
    fold v in M. fold x y in M.
    replace ((0 <=? Z.min (x + cX off) (cX (v_size v) - 1)) && (0 <=? Z.min (y + cY off) (cY (v_size v) - 1))) with true in M by lia.
    destruct M as (s' & M1 & _ & M2). eauto. }
  unfold win_move_right, win_move_down, win_move_left, win_move_up.
  split; [|split; [|split]]; [| |intros Hn|intros Hn]; apply P; cbn [cX cY];
    rewrite ?to_short_neg_ok by exact HE; unfold to_short; lia.
Qed.

Lemma moves_fail E n s :
  65536 <= Z.of_nat (umax E) -> view_ok (c_view (w_con s)) -> no_failure (c_answers (w_con s)) ->
  let v := c_view (w_con s) in
  (cX (v_cur v) < Z.of_nat n -> exists s', win_move_left E n s = Fail s' ERROR_INVALID_PARAMETER /\
     now s s' (v_cur v) (v_cell v)) /\
  (cY (v_cur v) < Z.of_nat n -> exists s', win_move_up E n s = Fail s' ERROR_INVALID_PARAMETER /\
     now s s' (v_cur v) (v_cell v)).
Proof.
  intros HE Hok Ha v.
  pose proof Hok as (Hx & Hy & Hcx & Hcy & _). fold v in Hx, Hy, Hcx, Hcy.
  split; intros Hn;
    [pose proof (move_rel_ok (Coord (to_short_neg E n) 0) s Hok Ha) as M
    |pose proof (move_rel_ok (Coord 0 (to_short_neg E n)) s Hok Ha) as M];
    cbn [cX cY] in M; rewrite to_short_neg_ok in M by exact HE;
    specialize (M ltac:(lia) ltac:(lia)); cbv zeta in M; fold v in M.
  - replace (_ && _) with false in M by lia. unfold win_move_left. rewrite to_short_neg_ok by exact HE. exact M.
  - replace (_ && _) with false in M by lia. unfold win_move_up. rewrite to_short_neg_ok by exact HE. exact M.
Qed.

Lemma erase_ok default s :
  view_ok (c_view (w_con s)) -> no_failure (c_answers (w_con s)) ->
  let v := c_view (w_con s) in
  (exists s', win_clear_to_line_end default s = Ret s' tt /\ no_failure (c_answers (w_con s')) /\
     now s s' (v_cur v) (fun y x => if (y =? cY (v_cur v)) && (cX (v_cur v) <=? x)
                                    then (SPACE, default) else v_cell v y x)) /\
  (exists s', win_clear_to_screen_end default s = Ret s' tt /\ no_failure (c_answers (w_con s')) /\
     now s s' (v_cur v) (fun y x => if (cY (v_cur v) <? y) || (y =? cY (v_cur v)) && (cX (v_cur v) <=? x)
                                    then (SPACE, default) else v_cell v y x)).
Proof. intros Hok Ha v. split; [now apply to_line_end_ok|now apply to_screen_end_ok]. Qed.
