(** Proofs about the Windows output side. *)
From Verif Require Import Base M_Geom M_Attr P_Attr M_Utf8 S_Utf8 M_Buf M_Writer S_Tty S_Writer M_WinWriter S_WinWriter.

(** ** Words *)

Lemma testbit_small w n : (w < 65536)%N -> (16 <= n)%N -> N.testbit w n = false.
Proof.
  intros Hw Hn. destruct (N.eq_dec w 0) as [->|H0]; [apply N.bits_0|].
  apply N.bits_above_log2.
  change 65536%N with (2 ^ 16)%N in Hw. apply N.log2_lt_pow2 in Hw; lia.
Qed.

Lemma small_cases n : (n < 16)%N ->
  n = 0%N \/ n = 1%N \/ n = 2%N \/ n = 3%N \/ n = 4%N \/ n = 5%N \/ n = 6%N \/ n = 7%N \/
  n = 8%N \/ n = 9%N \/ n = 10%N \/ n = 11%N \/ n = 12%N \/ n = 13%N \/ n = 14%N \/ n = 15%N.
Proof. lia. Qed.

Lemma word_bit_large d a n : (16 <= n)%N -> word_bit d a n = N.testbit d n.
Proof.
  intros H. unfold word_bit, plain_bit.
  destruct n as [|p]; [lia|].
  do 5 (try destruct p as [p|p|]); try lia; destruct (N.testbit (sty a) 2); reflexivity.
Qed.

Lemma not16_bit m n : N.testbit (not16 m) n = xorb (N.testbit m n) (n <? 16)%N.
Proof.
  unfold not16. rewrite N.lxor_spec. f_equal. change 65535%N with (N.ones 16).
  destruct (N.ltb_spec n 16) as [H|H]; [now apply N.ones_spec_low|now apply N.ones_spec_high].
Qed.

Lemma shl16_bit m k n : N.testbit (shl16 m k) n = ((k <=? n) && (n <? 16) && N.testbit m (n - k))%N.
Proof.
  unfold shl16. change 65536%N with (2 ^ 16)%N.
  destruct (N.ltb_spec n 16) as [H|H].
  - rewrite N.mod_pow2_bits_low by exact H. destruct (N.leb_spec k n) as [Hk|Hk].
    + now rewrite N.shiftl_spec_high' by exact Hk.
    + now rewrite N.shiftl_spec_low by exact Hk.
  - rewrite N.mod_pow2_bits_high by exact H. now rewrite andb_false_r.
Qed.

Lemma small_of_bits m : (forall k, (16 <= k)%N -> N.testbit m k = false) -> (m < 65536)%N.
Proof.
  intros Hm. destruct (N.lt_ge_cases m 65536) as [|H]; [assumption|exfalso].
  assert (H0 : (m <> 0)%N) by lia.
  change 65536%N with (2 ^ 16)%N in H. apply N.log2_le_pow2 in H; [|lia].
  specialize (Hm (N.log2 m) H). rewrite N.bit_log2 in Hm by exact H0. discriminate Hm.
Qed.
Lemma small_lor a b : (a < 65536)%N -> (b < 65536)%N -> (N.lor a b < 65536)%N.
Proof. intros Ha Hb. apply small_of_bits. intros k Hk. rewrite N.lor_spec, !testbit_small by assumption. reflexivity. Qed.
Lemma small_land a b : (a < 65536)%N -> (N.land a b < 65536)%N.
Proof. intros Ha. apply small_of_bits. intros k Hk. rewrite N.land_spec, testbit_small by assumption. reflexivity. Qed.
Lemma small_shl a k : (shl16 a k < 65536)%N.
Proof. unfold shl16. apply N.mod_lt. discriminate. Qed.
Lemma small_shr a k : (a < 65536)%N -> (N.shiftr a k < 65536)%N.
Proof. intros Ha. apply small_of_bits. intros n Hn. rewrite N.shiftr_spec'. apply testbit_small; [exact Ha|lia]. Qed.

Lemma word_small d a : (d < 65536)%N -> (win_word d a < 65536)%N.
Proof.
  intros Hd. unfold win_word, win_swap_colors, win_style_code.
  assert (Hf : forall c, (win_fg_code c < 65536)%N) by (intros []; reflexivity).
  assert (Hb : forall c, (win_bg_code c < 65536)%N) by (intros []; reflexivity).
  destruct (style_contains (sty a) REVERSE), (style_contains (sty a) BOLD), (fg a) as [cf|], (bg a) as [cb|];
    repeat first [exact Hd | apply Hf | apply Hb | reflexivity | apply small_lor | apply small_shl | apply small_shr | apply small_land].
Qed.

Ltac cases16 H := apply small_cases in H; repeat destruct H as [->|H]; [..|subst].
Ltac bits d :=
  repeat rewrite ?N.lor_spec, ?N.land_spec, ?not16_bit, ?shl16_bit, ?N.shiftr_spec';
  let f := fresh "f" in set (f := N.testbit d) in *; clearbody f.
Ltac fin := cbn; rewrite ?andb_true_r, ?andb_false_r, ?orb_false_r, ?orb_true_r; reflexivity.

Lemma fg_bits w c n : (n < 16)%N ->
  N.testbit (N.lor (N.land w (not16 (win_fg_code White))) (win_fg_code c)) n =
  match n with
  | 0%N => snd (rgb c) | 1%N => snd (fst (rgb c)) | 2%N => fst (fst (rgb c)) | _ => N.testbit w n
  end.
Proof. intros H. cases16 H; bits w; destruct c; fin. Qed.
Lemma bg_bits w c n : (n < 16)%N ->
  N.testbit (N.lor (N.land w (not16 (win_bg_code White))) (win_bg_code c)) n =
  match n with
  | 4%N => snd (rgb c) | 5%N => snd (fst (rgb c)) | 6%N => fst (fst (rgb c)) | _ => N.testbit w n
  end.
Proof. intros H. cases16 H; bits w; destruct c; fin. Qed.
Lemma style_bits w b n : (n < 16)%N ->
  N.testbit (N.lor w (if b : bool then N.lor 0 FOREGROUND_INTENSITY else 0%N)) n =
  match n with 3%N => N.testbit w 3 || b | _ => N.testbit w n end.
Proof. intros H. cases16 H; bits w; destruct b; fin. Qed.
Lemma swap_bits w n : (n < 16)%N ->
  N.testbit (win_swap_colors w) n =
  match n with
  | 0%N | 1%N | 2%N => N.testbit w (n + 4)
  | 4%N | 5%N | 6%N => N.testbit w (n - 4)
  | _ => N.testbit w n
  end.
Proof. intros H. unfold win_swap_colors. cases16 H; bits w; fin. Qed.

Lemma plain_bits d a n : (n < 16)%N ->
  N.testbit
    (N.lor (match bg a with
            | Some c => N.lor (N.land (match fg a with
                               | Some c => N.lor (N.land d (not16 (win_fg_code White))) (win_fg_code c)
                               | None => d end) (not16 (win_bg_code White))) (win_bg_code c)
            | None => match fg a with
                      | Some c => N.lor (N.land d (not16 (win_fg_code White))) (win_fg_code c)
                      | None => d end
            end) (win_style_code (sty a))) n = plain_bit d a n.
Proof.
  intros H. unfold win_style_code. rewrite contains_BOLD. rewrite style_bits by exact H. unfold plain_bit.
  cases16 H; (destruct (bg a) as [cb|]; [rewrite bg_bits by reflexivity|];
              (destruct (fg a) as [cf|]; [rewrite ?fg_bits by reflexivity|])); reflexivity.
Qed.

Lemma word_shows d a : (d < 65536)%N -> shows d a (win_word d a).
Proof.
  intros Hd n. destruct (N.lt_ge_cases n 16) as [Hn|Hn].
  - unfold win_word, word_bit. cbv zeta. rewrite contains_REVERSE.
    destruct (N.testbit (sty a) 2); [|now apply plain_bits].
    rewrite swap_bits by exact Hn.
    cases16 Hn; cbn [N.add N.sub Pos.add Pos.sub Pos.sub_mask Pos.succ]; apply plain_bits; reflexivity.
  - rewrite word_bit_large by exact Hn. rewrite (testbit_small d) by assumption.
    apply testbit_small; [|exact Hn]. now apply word_small.
Qed.

Lemma swap_twice w : (w < 65536)%N -> win_swap_colors (win_swap_colors w) = w.
Proof.
  intros Hw. apply N.bits_inj_iff. intros n. destruct (N.lt_ge_cases n 16) as [Hn|Hn].
  - rewrite swap_bits by exact Hn. cases16 Hn; rewrite swap_bits by reflexivity; reflexivity.
  - assert (Hs : forall m, (m < 65536)%N -> (win_swap_colors m < 65536)%N).
    { intros m Hm. unfold win_swap_colors.
      repeat first [exact Hm | apply small_lor | apply small_shl | apply small_shr | apply small_land]. }
    rewrite !testbit_small by auto. reflexivity.
Qed.

(** ** Text *)

Lemma utf16_units_decode c l : scalar c -> utf16_decode (utf16_units c ++ l) = option_map (cons c) (utf16_decode l).
Proof.
  unfold scalar, is_scalar. intros H. unfold utf16_units.
  destruct (N.ltb_spec c 0x10000) as [Hc|Hc].
  - cbn [app utf16_decode].
    replace ((0xD800 <=? c) && (c <? 0xDC00))%N with false by lia.
    replace ((0xDC00 <=? c) && (c <? 0xE000))%N with false by lia. reflexivity.
  - cbn [app utf16_decode].
    assert (Hr : (N.shiftr (c - 0x10000) 10 = (c - 0x10000) / 0x400)%N) by apply N.shiftr_div_pow2.
    assert (Hl : (N.land (c - 0x10000) 0x3FF = (c - 0x10000) mod 0x400)%N) by apply (N.land_ones _ 10).
    rewrite Hr, Hl. clear Hr Hl. set (v := (c - 0x10000)%N) in *.
    assert (Hv : (v < 0x100000)%N) by lia.
    assert (Hq : (v / 0x400 < 0x400)%N) by (apply N.div_lt_upper_bound; [discriminate|exact Hv]).
    assert (Hm : (v mod 0x400 < 0x400)%N) by (apply N.mod_lt; discriminate).
    pose proof (N.div_mod' v 0x400) as Hdm.
    set (q := (v / 0x400)%N) in *. set (r := (v mod 0x400)%N) in *.
    replace ((0xD800 <=? 0xD800 + q) && (0xD800 + q <? 0xDC00))%N with true by lia.
    replace ((0xDC00 <=? 0xDC00 + r) && (0xDC00 + r <? 0xE000))%N with true by lia.
    f_equal. f_equal. lia.
Qed.

Lemma encode_wide_decode s : Forall scalar s -> utf16_decode (encode_wide s) = Some s.
Proof.
  induction 1 as [|c s Hc Hs IH]; [reflexivity|]. cbn [encode_wide flat_map].
  rewrite utf16_units_decode by exact Hc. fold (encode_wide s). now rewrite IH.
Qed.

Section Proofs.
  Variables (draw : list N -> N -> view -> view) (default : N) (E : env).

  (** Operations that leave attributes and text alone. *)
  Definition same (s s' : wins) : Prop :=
    w_at s' = w_at s /\ c_attr (w_con s') = c_attr (w_con s) /\ c_text (w_con s') = c_text (w_con s).
  Definition quiet {A} (m : winres A) (s : wins) : Prop :=
    match m with Ret s' _ | Fail s' _ => same s s' | _ => True end.

  Lemma same_refl s : same s s.
  Proof. repeat split. Qed.
  Lemma same_trans a b c : same a b -> same b c -> same a c.
  Proof. intros (?&?&?) (?&?&?). repeat split; congruence. Qed.

  Lemma quiet_bind {A B} (m : winres A) (k : wins -> A -> winres B) s :
    quiet m s -> (forall s1 a, quiet (k s1 a) s1) -> quiet (obind m k) s.
  Proof.
    intros Hm Hk. destruct m as [s1 a|s1 e| |]; cbn in *; auto.
    specialize (Hk s1 a). destruct (k s1 a) as [s2 b|s2 e| |]; cbn in *; auto; eapply same_trans; eauto.
  Qed.
  Lemma quiet_ret {A} (a : A) s : quiet (Ret s a) s.
  Proof. apply same_refl. Qed.
  Lemma quiet_ask {A} v (f : option nat -> con -> con * A) s :
    (forall n c, c_attr (fst (f n c)) = c_attr c /\ c_text (fst (f n c)) = c_text c) ->
    quiet (ask v f s) s.
  Proof.
    intros H. unfold ask. destruct s as [a [vw at_ tx cu an]]. cbn.
    destruct an as [|[e|n] l]; [| |]; cbn.
    - destruct v; [|apply same_refl]. specialize (H None (Con vw at_ tx cu [])).
      destruct (f None _) as [c' a']. cbn in *. destruct H. repeat split; cbn; auto.
    - repeat split.
    - destruct v; [|repeat split]. specialize (H (Some n) (with_answers l (Con vw at_ tx cu (CTake n :: l)))).
      destruct (f (Some n) _) as [c' a']. cbn in *. destruct H. repeat split; cbn; auto.
  Qed.
  Lemma quiet_view v g s : quiet (ask v (on_view g) s) s.
  Proof. apply quiet_ask. intros n c. split; reflexivity. Qed.
  Lemma quiet_info s : quiet (get_info s) s.
  Proof. apply quiet_ask. intros n c. split; reflexivity. Qed.
  Lemma quiet_short {A} z (k : Z -> winres A) s : (forall z, quiet (k z) s) -> quiet (short z k) s.
  Proof. intros H. unfold short. destruct (_ && _); [apply H|exact I]. Qed.
  Lemma quiet_dword {A} z (k : Z -> winres A) s : (forall z, quiet (k z) s) -> quiet (dword z k) s.
  Proof. intros H. unfold dword. destruct (_ && _); [apply H|exact I]. Qed.
  Lemma quiet_area p n s : quiet (clear_area default p n s) s.
  Proof. apply quiet_bind; [apply quiet_view|]. intros. apply quiet_view. Qed.

  Ltac quiet_tac :=
    repeat first
      [ apply quiet_info | apply quiet_view | apply quiet_area | apply quiet_ret
      | apply quiet_bind; [|intros ? ?] | apply quiet_short; intros ? | apply quiet_dword; intros ?
      | match goal with |- quiet (if ?b then _ else _) _ => destruct b end
      | progress (unfold move_abs, set_cursor_position, scroll, set_window in *; cbv zeta) ].

  Lemma quiet_op o s : match o with
    | OClearScreen | OClearToLineEnd | OClearToScreenEnd | OMoveUp _ | OMoveDown _ | OMoveLeft _ | OMoveRight _
    | OMoveToFirstColumn | OMoveCursor _ | OSetCursorMode _ | OFlush => quiet (run_win draw default E o s) s
    | _ => True
    end.
  Proof.
    destruct o; try exact I; cbn [run_win].
    - unfold win_clear_screen, clear_rest. quiet_tac.
    - unfold win_clear_to_line_end. quiet_tac.
    - unfold win_clear_to_screen_end. quiet_tac.
    - unfold win_move_up, move_rel. quiet_tac.
    - unfold win_move_down, move_rel. quiet_tac.
    - unfold win_move_left, move_rel. quiet_tac.
    - unfold win_move_right, move_rel. quiet_tac.
    - unfold win_move_to_first_column. quiet_tac.
    - unfold win_move_cursor. quiet_tac.
    - unfold win_set_cursor_mode, set_cursor_info. apply quiet_ask. intros n c. split; reflexivity.
    - apply quiet_ret.
  Qed.

  (** Attributes *)
  Definition tracked (s : wins) : Prop := c_attr (w_con s) = win_word default (w_at s).

  Lemma update_ok s s' u : win_update_attrs default s = Ret s' u ->
    w_at s' = w_at s /\ tracked s' /\ c_text (w_con s') = c_text (w_con s).
  Proof.
    unfold win_update_attrs, set_console_attr, ask, tracked. destruct s as [a [v at_ tx cu an]]. cbn.
    destruct an as [|[e|n] l]; cbn; intros H; try discriminate H; injection H as <- _; cbn; auto.
  Qed.

  Lemma attrs_eta a : a = Attrs (fg a) (bg a) (sty a).
  Proof. now destruct a. Qed.
  Lemma lor_minus a b : N.lor a (N.ldiff b a) = N.lor a b.
  Proof.
    apply N.bits_inj. intros n. rewrite !N.lor_spec, N.ldiff_spec.
    destruct (N.testbit a n), (N.testbit b n); reflexivity.
  Qed.
  Lemma minus_inter a b : N.ldiff a (N.land b a) = N.ldiff a b.
  Proof.
    apply N.bits_inj. intros n. rewrite !N.ldiff_spec, N.land_spec.
    destruct (N.testbit a n), (N.testbit b n); reflexivity.
  Qed.
  Lemma ocolor_eqb_eq a b : ocolor_eqb a b = true -> a = b.
  Proof. destruct a as [[]|], b as [[]|]; cbn; intros H; try discriminate H; reflexivity. Qed.

  Lemma set_attributes_ok a s s' u : tracked s -> win_set_attributes default a s = Ret s' u ->
    w_at s' = a /\ tracked s' /\ c_text (w_con s') = c_text (w_con s).
  Proof.
    intros T. unfold win_set_attributes.
    destruct (ocolor_eqb (fg (w_at s)) (fg a)) eqn:Ef; cbn [negb orb];
      [|intros H; apply update_ok in H; exact H].
    destruct (ocolor_eqb (bg (w_at s)) (bg a)) eqn:Eb; cbn [negb orb];
      [|intros H; apply update_ok in H; exact H].
    destruct (N.eqb_spec (sty (w_at s)) (sty a)) as [Es|Es]; cbn [negb];
      [|intros H; apply update_ok in H; exact H].
    intros H. injection H as <- _. apply ocolor_eqb_eq in Ef, Eb.
    repeat split; auto. rewrite (attrs_eta (w_at s)), Ef, Eb, Es. now destruct a.
  Qed.

  Lemma attr_op_ok o s s' u : attr_op o -> tracked s -> run_win draw default E o s = Ret s' u ->
    w_at s' = request (w_at s) o /\ tracked s' /\ c_text (w_con s') = c_text (w_con s).
  Proof.
    intros Ho T. destruct o; cbn in Ho; try contradiction; cbn [run_win request].
    - unfold win_set_fg. destruct (ocolor_eqb _ _) eqn:Ec.
      + intros H. injection H as <- _. apply ocolor_eqb_eq in Ec. subst. repeat split; auto. apply attrs_eta.
      + intros H. apply update_ok in H. exact H.
    - unfold win_set_bg. destruct (ocolor_eqb _ _) eqn:Ec.
      + intros H. injection H as <- _. apply ocolor_eqb_eq in Ec. subst. repeat split; auto. apply attrs_eta.
      + intros H. apply update_ok in H. exact H.
    - unfold win_add_style, style_is_empty, style_minus, style_union. destruct (N.eqb_spec (N.ldiff s0 (sty (w_at s))) 0) as [Ec|Ec].
      + intros H. injection H as <- _. rewrite <- lor_minus, Ec, N.lor_0_r. repeat split; auto. apply attrs_eta.
      + intros H. apply update_ok in H. cbn in H. rewrite lor_minus in H. exact H.
    - unfold win_remove_style, style_is_empty, style_minus, style_inter. destruct (N.eqb_spec (N.land s0 (sty (w_at s))) 0) as [Ec|Ec].
      + intros H. injection H as <- _. rewrite <- minus_inter, Ec, N.ldiff_0_r. repeat split; auto. apply attrs_eta.
      + intros H. apply update_ok in H. cbn in H. rewrite minus_inter in H. exact H.
    - unfold win_set_style. destruct (N.eqb_spec (sty (w_at s)) s0) as [Ec|Ec].
      + intros H. injection H as <- _. subst. repeat split; auto. apply attrs_eta.
      + intros H. apply update_ok in H. exact H.
    - apply set_attributes_ok. exact T.
    - apply set_attributes_ok. exact T.
  Qed.

  (** Writing *)
  Definition sent (s s' : wins) (l : list N) : Prop :=
    w_at s' = w_at s /\ c_attr (w_con s') = c_attr (w_con s) /\
    received s s' (map (fun u => (u, c_attr (w_con s))) l).

  Lemma write_console_ok units s :
    match write_console draw units s with
    | Ret s' k => k <= length units /\ sent s s' (firstn k units) /\
                  (c_answers (w_con s) = [] -> k = length units) /\
                  length (c_answers (w_con s')) = length (c_answers (w_con s)) - 1
    | Fail s' e => sent s s' []
    | _ => False
    end.
  Proof.
    unfold write_console, ask, sent, received. destruct s as [a [v at_ tx cu an]]. cbn.
    destruct an as [|[e|n] l]; cbn.
    - repeat split; auto.
    - rewrite app_nil_r. auto.
    - repeat split; auto; try lia. intros H; discriminate H.
  Qed.

  Lemma sent_app s s1 s2 l1 l2 : sent s s1 l1 -> sent s1 s2 l2 -> sent s s2 (l1 ++ l2).
  Proof.
    intros (A1 & B1 & T1) (A2 & B2 & T2). unfold sent, received in *.
    rewrite T2, T1, A2, A1, B2, B1, map_app, app_assoc. auto.
  Qed.
  Lemma sent_nil s : sent s s [].
  Proof. unfold sent, received. rewrite app_nil_r. auto. Qed.

  Lemma write_loop_ok rounds buf : forall n s,
    n <= length buf -> length (c_answers (w_con s)) + (length buf - n) <= rounds ->
    match write_loop draw rounds buf n s with
    | Ret s' _ => sent s s' (skipn n buf)
    | Fail s' e => exists k, sent s s' (firstn k (skipn n buf))
    | _ => False
    end.
  Proof.
    induction rounds as [|rounds IH]; intros n s Hn Hr; cbn [write_loop].
    - destruct (Nat.ltb_spec n (length buf)); [lia|]. rewrite skipn_all2 by lia. apply sent_nil.
    - destruct (Nat.ltb_spec n (length buf)) as [Hlt|Hge]; [|rewrite skipn_all2 by lia; apply sent_nil].
      set (len := N.to_nat (to_dword (length buf - n))).
      assert (Hlen : 1 <= len <= length buf - n) by (unfold len, to_dword, DWORD_MAX; lia).
      clearbody len.
      pose proof (write_console_ok (firstn len (skipn n buf)) s) as Hw.
      destruct (write_console draw (firstn len (skipn n buf)) s) as [s1 k|s1 e| |]; [| |exact Hw|exact Hw]; cbn [obind].
      + destruct Hw as (Hk & Hs & Hfull & Hans).
        rewrite firstn_length, skipn_length in Hk, Hfull.
        rewrite firstn_firstn in Hs. rewrite Nat.min_l in Hs by lia.
        assert (Hm : length (c_answers (w_con s1)) + (length buf - (n + k)) <= rounds).
        { destruct (c_answers (w_con s)) as [|x l] eqn:Ea; cbn [length] in *; [specialize (Hfull eq_refl)|]; lia. }
        specialize (IH (n + k) s1 ltac:(lia) Hm).
        replace (skipn (n + k) buf) with (skipn k (skipn n buf)) in IH by (clear; revert buf; induction n as [|n IHn]; intros [|x buf]; cbn; rewrite ?skipn_nil; auto).
        destruct (write_loop draw rounds buf (n + k) s1) as [s2 u|s2 e| |]; auto.
        * rewrite <- (firstn_skipn k (skipn n buf)). eapply sent_app; eauto.
        * destruct IH as [j IH]. exists (k + j).
          replace (firstn (k + j) (skipn n buf)) with (firstn k (skipn n buf) ++ firstn j (skipn k (skipn n buf))).
          { eapply sent_app; eauto. }
          generalize (skipn n buf). intros l. clear. revert l. induction k as [|k IH]; intros l; [reflexivity|].
          destruct l as [|x l]; cbn [firstn skipn app Nat.add]; [now rewrite ?firstn_nil|]. f_equal. apply IH.
      + exists 0. exact Hw.
  Qed.

  Lemma write_str_ok str s :
    match win_write_str draw str s with
    | Ret s' _ => sent s s' (encode_wide str)
    | Fail s' e => exists k, sent s s' (firstn k (encode_wide str))
    | _ => False
    end.
  Proof.
    unfold win_write_str. pose proof (write_loop_ok (length (c_answers (w_con s)) + length (encode_wide str) + 1)
      (encode_wide str) 0 s ltac:(lia) ltac:(lia)) as H. cbn [skipn] in H. exact H.
  Qed.

  (** Everything: attributes and text *)
  Definition text_words (ta : list (N * attrs)) : list (N * N) :=
    flat_map (fun ca => map (fun u => (u, win_word default (snd ca))) (utf16_units (fst ca))) ta.

  Lemma text_words_str a l : text_words (map (fun c => (c, a)) l) =
    map (fun u => (u, win_word default a)) (encode_wide l).
  Proof.
    induction l as [|c l IH]; [reflexivity|]. unfold encode_wide in *. cbn. rewrite map_app. f_equal. exact IH.
  Qed.

  Lemma op_ok o s s' u : tracked s -> run_win draw default E o s = Ret s' u ->
    w_at s' = request (w_at s) o /\ tracked s' /\
    c_text (w_con s') = c_text (w_con s) ++ text_words (text_of (w_at s) o).
  Proof.
    intros T H.
    assert (D : attr_op o \/ ~ attr_op o) by (destruct o; cbn; auto).
    destruct D as [D|D].
    { destruct (attr_op_ok o s s' u D T H) as (H1 & H2 & H3). split; [exact H1|]. split; [exact H2|].
      rewrite H3. destruct o; cbn in D; try contradiction; cbn; now rewrite app_nil_r. }
    pose proof (quiet_op o s) as Q.
    destruct o; cbn in D; try (exfalso; apply D; exact I);
      try (rewrite H in Q; destruct Q as (Q1 & Q2 & Q3); cbn [request text_of text_words flat_map];
           rewrite Q3, app_nil_r; unfold tracked in *; rewrite Q2, Q1; auto).
    - pose proof (write_str_ok [c] s) as W. cbn [run_win] in H. unfold win_write_char in H. rewrite H in W.
      destruct W as (W1 & W2 & W3). cbn [request text_of]. unfold tracked in *. rewrite W1, W2. split; [auto|].
      split; [exact T|]. rewrite W3, T. f_equal. symmetry. apply (text_words_str _ [c]).
    - pose proof (write_str_ok s0 s) as W. cbn [run_win] in H. rewrite H in W.
      destruct W as (W1 & W2 & W3). cbn [request text_of]. unfold tracked in *. rewrite W1, W2. split; [auto|].
      split; [exact T|]. rewrite W3, T. f_equal. symmetry. apply text_words_str.
    - cbn [run_win] in H. unfold win_write_styled in H.
      destruct (win_set_attributes default a s) as [s1 u1|s1 e| |] eqn:H1; try discriminate H. cbn [obind] in H.
      apply set_attributes_ok in H1; [|exact T]. destruct H1 as (A1 & T1 & X1).
      pose proof (write_str_ok s0 s1) as W.
      destruct (win_write_str draw s0 s1) as [s2 u2|s2 e| |]; try discriminate H. cbn [obind] in H.
      destruct W as (W1 & W2 & W3).
      assert (T2 : tracked s2) by (unfold tracked in *; rewrite W1, W2; exact T1).
      apply set_attributes_ok in H; [|exact T2]. destruct H as (A3 & T3 & X3).
      split; [exact A3|]. split; [exact T3|]. rewrite X3, W3, X1. cbn [text_of].
      rewrite text_words_str. unfold tracked in T1. rewrite T1, A1. reflexivity.
  Qed.

  Lemma ops_ok ops : forall s s', tracked s -> run_wins draw default E ops s = Some s' ->
    w_at s' = fold_left request ops (w_at s) /\ tracked s' /\
    c_text (w_con s') = c_text (w_con s) ++ text_words (texts (w_at s) ops).
  Proof.
    induction ops as [|o ops IH]; intros s s' T H; cbn in *.
    - injection H as <-. rewrite app_nil_r. auto.
    - destruct (run_win draw default E o s) as [s1 u|s1 e| |] eqn:H1; try discriminate H.
      destruct (op_ok _ _ _ _ T H1) as (A & T1 & X). destruct (IH _ _ T1 H) as (A2 & T2 & X2).
      rewrite A in A2, X2. split; [exact A2|]. split; [exact T2|].
      rewrite X2, X, <- app_assoc. unfold text_words. now rewrite flat_map_app.
  Qed.

  Lemma text_words_typed ta : (default < 65536)%N -> Forall (fun ca => scalar (fst ca)) ta -> typed default ta (text_words ta).
  Proof.
    intros Hd H. exists (map (fun ca => map (fun u => (u, win_word default (snd ca))) (utf16_units (fst ca))) ta).
    split; [apply flat_map_concat_map|].
    induction H as [|[c a] ta Hc H IH]; constructor; [|exact IH]. cbn. split.
    - rewrite map_map. cbn. rewrite map_id. rewrite <- (app_nil_r (utf16_units c)).
      rewrite utf16_units_decode by exact Hc. reflexivity.
    - apply Forall_forall. intros x Hx. apply in_map_iff in Hx. destruct Hx as (u & <- & _). now apply word_shows.
  Qed.

  Lemma texts_scalar ops : Forall op_scalar ops -> forall a, Forall (fun ca => scalar (fst ca)) (texts a ops).
  Proof.
    induction 1 as [|o ops Ho H IH]; intros a; [constructor|]. cbn. apply Forall_app. split; [|apply IH].
    destruct o; cbn in *; try constructor; auto;
      apply Forall_forall; intros x Hx; apply in_map_iff in Hx; destruct Hx as (c & <- & Hc); cbn;
      rewrite Forall_forall in Ho; now apply Ho.
  Qed.

  Lemma console_follows ops s s' :
    (default < 65536)%N -> Forall op_scalar ops -> shows default (w_at s) (c_attr (w_con s)) ->
    run_wins draw default E ops s = Some s' ->
    shows default (fold_left request ops (w_at s)) (c_attr (w_con s')) /\
    exists l, received s s' l /\ typed default (texts (w_at s) ops) l.
  Proof.
    intros Hd Ho Hs H.
    assert (T : tracked s).
    { unfold tracked. apply N.bits_inj_iff. intros n. rewrite Hs. symmetry. now apply word_shows. }
    destruct (ops_ok _ _ _ T H) as (A & T' & X). split.
    - unfold tracked in T'. rewrite T', A. now apply word_shows.
    - eexists. split; [exact X|]. apply text_words_typed; [exact Hd|]. now apply texts_scalar.
  Qed.

  Lemma write_str_units str s : Forall scalar str ->
    exists units, utf16_decode units = Some str /\
    match win_write_str draw str s with
    | Ret s' _ => received s s' (map (fun u => (u, c_attr (w_con s))) units)
    | Fail s' _ => exists k, received s s' (map (fun u => (u, c_attr (w_con s))) (firstn k units))
    | _ => False
    end.
  Proof.
    intros H. exists (encode_wide str). split; [now apply encode_wide_decode|].
    pose proof (write_str_ok str s) as W. destruct (win_write_str draw str s) as [s' u|s' e| |]; auto.
    - apply W.
    - destruct W as [k W]. exists k. apply W.
  Qed.

  (** A failing change of attributes is forgotten. *)
  Lemma failed_change o s e l : attr_op o -> c_answers (w_con s) = CFail e :: l ->
    request (w_at s) o <> w_at s ->
    exists s', run_win draw default E o s = Fail s' e /\
      c_attr (w_con s') = c_attr (w_con s) /\ w_at s' = request (w_at s) o /\
      run_win draw default E o s' = Ret s' tt.
  Proof.
    intros Ho Ha Hr.
    assert (U : forall a, win_update_attrs default (with_at a s) =
                Fail (Wins a (with_answers l (w_con s))) e).
    { intros a. unfold win_update_attrs, set_console_attr, ask, with_at. cbn. rewrite Ha. reflexivity. }
    assert (OC : forall c, ocolor_eqb c c = true) by (intros [[]|]; reflexivity).
    exists (Wins (request (w_at s) o) (with_answers l (w_con s))).
    destruct o; cbn in Ho; try contradiction; cbn [run_win request] in *.
    - unfold win_set_fg. destruct (ocolor_eqb (fg (w_at s)) c) eqn:Ec.
      + exfalso. apply Hr. apply ocolor_eqb_eq in Ec. subst. symmetry. apply attrs_eta.
      + rewrite U. cbn. rewrite OC. auto.
    - unfold win_set_bg. destruct (ocolor_eqb (bg (w_at s)) c) eqn:Ec.
      + exfalso. apply Hr. apply ocolor_eqb_eq in Ec. subst. symmetry. apply attrs_eta.
      + rewrite U. cbn. rewrite OC. auto.
    - unfold win_add_style, style_is_empty, style_minus, style_union.
      destruct (N.eqb_spec (N.ldiff s0 (sty (w_at s))) 0) as [Ec|Ec].
      + exfalso. apply Hr. rewrite <- lor_minus, Ec, N.lor_0_r. symmetry. apply attrs_eta.
      + rewrite U, lor_minus. cbn [w_at sty].
        replace (N.ldiff s0 (N.lor (sty (w_at s)) s0)) with 0%N; [repeat split; reflexivity|].
        symmetry. apply N.bits_inj_iff. intros n. rewrite N.ldiff_spec, N.lor_spec, N.bits_0.
        destruct (N.testbit s0 n), (N.testbit (sty (w_at s)) n); reflexivity.
    - unfold win_remove_style, style_is_empty, style_minus, style_inter.
      destruct (N.eqb_spec (N.land s0 (sty (w_at s))) 0) as [Ec|Ec].
      + exfalso. apply Hr. rewrite <- minus_inter, Ec, N.ldiff_0_r. symmetry. apply attrs_eta.
      + rewrite U, minus_inter. cbn [w_at sty].
        replace (N.land s0 (N.ldiff (sty (w_at s)) s0)) with 0%N; [repeat split; reflexivity|].
        symmetry. apply N.bits_inj_iff. intros n. rewrite N.land_spec, N.ldiff_spec, N.bits_0.
        destruct (N.testbit s0 n), (N.testbit (sty (w_at s)) n); reflexivity.
    - unfold win_set_style. destruct (N.eqb_spec (sty (w_at s)) s0) as [Ec|Ec].
      + exfalso. apply Hr. subst. symmetry. apply attrs_eta.
      + rewrite U. cbn. rewrite N.eqb_refl. auto.
    - unfold win_set_attributes. destruct (negb _ || _ || _) eqn:Ec.
      + rewrite U. cbn [w_at]. rewrite !OC, N.eqb_refl. auto.
      + exfalso. apply Hr. apply orb_false_iff in Ec as [Ec E3]. apply orb_false_iff in Ec as [E1 E2].
        apply negb_false_iff in E1, E2, E3. apply ocolor_eqb_eq in E1, E2. apply N.eqb_eq in E3.
        rewrite (attrs_eta (w_at s)), E1, E2, E3. now destruct a.
    - unfold win_clear_attributes, win_set_attributes. destruct (negb _ || _ || _) eqn:Ec.
      + rewrite U. auto.
      + exfalso. apply Hr. apply orb_false_iff in Ec as [Ec E3]. apply orb_false_iff in Ec as [E1 E2].
        apply negb_false_iff in E1, E2, E3. apply ocolor_eqb_eq in E1, E2. apply N.eqb_eq in E3.
        rewrite (attrs_eta (w_at s)), E1, E2, E3. reflexivity.
  Qed.
End Proofs.
