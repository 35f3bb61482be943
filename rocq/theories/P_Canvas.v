From Verif Require Import Base M_Utf8 S_Utf8 M_Geom S_Geom P_Geom M_Attr S_Buf M_Writer S_Tty S_Writer
  M_Screen S_Screen P_Buf P_Buf2 P_Buf3 P_Screen P_Screen2 P_Screen5 M_Api M_ScreenApi M_Buf S_Canvas.

Lemma on_canvas_spec sz p : on_canvas sz p = true <-> in_bounds p sz.
Proof. unfold on_canvas, in_bounds. lia. Qed.
Lemma on_canvas_false sz p : on_canvas sz p = false <-> ~ in_bounds p sz.
Proof. rewrite <- on_canvas_spec. destruct (on_canvas sz p); split; congruence. Qed.

Lemma same_place sz p q : in_bounds p sz -> in_bounds q sz ->
  (cell_no sz p =? cell_no sz q) = (line p =? line q) && (column p =? column q).
Proof.
  intros Hp Hq. destruct (Nat.eqb_spec (cell_no sz p) (cell_no sz q)) as [X|X].
  - apply cell_no_inj in X; [|assumption|assumption]. subst. rewrite !Nat.eqb_refl. reflexivity.
  - destruct p as [l c], q as [l' c']. cbn [line column] in *.
    destruct (Nat.eqb_spec l l') as [->|]; [|reflexivity]. destruct (Nat.eqb_spec c c') as [->|]; [|reflexivity].
    congruence.
Qed.

Section Canvas.
  Variable E : env.
  Hypothesis HE : env_ok E.

  Definition slim (b : sbuf) : Prop := Forall (fun c => narrow_text E (ctext c)) (buffer b).
  Record fits (b : sbuf) (k : canvas) : Prop := {
    f_ok : buf_ok E b;
    f_slim : slim b;
    f_cols : 1 <= columns (ksize k);
    f_holds : holds b k
  }.

  Lemma keep b o b' k k' : fits b k -> ksize k' = ksize k -> (forall sz, o <> BResize sz) -> no_wide E (op_text o) ->
    run_buf_op E b o = Val b' -> holds b' k' -> fits b' k'.
  Proof.
    intros [F1 F2 F3 F4] Hk Ho Hn Hr Hh. destruct (op_ok E HE _ _ _ F1 Ho Hr) as (G1 & _ & _).
    constructor; [assumption| |congruence|assumption]. exact (op_narrow E HE _ _ _ Ho Hn Hr F2).
  Qed.

  (** One character. *)
  Lemma type_char b k ch : fits b k -> ~ wide E ch ->
    match typed E ch k with
    | Some k' => write_char E b ch = Panic \/ exists b', write_char E b ch = Ret b' tt /\ fits b' k'
    | None => write_char E b ch = Fail b tt
    end.
  Proof.
    intros F Hn. assert (F0 := F). destruct F as [Hb Hs Hc (H1 & H2 & H3 & H4)].
    unfold screen_get_size, screen_get_cursor in *.
    assert (Hw := narrow_no_wide E b Hb Hs).
    assert (Hone : no_wide E [ch]) by (repeat constructor; exact Hn).
    assert (Hkeep : forall b' k', write_char E b ch = Ret b' tt -> ksize k' = ksize k -> holds b' k' -> fits b' k').
    { intros b' k' Hr Hk Hh. refine (keep b (BWriteChar ch) b' k k' F0 Hk _ Hone _ Hh); [discriminate|].
      cbn. now rewrite Hr. }
    destruct (char_cases E ch HE) as [->|[->|[->|[Hm|[Hp|(N1 & N2 & N3 & N4 & N5)]]]]].
    - (* tab *)
      change (typed E TAB k) with
        (if on_canvas (ksize k) (pen k) then
           let stop := Nat.min (columns (ksize k)) (8 * (column (pen k) / 8 + 1)) in
           Some (set_pen (if stop <? columns (ksize k) then Cursor (line (pen k)) stop else Cursor (line (pen k) + 1) 0)
             (set_ink (fun l c => if (l =? line (pen k)) && (column (pen k) <=? c) && (c <? stop)
                                  then ([32%N], brush k) else ink k l c) k))
         else None). cbv zeta.
      destruct (on_canvas (ksize k) (pen k)) eqn:Eo.
      + apply on_canvas_spec in Eo. rewrite <- H1, <- H2 in Eo.
        destruct (tab_layout E b HE Hb Eo) as (b' & T1 & T2 & T3 & T4 & T5 & T6 & T7 & T8).
        right. exists b'. split; [assumption|]. apply Hkeep; [assumption|reflexivity|].
        unfold tab_target in *. rewrite H1, H2 in *. rewrite H3 in T4, T7.
        unfold holds, screen_get_size, screen_get_cursor. cbn [ksize pen brush ink set_pen set_ink].
        split; [assumption|]. split; [assumption|]. split; [assumption|].
        intros p Hp. destruct p as [l c]. destruct Hp as [P1 P2]. cbn [line column] in *. destruct Eo as [E1 E2].
        set (stop := Nat.min (columns (ksize k)) (8 * (column (pen k) / 8 + 1))) in *.
        destruct (Nat.eqb_spec l (line (pen k))) as [->|X]; cbn [andb].
        * destruct (Nat.leb_spec (column (pen k)) c) as [Y|Y]; cbn [andb].
          -- destruct (Nat.ltb_spec c stop) as [Z|Z].
             ++ exact (T7 c (conj Y Z)).
             ++ rewrite T8; [|right; unfold cell_no; cbn [line column]; lia].
                rewrite Hw, andb_false_r. apply (H4 (Cursor _ c)). split; assumption.
          -- rewrite T8; [|left; unfold cell_no; cbn [line column]; lia].
             rewrite Hw, andb_false_r. apply (H4 (Cursor _ c)). split; assumption.
        * assert (Hs' : stop <= columns (ksize k)) by (unfold stop; lia).
          rewrite T8; [|unfold cell_no; cbn [line column]; nia].
          rewrite Hw, andb_false_r. apply (H4 (Cursor l c)). split; assumption.
      + apply on_canvas_false in Eo. rewrite <- H1, <- H2 in Eo. now apply tab_oob.
    - (* carriage return *)
      right. eexists. split; [reflexivity|]. apply Hkeep; [reflexivity|reflexivity|].
      unfold holds, screen_get_size, screen_get_cursor. cbn. rewrite H2. auto.
    - (* line feed *)
      change (typed E LF k) with (Some (set_pen (Cursor (line (pen k) + 1) 0) k)).
      change (write_char E b LF) with (write_nontab E b LF) in *. rewrite write_lf in *.
      destruct (_ <=? _) eqn:El; [|now left].
      right. eexists. split; [reflexivity|]. apply Hkeep; [reflexivity|reflexivity|].
      unfold holds, screen_get_size, screen_get_cursor. cbn. rewrite H2. auto.
    - (* a mark *)
      destruct Hm as (M1 & M2 & M3 & M4).
      assert (Ht : typed E ch k =
        match before (ksize k) (pen k) with
        | None => Some k
        | Some q =>
            if on_canvas (ksize k) q then
              Some (set_ink (fun l c' => if (l =? line q) && (c' =? column q)
                                         then (fst (ink k l c') ++ [ch], snd (ink k l c')) else ink k l c') k)
            else None
        end).
      { unfold typed. apply N.eqb_neq in M1, M2, M3. unfold TAB, CR, LF in *. now rewrite M1, M2, M3, M4. }
      assert (Hwr : write_char E b ch = 
        match cursor_previous (bcur b) (bsize b) with
        | Boom => Panic
        | Val None => Ret b tt
        | Val (Some prev) =>
            if try_cursor_at b prev then
              match get_cell E b prev with
              | Boom => Panic
              | Val c =>
                  match put_cell E b prev (Cell (cattrs c) (ctext c ++ [ch])) with
                  | Boom => Panic
                  | Val b => Ret b tt
                  end
              end
            else Fail b tt
        end).
      { unfold write_char, write_nontab. apply N.eqb_neq in M1, M2, M3. now rewrite M1, M2, M3, M4. }
      assert (Hpre : cursor_previous (bcur b) (bsize b) = Val (before (ksize k) (pen k))).
      { rewrite H1, H2. unfold cursor_previous, before, usub. destruct (pen k) as [l c]. cbn [line column].
        destruct c as [|c]; cbn [Nat.eqb].
        - destruct l as [|l]; cbn [Nat.eqb]; [reflexivity|].
          replace (1 <=? columns (ksize k)) with true by lia. cbn. rewrite ?Nat.sub_0_r. reflexivity.
        - cbn. rewrite ?Nat.sub_0_r. reflexivity. }
      rewrite Ht, Hwr, Hpre in *. destruct (before (ksize k) (pen k)) as [q|] eqn:Eq.
      + destruct (on_canvas (ksize k) q) eqn:Eo.
        * apply on_canvas_spec in Eo. replace (try_cursor_at b q) with true in *
            by (symmetry; apply try_cursor_at_spec; now rewrite H1).
          destruct Hb as (B1 & B2 & B3 & B4).
          destruct (get_cell_in E b q B1 B2 ltac:(now rewrite H1)) as (c & Hg & Hcn). rewrite Hg in *.
          rewrite put_cell_in in * by (try assumption; now rewrite H1). right. eexists. split; [reflexivity|].
          apply Hkeep; [reflexivity|reflexivity|]. unfold holds, screen_get_size, screen_get_cursor.
          cbn [ksize pen brush ink set_pen set_ink bsize bcur battrs with_buffer]. do 3 (split; [assumption|]).
          intros p Hp. unfold cell_at. cbn [buffer with_buffer].
          rewrite nth_upd by (rewrite B2; apply cell_no_lt; now rewrite H1). rewrite H1. rewrite same_place by assumption.
          destruct ((line p =? line q) && (column p =? column q)) eqn:Es; [|exact (H4 p Hp)].
          assert (p = q) as -> by (destruct p, q; cbn in *; f_equal; lia).
          assert (X := H4 q Eo). unfold cell_at in X. rewrite H1 in Hcn. rewrite Hcn in X. injection X as ->. reflexivity.
        * apply on_canvas_false in Eo. replace (try_cursor_at b q) with false
            by (symmetry; apply try_cursor_at_false; now rewrite H1). reflexivity.
      + right. exists b. split; [reflexivity|]. assumption.
    - (* a character *)
      assert (Hw1 : cwidth E ch = Some 1).
      { destruct (proj2 (proj2 (proj2 (proj2 Hp)))) as [X|X]; [assumption|]. exfalso. apply Hn. split; assumption. }
      assert (Ht : typed E ch k =
          if on_canvas (ksize k) (pen k) then
             Some (set_pen (if column (pen k) + 1 <? columns (ksize k) then Cursor (line (pen k)) (column (pen k) + 1)
                            else Cursor (line (pen k) + 1) 0)
               (set_ink (fun l c' => if (l =? line (pen k)) && (c' =? column (pen k)) then ([ch], brush k) else ink k l c') k))
          else None).
      { unfold typed. destruct Hp as (P1 & P2 & P3 & P4 & _). apply N.eqb_neq in P1, P2, P3. unfold TAB, CR, LF in *.
        now rewrite P1, P2, P3, P4, Hw1. }
      rewrite Ht. destruct (on_canvas (ksize k) (pen k)) eqn:Eo.
      + apply on_canvas_spec in Eo. assert (Ei : in_bounds (bcur b) (bsize b)) by (now rewrite H1, H2).
        assert (Hwn := write_narrow E b ch Hb Ei (conj Hp Hw1)). right. eexists. split; [exact Hwn|].
        apply Hkeep; [exact Hwn|reflexivity|]. unfold holds, screen_get_size, screen_get_cursor.
        cbn [ksize pen brush ink set_pen set_ink bsize bcur battrs]. split; [assumption|].
        rewrite <- cell_pos_S by assumption. unfold advance. rewrite H1, H2.
        split. { destruct (Nat.leb_spec (columns (ksize k)) (column (pen k) + 1));
                 destruct (Nat.ltb_spec (column (pen k) + 1) (columns (ksize k))); try lia; reflexivity. }
        split; [assumption|]. intros p Hpp. unfold cell_at. cbn [buffer].
        assert (Hlen : length (buffer b) = total (ksize k)) by (destruct Hb as (_ & X & _); congruence).
        assert (Hlt := cell_no_lt _ _ Eo).
        rewrite nth_upd.
        2:{ destruct (Nat.lt_ge_cases (cell_no (ksize k) (pen k)) (length (unsplit E (cell_no (ksize k) (pen k)) (buffer b)))) as [X|X]; [assumption|].
            exfalso. apply nth_error_None in X. rewrite nth_unsplit in X by lia.
            destruct (nth_error (buffer b) (cell_no (ksize k) (pen k))) eqn:Y; [destruct (_ && _) in X; discriminate X|].
            apply nth_error_None in Y. lia. }
        rewrite same_place by assumption.
        destruct ((line p =? line (pen k)) && (column p =? column (pen k))).
        * unfold new_cell. now rewrite H3.
        * rewrite nth_unsplit by lia. assert (X := H4 p Hpp). unfold cell_at in X. rewrite X.
          assert (Y := Hw (cell_no (ksize k) p)). rewrite wide_at_is_wide in Y. unfold cell_at in Y. rewrite X in Y. rewrite Y.
          rewrite andb_false_r. reflexivity.
      + apply on_canvas_false in Eo. rewrite <- H1, <- H2 in Eo. unfold write_char.
        destruct (printable_ne E ch Hp) as (-> & _ & _). now apply write_oob.
    - (* nothing *)
      assert (Ht : typed E ch k = Some k).
      { unfold typed. destruct (cwidth E ch) as [[|[|w]]|] eqn:Ew.
        2:{ exfalso. apply N5. repeat split; auto. }
        all: apply N.eqb_neq in N1, N2, N3; unfold TAB, CR, LF in *; now rewrite N1, N2, N3, N4. }
      rewrite Ht. right. exists b. split; [now apply invisible_ignored|assumption].
  Qed.

  Lemma type_text s : forall b k, fits b k -> no_wide E s ->
    let '(k', fitted) := typing E s k in
    write_str E b s = Panic \/
    exists b', write_str E b s = (if fitted : bool then Ret b' tt else Fail b' tt) /\ fits b' k'.
  Proof.
    induction s as [|c s IH]; intros b k F Hn; cbn [typing write_str].
    - right. exists b. auto.
    - inversion Hn as [|? ? Hc Hn']; subst. assert (T := type_char b k c F Hc).
      destruct (typed E c k) as [k'|].
      + destruct T as [T|(b' & T & F')]; rewrite T; [destruct (typing E s k'); now left|]. exact (IH b' k' F' Hn').
      + rewrite T. right. exists b. auto.
  Qed.

  Lemma typing_size s : forall k, ksize (fst (typing E s k)) = ksize k.
  Proof.
    induction s as [|c s IH]; intros k; cbn [typing]; [reflexivity|].
    destruct (typed E c k) as [k'|] eqn:Et; [|reflexivity]. rewrite IH.
    unfold typed in Et. repeat match type of Et with
      | (if ?x then _ else _) = _ => destruct x
      | match ?x with _ => _ end = _ => destruct x
      | _ => progress cbv zeta in Et
      end; try discriminate Et; injection Et as <-; reflexivity.
  Qed.

  Lemma pen_fits b k p : fits b k -> fits (with_cur b p) (set_pen p k).
  Proof. intros [F1 F2 F3 (H1 & H2 & H3 & H4)]. constructor; try assumption. repeat split; assumption. Qed.
  Lemma brush_fits b k a : fits b k -> fits (with_attrs b a) (set_brush a k).
  Proof. intros [F1 F2 F3 (H1 & H2 & H3 & H4)]. constructor; try assumption. repeat split; assumption. Qed.

  Lemma writing b k s b' : fits b k -> no_wide E s -> ignore_err (write_str E b s) = Val b' -> fits b' (write E s k).
  Proof.
    intros F Hn H. assert (T := type_text s b k F Hn). unfold write. destruct (typing E s k) as [k' f].
    destruct T as [T|(b2 & T & F')]; rewrite T in H; [discriminate|]. destruct f; injection H as <-; exact F'.
  Qed.
  Lemma writing_with b k a s b' : fits b k -> no_wide E s -> ignore_err (write_styled E b a s) = Val b' ->
    fits b' (write_with E a s k).
  Proof.
    intros F Hn H. assert (T := type_text s _ _ (brush_fits b k a F) Hn). unfold write_with. 
    unfold write_styled in H. destruct (typing E s (set_brush a k)) as [k' f].
    destruct T as [T|(b2 & T & F')]; rewrite T in H; [discriminate|]. destruct f; cbn in H; injection H as <-; [|exact F'].
    now apply brush_fits.
  Qed.

  Lemma method_draws b k m b' : fits b k -> no_wide E (method_text m) -> screen_method E m b = Val b' ->
    fits b' (draw E m k).
  Proof.
    intros F Hn H. assert (F0 := F). destruct F as [F1 F2 F3 (H1 & H2 & H3 & H4)]. unfold screen_get_size, screen_get_cursor in *.
    destruct m; cbn [screen_method sforward run_buf_op draw method_text] in *; unfold screen_method in H;
      cbn [sforward run_buf_op] in H; rewrite <- ?H3;
      try (injection H as <-; exact (brush_fits b k _ F0)).
    - injection H as <-. now apply pen_fits.
    - unfold sb_next_line, uadd in H. destruct (_ <=? _); [|discriminate]. injection H as <-. rewrite <- H2. now apply pen_fits.
    - injection H as <-. refine (keep b BClearScreen _ k (set_ink (fun _ _ => empty_ink) k) F0 eq_refl _ _ eq_refl _); [discriminate|constructor|].
      unfold holds, screen_get_size, screen_get_cursor, cell_at. cbn. do 3 (split; [assumption|]). intros p Hp.
      rewrite nth_error_map. destruct F1 as (_ & X & _). rewrite H1 in X. assert (Y := cell_no_lt _ _ Hp). rewrite <- X in Y.
      apply nth_error_Some in Y. destruct (nth_error (buffer b) _); [reflexivity|congruence].
    - destruct (on_canvas (ksize k) (where_ p)) eqn:Eo.
      + apply on_canvas_spec in Eo. unfold write_at in H. 
        replace (try_cursor_at b (into_cursor p)) with true in H by (symmetry; apply try_cursor_at_spec; rewrite H1; exact Eo).
        exact (writing _ _ _ _ (pen_fits _ _ _ F0) Hn H).
      + apply on_canvas_false in Eo. rewrite write_at_oob in H by (rewrite H1; exact Eo). injection H as <-. exact F0.
    - exact (writing_with _ _ _ _ _ F0 Hn H).
    - destruct (on_canvas (ksize k) (where_ p)) eqn:Eo.
      + apply on_canvas_spec in Eo. unfold write_styled_at in H. 
        replace (try_cursor_at b (into_cursor p)) with true in H by (symmetry; apply try_cursor_at_spec; rewrite H1; exact Eo).
        exact (writing_with _ _ _ _ _ (pen_fits _ _ _ F0) Hn H).
      + apply on_canvas_false in Eo. rewrite write_styled_at_oob in H by (rewrite H1; exact Eo). injection H as <-. exact F0.
    - apply (writing b k [c] b' F0 Hn). cbn [write_str]. destruct (write_char E b c) as [? []|? []| |]; exact H.
    - exact (writing _ _ _ _ F0 Hn H).
    - unfold screen_write_str in H. cbn [run_buf_op] in H. exact (writing _ _ _ _ F0 Hn H).
  Qed.

  Lemma new_fits sz b : 1 <= columns sz -> sb_new E sz = Val b -> fits b (blank_canvas sz).
  Proof.
    intros Hc H. assert (Ht : total sz <= umax E).
    { unfold sb_new, area, checked_area in H. unfold total.
      destruct (Nat.leb_spec (lines sz * columns sz) (umax E)); [assumption|discriminate]. }
    destruct (new_ok 1 (le_n 1) E sz HE Ht) as (b2 & B1 & B2 & B3 & B4 & B5 & _ & B7). rewrite H in B1. injection B1 as <-.
    constructor; [assumption| |exact Hc|].
    - unfold slim. rewrite B5. apply Forall_forall. intros c Hi. apply repeat_spec in Hi as ->. exact (space_not_wide E HE).
    - unfold holds, screen_get_size, screen_get_cursor, cell_at. cbn [ksize pen brush ink blank_canvas]. do 3 (split; [assumption|]).
      intros p Hp. rewrite B5, nth_error_repeat by (now apply cell_no_lt). reflexivity.
  Qed.

  Lemma methods_draw ms : forall b k b', fits b k -> no_wide E (concat (map method_text ms)) ->
    screen_methods E ms b = Val b' -> fits b' (draws E ms k).
  Proof.
    induction ms as [|m ms IH]; intros b k b' F Hn H; cbn [screen_methods draws] in *.
    - injection H as <-. exact F.
    - destruct (screen_method E m b) as [b1|] eqn:E1; [|discriminate]. cbn in Hn. apply Forall_app in Hn as [N1 N2].
      exact (IH _ _ _ (method_draws _ _ _ _ F N1 E1) N2 H).
  Qed.

  Lemma drawing_is_held sz b ms b' : 1 <= columns sz -> no_wide E (concat (map method_text ms)) ->
    sb_new E sz = Val b -> screen_methods E ms b = Val b' -> holds b' (draws E ms (blank_canvas sz)).
  Proof. intros Hc Hn Hb H. exact (f_holds _ _ (methods_draw ms _ _ _ (new_fits sz b Hc Hb) Hn H)). Qed.

  Lemma refit_fits b k new b' : fits b k -> screen_size new -> sb_resize E b new = Val b' -> fits b' (refit new k).
  Proof.
    intros [F1 F2 F3 (H1 & H2 & H3 & H4)] Hz H. unfold screen_get_size, screen_get_cursor in *.
    destruct (sb_resize_ok E HE _ _ _ F1 Hz H) as (R1 & R2 & _ & R4). destruct Hz as (Z1 & Z2 & _).
    destruct (resize_theorem E b new F1 ltac:(lia)) as (b2 & X0 & X1 & X2 & X3 & X4 & X5 & _).
    { destruct R1 as (R1 & _). now rewrite R2 in R1. }
    rewrite H in X0. injection X0 as <-.
    constructor; [assumption| |cbn; lia|].
    - apply (R4 (narrow_text E)); [exact (space_not_wide E HE)|exact F2].
    - unfold holds, screen_get_size, screen_get_cursor. cbn [ksize pen brush ink refit].
      do 3 (split; [congruence|]). intros p Hp.
      destruct ((line p <? lines (ksize k)) && (column p <? columns (ksize k))) eqn:Eo.
      + assert (Hi : in_bounds p (ksize k)) by (unfold in_bounds; lia).
        rewrite X4; [|assumption|now rewrite H1]. rewrite H1. exact (H4 p Hi).
      + rewrite X5; [reflexivity|assumption|]. rewrite H1. unfold in_bounds. lia.
  Qed.

  Lemma back_fits b k l : fits b k -> buf_ok E (with_back b l) -> fits (with_back b l) k.
  Proof. intros [F1 F2 F3 (H1 & H2 & H3 & H4)] Hb. constructor; try assumption. repeat split; assumption. Qed.

  Section Screen.
    Variable C : tcfg.
    Variable K : tty.
    Hypothesis HC : env_chars E.
    Hypothesis Hco : caps_coherent C.
    Hypothesis HK : implements E C K.

    Lemma method_text_op m : op_text (sforward m) = method_text m.
    Proof. destruct m; reflexivity. Qed.
    Lemma not_resize m sz : sforward m <> BResize sz.
    Proof. destruct m; discriminate. Qed.

    Lemma painted_history s t k : painted E C K s t k ->
      history E C K (single_width E) anyhow s t /\ fits (sb s) k.
    Proof.
      induction 1 as [sz w s t0 v0 Hsz Hw Hl Hs Ha H|s t k m b H [IH1 IH2] Hn Hm|s t k m s' x H [IH1 IH2] Hm Hx
        |s t k s' x H [IH1 IH2] Hr Hx|s t k s1 s2 e x H [IH1 IH2] Hc Hf Hx|s t k v new s' t' v' H [IH1 IH2] Hl Hsz Hob Hl' Hs' Ha' Hu].
      - split; [eapply H_new; eassumption|].
        unfold screen_new in H. destruct (sb_new E sz) as [b|] eqn:Eb; [|discriminate].
        assert (Hb : sb s = b).
        { assert (Hon : forall f s1 s2 u, on_writer f s1 = Ret s2 u -> sb s2 = sb s1).
          { intros f s1 s2 u Ho. apply on_writer_ret in Ho. destruct Ho as (? & _ & ->). reflexivity. }
          destruct (on_writer (enter_screen C (inr sz)) _) as [s1 u1|s1 e1| |] eqn:E1; try discriminate.
          - rewrite (Hon _ _ _ _ H). exact (Hon _ _ _ _ E1).
          - destruct (on_writer guard_drop s1); discriminate. }
        rewrite Hb. apply new_fits; [|assumption]. destruct Hsz as (_ & X & _). exact X.
      - split.
        + refine (H_buffer E C K _ _ s t (sforward m) b IH1 _ (not_resize m) Hm).
          unfold single_width. rewrite method_text_op. exact Hn.
        + exact (method_draws _ _ _ _ IH2 Hn Hm).
      - split; [eapply H_mode; eassumption|]. apply on_writer_ret in Hm. destruct Hm as (? & _ & ->). exact IH2.
      - assert (Hh : history E C K (single_width E) anyhow s' (feed K t x))
          by (eapply H_refresh; [eassumption|intros; exact I|eassumption|eassumption]).
        split; [exact Hh|].
        destruct (history_narrow E C HE HC K Hco HK s t IH1) as (v & V1 & Hi & Hh').
        destruct (no_halves_ok E C s v Hi Hh') as (A1 & A2 & A3).
        destruct (refresh_spec E C HC _ _ _ (i_frame _ _ _ _ Hi) A2 Hr) as (R1 & _).
        destruct (history_narrow E C HE HC K Hco HK s' _ Hh) as (v2 & _ & Hi2 & _).
        assert (B := f_buf _ _ (i_frame _ _ _ _ Hi2)). rewrite R1 in B |- *. now apply back_fits.
      - assert (Hh : history E C K (single_width E) anyhow s2 (feed K t x))
          by (eapply H_unflushed; [eassumption|intros; exact I|eassumption|eassumption|eassumption]).
        split; [exact Hh|].
        destruct (history_narrow E C HE HC K Hco HK s t IH1) as (v & V1 & Hi & Hh').
        destruct (no_halves_ok E C s v Hi Hh') as (A1 & A2 & A3).
        destruct (compose_spec E C HC _ _ _ (i_frame _ _ _ _ Hi) A2 Hc) as (R0 & R1 & _).
        destruct (flush_failed _ _ _ (f_whole _ _ R0) Hf) as (T2 & _).
        destruct (history_narrow E C HE HC K Hco HK s2 _ Hh) as (v2 & _ & Hi2 & _).
        assert (B := f_buf _ _ (i_frame _ _ _ _ Hi2)). rewrite T2, R1 in B |- *. now apply back_fits.
      - split; [eapply H_resize; eassumption|].
        unfold update_size in Hu. destruct (sb_resize E (sb s) new) as [b|] eqn:Eb; [|discriminate]. injection Hu as <-.
        cbn [sb]. exact (refit_fits _ _ _ _ IH2 Hsz Eb).
    Qed.

    Lemma painting_shows s t k : painted E C K s t k ->
      screen_get_size (sb s) = ksize k /\ screen_get_cursor (sb s) = pen k /\
      forall s' x, refresh E C s = Ret s' tt -> stream (wr s') = stream (wr s) ++ x ->
        obuf (wr s') = [] /\
        exists v, look K (feed K t x) = Some v /\ displays C v k /\ vcur v = pen_goal k.
    Proof.
      intros H. destruct (painted_history _ _ _ H) as [Hh [F1 F2 F3 (H1 & H2 & H3 & H4)]].
      split; [assumption|]. split; [assumption|]. intros s' x Hr Hx. unfold screen_get_size, screen_get_cursor in *.
      destruct (narrow_refresh E C K HE HC Hco HK s t s' tt x Hh Hr Hx) as (R1 & _ & _ & _ & v & V1 & V2 & _ & V3 & V4).
      split; [assumption|]. exists v. split; [assumption|]. split.
      - split; [congruence|]. intros p Hp. exact (V4 _ _ (H4 p Hp)).
      - rewrite V3. unfold cursor_goal, pen_goal, on_canvas. now rewrite H1, H2.
    Qed.
  End Screen.
End Canvas.
