(** Where refreshing a Windows screen does not show its buffer (C79). *)
From Verif Require Import Base M_Utf8 S_Utf8 M_Geom S_Geom M_Attr M_Signal M_Util M_Input M_Buf S_Buf M_Writer M_Prepare M_Reader
  M_WinWriter M_WinReader S_WinReader M_WinScreen S_WinScreen P_Buf2 P_Buf3 P_WinScreen P_WinDraw.
From Verif Require S_WinWriter S_Screen P_Screen P_Screen2 P_WinWriter.

Lemma demo_places : places demo_draw demo_shown.
Proof.
  split.
  - reflexivity.
  - reflexivity.
  - intros l1 l2 a v. apply fold_left_app.
  - intros t g a v Ht Hv. unfold demo_shown in Ht. destruct t as [|u [|u2 t]]; try discriminate Ht.
    destruct (u <? 65536)%N eqn:Eu; [|discriminate Ht]. injection Ht as <-.
    unfold encode_wide. cbn [flat_map]. unfold utf16_units. rewrite Eu. cbn [app demo_draw fold_left]. cbv zeta.
    unfold S_WinWriter.view_ok in *. cbn [v_size v_cur v_win v_cell].
    destruct (Z.ltb_spec (cX (v_cur v) + 1) (cX (v_size v))); cbn [cX cY]; repeat split; auto; lia.
Qed.

(** ** Attributes in force when the screen is made *)

Section Attrs.
  Variables (draw : list N -> N -> view -> view) (E : env).
  Hypothesis HE : env_ok E.

  Lemma next_none b lo hi : forall fuel r, buffer b = back b -> next_cell_aux E fuel b lo hi = Val r ->
    exists lo', r = (b, lo', None).
  Proof.
    intros fuel r Hb. revert lo r. induction fuel as [|fuel IH]; intros lo r H; cbn [next_cell_aux] in H.
    - injection H as <-. eauto.
    - destruct (hi <=? lo); [injection H as <-; eauto|].
      rewrite Hb in H at 1. destruct (nth_error (back b) lo) as [c|]; [|discriminate H].
      destruct (first_char c) as [ch|]; [|discriminate H].
      replace (cell_eqb c c) with true in H by (symmetry; now apply P_Screen.cell_eqb_eq).
      destruct (_ && _); now apply IH in H.
  Qed.

  Lemma new_attrs cfg t t1 s s' u : (32767 <= Z.of_nat (umax E))%Z ->
    displayed t -> S_WinWriter.view_ok (c_view (w_con (t_w t))) ->
    win_screen_new E cfg t = Ret t1 s -> win_refresh draw E s = Ret s' u ->
    (forall y x, v_cell (sees s') y x = (SPACE, c_attr (w_con (t_w t)))) /\
    t_default (g_t s') = t_default t /\ buffer (g_sb s') = repeat blank (total (bsize (g_sb s'))) /\
    0 < lines (bsize (g_sb s')) /\ 0 < columns (bsize (g_sb s')).
  Proof.
    intros HU (Hd & Hn) Hv H Hr. unfold win_screen_new in H.
    destruct (win_screen_open E cfg t) as [t2 s2|t2 e| |] eqn:Eo; try discriminate H.
    2: { destruct (win_terminal_drop t2); discriminate H. }
    injection H as <- <-. apply open_inv in Eo; [|exact Hn].
    destruct Eo as (G1 & _ & _ & G4 & G5 & G6 & _ & _ & _ & _ & G11 & G12 & _ & G14 & G15).
    unfold buf_of in G14, G15. rewrite Hd, N.eqb_refl in G14, G15. cbn [cur_buf b_attr b_view fresh_buffer] in G14, G15.
    rewrite <- G1 in *.
    set (v := c_view (w_con (t_w t))) in *. unfold S_WinWriter.view_ok in Hv.
    assert (Hz : size_of E v = Size (Z.to_nat (cY (v_size v))) (Z.to_nat (cX (v_size v)))).
    { unfold size_of, as_usize. f_equal; f_equal; apply Z.mod_small; lia. }
    rewrite Hz in *.
    assert (Hsb : total (Size (Z.to_nat (cY (v_size v))) (Z.to_nat (cX (v_size v)))) <= umax E).
    { unfold sb_new, area, checked_area in G6. unfold total. destruct (Nat.leb_spec (lines (Size (Z.to_nat (cY (v_size v))) (Z.to_nat (cX (v_size v)))) * columns (Size (Z.to_nat (cY (v_size v))) (Z.to_nat (cX (v_size v)))))  (umax E)); [assumption|discriminate G6]. }
    destruct (new_ok 1 (le_n 1) E _ HE Hsb) as (b & N1 & N2 & N3 & N4 & N5 & N6 & N7). rewrite G6 in N1. injection N1 as <-.
    change (c_view (w_con (t_w (g_t s2)))) with (sees s2) in G14.
    assert (V0 : forall y x, v_cell (sees s2) y x = (SPACE, c_attr (w_con (t_w t)))).
    { intros y x. rewrite G14. cbn [v_cell resize_view]. now destruct (in_buffer _ _). }
    unfold win_refresh in Hr. rewrite G4 in Hr. cbn [obind] in Hr.
    apply bind_ret in Hr. destruct Hr as (s3 & u3 & H3 & Hr).
    assert (K : forall s s' u, gs_clear_attributes s = Ret s' u -> sees s' = sees s /\ g_sb s' = g_sb s /\ t_default (g_t s') = t_default (g_t s)).
    { clear. intros s s' u H. apply on_inv in H. destruct H as (w & H & ->). apply set_attributes_view in H. split; [exact H|]. split; reflexivity. }
    destruct (K _ _ _ H3) as (V3 & S3 & D3).
    destruct (sb_indices E (g_sb s3)) as [[lo hi]|]; [|discriminate Hr].
    apply bind_ret in Hr. destruct Hr as (s4 & u4 & H4 & Hr).
    assert (s4 = s3).
    { destruct (hi - lo); cbn [gs_draw] in H4; unfold next_cell in H4;
        (destruct (next_cell_aux E _ (g_sb s3) lo hi) as [r|] eqn:En; [|discriminate H4]);
        (apply next_none in En; [|rewrite S3; congruence]); destruct En as (lo' & ->); injection H4 as <- _; now destruct s3. }
    subst s4. apply bind_ret in Hr. destruct Hr as (s5 & u5 & H5 & Hr). destruct (K _ _ _ H5) as (V5 & S5 & D5).
    assert (M : forall p, gs_move_cursor p s5 = Ret s' u -> v_cell (sees s') = v_cell (sees s5) /\ g_sb s' = g_sb s5 /\ t_default (g_t s') = t_default (g_t s5)).
    { clear. intros p H. unfold gs_move_cursor in H. destruct (cursor_eqb _ _); [injection H as <- _; auto|].
      apply bind_ret in H. destruct H as (s1 & u1 & H1 & H). injection H as <- _. apply on_inv in H1. destruct H1 as (w & H1 & ->).
      apply move_inv in H1. destruct H1 as (_ & _ & _ & B). split; [|split; reflexivity].
      change (v_cell (c_view (w_con w)) = v_cell (sees s5)). rewrite B. reflexivity. }
    assert (M' : exists p, gs_move_cursor p s5 = Ret s' u).
    { destruct (is_out_of_bounds _ _); [|eauto]. destruct (cursor_last _); [eauto|discriminate Hr]. }
    destruct M' as (p & M'). destruct (M p M') as (V6 & S6 & D6).
    assert (Sb : g_sb s' = g_sb s2) by congruence.
    split; [|split; [congruence|]].
    - intros y x. rewrite V6, V5, V3. apply V0.
    - rewrite Sb, N3. split; [exact N5|]. cbn [lines columns]. lia.
  Qed.

  Lemma attrs_lost shown cfg t t1 s s' u : (32767 <= Z.of_nat (umax E))%Z ->
    displayed t -> S_WinWriter.view_ok (c_view (w_con (t_w t))) ->
    ~ S_WinWriter.shows (t_default t) no_attrs (c_attr (w_con (t_w t))) ->
    win_screen_new E cfg t = Ret t1 s -> win_refresh draw E s = Ret s' u ->
    ~ shows_buffer shown (t_default (g_t s')) (sees s') (g_sb s').
  Proof.
    intros HU Hd Hv Ha H Hr (_ & Hs). destruct (new_attrs _ _ _ _ _ _ HU Hd Hv H Hr) as (V & D & B & L & C).
    destruct (Hs (Cursor 0 0) blank) as (g & w & S1 & _ & S2).
    - split; assumption.
    - unfold cell_at. rewrite B. assert (0 < total (bsize (g_sb s'))) by (unfold total; nia).
      change (cell_no (bsize (g_sb s')) (Cursor 0 0)) with 0. now destruct (total _) as [|n]; [lia|].
    - rewrite V in S1. injection S1 as _ <-. rewrite D in S2. exact (Ha S2).
  Qed.
End Attrs.

(** ** Concrete screens *)

Definition wide_env : env := demo_env (Z.to_nat 40000).
Definition some_view (cols rows top bottom : Z) (g : N) : view :=
  View (Coord cols rows) (Coord 0 0) (Rect top bottom 0 (cols - 1)) (fun _ _ => (g, 7%N)).
Definition some_term (v : view) (l : list cans) : wterm :=
  WTerm (Wins no_attrs (Con v 7 [] (25%N, true) l)) 3 5 [] 5 1 7
    (WSys (WReader false 0) 0 NO_SIGNAL 0x1f7 0 [] None [] [] []).
Definition no_screen : wscr :=
  WScr (SBuf [] [] (Size 0 0) (Cursor 0 0) no_attrs) false (Cursor 0 0) (WPState 0 false) 5 (some_term (some_view 1 1 0 0 SPACE) []).

Definition made (r : tres wscr) : wscr := match r with Ret _ s => s | _ => no_screen end.
Definition done (r : gres unit) : wscr := match r with Ret s _ | Fail s _ => s | _ => no_screen end.
Definition wrote (s : wscr) (o : buf_op) : wscr := match run_buf_op wide_env (g_sb s) o with Val b => with_gsb b s | Boom => no_screen end.
Definition is_ret {S E A} (r : out S E A) : bool := match r with Ret _ _ => true | _ => false end.
Definition is_fail {S E A} (r : out S E A) : bool := match r with Fail _ _ => true | _ => false end.
Definition is_val {A} (r : pan A) : bool := match r with Val _ => true | _ => false end.
Lemma made_ok r : is_ret r = true -> exists t, r = Ret t (made r).
Proof. destruct r; intros H; try discriminate H. eexists. reflexivity. Qed.
Lemma done_ok r : is_ret r = true -> r = Ret (done r) tt.
Proof. destruct r as [s []| | |]; intros H; try discriminate H. reflexivity. Qed.
Lemma done_fail r : is_fail r = true -> exists e, r = Fail (done r) e.
Proof. destruct r; intros H; try discriminate H. eexists. reflexivity. Qed.

Definition some_screen (v : view) (l : list cans) : wscr := made (win_screen_new wide_env default_config (some_term v l)).

Lemma wide_env_ok : env_ok wide_env.
Proof. unfold wide_env. apply demo_env_ok. Qed.
Lemma wide_env_max : (32767 <= Z.of_nat (umax wide_env))%Z.
Proof. unfold wide_env. cbn [demo_env umax]. rewrite Z2Nat.id; lia. Qed.

Definition fine (s : wscr) : Prop := one_position wide_env demo_shown (g_sb s) /\ window_fits s.
Definition ascii (b : sbuf) : bool := forallb (fun c => match ctext c with [x] => (x <? 127)%N | _ => false end) (buffer b).
Lemma ascii_one b : ascii b = true -> one_position wide_env demo_shown b.
Proof.
  unfold ascii, one_position. rewrite forallb_forall, Forall_forall. intros H c Hc. specialize (H c Hc).
  destruct (ctext c) as [|x [|y t]]; try discriminate H. unfold demo_shown. split.
  - replace (x <? 65536)%N with true by lia. intros Q; discriminate Q.
  - intros (_ & Hw). unfold wide_env in Hw. cbn [cwidth demo_env] in Hw. unfold demo_width in Hw.
    destruct (_ || _); [discriminate Hw|]. destruct (_ && _); [discriminate Hw|].
    replace ((65281 <=? x) && (x <=? 65376))%N with false in Hw by lia. discriminate Hw.
Qed.

Lemma some_history v l : S_WinWriter.view_ok v ->
  is_ret (win_screen_new wide_env default_config (some_term v l)) = true ->
  whistory demo_draw wide_env fine (some_screen v l).
Proof.
  intros Hv H. apply made_ok in H. destruct H as (t1 & H). eapply WH_new; [| | | | |exact H].
  - split; [reflexivity|]. intros [].
  - exact Hv.
  - reflexivity.
  - reflexivity.
  - reflexivity.
Qed.
Lemma write_history s o : whistory demo_draw wide_env fine s -> (forall sz, o <> BResize sz) ->
  is_val (run_buf_op wide_env (g_sb s) o) = true -> whistory demo_draw wide_env fine (wrote s o).
Proof.
  intros Hh Ho H. unfold wrote. destruct (run_buf_op wide_env (g_sb s) o) as [b|] eqn:Eb; [|discriminate H].
  eapply WH_buffer; eauto.
Qed.

(** Cell 0 of the buffer is [c], but the console shows something else there. *)
Definition differs (s : wscr) : bool :=
  match buffer (g_sb s) with
  | Cell _ t :: _ => negb (match demo_shown t with Some g => N.eqb (fst (v_cell (sees s) 0 0)) g | None => false end)
  | [] => false
  end && (0 <? lines (bsize (g_sb s))) && (0 <? columns (bsize (g_sb s))).
Lemma differs_not d s : differs s = true -> ~ shows_buffer demo_shown d (sees s) (g_sb s).
Proof.
  unfold differs. intros H (_ & Hs). destruct (buffer (g_sb s)) as [|[a t] r] eqn:Eb; [discriminate H|].
  apply andb_prop in H. destruct H as (H & H3). apply andb_prop in H. destruct H as (H1 & H2).
  destruct (Hs (Cursor 0 0) (Cell a t)) as (g & w & S1 & S2 & _).
  - split; cbn [line column]; lia.
  - unfold cell_at. rewrite Eb. reflexivity.
  - cbn [line column] in S1. change (Z.of_nat 0) with 0%Z in S1. cbn [ctext] in S2. rewrite S1, S2 in H1. cbn [fst] in H1.
    rewrite N.eqb_refl in H1. discriminate H1.
Qed.

(** *** The window is not the whole buffer *)
Definition win_v : view := some_view 1 2 1 1 120.
Definition win_1 : wscr := some_screen (some_view 1 2 0 1 SPACE) [].
Definition win_2 : wscr := done (win_update_size wide_env (Size 2 1) (seeing win_v win_1)).
Definition win_3 : wscr := done (win_refresh demo_draw wide_env win_2).

Lemma window_wrong : exists draw shown E s s' u,
  env_ok E /\ (32767 <= Z.of_nat (umax E))%Z /\ places draw shown /\
  whistory draw E (fun s => one_position E shown (g_sb s) /\ window_fits s) s /\ one_position E shown (g_sb s) /\
  win_refresh draw E s = Ret s' u /\ ~ shows_buffer shown (t_default (g_t s)) (sees s') (g_sb s').
Proof.
  exists demo_draw, demo_shown, wide_env, win_2, win_3, tt.
  split; [exact wide_env_ok|]. split; [exact wide_env_max|]. split; [exact demo_places|].
  split; [|split; [|split]].
  - apply (WH_resize demo_draw wide_env fine win_1 win_v win_2 tt).
    + apply some_history; [unfold S_WinWriter.view_ok; cbn; lia|]. vm_compute. reflexivity.
    + unfold S_WinWriter.view_ok; cbn; lia.
    + apply done_ok. vm_compute. reflexivity.
  - apply ascii_one. vm_compute. reflexivity.
  - apply done_ok. vm_compute. reflexivity.
  - apply differs_not. vm_compute. reflexivity.
Qed.

(** *** A refresh that fails *)
Definition bad_1 : wscr := wrote (some_screen (some_view 2 1 0 0 SPACE)
  (repeat (CTake 9) 7 ++ [CFail 5])) (BWriteStr [97%N]).
Definition bad_2 : wscr := done (win_refresh demo_draw wide_env bad_1).
Definition bad_3 : wscr := done (win_refresh demo_draw wide_env bad_2).
Lemma failure_wrong : exists draw shown E s s1 e s' u,
  env_ok E /\ (32767 <= Z.of_nat (umax E))%Z /\ places draw shown /\
  whistory draw E (fun s => one_position E shown (g_sb s) /\ window_fits s) s /\
  one_position E shown (g_sb s) /\ window_fits s /\
  win_refresh draw E s = Fail s1 e /\ g_clr s1 = false /\
  win_refresh draw E s1 = Ret s' u /\ ~ shows_buffer shown (t_default (g_t s)) (sees s') (g_sb s').
Proof.
  assert (H : is_fail (win_refresh demo_draw wide_env bad_1) = true) by (vm_compute; reflexivity).
  apply done_fail in H. destruct H as (e & H).
  exists demo_draw, demo_shown, wide_env, bad_1, bad_2, e, bad_3, tt.
  split; [exact wide_env_ok|]. split; [exact wide_env_max|]. split; [exact demo_places|].
  split; [|split; [|split; [|split; [|split; [|split]]]]].
  - apply write_history.
    + apply some_history; [unfold S_WinWriter.view_ok; cbn; lia|]. vm_compute. reflexivity.
    + intros sz Q; discriminate Q.
    + vm_compute. reflexivity.
  - apply ascii_one. vm_compute. reflexivity.
  - intros Q. vm_compute in Q. discriminate Q.
  - exact H.
  - vm_compute. reflexivity.
  - apply done_ok. vm_compute. reflexivity.
  - apply differs_not. vm_compute. reflexivity.
Qed.
