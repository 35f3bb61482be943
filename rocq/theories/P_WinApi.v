(** Proofs for C99: the public output methods on Windows. *)
From Verif Require Import Base M_Utf8 S_Utf8 M_Geom M_Attr M_Buf M_Writer S_Writer M_Api M_WinWriter S_WinWriter M_WinApi S_WinApi
  P_WinView P_WinWriter.
From Verif Require P_WinDraw.
Local Open Scope Z_scope.

(** ** Answers of the console do not matter beyond failing *)

Definition clean (s : wins) : wins := with_con (with_answers [] (w_con s)) s.
Definition stable {A} (f : wins -> winres A) : Prop := forall s s' a, f s = Ret s' a -> f (clean s) = Ret (clean s') a.

Lemma stable_bind {A B} (m : wins -> winres A) (k : wins -> A -> winres B) :
  stable m -> (forall a, stable (fun s => k s a)) -> stable (fun s => obind (m s) k).
Proof.
  intros Hm Hk s s' b H. destruct (m s) as [s1 a|s1 e| |] eqn:E1; try discriminate H. cbn [obind] in H.
  rewrite (Hm _ _ _ E1). cbn [obind]. exact (Hk a _ _ _ H).
Qed.
Lemma stable_ask {A} (valid : wins -> bool) (f : option nat -> con -> con * A) :
  (forall s, valid (clean s) = valid s) ->
  (forall n m c l, fst (f n (with_answers l c)) = with_answers l (fst (f m c)) /\ snd (f n (with_answers l c)) = snd (f m c)) ->
  stable (fun s => ask (valid s) f s).
Proof.
  intros Hv Hf s s' a. unfold ask. rewrite Hv. destruct (valid s); cycle 1.
  { destruct (c_answers (w_con s)) as [|[e|n] l]; intros H; discriminate H. }
  change (c_answers (w_con (clean s))) with (@nil cans). change (w_con (clean s)) with (with_answers [] (w_con s)).
  destruct (c_answers (w_con s)) as [|[e|n] l]; intros H; [|discriminate H|].
  - destruct (Hf None None (w_con s) []) as (F1 & F2). destruct (f None (w_con s)) as [c b]. cbn [fst snd] in *.
    destruct (f None (with_answers [] (w_con s))) as [c' b']. cbn [fst snd] in *. injection H as <- <-. now rewrite F1, F2.
  - destruct (Hf None (Some n) (w_con s) []) as (F1 & F2). destruct (Hf (Some n) (Some n) (w_con s) l) as (G1 & G2).
    destruct (f (Some n) (with_answers l (w_con s))) as [c1 b1]. destruct (f (Some n) (w_con s)) as [c b].
    destruct (f None (with_answers [] (w_con s))) as [c' b']. cbn [fst snd] in *. injection H as <- <-. subst.
    reflexivity.
Qed.
Lemma stable_view valid g : (forall s, valid (clean s) = valid s) -> stable (fun s => ask (valid s) (on_view g) s).
Proof. intros H. apply stable_ask; [exact H|]. intros n m c l. split; reflexivity. Qed.
Lemma stable_info : stable get_info.
Proof. apply (stable_ask (fun _ => true)); [reflexivity|]. intros n m c l. split; reflexivity. Qed.
Lemma stable_short {A} z (k : Z -> wins -> winres A) : (forall z, stable (k z)) -> stable (fun s => short z (fun z => k z s)).
Proof. intros H s s' a. unfold short. destruct (_ && _); [apply H|intros X; discriminate X]. Qed.
Lemma stable_dword {A} z (k : Z -> wins -> winres A) : (forall z, stable (k z)) -> stable (fun s => dword z (fun z => k z s)).
Proof. intros H s s' a. unfold dword. destruct (_ && _); [apply H|intros X; discriminate X]. Qed.
Lemma stable_if {A} (b : bool) (f g : wins -> winres A) : stable f -> stable g -> stable (fun s => if b then f s else g s).
Proof. destruct b; auto. Qed.
Lemma stable_area d p n : stable (clear_area d p n).
Proof.
  apply (stable_bind (fill_attr d n p) (fun s _ => fill_char SPACE n p s)); [|intros _].
  - apply (stable_view (fun s => in_buffer (c_view (w_con s)) p)). reflexivity.
  - apply (stable_view (fun s => in_buffer (c_view (w_con s)) p)). reflexivity.
Qed.
Lemma stable_move p : stable (move_abs p).
Proof. apply (stable_view (fun s => in_buffer (c_view (w_con s)) p)). reflexivity. Qed.
Lemma stable_rest info h w : stable (clear_rest info h w).
Proof.
  unfold clear_rest. cbv zeta. apply stable_short. intros c. apply stable_if; [|apply stable_move].
  apply stable_short. intros d. apply (stable_bind _ (fun s _ => move_abs (Coord (rLeft w) (rTop w)) s)); [|intros _; apply stable_move].
  apply (stable_view (fun _ => true)). reflexivity.
Qed.
Lemma stable_clear_screen d : stable (win_clear_screen d).
Proof.
  unfold win_clear_screen. apply stable_bind; [apply stable_info|]. intros info. cbv zeta.
  apply stable_short. intros h. apply stable_short. intros h1. apply stable_if.
  - apply stable_dword. intros n. apply (stable_bind _ (fun s _ => move_abs _ s)); [apply stable_area|intros _; apply stable_move].
  - do 4 (apply stable_short; intros ?). apply stable_if; [|apply stable_rest].
    do 2 (apply stable_short; intros ?). apply (stable_bind _ (fun s _ => clear_rest _ _ _ s)); [|intros _; apply stable_rest].
    apply (stable_view (fun s => in_buffer (c_view (w_con s)) _ && in_buffer (c_view (w_con s)) _)). reflexivity.
Qed.
Lemma stable_line_end d : stable (win_clear_to_line_end d).
Proof.
  unfold win_clear_to_line_end. apply stable_bind; [apply stable_info|]. intros info. cbv zeta.
  apply stable_short. intros z. apply stable_area.
Qed.
Lemma stable_screen_end d : stable (win_clear_to_screen_end d).
Proof.
  unfold win_clear_to_screen_end. apply stable_bind; [apply stable_info|]. intros info. cbv zeta.
  do 2 (apply stable_short; intros ?). do 2 (apply stable_dword; intros ?). apply stable_area.
Qed.
Lemma stable_rel off : stable (move_rel off).
Proof.
  unfold move_rel. apply stable_bind; [apply stable_info|]. intros info.
  do 2 (apply stable_short; intros ?). apply stable_move.
Qed.
Lemma stable_first : stable win_move_to_first_column.
Proof.
  unfold win_move_to_first_column. apply stable_bind; [apply stable_info|]. intros info. apply stable_move.
Qed.

(** ** What operations leave alone *)

Definition steady {A} (m : winres A) (s : wins) : Prop :=
  match m with Ret s' _ | Fail s' _ => c_cursor (w_con s') = c_cursor (w_con s) | _ => True end.
Lemma steady_bind {A B} (m : winres A) (k : wins -> A -> winres B) s :
  steady m s -> (forall s1 a, steady (k s1 a) s1) -> steady (obind m k) s.
Proof.
  intros Hm Hk. destruct m as [s1 a|s1 e| |]; cbn in *; auto.
  specialize (Hk s1 a). destruct (k s1 a) as [s2 b|s2 e| |]; cbn in *; auto; congruence.
Qed.
Lemma steady_ret {A} (a : A) s : steady (Ret s a) s.
Proof. reflexivity. Qed.
Lemma steady_ask {A} v (f : option nat -> con -> con * A) s :
  (forall n c, c_cursor (fst (f n c)) = c_cursor c) -> steady (ask v f s) s.
Proof.
  intros H. unfold ask. destruct s as [a [vw at_ tx cu an]]. cbn.
  destruct an as [|[e|n] l]; cbn.
  - destruct v; [|reflexivity]. specialize (H None (Con vw at_ tx cu [])).
    destruct (f None _) as [c' a']. exact H.
  - reflexivity.
  - destruct v; [|reflexivity]. specialize (H (Some n) (with_answers l (Con vw at_ tx cu (CTake n :: l)))).
    destruct (f (Some n) _) as [c' a']. exact H.
Qed.
Lemma steady_view v g s : steady (ask v (on_view g) s) s.
Proof. apply steady_ask. reflexivity. Qed.
Lemma steady_info s : steady (get_info s) s.
Proof. apply steady_ask. reflexivity. Qed.
Lemma steady_short {A} z (k : Z -> winres A) s : (forall z, steady (k z) s) -> steady (short z k) s.
Proof. intros H. unfold short. destruct (_ && _); [apply H|exact I]. Qed.
Lemma steady_dword {A} z (k : Z -> winres A) s : (forall z, steady (k z) s) -> steady (dword z k) s.
Proof. intros H. unfold dword. destruct (_ && _); [apply H|exact I]. Qed.
Lemma steady_area d p n s : steady (clear_area d p n s) s.
Proof. apply steady_bind; [apply steady_view|]. intros. apply steady_view. Qed.
Lemma steady_update d s : steady (win_update_attrs d s) s.
Proof. apply steady_ask. reflexivity. Qed.
Lemma steady_attributes d a s : steady (win_set_attributes d a s) s.
Proof. unfold win_set_attributes. destruct (_ || _); [exact (steady_update d (with_at a s))|reflexivity]. Qed.
Lemma steady_loop draw rounds buf : forall n s, steady (write_loop draw rounds buf n s) s.
Proof.
  induction rounds as [|rounds IH]; intros n s; cbn [write_loop]; destruct (_ <? _)%nat; try reflexivity.
  apply steady_bind; [apply steady_ask; reflexivity|]. intros s1 k. apply IH.
Qed.
Ltac steady_tac :=
  repeat first
    [ apply steady_info | apply steady_view | apply steady_area | apply steady_ret
    | apply steady_attributes | apply steady_loop
    | apply steady_bind; [|intros ? ?] | apply steady_short; intros ? | apply steady_dword; intros ?
    | match goal with |- steady (if ?b then _ else _) _ => destruct b end
    | progress (unfold move_abs, set_cursor_position, scroll, set_window in *; cbv zeta) ].
Lemma steady_op draw d E o s : match o with OSetCursorMode _ => True | _ => steady (run_win draw d E o s) s end.
Proof.
  destruct o; try exact I; cbn [run_win].
  - unfold win_set_fg. destruct (ocolor_eqb _ _); [reflexivity|]. exact (steady_update d (with_at _ s)).
  - unfold win_set_bg. destruct (ocolor_eqb _ _); [reflexivity|]. exact (steady_update d (with_at _ s)).
  - unfold win_add_style. cbv zeta. destruct (style_is_empty _); [reflexivity|]. exact (steady_update d (with_at _ s)).
  - unfold win_remove_style. cbv zeta. destruct (style_is_empty _); [reflexivity|]. exact (steady_update d (with_at _ s)).
  - unfold win_set_style. destruct (_ =? _)%N; [reflexivity|]. exact (steady_update d (with_at _ s)).
  - apply steady_attributes.
  - apply steady_attributes.
  - unfold win_clear_screen, clear_rest. steady_tac.
  - unfold win_clear_to_line_end. steady_tac.
  - unfold win_clear_to_screen_end. steady_tac.
  - unfold win_move_up, move_rel. steady_tac.
  - unfold win_move_down, move_rel. steady_tac.
  - unfold win_move_left, move_rel. steady_tac.
  - unfold win_move_right, move_rel. steady_tac.
  - unfold win_move_to_first_column. steady_tac.
  - unfold win_move_cursor. steady_tac.
  - apply steady_loop.
  - apply steady_loop.
  - unfold win_write_styled, win_write_str, win_clear_attributes. steady_tac.
  - reflexivity.
Qed.

(** Attribute operations leave the buffer alone. *)
Lemma update_view d s s' u : win_update_attrs d s = Ret s' u -> c_view (w_con s') = c_view (w_con s).
Proof.
  unfold win_update_attrs, set_console_attr. intros H. apply P_WinDraw.ask_inv in H. destruct H as (_ & _ & n & l & H).
  injection H as H _. now rewrite <- H.
Qed.
Lemma attr_view draw d E o s s' u : attr_op o -> run_win draw d E o s = Ret s' u -> c_view (w_con s') = c_view (w_con s).
Proof.
  intros Ho. destruct o; cbn in Ho; try contradiction; cbn [run_win].
  - unfold win_set_fg. destruct (ocolor_eqb _ _); [intros H; now injection H as <- _|]. intros H. apply update_view in H. exact H.
  - unfold win_set_bg. destruct (ocolor_eqb _ _); [intros H; now injection H as <- _|]. intros H. apply update_view in H. exact H.
  - unfold win_add_style. cbv zeta. destruct (style_is_empty _); [intros H; now injection H as <- _|]. intros H. apply update_view in H. exact H.
  - unfold win_remove_style. cbv zeta. destruct (style_is_empty _); [intros H; now injection H as <- _|]. intros H. apply update_view in H. exact H.
  - unfold win_set_style. destruct (_ =? _)%N; [intros H; now injection H as <- _|]. intros H. apply update_view in H. exact H.
  - apply P_WinDraw.set_attributes_view.
  - apply P_WinDraw.set_attributes_view.
Qed.

(** ** Text *)

Section Text.
  Variable draw : list N -> N -> view -> view.
  Hypothesis HD : draws draw.

  Lemma write_loop_drawn rounds buf : forall n s s' u,
    write_loop draw rounds buf n s = Ret s' u ->
    w_at s' = w_at s /\ c_attr (w_con s') = c_attr (w_con s) /\
    c_view (w_con s') = draw (skipn n buf) (c_attr (w_con s)) (c_view (w_con s)).
  Proof.
    induction rounds as [|rounds IH]; intros n s s' u H; cbn [write_loop] in H;
      (destruct (Nat.ltb_spec n (length buf)) as [Hlt|Hge];
       [|injection H as <- _; rewrite skipn_all2 by lia; rewrite (d_nil _ HD); repeat split]).
    - discriminate H.
    - apply P_WinScreen.bind_ret in H. destruct H as (s1 & k & H1 & H).
      unfold write_console in H1. apply P_WinDraw.ask_inv in H1. destruct H1 as (_ & A1 & m & l & H1).
      set (len := N.to_nat (to_dword (length buf - n))) in *. cbv zeta in H1. injection H1 as H1 Hk.
      specialize (IH _ _ _ _ H). destruct IH as (R1 & R2 & R3).
      rewrite R1, R2, R3, A1, <- H1. cbn [c_attr c_view with_answers].
      split; [reflexivity|]. split; [reflexivity|]. rewrite <- (d_app _ HD). f_equal. rewrite Hk.
      assert (Hlen : (len <= length buf - n)%nat) by (unfold len, to_dword, DWORD_MAX; lia). clearbody len.
      assert (Hk2 : (k <= len)%nat).
      { rewrite <- Hk. destruct m; rewrite firstn_length; lia. }
      rewrite firstn_firstn, Nat.min_l by lia.
      replace (skipn (n + k) buf) with (skipn k (skipn n buf)); [apply firstn_skipn|].
      clear. revert buf. induction n as [|n IHn]; intros [|x buf]; cbn; rewrite ?skipn_nil; auto.
  Qed.
  Lemma write_drawn str s s' u : win_write_str draw str s = Ret s' u ->
    w_at s' = w_at s /\ c_attr (w_con s') = c_attr (w_con s) /\
    c_view (w_con s') = draw (encode_wide str) (c_attr (w_con s)) (c_view (w_con s)).
  Proof. unfold win_write_str. intros H. apply write_loop_drawn in H. exact H. Qed.
End Text.

(** ** The methods *)

Definition face_of (s : wins) : face := Face (c_view (w_con s)) (w_at s) (c_cursor (w_con s)).

Lemma shows_word d a w : (d < 65536)%N -> shows d a w -> w = win_word d a.
Proof. intros Hd H. apply N.bits_inj. intros n. rewrite H. symmetry. apply word_shows. exact Hd. Qed.

Lemma encode_wide_units text : Forall scalar text -> Forall (fun u => (u < 65536)%N) (encode_wide text).
Proof.
  induction 1 as [|c l Hc _ IH]; [constructor|]. unfold encode_wide. cbn [flat_map]. apply Forall_app. split; [|exact IH].
  unfold scalar, is_scalar in Hc. unfold utf16_units. destruct (N.ltb_spec c 0x10000) as [H|H]; [repeat constructor; exact H|].
  assert (Hr : (N.shiftr (c - 0x10000) 10 = (c - 0x10000) / 0x400)%N) by apply N.shiftr_div_pow2.
  assert (Hl : (N.land (c - 0x10000) 0x3FF = (c - 0x10000) mod 0x400)%N) by apply (N.land_ones _ 10).
  rewrite Hr, Hl. assert (Hv : (c - 0x10000 < 0x100000)%N) by lia.
  assert (Hq : ((c - 0x10000) / 0x400 < 0x400)%N) by (apply N.div_lt_upper_bound; [discriminate|exact Hv]).
  assert (Hm : ((c - 0x10000) mod 0x400 < 0x400)%N) by (apply N.mod_lt; discriminate).
  repeat constructor; lia.
Qed.

Lemma clear_screen_any d s : view_ok (c_view (w_con s)) -> no_failure (c_answers (w_con s)) ->
  let v := c_view (w_con s) in
  exists s', win_clear_screen d s = Ret s' tt /\
    let v' := c_view (w_con s') in
    v_size v' = v_size v /\ win_height v' = win_height v /\ v_cur v' = Coord (rLeft (v_win v')) (rTop (v_win v')).
Proof.
  intros Hok Ha v. pose proof Hok as (Hx & Hy & Hcx & Hcy & Hl & Hr & Ht & Hb). fold v in Hx, Hy, Hcx, Hcy, Hl, Hr, Ht, Hb.
  destruct (Z.eq_dec (win_height v) (cY (v_size v))) as [He|Hne].
  - destruct (screen_all d s Hok Ha He) as (s' & R & N). exists s'. split; [exact R|].
    destruct N as (_ & _ & _ & Hs & Hw & Hc & _). fold v in Hs, Hw, Hc. cbv zeta. unfold win_height. rewrite Hs, Hw, Hc. auto.
  - destruct (screen_part d s Hok Ha) as (s' & R & Hs & Hw & Hc & _); [fold v; unfold win_height in *; lia|].
    fold v in Hs, Hw, Hc. exists s'. split; [exact R|]. cbv zeta. rewrite Hs, Hw, Hc. split; [reflexivity|].
    split; [|reflexivity]. unfold win_height. rewrite Hw. unfold lowered. cbv zeta. destruct (0 <? _); cbn [rTop rBottom]; lia.
Qed.


Section Methods.
  Variables (draw : list N -> N -> view -> view) (default : N) (E : env).
  Hypothesis HD : draws draw.
  Hypothesis Hd : (default < 65536)%N.
  Hypothesis HE : 65536 <= Z.of_nat (umax E).

  Definition good (s : wins) : Prop := tracked default s /\ view_ok (c_view (w_con s)).

  Lemma rel_inv off s s' u : move_rel off s = Ret s' u -> view_ok (c_view (w_con s)) -> view_ok (c_view (w_con s')).
  Proof.
    unfold move_rel. intros H Hv. apply P_WinScreen.bind_ret in H. destruct H as (s1 & i & H1 & H).
    apply P_WinDraw.info_inv in H1. destruct H1 as (-> & _ & _ & A3).
    do 2 (apply P_WinDraw.short_inv in H; destruct H as (_ & H)).
    apply P_WinDraw.move_inv in H. destruct H as (B0 & _ & _ & B3). rewrite B3, A3. rewrite A3 in B0.
    apply reveal_ok; assumption.
  Qed.

  Lemma goes_view s s' p : goes_to (clean s) (clean s') p -> to p (c_view (w_con s)) (c_view (w_con s')).
  Proof. intros (_ & _ & _ & _ & G1 & G2 & G3 & G4). exact (conj G1 (conj G2 (conj G3 G4))). Qed.

  Lemma text_types s text : tracked default s -> Forall scalar text ->
    types_text draw default (w_at s) text (c_view (w_con s)) (draw (encode_wide text) (c_attr (w_con s)) (c_view (w_con s))).
  Proof.
    intros T Ht. exists (encode_wide text), (c_attr (w_con s)). split; [apply encode_wide_units; exact Ht|]. split; [apply encode_wide_decode; exact Ht|].
    split; [rewrite T; apply word_shows; exact Hd|reflexivity].
  Qed.

  Lemma to_string_concat pieces : to_string pieces = concat pieces.
  Proof. induction pieces as [|p ps IH]; [reflexivity|]. cbn. now rewrite IH. Qed.

  Lemma guard_effect m s s' u : good s -> scalar_text m -> win_guard_method draw default E m s = Ret s' u ->
    win_effect draw default m (face_of s) (face_of s') /\ good s'.
  Proof.
    intros (T & Hv) Hm H. unfold win_guard_method in H.
    assert (Hop := op_ok draw default E _ s s' u T H). destruct Hop as (A & T' & _).
    assert (Hst := steady_op draw default E (forward m) s).
    assert (Hattr : attr_op (forward m) -> c_view (w_con s') = c_view (w_con s))
      by (intros Ho; exact (attr_view draw default E _ s s' u Ho H)).
    assert (Hclean := Forall_nil (fun a => exists n, a = CTake n) : no_failure []).
    assert (Hmv : forall n, let v := c_view (w_con s) in let x := cX (v_cur v) in let y := cY (v_cur v) in
      (forall t v1, win_move_right n s = Ret t v1 -> to (Coord (Z.min (x + Z.of_nat n) (cX (v_size v) - 1)) y) v (c_view (w_con t))) /\
      (forall t v1, win_move_down n s = Ret t v1 -> to (Coord x (Z.min (y + Z.of_nat n) (cY (v_size v) - 1))) v (c_view (w_con t))) /\
      (forall t v1, win_move_left E n s = Ret t v1 -> Z.of_nat n <= x /\ to (Coord (x - Z.of_nat n) y) v (c_view (w_con t))) /\
      (forall t v1, win_move_up E n s = Ret t v1 -> Z.of_nat n <= y /\ to (Coord x (y - Z.of_nat n)) v (c_view (w_con t)))).
    { intros n v x y.
      destruct (moves E n (clean s) HE Hv Hclean) as (M1 & M2 & M3 & M4).
      destruct (moves_fail E n (clean s) HE Hv Hclean) as (F1 & F2).
      change (c_view (w_con (clean s))) with v in *. fold x y in M1, M2, M3, M4, F1, F2.
      refine (conj _ (conj _ (conj _ _))); intros t v1 R; apply (stable_rel _ _ _ _) in R.
      - destruct M1 as (t' & M1 & G). unfold win_move_right in M1. rewrite R in M1. injection M1 as <- _. exact (goes_view _ _ _ G).
      - destruct M2 as (t' & M2 & G). unfold win_move_down in M2. rewrite R in M2. injection M2 as <- _. exact (goes_view _ _ _ G).
      - destruct (Z.le_gt_cases (Z.of_nat n) x) as [Hn|Hn].
        + destruct (M3 Hn) as (t' & M & G). unfold win_move_left in M. rewrite R in M. injection M as <- _.
          split; [exact Hn|exact (goes_view _ _ _ G)].
        + destruct F1 as (t' & F & _); [lia|]. unfold win_move_left in F. rewrite R in F. discriminate F.
      - destruct (Z.le_gt_cases (Z.of_nat n) y) as [Hn|Hn].
        + destruct (M4 Hn) as (t' & M & G). unfold win_move_up in M. rewrite R in M. injection M as <- _.
          split; [exact Hn|exact (goes_view _ _ _ G)].
        + destruct F2 as (t' & F & _); [lia|]. unfold win_move_up in F. rewrite R in F. discriminate F. }
    unfold face_of, good, restyled.
    destruct m; cbn [forward api_add_style api_write_str] in *; rewrite ?H in Hst; cbn [steady] in Hst;
      cbn [request] in A; cbn [run_win] in H; cbn [win_effect f_view f_attrs f_cursor];
      try (rewrite (Hattr I); rewrite Hst, A; split; [reflexivity|split; [exact T'|exact Hv]]).
    - (* flush *) injection H as <- _. split; [reflexivity|split; assumption].
    - (* clear_screen *)
      pose proof (stable_clear_screen default _ _ _ H) as R.
      destruct (clear_screen_any default (clean s) Hv Hclean) as (t & R1 & C1 & C2 & C3). rewrite R in R1. injection R1 as <- _.
      change (c_view (w_con (clean s'))) with (c_view (w_con s')) in *. change (c_view (w_con (clean s))) with (c_view (w_con s)) in *.
      split.
      + split; [exact A|]. split; [exact Hst|]. split; [exact C1|]. split; [exact C2|]. split; [exact C3|]. split; [intros Hc|intros He].
        { destruct (clear_screen_clears default (clean s) Hv Hclean Hc) as (t & R1 & C4 & _). rewrite R in R1. injection R1 as <- _.
          exact C4. }
        destruct (screen_all default (clean s) Hv Hclean He) as (t & R1 & N1). rewrite R in R1. injection R1 as <- _.
        destruct N1 as (_ & _ & _ & _ & N2 & _ & N3). exact (conj N2 N3).
      + split; [exact T'|]. destruct (P_WinDraw.clear_view _ _ _ _ H Hv) as (_ & _ & K & _). exact K.
    - (* line end *)
      pose proof (stable_line_end default _ _ _ H) as R.
      destruct (to_line_end_ok default (clean s) Hv Hclean) as (t & R1 & _ & _ & _ & _ & N1 & N2 & N3 & N4).
      rewrite R in R1. injection R1 as <- _.
      change (c_view (w_con (clean s'))) with (c_view (w_con s')) in *. change (c_view (w_con (clean s))) with (c_view (w_con s)) in *.
      split; [exact (conj A (conj Hst (conj N1 (conj N3 (conj N2 N4)))))|]. split; [exact T'|].
      unfold view_ok in *. rewrite N1, N2, N3. exact Hv.
    - (* screen end *)
      pose proof (stable_screen_end default _ _ _ H) as R.
      destruct (to_screen_end_ok default (clean s) Hv Hclean) as (t & R1 & _ & _ & _ & _ & N1 & N2 & N3 & N4).
      rewrite R in R1. injection R1 as <- _.
      change (c_view (w_con (clean s'))) with (c_view (w_con s')) in *. change (c_view (w_con (clean s))) with (c_view (w_con s)) in *.
      split; [exact (conj A (conj Hst (conj N1 (conj N3 (conj N2 N4)))))|]. split; [exact T'|].
      unfold view_ok in *. rewrite N1, N2, N3. exact Hv.
    - (* up *) destruct (Hmv n) as (_ & _ & _ & K). destruct (K _ _ H) as (K1 & K2).
      split; [exact (conj K1 (conj A (conj Hst K2)))|]. split; [exact T'|exact (rel_inv _ _ _ _ H Hv)].
    - (* down *) destruct (Hmv n) as (_ & K & _ & _). specialize (K _ _ H).
      split; [exact (conj A (conj Hst K))|]. split; [exact T'|exact (rel_inv _ _ _ _ H Hv)].
    - (* left *) destruct (Hmv n) as (_ & _ & K & _). destruct (K _ _ H) as (K1 & K2).
      split; [exact (conj K1 (conj A (conj Hst K2)))|]. split; [exact T'|exact (rel_inv _ _ _ _ H Hv)].
    - (* right *) destruct (Hmv n) as (K & _). specialize (K _ _ H).
      split; [exact (conj A (conj Hst K))|]. split; [exact T'|exact (rel_inv _ _ _ _ H Hv)].
    - (* first column *)
      unfold win_move_to_first_column in H. apply P_WinScreen.bind_ret in H. destruct H as (s1 & i & H1 & H).
      apply P_WinDraw.info_inv in H1. destruct H1 as (-> & _ & _ & A3).
      apply P_WinDraw.move_inv in H. destruct H as (B0 & _ & _ & B3). rewrite A3 in B3, B0. cbv zeta in B3. rewrite B3.
      split; [|split; [exact T'|apply reveal_ok; assumption]].
      split; [exact A|]. split; [exact Hst|]. cbn [f_view].
      split; [reflexivity|]. split; [reflexivity|]. split; [reflexivity|]. apply reveal_follows. exact Hv.
    - (* cursor mode *)
      unfold win_set_cursor_mode, set_cursor_info in H. apply P_WinDraw.ask_inv in H. destruct H as (_ & _ & k & l & H).
      cbv zeta in H. injection H as H _. rewrite <- H in *. cbn [c_view c_cursor with_answers] in *. rewrite A.
      split; [|split; [exact T'|exact Hv]]. destruct m; cbn; eauto.
    - (* set_style *) destruct s0 as [s0|]; (rewrite (Hattr I); rewrite Hst, A; split; [reflexivity|split; [exact T'|exact Hv]]).
    - (* write_styled *)
      unfold win_write_styled in H. apply P_WinScreen.bind_ret in H. destruct H as (s1 & u1 & H1 & H).
      apply P_WinScreen.bind_ret in H. destruct H as (s2 & u2 & H2 & H).
      pose proof (P_WinDraw.set_attributes_view _ _ _ _ _ H1) as V1.
      destruct (set_attributes_ok default _ _ _ _ T H1) as (A1 & T1 & _).
      destruct (write_drawn draw HD _ _ _ _ H2) as (W1 & W2 & W3).
      pose proof (P_WinDraw.set_attributes_view _ _ _ _ _ H) as V3.
      pose proof (text_types s1 text T1 Hm) as X. rewrite <- W3, A1, V1 in X. rewrite V3, A, Hst.
      split; [|split; [exact T'|]].
      + exists (c_view (w_con s2)). split; [destruct s0 as [s0|]; exact X|reflexivity].
      + rewrite W3. apply (d_ok _ HD). rewrite V1. exact Hv.
    - (* write_char *)
      unfold win_write_char in H. destruct (write_drawn draw HD _ _ _ _ H) as (W1 & W2 & W3).
      split; [split; [exact A|]; split; [exact Hst|]; cbn [f_view]; rewrite W3; apply text_types; [exact T|repeat constructor; exact Hm]|].
      split; [exact T'|]. rewrite W3. apply (d_ok _ HD). exact Hv.
    - destruct (write_drawn draw HD _ _ _ _ H) as (W1 & W2 & W3).
      split; [split; [exact A|]; split; [exact Hst|]; cbn [f_view]; rewrite W3; apply text_types; [exact T|exact Hm]|].
      split; [exact T'|]. rewrite W3. apply (d_ok _ HD). exact Hv.
    - destruct (write_drawn draw HD _ _ _ _ H) as (W1 & W2 & W3). rewrite to_string_concat in W3.
      split; [split; [exact A|]; split; [exact Hst|]; cbn [f_view]; rewrite W3; apply text_types; [exact T|apply Forall_concat; exact Hm]|].
      split; [exact T'|]. rewrite W3. apply (d_ok _ HD). exact Hv.
  Qed.
End Methods.

Section Calls.
  Variables (draw : list N -> N -> view -> view) (default : N) (E : env).
  Hypothesis HD : draws draw.
  Hypothesis Hd : (default < 65536)%N.
  Hypothesis HE : 65536 <= Z.of_nat (umax E).

  (** A method of [Terminal] is that of the guard, except for moving by 0. *)
  Lemma terminal_is_guard m s : win_terminal_method draw default E m s =
    if no_move m then Ret s tt else win_guard_method draw default E m s.
  Proof.
    unfold win_terminal_method, win_guard_method. destruct m; cbn [forward api_add_style api_write_str win_terminal_op run_win no_move];
      try reflexivity; destruct (n =? 0)%nat; reflexivity.
  Qed.

  Lemma call_does c s s' u : good default s -> call_scalar c -> win_api_run1 draw default E c s = Ret s' u ->
    call_effect draw default c (face_of s) (face_of s') /\ good default s'.
  Proof.
    intros G Hc H. destruct c as [m|m]; cbn [win_api_run1 call_effect] in *.
    - exact (guard_effect draw default E HD Hd HE m s s' u G Hc H).
    - rewrite terminal_is_guard in H. destruct (no_move m).
      + injection H as <- _. auto.
      + exact (guard_effect draw default E HD Hd HE m s s' u G Hc H).
  Qed.

  Lemma calls_do cs : forall s s', good default s -> Forall call_scalar cs -> win_api_run draw default E cs s = Some s' ->
    win_effects draw default cs (face_of s) (face_of s') /\ good default s'.
  Proof.
    induction cs as [|c cs IH]; intros s s' G Hc H; cbn [win_api_run] in H.
    - injection H as <-. split; [constructor|exact G].
    - inversion Hc as [|? ? C1 C2]; subst.
      destruct (win_api_run1 draw default E c s) as [s1 u|? ?| |] eqn:R; try discriminate H.
      destruct (call_does c s s1 u G C1 R) as (E1 & G1). destruct (IH _ _ G1 C2 H) as (E2 & G2).
      split; [econstructor; eassumption|exact G2].
  Qed.

  Lemma win_api_does cs s s' F : Forall call_scalar cs -> faces default (w_con s) F -> f_attrs F = w_at s -> view_ok (f_view F) ->
    win_api_run draw default E cs s = Some s' ->
    exists F', faces default (w_con s') F' /\ win_effects draw default cs F F' /\ f_attrs F' = w_at s' /\ view_ok (f_view F').
  Proof.
    intros Hc (V & S & C) A Hv H.
    assert (G : good default s).
    { split; [|rewrite V; exact Hv]. apply shows_word in S; [|exact Hd]. unfold tracked. now rewrite S, A. }
    assert (EF : F = face_of s) by (destruct F; unfold face_of; cbn in *; congruence).
    destruct (calls_do cs s s' G Hc H) as (E1 & G1 & G2). exists (face_of s'). rewrite EF.
    split; [|split; [exact E1|split; [reflexivity|exact G2]]].
    split; [reflexivity|]. split; [|reflexivity]. cbn. rewrite G1. apply word_shows. exact Hd.
  Qed.

  (** Without failures of the console, methods succeed, except over the edge. *)
  Definition fine (m : winres unit) (s : wins) (edge : Prop) : Prop :=
    match m with
    | Ret s' _ => ~ edge /\ no_failure (c_answers (w_con s'))
    | Fail s' e => edge /\ e = ERROR_INVALID_PARAMETER /\ face_of s' = face_of s /\ c_attr (w_con s') = c_attr (w_con s)
    | _ => False
    end.

  Lemma update_fine s : no_failure (c_answers (w_con s)) -> exists s', win_update_attrs default s = Ret s' tt /\ no_failure (c_answers (w_con s')).
  Proof.
    intros H. destruct s as [a [vw at_ tx cu an]]. cbn in *. unfold win_update_attrs, set_console_attr, ask; cbn.
    apply no_failure_cases in H. destruct H as [->|(n & l & -> & H)]; cbn; eexists; (split; [reflexivity|]); cbn; [constructor|exact H].
  Qed.
  Lemma attributes_fine a s : no_failure (c_answers (w_con s)) -> exists s', win_set_attributes default a s = Ret s' tt /\ no_failure (c_answers (w_con s')).
  Proof. intros H. unfold win_set_attributes. destruct (_ || _); [now apply update_fine|eauto]. Qed.
  Lemma loop_fine buf : forall rounds n s, no_failure (c_answers (w_con s)) ->
    (length (c_answers (w_con s)) + (length buf - n) < rounds)%nat ->
    exists s', write_loop draw rounds buf n s = Ret s' tt /\ no_failure (c_answers (w_con s')).
  Proof.
    induction rounds as [|rounds IH]; intros n s H Hr; [lia|]. cbn [write_loop].
    destruct (Nat.ltb_spec n (length buf)) as [Hlt|Hge]; [|eauto].
    set (units := firstn _ _).
    assert (Hu : (1 <= length units)%nat).
    { unfold units. rewrite firstn_length, skipn_length. unfold to_dword, DWORD_MAX. lia. }
    clearbody units. destruct s as [a [vw at_ tx cu an]]. cbn [w_con c_answers] in *. unfold write_console, ask. cbn [w_con c_answers].
    apply no_failure_cases in H. destruct H as [->|(k & l & -> & H)]; cbn [obind].
    - apply IH; cbn [w_con with_con c_answers]; [constructor|]. cbn [length] in *. lia.
    - apply IH; cbn [w_con with_con with_answers c_answers]; [exact H|]. cbn [length] in *. lia.
  Qed.
  Lemma write_fine text s : no_failure (c_answers (w_con s)) -> exists s', win_write_str draw text s = Ret s' tt /\ no_failure (c_answers (w_con s')).
  Proof. intros H. unfold win_write_str. cbv zeta. apply loop_fine; [exact H|lia]. Qed.

  Lemma attr_op_fine o s : attr_op o -> no_failure (c_answers (w_con s)) ->
    exists s', run_win draw default E o s = Ret s' tt /\ no_failure (c_answers (w_con s')).
  Proof.
    intros Ho H. destruct o; cbn in Ho; try contradiction; cbn [run_win].
    - unfold win_set_fg. destruct (ocolor_eqb _ _); [eauto|]. now apply update_fine.
    - unfold win_set_bg. destruct (ocolor_eqb _ _); [eauto|]. now apply update_fine.
    - unfold win_add_style. cbv zeta. destruct (style_is_empty _); [eauto|]. now apply update_fine.
    - unfold win_remove_style. cbv zeta. destruct (style_is_empty _); [eauto|]. now apply update_fine.
    - unfold win_set_style. destruct (_ =? _)%N; [eauto|]. now apply update_fine.
    - now apply attributes_fine.
    - now apply attributes_fine.
  Qed.

  (** Answers are used up. *)
  Definition uses_up {A} (m : winres A) (s : wins) : Prop :=
    match m with Ret s' _ | Fail s' _ => no_failure (c_answers (w_con s)) -> no_failure (c_answers (w_con s')) | _ => True end.
  Lemma uses_bind {A B} (m : winres A) (k : wins -> A -> winres B) s :
    uses_up m s -> (forall s1 a, uses_up (k s1 a) s1) -> uses_up (obind m k) s.
  Proof.
    intros Hm Hk. destruct m as [s1 a|s1 e| |]; cbn in *; auto.
    specialize (Hk s1 a). destruct (k s1 a) as [s2 b|s2 e| |]; cbn in *; auto.
  Qed.
  Lemma uses_ask {A} v (f : option nat -> con -> con * A) s :
    (forall n c, c_answers (fst (f n c)) = c_answers c) -> uses_up (ask v f s) s.
  Proof.
    intros H. unfold ask. destruct s as [a [vw at_ tx cu an]]. cbn.
    destruct an as [|[e|n] l]; cbn.
    - destruct v; [|cbn; auto]. specialize (H None (Con vw at_ tx cu [])).
      destruct (f None _) as [c' a']. cbn in *. rewrite H. auto.
    - intros X. inversion X; assumption.
    - destruct v; [|intros X; inversion X; assumption]. specialize (H (Some n) (with_answers l (Con vw at_ tx cu (CTake n :: l)))).
      destruct (f (Some n) _) as [c' a']. cbn in *. rewrite H. intros X; inversion X; assumption.
  Qed.
  Lemma uses_view v g s : uses_up (ask v (on_view g) s) s.
  Proof. apply uses_ask. reflexivity. Qed.
  Lemma uses_info s : uses_up (get_info s) s.
  Proof. apply uses_ask. reflexivity. Qed.
  Lemma uses_short {A} z (k : Z -> winres A) s : (forall z, uses_up (k z) s) -> uses_up (short z k) s.
  Proof. intros H. unfold short. destruct (_ && _); [apply H|exact I]. Qed.
  Lemma uses_dword {A} z (k : Z -> winres A) s : (forall z, uses_up (k z) s) -> uses_up (dword z k) s.
  Proof. intros H. unfold dword. destruct (_ && _); [apply H|exact I]. Qed.
  Lemma uses_area d p n s : uses_up (clear_area d p n s) s.
  Proof. apply uses_bind; [apply uses_view|]. intros. apply uses_view. Qed.
  Ltac uses_tac :=
    repeat first
      [ apply uses_info | apply uses_view | apply uses_area
      | apply uses_bind; [|intros ? ?] | apply uses_short; intros ? | apply uses_dword; intros ?
      | match goal with |- uses_up (if ?b then _ else _) _ => destruct b end
      | progress (unfold move_abs, set_cursor_position, scroll, set_window in *; cbv zeta) ].
  Lemma uses_screen s : uses_up (win_clear_screen default s) s.
  Proof. unfold win_clear_screen, clear_rest. uses_tac. Qed.
  Lemma uses_rel off s : uses_up (move_rel off s) s.
  Proof. unfold move_rel. uses_tac. Qed.

  Lemma ask_fail {A} v (f : option nat -> con -> con * A) s s' e : ask v f s = Fail s' e ->
    exists l, s' = with_con (with_answers l (w_con s)) s.
  Proof.
    unfold ask. destruct s as [a [vw at_ tx cu an]]. cbn. destruct an as [|[e'|n] l]; cbn.
    - destruct v; [destruct (f _ _); intros H; discriminate H|]. intros H. injection H as <- _. exists []. reflexivity.
    - intros H. injection H as <- _. exists l. reflexivity.
    - destruct v; [destruct (f _ _); intros H; discriminate H|]. intros H. injection H as <- _. exists l. reflexivity.
  Qed.
  Lemma rel_fail off s s' e : no_failure (c_answers (w_con s)) -> move_rel off s = Fail s' e ->
    face_of s' = face_of s /\ c_attr (w_con s') = c_attr (w_con s).
  Proof.
    intros H. unfold move_rel. destruct (info_ok s H) as (l & Hl & ->). cbn [obind].
    unfold short. destruct (_ && _); [|intros X; discriminate X]. destruct (_ && _); [|intros X; discriminate X].
    unfold move_abs, set_cursor_position. intros X. apply ask_fail in X. destruct X as (l' & ->). split; reflexivity.
  Qed.

  Lemma rel_fine off s (edge : Prop) : no_failure (c_answers (w_con s)) ->
    ((exists s', move_rel off s = Ret s' tt) /\ ~ edge) \/ ((exists s', move_rel off s = Fail s' ERROR_INVALID_PARAMETER) /\ edge) ->
    fine (move_rel off s) s edge.
  Proof.
    intros Hn [((s' & R) & He)|((s' & R) & He)]; pose proof (uses_rel off s) as U; rewrite R in *; cbn in *; [auto|].
    destruct (rel_fail _ _ _ _ Hn R). auto.
  Qed.

  Lemma guard_fine m s : view_ok (c_view (w_con s)) -> no_failure (c_answers (w_con s)) ->
    fine (win_guard_method draw default E m s) s (over_edge (OnGuard m) (c_view (w_con s))).
  Proof.
    intros Hv Hn. unfold win_guard_method.
    assert (Hat : attr_op (forward m) -> ~ over_edge (OnGuard m) (c_view (w_con s)) ->
              fine (run_win draw default E (forward m) s) s (over_edge (OnGuard m) (c_view (w_con s)))).
    { intros Ho He. destruct (attr_op_fine _ s Ho Hn) as (s' & -> & Hn'). split; assumption. }
    assert (Hret : forall r (e : Prop), ~ e -> (exists s', r = Ret s' tt /\ no_failure (c_answers (w_con s'))) -> fine r s e).
    { intros r e He (s' & -> & K). split; assumption. }
    assert (Hmv := fun n => moves E n s HE Hv Hn). assert (Hmf := fun n => moves_fail E n s HE Hv Hn). cbv zeta in Hmv, Hmf.
    destruct m; cbn [forward api_add_style api_write_str] in *;
      try (apply Hat; [exact I|exact (fun x => x)]); cbn [run_win over_edge].
    - split; [exact (fun x => x)|exact Hn].
    - apply Hret; [exact (fun x => x)|]. destruct (clear_screen_any default s Hv Hn) as (s' & R & _).
      pose proof (uses_screen s) as U. rewrite R in U |- *. cbn in U. eauto.
    - apply Hret; [exact (fun x => x)|]. destruct (to_line_end_ok default s Hv Hn) as (s' & R & K & _). eauto.
    - apply Hret; [exact (fun x => x)|]. destruct (to_screen_end_ok default s Hv Hn) as (s' & R & K & _). eauto.
    - apply rel_fine; [exact Hn|]. destruct (Z.le_gt_cases (Z.of_nat n) (cY (v_cur (c_view (w_con s))))) as [K|K]; [left|right].
      + destruct (Hmv n) as (_ & _ & _ & M). destruct (M K) as (s' & R & _). split; [eauto|lia].
      + destruct (Hmf n) as (_ & M). destruct M as (s' & R & _); [lia|]. split; [eauto|lia].
    - apply rel_fine; [exact Hn|]. left. destruct (Hmv n) as (_ & (s' & R & _) & _). split; [eauto|exact (fun x => x)].
    - apply rel_fine; [exact Hn|]. destruct (Z.le_gt_cases (Z.of_nat n) (cX (v_cur (c_view (w_con s))))) as [K|K]; [left|right].
      + destruct (Hmv n) as (_ & _ & M & _). destruct (M K) as (s' & R & _). split; [eauto|lia].
      + destruct (Hmf n) as (M & _). destruct M as (s' & R & _); [lia|]. split; [eauto|lia].
    - apply rel_fine; [exact Hn|]. left. destruct (Hmv n) as ((s' & R & _) & _). split; [eauto|exact (fun x => x)].
    - apply Hret; [exact (fun x => x)|]. unfold win_move_to_first_column. destruct (info_ok s Hn) as (l & Hl & ->). cbn [obind].
      unfold move_abs, set_cursor_position. destruct Hv as (Hx & Hy & Hcx & Hcy & _).
      match goal with |- context[ask ?b (on_view ?g) ?s] => destruct (ask_view g b s Hl) as (l' & Hl' & ->) end.
      { unfold in_buffer. cbn. lia. }
      eexists. split; [reflexivity|exact Hl'].
    - apply Hret; [exact (fun x => x)|]. unfold win_set_cursor_mode, set_cursor_info.
      destruct s as [a [vw at_ tx cu an]]. cbn in *. unfold ask; cbn.
      apply no_failure_cases in Hn. destruct Hn as [->|(n & l & -> & H)]; cbn; eexists; (split; [reflexivity|]); cbn; [constructor|exact H].
    - apply Hret; [exact (fun x => x)|]. unfold win_write_styled.
      destruct (attributes_fine (Attrs fg bg (style_or_default s0)) s Hn) as (s1 & -> & N1). cbn [obind].
      destruct (write_fine text s1 N1) as (s2 & -> & N2). cbn [obind]. apply attributes_fine. exact N2.
    - apply Hret; [exact (fun x => x)|]. apply write_fine. exact Hn.
    - apply Hret; [exact (fun x => x)|]. apply write_fine. exact Hn.
    - apply Hret; [exact (fun x => x)|]. apply write_fine. exact Hn.
  Qed.

  Lemma call_fine c s : view_ok (c_view (w_con s)) -> no_failure (c_answers (w_con s)) ->
    fine (win_api_run1 draw default E c s) s (over_edge c (c_view (w_con s))).
  Proof.
    intros Hv Hn. destruct c as [m|m]; cbn [win_api_run1]; [apply guard_fine; assumption|].
    rewrite terminal_is_guard. pose proof (guard_fine m s Hv Hn) as G.
    destruct (no_move m) eqn:Em; [|exact G]. destruct Hv as (_ & _ & Hcx & Hcy & _).
    split; [|exact Hn]. destruct m; cbn in *; try discriminate Em; apply Nat.eqb_eq in Em; subst n; cbn; try (exact (fun x => x)); lia.
  Qed.
End Calls.
