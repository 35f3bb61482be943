(** Proofs about panics on Windows (C108): the methods of the terminal, and its input. *)
From Verif Require Import Base M_Utf8 M_Geom M_Attr M_Signal M_Util M_Input M_Buf M_Writer M_Prepare M_Reader
  M_WinWriter M_WinReader S_WinReader S_WinWriter P_WinReader P_WinPrepare M_WinScreen S_WinScreen P_WinScreen S_WinNoPanic.
Local Open Scope Z_scope.

(** ** Output *)
Definition vok (s : wins) : Prop := view_ok (c_view (w_con s)).
(** The call returns, the buffer is in order. *)
Definition vsound {A} (r : winres A) : Prop :=
  match r with Ret s _ | Fail s _ => vok s | _ => False end.

Lemma vsound_bind {A B} (m : winres A) (k : wins -> A -> winres B) :
  vsound m -> (forall s a, vok s -> vsound (k s a)) -> vsound (obind m k).
Proof. intros H1 H2. destruct m; cbn in *; auto. Qed.
Lemma vsound_ask {A} v (f : option nat -> con -> con * A) s : vok s ->
  (v = true -> forall n l, view_ok (c_view (fst (f n (with_answers l (w_con s)))))) -> vsound (ask v f s).
Proof.
  intros Hs Hf. unfold ask. destruct (c_answers (w_con s)) as [|[e|n] l] eqn:Ea.
  - destruct v; [|exact Hs]. specialize (Hf eq_refl None []).
    replace (with_answers [] (w_con s)) with (w_con s) in Hf by (destruct s as [? []]; cbn in *; now subst).
    destruct (f None (w_con s)); exact Hf.
  - exact Hs.
  - destruct v; [|exact Hs]. specialize (Hf eq_refl (Some n) l). destruct (f (Some n) _); exact Hf.
Qed.
Lemma vsound_view v g s : vok s -> (v = true -> view_ok (g (c_view (w_con s)))) -> vsound (ask v (on_view g) s).
Proof. intros Hs Hg. apply vsound_ask; [exact Hs|]. intros Hv n l. cbn. now apply Hg. Qed.
(** What the console answers is its buffer. *)
Lemma vsound_info {B} s (k : wins -> view -> winres B) : vok s -> (forall s' v, vok s' -> v = c_view (w_con s') -> vsound (k s' v)) ->
  vsound (obind (get_info s) k).
Proof.
  intros Hs Hk. unfold get_info, ask. destruct (c_answers (w_con s)) as [|[e|n] l]; cbn [obind]; try exact Hs; apply Hk; try exact Hs; reflexivity.
Qed.
Lemma vsound_short {A} z (k : Z -> winres A) : -32768 <= z <= 32767 -> vsound (k z) -> vsound (short z k).
Proof. intros Hz Hk. unfold short. replace (_ && _)%bool with true by lia. exact Hk. Qed.
Lemma vsound_dword {A} z (k : Z -> winres A) : 0 <= z <= 4294967295 -> vsound (k z) -> vsound (dword z k).
Proof. intros Hz Hk. unfold dword. replace (_ && _)%bool with true by lia. exact Hk. Qed.
Lemma as_dword_small z : 0 <= z <= 32767 -> as_dword z = z.
Proof. intros H. unfold as_dword. apply Z.mod_small. lia. Qed.

Ltac plain := intros ? ?; cbn; auto.

Lemma sound_attr w s : vok s -> vsound (set_console_attr w s).
Proof. intros H. apply vsound_ask; [exact H|]. intros _ n l. exact H. Qed.
Lemma sound_cursor_info i s : vok s -> vsound (set_cursor_info i s).
Proof. intros H. apply vsound_ask; [exact H|]. intros _ n l. exact H. Qed.
Lemma sound_position p s : vok s -> vsound (set_cursor_position p s).
Proof.
  intros H. apply vsound_view; [exact H|]. unfold vok, view_ok, in_buffer in *. intros Hv.
  cbn [v_size v_cur v_win]. unfold reveal, to_show. cbn [rTop rBottom rLeft rRight].
  assert (B : 0 <= cX p < cX (v_size (c_view (w_con s))) /\ 0 <= cY p < cY (v_size (c_view (w_con s)))) by lia. clear Hv.
  repeat match goal with |- context [Z.ltb ?a ?b] => destruct (Z.ltb_spec a b) end; lia.
Qed.
Lemma sound_window r s : vok s -> rLeft r <= rRight r -> rTop r <= rBottom r -> vsound (set_window r s).
Proof.
  intros H H1 H2. apply vsound_view; [exact H|]. unfold vok, view_ok, in_buffer in *. cbn [cX cY]. intros Hv.
  cbn [v_size v_cur v_win]. lia.
Qed.
Lemma sound_area d p n s : vok s -> vsound (clear_area d p n s).
Proof.
  intros H. unfold clear_area. apply vsound_bind; [apply vsound_view; [exact H|intros _; exact H]|].
  intros s1 _ H1. apply vsound_view; [exact H1|intros _; exact H1].
Qed.
Lemma sound_scroll a b c s : vok s -> vsound (scroll a b c s).
Proof. intros H. apply vsound_view; [exact H|intros _; exact H]. Qed.
Lemma sound_rel off s : vok s -> vsound (move_rel off s).
Proof.
  intros H. unfold move_rel. apply vsound_info; [exact H|]. intros s1 v H1 ->. assert (V := H1). unfold vok, view_ok in V.
  apply vsound_short; [lia|]. apply vsound_short; [lia|]. now apply sound_position.
Qed.

Lemma sound_rest info h w s : vok s -> view_ok info -> 0 <= rTop w -> rTop w <= rBottom w -> cY (v_cur info) <= rBottom w <= 32766 -> 1 <= h <= 32767 ->
  vsound (clear_rest info h w s).
Proof.
  intros Hs V W1 W2 W3 Hh. unfold view_ok in V. unfold clear_rest. apply vsound_short; [lia|].
  destruct (Z.ltb_spec (rBottom w - cY (v_cur info)) h) as [L|L]; [|now apply sound_position].
  apply vsound_short.
  2: { apply vsound_bind; [now apply sound_scroll|]. intros s1 _ H1. now apply sound_position. }
  lia.
Qed.

Lemma sound_clear_screen d s : vok s -> vsound (win_clear_screen d s).
Proof.
  intros H. unfold win_clear_screen. apply vsound_info; [exact H|]. intros s1 v H1 Ev. assert (V := H1). unfold vok in V. rewrite <- Ev in V.
  assert (V' := V). unfold view_ok in V'. apply vsound_short; [lia|]. apply vsound_short; [lia|].
  destruct (Z.eqb_spec (rBottom (v_win v) - rTop (v_win v) + 1) (cY (v_size v))) as [E0|E0].
  - apply vsound_dword; [rewrite !as_dword_small by lia; nia|]. apply vsound_bind; [now apply sound_area|].
    intros s2 _ H2. now apply sound_position.
  - apply vsound_short; [lia|]. apply vsound_short; [lia|]. apply vsound_short; [lia|]. apply vsound_short; [lia|].
    set (down := Z.min _ _). destruct (Z.ltb_spec 0 down) as [L|L].
    + apply vsound_short; [lia|]. apply vsound_short; [lia|].
      apply vsound_bind; [apply sound_window; cbn; try exact H1; lia|].
      intros s2 _ H2. apply sound_rest; cbn [rTop rBottom]; try exact H2; try exact V; lia.
    + apply sound_rest; try exact H1; try exact V; lia.
Qed.
Lemma sound_line_end d s : vok s -> vsound (win_clear_to_line_end d s).
Proof.
  intros H. unfold win_clear_to_line_end. apply vsound_info; [exact H|]. intros s1 v H1 ->. assert (V := H1). unfold vok, view_ok in V.
  apply vsound_short; [lia|]. now apply sound_area.
Qed.
Lemma sound_screen_end d s : vok s -> vsound (win_clear_to_screen_end d s).
Proof.
  intros H. unfold win_clear_to_screen_end. apply vsound_info; [exact H|]. intros s1 v H1 ->. assert (V := H1). unfold vok, view_ok in V.
  apply vsound_short; [lia|]. apply vsound_short; [lia|]. rewrite !as_dword_small by lia.
  apply vsound_dword; [nia|]. apply vsound_dword; [nia|]. now apply sound_area.
Qed.
Lemma sound_first s : vok s -> vsound (win_move_to_first_column s).
Proof. intros H. unfold win_move_to_first_column. apply vsound_info; [exact H|]. intros s1 v H1 ->. now apply sound_position. Qed.
Lemma sound_update d s : vok s -> vsound (win_update_attrs d s).
Proof. apply sound_attr. Qed.
Lemma sound_attributes d a s : vok s -> vsound (win_set_attributes d a s).
Proof. intros H. unfold win_set_attributes. destruct (_ || _)%bool; [apply sound_update|]; exact H. Qed.

Section Draw.
  Variable draw : list N -> N -> view -> view.
  Hypothesis Hd : keeps_order draw.
  Lemma sound_loop rounds buf : forall n s, vok s -> (length (c_answers (w_con s)) + (length buf - n) <= rounds)%nat ->
    vsound (write_loop draw rounds buf n s).
  Proof.
    induction rounds as [|rounds IH]; intros n s Hs Hr; cbn [write_loop]; destruct (Nat.ltb_spec n (length buf)) as [L|L]; try exact Hs; [lia|].
    set (len := N.to_nat (to_dword (length buf - n))). assert (Hlen : (1 <= len <= length buf - n)%nat) by (unfold len, to_dword, DWORD_MAX; lia).
    unfold write_console, ask. destruct (c_answers (w_con s)) as [|[e|m] l] eqn:Ea; cbn [obind]; [|exact Hs|]; cbn [length] in Hr.
    - apply IH; [apply Hd; exact Hs|]. cbn [w_con with_con c_answers]. rewrite firstn_length, skipn_length. cbn [length]. lia.
    - apply IH; [apply Hd; exact Hs|]. cbn [w_con with_con c_answers with_answers]. lia.
  Qed.
  Lemma sound_write str s : vok s -> vsound (win_write_str draw str s).
  Proof. intros H. apply sound_loop; [exact H|lia]. Qed.

  Lemma sound_op d E o s : vok s -> vsound (run_win draw d E o s).
  Proof.
    intros H. destruct o; cbn [run_win]; try (exact (sound_clear_screen d s H) || exact (sound_line_end d s H) || exact (sound_screen_end d s H)
      || exact (sound_rel _ s H) || exact (sound_first s H) || exact (sound_attributes d _ s H) || exact (sound_write _ s H) || exact (sound_position _ s H)
      || exact (sound_cursor_info _ s H) || exact H).
    - unfold win_set_fg. destruct (ocolor_eqb _ _); [exact H|now apply sound_update].
    - unfold win_set_bg. destruct (ocolor_eqb _ _); [exact H|now apply sound_update].
    - unfold win_add_style. destruct (style_is_empty _); [exact H|now apply sound_update].
    - unfold win_remove_style. destruct (style_is_empty _); [exact H|now apply sound_update].
    - unfold win_set_style. destruct (N.eqb _ _); [exact H|now apply sound_update].
    - unfold win_write_styled. apply vsound_bind; [now apply sound_attributes|]. intros s1 _ H1.
      apply vsound_bind; [now apply sound_write|]. intros s2 _ H2. now apply sound_attributes.
  Qed.
End Draw.

(** ** Input *)
Local Open Scope N_scope.
Lemma millis_boom t : as_millis t = Boom -> win_overflows t.
Proof.
  destruct t as [d|]; cbn [as_millis]; [|discriminate]. intros H. exists d. split; [reflexivity|].
  destruct (N.leb_spec 18446744073709551616 (secs d * 1000)) as [L|L]; [left; exact L|].
  destruct (N.leb_spec 4294967296 ((secs d * 1000) mod 4294967296 + (nanos d / 1000000) mod 4294967296)) as [M|M]; [right; exact M|discriminate H].
Qed.

(** The size records to come are those that were to come. *)
Definition fewer (s s' : wsys) : Prop := forall p, In (SizeRec p) (records s') -> In (SizeRec p) (records s).
Lemma fewer_trans a b c : fewer a b -> fewer b c -> fewer a c.
Proof. intros H1 H2 p Hp. apply H1, H2, Hp. Qed.
Lemma fewer_refl s : fewer s s.
Proof. intros p Hp. exact Hp. Qed.
Lemma told_records E s z : told_size E s z <-> exists p, In (SizeRec p) (records s) /\ z = Size (as_usize E (cY p)) (as_usize E (cX p)).
Proof.
  assert (B : forall c n p l, In (SizeRec p) (brings c n l) <-> In (WRec (SizeRec p)) l).
  { intros c n p l. induction l as [|x l IH]; [reflexivity|]. destruct x as [r|k w| |e|]; cbn [brings In].
    - rewrite IH. split; (intros [H|H]; [left; congruence|right; exact H]).
    - assert (G : In (SizeRec p) (brings c n l) <-> WCtrl k w = WRec (SizeRec p) \/ In (WRec (SizeRec p)) l).
      { rewrite IH. split; [now right|intros [H|H]; [discriminate H|exact H]]. }
      destruct w; [|exact G]. destruct (caught c n k); [|exact G]. rewrite <- G. cbn. split; [intros [H|H]; [discriminate H|exact H]|now right].
    - rewrite IH. split; [now right|intros [H|H]; [discriminate H|exact H]].
    - rewrite IH. split; [now right|intros [H|H]; [discriminate H|exact H]].
    - rewrite IH. split; [now right|intros [H|H]; [discriminate H|exact H]]. }
  unfold told_size, records. split; intros (p & H & ->); exists p; (split; [|reflexivity]).
  - apply in_or_app. rewrite B. exact H.
  - apply in_app_or in H. rewrite B in H. exact H.
Qed.
Lemma did_fewer s r s' : did s r s' -> fewer s s'.
Proof. intros H p Hp. rewrite (did_records _ _ _ H). apply in_or_app. now right. Qed.
Lemma steps_fewer l s s' : steps l s s' -> w_time s = l ++ w_time s' -> fewer s s'.
Proof. intros H1 H2. apply (did_fewer s (RBool true)). apply (steps_did l); auto. discriminate. Qed.

Lemma wait_fewer t s : match win_wait_event t s with Ret s' _ | Fail s' _ => fewer s s' | Panic => win_overflows t | Blocked => True end.
Proof.
  pose proof (wait_did t s) as W. destruct (win_wait_event t s); auto using millis_boom; destruct W as (l & W1 & W2 & _); now apply (steps_fewer l).
Qed.
Lemma event_fewer E t s : match win_read_event E t s with
  | Ret s' (e, _) => fewer s s' /\ (forall z, e = Some (EResize z) -> told_size E s z)
  | Fail s' _ => fewer s s' | Panic => win_overflows t | Blocked => True end.
Proof.
  pose proof (read_event_did E t s) as W. destruct (win_read_event E t s) as [s' [e rs]|s' e| |]; auto using millis_boom.
  - destruct W as [D F]. split; [exact (did_fewer _ _ _ D)|]. intros z ->. apply did_records in D. cbn in F. destruct rs as [|r [|r' rs]]; try contradiction.
    apply told_records. cbn [handed] in D. unfold decoded in F.
    destruct r; cbn [key_press_event win_mouse_event size_event] in F.
    + match type of F with match ?kk with _ => _ end => destruct kk as [k|] end; [destruct F as (_ & X); discriminate X|].
      destruct F as (m & X1 & X2). injection X1 as _ <-. discriminate X2.
    + destruct F as (m & X1 & X2). destruct m; discriminate X2.
    + destruct F as (m & X1 & X2). injection X1 as _ <-. injection X2 as ->. exists sz. split; [|reflexivity]. rewrite D. now left.
    + destruct F as (m & X1 & X2). injection X1 as _ <-. discriminate X2.
  - destruct W as [D _]. exact (did_fewer _ _ _ D).
Qed.
Lemma raw_event_fewer E len t s : match win_read_raw_event len t s with
  | Ret s' (e, rs) => fewer s s' /\ (forall z n, find_size E (rev (firstn n rs)) = Some z -> told_size E s z)
  | Fail s' _ => fewer s s' | Panic => win_overflows t | Blocked => True end.
Proof.
  pose proof (read_raw_event_did len t s) as W. destruct (win_read_raw_event len t s) as [s' [e rs]|s' e| |]; auto using millis_boom.
  - destruct W as [D _]. split; [exact (did_fewer _ _ _ D)|]. intros z n Hz. apply did_records in D. apply told_records. cbn [handed] in D.
    assert (G : forall l, find_size E l = Some z -> exists p, In (SizeRec p) l /\ z = Size (as_usize E (cY p)) (as_usize E (cX p))).
    { induction l as [|r l IH]; cbn [find_size]; [discriminate|]. destruct r; cbn [size_event].
      3: { intros [= <-]. exists sz. split; [now left|reflexivity]. }
      all: intros H; destruct (IH H) as (p & P1 & P2); exists p; (split; [now right|exact P2]). }
    destruct (G _ Hz) as (p & P1 & P2). exists p. split; [|exact P2]. rewrite D. apply in_or_app. left.
    apply in_rev in P1. rewrite <- (firstn_skipn n rs). apply in_or_app. now left.
  - destruct W as [D _]. exact (did_fewer _ _ _ D).
Qed.

Lemma take_chars_tail room q : exists x, q = x ++ snd (take_chars room q).
Proof.
  revert room. induction q as [|r q IH]; intros room; [exists []; now destruct room|].
  destruct room as [|room]; [now exists []|]. cbn [take_chars]. destruct (rec_char r) as [u|].
  - destruct (IH room) as [x Hx]. destruct (take_chars room q) as [us q']. exists (r :: x). cbn in *. now rewrite <- Hx.
  - destruct (IH (S room)) as [x Hx]. exists (r :: x). cbn [app]. now rewrite <- Hx.
Qed.
Lemma queue_fewer s q x : w_queue s = x ++ q -> fewer s (with_wqueue q s).
Proof. intros H p Hp. unfold records in *. cbn in Hp. rewrite H, <- app_assoc. apply in_or_app. now right. Qed.
Lemma console_fewer fuel : forall room s, match read_console fuel room s with Ret s' _ | Fail s' _ => fewer s s' | Panic => False | Blocked => True end.
Proof.
  induction fuel as [|fuel IH]; intros room s; cbn [read_console]; destruct (room =? 0)%nat; try apply fewer_refl;
    destruct (await_steps None (w_time s) s) as (l & L1 & L2 & _); destruct (wawait None (w_time s) s) as [s1 []]; cbn [fst] in *; auto;
    try (now apply (steps_fewer l)); pose proof (steps_fewer _ _ _ L2 L1) as F1;
    destruct (take_chars_tail room (w_queue s1)) as [x Hx]; destruct (take_chars room (w_queue s1)) as [[|u us] q]; auto; cbn [snd] in Hx;
    pose proof (queue_fewer s1 q x Hx) as F2; try exact (fewer_trans _ _ _ F1 F2).
  specialize (IH room (with_wqueue q s1)). destruct (read_console fuel room (with_wqueue q s1)); auto;
    exact (fewer_trans _ _ _ (fewer_trans _ _ _ F1 F2) IH).
Qed.
Lemma advance_fewer s : fewer s (wadvance s).
Proof. destruct (advance_steps s) as (l & L1 & L2 & _). now apply (steps_fewer l). Qed.
Lemma raw_fewer len t s : match win_read_raw len t s with
  | Ret s' (e, _) => fewer s s' /\ (forall z, e <> Some (EResize z))
  | Fail s' _ => fewer s s' | Panic => win_overflows t | Blocked => True end.
Proof.
  unfold win_read_raw. pose proof (wait_fewer t s) as W. destruct (win_wait_event t s) as [s1 b|s1 e| |]; cbn [obind]; auto.
  destruct b; cbn [negb]; [|split; [exact W|discriminate]].
  unfold win_take_signal. cbv zeta. pose proof (fewer_trans _ _ _ W (advance_fewer s1)) as W2. set (s2 := wadvance s1) in *.
  destruct (win_conv_signal (w_last s2)) as [sig|]; [split; [exact W2|discriminate]|].
  set (s3 := with_wlast NO_SIGNAL s2). assert (W3 : fewer s s3) by exact W2.
  pose proof (fewer_trans _ _ _ W3 (advance_fewer s3)) as W4. set (s4 := wadvance s3) in *.
  match goal with |- context [read_console ?f ?r s4] => pose proof (console_fewer f r s4) as C; destruct (read_console f r s4) as [s5 us|s5 e| |] end;
    cbn [obind]; auto; [|exact (fewer_trans _ _ _ W4 C)|contradiction].
  destruct us; (split; [exact (fewer_trans _ _ _ W4 C)|discriminate]).
Qed.

(** Preparing and restoring. *)
Definition leaves (q : list record) (l : list wtick) {A} (r : wsres A) : Prop :=
  match r with Ret s _ | Fail s _ => w_queue s = q /\ w_time s = l | _ => False end.
Lemma leaves_bind {A B} q l (m : wsres A) (k : wsys -> A -> wsres B) : leaves q l m ->
  (forall s a, w_queue s = q /\ w_time s = l -> leaves q l (k s a)) -> leaves q l (obind m k).
Proof. intros H1 H2. destruct m; cbn in *; auto. Qed.
Lemma leaves_call {A} q l (f : wsys -> wsres A) s : w_queue s = q /\ w_time s = l ->
  (forall s, w_queue s = q /\ w_time s = l -> leaves q l (f s)) -> leaves q l (wos_call f s).
Proof. intros Hs Hf. unfold wos_call. destruct (w_os s) as [|[e|] o]; [now apply Hf|exact Hs|now apply Hf]. Qed.
Lemma leaves_handler q l b s : w_queue s = q /\ w_time s = l -> leaves q l (set_ctrl_handler b s).
Proof. intros H. apply leaves_call; [exact H|]. intros s1 H1. destruct b; [exact H1|]. destruct (w_regs s1); exact H1. Qed.
Lemma leaves_mode q l m s : w_queue s = q /\ w_time s = l -> leaves q l (set_console_mode m s).
Proof. intros H. apply leaves_call; [exact H|]. intros s1 H1. exact H1. Qed.
Lemma prepare_leaves q l cfg s : w_queue s = q /\ w_time s = l -> leaves q l (win_prepare cfg s).
Proof.
  intros H. unfold win_prepare. apply leaves_bind; [apply leaves_call; [exact H|intros s1 H1; exact H1]|]. intros s1 old H1.
  apply leaves_bind; [apply leaves_mode; destruct (cfg_mouse cfg); exact H1|]. intros s2 _ H2.
  destruct (ss_intersects _ _); [|exact H2]. apply leaves_bind; [apply leaves_handler; exact H2|]. intros s3 _ H3. exact H3.
Qed.
Lemma restore_leaves q l st s : w_queue s = q /\ w_time s = l -> leaves q l (win_restore st s).
Proof.
  intros H. unfold win_restore. apply leaves_bind; [|intros s1 _ H1; now apply leaves_mode].
  destruct (clear_handler st); [now apply leaves_handler|exact H].
Qed.
