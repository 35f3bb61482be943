(** Proofs about builds without overflow checks (C130): whole programs, and what is
    different. *)
From Verif Require Import Base M_Utf8 S_Utf8 M_Geom S_Geom M_Attr M_Seq S_Seq M_Signal M_Util M_Input M_Buf S_Buf M_Writer M_Screen M_Prepare M_Reader
  M_UnixScreen M_WinWriter M_WinReader M_WinScreen M_RelBuf M_RelScreen M_RelReader M_RelRun M_RelWin S_Writer S_Emu S_Prepare S_Reader S_UnixScreen S_Input
  S_WinWriter S_Overrun S_NoPanic S_WinNoPanic S_Release P_Utf8 P_Seq P_Input P_Reader2 P_NoPanic P_NoPanic2 P_NoPanic3 P_NoPanic4 P_Screen2 P_Screen3 P_Screen4 P_WinNoPanic P_WinNoPanic2 P_Release P_Release2 P_Release3.

Section Run.
  Variables (E : env) (C : tcfg) (m : seq_map).
  Lemma g_step_same o x : osame (g_step E C o x) (g_step_r E C o x).
  Proof.
    destruct o as [b|c|]; cbn [g_step g_step_r]; [|triv|apply refresh_same]. pstep (op_same E (sb x) b) as v. triv.
  Qed.
  Lemma g_run_same : forall l x, osame (g_run E C l x) (g_run_r E C l x).
  Proof.
    induction l as [|o l IH]; intros x; cbn [g_run g_run_r]; [apply drop_same|]. ostep (g_step_same o x); try apply IH; triv.
  Qed.
  Lemma on_out_same f g s : (forall x, osame (f x) (g x)) -> f (out_side s) <> Panic -> on_out g s = on_out f s.
  Proof.
    intros H Hp. unfold on_out. specialize (H (out_side s)). destruct (f (out_side s)); cbn [osame] in H; try rewrite H; congruence.
  Qed.
  Lemma ustep_same o s : real_call o -> ~ panics E C m o s -> ustep_r E C m o s = ustep E C m o s.
  Proof.
    intros Hr Hp. destruct o as [b|c| |l|t|t|n t]; cbn [ustep ustep_r panics real_call] in *.
    - apply on_out_same; [apply g_step_same|]. cbn [g_step]. unfold out_side. cbn [sb]. now destruct (run_buf_op E (u_sb s) b).
    - reflexivity.
    - apply on_out_same; [apply screen_refresh_same|assumption].
    - apply on_out_same; [apply g_run_same|assumption].
    - pose proof (wait_same m t (u_sys s) Hr) as H. destruct (wait_event m t (u_sys s)); cbn [osame] in H; rewrite ?H; try reflexivity. destruct Hp; reflexivity.
    - pose proof (read_same C m t (u_sys s) Hr) as H. destruct (read_event C m t (u_sys s)); cbn [osame] in H; rewrite ?H; try reflexivity. destruct Hp; auto.
    - pose proof (raw_same C m n t (u_sys s) Hr) as H. destruct (read_raw C m n t (u_sys s)); cbn [osame] in H; rewrite ?H; try reflexivity. destruct Hp; auto.
  Qed.
  Lemma step_runs o s x : ustep E C m o s = Some x -> ~ panics E C m o s.
  Proof. intros H K. assert (X : ustep E C m o s = None) by (apply step_ends; auto). congruence. Qed.
  Lemma urun_same : forall ops s x, Forall real_call ops -> urun E C m ops s = Some x -> urun_r E C m ops s = Some x.
  Proof.
    induction ops as [|o ops IH]; intros s x Hr H; cbn [urun urun_r] in *; [exact H|]. inversion Hr as [|? ? H1 H2]; subst.
    destruct (ustep E C m o s) as [[s1 r]|] eqn:Eo; [|discriminate]. rewrite ustep_same, Eo; [|assumption|eapply step_runs; exact Eo].
    destruct (urun E C m ops s1) as [[s2 rs]|] eqn:Er; [|discriminate]. now rewrite (IH s1 _ H2 Er).
  Qed.
  (** Without panics even programs that wait for ever are the same. *)
  Lemma urun_equal : forall ops s, Forall real_call ops ->
    (forall done o more s' rs, ops = done ++ o :: more -> urun E C m done s = Some (s', rs) -> ~ panics E C m o s') ->
    urun_r E C m ops s = urun E C m ops s.
  Proof.
    induction ops as [|o ops IH]; intros s Hr H; cbn [urun urun_r]; [reflexivity|]. inversion Hr as [|? ? H1 H2]; subst.
    rewrite ustep_same; [|assumption|exact (H [] o ops s [] eq_refl eq_refl)].
    destruct (ustep E C m o s) as [[s1 r]|] eqn:Eo; [|reflexivity]. rewrite IH; [reflexivity|assumption|].
    intros done o' more s' rs -> Hd. apply (H (o :: done) o' more s' (r :: rs)); [reflexivity|]. cbn [urun]. now rewrite Eo, Hd.
  Qed.

  Lemma locked_same f g s : (forall w, osame (f w) (g w)) -> osame (locked f s) (locked g s).
  Proof.
    intros H. assert (K : osame (on_wr f s) (on_wr g s)).
    { unfold on_wr. specialize (H (M_Prepare.wr s)). destruct (f (M_Prepare.wr s)); cbn [osame] in H; try rewrite H; triv. }
    unfold locked, with_guard. ostep K; triv.
  Qed.
  Lemma unix_new_same cfg s : osame (unix_screen_new E C cfg s) (unix_screen_new_r E C cfg s).
  Proof.
    unfold unix_screen_new, unix_screen_new_r. destruct (term_size s) as [s1 z| | |]; try triv. destruct (prepare C cfg s1) as [s2 st| | |]; try triv.
    destruct (sb_new E z); [|triv]. ostep (locked_same (enter_screen C (win s2)) (enter_screen_r E C (win s2)) s2 (enter_same E C (win s2))); triv.
  Qed.
  Lemma rstep_same o s x : real_rop o -> rstep C m o s = Some x -> rstep_r C m o s = Some x.
  Proof.
    intros Hr H. destruct o as [t|t|n t| |]; cbn [rstep rstep_r real_rop] in *; try exact H; unfold ret in *.
    - pose proof (wait_same m t s Hr) as K. destruct (wait_event m t s); cbn [osame] in K; rewrite ?K; congruence.
    - pose proof (read_same C m t s Hr) as K. destruct (read_event C m t s); cbn [osame] in K; rewrite ?K; congruence.
    - pose proof (raw_same C m n t s Hr) as K. destruct (read_raw C m n t s); cbn [osame] in K; rewrite ?K; congruence.
  Qed.
  Lemma rrun_same : forall ops s x, Forall real_rop ops -> rrun C m ops s = Some x -> rrun_r C m ops s = Some x.
  Proof.
    induction ops as [|o ops IH]; intros s x Hr H; cbn [rrun rrun_r] in *; [exact H|]. inversion Hr as [|? ? H1 H2]; subst.
    destruct (rstep C m o s) as [[s1 r]|] eqn:Eo; [|discriminate]. rewrite (rstep_same o s _ H1 Eo).
    destruct (rrun C m ops s1) as [[s2 rs]|] eqn:Er; [|discriminate]. now rewrite (IH s1 _ H2 Er).
  Qed.
End Run.

(** On a decent terminal a modest program does the same in both builds. *)
Lemma modest_same E C m cfg s0 s1 u ops : env_ok E -> key_map m -> whole_writes (script (M_Prepare.wr s0)) ->
  decent E s0 -> no_mouse m -> unix_screen_new E C cfg s0 = Ret s1 u ->
  Forall public_op ops -> modest E ops -> Forall modest_timeout ops -> Forall real_call ops ->
  urun_r E C m ops u = urun E C m ops u.
Proof.
  intros HE Hm Hw Hd Hn Hs H1 H2 H3 H4. apply urun_equal; [assumption|]. intros done o more s' rs -> Hr.
  exact (never E C m HE Hm cfg s0 s1 u done o more s' rs Hw Hd Hn Hs H1 H2 H3 Hr).
Qed.

Section WRun.
  Variables (draw : list N -> N -> view -> view) (E : env).
  Lemma wacts_same : forall l s s', wacts draw E l s = Some s' -> free_acts draw E l s = Some s'.
  Proof.
    induction l as [|[o|v] l IH]; intros s s' H; cbn [wacts free_acts] in *; [exact H| |now apply IH].
    pose proof (wsop_same draw E o s) as K. destruct (run_wsop draw E o s); cbn [osame] in K; try discriminate; rewrite K; now apply IH.
  Qed.
End WRun.

(** ** What is different *)
Lemma ops_app_r E l1 l2 : forall b, run_buf_ops_r E b (l1 ++ l2) = match run_buf_ops_r E b l1 with Val b => run_buf_ops_r E b l2 | Boom => Boom end.
Proof. induction l1 as [|o l IH]; intros b; cbn [app run_buf_ops_r]; [reflexivity|]. destruct (run_buf_op_r E b o); [apply IH|reflexivity]. Qed.
Lemma ops_app E l1 l2 : forall b, run_buf_ops E b (l1 ++ l2) = match run_buf_ops E b l1 with Val b => run_buf_ops E b l2 | Boom => Boom end.
Proof. induction l1 as [|o l IH]; intros b; cbn [app run_buf_ops]; [reflexivity|]. destruct (run_buf_op E b o); [apply IH|reflexivity]. Qed.

(** Below the last line there is the first. *)
Lemma to_the_top E sz ops c s :
  buf_history E sz (ops ++ [BSetCursor (Cursor (umax E) c); BWriteStr (10%N :: s)]) = Boom /\
  buf_history_r E sz (ops ++ [BSetCursor (Cursor (umax E) c); BWriteStr (10%N :: s)]) =
  buf_history_r E sz (ops ++ [BSetCursor (Cursor 0 0); BWriteStr s]).
Proof.
  unfold buf_history, buf_history_r. split.
  - destruct (sb_new E sz) as [b|]; [|reflexivity]. rewrite ops_app. destruct (run_buf_ops E b ops) as [b1|]; [|reflexivity].
    cbn [run_buf_ops run_buf_op M_Buf.write_str sb_set_cursor with_cur]. unfold M_Buf.write_char, write_nontab.
    cbn [bcur with_cur sb_set_cursor line TAB CR LF N.eqb Pos.eqb]. unfold uadd. replace (umax E + 1 <=? umax E) with false by lia. reflexivity.
  - destruct (sb_new E sz) as [b|]; [|reflexivity]. rewrite !ops_app_r. destruct (run_buf_ops_r E b ops) as [b1|]; [|reflexivity].
    cbn [run_buf_ops_r run_buf_op_r write_str_r sb_set_cursor]. unfold write_char_r at 1, write_nontab_r.
    cbn [TAB CR LF N.eqb Pos.eqb]. unfold wadd. cbn [bcur with_cur sb_set_cursor line].
    replace ((umax E + 1) mod S (umax E)) with 0 by (replace (umax E + 1) with (S (umax E)) by lia; now rewrite Nat.mod_same by lia).
    cbn [obind]. reflexivity.
Qed.

Local Open Scope N_scope.
Lemma parse_mouse_r a b c f r : number a -> number b -> number c -> f = 77 \/ f = 109 ->
  parse_mouse_data_r (a ++ [59] ++ b ++ [59] ++ c ++ [f] ++ r) =
  Val (Some (MouseEvent (Cursor (N.to_nat (pred_u32 (value c))) (N.to_nat (pred_u32 (value b))))
                    (decode_input (value a) (f =? 77)) (decode_mods (value a)),
                  length (a ++ [59] ++ b ++ [59] ++ c ++ [f]))).
Proof.
  intros Ha Hb Hc Hf. unfold parse_mouse_data_r. cbn [app].
  rewrite parse_number by (auto using not_digit59). cbn [negb N.eqb Pos.eqb].
  rewrite parse_number by (auto using not_digit59). cbn [negb N.eqb Pos.eqb].
  rewrite parse_number by (auto; unfold digit; lia).
  replace (length (a ++ 59%N :: b ++ 59%N :: c ++ f :: r) - length r)%nat with
    (length (a ++ [59] ++ b ++ [59] ++ c ++ [f]))
    by (repeat (rewrite ?app_length; cbn [length]); lia).
  destruct Hf as [-> | ->]; reflexivity.
Qed.
Lemma sgr_parse_r code x y f rest : code <= U32_MAX -> x <= U32_MAX -> y <= U32_MAX -> f = 77 \/ f = 109 ->
  parse_mouse_data_r (skipn 3 (sgr code x y f ++ rest)) =
  Val (Some (MouseEvent (Cursor (N.to_nat (pred_u32 y)) (N.to_nat (pred_u32 x)))
                    (decode_input code (f =? 77)) (decode_mods code), (length (sgr code x y f) - 3)%nat)).
Proof.
  intros H1 H2 H3 Hf.
  assert (X : skipn 3 (sgr code x y f ++ rest) = decimal code ++ [59] ++ decimal x ++ [59] ++ decimal y ++ [f] ++ rest).
  { unfold sgr. cbn [app skipn]. repeat (rewrite <- ?app_assoc; cbn [app]). reflexivity. }
  rewrite X, parse_mouse_r by auto using number_decimal. rewrite !value_decimal. do 3 f_equal.
  unfold sgr. cbn [app length]. lia.
Qed.
Lemma peek_mouse_r m buf q d n : key_map m -> longest m buf q XTermMouse ->
  parse_mouse_data_r (skipn (length q) buf) = Val (Some (d, n)) -> peek_event_r buf m = Val (PEvent (EMouse d) (length q + n)).
Proof.
  intros Hm Hl Hd. destruct (match_char m buf q _ Hm (proj1 Hl)) as (c & r & Hc & ->).
  destruct (utf8_prefix_cases (utf8 c ++ r)) as (cs & rest & Hcs & Hb & Hrest & Hp).
  destruct cs as [|c' cs].
  { exfalso. cbn [utf8s flat_map app] in Hb. exact (Hrest c r Hc (eq_sym Hb)). }
  unfold peek_event_r. rewrite Hp.
  destruct (utf8s (c' :: cs)) as [|b s] eqn:Es.
  { exfalso. rewrite utf8s_cons in Es. apply app_eq_nil in Es as [Es _]. now apply utf8_nonempty in Es. }
  rewrite <- Es in *. clear b s Es.
  destruct (scan_longest m Hm (c' :: cs) Hcs rest Hrest) as (res & -> & Hl'). rewrite <- Hb in Hl'.
  destruct res as [[q' v]|].
  - destruct (longest_unique _ _ _ _ _ _ Hm Hl Hl') as [-> <-]. now rewrite Hd.
  - exfalso. exact (Hl' _ _ (proj1 Hl)).
Qed.

(** A mouse report with a zero: a panic, or a position far away. *)
Lemma zero_mouse_far C m code x y f rest t s : key_map m -> longest m (sgr code x y f ++ rest) XTERM_MOUSE_INTRO XTermMouse ->
  code <= U32_MAX -> x <= U32_MAX -> y <= U32_MAX -> x = 0 \/ y = 0 -> f = 77 \/ f = 109 -> inbuf s = sgr code x y f ++ rest ->
  read_event C m t s = Panic /\
  exists d, read_event_r C m t s = Ret (with_inbuf rest (incap s) s) (Some (EMouse d)) /\
    mpos d = Cursor (told_coordinate y) (told_coordinate x).
Proof.
  intros Hm Hl H1 H2 H3 H0 Hf Hs. split.
  - destruct (peek_mouse m _ _ Hm Hl) as (c & r & _ & _ & Hp). cbn [length XTERM_MOUSE_INTRO] in Hp.
    rewrite sgr_parse in Hp by (auto; lia). replace ((y =? 0) || (x =? 0))%bool with true in Hp by lia.
    unfold read_event, try_read. destruct (inbuf s) as [|b bs] eqn:Eb; [discriminate|]. unfold peek. now rewrite Eb, Hs, Hp.
  - pose proof (peek_mouse_r m _ _ _ _ Hm Hl (sgr_parse_r code x y f rest H1 H2 H3 Hf)) as Hp.
    exists (MouseEvent (Cursor (N.to_nat (pred_u32 y)) (N.to_nat (pred_u32 x))) (decode_input code (f =? 77)) (decode_mods code)). split; [|reflexivity].
    unfold read_event_r, try_read_r. destruct (inbuf s) as [|b bs] eqn:Eb; [discriminate|]. unfold peek_r. rewrite Eb, Hs, Hp. cbn [obind].
    replace (length XTERM_MOUSE_INTRO + (length (sgr code x y f) - 3))%nat with (length (sgr code x y f)).
    + rewrite Eb, Hs, skipn_app, Nat.sub_diag, skipn_all. reflexivity.
    + unfold sgr. cbn [app length XTERM_MOUSE_INTRO]. lia.
Qed.

Local Open Scope nat_scope.
Lemma free_draws E sz ops b o : env_ok E -> buf_history_r E sz ops = Val b -> columns (bsize b) <> 1 -> (forall z, o <> BResize z) ->
  exists b', run_buf_op_r E b o = Val b'.
Proof.
  intros HE Hb Hc Ho. pose proof (op_free E HE b o (free_ok E HE sz ops b Hb)) as H.
  pose proof (go_free E (bsize b) (bcur b) o Hc Ho) as K. destruct (free_go E (bsize b, bcur b) o) as [[z p]|]; [|congruence].
  destruct H as (b' & H & _). eauto.
Qed.
Lemma free_refresh E C sz ops s : env_ok E -> buf_history_r E sz ops = Val (sb s) -> 0 < lines (bsize (sb s)) -> 0 < columns (bsize (sb s)) ->
  whole_writes (script (M_Screen.wr s)) -> refresh_r E C s = refresh E C s /\ refresh_r E C s <> Panic.
Proof.
  intros HE Hb Hl Hc Hw. pose proof (refresh_total E C s (free_ok E HE sz ops (sb s) Hb) Hl Hc Hw) as H.
  pose proof (refresh_same E C s) as K. destruct (refresh E C s); cbn [osame] in K; try (split; congruence).
Qed.
Lemma win_ops_equal draw d E o s : keeps_order draw -> view_ok (c_view (w_con s)) -> run_win_r draw d E o s = run_win draw d E o s.
Proof.
  intros H1 H2. destruct (terminal_returns draw d E o s H1 H2) as (s' & _ & H). pose proof (win_op_same draw d E o s) as K.
  destruct H as [H|(e & H)]; rewrite H in *; exact K.
Qed.
