(** Opening and dropping Windows screens; reading. *)
From Verif Require Import Base M_Utf8 S_Utf8 M_Geom S_Geom M_Attr M_Signal M_Util M_Input M_Buf S_Buf M_Writer M_Prepare M_Reader
  M_WinWriter M_WinReader S_WinReader M_WinScreen S_WinScreen P_WinInput P_WinReader P_WinPrepare P_Buf4.
From Verif Require P_WinView S_WinWriter.

Lemma bind_ret {S E A B} (m : out S E A) (f : S -> A -> out S E B) s' b :
  obind m f = Ret s' b -> exists s1 a, m = Ret s1 a /\ f s1 a = Ret s' b.
Proof. destruct m; cbn; intros H; try discriminate H. eauto. Qed.
Local Open Scope N_scope.

(** The same, with other answers to come. *)
Definition ans (l : list cans) (t : wterm) : wterm := with_w (with_con (with_answers l (w_con (t_w t))) (t_w t)) t.

Lemma ans_ans l l' t : ans l (ans l' t) = ans l t. Proof. reflexivity. Qed.
Lemma ans_same t : ans (answers t) t = t. Proof. destruct t as [[? []]]; reflexivity. Qed.

Lemma call_inv {A} v (f : wterm -> wterm * A) t t' a : t_call v f t = Ret t' a ->
  v = true /\ exists l, f (ans l t) = (t', a).
Proof.
  unfold t_call, on_wins, ask. destruct (c_answers (w_con (t_w t))) as [|[e|n] l] eqn:A0; cbn [obind].
  - destruct v; cbn [obind]; [|intros H; discriminate H].
    destruct (f _) as [t1 a1] eqn:F. intros H. injection H as <- <-. split; [reflexivity|].
    exists (answers t). rewrite <- F, ans_same. f_equal. destruct t as [[]]; reflexivity.
  - intros H; discriminate H.
  - destruct v; cbn [obind]; [|intros H; discriminate H]. destruct (f _) as [t1 a1] eqn:F. intros H. injection H as <- <-.
    split; [reflexivity|]. exists l. exact F.
Qed.

Lemma call_fail {A} v (f : wterm -> wterm * A) t t' e : t_call v f t = Fail t' e -> exists l, t' = ans l t.
Proof.
  unfold t_call, on_wins, ask. destruct (c_answers (w_con (t_w t))) as [|[e'|n] l] eqn:A0; cbn [obind].
  - destruct v; cbn [obind]; [destruct (f _); intros H; discriminate H|]. intros H. injection H as <- _.
    exists (answers t). rewrite ans_same. destruct t as [[]]; reflexivity.
  - intros H. injection H as <- _. exists l. reflexivity.
  - destruct v; cbn [obind]; [destruct (f _); intros H; discriminate H|]. intros H. injection H as <- _. exists l. reflexivity.
Qed.

Lemma call_ok {A} (f : wterm -> wterm * A) t : S_WinWriter.no_failure (answers t) ->
  exists l, S_WinWriter.no_failure l /\ t_call true f t = let '(t, a) := f (ans l t) in Ret t a.
Proof.
  intros H. unfold t_call, on_wins, ask. fold (answers t).
  destruct (P_WinView.no_failure_cases _ H) as [A0|(n & l & A0 & Hl)]; rewrite A0; cbn [obind].
  - exists []. split; [constructor|]. rewrite <- A0. unfold answers.
    replace (with_w (with_con (w_con (t_w t)) (t_w t)) t) with t by (destruct t as [[]]; reflexivity).
    fold (answers t). now rewrite ans_same.
  - exists l. split; [exact Hl|]. reflexivity.
Qed.

Lemma call_bad {A} (f : wterm -> wterm * A) t e l : answers t = CFail e :: l -> forall v, t_call v f t = Fail (ans l t) e.
Proof. intros H v. unfold t_call, on_wins, ask. fold (answers t). rewrite H. reflexivity. Qed.

Lemma call_take {A} (f : wterm -> wterm * A) t n l : answers t = CTake n :: l ->
  t_call true f t = let '(t, a) := f (ans l t) in Ret t a.
Proof. intros H. unfold t_call, on_wins, ask. fold (answers t). rewrite H. reflexivity. Qed.

Lemma call_never {A} v (f : wterm -> wterm * A) t : t_call v f t <> Panic /\ t_call v f t <> Blocked.
Proof.
  unfold t_call, on_wins, ask. destruct (c_answers (w_con (t_w t))) as [|[e'|n] l] eqn:A0; cbn [obind];
    try (split; discriminate); destruct v; cbn [obind]; try (split; discriminate); destruct (f _); split; discriminate.
Qed.

(** Asking for the size. *)
Definition size_of (E : env) (v : view) : size := Size (as_usize E (cY (v_size v))) (as_usize E (cX (v_size v))).

Lemma on_size E t : on_wins (win_size E) t =
  t_call true (fun t => (t, size_of E (c_view (w_con (t_w t))))) t.
Proof.
  unfold t_call, on_wins, win_size, get_info, ask.
  destruct (c_answers (w_con (t_w t))) as [|[e|n] l] eqn:A0; reflexivity.
Qed.
Lemma on_mode m t : on_wins (win_set_cursor_mode m) t =
  t_call true (fun t => let c := w_con (t_w t) in
    (with_w (with_con (Con (c_view c) (c_attr c) (c_text c)
       match m with CNormal => (25%N, true) | CInvisible => (1%N, false) | COverwrite => (100%N, true) end
       (c_answers c)) (t_w t)) t, tt)) t.
Proof.
  unfold t_call, on_wins, win_set_cursor_mode, set_cursor_info, ask.
  destruct (c_answers (w_con (t_w t))) as [|[e|n] l] eqn:A0; cbn; rewrite ?A0; reflexivity.
Qed.

(** Handles. *)
Lemma fresh_above t h : (h = t_out t \/ h = t_active t \/ In h (map fst (t_else t))) -> h < fresh_handle t.
Proof.
  unfold fresh_handle. assert (G : forall l a, (h <= a \/ In h l) -> h <= fold_right N.max a l).
  { induction l as [|x l IH]; cbn; intros a [H|H]; auto; try contradiction.
    - specialize (IH a (or_introl H)). lia.
    - destruct H as [->|H]; [lia|]. specialize (IH a (or_intror H)). lia. }
  intros H. specialize (G (map fst (t_else t)) (N.max (t_out t) (t_active t))).
  assert (h <= N.max (t_out t) (t_active t) \/ In h (map fst (t_else t))).
  { destruct H as [->|[->|H]]; [left; lia|left; lia|now right]. }
  specialize (G H0). lia.
Qed.
Lemma remove_fresh h l : ~ In h (map fst l) -> remove_buf h l = l.
Proof.
  induction l as [|[k b] l IH]; cbn; [reflexivity|]. intros H. destruct (N.eqb_spec k h) as [->|]; [tauto|].
  f_equal. apply IH. tauto.
Qed.

Lemma lookup_none h l : ~ In h (map fst l) -> lookup h l = None.
Proof.
  induction l as [|[k b] l IH]; cbn; [reflexivity|]. intros H. destruct (N.eqb_spec k h) as [->|]; [tauto|].
  apply IH. tauto.
Qed.
Lemma fresh_new t : ~ In (fresh_handle t) (map fst (t_else t)) /\ fresh_handle t <> t_out t /\ fresh_handle t <> t_active t.
Proof.
  split; [|split].
  - intros H. assert (fresh_handle t < fresh_handle t) by (apply fresh_above; auto). lia.
  - intros H. assert (t_out t < fresh_handle t) by (apply fresh_above; auto). lia.
  - intros H. assert (t_active t < fresh_handle t) by (apply fresh_above; auto). lia.
Qed.

(** The input half. *)
Lemma os_inv {A} (f : wsys -> wsres A) s s' a : wos_call f s = Ret s' a -> exists o, f (with_wos o s) = Ret s' a.
Proof.
  unfold wos_call. destruct (w_os s) as [|[e|] l] eqn:O; intros H; [|discriminate H|].
  - exists []. rewrite <- H. f_equal. destruct s; cbn in *. now rewrite O.
  - exists l. exact H.
Qed.
Lemma prepare_inv cfg s s' st : win_prepare cfg s = Ret s' st ->
  st = WPState (w_mode s) (reports_ctrl cfg) /\ w_regs s' = (if reports_ctrl cfg then S (w_regs s) else w_regs s).
Proof.
  unfold win_prepare. intros H. apply bind_ret in H. destruct H as (s1 & old & H1 & H). unfold console_mode in H1.
  apply os_inv in H1. destruct H1 as (o & H1). injection H1 as <- <-. cbv zeta in H.
  apply bind_ret in H. destruct H as (s2 & u & H2 & H). unfold set_console_mode in H2.
  apply os_inv in H2. destruct H2 as (o2 & H2). injection H2 as <- _.
  rewrite intersects_ok in H. destruct (reports_ctrl cfg).
  - apply bind_ret in H. destruct H as (s3 & u3 & H3 & H). injection H as <- <-. unfold set_ctrl_handler in H3.
    apply os_inv in H3. destruct H3 as (o3 & H3). rewrite catch_signals_ok in H3. injection H3 as <- _.
    split; [destruct (cfg_mouse cfg); reflexivity|]. destruct (cfg_mouse cfg); reflexivity.
  - injection H as <- <-. split; destruct (cfg_mouse cfg); reflexivity.
Qed.

(** Creating a buffer never fails visibly. *)
Lemma create_inv t t' h : create_buffer t = Ret t' h -> exists l,
  (h = Some (fresh_handle t) /\ t' = with_else ((fresh_handle t,
      fresh_buffer match buf_of (t_active t) t with Some a => a | None => cur_buf t end) :: t_else t) (ans l t)) \/
  (h = None /\ t' = ans l t).
Proof.
  unfold create_buffer. match goal with |- context [t_call true ?f t] => destruct (t_call true f t) as [t1 h1|t1 e1| |] eqn:E1 end;
    intros H; try discriminate H; injection H as <- <-.
  - apply call_inv in E1. destruct E1 as (_ & l & E1). injection E1 as <- <-. exists l. left. split; reflexivity.
  - apply call_fail in E1. destruct E1 as (l & ->). exists l. right. split; reflexivity.
Qed.

(** What a new screen is like. *)
Lemma enter_inv E t t' old : ~ In (t_out t) (map fst (t_else t)) -> win_enter_screen E t = Ret t' old ->
  old = t_out t /\ t_out t' = fresh_handle t /\ t_active t' = fresh_handle t /\ t_else t' = (t_out t, cur_buf t) :: t_else t /\
  t_old t' = t_old t /\ t_default t' = t_default t /\ t_in t' = t_in t /\ w_at (t_w t') = w_at (t_w t) /\
  let a := match buf_of (t_active t) t with Some a => a | None => cur_buf t end in
  let z := size_of E (c_view (w_con (t_w t))) in
  c_view (w_con (t_w t')) = resize_view (Coord (to_short (columns z)) (to_short (lines z))) (b_attr a) (b_view (fresh_buffer a)) /\
  c_attr (w_con (t_w t')) = b_attr a.
Proof.
  intros Ho H. unfold win_enter_screen in H. rewrite on_size in H.
  apply bind_ret in H. destruct H as (t1 & z & H1 & H). apply call_inv in H1. destruct H1 as (_ & l1 & H1). injection H1 as <- <-.
  apply bind_ret in H. destruct H as (t2 & h & H2 & H). apply create_inv in H2.
  destruct H2 as (l2 & [(-> & ->)|(-> & ->)]); [|discriminate H]. cbv zeta in H.
  change (fresh_handle (ans l1 t)) with (fresh_handle t) in H.
  rewrite !ans_ans in H. set (t2 := with_else _ _) in H.
  destruct (setup_screen _ _ t2) as [t3 u3|t3 e3| |] eqn:S3; try discriminate H.
  2: { destruct (close_handle _ t3); discriminate H. }
  unfold setup_screen in S3. apply bind_ret in S3. destruct S3 as (t4 & u4 & S4 & S5).
  unfold set_buffer_size in S4.
  change (t_else t2) with ((fresh_handle t, fresh_buffer match buf_of (t_active t) t with Some a => a | None => cur_buf t end) :: t_else t) in S4.
  cbn [lookup] in S4. rewrite N.eqb_refl in S4.
  apply call_inv in S4. destruct S4 as (_ & l4 & S4). injection S4 as <- _.
  cbn [t_else ans with_w t2 with_else set_buf] in S5. rewrite N.eqb_refl in S5.
  apply call_inv in S5. destruct S5 as (_ & l5 & S5). injection S5 as <- _.
  apply bind_ret in H. destruct H as (t6 & m & H6 & H). apply bind_ret in H. destruct H as (t7 & u7 & H7 & H).
  injection H as <- <-. unfold out_mode in H6. apply call_inv in H6. destruct H6 as (_ & l6 & H6). injection H6 as <- <-.
  unfold set_out_mode in H7. apply call_inv in H7. destruct H7 as (_ & l7 & H7). injection H7 as <- _.
  unfold swap_out_handle. cbn [t_else with_active with_else ans with_w lookup]. rewrite N.eqb_refl.
  cbn. rewrite N.eqb_refl. destruct (fresh_new t) as (F1 & F2 & F3). rewrite (remove_fresh _ _ F1).
  repeat (split; [reflexivity|]). split; reflexivity.
Qed.

Lemma on_reader_inv {A} (f : wsys -> wsres A) t t' a : on_reader f t = Ret t' a ->
  exists i, f (t_in t) = Ret i a /\ t' = with_in i t.
Proof. unfold on_reader. destruct (f (t_in t)); intros H; try discriminate H. injection H as <- <-. eauto. Qed.

Lemma new_open E cfg t t1 s : win_screen_new E cfg t = Ret t1 s -> win_screen_open E cfg t = Ret t1 s.
Proof.
  unfold win_screen_new. destruct (win_screen_open E cfg t) as [| t' e | |]; auto.
  destruct (win_terminal_drop t'); intros H; discriminate H.
Qed.

Lemma open_inv E cfg t t1 s : ~ In (t_out t) (map fst (t_else t)) -> win_screen_open E cfg t = Ret t1 s ->
  g_t s = t1 /\ g_old s = t_out t /\ g_state s = WPState (w_mode (t_in t)) (reports_ctrl cfg) /\
  g_clr s = false /\ g_real s = Cursor 0 0 /\ sb_new E (size_of E (c_view (w_con (t_w t)))) = Val (g_sb s) /\
  t_out t1 = fresh_handle t /\ t_active t1 = fresh_handle t /\ t_else t1 = (t_out t, cur_buf t) :: t_else t /\
  t_old t1 = t_old t /\ t_default t1 = t_default t /\ w_at (t_w t1) = w_at (t_w t) /\
  w_regs (t_in t1) = (if reports_ctrl cfg then S (w_regs (t_in t)) else w_regs (t_in t)) /\
  let a := match buf_of (t_active t) t with Some a => a | None => cur_buf t end in
  let z := size_of E (c_view (w_con (t_w t))) in
  c_view (w_con (t_w t1)) = resize_view (Coord (to_short (columns z)) (to_short (lines z))) (b_attr a) (b_view (fresh_buffer a)) /\
  c_attr (w_con (t_w t1)) = b_attr a.
Proof.
  intros Ho H. unfold win_screen_open in H. rewrite on_size in H.
  apply bind_ret in H. destruct H as (t2 & z & H1 & H). apply call_inv in H1. destruct H1 as (_ & l1 & H1). injection H1 as <- <-.
  apply bind_ret in H. destruct H as (t3 & old & H2 & H).
  apply enter_inv in H2; [|exact Ho].
  destruct H2 as (E1 & E2 & E3 & E4 & E5 & E6 & E7 & E8 & E9 & E10).
  apply bind_ret in H. destruct H as (t4 & st & H3 & H). apply on_reader_inv in H3. destruct H3 as (i & H3 & ->).
  apply prepare_inv in H3. destruct H3 as (-> & R). change (t_in (ans l1 t)) with (t_in t) in E7. rewrite E7 in *.
  change (c_view (w_con (t_w (ans l1 t)))) with (c_view (w_con (t_w t))) in *.
  destruct (sb_new E _) as [b|]; [|discriminate H]. injection H as <- <-. cbn [g_t g_old g_state g_clr g_real g_sb].
  split; [reflexivity|]. split; [exact E1|]. do 3 (split; [reflexivity|]). split; [reflexivity|].
  split; [exact E2|]. split; [exact E3|]. split; [exact E4|]. split; [exact E5|]. split; [exact E6|]. split; [exact E8|].
  split; [exact R|]. split; [exact E9|exact E10].
Qed.

(** What the calls of a program leave alone. *)
Definition stays (s s' : wscr) : Prop :=
  g_old s' = g_old s /\ g_state s' = g_state s /\ t_out (g_t s') = t_out (g_t s) /\ t_active (g_t s') = t_active (g_t s) /\
  t_else (g_t s') = t_else (g_t s) /\ t_old (g_t s') = t_old (g_t s) /\ t_default (g_t s') = t_default (g_t s) /\
  w_regs (t_in (g_t s')) = w_regs (t_in (g_t s)) /\ w_mode (t_in (g_t s')) = w_mode (t_in (g_t s)).
Definition stays' {A} (s : wscr) (r : gres A) : Prop :=
  match r with Ret s' _ | Fail s' _ => stays s s' | _ => True end.

Lemma stays_refl s : stays s s.
Proof. unfold stays. auto 10. Qed.
Lemma stays_trans a b c : stays a b -> stays b c -> stays a c.
Proof.
  intros (A1 & A2 & A3 & A4 & A5 & A6 & A7 & A8 & A9) (B1 & B2 & B3 & B4 & B5 & B6 & B7 & B8 & B9).
  unfold stays. repeat split; congruence.
Qed.
Lemma stays_bind {A B} s (m : gres A) (k : wscr -> A -> gres B) :
  stays' s m -> (forall s1 a, stays s s1 -> stays' s (k s1 a)) -> stays' s (obind m k).
Proof. intros H1 H2. destruct m; cbn in *; auto. Qed.
Lemma stays_from {A} s s1 (r : gres A) : stays s s1 -> stays' s1 r -> stays' s r.
Proof. intros H. destruct r; cbn; auto; apply stays_trans; exact H. Qed.
Lemma stays_wins {A} (f : wins -> winres A) s : stays' s (on_term (on_wins f) s).
Proof. unfold on_term, on_wins. destruct (f (t_w (g_t s))); cbn; auto; repeat split. Qed.
Lemma stays_reader {A} (f : wsys -> wsres A) s :
  (forall i, match f i with Ret i' _ | Fail i' _ => w_regs i' = w_regs i /\ w_mode i' = w_mode i | _ => True end) ->
  stays' s (on_term (on_reader f) s).
Proof.
  intros H. unfold on_term, on_reader. specialize (H (t_in (g_t s))).
  destruct (f (t_in (g_t s))); cbn; auto; unfold stays; cbn; destruct H; repeat split; auto.
Qed.

Lemma stays_move p s : stays' s (gs_move_cursor p s).
Proof.
  unfold gs_move_cursor. destruct (cursor_eqb _ _); [apply stays_refl|].
  apply stays_bind; [apply stays_wins|]. intros s1 a H. exact H.
Qed.
Lemma stays_draw draw E fuel : forall lo hi a s, stays' s (gs_draw draw E fuel lo hi a s).
Proof.
  induction fuel as [|fuel IH]; intros lo hi a s; cbn [gs_draw];
    destruct (next_cell E (g_sb s) lo hi) as [[[b lo'] [[p c]|]]|]; try exact I; try (repeat split; fail);
    (apply stays_bind; [apply (stays_from s (with_gsb b s)); [repeat split|apply stays_move]|]; intros s1 _ H1;
     apply stays_bind; [apply (stays_from _ _ _ H1); unfold gs_apply_attrs; destruct (attrs_eqb _ _); [apply stays_refl|apply stays_wins]|];
     intros s2 _ H2; apply stays_bind; [apply (stays_from _ _ _ H2), stays_wins|]; intros s3 _ H3;
     destruct (uadd _ _ _); try exact I).
  apply (stays_from s (with_greal (Cursor (line (g_real s3)) a0) s3)); [|apply IH].
  exact H3.
Qed.
Lemma stays_refresh draw E s : stays' s (win_refresh draw E s).
Proof.
  unfold win_refresh. apply stays_bind.
  { destruct (g_clr s); [|apply stays_refl]. apply stays_bind; [apply stays_wins|]. intros s1 _ H. exact H. }
  intros s1 _ H1. apply stays_bind; [apply (stays_from _ _ _ H1), stays_wins|]. intros s2 _ H2.
  destruct (sb_indices E (g_sb s2)) as [[lo hi]|]; [|exact I].
  apply stays_bind; [apply (stays_from _ _ _ H2), stays_draw|]. intros s3 _ H3.
  apply stays_bind; [apply (stays_from _ _ _ H3), stays_wins|]. intros s4 _ H4.
  destruct (is_out_of_bounds _ _); [destruct (cursor_last _); [|exact I]|]; apply (stays_from _ _ _ H4), stays_move.
Qed.

(** Reading. *)
Definition calm {A} (f : wsys -> wsres A) : Prop :=
  forall i, match f i with Ret i' _ | Fail i' _ => w_regs i' = w_regs i /\ w_mode i' = w_mode i | _ => True end.
Lemma calm_wait t : calm (win_wait_event t).
Proof.
  intros i. pose proof (wait_did t i) as W. destruct (win_wait_event t i); auto;
    destruct W as (l & _ & H & _); split; [apply (st_regs _ _ _ H)|apply (st_mode _ _ _ H)|apply (st_regs _ _ _ H)|apply (st_mode _ _ _ H)].
Qed.
Lemma calm_raw_event len t : calm (win_read_raw_event len t).
Proof.
  intros i. pose proof (read_raw_event_did len t i) as W. destruct (win_read_raw_event len t i) as [i' [e rs]|i' e| |]; auto.
  - destruct W as ((_ & H1 & H2 & _) & _). auto.
  - destruct W as ((_ & H1 & H2 & _) & _). auto.
Qed.
Lemma calm_event E t : calm (win_read_event E t).
Proof.
  intros i. pose proof (read_event_did E t i) as W. destruct (win_read_event E t i) as [i' [e rs]|i' e| |]; auto.
  - destruct W as ((_ & H1 & H2 & _) & _). auto.
  - destruct W as ((_ & H1 & H2 & _) & _). auto.
Qed.
Lemma calm_console fuel : forall room, calm (read_console fuel room).
Proof.
  induction fuel as [|fuel IH]; intros room i; cbn [read_console]; destruct (room =? 0)%nat; auto;
    destruct (await_steps None (w_time i) i) as (l & _ & H & _); destruct (wawait None (w_time i) i) as [i1 []]; auto;
    cbn [fst] in H; try (split; [apply (st_regs _ _ _ H)|apply (st_mode _ _ _ H)]);
    destruct (take_chars room (w_queue i1)) as [[|u us] q]; auto;
    try (split; [apply (st_regs _ _ _ H)|apply (st_mode _ _ _ H)]).
  specialize (IH room (with_wqueue q i1)). destruct (read_console fuel room (with_wqueue q i1)); auto;
    cbn in IH; destruct IH as [-> ->]; split; [apply (st_regs _ _ _ H)|apply (st_mode _ _ _ H)|apply (st_regs _ _ _ H)|apply (st_mode _ _ _ H)].
Qed.
Lemma calm_take i : w_regs (fst (win_take_signal i)) = w_regs i /\ w_mode (fst (win_take_signal i)) = w_mode i.
Proof.
  unfold win_take_signal. destruct (advance_steps i) as (l & _ & H & _). cbv zeta.
  split; [exact (st_regs _ _ _ H)|exact (st_mode _ _ _ H)].
Qed.
Lemma calm_raw len t : calm (win_read_raw len t).
Proof.
  intros i. unfold win_read_raw. pose proof (calm_wait t i) as W. destruct (win_wait_event t i) as [i1 []| | |]; cbn [obind negb]; auto.
  pose proof (calm_take i1) as T. destruct (win_take_signal i1) as [i2 [sig|]]; cbn [fst] in T; destruct W as [W1 W2], T as [T1 T2].
  { split; congruence. }
  cbv zeta. destruct (advance_steps i2) as (l & _ & H & _). set (i3 := wadvance i2) in *.
  pose proof (calm_console (S (length (w_queue i3) + length (w_time i3))) (N.to_nat (to_dword len)) i3) as C.
  destruct (read_console _ _ i3) as [i4 [|u us]| | |]; cbn [obind]; auto; destruct C as [C1 C2];
    rewrite C1, C2, (st_regs _ _ _ H), (st_mode _ _ _ H); split; congruence.
Qed.

Lemma stays_update E z s : stays' s (win_update_size E z s).
Proof. unfold win_update_size. destruct (sb_resize E (g_sb s) z); cbn; auto. repeat split. Qed.
Lemma stays_follow {A} E (r : option event * A) s : stays' s (follow_resize E r s).
Proof.
  unfold follow_resize. destruct (fst r) as [[]|]; try apply stays_refl.
  apply stays_bind; [apply stays_update|]. intros s1 _ H. exact H.
Qed.
Lemma stays_drop {A} s (r : gres A) : stays' s r -> stays' s (drop_answer r).
Proof. destruct r; auto. Qed.

Lemma stays_op draw E o s : stays' s (run_wsop draw E o s).
Proof.
  destruct o; cbn [run_wsop].
  - destruct (run_buf_op E (g_sb s) o); [repeat split|exact I].
  - apply stays_refresh.
  - apply stays_wins.
  - apply stays_drop, stays_reader, calm_wait.
  - apply stays_drop. unfold gs_read_event. apply stays_bind; [apply stays_reader, calm_event|].
    intros s1 r H. apply (stays_from _ _ _ H), stays_follow.
  - apply stays_drop. unfold gs_read_raw. apply stays_bind; [apply stays_reader, calm_raw|].
    intros s1 r H. apply (stays_from _ _ _ H), stays_follow.
  - apply stays_drop. unfold gs_read_raw_event. apply stays_bind; [apply stays_reader, calm_raw_event|].
    intros s1 r H. apply (stays_from _ _ _ H). destruct (fst r) as [[]|]; try apply stays_refl.
    destruct (find_size E _); [|apply stays_refl]. apply stays_bind; [apply stays_update|]. intros s2 _ H2. exact H2.
Qed.
Lemma stays_ops draw E ops : forall s s', run_wsops draw E ops s = Some s' -> stays s s'.
Proof.
  induction ops as [|o ops IH]; intros s s' H; cbn [run_wsops] in H.
  - injection H as <-. apply stays_refl.
  - pose proof (stays_op draw E o s) as O. destruct (run_wsop draw E o s); try discriminate H;
      exact (stays_trans _ _ _ O (IH _ _ H)).
Qed.

(** Dropping. *)
Lemma terminal_drop_ok t : S_WinWriter.no_failure (answers t) ->
  exists t', win_terminal_drop t = Ret t' tt /\ same_buffers t t' /\ t_mode t' = t_old t /\ t_in t' = t_in t /\
    c_cursor (w_con (t_w t')) = (25, true).
Proof.
  intros H. unfold win_terminal_drop. rewrite on_mode.
  match goal with |- context [t_call true ?f t] => destruct (call_ok f t H) as (l & Hl & ->) end.
  cbn iota beta zeta. unfold set_out_mode.
  match goal with |- context [t_call true ?f ?t1] => destruct (call_ok f t1 Hl) as (l2 & Hl2 & ->) end.
  cbn iota beta zeta. eexists. split; [reflexivity|]. repeat split.
Qed.

Lemma round_trip_stays E cfg t t1 s s' :
  displayed t -> win_screen_new E cfg t = Ret t1 s -> stays s s' -> calls_work (g_t s') ->
  exists t', win_screen_drop s' = Ret t' tt /\ same_buffers t t' /\ t_mode t' = t_old t /\
    c_cursor (w_con (t_w t')) = (25, true) /\
    w_mode (t_in t') = N.lor (w_mode (t_in t)) ENABLE_EXTENDED_FLAGS /\ w_regs (t_in t') = w_regs (t_in t).
Proof.
  intros (Ha & Ho) Hn Hr (Hw & Hos). apply new_open in Hn. apply (open_inv _ _ _ _ _ Ho) in Hn.
  destruct Hn as (N1 & N2 & N3 & _ & _ & _ & N7 & N8 & N9 & N10 & N11 & N12 & N13 & _).
  destruct Hr as (S1 & S2 & S3 & S4 & S5 & S6 & S7 & S8 & S9).
  rewrite N1 in *. unfold win_screen_drop. rewrite S2, N3. unfold on_reader.
  destruct (restore_ok (w_mode (t_in t)) (reports_ctrl cfg) (w_regs (t_in t)) (t_in (g_t s')) Hos) as (o & Ho' & ->).
  { congruence. }
  set (i := WSys _ _ _ _ _ _ _ _ _ _). unfold win_exit_screen, set_active_buffer.
  rewrite S1, N2. destruct (fresh_new t) as (F1 & F2 & F3).
  assert (B : buf_of (t_out t) (with_in i (g_t s')) = Some (cur_buf t)).
  { unfold buf_of. cbn [t_out t_else with_in]. rewrite S3, N7, S5, N9.
    destruct (N.eqb_spec (fresh_handle t) (t_out t)); [congruence|]. cbn [lookup]. now rewrite N.eqb_refl. }
  rewrite B.
  match goal with |- context [t_call true ?f ?t1] => destruct (call_ok f t1 Hw) as (l & Hl & ->) end.
  cbn iota beta zeta. cbn [obind].
  unfold swap_out_handle. cbn [t_else with_active ans with_w with_in]. rewrite S5, N9. cbn [lookup]. rewrite N.eqb_refl.
  unfold close_handle. cbn [t_else t_out lookup remove_buf with_active ans with_w with_in]. rewrite S3, N7, N.eqb_refl.
  match goal with |- context [t_call true ?f ?t1] => destruct (call_ok f t1 Hl) as (l2 & Hl2 & ->) end.
  cbn iota beta zeta.
  match goal with |- context [win_terminal_drop ?x] => destruct (terminal_drop_ok x Hl2) as (t' & -> & D2 & D3 & D4 & D5) end.
  exists t'. split; [reflexivity|]. unfold same_buffers in *.
  cbn [t_out t_active t_else t_w w_con c_view c_attr t_old t_in with_else ans with_w with_con with_answers with_active with_in
       cur_buf b_view b_attr remove_buf] in *.
  rewrite N.eqb_refl in D2. cbn [remove_buf] in D2. rewrite N.eqb_refl in D2.
  rewrite (remove_fresh (t_out t) _ Ho), (remove_fresh _ _ F1) in D2.
  destruct D2 as (D21 & D22 & D23 & D24 & D25).
  split; [|split; [congruence|split; [exact D5|rewrite D4; split; reflexivity]]].
  repeat split; congruence.
Qed.

Lemma round_trip draw E cfg ops t t1 s s' :
  displayed t -> win_screen_new E cfg t = Ret t1 s -> run_wsops draw E ops s = Some s' -> calls_work (g_t s') ->
  exists t', win_screen_drop s' = Ret t' tt /\ same_buffers t t' /\ t_mode t' = t_old t /\
    c_cursor (w_con (t_w t')) = (25, true) /\
    w_mode (t_in t') = N.lor (w_mode (t_in t)) ENABLE_EXTENDED_FLAGS /\ w_regs (t_in t') = w_regs (t_in t).
Proof. intros Hd Hn Hr Hw. eapply round_trip_stays; eauto. eapply stays_ops; eauto. Qed.

(** A terminal that is made and dropped, with any output in between. *)
Lemma terminal_new_full t t' u : win_terminal_new t = Ret t' u ->
  w_rd (t_in t') = WReader false 0 /\
  same_buffers t t' /\ t_old t' = t_mode t /\ t_default t' = c_attr (w_con (t_w t)) /\ w_at (t_w t') = no_attrs /\
  t_mode t' = N.lor (N.lor (t_mode t) ENABLE_PROCESSED_OUTPUT) ENABLE_WRAP_AT_EOL_OUTPUT.
Proof.
  unfold win_terminal_new. intros H.
  replace (on_wins get_info t) with (t_call true (fun t => (t, c_view (w_con (t_w t)))) t) in H.
  2: { unfold t_call, on_wins, get_info, ask. destruct (c_answers (w_con (t_w t))) as [|[e|n] l]; reflexivity. }
  apply bind_ret in H. destruct H as (t1 & v & H1 & H). apply call_inv in H1. destruct H1 as (_ & l1 & H1). injection H1 as <- <-.
  cbv zeta in H.
  apply bind_ret in H. destruct H as (t2 & old & H2 & H). apply call_inv in H2. destruct H2 as (_ & l2 & H2). injection H2 as <- <-.
  apply bind_ret in H. destruct H as (t3 & u3 & H3 & H). apply call_inv in H3. destruct H3 as (_ & l3 & H3). injection H3 as <- <-.
  injection H as <- _. repeat split.
Qed.

Lemma terminal_new_inv t t' u : win_terminal_new t = Ret t' u ->
  same_buffers t t' /\ t_old t' = t_mode t /\ t_default t' = c_attr (w_con (t_w t)) /\ w_at (t_w t') = no_attrs /\
  t_mode t' = N.lor (N.lor (t_mode t) ENABLE_PROCESSED_OUTPUT) ENABLE_WRAP_AT_EOL_OUTPUT.
Proof. intros H. destruct (terminal_new_full t t' u H) as (_ & X). exact X. Qed.

(** Opening a terminal: what it needs, and that it changes nothing when it fails. *)
Lemma call_cases {A} (f : wterm -> wterm * A) t :
  (exists e l, answers t = CFail e :: l /\ t_call true f t = Fail (ans l t) e) \/
  (exists l, t_call true f t = (let '(t, a) := f (ans l t) in Ret t a) /\
     ((answers t = [] /\ l = []) \/ exists n, answers t = CTake n :: l)).
Proof.
  destruct (answers t) as [|[e|n] l] eqn:A0.
  - right. exists []. split; [|now left]. unfold t_call, on_wins, ask. fold (answers t). rewrite A0. cbn [obind].
    replace (with_w (with_con (w_con (t_w t)) (t_w t)) t) with t by (destruct t as [[]]; reflexivity).
    rewrite <- A0, ans_same. reflexivity.
  - left. exists e, l. split; [reflexivity|]. now apply call_bad.
  - right. exists l. split; [|right; now exists n]. now apply call_take with (n := n).
Qed.
Lemma terminal_opens i o t :
  (exists t', win_terminal_open i o t = Ret t' tt) <->
  (forall e, i <> SNull e) /\ o = SConsole /\ (forall e, ~ In (CFail e) (firstn 3 (answers t))).
Proof.
  assert (N : (exists t', win_terminal_new t = Ret t' tt) <-> (forall e, ~ In (CFail e) (firstn 3 (answers t)))).
  { unfold win_terminal_new.
    replace (on_wins get_info t) with (t_call true (fun t => (t, c_view (w_con (t_w t)))) t).
    2: { unfold t_call, on_wins, get_info, ask. destruct (c_answers (w_con (t_w t))) as [|[e|n] l]; reflexivity. }
    match goal with |- context [t_call true ?f t] => destruct (call_cases f t) as [(e1 & l1 & A1 & ->)|(l1 & -> & A1)] end.
    { cbn [obind]. rewrite A1. split; [intros (t' & H); discriminate H|]. intros H. destruct (H e1). now left. }
    cbn [obind]. unfold out_mode, set_out_mode.
    match goal with |- context [t_call true ?f (ans l1 t)] => destruct (call_cases f (ans l1 t)) as [(e2 & l2 & A2 & ->)|(l2 & -> & A2)] end;
      change (answers (ans l1 t)) with l1 in A2.
    { cbn [obind]. split; [intros (t' & H); discriminate H|]. intros H. destruct (H e2).
      destruct A1 as [(-> & ->)|(n & ->)]; [discriminate A2|]. rewrite A2. right. now left. }
    cbn [obind]. rewrite ans_ans.
    match goal with |- context [t_call true ?f (ans l2 t)] => destruct (call_cases f (ans l2 t)) as [(e3 & l3 & A3 & ->)|(l3 & -> & A3)] end;
      change (answers (ans l2 t)) with l2 in A3.
    { cbn [obind]. split; [intros (t' & H); discriminate H|]. intros H. destruct (H e3).
      destruct A2 as [(-> & ->)|(m & ->)]; [discriminate A3|].
      destruct A1 as [(? & ?)|(n & ->)]; [discriminate|]. rewrite A3. right. right. now left. }
    split; [|intros _; eexists; reflexivity]. intros _ e Hin.
    destruct A1 as [(A1 & ->)|(n & A1)]; rewrite A1 in Hin; [now destruct Hin|].
    destruct A2 as [(-> & ->)|(m & ->)]; [cbn in Hin; destruct Hin as [Hin|[]]; discriminate Hin|].
    destruct A3 as [(-> & ->)|(k & ->)]; cbn in Hin; intuition discriminate. }
  unfold win_terminal_open. destruct i as [e| | |]; cbn [result_handle].
  1: { split; [intros (t' & H); discriminate H|]. intros (H & _). now destruct (H e). }
  all: destruct o as [e| | |]; cbn [result_handle];
    try (split; [intros (t' & H); discriminate H|intros (_ & H & _); discriminate H]).
  all: rewrite N; split; [intros H; split; [discriminate|]; split; [reflexivity|exact H]|intros (_ & _ & H); exact H].
Qed.
Lemma terminal_unopened i o t t' e : win_terminal_open i o t = Fail t' e -> exists l, t' = ans l t.
Proof.
  unfold win_terminal_open. destruct (result_handle i); [intros H; injection H as <- _; exists (answers t); now rewrite ans_same|].
  destruct (result_handle o); [intros H; injection H as <- _; exists (answers t); now rewrite ans_same|].
  destruct o; try (intros H; injection H as <- _; exists (answers t); now rewrite ans_same).
  unfold win_terminal_new.
  replace (on_wins get_info t) with (t_call true (fun t => (t, c_view (w_con (t_w t)))) t).
  2: { unfold t_call, on_wins, get_info, ask. destruct (c_answers (w_con (t_w t))) as [|[e'|n] l]; reflexivity. }
  unfold out_mode, set_out_mode.
  match goal with |- context [t_call true ?f t] => destruct (call_cases f t) as [(e1 & l1 & A1 & ->)|(l1 & -> & A1)] end; cbn [obind].
  { intros H. injection H as <- _. now exists l1. }
  match goal with |- context [t_call true ?f (ans l1 t)] => destruct (call_cases f (ans l1 t)) as [(e2 & l2 & A2 & ->)|(l2 & -> & A2)] end;
    rewrite ans_ans; cbn [obind].
  { intros H. injection H as <- _. now exists l2. }
  match goal with |- context [t_call true ?f (ans l2 t)] => destruct (call_cases f (ans l2 t)) as [(e3 & l3 & A3 & ->)|(l3 & -> & A3)] end;
    cbn [obind].
  { intros H. injection H as <- _. exists l3. apply ans_ans. }
  intros H. discriminate H.
Qed.

Lemma terminal_unopened_same i o t t' e : win_terminal_open i o t = Fail t' e ->
  same_buffers t t' /\ t_mode t' = t_mode t /\ c_cursor (w_con (t_w t')) = c_cursor (w_con (t_w t)) /\ t_in t' = t_in t.
Proof. intros H. destruct (terminal_unopened _ _ _ _ _ H) as (l & ->). repeat split. Qed.

Lemma input_unnoticed o t : win_terminal_open SInvalid o t = win_terminal_open SConsole o t /\
              win_terminal_open SFile o t = win_terminal_open SConsole o t.
Proof. split; reflexivity. Qed.

Lemma new_terminal_mouse E t t' u rs is :
  (32768 <= Z.of_nat (umax E))%Z -> win_terminal_new t = Ret t' u -> Forall mouse_ok rs -> says_all false 0 rs is ->
  exists rd', run_mouse E rs (w_rd (t_in t')) = Val (rd', map (fun ri => as_event (fst ri) (snd ri)) (combine rs is)).
Proof.
  intros HE H Hr Hs. destruct (terminal_new_full t t' u H) as (-> & _). apply mouse_sequence; auto. reflexivity.
Qed.

Lemma size_fits E v : (32767 <= Z.of_nat (umax E))%Z -> S_WinWriter.view_ok v ->
  let z := size_of E v in
  to_short (columns z) = cX (v_size v) /\ to_short (lines z) = cY (v_size v) /\
  columns z = Z.to_nat (cX (v_size v)) /\ lines z = Z.to_nat (cY (v_size v)).
Proof.
  intros HE V. unfold S_WinWriter.view_ok in V. cbn [size_of columns lines]. unfold to_short, as_usize.
  rewrite !Z.mod_small by lia. rewrite !Z2Nat.id by lia. split; [lia|]. split; [lia|]. auto.
Qed.

Lemma active_cur t : displayed t -> buf_of (t_active t) t = Some (cur_buf t).
Proof. intros (-> & _). unfold buf_of. now rewrite N.eqb_refl. Qed.

(** The size of the new buffer can be set, and the new buffer displayed. *)
Lemma setup_ok E t l : (32767 <= Z.of_nat (umax E))%Z -> displayed t -> S_WinWriter.view_ok (c_view (w_con (t_w t))) ->
  let a := cur_buf t in
  let h := fresh_handle t in
  let z := size_of E (c_view (w_con (t_w t))) in
  let t2 := with_else ((h, fresh_buffer a) :: t_else t) (ans l t) in
  let t3 := with_else ((h, WBuf (resize_view (Coord (to_short (columns z)) (to_short (lines z))) (b_attr a) (b_view (fresh_buffer a)))
                             (b_attr a) (25, true) 3) :: t_else t) t in
  (forall n m k, l = CTake n :: CTake m :: k -> setup_screen h z t2 = Ret (with_active h (ans k t3)) tt) /\
  (forall n k e, l = CTake n :: CFail e :: k -> setup_screen h z t2 = Fail (ans k t3) e) /\
  (forall k e, l = CFail e :: k -> setup_screen h z t2 = Fail (ans k t2) e).
Proof.
  intros HE Hd V a h z t2 t3. destruct (size_fits E _ HE V) as (Z1 & Z2 & _). fold z in Z1, Z2.
  assert (G : forall n k, l = CTake n :: k ->
    set_buffer_size h (Coord (to_short (columns z)) (to_short (lines z))) t2 = Ret (ans k t3) tt).
  { intros n k ->. unfold set_buffer_size. unfold t2. cbn [t_else with_else ans with_w lookup]. rewrite N.eqb_refl.
    rewrite Z1, Z2. cbn [fresh_buffer b_view v_win rRight rLeft rBottom rTop].
    assert (W : ((rRight (v_win (b_view a)) - rLeft (v_win (b_view a)) + 1 - 1 - 0 <? cX (v_size (c_view (w_con (t_w t)))))%Z &&
       (rBottom (v_win (b_view a)) - rTop (v_win (b_view a)) + 1 - 1 - 0 <? cY (v_size (c_view (w_con (t_w t)))))%Z = true)%bool).
    { unfold S_WinWriter.view_ok in V. change (b_view a) with (c_view (w_con (t_w t))). lia. }
    cbn [cX cY]. rewrite W. match goal with |- t_call true ?f ?t = _ => rewrite (call_take f t n k eq_refl) end.
    cbn [t_else with_else ans with_w set_buf]. rewrite N.eqb_refl. rewrite <- Z1, <- Z2. reflexivity. }
  split; [|split].
  - intros n m k E0. unfold setup_screen. rewrite (G n _ E0). cbn [obind]. unfold set_active_buffer.
    replace (buf_of h (ans (CTake m :: k) t3)) with
      (Some (WBuf (resize_view (Coord (to_short (columns z)) (to_short (lines z))) (b_attr a) (b_view (fresh_buffer a)))
                             (b_attr a) (25, true) 3)).
    2: { unfold buf_of, t3. cbn [t_out t_else with_else ans with_w lookup]. rewrite N.eqb_refl.
         destruct (fresh_new t) as (_ & F & _). destruct (N.eqb_spec (t_out t) h); [unfold h in *; congruence|reflexivity]. }
    match goal with |- t_call true ?f ?t = _ => rewrite (call_take f t m k eq_refl) end. reflexivity.
  - intros n k e E0. unfold setup_screen. rewrite (G n _ E0). cbn [obind]. unfold set_active_buffer.
    match goal with |- t_call ?v ?f ?t = _ => rewrite (call_bad f t e k eq_refl v) end. reflexivity.
  - intros k e ->. unfold setup_screen, set_buffer_size, t2. cbn [t_else with_else ans with_w lookup]. rewrite N.eqb_refl.
    match goal with |- obind (t_call ?v ?f ?t) _ = _ => rewrite (call_bad f t e k eq_refl v) end. reflexivity.
Qed.

Lemma create_take t n l : displayed t -> answers t = CTake n :: l ->
  create_buffer t = Ret (with_else ((fresh_handle t, fresh_buffer (cur_buf t)) :: t_else t) (ans l t)) (Some (fresh_handle t)).
Proof.
  intros Hd A0. unfold create_buffer. match goal with |- context [t_call true ?f t] => rewrite (call_take f t n l A0) end.
  change (buf_of (t_active (ans l t)) (ans l t)) with (buf_of (t_active t) (ans l t)).
  replace (buf_of (t_active t) (ans l t)) with (Some (cur_buf t)); [reflexivity|].
  symmetry. transitivity (buf_of (t_active t) t); [reflexivity|now apply active_cur].
Qed.

(** Entering, with the calls failing early. *)
Lemma enter_early E t l e rest : (32767 <= Z.of_nat (umax E))%Z -> displayed t -> S_WinWriter.view_ok (c_view (w_con (t_w t))) ->
  answers t = l ++ CFail e :: rest -> S_WinWriter.no_failure l -> (length l < 4)%nat -> S_WinWriter.no_failure rest ->
  exists t' r, win_enter_screen E t = Fail t' (if (length l =? 1)%nat then ERROR_INVALID_HANDLE else e) /\ same_buffers t t' /\ t_old t' = t_old t /\ t_in t' = t_in t /\
    t_mode t' = t_mode t /\ answers t' = r /\ S_WinWriter.no_failure r.
Proof.
  intros HE Hd V A0 Hl Hn Hr. unfold win_enter_screen. rewrite on_size.
  assert (D : forall k, displayed (ans k t)) by (intros; exact Hd).
  assert (V' : forall k, S_WinWriter.view_ok (c_view (w_con (t_w (ans k t))))) by (intros; exact V).
  destruct (fresh_new t) as (F1 & F2 & F3).
  destruct l as [|x l]; cbn [app] in A0.
  { match goal with |- context [t_call true ?f ?t] => rewrite (call_bad f t e rest A0) end. cbn [obind].
    exists (ans rest t), rest. repeat split. exact Hr. }
  inversion Hl as [|x1 l1 (n1 & ->) Hl']; subst.
  match goal with |- context [t_call true ?f ?t] => rewrite (call_take f t n1 _ A0) end. cbn [obind].
  change (c_view (w_con (t_w (ans (l ++ CFail e :: rest) t)))) with (c_view (w_con (t_w t))).
  destruct l as [|x l]; cbn [app].
  { unfold create_buffer. match goal with |- context [t_call true ?f ?t] => rewrite (call_bad f t e rest eq_refl) end. cbn [obind].
    exists (ans rest t), rest. repeat split. exact Hr. }
  inversion Hl' as [|x2 l2 (n2 & ->) Hl2]; subst.
  rewrite (create_take (ans (CTake n2 :: l ++ CFail e :: rest) t) n2 (l ++ CFail e :: rest) (D _) eq_refl). cbn [obind].
  change (fresh_handle (ans (CTake n2 :: l ++ CFail e :: rest) t)) with (fresh_handle t).
  change (cur_buf (ans (CTake n2 :: l ++ CFail e :: rest) t)) with (cur_buf t).
  change (t_else (ans (CTake n2 :: l ++ CFail e :: rest) t)) with (t_else t). rewrite ans_ans.
  assert (C : forall k b, S_WinWriter.no_failure k -> exists t' r,
    match close_handle (fresh_handle t) (ans k (with_else ((fresh_handle t, b) :: t_else t) t)) with
    | Ret t _ | Fail t _ => Fail t e
    | Panic => Panic
    | Blocked => Blocked
    end = (Fail t' e : tres N) /\ same_buffers t t' /\ t_old t' = t_old t /\ t_in t' = t_in t /\
    t_mode t' = t_mode t /\ answers t' = r /\ S_WinWriter.no_failure r).
  { intros k b Hk. unfold close_handle. cbn [t_else with_else ans with_w lookup]. rewrite N.eqb_refl.
    match goal with |- context [t_call true ?f ?t] => destruct (call_ok f t Hk) as (r & Hr' & ->) end. cbn iota beta zeta.
    eexists _, r. split; [reflexivity|]. unfold same_buffers. cbn [t_out t_active t_else with_else ans with_w t_w remove_buf].
    rewrite N.eqb_refl, (remove_fresh _ _ F1). repeat split; auto. }
  destruct l as [|x l]; cbn [app].
  { destruct (setup_ok E t (CFail e :: rest) HE Hd V) as (_ & _ & S3). rewrite (S3 rest e eq_refl).
    rewrite ?ans_ans.
    match goal with |- context [close_handle _ ?x] => change x with (ans rest (with_else ((fresh_handle t, fresh_buffer (cur_buf t)) :: t_else t) t)) end.
    apply C. exact Hr. }
  inversion Hl2 as [|x3 l3 (n3 & ->) Hl3]; subst. destruct l as [|x l]; [|cbn in Hn; lia]. cbn [app].
  destruct (setup_ok E t (CTake n3 :: CFail e :: rest) HE Hd V) as (_ & S2 & _). rewrite (S2 n3 rest e eq_refl).
  apply C. exact Hr.
Qed.

Lemma failed_early E cfg t l e rest :
  (32767 <= Z.of_nat (umax E))%Z -> displayed t -> S_WinWriter.view_ok (c_view (w_con (t_w t))) ->
  answers t = l ++ CFail e :: rest -> S_WinWriter.no_failure l -> (length l < 5)%nat -> S_WinWriter.no_failure rest ->
  exists t', win_screen_new E cfg t = Fail t' (if (length l =? 2)%nat then ERROR_INVALID_HANDLE else e) /\ same_buffers t t' /\ t_mode t' = t_old t /\
    c_cursor (w_con (t_w t')) = (25, true) /\ t_in t' = t_in t.
Proof.
  intros HE Hd V A0 Hl Hn Hr. unfold win_screen_new, win_screen_open. rewrite on_size.
  destruct l as [|x l]; cbn [app] in A0.
  { match goal with |- context [t_call true ?f ?t] => rewrite (call_bad f t e rest A0) end. cbn [obind].
    destruct (terminal_drop_ok (ans rest t) Hr) as (t' & -> & D1 & D2 & D3 & D4).
    exists t'. split; [reflexivity|]. auto. }
  inversion Hl as [|x1 l1 (n1 & ->) Hl']; subst.
  match goal with |- context [t_call true ?f ?t] => rewrite (call_take f t n1 _ A0) end. cbn [obind].
  destruct (enter_early E (ans (l ++ CFail e :: rest) t) l e rest HE Hd V eq_refl Hl') as (t1 & r & -> & B1 & B2 & B3 & B4 & B5 & B6).
  { cbn in Hn. lia. }
  { exact Hr. }
  cbn [obind]. rewrite <- B5 in B6. destruct (terminal_drop_ok t1 B6) as (t' & -> & D1 & D2 & D3 & D4).
  exists t'. split; [reflexivity|]. unfold same_buffers in *.
  change (t_in (ans (l ++ CFail e :: rest) t)) with (t_in t) in B3. change (t_old (ans (l ++ CFail e :: rest) t)) with (t_old t) in B2.
  destruct D1 as (D11 & D12 & D13 & D14 & D15), B1 as (B11 & B12 & B13 & B14 & B15).
  split; [|split; [congruence|split; [exact D4|congruence]]].
  repeat split; etransitivity; eauto.
Qed.

Lemma creation_lost E cfg t l e rest :
  (32767 <= Z.of_nat (umax E))%Z -> displayed t -> S_WinWriter.view_ok (c_view (w_con (t_w t))) ->
  answers t = l ++ CFail e :: rest -> S_WinWriter.no_failure l -> length l = 2%nat -> S_WinWriter.no_failure rest ->
  exists t', win_screen_new E cfg t = Fail t' ERROR_INVALID_HANDLE.
Proof.
  intros HE Hd V A0 Hl Hn Hr. destruct (failed_early E cfg t l e rest HE Hd V A0 Hl) as (t' & H & _); [lia|exact Hr|].
  rewrite Hn in H. now exists t'.
Qed.

(** Dropping the terminal never changes what is displayed. *)
Lemma drop_active t : exists t', win_terminal_drop t = Ret t' tt /\ t_active t' = t_active t.
Proof.
  unfold win_terminal_drop. rewrite on_mode. unfold set_out_mode.
  match goal with |- context [t_call true ?f t] => set (F := f); destruct (call_never true F t) as [N1 N2];
    destruct (t_call true F t) as [t1 u|t1 e| |] eqn:E1; try congruence end.
  - apply call_inv in E1. destruct E1 as (_ & l & E1). injection E1 as <- _.
    match goal with |- context [t_call true ?f ?t] => destruct (call_never true f t) as [M1 M2];
      destruct (t_call true f t) as [t2 u2|t2 e2| |] eqn:E2; try congruence end.
    + apply call_inv in E2. destruct E2 as (_ & l2 & E2). injection E2 as <- _. eexists. split; [reflexivity|reflexivity].
    + apply call_fail in E2. destruct E2 as (l2 & ->). eexists. split; [reflexivity|reflexivity].
  - apply call_fail in E1. destruct E1 as (l & ->). eexists. split; [reflexivity|reflexivity].
Qed.

(** Entering up to the switch to the new buffer. *)
Lemma enter_late E t l a b c d : (32767 <= Z.of_nat (umax E))%Z -> displayed t -> S_WinWriter.view_ok (c_view (w_con (t_w t))) ->
  answers t = CTake a :: CTake b :: CTake c :: CTake d :: l ->
  exists t', t_active t' = fresh_handle t /\ answers t' = l /\ t_in t' = t_in t /\
    win_enter_screen E t =
      let! (t2, m) := out_mode t' in
      let! (t3, _u) := set_out_mode (N.ldiff m (N.lor ENABLE_WRAP_AT_EOL_OUTPUT DISABLE_NEWLINE_AUTO_RETURN)) t2 in
      Ret t3 (t_out t).
Proof.
  intros HE Hd V A0. unfold win_enter_screen. rewrite on_size.
  match goal with |- context [t_call true ?f t] => rewrite (call_take f t _ _ A0) end. cbn [obind].
  set (k := CTake b :: CTake c :: CTake d :: l).
  change (c_view (w_con (t_w (ans k t)))) with (c_view (w_con (t_w t))).
  rewrite (create_take (ans k t) b (CTake c :: CTake d :: l) Hd eq_refl). cbn [obind].
  change (fresh_handle (ans k t)) with (fresh_handle t).
  change (cur_buf (ans k t)) with (cur_buf t). change (t_else (ans k t)) with (t_else t). rewrite ans_ans.
  destruct (setup_ok E t (CTake c :: CTake d :: l) HE Hd V) as (S1 & _ & _). rewrite (S1 c d l eq_refl).
  match goal with |- context [out_mode ?x] => exists x end.
  unfold swap_out_handle. cbn [t_else with_active with_else ans with_w lookup]. rewrite N.eqb_refl. repeat split.
Qed.

(** The same when no call fails. *)
Lemma enter_ok E t : (32767 <= Z.of_nat (umax E))%Z -> displayed t -> S_WinWriter.view_ok (c_view (w_con (t_w t))) ->
  S_WinWriter.no_failure (answers t) ->
  exists t', win_enter_screen E t = Ret t' (t_out t) /\ t_active t' = fresh_handle t /\ t_in t' = t_in t /\
    S_WinWriter.no_failure (answers t').
Proof.
  intros HE Hd V Hf. unfold win_enter_screen. rewrite on_size.
  match goal with |- context [t_call true ?f t] => destruct (call_ok f t Hf) as (k & Hk & ->) end. cbn [obind].
  change (c_view (w_con (t_w (ans k t)))) with (c_view (w_con (t_w t))).
  assert (C : exists k', S_WinWriter.no_failure k' /\ create_buffer (ans k t) =
     Ret (with_else ((fresh_handle t, fresh_buffer (cur_buf t)) :: t_else t) (ans k' t)) (Some (fresh_handle t))).
  { unfold create_buffer. match goal with |- context [t_call true ?f (ans k t)] => destruct (call_ok f (ans k t) Hk) as (k' & Hk' & ->) end.
    exists k'. split; [exact Hk'|]. cbn iota beta zeta. rewrite ans_ans.
    change (buf_of (t_active (ans k' t)) (ans k' t)) with (buf_of (t_active t) (ans k' t)).
    replace (buf_of (t_active t) (ans k' t)) with (Some (cur_buf t)); [reflexivity|].
    symmetry. transitivity (buf_of (t_active t) t); [reflexivity|now apply active_cur]. }
  destruct C as (k' & Hk' & ->). cbn [obind].
  set (z := size_of E (c_view (w_con (t_w t)))).
  assert (S : exists k2, S_WinWriter.no_failure k2 /\
    setup_screen (fresh_handle t) z (with_else ((fresh_handle t, fresh_buffer (cur_buf t)) :: t_else t) (ans k' t)) =
    Ret (with_active (fresh_handle t) (ans k2 (with_else ((fresh_handle t, WBuf (resize_view (Coord (to_short (columns z)) (to_short (lines z))) (b_attr (cur_buf t)) (b_view (fresh_buffer (cur_buf t))))
                             (b_attr (cur_buf t)) (25, true) 3) :: t_else t) t))) tt).
  { destruct (setup_ok E t (CTake 0 :: CTake 0 :: []) HE Hd V) as (_ & _ & _).
    unfold setup_screen, set_buffer_size. cbn [t_else with_else ans with_w lookup]. rewrite N.eqb_refl.
    destruct (size_fits E _ HE V) as (Z1 & Z2 & _). fold z in Z1, Z2. rewrite Z1, Z2.
    cbn [fresh_buffer b_view v_win rRight rLeft rBottom rTop cX cY].
    change (b_view (cur_buf t)) with (c_view (w_con (t_w t))).
    replace ((_ <? cX (v_size (c_view (w_con (t_w t)))))%Z && (_ <? cY (v_size (c_view (w_con (t_w t)))))%Z)%bool with true
      by (unfold S_WinWriter.view_ok in V; lia).
    match goal with |- context [t_call true ?f ?x] => destruct (call_ok f x Hk') as (k1 & Hk1 & ->) end. cbn [obind].
    unfold set_active_buffer. cbn [t_else with_else ans with_w set_buf]. rewrite N.eqb_refl.
    match goal with |- context [buf_of ?h ?x] => replace (buf_of h x) with
      (Some (WBuf (resize_view (Coord (cX (v_size (c_view (w_con (t_w t))))) (cY (v_size (c_view (w_con (t_w t)))))) (b_attr (cur_buf t)) (b_view (fresh_buffer (cur_buf t))))
                             (b_attr (cur_buf t)) (25, true) 3)) end.
    2: { unfold buf_of. cbn [t_out t_else with_else ans with_w lookup]. rewrite N.eqb_refl.
         destruct (fresh_new t) as (_ & F & _). destruct (N.eqb_spec (t_out t) (fresh_handle t)); [congruence|reflexivity]. }
    match goal with |- context [t_call true ?f ?x] => destruct (call_ok f x Hk1) as (k2 & Hk2 & ->) end. exists k2. split; [exact Hk2|]. reflexivity. }
  destruct S as (k2 & Hk2 & ->).
  unfold swap_out_handle. cbn [t_else with_active with_else ans with_w lookup]. rewrite N.eqb_refl. unfold out_mode, set_out_mode.
  match goal with |- context [t_call true ?f ?x] => destruct (call_ok f x Hk2) as (k3 & Hk3 & ->) end. cbn [obind].
  match goal with |- context [t_call true ?f ?x] => destruct (call_ok f x Hk3) as (k4 & Hk4 & ->) end. cbn [obind].
  eexists. split; [reflexivity|]. repeat split. exact Hk4.
Qed.

Lemma failed_late E cfg t e :
  (32767 <= Z.of_nat (umax E))%Z -> displayed t -> S_WinWriter.view_ok (c_view (w_con (t_w t))) ->
  (exists l rest, answers t = l ++ CFail e :: rest /\ S_WinWriter.no_failure l /\ (length l = 5 \/ length l = 6)%nat) \/
  (S_WinWriter.no_failure (answers t) /\ exists l, w_os (t_in t) = Some e :: l) ->
  exists t', win_screen_new E cfg t = Fail t' e /\ strayed t t'.
Proof.
  intros HE Hd V Hx.
  assert (D : forall t1, win_screen_open E cfg t = Fail t1 e -> t_active t1 = fresh_handle t ->
    exists t', win_screen_new E cfg t = Fail t' e /\ strayed t t').
  { intros t1 H1 H2. unfold win_screen_new. rewrite H1. destruct (drop_active t1) as (t' & -> & H3). exists t'.
    split; [reflexivity|]. destruct (fresh_new t) as (F1 & F2 & F3). unfold strayed. rewrite H3, H2. auto. }
  destruct Hx as [(l & rest & A0 & Hl & Hn)|(Hf & l & Hl)].
  - assert (L : exists x a b c d l2, l = CTake x :: CTake a :: CTake b :: CTake c :: CTake d :: l2).
    { destruct l as [|? [|? [|? [|? [|? l]]]]]; try (cbn in Hn; lia). unfold S_WinWriter.no_failure in Hl.
      inversion Hl as [|? ? (? & ->) Hl1]; subst. inversion Hl1 as [|? ? (? & ->) Hl2]; subst. inversion Hl2 as [|? ? (? & ->) Hl3]; subst.
      inversion Hl3 as [|? ? (? & ->) Hl4]; subst. inversion Hl4 as [|? ? (? & ->) Hl5]; subst. do 6 eexists. reflexivity. }
    destruct L as (x & a & b & c & d & l2 & ->). unfold win_screen_open in D. rewrite on_size in D.
    revert D. match goal with |- context [t_call true ?f t] => rewrite (call_take f t _ _ A0) end. cbn [obind]. cbn [app].
    set (k := CTake a :: _).
    destruct (enter_late E (ans k t) (l2 ++ CFail e :: rest) a b c d HE Hd V eq_refl) as (t' & B1 & B2 & B3 & ->).
    change (fresh_handle (ans k t)) with (fresh_handle t) in B1.
    destruct l2 as [|y l2]; cbn [app] in *.
    + unfold out_mode. match goal with |- context [t_call true ?f t'] => rewrite (call_bad f t' e rest B2) end. cbn [obind].
      intros D. eapply D; [reflexivity|]. exact B1.
    + destruct l2; [|cbn in Hn; lia]. cbn [app] in *.
      assert (Y : exists n, y = CTake n). { do 5 (apply Forall_inv_tail in Hl). exact (Forall_inv Hl). }
      destruct Y as (n & ->). unfold out_mode.
      match goal with |- context [t_call true ?f t'] => rewrite (call_take f t' n _ B2) end. cbn [obind].
      unfold set_out_mode. match goal with |- context [t_call true ?f ?x] => rewrite (call_bad f x e rest eq_refl) end. cbn [obind].
      intros D. eapply D; [reflexivity|]. exact B1.
  - unfold win_screen_open in D. rewrite on_size in D. revert D.
    match goal with |- context [t_call true ?f t] => destruct (call_ok f t Hf) as (k & Hk & ->) end. cbn [obind].
    destruct (enter_ok E (ans k t) HE Hd V Hk) as (t1 & -> & B1 & B2 & _). cbn [obind].
    unfold on_reader. rewrite B2. change (t_in (ans k t)) with (t_in t).
    unfold win_prepare, console_mode, wos_call. rewrite Hl. cbn [obind].
    intros D. eapply D; [reflexivity|]. exact B1.
Qed.

(** Dropping the screen when the input mode cannot be restored. *)
Lemma drop_unrestored E cfg draw ops t t1 s s' e l :
  displayed t -> win_screen_new E cfg t = Ret t1 s -> run_wsops draw E ops s = Some s' ->
  w_os (t_in (g_t s')) = Some e :: l ->
  exists t', win_screen_drop s' = Ret t' tt /\ strayed t t'.
Proof.
  intros (Ha & Ho) Hn Hr Hl. apply new_open in Hn. apply (open_inv _ _ _ _ _ Ho) in Hn.
  destruct Hn as (N1 & N2 & N3 & _ & _ & _ & N7 & N8 & _).
  apply stays_ops in Hr. destruct Hr as (S1 & S2 & S3 & S4 & _).
  unfold win_screen_drop, on_reader.
  assert (R : exists i, win_restore (g_state s') (t_in (g_t s')) = Fail i e).
  { unfold win_restore. destruct (clear_handler (g_state s')).
    - unfold set_ctrl_handler, wos_call. rewrite Hl. cbn [obind]. eauto.
    - cbn [obind]. unfold set_console_mode, wos_call. rewrite Hl. eauto. }
  destruct R as (i & ->).
  match goal with |- context [win_terminal_drop ?x] => destruct (drop_active x) as (t' & -> & H3) end.
  exists t'. split; [reflexivity|]. destruct (fresh_new t) as (F1 & F2 & F3). unfold strayed. rewrite H3.
  cbn [t_active with_in]. rewrite S4, N1, N8. auto.
Qed.

(** ** The size follows what is read *)

Lemma size_after_app E a b z : size_after E (a ++ b) z = size_after E b (size_after E a z).
Proof. apply fold_left_app. Qed.

Definition took (E : env) (s s' : wscr) : Prop :=
  exists rs, records (t_in (g_t s)) = rs ++ records (t_in (g_t s')) /\
    bsize (g_sb s') = size_after E rs (bsize (g_sb s)).
Definition took' {A} (E : env) (s : wscr) (r : gres A) : Prop :=
  match r with Ret s' _ | Fail s' _ => took E s s' | _ => True end.
Lemma took_same E s s' : t_in (g_t s') = t_in (g_t s) -> bsize (g_sb s') = bsize (g_sb s) -> took E s s'.
Proof. intros H1 H2. exists []. rewrite H1. split; [reflexivity|exact H2]. Qed.
Lemma took_refl E s : took E s s.
Proof. now apply took_same. Qed.
Lemma took_trans E a b c : took E a b -> took E b c -> took E a c.
Proof.
  intros (r1 & A1 & A2) (r2 & B1 & B2). exists (r1 ++ r2). rewrite size_after_app, <- A2, <- app_assoc, <- B1. auto.
Qed.
Lemma took_bind {A B} E s (m : gres A) (k : wscr -> A -> gres B) :
  took' E s m -> (forall s1 a, took E s s1 -> took' E s (k s1 a)) -> took' E s (obind m k).
Proof. intros H1 H2. destruct m; cbn in *; auto. Qed.
Lemma took_from {A} E s s1 (r : gres A) : took E s s1 -> took' E s1 r -> took' E s r.
Proof. intros H. destruct r; cbn; auto; apply took_trans; exact H. Qed.
Lemma took_wins {A} E (f : wins -> winres A) s : took' E s (on_term (on_wins f) s).
Proof. unfold on_term, on_wins. destruct (f (t_w (g_t s))); cbn; auto; now apply took_same. Qed.
Lemma took_drop {A} E s (r : gres A) : took' E s r -> took' E s (drop_answer r).
Proof. destruct r; auto. Qed.
Lemma took_move E p s : took' E s (gs_move_cursor p s).
Proof.
  unfold gs_move_cursor. destruct (cursor_eqb _ _); [apply took_refl|].
  apply took_bind; [apply took_wins|]. intros s1 a H. exact H.
Qed.
Lemma next_cell_size E b lo hi b' lo' r : next_cell E b lo hi = Val (b', lo', r) -> bsize b' = bsize b.
Proof.
  unfold next_cell. generalize (hi - lo)%nat. intros fuel. revert b lo.
  induction fuel as [|fuel IH]; intros b lo H; cbn [next_cell_aux] in H; [injection H as <- _ _; reflexivity|].
  destruct (hi <=? lo)%nat; [injection H as <- _ _; reflexivity|].
  destruct (nth_error (buffer b) lo) as [c|]; [|discriminate H]. destruct (first_char c) as [ch|]; [|discriminate H].
  cbv zeta in H. destruct (nth_error (back b) lo) as [k|]; [|discriminate H].
  destruct (cell_eqb c k); [now apply IH in H|]. destruct (columns (bsize b)); [discriminate H|].
  destruct (vec_set lo c (back b)); [|discriminate H]. injection H as <- _ _. reflexivity.
Qed.
Lemma took_draw draw E fuel : forall lo hi a s, took' E s (gs_draw draw E fuel lo hi a s).
Proof.
  induction fuel as [|fuel IH]; intros lo hi a s; cbn [gs_draw];
    destruct (next_cell E (g_sb s) lo hi) as [[[b lo'] [[p c]|]]|] eqn:Hn; try exact I; apply next_cell_size in Hn;
    try (now apply took_same);
    (apply took_bind; [apply (took_from E s (with_gsb b s)); [now apply took_same|apply took_move]|]; intros s1 _ H1;
     apply took_bind; [apply (took_from E _ _ _ H1); unfold gs_apply_attrs; destruct (attrs_eqb _ _); [apply took_refl|apply took_wins]|];
     intros s2 _ H2; apply took_bind; [apply (took_from E _ _ _ H2), took_wins|]; intros s3 _ H3;
     destruct (uadd _ _ _); try exact I).
  apply (took_from E s (with_greal (Cursor (line (g_real s3)) a0) s3)); [|apply IH].
  exact H3.
Qed.
Lemma took_refresh draw E s : took' E s (win_refresh draw E s).
Proof.
  unfold win_refresh. apply took_bind.
  { destruct (g_clr s); [|apply took_refl]. apply took_bind; [apply took_wins|]. intros s1 _ H. exact H. }
  intros s1 _ H1. apply took_bind; [apply (took_from E _ _ _ H1), took_wins|]. intros s2 _ H2.
  destruct (sb_indices E (g_sb s2)) as [[lo hi]|]; [|exact I].
  apply took_bind; [apply (took_from E _ _ _ H2), took_draw|]. intros s3 _ H3.
  apply took_bind; [apply (took_from E _ _ _ H3), took_wins|]. intros s4 _ H4.
  destruct (is_out_of_bounds _ _); [destruct (cursor_last _); [|exact I]|]; apply (took_from E _ _ _ H4), took_move.
Qed.

(** What the reader did to the records. *)
Lemma did_records s r s' : did s r s' -> records s = handed r ++ records s'.
Proof.
  intros (C1 & C2 & _ & l & H1 & H2 & _). unfold records. rewrite C1, C2, H1.
  assert (B : forall a b, brings (w_catch s) (w_regs s) (a ++ b) = brings (w_catch s) (w_regs s) a ++ brings (w_catch s) (w_regs s) b).
  { induction a as [|x a IH]; intros b; [reflexivity|]. destruct x as [rr|c w| |e|]; cbn [app brings]; try (now rewrite IH).
    all: try (destruct w; [destruct (caught _ _ _)|]; cbn [app]; now rewrite ?IH). }
  rewrite B, !app_assoc, H2. reflexivity.
Qed.

Lemma resized E b z b' : sb_resize E b z = Val b' -> bsize b' = z.
Proof.
  unfold sb_resize. destruct (resize_buffer _ _ _ _); [|intros H; discriminate H]. destruct (new_buffer _ _); intros H; [|discriminate H].
  now injection H as <-.
Qed.
Lemma find_size_last E rs z : match find_size E (rev rs) with Some z' => z' | None => z end = size_after E rs z.
Proof.
  induction rs as [|r rs IH] using rev_ind; [reflexivity|]. rewrite rev_app_distr, size_after_app. cbn [rev app find_size size_after fold_left].
  destruct r; cbn [size_event]; try exact IH. reflexivity.
Qed.
Lemma took_size E s s1 rs z : records (t_in (g_t s)) = rs ++ records (t_in (g_t s1)) -> bsize (g_sb s1) = bsize (g_sb s) ->
  size_after E rs (bsize (g_sb s)) = z -> took' E s (win_update_size E z s1).
Proof.
  intros H1 H2 H3. unfold win_update_size. destruct (sb_resize E (g_sb s1) z) as [b|] eqn:R; [|exact I]. apply resized in R.
  exists rs. cbn [g_t g_sb]. rewrite R, H3. auto.
Qed.

Lemma took_op draw E o s : env_ok E -> not_raw o -> took' E s (run_wsop draw E o s).
Proof.
  intros HE Ho. destruct o; cbn [run_wsop]; try contradiction.
  - destruct (run_buf_op E (g_sb s) o) as [b|] eqn:R; [|exact I]. apply took_same; [reflexivity|].
    assert (Hr : forall sz, o <> BResize sz) by (intros sz ->; contradiction).
    destruct (op_kept E HE (fun _ => True) I (g_sb s) o b Hr) as (_ & K1 & _); [|exact R|].
    { apply Forall_forall. intros x _. split; auto. }
    cbn. congruence.
  - apply took_refresh.
  - apply took_wins.
  - apply took_drop. unfold on_term, on_reader. pose proof (wait_did timeout (t_in (g_t s))) as W.
    assert (G : forall i l, w_time (t_in (g_t s)) = l ++ w_time i -> steps l (t_in (g_t s)) i -> took E s (with_gt (with_in i (g_t s)) s)).
    { intros i l L S0. exists []. cbn [g_t with_gt t_in with_in g_sb size_after fold_left app]. split; [|reflexivity].
      apply did_records with (r := RBool true). apply (steps_did l); auto. intros sig used X; discriminate X. }
    destruct (win_wait_event timeout (t_in (g_t s))) as [i b|i e| |]; cbn [took']; auto;
      destruct W as (l & W1 & W2 & _); exact (G i l W1 W2).
  - apply took_drop. unfold gs_read_event, on_term, on_reader.
    pose proof (read_event_did E timeout (t_in (g_t s))) as W.
    destruct (win_read_event E timeout (t_in (g_t s))) as [i [e rs]|i e| |]; cbn [obind took']; auto.
    + destruct W as (D & F). apply did_records in D. cbn [handed] in D. unfold follow_resize. cbn [fst].
      destruct e as [e|]; [|destruct rs; [|contradiction F]; exists []; cbn; rewrite D; auto].
      cbn in F. destruct rs as [|r [|r' rs]].
      * destruct e; try contradiction F. exists []. cbn. rewrite D. auto.
      * assert (Z : e = match size_event E r with Some z => EResize z | None => e end /\
                    (forall z, e = EResize z -> size_event E r = Some z)).
        { assert (decoded E (w_rd (t_in (g_t s))) r (w_rd i) e) as X by (destruct e; exact F). unfold decoded in X.
          destruct r; cbn [key_press_event win_mouse_event size_event] in *.
          - split; [reflexivity|]. intros z ->. match type of X with match ?kk with _ => _ end => destruct kk as [k|] end; [destruct X as (_ & X); discriminate X|].
            destruct X as (m & X1 & X2). injection X1 as _ <-. discriminate X2.
          - split; [reflexivity|]. intros z ->. destruct X as (m & X1 & X2). destruct m; discriminate X2.
          - destruct X as (m & X1 & X2). injection X1 as _ <-. split; [exact X2|]. intros z ->. congruence.
          - split; [reflexivity|]. intros z ->. destruct X as (m & X1 & X2). injection X1 as _ <-. discriminate X2. }
        destruct Z as (Z1 & Z2).
        assert (Q : match e with EResize z => True | _ => size_after E [r] (bsize (g_sb s)) = bsize (g_sb s) end).
        { destruct r; cbn [size_event] in Z1; try (destruct e; exact I || reflexivity). rewrite Z1. exact I. }
        destruct e; try (exists [r]; split; [exact D|symmetry; exact Q]).
        specialize (Z2 _ eq_refl). apply took_bind; [|intros s2 _ H; exact H].
        apply (took_size E s _ [r]); [exact D|reflexivity|]. destruct r; try discriminate Z2. injection Z2 as <-. reflexivity.
      * destruct e; contradiction F.
    + destruct W as (D & _). apply did_records in D. exists []. split; [exact D|reflexivity].
  - apply took_drop. unfold gs_read_raw_event, on_term, on_reader.
    pose proof (read_raw_event_did len timeout (t_in (g_t s))) as W.
    destruct (win_read_raw_event len timeout (t_in (g_t s))) as [i [e rs]|i e| |]; cbn [obind took']; auto.
    + destruct W as (D & _ & F). apply did_records in D. cbn [handed] in D. cbn [fst snd].
      destruct e as [[]|]; try contradiction F; try (rewrite F in D; exists []; split; [exact D|reflexivity]).
      destruct F as (-> & _). rewrite firstn_all. pose proof (find_size_last E rs (bsize (g_sb s))) as L.
      destruct (find_size E (rev rs)) as [z|].
      * apply took_bind; [|intros s2 _ H; exact H]. apply (took_size E s _ rs); [exact D|reflexivity|congruence].
      * exists rs. split; [exact D|exact L].
    + destruct W as (D & _). apply did_records in D. exists []. split; [exact D|reflexivity].
Qed.

Lemma took_ops draw E ops : env_ok E -> forall s s', Forall not_raw ops -> run_wsops draw E ops s = Some s' -> took E s s'.
Proof.
  intros HE. induction ops as [|o ops IH]; intros s s' Hn H; cbn [run_wsops] in H.
  - injection H as <-. apply took_refl.
  - inversion Hn as [|? ? Ho Hn']; subst. pose proof (took_op draw E o s HE Ho) as O.
    destruct (run_wsop draw E o s); try discriminate H; exact (took_trans _ _ _ _ O (IH _ _ Hn' H)).
Qed.

(** [read_raw] takes size records off the queue and forgets them. *)
Lemma raw_forgets len t s p r u :
  as_millis t <> Boom -> (0 < len)%nat -> rec_char r = Some u ->
  w_queue s = [SizeRec p; r] -> w_failing s = None -> unreported s = [] -> Forall quiet_tick (w_time s) ->
  exists s', win_read_raw len t s = Ret s' (Some (ERaw 1), [u]) /\ w_queue s' = [].
Proof.
  intros M Hl Hr Q F U T.
  assert (Adv : forall s1, w_queue s1 = [SizeRec p; r] -> w_failing s1 = None -> unreported s1 = [] -> Forall quiet_tick (w_time s1) ->
    let s2 := wadvance s1 in w_queue s2 = [SizeRec p; r] /\ w_failing s2 = None /\ unreported s2 = [] /\ Forall quiet_tick (w_time s2)).
  { intros s1 Q1 F1 U1 T1. unfold wadvance. destruct (quiet_after _ T1 s1) as (t' & -> & T'). auto. }
  assert (Conv : forall s1, unreported s1 = [] -> win_conv_signal (w_last s1) = None).
  { intros s1 U1. unfold unreported in U1. destruct (win_conv_signal (w_last s1)); [discriminate U1|reflexivity]. }
  assert (Aw : forall o s1, w_queue s1 = [SizeRec p; r] -> w_failing s1 = None -> wawait o (w_time s1) s1 = (with_wtime (w_time s1) s1, XReady)).
  { intros o s1 Q1 F1. destruct (w_time s1) as [|x l]; cbn [wawait]; now rewrite F1, Q1. }
  destruct (as_millis t) as [ms|] eqn:Em; [|now elim M].
  destruct (Adv s Q F U T) as (Q1 & F1 & U1 & T1). set (s1 := wadvance s) in *.
  destruct (Adv s1 Q1 F1 U1 T1) as (Q2 & F2 & U2 & T2). set (s2 := wadvance s1) in *.
  assert (W : win_wait_event t s = Ret (with_wtime (w_time s2) s2) true).
  { unfold win_wait_event, win_get_signal. cbv zeta. fold s1. rewrite (Conv s1 U1), Em.
    unfold wait_for_single_object. cbv zeta. fold s2. now rewrite (Aw _ s2 Q2 F2). }
  set (s3 := with_wtime (w_time s2) s2) in *.
  destruct (Adv s3) as (Q4 & F4 & U4 & T4); auto. set (s4 := wadvance s3) in *.
  assert (Hroom : (0 < N.to_nat (to_dword len))%nat) by (unfold to_dword, DWORD_MAX; lia).
  set (s5 := with_wlast NO_SIGNAL s4).
  destruct (Adv s5) as (Q6 & F6 & U6 & T6); auto. set (s6 := wadvance s5) in *.
  unfold win_read_raw. rewrite W. cbn [obind negb]. unfold win_take_signal. cbv zeta. fold s4. rewrite (Conv s4 U4).
  fold s5. fold s6.
  set (room := N.to_nat (to_dword len)) in *. clearbody room. rewrite Q6. cbn [length Nat.add].
  cbn [read_console]. destruct (Nat.eqb_spec room 0); [lia|]. rewrite (Aw _ s6 Q6 F6).
  assert (Tk : take_chars room (w_queue (with_wtime (w_time s6) s6)) = ([u], [])).
  { cbn [w_queue with_wtime]. rewrite Q6. destruct room; [lia|]. cbn. rewrite Hr. destruct room; reflexivity. }
  rewrite Tk. cbn [obind length]. eexists. split; [reflexivity|]. reflexivity.
Qed.

Lemma raw_unresized E len t s s' r : gs_read_raw E len t s = Ret s' r -> g_sb s' = g_sb s.
Proof.
  unfold gs_read_raw, on_term, on_reader.
  assert (X : forall i, match win_read_raw len t i with Ret _ (Some (EResize _), _) => False | _ => True end).
  { intros i. unfold win_read_raw. destruct (win_wait_event t i) as [i1 []| | |]; cbn [obind negb]; auto.
    destruct (win_take_signal i1) as [i2 [sig|]]; auto. cbv zeta.
    destruct (read_console _ _ _) as [i3 [|]| | |]; cbn [obind]; auto. }
  specialize (X (t_in (g_t s))). destruct (win_read_raw len t (t_in (g_t s))) as [i [[[]|] us]| | |]; cbn [obind];
    intros H; try discriminate H; try contradiction X; injection H as <- _; reflexivity.
Qed.

Lemma raw_loses_size E len t s p r u :
  as_millis t <> Boom -> (0 < len)%nat -> rec_char r = Some u ->
  w_queue (t_in (g_t s)) = [SizeRec p; r] -> w_failing (t_in (g_t s)) = None -> unreported (t_in (g_t s)) = [] ->
  Forall quiet_tick (w_time (t_in (g_t s))) ->
  exists s', gs_read_raw E len t s = Ret s' (Some (ERaw 1), [u]) /\ w_queue (t_in (g_t s')) = [] /\
    bsize (g_sb s') = bsize (g_sb s).
Proof.
  intros M Hl Hr Q F U T. destruct (raw_forgets len t _ p r u M Hl Hr Q F U T) as (i & H1 & H2).
  unfold gs_read_raw, on_term, on_reader. rewrite H1. cbn [obind follow_resize fst]. eexists. split; [reflexivity|]. auto.
Qed.
