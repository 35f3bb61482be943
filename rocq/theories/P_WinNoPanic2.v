(** Proofs about panics on Windows (C108): screens. *)
From Verif Require Import Base M_Utf8 M_Geom S_Geom P_Geom M_Attr M_Buf S_Buf P_Buf P_Buf2 M_Signal M_Util M_Input M_Writer M_Screen P_Screen P_Screen2 P_Screen4 M_Prepare M_Reader
  M_WinWriter M_WinReader S_WinReader S_WinWriter P_WinReader P_WinPrepare M_WinScreen S_WinScreen P_WinScreen S_Overrun P_Overrun
  M_UnixScreen S_UnixScreen S_NoPanic P_NoPanic2 P_NoPanic3 P_NoPanic4 S_WinNoPanic P_WinNoPanic.
Local Open Scope nat_scope.

Section Screen.
  Variables (draw : list N -> N -> view -> view) (E : env).
  Hypothesis HE : env_ok E.
  Hypothesis Hd : keeps_order draw.
  Variable s0 : wsys.

  (** The screen's buffer and the console's are in order; no other size records come. *)
  Definition winv (st : size * cursor) (s : wscr) : Prop :=
    buf_ok E (g_sb s) /\ screen_at s = st /\ vok (t_w (g_t s)) /\ fewer s0 (t_in (g_t s)).

  (** The console's calls: they return. *)
  Definition wstays {A} (st : size * cursor) (r : gres A) : Prop :=
    match r with Ret s _ | Fail s _ => winv st s | _ => False end.
  (** They return or the screen has no cell. *)
  Definition wmay {A} (st : size * cursor) (r : gres A) : Prop :=
    match r with Ret s _ | Fail s _ => winv st s | Panic => total (fst st) = 0 | Blocked => False end.
  Lemma wstays_may {A} st (r : gres A) : wstays st r -> wmay st r.
  Proof. destruct r; cbn; auto. contradiction. Qed.
  Lemma wmay_bind {A B} st (m : gres A) (k : wscr -> A -> gres B) :
    wmay st m -> (forall s a, winv st s -> wmay st (k s a)) -> wmay st (obind m k).
  Proof. intros H1 H2. destruct m; cbn in *; auto. Qed.
  Lemma wstays_on {A} st (f : wins -> winres A) s : (forall w, vok w -> vsound (f w)) -> winv st s -> wstays st (on_term (on_wins f) s).
  Proof.
    intros Hf (H1 & H2 & H3 & H4). specialize (Hf _ H3). unfold on_term, on_wins. destruct (f (t_w (g_t s))); cbn in *; auto; split; auto.
  Qed.
  Lemma wstays_move st p s : winv st s -> wstays st (gs_move_cursor p s).
  Proof.
    intros H. unfold gs_move_cursor. destruct (cursor_eqb _ _); [exact H|].
    pose proof (wstays_on st (win_move_cursor p) s (sound_position _) H) as M.
    destruct (on_term _ s); cbn in *; auto.
  Qed.
  Lemma wstays_attrs st a b s : winv st s -> wstays st (gs_apply_attrs a b s).
  Proof.
    intros H. unfold gs_apply_attrs. destruct (attrs_eqb _ _); [exact H|]. apply wstays_on; [|exact H]. intros w Hw. now apply sound_attributes.
  Qed.
  Lemma wstays_clear st s : winv st s -> wstays st (gs_clear_attributes s).
  Proof. intros H. apply wstays_on; [|exact H]. intros w Hw. now apply sound_attributes. Qed.

  Lemma greal_on {A} (f : wins -> winres A) s : match on_term (on_wins f) s with Ret y _ => g_real y = g_real s | _ => True end.
  Proof. unfold on_term, on_wins. destruct (f (t_w (g_t s))); auto. Qed.
  Lemma greal_move p s : match gs_move_cursor p s with Ret y _ => g_real y = p | _ => True end.
  Proof.
    unfold gs_move_cursor. destruct (cursor_eqb (g_real s) p) eqn:Eq; [now apply cursor_eqb_eq|].
    destruct (on_term _ s); cbn; auto.
  Qed.
  Lemma greal_attrs a b s : match gs_apply_attrs a b s with Ret y _ => g_real y = g_real s | _ => True end.
  Proof. unfold gs_apply_attrs. destruct (attrs_eqb _ _); [reflexivity|]. apply greal_on. Qed.

  Lemma wstays_draw st fuel : forall lo hi a s, hi - lo <= fuel -> hi = total (fst st) -> winv st s -> wstays st (gs_draw draw E fuel lo hi a s).
  Proof.
    induction fuel as [|fuel IH]; intros lo hi a s Hfu Hhi Hs; destruct Hs as (Hb & Hst & Hv & Hf);
      assert (Hhi' : hi = total (bsize (g_sb s))) by (rewrite Hhi, <- Hst; reflexivity);
      cbn [gs_draw]; unfold next_cell;
      destruct (next_cell_val E hi (g_sb s) Hb Hhi' (hi - lo) lo) as ([[b' lo'] [[p c]|]] & R1 & R2); rewrite R1.
    1: destruct R2 as (_ & _ & _ & _ & R2 & _); lia.
    1, 3: subst b'; cbn; split; auto.
    destruct R2 as (P1 & P2 & P3 & P4 & P5 & P6).
    assert (Hs' : winv st (with_gsb b' s)) by (split; [exact P2|split; [unfold screen_at in *; cbn; congruence|split; [exact Hv|exact Hf]]]).
    pose proof (wstays_move st p _ Hs') as M. pose proof (greal_move p (with_gsb b' s)) as M'.
    destruct (gs_move_cursor p (with_gsb b' s)) as [s1 u1|s1 e| |]; cbn [obind wstays] in *; auto.
    pose proof (wstays_attrs st a (cattrs c) s1 M) as A. pose proof (greal_attrs a (cattrs c) s1) as A'.
    destruct (gs_apply_attrs a (cattrs c) s1) as [s2 u2|s2 e| |]; cbn [obind wstays] in *; auto.
    pose proof (wstays_on st (win_write_str draw (ctext c)) s2 (sound_write draw Hd (ctext c)) A) as T.
    pose proof (greal_on (win_write_str draw (ctext c)) s2) as T'.
    destruct (on_term _ s2) as [s3 u3|s3 e| |]; cbn [obind wstays] in *; auto.
    rewrite T', A', M'. destruct Hb as (B1 & _). destruct (lines_bound _ _ _ B1 P1) as [_ Hcb].
    unfold uadd. destruct (Nat.leb_spec (column p + 1) (umax E)); [|lia].
    apply IH; [lia|exact Hhi|exact T].
  Qed.

  Lemma wmay_refresh st s : winv st s -> wmay st (win_refresh draw E s).
  Proof.
    intros Hs. unfold win_refresh. apply wmay_bind.
    { apply wstays_may. destruct (g_clr s); [|exact Hs].
      pose proof (wstays_on st (win_clear_screen (t_default (g_t s))) s (sound_clear_screen _) Hs) as C.
      destruct (on_term _ s); cbn in *; auto. }
    intros s1 u1 H1. apply wmay_bind; [apply wstays_may; now apply wstays_clear|]. intros s2 u2 H2.
    assert (H2' := H2). destruct H2' as ((B1 & _) & Hst & _). unfold sb_indices, area, checked_area. unfold total in B1.
    destruct (Nat.leb_spec (lines (bsize (g_sb s2)) * columns (bsize (g_sb s2))) (umax E)); [|lia].
    apply wmay_bind; [apply wstays_may, wstays_draw; [lia|rewrite <- Hst; reflexivity|exact H2]|]. intros s3 u3 H3.
    apply wmay_bind; [apply wstays_may; now apply wstays_clear|]. intros s4 u4 H4.
    destruct (is_out_of_bounds _ _); [|apply wstays_may; now apply wstays_move].
    destruct (cursor_last (bsize (g_sb s4))) as [p|] eqn:El; [apply wstays_may; now apply wstays_move|].
    cbn [wmay]. destruct H4 as (_ & Hst4 & _). rewrite <- Hst4. unfold screen_at, total. cbn [fst].
    unfold cursor_last, usub in El. destruct (Nat.leb_spec 1 (lines (bsize (g_sb s4)))); [|nia].
    destruct (Nat.leb_spec 1 (columns (bsize (g_sb s4)))); [discriminate El|nia].
  Qed.

  Lemma wdraw_buffer st o s : winv st s ->
    match run_buf_op E (g_sb s) o with
    | Val b => exists st', go E st o = Some st' /\ winv st' (with_gsb b s)
    | Boom => go E st o = None
    end.
  Proof.
    intros (H1 & H2 & H3 & H4). pose proof (op_ends E HE (g_sb s) o H1) as G. unfold screen_at in H2. rewrite H2 in G. unfold P_Overrun.ends in G.
    destruct (go E st o) as [[sz p]|].
    - destruct G as (b & -> & A1 & A2 & A3). exists (sz, p). split; [reflexivity|]. split; [exact A1|].
      split; [unfold screen_at; cbn; congruence|split; [exact H3|exact H4]].
    - now rewrite G.
  Qed.

  (** A new size. *)
  Lemma update_inv st z s : winv st s ->
    match win_update_size E z s with
    | Ret s' _ => exists st', go E st (BResize z) = Some st' /\ winv st' s'
    | Panic => go E st (BResize z) = None
    | _ => False
    end.
  Proof.
    intros Hs. pose proof (wdraw_buffer st (BResize z) s Hs) as D. cbn [run_buf_op] in D. unfold win_update_size.
    destruct (sb_resize E (g_sb s) z) as [b|]; [|exact D]. exact D.
  Qed.
  Lemma winv_in st i s : fewer (t_in (g_t s)) i -> winv st s -> winv st (with_gt (with_in i (g_t s)) s).
  Proof. intros F (H1 & H2 & H3 & H4). split; [exact H1|]. split; [exact H2|]. split; [exact H3|]. exact (fewer_trans _ _ _ H4 F). Qed.
  Lemma told_in st s z : winv st s -> told_size E (t_in (g_t s)) z -> told_size E s0 z.
  Proof. intros (_ & _ & _ & F) H. apply told_records in H as (p & P1 & P2). apply told_records. exists p. split; [apply F, P1|exact P2]. Qed.

  (** Where the call takes a screen. *)
  Definition goes_to (st : size * cursor) (o : wsop) (st' : size * cursor) : Prop :=
    match o with
    | SBuffer b => go E st b = Some st'
    | SReadEvent _ | SReadRawEvent _ _ => st' = st \/ exists z, told_size E s0 z /\ go E st (BResize z) = Some st'
    | _ => st' = st
    end.
  Lemma resized_to st s o z : winv st s -> told_size E s0 z ->
    (match o with SReadEvent t | SReadRawEvent _ t => True | _ => False end) -> forall {A} (a : A),
    match drop_answer (let! (s, _u) := win_update_size E z s in Ret s a) with
    | Ret s' _ | Fail s' _ => exists st', goes_to st o st' /\ winv st' s'
    | Panic => win_reason E s0 st o
    | Blocked => waiting o
    end.
  Proof.
    intros Hs Hz Ho A a. pose proof (update_inv st z s Hs) as U. destruct (win_update_size E z s) as [s1 u|s1 e| |]; cbn [obind drop_answer] in *; try contradiction.
    - destruct U as (st' & U1 & U2). exists st'. split; [|exact U2]. destruct o; cbn; try contradiction; right; exists z; auto.
    - destruct o; cbn; try contradiction; right; exists z; auto.
  Qed.
  Lemma call_ends st o s : act_ok (WCall o) -> winv st s ->
    match run_wsop draw E o s with
    | Ret s' _ | Fail s' _ => exists st', goes_to st o st' /\ winv st' s'
    | Panic => win_reason E s0 st o
    | Blocked => waiting o
    end.
  Proof.
    intros Ho Hs. destruct o; cbn [run_wsop].
    - pose proof (wdraw_buffer st o s Hs) as D. destruct (run_buf_op E (g_sb s) o); [|exact D]. exact D.
    - pose proof (wmay_refresh st s Hs) as R. destruct (win_refresh draw E s); cbn [wmay] in R; try exact R; try contradiction; exists st; (split; [reflexivity|exact R]).
    - pose proof (wstays_on st (win_set_cursor_mode m) s (sound_cursor_info _) Hs) as R.
      destruct (on_term _ s); cbn [wstays] in R; try contradiction; exists st; (split; [reflexivity|exact R]).
    - unfold on_term, on_reader. pose proof (wait_fewer timeout (t_in (g_t s))) as W.
      destruct (win_wait_event timeout (t_in (g_t s))) as [i b|i e| |]; cbn [drop_answer win_reason waiting]; auto;
        exists st; (split; [reflexivity|]); now apply winv_in.
    - unfold gs_read_event, on_term, on_reader. pose proof (event_fewer E timeout (t_in (g_t s))) as W.
      destruct (win_read_event E timeout (t_in (g_t s))) as [i [e rs]|i e| |]; cbn [obind drop_answer win_reason waiting]; auto.
      + destruct W as [W1 W2]. pose proof (winv_in st i s W1 Hs) as Hi. unfold follow_resize. cbn [fst].
        assert (St : exists st', goes_to st (SReadEvent timeout) st' /\ winv st' (with_gt (with_in i (g_t s)) s)) by (exists st; split; [now left|exact Hi]).
        destruct e as [[k|mo|n|z|sg|]|]; try exact St.
        apply (resized_to st _ (SReadEvent timeout) z Hi); [|exact I]. exact (told_in st s z Hs (W2 z eq_refl)).
      + exists st. split; [now left|]. now apply winv_in.
    - unfold gs_read_raw, on_term, on_reader. pose proof (raw_fewer len timeout (t_in (g_t s))) as W.
      destruct (win_read_raw len timeout (t_in (g_t s))) as [i [e us]|i e| |]; cbn [obind drop_answer win_reason waiting]; auto.
      + destruct W as [W1 W2]. pose proof (winv_in st i s W1 Hs) as Hi. unfold follow_resize. cbn [fst].
        assert (St : exists st', goes_to st (SReadRaw len timeout) st' /\ winv st' (with_gt (with_in i (g_t s)) s)) by (exists st; split; [reflexivity|exact Hi]).
        destruct e as [[k|mo|n|z|sg|]|]; try exact St. now elim (W2 z).
      + exists st. split; [reflexivity|]. now apply winv_in.
    - unfold gs_read_raw_event, on_term, on_reader. pose proof (raw_event_fewer E len timeout (t_in (g_t s))) as W.
      destruct (win_read_raw_event len timeout (t_in (g_t s))) as [i [e rs]|i e| |]; cbn [obind drop_answer win_reason waiting]; auto.
      + destruct W as [W1 W2]. pose proof (winv_in st i s W1 Hs) as Hi. cbn [fst snd].
        assert (St : exists st', goes_to st (SReadRawEvent len timeout) st' /\ winv st' (with_gt (with_in i (g_t s)) s)) by (exists st; split; [now left|exact Hi]).
        destruct e as [[k|mo|n|z|sg|]|]; try exact St. destruct (find_size E (rev (firstn n rs))) as [z|] eqn:Ez; [|exact St].
        apply (resized_to st _ (SReadRawEvent len timeout) z Hi); [|exact I]. exact (told_in st s z Hs (W2 z n Ez)).
      + exists st. split; [now left|]. now apply winv_in.
  Qed.

  Lemma acts_inv l : forall st s s', Forall act_ok l -> winv st s -> wacts draw E l s = Some s' -> winv (screen_at s') s'.
  Proof.
    induction l as [|[o|v] l IH]; intros st s s' Ha Hs; cbn [wacts].
    - intros [= <-]. destruct Hs as (H1 & H2 & H3). split; [exact H1|]. split; [reflexivity|exact H3].
    - inversion Ha as [|? ? A1 A2]; subst. pose proof (call_ends st o s A1 Hs) as C.
      destruct (run_wsop draw E o s) as [s1 u|s1 e| |]; try discriminate; destruct C as (st' & _ & C); exact (IH st' s1 s' A2 C).
    - inversion Ha as [|? ? A1 A2]; subst. apply (IH st); [exact A2|]. destruct Hs as (H1 & H2 & H3 & H4).
      split; [exact H1|]. split; [exact H2|]. split; [exact A1|exact H4].
  Qed.
End Screen.

(** Making and dropping screens. *)
Lemma call_returns {A} v (f : wterm -> wterm * A) t : match t_call v f t with Panic | Blocked => False | _ => True end.
Proof. destruct (call_never v f t) as [H1 H2]. destruct (t_call v f t); auto. Qed.
Definition returns {A} (r : tres A) : Prop := match r with Panic | Blocked => False | _ => True end.
Lemma returns_bind {A B} (m : tres A) (k : wterm -> A -> tres B) : returns m -> (forall t a, returns (k t a)) -> returns (obind m k).
Proof. intros H1 H2. destruct m; cbn in *; auto. Qed.
Lemma enter_returns E t : returns (win_enter_screen E t).
Proof.
  unfold win_enter_screen. rewrite on_size. apply returns_bind; [apply call_returns|]. intros t1 z.
  apply returns_bind; [unfold create_buffer; match goal with |- context [t_call true ?f ?x] => generalize (call_returns true f x); destruct (t_call true f x); auto end|].
  intros t2 [h|]; [|exact I].
  assert (S : returns (setup_screen h z t2)).
  { unfold setup_screen, set_buffer_size, set_active_buffer. apply returns_bind; [destruct (lookup h (t_else t2)); apply call_returns|].
    intros t3 _. apply call_returns. }
  destruct (setup_screen h z t2) as [t3 u|t3 e| |]; try contradiction.
  - apply returns_bind; [apply call_returns|]. intros t4 m. apply returns_bind; [apply call_returns|]. intros t5 _. exact I.
  - pose proof (call_returns (match lookup h (t_else t3) with Some _ => true | None => false end)
      (fun t => (with_else (remove_buf h (t_else t)) t, tt)) t3) as C. unfold close_handle.
    destruct (t_call _ _ t3); auto.
Qed.
Lemma screen_drop_returns s : exists t, win_screen_drop s = Ret t tt.
Proof.
  unfold win_screen_drop, on_reader. pose proof (restore_leaves _ _ (g_state s) (t_in (g_t s)) (conj eq_refl eq_refl)) as L.
  destruct (win_restore (g_state s) (t_in (g_t s))) as [i u|i e| |]; cbn [leaves] in L; try contradiction.
  - assert (X : returns (win_exit_screen (g_old s) (with_in i (g_t s)))).
    { unfold win_exit_screen, set_active_buffer, close_handle. apply returns_bind; [apply call_returns|]. intros t1 _. apply call_returns. }
    destruct (win_exit_screen _ _) as [t1 u1|t1 e1| |]; try contradiction; destruct (drop_active t1) as (t2 & -> & _); now exists t2.
  - match goal with |- exists t, win_terminal_drop ?x = _ => destruct (drop_active x) as (t2 & -> & _) end. now exists t2.
Qed.

Lemma open_returns E cfg t : win_screen_open E cfg t <> Blocked /\
  (win_screen_open E cfg t = Panic -> umax E < total (size_of E (c_view (w_con (t_w t))))).
Proof.
  unfold win_screen_open. rewrite on_size. pose proof (call_returns true (fun t => (t, size_of E (c_view (w_con (t_w t))))) t) as C.
  destruct (t_call true _ t) as [t1 z|t1 e| |] eqn:Et; try contradiction; cbn [obind]; [|split; discriminate].
  apply call_inv in Et. destruct Et as (_ & l & Et). injection Et as <- <-.
  change (c_view (w_con (t_w (ans l t)))) with (c_view (w_con (t_w t))).
  pose proof (enter_returns E (ans l t)) as N. destruct (win_enter_screen E (ans l t)) as [t2 old|t2 e| |]; try contradiction; cbn [obind]; [|split; discriminate].
  unfold on_reader. pose proof (prepare_leaves _ _ cfg (t_in t2) (conj eq_refl eq_refl)) as L.
  destruct (win_prepare cfg (t_in t2)) as [i st|i e| |]; cbn [leaves] in L; try contradiction; cbn [obind]; [|split; discriminate].
  destruct (sb_new E _) as [b|] eqn:Eb; (split; [discriminate|]); [discriminate|]. intros _.
  unfold sb_new, area, checked_area in Eb. unfold total.
  match type of Eb with context [?a <=? ?b] => destruct (Nat.leb_spec a b) end; [discriminate Eb|lia].
Qed.
Lemma new_returns E cfg t : win_screen_new E cfg t <> Blocked /\
  (win_screen_new E cfg t = Panic -> umax E < total (size_of E (c_view (w_con (t_w t))))).
Proof.
  pose proof (open_returns E cfg t) as O. unfold win_screen_new. destruct (win_screen_open E cfg t) as [t1 s|t1 e| |]; auto.
  destruct (drop_active t1) as (t2 & -> & _). split; discriminate.
Qed.

Lemma new_winv E cfg t t1 s : env_ok E -> (32767 <= Z.of_nat (umax E))%Z -> displayed t -> vok (t_w t) -> win_screen_new E cfg t = Ret t1 s ->
  winv E (t_in t) (size_of E (c_view (w_con (t_w t))), Cursor 0 0) s.
Proof.
  intros HE Hu Hd V H. apply new_open in H. assert (H0 := H). apply open_inv in H; [|apply Hd].
  destruct H as (G1 & G2 & G3 & G4 & G5 & G6 & G7 & G8 & G9 & G10 & G11 & G12 & G13 & G14). destruct G14 as [G14 _].
  rewrite (active_cur t Hd) in G14. destruct (size_fits E _ Hu V) as (Z1 & Z2 & Z3 & Z4).
  set (z := size_of E (c_view (w_con (t_w t)))) in *.
  assert (Hb : total z <= umax E).
  { unfold sb_new, area, checked_area in G6. unfold total. destruct (Nat.leb_spec (lines z * columns z) (umax E)); [assumption|discriminate G6]. }
  destruct (P_Buf2.new_ok (umax E) ltac:(lia) E z HE Hb) as (b & B1 & B2 & B3 & B4 & _). rewrite B1 in G6. injection G6 as G6.
  split; [rewrite <- G6; exact B2|]. split; [unfold screen_at; rewrite <- G6; congruence|]. split.
  - unfold vok. rewrite G1, G14. unfold resize_view, fresh_buffer, vok, view_ok in *. cbn [b_view cur_buf v_size v_cur v_win cX cY rTop rBottom rLeft rRight].
    rewrite Z1, Z2. lia.
  - rewrite G1. unfold win_screen_open in H0. rewrite on_size in H0.
    apply bind_ret in H0. destruct H0 as (t2 & z2 & A1 & A2). apply call_inv in A1. destruct A1 as (_ & l1 & A1). injection A1 as <- <-.
    apply bind_ret in A2. destruct A2 as (t3 & old & A3 & A4). apply enter_inv in A3; [|apply Hd]. destruct A3 as (_ & _ & _ & _ & _ & _ & A3 & _).
    apply bind_ret in A4. destruct A4 as (t4 & st & A5 & A6). apply on_reader_inv in A5. destruct A5 as (i & A5 & ->).
    destruct (sb_new E _) as [b'|]; [|discriminate A6]. injection A6 as <- _. cbn [t_in with_in].
    rewrite A3 in A5. change (t_in (ans l1 t)) with (t_in t) in A5.
    pose proof (prepare_leaves _ _ cfg (t_in t) (conj eq_refl eq_refl)) as L. rewrite A5 in L. destruct L as [L1 L2].
    intros p Hp.
    unfold records in *. rewrite L1, L2 in Hp. apply in_app_or in Hp. apply in_or_app. destruct Hp as [Hp|Hp]; [now left|right].
    revert Hp. generalize (w_time (t_in t)) (w_catch i) (w_regs i) (w_catch (t_in t)) (w_regs (t_in t)). clear.
    induction l as [|x l IH]; intros c n c' n'; [auto|]. destruct x as [r|k w| |e|]; cbn [brings In]; auto.
    + intros [H|H]; [now left|right; exact (IH _ _ _ _ H)].
    + destruct w; [|apply IH]. destruct (caught c n k), (caught c' n' k); cbn; try (intros [H|H]; [discriminate H|]); try intros H; try right; exact (IH _ _ _ _ H).
    + apply IH.
    + apply IH.
    + apply IH.
Qed.

Section Whole.
  Variables (draw : list N -> N -> view -> view) (E : env).
  Hypothesis HE : env_ok E.
  Hypothesis Hd : keeps_order draw.
  Hypothesis Hu : (32767 <= Z.of_nat (umax E))%Z.

  Lemma win_causes cfg t0 t1 s l s' : displayed t0 -> view_ok (c_view (w_con (t_w t0))) -> win_screen_new E cfg t0 = Ret t1 s ->
    Forall act_ok l -> wacts draw E l s = Some s' ->
    (forall b, run_wsop draw E (SBuffer b) s' = Panic <-> go E (screen_at s') b = None) /\
    (forall o, act_ok (WCall o) -> run_wsop draw E o s' = Panic -> win_reason E (t_in t0) (screen_at s') o) /\
    (forall o, act_ok (WCall o) -> run_wsop draw E o s' = Blocked -> waiting o) /\
    exists t', win_screen_drop s' = Ret t' tt.
  Proof.
    intros Hdi Hv Hn Ha Hr. pose proof (new_winv E cfg t0 t1 s HE Hu Hdi Hv Hn) as Hi.
    pose proof (acts_inv draw E HE Hd (t_in t0) l _ s s' Ha Hi Hr) as Hs. split; [|split; [|split]].
    - intros b. cbn [run_wsop]. pose proof (wdraw_buffer E HE (t_in t0) (screen_at s') b s' Hs) as D.
      destruct (run_buf_op E (g_sb s') b); [|tauto]. destruct D as (st' & D & _). split; [discriminate|congruence].
    - intros o Ho Hp. pose proof (call_ends draw E HE Hd (t_in t0) _ o s' Ho Hs) as C. now rewrite Hp in C.
    - intros o Ho Hp. pose proof (call_ends draw E HE Hd (t_in t0) _ o s' Ho Hs) as C. now rewrite Hp in C.
    - apply screen_drop_returns.
  Qed.

  Section Never.
    Variable i0 : wsys.
    Variable z0 : size.
    Hypothesis Hz0 : 0 < lines z0 /\ 2 <= columns z0 /\ total z0 <= umax E.
    Hypothesis Hdec : decent_records E i0.
    Definition wlow (n : nat) (st : size * cursor) : Prop :=
      (fst st = z0 \/ told_size E i0 (fst st)) /\ line (snd st) <= n.
    Lemma wlow_size n st : wlow n st -> 0 < lines (fst st) /\ 2 <= columns (fst st) /\ total (fst st) <= umax E.
    Proof. intros [[H|H] _]; [rewrite H; exact Hz0|exact (Hdec _ H)]. Qed.
    Lemma wresize st z : told_size E i0 z -> go E st (BResize z) = Some (z, snd st).
    Proof.
      intros Hz. destruct st as [sz p]. cbn [go snd]. destruct (Hdec z Hz) as (H1 & H2 & H3). unfold total in H3.
      destruct (Nat.leb_spec (lines z * columns z) (umax E)); [|lia].
      destruct (Nat.eqb_spec (columns z) 0); [lia|]. rewrite andb_false_r. reflexivity.
    Qed.
    Lemma wstep_low n st o st' : act_ok (WCall o) -> wlow n st -> goes_to E i0 st o st' -> wlow (n + weights (act_drawings (WCall o))) st'.
    Proof.
      intros Ho Hl Hg. assert (Hl' := Hl). destruct Hl' as [L1 L2]. destruct (wlow_size n st Hl) as (Z1 & Z2 & Z3).
      assert (Hr : (st' = st \/ exists z, told_size E i0 z /\ go E st (BResize z) = Some st') -> wlow n st').
      { intros [->|(z & T & G)]; [exact Hl|]. rewrite (wresize st z T) in G. injection G as <-. split; [right; exact T|exact L2]. }
      destruct o; cbn [goes_to act_drawings] in *; try (rewrite Nat.add_0_r; apply Hr; auto; fail).
      destruct st as [sz p]. cbn [fst snd] in *.
      assert (Hp' : public_gop (GBuffer o)) by (destruct o; auto).
      pose proof (go_down E sz p o Z2 Hp') as G. rewrite Hg in G. destruct st' as [sz' q]. destruct G as [-> G].
      split; [exact L1|]. cbn [snd]. rewrite weights_cons. change (weights []) with 0. lia.
    Qed.
    Lemma wacts_low l : forall n st s s', Forall act_ok l -> winv E i0 st s -> wlow n st -> wacts draw E l s = Some s' ->
      wlow (n + weights (flat_map act_drawings l)) (screen_at s') /\ winv E i0 (screen_at s') s'.
    Proof.
      induction l as [|[o|v] l IH]; intros n st s s' Ha Hs Hl; cbn [wacts].
      - intros [= <-]. cbn [flat_map]. rewrite Nat.add_0_r. assert (Hs' := Hs). destruct Hs' as (H1 & H2 & H3). split; [now rewrite H2|].
        split; [exact H1|]. split; [reflexivity|exact H3].
      - inversion Ha as [|? ? A1 A2]; subst. pose proof (call_ends draw E HE Hd i0 st o s A1 Hs) as C. cbn [flat_map]. rewrite weights_app, Nat.add_assoc.
        destruct (run_wsop draw E o s) as [s1 u|s1 e| |]; try discriminate; destruct C as (st' & C1 & C2);
          exact (IH _ st' s1 s' A2 C2 (wstep_low n st o st' A1 Hl C1)).
      - inversion Ha as [|? ? A1 A2]; subst. cbn [flat_map act_drawings app]. apply (IH n st); [exact A2| |exact Hl].
        destruct Hs as (H1 & H2 & H3 & H4). split; [exact H1|]. split; [exact H2|]. split; [exact A1|exact H4].
    Qed.
    Lemma wnever l o more st n s' : n = weights (flat_map act_drawings l) -> st = screen_at s' -> winv E i0 st s' -> wlow n st ->
      act_ok (WCall o) -> modest_acts E (l ++ WCall o :: more) -> modest_call (WCall o) -> run_wsop draw E o s' <> Panic.
    Proof.
      intros -> -> Hi Hl Ho Hm Ht Hp. pose proof (call_ends draw E HE Hd i0 _ o s' Ho Hi) as C. rewrite Hp in C.
      destruct (wlow_size _ _ Hl) as (Z1 & Z2 & Z3).
      unfold modest_acts in Hm. rewrite flat_map_app, weights_app in Hm. cbn [flat_map] in Hm. rewrite weights_app in Hm.
      assert (Hbad : ~ exists z, told_size E i0 z /\ go E (screen_at s') (BResize z) = None).
      { intros (z & T & G). rewrite (wresize _ z T) in G. discriminate G. }
      destruct o; cbn [win_reason modest_call act_drawings] in *; try contradiction.
      - destruct (screen_at s') as [sz p]. cbn [fst snd] in *. assert (Hp' : public_gop (GBuffer o)) by (destruct o; auto).
        pose proof (go_down E sz p o Z2 Hp') as G. rewrite C in G. destruct Hl as [_ Hl]. cbn [snd] in Hl. rewrite weights_cons in Hm. lia.
      - revert C. unfold total. apply Nat.neq_mul_0. lia.
      - destruct C; contradiction.
      - destruct C; contradiction.
    Qed.
  End Never.

  Lemma win_never cfg t0 t1 s l o more s' : displayed t0 -> view_ok (c_view (w_con (t_w t0))) -> (2 <= cX (v_size (c_view (w_con (t_w t0)))))%Z ->
    decent_records E (t_in t0) -> win_screen_new E cfg t0 = Ret t1 s ->
    Forall act_ok (l ++ WCall o :: more) -> modest_acts E (l ++ WCall o :: more) -> Forall modest_call (l ++ WCall o :: more) ->
    wacts draw E l s = Some s' -> run_wsop draw E o s' <> Panic.
  Proof.
    intros Hdi Hv Hc Hdec Hn Ha Hm Ht Hr. pose proof (new_winv E cfg t0 t1 s HE Hu Hdi Hv Hn) as Hi.
    set (z := size_of E (c_view (w_con (t_w t0)))) in *.
    assert (Hz : 0 < lines z /\ 2 <= columns z /\ total z <= umax E).
    { destruct (size_fits E _ Hu Hv) as (_ & _ & Z3 & Z4). fold z in Z3, Z4. unfold view_ok in Hv. split; [lia|]. split; [lia|].
      destruct Hi as ((B & _) & Hi & _). unfold screen_at in Hi. injection Hi as Hi _. now rewrite Hi in B. }
    apply Forall_app in Ha as [Ha1 Ha2]. inversion Ha2 as [|? ? Ha3 _]; subst.
    apply Forall_app in Ht as [_ Ht]. inversion Ht as [|? ? Ht1 _]; subst.
    destruct (wacts_low (t_in t0) z Hz Hdec l 0 _ s s' Ha1 Hi) as [L I']; [split; [now left|cbn; lia]|exact Hr|].
    exact (wnever (t_in t0) z Hz Hdec l o more _ _ s' eq_refl eq_refl I' L Ha3 Hm Ht1).
  Qed.
End Whole.

Lemma terminal_returns draw d E o s : keeps_order draw -> view_ok (c_view (w_con s)) ->
  exists s', view_ok (c_view (w_con s')) /\ (run_win draw d E o s = Ret s' tt \/ exists e, run_win draw d E o s = Fail s' e).
Proof.
  intros Hd Hs. pose proof (sound_op draw Hd d E o s Hs) as S. destruct (run_win draw d E o s) as [s' []|s' e| |]; cbn [vsound] in S; try contradiction; exists s'; eauto.
Qed.
Lemma terminal_reads E t len s :
  (win_wait_event t s = Panic -> win_overflows t) /\ (win_read_event E t s = Panic -> win_overflows t) /\
  (win_read_raw len t s = Panic -> win_overflows t) /\ (win_read_raw_event len t s = Panic -> win_overflows t).
Proof.
  repeat split; intros H.
  - pose proof (wait_fewer t s) as W. now rewrite H in W.
  - pose proof (event_fewer E t s) as W. now rewrite H in W.
  - pose proof (raw_fewer len t s) as W. now rewrite H in W.
  - pose proof (raw_event_fewer E len t s) as W. now rewrite H in W.
Qed.
Lemma terminal_prepares cfg st s : win_prepare cfg s <> Panic /\ win_prepare cfg s <> Blocked /\ win_restore st s <> Panic /\ win_restore st s <> Blocked.
Proof.
  pose proof (prepare_leaves _ _ cfg s (conj eq_refl eq_refl)) as P. pose proof (restore_leaves _ _ st s (conj eq_refl eq_refl)) as R.
  destruct (win_prepare cfg s), (win_restore st s); cbn [leaves] in *; try contradiction; repeat split; discriminate.
Qed.
