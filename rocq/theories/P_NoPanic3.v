(** Proofs about panics of a Unix screen (C107): creating and dropping it, and programs
    that do not panic. *)
From Verif Require Import Base M_Utf8 M_Geom S_Geom P_Geom M_Attr M_Buf S_Buf P_Buf P_Buf2 P_Buf3 M_Seq M_Signal M_Util M_Input S_Input P_Input
  M_Writer S_Tty S_Writer P_Writer P_Writer2
  M_Screen P_Screen P_Screen2 P_Screen4 M_Prepare M_Reader S_Prepare S_Reader P_Prepare P_Prepare2 P_Reader P_Reader3 M_UnixScreen S_UnixScreen P_UnixScreen P_UnixScreen2
  S_Overrun P_Overrun S_NoPanic P_NoPanic P_NoPanic2.
Local Open Scope nat_scope.

Section Ends.
  Variables (C : tcfg).
  Notation wo w := (whole_writes (script w)).

  Lemma wsound_bind r (k : wst -> unit -> wres) : wsound r -> (forall w u, wo w -> wsound (k w u)) -> wsound (obind r k).
  Proof. destruct r; cbn; auto. Qed.
  Lemma expand_sound e ps w : wo w -> wsound (expand C e ps w).
  Proof. intros H. unfold expand. destruct (e (wctx w) ps) as [[bs k] []]; exact H. Qed.
  Lemma opt_sound c ps w : wo w -> wsound (expand_opt C c ps w).
  Proof. intros H. unfold expand_opt. destruct (info C c); [now apply expand_sound|exact H]. Qed.
  Lemma flush_sound w : wo w -> wsound (flush w).
  Proof. exact (wop_sound C OFlush w). Qed.
  Lemma exit_sound w : wo w -> wsound (exit_screen C w).
  Proof.
    intros H. unfold exit_screen. destruct (info C ExitCaMode); [|exact H].
    apply wsound_bind; [now apply expand_sound|]. intros w' u Hw. now apply flush_sound.
  Qed.
  Lemma enter_sound sz w : wo w ->
    match enter_screen C sz w with
    | Ret w' _ | Fail w' _ => wo w'
    | Panic => exists z, sz = inr z /\ lines z = 0
    | Blocked => True
    end.
  Proof.
    intros H. unfold enter_screen. destruct (info C ChangeScrollRegion) as [sc|]; [|exact H].
    destruct (info C CursorHome) as [ho|]; [|exact H]. destruct sz as [e|z]; [exact H|].
    pose proof (opt_sound EnterCaMode [] w H) as S. destruct (expand_opt C EnterCaMode [] w) as [w1 u| | |]; cbn [obind wsound] in *; auto; [|contradiction].
    destruct (lines z) as [|l] eqn:El; [now exists z|].
    assert (G : wsound (let! (w, _u) := expand C sc [0%N; to_u32 l] w1 in
        let! (w, _u) := expand C ho [] w in let! (w, _u) := clear_attributes C w in clear_screen C w)).
    { apply wsound_bind; [now apply expand_sound|]. intros w2 u2 H2. apply wsound_bind; [now apply expand_sound|]. intros w3 u3 H3.
      apply wsound_bind; [exact (wop_sound C OClearAttributes w3 H3)|]. intros w4 u4 H4. exact (wop_sound C OClearScreen w4 H4). }
    match goal with |- match ?m with _ => _ end => set (r := m) in *; change (wsound r) in G; clearbody r end.
    destruct r; cbn [wsound] in G; auto. contradiction.
  Qed.

  Lemma sound_wop (f : wst -> wres) s : (forall w, wo w -> wsound (f w)) -> whole_out s -> sound (on_wr f s).
  Proof. intros Hf H. apply sound_on. specialize (Hf _ H). destruct (f (M_Prepare.wr s)); exact Hf. Qed.
  Lemma sound_put_back n a s : whole_out s -> sound (put_back n a s).
  Proof.
    intros H. unfold put_back. destruct a; [|exact H]. unfold sigaction. apply sound_bind; [apply sound_os; auto|].
    intros s' u Hs. exact Hs.
  Qed.
  Lemma mouse_off_sound w : wo w -> wsound (disable_mouse C w).
  Proof.
    intros H. unfold disable_mouse. pose proof (write_bytes_whole C XTERM_DISABLE_MOUSE w H) as X.
    destruct (write_bytes C XTERM_DISABLE_MOUSE w) as [w1 u|w1 e| |]; cbn [obind wsound]; auto; [|apply X].
    pose proof (write_bytes_whole C XTERM_DISABLE_MOUSE_MOTION w1 (proj1 X)) as Y.
    destruct (write_bytes C XTERM_DISABLE_MOUSE_MOTION w1); cbn [wsound]; auto; apply Y.
  Qed.
  Lemma sound_restore st s : whole_out s -> sound (restore C st s).
  Proof.
    intros H. unfold restore. apply sound_guard. unfold restore_with_lock.
    apply sound_bind; [destruct (restore_mouse st); [apply sound_wop; [exact mouse_off_sound|exact H]|exact H]|]. intros s1 u1 H1.
    apply sound_bind; [destruct (restore_keypad st); [apply sound_wop; [intros w Hw; now apply opt_sound|exact H1]|exact H1]|]. intros s2 u2 H2.
    apply sound_bind; [now apply sound_flush|]. intros s3 u3 H3.
    apply sound_bind; [apply sound_os; auto|]. intros s4 u4 H4.
    apply sound_bind; [now apply sound_put_back|]. intros s5 u5 H5.
    apply sound_bind; [now apply sound_put_back|]. intros s6 u6 H6.
    apply sound_bind; [now apply sound_put_back|]. intros s7 u7 H7.
    apply sound_bind; [now apply sound_put_back|]. intros s8 u8 H8.
    now apply sound_put_back.
  Qed.
  Lemma sound_terminal_drop s : whole_out s -> sound (terminal_drop C s).
  Proof.
    intros H. unfold terminal_drop. pose proof (sound_wop _ s (fun w Hw => terminal_op_sound C (OSetCursorMode CNormal) w Hw) H) as S.
    destruct (on_wr _ s); exact S.
  Qed.
  Lemma sound_leave st s : whole_out s -> sound (leave C st s).
  Proof.
    intros H. unfold leave. pose proof (sound_restore st s H) as R. destruct (restore C st s) as [s1 u|s1 e| |]; cbn [sound] in *; auto.
    assert (X : sound (locked (exit_screen C) s1)) by (apply sound_guard, sound_wop; [exact exit_sound|exact R]).
    destruct (locked (exit_screen C) s1); exact X.
  Qed.
  Lemma sound_screen_drop u : whole_out (u_sys u) -> sound (screen_drop C u).
  Proof.
    intros H. unfold screen_drop. apply sound_bind; [now apply sound_leave|]. intros s1 e1 H1.
    apply sound_bind; [now apply sound_terminal_drop|]. intros s2 e2 H2. exact H2.
  Qed.

  Lemma new_panics E cfg s : whole_out s -> unix_screen_new E C cfg s = Panic ->
    exists z, win s = inr z /\ (umax E < total z \/ lines z = 0).
  Proof.
    intros H. unfold unix_screen_new.
    assert (S0 : sound (term_size s)) by (unfold term_size; apply sound_guard; destruct (win s); exact H).
    assert (W0 : match term_size s with Ret s' z => win s = inr z /\ win s' = win s | _ => True end).
    { pose proof (guard_ends (fun _ => True) (fun s' z => win s = inr z /\ win s' = win s)
        (fun s => match win s with inl e => Fail s (RW (EOs e)) | inr z => Ret s z end) s) as G.
      unfold term_size. match goal with |- match ?m with _ => _ end => assert (Q : S_Prepare.ends (fun _ => True) (fun s' z => win s = inr z /\ win s' = win s) m) end.
      { apply G; [auto|intros w s1 a X; exact X|]. destruct (win s) eqn:Ew; cbn; auto. }
      destruct (with_guard _ s); auto. }
    destruct (term_size s) as [s1 z|s1 e| |]; cbn [sound] in S0; try contradiction; [|intros D; exfalso|discriminate].
    2:{ pose proof (sound_terminal_drop s1 S0) as T. destruct (terminal_drop C s1); try discriminate. contradiction. }
    destruct W0 as [Wz W1]. pose proof (sound_prepare C cfg s1 S0) as S1. pose proof (win_prepare C cfg s1) as W2.
    destruct (prepare C cfg s1) as [s2 st|s2 e| |]; cbn [sound S_Prepare.ends] in S1, W2; try contradiction; [|intros D; exfalso|discriminate].
    2:{ pose proof (sound_terminal_drop s2 S1) as T. destruct (terminal_drop C s2); try discriminate. contradiction. }
    destruct W2 as [W2 _].
    destruct (sb_new E z) as [b|] eqn:Eb.
    2:{ intros _. exists z. split; [exact Wz|]. left. unfold sb_new, area, checked_area in Eb. unfold total.
        destruct (Nat.leb_spec (lines z * columns z) (umax E)); [discriminate|lia]. }
    unfold locked, with_guard, on_wr. pose proof (enter_sound (win s2) (M_Prepare.wr s2) S1) as En.
    destruct (enter_screen C (win s2) (M_Prepare.wr s2)) as [w u|w e| |].
    - cbn [M_Prepare.wr with_wr]. pose proof (drop_sound C w En) as D.
      destruct (guard_drop w) eqn:Eg; cbn [obind wsound] in *; try discriminate; try contradiction.
      unfold guard_drop in Eg. destruct (flush w); discriminate Eg.
    - cbn [M_Prepare.wr with_wr]. pose proof (drop_sound C w En) as D. intros P. exfalso. revert P.
      assert (Hn : forall w', wo w' -> match leave C st (M_Prepare.with_wr w' s2) with
          | Ret s0 _ => failed (A := uscr) (RW e) (terminal_drop C s0) | Fail s0 _ => Fail s0 (RW e) | Panic => Panic | Blocked => Blocked end <> Panic).
      { intros w' Hw. pose proof (sound_leave st (M_Prepare.with_wr w' s2) Hw) as L.
        destruct (leave C st (M_Prepare.with_wr w' s2)) as [s3 x|s3 x| |]; cbn [sound] in L; try discriminate; [|contradiction].
        pose proof (sound_terminal_drop s3 L) as T. destruct (terminal_drop C s3); try discriminate. contradiction. }
      destruct (guard_drop w) as [w' x|w' x| |] eqn:Eg; cbn [obind wsound] in *; try discriminate; try contradiction.
      + exact (Hn w' D).
      + unfold guard_drop in Eg. destruct (flush w); discriminate.
    - intros _. destruct En as (z' & E1 & E2). exists z'. split; [congruence|now right].
    - discriminate.
  Qed.

  Lemma new_inv E cfg s0 s1 u : env_ok E -> whole_out s0 -> unix_screen_new E C cfg s0 = Ret s1 u ->
    exists z, win s0 = inr z /\ inv E s0 (z, Cursor 0 0) u.
  Proof.
    intros HE H Hn. assert (Hn' := Hn). destruct (new_ret _ _ _ _ _ _ Hn) as (_ & _ & _ & z & s2 & w & w' & Hw & Hb & _).
    exists z. split; [exact Hw|]. clear s2 w w'.
    assert (Hb' : buf_ok E (u_sb u) /\ bsize (u_sb u) = z /\ bcur (u_sb u) = Cursor 0 0).
    { destruct (Nat.leb_spec (lines z * columns z) (umax E)) as [Hl|Hl].
      - destruct (new_ok 1 (le_n 1) E z HE Hl) as (b & B1 & B2 & B3 & B4 & _). rewrite B1 in Hb. injection Hb as <-. auto.
      - exfalso. unfold sb_new, area, checked_area in Hb. destruct (Nat.leb_spec (lines z * columns z) (umax E)); [lia|discriminate]. }
    destruct Hb' as (B1 & B2 & B3).
    assert (Q : whole_out (u_sys u) /\ same_win s0 (u_sys u)).
    { unfold unix_screen_new in Hn.
      assert (S0 : sound (term_size s0)) by (unfold term_size; apply sound_guard; destruct (win s0); exact H).
      assert (W0 : S_Prepare.ends (same_win s0) (fun s' _ => same_win s0 s') (term_size s0)).
      { unfold term_size. apply win_guard. destruct (win s0); apply same_win_refl. }
      destruct (term_size s0) as [sa za|sa e| |]; try discriminate Hn; cbn [sound S_Prepare.ends] in S0, W0.
      2:{ destruct (terminal_drop C sa); discriminate Hn. }
      pose proof (sound_prepare C cfg sa S0) as S1. pose proof (win_prepare C cfg sa) as W1.
      destruct (prepare C cfg sa) as [sb0 st|sb0 e| |]; try discriminate Hn; cbn [sound S_Prepare.ends] in S1, W1.
      2:{ destruct (terminal_drop C sb0); discriminate Hn. }
      destruct (sb_new E za) as [b|]; [|discriminate Hn].
      assert (W2 : S_Prepare.ends (same_win sb0) (fun s' _ => same_win sb0 s') (locked (enter_screen C (win sb0)) sb0)) by (unfold locked; apply win_guard, win_on).
      assert (S2 : match locked (enter_screen C (win sb0)) sb0 with Ret s' _ => whole_out s' | _ => True end).
      { unfold locked, with_guard, on_wr. pose proof (enter_sound (win sb0) (M_Prepare.wr sb0) S1) as En.
        destruct (enter_screen C (win sb0) (M_Prepare.wr sb0)) as [w x|w x| |]; auto.
        - cbn [M_Prepare.wr with_wr]. pose proof (drop_sound C w En) as D. destruct (guard_drop w); cbn [obind wsound] in *; auto.
        - cbn [M_Prepare.wr with_wr]. destruct (guard_drop w); exact I. }
      destruct (locked (enter_screen C (win sb0)) sb0) as [sc x|sc e| |]; try discriminate Hn.
      - cbn [S_Prepare.ends] in W2. injection Hn as <- <-. cbn [u_sys]. split; [exact S2|]. unfold same_win in *. intuition congruence.
      - destruct (leave C st sc) as [sd x|sd x| |]; try discriminate Hn. destruct (terminal_drop C sd); discriminate Hn. }
    destruct Q as [Q1 [Q2 Q3]]. split.
    - split; [exact B1|]. split; [cbn; congruence|exact Q1].
    - apply (sees_same (window_size s0) s0 (u_sys u) Q2 Q3). intros y Hy. exact Hy.
  Qed.
End Ends.

Lemma step_ends E C m o u : ustep E C m o u = None <-> panics E C m o u \/ hangs E C m o u.
Proof.
  assert (Hout : forall f, on_out f u = None <-> f (out_side u) = Panic \/ f (out_side u) = Blocked).
  { intros f. unfold on_out. destruct (f (out_side u)); split; try discriminate; auto; intros [D|D]; discriminate D. }
  destruct o; cbn [ustep panics hangs].
  - rewrite Hout. cbn [g_step]. cbn [sb out_side]. destruct (run_buf_op E (u_sb u) o); split; auto; try (intros [D|D]; discriminate D).
    intros [D|[]]. discriminate D.
  - apply Hout.
  - apply Hout.
  - apply Hout.
  - destruct (wait_event m timeout (u_sys u)); split; try discriminate; auto; intros [D|D]; discriminate D.
  - destruct (read_event C m timeout (u_sys u)) as [x e|x e| |].
    + destruct (follow E e (with_sys x u)) eqn:Ef; split; try discriminate; eauto 10.
      intros [[D|(x' & e' & [= <- <-] & D)]|D]; try discriminate D. congruence.
    + split; try discriminate. intros [[D|(x' & e' & D & _)]|D]; discriminate D.
    + split; auto.
    + split; auto.
  - destruct (read_raw C m room timeout (u_sys u)) as [x [e bs]|x e| |].
    + destruct (follow E e (with_sys x u)) eqn:Ef; split; try discriminate; eauto 10.
      intros [[D|(x' & e' & bs' & [= <- <- <-] & D)]|D]; try discriminate D. congruence.
    + split; try discriminate. intros [[D|(x' & e' & bs' & D & _)]|D]; discriminate D.
    + split; auto.
    + split; auto.
Qed.

Section All.
  Variables (E : env) (C : tcfg) (m : seq_map).
  Hypothesis HE : env_ok E.
  Hypothesis Hm : key_map m.

  Lemma panics_only cfg ops s0 s1 u u' rs : whole_out s0 -> unix_screen_new E C cfg s0 = Ret s1 u ->
    Forall public_op ops -> urun E C m ops u = Some (u', rs) ->
    exists z st, win s0 = inr z /\ track E (z, Cursor 0 0) ops rs = Some st /\ (bsize (u_sb u'), bcur (u_sb u')) = st /\
      (forall b, panics E C m (UBuffer b) u' <-> go E st b = None) /\
      (forall o, public_op o -> panics E C m o u' -> reason E m s0 (inbuf (u_sys u')) st o) /\
      screen_drop C u' <> Panic.
  Proof.
    intros Hw Hn Hp Hr. destruct (new_inv C E cfg s0 s1 u HE Hw Hn) as (z & Hz & Hi).
    destruct (urun_inv E C m HE Hm s0 ops _ u u' rs Hp Hi Hr) as (st & T & I'). exists z, st.
    split; [exact Hz|]. split; [exact T|]. split; [apply I'|]. split.
    { intros b. cbn [panics]. pose proof (draw_buffer E HE st b (out_side u') (proj1 I')) as D. cbn [sb out_side] in D.
      destruct (run_buf_op E (u_sb u') b); split; auto; try discriminate. destruct D as (st' & D & _). congruence. }
    split; [intros o Ho; now apply (step_reason E C m HE Hm)|].
    intros D. pose proof (sound_screen_drop C u') as S. rewrite D in S. apply S. apply I'.
  Qed.

  (** Text on two columns or more. *)
  Lemma walk1_line sz ch p : 2 <= columns sz ->
    match walk1 E sz ch p with
    | Moved q => line q <= line p + 2
    | Stopped _ => True
    | Panics => umax E <= line p
    end.
  Proof.
    intros Hc. unfold walk1.
    assert (O : forall q w, line (onwards sz q w) <= line q + 1).
    { intros q w. unfold onwards. destruct (_ <? _); cbn; lia. }
    destruct (ch =? 9)%N; [destruct (inside sz p); [specialize (O p (8 - column p mod 8)); lia|exact I]|].
    destruct (ch =? 13)%N; [cbn; lia|].
    destruct (ch =? 10)%N; [destruct (Nat.leb_spec (line p + 1) (umax E)); cbn; lia|].
    destruct (combining E ch).
    { destruct (_ =? _); [destruct (_ =? _); [lia|]|].
      - destruct (Nat.eqb_spec (columns sz) 0); [lia|]. destruct (_ <=? _); [lia|exact I].
      - destruct (inside _ _); [lia|exact I]. }
    destruct (cwidth E ch) as [[|[|[|n]]]|]; try lia.
    - destruct (inside sz p); [|exact I]. specialize (O p 1). lia.
    - destruct (inside sz p); [|exact I]. destruct (_ <=? _); [specialize (O p 2); lia|].
      destruct (_ <? _); [|exact I]. destruct (Nat.leb_spec 2 (columns sz)); [|lia].
      specialize (O (Cursor (line p + 1) 0) 2). cbn [line] in O. lia.
  Qed.
  Lemma walk_line sz s : 2 <= columns sz -> forall p, walk E sz s p = Panics -> umax E <= line p + 2 * length s.
  Proof.
    intros Hc. induction s as [|ch s IH]; intros p; cbn [walk length]; [discriminate|].
    pose proof (walk1_line sz ch p Hc) as W. destruct (walk1 E sz ch p) as [q|q|]; try discriminate.
    - intros H. apply IH in H. lia.
    - intros _. lia.
  Qed.
  Lemma go_line sz p o : 2 <= columns sz -> (forall z, o <> BResize z) -> go E (sz, p) o = None ->
    umax E <= start_line p o + 2 * length (text o).
  Proof.
    intros Hc Hr. cbn [go]. destruct o; try discriminate; cbn [start_line text].
    - exfalso. exact (Hr _ eq_refl).
    - destruct (Nat.leb_spec (line p + 1) (umax E)); [discriminate|]. intros _. cbn [length]. lia.
    - destruct (walk E sz [ch] p) eqn:Ew; try discriminate. intros _. now apply walk_line in Ew.
    - destruct (walk E sz s p) eqn:Ew; try discriminate. intros _. now apply walk_line in Ew.
    - destruct (inside sz p0); [|discriminate]. destruct (walk E sz s p0) eqn:Ew; try discriminate. intros _. now apply walk_line in Ew.
    - destruct (walk E sz s p) eqn:Ew; try discriminate. intros _. now apply walk_line in Ew.
    - destruct (inside sz p0); [|discriminate]. destruct (walk E sz s p0) eqn:Ew; try discriminate. intros _. now apply walk_line in Ew.
  Qed.
End All.
