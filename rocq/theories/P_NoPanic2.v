(** Proofs about panics of a Unix screen (C107): drawing, and whole programs. *)
From Verif Require Import Base M_Utf8 M_Geom S_Geom P_Geom M_Attr M_Buf S_Buf P_Buf P_Buf2 P_Buf3 M_Seq M_Signal M_Util M_Input S_Input P_Input
  M_Writer S_Tty S_Writer P_Writer P_Writer2
  M_Screen P_Screen P_Screen2 P_Screen4 M_Prepare M_Reader S_Prepare S_Reader P_Prepare P_Prepare2 P_Reader P_Reader3 M_UnixScreen S_UnixScreen P_UnixScreen P_UnixScreen2
  S_Overrun P_Overrun S_NoPanic P_NoPanic.
Local Open Scope nat_scope.

Section Out.
  Variables (E : env) (C : tcfg).
  Hypothesis HE : env_ok E.

  (** The writer. *)
  Definition wsound (r : wres) : Prop :=
    match r with Ret w _ | Fail w _ => whole_writes (script w) | Panic => False | Blocked => True end.
  Lemma wop_sound o w : whole_writes (script w) -> wsound (run_wop C o w).
  Proof.
    intros H. pose proof (op_whole C o w H) as H1. pose proof (op_no_panic C o w H) as H2.
    destruct (run_wop C o w); cbn [wsound]; try apply H1; auto.
  Qed.
  Lemma drop_sound w : whole_writes (script w) -> wsound (guard_drop w).
  Proof. intros H. unfold guard_drop. pose proof (wop_sound OFlush w H) as F. cbn [run_wop] in F. destruct (flush w); exact F. Qed.
  Lemma terminal_op_sound o w : whole_writes (script w) -> wsound (run_terminal_op C o w).
  Proof.
    intros H. assert (G : wsound (match run_wop C o w with
        | Ret w' _ => guard_drop w'
        | Fail w' e => match guard_drop w' with Ret w'' _ => Fail w'' e | r => r end
        | r => r end)).
    { pose proof (wop_sound o w H) as F. destruct (run_wop C o w) as [w' u|w' e| |]; cbn [wsound] in *; auto using drop_sound.
      pose proof (drop_sound w' F) as D. destruct (guard_drop w'); exact D. }
    unfold run_terminal_op. destruct o; try exact G; destruct n; try exact G; exact H.
  Qed.

  (** Size and cursor stay, the buffer is in order, the device takes whole buffers. *)
  Definition at_ (st : size * cursor) (x : scr) : Prop :=
    buf_ok E (sb x) /\ (bsize (sb x), bcur (sb x)) = st /\ whole_writes (script (M_Screen.wr x)).
  Definition stays (st : size * cursor) (r : sres) : Prop :=
    match r with Ret x _ | Fail x _ => at_ st x | Panic => False | Blocked => True end.
  Lemma stays_bind st r (k : scr -> unit -> sres) : stays st r -> (forall x u, at_ st x -> stays st (k x u)) -> stays st (obind r k).
  Proof. destruct r; cbn; auto. Qed.
  Lemma stays_on st f x : (forall w, whole_writes (script w) -> wsound (f w)) -> at_ st x -> stays st (on_writer f x).
  Proof.
    intros Hf (H1 & H2 & H3). specialize (Hf _ H3). unfold on_writer. destruct (f (M_Screen.wr x)); cbn in *; auto; split; auto.
  Qed.
  Lemma stays_move st p x : at_ st x -> stays st (s_move_cursor C p x).
  Proof.
    intros H. unfold s_move_cursor. destruct (cursor_eqb _ _); [exact H|].
    apply stays_bind; [apply stays_on; [exact (wop_sound (OMoveCursor p))|exact H]|]. intros y u Hy. exact Hy.
  Qed.
  Lemma stays_attrs st a x : at_ st x -> stays st (on_writer (set_attrs C a) x).
  Proof. apply stays_on. exact (wop_sound (OSetAttrs a)). Qed.
  Lemma stays_clear st x : at_ st x -> stays st (on_writer (clear_attributes C) x).
  Proof. apply stays_on. exact (wop_sound OClearAttributes). Qed.
  Lemma stays_text st t x : at_ st x -> stays st (on_writer (M_Writer.write_str C t) x).
  Proof. apply stays_on. exact (wop_sound (OWriteStr t)). Qed.
  Lemma stays_drop st x : at_ st x -> stays st (on_writer guard_drop x).
  Proof. apply stays_on. exact drop_sound. Qed.

  Lemma real_on f x : match on_writer f x with Ret y _ => real y = real x | _ => True end.
  Proof. unfold on_writer. destruct (f (M_Screen.wr x)); auto. Qed.
  Lemma real_move p x : match s_move_cursor C p x with Ret y _ => real y = p | _ => True end.
  Proof.
    unfold s_move_cursor. destruct (cursor_eqb (real x) p) eqn:Eq; [now apply cursor_eqb_eq|].
    destruct (on_writer _ x); cbn; auto.
  Qed.

  Lemma stays_draw st fuel : forall lo hi x, hi - lo <= fuel -> hi = total (fst st) -> at_ st x -> stays st (draw E C fuel lo hi x).
  Proof.
    induction fuel as [|fuel IH]; intros lo hi x Hfu Hhi Hx; destruct Hx as (Hb & Hst & Hw);
      assert (Hhi' : hi = total (bsize (sb x))) by (rewrite Hhi, <- Hst; reflexivity);
      cbn [draw]; unfold next_cell;
      destruct (next_cell_val E hi (sb x) Hb Hhi' (hi - lo) lo) as ([[b' lo'] [[p c]|]] & R1 & R2); rewrite R1.
    1: destruct R2 as (_ & _ & _ & _ & R2 & _); lia.
    1, 3: subst b'; cbn; split; auto.
    destruct R2 as (P1 & P2 & P3 & P4 & P5 & P6).
    assert (Hx' : at_ st (with_sb b' x)) by (split; [exact P2|split; [cbn; congruence|exact Hw]]).
    pose proof (stays_move st p _ Hx') as M. pose proof (real_move p (with_sb b' x)) as M'.
    destruct (s_move_cursor C p (with_sb b' x)) as [s1 u1|s1 e| |]; cbn [obind stays] in *; auto.
    pose proof (stays_attrs st (cattrs c) s1 M) as A. pose proof (real_on (set_attrs C (cattrs c)) s1) as A'.
    destruct (on_writer (set_attrs C (cattrs c)) s1) as [s2 u2|s2 e| |]; cbn [obind stays] in *; auto.
    pose proof (stays_text st (ctext c) s2 A) as T. pose proof (real_on (M_Writer.write_str C (ctext c)) s2) as T'.
    destruct (on_writer (M_Writer.write_str C (ctext c)) s2) as [s3 u3|s3 e| |]; cbn [obind stays] in *; auto.
    rewrite T', A', M'. destruct Hb as (B1 & _). destruct (lines_bound _ _ _ B1 P1) as [_ Hcb].
    unfold uadd. destruct (Nat.leb_spec (column p + 1) (umax E)); [|lia].
    apply IH; [lia|exact Hhi|exact T].
  Qed.

  Lemma stays_refresh st x : at_ st x -> 0 < total (fst st) -> stays st (refresh E C x).
  Proof.
    intros Hx Ht. unfold refresh, compose.
    apply stays_bind; [|intros y u Hy; apply stays_on; [exact (wop_sound OFlush)|exact Hy]].
    apply stays_bind.
    { destruct (clr x); [|exact Hx]. apply stays_bind; [apply stays_on; [exact (wop_sound OClearScreen)|exact Hx]|].
      intros y u Hy. exact Hy. }
    intros x1 u1 H1. apply stays_bind; [now apply stays_clear|]. intros x2 u2 H2.
    assert (H2' := H2). destruct H2' as ((B1 & _) & Hst & _). unfold sb_indices, area, checked_area. unfold total in B1.
    destruct (Nat.leb_spec (lines (bsize (sb x2)) * columns (bsize (sb x2))) (umax E)); [|lia].
    apply stays_bind; [apply stays_draw; [lia|rewrite <- Hst; reflexivity|exact H2]|]. intros x3 u3 H3.
    apply stays_bind; [now apply stays_clear|]. intros x4 u4 H4.
    destruct (is_out_of_bounds _ _); [|now apply stays_move].
    assert (H4' := H4). destruct H4' as (_ & Hst4 & _). rewrite <- Hst4 in Ht. unfold total in Ht. cbn [fst] in Ht.
    unfold cursor_last, usub. destruct (Nat.leb_spec 1 (lines (bsize (sb x4)))); [|nia].
    destruct (Nat.leb_spec 1 (columns (bsize (sb x4)))); [|nia]. now apply stays_move.
  Qed.

  Lemma stays_guard st x : at_ st x -> 0 < total (fst st) -> stays st (s_guard_drop E C x).
  Proof.
    intros Hx Ht. unfold s_guard_drop. pose proof (stays_refresh st x Hx Ht) as R.
    destruct (refresh E C x); cbn [stays] in R; auto using stays_drop.
  Qed.
  Lemma stays_screen_refresh st x : at_ st x -> 0 < total (fst st) -> stays st (screen_refresh E C x).
  Proof.
    intros Hx Ht. unfold screen_refresh. pose proof (stays_refresh st x Hx Ht) as R.
    destruct (refresh E C x) as [y u|y e| |]; cbn [stays] in R; auto;
      pose proof (stays_guard st y R Ht) as G; destruct (s_guard_drop E C y); exact G.
  Qed.

  (** A screen without cells: the refresh panics or fails, and what it did is as above. *)
  Definition may (st : size * cursor) (r : sres) : Prop :=
    match r with Ret x _ | Fail x _ => at_ st x | Panic => total (fst st) = 0 | Blocked => True end.
  Lemma stays_may st r : stays st r -> may st r.
  Proof. destruct r; cbn; auto. contradiction. Qed.
  Lemma may_bind st r (k : scr -> unit -> sres) : may st r -> (forall x u, at_ st x -> may st (k x u)) -> may st (obind r k).
  Proof. destruct r; cbn; auto. Qed.
  Lemma may_refresh st x : at_ st x -> may st (refresh E C x).
  Proof.
    intros Hx. destruct (Nat.eq_dec (total (fst st)) 0) as [Z|Z]; [|apply stays_may, stays_refresh; [exact Hx|lia]].
    unfold refresh, compose.
    apply may_bind; [|intros y u Hy; apply stays_may, stays_on; [exact (wop_sound OFlush)|exact Hy]].
    apply may_bind.
    { apply stays_may. destruct (clr x); [|exact Hx]. apply stays_bind; [apply stays_on; [exact (wop_sound OClearScreen)|exact Hx]|].
      intros y u Hy. exact Hy. }
    intros x1 u1 H1. apply may_bind; [apply stays_may; now apply stays_clear|]. intros x2 u2 H2.
    assert (H2' := H2). destruct H2' as ((B1 & _) & Hst & _). unfold sb_indices, area, checked_area. unfold total in B1.
    destruct (Nat.leb_spec (lines (bsize (sb x2)) * columns (bsize (sb x2))) (umax E)); [|lia].
    apply may_bind; [apply stays_may, stays_draw; [lia|rewrite <- Hst; reflexivity|exact H2]|]. intros x3 u3 H3.
    apply may_bind; [apply stays_may; now apply stays_clear|]. intros x4 u4 H4.
    destruct (is_out_of_bounds _ _); [|apply stays_may; now apply stays_move].
    destruct (cursor_last _); [apply stays_may; now apply stays_move|exact Z].
  Qed.
  Lemma may_guard st x : at_ st x -> may st (s_guard_drop E C x).
  Proof.
    intros Hx. unfold s_guard_drop. pose proof (may_refresh st x Hx) as R.
    destruct (refresh E C x); cbn [may] in R; auto; apply stays_may; now apply stays_drop.
  Qed.
  Lemma may_screen_refresh st x : at_ st x -> may st (screen_refresh E C x).
  Proof.
    intros Hx. unfold screen_refresh. pose proof (may_refresh st x Hx) as R.
    destruct (refresh E C x) as [y u|y e| |]; cbn [may] in R; auto;
      pose proof (may_guard st y R) as G; destruct (s_guard_drop E C y); exact G.
  Qed.

  (** A guard. *)
  Definition drawn (f : option (size * cursor)) (r : sres) : Prop :=
    match r with
    | Ret x _ | Fail x _ => exists st, f = Some st /\ at_ st x
    | Panic => f = None \/ exists st, f = Some st /\ total (fst st) = 0
    | Blocked => True
    end.
  Lemma go_size o st st' : public_gop (GBuffer o) -> go E st o = Some st' -> fst st' = fst st.
  Proof.
    destruct st as [sz p]. cbn [go]. destruct o; cbn [public_gop]; try contradiction; intros _;
      try (intros [= <-]; reflexivity); try (destruct (_ <=? _); [|discriminate]; intros [= <-]; reflexivity);
      try (destruct (inside _ _)); try (destruct (walk _ _ _ _); try discriminate); intros [= <-]; reflexivity.
  Qed.
  Lemma draw_buffer st o x : at_ st x ->
    match run_buf_op E (sb x) o with
    | Val b => exists st', go E st o = Some st' /\ at_ st' (with_sb b x)
    | Boom => go E st o = None
    end.
  Proof.
    intros (H1 & H2 & H3). pose proof (op_ends E HE (sb x) o H1) as G. rewrite H2 in G. unfold P_Overrun.ends in G.
    destruct (go E st o) as [[sz p]|].
    - destruct G as (b & -> & A1 & A2 & A3). exists (sz, p). split; [reflexivity|]. split; [exact A1|]. split; [cbn; congruence|exact H3].
    - now rewrite G.
  Qed.
  Lemma grun_drawn l : forall st x, Forall public_gop l -> at_ st x ->
    match g_run E C l x with
    | Ret y _ | Fail y _ => exists st', goes_on E st (drawings l) = Some st' /\ at_ st' y
    | Panic => goes_on E st (drawings l) = None \/ total (fst st) = 0
    | Blocked => True
    end.
  Proof.
    induction l as [|o l IH]; intros st x Hp Hx; cbn [g_run].
    - pose proof (may_guard st x Hx) as G. destruct (s_guard_drop E C x); cbn [may] in G; auto; exists st; auto.
    - inversion Hp as [|? ? P1 P2]; subst. destruct o as [b|c|].
      + cbn [g_step drawings flat_map app]. fold (drawings l). cbn [goes_on]. pose proof (draw_buffer st b x Hx) as D.
        destruct (run_buf_op E (sb x) b) as [b'|]; [|rewrite D; now left].
        destruct D as (st' & D1 & D2). rewrite D1. specialize (IH st' _ P2 D2). apply go_size in D1; [|exact P1]. rewrite <- D1.
        exact IH.
      + cbn [g_step drawings flat_map app]. fold (drawings l).
        assert (S : stays st (on_writer (set_cursor_mode C c) x)) by (apply stays_on; [exact (wop_sound (OSetCursorMode c))|exact Hx]).
        destruct (on_writer (set_cursor_mode C c) x); cbn [stays] in S; try contradiction; auto; exact (IH st _ P2 S).
      + cbn [g_step drawings flat_map app]. fold (drawings l). pose proof (may_refresh st x Hx) as S.
        destruct (refresh E C x); cbn [may] in S; auto; exact (IH st _ P2 S).
  Qed.
End Out.

Section Programs.
  Variables (E : env) (C : tcfg) (m : seq_map).
  Hypothesis HE : env_ok E.
  Hypothesis Hm : key_map m.
  Variable s0 : sys.

  Definition inv (st : size * cursor) (u : uscr) : Prop :=
    at_ E st (out_side u) /\ sees (window_size s0) (u_sys u).
  Lemma inv_out st x u : sees (window_size s0) (u_sys u) -> at_ E st x -> inv st (with_out x u).
  Proof. intros H Hx. destruct x. split; [exact Hx|exact H]. Qed.

  Lemma follow_inv st e u : inv st u -> resize_ok (window_size s0) e ->
    match follow E e u with
    | Val u' => exists st', match e with Some (EResize z) => go E st (BResize z) | _ => Some st end = Some st' /\ inv st' u'
    | Boom => bad_resize E s0 st
    end.
  Proof.
    intros [Hx Hs] He. unfold follow.
    assert (Hd : inv st u) by (split; auto). 
    destruct e as [[k|mo|n|z|sg|]|]; try (now exists st).
    pose proof (draw_buffer E HE st (BResize z) _ Hx) as D. cbn [run_buf_op] in D. unfold update_size.
    destruct (sb_resize E (sb (out_side u)) z) as [b|]; [|exists z; auto].
    destruct D as (st' & D1 & D2). exists st'. split; [exact D1|]. apply inv_out; [exact Hs|]. exact D2.
  Qed.

  Lemma ustep_inv o st u u' r : public_op o -> inv st u -> ustep E C m o u = Some (u', r) ->
    exists st', tracked E st o r = Some st' /\ inv st' u'.
  Proof.
    intros Hp Hi. assert (Hi' := Hi). destruct Hi' as [Hx Hs].
    assert (Hout : forall f, (match f (out_side u) with Ret x _ | Fail x _ => exists st', tracked E st o YUnit = Some st' /\ at_ E st' x | _ => True end) ->
      (forall e, tracked E st o (YErr e) = tracked E st o YUnit) -> on_out f u = Some (u', r) -> exists st', tracked E st o r = Some st' /\ inv st' u').
    { intros f Hf He. unfold on_out. destruct (f (out_side u)) as [x a|x e| |]; try discriminate; intros [= <- <-]; rewrite ?He;
        destruct Hf as (st' & F1 & F2); exists st'; (split; [exact F1|]); now apply inv_out. }
    destruct o; cbn [ustep].
    - apply Hout; [|reflexivity]. cbn [g_step tracked]. pose proof (draw_buffer E HE st o _ Hx) as D.
      destruct (run_buf_op E (sb (out_side u)) o); [|exact I]. exact D.
    - apply Hout; [|reflexivity]. assert (S : stays E st (screen_set_cursor_mode C c (out_side u))).
      { unfold screen_set_cursor_mode. apply stays_on; [intros w Hw; now apply terminal_op_sound|exact Hx]. }
      destruct (screen_set_cursor_mode C c (out_side u)); cbn [stays] in S; auto; exists st; auto.
    - apply Hout; [|reflexivity]. pose proof (may_screen_refresh E C st _ Hx) as S.
      destruct (screen_refresh E C (out_side u)); cbn [may] in S; auto; exists st; auto.
    - apply Hout; [|reflexivity]. pose proof (grun_drawn E C HE l st _ Hp Hx) as S. cbn [tracked].
      destruct (g_run E C l (out_side u)); auto.
    - assert (W := wait_sees m (window_size s0) timeout (u_sys u) Hs). assert (V := wait_whole m timeout (u_sys u) (proj2 (proj2 Hx))).
      destruct (wait_event m timeout (u_sys u)) as [x b|x e| |]; intros [= <- <-]; cbn [ends] in *;
        exists st; (split; [reflexivity|]); (split; [|exact W]); destruct Hx as (X1 & X2 & X3); (split; [exact X1|]); (split; [exact X2|]); exact V.
    - assert (W := read_sees C m (window_size s0) timeout (u_sys u) Hm Hs). assert (V := read_whole C m timeout (u_sys u) (proj2 (proj2 Hx))).
      destruct Hx as (X1 & X2 & X3).
      destruct (read_event C m timeout (u_sys u)) as [x b|x e| |]; try discriminate; cbn [ends] in *.
      + destruct W as [W1 W2]. assert (Hi2 : inv st (with_sys x u)) by (split; [split; [exact X1|split; [exact X2|exact V]]|exact W1]).
        pose proof (follow_inv st b _ Hi2 W2) as F. destruct (follow E b (with_sys x u)) as [v|]; [|discriminate]. intros [= <- <-].
        destruct F as (st' & F1 & F2). exists st'. split; [|exact F2]. cbn [tracked resize_of]. destruct b as [[]|]; exact F1.
      + intros [= <- <-]. exists st. split; [reflexivity|]. split; [split; [exact X1|split; [exact X2|exact V]]|exact W].
    - assert (W := raw_sees C m (window_size s0) room timeout (u_sys u) Hs). assert (V := raw_whole C m room timeout (u_sys u) (proj2 (proj2 Hx))).
      destruct Hx as (X1 & X2 & X3).
      destruct (read_raw C m room timeout (u_sys u)) as [x [b bs]|x e| |]; try discriminate; cbn [ends fst] in *.
      + destruct W as [W1 W2]. assert (Hi2 : inv st (with_sys x u)) by (split; [split; [exact X1|split; [exact X2|exact V]]|exact W1]).
        pose proof (follow_inv st b _ Hi2 W2) as F. destruct (follow E b (with_sys x u)) as [v|]; [|discriminate]. intros [= <- <-].
        destruct F as (st' & F1 & F2). exists st'. split; [|exact F2]. cbn [tracked resize_of]. destruct b as [[]|]; exact F1.
      + intros [= <- <-]. exists st. split; [reflexivity|]. split; [split; [exact X1|split; [exact X2|exact V]]|exact W].
  Qed.

  Lemma urun_inv ops : forall st u u' rs, Forall public_op ops -> inv st u -> urun E C m ops u = Some (u', rs) ->
    exists st', track E st ops rs = Some st' /\ inv st' u'.
  Proof.
    induction ops as [|o ops IH]; intros st u u' rs Hp Hi; cbn [urun]; [intros [= <- <-]; now exists st|].
    inversion Hp as [|? ? P1 P2]; subst. destruct (ustep E C m o u) as [[u1 r]|] eqn:Es; [|discriminate].
    destruct (ustep_inv o st u u1 r P1 Hi Es) as (st1 & T1 & I1).
    destruct (urun E C m ops u1) as [[u2 rs2]|] eqn:Er; [|discriminate]. intros [= <- <-].
    destruct (IH st1 u1 u2 rs2 P2 I1 Er) as (st2 & T2 & I2). exists st2. split; [|exact I2]. cbn [track]. now rewrite T1.
  Qed.

  Lemma step_reason o st u : public_op o -> inv st u -> panics E C m o u -> reason E m s0 (inbuf (u_sys u)) st o.
  Proof.
    intros Hp Hi. assert (Hi' := Hi). destruct Hi' as [Hx Hs]. destruct o; cbn [panics reason].
    - intros H. pose proof (draw_buffer E HE st o _ Hx) as D. cbn [sb out_side] in D. now rewrite H in D.
    - assert (S : stays E st (screen_set_cursor_mode C c (out_side u))).
      { unfold screen_set_cursor_mode. apply stays_on; [intros w Hw; now apply terminal_op_sound|exact Hx]. }
      intros H. now rewrite H in S.
    - pose proof (may_screen_refresh E C st _ Hx) as S. intros H. now rewrite H in S.
    - pose proof (grun_drawn E C HE l st _ Hp Hx) as S. intros H. now rewrite H in S.
    - intros H. apply wait_panic in H as [H|H]; [right|now left]. now apply peek_boom.
    - intros [H|(x & e & H1 & H2)].
      + apply read_panic in H as [H|[y H]]; [now left|right; left; exists y; now apply peek_boom|apply Hx].
      + right. right. pose proof (read_sees C m (window_size s0) timeout (u_sys u) Hm Hs) as W.
        assert (V := read_whole C m timeout (u_sys u) (proj2 (proj2 Hx))). rewrite H1 in W, V. destruct W as [W1 W2].
        destruct Hx as (X1 & X2 & X3).
        assert (Hi2 : inv st (with_sys x u)) by (split; [split; [exact X1|split; [exact X2|exact V]]|exact W1]).
        pose proof (follow_inv st e _ Hi2 W2) as F. now rewrite H2 in F.
    - intros [H|(x & e & bs & H1 & H2)].
      + left. apply raw_panic in H; [exact H|apply Hx].
      + right. pose proof (raw_sees C m (window_size s0) room timeout (u_sys u) Hs) as W.
        assert (V := raw_whole C m room timeout (u_sys u) (proj2 (proj2 Hx))). rewrite H1 in W, V. destruct W as [W1 W2].
        destruct Hx as (X1 & X2 & X3).
        assert (Hi2 : inv st (with_sys x u)) by (split; [split; [exact X1|split; [exact X2|exact V]]|exact W1]).
        pose proof (follow_inv st e _ Hi2 W2) as F. now rewrite H2 in F.
  Qed.
End Programs.
