(** Proofs about the Unix screen as a whole: histories (C80, C81). *)
From Verif Require Import Base M_Utf8 M_Geom M_Attr M_Buf M_Seq M_Signal M_Util M_Input S_Input M_Writer S_Tty S_Writer P_Writer P_Writer2 P_Writer3
  M_Screen M_Prepare M_Reader S_Prepare P_Prepare P_Prepare2 P_Reader M_UnixScreen S_UnixScreen P_UnixScreen.

(** ** Coming home *)
Lemma back_home cfg s s1 st s2 s3 : prepared_from cfg s s1 st -> kept_by (Some cfg) s1 s2 -> restored_to st s2 s3 ->
  same_terminal s s3.
Proof.
  intros (_ & P1 & P2 & P3 & P4 & P5 & P6 & P7 & P8 & P9 & P10 & P11) [H2 H3] (_ & R1 & R2 & R3 & R4).
  split; [congruence|]. split; [|congruence].
  intros n. rewrite R4, P6, P7, P8, P9, P10. specialize (H3 n). specialize (P2 n).
  unfold back. unfold handled in *.
  destruct (N.eqb_spec n SIGCONT) as [E|_]; [rewrite E; reflexivity|].
  destruct (N.eqb_spec n SIGINT) as [E|_].
  { rewrite E in *. destruct (ss_contains (report_signals cfg) Interrupt); [reflexivity|]. cbn in H3, P2. congruence. }
  destruct (N.eqb_spec n SIGTSTP) as [E|_].
  { rewrite E in *. destruct (ss_contains (report_signals cfg) Suspend); [reflexivity|]. cbn in H3, P2. congruence. }
  destruct (N.eqb_spec n SIGQUIT) as [E|_].
  { rewrite E in *. destruct (ss_contains (report_signals cfg) Quit); [reflexivity|]. cbn in H3, P2. congruence. }
  destruct (N.eqb_spec n SIGWINCH) as [E|_]; [rewrite E; reflexivity|].
  cbn in H3, P2. congruence.
Qed.

Lemma locked_wr f s : match locked f s with Ret s' _ | Fail s' _ => exists w, s' = M_Prepare.with_wr w s | _ => True end.
Proof.
  unfold locked, with_guard, on_wr. destruct (f (pwr s)) as [w u|w e| |]; auto.
  - destruct (guard_drop (pwr (M_Prepare.with_wr w s))) as [w2 u2|w2 e2| |]; cbn [obind]; auto; eexists; reflexivity.
  - destruct (guard_drop (pwr (M_Prepare.with_wr w s))) as [w2 u2|w2 e2| |]; cbn [obind]; auto; eexists; reflexivity.
Qed.

Lemma size_wr s : match term_size s with
  | Ret s' z => win s = inr z /\ exists w, s' = M_Prepare.with_wr w s
  | Fail s' _ => exists w, s' = M_Prepare.with_wr w s
  | _ => True end.
Proof.
  unfold term_size, with_guard, on_wr. destruct (win s) as [e|z] eqn:Ew.
  - destruct (guard_drop (pwr s)) as [w2 u2|w2 e2| |]; cbn [obind]; auto; eexists; reflexivity.
  - destruct (guard_drop (pwr s)) as [w2 u2|w2 e2| |]; cbn [obind]; auto; [split; [reflexivity|]|]; eexists; reflexivity.
Qed.

(** A screen that has been created. *)
Lemma new_ret E C cfg s0 s1 u : unix_screen_new E C cfg s0 = Ret s1 u ->
  s1 = u_sys u /\ u_clr u = false /\ u_real u = Cursor 0 0 /\ exists z s2 w w',
    win s0 = inr z /\ sb_new E z = Val (u_sb u) /\
    prepare C cfg (M_Prepare.with_wr w s0) = Ret s2 (u_st u) /\ u_sys u = M_Prepare.with_wr w' s2 /\
    locked (enter_screen C (win s2)) s2 = Ret (u_sys u) tt.
Proof.
  unfold unix_screen_new. pose proof (size_wr s0) as H1.
  destruct (term_size s0) as [sa z|sa e| |].
  2:{ destruct (terminal_drop C sa); discriminate. }
  2-3: discriminate.
  destruct H1 as (Hw & w & ->).
  destruct (prepare C cfg (M_Prepare.with_wr w s0)) as [sb st|sb e| |] eqn:Ep; try discriminate.
  2:{ destruct (terminal_drop C sb); discriminate. }
  destruct (sb_new E z) as [b|] eqn:Eb; try discriminate.
  pose proof (locked_wr (enter_screen C (win sb)) sb) as H2.
  destruct (locked (enter_screen C (win sb)) sb) as [sc uc|sc e| |] eqn:El; try discriminate.
  - intros [= <- <-]. destruct H2 as (w' & ->). cbn. destruct uc. split; [reflexivity|]. split; [reflexivity|]. split; [reflexivity|].
    exists z, sb, w, w'. auto.
  - destruct (leave C st sc) as [sd ud|sd ed| |]; try discriminate. destruct (terminal_drop C sd); discriminate.
Qed.

Section Run.
  Variables (E : env) (C : tcfg) (m : seq_map).
  Hypothesis Hm : key_map m.

  Lemma kept_refl cfg s s' : resume_cfg s = Some cfg -> resume_cfg s' = Some cfg -> disp s' = disp s -> kept_by (Some cfg) s s'.
  Proof. intros _ H1 H2. split; [exact H1|]. intros n. rewrite H2. destruct (handled cfg n); auto. Qed.

  Lemma reads_kept cfg s s' : resume_cfg s = Some cfg -> reads s s' -> kept_by (Some cfg) s s'.
  Proof. intros H [R1 R2]. rewrite H in R1, R2. split; [exact R1|exact R2]. Qed.

  Lemma follow_kept e u u' : follow E e u = Val u' ->
    u_st u' = u_st u /\ u_sys u' = u_sys u.
  Proof.
    unfold follow. destruct e as [[]|]; try (intros [= <-]; auto).
    unfold update_size. destruct (sb_resize E _ _); [|discriminate]. intros [= <-]. cbn. destruct u as [ub uc ur ut ux]. cbn. destruct ux. auto.
  Qed.

  Lemma ustep_kept cfg o u u' r : resume_cfg (u_sys u) = Some cfg -> ustep E C m o u = Some (u', r) ->
    u_st u' = u_st u /\ kept_by (Some cfg) (u_sys u) (u_sys u').
  Proof.
    intros Hr.
    assert (Hout : forall f, on_out f u = Some (u', r) -> u_st u' = u_st u /\ kept_by (Some cfg) (u_sys u) (u_sys u')).
    { intros f. unfold on_out. destruct (f (out_side u)) as [x a|x e| |]; intros [= <- <-];
        (split; [reflexivity|apply kept_refl; auto]). }
    assert (Hsys : forall o x y, reading o -> rstep C m o (u_sys u) = Some (x, y) ->
              u_st (with_sys x u) = u_st u /\ kept_by (Some cfg) (u_sys u) (u_sys (with_sys x u))).
    { intros o0 x y Ho Hs. split; [reflexivity|]. apply reads_kept; [exact Hr|]. eapply rstep_reads; eauto. }
    destruct o; cbn [ustep]; try (apply Hout).
    - pose proof (Hsys (RWait timeout)) as H. cbn [rstep] in H. unfold ret in H.
      destruct (wait_event m timeout (u_sys u)) as [x b|x e| |]; intros [= <- <-]; eapply H; try exact I; reflexivity.
    - pose proof (Hsys (RRead timeout)) as H. cbn [rstep] in H. unfold ret in H.
      destruct (read_event C m timeout (u_sys u)) as [x b|x e| |]; try discriminate.
      + destruct (follow E b (with_sys x u)) as [v|] eqn:Ef; [|discriminate]. intros [= <- <-].
        apply follow_kept in Ef as [-> ->]. eapply H; [exact I|reflexivity].
      + intros [= <- <-]; eapply H; [exact I|reflexivity].
    - pose proof (Hsys (RRaw room timeout)) as H. cbn [rstep] in H. unfold ret in H.
      destruct (read_raw C m room timeout (u_sys u)) as [x [b bs]|x e| |]; try discriminate.
      + destruct (follow E b (with_sys x u)) as [v|] eqn:Ef; [|discriminate]. intros [= <- <-].
        apply follow_kept in Ef as [-> ->]. eapply H; [exact I|reflexivity].
      + intros [= <- <-]; eapply H; [exact I|reflexivity].
  Qed.

  Lemma urun_kept cfg ops : forall u u' rs, resume_cfg (u_sys u) = Some cfg -> urun E C m ops u = Some (u', rs) ->
    u_st u' = u_st u /\ kept_by (Some cfg) (u_sys u) (u_sys u').
  Proof.
    induction ops as [|o ops IH]; intros u u' rs Hr; cbn [urun].
    - intros [= <- <-]. split; [reflexivity|]. apply kept_refl; auto.
    - destruct (ustep E C m o u) as [[u1 r]|] eqn:Es; [|discriminate].
      destruct (urun E C m ops u1) as [[u2 rs2]|] eqn:Er; [|discriminate]. intros [= <- <-].
      destruct (ustep_kept cfg o u u1 r Hr Es) as [H1 H2]. destruct (IH u1 u2 rs2 (proj1 H2) Er) as [H3 H4].
      split; [congruence|]. eapply kept_by_trans; eauto.
  Qed.

  Lemma gives_back cfg ops s0 s1 u u' rs : plain_caps C ->
    unix_screen_new E C cfg s0 = Ret s1 u -> urun E C m ops u = Some (u', rs) -> works (u_sys u') ->
    match screen_drop C u' with
    | Ret s2 printed =>
        printed = (None, None) /\ same_terminal s0 s2 /\ obuf (pwr s2) = [] /\
        exists off k k', modes_off C (cfg_mouse cfg && xterm C) (cfg_keypad cfg && has C KeypadXmit) off /\
          dev (pwr s2) = stream (pwr (u_sys u')) ++ off ++ cap_bytes C ExitCaMode k ++ cap_bytes C CursorNormal k'
    | Blocked => True
    | _ => False
    end.
  Proof.
    intros Hc Hn Hr Hw. destruct (new_ret _ _ _ _ _ _ Hn) as (_ & _ & _ & z & s2 & w & w' & _ & _ & Hp & Hs & _).
    destruct (prepare_flags _ _ _ _ _ Hp) as [F1 F2]. apply prepare_ret in Hp.
    assert (Hcfg : resume_cfg (u_sys u) = Some cfg) by (rewrite Hs; apply Hp).
    destruct (urun_kept cfg ops u u' rs Hcfg Hr) as [K1 K2].
    unfold screen_drop. pose proof (leave_fine C (u_st u') (u_sys u') Hc Hw) as L.
    destruct (leave C (u_st u') (u_sys u')) as [s3 e3|s3 e3| |]; cbn [fine obind] in *; try contradiction; auto.
    destruct L as [L0 (-> & L1 & L2 & x & k & L3 & L4)].
    pose proof (terminal_drop_fine C s3 Hc L0) as T.
    destruct (terminal_drop C s3) as [s4 e4|s4 e4| |]; cbn [fine obind] in *; try contradiction; auto.
    destruct T as [T0 (-> & T1 & (k' & T2) & w4 & ->)]. split; [reflexivity|]. split.
    - rewrite K1 in L1. apply (back_home cfg s0 s2 (u_st u) (u_sys u') s3); [exact Hp| |exact L1].
      rewrite Hs in K2. exact K2.
    - split; [exact T1|]. exists x, k, k'. rewrite K1, F1, F2 in L3. split; [exact L3|].
      pose proof (adds_trans _ _ _ _ _ L4 T2) as A. unfold adds in A. unfold stream at 1 in A. rewrite T1, app_nil_r in A.
      rewrite A, <- app_assoc. reflexivity.
  Qed.
End Run.

(** ** Creation that fails *)
Lemma size_fine s : works s -> match term_size s with
  | Ret s' z => works s' /\ win s = inr z /\ obuf (pwr s') = [] /\ exists w, s' = M_Prepare.with_wr w s
  | Fail s' _ => works s' /\ exists w, s' = M_Prepare.with_wr w s
  | Panic => False
  | Blocked => True end.
Proof.
  intros H. unfold term_size, with_guard.
  pose proof (on_wr_fine _ guard_drop s H (drop_fine (pwr s) (proj1 H))) as F.
  destruct (win s) as [e|z] eqn:Ew; destruct (on_wr guard_drop s) as [s1 u|s1 e1| |]; cbn [fine obind] in *; try contradiction; auto;
    destruct F as [F0 (w & -> & F1 & _)]; (split; [exact F0|]); eauto 10.
Qed.

Lemma install_fine b n s : works s -> fine (fun _ _ => True) (install b n s).
Proof.
  intros H. unfold install. destruct b; [|split; auto]. apply fine_bind with (Q := fun _ _ => True).
  - apply os_fine; [exact H|]. intros l Hl. split; auto.
  - intros s1 a H1 _. split; auto.
Qed.

Lemma prepare_fine C cfg s : plain_caps C -> works s -> fine (fun _ _ => True) (prepare C cfg s).
Proof.
  intros Hc H. unfold prepare, with_guard.
  assert (P : fine (fun _ _ => True) (prepare_with_lock C cfg s)).
  { unfold prepare_with_lock.
    apply fine_bind with (Q := fun _ _ => True). { apply os_fine; [exact H|]. intros l Hl. split; auto. }
    intros s1 old H1 _.
    apply fine_bind with (Q := fun _ _ => True). { apply os_fine; [exact H1|]. intros l Hl. split; auto. }
    intros s2 u2 H2 _.
    assert (Hon : forall A (f : wst -> out wst werr A) z, works z -> wfine (fun _ _ => True) (f (pwr z)) -> fine (fun _ _ => True) (on_wr f z)).
    { intros A f z Hz Hf. eapply fine_weak; [exact (on_wr_fine _ f z Hz Hf)|auto]. }
    apply fine_bind with (Q := fun _ _ => True).
    { destruct (cfg_mouse cfg); [|split; auto]. apply Hon; [exact H2|]. unfold enable_mouse. destruct (xterm C); [|split; [apply H2|exact I]].
      pose proof (bytes_fine C XTERM_ENABLE_MOUSE (pwr s2) (proj1 H2)) as W.
      destruct (write_bytes C XTERM_ENABLE_MOUSE (pwr s2)) as [w1 u|w1 e| |]; cbn [obind]; try exact W.
      destruct W as [W1 _]. unfold when. destruct (always_track_motion cfg); [|split; [exact W1|exact I]].
      pose proof (bytes_fine C XTERM_ENABLE_MOUSE_MOTION w1 W1) as X.
      destruct (write_bytes C XTERM_ENABLE_MOUSE_MOTION w1) as [w2 ux|w2 e| |]; cbn [obind]; try exact X.
      split; [apply X|exact I]. }
    intros s3 mo H3 _. apply fine_bind with (Q := fun _ _ => True).
    { destruct (cfg_keypad cfg); [|split; auto]. apply Hon; [exact H3|]. unfold enable_keypad.
      pose proof (opt_fine C KeypadXmit (pwr s3) Hc ltac:(cbn; auto) (proj1 H3)) as X. unfold expand_opt in X.
      destruct (info C KeypadXmit) as [e|]; [|split; [apply H3|exact I]].
      destruct (expand C e [] (pwr s3)) as [w2 ux|w2 e2| |]; cbn [obind]; try exact X. split; [apply X|exact I]. }
    intros s4 kp H4 _. apply fine_bind with (Q := fun _ _ => True).
    { eapply fine_weak; [exact (on_wr_fine _ flush s4 H4 (flush_fine (pwr s4) (proj1 H4)))|auto]. }
    intros s5 u5 H5 _. eapply fine_bind; [apply install_fine; exact H5|].
    intros s6 o1 H6 _. eapply fine_bind; [apply install_fine; exact H6|].
    intros s7 o2 H7 _. eapply fine_bind; [apply install_fine; exact H7|].
    intros s8 o3 H8 _. eapply fine_bind; [apply install_fine; exact H8|].
    intros s9 o4 H9 _. eapply fine_bind; [apply install_fine; exact H9|].
    intros s10 o5 H10 _. split; [exact H10|exact I]. }
  destruct (prepare_with_lock C cfg s) as [s1 a|s1 e| |]; cbn [fine] in P; try contradiction; auto.
  destruct P as [P _]. eapply fine_bind; [exact (on_wr_fine _ guard_drop s1 P (drop_fine (pwr s1) (proj1 P)))|].
  intros s2 u2 H2 _. split; auto.
Qed.

Lemma enter_quiet C z w : P_Writer.quiet w (enter_screen C z w).
Proof.
  unfold enter_screen. destruct (info C ChangeScrollRegion) as [scroll|] eqn:Es; [|apply ext_refl].
  destruct (info C CursorHome) as [home|] eqn:Eh; [|apply ext_refl].
  destruct z as [e|z]; [apply ext_refl|]. apply quiet_bind; [apply quiet_opt|]. intros w1 u1 _.
  destruct (lines z) as [|l]; [exact I|].
  assert (Hexp : forall e ps w, P_Writer.quiet w (expand C e ps w)).
  { intros e ps w0. unfold expand. destruct (e (wctx w0) ps) as [[bs k] []]; (split; [reflexivity|]; split; [reflexivity|]; now exists bs). }
  apply quiet_bind; [apply Hexp|]. intros w2 u2 _. apply quiet_bind; [apply Hexp|]. intros w3 u3 _.
  apply quiet_bind; [apply quiet_clear|]. intros w4 u4 _.
  unfold clear_screen. apply quiet_req.
Qed.

Lemma failed_creation E C cfg s0 s1 e : plain_caps C -> works s0 ->
  unix_screen_new E C cfg s0 = Fail s1 e -> same_terminal s0 s1 /\ obuf (pwr s1) = [].
Proof.
  intros Hc Hw. unfold unix_screen_new. pose proof (size_fine s0 Hw) as S.
  assert (Hdrop : forall s x (y : out sys rerr uscr), works s -> same_terminal s0 s -> failed x (terminal_drop C s) = y -> y = Fail s1 e ->
            same_terminal s0 s1 /\ obuf (pwr s1) = []).
  { intros s x y Hs H Hy Ey. subst y. pose proof (terminal_drop_fine C s Hc Hs) as T.
    destruct (terminal_drop C s) as [s4 e4|s4 e4| |]; cbn [fine failed] in *; try contradiction; try discriminate.
    injection Ey as <- <-. destruct T as [T0 (-> & T1 & _ & w4 & ->)]. split; [exact H|exact T1]. }
  destruct (term_size s0) as [sa z|sa ea| |]; try discriminate.
  2:{ intros H. destruct S as [S1 (w & ->)]. eapply (Hdrop (M_Prepare.with_wr w s0) ea); [exact S1| |reflexivity|exact H].
      unfold same_terminal. auto. }
  destruct S as (S1 & _ & _ & w & ->).
  pose proof (prepare_fine C cfg (M_Prepare.with_wr w s0) Hc S1) as P.
  destruct (prepare C cfg (M_Prepare.with_wr w s0)) as [sb st|sb eb| |] eqn:Ep; cbn [fine] in P; try contradiction; try discriminate.
  destruct P as [P _]. apply prepare_ret in Ep. destruct (sb_new E z) as [b|]; [|discriminate].
  pose proof (locked_wr (enter_screen C (win sb)) sb) as LW.
  destruct (locked (enter_screen C (win sb)) sb) as [sc uc|sc ec| |] eqn:El; try discriminate.
  destruct LW as (wc & ->).
  assert (Hc2 : works (M_Prepare.with_wr wc sb)).
  { split; [|apply P]. unfold locked, with_guard, on_wr in El. pose proof (enter_quiet C (win sb) (pwr sb)) as Q.
    destruct (enter_screen C (win sb) (pwr sb)) as [w2 u2|w2 e2| |]; try discriminate.
    + cbn [pwr M_Prepare.wr M_Prepare.with_wr] in El. destruct (guard_drop w2) as [w3 u3|w3 e3| |] eqn:Eg; try discriminate.
      unfold guard_drop in Eg. destruct (flush w2); discriminate.
    + cbn [pwr M_Prepare.wr M_Prepare.with_wr] in El. destruct Q as (_ & Q & _).
      assert (Hp2 : perfect (script w2)) by (rewrite Q; apply P). pose proof (drop_fine w2 Hp2) as D.
      destruct (guard_drop w2) as [w3 u3|w3 e3| |]; cbn [wfine obind] in *; try discriminate; try contradiction.
      injection El as El _. cbn. rewrite <- El. apply D. }
  pose proof (leave_fine C st (M_Prepare.with_wr wc sb) Hc Hc2) as L.
  destruct (leave C st (M_Prepare.with_wr wc sb)) as [sd ed|sd ed| |]; cbn [fine] in *; try contradiction; try discriminate.
  destruct L as [L0 (_ & L1 & L2 & _)]. intros H. eapply (Hdrop sd ec); [exact L0| |reflexivity|exact H].
  apply (back_home cfg s0 sb st (M_Prepare.with_wr wc sb) sd); [exact Ep| |exact L1].
  apply (kept_refl cfg sb); auto; cbn; apply Ep.
Qed.

(** ** Leaving that fails *)
Lemma restore_with_failing_settings C st s e l : plain_caps C -> perfect (script (pwr s)) -> os s = Some e :: l ->
  match restore C st s with
  | Fail s' x => x = RW (EOs e) /\ tio s' = tio s /\ disp s' = disp s /\ perfect (script (pwr s')) /\ os s' = l /\
      obuf (pwr s') = [] /\
      exists off, modes_off C (restore_mouse st) (restore_keypad st) off /\ adds off (pwr s) (pwr s')
  | Blocked => True
  | _ => False
  end.
Proof.
  intros Hc Hp Ho. unfold restore, with_guard, restore_with_lock.
  assert (W : works (with_os [] (with_resume (prev_resume st) s))) by (split; [exact Hp|constructor]).
  pose proof (modes_fine C st _ Hc W) as M.
  (* the same with the failure ahead *)
  set (s0 := with_resume (prev_resume st) s) in *.
  assert (Hon : forall A (f : wst -> out wst werr A) z, on_wr f z =
      match on_wr f (with_os [] z) with Ret a b => Ret (with_os (os z) a) b | Fail a b => Fail (with_os (os z) a) b | Panic => Panic | Blocked => Blocked end).
  { intros A f z. unfold on_wr. cbn [pwr M_Prepare.wr with_os]. destruct (f (pwr z)); reflexivity. }
  assert (M2 : match (let! (s, _u) := if restore_mouse st then on_wr (disable_mouse C) s0 else Ret s0 tt in
     if restore_keypad st then on_wr (disable_keypad C) s else Ret s tt) with
     | Ret s' _ => exists w x, s' = M_Prepare.with_wr w s0 /\ perfect (script w) /\ modes_off C (restore_mouse st) (restore_keypad st) x /\ adds x (pwr s0) w
     | Blocked => True | _ => False end).
  { destruct (restore_mouse st).
    - rewrite (Hon _ _ s0). destruct (on_wr (disable_mouse C) (with_os [] s0)) as [a b|a b| |] eqn:Ea; cbn [obind] in *; try exact M.
      destruct (restore_keypad st).
      + rewrite (Hon _ _ (with_os (os s0) a)). 
        assert (Eo : with_os [] (with_os (os s0) a) = a).
        { apply on_wr_ret in Ea as (w & -> & _). reflexivity. }
        rewrite Eo. destruct (on_wr (disable_keypad C) a) as [c d|c d| |]; cbn [fine] in *; try exact M.
        destruct M as [M0 (w & x & -> & M1)]. exists w, x. split; [destruct s0; reflexivity|]. split; [apply M0|exact M1].
      + destruct M as [M0 (w & x & -> & M1)]. exists w, x. split; [destruct s0; reflexivity|]. split; [apply M0|exact M1].
    - cbn [obind] in *. destruct (restore_keypad st).
      + rewrite (Hon _ _ s0). destruct (on_wr (disable_keypad C) (with_os [] s0)) as [c d|c d| |]; cbn [fine] in *; try exact M.
        destruct M as [M0 (w & x & -> & M1)]. exists w, x. split; [destruct s0; reflexivity|]. split; [apply M0|exact M1].
      + cbn [fine] in M. destruct M as [M0 (w & x & E1 & M1)]. exists w, x. split; [|split; [|exact M1]].
        * apply (f_equal (with_os (os s0))) in E1. destruct s0. exact E1.
        * apply (f_equal pwr) in E1. cbn in E1. rewrite <- E1. exact Hp. }
  clear M.
  match goal with |- match match obind ?x _ with _ => _ end with _ => _ end => destruct x as [s1 u1|s1 e1| |] end; cbn [obind] in *; try contradiction; try exact I.
  match goal with |- match match obind ?x _ with _ => _ end with _ => _ end => destruct x as [s2 u2|s2 e2| |] end; cbn [obind] in *; try contradiction; try exact I.
  destruct M2 as (w & x & -> & M0 & M1 & M2). unfold on_wr at 1. cbn [pwr M_Prepare.wr M_Prepare.with_wr].
  pose proof (flush_fine w M0) as F. destruct (flush w) as [w3 u3|w3 e3| |]; cbn [wfine obind] in *; try contradiction; auto.
  destruct F as (F0 & F1 & F2 & _). unfold tcsetattr, os_call. cbn [os M_Prepare.with_wr s0 with_resume]. rewrite Ho. cbn [obind].
  unfold on_wr. cbn [pwr M_Prepare.wr with_os M_Prepare.with_wr s0 with_resume].
  pose proof (drop_fine w3 F0) as D. destruct (guard_drop w3) as [w4 u4|w4 e4| |]; cbn [wfine obind] in *; try contradiction; auto.
  destruct D as (D0 & D1 & D2 & _). cbn. split; [reflexivity|]. split; [reflexivity|]. split; [reflexivity|].
  split; [exact D0|]. split; [reflexivity|]. split; [exact D1|]. exists x. split; [exact M1|].
  pose proof (adds_trans _ _ _ _ _ M2 (adds_trans _ _ _ _ _ F2 D2)) as A. rewrite !app_nil_r in A. exact A.
Qed.

Lemma settings_fail C u e l : plain_caps C -> perfect (script (pwr (u_sys u))) -> os (u_sys u) = Some e :: l ->
  match screen_drop C u with
  | Ret s printed =>
      printed = (Some (RW (EOs e)), None) /\ tio s = tio (u_sys u) /\ disp s = disp (u_sys u) /\
      exists off k, modes_off C (restore_mouse (u_st u)) (restore_keypad (u_st u)) off /\
        dev (pwr s) = stream (pwr (u_sys u)) ++ off ++ cap_bytes C CursorNormal k
  | Blocked => True
  | _ => False
  end.
Proof.
  intros Hc Hp Ho. unfold screen_drop, leave.
  pose proof (restore_with_failing_settings C (u_st u) (u_sys u) e l Hc Hp Ho) as R.
  destruct (restore C (u_st u) (u_sys u)) as [s1 u1|s1 e1| |]; try contradiction; cbn [obind]; auto.
  destruct R as (-> & R1 & R2 & R3 & R4 & R5 & off & R6 & R7).
  unfold terminal_drop.
  assert (P : wfine (fun w' _ => obuf w' = [] /\ exists k, adds (cap_bytes C CursorNormal k) (pwr s1) w')
                (run_terminal_op C (OSetCursorMode CNormal) (pwr s1))).
  { cbn [run_terminal_op run_wop set_cursor_mode]. pose proof (opt_fine C CursorNormal (pwr s1) Hc ltac:(cbn; auto) R3) as P.
    destruct (expand_opt C CursorNormal [] (pwr s1)) as [w1 u1|w1 e1| |]; try exact P; try contradiction.
    destruct P as [P1 [(k & P2) _]]. pose proof (drop_fine w1 P1) as F. destruct (guard_drop w1) as [w2 u2|w2 e2| |]; cbn in *; try exact F.
    destruct F as [F1 (F0 & F2 & _)]. split; [exact F1|]. split; [exact F0|]. exists k.
    pose proof (adds_trans _ _ _ _ _ P2 F2) as X. rewrite app_nil_r in X. exact X. }
  unfold on_wr. destruct (run_terminal_op C (OSetCursorMode CNormal) (pwr s1)) as [w2 u2|w2 e2| |]; cbn [wfine obind] in *; try contradiction; auto.
  destruct P as (P0 & P1 & k & P2). split; [reflexivity|]. split; [exact R1|]. split; [exact R2|]. exists off, k. split; [exact R6|].
  pose proof (adds_trans _ _ _ _ _ R7 P2) as A. unfold adds in A. unfold stream at 1 in A. rewrite P1, app_nil_r in A. exact A.
Qed.
