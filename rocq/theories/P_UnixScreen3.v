(** Proofs about the Unix screen as a whole: output that fails when leaving (C80) and
    the size (C81). *)
From Verif Require Import Base M_Utf8 M_Geom M_Attr M_Buf S_Buf P_Buf4 M_Seq M_Signal M_Util M_Input S_Input P_Input M_Writer S_Tty S_Writer P_Writer
  M_Screen M_Prepare M_Reader S_Prepare P_Prepare P_Prepare2 P_Reader P_Reader2 P_Reader3 M_UnixScreen S_UnixScreen P_UnixScreen P_UnixScreen2 P_WinScreen.

(** ** Output that fails *)
Definition jammed (e : N) (l : list wresp) (w : wst) : Prop := script w = WErr e :: l.

Lemma write_data_jammed e l buf d : buf <> [] -> write_data buf 0 d (WErr e :: l) = Some (0, Some (EOs e), d, l).
Proof. intros H. destruct buf; [congruence|]. reflexivity. Qed.

Lemma flush_jammed e l w : jammed e l w -> obuf w <> [] -> exists w', flush w = Fail w' (EOs e).
Proof.
  unfold jammed. intros H Ho. unfold flush. rewrite H, write_data_jammed by exact Ho. cbn [Nat.leb]. eexists. reflexivity.
Qed.

Lemma bytes_jammed C e l b w : jammed e l w -> b <> [] ->
  match write_bytes C b w with
  | Ret w' _ => jammed e l w' /\ obuf w' <> []
  | Fail _ _ => True
  | _ => False
  end.
Proof.
  intros H Hb. unfold write_bytes.
  destruct (ocap w <? length b + length (obuf w)).
  - destruct (obuf w) as [|x r] eqn:Eo.
    + assert (Hf : flush w = Ret (with_io (dev w) (script w) (with_obuf [] w)) tt).
      { unfold flush. rewrite Eo. destruct (script w); reflexivity. }
      rewrite Hf. cbn [obind ocap with_io with_obuf dev script].
      destruct (ocap w <? length b).
      * unfold jammed in H. rewrite H, write_data_jammed by exact Hb. exact I.
      * split; [exact H|]. cbn. destruct b; [congruence|discriminate].
    + destruct (flush_jammed e l w H) as (w' & ->); [rewrite Eo; discriminate|]. exact I.
  - cbn [obind]. destruct (ocap w <? length b).
    + unfold jammed in H. rewrite H, write_data_jammed by exact Hb. exact I.
    + split; [exact H|]. cbn. destruct b; [congruence|]. destruct (obuf w); discriminate.
Qed.

Lemma opt_jammed C c e l w : jammed e l w -> obuf w <> [] ->
  match expand_opt C c [] w with
  | Ret w' _ => jammed e l w' /\ obuf w' <> []
  | Fail _ _ => True
  | _ => False
  end.
Proof.
  intros H Ho. unfold expand_opt. destruct (info C c) as [x|]; [|auto]. unfold expand. destruct (x (wctx w) []) as [[bs k] []]; auto.
  split; [exact H|]. cbn. destruct (obuf w); [congruence|discriminate].
Qed.

Lemma restore_jammed C st s e l : jammed e l (pwr s) -> (obuf (pwr s) <> [] \/ restore_mouse st = true) ->
  ends (fun s' => tio s' = tio s /\ disp s' = disp s) (fun _ _ => False) (restore C st s).
Proof.
  intros H Ho. unfold restore. apply guard_ends; auto. unfold restore_with_lock. set (s0 := with_resume (prev_resume st) s).
  set (P := fun s' : sys => tio s' = tio s /\ disp s' = disp s).
  set (Q := fun s' : sys => P s' /\ jammed e l (pwr s') /\ obuf (pwr s') <> []).
  assert (Hf : forall z, Q z -> ends P (fun _ _ => False) (on_wr flush z)).
  { intros z (Z1 & Z2 & Z3). destruct (flush_jammed e l (pwr z) Z2 Z3) as (w' & Hw). unfold on_wr. rewrite Hw. exact Z1. }
  eapply ends_bind with (Q := fun s' _ => Q s').
  { destruct (restore_mouse st).
    - unfold on_wr, disable_mouse. pose proof (bytes_jammed C e l XTERM_DISABLE_MOUSE (pwr s0) H) as B.
      destruct (write_bytes C XTERM_DISABLE_MOUSE (pwr s0)) as [w1 u1|w1 e1| |]; cbn [obind ends]; try exact I; [|split; reflexivity].
      destruct (B ltac:(discriminate)) as [B1 B2].
      pose proof (bytes_jammed C e l XTERM_DISABLE_MOUSE_MOTION w1 B1) as D.
      destruct (write_bytes C XTERM_DISABLE_MOUSE_MOTION w1) as [w2 u2|w2 e2| |]; cbn [ends]; try exact I; [|split; reflexivity].
      split; [split; reflexivity|]. apply D. discriminate.
    - cbn [ends]. split; [split; reflexivity|]. split; [exact H|]. destruct Ho as [Ho|Ho]; [exact Ho|discriminate Ho]. }
  intros s1 _ Q1. eapply ends_bind with (Q := fun s' _ => Q s').
  { destruct (restore_keypad st); [|exact Q1]. destruct Q1 as (P1 & J1 & O1). unfold on_wr, disable_keypad.
    pose proof (opt_jammed C KeypadLocal e l (pwr s1) J1 O1) as B.
    destruct (expand_opt C KeypadLocal [] (pwr s1)) as [w1 u1|w1 e1| |]; cbn [ends]; try exact I; [split; [exact P1|exact B]|exact P1]. }
  intros s2 _ Q2. eapply ends_bind with (Q := fun _ _ => False); [apply Hf; exact Q2|]. intros s3 u3 [].
Qed.

Lemma terminal_drop_keeps C s : match terminal_drop C s with
  | Ret s' _ => exists w, s' = M_Prepare.with_wr w s | Fail _ _ => False | _ => True end.
Proof. unfold terminal_drop, on_wr. destruct (run_terminal_op _ _ _); auto; eexists; reflexivity. Qed.

Lemma output_fails C u e l s printed : script (pwr (u_sys u)) = WErr e :: l ->
  (obuf (pwr (u_sys u)) <> [] \/ restore_mouse (u_st u) = true) ->
  screen_drop C u = Ret s printed ->
  fst printed <> None /\ tio s = tio (u_sys u) /\ disp s = disp (u_sys u).
Proof.
  intros H Ho. unfold screen_drop, leave. pose proof (restore_jammed C (u_st u) (u_sys u) e l H Ho) as R.
  destruct (restore C (u_st u) (u_sys u)) as [s1 u1|s1 e1| |]; cbn [ends obind] in *; try contradiction; try discriminate.
  pose proof (terminal_drop_keeps C s1) as T. destruct (terminal_drop C s1) as [s2 e2|s2 e2| |]; cbn [obind]; try discriminate.
  intros [= <- <-]. destruct T as (w & ->). split; [discriminate|exact R].
Qed.

(** ** The size *)
Definition sizes (z : size) (r : sres) : Prop :=
  match r with Ret x _ | Fail x _ => bsize (sb x) = z | _ => True end.
Lemma sizes_bind z r (k : scr -> unit -> sres) : sizes z r -> (forall x u, bsize (sb x) = z -> sizes z (k x u)) -> sizes z (obind r k).
Proof. destruct r; cbn; auto. Qed.
Lemma sizes_on z f x : bsize (sb x) = z -> sizes z (on_writer f x).
Proof. intros H. unfold on_writer. destruct (f (M_Screen.wr x)); cbn; auto. Qed.
Lemma sizes_move C z p x : bsize (sb x) = z -> sizes z (s_move_cursor C p x).
Proof.
  intros H. unfold s_move_cursor. destruct (cursor_eqb _ _); [exact H|].
  apply sizes_bind; [now apply sizes_on|]. intros y u Hy. exact Hy.
Qed.
Lemma sizes_draw E C z fuel : forall lo hi x, bsize (sb x) = z -> sizes z (draw E C fuel lo hi x).
Proof.
  induction fuel as [|fuel IH]; intros lo hi x H; cbn [draw];
    destruct (next_cell E (sb x) lo hi) as [[[b lo'] [[p c]|]]|] eqn:Hn; try exact I; apply next_cell_size in Hn;
    try (cbn; congruence);
    (apply sizes_bind; [apply sizes_move; cbn; congruence|]; intros x1 u1 H1;
     apply sizes_bind; [now apply sizes_on|]; intros x2 u2 H2; apply sizes_bind; [now apply sizes_on|]; intros x3 u3 H3;
     destruct (uadd _ _ _); try exact I).
  apply IH. exact H3.
Qed.
Lemma sizes_refresh E C z x : bsize (sb x) = z -> sizes z (refresh E C x).
Proof.
  intros H. unfold refresh, compose. apply sizes_bind; [|intros; now apply sizes_on].
  apply sizes_bind.
  { destruct (clr x); [|exact H]. apply sizes_bind; [now apply sizes_on|]. intros y u Hy. exact Hy. }
  intros x1 u1 H1. apply sizes_bind; [now apply sizes_on|]. intros x2 u2 H2.
  destruct (sb_indices E (sb x2)) as [[lo hi]|]; [|exact I].
  apply sizes_bind; [now apply sizes_draw|]. intros x3 u3 H3. apply sizes_bind; [now apply sizes_on|]. intros x4 u4 H4.
  destruct (is_out_of_bounds _ _); [destruct (cursor_last _); [|exact I]|]; now apply sizes_move.
Qed.
Lemma sizes_guard E C z x : bsize (sb x) = z -> sizes z (s_guard_drop E C x).
Proof.
  intros H. unfold s_guard_drop. pose proof (sizes_refresh E C z x H) as R.
  destruct (refresh E C x); cbn in R; auto; now apply sizes_on.
Qed.
Lemma sizes_screen_refresh E C z x : bsize (sb x) = z -> sizes z (screen_refresh E C x).
Proof.
  intros H. unfold screen_refresh. pose proof (sizes_refresh E C z x H) as R.
  destruct (refresh E C x) as [y u|y e| |]; cbn in R; auto; pose proof (sizes_guard E C z y R) as G;
    destruct (s_guard_drop E C y); cbn in *; auto.
Qed.

Section Size.
  Variables (E : env) (C : tcfg) (m : seq_map).
  Hypothesis HE : env_ok E.

  Lemma sizes_buffer o x b : (forall z, o <> BResize z) -> run_buf_op E (sb x) o = Val b -> bsize b = bsize (sb x).
  Proof.
    intros Hr R. destruct (op_kept E HE (fun _ => True) I (sb x) o b Hr) as (_ & K1 & _); [|exact R|].
    { apply Forall_forall. intros y _. split; auto. }
    congruence.
  Qed.
  Lemma sizes_gop z o x : public_gop o -> bsize (sb x) = z -> sizes z (g_step E C o x).
  Proof.
    intros Hp H. destruct o; cbn [g_step]; [|now apply sizes_on|now apply sizes_refresh].
    destruct (run_buf_op E (sb x) o) as [b|] eqn:R; [|exact I]. cbn. rewrite (sizes_buffer o x b); auto.
    intros z0 ->. exact Hp.
  Qed.
  Lemma sizes_grun z l : forall x, Forall public_gop l -> bsize (sb x) = z -> sizes z (g_run E C l x).
  Proof.
    induction l as [|o l IH]; intros x Hp H; cbn [g_run]; [now apply sizes_guard|]. inversion Hp as [|? ? P1 P2].
    pose proof (sizes_gop z o x P1 H) as S. destruct (g_step E C o x); cbn in *; auto.
  Qed.
  Lemma size_out z f u u' r : (forall x, bsize (sb x) = z -> sizes z (f x)) -> bsize (u_sb u) = z ->
    on_out f u = Some (u', r) -> bsize (u_sb u') = z /\ resize_of r = None.
  Proof.
    intros Hf H. unfold on_out. specialize (Hf (out_side u) H). destruct (f (out_side u)); intros [= <- <-]; auto.
  Qed.

  Lemma follow_size e u u' : follow E e u = Val u' ->
    bsize (u_sb u') = match e with Some (EResize z) => z | _ => bsize (u_sb u) end.
  Proof.
    unfold follow. destruct e as [[]|]; try (now intros [= <-]).
    unfold update_size. destruct (sb_resize E (sb (out_side u)) _) eqn:R; [|discriminate]. intros [= <-]. cbn. now apply resized in R.
  Qed.

  Lemma ustep_size o u u' r : public_op o -> ustep E C m o u = Some (u', r) ->
    bsize (u_sb u') = match resize_of r with Some z => z | None => bsize (u_sb u) end.
  Proof.
    intros Hp.
    assert (Hout : forall f, (forall x, bsize (sb x) = bsize (u_sb u) -> sizes (bsize (u_sb u)) (f x)) -> on_out f u = Some (u', r) ->
              bsize (u_sb u') = match resize_of r with Some z => z | None => bsize (u_sb u) end).
    { intros f Hf H. destruct (size_out _ f u u' r Hf eq_refl H) as [H1 ->]. exact H1. }
    destruct o; cbn [ustep].
    - apply Hout. intros x Hx. apply sizes_gop; [exact Hp|exact Hx].
    - apply Hout. intros x Hx. now apply sizes_on.
    - apply Hout. intros x Hx. now apply sizes_screen_refresh.
    - apply Hout. intros x Hx. now apply sizes_grun.
    - destruct (wait_event m timeout (u_sys u)) as [x b|x e| |]; intros [= <- <-]; reflexivity.
    - destruct (read_event C m timeout (u_sys u)) as [x b|x e| |]; try discriminate; [|intros [= <- <-]; reflexivity].
      destruct (follow E b (with_sys x u)) as [v|] eqn:Ef; [|discriminate]. intros [= <- <-].
      apply follow_size in Ef. rewrite Ef. cbn [resize_of]. destruct b as [[]|]; reflexivity.
    - destruct (read_raw C m room timeout (u_sys u)) as [x [b bs]|x e| |]; try discriminate; [|intros [= <- <-]; reflexivity].
      destruct (follow E b (with_sys x u)) as [v|] eqn:Ef; [|discriminate]. intros [= <- <-].
      apply follow_size in Ef. rewrite Ef. cbn [resize_of]. destruct b as [[]|]; reflexivity.
  Qed.

  Lemma urun_size ops : forall u u' rs, Forall public_op ops -> urun E C m ops u = Some (u', rs) ->
    bsize (u_sb u') = last_reported (bsize (u_sb u)) rs.
  Proof.
    induction ops as [|o ops IH]; intros u u' rs Hp; cbn [urun]; [intros [= <- <-]; reflexivity|].
    inversion Hp as [|? ? P1 P2]. destruct (ustep E C m o u) as [[u1 r]|] eqn:Es; [|discriminate].
    destruct (urun E C m ops u1) as [[u2 rs2]|] eqn:Er; [|discriminate]. intros [= <- <-]. cbn [last_reported].
    rewrite (IH u1 u2 rs2 P2 Er), (ustep_size o u u1 r P1 Es). reflexivity.
  Qed.

  Lemma new_size cfg s0 s1 u : unix_screen_new E C cfg s0 = Ret s1 u -> win s0 = inr (bsize (u_sb u)).
  Proof.
    intros H. destruct (new_ret _ _ _ _ _ _ H) as (_ & _ & _ & z & s2 & w & w' & Hw & Hb & _). rewrite Hw. f_equal.
    unfold sb_new in Hb. destruct (area (umax E) z) as [l|]; cbn in Hb; try discriminate Hb. now injection Hb as <-.
  Qed.

  Lemma size_followed cfg ops s0 s1 u u' rs : unix_screen_new E C cfg s0 = Ret s1 u -> Forall public_op ops ->
    urun E C m ops u = Some (u', rs) ->
    exists z, win s0 = inr z /\ bsize (u_sb u') = last_reported z rs.
  Proof. intros Hn Hp Hr. exists (bsize (u_sb u)). split; [now apply new_size in Hn|]. now apply urun_size with ops. Qed.
End Size.

(** ** Reports of the size *)
Section Reports.
  Variables (E : env) (C : tcfg) (m : seq_map).
  Hypothesis Hm : key_map m.

  (** A reported size is the window's. *)
  Lemma handle_window sig s s' z : handle_signal C sig s = Ret s' (Some (EResize z)) -> win s' = inr z.
  Proof.
    assert (Hr : forall k x, report_signal k x <> Ret s' (Some (EResize z))).
    { intros k x. unfold report_signal. destruct (ss_contains _ _); discriminate. }
    destruct sig; cbn [handle_signal]; try (intros H; destruct (Hr _ _ H)).
    - destruct (resume C s) as [s1 u| | |]; cbn [obind]; try discriminate. intros H. destruct (Hr _ _ H).
    - pose proof (size_wr s) as S. destruct (term_size s) as [s1 z1| | |]; cbn [obind]; try discriminate.
      intros [= <- <-]. destruct S as (S1 & w & ->). exact S1.
  Qed.

  Lemma try_no_resize s s' z : try_read m s <> Ret s' (Some (EResize z)).
  Proof.
    unfold try_read. destruct (inbuf s); [discriminate|]. unfold peek.
    destruct (peek_event (inbuf s) m) as [[| |e n0]|] eqn:Ep; cbn [obind]; try discriminate.
    intros [= _ ->]. apply peek_kind in Ep. exact Ep.
  Qed.

  Lemma read_window t s s' z : read_event C m t s = Ret s' (Some (EResize z)) -> win s' = inr z.
  Proof.
    unfold read_event. destruct (try_read m s) as [s1 [e|]| | |] eqn:Et; cbn [obind]; try discriminate.
    - intros [= -> ->]. destruct (try_no_resize _ _ _ Et).
    - destruct (read_into_buffer C m t s1) as [s2 [[sig|bs]|]| | |]; cbn [obind]; try discriminate.
      + apply handle_window.
      + intros H. destruct (try_no_resize _ _ _ H).
  Qed.

  Lemma raw_window room t s s' z bs : read_raw C m room t s = Ret s' (Some (EResize z), bs) -> win s' = inr z.
  Proof.
    unfold read_raw. destruct (inbuf s); [|discriminate].
    destruct (read_input m room t s) as [s1 [[sig|x]|]| | |]; cbn [obind]; try discriminate.
    destruct (handle_signal C sig s1) as [s2 e| | |] eqn:Eh; cbn [obind]; try discriminate.
    intros [= -> -> <-]. now apply handle_window in Eh.
  Qed.

  Lemma ustep_report o u u' r z : ustep E C m o u = Some (u', r) -> resize_of r = Some z ->
    win (u_sys u') = inr z /\ u_clr u' = true.
  Proof.
    assert (Hf : forall x v, follow E (Some (EResize z)) (with_sys x u) = Val v -> win (u_sys v) = win x /\ u_clr v = true).
    { intros x v. unfold follow, update_size. destruct (sb_resize E _ _); [|discriminate]. intros [= <-]. auto. }
    assert (Hout : forall f, on_out f u = Some (u', r) -> resize_of r = Some z -> win (u_sys u') = inr z /\ u_clr u' = true).
    { intros f. unfold on_out. destruct (f (out_side u)); intros [= <- <-]; discriminate. }
    destruct o; cbn [ustep]; try (apply Hout).
    - destruct (wait_event m timeout (u_sys u)) as [x b|x e| |]; intros [= <- <-]; discriminate.
    - destruct (read_event C m timeout (u_sys u)) as [x b|x e| |] eqn:Er; try discriminate; [|intros [= <- <-]; discriminate].
      destruct (follow E b (with_sys x u)) as [v|] eqn:Ef; [|discriminate]. intros [= <- <-] Hz. cbn [resize_of] in Hz.
      destruct b as [[]|]; try discriminate. injection Hz as ->. apply Hf in Ef as [-> ->]. split; [|reflexivity]. now apply read_window in Er.
    - destruct (read_raw C m room timeout (u_sys u)) as [x [b bs]|x e| |] eqn:Er; try discriminate; [|intros [= <- <-]; discriminate].
      destruct (follow E b (with_sys x u)) as [v|] eqn:Ef; [|discriminate]. intros [= <- <-] Hz. cbn [resize_of] in Hz.
      destruct b as [[]|]; try discriminate. injection Hz as ->. apply Hf in Ef as [-> ->]. split; [|reflexivity]. now apply raw_window in Er.
  Qed.

  (** ** No report without SIGWINCH *)
  Lemma conv_resize n : conv_signal n = Some Resize -> n = SIGWINCH.
  Proof.
    unfold conv_signal. destruct (N.eqb_spec n SIGCONT); [discriminate|]. destruct (N.eqb_spec n SIGINT); [discriminate|].
    destruct (N.eqb_spec n SIGQUIT); [discriminate|]. destruct (N.eqb_spec n SIGTSTP); [discriminate|].
    destruct (N.eqb_spec n SIGWINCH); [auto|discriminate].
  Qed.

  Lemma pass_no_winch l : forall s, last_sig s <> SIGWINCH -> ~ In (TSig SIGWINCH) l -> no_winch (pass l s).
  Proof.
    induction l as [|t l IH]; intros s H1 H2; cbn [pass]; [split; [exact H1|auto]|].
    assert (H3 : ~ In (TSig SIGWINCH) l) by (intros H; apply H2; now right).
    assert (H4 : last_sig (happens t s) <> SIGWINCH).
    { destruct t; cbn; auto. destruct (disp s n); [|exact H1]. cbn. intros ->. apply H2. now left. }
    destruct t; try (apply IH; assumption). split; [exact H1|exact H3].
  Qed.
  Lemma advance_no_winch s : no_winch s -> no_winch (advance s).
  Proof. intros [H1 H2]. now apply pass_no_winch. Qed.

  Lemma await_no_winch ms l : forall s, last_sig s <> SIGWINCH -> ~ In (TSig SIGWINCH) l -> no_winch (fst (await ms l s)).
  Proof.
    induction l as [|t l IH]; intros s H1 H2; cbn [await].
    - destruct (failing s); [split; auto|]. destruct (queue s); [|split; auto].
      destruct (match ms with Some 0%N => true | _ => false end); split; auto.
    - assert (H3 : ~ In (TSig SIGWINCH) l) by (intros H; apply H2; now right).
      destruct (failing s); [split; auto|]. destruct (queue s); [|split; auto].
      destruct (match ms with Some 0%N => true | _ => false end); [split; auto|].
      destruct t; cbn [happens]; try (apply IH; assumption); try (split; assumption).
      + destruct (disp s n) as [|k]; [|now apply IH]. split; [|exact H3]. cbn. intros ->. apply H2. now left.
      + destruct ms; [split; assumption|now apply IH].
  Qed.
  Lemma select_no_winch ms s : no_winch s -> no_winch (fst (select ms s)).
  Proof. intros H. apply advance_no_winch in H as [H1 H2]. now apply await_no_winch. Qed.
  Lemma os_read_no_winch room s : no_winch s -> no_winch (fst (os_read room s)).
  Proof.
    intros H. apply advance_no_winch in H as [H1 H2]. unfold os_read.
    set (ms := if never_waits _ then _ else _).
    pose proof (await_no_winch ms (time (advance s)) (advance s) H1 H2) as H.
    destruct (await ms (time (advance s)) (advance s)) as [s1 w]. destruct w; cbn [fst] in *; try exact H.
    unfold take_queue. destruct (queue s1) as [|bs q]; [exact H|]. destruct (_ <=? _); exact H.
  Qed.

  Definition no_resize (r : option input) : Prop := r <> Some (ISignal Resize).
  Lemma signal_no_winch s : no_winch s -> no_winch (fst (get_signal s)) /\ no_winch (fst (take_signal s)) /\
    snd (get_signal s) <> Some Resize /\ snd (take_signal s) <> Some Resize.
  Proof.
    intros H. apply advance_no_winch in H. cbn. split; [exact H|]. destruct H as [H1 H2].
    assert (H3 : conv_signal (last_sig (advance s)) <> Some Resize) by (intros H; now apply conv_resize in H).
    split; [split; [discriminate|exact H2]|]. auto.
  Qed.

  Lemma wait_loop_no_winch fuel ms : forall s, no_winch s -> ends no_winch (fun s' _ => no_winch s') (wait_loop fuel ms s).
  Proof.
    induction fuel as [|fuel IH]; intros s Hs; cbn [wait_loop]; [exact I|].
    pose proof (select_no_winch ms s Hs) as H. destruct (select ms s) as [s1 w]. cbn [fst] in H.
    assert (Hi : ends no_winch (fun s' _ => no_winch s')
       (let '(s2, sig) := get_signal s1 in match sig with Some _ => Ret s2 true | None => wait_loop fuel ms s2 end)).
    { pose proof (signal_no_winch s1 H) as (H2 & _). destruct (get_signal s1) as [s2 sig]. cbn [fst] in H2.
      destruct sig; [exact H2|]. now apply IH. }
    destruct w; try exact H; try exact I; try exact Hi. destruct (e =? EINTR)%N; [exact Hi|exact H].
  Qed.
  Lemma wait_no_winch t s : no_winch (fst (get_signal s)) -> ends no_winch (fun s' _ => no_winch s') (wait_event m t s).
  Proof.
    intros H. unfold wait_event. destruct (get_signal s) as [s1 sig]. cbn [fst] in H. destruct sig; [exact H|].
    unfold peek. destruct (peek_event (inbuf s1) m) as [[| |e n]|]; cbn [obind ends]; try exact H; try exact I.
    destruct t as [d|]; [destruct (to_timeval d); [|exact I]|]; now apply wait_loop_no_winch.
  Qed.
  Lemma read_loop_no_winch fuel room : forall s, no_winch s ->
    ends no_winch (fun s' r => no_winch s' /\ no_resize r) (read_loop fuel room s).
  Proof.
    induction fuel as [|fuel IH]; intros s Hs; cbn [read_loop]; [exact I|].
    pose proof (os_read_no_winch room s Hs) as H. destruct (os_read room s) as [s1 g]. cbn [fst] in H.
    assert (Hi : ends no_winch (fun s' r => no_winch s' /\ no_resize r)
       (let '(s2, sig) := take_signal s1 in match sig with Some sig => Ret s2 (Some (ISignal sig)) | None => read_loop fuel room s2 end)).
    { pose proof (signal_no_winch s1 H) as (_ & H2 & _ & H3). destruct (take_signal s1) as [s2 sig]. cbn [fst snd] in H2, H3.
      destruct sig; [|now apply IH]. split; [exact H2|]. intros [= ->]. now apply H3. }
    destruct g; try exact I; try exact Hi.
    - split; [exact H|discriminate].
    - destruct (e =? EINTR)%N; [exact Hi|exact H].
  Qed.
  (** The state the first look at the signals leaves matters only. *)
  Definition winch_gone (s : sys) : Prop := no_winch (advance s).
  Lemma gone_take s : winch_gone s -> no_winch (fst (take_signal s)) /\ snd (take_signal s) <> Some Resize.
  Proof.
    intros [H1 H2]. cbn. split; [split; [discriminate|exact H2]|]. intros H. now apply conv_resize in H.
  Qed.
  Lemma read_input_no_winch room t s : winch_gone s -> ends no_winch (fun s' r => no_winch s' /\ no_resize r) (read_input m room t s).
  Proof.
    intros H. unfold read_input. apply gone_take in H as [H1 H2]. destruct (take_signal s) as [s1 sig]. cbn [fst snd] in *.
    destruct sig; [split; [exact H1|]; intros [= ->]; now apply H2|].
    eapply ends_bind; [apply wait_no_winch; now apply signal_no_winch|]. intros s2 ready H3. cbn beta in H3.
    destruct ready; cbn [negb]; [|split; [exact H3|discriminate]].
    apply signal_no_winch in H3 as (_ & H4 & _ & H5). destruct (take_signal s2) as [s3 sig]. cbn [fst snd] in *.
    destruct sig; [split; [exact H4|]; intros [= ->]; now apply H5|]. now apply read_loop_no_winch.
  Qed.
  Lemma inbuf_pass l : forall s b c, pass l (with_inbuf b c s) = with_inbuf b c (pass l s).
  Proof.
    induction l as [|t l IH]; intros s b c; [reflexivity|]. destruct t; cbn [pass happens]; try apply IH; try reflexivity.
    - cbn [disp with_inbuf]. destruct (disp s n); [exact (IH (with_last n s) b c)|apply IH].
    - exact (IH (with_queue (queue s ++ [bs]) s) b c).
    - exact (IH (with_failing (Some e) s) b c).
    - exact (IH (with_win r s) b c).
  Qed.
  Lemma gone_inbuf s b c : winch_gone s -> winch_gone (with_inbuf b c s).
  Proof. unfold winch_gone, advance. cbn [time with_inbuf]. rewrite inbuf_pass. exact (fun H => H). Qed.
  Lemma gone_no_winch s : no_winch s -> winch_gone s.
  Proof. apply advance_no_winch. Qed.

  Lemma into_buffer_no_winch t s : winch_gone s -> ends no_winch (fun s' r => no_winch s' /\ no_resize r) (read_into_buffer C m t s).
  Proof.
    intros H. unfold read_into_buffer. set (cap := if (_ <=? _) then incap s else _).
    pose proof (read_input_no_winch (cap - length (inbuf s)) t (with_inbuf [] 0 s) (gone_inbuf s [] 0 H)) as R.
    destruct (read_input m (cap - length (inbuf s)) t (with_inbuf [] 0 s)) as [s1 r|s1 e| |]; cbn [ends] in *; auto.
    destruct r as [[sig|bs]|]; exact R.
  Qed.

  Definition not_resized (e : option event) : Prop := forall z, e <> Some (EResize z).
  Lemma handle_no_winch sig s : sig <> Resize -> no_winch s -> ends no_winch (fun s' e => no_winch s' /\ not_resized e) (handle_signal C sig s).
  Proof.
    intros Hs H. assert (Hr : forall k x, no_winch x -> ends no_winch (fun s' e => no_winch s' /\ not_resized e) (report_signal k x)).
    { intros k x Hx. unfold report_signal. destruct (ss_contains _ _); (split; [exact Hx|]); intros z; discriminate. }
    destruct sig; cbn [handle_signal]; try (now apply Hr); [|congruence].
    eapply ends_bind with (Q := fun s' _ => no_winch s'); [|intros; now apply Hr].
    assert (Hq : forall s', P_Prepare.quiet s s' -> no_winch s').
    { intros s' (_ & _ & Q1 & _ & _ & _ & Q2). unfold no_winch. rewrite Q1, Q2. exact H. }
    eapply ends_weak; [apply resume_ends| |]; intros s' R; try (intros R'); apply Hq; first [apply R|apply R'].
  Qed.

  Lemma try_no_winch s : match try_read m s with
    | Ret s' e => (no_winch s -> no_winch s') /\ (winch_gone s -> winch_gone s') /\ not_resized e
    | Fail s' _ => s' = s | _ => True end.
  Proof.
    pose proof (try_no_resize s) as N.
    destruct (try_read m s) as [s' e|s' e| |] eqn:Et; auto.
    - assert (He : not_resized e) by (intros z ->; now apply (N s' z)).
      revert Et. unfold try_read. destruct (inbuf s); [intros [= <- <-]; auto|]. unfold peek.
      destruct (peek_event _ _) as [[| |e1 n1]|]; cbn [obind]; try discriminate; intros [= <- <-]; auto.
      split; [exact (fun H => H)|]. split; [|exact He]. apply gone_inbuf.
    - revert Et. unfold try_read. destruct (inbuf s); [discriminate|]. unfold peek.
      destruct (peek_event _ _) as [[| |e1 n1]|]; cbn [obind]; try discriminate; intros [= <- <-]; auto.
  Qed.

  Lemma read_no_winch t s : winch_gone s -> ends (fun s' => winch_gone s') (fun s' e => winch_gone s' /\ not_resized e) (read_event C m t s).
  Proof.
    intros H. unfold read_event. pose proof (try_no_winch s) as T.
    destruct (try_read m s) as [s1 [e|]|s1 e| |]; cbn [obind ends]; auto.
    - destruct T as (_ & T1 & T2). split; auto.
    - destruct T as (_ & T1 & _). eapply ends_bind.
      + eapply ends_weak; [apply into_buffer_no_winch; now apply T1| |].
        * intros s' H'. now apply gone_no_winch.
        * intros s' a H'. exact H'.
      + intros s2 r [H2 H3]. destruct r as [[sig|bs]|].
        * eapply ends_weak; [apply (handle_no_winch sig s2)| |]; try assumption.
          -- intros ->. now apply H3.
          -- intros s' H'. now apply gone_no_winch.
          -- intros s' e [H4 H5]. split; [now apply gone_no_winch|exact H5].
        * pose proof (try_no_winch s2) as T3. destruct (try_read m s2) as [s3 e3|s3 e3| |]; cbn [ends]; auto.
          -- destruct T3 as (T3 & _ & T4). split; [apply gone_no_winch, T3, H2|exact T4].
          -- rewrite T3. now apply gone_no_winch.
        * split; [now apply gone_no_winch|]. intros z. discriminate.
    - rewrite T. exact H.
  Qed.

  Lemma raw_no_winch room t s : winch_gone s ->
    ends (fun s' => winch_gone s') (fun s' e => winch_gone s' /\ not_resized (fst e)) (read_raw C m room t s).
  Proof.
    intros H. unfold read_raw. destruct (inbuf s) as [|b bs].
    - eapply ends_bind.
      + eapply ends_weak; [apply read_input_no_winch; exact H| |].
        * intros s' H'. now apply gone_no_winch.
        * intros s' a H'. exact H'.
      + intros s2 r [H2 H3]. destruct r as [[sig|x]|].
        * eapply ends_bind.
          -- eapply ends_weak; [apply (handle_no_winch sig s2); [intros ->; now apply H3|exact H2]| |].
             ++ intros s' H'. now apply gone_no_winch.
             ++ intros s' e H'. exact H'.
          -- intros s3 e [H4 H5]. split; [now apply gone_no_winch|exact H5].
        * split; [now apply gone_no_winch|]. intros z. discriminate.
        * split; [now apply gone_no_winch|]. intros z. discriminate.
    - split; [now apply gone_inbuf|]. intros z. discriminate.
  Qed.

  Lemma ustep_no_winch o u u' r : winch_gone (u_sys u) -> ustep E C m o u = Some (u', r) ->
    winch_gone (u_sys u') /\ resize_of r = None.
  Proof.
    intros H.
    assert (Hwr : forall l s w, pass l (M_Prepare.with_wr w s) = M_Prepare.with_wr w (pass l s)).
    { induction l as [|t l IH]; intros s w; [reflexivity|]. destruct t; cbn [pass happens]; try apply IH; try reflexivity.
      - cbn [disp M_Prepare.with_wr]. destruct (disp s n); [exact (IH (with_last n s) w)|apply IH].
      - exact (IH (with_queue (queue s ++ [bs]) s) w).
      - exact (IH (with_failing (Some e) s) w).
      - exact (IH (with_win r0 s) w). }
    assert (Hw : forall s w, winch_gone s -> winch_gone (M_Prepare.with_wr w s)).
    { intros s w. unfold winch_gone, advance. cbn [time M_Prepare.with_wr]. rewrite Hwr. exact (fun X => X). }
    assert (Hout : forall f, on_out f u = Some (u', r) -> winch_gone (u_sys u') /\ resize_of r = None).
    { intros f. unfold on_out. destruct (f (out_side u)) as [x a|x e| |]; intros [= <- <-]; (split; [|reflexivity]); now apply Hw. }
    assert (Hf : forall e x v, not_resized e -> follow E e (with_sys x u) = Val v -> u_sys v = x).
    { intros e x v He. unfold follow. destruct e as [[]|]; try (now intros [= <-]). exfalso. now apply (He s). }
    destruct o; cbn [ustep]; try (apply Hout).
    - assert (G : no_winch (fst (get_signal (u_sys u)))) by exact H.
      apply (wait_no_winch timeout) in G. destruct (wait_event m timeout (u_sys u)) as [x b|x e| |]; cbn in G; intros [= <- <-];
        (split; [|reflexivity]); now apply gone_no_winch.
    - pose proof (read_no_winch timeout (u_sys u) H) as R.
      destruct (read_event C m timeout (u_sys u)) as [x b|x e| |]; cbn in R; try discriminate.
      + destruct R as [R1 R2]. destruct (follow E b (with_sys x u)) as [v|] eqn:Ef; [|discriminate]. intros [= <- <-].
        rewrite (Hf b x v R2 Ef). split; [exact R1|]. cbn. destruct b as [[]|]; try reflexivity. exfalso. now apply (R2 s).
      + intros [= <- <-]. split; [exact R|reflexivity].
    - pose proof (raw_no_winch room timeout (u_sys u) H) as R.
      destruct (read_raw C m room timeout (u_sys u)) as [x [b bs]|x e| |]; cbn in R; try discriminate.
      + destruct R as [R1 R2]. destruct (follow E b (with_sys x u)) as [v|] eqn:Ef; [|discriminate]. intros [= <- <-].
        rewrite (Hf b x v R2 Ef). split; [exact R1|]. cbn. destruct b as [[]|]; try reflexivity. exfalso. now apply (R2 s).
      + intros [= <- <-]. split; [exact R|reflexivity].
  Qed.

  Lemma urun_no_winch ops : forall u u' rs, winch_gone (u_sys u) -> urun E C m ops u = Some (u', rs) ->
    Forall (fun r => resize_of r = None) rs.
  Proof.
    induction ops as [|o ops IH]; intros u u' rs H; cbn [urun]; [intros [= <- <-]; constructor|].
    destruct (ustep E C m o u) as [[u1 r]|] eqn:Es; [|discriminate].
    destruct (urun E C m ops u1) as [[u2 rs2]|] eqn:Er; [|discriminate]. intros [= <- <-].
    destruct (ustep_no_winch o u u1 r H Es) as [H1 H2]. constructor; [exact H2|]. now apply (IH u1 u2 rs2).
  Qed.

  Lemma overtaken_gone z n s : overtaken_winch z n s -> winch_gone s.
  Proof.
    intros (l & H1 & H2 & H3 & H4 & H5 & _). unfold winch_gone, advance. rewrite H1. cbn [pass happens disp with_win].
    rewrite H2. cbn [disp with_last with_win]. rewrite H3. apply pass_no_winch; [exact H4|exact H5].
  Qed.
  Lemma pass_win l : forall s, (forall r, ~ In (TWin r) l) -> win (pass l s) = win s.
  Proof.
    induction l as [|t l IH]; intros s H; [reflexivity|].
    assert (H' : forall r, ~ In (TWin r) l) by (intros r Hr; apply (H r); now right).
    destruct t; cbn [pass happens]; try (rewrite IH by exact H'); try reflexivity.
    - destruct (disp s n); reflexivity.
    - exfalso. apply (H r). now left.
  Qed.
  Lemma overtaken_win z n s : overtaken_winch z n s -> win (advance s) = inr z.
  Proof.
    intros (l & H1 & H2 & H3 & _ & _ & H6). unfold advance. rewrite H1. cbn [pass happens disp with_win].
    rewrite H2. cbn [disp with_last with_win]. rewrite H3. rewrite pass_win by exact H6. reflexivity.
  Qed.
End Reports.

(** ** Creation that fails *)
Lemma unprepared E C cfg s0 sa z sb e s1 e' : settings_set (os s0) -> term_size s0 = Ret sa z -> prepare C cfg sa = Fail sb e ->
  unix_screen_new E C cfg s0 = Fail s1 e' -> e' = e /\ tio s1 = raw_tio cfg (tio s0).
Proof.
  intros Ho Hs Hp. unfold unix_screen_new. rewrite Hs, Hp. pose proof (size_wr s0) as S. rewrite Hs in S.
  destruct S as (_ & w & ->). apply prepare_late in Hp as (Hp & _); [|exact Ho].
  pose proof (terminal_drop_keeps C sb) as T. destruct (terminal_drop C sb) as [s2 e2|s2 e2| |]; cbn [failed]; try discriminate; try contradiction.
  intros [= <- <-]. destruct T as (w2 & ->). split; [reflexivity|]. exact Hp.
Qed.

(** ** A change of the size that is never reported *)
Lemma last_reported_none rs : forall z, Forall (fun r => resize_of r = None) rs -> last_reported z rs = z.
Proof. induction rs as [|r rs IH]; intros z H; [reflexivity|]. inversion_clear H. cbn [last_reported]. rewrite H0. now apply IH. Qed.
Lemma overtaken_forever E C m z n ops u u' rs : env_ok E -> overtaken_winch z n (u_sys u) ->
  Forall public_op ops -> urun E C m ops u = Some (u', rs) ->
  win (advance (u_sys u)) = inr z /\ Forall (fun r => resize_of r = None) rs /\ bsize (u_sb u') = bsize (u_sb u).
Proof.
  intros HE Ho Hp Hr. split; [exact (overtaken_win z n _ Ho)|].
  pose proof (urun_no_winch E C m ops u u' rs (overtaken_gone z n _ Ho) Hr) as Hn. split; [exact Hn|].
  pose proof (urun_size E C m HE ops u u' rs Hp Hr) as Hs. rewrite Hs. now apply last_reported_none.
Qed.

(** ** A change of the size that is reported *)
Lemma drop_no_fail w w' e : guard_drop w <> Fail w' e.
Proof. unfold guard_drop. destruct (flush w); discriminate. Qed.
Lemma winch_reported E C m t u u' r z : peek_event (inbuf (u_sys u)) m = Val PNone ->
  last_sig (advance (u_sys u)) = SIGWINCH -> win (advance (u_sys u)) = inr z ->
  ustep E C m (URead t) u = Some (u', r) ->
  r = YEvent (Some (EResize z)) /\ bsize (u_sb u') = z.
Proof.
  intros Hi Hl Hz. cbn [ustep].
  assert (Hn : forall s' e, read_event C m t (u_sys u) <> Fail s' e).
  { intros s' e. unfold read_event.
    assert (Ht : try_read m (u_sys u) = Ret (u_sys u) None).
    { unfold try_read. destruct (inbuf (u_sys u)) as [|b bs] eqn:Eb; [reflexivity|]. unfold peek. rewrite Eb. rewrite Hi. reflexivity. }
    rewrite Ht. cbn [obind]. unfold read_into_buffer. set (cap := if (_ <=? _) then incap (u_sys u) else _).
    unfold read_input, take_signal. unfold advance. cbn [time with_inbuf]. rewrite inbuf_pass. cbn [last_sig with_inbuf].
    unfold advance in Hl. rewrite Hl. cbn [conv_signal]. change (conv_signal SIGWINCH) with (Some Resize). cbn [obind handle_signal].
    match goal with |- context [term_size ?x] => set (x0 := x) end.
    assert (Hx : win x0 = inr z) by exact Hz.
    unfold term_size, with_guard, on_wr. rewrite Hx. pose proof (drop_no_fail (pwr x0)) as D.
    destruct (guard_drop (pwr x0)) as [w a|w a| |]; cbn [obind]; try discriminate. exfalso. now apply (D w a). }
  destruct (read_event C m t (u_sys u)) as [x e|x e| |] eqn:Er; try discriminate.
  2:{ destruct (Hn x e eq_refl). }
  pose proof (signal_event C m t (u_sys u) Resize x e Hi) as S. rewrite Hl in S.
  destruct (S eq_refl Er) as (S1 & _). cbn in S1. rewrite Hz in S1. cbn in S1. subst e.
  destruct (follow E (Some (EResize z)) (with_sys x u)) as [v|] eqn:Ef; [|discriminate]. intros [= <- <-].
  split; [reflexivity|]. revert Ef. unfold follow, update_size. destruct (sb_resize E _ z) as [b|] eqn:Eb; [|discriminate].
  intros [= <-]. cbn. now apply resized in Eb.
Qed.
