(** Proofs about panics of a program that uses a screen (C84). *)
From Verif Require Import Base M_Utf8 M_Geom M_Attr M_Buf M_Seq M_Signal M_Util M_Input S_Input M_Writer S_Tty S_Writer P_Writer P_Writer2 P_Writer3
  M_Screen M_Prepare M_Reader S_Prepare P_Prepare P_Prepare2 P_Reader M_UnixScreen S_UnixScreen P_UnixScreen P_UnixScreen2 P_UnixScreen3 S_Drawing P_Drawing M_Poison S_Poison.

Lemma remove_twice x f : flag_remove (flag_remove x f) f = flag_remove x f.
Proof. unfold flag_remove. apply N.bits_inj. intros k. rewrite !N.ldiff_spec. destruct (N.testbit x k), (N.testbit f k); reflexivity. Qed.

Lemma raw_twice cfg t : raw_tio cfg (raw_tio cfg t) = raw_tio cfg t.
Proof.
  unfold raw_tio. cbn [iflag lflag oflag cflag others]. f_equal; apply N.bits_inj; intros k.
  - destruct (enable_control_flow cfg); unfold flag_remove, flag_insert; rewrite ?N.lor_spec, ?N.ldiff_spec, ?N.lor_spec, ?N.ldiff_spec, ?N.lor_spec;
    destruct (N.testbit (iflag t) k), (N.testbit INLCR k), (N.testbit ICRNL k), (N.testbit IXON k); reflexivity.
  - destruct (block_signals cfg); unfold flag_remove, flag_insert; rewrite ?N.lor_spec, ?N.ldiff_spec, ?N.lor_spec, ?N.ldiff_spec, ?N.lor_spec;
    destruct (N.testbit (lflag t) k), (N.testbit ICANON k), (N.testbit ECHO k), (N.testbit ISIG k); reflexivity.
Qed.

Section Raw.
  Variables (E : env) (C : tcfg) (m : seq_map) (cfg : config) (T : termios).
  Hypothesis HT : raw_tio cfg T = T.

  (** The terminal is prepared with [cfg]. *)
  Definition raw (s : sys) : Prop :=
    tio s = T /\ resume_cfg s = Some cfg /\ forall n, handled cfg n = true -> disp s n = Ours.
  Definition keeps {A} (r : rres A) : Prop := ends raw (fun s _ => raw s) r.

  Lemma keeps_bind {A B} (r : rres A) (k : sys -> A -> rres B) : keeps r -> (forall s a, raw s -> keeps (k s a)) -> keeps (obind r k).
  Proof. intros H1 H2. eapply ends_bind; [exact H1|]. intros s a H. now apply H2. Qed.
  Lemma keeps_os {A} (ok : sys -> rres A) s : raw s -> (forall l, raw (with_os l s) -> keeps (ok (with_os l s))) -> keeps (os_call ok s).
  Proof. intros H1 H2. apply os_call_ends; intros l; [exact H1|]. apply H2. exact H1. Qed.
  Lemma keeps_on {A} (f : wst -> out wst werr A) s : raw s -> keeps (on_wr f s).
  Proof. intros H. apply on_wr_ends; intros; exact H. Qed.
  Lemma keeps_install b n s : raw s -> keeps (install b n s).
  Proof.
    intros H. unfold install. destruct b; [|exact H]. apply keeps_bind; [|intros; assumption].
    apply keeps_os; [exact H|]. intros l (H1 & H2 & H3). split; [exact H1|]. split; [exact H2|].
    intros k Hk. cbn. destruct (k =? n)%N; [reflexivity|]. exact (H3 k Hk).
  Qed.
  Lemma keeps_prepare s : raw s -> keeps (prepare C cfg s).
  Proof.
    intros H. unfold prepare. apply guard_ends; [intros w s' H'; exact H'|intros w s' _ H'; exact H'|].
    unfold prepare_with_lock. unfold tcgetattr.
    assert (G : ends raw (fun s' t => raw s' /\ t = T) (os_call (fun s => Ret s (tio s)) s)).
    { apply os_call_ends; intros l; [exact H|]. split; [exact H|apply H]. }
    eapply ends_bind; [exact G|]. intros s1 t [H1 ->]. rewrite HT.
    apply keeps_bind; [apply keeps_os; [exact H1|]; intros l (A & B); split; [reflexivity|exact B]|]. intros s2 _ H2.
    apply keeps_bind; [destruct (cfg_mouse cfg); [now apply keeps_on|exact H2]|]. intros s3 mo H3.
    apply keeps_bind; [destruct (cfg_keypad cfg); [now apply keeps_on|exact H3]|]. intros s4 kp H4.
    apply keeps_bind; [now apply keeps_on|]. intros s5 _ H5.
    apply keeps_bind; [now apply keeps_install|]. intros s6 a6 H6.
    apply keeps_bind; [now apply keeps_install|]. intros s7 a7 H7.
    apply keeps_bind; [now apply keeps_install|]. intros s8 a8 H8.
    apply keeps_bind; [now apply keeps_install|]. intros s9 a9 H9.
    apply keeps_bind; [now apply keeps_install|]. intros s10 a10 (A & B & D).
    split; [exact A|]. split; [reflexivity|exact D].
  Qed.
  Lemma steady_raw s s' : steady s s' -> raw s -> raw s'.
  Proof. intros (S1 & _ & _ & S4 & S5 & _) (H1 & H2 & H3). split; [congruence|]. split; [congruence|]. now rewrite S5. Qed.
  Lemma keeps_handle sig s : raw s -> keeps (handle_signal C sig s).
  Proof.
    intros H. assert (Hr : forall k s', raw s' -> keeps (report_signal k s')).
    { intros k s' H'. unfold report_signal. destruct (ss_contains _ _); exact H'. }
    destruct sig; cbn [handle_signal]; try (now apply Hr).
    - apply keeps_bind; [|intros; now apply Hr]. unfold resume. destruct (proj2 H) as [-> _].
      apply keeps_bind; [now apply keeps_prepare|intros; assumption].
    - apply keeps_bind; [|intros s1 z H1; exact H1]. unfold term_size.
      apply guard_ends; [intros w s' H'; exact H'|intros w s' _ H'; exact H'|]. destruct (win s); exact H.
  Qed.
  Lemma keeps_try s : raw s -> keeps (try_read m s).
  Proof.
    intros H. unfold try_read, peek. destruct (inbuf s); [exact H|].
    destruct (peek_event _ m) as [[| |e k]|]; cbn; auto.
  Qed.
  Lemma keeps_into t s : raw s -> keeps (read_into_buffer C m t s).
  Proof.
    intros H. eapply ends_weak; [apply (into_buffer_ends C m t s)| |].
    - intros s' [H1 _]. now apply steady_raw with s.
    - intros s' r [H1 _]. now apply steady_raw with s.
  Qed.
  Lemma keeps_input room t s : raw s -> keeps (read_input m room t s).
  Proof.
    intros H. eapply ends_weak; [apply (read_input_ends m room t s)| |].
    - intros s' [H1 _]. apply steady_raw with s; [now apply passive_steady|exact H].
    - intros s' r [H1 _]. apply steady_raw with s; [now apply passive_steady|exact H].
  Qed.
  Lemma keeps_wait t s : raw s -> keeps (wait_event m t s).
  Proof.
    intros H. eapply ends_weak; [apply (wait_event_ends m t s)| |].
    - intros s' [H1 _]. apply steady_raw with s; [now apply passive_steady|exact H].
    - intros s' r [H1 _]. apply steady_raw with s; [now apply passive_steady|exact H].
  Qed.

  (** With poisoned mutexes. *)
  Definition xkeeps {A} (r : xres A) : Prop := match r with Ret s _ | Fail s _ => raw s | _ => True end.
  Lemma xkeeps_lift {A} (r : rres A) : keeps r -> xkeeps (lifted r).
  Proof. destruct r; exact (fun H => H). Qed.
  Lemma xkeeps_bind {A B} (r : xres A) (k : sys -> A -> xres B) : xkeeps r -> (forall s a, raw s -> xkeeps (k s a)) -> xkeeps (obind r k).
  Proof. intros H1 H2. destruct r; cbn in *; auto. Qed.
  Lemma xkeeps_panics {A} s : raw s -> xkeeps (writer_panics (A := A) s).
  Proof. intros H. unfold writer_panics. pose proof (keeps_on guard_drop s H) as K. destruct (on_wr guard_drop s); exact K. Qed.
  Lemma xkeeps_handle pw sig s : raw s -> xkeeps (p_handle_signal C pw sig s).
  Proof.
    intros H. unfold p_handle_signal. destruct (pw && _); [now apply xkeeps_panics|]. now apply xkeeps_lift, keeps_handle.
  Qed.
  Lemma xkeeps_read pw t s : raw s -> xkeeps (p_read_event C m pw t s).
  Proof.
    intros H. unfold p_read_event. apply xkeeps_bind; [now apply xkeeps_lift, keeps_try|]. intros s1 [e|] H1; [exact H1|].
    apply xkeeps_bind; [now apply xkeeps_lift, keeps_into|]. intros s2 [[sig|bs]|] H2; [now apply xkeeps_handle|now apply xkeeps_lift, keeps_try|exact H2].
  Qed.
  Lemma xkeeps_raw pw room t s : raw s -> xkeeps (p_read_raw C m pw room t s).
  Proof.
    intros H. unfold p_read_raw. destruct (inbuf s) eqn:Eb.
    - apply xkeeps_bind; [now apply xkeeps_lift, keeps_input|]. intros s2 [[sig|bs]|] H2; [|exact H2|exact H2].
      apply xkeeps_bind; [now apply xkeeps_handle|]. intros s3 e H3. exact H3.
    - unfold read_raw. rewrite Eb. exact H.
  Qed.

  Lemma raw_out f u u' r : raw (u_sys u) -> on_out f u = Some (u', r) -> raw (u_sys u').
  Proof. intros H. unfold on_out. destruct (f (out_side u)); intros [= <- <-]; exact H. Qed.

  Lemma p_write_raw boom l x x' r : raw (u_sys (x_u x)) -> p_write E C boom l x = Some (x', r) -> raw (u_sys (x_u x')).
  Proof. intros H. unfold p_write. destruct (g_run _ _ _ _); intros [= <- <-]; exact H. Qed.

  Lemma p_read_raw_inv {A} (ev : A -> option event) rep r x x' y : xkeeps r -> p_read E ev rep r x = Some (x', y) -> raw (u_sys (x_u x')).
  Proof.
    unfold p_read. destruct r as [s a|s [e|]| |]; cbn [xkeeps]; intros H; try discriminate.
    - destruct (ev a) as [[k|k|k|z|k|]|] eqn:Ee; try (intros [= <- <-]; exact H).
      destruct (x_d x); [intros [= <- <-]; exact H|].
      destruct (follow E (Some (EResize z)) (with_sys s (x_u x))) as [u|] eqn:Ef; [|discriminate]. intros [= <- <-].
      apply follow_kept in Ef as [_ Ef]. cbn. rewrite Ef. exact H.
    - intros [= <- <-]. exact H.
    - intros [= <- <-]. exact H.
  Qed.

  Lemma xstep_raw o x x' r : raw (u_sys (x_u x)) -> xstep E C m o x = Some (x', r) -> raw (u_sys (x_u x')).
  Proof.
    intros H.
    assert (Hok : forall o, (match o with URead _ | URaw _ _ => False | _ => True end) ->
              match ustep E C m o (x_u x) with Some (u, r) => Some (with_u u x, XReply r) | None => None end = Some (x', r) -> raw (u_sys (x_u x'))).
    { intros o' Ho'. destruct (ustep E C m o' (x_u x)) as [[u r0]|] eqn:Eu; [|discriminate]. intros [= <- <-]. cbn.
      destruct o'; cbn [ustep] in Eu; try contradiction; try (now apply raw_out in Eu).
      pose proof (keeps_wait timeout (u_sys (x_u x)) H) as K. destruct (wait_event m timeout (u_sys (x_u x))); try discriminate; injection Eu as <- <-; exact K. }
    destruct o as [o|l|l| |]; cbn [xstep].
    - destruct o.
      + destruct (x_d x); [intros [= <- <-]; exact H|]. apply (Hok (UBuffer o) I).
      + destruct (x_w x); [|apply (Hok (UMode c) I)]. pose proof (xkeeps_panics (A := unit) (u_sys (x_u x)) H) as K.
        destruct (writer_panics (u_sys (x_u x))); intros [= <- <-]; exact K.
      + destruct (x_w x || x_d x); [now apply p_write_raw|apply (Hok URefresh I)].
      + destruct (x_w x || x_d x); [now apply p_write_raw|apply (Hok (ULocked l) I)].
      + destruct (x_r x); [intros [= <- <-]; exact H|apply (Hok (UWait timeout) I)].
      + destruct (x_r x); [intros [= <- <-]; exact H|]. apply p_read_raw_inv. now apply xkeeps_read.
      + destruct (x_r x); [intros [= <- <-]; exact H|]. apply p_read_raw_inv. now apply xkeeps_raw.
    - now apply p_write_raw.
    - now apply p_write_raw.
    - intros [= <- <-]. exact H.
    - intros [= <- <-]. exact H.
  Qed.

  Lemma xrun_raw ops : forall x x' rs, raw (u_sys (x_u x)) -> xrun E C m ops x = Some (x', rs) -> raw (u_sys (x_u x')).
  Proof.
    induction ops as [|o ops IH]; intros x x' rs H; cbn [xrun]; [intros [= <- <-]; exact H|].
    destruct (xstep E C m o x) as [[x1 r]|] eqn:Es; [|discriminate]. destruct (xrun E C m ops x1) as [[x2 rs2]|] eqn:Er; [|discriminate].
    intros [= <- <-]. eapply IH; [|exact Er]. now apply xstep_raw in Es.
  Qed.
End Raw.

Section Flags.
  Variables (E : env) (C : tcfg) (m : seq_map).

  Definition more (x x' : pscr) : Prop :=
    (x_r x = true -> x_r x' = true) /\ (x_w x = true -> x_w x' = true) /\ (x_d x = true -> x_d x' = true).
  Lemma more_refl x : more x x. Proof. unfold more. auto. Qed.
  Lemma more_trans a b c : more a b -> more b c -> more a c.
  Proof. intros (A1 & A2 & A3) (B1 & B2 & B3). unfold more. auto. Qed.
  Lemma p_write_more boom l x x' r : p_write E C boom l x = Some (x', r) -> more x x'.
  Proof. unfold p_write. destruct (g_run _ _ _ _); intros [= <- <-]; unfold more; cbn; repeat split; auto; intros ->; reflexivity. Qed.
  Lemma p_read_more {A} (ev : A -> option event) rep r x x' y : p_read E ev rep r x = Some (x', y) -> more x x'.
  Proof.
    unfold p_read. destruct r as [s a|s [e|]| |]; try discriminate.
    - destruct (ev a) as [[k|k|k|z|k|]|]; try (intros [= <- <-]; unfold more; auto).
      destruct (x_d x) eqn:Ed; [intros [= <- <-]; unfold more; cbn; auto|].
      destruct (follow E _ _); [|discriminate]. intros [= <- <-]. unfold more; auto.
    - intros [= <- <-]; unfold more; auto.
    - intros [= <- <-]; unfold more; auto.
  Qed.
  Lemma xstep_more o x x' r : xstep E C m o x = Some (x', r) -> more x x'.
  Proof.
    assert (Hok : forall o, match ustep E C m o (x_u x) with Some (u, r) => Some (with_u u x, XReply r) | None => None end = Some (x', r) -> more x x').
    { intros o'. destruct (ustep E C m o' (x_u x)) as [[u r0]|]; [|discriminate]. intros [= <- <-]. unfold more. auto. }
    assert (Hs : Some (x, XPanicked) = Some (x', r) -> more x x') by (intros [= <- <-]; apply more_refl).
    destruct o as [o|l|l| |]; cbn [xstep].
    - destruct o.
      + destruct (x_d x); [exact Hs|apply Hok].
      + destruct (x_w x); [|apply Hok]. destruct (writer_panics (u_sys (x_u x))); intros [= <- <-]; unfold more; auto.
      + destruct (x_w x || x_d x); [apply p_write_more|apply Hok].
      + destruct (x_w x || x_d x); [apply p_write_more|apply Hok].
      + destruct (x_r x); [exact Hs|apply Hok].
      + destruct (x_r x); [exact Hs|]. apply p_read_more.
      + destruct (x_r x); [exact Hs|]. apply p_read_more.
    - apply p_write_more.
    - apply p_write_more.
    - intros [= <- <-]. unfold more. auto.
    - exact Hs.
  Qed.
  Lemma xrun_more ops : forall x x' rs, xrun E C m ops x = Some (x', rs) -> more x x'.
  Proof.
    induction ops as [|o ops IH]; intros x x' rs; cbn [xrun]; [intros [= <- <-]; apply more_refl|].
    destruct (xstep E C m o x) as [[x1 r]|] eqn:Es; [|discriminate]. destruct (xrun E C m ops x1) as [[x2 rs2]|] eqn:Er; [|discriminate].
    intros [= <- <-]. eapply more_trans; [eapply xstep_more; exact Es|eapply IH; exact Er].
  Qed.

  Lemma panic_write_flags l x x' r : xstep E C m (XPanicWrite l) x = Some (x', r) -> x_w x' = true /\ x_d x' = true.
  Proof. cbn [xstep]. unfold p_write. destruct (g_run _ _ _ _); intros [= <- <-]; cbn; now rewrite !orb_true_r. Qed.

  Lemma write_panicked ops : forall x x' rs, xrun E C m ops x = Some (x', rs) -> Exists write_panic ops -> x_w x' = true /\ x_d x' = true.
  Proof.
    induction ops as [|o ops IH]; intros x x' rs H Hp; [inversion Hp|]. cbn [xrun] in H.
    destruct (xstep E C m o x) as [[x1 r]|] eqn:Es; [|discriminate]. destruct (xrun E C m ops x1) as [[x2 rs2]|] eqn:Er; [|discriminate].
    injection H as <- <-. inversion Hp as [? ? P|? ? P]; subst; [|now apply (IH _ _ _ Er)].
    destruct o; try contradiction. apply panic_write_flags in Es as [F1 F2]. apply xrun_more in Er as (_ & M1 & M2). auto.
  Qed.
  Lemma guard_panicked ops : forall x x' rs, xrun E C m ops x = Some (x', rs) -> Exists guard_panic ops -> x_w x' = true \/ x_r x' = true.
  Proof.
    induction ops as [|o ops IH]; intros x x' rs H Hp; [inversion Hp|]. cbn [xrun] in H.
    destruct (xstep E C m o x) as [[x1 r]|] eqn:Es; [|discriminate]. destruct (xrun E C m ops x1) as [[x2 rs2]|] eqn:Er; [|discriminate].
    injection H as <- <-. inversion Hp as [? ? P|? ? P]; subst; [|now apply (IH _ _ _ Er)].
    apply xrun_more in Er as (M1 & M2 & M3). destruct o; try contradiction.
    - apply panic_write_flags in Es as [F1 F2]. auto.
    - cbn in Es. injection Es as <- <-. cbn in M1. auto.
  Qed.

  (** Nothing is poisoned. *)
  Lemma lifted_bind {A B} (r : rres A) (k : sys -> A -> rres B) : lifted (obind r k) = obind (lifted r) (fun s a => lifted (k s a)).
  Proof. destruct r; reflexivity. Qed.
  Lemma read_clean t s : p_read_event C m false t s = lifted (read_event C m t s).
  Proof.
    unfold p_read_event, read_event. rewrite lifted_bind. destruct (try_read m s) as [s1 [e|]|s1 e| |]; cbn [lifted obind]; auto.
    destruct (read_into_buffer C m t s1) as [s2 [[sig|bs]|]|s2 e| |]; reflexivity.
  Qed.
  Lemma raw_clean n t s : p_read_raw C m false n t s = lifted (read_raw C m n t s).
  Proof.
    unfold p_read_raw. destruct (inbuf s) eqn:Eb; [|reflexivity]. unfold read_raw. rewrite Eb.
    destruct (read_input m n t s) as [s2 [[sig|bs]|]|s2 e| |]; cbn [lifted obind]; auto.
    unfold p_handle_signal. cbn [andb]. destruct (handle_signal C sig s2) as [s3 e|s3 e| |]; reflexivity.
  Qed.
  Lemma p_read_clean {A} (ev : A -> option event) rep (r : rres A) u x' y :
    p_read E ev rep (lifted r) (unpoisoned u) = Some (x', y) ->
    exists u' r', x' = unpoisoned u' /\ match r with
      | Ret s a => match follow E (ev a) (with_sys s u) with Val v => Some (v, rep a) | Boom => None end
      | Fail s e => Some (with_sys s u, YErr e)
      | _ => None end = Some (u', r').
  Proof.
    unfold p_read. destruct r as [s a|s e| |]; cbn [lifted]; try discriminate.
    - cbn [x_u unpoisoned x_d]. destruct (ev a) as [[k|k|k|z|k|]|] eqn:Ee; try (intros [= <- <-]; eexists _, _; split; reflexivity).
      destruct (follow E (Some (EResize z)) (with_sys s u)); [|discriminate]. intros [= <- <-]. eexists _, _; split; reflexivity.
    - intros [= <- <-]. eexists _, _; split; reflexivity.
  Qed.

  Lemma xstep_clean o u x' r : ~ guard_panic o -> xstep E C m o (unpoisoned u) = Some (x', r) ->
    exists u', x' = unpoisoned u' /\ (u' = u \/ exists o' r', ustep E C m o' u = Some (u', r')).
  Proof.
    intros Hg.
    assert (Hok : forall o, match ustep E C m o (x_u (unpoisoned u)) with Some (u', r) => Some (with_u u' (unpoisoned u), XReply r) | None => None end = Some (x', r) ->
       exists u', x' = unpoisoned u' /\ (u' = u \/ exists o' r', ustep E C m o' u = Some (u', r'))).
    { intros o'. cbn [x_u unpoisoned]. destruct (ustep E C m o' u) as [[u1 r0]|] eqn:Eu; [|discriminate]. intros [= <- <-].
      exists u1. split; [reflexivity|]. right. eauto. }
    destruct o as [o|l|l| |]; cbn [xstep]; cbn in Hg; try tauto.
    - destruct o; try apply Hok.
      + cbn [x_r x_w x_u unpoisoned]. rewrite read_clean. intros H. apply p_read_clean in H as (u' & r' & -> & H).
        exists u'. split; [reflexivity|]. right. exists (URead timeout), r'. cbn [ustep].
        destruct (read_event C m timeout (u_sys u)) as [s a|s e| |]; exact H.
      + cbn [x_r x_w x_u unpoisoned]. rewrite raw_clean. intros H. apply p_read_clean in H as (u' & r' & -> & H).
        exists u'. split; [reflexivity|]. right. exists (URaw room timeout), r'. cbn [ustep].
        destruct (read_raw C m room timeout (u_sys u)) as [s [a bs]|s e| |]; exact H.
    - unfold p_write. cbn [x_u unpoisoned]. destruct (g_run E C l (out_side u)) as [y a|y e| |] eqn:Eg; intros [= <- <-].
      + exists (with_out y u). split; [reflexivity|]. right. exists (ULocked l), YUnit. cbn [ustep]. unfold on_out. now rewrite Eg.
      + exists (with_out y u). split; [reflexivity|]. right. exists (ULocked l), (YErr (RW e)). cbn [ustep]. unfold on_out. now rewrite Eg.
    - intros [= <- <-]. exists u. auto.
  Qed.
  Lemma xrun_clean ops : forall u x' rs, Forall (fun o => ~ guard_panic o) ops -> xrun E C m ops (unpoisoned u) = Some (x', rs) ->
    exists u' ops' rs', x' = unpoisoned u' /\ urun E C m ops' u = Some (u', rs').
  Proof.
    induction ops as [|o ops IH]; intros u x' rs Hg; cbn [xrun]; [intros [= <- <-]; exists u, [], []; auto|].
    inversion Hg as [|? ? G1 G2]; subst.
    destruct (xstep E C m o (unpoisoned u)) as [[x1 r]|] eqn:Es; [|discriminate]. destruct (xrun E C m ops x1) as [[x2 rs2]|] eqn:Er; [|discriminate].
    intros [= <- <-]. apply xstep_clean in Es as (u1 & -> & Es); [|exact G1].
    destruct (IH u1 x2 rs2 G2 Er) as (u' & ops' & rs' & -> & H). destruct Es as [->|(o' & r' & Es)].
    - exists u', ops', rs'. auto.
    - exists u', (o' :: ops'), (r' :: rs'). split; [reflexivity|]. cbn [urun]. now rewrite Es, H.
  Qed.
End Flags.

Lemma given_back E C m cfg ops s0 s1 u x rs : key_map m -> plain_caps C ->
  unix_screen_new E C cfg s0 = Ret s1 u -> xrun E C m ops (unpoisoned u) = Some (x, rs) -> Forall (fun o => ~ guard_panic o) ops ->
  works (u_sys (x_u x)) ->
  match xdrop C x with
  | Given s2 printed =>
      printed = (None, None) /\ same_terminal s0 s2 /\ obuf (pwr s2) = [] /\
      exists off k k', modes_off C (cfg_mouse cfg && xterm C) (cfg_keypad cfg && has C KeypadXmit) off /\
        dev (pwr s2) = stream (pwr (u_sys (x_u x))) ++ off ++ cap_bytes C ExitCaMode k ++ cap_bytes C CursorNormal k'
  | DLost => True
  | _ => False
  end.
Proof.
  intros Hm Hc Hn Hr Hg Hw. destruct (xrun_clean _ _ _ _ _ _ _ Hg Hr) as (u' & ops' & rs' & -> & Hr').
  unfold xdrop. cbn [x_r x_w x_u unpoisoned] in *.
  pose proof (gives_back E C m Hm cfg ops' s0 s1 u u' rs' Hc Hn Hr' Hw) as G.
  destruct (screen_drop C u') as [s2 p|s2 e| |]; try contradiction; auto.
Qed.

Lemma new_raw E C cfg s0 s1 u : unix_screen_new E C cfg s0 = Ret s1 u -> raw cfg (raw_tio cfg (tio s0)) (u_sys u).
Proof.
  intros Hn. destruct (new_ret _ _ _ _ _ _ Hn) as (_ & _ & _ & z & s2 & w & w' & _ & _ & Hp & Hs & _).
  apply prepare_ret in Hp as (_ & P1 & P2 & _ & P4 & _). rewrite Hs. split; [exact P1|]. split; [exact P4|].
  intros n Hn'. cbn. rewrite P2, Hn'. reflexivity.
Qed.

Lemma panics_fine s : works s ->
  match writer_panics (A := unit) s with
  | Fail s' _ => exists w, s' = M_Prepare.with_wr w s /\ stream w = stream (pwr s)
  | Ret _ _ | Panic => False
  | Blocked => True
  end.
Proof.
  intros H. unfold writer_panics. pose proof (on_wr_fine _ guard_drop s H (drop_fine (pwr s) (proj1 H))) as F.
  destruct (on_wr guard_drop s) as [s' a|s' e| |]; cbn [fine] in F; try contradiction; auto.
  destruct F as [_ (w & -> & _ & F & _)]. exists w. split; [reflexivity|]. unfold adds in F. now rewrite app_nil_r in F.
Qed.

Lemma not_given_back E C m cfg ops s0 s1 u x rs : plain_caps C ->
  unix_screen_new E C cfg s0 = Ret s1 u -> xrun E C m ops (unpoisoned u) = Some (x, rs) -> Exists guard_panic ops ->
  works (u_sys (x_u x)) ->
  match xdrop C x with
  | Given _ _ => False
  | Unwinds s => still_prepared cfg s0 s /\ exists k, stream (pwr s) = stream (pwr (u_sys (x_u x))) ++ cap_bytes C CursorNormal k
  | Aborts s => still_prepared cfg s0 s /\ stream (pwr s) = stream (pwr (u_sys (x_u x)))
  | DLost => True
  end.
Proof.
  intros Hc Hn Hr Hg Hw. pose proof (xrun_raw E C m cfg _ (raw_twice cfg _) ops _ _ _ (new_raw _ _ _ _ _ _ Hn : raw _ _ (u_sys (x_u (unpoisoned u)))) Hr) as R.
  unfold xdrop. destruct (guard_panicked _ _ _ _ _ _ _ Hr Hg) as [F|F]; rewrite F.
  - destruct (x_r x); [split; [exact R|reflexivity]|].
    pose proof (panics_fine (u_sys (x_u x)) Hw) as P.
    destruct (writer_panics (u_sys (x_u x))) as [s a|s e| |]; try contradiction; auto.
    destruct P as (w & -> & P). split; [exact R|exact P].
  - destruct (x_w x); [split; [exact R|reflexivity]|].
    pose proof (terminal_drop_fine C (u_sys (x_u x)) Hc Hw) as T.
    destruct (terminal_drop C (u_sys (x_u x))) as [s e|s e| |]; cbn [fine] in T; try contradiction; auto.
    destruct T as [_ (_ & _ & (k & T) & w & ->)]. split; [exact R|]. exists k. exact T.
Qed.

(** A write guard: the process is aborted. *)
Lemma aborted E C m ops x0 x rs : xrun E C m ops x0 = Some (x, rs) -> Exists write_panic ops ->
  match xdrop C x with Aborts _ | DLost => True | _ => False end.
Proof.
  intros Hr Hg. destruct (write_panicked _ _ _ _ _ _ _ Hr Hg) as [F _]. unfold xdrop. rewrite F.
  destruct (x_r x); [exact I|]. destruct (writer_panics (u_sys (x_u x))); exact I.
Qed.

(** After a panic with a write guard. *)
Lemma output_panics E C m ops x0 x rs o x' r : xrun E C m ops x0 = Some (x, rs) -> Exists write_panic ops -> output_call o ->
  xstep E C m (XDo o) x = Some (x', r) -> r = XPanicked /\ same_drawing (u_sb (x_u x)) (u_sb (x_u x')).
Proof.
  intros Hr Hg Ho. destruct (write_panicked _ _ _ _ _ _ _ Hr Hg) as [F1 F2].
  assert (K : p_write E C true [] x = Some (x', r) -> r = XPanicked /\ same_drawing (u_sb (x_u x)) (u_sb (x_u x'))).
  { unfold p_write. cbn [g_run]. assert (G := sd_guard_drop E C (out_side (x_u x))).
    destruct (s_guard_drop _ _ _); try discriminate; intros [= <- <-]; split; try reflexivity; exact G. }
  destruct o; try contradiction; cbn [xstep]; rewrite ?F1, ?F2; cbn [orb]; try exact K.
  - intros [= <- <-]. repeat split.
  - destruct (writer_panics (u_sys (x_u x))); intros [= <- <-]; repeat split.
Qed.

(** Reading a change of the size. *)
Lemma resize_panics E C m ops x0 x rs t x' r : xrun E C m ops x0 = Some (x, rs) -> Exists write_panic ops ->
  peek_event (inbuf (u_sys (x_u x))) m = Val PNone -> last_sig (advance (u_sys (x_u x))) = SIGWINCH ->
  xstep E C m (XDo (URead t)) x = Some (x', r) -> r = XPanicked /\ x_r x' = true.
Proof.
  intros Hr Hg Hk Hs. destruct (write_panicked _ _ _ _ _ _ _ Hr Hg) as [F1 F2]. cbn [xstep]. destruct (x_r x) eqn:Fr.
  { intros [= <- <-]. auto. }
  unfold p_read_event.
  assert (Ht : try_read m (u_sys (x_u x)) = Ret (u_sys (x_u x)) None).
  { unfold try_read, peek. rewrite Hk. destruct (inbuf (u_sys (x_u x))); reflexivity. }
  rewrite Ht. cbn [lifted obind].
  assert (Hi : exists s2, read_into_buffer C m t (u_sys (x_u x)) = Ret s2 (Some (ISignal Resize))).
  { unfold read_into_buffer, read_input, take_signal, advance. cbn [time with_inbuf]. rewrite inbuf_pass.
    cbn [last_sig with_inbuf]. unfold advance in Hs. rewrite Hs. cbn. eexists. reflexivity. }
  destruct Hi as (s2 & ->). cbn [lifted obind]. unfold p_handle_signal. rewrite F1. cbn [andb]. unfold writer_panics.
  destruct (on_wr guard_drop s2); unfold p_read; try discriminate; intros [= <- <-]; auto.
Qed.

(** Guards taken out of the errors work as before. *)
Lemma forced E C m l x : xstep E C m (XForce l) x =
  match ustep E C m (ULocked l) (x_u x) with Some (u, _) => Some (with_u u x, XReply YUnit) | None => None end.
Proof.
  cbn [xstep ustep]. unfold p_write, on_out. destruct (g_run E C l (out_side (x_u x))); rewrite ?orb_false_r; reflexivity.
Qed.
