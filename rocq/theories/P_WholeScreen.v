(** Proofs about programs on a Unix screen: what the terminal shows (C82). *)
From Verif Require Import Base M_Utf8 S_Utf8 M_Geom S_Geom M_Attr M_Buf S_Buf P_Buf P_Buf2 P_Buf3 P_Buf4 M_Seq M_Signal M_Util M_Input M_Writer S_Tty S_Writer
  P_Writer P_Attr P_Writer2 P_Writer3 M_Screen S_Screen P_Screen P_Screen2 P_Screen3 P_Screen4 P_Screen5
  M_Prepare M_Reader S_Prepare P_Prepare P_Prepare2 P_Reader M_UnixScreen S_UnixScreen P_UnixScreen P_UnixScreen2 P_WinScreen P_UnixScreen3 S_WholeScreen.

Section Whole.
  Variables (E : env) (C : tcfg) (m : seq_map) (K : tty).
  Hypothesis HE : env_ok E.
  Hypothesis HC : env_chars E.
  Hypothesis Hco : caps_coherent C.
  Hypothesis HK : implements E C K.
  Hypothesis Hpc : plain_caps C.

  (** ** Preparing and reading leave the terminal's view alone *)
  Definition still (w w' : wst) : Prop :=
    whole_writes (script w') /\ wat w' = wat w /\
    exists x, stream w' = stream w ++ x /\ forall t v, look K t = Some v -> look K (feed K t x) = Some v.
  Lemma still_refl w : whole_writes (script w) -> still w w.
  Proof.
    intros H. split; [exact H|]. split; [reflexivity|]. exists []. split; [now rewrite app_nil_r|].
    intros t v Hl. now rewrite (feed_nil _ _ _ HK).
  Qed.
  Lemma still_trans a b c : still a b -> still b c -> still a c.
  Proof.
    intros (_ & A2 & x & A3 & A4) (B1 & B2 & y & B3 & B4). split; [exact B1|]. split; [congruence|].
    exists (x ++ y). split; [now rewrite B3, A3, app_assoc|]. intros t v Hl. rewrite (feed_app _ _ _ HK). auto.
  Qed.
  Lemma still_same w w' : whole_writes (script w') -> wat w' = wat w -> stream w' = stream w -> still w w'.
  Proof.
    intros H1 H2 H3. split; [exact H1|]. split; [exact H2|]. exists []. split; [now rewrite app_nil_r|].
    intros t v Hl. now rewrite (feed_nil _ _ _ HK).
  Qed.

  Definition calmly {A} (s : sys) (r : rres A) : Prop :=
    ends (fun s' => still (pwr s) (pwr s')) (fun s' _ => still (pwr s) (pwr s')) r.
  Lemma calmly_bind {A B} s (r : rres A) (k : sys -> A -> rres B) :
    calmly s r -> (forall s' a, whole_writes (script (pwr s')) -> calmly s' (k s' a)) -> calmly s (obind r k).
  Proof.
    unfold calmly. destruct r as [s1 a|s1 e| |]; cbn [obind ends]; auto. intros H1 H2. specialize (H2 s1 a (proj1 H1)).
    destruct (k s1 a); cbn [ends] in *; auto; exact (still_trans _ _ _ H1 H2).
  Qed.
  Lemma calmly_here {A} s s' (r : rres A) : pwr s = pwr s' -> calmly s' r -> calmly s r.
  Proof. unfold calmly. now intros ->. Qed.

  Definition wcalmly {A} (w : wst) (r : out wst werr A) : Prop :=
    match r with Ret w' _ | Fail w' _ => still w w' | _ => True end.
  Lemma calmly_on {A} (f : wst -> out wst werr A) s : wcalmly (pwr s) (f (pwr s)) -> calmly s (on_wr f s).
  Proof. unfold on_wr, calmly, wcalmly. destruct (f (pwr s)); auto. Qed.
  Lemma still_flush w : whole_writes (script w) -> wcalmly w (flush w).
  Proof.
    intros H. pose proof (flush_whole w H) as F. destruct (flush w) as [w' u|w' e| |]; cbn; auto; destruct F as (F1 & (F2 & _) & _ & F3 & F4);
      apply still_same; auto; unfold stream; rewrite F3, F4, ?app_nil_r; reflexivity.
  Qed.
  Lemma still_drop w : whole_writes (script w) -> wcalmly w (guard_drop w).
  Proof. intros H. pose proof (still_flush w H) as F. unfold guard_drop. destruct (flush w); exact F. Qed.
  Lemma calmly_guard {A} (f : sys -> rres A) s : calmly s (f s) -> calmly s (with_guard f s).
  Proof.
    unfold with_guard, calmly. destruct (f s) as [s1 a|s1 e| |]; cbn [ends]; auto; intros H;
      pose proof (calmly_on guard_drop s1 (still_drop _ (proj1 H))) as D; unfold calmly in D;
      destruct (on_wr guard_drop s1); cbn [obind ends] in *; auto; exact (still_trans _ _ _ H D).
  Qed.

  Definition skipped (x : bytes) : Prop := forall t v, look K t = Some v -> look K (feed K t x) = Some v.
  Lemma still_bytes x w : skipped x -> whole_writes (script w) -> wcalmly w (write_bytes C x w).
  Proof.
    intros Hx H. pose proof (write_bytes_whole C x w H) as W. destruct (write_bytes C x w) as [w' u|w' e| |]; cbn; auto;
      destruct W as (W1 & (W2 & _) & W3); [|now apply still_same].
    split; [exact W1|]. split; [exact W2|]. exists x. auto.
  Qed.
  Lemma still_mouse b w : whole_writes (script w) -> wcalmly w (enable_mouse C b w).
  Proof.
    intros H. unfold enable_mouse. destruct (xterm C) eqn:Ex; [|now apply still_refl].
    assert (M : skipped XTERM_ENABLE_MOUSE /\ skipped XTERM_ENABLE_MOUSE_MOTION).
    { split; intros t v Hl; now apply (mouse_ok _ _ _ HK Ex t v). }
    pose proof (still_bytes _ w (proj1 M) H) as W. destruct (write_bytes C XTERM_ENABLE_MOUSE w) as [w1 u|w1 e| |]; cbn [obind wcalmly] in *; auto.
    unfold when. destruct b; [|exact W]. pose proof (still_bytes _ w1 (proj2 M) (proj1 W)) as W2.
    destruct (write_bytes C XTERM_ENABLE_MOUSE_MOTION w1); cbn [obind wcalmly] in *; auto; exact (still_trans _ _ _ W W2).
  Qed.
  Lemma still_keypad w : whole_writes (script w) -> wcalmly w (enable_keypad C w).
  Proof.
    intros H. unfold enable_keypad. destruct (info C KeypadXmit) as [e|] eqn:Ei; [|now apply still_refl].
    unfold expand. pose proof (Hpc KeypadXmit e (wctx w) ltac:(cbn; auto) Ei) as He.
    destruct (e (wctx w) []) as [[bs k] b] eqn:Ee. cbn in He. subst b. cbn [obind wcalmly].
    split; [exact H|]. split; [reflexivity|]. exists bs. split; [apply app_assoc|].
    intros t v Hl. destruct (cap_ok _ _ _ HK KeypadXmit e Ei _ _ _ _ Ee t v Hl I) as (v' & V1 & V2). cbn in V2. now subst v'.
  Qed.

  Lemma calmly_os {A} (ok : sys -> rres A) s : (forall s', pwr s' = pwr s -> calmly s (ok s')) -> whole_writes (script (pwr s)) -> calmly s (os_call ok s).
  Proof. intros H Hw. unfold os_call. destruct (os s) as [|[e|] l]; [now apply H|now apply still_refl|now apply H]. Qed.
  Lemma calmly_install b n s : whole_writes (script (pwr s)) -> calmly s (install b n s).
  Proof.
    intros H. unfold install. destruct b; [|now apply still_refl]. apply calmly_bind; [|intros; now apply still_refl].
    unfold sigaction. apply calmly_os; [|exact H]. intros s' Hs. cbn. rewrite Hs. now apply still_refl.
  Qed.
  Lemma calmly_prepare cfg s : whole_writes (script (pwr s)) -> calmly s (prepare C cfg s).
  Proof.
    intros Hw. unfold prepare. apply calmly_guard. unfold prepare_with_lock.
    apply calmly_bind; [apply calmly_os; [|exact Hw]; intros s' Hs; cbn; rewrite Hs; now apply still_refl|]. intros s1 old H1.
    apply calmly_bind; [apply calmly_os; [|exact H1]; intros s' Hs; cbn; rewrite Hs; now apply still_refl|]. intros s2 u H2.
    apply calmly_bind.
    { destruct (cfg_mouse cfg); [|now apply still_refl]. apply calmly_on. now apply still_mouse. }
    intros s3 mo H3. apply calmly_bind.
    { destruct (cfg_keypad cfg); [|now apply still_refl]. apply calmly_on. now apply still_keypad. }
    intros s4 kp H4. apply calmly_bind; [apply calmly_on; now apply still_flush|].
    intros s5 u5 H5. apply calmly_bind; [now apply calmly_install|].
    intros s6 o1 H6. apply calmly_bind; [now apply calmly_install|].
    intros s7 o2 H7. apply calmly_bind; [now apply calmly_install|].
    intros s8 o3 H8. apply calmly_bind; [now apply calmly_install|].
    intros s9 o4 H9. apply calmly_bind; [now apply calmly_install|].
    intros s10 o5 H10. now apply still_refl.
  Qed.
  Lemma calmly_size s : whole_writes (script (pwr s)) -> calmly s (term_size s).
  Proof. intros H. unfold term_size. apply calmly_guard. destruct (win s); now apply still_refl. Qed.
  Lemma calmly_handle sig s : whole_writes (script (pwr s)) -> calmly s (handle_signal C sig s).
  Proof.
    intros H.
    assert (Hr : forall k z, whole_writes (script (pwr z)) -> calmly z (report_signal k z)).
    { intros k z Hz. unfold report_signal. destruct (ss_contains _ _); now apply still_refl. }
    destruct sig; cbn [handle_signal]; try (now apply Hr).
    - apply calmly_bind; [|intros; now apply Hr]. unfold resume. destruct (resume_cfg s); [|now apply still_refl].
      apply calmly_bind; [now apply calmly_prepare|]. intros; now apply still_refl.
    - apply calmly_bind; [now apply calmly_size|]. intros; now apply still_refl.
  Qed.

  (** Waiting and reading bytes do not touch the output at all. *)
  Lemma pass_pwr l : forall s, pwr (pass l s) = pwr s.
  Proof. intros s. destruct (pass_spec l s) as [(_ & _ & H & _) _]. exact H. Qed.
  Lemma await_pwr ms l : forall s, pwr (fst (await ms l s)) = pwr s.
  Proof. intros s. destruct (await_spec ms l s) as [(_ & _ & H & _) _]. exact H. Qed.
  Lemma select_pwr ms s : pwr (fst (select ms s)) = pwr s.
  Proof. unfold select. rewrite await_pwr. apply pass_pwr. Qed.
  Lemma os_read_pwr room s : pwr (fst (os_read room s)) = pwr s.
  Proof.
    unfold os_read. set (ms := if never_waits _ then _ else _). pose proof (await_pwr ms (time (advance s)) (advance s)) as H.
    destruct (await ms (time (advance s)) (advance s)) as [s1 w]. cbn [fst] in H.
    assert (Ha : pwr (advance s) = pwr s) by apply pass_pwr.
    destruct w; cbn [fst]; try congruence. unfold take_queue. destruct (queue s1) as [|bs q]; [cbn; congruence|]. destruct (_ <=? _); cbn; congruence.
  Qed.
  Definition silent {A} (s : sys) (r : rres A) : Prop := ends (fun s' => pwr s' = pwr s) (fun s' _ => pwr s' = pwr s) r.
  Lemma silent_calmly {A} s (r : rres A) : whole_writes (script (pwr s)) -> silent s r -> calmly s r.
  Proof. unfold silent, calmly. intros H. destruct r; cbn; auto; intros ->; now apply still_refl. Qed.
  Lemma silent_bind {A B} s (r : rres A) (k : sys -> A -> rres B) :
    silent s r -> (forall s' a, silent s' (k s' a)) -> silent s (obind r k).
  Proof.
    unfold silent. destruct r as [s1 a|s1 e| |]; cbn [obind ends]; auto. intros H1 H2. specialize (H2 s1 a).
    destruct (k s1 a); cbn [ends] in *; auto; congruence.
  Qed.
  Lemma silent_wait_loop fuel ms : forall s, silent s (wait_loop fuel ms s).
  Proof.
    induction fuel as [|fuel IH]; intros s; cbn [wait_loop]; [exact I|].
    pose proof (select_pwr ms s) as H. destruct (select ms s) as [s1 w]. cbn [fst] in H.
    assert (Hi : silent s (let '(s2, sig) := get_signal s1 in match sig with Some _ => Ret s2 true | None => wait_loop fuel ms s2 end)).
    { unfold get_signal. assert (Ha : pwr (advance s1) = pwr s) by (rewrite <- H; apply pass_pwr).
      destruct (conv_signal _); [exact Ha|]. specialize (IH (advance s1)). unfold silent in *.
      destruct (wait_loop fuel ms (advance s1)); cbn [ends] in *; auto; congruence. }
    destruct w; try exact H; try exact I; try exact Hi. destruct (e =? EINTR)%N; [exact Hi|exact H].
  Qed.
  Lemma silent_wait t s : silent s (wait_event m t s).
  Proof.
    unfold wait_event, get_signal. assert (Ha : pwr (advance s) = pwr s) by apply pass_pwr.
    destruct (conv_signal _); [exact Ha|]. unfold peek. destruct (peek_event _ _) as [[| |e n]|]; cbn [obind]; try exact Ha; try exact I.
    assert (Hl : forall ms, silent s (wait_loop (turns (advance s)) ms (advance s))).
    { intros ms. pose proof (silent_wait_loop (turns (advance s)) ms (advance s)) as H. unfold silent in *.
      destruct (wait_loop _ ms (advance s)); cbn [ends] in *; auto; congruence. }
    destruct t as [d|]; [destruct (to_timeval d); [|exact I]|]; apply Hl.
  Qed.
  Lemma silent_read_loop fuel room : forall s, silent s (read_loop fuel room s).
  Proof.
    induction fuel as [|fuel IH]; intros s; cbn [read_loop]; [exact I|].
    pose proof (os_read_pwr room s) as H. destruct (os_read room s) as [s1 g]. cbn [fst] in H.
    assert (Hi : silent s (let '(s2, sig) := take_signal s1 in match sig with Some sig => Ret s2 (Some (ISignal sig)) | None => read_loop fuel room s2 end)).
    { unfold take_signal. assert (Ha : pwr (with_last 0 (advance s1)) = pwr s) by (rewrite <- H; apply pass_pwr).
      destruct (conv_signal _); [exact Ha|]. specialize (IH (with_last 0 (advance s1))). unfold silent in *.
      destruct (read_loop fuel room (with_last 0 (advance s1))); cbn [ends] in *; auto; congruence. }
    destruct g; try exact I; try exact Hi; [exact H|]. destruct (e =? EINTR)%N; [exact Hi|exact H].
  Qed.
  Lemma silent_input room t s : silent s (read_input m room t s).
  Proof.
    unfold read_input, take_signal. set (s1 := with_last 0 (advance s)). assert (H1 : pwr s1 = pwr s) by apply pass_pwr.
    destruct (conv_signal _); [exact H1|]. pose proof (silent_wait t s1) as W. unfold silent in *.
    destruct (wait_event m t s1) as [s2 b|s2 e| |]; cbn [obind ends] in *; auto; [|congruence].
    destruct b; cbn [negb]; [|cbn; congruence]. set (s3 := with_last 0 (advance s2)). assert (H3 : pwr s3 = pwr s2) by apply pass_pwr.
    destruct (conv_signal _); [exact (eq_trans H3 (eq_trans W H1))|]. pose proof (silent_read_loop (turns s3) room s3) as L. unfold silent in L.
    destruct (read_loop (turns s3) room s3); cbn [ends] in *; auto; congruence.
  Qed.
  Lemma silent_into t s : silent s (read_into_buffer C m t s).
  Proof.
    unfold read_into_buffer. set (cap := if (_ <=? _) then incap s else _).
    pose proof (silent_input (cap - length (inbuf s)) t (with_inbuf [] 0 s)) as R. unfold silent in *.
    destruct (read_input m (cap - length (inbuf s)) t (with_inbuf [] 0 s)) as [s1 r|s1 e| |]; cbn [ends] in *; auto.
    destruct r as [[sig|bs]|]; exact R.
  Qed.
  Lemma silent_try s : silent s (try_read m s).
  Proof.
    unfold try_read. destruct (inbuf s); [reflexivity|]. unfold peek. destruct (peek_event _ _) as [[| |e n0]|]; cbn [obind]; try exact I; reflexivity.
  Qed.
  Lemma calmly_read t s : whole_writes (script (pwr s)) -> calmly s (read_event C m t s).
  Proof.
    intros H. unfold read_event. apply calmly_bind; [apply silent_calmly; [exact H|apply silent_try]|]. intros s1 e H1.
    destruct e; [now apply still_refl|]. apply calmly_bind; [apply silent_calmly; [exact H1|apply silent_into]|]. intros s2 r H2.
    destruct r as [[sig|bs]|]; [now apply calmly_handle|apply silent_calmly; [exact H2|apply silent_try]|now apply still_refl].
  Qed.
  Lemma calmly_raw room t s : whole_writes (script (pwr s)) -> calmly s (read_raw C m room t s).
  Proof.
    intros H. unfold read_raw. destruct (inbuf s) as [|b bs]; [|now apply still_refl].
    apply calmly_bind; [apply silent_calmly; [exact H|apply silent_input]|]. intros s2 r H2.
    destruct r as [[sig|x]|]; [|now apply still_refl|now apply still_refl].
    apply calmly_bind; [now apply calmly_handle|]. intros; now apply still_refl.
  Qed.
End Whole.
