(** Reading never waits after [wait_event] said so, never panics but on known input,
    and sticks at invalid input; timeouts. *)
From Verif Require Import Base M_Utf8 S_Utf8 P_Utf8 M_Geom M_Seq S_Seq M_Signal M_Util M_Input S_Input P_Input
  M_Writer S_Writer P_Writer M_Prepare M_Reader S_Prepare S_Reader P_Prepare P_Prepare2 P_Reader P_Reader2.
Local Open Scope nat_scope.

Section Reader3.
  Variables (C : tcfg) (m : seq_map).

  (** ** C46 *)
  Definition ready (s : sys) : Prop :=
    conv_signal (last_sig s) <> None \/ (exists e n, peek_event (inbuf s) m = Val (PEvent e n)) \/ queue s <> [].

  Lemma pass_pending l : forall s, handlers_known s -> conv_signal (last_sig s) <> None ->
    conv_signal (last_sig (pass l s)) <> None.
  Proof.
    induction l as [|k l IH]; intros s Hk Hs; [exact Hs|].
    destruct k; cbn [pass happens]; try exact Hs; try (apply IH; [exact Hk|exact Hs]).
    destruct (disp s n) eqn:E; [|now apply IH]. apply IH; [exact Hk|]. cbn. now apply Hk.
  Qed.

  Lemma await_ready ms l : forall s s', await ms l s = (s', WReady) -> queue s' <> [].
  Proof.
    induction l as [|k l IH]; intros s s'; cbn [await]; (destruct (failing s); [discriminate|]);
      (destruct (queue s) eqn:Eq; [|injection 1 as <-; cbn; rewrite Eq; discriminate]).
    - destruct ms as [[|p]|]; discriminate.
    - destruct (match ms with Some 0%N => true | _ => false end); [discriminate|].
      destruct k; try apply IH.
      + destruct (disp s n); [discriminate|apply IH].
      + discriminate.
      + destruct ms; [discriminate|apply IH].
  Qed.

  Lemma wait_loop_ready fuel : forall ms s s', wait_loop fuel ms s = Ret s' true -> ready s'.
  Proof.
    induction fuel as [|fuel IH]; intros ms s s'; [discriminate|]. cbn [wait_loop].
    destruct (select ms s) as [s1 w] eqn:Es.
    assert (Hi : (let '(z, sig) := get_signal s1 in match sig with Some _ => Ret z true | None => wait_loop fuel ms z end) = Ret s' true -> ready s').
    { unfold get_signal. destruct (conv_signal _) eqn:Ec; [|apply IH]. injection 1 as <-. left. congruence. }
    destruct w; try discriminate.
    - injection 1 as <-. right. right. unfold select in Es. now apply await_ready in Es.
    - exact Hi.
    - destruct (e =? EINTR)%N; [exact Hi|discriminate].
  Qed.

  Lemma wait_ready t s s' : wait_event m t s = Ret s' true -> ready s'.
  Proof.
    unfold wait_event, get_signal. destruct (conv_signal _) eqn:Ec.
    - injection 1 as <-. left. congruence.
    - unfold peek. destruct (peek_event _ m) as [[| |e n]|] eqn:Ep; try discriminate; cbn [obind].
      + destruct t as [d|]; [destruct (to_timeval d); [|discriminate]|]; apply wait_loop_ready.
      + injection 1 as <-. right. left. eauto.
  Qed.

  Lemma ready_read t s : ready s -> handlers_known s -> read_event C m t s = Blocked ->
    exists sig s2, handle_signal C sig s2 = Blocked /\ wr s2 = wr s.
  Proof.
    intros Hr Hk. unfold read_event.
    destruct (try_read m s) as [s0 [e|]|s0 e| |] eqn:Et; cbn [obind]; try discriminate.
    2:{ unfold try_read, peek in Et. destruct (inbuf s); [discriminate|]. destruct (peek_event _ m) as [[| |]|]; discriminate. }
    assert (Hs0 : s0 = s /\ forall e n, peek_event (inbuf s) m <> Val (PEvent e n)).
    { unfold try_read, peek in Et. destruct (inbuf s) eqn:Ei; [injection Et as <-; split; [reflexivity|discriminate]|].
      destruct (peek_event _ m) as [[| |]|]; try discriminate. injection Et as <-. split; [reflexivity|discriminate]. }
    destruct Hs0 as [-> Hno]. clear Et. destruct Hr as [Hr|[(e & n & Hr)|Hr]]; [| exfalso; exact (Hno e n Hr)|].
    - (* a signal *)
      unfold read_into_buffer, read_input, take_signal.
      assert (Hp : conv_signal (last_sig (advance (with_inbuf [] 0 s))) <> None) by (apply pass_pending; assumption).
      set (cap := if (_ <=? _) then incap s else _). clearbody cap.
      destruct (advance_spec (with_inbuf [] 0 s)) as [(_ & _ & W & _) _].
      destruct (conv_signal (last_sig (advance (with_inbuf [] 0 s)))) as [sig|]; [|congruence]. cbn [obind]. intros H.
      exists sig. eexists. split; [exact H|]. exact W.
    - (* input *)
      unfold read_into_buffer.
      set (cap := if (_ <=? _) then incap s else _). clearbody cap.
      set (s1 := with_inbuf [] 0 s). assert (Ha : awake s1) by exact Hr. assert (W1 : wr s1 = wr s) by reflexivity.
      assert (I1 : inbuf s1 = []) by reflexivity.
      assert (Hq : read_input m (cap - length (inbuf s)) t s1 <> Blocked).
      { unfold read_input, take_signal. destruct (conv_signal (last_sig (advance s1))); [discriminate|].
        set (s2 := with_last 0 (advance s1)). assert (Ha2 : awake s2) by (apply (pass_awake (time s1) s1 Ha)).
        assert (I2 : inbuf s2 = []) by (destruct (advance_spec s1) as [(_ & _ & _ & _ & _ & _ & I & _) _]; exact (eq_trans I I1)).
        clearbody s2.
        assert (Hw : wait_event m t s2 <> Blocked).
        { unfold wait_event, get_signal. destruct (conv_signal _); [discriminate|].
          assert (Ha3 : awake (advance s2)) by (apply (pass_awake (time s2) s2 Ha2)).
          unfold peek. destruct (peek_event (inbuf (advance s2)) m) as [[| |]|]; cbn [obind]; try discriminate.
          destruct t as [d|]; [destruct (to_timeval d); [|discriminate]|]; apply wait_loop_awake; auto using turns_budget. }
        pose proof (wait_event_ends m t s2) as He.
        destruct (wait_event m t s2) as [s3 [|]|s3 e| |] eqn:Ew; cbn [obind negb]; try discriminate; [|congruence].
        destruct (conv_signal _) eqn:Ec3; [discriminate|].
        (* the input is still there *)
        assert (Ha3 : awake s3).
        { unfold wait_event, get_signal in Ew. destruct (conv_signal (last_sig (advance s2))) eqn:Ec2.
          - injection Ew as <-. now apply pass_awake.
          - assert (Ha3 : awake (advance s2)) by (now apply pass_awake).
            unfold peek in Ew. destruct (peek_event (inbuf (advance s2)) m) as [[| |]|]; cbn [obind] in Ew; try discriminate.
            + assert (Hl : forall fuel ms z, awake z -> wait_loop fuel ms z = Ret s3 true -> awake s3).
              { clear. induction fuel as [|fuel IH]; intros ms z Hz; [discriminate|]. cbn [wait_loop]. unfold select.
                pose proof (pass_awake (time z) z Hz) as Hz1. fold (advance z) in Hz1.
                destruct (await_awake ms (advance z) Hz1) as [->|(e & _ & ->)].
                - intros X. injection X as <-. exact Hz1.
                - destruct (e =? EINTR)%N; [|intros X; discriminate X]. unfold get_signal.
                  match goal with |- context [advance ?y] => assert (Hy : awake (advance y)) by (apply (pass_awake (time y) y Hz1)) end.
                  destruct (conv_signal _); [intros X; injection X as <-; exact Hy|]. apply IH, Hy. }
              destruct t as [d|]; [destruct (to_timeval d); [|discriminate Ew]|]; eapply Hl; eauto.
            + injection Ew as <-. exact Ha3. }
        apply read_loop_awake; [apply (pass_awake (time s3) s3 Ha3)|apply turns_budget]. }
      pose proof (read_input_ends m (cap - length (inbuf s)) t s1) as He.
      destruct (read_input m (cap - length (inbuf s)) t s1) as [s2 [[sig|bs]|]|s2 e| |]; cbn [obind]; try discriminate.
      + intros H. exists sig. eexists. split; [exact H|]. cbn in He |- *. rewrite <- W1. apply He.
      + unfold try_read, peek. cbn [inbuf with_inbuf]. destruct (inbuf s ++ bs) as [|b r] eqn:Eb; [discriminate|].
        cbn [inbuf with_inbuf]. destruct (peek_event (b :: r) m) as [[| |]|]; discriminate.
      + congruence.
  Qed.

  Lemma wait_then_read t t' s s' : handlers_known s -> wait_event m t s = Ret s' true ->
    read_event C m t' s' = Blocked -> exists sig s2, handle_signal C sig s2 = Blocked /\ wr s2 = wr s'.
  Proof.
    intros Hk Hw. apply ready_read; [eapply wait_ready; eauto|].
    pose proof (wait_event_ends m t s) as He. rewrite Hw in He. cbn in He.
    destruct He as [He _]. unfold handlers_known. intros n. 
    destruct He as (_ & _ & _ & _ & -> & _). apply Hk.
  Qed.

  (** ** C41 *)
  Lemma stuck s ops : inbuf s <> [] -> (forall c r, scalar c -> inbuf s <> utf8 c ++ r) -> ~ truncated_char (inbuf s) ->
    Forall (fun o => exists t, o = RRead t) ops ->
    rrun C m ops s = Some (s, repeat (YErr RUtf8) (length ops)).
  Proof.
    intros Hne Hno Ht Ho.
    assert (Hp : peek_event (inbuf s) m = Val PErr).
    { rewrite peek_nochar by exact Hno. destruct (inbuf s) as [|b r] eqn:E; [congruence|]. rewrite <- E in *.
      destruct (validate_step (inbuf s)) as [n|[k|]] eqn:Ev; [|reflexivity|].
      - apply step_ok in Ev as (c & r' & Hc & Hv & _). exfalso. exact (Hno c r' Hc Hv).
      - apply step_incomplete in Ev; [contradiction|congruence]. }
    induction ops as [|o ops IH]; [reflexivity|]. inversion Ho as [|? ? [t ->] Ho']; subst.
    cbn [rrun rstep length repeat]. rewrite (read_invalid C m t s Hp). cbn [ret]. now rewrite (IH Ho').
  Qed.

  (** ** C39 *)
  Definition sound {A} (r : rres A) : Prop :=
    match r with Ret s _ | Fail s _ => whole_writes (script (wr s)) | Panic => False | Blocked => True end.
  Lemma sound_bind {A B} (r : rres A) (k : sys -> A -> rres B) :
    sound r -> (forall s a, whole_writes (script (wr s)) -> sound (k s a)) -> sound (obind r k).
  Proof. destruct r; cbn; auto. Qed.
  Lemma sound_on {A} (f : wst -> out wst werr A) s :
    match f (wr s) with Ret w _ | Fail w _ => whole_writes (script w) | Panic => False | Blocked => True end ->
    sound (on_wr f s).
  Proof. unfold on_wr. destruct (f (wr s)); auto. Qed.
  Lemma sound_flush s : whole_writes (script (wr s)) -> sound (on_wr flush s).
  Proof. intros H. apply sound_on. pose proof (flush_whole (wr s) H) as X. destruct (flush (wr s)); auto; apply X. Qed.
  Lemma sound_drop s : whole_writes (script (wr s)) -> sound (on_wr guard_drop s).
  Proof.
    intros H. apply sound_on. unfold guard_drop. pose proof (flush_whole (wr s) H) as X. destruct (flush (wr s)); auto; apply X.
  Qed.
  Lemma sound_guard {A} (f : sys -> rres A) s : sound (f s) -> sound (with_guard f s).
  Proof.
    unfold with_guard. destruct (f s) as [s1 a|s1 e| |]; cbn; auto; intros H; apply sound_bind; auto using sound_drop.
  Qed.
  Lemma sound_os {A} (ok : sys -> rres A) s :
    (forall s, whole_writes (script (wr s)) -> sound (ok s)) -> whole_writes (script (wr s)) -> sound (os_call ok s).
  Proof. intros H Hw. unfold os_call. destruct (os s) as [|[e|] l]; [now apply H|exact Hw|apply H; exact Hw]. Qed.
  Lemma sound_install b n s : whole_writes (script (wr s)) -> sound (install b n s).
  Proof.
    intros H. unfold install. destruct b; [|exact H]. apply sound_bind; [|intros; exact H0].
    unfold sigaction. apply sound_os; auto.
  Qed.

  Lemma sound_prepare cfg s : whole_writes (script (wr s)) -> sound (prepare C cfg s).
  Proof.
    intros Hw. unfold prepare. apply sound_guard. unfold prepare_with_lock.
    apply sound_bind; [apply sound_os; auto|]. intros s1 old H1.
    apply sound_bind; [apply sound_os; auto|]. intros s2 u H2.
    apply sound_bind.
    { destruct (cfg_mouse cfg); [|exact H2]. apply sound_on. unfold enable_mouse. destruct (xterm C); [|exact H2].
      pose proof (write_bytes_whole C XTERM_ENABLE_MOUSE (wr s2) H2) as X.
      destruct (write_bytes C XTERM_ENABLE_MOUSE (wr s2)) as [w a|w e| |]; cbn [obind]; auto; [|apply X].
      unfold when. destruct (always_track_motion cfg); [|apply X].
      pose proof (write_bytes_whole C XTERM_ENABLE_MOUSE_MOTION w (proj1 X)) as Y.
      destruct (write_bytes C XTERM_ENABLE_MOUSE_MOTION w) as [w' a'|w' e| |]; cbn [obind]; auto; apply Y. }
    intros s3 mo H3. apply sound_bind.
    { destruct (cfg_keypad cfg); [|exact H3]. apply sound_on. unfold enable_keypad. destruct (info C KeypadXmit) as [e|]; [|exact H3].
      unfold expand. destruct (e _ _) as [[bs k] []]; cbn [obind]; exact H3. }
    intros s4 kp H4. apply sound_bind; [now apply sound_flush|].
    intros s5 u5 H5. apply sound_bind; [now apply sound_install|].
    intros s6 o1 H6. apply sound_bind; [now apply sound_install|].
    intros s7 o2 H7. apply sound_bind; [now apply sound_install|].
    intros s8 o3 H8. apply sound_bind; [now apply sound_install|].
    intros s9 o4 H9. apply sound_bind; [now apply sound_install|].
    intros s10 o5 H10. exact H10.
  Qed.

  Lemma sound_handle sig s : whole_writes (script (wr s)) -> sound (handle_signal C sig s).
  Proof.
    intros H.
    assert (Hr : forall k s, whole_writes (script (wr s)) -> sound (report_signal k s)).
    { intros k z Hz. unfold report_signal. destruct (ss_contains _ _); exact Hz. }
    destruct sig; cbn [handle_signal]; try (now apply Hr).
    - apply sound_bind; [|intros; now apply Hr]. unfold resume. destruct (resume_cfg s); [|exact H].
      apply sound_bind; [now apply sound_prepare|]. auto.
    - apply sound_bind; [|auto]. unfold term_size. apply sound_guard. destruct (win s); exact H.
  Qed.

  Lemma wait_loop_panic fuel : forall ms s, wait_loop fuel ms s <> Panic.
  Proof.
    induction fuel as [|fuel IH]; intros ms s; [discriminate|]. cbn [wait_loop]. destruct (select ms s) as [s1 w].
    assert (Hi : (let '(z, sig) := get_signal s1 in match sig with Some _ => Ret z true | None => wait_loop fuel ms z end) <> Panic).
    { unfold get_signal. destruct (conv_signal _); [discriminate|apply IH]. }
    destruct w; try discriminate; [exact Hi|]. destruct (e =? EINTR)%N; [exact Hi|discriminate].
  Qed.

  Lemma wait_panic t s : wait_event m t s = Panic -> peek_event (inbuf s) m = Boom \/ overflows t.
  Proof.
    unfold wait_event, get_signal. destruct (advance_spec s) as [(_ & _ & _ & _ & _ & _ & I & _) _].
    destruct (conv_signal _); [discriminate|]. unfold peek. rewrite I.
    destruct (peek_event (inbuf s) m) as [[| |]|]; cbn [obind]; try discriminate; [|auto].
    destruct t as [d|]; [destruct (to_timeval d) eqn:E|]; intros H; try (now apply wait_loop_panic in H).
    right. exists d. auto.
  Qed.

  Lemma read_loop_panic fuel room : forall s, read_loop fuel room s <> Panic.
  Proof.
    induction fuel as [|fuel IH]; intros s; [discriminate|]. cbn [read_loop]. destruct (os_read room s) as [s1 w].
    assert (Hi : (let '(z, sig) := take_signal s1 in match sig with Some sig => Ret z (Some (ISignal sig)) | None => read_loop fuel room z end) <> Panic).
    { unfold take_signal. destruct (conv_signal _); [discriminate|apply IH]. }
    destruct w; try discriminate; [exact Hi|]. destruct (e =? EINTR)%N; [exact Hi|discriminate].
  Qed.

  Lemma read_input_panic room t s : inbuf s = [] -> read_input m room t s = Panic -> overflows t.
  Proof.
    intros Hi. unfold read_input, take_signal. destruct (conv_signal (last_sig (advance s))); [discriminate|].
    destruct (advance_spec s) as [(_ & _ & _ & _ & _ & _ & I & _) _].
    destruct (wait_event m t _) as [s1 [|]| | |] eqn:E; cbn [obind negb]; try discriminate.
    - destruct (conv_signal _); [discriminate|]. intros H. now apply read_loop_panic in H.
    - intros _. apply wait_panic in E as [E|E]; [|exact E]. cbn [inbuf with_last] in E. rewrite I, Hi in E. discriminate.
  Qed.

  Lemma read_panic t s : whole_writes (script (wr s)) -> read_event C m t s = Panic ->
    overflows t \/ exists x, peek_event (inbuf s ++ x) m = Boom.
  Proof.
    intros Hw. unfold read_event.
    assert (Ht : forall z, try_read m z = Panic -> peek_event (inbuf z) m = Boom).
    { intros z. unfold try_read, peek. destruct (inbuf z) as [|b r] eqn:E; [discriminate|].
      destruct (peek_event (b :: r) m) as [[| |]|]; cbn [obind]; try discriminate. auto. }
    destruct (try_read m s) as [s0 [e|]|s0 e| |] eqn:Et; cbn [obind]; try discriminate.
    2:{ intros _. right. exists []. rewrite app_nil_r. now apply Ht. }
    assert (Hs0 : s0 = s).
    { unfold try_read, peek in Et. destruct (inbuf s) eqn:Ei; [now injection Et as <-|].
      destruct (peek_event _ m) as [[| |]|]; try discriminate. now injection Et as <-. }
    subst s0. unfold read_into_buffer. set (cap := if (_ <=? _) then incap s else _). clearbody cap.
    pose proof (read_input_ends m (cap - length (inbuf s)) t (with_inbuf [] 0 s)) as He.
    destruct (read_input m _ t _) as [s1 [[sig|bs]|]|s1 e| |] eqn:Er; cbn [obind]; try discriminate.
    - intros H. exfalso. assert (Ew : wr s1 = wr s) by apply He.
      pose proof (sound_handle sig (with_inbuf (inbuf s) cap s1)) as X. rewrite H in X. cbn [wr with_inbuf sound] in X.
      rewrite Ew in X. exact (X Hw).
    - intros H. apply Ht in H. right. exists bs. exact H.
    - intros _. left. eapply read_input_panic; [|exact Er]. reflexivity.
  Qed.
End Reader3.

(** ** C47 *)
Lemma duration_exact d : (nanos d < 1000000000)%N ->
  duration_ms d = if (N.min (secs d) (I64_MAX / 1000) * 1000 + nanos d / 1000000 <=? I64_MAX)%N
                 then Val (N.min (secs d) (I64_MAX / 1000) * 1000 + nanos d / 1000000)%N else Boom.
Proof.
  intros H. unfold duration_ms. assert (E : (if (I64_MAX / 1000 <? secs d)%N then (I64_MAX / 1000)%N else secs d) = N.min (secs d) (I64_MAX / 1000)).
  { set (K := (I64_MAX / 1000)%N). clearbody K. destruct (N.ltb_spec K (secs d)); lia. }
  rewrite E. reflexivity.
Qed.

Lemma duration_small d : (nanos d < 1000000000)%N -> (secs d < 9223372036854775)%N ->
  duration_ms d = Val ((secs d * 1000000000 + nanos d) / 1000000)%N.
Proof.
  intros H1 H2. rewrite duration_exact by exact H1. change (I64_MAX / 1000)%N with 9223372036854775%N in *.
  rewrite N.min_l by lia.
  assert (E : ((secs d * 1000000000 + nanos d) / 1000000 = secs d * 1000 + nanos d / 1000000)%N).
  { replace (secs d * 1000000000)%N with (secs d * 1000 * 1000000)%N by lia. rewrite N.div_add_l by lia. reflexivity. }
  rewrite E. assert (nanos d / 1000000 < 1000)%N by (apply N.div_lt_upper_bound; lia).
  unfold I64_MAX. destruct (N.leb_spec (secs d * 1000 + nanos d / 1000000) 9223372036854775807); [reflexivity|lia].
Qed.

Lemma duration_boom d : (nanos d < 1000000000)%N ->
  (duration_ms d = Boom <-> (9223372036854775 <= secs d)%N /\ (808000000 <= nanos d)%N).
Proof.
  intros H1. rewrite duration_exact by exact H1. change (I64_MAX / 1000)%N with 9223372036854775%N. unfold I64_MAX.
  pose proof (N.div_mod (nanos d) 1000000 ltac:(lia)) as Hd. pose proof (N.mod_lt (nanos d) 1000000 ltac:(lia)) as Hm.
  set (q := (nanos d / 1000000)%N) in *. set (r := (nanos d mod 1000000)%N) in *. clearbody q r.
  destruct (N.leb_spec (N.min (secs d) 9223372036854775 * 1000 + q) 9223372036854775807); split; try discriminate; intros; try lia. reflexivity.
Qed.

Lemma whole_seconds d : (nanos d < 1000000000)%N -> ((secs d * 1000000000 + nanos d) / 1000000 / 1000 = secs d)%N.
Proof.
  intros H. rewrite N.div_div by lia. change (1000000 * 1000)%N with 1000000000%N.
  rewrite N.div_add_l by lia. rewrite N.div_small by exact H. lia.
Qed.

Lemma timeval_small d : (nanos d < 1000000000)%N -> (secs d < 9223372036854)%N ->
  to_timeval d = Val ((secs d * 1000000000 + nanos d) / 1000000)%N.
Proof.
  intros H1 H2. unfold to_timeval. rewrite duration_small by (exact H1 || lia). unfold milliseconds.
  rewrite whole_seconds by exact H1.
  assert (Hu : ((secs d * 1000000000 + nanos d) / 1000000 < 9223372036854000)%N) by (apply N.div_lt_upper_bound; lia).
  set (x := ((secs d * 1000000000 + nanos d) / 1000000)%N) in *. clearbody x.
  change TV_MAX_SECONDS with 9223372036853%N. unfold I64_MAX.
  destruct (N.leb_spec (x * 1000) 9223372036854775807); [|lia].
  destruct (N.leb_spec (secs d) 9223372036853); [reflexivity|lia].
Qed.

Lemma timeval_boom d : (nanos d < 1000000000)%N ->
  (to_timeval d = Boom <-> (9223372036854 <= secs d)%N).
Proof.
  intros H1. split.
  - intros H. destruct (N.lt_ge_cases (secs d) 9223372036854) as [L|L]; [|exact L].
    rewrite timeval_small in H by assumption. discriminate.
  - intros H. unfold to_timeval. rewrite duration_exact by exact H1. change (I64_MAX / 1000)%N with 9223372036854775%N.
    set (x := (N.min (secs d) 9223372036854775 * 1000 + nanos d / 1000000)%N).
    assert (Hx : (9223372036854000 <= x)%N) by (unfold x; lia). clearbody x.
    destruct (x <=? I64_MAX)%N; [|reflexivity]. unfold milliseconds. change TV_MAX_SECONDS with 9223372036853%N. unfold I64_MAX.
    destruct (N.leb_spec (x * 1000) 9223372036854775807); [|reflexivity].
    assert (9223372036854 <= x / 1000)%N by (apply N.div_le_lower_bound; lia).
    destruct (N.leb_spec (x / 1000) 9223372036853); [lia|reflexivity].
Qed.

(** ** The library's handler is only ever installed for signals it knows *)
Lemma handled_known cfg n : handled cfg n = true -> conv_signal n <> None.
Proof.
  unfold handled, conv_signal. destruct (n =? SIGCONT)%N; [discriminate|]. destruct (n =? SIGWINCH)%N;
  destruct (n =? SIGINT)%N; try discriminate; destruct (n =? SIGQUIT)%N; try discriminate; destruct (n =? SIGTSTP)%N; discriminate.
Qed.

Lemma touched_known cfg s s' : touched cfg s s' -> handlers_known s -> handlers_known s'.
Proof.
  intros H Hk n E. specialize (H n). destruct (handled cfg n) eqn:Eh; [now apply handled_known in Eh|].
  apply Hk. congruence.
Qed.

Lemma restore_known C st s : handlers_known s -> ends handlers_known (fun s' _ => handlers_known s') (restore C st s).
Proof.
  intros Hk. unfold restore. apply guard_ends; [intros w s' H; exact H|intros w s' _ H; exact H|].
  unfold restore_with_lock.
  assert (Hput : forall n o s', conv_signal n <> None -> handlers_known s' ->
            ends handlers_known (fun s' _ => handlers_known s') (put_back n o s')).
  { intros n o s' Hn H. unfold put_back. destruct o as [a|]; [|exact H].
    assert (Hs : handlers_known (with_disp (fun k => if (k =? n)%N then a else disp s' k) s')).
    { intros k. cbn. destruct (N.eqb_spec k n) as [E|_]; [rewrite E; auto|apply H]. }
    unfold sigaction, os_call. destruct (os s') as [|[e|] l]; cbn [obind ends]; [exact Hs|exact H|exact Hs]. }
  assert (Hon : forall (f : wst -> out wst werr unit) s', handlers_known s' ->
            ends handlers_known (fun s' _ => handlers_known s') (on_wr f s')).
  { intros f s' H. unfold on_wr. destruct (f (wr s')); cbn; auto. }
  eapply ends_bind with (Q := fun s' _ => handlers_known s').
  { destruct (restore_mouse st); [now apply Hon|exact Hk]. }
  intros s1 _ H1. eapply ends_bind with (Q := fun s' _ => handlers_known s').
  { destruct (restore_keypad st); [now apply Hon|exact H1]. }
  intros s2 _ H2. eapply ends_bind with (Q := fun s' _ => handlers_known s'); [now apply Hon|].
  intros s3 _ H3. eapply ends_bind with (Q := fun s' _ => handlers_known s').
  { unfold tcsetattr, os_call. destruct (os s3) as [|[e|] l]; exact H3. }
  intros s4 _ H4. eapply ends_bind with (Q := fun s' _ => handlers_known s'); [apply Hput; [discriminate|exact H4]|].
  intros s5 _ H5. eapply ends_bind with (Q := fun s' _ => handlers_known s'); [apply Hput; [discriminate|exact H5]|].
  intros s6 _ H6. eapply ends_bind with (Q := fun s' _ => handlers_known s'); [apply Hput; [discriminate|exact H6]|].
  intros s7 _ H7. eapply ends_bind with (Q := fun s' _ => handlers_known s'); [apply Hput; [discriminate|exact H7]|].
  intros s8 _ H8. apply Hput; [discriminate|exact H8].
Qed.

Lemma rrun_known C m ops : key_map m -> forall s s' rs, handlers_known s -> rrun C m ops s = Some (s', rs) -> handlers_known s'.
Proof.
  intros Hm. induction ops as [|o ops IH]; intros s s' rs Hk; cbn [rrun]; [intros [= <- <-]; exact Hk|].
  destruct (rstep C m o s) as [[s1 r]|] eqn:E; [|discriminate].
  destruct (rrun C m ops s1) as [[s2 rs2]|] eqn:E2; [|discriminate]. intros [= <- <-]. eapply IH; [|exact E2].
  assert (Hr : reading o -> handlers_known s1).
  { intros Ho. pose proof (rstep_reads C m Hm o s s1 r Ho E) as [_ H]. destruct (resume_cfg s); [eapply touched_known; eauto|].
    destruct H as (_ & H & _). intros n. rewrite H. apply Hk. }
  destruct o as [t|t|n t|cfg|st]; try (apply Hr; exact I); clear Hr.
  - cbn [rstep] in E. unfold ret in E. pose proof (prepare_ends C cfg s) as H.
    destruct (prepare C cfg s) as [sa a|sa a| |]; try discriminate; injection E as <- <-; cbn in H.
    + apply prepared_touched in H. eapply touched_known; eauto.
    + eapply touched_known; [apply H|exact Hk].
  - cbn [rstep] in E. unfold ret in E. pose proof (restore_known C st s Hk) as H.
    destruct (restore C st s) as [sa a|sa a| |]; try discriminate; injection E as <- <-; exact H.
Qed.

(** C43 *)
Lemma handle_last C sig s s' e : handle_signal C sig s = Ret s' e -> last_sig s' = last_sig s /\ inbuf s' = inbuf s.
Proof.
  assert (Hrep : forall sig z, report_signal sig z = Ret z (if ss_contains (report z) sig then Some (ESignal sig) else None)).
  { intros k z. unfold report_signal. now destruct (ss_contains _ _). }
  destruct sig; cbn [handle_signal]; try (rewrite Hrep; intros [= <- <-]; auto).
  - unfold resume. destruct (resume_cfg s) as [c|].
    + destruct (prepare C c s) as [s1 st| | |] eqn:Ep; cbn [obind]; try discriminate.
      apply prepare_ret in Ep as ((Q1 & _ & Q2 & _) & _). rewrite Hrep. intros [= <- <-]. auto.
    + cbn [obind]. rewrite Hrep. intros [= <- <-]. auto.
  - unfold term_size, with_guard. destruct (win s) as [e1|z] eqn:Ew.
    + destruct (on_wr guard_drop s); discriminate.
    + destruct (on_wr guard_drop s) as [s1 u| | |] eqn:E; cbn [obind]; try discriminate.
      apply on_wr_ret in E as (w & -> & _). intros [= <- <-]. auto.
Qed.

Lemma signal_event C m t s sig s' e : peek_event (inbuf s) m = Val PNone ->
  conv_signal (last_sig (advance s)) = Some sig -> read_event C m t s = Ret s' e ->
  let again := match sig with Continue => resume_cfg s | _ => None end in
  e = deserved (match again with Some c => report_signals c | None => report s end) sig (win (advance s)) /\
  (sig = Resize -> exists z, win (advance s) = inr z) /\
  match again with
  | Some c => prepared c (tio s) (tio s') /\ (forall n, disp s' n = if handled c n then Ours else disp s n) /\
              report s' = report_signals c
  | None => tio s' = tio s /\ disp s' = disp s /\ report s' = report s
  end /\
  resume_cfg s' = resume_cfg s /\ last_sig s' = 0%N /\ inbuf s' = inbuf s.
Proof.
  intros Hp Hs Hr.
  assert (Ht : try_read m s = Ret s None).
  { unfold try_read, peek. rewrite Hp. destruct (inbuf s); reflexivity. }
  destruct (read_signal C m t s sig Ht Hs) as (cap & E). rewrite E in Hr. clear E.
  pose proof (handle_last _ _ _ _ _ Hr) as [HL HI]. apply handle_deserved in Hr.
  destruct (advance_spec s) as [(A1 & A2 & A3 & A4 & A5 & _) _].
  cbn [resume_cfg report win tio disp inbuf last_sig with_inbuf with_last] in *. rewrite A1, A2 in Hr.
  cbn zeta in *. destruct Hr as (H1 & H2 & H3). split; [exact H1|]. split; [exact H2|].
  assert (H3' : resume_cfg s' = resume_cfg s).
  { destruct sig; try apply H3. destruct (resume_cfg s); apply H3. }
  split; [|auto]. destruct (match sig with Continue => resume_cfg s | _ => None end) as [c|].
  - destruct H3 as (T & D & R & _). rewrite A4 in T. split; [rewrite T; apply raw_prepared|]. split; [|exact R].
    intros n. now rewrite D, A5.
  - destruct H3 as (T & D & R & _). rewrite <- A4, <- A5. auto.
Qed.

Lemma raw_past C m t room s bad rest : inbuf s = bad ++ rest -> bad <> [] -> room = length bad ->
  read_raw C m room t s = Ret (with_inbuf rest (incap s) s) (Some (ERaw room), bad).
Proof.
  intros Hi Hb ->. unfold read_raw. destruct (inbuf s) as [|x r] eqn:E; [destruct bad; [congruence|discriminate]|].
  rewrite Hi, app_length, Nat.min_l by lia.
  rewrite skipn_app, skipn_all, Nat.sub_diag, firstn_app, firstn_all, Nat.sub_diag. cbn. now rewrite app_nil_r.
Qed.

Lemma bad_start : (forall c r, scalar c -> [255%N; 97%N] <> utf8 c ++ r) /\ ~ truncated_char [255%N; 97%N].
Proof.
  split.
  - intros c r Hc E. pose proof (validate_utf8 c r Hc) as H. rewrite <- E in H. discriminate H.
  - intros H. apply step_truncated in H. discriminate H.
Qed.
