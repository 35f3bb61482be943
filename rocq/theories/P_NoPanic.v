(** Proofs about panics of a Unix screen (C107): the sizes of the window. *)
From Verif Require Import Base M_Utf8 M_Geom M_Attr M_Buf S_Buf M_Seq M_Signal M_Util M_Input S_Input P_Input M_Writer S_Tty S_Writer P_Writer P_Writer2
  M_Screen M_Prepare M_Reader S_Prepare S_Reader P_Prepare P_Prepare2 P_Reader P_Reader3 M_UnixScreen S_UnixScreen P_UnixScreen P_UnixScreen2
  S_Overrun S_NoPanic.
Local Open Scope nat_scope.

Section Windows.
  Variables (C : tcfg) (m : seq_map) (ok : size -> Prop).
  Definition sees (s : sys) : Prop := forall z, window_size s z -> ok z.
  Definition resize_ok (e : option event) : Prop := forall z, e = Some (EResize z) -> ok z.

  Lemma sees_same s s' : win s' = win s -> time s' = time s -> sees s -> sees s'.
  Proof. unfold sees, window_size. intros -> ->. auto. Qed.
  Lemma pass_sees l : forall s, (forall z, win s = inr z \/ In (TWin (inr z)) l -> ok z) -> sees (pass l s).
  Proof.
    induction l as [|t l IH]; intros s H; cbn [pass].
    - intros z [Hz|[]]. apply H. now left.
    - assert (Hh : forall z, win (happens t s) = inr z \/ In (TWin (inr z)) l -> ok z).
      { intros z [Hz|Hz]; [|apply H; right; now right]. destruct t; cbn [happens] in Hz; try (apply H; now left).
        - destruct (disp s n); apply H; now left.
        - cbn in Hz. subst r. apply H. right. now left. }
      destruct t; try (now apply IH). intros z [Hz|Hz]; apply H; [now left|right; now right].
  Qed.
  Lemma advance_sees s : sees s -> sees (advance s).
  Proof. intros H. now apply pass_sees. Qed.
  Lemma await_sees ms l : forall s, (forall z, win s = inr z \/ In (TWin (inr z)) l -> ok z) -> sees (fst (await ms l s)).
  Proof.
    induction l as [|t l IH]; intros s H; cbn [await].
    - destruct (failing s); [exact H|]. destruct (queue s); [|exact H].
      destruct (match ms with Some 0%N => true | _ => false end); exact H.
    - destruct (failing s); [exact H|]. destruct (queue s); [|exact H].
      destruct (match ms with Some 0%N => true | _ => false end); [exact H|].
      assert (Ht : forall z, win s = inr z \/ In (TWin (inr z)) l -> ok z) by (intros z [Hz|Hz]; apply H; [now left|right; now right]).
      assert (Hh : forall z, win (happens t s) = inr z \/ In (TWin (inr z)) l -> ok z).
      { intros z [Hz|Hz]; [|apply Ht; now right]. destruct t; cbn [happens] in Hz; try (apply Ht; now left).
        - destruct (disp s n); apply Ht; now left.
        - cbn in Hz. subst r. apply H. right. now left. }
      destruct t; try (now apply IH).
      + destruct (disp s n); [exact Ht|now apply IH].
      + exact Ht.
      + destruct ms; [exact Ht|now apply IH].
  Qed.
  Lemma select_sees ms s : sees s -> sees (fst (select ms s)).
  Proof. intros H. apply await_sees. exact (advance_sees s H). Qed.
  Lemma os_read_sees room s : sees s -> sees (fst (os_read room s)).
  Proof.
    intros H. apply advance_sees in H. unfold os_read. set (ms := if never_waits _ then _ else _).
    pose proof (await_sees ms (time (advance s)) (advance s) H) as A.
    destruct (await ms (time (advance s)) (advance s)) as [s1 w]. cbn [fst] in A.
    destruct w; cbn [fst]; try exact A. unfold take_queue. destruct (queue s1) as [|bs q]; [exact A|]. destruct (_ <=? _); exact A.
  Qed.
  Lemma signal_sees s : sees s -> sees (fst (get_signal s)) /\ sees (fst (take_signal s)).
  Proof. intros H. apply advance_sees in H. split; exact H. Qed.

  Lemma wait_loop_sees fuel ms : forall s, sees s -> ends sees (fun s' _ => sees s') (wait_loop fuel ms s).
  Proof.
    induction fuel as [|fuel IH]; intros s Hs; cbn [wait_loop]; [exact I|].
    pose proof (select_sees ms s Hs) as H. destruct (select ms s) as [s1 w]. cbn [fst] in H.
    assert (Hi : ends sees (fun s' _ => sees s')
     (let '(s2, sig) := get_signal s1 in match sig with Some _ => Ret s2 true | None => wait_loop fuel ms s2 end)).
    { unfold get_signal. pose proof (advance_sees s1 H) as H2. destruct (conv_signal _); [exact H2|now apply IH]. }
    destruct w; try exact H; try exact I; try exact Hi. destruct (e =? EINTR)%N; [exact Hi|exact H].
  Qed.
  Lemma wait_sees t s : sees s -> ends sees (fun s' _ => sees s') (wait_event m t s).
  Proof.
    intros Hs. unfold wait_event, get_signal. pose proof (advance_sees s Hs) as H. destruct (conv_signal _); [exact H|].
    unfold peek. destruct (peek_event _ m) as [[| |e n]|]; cbn [obind ends]; try exact H; try exact I.
    destruct t as [d|]; [destruct (to_timeval d); [|exact I]|]; now apply wait_loop_sees.
  Qed.
  Lemma read_loop_sees fuel room : forall s, sees s -> ends sees (fun s' _ => sees s') (read_loop fuel room s).
  Proof.
    induction fuel as [|fuel IH]; intros s Hs; cbn [read_loop]; [exact I|].
    pose proof (os_read_sees room s Hs) as H. destruct (os_read room s) as [s1 g]. cbn [fst] in H.
    assert (Hi : ends sees (fun s' _ => sees s')
      (let '(s2, sig) := take_signal s1 in match sig with Some sig => Ret s2 (Some (ISignal sig)) | None => read_loop fuel room s2 end)).
    { unfold take_signal. pose proof (advance_sees s1 H) as H2. destruct (conv_signal _); [exact H2|]. now apply IH. }
    destruct g; try exact I; try exact Hi; [exact H|]. destruct (e =? EINTR)%N; [exact Hi|exact H].
  Qed.
  Lemma read_input_sees room t s : sees s -> ends sees (fun s' _ => sees s') (read_input m room t s).
  Proof.
    intros Hs. unfold read_input, take_signal. pose proof (advance_sees s Hs) as H. destruct (conv_signal _); [exact H|].
    eapply ends_bind; [apply wait_sees; exact H|]. intros s2 ready H2. cbn beta in H2. destruct ready; cbn [negb]; [|exact H2].
    pose proof (advance_sees s2 H2) as H3. destruct (conv_signal _); [exact H3|]. now apply read_loop_sees.
  Qed.

  (** Preparing the terminal again does not change them. *)
  Definition same_win (s s' : sys) : Prop := win s' = win s /\ time s' = time s.
  Lemma same_win_refl s : same_win s s. Proof. split; reflexivity. Qed.
  Lemma win_bind {A B} s (r : rres A) (k : sys -> A -> rres B) : ends (same_win s) (fun s' _ => same_win s s') r ->
    (forall s' a, ends (same_win s') (fun s'' _ => same_win s' s'') (k s' a)) -> ends (same_win s) (fun s' _ => same_win s s') (obind r k).
  Proof.
    intros H1 H2. eapply ends_bind; [exact H1|]. intros s1 a [E1 E2]. eapply ends_weak; [apply (H2 s1 a)| |];
      intros; unfold same_win in *; intuition congruence.
  Qed.
  Lemma win_on {A} (f : wst -> out wst werr A) s : ends (same_win s) (fun s' _ => same_win s s') (on_wr f s).
  Proof. unfold on_wr. destruct (f (M_Prepare.wr s)); cbn; auto using same_win_refl; split; reflexivity. Qed.
  Lemma win_guard {A} (f : sys -> rres A) s : ends (same_win s) (fun s' _ => same_win s s') (f s) ->
    ends (same_win s) (fun s' _ => same_win s s') (with_guard f s).
  Proof. apply guard_ends; auto. Qed.
  Lemma win_os {A} (g : sys -> rres A) s : (forall l, ends (same_win s) (fun s' _ => same_win s s') (g (with_os l s))) ->
    ends (same_win s) (fun s' _ => same_win s s') (os_call g s).
  Proof. apply os_call_ends. intros l. split; reflexivity. Qed.
  Lemma win_install b n s : ends (same_win s) (fun s' _ => same_win s s') (install b n s).
  Proof.
    unfold install. destruct b; [|apply same_win_refl]. apply win_bind; [|intros; apply same_win_refl].
    unfold sigaction. apply win_os. intros l. split; reflexivity.
  Qed.
  Lemma win_prepare cfg s : ends (same_win s) (fun s' _ => same_win s s') (prepare C cfg s).
  Proof.
    unfold prepare. apply win_guard. unfold prepare_with_lock.
    apply win_bind; [apply win_os; intros l; split; reflexivity|]. intros s1 old.
    apply win_bind; [apply win_os; intros l; split; reflexivity|]. intros s2 u.
    apply win_bind; [destruct (cfg_mouse cfg); [apply win_on|apply same_win_refl]|]. intros s3 mo.
    apply win_bind; [destruct (cfg_keypad cfg); [apply win_on|apply same_win_refl]|]. intros s4 kp.
    apply win_bind; [apply win_on|]. intros s5 u5.
    apply win_bind; [apply win_install|]. intros s6 o1.
    apply win_bind; [apply win_install|]. intros s7 o2.
    apply win_bind; [apply win_install|]. intros s8 o3.
    apply win_bind; [apply win_install|]. intros s9 o4.
    apply win_bind; [apply win_install|]. intros s10 o5. split; reflexivity.
  Qed.

  Lemma handle_sees sig s : sees s -> ends sees (fun s' e => sees s' /\ resize_ok e) (handle_signal C sig s).
  Proof.
    intros H.
    assert (Hr : forall k z, sees z -> ends sees (fun s' e => sees s' /\ resize_ok e) (report_signal k z)).
    { intros k z Hz. unfold report_signal. destruct (ss_contains _ _); (split; [exact Hz|]); intros y; discriminate. }
    destruct sig; cbn [handle_signal]; try (now apply Hr).
    - eapply ends_bind with (Q := fun s' _ => sees s'); [|intros; now apply Hr]. unfold resume. destruct (resume_cfg s) as [cfg|]; [|exact H].
      pose proof (win_prepare cfg s) as P. destruct (prepare C cfg s) as [s1 st|s1 e| |]; cbn [ends obind] in *; auto;
        destruct P as [P1 P2]; exact (sees_same s _ P1 P2 H).
    - eapply ends_bind with (Q := fun s' z => sees s' /\ ok z); [|intros s1 z [H1 H2]; split; [exact H1|]; intros y [= <-]; exact H2].
      unfold term_size. apply guard_ends; [intros w s1 H1; exact H1|intros w s1 a H1; exact H1|].
      destruct (win s) as [e|z] eqn:Ew; [exact H|]. split; [exact H|]. apply H. now left.
  Qed.
  Lemma try_sees s : key_map m -> sees s -> ends sees (fun s' e => sees s' /\ resize_ok e) (try_read m s).
  Proof.
    intros Hm H. unfold try_read. destruct (inbuf s); [split; [exact H|intros z; discriminate]|].
    unfold peek. destruct (peek_event (inbuf s) m) as [[| |e n0]|] eqn:Ep; cbn [obind ends]; try exact H; try exact I.
    - split; [exact H|intros z; discriminate].
    - split; [exact H|]. intros z [= ->]. apply peek_kind in Ep. destruct Ep.
  Qed.
  Lemma into_buffer_sees t s : sees s -> ends sees (fun s' _ => sees s') (read_into_buffer C m t s).
  Proof.
    intros H. unfold read_into_buffer. set (cap := if (_ <=? _) then incap s else _).
    pose proof (read_input_sees (cap - length (inbuf s)) t (with_inbuf [] 0 s) H) as R.
    destruct (read_input m (cap - length (inbuf s)) t (with_inbuf [] 0 s)) as [s1 r|s1 e| |]; cbn [ends] in *; auto.
    destruct r as [[sig|bs]|]; exact R.
  Qed.
  Lemma read_sees t s : key_map m -> sees s -> ends sees (fun s' e => sees s' /\ resize_ok e) (read_event C m t s).
  Proof.
    intros Hm H. unfold read_event. eapply ends_bind; [now apply try_sees|]. intros s1 e [H1 H2]. destruct e; [split; auto|].
    eapply ends_bind; [now apply into_buffer_sees|]. intros s2 r H3. cbn beta in H3.
    destruct r as [[sig|bs]|]; [now apply handle_sees|now apply try_sees|]. split; [exact H3|intros z; discriminate].
  Qed.
  Lemma raw_sees room t s : sees s -> ends sees (fun s' e => sees s' /\ resize_ok (fst e)) (read_raw C m room t s).
  Proof.
    intros H. unfold read_raw. destruct (inbuf s) as [|b bs].
    - eapply ends_bind; [now apply read_input_sees|]. intros s2 r H3. cbn beta in H3.
      destruct r as [[sig|x]|]; [|split; [exact H3|intros z; discriminate]|split; [exact H3|intros z; discriminate]].
      eapply ends_bind; [now apply handle_sees|]. intros s4 e [H4 H5]. split; auto.
    - split; [exact H|intros z; discriminate].
  Qed.
End Windows.

(** ** The device *)
Section Device.
  Variables (C : tcfg) (m : seq_map).
  Definition whole_out (s : sys) : Prop := whole_writes (script (M_Prepare.wr s)).
  Lemma sound_ends {A} (r : rres A) : sound r -> ends whole_out (fun s' _ => whole_out s') r.
  Proof. destruct r; cbn; auto. Qed.
  Lemma flows_whole {A} s (r : rres A) (Q : sys -> A -> Prop) : whole_out s -> (forall s' a, Q s' a -> passive s s') ->
    ends (flows s) Q r -> ends whole_out (fun s' _ => whole_out s') r.
  Proof.
    intros H HQ Hr. eapply ends_weak; [exact Hr| |].
    - intros s' [(_ & _ & W & _) _]. unfold whole_out. now rewrite W.
    - intros s' a Ha. apply HQ in Ha. destruct Ha as (_ & _ & W & _). unfold whole_out. now rewrite W.
  Qed.
  Lemma wait_whole t s : whole_out s -> ends whole_out (fun s' _ => whole_out s') (wait_event m t s).
  Proof. intros H. eapply flows_whole; [exact H| |apply wait_event_ends]. intros s' a Ha. apply Ha. Qed.
  Lemma input_whole room t s : whole_out s -> ends whole_out (fun s' _ => whole_out s') (read_input m room t s).
  Proof. intros H. eapply flows_whole; [exact H| |apply read_input_ends]. intros s' a Ha. apply Ha. Qed.
  Lemma try_whole s : whole_out s -> ends whole_out (fun s' _ => whole_out s') (try_read m s).
  Proof.
    intros H. unfold try_read. destruct (inbuf s); [exact H|]. unfold peek.
    destruct (peek_event (inbuf s) m) as [[| |e n0]|]; cbn [obind ends]; try exact H; exact I.
  Qed.
  Lemma read_whole t s : whole_out s -> ends whole_out (fun s' _ => whole_out s') (read_event C m t s).
  Proof.
    intros H. unfold read_event. eapply ends_bind; [now apply try_whole|]. intros s1 e H1. cbn beta in H1. destruct e; [exact H1|].
    eapply ends_bind with (Q := fun s' _ => whole_out s').
    { unfold read_into_buffer. set (cap := if (_ <=? _) then incap s1 else _).
      pose proof (input_whole (cap - length (inbuf s1)) t (with_inbuf [] 0 s1) H1) as R.
      destruct (read_input m (cap - length (inbuf s1)) t (with_inbuf [] 0 s1)) as [s2 r|s2 e| |]; cbn [ends] in *; auto.
      destruct r as [[sig|bs]|]; exact R. }
    intros s2 r H2. cbn beta in H2. destruct r as [[sig|bs]|]; [|now apply try_whole|exact H2].
    apply sound_ends. now apply sound_handle.
  Qed.
  Lemma raw_whole room t s : whole_out s -> ends whole_out (fun s' _ => whole_out s') (read_raw C m room t s).
  Proof.
    intros H. unfold read_raw. destruct (inbuf s) as [|b bs]; [|exact H].
    eapply ends_bind; [now apply input_whole|]. intros s2 r H2. cbn beta in H2.
    destruct r as [[sig|x]|]; [|exact H2|exact H2].
    eapply ends_bind; [apply sound_ends; now apply sound_handle|]. intros s3 e H3. exact H3.
  Qed.
  Lemma raw_panic room t s : whole_out s -> read_raw C m room t s = Panic -> overflows t.
  Proof.
    intros H. unfold read_raw. destruct (inbuf s) as [|b bs] eqn:Ei; [|discriminate].
    pose proof (input_whole room t s H) as W.
    destruct (read_input m room t s) as [s2 r|s2 e| |] eqn:Er; cbn [obind ends] in *; try discriminate.
    - destruct r as [[sig|x]|]; try discriminate. pose proof (sound_handle C sig s2 W) as S.
      destruct (handle_signal C sig s2); cbn [obind sound] in *; try discriminate. contradiction.
    - intros _. now apply (read_input_panic m room t s).
  Qed.
End Device.
