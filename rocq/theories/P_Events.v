(** Proofs about the events a program can be told (C129). *)
From Verif Require Import Base M_Utf8 S_Utf8 M_Geom M_Seq S_Seq M_Signal M_Util M_Input S_Input P_Input P_Util M_Keys M_Writer M_Buf
  M_Prepare M_Reader S_Prepare S_Reader P_Prepare P_Reader M_WinWriter M_WinReader S_Events.
Local Open Scope N_scope.

(** ** Single events *)
Lemma char_told c : scalar c -> key_told ctrl_char (key_from_char c).
Proof.
  intros Hc. unfold key_from_char.
  destruct (N.eqb_spec c 0x1b); [exact I|]. destruct (N.eqb_spec c 0x7f); [exact I|].
  destruct ((c =? 13) || (c =? 10))%bool eqn:E; [exact I|]. destruct (N.eqb_spec c 9); [exact I|].
  destruct (is_ctrl c) eqn:Ec.
  - destruct (unctrl_range c Ec) as (_ & [H|H] & K); apply is_ctrl_spec in Ec; cbn [key_told]; unfold ctrl_char; rewrite H in *.
    + right. left. apply proj1 in K. specialize (K eq_refl). lia.
    + destruct (N.eq_dec c 0); [left; lia|]. right. right.
      assert (~ 1 <= c <= 26) by (intros Q; apply (proj2 K) in Q; lia). lia.
  - cbn. split; [exact Hc|]. pose proof (is_ctrl_spec c). split; [|assumption].
    destruct (N.le_gt_cases c 0x1f); [|lia]. intuition congruence.
Qed.

Lemma meaning_in caps q k : meaning caps q = Some k -> exists s, In (s, k) caps.
Proof.
  induction caps as [|[s k0] caps IH]; cbn [meaning]; [discriminate|].
  destruct (meaning caps q) as [k'|] eqn:E.
  - intros [= <-]. destruct (IH eq_refl) as (x & H). exists x. now right.
  - destruct s as [s|]; [|discriminate]. destruct (list_eq_dec _ _ _); [|discriminate]. destruct (forallb _ _); [|discriminate].
    intros [= <-]. exists (Some s). now left.
Qed.

Lemma keys_told info name m : terminal_sequences info name = Some m ->
  key_map m /\ forall q k, In (q, SKey k) (sm_sequences m) -> key_told ctrl_char k.
Proof.
  unfold terminal_sequences. intros H. set (caps := map _ key_caps) in H. destruct (sequences_map caps name) as (m' & E & K & HI).
  rewrite E in H. injection H as <-. split; [exact K|]. intros q k Hin. apply HI in Hin.
  assert (Q : meaning caps q = Some k).
  { destruct (is_xterm name); [destruct (list_eq_dec _ _ _); [discriminate|]|]; destruct (meaning caps q) as [x|]; cbn in Hin; congruence. }
  apply meaning_in in Q. destruct Q as (s & Q). unfold caps in Q. apply in_map_iff in Q. destruct Q as ([c k'] & Q1 & Q2). cbn in Q1.
  injection Q1 as _ <-. cbn in Q2. clear -Q2.
  repeat (destruct Q2 as [Q2|Q2]; [injection Q2 as _ <-; cbn; try exact I; lia|]). destruct Q2.
Qed.

Lemma decode_told_input b p : named_button (decode_input b p).
Proof.
  unfold decode_input. destruct (_ <=? 3) eqn:E3.
  - unfold mouse_button_event. set (x := N.land b _) in *. clearbody x.
    assert (Q : x = 0 \/ x = 1 \/ x = 2 \/ x = 3) by lia. destruct Q as [->|[->|[->| ->]]], p; cbn; try exact I; reflexivity.
  - destruct (_ =? 64); [exact I|]. destruct (_ =? 65); exact I.
Qed.

Lemma mods_bits a b c : modifiers (N.lor (N.lor (if a : bool then SHIFT else 0) (if b : bool then ALT else 0)) (if c : bool then CTRL else 0)).
Proof.
  intros i H. destruct (N.lt_ge_cases i 3) as [?|G]; [assumption|]. exfalso.
  rewrite !N.lor_spec in H.
  assert (Z : forall x, x < 8 -> N.testbit x i = false).
  { intros x Hx. destruct (N.eq_dec x 0) as [->|Nz]; [apply N.bits_0|]. apply N.bits_above_log2.
    assert (N.log2 x < 3) by (apply N.log2_lt_pow2; [lia|exact Hx]). lia. }
  rewrite !Z in H by (unfold SHIFT, ALT, CTRL; destruct a, b, c; lia). discriminate.
Qed.

Lemma decode_mods_told b : modifiers (decode_mods b).
Proof.
  rewrite decode_mods_code. unfold code_mods. pose proof (mods_bits (N.testbit b 2) (N.testbit b 3) (N.testbit b 4)) as H.
  destruct (N.testbit b 2), (N.testbit b 3), (N.testbit b 4); exact H.
Qed.

Lemma parse_mouse_told buf d n : parse_mouse_data buf = Val (Some (d, n)) -> named_button (minput d) /\ modifiers (mmods d).
Proof.
  intros E. pose proof (parse_mouse_inv buf) as H. rewrite E in H.
  destruct H as (a & b & c & f & r & -> & Ha & Hb & Hc & Hf & V1 & V2 & _). cbn [app] in E.
  pose proof (parse_mouse a b c f r Ha Hb Hc Hf) as Q. cbn [app] in Q. rewrite Q in E.
  destruct (_ || _)%bool; [discriminate|]. injection E as <- _. cbn [minput mmods].
  split; [apply decode_told_input|apply decode_mods_told].
Qed.

Lemma peek_told m buf e n : key_map m -> (forall q k, In (q, SKey k) (sm_sequences m) -> key_told ctrl_char k) ->
  peek_event buf m = Val (PEvent e n) -> forall before, event_told before e.
Proof.
  intros Hm Hk Hb before. destruct (char_or_not buf) as [(c & r & Hc & ->)|Hno].
  2:{ rewrite peek_nochar in Hb by exact Hno. destruct buf as [|b0 buf0]; [discriminate|].
      destruct (validate_step (b0 :: buf0)) as [|[]]; discriminate. }
  destruct (peek_char m c r Hm Hc) as [(_ & H)|[(q & k & Hl & H)|(q & Hl & H)]]; rewrite H in Hb.
  - injection Hb as <- _. cbn [event_told]. now apply char_told.
  - injection Hb as <- _. cbn [event_told]. apply (Hk q). apply Hl.
  - destruct (parse_mouse_data _) as [[[d k]|]|] eqn:E; try discriminate.
    + injection Hb as <- _. exact (parse_mouse_told _ _ _ E).
    + injection Hb as <- _. cbn [event_told]. now apply char_told.
Qed.

(** ** The signals asked for *)
Definition wanted (P : signal -> Prop) (s : sys) : Prop :=
  (forall sig, ss_contains (report s) sig = true -> P sig) /\
  (forall cfg sig, resume_cfg s = Some cfg -> ss_contains (report_signals cfg) sig = true -> P sig).

Lemma wanted_steady P s s' : resume_cfg s' = resume_cfg s -> report s' = report s -> wanted P s -> wanted P s'.
Proof. intros H1 H2 [A B]. split; [rewrite H2|rewrite H1]; assumption. Qed.

Lemma wanted_more (P Q : signal -> Prop) s : (forall x, P x -> Q x) -> wanted P s -> wanted Q s.
Proof. intros H [A B]. split; eauto. Qed.

Section Wanted.
  Variables (C : tcfg) (m : seq_map) (P : signal -> Prop).

  Lemma prepare_wanted cfg s : wanted P s -> (forall sig, ss_contains (report_signals cfg) sig = true -> P sig) ->
    ends (wanted P) (fun s' _ => wanted P s') (prepare C cfg s).
  Proof.
    intros H Hc. unfold prepare. apply guard_ends; [intros w s' Q; exact Q|intros w s' _ Q; exact Q|].
    unfold prepare_with_lock. eapply ends_bind with (Q := fun s' _ => wanted P s').
    { unfold tcgetattr. apply os_call_ends; intros l; exact H. }
    intros s1 t1 H1. eapply ends_bind with (Q := fun s' _ => wanted P s').
    { unfold tcsetattr. apply os_call_ends; intros l; exact H1. }
    intros s2 t2 H2. eapply ends_bind with (Q := fun s' _ => wanted P s').
    { destruct (cfg_mouse cfg); [apply on_wr_ends; intros; exact H2|exact H2]. }
    intros s3 t3 H3. eapply ends_bind with (Q := fun s' _ => wanted P s').
    { destruct (cfg_keypad cfg); [apply on_wr_ends; intros; exact H3|exact H3]. }
    intros s4 t4 H4. eapply ends_bind with (Q := fun s' _ => wanted P s').
    { apply on_wr_ends; intros; exact H4. }
    assert (Hi : forall b n s', wanted P s' -> ends (wanted P) (fun s' _ => wanted P s') (install b n s')).
    { intros b n s' Q. unfold install. destruct b; [|exact Q]. eapply ends_bind with (Q := fun s' _ => wanted P s').
      - unfold sigaction. apply os_call_ends; intros l; exact Q.
      - intros; assumption. }
    intros s5 t5 H5. eapply ends_bind; [apply Hi, H5|].
    intros s6 t6 H6. eapply ends_bind; [apply Hi, H6|].
    intros s7 t7 H7. eapply ends_bind; [apply Hi, H7|].
    intros s8 t8 H8. eapply ends_bind; [apply Hi, H8|].
    intros s9 t9 H9. eapply ends_bind; [apply Hi, H9|].
    intros s10 t10 H10. cbn [ends]. split; cbn; [exact Hc|]. intros cfg' sig [= <-]. apply Hc.
  Qed.

  Lemma restore_wanted st s : wanted P s ->
    (forall cfg sig, prev_resume st = Some cfg -> ss_contains (report_signals cfg) sig = true -> P sig) ->
    ends (wanted P) (fun s' _ => wanted P s') (restore C st s).
  Proof.
    intros H Hc. unfold restore. apply guard_ends; [intros w s' Q; exact Q|intros w s' _ Q; exact Q|].
    unfold restore_with_lock. set (s0 := with_resume (prev_resume st) s).
    assert (H0 : wanted P s0) by (split; [apply H|exact Hc]). clearbody s0.
    assert (Hput : forall n o s', wanted P s' -> ends (wanted P) (fun s' _ => wanted P s') (put_back n o s')).
    { intros n o s' Q. unfold put_back. destruct o; [|exact Q]. eapply ends_bind with (Q := fun s' _ => wanted P s').
      - unfold sigaction. apply os_call_ends; intros l; exact Q.
      - intros; assumption. }
    eapply ends_bind with (Q := fun s' _ => wanted P s').
    { destruct (restore_mouse st); [apply on_wr_ends; intros; exact H0|exact H0]. }
    intros s1 a1 H1. eapply ends_bind with (Q := fun s' _ => wanted P s').
    { destruct (restore_keypad st); [apply on_wr_ends; intros; exact H1|exact H1]. }
    intros s2 a2 H2. eapply ends_bind with (Q := fun s' _ => wanted P s').
    { apply on_wr_ends; intros; exact H2. }
    intros s3 a3 H3. eapply ends_bind with (Q := fun s' _ => wanted P s').
    { unfold tcsetattr. apply os_call_ends; intros l; exact H3. }
    intros s4 a4 H4. eapply ends_bind; [apply Hput, H4|].
    intros s5 a5 H5. eapply ends_bind; [apply Hput, H5|].
    intros s6 a6 H6. eapply ends_bind; [apply Hput, H6|].
    intros s7 a7 H7. eapply ends_bind; [apply Hput, H7|].
    intros s8 a8 H8. apply Hput, H8.
  Qed.

  (** What a signal may be told as. *)
  Definition signal_told (e : option event) : Prop :=
    match e with
    | None | Some (EResize _) => True
    | Some (ESignal sig) => sig <> Resize /\ P sig
    | _ => False
    end.

  Lemma handle_wanted sig s : wanted P s ->
    ends (wanted P) (fun s' e => wanted P s' /\ signal_told e) (handle_signal C sig s).
  Proof.
    intros H.
    assert (Hr : forall s', sig <> Resize -> wanted P s' -> ends (wanted P) (fun s' e => wanted P s' /\ signal_told e) (report_signal sig s')).
    { intros s' Hn Q. unfold report_signal. destruct (ss_contains (report s') sig) eqn:E; cbn [ends signal_told]; (split; [exact Q|]); [|exact I].
      split; [exact Hn|]. now apply Q. }
    destruct sig; cbn [handle_signal]; try (apply Hr; [discriminate|exact H]).
    - eapply ends_bind with (Q := fun s' _ => wanted P s'); [|intros s' u Q; apply Hr; [discriminate|exact Q]].
      unfold resume. destruct (resume_cfg s) as [cfg|] eqn:E; [|exact H].
      eapply ends_bind with (Q := fun s' _ => wanted P s'); [apply prepare_wanted; [exact H|intros sg; apply (proj2 H cfg sg E)]|]. intros s' u Q. exact Q.
    - eapply ends_bind with (Q := fun s' _ => wanted P s').
      + unfold term_size. apply guard_ends; [intros w s' Q; exact Q|intros w s' _ Q; exact Q|]. destruct (win s); exact H.
      + intros s' z Q. cbn [ends signal_told]. auto.
  Qed.

  Hypothesis Hm : key_map m.
  Hypothesis Hk : forall q k, In (q, SKey k) (sm_sequences m) -> key_told ctrl_char k.

  Definition read_told (e : option event) : Prop :=
    match e with
    | None => True
    | Some (ESignal sig) => sig <> Resize /\ P sig
    | Some e => event_told [] e
    end.

  Lemma try_told s : wanted P s -> ends (wanted P) (fun s' e => wanted P s' /\ read_told e) (try_read m s).
  Proof.
    intros H. eapply ends_weak; [apply (try_read_ends m Hm)| |].
    - intros s' ->. exact H.
    - intros s' e (A & _ & B). split; [apply (wanted_steady P s); [apply A|apply A|exact H]|].
      destruct e as [e|]; [|exact I]. destruct B as (used & _ & B). pose proof (peek_told m _ _ _ Hm Hk B []) as Q.
      pose proof (peek_kind m _ _ _ B) as F. destruct e; try exact Q. destruct F.
  Qed.

  Lemma read_event_told t s : wanted P s -> ends (wanted P) (fun s' e => wanted P s' /\ read_told e) (read_event C m t s).
  Proof.
    intros H. unfold read_event. eapply ends_bind; [apply try_told, H|]. intros s1 [e|] [H1 T1]; [split; assumption|].
    eapply ends_bind with (Q := fun s' _ => wanted P s').
    { eapply ends_weak; [apply into_buffer_ends| |].
      - intros s' (A & _). apply (wanted_steady P s1); [apply A|apply A|exact H1].
      - intros s' r (A & _). apply (wanted_steady P s1); [apply A|apply A|exact H1]. }
    intros s2 [[sig|bs]|] H2.
    - eapply ends_weak; [apply handle_wanted, H2|intros; assumption|]. intros s' e [A B]. split; [exact A|]. destruct e as [[]|]; cbn in *; tauto.
    - apply try_told, H2.
    - cbn. auto.
  Qed.

  Definition bytes_told (room : nat) (x : option event * bytes) : Prop :=
    match fst x with
    | None => True
    | Some (ERaw n) => n = length (snd x) /\ (n <= room)%nat
    | Some (EResize _) => snd x = []
    | Some (ESignal sig) => snd x = [] /\ sig <> Resize /\ P sig
    | Some _ => False
    end.

  Definition room_for (room : nat) (r : option input) : Prop :=
    match r with Some (IRaw bs) => (length bs <= room)%nat | _ => True end.

  Lemma os_read_room room s : match snd (os_read room s) with GBytes bs => (length bs <= room)%nat | _ => True end.
  Proof.
    unfold os_read. set (ms := if never_waits _ then _ else _).
    destruct (await ms (time (advance s)) (advance s)) as [s1 w]. destruct w; cbn [snd]; try exact I; try (cbn; lia).
    unfold take_queue. destruct (queue s1) as [|bs q]; cbn [snd]; [cbn; lia|].
    destruct (length bs <=? room)%nat eqn:E; cbn [snd]; [apply Nat.leb_le in E; exact E|]. rewrite firstn_length. lia.
  Qed.

  Lemma read_loop_room fuel room : forall s, match read_loop fuel room s with Ret _ r => room_for room r | _ => True end.
  Proof.
    induction fuel as [|fuel IH]; intros s; cbn [read_loop]; [exact I|].
    pose proof (os_read_room room s) as H. destruct (os_read room s) as [s1 g]. cbn [snd] in H.
    assert (Hi : match (let '(s2, sig) := take_signal s1 in match sig with Some sig => Ret s2 (Some (ISignal sig)) | None => read_loop fuel room s2 end)
                 with Ret _ r => room_for room r | _ => True end).
    { destruct (take_signal s1) as [s2 [sig|]]; [exact I|apply IH]. }
    destruct g; [exact H|exact Hi|destruct (e =? EINTR); [exact Hi|exact I]|exact I].
  Qed.

  Lemma read_input_room room t s : match read_input m room t s with Ret _ r => room_for room r | _ => True end.
  Proof.
    unfold read_input. destruct (take_signal s) as [s1 [sig|]]; [exact I|].
    destruct (wait_event m t s1) as [s2 ready| | |]; cbn [obind]; try exact I. destruct ready; cbn [negb]; [|exact I].
    destruct (take_signal s2) as [s3 [sig|]]; [exact I|]. apply read_loop_room.
  Qed.

  Lemma read_raw_told room t s : wanted P s -> ends (wanted P) (fun s' x => wanted P s' /\ bytes_told room x) (read_raw C m room t s).
  Proof.
    intros H. unfold read_raw. destruct (inbuf s) as [|b bs] eqn:Eb.
    - pose proof (read_input_ends m room t s) as I1. pose proof (read_input_room room t s) as I2.
      destruct (read_input m room t s) as [s1 r|s1 e| |]; cbn [obind ends] in *; try exact I.
      + assert (H1 : wanted P s1) by (apply (wanted_steady P s); [apply I1|apply I1|exact H]).
        destruct r as [[sig|x]|].
        * eapply ends_bind; [apply handle_wanted, H1|]. intros s2 e [A B]. cbn [ends fst snd]. split; [exact A|].
          destruct e as [[]|]; cbn in *; tauto.
        * cbn [ends fst snd]. split; [exact H1|]. cbn in I2 |- *. auto.
        * cbn [ends]. split; [exact H1|exact I].
      + apply (wanted_steady P s); [apply I1|apply I1|exact H].
    - rewrite <- Eb. cbn [ends]. split; [exact H|]. unfold bytes_told. cbn [fst snd]. rewrite firstn_length. split; lia.
  Qed.
End Wanted.

Lemma step_told C m o s s' r before : key_map m -> (forall q k, In (q, SKey k) (sm_sequences m) -> key_told ctrl_char k) ->
  wanted (asked before) s -> rstep C m o s = Some (s', r) ->
  wanted (asked (before ++ [o])) s' /\
  match o, r with
  | RRead _, YEvent (Some e) => event_told before e
  | RRaw room _, YRaw (Some e) bs => raw_told before room e bs
  | _, _ => True
  end.
Proof.
  intros Hm Hk H. assert (More : forall x, asked before x -> asked (before ++ [o]) x).
  { intros x (cfg & A & B). exists cfg. split; [|exact B]. destruct A as [A|(st & A & D)]; [left|right; exists st; split; [|exact D]];
      apply in_or_app; now left. }
  destruct o as [t|t|n t|cfg|st]; cbn [rstep]; unfold ret.
  - pose proof (wait_event_ends m t s) as K. destruct (wait_event m t s) as [s1 b|s1 e| |]; try discriminate; intros [= <- <-]; cbn [ends] in K;
      (split; [|exact I]); eapply wanted_more, wanted_steady, H; try exact More; apply K.
  - pose proof (read_event_told C m (asked before) Hm Hk t s H) as K. destruct (read_event C m t s) as [s1 b|s1 e| |]; try discriminate;
      intros [= <- <-]; cbn [ends] in K; [destruct K as [K K2]|]; (split; [exact (wanted_more _ _ _ More K)|]); [|exact I].
    destruct b as [[]|]; cbn in *; tauto.
  - pose proof (read_raw_told C m (asked before) Hk n t s H) as K. destruct (read_raw C m n t s) as [s1 b|s1 e| |]; try discriminate;
      intros [= <- <-]; cbn [ends] in K; [destruct K as [K K2]|]; (split; [exact (wanted_more _ _ _ More K)|]); [|exact I].
    destruct b as [[[]|] bs]; cbn in *; tauto.
  - assert (K : ends (wanted (asked (before ++ [RPrepare cfg]))) (fun s' _ => wanted (asked (before ++ [RPrepare cfg])) s') (prepare C cfg s)).
    { apply prepare_wanted; [exact (wanted_more _ _ _ More H)|]. intros sig Q. exists cfg. split; [left|exact Q]. apply in_or_app. right. now left. }
    destruct (prepare C cfg s) as [s1 b|s1 e| |]; try discriminate; intros [= <- <-]; (split; [exact K|exact I]).
  - assert (K : ends (wanted (asked (before ++ [RRestore st]))) (fun s' _ => wanted (asked (before ++ [RRestore st])) s') (restore C st s)).
    { apply restore_wanted; [exact (wanted_more _ _ _ More H)|]. intros cfg sig Q1 Q2. exists cfg. split; [right; exists st; split; [|exact Q1]|exact Q2].
      apply in_or_app. right. now left. }
    destruct (restore C st s) as [s1 b|s1 e| |]; try discriminate; intros [= <- <-]; (split; [exact K|exact I]).
Qed.

Lemma run_told C m : key_map m -> (forall q k, In (q, SKey k) (sm_sequences m) -> key_told ctrl_char k) ->
  forall ops before s s' rs, wanted (asked before) s -> rrun C m ops s = Some (s', rs) ->
  forall i,
    (forall t e, nth_error ops i = Some (RRead t) -> nth_error rs i = Some (YEvent (Some e)) -> event_told (before ++ firstn i ops) e) /\
    (forall room t e bs, nth_error ops i = Some (RRaw room t) -> nth_error rs i = Some (YRaw (Some e) bs) ->
       raw_told (before ++ firstn i ops) room e bs).
Proof.
  intros Hm Hk. induction ops as [|o ops IH]; intros before s s' rs H; cbn [rrun].
  - intros [= <- <-] i. split; intros; destruct i; discriminate.
  - destruct (rstep C m o s) as [[s1 r]|] eqn:E; [|discriminate].
    destruct (rrun C m ops s1) as [[s2 rs2]|] eqn:E2; [|discriminate]. intros [= <- <-].
    destruct (step_told C m o s s1 r before Hm Hk H E) as [H1 T]. intros [|i]; cbn [nth_error firstn].
    + rewrite app_nil_r. split; [intros t e [= ->] [= ->]; exact T|intros room t e bs [= ->] [= ->]; exact T].
    + destruct (IH (before ++ [o]) s1 s2 rs2 H1 E2 i) as [A B]. rewrite <- app_assoc in A, B. cbn [app] in A, B. split; assumption.
Qed.

Lemma events_told C info name m : terminal_sequences info name = Some m ->
  forall ops s s' rs, report s = ss_new -> resume_cfg s = None -> rrun C m ops s = Some (s', rs) ->
  forall i,
    (forall t e, nth_error ops i = Some (RRead t) -> nth_error rs i = Some (YEvent (Some e)) -> event_told (firstn i ops) e) /\
    (forall room t e bs, nth_error ops i = Some (RRaw room t) -> nth_error rs i = Some (YRaw (Some e) bs) -> raw_told (firstn i ops) room e bs).
Proof.
  intros H ops s s' rs H1 H2 HR. destruct (keys_told info name m H) as [Hm Hk].
  apply (run_told C m Hm Hk ops [] s s' rs); [|exact HR]. split.
  - rewrite H1. intros sig Q. destruct sig; discriminate Q.
  - rewrite H2. discriminate.
Qed.
