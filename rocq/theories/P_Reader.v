(** Proofs about reading from a terminal. *)
From Verif Require Import Base M_Utf8 S_Utf8 P_Utf8 M_Geom M_Seq S_Seq M_Signal M_Util M_Input S_Input P_Input
  M_Writer M_Prepare M_Reader S_Prepare S_Reader P_Prepare.
Local Open Scope nat_scope.

(** ** The passing of time *)
Definition passive (s s' : sys) : Prop :=
  resume_cfg s' = resume_cfg s /\ report s' = report s /\ wr s' = wr s /\ tio s' = tio s /\ disp s' = disp s /\
  os s' = os s /\ inbuf s' = inbuf s /\ incap s' = incap s.

Lemma passive_refl s : passive s s. Proof. unfold passive. auto 10. Qed.
Lemma passive_trans a b c : passive a b -> passive b c -> passive a c.
Proof.
  intros (A1 & A2 & A3 & A4 & A5 & A6 & A7 & A8) (B1 & B2 & B3 & B4 & B5 & B6 & B7 & B8).
  unfold passive. repeat split; congruence.
Qed.

Ltac pas := unfold passive; repeat split; reflexivity.

Definition pend (l : list tick) (s : sys) : bytes := concat (queue s) ++ concat (inputs l).

Lemma happens_passive t s : passive s (happens t s).
Proof. destruct t; cbn; try pas. destruct (disp s n); pas. Qed.

Lemma happens_pend t l s : pend l (happens t s) = pend (t :: l) s.
Proof.
  unfold pend. destruct t; cbn [happens inputs]; try reflexivity.
  - destruct (disp s n); reflexivity.
  - cbn. rewrite concat_app. cbn. rewrite app_nil_r, <- app_assoc. reflexivity.
Qed.

Lemma pass_spec l : forall s, passive s (pass l s) /\ pending (pass l s) = pend l s.
Proof.
  induction l as [|t l IH]; intros s; [split; [pas|reflexivity]|].
  assert (H : t = TStep \/ pass (t :: l) s = pass l (happens t s)) by (destruct t; auto).
  destruct H as [->| ->].
  - split; [pas|reflexivity].
  - destruct (IH (happens t s)) as [H1 H2]. split.
    + eapply passive_trans; [apply happens_passive|exact H1].
    + rewrite H2. apply happens_pend.
Qed.

Lemma advance_spec s : passive s (advance s) /\ pending (advance s) = pending s.
Proof. apply pass_spec. Qed.

Lemma await_spec ms l : forall s, passive s (fst (await ms l s)) /\ pending (fst (await ms l s)) = pend l s.
Proof.
  induction l as [|t l IH]; intros s; unfold await; fold await;
    (destruct (failing s); [split; [pas|reflexivity]|]);
    (destruct (queue s) eqn:Eq; [|split; [pas|reflexivity]]);
    (destruct (match ms with Some 0%N => true | _ => false end); [split; [pas|reflexivity]|]).
  - split; [pas|reflexivity].
  - assert (H : passive s (fst (await ms l (happens t s))) /\ pending (fst (await ms l (happens t s))) = pend (t :: l) s).
    { destruct (IH (happens t s)) as [H1 H2]. split.
      + eapply passive_trans; [apply happens_passive|exact H1].
      + rewrite H2. apply happens_pend. }
    destruct t as [n| |bs| |e|r|]; try exact H.
    + cbn [happens] in H. destruct (disp s n); [|exact H]. split; [pas|reflexivity].
    + split; [pas|reflexivity].
    + destruct ms; [|exact H]. split; [pas|reflexivity].
Qed.

Lemma select_spec ms s : passive s (fst (select ms s)) /\ pending (fst (select ms s)) = pending s.
Proof.
  unfold select. destruct (advance_spec s) as [H1 H2]. destruct (await_spec ms (time (advance s)) (advance s)) as [H3 H4].
  split; [eapply passive_trans; eauto|]. rewrite H4. exact H2.
Qed.

Lemma os_read_spec room s : let r := os_read room s in
  passive s (fst r) /\ pending s = (match snd r with GBytes bs => bs | _ => [] end) ++ pending (fst r).
Proof.
  unfold os_read. destruct (advance_spec s) as [H1 H2]. set (ms := if never_waits _ then _ else _).
  destruct (await_spec ms (time (advance s)) (advance s)) as [H3 H4].
  destruct (await ms (time (advance s)) (advance s)) as [s1 w]. cbn [fst snd] in *.
  assert (H5 : passive s s1) by (eapply passive_trans; eauto).
  assert (H6 : pending s1 = pending s) by (rewrite H4; exact H2).
  destruct w; cbn [fst snd]; auto.
  unfold take_queue. destruct (queue s1) as [|bs q] eqn:Eq; cbn [fst snd]; [auto|].
  destruct (length bs <=? room); cbn [fst snd]; (split; [exact H5|]); rewrite <- H6; unfold pending; rewrite Eq; cbn.
  - now rewrite <- app_assoc.
  - rewrite !app_assoc, firstn_skipn. reflexivity.
Qed.

(** ** The reader's calls: [flows] if they use no input *)
Definition flows (s s' : sys) : Prop := passive s s' /\ pending s' = pending s.
Lemma flows_refl s : flows s s. Proof. split; [pas|reflexivity]. Qed.
Lemma flows_trans a b c : flows a b -> flows b c -> flows a c.
Proof. intros [A1 A2] [B1 B2]. split; [eapply passive_trans; eauto|congruence]. Qed.

Lemma advance_flows s : flows s (advance s). Proof. apply advance_spec. Qed.
Lemma get_signal_flows s : flows s (fst (get_signal s)). Proof. apply advance_spec. Qed.
Lemma take_signal_flows s : flows s (fst (take_signal s)). Proof. apply (advance_spec s). Qed.

Lemma wait_loop_ends fuel ms : forall s, ends (flows s) (fun s' _ => flows s s') (wait_loop fuel ms s).
Proof.
  induction fuel as [|fuel IH]; intros s; cbn [wait_loop]; [exact I|].
  pose proof (select_spec ms s) as H. destruct (select ms s) as [s1 w]. cbn [fst] in H. change (flows s s1) in H.
  assert (Hi : ends (flows s) (fun s' _ => flows s s')
     (let '(s2, sig) := get_signal s1 in match sig with Some _ => Ret s2 true | None => wait_loop fuel ms s2 end)).
  { pose proof (get_signal_flows s1) as H2. destruct (get_signal s1) as [s2 sig]. cbn [fst] in H2.
    assert (H3 : flows s s2) by (eapply flows_trans; eauto).
    destruct sig; [exact H3|]. eapply ends_weak; [apply IH| |]; intros; eapply flows_trans; eauto. }
  destruct w; try exact H; try exact I; try exact Hi. destruct (e =? EINTR)%N; [exact Hi|exact H].
Qed.

Section Ends.
  Variables (C : tcfg) (m : seq_map).

  Lemma peek_ends s : ends (flows s) (fun s' _ => flows s s') (peek m s).
  Proof. unfold peek. destruct (peek_event _ _) as [[]|]; cbn; auto using flows_refl. Qed.

  Lemma wait_event_ends t s : ends (flows s) (fun s' _ => flows s s') (wait_event m t s).
  Proof.
    unfold wait_event. pose proof (get_signal_flows s) as H. destruct (get_signal s) as [s1 sig]. cbn [fst] in H.
    destruct sig; [exact H|]. eapply ends_bind with (Q := fun s' _ => flows s s').
    - eapply ends_weak; [apply peek_ends| |]; intros; eapply flows_trans; eauto.
    - intros s2 [p|] H2; [exact H2|].
      assert (Hw : forall ms, ends (flows s) (fun s' _ => flows s s') (wait_loop (turns s2) ms s2)).
      { intros ms. eapply ends_weak; [apply wait_loop_ends| |]; intros; eapply flows_trans; eauto. }
      destruct t as [d|]; [|apply Hw]. destruct (to_timeval d); [apply Hw|exact I].
  Qed.

  Definition got_input (s s' : sys) (r : option input) : Prop :=
    passive s s' /\ pending s = (match r with Some (IRaw bs) => bs | _ => [] end) ++ pending s'.

  Lemma got_flows a b c r : flows a b -> got_input b c r -> got_input a c r.
  Proof. intros [A1 A2] [B1 B2]. split; [eapply passive_trans; eauto|congruence]. Qed.

  Lemma flows_got s s' r : flows s s' -> (forall bs, r <> Some (IRaw bs)) -> got_input s s' r.
  Proof.
    intros [H1 H2] Hn. split; [exact H1|]. destruct r as [[sig|bs]|]; [symmetry; exact H2| |symmetry; exact H2].
    exfalso. now apply (Hn bs).
  Qed.

  Lemma read_loop_ends fuel room : forall s, ends (flows s) (got_input s) (read_loop fuel room s).
  Proof.
    induction fuel as [|fuel IH]; intros s; cbn [read_loop]; [exact I|].
    pose proof (os_read_spec room s) as H. destruct (os_read room s) as [s1 g]. cbn [fst snd] in H. destruct H as [H1 H2].
    assert (Hi : flows s s1 -> ends (flows s) (got_input s)
       (let '(s2, sig) := take_signal s1 in match sig with Some sig => Ret s2 (Some (ISignal sig)) | None => read_loop fuel room s2 end)).
    { intros H. pose proof (take_signal_flows s1) as H3. destruct (take_signal s1) as [s2 sig]. cbn [fst] in H3.
      assert (H4 : flows s s2) by (eapply flows_trans; eauto).
      destruct sig; [apply flows_got; [exact H4|discriminate]|].
      eapply ends_weak; [apply IH| |]; intros; [eapply flows_trans|eapply got_flows]; eauto. }
    destruct g; cbn [app] in H2.
    - split; assumption.
    - apply Hi. split; auto.
    - destruct (e =? EINTR)%N; [apply Hi|]; split; auto.
    - exact I.
  Qed.

  Lemma read_input_ends room t s : ends (flows s) (got_input s) (read_input m room t s).
  Proof.
    unfold read_input. pose proof (take_signal_flows s) as H. destruct (take_signal s) as [s1 sig]. cbn [fst] in H.
    destruct sig; [apply flows_got; [exact H|discriminate]|].
    eapply ends_bind with (Q := fun s' _ => flows s s').
    - eapply ends_weak; [apply wait_event_ends| |]; intros; eapply flows_trans; eauto.
    - intros s2 ready H2. destruct ready; cbn [negb]; [|apply flows_got; [exact H2|discriminate]].
      pose proof (take_signal_flows s2) as H3. destruct (take_signal s2) as [s3 sig]. cbn [fst] in H3.
      assert (H4 : flows s s3) by (eapply flows_trans; eauto).
      destruct sig; [apply flows_got; [exact H4|discriminate]|].
      eapply ends_weak; [apply read_loop_ends| |]; intros; [eapply flows_trans|eapply got_flows]; eauto.
  Qed.

  (** Only the reader's buffer and the input may change. *)
  Definition steady (s s' : sys) : Prop :=
    resume_cfg s' = resume_cfg s /\ report s' = report s /\ wr s' = wr s /\ tio s' = tio s /\ disp s' = disp s /\ os s' = os s.
  Lemma passive_steady s s' : passive s s' -> steady s s'.
  Proof. intros (H1 & H2 & H3 & H4 & H5 & H6 & _). unfold steady. auto 10. Qed.

  Lemma into_buffer_ends t s :
    ends (fun s' => steady s s' /\ stream s' = stream s /\ inbuf s' = inbuf s)
         (fun s' r => steady s s' /\ stream s' = stream s /\
            inbuf s' = inbuf s ++ match r with Some (IRaw bs) => bs | _ => [] end)
         (read_into_buffer C m t s).
  Proof.
    unfold read_into_buffer. set (cap := if (_ <=? _) then incap s else _).
    pose proof (read_input_ends (cap - length (inbuf s)) t (with_inbuf [] 0 s)) as H.
    destruct (read_input m (cap - length (inbuf s)) t (with_inbuf [] 0 s)) as [s1 r|s1 e| |]; cbn [ends] in *; auto.
    - destruct H as [H1 H2]. apply passive_steady in H1.
      destruct r as [[sig|bs]|]; cbn [app] in H2; cbn [ends]; (split; [exact H1|]);
        unfold stream; cbn [inbuf with_inbuf]; rewrite ?app_nil_r; (split; [|reflexivity]).
      + f_equal. exact (eq_sym H2).
      + rewrite <- app_assoc. f_equal. exact (eq_sym H2).
      + f_equal. exact (eq_sym H2).
    - destruct H as [H1 H2]. apply passive_steady in H1. split; [exact H1|]. split; [|reflexivity].
      unfold stream. cbn [inbuf with_inbuf]. f_equal. exact H2.
  Qed.

  (** What reading may do to the rest of the terminal: nothing, or preparing it again. *)
  Definition reads (s s' : sys) : Prop :=
    resume_cfg s' = resume_cfg s /\
    match resume_cfg s with
    | None => tio s' = tio s /\ disp s' = disp s /\ report s' = report s
    | Some cfg => touched cfg s s'
    end.

  Lemma steady_reads s s' : steady s s' -> reads s s'.
  Proof.
    intros (H1 & H2 & H3 & H4 & H5 & H6). split; [exact H1|]. destruct (resume_cfg s); [|auto].
    intros n. rewrite H5. destruct (handled c n); auto.
  Qed.
  Lemma reads_trans a b c : reads a b -> reads b c -> reads a c.
  Proof.
    intros [A1 A2] [B1 B2]. rewrite A1 in B1, B2. split; [exact B1|].
    destruct (resume_cfg a); [eapply touched_trans; eauto|].
    destruct A2 as (A3 & A4 & A5), B2 as (B3 & B4 & B5). repeat split; congruence.
  Qed.

  Lemma quiet_stream s s' : quiet s s' -> inbuf s' = inbuf s /\ stream s' = stream s.
  Proof. intros (H1 & _ & _ & H2 & _ & _ & H3). split; [exact H1|]. unfold stream, pending. congruence. Qed.

  Definition kept_input (s s' : sys) : Prop := inbuf s' = inbuf s /\ stream s' = stream s.

  Lemma handle_signal_ends sig s :
    ends (fun s' => reads s s' /\ kept_input s s')
         (fun s' e => (reads s s' /\ kept_input s s') /\ forall x, e = Some x -> match x with EKey _ | EMouse _ | ERaw _ => False | _ => True end)
         (handle_signal C sig s).
  Proof.
    assert (Hrep : forall s', reads s s' /\ kept_input s s' ->
      ends (fun s' => reads s s' /\ kept_input s s')
         (fun s' e => (reads s s' /\ kept_input s s') /\ forall x, e = Some x -> match x with EKey _ | EMouse _ | ERaw _ => False | _ => True end)
         (report_signal sig s')).
    { intros s' H. unfold report_signal. destruct (ss_contains _ _); cbn [ends]; (split; [exact H|]);
        intros x E; [injection E as <-; exact I|discriminate]. }
    assert (Hself : reads s s /\ kept_input s s).
    { split; [apply steady_reads; unfold steady; auto 10|split; reflexivity]. }
    destruct sig; cbn [handle_signal]; try (apply Hrep; exact Hself).
    - eapply ends_bind with (Q := fun s' _ => reads s s' /\ kept_input s s').
      + eapply ends_weak; [apply resume_ends| |]; [intros s' H|intros s' u H];
          destruct H as (H1 & H2 & H3); (split; [split; [exact H2|]|now apply quiet_stream]);
          destruct (resume_cfg s); exact H3.
      + intros s' _ H. now apply Hrep.
    - eapply ends_bind with (Q := fun s' _ => reads s s' /\ kept_input s s').
      + unfold term_size. apply guard_ends.
        * intros w s' H. exact H.
        * intros w s' _ H. exact H.
        * destruct (win s); exact Hself.
      + intros s' z H. cbn [ends]. split; [exact H|]. intros x E. injection E as <-. exact I.
  Qed.

  (** An event decoded from the buffer. *)
  Definition decoded (s s' : sys) (e : option event) : Prop :=
    steady s s' /\ pending s' = pending s /\
    match e with
    | None => inbuf s' = inbuf s
    | Some e => exists used, inbuf s = used ++ inbuf s' /\ peek_event (inbuf s) m = Val (PEvent e (length used))
    end.

  Lemma decoded_self s : decoded s s None.
  Proof. unfold decoded, steady. auto 10. Qed.

  Hypothesis Hm : key_map m.

  Lemma try_read_ends s : ends (fun s' => s' = s) (decoded s) (try_read m s).
  Proof.
    unfold try_read. destruct (inbuf s) as [|b bs] eqn:Eb; [apply decoded_self|].
    unfold peek. destruct (peek_event (inbuf s) m) as [[| |e n]|] eqn:Ep; cbn [obind ends]; auto.
    - apply decoded_self.
    - pose proof (peek_bounds _ _ _ _ Hm Ep) as Hn. unfold decoded, steady. split; [auto 10|]. split; [reflexivity|].
      cbn [inbuf with_inbuf]. exists (firstn n (inbuf s)). split; [now rewrite firstn_skipn|].
      rewrite firstn_length_le by lia. exact Ep.
  Qed.

  Lemma peek_kind buf e n : peek_event buf m = Val (PEvent e n) -> match e with EKey _ | EMouse _ => True | _ => False end.
  Proof.
    unfold peek_event. destruct (utf8_prefix buf) as [[|b s]|]; try discriminate.
    destruct (scan m _ None) as [lm|]; [|discriminate]. intros H.
    destruct lm as [[q [|k]]|].
    - destruct (parse_mouse_data _) as [[[d k]|]|]; try discriminate.
      + injection H as <- _. exact I.
      + destruct (next_char (b :: s)) as [[ch l]|]; [|discriminate]. injection H as <- _. exact I.
    - injection H as <- _. exact I.
    - destruct (next_char (b :: s)) as [[ch l]|]; [|discriminate]. injection H as <- _. exact I.
  Qed.

  Lemma decoded_uses s s' e : decoded s s' e -> exists used, stream s = used ++ stream s' /\ uses m (stream s') (YEvent e) used.
  Proof.
    intros (_ & H2 & H3). unfold stream. rewrite H2. destruct e as [e|].
    - destruct H3 as (used & H3 & H4). exists used. rewrite H3, <- app_assoc. split; [reflexivity|].
      pose proof (peek_kind _ _ _ H4) as Hk. pose proof (peek_bounds _ _ _ _ Hm H4) as Hb.
      assert (Hu : used <> [] /\ exists later, is_prefix later (inbuf s' ++ pending s) /\ peek_event (used ++ later) m = Val (PEvent e (length used))).
      { split; [intros ->; cbn in Hb; lia|]. exists (inbuf s'). split; [now exists (pending s)|]. now rewrite <- H3. }
      destruct e; try contradiction; exact Hu.
    - exists []. rewrite H3. split; reflexivity.
  Qed.

  Definition read_done (s s' : sys) (e : option event) : Prop :=
    reads s s' /\ exists used, stream s = used ++ stream s' /\ uses m (stream s') (YEvent e) used.

  Lemma read_event_ends t s :
    ends (fun s' => reads s s' /\ stream s' = stream s) (read_done s) (read_event C m t s).
  Proof.
    unfold read_event. eapply ends_bind with (Q := decoded s).
    { eapply ends_weak; [apply try_read_ends| |]; [intros s' ->|intros; assumption].
      split; [apply steady_reads; unfold steady; auto 10|reflexivity]. }
    intros s1 [e|] H1.
    { cbn [ends]. split; [apply steady_reads, H1|now apply decoded_uses]. }
    assert (Hs1 : reads s s1 /\ stream s1 = stream s).
    { destruct H1 as (H1 & H2 & H3). split; [now apply steady_reads|]. unfold stream. congruence. }
    destruct Hs1 as [R1 S1].
    eapply ends_bind with (Q := fun s' _ => reads s s' /\ stream s' = stream s).
    { eapply ends_weak; [apply into_buffer_ends| |]; [intros s' (A & B & _)|intros s' r (A & B & _)];
        (split; [eapply reads_trans; [exact R1|now apply steady_reads]|congruence]). }
    intros s2 r [R2 S2]. destruct r as [[sig|bs]|].
    - eapply ends_weak; [apply handle_signal_ends| |].
      + intros s' [A [_ B]]. split; [eapply reads_trans; eauto|congruence].
      + intros s' e [[A [_ B]] Hk]. split; [eapply reads_trans; eauto|]. exists []. split; [cbn; congruence|].
        destruct e as [x|]; [|reflexivity]. specialize (Hk x eq_refl). destruct x; try contradiction; reflexivity.
    - eapply ends_weak; [apply try_read_ends| |].
      + intros s' ->. auto.
      + intros s' e H3. split; [eapply reads_trans; [exact R2|apply steady_reads, H3]|].
        apply decoded_uses in H3. rewrite <- S2. exact H3.
    - cbn [ends]. split; [exact R2|]. exists []. split; [cbn; congruence|reflexivity].
  Qed.

  Lemma read_raw_ends n t s :
    ends (fun s' => reads s s' /\ stream s' = stream s)
         (fun s' x => reads s s' /\ exists used, stream s = used ++ stream s' /\ uses m (stream s') (YRaw (fst x) (snd x)) used)
         (read_raw C m n t s).
  Proof.
    unfold read_raw. destruct (inbuf s) as [|b bs] eqn:Eb.
    - eapply ends_bind with (Q := got_input s).
      { eapply ends_weak; [apply read_input_ends| |]; [intros s' [A B]|intros; assumption].
        split; [now apply steady_reads, passive_steady|]. unfold stream. destruct A as (_ & _ & _ & _ & _ & _ & A & _). congruence. }
      intros s1 r [H1 H2]. assert (R1 : reads s s1) by now apply steady_reads, passive_steady.
      assert (B1 : inbuf s1 = inbuf s) by apply H1.
      destruct r as [[sig|x]|]; cbn [app] in H2.
      + assert (S1 : stream s1 = stream s) by (unfold stream; congruence).
        eapply ends_bind with (Q := fun s' e => (reads s s' /\ stream s' = stream s) /\ forall x, e = Some x -> match x with EKey _ | EMouse _ | ERaw _ => False | _ => True end).
        { eapply ends_weak; [apply handle_signal_ends| |].
          - intros s' [A [_ B]]. split; [eapply reads_trans; eauto|congruence].
          - intros s' e [[A [_ B]] Hk]. split; [|exact Hk]. split; [eapply reads_trans; eauto|congruence]. }
        intros s2 e [[R2 S2] Hk]. cbn [ends fst snd]. split; [exact R2|]. exists []. split; [cbn; congruence|].
        destruct e as [x|]; [|reflexivity]. specialize (Hk x eq_refl). destruct x; try contradiction; reflexivity.
      + cbn [ends fst snd]. split; [exact R1|]. exists x. unfold stream. rewrite B1, Eb. cbn [app]. split; [exact H2|].
        split; reflexivity.
      + cbn [ends fst snd]. split; [exact R1|]. exists []. unfold stream. rewrite B1, Eb. cbn [app]. split; [exact H2|reflexivity].
    - rewrite <- Eb. cbn [ends fst snd]. split; [apply steady_reads; unfold steady; auto 10|].
      exists (firstn (Nat.min n (length (inbuf s))) (inbuf s)). unfold stream. cbn [inbuf with_inbuf].
      rewrite app_assoc, firstn_skipn. split; [reflexivity|]. split; [reflexivity|].
      rewrite firstn_length. lia.
  Qed.

  Lemma restore_quiet st s : ends (quiet s) (fun s' _ => quiet s s') (restore C st s).
  Proof.
    unfold restore. apply guard_ends; [intros w s' H; exact H|intros w s' _ H; exact H|].
    unfold restore_with_lock.
    assert (Hput : forall n o s', quiet s s' -> ends (quiet s) (fun s' _ => quiet s s') (put_back n o s')).
    { intros n o s' H. unfold put_back. destruct o; [|exact H]. eapply ends_bind with (Q := fun s' _ => quiet s s').
      - unfold sigaction. apply os_call_ends; intros l; exact H.
      - intros s1 a1 H1. exact H1. }
    eapply ends_bind with (Q := fun s' _ => quiet s s').
    { destruct (restore_mouse st); [apply on_wr_ends; intros|]; unfold quiet; cbn; auto 10. }
    intros s1 a1 H1. eapply ends_bind with (Q := fun s' _ => quiet s s').
    { destruct (restore_keypad st); [apply on_wr_ends; intros; exact H1|exact H1]. }
    intros s2 a2 H2. eapply ends_bind with (Q := fun s' _ => quiet s s').
    { apply on_wr_ends; intros; exact H2. }
    intros s3 a3 H3. eapply ends_bind with (Q := fun s' _ => quiet s s').
    { unfold tcsetattr. apply os_call_ends; intros l; exact H3. }
    intros s4 a4 H4. eapply ends_bind; [apply Hput, H4|].
    intros s5 a5 H5. eapply ends_bind; [apply Hput, H5|].
    intros s6 a6 H6. eapply ends_bind; [apply Hput, H6|].
    intros s7 a7 H7. eapply ends_bind; [apply Hput, H7|].
    intros s8 a8 H8. apply Hput, H8.
  Qed.

  (** C35 *)
  Lemma rstep_accounts o s s' r : rstep C m o s = Some (s', r) ->
    exists used, stream s = used ++ stream s' /\ uses m (stream s') r used.
  Proof.
    destruct o as [t|t|n t|cfg|st]; cbn [rstep]; unfold ret.
    - pose proof (wait_event_ends t s) as H. destruct (wait_event m t s) as [s1 b|s1 e| |]; try discriminate;
        intros [= <- <-]; exists []; cbn in H; destruct H as [H1 H2]; (split; [|reflexivity]);
        unfold stream; destruct H1 as (_ & _ & _ & _ & _ & _ & H1 & _); cbn; congruence.
    - pose proof (read_event_ends t s) as H. destruct (read_event C m t s) as [s1 b|s1 e| |]; try discriminate;
        intros [= <- <-]; cbn in H.
      + apply H.
      + exists []. split; [cbn; symmetry; apply H|reflexivity].
    - pose proof (read_raw_ends n t s) as H. destruct (read_raw C m n t s) as [s1 b|s1 e| |]; try discriminate;
        intros [= <- <-]; cbn in H.
      + apply H.
      + exists []. split; [cbn; symmetry; apply H|reflexivity].
    - pose proof (prepare_ends C cfg s) as H. destruct (prepare C cfg s) as [s1 b|s1 e| |]; try discriminate;
        intros [= <- <-]; cbn in H; exists []; (split; [|reflexivity]); cbn; symmetry; apply quiet_stream, H.
    - pose proof (restore_quiet st s) as H. destruct (restore C st s) as [s1 b|s1 e| |]; try discriminate;
        intros [= <- <-]; cbn in H; exists []; (split; [|reflexivity]); cbn; symmetry; apply quiet_stream, H.
  Qed.

  Lemma rrun_accounts ops : forall s s' rs, rrun C m ops s = Some (s', rs) -> accounts m rs (stream s) (stream s').
  Proof.
    induction ops as [|o ops IH]; intros s s' rs; cbn [rrun]; [intros [= <- <-]; reflexivity|].
    destruct (rstep C m o s) as [[s1 r]|] eqn:E; [|discriminate].
    destruct (rrun C m ops s1) as [[s2 rs2]|] eqn:E2; [|discriminate]. intros [= <- <-]. cbn [accounts].
    destruct (rstep_accounts _ _ _ _ E) as (used & H1 & H2). exists used, (stream s1). auto.
  Qed.

  (** C48 *)
  Lemma rstep_reads o s s' r : reading o -> rstep C m o s = Some (s', r) -> reads s s'.
  Proof.
    destruct o as [t|t|n t|cfg|st]; cbn [rstep reading]; unfold ret; intros Hr; try contradiction.
    - pose proof (wait_event_ends t s) as H. destruct (wait_event m t s) as [s1 b|s1 e| |]; try discriminate;
        intros [= <- <-]; cbn in H; destruct H as [H1 H2]; now apply steady_reads, passive_steady.
    - pose proof (read_event_ends t s) as H. destruct (read_event C m t s) as [s1 b|s1 e| |]; try discriminate;
        intros [= <- <-]; cbn in H; apply H.
    - pose proof (read_raw_ends n t s) as H. destruct (read_raw C m n t s) as [s1 b|s1 e| |]; try discriminate;
        intros [= <- <-]; cbn in H; apply H.
  Qed.
End Ends.

(** Of a session, whoever it starts under. *)
Definition kept_by (r : option config) (s s' : sys) : Prop :=
  resume_cfg s' = r /\
  match r with
  | None => tio s' = tio s /\ forall n, disp s' n = disp s n
  | Some cfg => touched cfg s s'
  end.

Lemma nest_back C m cfg s s1 st s2 s3 : rstep C m (RPrepare cfg) s = Some (s1, YState st) ->
  kept_by (Some cfg) s1 s2 -> rstep C m (RRestore st) s2 = Some (s3, YUnit) ->
  resume_cfg s3 = resume_cfg s /\ tio s3 = tio s /\ (forall n, disp s3 n = disp s n) /\ report s3 = report s2.
Proof.
  cbn [rstep]. unfold ret. intros H1 [H2 H3] H4.
  destruct (prepare C cfg s) as [a b|a e| |] eqn:Ep; try discriminate. injection H1 as <- <-.
  destruct (restore C b s2) as [c d|c e| |] eqn:Er; try discriminate. injection H4 as <-.
  apply prepare_ret in Ep. apply restore_ret in Er.
  destruct Ep as (_ & P1 & P2 & P3 & P4 & P5 & P6 & P7 & P8 & P9 & P10 & P11).
  destruct Er as (_ & R1 & R2 & R3 & R4).
  split; [congruence|]. split; [congruence|]. split; [|exact R3].
  intros n. rewrite R4, P6, P7, P8, P9, P10. specialize (H3 n). specialize (P2 n).
  unfold back. unfold handled in *.
  destruct (N.eqb_spec n SIGCONT) as [E|_]; [rewrite E; reflexivity|].
  destruct (N.eqb_spec n SIGINT) as [E|_].
  { rewrite E in *. destruct (ss_contains (report_signals cfg) Interrupt); [reflexivity|]. cbn in H3, P2. congruence. }
  destruct (N.eqb_spec n SIGTSTP) as [E|_].
  { rewrite E in *. destruct (ss_contains (report_signals cfg) Suspend); [reflexivity|]. cbn in H3, P2. congruence. }
  destruct (N.eqb_spec n SIGQUIT) as [E|_].
  { rewrite E in *. destruct (ss_contains (report_signals cfg) Quit); [reflexivity|]. cbn in H3, P2. congruence. }
  destruct (N.eqb_spec n SIGWINCH) as [E|_]; [rewrite E; reflexivity|].
  cbn in H3, P2. congruence.
Qed.

Lemma kept_by_trans r a b c : kept_by r a b -> kept_by r b c -> kept_by r a c.
Proof.
  intros [A1 A2] [B1 B2]. split; [exact B1|]. destruct r; [eapply touched_trans; eauto|].
  destruct A2, B2. split; [congruence|]. intros n. congruence.
Qed.

Lemma session_kept C m s s' : key_map m -> session C m s s' -> kept_by (resume_cfg s) s s'.
Proof.
  intros Hm H. induction H as [s|s o s1 r s' Ho Hs H IH|s cfg s1 st s2 s3 s' H1 H2 IH2 H3 H4 IH4].
  - split; [reflexivity|]. destruct (resume_cfg s); [|auto]. intros n. destruct (handled c n); auto.
  - apply rstep_reads in Hs; [|assumption|assumption]. destruct Hs as [E R].
    rewrite E in IH. eapply kept_by_trans; [|exact IH]. split; [exact E|]. destruct (resume_cfg s); [exact R|].
    destruct R as (R1 & R2 & _). split; [exact R1|]. now rewrite R2.
  - assert (E1 : resume_cfg s1 = Some cfg).
    { cbn [rstep] in H1. unfold ret in H1. destruct (prepare C cfg s) as [a b|a e| |] eqn:Ep; try discriminate.
      injection H1 as <- <-. apply prepare_ret in Ep. apply Ep. }
    rewrite E1 in IH2. destruct (nest_back C m cfg s s1 st s2 s3 H1 IH2 H3) as (N1 & N2 & N3 & _).
    rewrite N1 in IH4. eapply kept_by_trans; [|exact IH4]. split; [exact N1|].
    destruct (resume_cfg s); [|auto]. intros n. rewrite N3. destruct (handled c n); auto.
Qed.

Lemma session_restores C m s s' : key_map m -> session C m s s' -> resume_cfg s = None ->
  tio s' = tio s /\ (forall n, disp s' n = disp s n) /\ resume_cfg s' = None.
Proof. intros Hm H E. apply session_kept in H; [|exact Hm]. rewrite E in H. destruct H as [H1 [H2 H3]]. auto. Qed.
