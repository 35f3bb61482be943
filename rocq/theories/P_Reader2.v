(** More about reading: events from the buffer, split characters, invalid input,
    signals, waiting. *)
From Verif Require Import Base M_Utf8 S_Utf8 P_Utf8 M_Geom M_Seq S_Seq M_Signal M_Util M_Input S_Input P_Input
  M_Writer M_Prepare M_Reader S_Prepare S_Reader P_Prepare P_Reader.
Local Open Scope nat_scope.

Section Reader2.
  Variables (C : tcfg) (m : seq_map).

  (** An event in the buffer is returned at once. *)
  Lemma read_buffered t s e n : peek_event (inbuf s) m = Val (PEvent e n) ->
    read_event C m t s = Ret (with_inbuf (skipn n (inbuf s)) (incap s) s) (Some e).
  Proof.
    intros H. unfold read_event, try_read. destruct (inbuf s) as [|b bs] eqn:Eb; [discriminate|].
    rewrite <- Eb in *. unfold peek. rewrite H. reflexivity.
  Qed.

  Lemma read_buffered_at t s x r e : inbuf s = x ++ r -> peek_event (inbuf s) m = Val (PEvent e (length x)) ->
    read_event C m t s = Ret (with_inbuf r (incap s) s) (Some e).
  Proof.
    intros E H. rewrite (read_buffered t s e _ H), E, skipn_app, Nat.sub_diag, skipn_all. reflexivity.
  Qed.

  (** Invalid input: an error, for ever. *)
  Lemma read_invalid t s : peek_event (inbuf s) m = Val PErr -> read_event C m t s = Fail s RUtf8.
  Proof.
    intros H. unfold read_event, try_read. destruct (inbuf s) as [|b bs] eqn:Eb; [discriminate|].
    rewrite <- Eb in *. unfold peek. rewrite H. reflexivity.
  Qed.

  Lemma wait_invalid t s : conv_signal (last_sig (advance s)) = None -> peek_event (inbuf s) m = Val PErr ->
    wait_event m t s = Fail (advance s) RUtf8.
  Proof.
    intros H1 H2. unfold wait_event, get_signal. rewrite H1. unfold peek.
    destruct (advance_spec s) as [(_ & _ & _ & _ & _ & _ & -> & _) _]. rewrite H2. reflexivity.
  Qed.

  (** ** Input that comes in portions *)
  Definition settled (s s' : sys) : Prop := passive s s' /\ portions s' = portions s /\ calm s'.

  Lemma happens_calm t s : calm_tick t -> failing s = None -> conv_signal (last_sig s) = None ->
    failing (happens t s) = None /\ conv_signal (last_sig (happens t s)) = None.
  Proof. destruct t; cbn; intros; try contradiction; auto. Qed.

  Lemma happens_portions t l s : queue (happens t s) ++ inputs l = queue s ++ inputs (t :: l).
  Proof.
    destruct t; cbn [happens inputs]; try reflexivity.
    - destruct (disp s n); reflexivity.
    - cbn. now rewrite <- app_assoc.
  Qed.

  Lemma pass_calm l : forall s, Forall calm_tick l -> failing s = None -> conv_signal (last_sig s) = None ->
    calm (pass l s) /\ portions (pass l s) = queue s ++ inputs l /\ length (time (pass l s)) <= length l /\
    (queue s <> [] -> queue (pass l s) <> []).
  Proof.
    induction l as [|t l IH]; intros s Hl Hf Hc; [cbn; unfold calm, portions; cbn; auto|].
    inversion Hl as [|? ? Ht Hl']; subst.
    assert (H : t = TStep \/ pass (t :: l) s = pass l (happens t s)) by (destruct t; auto).
    destruct H as [->|E].
    - cbn. unfold calm, portions. cbn. auto.
    - rewrite E. destruct (happens_calm t s Ht Hf Hc) as [F1 F2].
      destruct (IH (happens t s) Hl' F1 F2) as (I1 & I2 & I3 & I4).
      split; [exact I1|]. split; [rewrite I2; apply happens_portions|]. split; [cbn; lia|].
      intros Hq. apply I4. destruct t; cbn; auto; try contradiction. intros X. now apply app_eq_nil in X as [X _].
  Qed.

  Lemma advance_calm s : calm s -> settled s (advance s) /\ length (time (advance s)) <= length (time s) /\
    (queue s <> [] -> queue (advance s) <> []).
  Proof.
    intros (H1 & H2 & H3). destruct (pass_calm (time s) s H3 H1 H2) as (I1 & I2 & I3 & I4).
    split; [|auto]. split; [apply advance_spec|]. split; [exact I2|exact I1].
  Qed.

  Lemma await_calm l : forall s, Forall calm_tick l -> failing s = None -> conv_signal (last_sig s) = None ->
    queue s ++ inputs l <> [] ->
    let r := await None l s in
    calm (fst r) /\ portions (fst r) = queue s ++ inputs l /\
    ((snd r = WReady /\ queue (fst r) <> []) \/ (snd r = WEintr /\ length (time (fst r)) < length l)).
  Proof.
    induction l as [|t l IH]; intros s Hl Hf Hc Hp; unfold await; fold await; rewrite Hf;
      destruct (queue s) as [|b q] eqn:Eq; cbn [fst snd].
    - cbn in Hp. congruence.
    - unfold calm, portions. cbn. rewrite Hf, Eq. repeat split; auto. left. split; [reflexivity|discriminate].
    - inversion Hl as [|? ? Ht Hl']; subst.
      assert (H : let r := await None l (happens t s) in
        calm (fst r) /\ portions (fst r) = [] ++ inputs (t :: l) /\
        ((snd r = WReady /\ queue (fst r) <> []) \/ (snd r = WEintr /\ length (time (fst r)) < length (t :: l)))).
      { destruct (happens_calm t s Ht Hf Hc) as [F1 F2]. pose proof (happens_portions t l s) as Hh. rewrite Eq in Hh.
        destruct (IH (happens t s) Hl' F1 F2) as (I1 & I2 & I3); [rewrite Hh; exact Hp|].
        cbn zeta. rewrite I2, Hh. split; [exact I1|]. split; [reflexivity|]. destruct I3 as [I3|[I3 I4]]; [now left|right].
        split; [exact I3|cbn; lia]. }
      destruct t as [n| |bs| |e|r|]; try contradiction; try exact H.
      unfold calm, portions. cbn. rewrite Hf, Eq. repeat split; auto.
    - unfold calm, portions. cbn. rewrite Hf, Eq. repeat split; auto. left. split; [reflexivity|discriminate].
  Qed.

  Lemma settled_trans a b c : settled a b -> settled b c -> settled a c.
  Proof. intros (A1 & A2 & A3) (B1 & B2 & B3). split; [eapply passive_trans; eauto|]. split; [congruence|exact B3]. Qed.

  Lemma select_calm s : calm s -> portions s <> [] ->
    let r := select None s in settled s (fst r) /\
    ((snd r = WReady /\ queue (fst r) <> []) \/ (snd r = WEintr /\ length (time (fst r)) < length (time s))).
  Proof.
    intros Hc Hp. destruct (advance_calm s Hc) as ((A1 & A2 & A3) & A4 & _). destruct A3 as (F & L & T).
    destruct (await_calm (time (advance s)) (advance s) T F L) as (I1 & I2 & I3); [fold (portions (advance s)); congruence|].
    cbn zeta. unfold select. split.
    - split; [eapply passive_trans; [exact A1|apply await_spec]|]. split; [|exact I1]. rewrite I2. exact A2.
    - destruct I3 as [I3|[I3 I4]]; [now left|right]. split; [exact I3|lia].
  Qed.

  Lemma wait_loop_calm fuel : forall s, calm s -> portions s <> [] -> length (time s) < fuel ->
    exists s', wait_loop fuel None s = Ret s' true /\ settled s s' /\ queue s' <> [].
  Proof.
    induction fuel as [|fuel IH]; intros s Hc Hp Hf; [lia|]. cbn [wait_loop].
    pose proof (select_calm s Hc Hp) as H. destruct (select None s) as [s1 w]. cbn [fst snd] in H.
    destruct H as [S1 [[-> Hq]|[-> Hl]]].
    - exists s1. auto.
    - unfold get_signal. destruct S1 as (A1 & A2 & A3). destruct (advance_calm s1 A3) as ((B1 & B2 & B3) & B4 & _).
      rewrite (proj1 (proj2 B3)).
      destruct (IH (advance s1) B3) as (s' & E & S' & Q'); [congruence|lia|].
      exists s'. split; [exact E|]. split; [|exact Q']. eapply settled_trans; [|exact S'].
      split; [eapply passive_trans; eauto|]. split; [congruence|exact B3].
  Qed.

  (** A portion that fits. *)
  Lemma read_input_calm room s b q : calm s -> inbuf s = [] -> portions s = b :: q -> length b <= room ->
    exists s', read_input m room None s = Ret s' (Some (IRaw b)) /\ passive s s' /\ portions s' = q /\ calm s'.
  Proof.
    intros Hc Hb Hp Hr. unfold read_input, take_signal.
    destruct (advance_calm s Hc) as ((A1 & A2 & A3) & _ & _). rewrite (proj1 (proj2 A3)).
    set (s1 := with_last 0 (advance s)).
    assert (C1 : calm s1) by (split; [apply A3|split; [reflexivity|apply A3]]).
    assert (P1 : portions s1 = b :: q) by (unfold s1; rewrite <- Hp; exact A2).
    assert (V1 : passive s s1) by exact A1. clearbody s1. clear A1 A2 A3.
    unfold wait_event, get_signal.
    destruct (advance_calm s1 C1) as ((A1 & A2 & A3) & _ & _). rewrite (proj1 (proj2 A3)).
    assert (B1 : inbuf (advance s1) = []).
    { destruct A1 as (_ & _ & _ & _ & _ & _ & A1 & _). destruct V1 as (_ & _ & _ & _ & _ & _ & V1 & _). congruence. }
    unfold peek. rewrite B1. cbn [peek_event utf8_prefix from_utf8 obind].
    change (peek_event [] m) with (Val PNone). cbn [obind].
    destruct (wait_loop_calm (turns (advance s1)) (advance s1) A3) as (s2 & E2 & S2 & Q2).
    { rewrite A2, P1. discriminate. } { unfold turns. lia. }
    rewrite E2. cbn [obind negb]. destruct S2 as (S21 & S22 & S23).
    destruct (advance_calm s2 S23) as ((D1 & D2 & D3) & _ & D4). rewrite (proj1 (proj2 D3)).
    set (s3 := with_last 0 (advance s2)).
    assert (C3 : calm s3) by (split; [apply D3|split; [reflexivity|apply D3]]).
    assert (P3 : portions s3 = b :: q) by (transitivity (portions (advance s2)); [reflexivity|congruence]).
    assert (Q3 : queue s3 <> []) by (exact (D4 Q2)).
    assert (V3 : passive s s3).
    { eapply passive_trans; [exact V1|]. eapply passive_trans; [exact A1|]. eapply passive_trans; [exact S21|exact D1]. }
    clearbody s3. clear - C3 P3 Q3 V3 Hr.
    cbn [turns read_loop]. unfold os_read.
    destruct (advance_calm s3 C3) as ((D1 & D2 & D3) & _ & D4). specialize (D4 Q3).
    set (ms := if never_waits _ then _ else _). clearbody ms.
    assert (Ea : await ms (time (advance s3)) (advance s3) = (with_time (time (advance s3)) (advance s3), WReady)).
    { destruct (time (advance s3)); unfold await; fold await; rewrite (proj1 D3); destruct (queue (advance s3)); congruence. }
    rewrite Ea. unfold take_queue. cbn [queue with_time].
    rewrite P3 in D2. unfold portions in D2. destruct (queue (advance s3)) as [|b' q'] eqn:Eq; [congruence|].
    cbn [app] in D2. injection D2 as -> D2.
    replace (length b <=? room) with true by lia. eexists. split; [reflexivity|].
    split; [eapply passive_trans; [exact V3|exact D1]|]. split; [exact D2|].
    split; [apply D3|]. split; [apply D3|]. apply D3.
  Qed.

  Hypothesis Hgrow : forall c n, n <= grow C c n.

  Lemma read_portion s b q : calm s -> portions s = b :: q -> length b <= 128 ->
    try_read m s = Ret s None ->
    exists s', read_event C m None s = try_read m s' /\ inbuf s' = inbuf s ++ b /\ portions s' = q /\ calm s'.
  Proof.
    intros Hc Hp Hl Ht. unfold read_event. rewrite Ht. cbn [obind]. unfold read_into_buffer.
    set (cap := if (_ <=? _) then incap s else _).
    destruct (read_input_calm (cap - length (inbuf s)) (with_inbuf [] 0 s) b q) as (s1 & E & _ & P1 & C1); auto.
    { unfold cap. destruct (Nat.leb_spec (length (inbuf s) + 128) (incap s)); [lia|].
      pose proof (Hgrow (incap s) (length (inbuf s) + 128)). lia. }
    rewrite E. cbn [obind]. eexists. split; [reflexivity|]. split; [reflexivity|]. split; [exact P1|exact C1].
  Qed.

  (** ** A character in pieces (C40) *)
  Lemma peek_truncated p : truncated_char p -> peek_event p m = Val PNone.
  Proof.
    intros Hi. pose proof (step_truncated p Hi) as Hs. rewrite peek_nochar.
    - destruct p; [reflexivity|]. now rewrite Hs.
    - intros c r Hc ->. rewrite (validate_utf8 c r Hc) in Hs. discriminate.
  Qed.

  Lemma try_truncated s : inbuf s = [] \/ truncated_char (inbuf s) -> try_read m s = Ret s None.
  Proof.
    intros [H|H]; unfold try_read; [now rewrite H|].
    pose proof (peek_truncated _ H) as Hp.
    destruct (inbuf s) as [|b p] eqn:E; [reflexivity|]. unfold peek. rewrite E, Hp. reflexivity.
  Qed.

  Lemma char_pieces c : key_map m -> scalar c -> no_match m (utf8 c) ->
    forall chunks p s rest, Forall (fun b => b <> []) chunks -> chunks <> [] -> p ++ concat chunks = utf8 c ->
    calm s -> inbuf s = p -> portions s = chunks ++ rest ->
    exists s', rrun C m (repeat (RRead None) (length chunks)) s =
      Some (s', repeat (YEvent None) (length chunks - 1) ++ [YEvent (Some (EKey (key_from_char c)))]) /\
      inbuf s' = [] /\ portions s' = rest.
  Proof.
    intros Hm Hc Hn. induction chunks as [|b chunks IH]; intros p s rest Hb Hne Hp Hs Hi Hq; [congruence|].
    inversion Hb as [|? ? Hb1 Hb2]; subst. cbn [concat] in Hp.
    assert (Hl : length b <= 128).
    { apply (f_equal (@length _)) in Hp. rewrite !app_length, utf8_length in Hp. pose proof (len_utf8_pos c). lia. }
    destruct (read_portion s b (chunks ++ rest) Hs Hq Hl) as (s1 & E1 & I1 & P1 & C1).
    { apply try_truncated. destruct (inbuf s) as [|x p] eqn:Ei; [now left|right]. split; [discriminate|].
      exists c, (b ++ concat chunks). split; [exact Hc|]. split; [destruct b; [congruence|discriminate]|].
      symmetry. exact Hp. }
    cbn [length repeat rrun rstep]. rewrite E1. cbn [Nat.sub]. rewrite Nat.sub_0_r.
    destruct chunks as [|b' chunks].
    - cbn [concat] in Hp. rewrite app_nil_r in Hp. rewrite Hp in I1.
      unfold try_read. rewrite I1. destruct (utf8 c) as [|x xs] eqn:Ex; [now apply utf8_nonempty in Ex|].
      rewrite <- Ex in *. unfold peek. rewrite I1.
      assert (Hk : peek_event (utf8 c) m = Val (PEvent (EKey (key_from_char c)) (length (utf8 c)))).
      { pose proof (peek_plain m c [] Hm Hc) as Hk. rewrite app_nil_r in Hk. exact (Hk Hn). }
      rewrite Hk. cbn [obind]. rewrite I1, skipn_all. cbn [ret]. eexists. split; [reflexivity|]. split; [reflexivity|exact P1].
    - rewrite (try_truncated s1).
      + cbn [ret]. destruct (IH (inbuf s ++ b) s1 rest) as (s' & E' & I' & P'); auto; [discriminate| |].
        { rewrite <- app_assoc. exact Hp. }
        cbn [length] in E' |- *. rewrite E'. exists s'. cbn [length Nat.sub]. rewrite Nat.sub_0_r. auto.
      + right. rewrite I1. split; [destruct (inbuf s), b; discriminate || congruence|].
        exists c, (concat (b' :: chunks)). split; [exact Hc|]. split.
        * inversion Hb2; subst. cbn. destruct b'; [congruence|discriminate].
        * rewrite <- app_assoc. symmetry. exact Hp.
  Qed.
End Reader2.

(** ** Signals (C43, C44) *)
Lemma with_time_advance s l : time s = l -> advance s = pass l s.
Proof. now intros <-. Qed.

Section Signals.
  Variables (C : tcfg) (m : seq_map).

  (** A signal that is there is what the call is about. *)
  Lemma wait_signal t s sig : conv_signal (last_sig (advance s)) = Some sig -> wait_event m t s = Ret (advance s) true.
  Proof. intros H. unfold wait_event, get_signal. now rewrite H. Qed.

  Lemma read_signal t s sig : try_read m s = Ret s None -> conv_signal (last_sig (advance s)) = Some sig ->
    exists cap, read_event C m t s = handle_signal C sig (with_inbuf (inbuf s) cap (with_last 0 (advance s))).
  Proof.
    intros Ht Hs. unfold read_event. rewrite Ht. cbn [obind]. unfold read_into_buffer, read_input, take_signal.
    set (cap := if (_ <=? _) then incap s else _).
    assert (Ea : forall l z, pass l (with_inbuf [] 0 z) = with_inbuf [] 0 (pass l z)).
    { induction l as [|k l IH]; intros z; [reflexivity|].
      destruct k; cbn [pass happens]; try reflexivity; try (exact (IH z)).
      - cbn [disp with_inbuf]. destruct (disp z n); [exact (IH (with_last n z))|exact (IH z)].
      - exact (IH (with_queue (queue z ++ [bs]) z)).
      - exact (IH (with_failing (Some e) z)).
      - exact (IH (with_win r z)). }
    unfold advance in *. cbn [time with_inbuf]. rewrite Ea. cbn [last_sig with_inbuf with_last].
    rewrite Hs. cbn [obind]. exists cap. reflexivity.
  Qed.

  (** What the program is told, and what SIGCONT brings about. *)
  Lemma handle_deserved sig s s' e : handle_signal C sig s = Ret s' e ->
    let again := match sig with Continue => resume_cfg s | _ => None end in
    e = deserved (match again with Some c => report_signals c | None => report s end) sig (win s) /\
    (sig = Resize -> exists z, win s = inr z) /\
    match again with
    | Some c => tio s' = raw_tio c (tio s) /\ (forall n, disp s' n = if handled c n then Ours else disp s n) /\
                report s' = report_signals c /\ resume_cfg s' = Some c
    | None => tio s' = tio s /\ disp s' = disp s /\ report s' = report s /\ resume_cfg s' = resume_cfg s
    end.
  Proof.
    assert (Hrep : forall sig z, report_signal sig z = Ret z (if ss_contains (report z) sig then Some (ESignal sig) else None)).
    { intros k z. unfold report_signal. now destruct (ss_contains _ _). }
    destruct sig; cbn [handle_signal]; cbn zeta.
    all: try (rewrite Hrep; injection 1 as <- <-; split; [reflexivity|]; split; [discriminate|auto]).
    - unfold resume. destruct (resume_cfg s) as [c|] eqn:Ec.
      + destruct (prepare C c s) as [s1 st| | |] eqn:Ep; cbn [obind]; try discriminate.
        apply prepare_ret in Ep as (_ & P1 & P2 & P3 & P4 & _). rewrite Hrep. injection 1 as <- <-.
        rewrite P3. split; [reflexivity|]. split; [discriminate|]. auto.
      + cbn [obind]. rewrite Hrep. injection 1 as <- <-. split; [reflexivity|]. split; [discriminate|]. auto.
    - unfold term_size, with_guard. destruct (win s) as [e1|z] eqn:Ew.
      + destruct (on_wr guard_drop s); discriminate.
      + destruct (on_wr guard_drop s) as [s1 u| | |] eqn:E; cbn [obind]; try discriminate.
        apply on_wr_ret in E as (w & -> & _). injection 1 as <- <-. cbn. split; [reflexivity|]. split; [eauto|auto].
  Qed.

  (** The slot holds one signal: an overtaken one leaves no trace. *)
  Lemma overtaken s a b l : disp s a = Ours -> disp s b = Ours -> time s = TSig a :: TSig b :: l ->
    advance s = advance (with_time (TSig b :: l) s).
  Proof.
    intros Ha Hb Ht. unfold advance. rewrite Ht. cbn [pass happens time with_time]. rewrite Ha.
    cbn [disp with_last]. rewrite Hb. cbn [disp with_time]. rewrite Hb.
    assert (E : with_last b (with_last a s) = with_last b s) by reflexivity. rewrite E. clear.
    assert (H : forall l z t, pass l (with_time t z) = pass l z).
    { induction l0 as [|k l0 IH]; intros z t; [reflexivity|].
      destruct k; cbn [pass happens]; try reflexivity; try (apply IH).
      - cbn [disp with_time]. destruct (disp z n); [|apply IH]. exact (IH (with_last n z) t).
      - exact (IH (with_queue (queue z ++ [bs]) z) t).
      - exact (IH (with_failing (Some e) z) t).
      - exact (IH (with_win r z) t). }
    symmetry. exact (H l (with_last b s) (TSig b :: l)).
  Qed.

  Lemma overtaken_wait t s a b l : disp s a = Ours -> disp s b = Ours -> time s = TSig a :: TSig b :: l ->
    wait_event m t s = wait_event m t (with_time (TSig b :: l) s).
  Proof. intros Ha Hb Ht. unfold wait_event, get_signal. now rewrite (overtaken s a b l Ha Hb Ht). Qed.

  Lemma overtaken_read t s a b l : disp s a = Ours -> disp s b = Ours -> time s = TSig a :: TSig b :: l ->
    inbuf s = [] ->
    read_event C m t s = read_event C m t (with_time (TSig b :: l) s).
  Proof.
    intros Ha Hb Ht Hi. unfold read_event, try_read. cbn [inbuf with_time]. rewrite Hi. cbn [obind].
    unfold read_into_buffer, read_input, take_signal. cbn [inbuf incap with_time]. rewrite Hi.
    rewrite (overtaken (with_inbuf [] 0 s) a b l Ha Hb Ht). reflexivity.
  Qed.

  (** ** Waking up (C45) *)
  Lemma pass_ticks l : forall s r, Forall idle_tick l -> ~ In TStep l ->
    pass (l ++ r) s = pass r (fold_left (fun z t => happens t z) l s).
  Proof.
    induction l as [|k l IH]; intros s r Hl Hn; [reflexivity|].
    inversion Hl; subst. cbn [app fold_left]. rewrite <- IH; auto.
    - destruct k; cbn in *; try contradiction; try reflexivity. exfalso. auto.
    - intros X. apply Hn. now right.
  Qed.

  (** A wait passes over idle ticks. *)
  Lemma await_idle l : forall r s, Forall idle_tick l -> failing s = None -> queue s = [] ->
    exists s', await None (l ++ r) s = await None r s' /\
      failing s' = None /\ queue s' = [] /\ last_sig s' = last_sig s /\ disp s' = disp s /\ inbuf s' = inbuf s.
  Proof.
    induction l as [|k l IH]; intros r s Hl Hf Hq; [exists s; auto 10|].
    inversion Hl as [|? ? Hk Hl']; subst.
    assert (E : await None ((k :: l) ++ r) s = await None (l ++ r) (happens k s)).
    { cbn [app await]. rewrite Hf, Hq. destruct k; cbn in Hk; try contradiction; reflexivity. }
    rewrite E. destruct (IH r (happens k s)) as (s' & E' & H); auto; try (destruct k; cbn in Hk; try contradiction; assumption).
    exists s'. split; [exact E'|]. destruct k; cbn in Hk; try contradiction; exact H.
  Qed.

  (** A signal that comes while the call sleeps ends the wait. *)
  Lemma wakes s idle n l sig : asleep m s -> conv_signal (last_sig s) = None -> conv_signal n = Some sig ->
    disp s n = Ours -> Forall idle_tick idle -> time s = TStep :: TStep :: idle ++ TSig n :: TStep :: l ->
    exists s', wait_event m None s = Ret s' true /\ last_sig s' = n.
  Proof.
    intros (A1 & A2 & A3) Hc Hn Hd Hi Ht. unfold wait_event, get_signal, advance. rewrite Ht. cbn [pass].
    cbn [last_sig with_time]. rewrite Hc. unfold peek. cbn [inbuf with_time]. rewrite A3. cbn [obind].
    unfold turns. cbn [wait_loop]. unfold select, advance. cbn [time with_time pass].
    match goal with |- context [await None (idle ++ ?r) ?z] => destruct (await_idle idle r z Hi A1 A2) as (s1 & E & F1 & F2 & F3 & F4 & F5) end.
    rewrite E. cbn [await]. rewrite F1, F2, F4. cbn [disp with_time]. rewrite Hd.
    unfold get_signal, advance. cbn [time with_time with_last pass last_sig]. rewrite Hn.
    eexists. split; reflexivity.
  Qed.

  (** A signal that comes just before the sleep does not: without a time limit the
      call never returns, with one it reports that there is nothing. *)
  Lemma sleeps_on s n l : asleep m s -> conv_signal (last_sig s) = None ->
    disp s n = Ours -> Forall idle_tick l -> time s = TStep :: TSig n :: TStep :: l ->
    wait_event m None s = Blocked.
  Proof.
    intros (A1 & A2 & A3) Hc Hd Hi Ht. unfold wait_event, get_signal, advance. rewrite Ht. cbn [pass].
    cbn [last_sig with_time]. rewrite Hc. unfold peek. cbn [inbuf with_time]. rewrite A3. cbn [obind].
    unfold turns. cbn [wait_loop]. unfold select, advance. cbn [time with_time pass happens disp]. rewrite Hd.
    cbn [time with_time with_last pass].
    match goal with |- context [await None l ?z] => destruct (await_idle l [] z Hi A1 A2) as (s1 & E & F1 & F2 & _) end.
    rewrite app_nil_r in E. rewrite E. cbn [await]. rewrite F1, F2. reflexivity.
  Qed.

  Lemma sleeps_through s n l d ms : asleep m s -> conv_signal (last_sig s) = None ->
    disp s n = Ours -> time s = TStep :: TSig n :: TStep :: TTime :: l -> to_timeval d = Val ms -> ms <> 0%N ->
    exists s', wait_event m (Some d) s = Ret s' false /\ last_sig s' = n.
  Proof.
    intros (A1 & A2 & A3) Hc Hd Ht Hms Hz. unfold wait_event, get_signal, advance. rewrite Ht. cbn [pass].
    cbn [last_sig with_time]. rewrite Hc. unfold peek. cbn [inbuf with_time]. rewrite A3. cbn [obind]. rewrite Hms.
    unfold turns. cbn [wait_loop]. unfold select, advance. cbn [time with_time pass happens disp]. rewrite Hd.
    cbn [time with_time with_last pass await failing queue]. rewrite A1, A2.
    destruct ms as [|p]; [congruence|]. eexists. split; reflexivity.
  Qed.

  (** ** Every wait ends, or waits for something (C46) *)
  Definition budget (s : sys) : nat := length (time s) + match failing s with Some _ => 1 | None => 0 end.
  Definition awake (s : sys) : Prop := queue s <> [].

  Lemma pass_budget l : forall s, budget (pass l s) <= length l + match failing s with Some _ => 1 | None => 0 end.
  Proof.
    induction l as [|k l IH]; intros s; [unfold budget; cbn; lia|].
    destruct k; try (cbn [pass]; eapply Nat.le_trans; [apply IH|]; cbn; destruct (failing s); cbn; try destruct (disp s n); cbn; lia).
    - cbn [pass happens]. eapply Nat.le_trans; [apply IH|]. destruct (disp s n); cbn; lia.
    - unfold budget. cbn. lia.
  Qed.
  Lemma advance_budget s : budget (advance s) <= budget s.
  Proof. apply pass_budget. Qed.

  Lemma pass_awake l : forall s, awake s -> awake (pass l s).
  Proof.
    unfold awake. induction l as [|k l IH]; intros s H; [exact H|].
    destruct k; cbn [pass]; try exact H; apply IH; cbn; try exact H.
    - destruct (disp s n); exact H.
    - intros X. now apply app_eq_nil in X as [X _].
  Qed.

  Lemma await_awake ms s : awake s -> let l := time s in
    await ms l s = (with_time l s, WReady) \/
    exists e, failing s = Some e /\ await ms l s = (with_failing None (with_time l s), WError e).
  Proof.
    intros H l. clearbody l. unfold awake in H. destruct l; cbn [await]; (destruct (failing s); [right; eauto|left]);
      destruct (queue s); congruence.
  Qed.

  Lemma wait_loop_awake fuel : forall ms s, awake s -> budget s < fuel -> wait_loop fuel ms s <> Blocked.
  Proof.
    induction fuel as [|fuel IH]; intros ms s Ha Hf; [lia|]. cbn [wait_loop]. unfold select.
    pose proof (pass_awake (time s) s Ha) as Ha1. fold (advance s) in Ha1. pose proof (advance_budget s) as Hb.
    destruct (await_awake ms (advance s) Ha1) as [->|(e & He & ->)]; [discriminate|].
    destruct (e =? EINTR)%N; [|discriminate]. unfold get_signal.
    destruct (conv_signal _); [discriminate|]. apply IH; [now apply pass_awake|].
    pose proof (advance_budget (with_failing None (with_time (time (advance s)) (advance s)))) as H.
    unfold budget in *. cbn [time failing with_failing with_time] in *. rewrite He in Hb. lia.
  Qed.

  Lemma read_loop_awake fuel room : forall s, awake s -> budget s < fuel -> read_loop fuel room s <> Blocked.
  Proof.
    induction fuel as [|fuel IH]; intros s Ha Hf; [lia|]. cbn [read_loop]. unfold os_read.
    pose proof (pass_awake (time s) s Ha) as Ha1. fold (advance s) in Ha1. pose proof (advance_budget s) as Hb.
    set (ms := if never_waits _ then _ else _). clearbody ms.
    destruct (await_awake ms (advance s) Ha1) as [->|(e & He & ->)].
    - unfold take_queue. cbn [queue with_time]. destruct (queue (advance s)); [discriminate|]. destruct (_ <=? _); discriminate.
    - destruct (e =? EINTR)%N; [|discriminate]. unfold take_signal.
      destruct (conv_signal _); [discriminate|]. apply IH.
      + pose proof (pass_awake (time (advance s)) (with_failing None (with_time (time (advance s)) (advance s))) Ha1) as X. exact X.
      + pose proof (advance_budget (with_failing None (with_time (time (advance s)) (advance s)))) as H.
        unfold budget in *. cbn [time failing with_failing with_time with_last] in *. rewrite He in Hb. lia.
  Qed.

  Lemma turns_budget s : budget s < turns s.
  Proof. unfold budget, turns. destruct (failing s); lia. Qed.
End Signals.
