(** Proofs about how long a wait with a timeout takes (C139). *)
From Verif Require Import Base M_Utf8 S_Utf8 P_Utf8 M_Geom M_Seq S_Seq M_Signal M_Util M_Input S_Input P_Input
  M_Writer S_Writer P_Writer M_Prepare M_Reader S_Prepare S_Reader P_Prepare P_Prepare2 P_Reader P_Reader2 P_Reader3 S_Timed.
Local Open Scope nat_scope.

Definition fl (s : sys) : nat := match failing s with Some _ => 1 | None => 0 end.
(** What can interrupt a wait. *)
Fixpoint hits (l : list tick) : nat :=
  match l with
  | [] => 0
  | (TSig _ | TIntr | TFail _) :: l => S (hits l)
  | _ :: l => hits l
  end.
Lemma hits_app a b : hits (a ++ b) = hits a + hits b.
Proof. induction a as [|[] a IH]; cbn; lia. Qed.
Lemma hits_length l : hits l <= length l.
Proof. induction l as [|[] l IH]; cbn; lia. Qed.

Lemma clock_S n : clock (S n) = TStep :: TTime :: clock n.
Proof. reflexivity. Qed.
Lemma shift_clock l n : l ++ clock (S n) = (l ++ [TStep; TTime]) ++ clock n.
Proof. rewrite <- app_assoc. reflexivity. Qed.

Lemma happens_fl k s : match k with TFail _ => True | _ => fl (happens k s) = fl s end.
Proof. destruct k; try exact I; try reflexivity. cbn. now destruct (disp s n). Qed.
Lemma hit_step k l s : hits l + fl (happens k s) <= hits (k :: l) + fl s.
Proof. pose proof (happens_fl k s) as H. destruct k; cbn [hits]; try (rewrite H; lia). cbn. unfold fl. cbn. destruct (failing s); lia. Qed.

Lemma pass_clock n l : forall s, exists l', time (pass (l ++ clock (S n)) s) = l' ++ clock n /\
  hits l' + fl (pass (l ++ clock (S n)) s) <= hits l + fl s.
Proof.
  induction l as [|k l IH]; intros s.
  - rewrite clock_S. cbn. exists [TTime]. split; [reflexivity|]. cbn. unfold fl. cbn. lia.
  - assert (G : exists l', time (pass (l ++ clock (S n)) (happens k s)) = l' ++ clock n /\
      hits l' + fl (pass (l ++ clock (S n)) (happens k s)) <= hits (k :: l) + fl s).
    { destruct (IH (happens k s)) as (l' & H1 & H2). exists l'. split; [exact H1|]. pose proof (hit_step k l s). lia. }
    destruct k; try exact G.
    cbn [app pass]. exists (l ++ [TStep; TTime]). split; [cbn [time with_time]; apply shift_clock|].
    rewrite hits_app. cbn. unfold fl. cbn. lia.
Qed.
Lemma advance_clock n l s : time s = l ++ clock (S n) -> exists l', time (advance s) = l' ++ clock n /\ hits l' + fl (advance s) <= hits l + fl s.
Proof. intros H. unfold advance. rewrite H. apply pass_clock. Qed.

Lemma await_clock n k l : forall s,
  match await (Some k) (l ++ clock (S n)) s with
  | (s', WEintr) | (s', WError _) => exists l', time s' = l' ++ clock (S n) /\ hits l' + fl s' < hits l + fl s
  | (_, WNever) => False
  | _ => True
  end.
Proof.
  induction l as [|t l IH]; intros s.
  - cbn [app]. rewrite clock_S. cbn [await happens]. unfold fl. destruct (failing s) as [e|].
    { exists []. cbn. split; [reflexivity|lia]. }
    destruct (queue s); [|exact I]. destruct k; exact I.
  - cbn [app await]. destruct (failing s) as [e|] eqn:Ef.
    { exists (t :: l). split; [reflexivity|]. cbn [app]. unfold fl. rewrite Ef. cbn. lia. }
    destruct (queue s); [|exact I].
    destruct (match Some k with Some 0%N => true | _ => false end); [exact I|].
    assert (G : match await (Some k) (l ++ clock (S n)) (happens t s) with
      | (s', WEintr) | (s', WError _) => exists l', time s' = l' ++ clock (S n) /\ hits l' + fl s' < hits (t :: l) + fl s
      | (_, WNever) => False
      | _ => True
      end).
    { specialize (IH (happens t s)). pose proof (hit_step t l s) as Hs. destruct (await _ _ _) as [s' []]; auto;
        destruct IH as (l' & H1 & H2); exists l'; (split; [exact H1|lia]). }
    destruct t as [x| |bs| |e|w|]; try exact G; try exact I.
    + destruct (disp s x) eqn:Ed.
      * exists l. split; [reflexivity|]. unfold fl. cbn. rewrite Ef. lia.
      * cbn [happens] in G. rewrite Ed in G. exact G.
    + exists l. split; [reflexivity|]. unfold fl. cbn. rewrite Ef. lia.
Qed.

Lemma await_budget ms l : forall s,
  match await ms l s with
  | (s', WEintr) | (s', WError _) => budget s' < length l + fl s
  | _ => True
  end.
Proof.
  induction l as [|t l IH]; intros s.
  - cbn. unfold budget, fl. destruct (failing s); [cbn; lia|]. destruct (queue s); [|exact I]. destruct ms as [[|]|]; exact I.
  - cbn [await]. destruct (failing s) as [e|] eqn:Ef.
    { unfold budget, fl. cbn. rewrite Ef. lia. }
    destruct (queue s); [|exact I]. destruct (match ms with Some 0%N => true | _ => false end); [exact I|].
    assert (G : match await ms l (happens t s) with
      | (s', WEintr) | (s', WError _) => budget s' < length (t :: l) + fl s
      | _ => True
      end).
    { specialize (IH (happens t s)). assert (Hs : fl (happens t s) <= 1 + fl s).
      { unfold fl. destruct (failing (happens t s)); lia. }
      destruct (await _ _ _) as [s' []]; auto; cbn [length]; lia. }
    destruct t as [x| |bs| |e|w|]; try exact G; try exact I.
    + destruct (disp s x) eqn:Ed.
      * unfold budget, fl. cbn. rewrite Ef. lia.
      * cbn [happens] in G. rewrite Ed in G. exact G.
    + unfold budget, fl. cbn. rewrite Ef. lia.
    + destruct ms; [exact I|exact G].
Qed.

Lemma wait_loop_clock k fuel : forall n l s, time s = l ++ clock n -> 2 * (hits l + fl s) + 2 <= n -> budget s < fuel ->
  wait_loop fuel (Some k) s <> Blocked.
Proof.
  induction fuel as [|fuel IH]; intros n l s Ht Hn Hf; [lia|]. cbn [wait_loop]. unfold select.
  destruct n as [|[|n]]; [lia|lia|].
  destruct (advance_clock _ _ _ Ht) as (l1 & T1 & O1). pose proof (advance_budget s) as Hb.
  pose proof (await_clock n k l1 (advance s)) as HA. rewrite <- T1 in HA.
  pose proof (await_budget (Some k) (time (advance s)) (advance s)) as HB.
  assert (Hi : forall s2, (exists l', time s2 = l' ++ clock (S n) /\ hits l' + fl s2 < hits l1 + fl (advance s)) ->
    budget s2 < length (time (advance s)) + fl (advance s) ->
    (let '(s0, sig) := get_signal s2 in match sig with Some _ => Ret s0 true | None => wait_loop fuel (Some k) s0 end) <> Blocked).
  { intros s2 (l2 & T2 & O2) B2. unfold get_signal. destruct (conv_signal _); [discriminate|].
    destruct (advance_clock _ _ _ T2) as (l3 & T3 & O3). pose proof (advance_budget s2) as Hb2.
    apply (IH n l3); [exact T3|lia|]. unfold budget in *. unfold fl in *. lia. }
  destruct (await (Some k) (time (advance s)) (advance s)) as [s2 []]; try discriminate.
  - apply Hi; assumption.
  - destruct (e =? EINTR)%N; [apply Hi; assumption|discriminate].
  - contradiction.
Qed.

Section Timed.
  Variables (C : tcfg) (m : seq_map).

  Lemma wait_ends d n l s : time s = l ++ clock n -> 2 * (hits l + fl s) + 3 <= n -> wait_event m (Some d) s <> Blocked.
  Proof.
    intros Ht Hn. destruct n as [|n]; [lia|]. unfold wait_event, get_signal.
    destruct (advance_clock _ _ _ Ht) as (l1 & T1 & O1).
    destruct (conv_signal _); [discriminate|]. unfold peek.
    destruct (peek_event _ m) as [[| |]|]; cbn [obind]; try discriminate.
    destruct (to_timeval d) as [ms|]; [|discriminate].
    apply (wait_loop_clock ms _ n l1); [exact T1|lia|apply turns_budget].
  Qed.

  Lemma input_ends room d n l s : handlers_known s -> inbuf s = [] -> time s = l ++ clock n -> 2 * (hits l + fl s) + 4 <= n ->
    read_input m room (Some d) s <> Blocked.
  Proof.
    intros Hk Hi Ht Hn. destruct n as [|n]; [lia|]. unfold read_input, take_signal.
    destruct (advance_clock _ _ _ Ht) as (l1 & T1 & O1).
    destruct (conv_signal (last_sig (advance s))); [discriminate|].
    set (s1 := with_last 0 (advance s)).
    assert (Hw : wait_event m (Some d) s1 <> Blocked) by (apply (wait_ends d n l1); [exact T1|change (fl s1) with (fl (advance s)); lia]).
    assert (Hk1 : handlers_known s1).
    { destruct (advance_spec s) as [P _]. destruct P as (_ & _ & _ & _ & D & _).
      intros x. change (disp s1) with (disp (advance s)). rewrite D. apply Hk. }
    assert (I1 : inbuf s1 = []).
    { destruct (advance_spec s) as [(_ & _ & _ & _ & _ & _ & I & _) _]. exact (eq_trans I Hi). }
    clearbody s1. pose proof (wait_event_ends m (Some d) s1) as He.
    destruct (wait_event m (Some d) s1) as [s2 [|]|s2 e| |] eqn:Ew; cbn [obind negb]; try discriminate; [|congruence].
    cbn in He. assert (Hr := wait_ready m (Some d) s1 s2 Ew).
    destruct He as [(_ & _ & _ & _ & D & _ & I2 & _) _].
    assert (Hk2 : handlers_known s2) by (intros x; rewrite D; apply Hk1).
    destruct (conv_signal (last_sig (advance s2))) eqn:Ec; [discriminate|].
    destruct Hr as [Hr|[(e & n' & Hr)|Hr]].
    - exfalso. exact (pass_pending (time s2) s2 Hk2 Hr Ec).
    - rewrite I2, I1 in Hr. discriminate Hr.
    - apply read_loop_awake; [apply (pass_awake (time s2) s2 Hr)|apply turns_budget].
  Qed.

  Lemma raw_ends room d n l s : handlers_known s -> time s = l ++ clock n -> 2 * (hits l + fl s) + 4 <= n ->
    read_raw C m room (Some d) s = Blocked -> exists sig s2, handle_signal C sig s2 = Blocked /\ wr s2 = wr s.
  Proof.
    intros Hk Ht Hn. unfold read_raw. destruct (inbuf s) eqn:Ei; [|discriminate].
    pose proof (input_ends room d n l s Hk Ei Ht Hn) as H. pose proof (read_input_ends m room (Some d) s) as He.
    destruct (read_input m room (Some d) s) as [s2 [[sig|bs]|]|s2 e| |]; cbn [obind]; try discriminate; [|congruence].
    intros X. exists sig, s2. split.
    - destruct (handle_signal C sig s2); try discriminate X. reflexivity.
    - cbn in He. apply He.
  Qed.

  Lemma read_ends d n l s : handlers_known s -> time s = l ++ clock n -> 2 * (hits l + fl s) + 4 <= n ->
    read_event C m (Some d) s = Blocked -> exists sig s2, handle_signal C sig s2 = Blocked /\ wr s2 = wr s.
  Proof.
    intros Hk Ht Hn. unfold read_event.
    destruct (try_read m s) as [s0 [e|]|s0 e| |] eqn:Et; cbn [obind]; try discriminate.
    2:{ unfold try_read, peek in Et. destruct (inbuf s); [discriminate|]. destruct (peek_event _ m) as [[| |]|]; discriminate. }
    assert (s0 = s) as ->.
    { unfold try_read, peek in Et. destruct (inbuf s) eqn:Ei; [now injection Et|].
      destruct (peek_event _ m) as [[| |]|]; try discriminate. now injection Et. }
    unfold read_into_buffer. set (cap := if (_ <=? _) then incap s else _). clearbody cap.
    set (s1 := with_inbuf [] 0 s). assert (W1 : wr s1 = wr s) by reflexivity.
    pose proof (input_ends (cap - length (inbuf s)) d n l s1 Hk eq_refl Ht Hn) as H.
    pose proof (read_input_ends m (cap - length (inbuf s)) (Some d) s1) as He.
    destruct (read_input m (cap - length (inbuf s)) (Some d) s1) as [s2 [[sig|bs]|]|s2 e| |]; cbn [obind]; try discriminate.
    - intros X. exists sig. eexists. split; [exact X|]. cbn in He |- *. rewrite <- W1. apply He.
    - unfold try_read, peek. cbn [inbuf with_inbuf]. destruct (inbuf s ++ bs) as [|b r] eqn:Eb; [discriminate|].
      cbn [inbuf with_inbuf]. destruct (peek_event (b :: r) m) as [[| |]|]; discriminate.
    - congruence.
  Qed.
End Timed.

Lemma await_quiet k idle : k <> 0%N -> forall s rest, failing s = None -> queue s = [] -> Forall (quiet_tick s) idle ->
  exists w, await (Some k) (idle ++ TTime :: rest) s = (with_time rest (with_win w s), WTimeout).
Proof.
  intros Hk. induction idle as [|t idle IH]; intros s rest Hf Hq Hi; cbn [app await]; rewrite Hf, Hq.
  - destruct k; [congruence|]. exists (win s). destruct s; reflexivity.
  - destruct k as [|p]; [congruence|]. inversion Hi as [|? ? Ht Hi']; subst.
    destruct t as [x| |bs| |e|w|]; try contradiction; cbn [happens].
    + destruct (disp s x) eqn:Ed; [contradiction|]. now apply IH.
    + destruct (IH (with_win w s) rest Hf Hq) as (w' & H); [exact Hi'|]. exists w'. exact H.
    + now apply IH.
Qed.

Section Prompt.
  Variables (C : tcfg) (m : seq_map).

  Lemma wait_prompt s idle later d ms : asleep m s -> conv_signal (last_sig s) = None -> Forall (quiet_tick s) idle ->
    time s = TStep :: TStep :: idle ++ TTime :: later -> to_timeval d = Val ms -> ms <> 0%N ->
    exists w, wait_event m (Some d) s = Ret (with_time later (with_win w s)) false.
  Proof.
    intros (Hf & Hq & Hp) Hc Hi Ht Hd Hm. unfold wait_event, get_signal, advance. rewrite Ht. cbn [pass]. cbn [last_sig with_time].
    rewrite Hc. unfold peek. cbn [inbuf with_time]. rewrite Hp. cbn [obind]. rewrite Hd. unfold turns.
    cbn [wait_loop]. unfold select, advance. cbn [time with_time pass].
    destruct (await_quiet ms idle Hm (with_time (idle ++ TTime :: later) s) later Hf Hq Hi) as (w & H).
    exists w.
    match goal with |- context [await ?a ?b ?c] => replace (await a b c) with (await a b (with_time (idle ++ TTime :: later) s)) by reflexivity end.
    rewrite H. reflexivity.
  Qed.

  Lemma wait_zero s later d : asleep m s -> conv_signal (last_sig s) = None ->
    time s = TStep :: TStep :: later -> to_timeval d = Val 0%N ->
    wait_event m (Some d) s = Ret (with_time later s) false.
  Proof.
    intros (Hf & Hq & Hp) Hc Ht Hd. unfold wait_event, get_signal, advance. rewrite Ht. cbn [pass]. cbn [last_sig with_time].
    rewrite Hc. unfold peek. cbn [inbuf with_time]. rewrite Hp. cbn [obind]. rewrite Hd. unfold turns.
    cbn [wait_loop]. unfold select, advance. cbn [time with_time pass].
    destruct later; cbn [await failing queue with_time]; rewrite Hf, Hq; reflexivity.
  Qed.

  Lemma read_prompt s idle later d ms : asleep m s -> conv_signal (last_sig s) = None -> Forall (quiet_tick s) idle ->
    time s = TStep :: TStep :: TStep :: idle ++ TTime :: later -> to_timeval d = Val ms -> ms <> 0%N ->
    exists s', read_event C m (Some d) s = Ret s' None /\ time s' = later /\ inbuf s' = inbuf s.
  Proof.
    intros (Hf & Hq & Hp) Hc Hi Ht Hd Hm. unfold read_event.
    assert (Et : try_read m s = Ret s None).
    { unfold try_read, peek. destruct (inbuf s) eqn:Ei; [reflexivity|]. rewrite Hp. reflexivity. }
    rewrite Et. cbn [obind]. unfold read_into_buffer. set (cap := if (_ <=? _) then incap s else _). clearbody cap.
    unfold read_input, take_signal, advance. cbn [time with_inbuf]. rewrite Ht. cbn [pass]. cbn [last_sig with_inbuf with_time].
    rewrite Hc.
    destruct (wait_prompt (with_last 0 (with_time (TStep :: TStep :: idle ++ TTime :: later) (with_inbuf [] 0 s))) idle later d ms)
      as (w & H); try assumption; try reflexivity.
    - split; [exact Hf|]. split; [exact Hq|]. reflexivity.
    - match goal with |- context [wait_event m (Some d) ?x] =>
        change x with (with_last 0 (with_time (TStep :: TStep :: idle ++ TTime :: later) (with_inbuf [] 0 s))) end.
      rewrite H. cbn [obind negb]. eexists. split; [reflexivity|]. split; reflexivity.
  Qed.
End Prompt.

Section Plenty.
  Variables (C : tcfg) (m : seq_map).
  Lemma plenty l s n : 2 * length l + 6 <= n -> 2 * (hits l + fl s) + 4 <= n.
  Proof. intros H. pose proof (hits_length l). unfold fl. destruct (failing s); lia. Qed.
  Lemma wait_in_time d l n s : 2 * length l + 6 <= n -> wait_event m (Some d) (with_time (l ++ clock n) s) <> Blocked.
  Proof. intros H. apply (wait_ends m d n l); [reflexivity|]. pose proof (plenty l (with_time (l ++ clock n) s) n H). lia. Qed.
  Lemma read_in_time d l n s : handlers_known s -> 2 * length l + 6 <= n ->
    read_event C m (Some d) (with_time (l ++ clock n) s) = Blocked -> exists sig s2, handle_signal C sig s2 = Blocked /\ wr s2 = wr s.
  Proof. intros Hk H. apply (read_ends C m d n l (with_time (l ++ clock n) s)); [exact Hk|reflexivity|now apply plenty]. Qed.
  Lemma raw_in_time room d l n s : handlers_known s -> 2 * length l + 6 <= n ->
    read_raw C m room (Some d) (with_time (l ++ clock n) s) = Blocked -> exists sig s2, handle_signal C sig s2 = Blocked /\ wr s2 = wr s.
  Proof. intros Hk H. apply (raw_ends C m room d n l (with_time (l ++ clock n) s)); [exact Hk|reflexivity|now apply plenty]. Qed.
End Plenty.
