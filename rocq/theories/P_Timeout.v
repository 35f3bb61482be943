(** Proofs about what ends a wait (C86). *)
From Verif Require Import Base M_Utf8 S_Utf8 P_Utf8 M_Geom M_Seq S_Seq M_Signal M_Util M_Input S_Input P_Input
  M_Writer S_Writer P_Writer M_Prepare M_Reader S_Prepare S_Reader P_Prepare P_Prepare2 P_Reader P_Reader2 P_Reader3 S_Timeout.
Local Open Scope nat_scope.

(** Time has passed; nothing was read. *)
Definition later (s s' : sys) : Prop :=
  (exists pre, time s = pre ++ time s') /\
  (last_sig s' = last_sig s \/ last_sig s' = 0%N \/ In (TSig (last_sig s')) (time s)) /\
  portions s' = portions s /\ disp s' = disp s /\ inbuf s' = inbuf s.
Lemma later_refl s : later s s.
Proof. repeat split; auto. now exists []. Qed.
Lemma later_trans a b c : later a b -> later b c -> later a c.
Proof.
  intros ((p & P) & L & Q & D & I) ((p' & P') & L' & Q' & D' & I').
  split; [exists (p ++ p'); rewrite P, P'; now rewrite app_assoc|].
  split; [|repeat split; congruence].
  destruct L' as [->|[->|L']]; [exact L|auto|]. right. right. rewrite P. apply in_or_app. now right.
Qed.

Lemma happens_later k l s : time s = k :: l -> later s (with_time l (happens k s)).
Proof.
  intros H. assert (Ht : exists pre, time s = pre ++ l) by (exists [k]; exact H).
  destruct k; cbn [happens]; unfold later; cbn; rewrite ?H; (split; [rewrite <- H; exact Ht|]); repeat split; auto;
    unfold portions; cbn; rewrite ?H; cbn; rewrite <- ?app_assoc; auto.
  all: destruct (disp s n); cbn; auto.
Qed.
Lemma happens_time k l s : happens k (with_time l s) = with_time l (happens k s).
Proof. destruct k; try reflexivity. cbn [happens disp with_time]. destruct (disp s n); reflexivity. Qed.
Lemma pass_time l : forall s l', pass l (with_time l' s) = pass l s.
Proof.
  induction l as [|k l IH]; intros s l'; cbn [pass]; [reflexivity|].
  destruct k; rewrite ?happens_time; try apply IH; reflexivity.
Qed.
Lemma pass_later l : forall s, time s = l -> later s (pass l s).
Proof.
  induction l as [|k l IH]; intros s H.
  - cbn. unfold later. cbn. rewrite H. repeat split; auto; [now exists []|]. unfold portions. cbn. now rewrite H.
  - assert (G : later s (pass l (happens k s))).
    { eapply later_trans; [apply happens_later; exact H|].
      rewrite <- (pass_time l _ l). now apply IH. }
    destruct k; try exact G. cbn [pass]. apply (happens_later TStep l s H).
Qed.
Lemma advance_later s : later s (advance s).
Proof. now apply pass_later. Qed.

Lemma await_time ms l : forall s l', await ms l (with_time l' s) = await ms l s.
Proof.
  induction l as [|k l IH]; intros s l'; cbn [await failing queue with_time].
  - destruct (failing s), (queue s); reflexivity.
  - destruct (failing s); [reflexivity|]. destruct (queue s); [|reflexivity].
    destruct (match ms with Some 0%N => true | _ => false end); [reflexivity|].
    destruct k; rewrite ?happens_time; try reflexivity; try apply IH.
    + cbn [disp with_time]. destruct (disp s n); [reflexivity|apply IH].
    + destruct ms; [reflexivity|apply IH].
Qed.

Lemma await_later ms l : forall s, time s = l -> later s (fst (await ms l s)).
Proof.
  induction l as [|k l IH]; intros s H; cbn [await].
  - assert (L : later s (with_time [] s)).
    { unfold later. cbn. rewrite H. repeat split; auto; [now exists []|]. unfold portions. cbn. now rewrite H. }
    destruct (failing s); [exact L|]. destruct (queue s); [|exact L]. destruct (match ms with Some 0%N => true | _ => false end); exact L.
  - assert (L : later s (with_time (k :: l) s)).
    { unfold later. cbn. rewrite H. repeat split; auto; [now exists []|]. unfold portions. cbn. now rewrite H. }
    destruct (failing s); [exact L|]. destruct (queue s) eqn:Eq; [|exact L].
    destruct (match ms with Some 0%N => true | _ => false end); [exact L|]. clear L.
    pose proof (happens_later k l s H) as L.
    assert (G : later s (fst (await ms l (happens k s)))).
    { eapply later_trans; [exact L|]. rewrite <- (await_time ms l (happens k s) l). now apply IH. }
    destruct k; try exact G; try exact L.
    + cbn [happens] in *. destruct (disp s n); [exact L|exact G].
    + destruct ms; [exact L|exact G].
Qed.
Lemma select_later ms s : later s (fst (select ms s)).
Proof. unfold select. eapply later_trans; [apply advance_later|]. now apply await_later. Qed.

Lemma await_timeout ms l : forall s s', await ms l s = (s', WTimeout) ->
  queue s' = [] /\ exists n, ms = Some n /\ (n = 0%N \/ exists pre, l = pre ++ TTime :: time s').
Proof.
  induction l as [|k l IH]; intros s s'; cbn [await]; (destruct (failing s); [discriminate|]); (destruct (queue s) eqn:Eq; [|discriminate]).
  - destruct ms as [[|p]|]; try discriminate. intros [= <-]. split; [exact Eq|]. eauto.
  - assert (G : forall x, await ms l x = (s', WTimeout) -> queue s' = [] /\ exists n, ms = Some n /\ (n = 0%N \/ exists pre, k :: l = pre ++ TTime :: time s')).
    { intros x Hx. destruct (IH _ _ Hx) as (Q & n & -> & Hn). split; [exact Q|]. exists n. split; [reflexivity|].
      destruct Hn as [Hn|(pre & Hn)]; [auto|right; exists (k :: pre); now rewrite Hn]. }
    destruct ms as [[|p]|]; [intros [= <-]; split; [exact Eq|]; eauto| |].
    all: destruct k; try discriminate; try (apply G); try (destruct (disp s n); [discriminate|apply G]).
    intros [= <-]. split; [exact Eq|]. exists (N.pos p). split; [reflexivity|]. right. exists []. reflexivity.
Qed.

Lemma wait_loop_false fuel : forall ms s s', wait_loop fuel ms s = Ret s' false ->
  queue s' = [] /\ later s s' /\ exists n, ms = Some n /\ (n = 0%N \/ exists pre, time s = pre ++ TTime :: time s').
Proof.
  induction fuel as [|fuel IH]; intros ms s s'; [discriminate|]. cbn [wait_loop].
  pose proof (select_later ms s) as L. destruct (select ms s) as [s1 w] eqn:Es. cbn [fst] in L.
  assert (Hi : (let '(z, sig) := get_signal s1 in match sig with Some _ => Ret z true | None => wait_loop fuel ms z end) = Ret s' false ->
     queue s' = [] /\ later s s' /\ exists n, ms = Some n /\ (n = 0%N \/ exists pre, time s = pre ++ TTime :: time s')).
  { unfold get_signal. destruct (conv_signal _); [discriminate|]. intros H. destruct (IH _ _ _ H) as (Q & L' & n & -> & Hn).
    assert (L1 : later s (advance s1)) by (eapply later_trans; [exact L|apply advance_later]).
    split; [exact Q|]. split; [eapply later_trans; eauto|]. exists n. split; [reflexivity|]. destruct Hn as [Hn|(pre & Hn)]; [auto|].
    destruct L1 as ((p & P) & _). right. exists (p ++ pre). rewrite P, Hn. now rewrite app_assoc. }
  destruct w; try discriminate; try exact Hi.
  - intros [= <-]. unfold select in Es. apply await_timeout in Es as (Q & n & -> & Hn). split; [exact Q|]. split; [exact L|].
    exists n. split; [reflexivity|]. destruct Hn as [Hn|(pre & Hn)]; [auto|]. destruct (advance_later s) as ((p & P) & _).
    right. exists (p ++ pre). rewrite P, Hn. now rewrite app_assoc.
  - destruct (e =? EINTR)%N; [exact Hi|discriminate].
Qed.

Lemma wait_false m t s s' : wait_event m t s = Ret s' false ->
  elapsed t s s' /\ queue s' = [] /\ peek_event (inbuf s') m = Val PNone /\ inbuf s' = inbuf s /\ portions s' = portions s.
Proof.
  unfold wait_event, get_signal. destruct (conv_signal _); [discriminate|].
  pose proof (advance_later s) as L. unfold peek. destruct (peek_event (inbuf (advance s)) m) as [[| |e n]|] eqn:Ep; try discriminate. cbn [obind].
  destruct t as [d|].
  2:{ intros H. apply wait_loop_false in H as (_ & _ & n & H & _). discriminate H. }
  destruct (to_timeval d) as [ms|] eqn:Et; [|discriminate]. intros H. apply wait_loop_false in H as (Q & L' & n & [= <-] & Hn).
  pose proof (later_trans _ _ _ L L') as (_ & _ & P & _ & I).
  assert (I' : inbuf s' = inbuf (advance s)) by apply L'.
  split; [|split; [exact Q|split; [rewrite I'; exact Ep|auto]]].
  exists d, ms. split; [reflexivity|]. split; [exact Et|]. destruct Hn as [Hn|(pre & Hn)]; [auto|].
  destruct L as ((p & L) & _). right. exists (p ++ pre). rewrite L, Hn. now rewrite app_assoc.
Qed.

Lemma wait_later m t s s' b : wait_event m t s = Ret s' b -> later s s'.
Proof.
  assert (W : forall fuel ms s s' b, wait_loop fuel ms s = Ret s' b -> later s s').
  { induction fuel as [|fuel IH]; intros ms z z' c; [discriminate|]. cbn [wait_loop].
    pose proof (select_later ms z) as L. destruct (select ms z) as [s1 w]. cbn [fst] in L.
    assert (Hi : (let '(y, sig) := get_signal s1 in match sig with Some _ => Ret y true | None => wait_loop fuel ms y end) = Ret z' c -> later z z').
    { unfold get_signal. pose proof (later_trans _ _ _ L (advance_later s1)) as L1.
      destruct (conv_signal _); [intros [= <- <-]; exact L1|]. intros H. eapply later_trans; [exact L1|eapply IH; exact H]. }
    destruct w; try discriminate; try exact Hi; try (intros [= <- <-]; exact L).
    destruct (e =? EINTR)%N; [exact Hi|discriminate]. }
  unfold wait_event, get_signal. pose proof (advance_later s) as L.
  destruct (conv_signal _); [intros [= <- <-]; exact L|]. unfold peek.
  destruct (peek_event _ m) as [[| |e n]|]; try discriminate; cbn [obind]; [|intros [= <- <-]; exact L].
  destruct t as [d|]; [destruct (to_timeval d); [|discriminate]|]; intros H; (eapply later_trans; [exact L|eapply W; exact H]).
Qed.

Lemma taken_arrived s s1 sig : later s s1 -> conv_signal (last_sig s1) = Some sig -> arrived sig s.
Proof.
  intros (_ & L & _) H. exists (last_sig s1). split; [exact H|]. destruct L as [L|[L|L]]; [auto| |auto]. rewrite L in H. discriminate H.
Qed.
Lemma later_last0 s s1 : later s s1 -> later s (with_last 0%N s1).
Proof. intros (A & _ & B). split; [exact A|]. split; [right; now left|exact B]. Qed.

Lemma read_loop_what fuel room : forall s s' i, awake s -> read_loop fuel room s = Ret s' (Some i) ->
  match i with
  | ISignal sig => arrived sig s /\ inbuf s' = inbuf s
  | IRaw bs => inbuf s' = inbuf s /\ exists b, In b (portions s) /\ (bs = b \/ bs = firstn room b)
  end.
Proof.
  induction fuel as [|fuel IH]; intros s s' i Ha; [discriminate|]. cbn [read_loop]. unfold os_read.
  pose proof (pass_awake (time s) s Ha) as Ha1. fold (advance s) in Ha1. pose proof (advance_later s) as L.
  set (ms := if never_waits _ then _ else _). clearbody ms.
  destruct (await_awake ms (advance s) Ha1) as [->|(e & He & ->)].
  - unfold take_queue. cbn [queue with_time]. destruct (queue (advance s)) as [|b q] eqn:Eq; [now elim Ha1|].
    assert (Hin : In b (portions s)).
    { destruct L as (_ & _ & P & _). rewrite <- P. unfold portions. rewrite Eq. now left. }
    assert (Hi : inbuf (advance s) = inbuf s) by apply L.
    destruct (_ <=? _); intros [= <- <-]; (split; [exact Hi|exists b; auto]).
  - destruct (e =? EINTR)%N; [|discriminate]. unfold take_signal.
    set (s1 := with_failing None (with_time (time (advance s)) (advance s))).
    assert (L1 : later s s1) by exact L. pose proof (later_trans _ _ _ L1 (advance_later s1)) as L2.
    destruct (conv_signal (last_sig (advance s1))) as [sig|] eqn:Ec.
    + intros [= <- <-]. split; [eapply taken_arrived; eauto|]. apply L2.
    + intros H. pose proof (later_last0 _ _ L2) as L3. apply IH in H.
      * destruct i as [sig|bs].
        -- destruct H as [(n & Hn & H) I]. split; [|rewrite I; apply L3]. exists n. split; [exact Hn|].
           destruct L3 as ((p & P) & L3 & _). destruct H as [->|H]; [|right; rewrite P; apply in_or_app; now right].
           cbn [last_sig with_last] in Hn. discriminate Hn.
        -- destruct H as [I (b & Hb & H)]. split; [rewrite I; apply L3|]. exists b. split; [|exact H].
           assert (P : portions (with_last 0%N (advance s1)) = portions s) by apply L3. now rewrite <- P.
      * apply (pass_awake (time s1) s1). exact Ha1.
Qed.

Lemma read_input_what m room t s s' r : handlers_known s -> inbuf s = [] -> read_input m room t s = Ret s' r ->
  match r with
  | None => elapsed t s s' /\ queue s' = []
  | Some (ISignal sig) => arrived sig s
  | Some (IRaw bs) => exists b, In b (portions s) /\ (bs = b \/ bs = firstn room b)
  end.
Proof.
  intros Hk Hb. unfold read_input, take_signal. pose proof (advance_later s) as L.
  destruct (conv_signal (last_sig (advance s))) as [sig|] eqn:Ec; [intros [= <- <-]; eapply taken_arrived; eauto|].
  pose proof (later_last0 _ _ L) as L1. set (s1 := with_last 0%N (advance s)) in *. clearbody s1.
  destruct (wait_event m t s1) as [s2 b|s2 e| |] eqn:Ew; cbn [obind]; try discriminate.
  pose proof (later_trans _ _ _ L1 (wait_later _ _ _ _ _ Ew)) as L2.
  destruct b; cbn [negb].
  2:{ intros [= <- <-]. apply wait_false in Ew as ((d & ms & -> & Ed & H) & Q & _). split; [|exact Q]. exists d, ms. split; [reflexivity|]. split; [exact Ed|].
      destruct H as [H|(pre & H)]; [auto|]. destruct L1 as ((p & P) & _). right. exists (p ++ pre). rewrite P, H. now rewrite app_assoc. }
  pose proof (later_trans _ _ _ L2 (advance_later s2)) as L3.
  destruct (conv_signal (last_sig (advance s2))) as [sig|] eqn:Ec2; [intros [= <- <-]; eapply taken_arrived; eauto|].
  apply wait_ready in Ew. destruct Ew as [Ew|[(e & n & Ew)|Ew]].
  - exfalso. revert Ec2. apply pass_pending; [|exact Ew]. intros n. replace (disp s2) with (disp s) by (symmetry; apply L2). apply Hk.
  - exfalso. replace (inbuf s2) with (@nil N) in Ew by (symmetry; rewrite <- Hb; apply L2). discriminate Ew.
  - intros H. pose proof (later_last0 _ _ L3) as L4. destruct r as [i|].
    2:{ exfalso. clear -H. revert H. generalize (turns (with_last 0%N (advance s2))) as fuel. generalize (with_last 0%N (advance s2)) as z.
        intros z fuel. revert z. induction fuel as [|fuel IH]; intros z; [discriminate|]. cbn [read_loop]. destruct (os_read room z) as [z1 g].
        destruct g; try discriminate.
        - unfold take_signal. destruct (conv_signal _); [discriminate|apply IH].
        - destruct (e =? EINTR)%N; [|discriminate]. unfold take_signal. destruct (conv_signal _); [discriminate|apply IH]. }
    apply read_loop_what in H; [|apply (pass_awake (time s2) s2); exact Ew]. destruct i as [sig|bs].
    + destruct H as [(n & Hn & H) _]. exists n. split; [exact Hn|]. destruct L4 as ((p & P) & L4 & _).
      destruct H as [->|H]; [discriminate Hn|]. right. rewrite P. apply in_or_app. now right.
    + destruct H as [_ (b & Hin & H)]. exists b. split; [|exact H]. assert (P : portions (with_last 0%N (advance s2)) = portions s) by apply L4. now rewrite <- P.
Qed.

Lemma peek_none m buf : key_map m -> peek_event buf m = Val PNone -> buf = [] \/ truncated_char buf.
Proof.
  intros Hm Hp. destruct buf as [|b buf]; [now left|]. right.
  destruct (char_or_not (b :: buf)) as [(c & r & Hc & E)|Hno].
  - exfalso. rewrite E in Hp. destruct (peek_char m c r Hm Hc) as [(_ & H)|[(q & k & _ & H)|(q & _ & H)]]; rewrite H in Hp; try discriminate Hp.
    destruct (parse_mouse_data _) as [[[d n]|]|]; discriminate Hp.
  - rewrite (peek_nochar m _ Hno) in Hp. apply step_incomplete; [discriminate|].
    destruct (validate_step (b :: buf)) as [n|[k|]] eqn:Ev; [|discriminate Hp|reflexivity].
    exfalso. apply step_ok in Ev. destruct Ev as (c & r & Hc & Ev & _). exact (Hno c r Hc Ev).
Qed.

Lemma report_none C sig s s' : handle_signal C sig s = Ret s' None -> sig <> Resize /\ ss_contains (report s') sig = false.
Proof.
  assert (Hrep : forall z, report_signal sig z = Ret s' None -> ss_contains (report s') sig = false).
  { intros z. unfold report_signal. destruct (ss_contains _ _) eqn:E; [discriminate|]. now intros [= <-]. }
  intros H. destruct sig; cbn [handle_signal] in H; try (split; [discriminate|now apply Hrep in H]).
  - destruct (resume C s); cbn [obind] in H; try discriminate. split; [discriminate|now apply Hrep in H].
  - exfalso. destruct (term_size s); discriminate H.
Qed.

Lemma try_none m s s' : try_read m s = Ret s' None -> s = s' /\ peek_event (inbuf s) m = Val PNone.
Proof.
  unfold try_read, peek. destruct (inbuf s) eqn:Ei; [intros H; split; [congruence|reflexivity]|].
  destruct (peek_event _ m) as [[| |]|]; cbn [obind]; try discriminate. intros H. split; [congruence|reflexivity].
Qed.

Lemma read_none C m t s s' : (forall c n, n <= grow C c n) -> key_map m -> handlers_known s -> read_event C m t s = Ret s' None ->
  (elapsed t s s' /\ inbuf s' = inbuf s /\ queue s' = []) \/
  (exists sig, arrived sig s /\ sig <> Resize /\ ss_contains (report s') sig = false) \/
  (exists bs, inbuf s' = inbuf s ++ bs /\ ((bs = [] /\ In [] (portions s)) \/ truncated_char (inbuf s'))).
Proof.
  intros Hg Hm Hk. unfold read_event. destruct (try_read m s) as [s0 [e|]|s0 e| |] eqn:Et; cbn [obind]; try discriminate.
  assert (Hs0 : s0 = s /\ peek_event (inbuf s) m = Val PNone).
  { apply try_none in Et as [Et Et']. split; [symmetry; exact Et|exact Et']. }
  destruct Hs0 as [-> Hp]. clear Et. unfold read_into_buffer. set (cap := if (_ <=? _) then incap s else _).
  assert (Hcap : 128 <= cap - length (inbuf s)).
  { unfold cap. destruct (Nat.leb_spec (length (inbuf s) + 128) (incap s)); [lia|].
    pose proof (Hg (incap s) (length (inbuf s) + 128)). lia. }
  clearbody cap. destruct (read_input m (cap - length (inbuf s)) t (with_inbuf [] 0 s)) as [s1 r|s1 e| |] eqn:Er; try discriminate.
  apply read_input_what in Er; [|exact Hk|reflexivity]. destruct r as [[sig|bs]|]; cbn [obind].
  - intros H. apply report_none in H as [H1 H2]. right. left. exists sig. auto.
  - intros H. destruct Er as (b & Hb & Hbs). right. right. exists bs.
    assert (Hp' : s' = with_inbuf (inbuf s ++ bs) cap s1 /\ peek_event (inbuf s ++ bs) m = Val PNone).
    { apply try_none in H as [H H']. split; [symmetry; exact H|exact H']. }
    destruct Hp' as [-> Hp']. split; [reflexivity|]. cbn [inbuf with_inbuf].
    destruct (peek_none m _ Hm Hp') as [E|E]; [|now right]. apply app_eq_nil in E as [_ E]. left. split; [exact E|].
    destruct Hbs as [->|Hbs]; [rewrite <- E; exact Hb|].
    destruct b as [|x b]; [exact Hb|]. exfalso. rewrite E in Hbs. destruct (cap - length (inbuf s)); [lia|discriminate Hbs].
  - intros [= <-]. left. destruct Er as [Er Q]. split; [exact Er|]. split; [reflexivity|exact Q].
Qed.

Lemma unreported_none C m t s sig : peek_event (inbuf s) m = Val PNone -> conv_signal (last_sig (advance s)) = Some sig ->
  sig <> Resize -> (sig = Continue -> resume_cfg s = None) -> ss_contains (report s) sig = false ->
  exists s', read_event C m t s = Ret s' None.
Proof.
  intros Hp Hs Hr Hc Hrep.
  assert (Ht : try_read m s = Ret s None).
  { unfold try_read, peek. rewrite Hp. destruct (inbuf s); reflexivity. }
  destruct (read_signal C m t s sig Ht Hs) as (cap & ->). destruct (advance_spec s) as [(A1 & A2 & _) _].
  set (z := with_inbuf _ _ _). assert (Hz : ss_contains (report z) sig = false) by (cbn; rewrite A2; exact Hrep).
  assert (Hz' : resume_cfg z = resume_cfg s) by exact A1.
  exists z. destruct sig; cbn [handle_signal]; unfold report_signal; try congruence; try (rewrite Hz; reflexivity).
  unfold resume. rewrite Hz', (Hc eq_refl). cbn [obind]. now rewrite Hz.
Qed.

Lemma incomplete_none C m s b q : (forall c n, n <= grow C c n) -> calm s -> inbuf s = [] -> portions s = b :: q ->
  b = [] \/ truncated_char b ->
  exists s', read_event C m None s = Ret s' None /\ inbuf s' = b /\ portions s' = q.
Proof.
  intros Hg Hc Hi Hp Hb.
  assert (Hl : length b <= 128).
  { destruct Hb as [->|(_ & c & t & Hsc & _ & E)]; [cbn; lia|].
    assert (length (utf8 c) <= 4). { rewrite utf8_length. unfold len_utf8. repeat destruct (_ <? _)%N; lia. }
    rewrite E, app_length in H. lia. }
  destruct (read_portion C m Hg s b q Hc Hp Hl) as (s' & E & I & P & _); [unfold try_read; now rewrite Hi|].
  rewrite Hi in I. cbn [app] in I. exists s'. split; [|auto]. rewrite E. apply try_truncated. rewrite I. exact Hb.
Qed.

Lemma raw_none C m room t s s' bs : handlers_known s -> read_raw C m room t s = Ret s' (None, bs) ->
  bs = [] /\ inbuf s = [] /\
  ((elapsed t s s' /\ queue s' = []) \/
   exists sig, arrived sig s /\ sig <> Resize /\ ss_contains (report s') sig = false).
Proof.
  intros Hk. unfold read_raw. destruct (inbuf s) eqn:Ei; [|discriminate].
  destruct (read_input m room t s) as [s1 r|s1 e| |] eqn:Er; cbn [obind]; try discriminate.
  apply read_input_what in Er; [|exact Hk|exact Ei]. destruct r as [[sig|x]|]; [|discriminate|].
  - destruct (handle_signal C sig s1) as [s2 e|s2 e| |] eqn:Eh; cbn [obind]; try discriminate. intros H.
    assert (E : e = None /\ bs = [] /\ s2 = s') by (injection H as -> -> ->; auto). destruct E as (-> & -> & ->).
    apply report_none in Eh as [H1 H2]. split; [reflexivity|]. split; [reflexivity|]. right. exists sig. auto.
  - intros H. assert (E : bs = [] /\ s1 = s') by (injection H as -> ->; auto). destruct E as [-> ->].
    split; [reflexivity|]. split; [reflexivity|]. left. exact Er.
Qed.
