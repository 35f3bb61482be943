(** Proofs about what becomes of signals (C44). *)
From Verif Require Import Base M_Utf8 S_Utf8 P_Utf8 M_Geom M_Seq S_Seq M_Signal M_Util M_Input S_Input P_Input
  M_Writer S_Writer P_Writer M_Prepare M_Reader S_Prepare S_Reader P_Prepare P_Prepare2 P_Reader P_Reader2 P_Reader3 S_Timeout P_Timeout S_Caught.
Local Open Scope nat_scope.

Lemma caught_app d a b : caught d (a ++ b) = caught d a ++ caught d b.
Proof. induction a as [|k a IH]; [reflexivity|]. destruct k; cbn; try exact IH. destruct (d n); cbn; now rewrite IH. Qed.

Lemma last_any {A} (l : list A) : forall u w1 w2, last (u :: l) w1 = last (u :: l) w2.
Proof. induction l as [|v l IH]; intros u w1 w2; [reflexivity|]. apply (IH v). Qed.
Lemma last_app {A} (a b : list A) : forall x, last (a ++ b) x = last b (last a x).
Proof.
  induction a as [|z a IH]; intros x; [reflexivity|].
  destruct a as [|z' a].
  - destruct b as [|y b]; [reflexivity|]. apply (last_any b y).
  - change (last ((z' :: a) ++ b) x = last b (last (z' :: a) x)). apply IH.
Qed.

(** Signals are carried on. *)
Definition carried (s s' : sys) : Prop :=
  disp s' = disp s /\ exists l, time s = l ++ time s' /\
    conv_signal (last_sig s') = conv_signal (last (caught (disp s) l) (last_sig s)).

Lemma carried_same s s' : disp s' = disp s -> time s' = time s -> last_sig s' = last_sig s -> carried s s'.
Proof. intros H1 H2 H3. split; [exact H1|]. exists []. now rewrite H2, H3. Qed.
Lemma carried_refl s : carried s s. Proof. now apply carried_same. Qed.
Lemma carried_trans a b c : carried a b -> carried b c -> carried a c.
Proof.
  intros [D1 (l1 & T1 & L1)] [D2 (l2 & T2 & L2)]. split; [congruence|].
  exists (l1 ++ l2). split; [now rewrite T1, T2, app_assoc|].
  rewrite L2, caught_app, last_app, D1.
  destruct (caught (disp a) l2) as [|n r]; [exact L1|].
  f_equal. apply last_any.
Qed.

Lemma carried_happens k l s : time s = k :: l -> carried s (with_time l (happens k s)).
Proof.
  intros H. assert (G : caught (disp s) [k] = [] -> carried s (with_time l s)).
  { intros E. split; [reflexivity|]. exists [k]. rewrite E. split; [exact H|reflexivity]. }
  destruct k; cbn [happens]; try (apply G; reflexivity).
  - destruct (disp s n) eqn:E; [|apply G; cbn; now rewrite E].
    split; [reflexivity|]. exists [TSig n]. cbn. rewrite E. auto.
Qed.

Lemma carried_pass l : forall s, time s = l -> carried s (pass l s).
Proof.
  induction l as [|k l IH]; intros s H.
  - apply carried_same; cbn; auto.
  - assert (G : carried s (pass l (happens k s))).
    { eapply carried_trans; [apply carried_happens; exact H|].
      rewrite <- (pass_time l _ l). now apply IH. }
    destruct k; try exact G. cbn [pass]. apply (carried_happens TStep l s H).
Qed.
Lemma carried_advance s : carried s (advance s). Proof. now apply carried_pass. Qed.

Lemma carried_await ms l : forall s, time s = l -> carried s (fst (await ms l s)).
Proof.
  induction l as [|k l IH]; intros s H; cbn [await].
  - assert (L : carried s (with_time [] s)) by (apply carried_same; cbn; auto).
    destruct (failing s); [exact L|]. destruct (queue s); [|exact L]. destruct (match ms with Some 0%N => true | _ => false end); exact L.
  - assert (L : carried s (with_time (k :: l) s)) by (apply carried_same; cbn; auto).
    destruct (failing s); [exact L|]. destruct (queue s) eqn:Eq; [|exact L].
    destruct (match ms with Some 0%N => true | _ => false end); [exact L|]. clear L.
    pose proof (carried_happens k l s H) as L.
    assert (G : carried s (fst (await ms l (happens k s)))).
    { eapply carried_trans; [exact L|]. rewrite <- (await_time ms l (happens k s) l). now apply IH. }
    destruct k; try exact G; try exact L.
    + cbn [happens] in *. destruct (disp s n); [exact L|exact G].
    + destruct ms; [exact L|exact G].
Qed.
Lemma carried_select ms s : carried s (fst (select ms s)).
Proof. unfold select. eapply carried_trans; [apply carried_advance|]. now apply carried_await. Qed.
Lemma carried_os_read room s : carried s (fst (os_read room s)).
Proof.
  unfold os_read. cbv zeta. eapply carried_trans; [apply carried_advance|].
  pose proof (carried_await (if never_waits (tio (advance s)) then Some 0%N else None) (time (advance s)) (advance s) eq_refl) as G.
  destruct (await _ _ _) as [s1 r]. cbn [fst] in G.
  assert (Q : carried s1 (fst (take_queue room s1))).
  { unfold take_queue. destruct (queue s1) as [|b q]; [apply carried_refl|].
    destruct (_ <=? _); now apply carried_same. }
  destruct r; cbn [fst]; try exact G. eapply carried_trans; eauto.
Qed.

Lemma wait_loop_carried fuel : forall ms s, ends (carried s) (fun s' _ => carried s s') (wait_loop fuel ms s).
Proof.
  induction fuel as [|fuel IH]; intros ms s; [exact I|]. cbn [wait_loop].
  pose proof (carried_select ms s) as L. destruct (select ms s) as [s1 w]. cbn [fst] in L.
  assert (Hi : ends (carried s) (fun s' _ => carried s s')
     (let '(z, sig) := get_signal s1 in match sig with Some _ => Ret z true | None => wait_loop fuel ms z end)).
  { unfold get_signal. pose proof (carried_trans _ _ _ L (carried_advance s1)) as L1.
    destruct (conv_signal _); [exact L1|].
    eapply ends_weak; [apply IH| |]; intros z; intros; eapply carried_trans; eauto. }
  destruct w; try exact Hi; try exact L; [|exact I]. destruct (e =? EINTR)%N; [exact Hi|exact L].
Qed.

Section Reader.
  Variables (C : tcfg) (m : seq_map).

  Lemma wait_carried t s : ends (carried s) (fun s' _ => carried s s') (wait_event m t s).
  Proof.
    unfold wait_event, get_signal. pose proof (carried_advance s) as A.
    destruct (conv_signal _); [exact A|]. unfold peek.
    destruct (peek_event (inbuf (advance s)) m) as [[| |e n]|]; cbn [obind]; try exact A; [|exact I].
    assert (W : forall ms, ends (carried s) (fun s' _ => carried s s') (wait_loop (turns (advance s)) ms (advance s))).
    { intros ms. eapply ends_weak; [apply wait_loop_carried| |]; intros z; intros; eapply carried_trans; eauto. }
    destruct t as [d|]; [|apply W]. destruct (to_timeval d); [apply W|exact I].
  Qed.

  (** A signal was taken, or none. *)
  Definition took (s s' : sys) (r : option input) : Prop :=
    match r with
    | Some (ISignal sig) => newest s s' (Some sig) /\ last_sig s' = 0%N
    | _ => carried s s'
    end.

  Lemma took_trans a b c r : carried a b -> took b c r -> took a c r.
  Proof.
    intros H. destruct r as [[sig|bs]|]; cbn; try (intros H1; eapply carried_trans; eauto).
    intros [(l & T & L) H1]. split; [|exact H1].
    destruct H as [D (l1 & T1 & L1)]. exists (l1 ++ l). split; [now rewrite T1, T, app_assoc|].
    rewrite caught_app, last_app, <- D. rewrite L.
    destruct (caught (disp b) l) as [|n q]; [rewrite D; exact L1|]. f_equal. apply last_any.
  Qed.

  Lemma take_took s : let '(s', sig) := take_signal s in
    match sig with
    | Some sig => took s s' (Some (ISignal sig))
    | None => carried s s'
    end.
  Proof.
    unfold take_signal. destruct (carried_advance s) as [D (l & T & L)].
    destruct (conv_signal (last_sig (advance s))) as [sig|] eqn:E.
    - split; [|reflexivity]. exists l. split; [exact T|]. now rewrite <- L.
    - split; [exact D|]. exists l. split; [exact T|]. cbn [last_sig with_last]. rewrite <- L. reflexivity.
  Qed.

  Lemma read_loop_took fuel room : forall s, ends (carried s) (took s) (read_loop fuel room s).
  Proof.
    induction fuel as [|fuel IH]; intros s; [exact I|]. cbn [read_loop].
    pose proof (carried_os_read room s) as L. destruct (os_read room s) as [s1 g]. cbn [fst] in L.
    assert (Hi : ends (carried s) (took s)
       (let '(z, sig) := take_signal s1 in match sig with Some sig => Ret z (Some (ISignal sig)) | None => read_loop fuel room z end)).
    { pose proof (take_took s1) as T. destruct (take_signal s1) as [z [sig|]].
      - eapply took_trans; eauto.
      - pose proof (carried_trans _ _ _ L T) as L1.
        eapply ends_weak; [apply IH| |]; [intros x Hx; eapply carried_trans; eauto|intros x r Hx; eapply took_trans; eauto]. }
    destruct g; try exact Hi; try exact L; [|exact I]. destruct (e =? EINTR)%N; [exact Hi|exact L].
  Qed.

  Lemma read_input_took room t s : ends (carried s) (took s) (read_input m room t s).
  Proof.
    unfold read_input. pose proof (take_took s) as T. destruct (take_signal s) as [z [sig|]]; [exact T|].
    pose proof (wait_carried t z) as W. destruct (wait_event m t z) as [z1 b|z1 e| |]; cbn [ends obind] in W |- *; auto.
    2: { eapply carried_trans; eauto. }
    pose proof (carried_trans _ _ _ T W) as L. destruct b; cbn [negb]; [|exact L].
    pose proof (take_took z1) as T1. destruct (take_signal z1) as [z2 [sig|]].
    - eapply took_trans; eauto.
    - pose proof (carried_trans _ _ _ L T1) as L1.
      eapply ends_weak; [apply read_loop_took| |]; [intros x Hx; eapply carried_trans; eauto|intros x r Hx; eapply took_trans; eauto].
  Qed.

  (** What is done about it. *)
  Definition minded (sig : signal) (s s' : sys) (e : option event) : Prop :=
    quiet s s' /\ e = deserved (report s') sig (win s').
  Lemma handle_minded sig s : ends (fun s' => quiet s s' /\ (sig = Resize \/ sig = Continue)) (minded sig s) (handle_signal C sig s).
  Proof.
    assert (Hrep : forall sig z, report_signal sig z = Ret z (if ss_contains (report z) sig then Some (ESignal sig) else None)).
    { intros k z. unfold report_signal. now destruct (ss_contains _ _). }
    destruct sig; cbn [handle_signal]; try (rewrite Hrep; split; [apply quiet_refl|reflexivity]).
    - pose proof (resume_ends C s) as R. destruct (resume C s) as [s1 u|s1 e| |]; cbn in R |- *; auto.
      + rewrite Hrep. split; [apply R|reflexivity].
      + split; [apply R|auto].
    - unfold term_size, with_guard. destruct (win s) as [e1|z] eqn:Ew.
      + destruct (on_wr guard_drop s) as [s1 u|s1 e| |] eqn:E; cbn; auto.
        all: unfold on_wr in E; destruct (guard_drop (wr s)); try discriminate E; injection E as <- <-; split; [|auto]; unfold quiet; cbn; auto 10.
      + destruct (on_wr guard_drop s) as [s1 u|s1 e| |] eqn:E; cbn; auto.
        all: unfold on_wr in E; destruct (guard_drop (wr s)); try discriminate E; injection E as <- <-; split; [|auto]; unfold quiet; cbn; auto 10.
        now rewrite Ew.
  Qed.

  (** The fate of the newest signal. *)
  Definition fate (s s' : sys) (e : option event) : Prop :=
    exists x, newest s s' x /\
      ((waits x s' /\ untold e) \/
       exists sig, x = Some sig /\ last_sig s' = 0%N /\ e = deserved (report s') sig (win s')).
  Definition failed_fate (s s' : sys) : Prop :=
    exists x, newest s s' x /\
      (waits x s' \/ exists sig, x = Some sig /\ last_sig s' = 0%N /\ (sig = Resize \/ sig = Continue)).

  Lemma carried_fate s s' e : carried s s' -> untold e -> fate s s' e.
  Proof. intros [_ (l & T & L)] U. eexists. split; [exists l; split; [exact T|reflexivity]|]. left. split; [exact L|exact U]. Qed.
  Lemma carried_failed s s' : carried s s' -> failed_fate s s'.
  Proof. intros [_ (l & T & L)]. eexists. split; [exists l; split; [exact T|reflexivity]|]. left. exact L. Qed.

  Lemma took_handled s s1 sig : took s s1 (Some (ISignal sig)) -> ends (failed_fate s) (fate s) (handle_signal C sig s1).
  Proof.
    intros [(l & T & L) Z]. eapply ends_weak; [apply handle_minded| |].
    - intros s' [(_ & _ & Q1 & _ & _ & _ & Q2) H]. exists (Some sig). split; [exists l; rewrite Q2; auto|].
      right. exists sig. rewrite Q1. auto.
    - intros s' e [(_ & _ & Q1 & _ & _ & _ & Q2) H]. exists (Some sig). split; [exists l; rewrite Q2; auto|].
      right. exists sig. rewrite Q1. auto.
  Qed.

  Lemma peek_untold buf e n : peek_event buf m = Val (PEvent e n) -> untold (Some e).
  Proof. intros H. apply peek_kind in H. destruct e; try exact I; destruct H. Qed.

  Lemma try_fate s : ends (fun s' => s' = s) (fun s' e => carried s s' /\ untold e) (try_read m s).
  Proof.
    unfold try_read. destruct (inbuf s) as [|b bs]; [split; [apply carried_refl|exact I]|].
    unfold peek. destruct (peek_event (inbuf s) m) as [[| |e n]|] eqn:Ep; cbn [obind ends]; auto.
    - split; [apply carried_refl|exact I].
    - split; [now apply carried_same|]. eapply peek_untold; eauto.
  Qed.

  Lemma read_fate t s : ends (failed_fate s) (fate s) (read_event C m t s).
  Proof.
    unfold read_event. pose proof (try_fate s) as T. destruct (try_read m s) as [s1 e|s1 e| |]; cbn [ends obind] in *; auto.
    2: { subst s1. apply carried_failed, carried_refl. }
    destruct T as [T U]. destruct e as [e|]; [apply carried_fate; assumption|].
    unfold read_into_buffer.
    match goal with |- context [read_input m ?room t ?z] => pose proof (read_input_took room t z) as R;
      assert (Z : carried s z) by (eapply carried_trans; [exact T|now apply carried_same]);
      destruct (read_input m room t z) as [s2 [[sig|bs]|]|s2 er| |] end; cbn [ends obind] in R |- *; auto.
    - apply (took_trans s) in R; [|exact Z]. apply took_handled. exact R.
    - pose proof (carried_trans _ _ _ Z R) as R1.
      match goal with |- ends _ _ (try_read m ?z) => pose proof (try_fate z) as T2; assert (R2 : carried s z) by exact R1;
        destruct (try_read m z) as [s3 e3|s3 e3| |] end; cbn [ends] in *; auto.
      + apply carried_fate; [eapply carried_trans; [exact R2|apply T2]|apply T2].
      + subst s3. apply carried_failed. exact R2.
    - apply carried_fate; [|exact I]. eapply carried_trans; [exact Z|exact R].
    - apply carried_failed. eapply carried_trans; [exact Z|exact R].
  Qed.

  Lemma raw_fate room t s : ends (failed_fate s) (fun s' r => fate s s' (fst r)) (read_raw C m room t s).
  Proof.
    unfold read_raw. destruct (inbuf s) as [|b bs].
    - pose proof (read_input_took room t s) as R. destruct (read_input m room t s) as [s2 [[sig|x]|]|s2 er| |]; cbn [ends obind] in R |- *; auto.
      + apply took_handled in R. destruct (handle_signal C sig s2) as [s3 e|s3 e| |]; cbn in R |- *; auto.
      + apply carried_fate; [exact R|exact I].
      + apply carried_fate; [exact R|exact I].
      + now apply carried_failed.
    - apply carried_fate; [now apply carried_same|exact I].
  Qed.

  Lemma wait_fate t s s' b : wait_event m t s = Ret s' b -> exists x, newest s s' x /\ waits x s'.
  Proof.
    intros H. pose proof (wait_carried t s) as W. rewrite H in W. destruct W as [_ (l & T & L)].
    eexists. split; [exists l; split; [exact T|reflexivity]|exact L].
  Qed.

  Lemma signals_kept :
    (forall t s s' b, wait_event m t s = Ret s' b -> exists x, newest s s' x /\ waits x s') /\
    (forall t s s' e, read_event C m t s = Ret s' e -> exists x, newest s s' x /\
      ((waits x s' /\ untold e) \/
       exists sig, x = Some sig /\ last_sig s' = 0%N /\ e = deserved (report s') sig (win s'))) /\
    (forall n t s s' e bs, read_raw C m n t s = Ret s' (e, bs) -> exists x, newest s s' x /\
      ((waits x s' /\ untold e) \/
       exists sig, x = Some sig /\ last_sig s' = 0%N /\ e = deserved (report s') sig (win s'))) /\
    (forall t s s' e, read_event C m t s = Fail s' e -> exists x, newest s s' x /\
      (waits x s' \/ exists sig, x = Some sig /\ last_sig s' = 0%N /\ (sig = Resize \/ sig = Continue))).
  Proof.
    split; [exact wait_fate|]. split; [|split].
    - intros t s s' e H. pose proof (read_fate t s) as R. rewrite H in R. exact R.
    - intros n t s s' e bs H. pose proof (raw_fate n t s) as R. rewrite H in R. exact R.
    - intros t s s' e H. pose proof (read_fate t s) as R. rewrite H in R. exact R.
  Qed.
End Reader.
