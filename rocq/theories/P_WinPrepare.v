(** Proofs about waiting, raw reading, and preparing and restoring the Windows console. *)
From Verif Require Import Base M_Utf8 M_Geom M_Signal P_Signal M_Util M_Input M_Buf M_Writer M_Prepare M_Reader
  M_WinWriter M_WinReader S_WinReader P_WinInput P_WinReader.
Local Open Scope N_scope.

(** ** Waiting *)
Lemma waiting t s ms :
  as_millis t = Val ms ->
  (forall s', win_wait_event t s = Ret s' true -> w_queue s' <> [] \/ unreported s' <> []) /\
  (forall s', win_wait_event t s = Ret s' false -> t <> None /\ w_queue s' = []) /\
  (ms <> INFINITE -> In WTime (after_steps 2 (w_time s)) ->
   win_wait_event t s <> Blocked /\ (forall E, win_read_event E t s <> Blocked) /\
   (forall len, win_read_raw_event len t s <> Blocked)).
Proof.
  intros M. pose proof (wait_did t s) as W. split; [|split].
  - intros s' H. rewrite H in W. destruct W as (l & _ & _ & _ & W & _). now apply W.
  - intros s' H. rewrite H in W. destruct W as (l & _ & _ & _ & _ & W). destruct (W eq_refl). auto.
  - intros Hm Hin. repeat split.
    + intros H. rewrite H in W. destruct W as (ms' & M' & W). assert (ms' = ms) by congruence. subst. now apply W.
    + intros E H. pose proof (read_event_did E t s) as R. rewrite H in R.
      destruct R as (ms' & M' & R). assert (ms' = ms) by congruence. subst. now apply R.
    + intros len H. pose proof (read_raw_event_did len t s) as R. rewrite H in R.
      destruct R as (ms' & M' & R). assert (ms' = ms) by congruence. subst. now apply R.
Qed.

(** A record wakes up even a wait without limit. *)
Lemma await_wakes l : forall s, (exists r, In (WRec r) l) \/ w_queue s <> [] -> snd (wawait None l s) <> XNever.
Proof.
  induction l as [|t l IH]; intros s H; cbn [wawait].
  - destruct H as [[r []]|H]. destruct (w_failing s); [discriminate|]. destruct (w_queue s); [now elim H|discriminate].
  - destruct (w_failing s); [discriminate|]. destruct (w_queue s) as [|q0 q] eqn:Q; [|discriminate].
    destruct H as [[r [->|Hin]]|H]; [| |now elim H].
    + apply IH. right. cbn. rewrite Q. discriminate.
    + destruct t; try (apply IH; left; now exists r).
Qed.
Lemma woken t s r :
  as_millis t <> Boom -> w_queue s <> [] \/ In (WRec r) (after_steps 2 (w_time s)) ->
  win_wait_event t s <> Blocked /\ win_wait_event t s <> Panic.
Proof.
  intros M H. split.
  2: { intros X. pose proof (wait_did t s) as W. rewrite X in W. contradiction. }
  unfold win_wait_event, win_get_signal. cbv zeta.
  destruct (advance_steps s) as (l1 & E1 & S1 & A1). set (s1 := wadvance s) in *. clearbody s1.
  destruct (win_conv_signal (w_last s1)) as [sig|]; [discriminate|].
  destruct (as_millis t) as [ms|] eqn:Em; [|discriminate].
  unfold wait_for_single_object. cbv zeta.
  destruct (advance_steps s1) as (l2 & E2 & S2 & A2). set (s2 := wadvance s1) in *. clearbody s2.
  assert (Hafter : after_steps 2 (w_time s) = w_time s2).
  { assert (G : forall l, after_steps 2 l = after_steps 1 (after_steps 1 l)).
    { induction l as [|t0 l IH]; [reflexivity|]. destruct t0; try exact IH. destruct l; reflexivity. }
    now rewrite G, A1, A2. }
  assert (H2 : (exists r, In (WRec r) (w_time s2)) \/ w_queue s2 <> []).
  { destruct H as [H|H]; [right|left; exists r; now rewrite <- Hafter].
    rewrite (st_queue _ _ _ S2), (st_queue _ _ _ S1). destruct (w_queue s); [now elim H|discriminate]. }
  assert (G : forall o, snd (wawait o (w_time s2) s2) <> XNever).
  { intros [o|]; [|now apply await_wakes].
    clear - H2. revert H2. generalize (w_time s2) as l. intros l. revert s2.
    induction l as [|t l IH]; intros s2 H2; cbn [wawait].
    - destruct H2 as [[r []]|H]. destruct (w_failing s2); [discriminate|]. destruct (w_queue s2); [now elim H|discriminate].
    - destruct (w_failing s2); [discriminate|]. destruct (w_queue s2) as [|q0 q] eqn:Q; [|discriminate].
      destruct o; [discriminate|].
      destruct H2 as [[r [->|Hin]]|H]; [| |now elim H].
      + apply IH. right. cbn. rewrite Q. discriminate.
      + destruct t; try discriminate; (apply IH; left; now exists r). }
  specialize (G (if ms =? INFINITE then None else Some ms)).
  destruct (wawait (if ms =? INFINITE then None else Some ms) (w_time s2) s2) as [s3 []]; try discriminate.
  now elim G.
Qed.

(** ** [read_raw] and records without characters *)
Lemma quiet_after l : Forall quiet_tick l -> forall s, exists t, wpass l s = with_wtime t s /\ Forall quiet_tick t.
Proof.
  induction 1 as [|x l Hx Hl IH]; intros s; [exists []; split; [reflexivity|constructor]|].
  destruct x; try contradiction; cbn; [apply IH|exists l; auto].
Qed.

Lemma quiet_never l : Forall quiet_tick l -> forall s, w_failing s = None -> w_queue s = [] ->
  snd (wawait None l s) = XNever.
Proof.
  induction 1 as [|x l Hx Hl IH]; intros s F Q; cbn [wawait]; rewrite F, Q; [reflexivity|].
  destruct x; try contradiction; cbn; now apply IH.
Qed.

Lemma read_raw_hangs E len t s r :
  as_millis t <> Boom -> (0 < len)%nat -> rec_char r = None ->
  w_queue s = [r] -> w_failing s = None -> unreported s = [] -> Forall quiet_tick (w_time s) ->
  (exists s', win_wait_event t s = Ret s' true) /\ win_read_raw len t s = Blocked /\
  exists s' e, win_read_event E t s = Ret s' (Some e, [r]).
Proof.
  intros M Hl Hr Q F U T.
  assert (Adv : forall s1, w_queue s1 = [r] -> w_failing s1 = None -> unreported s1 = [] -> Forall quiet_tick (w_time s1) ->
    w_rd s1 = w_rd s ->
    let s2 := wadvance s1 in w_queue s2 = [r] /\ w_failing s2 = None /\ unreported s2 = [] /\ Forall quiet_tick (w_time s2)
      /\ w_rd s2 = w_rd s).
  { intros s1 Q1 F1 U1 T1 R1. unfold wadvance. destruct (quiet_after _ T1 s1) as (t' & -> & T'). auto. }
  assert (Conv : forall s1, unreported s1 = [] -> win_conv_signal (w_last s1) = None).
  { intros s1 U1. unfold unreported in U1. destruct (win_conv_signal (w_last s1)); [discriminate U1|reflexivity]. }
  assert (Aw : forall o s1, w_queue s1 = [r] -> w_failing s1 = None -> wawait o (w_time s1) s1 = (with_wtime (w_time s1) s1, XReady)).
  { intros o s1 Q1 F1. destruct (w_time s1) as [|x l]; cbn [wawait]; now rewrite F1, Q1. }
  destruct (as_millis t) as [ms|] eqn:Em; [|now elim M].
  destruct (Adv s Q F U T eq_refl) as (Q1 & F1 & U1 & T1 & R1). set (s1 := wadvance s) in *.
  destruct (Adv s1 Q1 F1 U1 T1 R1) as (Q2 & F2 & U2 & T2 & R2). set (s2 := wadvance s1) in *.
  assert (W : win_wait_event t s = Ret (with_wtime (w_time s2) s2) true).
  { unfold win_wait_event, win_get_signal. cbv zeta. fold s1. rewrite (Conv s1 U1), Em.
    unfold wait_for_single_object. cbv zeta. fold s2. now rewrite (Aw _ s2 Q2 F2). }
  set (s3 := with_wtime (w_time s2) s2) in *.
  destruct (Adv s3) as (Q4 & F4 & U4 & T4 & R4); auto. set (s4 := wadvance s3) in *.
  assert (Hroom : (0 < N.to_nat (to_dword len))%nat) by (unfold to_dword, DWORD_MAX; lia).
  set (s5 := with_wlast NO_SIGNAL s4).
  destruct (Adv s5) as (Q6 & F6 & U6 & T6 & R6); auto. set (s6 := wadvance s5) in *.
  split; [eexists; exact W|]. split.
  - unfold win_read_raw. rewrite W. cbn [obind negb]. unfold win_take_signal. cbv zeta. fold s4. rewrite (Conv s4 U4).
    fold s5. fold s6.
    set (room := N.to_nat (to_dword len)) in *. clearbody room. rewrite Q6. cbn [length Nat.add].
    cbn [read_console]. destruct (Nat.eqb_spec room 0); [lia|]. rewrite (Aw _ s6 Q6 F6).
    assert (Tk : take_chars room (w_queue (with_wtime (w_time s6) s6)) = ([], [])).
    { cbn [w_queue with_wtime]. rewrite Q6. destruct room; [lia|]. cbn. now rewrite Hr. }
    rewrite Tk. cbn [read_console]. destruct (Nat.eqb_spec room 0); [lia|].
    set (s7 := with_wqueue [] (with_wtime (w_time s6) s6)).
    pose proof (quiet_never (w_time s7) T6 s7 F6 eq_refl) as Nv.
    destruct (wawait None (w_time s7) s7) as [s8 w]. cbn in Nv. now rewrite Nv.
  - unfold win_read_event, win_read_raw_event. rewrite W. cbn [obind negb]. unfold win_take_signal. cbv zeta. fold s4.
    rewrite (Conv s4 U4). fold s5. unfold read_console_input. fold s6. cbn [to_dword N.of_nat N.min].
    change (to_dword 1 =? 0) with false. cbv iota. rewrite (Aw _ s6 Q6 F6). cbn [w_queue with_wtime]. rewrite Q6.
    change (N.to_nat (to_dword 1)) with 1%nat. cbn [Nat.min length firstn skipn obind].
    destruct (decode_ok E r (with_wqueue [] (with_wtime (w_time s6) s6))) as (rd & e & -> & _).
    cbn [obind]. eauto.
Qed.

(** ** Preparing and restoring *)
Lemma mode_bit_high cfg old i : 10 <= i -> mode_bit cfg old i = N.testbit old i.
Proof.
  intros H. destruct i as [|p]; [lia|]. do 4 (destruct p as [p|p|]; try lia; try reflexivity).
Qed.
Lemma prepared_bit cfg old i : N.testbit (prepared_mode cfg old) i = mode_bit cfg old i.
Proof.
  assert (P : forall k, N.testbit (2 ^ k) i = (k =? i)).
  { intros k. destruct (N.eqb_spec k i) as [->|]; [apply N.pow2_bits_true|now apply N.pow2_bits_false]. }
  assert (G : N.testbit (prepared_mode cfg old) i =
    ((((((((N.testbit old i || (7 =? i)) && negb (2 =? i)) && negb (1 =? i)) &&
       (if block_signals cfg then negb (0 =? i) else true)) || (if block_signals cfg then false else 0 =? i)) &&
       (if cfg_mouse cfg then true else negb (4 =? i)) || (if cfg_mouse cfg then 4 =? i else false)) &&
       negb (6 =? i)) || (3 =? i)) && negb (9 =? i)).
  { unfold prepared_mode, ENABLE_EXTENDED_FLAGS, ENABLE_ECHO_INPUT, ENABLE_LINE_INPUT, ENABLE_PROCESSED_INPUT,
      ENABLE_MOUSE_INPUT, ENABLE_QUICK_EDIT_MODE, ENABLE_WINDOW_INPUT, ENABLE_VIRTUAL_TERMINAL_INPUT. cbv zeta.
    change 0x80 with (2 ^ 7). change 0x4 with (2 ^ 2). change 0x2 with (2 ^ 1). change 0x1 with (2 ^ 0).
    change 0x10 with (2 ^ 4). change 0x40 with (2 ^ 6). change 0x8 with (2 ^ 3). change 0x200 with (2 ^ 9).
    destruct (block_signals cfg), (cfg_mouse cfg);
      repeat first [rewrite N.ldiff_spec | rewrite N.lor_spec]; rewrite !P, ?andb_true_r, ?orb_false_r; reflexivity. }
  rewrite G. clear G P.
  destruct (N.lt_ge_cases i 10) as [Hi|Hi].
  - assert (D : i = 0 \/ i = 1 \/ i = 2 \/ i = 3 \/ i = 4 \/ i = 5 \/ i = 6 \/ i = 7 \/ i = 8 \/ i = 9) by lia.
    decompose [or] D; subst i; unfold mode_bit; cbn [N.eqb Pos.eqb negb];
      destruct (block_signals cfg), (cfg_mouse cfg);
      rewrite ?andb_true_r, ?orb_false_r, ?andb_false_r, ?orb_true_r; reflexivity.
  - rewrite (mode_bit_high _ _ _ Hi).
    replace (7 =? i) with false by lia. replace (2 =? i) with false by lia. replace (1 =? i) with false by lia.
    replace (0 =? i) with false by lia. replace (4 =? i) with false by lia. replace (6 =? i) with false by lia.
    replace (3 =? i) with false by lia. replace (9 =? i) with false by lia.
    destruct (block_signals cfg), (cfg_mouse cfg), (N.testbit old i); reflexivity.
Qed.

(** Calls that work. *)
Lemma wos_call_ok {A} (f : wsys -> wsres A) s : os_works s ->
  exists o, Forall (fun o => o = None) o /\ wos_call f s = f (with_wos o s).
Proof.
  unfold os_works, wos_call. intros H. destruct (w_os s) as [|[e|] l] eqn:O.
  - exists []. split; [constructor|]. destruct s; cbn in *. now rewrite O.
  - inversion H. discriminate.
  - exists l. inversion H. auto.
Qed.

(** What a prepared console is like. *)
Definition catch_bits (set : sigset) : N :=
  N.lor (if ss_contains set Break then 2 else 0) (if ss_contains set Interrupt then 1 else 0).

Lemma catch_signals_ok set s : catch_signals set s = with_catch (catch_bits set) s.
Proof.
  unfold catch_signals, catch_bits, CTRL_BREAK_EVENT, CTRL_C_EVENT.
  destruct (ss_contains set Break), (ss_contains set Interrupt); reflexivity.
Qed.

Definition reports_ctrl (cfg : config) : bool := ss_contains (report_signals cfg) Break || ss_contains (report_signals cfg) Interrupt.
Lemma intersects_ok cfg : ss_intersects (report_signals cfg) (sig_or Break Interrupt) = reports_ctrl cfg.
Proof.
  unfold ss_intersects, reports_ctrl, ss_contains, sig_or, ss_insert, ss_new, as_bit, u8_shl1.
  change (N.lor (N.lor 0 (N.shiftl 1 (sig_disc Break) mod 256)) (N.shiftl 1 (sig_disc Interrupt) mod 256))
    with (N.lor (N.shiftl 1 0) (N.shiftl 1 2)).
  change (N.shiftl 1 (sig_disc Break) mod 256) with (N.shiftl 1 0).
  change (N.shiftl 1 (sig_disc Interrupt) mod 256) with (N.shiftl 1 2).
  rewrite land_or_bits, !land_bit, !negb_involutive. reflexivity.
Qed.

Lemma prepare_ok cfg s : os_works s ->
  exists o, Forall (fun o => o = None) o /\
  win_prepare cfg s = Ret (WSys (if cfg_mouse cfg then WReader (always_track_motion cfg) (prev_buttons (w_rd s)) else w_rd s)
      (if reports_ctrl cfg then catch_bits (report_signals cfg) else w_catch s) (w_last s) (prepared_mode cfg (w_mode s))
      (if reports_ctrl cfg then S (w_regs s) else w_regs s) (w_queue s) (w_failing s) o (w_passed s) (w_time s))
    (WPState (w_mode s) (reports_ctrl cfg)).
Proof.
  intros H. unfold win_prepare, console_mode.
  destruct (wos_call_ok (fun s => Ret s (w_mode s)) s H) as (o1 & H1 & ->). cbn [obind].
  set (s2 := if cfg_mouse cfg then _ else _).
  assert (H2 : os_works s2) by (unfold s2; destruct (cfg_mouse cfg); exact H1).
  unfold set_console_mode.
  match goal with |- context [wos_call ?f s2] => destruct (wos_call_ok f s2 H2) as (o2 & H3 & ->) end.
  cbn [obind]. rewrite intersects_ok. destruct (reports_ctrl cfg).
  - unfold set_ctrl_handler.
    rewrite catch_signals_ok.
    set (s3 := with_catch _ _). assert (H4 : os_works s3) by exact H3.
    destruct (wos_call_ok (fun s => if true then Ret (with_regs (S (w_regs s)) s) tt
                     else match w_regs s with O => Fail s ERROR_INVALID_PARAMETER | S n => Ret (with_regs n s) tt end) s3 H4)
      as (o3 & H5 & ->). cbn [obind].
    exists o3. split; [exact H5|]. unfold s3, s2. destruct (cfg_mouse cfg); reflexivity.
  - exists o2. split; [exact H3|]. unfold s2. destruct (cfg_mouse cfg); reflexivity.
Qed.

Lemma restore_ok old (h : bool) n s : os_works s -> w_regs s = (if h then S n else n) ->
  exists o, Forall (fun o => o = None) o /\
  win_restore (WPState old h) s = Ret (WSys (w_rd s) (w_catch s) (w_last s) (N.lor old ENABLE_EXTENDED_FLAGS) n
    (w_queue s) (w_failing s) o (w_passed s) (w_time s)) tt.
Proof.
  intros H R. unfold win_restore. cbn [clear_handler old_in_mode].
  assert (G : forall s1, os_works s1 -> (exists o, s1 = with_wos o (with_regs n s)) ->
    exists o, Forall (fun o => o = None) o /\
    set_console_mode (N.lor old ENABLE_EXTENDED_FLAGS) s1 =
      Ret (WSys (w_rd s) (w_catch s) (w_last s) (N.lor old ENABLE_EXTENDED_FLAGS) n
        (w_queue s) (w_failing s) o (w_passed s) (w_time s)) tt).
  { intros s1 H1 [o1 ->]. unfold set_console_mode.
    destruct (wos_call_ok (fun s => Ret (with_mode (N.lor old ENABLE_EXTENDED_FLAGS) s) tt) _ H1) as (o & Ho & ->).
    exists o. split; [exact Ho|]. reflexivity. }
  destruct h.
  - unfold set_ctrl_handler.
    match goal with |- context [wos_call ?f s] => destruct (wos_call_ok f s H) as (o & Ho & ->) end.
    cbn [w_regs with_wos]. rewrite R. cbn [obind]. apply G; [exact Ho|]. exists o. reflexivity.
  - cbn [obind]. apply G; [exact H|]. exists (w_os s). destruct s; cbn in *. now rewrite R.
Qed.

Lemma nest_ind' (P : nest -> Prop) :
  (forall cfg body, Forall P body -> P (Nest cfg body)) -> forall t, P t.
Proof.
  intros H. fix IH 1. intros [cfg body]. apply H. induction body as [|t body IHb]; constructor; auto.
Qed.

Lemma run_nest_eq cfg body s :
  run_nest (Nest cfg body) s =
    let! (s, st) := win_prepare cfg s in
    let! (s, _u) := run_nests body s in
    win_restore st s.
Proof.
  assert (G : forall body s, (fix go l s := match l with
                                     | [] => Ret s tt
                                     | t :: l => let! (s, _u) := run_nest t s in go l s
                                     end) body s = run_nests body s).
  { clear. induction body as [|t body IH]; intros s; [reflexivity|]. cbn [run_nests].
    destruct (run_nest t s); cbn [obind]; auto. }
  cbn [run_nest]. destruct (win_prepare cfg s) as [s1 st|s1 e| |]; cbn [obind]; auto.
Qed.

Definition keeps (t : nest) : Prop := forall s, os_works s ->
  exists s', run_nest t s = Ret s' tt /\ os_works s' /\ w_mode s' = N.lor (w_mode s) ENABLE_EXTENDED_FLAGS /\
    w_regs s' = w_regs s /\ w_queue s' = w_queue s /\ w_time s' = w_time s /\ w_last s' = w_last s.

Lemma nests_ok l : Forall keeps l -> forall s, os_works s ->
  exists s', run_nests l s = Ret s' tt /\ os_works s' /\
    w_mode s' = (match l with [] => w_mode s | _ => N.lor (w_mode s) ENABLE_EXTENDED_FLAGS end) /\
    w_regs s' = w_regs s /\ w_queue s' = w_queue s /\ w_time s' = w_time s /\ w_last s' = w_last s.
Proof.
  induction 1 as [|t l Ht Hl IH]; intros s H; cbn [run_nests].
  - exists s. auto 10.
  - destruct (Ht s H) as (s1 & -> & H1 & M1 & R1 & Q1 & T1 & L1). cbn [obind].
    destruct (IH s1 H1) as (s2 & -> & H2 & M2 & R2 & Q2 & T2 & L2). exists s2. split; [reflexivity|]. split; [exact H2|].
    split; [|repeat split; congruence]. rewrite M2, M1. destruct l; [reflexivity|].
    rewrite <- N.lor_assoc, N.lor_diag. reflexivity.
Qed.

Lemma nest_ok t : keeps t.
Proof.
  induction t as [cfg body IH] using nest_ind'. intros s H. rewrite run_nest_eq.
  destruct (prepare_ok cfg s H) as (o & Ho & ->). cbn [obind].
  set (s1 := WSys _ _ _ _ _ _ _ _ _ _).
  destruct (nests_ok body IH s1 Ho) as (s2 & -> & H2 & M2 & R2 & Q2 & T2 & L2). cbn [obind].
  destruct (restore_ok (w_mode s) (reports_ctrl cfg) (w_regs s) s2 H2) as (o2 & Ho2 & ->).
  { rewrite R2. reflexivity. }
  eexists. split; [reflexivity|]. split; [exact Ho2|]. split; [reflexivity|]. split; [reflexivity|].
  split; [exact Q2|]. split; [exact T2|exact L2].
Qed.

Lemma nesting l s : os_works s ->
  exists s', run_nests l s = Ret s' tt /\ w_regs s' = w_regs s /\ w_queue s' = w_queue s /\
    forall i, N.testbit (w_mode s') i = N.testbit (w_mode s) i || (match l with [] => false | _ => i =? 7 end).
Proof.
  intros H. destruct (nests_ok l) with (s := s) as (s' & R & _ & M & G & Q & _); auto.
  { apply Forall_forall. intros t _. apply nest_ok. }
  exists s'. split; [exact R|]. split; [exact G|]. split; [exact Q|]. intros i. rewrite M. destruct l; [now rewrite orb_false_r|].
  rewrite N.lor_spec. f_equal. unfold ENABLE_EXTENDED_FLAGS. change 0x80 with (2 ^ 7).
  destruct (N.eqb_spec i 7) as [->|]; [apply N.pow2_bits_true|apply N.pow2_bits_false; congruence].
Qed.

(** What [prepare] sets up. *)
Lemma caught_ok cfg n c : reports_ctrl cfg = true -> c < 2 ->
  caught (catch_bits (report_signals cfg)) (S n) c = ss_contains (report_signals cfg) (ctrl_signal c).
Proof.
  intros _ Hc. unfold caught, catch_bits. cbn [negb Nat.eqb].
  assert (D : c = 0 \/ c = 1) by lia.
  destruct D as [-> | ->]; [change (ctrl_signal 0) with Interrupt|change (ctrl_signal 1) with Break];
    destruct (ss_contains (report_signals cfg) Break), (ss_contains (report_signals cfg) Interrupt); reflexivity.
Qed.

Lemma prepare_sets cfg s : os_works s ->
  exists s' st, win_prepare cfg s = Ret s' st /\ os_works s' /\
    (forall i, N.testbit (w_mode s') i = mode_bit cfg (w_mode s) i) /\
    (cfg_mouse cfg = true -> always_track (w_rd s') = always_track_motion cfg) /\
    (forall c, c < 2 -> ss_contains (report_signals cfg) Break || ss_contains (report_signals cfg) Interrupt = true ->
       caught (w_catch s') (w_regs s') c = ss_contains (report_signals cfg) (ctrl_signal c)).
Proof.
  intros H. destruct (prepare_ok cfg s H) as (o & Ho & ->). eexists _, _. split; [reflexivity|].
  split; [exact Ho|]. split; [intros i; apply prepared_bit|]. split; [intros ->; reflexivity|].
  intros c Hc Hr. change (reports_ctrl cfg = true) in Hr. cbn [w_catch w_regs]. rewrite Hr. now apply caught_ok.
Qed.

(** The inner configuration stays in force after [restore]. *)
Lemma inner_stays cfg1 cfg2 s : os_works s -> reports_ctrl cfg1 = true -> reports_ctrl cfg2 = true ->
  exists s1 st1 s2 st2 s', win_prepare cfg1 s = Ret s1 st1 /\ win_prepare cfg2 s1 = Ret s2 st2 /\
    win_restore st2 s2 = Ret s' tt /\
    (forall c, c < 2 -> caught (w_catch s') (w_regs s') c = ss_contains (report_signals cfg2) (ctrl_signal c)) /\
    (cfg_mouse cfg2 = true -> always_track (w_rd s') = always_track_motion cfg2).
Proof.
  intros H R1 R2. destruct (prepare_ok cfg1 s H) as (o1 & H1 & E1). rewrite R1 in E1.
  set (s1 := WSys _ _ _ _ _ _ _ _ _ _) in E1.
  destruct (prepare_ok cfg2 s1 H1) as (o2 & H2 & E2). rewrite R2 in E2.
  set (s2 := WSys _ _ _ _ _ _ _ _ _ _) in E2.
  destruct (restore_ok (w_mode s1) true (w_regs s1) s2 H2 eq_refl) as (o3 & H3 & E3).
  do 5 eexists. split; [exact E1|]. split; [exact E2|]. split; [exact E3|]. split.
  - intros c Hc. cbn [w_catch w_regs s2 s1]. apply caught_ok; auto.
  - intros Hm. cbn [w_rd s2]. rewrite Hm. reflexivity.
Qed.

(** A failing registration. *)
Lemma failed_prepare cfg s e o : reports_ctrl cfg = true -> w_os s = None :: None :: Some e :: o ->
  exists s', win_prepare cfg s = Fail s' e /\ w_mode s' = prepared_mode cfg (w_mode s).
Proof.
  intros R Hos. unfold win_prepare, console_mode, set_console_mode, set_ctrl_handler, wos_call. rewrite Hos.
  cbn [obind]. destruct (cfg_mouse cfg); cbn; rewrite intersects_ok, R, catch_signals_ok; cbn; eexists; split; reflexivity.
Qed.

(** ** Two control events before a read *)
Lemma raise_caught c w s : caught (w_catch s) (w_regs s) c = true ->
  w_last (raise_ctrl c w s) = c /\ w_catch (raise_ctrl c w s) = w_catch s /\ w_regs (raise_ctrl c w s) = w_regs s /\
  w_time (raise_ctrl c w s) = w_time s.
Proof.
  intros H. unfold caught in H. unfold raise_ctrl, ctrl_handler, CTRL_BREAK_EVENT, CTRL_C_EVENT.
  destruct (w_regs s) as [|n] eqn:R; [discriminate H|]. cbn [negb Nat.eqb] in H.
  replace ((c =? 1) || (c =? 0)) with true by lia.
  rewrite land_bit. destruct (N.testbit (w_catch s) c); [|rewrite andb_false_r in H; discriminate H].
  cbn [negb]. destruct w; cbn; auto.
Qed.

Lemma replaced E t s c c' w w' l :
  caught (w_catch s) (w_regs s) c = true -> caught (w_catch s) (w_regs s) c' = true ->
  w_time s = WCtrl c w :: WCtrl c' w' :: WStep :: WStep :: l ->
  exists s', win_read_event E t s = Ret s' (Some (ESignal (ctrl_signal c')), []) /\ unreported s' = [].
Proof.
  intros H H' T.
  destruct (raise_caught c w s H) as (_ & A2 & A3 & _).
  destruct (raise_caught c' w' (raise_ctrl c w s)) as (B1 & B2 & B3 & _); [now rewrite A2, A3|].
  assert (Hc : c' < 2) by (unfold caught in H'; lia).
  set (s2 := raise_ctrl c' w' (raise_ctrl c w s)) in *.
  assert (Adv : wadvance s = with_wtime (WStep :: l) s2) by (unfold wadvance; rewrite T; reflexivity).
  assert (Adv2 : wadvance (with_wtime (WStep :: l) s2) = with_wtime l s2) by reflexivity.
  exists (with_wlast NO_SIGNAL (with_wtime l s2)). split; [|reflexivity].
  unfold win_read_event, win_read_raw_event, win_wait_event, win_get_signal. cbv zeta. rewrite Adv.
  cbn [w_last with_wtime]. rewrite B1, (conv_small c' Hc). cbn [obind negb].
  unfold win_take_signal. cbv zeta. rewrite Adv2. cbn [w_last with_wtime]. rewrite B1, (conv_small c' Hc). reflexivity.
Qed.
