(** Proofs about the events a program can be told on Windows (C129). *)
From Verif Require Import Base M_Utf8 S_Utf8 M_Geom M_Signal M_Util P_Util M_Input M_Buf M_Writer M_Prepare M_Reader
  M_WinWriter M_WinReader S_WinReader P_WinInput P_WinReader P_WinPrepare S_Events P_Events.
Local Open Scope N_scope.

(** ** Single events *)
Lemma unctrl_any c : no_capital (unctrl_lower c).
Proof.
  split; [|apply unctrl_lower_not_upper].
  assert (H : 64 <= unctrl_upper c < 256).
  { unfold unctrl_upper, as_u8, UNCTRL_BIT. set (x := c mod 256). assert (Hx : x < 256) by (apply N.mod_lt; discriminate).
    assert (B : forallb (fun k => let x := N.of_nat k in (64 <=? N.lor x 64) && (N.lor x 64 <? 256)) (seq 0 256) = true) by (vm_compute; reflexivity).
    rewrite forallb_forall in B. specialize (B (N.to_nat x)). cbv zeta in B. rewrite N2Nat.id in B.
    assert (In (N.to_nat x) (seq 0 256)) by (apply in_seq; lia). apply B in H. lia. }
  unfold unctrl_lower, to_ascii_lowercase. destruct (_ && _)%bool eqn:E; lia.
Qed.

Lemma from_char_told c : scalar c -> key_told no_capital (key_from_char c).
Proof.
  intros Hc. pose proof (char_told c Hc) as H. destruct (key_cases c) as [(_ & Q)|[(_ & Q)|[(_ & Q)|[(_ & Q)|[(_ & _ & _ & _ & _ & l & Q & _)|(_ & _ & Q)]]]]];
    rewrite Q in *; cbn in *; auto. unfold ctrl_char, no_capital in *. lia.
Qed.

Lemma vk_told vk k : vk_key vk = Some k -> key_told no_capital k.
Proof.
  intros H. unfold vk_key in H.
  repeat match type of H with context [match ?x with _ => _ end] => is_var x; destruct x; try discriminate end;
    injection H as <-; cbn; try exact I; lia.
Qed.

Lemma key_press_told r k : key_press_event r = Some k -> key_told no_capital k.
Proof.
  destruct r as [down vk ctl u| | |]; cbn [key_press_event]; try discriminate.
  destruct down; cbn [negb]; [|discriminate]. destruct (vk_key vk) as [k'|] eqn:V; [intros [= <-]; exact (vk_told _ _ V)|].
  destruct (has_alt ctl); [discriminate|]. destruct (u =? 0); cbn [negb]; [discriminate|].
  unfold from_u32. destruct (is_scalar u) eqn:S; [|discriminate]. destruct (has_ctrl ctl); intros [= <-].
  - apply unctrl_any.
  - apply from_char_told. unfold scalar, is_scalar in *. lia.
Qed.

Lemma win_mouse_told E r rd rd' m : win_mouse_event E r rd = Val (rd', Some m) -> modifiers (mmods m).
Proof.
  destruct r as [|pos b ctl f| |]; cbn [win_mouse_event]; try discriminate.
  match goal with |- match ?x with _ => _ end = _ -> _ => destruct x as [[rd1 [i|]]|]; try discriminate end.
  intros [= _ <-]. cbn [mmods]. pose proof (mods_bits (has_shift ctl) (has_alt ctl) (has_ctrl ctl)) as H.
  destruct (has_alt ctl), (has_ctrl ctl), (has_shift ctl); exact H.
Qed.

(** ** The signals asked for *)
Definition xwanted (P : signal -> Prop) (s : wsys) : Prop :=
  (forall c, c < 2 -> N.testbit (w_catch s) c = true -> P (ctrl_signal c)) /\
  (forall c, In c (unreported s) -> P (ctrl_signal c)).

Lemma xwanted_more (P Q : signal -> Prop) s : (forall x, P x -> Q x) -> xwanted P s -> xwanted Q s.
Proof. intros H [A B]. split; eauto. Qed.

Lemma catches_in catch regs l c : In c (catches catch regs l) -> c < 2 /\ N.testbit catch c = true.
Proof.
  induction l as [|t l IH]; cbn [catches]; [easy|]. destruct t; auto.
  destruct (caught catch regs c0) eqn:K; [|auto]. intros [<-|H]; [|auto]. unfold caught in K.
  apply andb_prop in K as [K K2]. apply andb_prop in K as [_ K]. split; [lia|exact K2].
Qed.

Lemma last_in l c : In c (last_of l) -> In c l.
Proof.
  unfold last_of. destruct (rev l) as [|x r] eqn:E; [easy|]. intros [<-|[]]. apply in_rev. rewrite E. now left.
Qed.

Lemma all_wanted P s l c : xwanted P s -> In c (unreported s ++ catches (w_catch s) (w_regs s) l) -> P (ctrl_signal c).
Proof. intros [A B] H. apply in_app_or in H. destruct H as [H|H]; [auto|]. apply catches_in in H. apply A; apply H. Qed.

Lemma steps_wanted P l s s' : steps l s s' -> xwanted P s -> xwanted P s'.
Proof.
  intros [A1 A2 A3 A4 A5 A6 A7] H. split; [rewrite A2; apply H|]. rewrite A7. intros c Hc. apply last_in in Hc. exact (all_wanted P s l c H Hc).
Qed.

Lemma did_wanted P s r s' : did s r s' -> xwanted P s ->
  xwanted P s' /\ match r with RGot (Some (ESignal sig)) _ => P sig | _ => True end.
Proof.
  intros (A1 & _ & _ & l & _ & _ & _ & A2) H.
  assert (G : unreported s' = last_of (unreported s ++ catches (w_catch s) (w_regs s) l) -> xwanted P s').
  { intros Q. split; [rewrite A1; apply H|]. rewrite Q. intros c Hc. apply last_in in Hc. exact (all_wanted P s l c H Hc). }
  destruct r as [b|[[]|] rs|e]; try (split; [apply G, A2|exact I]).
  destruct A2 as (l0 & c & Q1 & -> & Q2). split.
  - split; [rewrite A1; apply H|]. rewrite Q2. easy.
  - apply (all_wanted P s l c H). rewrite Q1. apply in_or_app. right. now left.
Qed.

Lemma ctrl_only c : ctrl_signal c = Break \/ ctrl_signal c = Interrupt.
Proof. unfold ctrl_signal. destruct (c =? 0); auto. Qed.

(** ** Operations *)
Section Told.
  Variables (E : env) (before : list xop).
  Notation W := (xwanted (win_asked before)).

  Lemma xwait_told t s : W s -> match win_wait_event t s with Ret s' _ | Fail s' _ => W s' | _ => True end.
  Proof.
    intros H. pose proof (wait_did t s) as K. destruct (win_wait_event t s) as [s' b|s' e| |]; auto.
    - destruct K as (l & _ & K & _). exact (steps_wanted _ _ _ _ K H).
    - destruct K as (l & _ & K & _). exact (steps_wanted _ _ _ _ K H).
  Qed.

  Lemma xread_told t s : W s ->
    match win_read_event E t s with
    | Ret s' (Some e, _) => W s' /\ win_event_told before e
    | Ret s' (None, _) | Fail s' _ => W s'
    | _ => True
    end.
  Proof.
    intros H. pose proof (read_event_did E t s) as K. destruct (win_read_event E t s) as [s' [e rs]|s' e| |] eqn:Er; auto.
    - destruct K as (K & F). destruct (did_wanted _ _ _ _ K H) as [K1 K2]. destruct e as [e|]; [|exact K1]. split; [exact K1|].
      cbn [fits] in F. assert (G : (exists sig, e = ESignal sig) \/ exists r, decoded E (w_rd s) r (w_rd s') e).
      { destruct e; try (left; eauto; fail); destruct rs as [|r [|]]; try contradiction; right; eauto. }
      destruct G as [(sig & ->)|(r & G)]; [exact K2|]. unfold decoded in G. destruct (key_press_event r) as [k|] eqn:Ek.
      + destruct G as (_ & ->). exact (key_press_told _ _ Ek).
      + destruct G as (m & G & ->). destruct m as [m|]; [exact (win_mouse_told _ _ _ _ _ G)|]. destruct (size_event E r); exact I.
    - destruct K as (K & _). exact (proj1 (did_wanted _ _ _ _ K H)).
  Qed.

  Lemma xraw_events_told len t s : W s ->
    match win_read_raw_event len t s with
    | Ret s' (Some e, rs) => W s' /\ win_raw_told before len e (length rs)
    | Ret s' (None, _) | Fail s' _ => W s'
    | _ => True
    end.
  Proof.
    intros H. pose proof (read_raw_event_did len t s) as K. destruct (win_read_raw_event len t s) as [s' [e rs]|s' e| |]; auto.
    - destruct K as (K & _ & F). destruct (did_wanted _ _ _ _ K H) as [K1 K2]. destruct e as [e|]; [|exact K1]. split; [exact K1|].
      destruct e; cbn; try contradiction; [lia|]. subst rs. split; [reflexivity|exact K2].
    - destruct K as (K & _). exact (proj1 (did_wanted _ _ _ _ K H)).
  Qed.

  Lemma take_chars_room room : forall q, (length (fst (take_chars room q)) <= room)%nat.
  Proof.
    intros q. revert room. induction q as [|r q IH]; intros [|room]; cbn [take_chars]; try (cbn; lia).
    destruct (rec_char r); [|apply IH]. specialize (IH room). destruct (take_chars room q). cbn in *. lia.
  Qed.

  Lemma console_told fuel room : forall s, W s ->
    match read_console fuel room s with Ret s' us => W s' /\ (length us <= room)%nat | Fail s' _ => W s' | _ => True end.
  Proof.
    induction fuel as [|fuel IH]; intros s H; cbn [read_console]; destruct (room =? 0)%nat; try (split; [exact H|cbn; lia]).
    all: destruct (await_steps None (w_time s) s) as (l & _ & K & _); destruct (wawait None (w_time s) s) as [s1 w]; cbn [fst] in K;
      pose proof (steps_wanted _ _ _ _ K H) as H1; destruct w; auto;
      pose proof (take_chars_room room (w_queue s1)) as R; destruct (take_chars room (w_queue s1)) as [[|u us] q]; cbn [fst] in R;
      try exact I; try (split; [exact H1|exact R]).
    apply IH. exact H1.
  Qed.

  Lemma xraw_text_told len t s : W s ->
    match win_read_raw len t s with
    | Ret s' (Some e, us) => W s' /\ win_raw_told before len e (length us)
    | Ret s' (None, _) | Fail s' _ => W s'
    | _ => True
    end.
  Proof.
    intros H. unfold win_read_raw. pose proof (xwait_told t s H) as K.
    destruct (win_wait_event t s) as [s1 ready|s1 e| |]; cbn [obind]; auto. destruct ready; cbn [negb]; [|exact K].
    unfold win_take_signal. cbv zeta. destruct (advance_steps s1) as (l & _ & K2 & _). set (s2 := wadvance s1) in *. clearbody s2.
    pose proof (steps_wanted _ _ _ _ K2 K) as H2. clear K K2.
    assert (H3 : W (with_wlast NO_SIGNAL s2)) by (split; [apply H2|easy]).
    destruct (win_conv_signal (w_last s2)) as [sig|] eqn:C.
    - split; [exact H3|]. cbn. split; [reflexivity|]. rewrite (conv_some _ _ C). apply H2. unfold unreported. rewrite C. now left.
    - set (s3 := with_wlast NO_SIGNAL s2) in *. clearbody s3. destruct (advance_steps s3) as (l3 & _ & K3 & _).
      pose proof (steps_wanted _ _ _ _ K3 H3) as H4. set (s4 := wadvance s3) in *. clearbody s4.
      match goal with |- context [read_console ?f ?r s4] => pose proof (console_told f r s4 H4) as R; destruct (read_console f r s4) as [s5 us|s5 e| |] end;
        cbn [obind]; auto. destruct R as [R1 R2]. destruct us as [|u us]; [exact R1|]. split; [exact R1|].
      cbn [win_raw_told]. split; [reflexivity|]. unfold to_dword in R2. lia.
  Qed.
End Told.

Lemma xrestore_told P st s : xwanted P s -> match win_restore st s with Ret s' _ | Fail s' _ => xwanted P s' | _ => True end.
Proof.
  intros H. unfold win_restore.
  assert (Hc : forall b s, xwanted P s -> match set_ctrl_handler b s with Ret s' _ | Fail s' _ => xwanted P s' | _ => True end).
  { intros b s0 H0. unfold set_ctrl_handler, wos_call. destruct (w_os s0) as [|[e|] l]; try exact H0; destruct b; try exact H0; cbn;
      destruct (w_regs s0); exact H0. }
  assert (Hm : forall n s, xwanted P s -> match set_console_mode n s with Ret s' _ | Fail s' _ => xwanted P s' | _ => True end).
  { intros b s0 H0. unfold set_console_mode, wos_call. destruct (w_os s0) as [|[e|] l]; exact H0. }
  destruct (clear_handler st); [|cbn [obind]; apply Hm, H].
  pose proof (Hc false s H) as K. destruct (set_ctrl_handler false s); cbn [obind]; auto. apply Hm, K.
Qed.

Lemma xprepare_told (P : signal -> Prop) cfg s : xwanted P s ->
  (forall sig, sig = Break \/ sig = Interrupt -> ss_contains (report_signals cfg) sig = true -> P sig) ->
  match win_prepare cfg s with Ret s' _ | Fail s' _ => xwanted P s' | _ => True end.
Proof.
  intros H Hw. unfold win_prepare.
  assert (Hc : forall b s, xwanted P s -> match set_ctrl_handler b s with Ret s' _ | Fail s' _ => xwanted P s' | _ => True end).
  { intros b s0 H0. unfold set_ctrl_handler, wos_call. destruct (w_os s0) as [|[e|] l]; try exact H0; destruct b; try exact H0; cbn;
      destruct (w_regs s0); exact H0. }
  assert (Hm : forall n s, xwanted P s -> match set_console_mode n s with Ret s' _ | Fail s' _ => xwanted P s' | _ => True end).
  { intros b s0 H0. unfold set_console_mode, wos_call. destruct (w_os s0) as [|[e|] l]; exact H0. }
  assert (H1 : match console_mode s with Ret s' _ | Fail s' _ => xwanted P s' | _ => True end).
  { unfold console_mode, wos_call. destruct (w_os s) as [|[e|] l]; exact H. }
  destruct (console_mode s) as [s1 old|s1 e| |]; cbn [obind]; auto.
  set (s2 := if cfg_mouse cfg then _ else s1). assert (H2 : xwanted P s2) by (unfold s2; destruct (cfg_mouse cfg); exact H1). clearbody s2.
  pose proof (Hm (prepared_mode cfg old) s2 H2) as H3. destruct (set_console_mode (prepared_mode cfg old) s2) as [s3 u|s3 e| |]; cbn [obind]; auto.
  destruct (ss_intersects _ _); [|exact H3].
  assert (H4 : xwanted P (catch_signals (report_signals cfg) s3)).
  { split; [|apply H3]. intros c Hc2. unfold catch_signals. cbn [w_catch with_catch].
    assert (c = 0 \/ c = 1) as [-> | ->] by lia.
    - intros T. change (ctrl_signal 0) with Interrupt. apply Hw; [now right|]. destruct (ss_contains (report_signals cfg) Interrupt); [reflexivity|].
      destruct (ss_contains (report_signals cfg) Break); discriminate T.
    - intros T. change (ctrl_signal 1) with Break. apply Hw; [now left|]. destruct (ss_contains (report_signals cfg) Break); [reflexivity|].
      destruct (ss_contains (report_signals cfg) Interrupt); discriminate T. }
  pose proof (Hc true _ H4) as H5. destruct (set_ctrl_handler true (catch_signals (report_signals cfg) s3)); cbn [obind]; exact H5.
Qed.

Lemma xstep_told E o s s' r before : xwanted (win_asked before) s -> xstep E o s = Some (s', r) ->
  xwanted (win_asked (before ++ [o])) s' /\
  match o, r with
  | XRead _, ZEvent (Some e) => win_event_told before e
  | XRawEvents len _, ZRecords (Some e) rs => win_raw_told before len e (length rs)
  | XRawText len _, ZText (Some e) us => win_raw_told before len e (length us)
  | _, _ => True
  end.
Proof.
  intros H. assert (More : forall x, win_asked before x -> win_asked (before ++ [o]) x).
  { intros x (A & cfg & B & D). split; [exact A|]. exists cfg. split; [apply in_or_app; now left|exact D]. }
  destruct o as [t|t|len t|len t|cfg|st]; cbn [xstep].
  - pose proof (xwait_told before t s H) as K. destruct (win_wait_event t s) as [s1 b|s1 e| |]; try discriminate; intros [= <- <-];
      (split; [exact (xwanted_more _ _ _ More K)|exact I]).
  - pose proof (xread_told E before t s H) as K. destruct (win_read_event E t s) as [s1 [[b|] rs]|s1 e| |]; try discriminate; intros [= <- <-];
      cbn [fst] in *; try (split; [exact (xwanted_more _ _ _ More K)|exact I]). split; [exact (xwanted_more _ _ _ More (proj1 K))|apply K].
  - pose proof (xraw_events_told before len t s H) as K. destruct (win_read_raw_event len t s) as [s1 [[b|] rs]|s1 e| |]; try discriminate; intros [= <- <-];
      cbn [fst snd] in *; try (split; [exact (xwanted_more _ _ _ More K)|exact I]). split; [exact (xwanted_more _ _ _ More (proj1 K))|apply K].
  - pose proof (xraw_text_told before len t s H) as K. destruct (win_read_raw len t s) as [s1 [[b|] rs]|s1 e| |]; try discriminate; intros [= <- <-];
      cbn [fst snd] in *; try (split; [exact (xwanted_more _ _ _ More K)|exact I]). split; [exact (xwanted_more _ _ _ More (proj1 K))|apply K].
  - assert (K : match win_prepare cfg s with Ret s' _ | Fail s' _ => xwanted (win_asked (before ++ [XPrepare cfg])) s' | _ => True end).
    { apply xprepare_told; [exact (xwanted_more _ _ _ More H)|]. intros sig Hs Q. split; [exact Hs|]. exists cfg. split; [|exact Q]. apply in_or_app. right. now left. }
    destruct (win_prepare cfg s) as [s1 b|s1 e| |]; try discriminate; intros [= <- <-]; (split; [exact K|exact I]).
  - pose proof (xrestore_told _ st s (xwanted_more _ _ _ More H)) as K.
    destruct (win_restore st s) as [s1 b|s1 e| |]; try discriminate; intros [= <- <-]; (split; [exact K|exact I]).
Qed.

Definition xanswers (before : list xop) (o : xop) (r : xreply) : Prop :=
  match o, r with
  | XRead _, ZEvent (Some e) => win_event_told before e
  | XRawEvents len _, ZRecords (Some e) rs => win_raw_told before len e (length rs)
  | XRawText len _, ZText (Some e) us => win_raw_told before len e (length us)
  | _, _ => True
  end.

Lemma xrun_told E : forall ops before s s' rs, xwanted (win_asked before) s -> xrun E ops s = Some (s', rs) ->
  forall i o r, nth_error ops i = Some o -> nth_error rs i = Some r -> xanswers (before ++ firstn i ops) o r.
Proof.
  induction ops as [|o ops IH]; intros before s s' rs H; cbn [xrun].
  - intros [= <- <-] i o r Q; destruct i; discriminate.
  - destruct (xstep E o s) as [[s1 r]|] eqn:X; [|discriminate].
    destruct (xrun E ops s1) as [[s2 rs2]|] eqn:E2; [|discriminate]. intros [= <- <-].
    destruct (xstep_told E o s s1 r before H X) as [H1 T]. intros [|i] o' r'; cbn [nth_error firstn].
    + rewrite app_nil_r. intros [= <-] [= <-]. exact T.
    + intros Q1 Q2. pose proof (IH (before ++ [o]) s1 s2 rs2 H1 E2 i o' r' Q1 Q2) as A. rewrite <- app_assoc in A. exact A.
Qed.

Lemma win_events_told E ops s s' rs : w_catch s = 0 -> win_conv_signal (w_last s) = None -> xrun E ops s = Some (s', rs) ->
  forall i,
    (forall t e, nth_error ops i = Some (XRead t) -> nth_error rs i = Some (ZEvent (Some e)) -> win_event_told (firstn i ops) e) /\
    (forall room t e l, nth_error ops i = Some (XRawEvents room t) -> nth_error rs i = Some (ZRecords (Some e) l) ->
       win_raw_told (firstn i ops) room e (length l)) /\
    (forall room t e l, nth_error ops i = Some (XRawText room t) -> nth_error rs i = Some (ZText (Some e) l) ->
       win_raw_told (firstn i ops) room e (length l)).
Proof.
  intros H1 H2 HR i. assert (H : xwanted (win_asked []) s).
  { split; [rewrite H1; intros c _; now rewrite N.bits_0|]. unfold unreported. rewrite H2. easy. }
  pose proof (xrun_told E ops [] s s' rs H HR i) as K. cbn [app] in K.
  split; [|split].
  - intros t e Q1 Q2. exact (K _ _ Q1 Q2).
  - intros room t e l Q1 Q2. exact (K _ _ Q1 Q2).
  - intros room t e l Q1 Q2. exact (K _ _ Q1 Q2).
Qed.

(** ** A key with Ctrl and a capital letter beyond ASCII *)
Lemma read_first E t s r rest :
  as_millis t <> Boom -> w_queue s = r :: rest -> w_failing s = None -> unreported s = [] -> Forall quiet_tick (w_time s) ->
  exists s' e rd, win_read_event E t s = Ret s' (Some e, [r]) /\ decoded E (w_rd s) r rd e.
Proof.
  intros M Q F U T.
  assert (Adv : forall s1, w_queue s1 = r :: rest -> w_failing s1 = None -> unreported s1 = [] -> Forall quiet_tick (w_time s1) ->
    w_rd s1 = w_rd s ->
    let s2 := wadvance s1 in w_queue s2 = r :: rest /\ w_failing s2 = None /\ unreported s2 = [] /\ Forall quiet_tick (w_time s2)
      /\ w_rd s2 = w_rd s).
  { intros s1 Q1 F1 U1 T1 R1. unfold wadvance. destruct (quiet_after _ T1 s1) as (t' & -> & T'). auto. }
  assert (Conv : forall s1, unreported s1 = [] -> win_conv_signal (w_last s1) = None).
  { intros s1 U1. unfold unreported in U1. destruct (win_conv_signal (w_last s1)); [discriminate U1|reflexivity]. }
  assert (Aw : forall o s1, w_queue s1 = r :: rest -> w_failing s1 = None -> wawait o (w_time s1) s1 = (with_wtime (w_time s1) s1, XReady)).
  { intros o s1 Q1 F1. destruct (w_time s1) as [|x l]; cbn [wawait]; now rewrite F1, Q1. }
  destruct (as_millis t) as [ms|] eqn:Em; [|now elim M].
  destruct (Adv s Q F U T eq_refl) as (Q1 & F1 & U1 & T1 & R1). set (s1 := wadvance s) in *.
  destruct (Adv s1 Q1 F1 U1 T1 R1) as (Q2 & F2 & U2 & T2 & R2). set (s2 := wadvance s1) in *.
  assert (W : win_wait_event t s = Ret (with_wtime (w_time s2) s2) true).
  { unfold win_wait_event, win_get_signal. cbv zeta. fold s1. rewrite (Conv s1 U1), Em.
    unfold wait_for_single_object. cbv zeta. fold s2. now rewrite (Aw _ s2 Q2 F2). }
  set (s3 := with_wtime (w_time s2) s2) in *.
  destruct (Adv s3) as (Q4 & F4 & U4 & T4 & R4); auto. set (s4 := wadvance s3) in *.
  set (s5 := with_wlast NO_SIGNAL s4).
  destruct (Adv s5) as (Q6 & F6 & U6 & T6 & R6); auto. set (s6 := wadvance s5) in *.
  unfold win_read_event, win_read_raw_event. rewrite W. cbn [obind negb]. unfold win_take_signal. cbv zeta. fold s4.
  rewrite (Conv s4 U4). fold s5. unfold read_console_input. fold s6. cbn [to_dword N.of_nat N.min].
  change (to_dword 1 =? 0) with false. cbv iota. rewrite (Aw _ s6 Q6 F6). cbn [w_queue with_wtime]. rewrite Q6.
  change (N.to_nat (to_dword 1)) with 1%nat. cbn [Nat.min length firstn skipn obind].
  destruct (decode_ok E r (with_wqueue rest (with_wtime (w_time s6) s6))) as (rd & e & -> & D & _).
  cbn [obind]. exists (with_rd rd (with_wqueue rest (with_wtime (w_time s6) s6))), e, rd. split; [reflexivity|].
  cbn [w_rd with_wqueue with_wtime] in D. now rewrite R6 in D.
Qed.

Lemma unctrl_high c : 192 <= c < 256 -> unctrl_lower c = c.
Proof.
  intros H. assert (B : forallb (fun k => unctrl_lower (N.of_nat k) =? N.of_nat k) (seq 192 64) = true) by (vm_compute; reflexivity).
  rewrite forallb_forall in B. specialize (B (N.to_nat c)). rewrite N2Nat.id in B. apply N.eqb_eq, B, in_seq. lia.
Qed.

Lemma capital_told E t s vk ctl c rest :
  capital c -> 128 <= c -> other_vk vk -> alt_held ctl = false -> ctrl_held ctl = true ->
  as_millis t <> Boom -> w_queue s = KeyRec true vk ctl c :: rest -> w_failing s = None -> unreported s = [] ->
  Forall quiet_tick (w_time s) ->
  exists s', xrun E [XRead t] s = Some (s', [ZEvent (Some (EKey (KCtrl c)))]).
Proof.
  intros Hc Hb Hv Ha Hk M Q F U T. assert (Hr : 192 <= c < 256) by (unfold capital in Hc; lia).
  destruct (read_first E t s _ rest M Q F U T) as (s' & e & rd & R & D). exists s'. cbn [xrun xstep]. rewrite R. cbn [fst].
  unfold decoded in D. destruct (ctrl_confused vk ctl c Hv Ha Hk) as (l & K & _); [lia|unfold scalar, is_scalar; lia|].
  assert (L : l = c).
  { unfold key_press_event in K. rewrite has_alt_bits, has_ctrl_bits, Ha, Hk, (vk_other _ Hv) in K. cbn [negb] in K.
    destruct (N.eqb_spec c 0); [lia|]. cbn [negb] in K. unfold from_u32 in K. destruct (is_scalar c); [|discriminate].
    injection K as <-. now apply unctrl_high. }
  rewrite K in D. destruct D as [_ ->]. now rewrite L.
Qed.
