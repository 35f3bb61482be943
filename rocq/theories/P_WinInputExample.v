(** Proofs for C144 on Windows: the example program examples/input.rs. *)
From Verif Require Import Base M_Utf8 M_Geom M_Attr M_Seq M_Signal M_Util M_Input S_Input M_Buf M_Prepare M_WinReader S_WinReader
  P_WinReader P_WinScreen M_ScreenExample S_ScreenExample S_WinScreenExample P_ScreenExample2 P_WinScreenExample M_InputExample S_InputExample P_InputExample M_WinInputExample S_WinInputExample.
From Verif Require S_Portable P_Portable P_Interact2 P_WinPoison P_WinPrepare P_WinPrepare.
Local Open Scope nat_scope.

Section Input.
  Variable E : env.

  Lemma telling_snoc es e : telling (es ++ [e]) = telling es ++ (match e with ENoEvent => [] | _ => [e] end).
  Proof. unfold telling. rewrite filter_app. destruct e; reflexivity. Qed.

  Lemma tell_shape e : tell_event (Some e) = (match e with ENoEvent => [] | _ => [e] end, is_q e).
  Proof. destruct e; reflexivity. Qed.

  Lemma q_record rd r rd' : decoded E rd r rd' the_q -> key_press_event r = Some (KChar 113%N).
  Proof.
    unfold decoded. destruct (key_press_event r) as [key|].
    - intros (_ & De). unfold the_q in De. injection De as ->. reflexivity.
    - intros (mo & _ & De). destruct mo; [discriminate De|]. destruct (size_event E r); discriminate De.
  Qed.

  Lemma wlisten_tells n : forall rd0 past es rs s, tells E rd0 past es (w_rd s) -> ~ In the_q es -> S_Portable.wcalm s -> records s = rs ->
    match listen (winput_round E) n s (telling es) with
    | IGoing _ out => exists now later es' rd, rs = now ++ later /\ length now = n /\ tells E rd0 (past ++ now) es' rd /\ out = telling es' /\ ~ In the_q es'
    | IWaiting _ out => exists es' rd, tells E rd0 (past ++ rs) es' rd /\ out = telling es' /\ ~ In the_q es'
    | IQuit _ out => exists now r later es' rd, rs = now ++ r :: later /\ tells E rd0 (past ++ now) es' rd /\ ~ In the_q es' /\
        key_press_event r = Some (KChar 113%N) /\ out = telling es' ++ [the_q]
    | _ => False
    end.
  Proof.
    induction n as [|n IH]; intros rd0 past es rs s Ht Hq Hc Hr; cbn [listen].
    { exists [], rs, es, (w_rd s). rewrite app_nil_r. auto. }
    unfold winput_round. destruct rs as [|r rs].
    { rewrite P_Interact2.wread_nothing by assumption. cbn [obind]. exists es, (w_rd s). rewrite app_nil_r. auto. }
    destruct (read_tells E s r rs Hc Hr) as (i & e & Rd & C1 & Rr & De). rewrite Rd. cbn [obind fst]. rewrite tell_shape, <- telling_snoc.
    assert (Ht' := tells_snoc _ _ _ _ _ _ _ _ Ht De).
    destruct (is_q e) eqn:Eq.
    { apply is_q_spec in Eq as ->. exists [], r, rs, es, (w_rd s). rewrite app_nil_r, telling_snoc.
      split; [reflexivity|]. split; [exact Ht|]. split; [exact Hq|]. split; [exact (q_record _ _ _ De)|reflexivity]. }
    assert (Hq' : ~ In the_q (es ++ [e])).
    { intros Q. apply in_app_or in Q as [Q|[Q|[]]]; [auto|]. apply is_q_spec in Q. congruence. }
    specialize (IH rd0 (past ++ [r]) (es ++ [e]) rs i Ht' Hq' C1 Rr). fold (winput_round E) in IH |- *.
    match goal with |- match ?l with _ => _ end => change l with (listen (winput_round E) n i (telling (es ++ [e]))) end.
    destruct (listen (winput_round E) n i (telling (es ++ [e]))) as [v o|v o|v o|v o|]; try exact IH.
    - destruct IH as (now & later & es' & rd & I1 & I2 & I3 & I4). exists (r :: now), later, es', rd. rewrite <- app_assoc in I3. cbn [app length] in *.
      split; [now rewrite I1|]. split; [now rewrite I2|]. auto.
    - destruct IH as (es' & rd & I3 & I4). exists es', rd. rewrite <- app_assoc in I3. auto.
    - destruct IH as (now & r' & later & es' & rd & I1 & I3 & I4). exists (r :: now), r', later, es', rd. rewrite <- app_assoc in I3. cbn [app] in *.
      split; [now rewrite I1|]. auto.
  Qed.
  Lemma wlisten_prints n s : S_Portable.wcalm s ->
    match listen (winput_round E) n s [] with
    | IGoing _ out => exists now later es rd, records s = now ++ later /\ length now = n /\ tells E (w_rd s) now es rd /\ out = telling es /\ ~ In the_q es
    | IWaiting _ out => exists es rd, tells E (w_rd s) (records s) es rd /\ out = telling es /\ ~ In the_q es
    | IQuit _ out => exists now r later es rd, records s = now ++ r :: later /\ tells E (w_rd s) now es rd /\ ~ In the_q es /\
        key_press_event r = Some (KChar 113%N) /\ out = telling es ++ [the_q]
    | _ => False
    end.
  Proof. intros Hc. exact (wlisten_tells n (w_rd s) [] [] (records s) s (tells_nil E _) (fun x => x) Hc eq_refl). Qed.

  (** Whatever happens, what is printed ends with [q]. *)
  Lemma wlisten_until n : forall s out, ~ In the_q out ->
    match listen (winput_round E) n s out with
    | IQuit _ out' => exists before, out' = before ++ [the_q] /\ ~ In the_q before
    | IGoing _ out' | IWaiting _ out' | IFailed _ out' => ~ In the_q out'
    | IPanicked => True
    end.
  Proof.
    induction n as [|n IH]; intros s out Ho; cbn [listen]; [auto|]. unfold winput_round.
    destruct (win_read_event E None s) as [s1 [e rs]|s1 e| |]; cbn [obind fst]; auto.
    destruct e as [e|]; [|cbn [tell_event]; rewrite app_nil_r; apply IH; exact Ho].
    rewrite tell_shape. destruct (is_q e) eqn:Eq.
    { apply is_q_spec in Eq as ->. eauto. }
    apply IH. intros Q. apply in_app_or in Q as [Q|Q]; [exact (Ho Q)|].
    destruct e; cbn [In] in Q; try (destruct Q as [Q|[]]; apply is_q_spec in Q; congruence). exact Q.
  Qed.
  Lemma winput_same s : match winput_round E s with Ret s' _ | Fail s' _ => w_mode s' = w_mode s /\ w_regs s' = w_regs s | _ => True end.
  Proof.
    unfold winput_round. pose proof (read_event_did E None s) as D.
    destruct (win_read_event E None s) as [s1 [e rs]|s1 e| |]; cbn [obind fst]; auto; destruct D as ((_ & D1 & D2 & _) & _); auto.
  Qed.

  (** Reading raw input: no character is lost. *)
  Definition ahead (s s' : wsys) : Prop :=
    w_mode s' = w_mode s /\ w_regs s' = w_regs s /\ w_catch s' = w_catch s /\ records s' = records s.
  Lemma ahead_trans a b c : ahead a b -> ahead b c -> ahead a c.
  Proof. intros (A1 & A2 & A3 & A4) (B1 & B2 & B3 & B4). repeat split; congruence. Qed.
  Lemma steps_ahead l s s' : steps l s s' -> w_time s = l ++ w_time s' -> ahead s s'.
  Proof.
    intros [A1 A2 A3 A4 A5 A6 A7] Ht. repeat split; auto. unfold records. rewrite A2, A3, A5, Ht, brings_app. symmetry; apply app_assoc.
  Qed.
  Lemma advance_ahead s : ahead s (wadvance s).
  Proof. destruct (advance_steps s) as (l & A & B & _). exact (steps_ahead _ _ _ B A). Qed.
  Lemma unit_char r : unit_of r = match rec_char r with Some u => [u] | None => [] end.
  Proof. destruct r as [[] k m u| | |]; try reflexivity. cbn. destruct (u =? 0)%N; reflexivity. Qed.
  Lemma take_units q : forall room us q', take_chars room q = (us, q') -> units q = us ++ units q'.
  Proof.
    induction q as [|r q IH]; intros [|room] us q' H; cbn [take_chars] in H; try (injection H as <- <-; reflexivity).
    unfold units in *. cbn [flat_map]. rewrite unit_char. destruct (rec_char r) as [u|].
    - destruct (take_chars room q) as [us1 q1] eqn:T. injection H as <- <-. cbn [app]. f_equal. exact (IH _ _ _ T).
    - exact (IH _ _ _ H).
  Qed.
  Lemma units_queue s q us : units (w_queue s) = us ++ units q -> units (records s) = us ++ units (records (with_wqueue q s)).
  Proof. intros H. unfold records, units in *. cbn [w_queue with_wqueue w_catch w_regs w_time]. rewrite !flat_map_app, H, app_assoc. reflexivity. Qed.

  Definition takes (us : list N) (s s' : wsys) : Prop := w_mode s' = w_mode s /\ w_regs s' = w_regs s /\ units (records s) = us ++ units (records s').
  Lemma ahead_takes us a b c : ahead a b -> takes us b c -> takes us a c.
  Proof. intros (A1 & A2 & A3 & A4) (B1 & B2 & B3). repeat split; congruence. Qed.
  Lemma ahead_none a b : ahead a b -> takes [] a b.
  Proof. intros (A1 & A2 & A3 & A4). repeat split; auto. now rewrite A4. Qed.
  Lemma console_takes fuel : forall room s,
    match read_console fuel room s with Ret s' us => takes us s s' | Fail s' _ => takes [] s s' | Panic => False | Blocked => True end.
  Proof.
    induction fuel as [|fuel IH]; intros room s; cbn [read_console]; destruct (room =? 0)%nat; try (apply ahead_none; repeat split);
      destruct (await_steps None (w_time s) s) as (l & Ht & Hs & _); destruct (wawait None (w_time s) s) as [s1 w]; cbn [fst snd] in *;
      pose proof (steps_ahead _ _ _ Hs Ht) as A; destruct w; auto; try (now apply ahead_none);
      destruct (take_chars room (w_queue s1)) as [[|u us] q] eqn:T; auto; apply take_units, units_queue in T;
      try (apply (ahead_takes _ _ _ _ A); repeat split; exact T).
    specialize (IH room (with_wqueue q s1)).
    assert (G : forall us s', takes us (with_wqueue q s1) s' -> takes us s s').
    { intros us s' (B1 & B2 & B3). apply (ahead_takes _ _ _ _ A). repeat split; [exact B1|exact B2|]. rewrite T. exact B3. }
    destruct (read_console fuel room (with_wqueue q s1)); auto.
  Qed.
  Lemma raw_takes len s :
    match win_read_raw len None s with
    | Ret s' (e, us) => takes us s s' /\ match e with Some (ERaw k) => k = length us | _ => us = [] end
    | Fail s' _ => takes [] s s'
    | Panic => False
    | Blocked => True
    end.
  Proof.
    unfold win_read_raw. pose proof (wait_did None s) as W. destruct (win_wait_event None s) as [s1 b|s1 e| |]; cbn [obind]; auto; [| |discriminate W].
    2:{ destruct W as (l & W1 & W2 & _). exact (ahead_none _ _ (steps_ahead _ _ _ W2 W1)). }
    destruct W as (l & W1 & W2 & _). pose proof (steps_ahead _ _ _ W2 W1) as A1. clear W1 W2.
    destruct b; cbn [negb]; [|split; [exact (ahead_none _ _ A1)|reflexivity]].
    unfold win_take_signal. cbv zeta. pose proof (ahead_trans _ _ _ A1 (advance_ahead s1)) as A2.
    set (s2 := wadvance s1) in *. clearbody s2. assert (A3 : ahead s (with_wlast NO_SIGNAL s2)) by exact A2.
    destruct (win_conv_signal (w_last s2)); [split; [exact (ahead_none _ _ A3)|reflexivity]|].
    pose proof (ahead_trans _ _ _ A3 (advance_ahead _)) as A4. set (s4 := wadvance (with_wlast NO_SIGNAL s2)) in *. clearbody s4.
    match goal with |- context [read_console ?f ?r s4] => pose proof (console_takes f r s4) as R; destruct (read_console f r s4) as [s5 us|s5 e| |] end;
      cbn [obind]; auto; [|exact (ahead_takes _ _ _ _ A4 R)].
    apply (ahead_takes _ _ _ _ A4) in R. destruct us; split; try exact R; reflexivity.
  Qed.
  Lemma wraw_same s : match wraw_round s with Ret s' _ | Fail s' _ => w_mode s' = w_mode s /\ w_regs s' = w_regs s | _ => True end.
  Proof.
    unfold wraw_round. pose proof (raw_takes 32 s) as D.
    destruct (win_read_raw 32 None s) as [s1 [e us]|s1 e| |]; cbn [obind fst]; auto; [destruct D as ((D1 & D2 & _) & _)|destruct D as (D1 & D2 & _)]; auto.
  Qed.
  Lemma wraw_told n : forall s0 s out, units (records s0) = printed_bytes out ++ units (records s) -> Forall sound out -> ~ In raw_q out ->
    match listen wraw_round n s out with
    | IQuit s' out' => units (records s0) = printed_bytes out' ++ units (records s') /\ Forall sound out' /\ exists before, out' = before ++ [raw_q] /\ ~ In raw_q before
    | IGoing s' out' | IWaiting s' out' | IFailed s' out' => units (records s0) = printed_bytes out' ++ units (records s') /\ Forall sound out' /\ ~ In raw_q out'
    | IPanicked => False
    end.
  Proof.
    induction n as [|n IH]; intros s0 s out Hs Hf Ho; cbn [listen]; [auto|]. unfold wraw_round.
    pose proof (raw_takes 32 s) as R.
    destruct (win_read_raw 32 None s) as [s1 [e bs]|s1 e| |]; cbn [obind fst snd] in *; auto.
    2:{ destruct R as (_ & _ & R). rewrite Hs, R. auto. }
    destruct R as ((_ & _ & R1) & R2). destruct e as [e|].
    2:{ subst bs. cbn [tell_raw]. rewrite app_nil_r. apply IH; auto. cbn [app] in R1. now rewrite <- R1. }
    assert (A : forall x, units (records s0) = printed_bytes out ++ bytes_of x ++ units (records s1) -> units (records s0) = printed_bytes (out ++ [x]) ++ units (records s1)).
    { intros x H. unfold printed_bytes in *. rewrite flat_map_app. cbn [flat_map]. rewrite app_nil_r, <- app_assoc. exact H. }
    assert (N : forall x, x <> raw_q -> ~ In raw_q (out ++ [x])).
    { intros x Hx Q. apply in_app_or in Q as [Q|[Q|[]]]; [exact (Ho Q)|]. congruence. }
    assert (G : forall x, sound x -> Forall sound (out ++ [x])) by (intros x Hx; apply Forall_app; split; [exact Hf|repeat constructor; exact Hx]).
    destruct e; cbn [tell_raw]; try (subst bs; apply IH; [apply A; cbn [bytes_of fst]; rewrite Hs, R1; reflexivity|apply G; exact Logic.I|apply N; discriminate]).
    subst n0.
    assert (P : units (records s0) = printed_bytes (out ++ [(ERaw (length bs), bs)]) ++ units (records s1)) by (apply A; cbn [bytes_of fst snd]; rewrite Hs, R1; reflexivity).
    destruct ((length bs =? 1) && match bs with b :: _ => (b =? 113)%N | [] => false end) eqn:Eq.
    - split; [exact P|]. split; [apply G; reflexivity|]. exists out. split; [|exact Ho]. apply andb_prop in Eq as [E1 E2].
      destruct bs as [|b [|]]; try discriminate. apply N.eqb_eq in E2 as ->. reflexivity.
    - apply IH; [exact P|apply G; reflexivity|]. apply N. intros Q. injection Q as Q1 Q2. subst bs. discriminate Eq.
  Qed.

  (** The whole program. *)
  Section Main.
    Variables (X : Type) (once : wsys -> wsres (list X * bool)) (cfg : config).
    Hypothesis Hk : forall s, match once s with Ret s' _ | Fail s' _ => w_mode s' = w_mode s /\ w_regs s' = w_regs s | _ => True end.
    Lemma wloop_keeps n : forall s out,
      match listen once n s out with
      | IQuit s' _ | IGoing s' _ | IWaiting s' _ | IFailed s' _ => w_mode s' = w_mode s /\ w_regs s' = w_regs s
      | IPanicked => True
      end.
    Proof.
      induction n as [|n IH]; intros s out; cbn [listen]; [auto|]. pose proof (Hk s) as K.
      destruct (once s) as [s1 [l b]|s1 e| |]; auto. destruct b; [exact K|]. destruct K as [<- <-]. apply IH.
    Qed.
    Lemma wmain_ends n s0 out s : winput_main once cfg n s0 = IEnded out true s ->
      w_mode s = N.lor (w_mode s0) ENABLE_EXTENDED_FLAGS /\ w_regs s = w_regs s0 /\ exists s1 s2, listen once n s1 [] = IQuit s2 out.
    Proof.
      unfold winput_main. destruct (win_prepare cfg s0) as [s1 st|s1 e| |] eqn:P; try discriminate.
      apply prepare_inv in P. destruct P as (-> & P2).
      pose proof (wloop_keeps n s1 []) as K.
      destruct (listen once n s1 []) as [v o|v o|v o|v o|] eqn:L; try discriminate.
      destruct K as (K1 & K2). destruct (win_restore _ v) as [v' u|v' e| |] eqn:R; try discriminate. intros H; injection H as <- <-.
      unfold win_restore in R. cbn [clear_handler old_in_mode] in R. apply bind_ret in R. destruct R as (v1 & u1 & R1 & R2).
      unfold set_console_mode in R2. apply os_inv in R2. destruct R2 as (o2 & R2). injection R2 as <- _.
      split; [reflexivity|]. split; [|eauto]. cbn. destruct (P_WinPrepare.reports_ctrl cfg).
      - unfold set_ctrl_handler in R1. apply os_inv in R1. destruct R1 as (o1 & R1). cbn in R1. rewrite K2, P2 in R1. injection R1 as <- _. reflexivity.
      - injection R1 as <- _. congruence.
    Qed.
    Lemma wprepared_mode s s' st : win_prepare cfg s = Ret s' st -> w_mode s' = prepared_mode cfg (w_mode s).
    Proof.
      unfold win_prepare. intros H. apply bind_ret in H. destruct H as (s1 & old & H1 & H). unfold console_mode in H1.
      apply os_inv in H1. destruct H1 as (o & H1). injection H1 as <- <-. cbv zeta in H.
      apply bind_ret in H. destruct H as (s2 & u & H2 & H). unfold set_console_mode in H2.
      apply os_inv in H2. destruct H2 as (o2 & H2). injection H2 as <- _.
      rewrite P_WinPrepare.intersects_ok in H. destruct (P_WinPrepare.reports_ctrl cfg).
      - apply bind_ret in H. destruct H as (s3 & u3 & H3 & H). injection H as <- _. unfold set_ctrl_handler in H3.
        apply os_inv in H3. destruct H3 as (o3 & H3). rewrite P_WinPrepare.catch_signals_ok in H3. injection H3 as <- _. destruct (cfg_mouse cfg); reflexivity.
      - injection H as <- _. destruct (cfg_mouse cfg); reflexivity.
    Qed.
    Lemma wmain_fails n s0 s1 st s2 out : win_prepare cfg s0 = Ret s1 st -> listen once n s1 [] = IFailed s2 out ->
      winput_main once cfg n s0 = IEnded out false s2 /\ N.testbit (w_mode s2) 2 = false /\ N.testbit (w_mode s2) 1 = false.
    Proof.
      intros P L. unfold winput_main. rewrite P, L. split; [reflexivity|].
      pose proof (wloop_keeps n s1 []) as K. rewrite L in K. destruct K as (K1 & _). rewrite K1, (wprepared_mode _ _ _ P).
      apply P_WinPoison.no_lines.
    Qed.
  End Main.

  Lemma winput_ends cfg n s0 out s : winput_main (winput_round E) cfg n s0 = IEnded out true s ->
    w_mode s = N.lor (w_mode s0) ENABLE_EXTENDED_FLAGS /\ w_regs s = w_regs s0 /\ exists before, out = before ++ [the_q] /\ ~ In the_q before.
  Proof.
    intros H. apply (wmain_ends _ _ cfg winput_same) in H as (H1 & H2 & s1 & s2 & L). split; [exact H1|]. split; [exact H2|].
    pose proof (wlisten_until n s1 [] (fun x => x)) as K. rewrite L in K. exact K.
  Qed.
  Lemma wraw_ends n s0 out s : winput_main wraw_round raw_config n s0 = IEnded out true s ->
    w_mode s = N.lor (w_mode s0) ENABLE_EXTENDED_FLAGS /\ w_regs s = w_regs s0 /\ exists before, out = before ++ [raw_q] /\ ~ In raw_q before.
  Proof.
    intros H. apply (wmain_ends _ _ raw_config wraw_same) in H as (H1 & H2 & s1 & s2 & L). split; [exact H1|]. split; [exact H2|].
    pose proof (wraw_told n s1 s1 [] eq_refl (Forall_nil _) (fun x => x)) as K. rewrite L in K. apply K.
  Qed.
End Input.
