(** Proofs for C144: the signals that the example program examples/signals.rs prints on Unix. *)
From Verif Require Import Base M_Utf8 S_Utf8 M_Geom M_Attr M_Seq S_Seq M_Signal M_Util M_Input S_Input M_Buf M_Writer M_Prepare M_Reader
  S_Reader S_Prepare P_Prepare P_Reader S_Caught P_Caught M_ScreenExample S_ScreenExample M_InputExample S_UnixSignalsExample.
Local Open Scope nat_scope.

Section S.
  Variables (C : tcfg) (m : seq_map).
  Hypothesis Hm : key_map m.

  Definition set_up (cfg : config) (s : sys) : Prop := report s = report_signals cfg /\ resume_cfg s = Some cfg.
  Lemma steady_up cfg s s' : steady s s' -> set_up cfg s -> set_up cfg s'.
  Proof. intros (H1 & H2 & _) [A B]. split; congruence. Qed.
  Lemma guard_up {A} cfg (f : sys -> rres A) s s' a : (forall s1 b, f s = Ret s1 b -> set_up cfg s1) -> with_guard f s = Ret s' a -> set_up cfg s'.
  Proof.
    intros Hf. unfold with_guard. destruct (f s) as [s1 b|s1 e| |] eqn:F; try discriminate.
    - specialize (Hf s1 b eq_refl). destruct (on_wr guard_drop s1) as [s2 u|s2 x| |] eqn:G; cbn [obind]; try discriminate.
      intros H; injection H as <- _. apply on_wr_ret in G as (w & -> & _). exact Hf.
    - destruct (on_wr guard_drop s1); cbn [obind]; discriminate.
  Qed.
  Lemma handle_up cfg sig s s' e : set_up cfg s -> handle_signal C sig s = Ret s' e -> set_up cfg s'.
  Proof.
    intros Hs. assert (R : forall s1, set_up cfg s1 -> report_signal sig s1 = Ret s' e -> set_up cfg s').
    { intros s1 H1. unfold report_signal. destruct (ss_contains _ _); intros H; injection H as <- _; exact H1. }
    destruct sig; cbn [handle_signal]; try (apply R; exact Hs).
    - unfold resume. destruct Hs as [H1 H2]. rewrite H2. destruct (prepare C cfg s) as [s1 st|s1 x| |] eqn:P; cbn [obind]; try discriminate.
      apply R. apply prepare_ret in P as (_ & _ & _ & P3 & P4 & _). split; assumption.
    - destruct (term_size s) as [s1 z|s1 x| |] eqn:T; cbn [obind]; try discriminate. intros H; injection H as <- _.
      unfold term_size in T. revert T. apply guard_up. intros s2 z2 H. destruct (win s); [discriminate|injection H as <- _; exact Hs].
  Qed.
  Lemma read_up cfg s s' e : set_up cfg s -> read_event C m None s = Ret s' e -> set_up cfg s'.
  Proof.
    intros Hs. unfold read_event. pose proof (try_read_ends m Hm s) as T. destruct (try_read m s) as [s1 [x|]|s1 x| |]; cbn [obind ends] in *; try discriminate.
    { destruct T as (T & _). intros H; injection H as <- _. exact (steady_up _ _ _ T Hs). }
    destruct T as (T & _). pose proof (steady_up _ _ _ T Hs) as H1. pose proof (into_buffer_ends C m None s1) as B.
    destruct (read_into_buffer C m None s1) as [s2 r|s2 x| |]; cbn [obind ends] in *; try discriminate.
    destruct B as (B & _). pose proof (steady_up _ _ _ B H1) as H2. destruct r as [[sig|bs]|].
    - now apply handle_up.
    - intros R. pose proof (try_read_ends m Hm s2) as T2. rewrite R in T2. destruct T2 as (T2 & _). exact (steady_up _ _ _ T2 H2).
    - intros H; injection H as <- _. exact H2.
  Qed.
  Lemma deserved_all sig w : (match deserved ss_all sig w with Some e => [e] | None => [] end) = line_for sig w.
  Proof. destruct sig, w; reflexivity. Qed.

  Lemma lines_end s l s1 : signal_lines s l s1 -> forall l2 s2, signal_lines s1 l2 s2 -> signal_lines s (l ++ l2) s2.
  Proof.
    induction 1 as [s|s s1 x l s2 H1 H2 H3 IH|s s1 sig l s2 H1 H2 H3 IH]; intros l2 s3 H; [exact H| |].
    - exact (lines_waits _ _ _ _ _ H1 H2 (IH _ _ H)).
    - rewrite <- app_assoc. exact (lines_told _ _ _ _ _ H1 H2 (IH _ _ H)).
  Qed.
  Lemma round_lines s s1 e : set_up signals_config s -> read_event C m None s = Ret s1 e ->
    signal_lines s (filter tells_signal (fst (tell_event e))) s1.
  Proof.
    intros Hs R. destruct (read_up _ _ _ _ Hs R) as [Rp _]. destruct (signals_kept C m) as (_ & K & _). destruct (K _ _ _ _ R) as (x & N & [[W U]|(sig & -> & L & E)]).
    - assert (F : filter tells_signal (fst (tell_event e)) = []) by (destruct e as [[]|]; cbn in *; try reflexivity; contradiction).
      rewrite F. exact (lines_waits _ _ _ _ _ N W (lines_none _)).
    - rewrite Rp in E. change (report_signals signals_config) with ss_all in E.
      assert (F : filter tells_signal (fst (tell_event e)) = line_for sig (win s1) ++ []).
      { rewrite app_nil_r, <- deserved_all, <- E. subst e. destruct sig, (win s1); reflexivity. }
      rewrite F. exact (lines_told _ _ _ _ _ N L (lines_none _)).
  Qed.
  Lemma listen_lines n : forall s0 s out, set_up signals_config s -> signal_lines s0 (filter tells_signal out) s ->
    match listen (input_round C m) n s out with
    | IGoing s' out' | IWaiting s' out' | IQuit s' out' => signal_lines s0 (filter tells_signal out') s'
    | IFailed _ out' => exists s', signal_lines s0 (filter tells_signal out') s'
    | IPanicked => True
    end.
  Proof.
    induction n as [|n IH]; intros s0 s out Hs Hl; cbn [listen]; [exact Hl|]. unfold input_round.
    destruct (read_event C m None s) as [s1 e|s1 e| |] eqn:R; cbn [obind]; eauto.
    pose proof (round_lines _ _ _ Hs R) as L. pose proof (read_up _ _ _ _ Hs R) as Hs1.
    destruct (tell_event e) as [l stop]. cbn [fst] in L. pose proof (lines_end _ _ _ Hl _ _ L) as L2. rewrite <- filter_app in L2.
    destruct stop; [exact L2|]. exact (IH s0 s1 (out ++ l) Hs1 L2).
  Qed.
  Lemma signals_lines n s0 s1 st : prepare C signals_config s0 = Ret s1 st ->
    match listen (input_round C m) n s1 [] with
    | IGoing s' out | IWaiting s' out | IQuit s' out => signal_lines s1 (filter tells_signal out) s'
    | IFailed _ out => exists s', signal_lines s1 (filter tells_signal out) s'
    | IPanicked => True
    end.
  Proof.
    intros P. apply prepare_ret in P as (_ & _ & _ & P3 & P4 & _). exact (listen_lines n s1 s1 [] (conj P3 P4) (lines_none _)).
  Qed.
End S.
