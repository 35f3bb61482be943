(** The example programs examples/input.rs and examples/raw_input.rs (C144). *)
From Verif Require Import Base M_Utf8 S_Utf8 M_Geom M_Attr M_Seq S_Seq M_Signal M_Util M_Input S_Input M_Buf M_Writer M_Prepare M_Reader
  S_Reader S_Prepare P_Prepare P_Reader P_Reader2 S_Typing P_Typing M_UnixScreen S_UnixScreen P_UnixScreen P_UnixScreen2.
From Verif Require S_Poison P_Poison.
From Verif Require Import S_Interact P_Interact M_ScreenExample S_ScreenExample P_ScreenExample2 M_InputExample S_InputExample.
Local Open Scope nat_scope.

Section Ends.
  Variables (C : tcfg) (m : seq_map).
  Hypothesis Hm : key_map m.

  Lemma drop_same s s' e : M_UnixScreen.terminal_drop C s = Ret s' e -> exists w, s' = with_wr w s.
  Proof.
    unfold terminal_drop, on_wr. destruct (run_terminal_op C (OSetCursorMode CNormal) (wr s)); intros H; try discriminate H; injection H as <- <-; eauto.
  Qed.

  Section Rounds.
    Variables (X : Type) (once : sys -> rres (list X * bool)).

    (** What every call keeps, the loop keeps. *)
    Definition loop_keeps (P : sys -> Prop) : Prop := forall s, P s -> match once s with Ret s' _ | Fail s' _ => P s' | _ => True end.
    Lemma listen_keeps P n : loop_keeps P -> forall s out, P s ->
      match listen once n s out with IGoing s' _ | IWaiting s' _ | IQuit s' _ | IFailed s' _ => P s' | IPanicked => True end.
    Proof.
      intros H. induction n as [|n IH]; intros s out Hs; cbn [listen]; [exact Hs|]. specialize (H s Hs) as H1.
      destruct (once s) as [s1 [l b]|s1 e| |]; try exact H1; [|exact Hs]. destruct b; [exact H1|]. apply IH. exact H1.
    Qed.

    Lemma once_ends cfg n s0 out s :
      (forall c a, resume_cfg a = Some c -> loop_keeps (fun b => kept_by (Some c) a b)) ->
      input_main C once cfg n s0 = IEnded out true s ->
      same_terminal s0 s /\ exists s1 st s2, prepare C cfg s0 = Ret s1 st /\ listen once n s1 [] = IQuit s2 out.
    Proof.
      intros Hk. unfold input_main, drop_term. destruct (prepare C cfg s0) as [s1 st|s1 e| |] eqn:Ep; try discriminate.
      2:{ destruct (terminal_drop C s1); discriminate. }
      pose proof (prepare_ret _ _ _ _ _ Ep) as Hp. assert (Hcfg : resume_cfg s1 = Some cfg) by apply Hp.
      pose proof (listen_keeps _ n (Hk cfg s1 Hcfg) s1 []) as K. cbn beta in K.
      specialize (K (kept_refl _ _ _ Hcfg Hcfg eq_refl)).
      destruct (listen once n s1 []) as [s2 o|s2 o|s2 o|s2 o|] eqn:El; try discriminate.
      2:{ destruct (terminal_drop C s2); discriminate. }
      destruct (restore C st s2) as [s3 u|s3 e| |] eqn:Er; try discriminate.
      2:{ destruct (terminal_drop C s3); discriminate. }
      destruct (terminal_drop C s3) as [s4 e4|s4 e4| |] eqn:Ed; try discriminate. intros H; injection H as <- <-.
      apply drop_same in Ed as (w & ->). split; [|exists s1, st, s2; split; [reflexivity|exact El]].
      exact (back_home cfg s0 s1 st s2 s3 Hp K (restore_ret _ _ _ _ _ Er)).
    Qed.

    Lemma once_fails cfg n s0 s1 st s2 out :
      (forall T, raw_tio cfg T = T -> loop_keeps (P_Poison.raw cfg T)) ->
      prepare C cfg s0 = Ret s1 st -> listen once n s1 [] = IFailed s2 out ->
      match input_main C once cfg n s0 with
      | IEnded out' ok s => out' = out /\ ok = false /\ S_Poison.still_prepared cfg s0 s
      | INotYet => True
      end.
    Proof.
      intros Hk Ep El. unfold input_main, drop_term. rewrite Ep, El.
      pose proof (listen_keeps _ n (Hk _ (P_Poison.raw_twice cfg (tio s0))) s1 []) as K. rewrite El in K.
      assert (R : P_Poison.raw cfg (raw_tio cfg (tio s0)) s1).
      { apply prepare_ret in Ep as (_ & P1 & P2 & _ & P4 & _). split; [exact P1|]. split; [exact P4|]. intros k Hk'. now rewrite P2, Hk'. }
      specialize (K R). destruct (terminal_drop C s2) as [s3 e3|s3 e3| |] eqn:Ed; try exact Logic.I.
      apply drop_same in Ed as (w & ->). split; [reflexivity|]. split; [reflexivity|]. exact K.
    Qed.
  End Rounds.

  Lemma input_kept c a : resume_cfg a = Some c -> loop_keeps _ (input_round C m) (fun b => kept_by (Some c) a b).
  Proof.
    intros _ s Hs. unfold input_round. pose proof (rstep_reads C m Hm (RRead None) s) as H. cbn [rstep] in H. unfold ret in H.
    destruct (read_event C m None s) as [s1 e|s1 e| |]; cbn [obind]; try exact Logic.I;
      (eapply kept_by_trans; [exact Hs|]; apply reads_kept; [apply Hs|eapply H; [exact Logic.I|reflexivity]]).
  Qed.
  Lemma raw_kept c a : resume_cfg a = Some c -> loop_keeps _ (raw_round C m) (fun b => kept_by (Some c) a b).
  Proof.
    intros _ s Hs. unfold raw_round. pose proof (rstep_reads C m Hm (RRaw 32 None) s) as H. cbn [rstep] in H. unfold ret in H.
    destruct (read_raw C m 32 None s) as [s1 e|s1 e| |]; cbn [obind]; try exact Logic.I;
      (eapply kept_by_trans; [exact Hs|]; apply reads_kept; [apply Hs|eapply H; [exact Logic.I|reflexivity]]).
  Qed.

  Lemma input_stays cfg T : raw_tio cfg T = T -> loop_keeps _ (input_round C m) (P_Poison.raw cfg T).
  Proof.
    intros HT s H. assert (K : P_Poison.keeps cfg T (read_event C m None s)).
    { unfold read_event. apply P_Poison.keeps_bind; [now apply P_Poison.keeps_try|]. intros s1 [e|] H1; [exact H1|].
      apply P_Poison.keeps_bind; [now apply P_Poison.keeps_into|]. intros s2 [[sig|bs]|] H2; [now apply P_Poison.keeps_handle|now apply P_Poison.keeps_try|exact H2]. }
    unfold input_round. destruct (read_event C m None s); exact K.
  Qed.
  Lemma raw_stays cfg T : raw_tio cfg T = T -> loop_keeps _ (raw_round C m) (P_Poison.raw cfg T).
  Proof.
    intros HT s H. assert (K : P_Poison.keeps cfg T (read_raw C m 32 None s)).
    { unfold read_raw. destruct (inbuf s); [|exact H]. apply P_Poison.keeps_bind; [now apply P_Poison.keeps_input|].
      intros s1 [[sig|bs]|] H1; [|exact H1|exact H1]. apply P_Poison.keeps_bind; [now apply P_Poison.keeps_handle|]. intros s2 e H2. exact H2. }
    unfold raw_round. destruct (read_raw C m 32 None s); exact K.
  Qed.

  (** What is printed before the loop is left. *)
  Lemma input_until n : forall s out, ~ In the_q out ->
    match listen (input_round C m) n s out with
    | IQuit _ out' => exists before, out' = before ++ [the_q] /\ ~ In the_q before
    | IGoing _ out' | IWaiting _ out' | IFailed _ out' => ~ In the_q out'
    | IPanicked => True
    end.
  Proof.
    induction n as [|n IH]; intros s out Ho; cbn [listen]; [exact Ho|]. unfold input_round.
    destruct (read_event C m None s) as [s1 e|s1 e| |]; cbn [obind]; auto.
    assert (N : forall x, is_q x = false -> ~ In the_q (out ++ [x])).
    { intros x Hx Q. apply in_app_or in Q as [Q|[Q|[]]]; [exact (Ho Q)|]. apply is_q_spec in Q. congruence. }
    destruct e as [e|]; cbn [tell_event]; [|rewrite app_nil_r; apply IH; exact Ho].
    assert (S : match (if is_q e then IQuit s1 (out ++ [e]) else listen (input_round C m) n s1 (out ++ [e])) with
      | IQuit _ out' => exists before, out' = before ++ [the_q] /\ ~ In the_q before
      | IGoing _ out' | IWaiting _ out' | IFailed _ out' => ~ In the_q out'
      | IPanicked => True end).
    { destruct (is_q e) eqn:Eq; [|apply IH; now apply N]. apply is_q_spec in Eq as ->. eauto. }
    destruct e; try exact S. rewrite app_nil_r. apply IH. exact Ho.
  Qed.

  (** What is printed accounts for the input. *)
  Lemma raw_told n : forall s0 s out, stream s0 = printed_bytes out ++ stream s -> Forall sound out -> ~ In raw_q out ->
    match listen (raw_round C m) n s out with
    | IQuit s' out' => stream s0 = printed_bytes out' ++ stream s' /\ Forall sound out' /\ exists before, out' = before ++ [raw_q] /\ ~ In raw_q before
    | IGoing s' out' | IWaiting s' out' | IFailed s' out' => stream s0 = printed_bytes out' ++ stream s' /\ Forall sound out' /\ ~ In raw_q out'
    | IPanicked => True
    end.
  Proof.
    induction n as [|n IH]; intros s0 s out Hs Hf Ho; cbn [listen]; [auto|]. unfold raw_round.
    pose proof (read_raw_ends C m 32 None s) as R.
    destruct (read_raw C m 32 None s) as [s1 [e bs]|s1 e| |]; cbn [ends obind fst snd] in *; auto.
    2:{ destruct R as [_ R]. rewrite R. auto. }
    destruct R as (_ & used & R1 & R2). destruct e as [e|]; cbn [uses] in R2.
    2:{ subst used. cbn [tell_raw]. rewrite app_nil_r. apply IH; auto. cbn [app] in R1. now rewrite <- R1. }
    assert (A : forall x, stream s0 = printed_bytes out ++ bytes_of x ++ stream s1 -> stream s0 = printed_bytes (out ++ [x]) ++ stream s1).
    { intros x H. unfold printed_bytes in *. rewrite flat_map_app. cbn [flat_map]. rewrite app_nil_r, <- app_assoc. exact H. }
    assert (N : forall x, x <> raw_q -> ~ In raw_q (out ++ [x])).
    { intros x Hx Q. apply in_app_or in Q as [Q|[Q|[]]]; [exact (Ho Q)|]. congruence. }
    assert (G : forall x, sound x -> Forall sound (out ++ [x])) by (intros x Hx; apply Forall_app; split; [exact Hf|repeat constructor; exact Hx]).
    destruct e; cbn [tell_raw]; try (subst used; apply IH; [apply A; cbn [bytes_of]; rewrite Hs, R1; reflexivity|apply G; exact Logic.I|apply N; discriminate]).
    destruct R2 as [-> ->].
    assert (P : stream s0 = printed_bytes (out ++ [(ERaw (length bs), bs)]) ++ stream s1) by (apply A; cbn [bytes_of]; rewrite Hs, R1; reflexivity).
    destruct ((length bs =? 1) && match bs with b :: _ => (b =? 113)%N | [] => false end) eqn:Eq.
    - split; [exact P|]. split; [apply G; reflexivity|]. exists out. split; [|exact Ho]. apply andb_prop in Eq as [E1 E2].
      destruct bs as [|b [|]]; try discriminate. apply N.eqb_eq in E2 as ->. reflexivity.
    - apply IH; [exact P|apply G; reflexivity|]. apply N. intros Q. injection Q as Q1 Q2. subst bs. discriminate Eq.
  Qed.
End Ends.

(** The user types. *)
Lemma input_typed C m : key_map m -> (forall c n, n <= grow C c n) -> forall n s acts past, hears m s acts ->
  match listen (input_round C m) n s past with
  | IGoing _ out => n <= length acts + length (portions s) /\
      exists now later, acts = now ++ later /\ out = past ++ map heard now /\ ~ In the_q (map heard now)
  | IWaiting _ out => out = past ++ map heard acts /\ ~ In the_q (map heard acts)
  | IQuit _ out => exists now a later, acts = now ++ a :: later /\ out = past ++ map heard (now ++ [a]) /\ ~ In the_q (map heard now) /\ heard a = the_q
  | _ => False
  end.
Proof.
  intros Hm Hg. induction n as [|n IH]; intros s acts past H; cbn [listen].
  - split; [lia|]. exists [], acts. cbn. rewrite app_nil_r. auto.
  - unfold input_round at 1.
    destruct (hears_read C m Hm Hg _ _ H) as [(-> & ->)|[(s' & -> & H1 & H2 & H3)|(s' & a & l' & -> & -> & H1 & H2 & H3)]]; cbn [obind].
    + cbn. rewrite app_nil_r. auto.
    + cbn [tell_event]. rewrite app_nil_r. specialize (IH s' acts past H1). destruct (listen (input_round C m) n s' past); auto.
      destruct IH as [I1 I2]. split; [lia|exact I2].
    + assert (T : tell_event (Some (heard a)) = ([heard a], is_q (heard a))) by (destruct a; reflexivity). rewrite T. clear T.
      destruct (is_q (heard a)) eqn:Eq.
      { apply is_q_spec in Eq. exists [], a, l'. cbn. auto. }
      assert (Hq : heard a <> the_q) by (intros Q; apply is_q_spec in Q; congruence).
      assert (As : forall x, (past ++ [heard a]) ++ map heard x = past ++ map heard (a :: x)) by (intros x; rewrite <- app_assoc; reflexivity).
      specialize (IH s' l' (past ++ [heard a]) H1). destruct (listen (input_round C m) n s' (past ++ [heard a])) as [v o|v o|v o|v o|]; auto.
      * destruct IH as (I1 & now & later & -> & -> & I2). split; [cbn [length]; lia|]. exists (a :: now), later. rewrite <- As. split; [reflexivity|]. split; [reflexivity|]. cbn [map In]; tauto.
      * destruct IH as (-> & I2). split; [apply As|cbn [map In]; tauto].
      * destruct IH as (now & b & later & -> & -> & I2 & I3). exists (a :: now), b, later. split; [reflexivity|]. split; [apply As|]. split; [cbn [map In]; tauto|exact I3].
Qed.

Lemma input_prints C m : key_map m -> (forall c n, n <= grow C c n) -> forall n s acts,
  calm s -> inbuf s = [] -> arriving m [] (portions s) acts ->
  match listen (input_round C m) n s [] with
  | IGoing _ out => n <= length acts + length (portions s) /\
      exists now later, acts = now ++ later /\ out = map heard now /\ ~ In the_q out
  | IWaiting _ out => out = map heard acts /\ ~ In the_q out
  | IQuit _ out => exists now a later, acts = now ++ a :: later /\ out = map heard now ++ [the_q] /\ ~ In the_q (map heard now) /\ heard a = the_q
  | _ => False
  end.
Proof.
  intros Hm Hg n s acts Hc Hi Ha. pose proof (input_typed C m Hm Hg n s acts []) as H.
  assert (Hh : hears m s acts). { exists [], [], acts. repeat split; auto; try apply Hc. now left. }
  specialize (H Hh). destruct (listen (input_round C m) n s []); auto; cbn [app] in H.
  - destruct H as (H1 & now & later & H2 & -> & H3). eauto 8.
  - destruct H as (-> & H). auto.
  - destruct H as (now & a & later & H1 & -> & H2 & H3). exists now, a, later. rewrite map_app. cbn [map]. rewrite H3. auto.
Qed.
Lemma input_ends C m : key_map m -> forall cfg n s0 out s, input_main C (input_round C m) cfg n s0 = IEnded out true s ->
  same_terminal s0 s /\ exists before, out = before ++ [the_q] /\ ~ In the_q before.
Proof.
  intros Hm cfg n s0 out s H. apply (once_ends C _ _ _ _ _ _ _ (input_kept C m Hm)) in H as (H1 & s1 & st & s2 & _ & H2). split; [exact H1|].
  pose proof (input_until C m n s1 [] (fun x => x)) as U. rewrite H2 in U. exact U.
Qed.
Lemma raw_ends C m : key_map m -> forall n s0 out s, input_main C (raw_round C m) raw_config n s0 = IEnded out true s ->
  same_terminal s0 s /\ exists before, out = before ++ [raw_q] /\ ~ In raw_q before.
Proof.
  intros Hm n s0 out s H. apply (once_ends C _ _ _ _ _ _ _ (raw_kept C m Hm)) in H as (H1 & s1 & st & s2 & _ & H2). split; [exact H1|].
  pose proof (raw_told C m n s1 s1 [] eq_refl (Forall_nil _) (fun x => x)) as U. rewrite H2 in U. apply U.
Qed.
Lemma input_fails C m cfg n s0 s1 st s2 out : prepare C cfg s0 = Ret s1 st -> listen (input_round C m) n s1 [] = IFailed s2 out ->
  match input_main C (input_round C m) cfg n s0 with
  | IEnded out' ok s => out' = out /\ ok = false /\ S_Poison.still_prepared cfg s0 s
  | INotYet => True
  end.
Proof. exact (once_fails C _ _ _ _ _ _ _ _ _ (input_stays C m cfg)). Qed.
Lemma raw_fails C m n s0 s1 st s2 out : prepare C raw_config s0 = Ret s1 st -> listen (raw_round C m) n s1 [] = IFailed s2 out ->
  match input_main C (raw_round C m) raw_config n s0 with
  | IEnded out' ok s => out' = out /\ ok = false /\ S_Poison.still_prepared raw_config s0 s
  | INotYet => True
  end.
Proof. exact (once_fails C _ _ _ _ _ _ _ _ _ (raw_stays C m raw_config)). Qed.
