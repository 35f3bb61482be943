(** Proofs for C144: the example program examples/signals.rs on Windows. *)
From Verif Require Import Base M_Utf8 M_Geom M_Attr M_Seq M_Signal M_Util M_Input S_Input M_Buf M_Prepare M_WinReader S_WinReader
  P_WinReader P_WinScreen M_ScreenExample S_ScreenExample S_WinScreenExample M_InputExample M_WinInputExample P_WinInputExample S_SignalsExample.
From Verif Require P_WinPrepare.
Local Open Scope nat_scope.

Section S.
  Variable E : env.

  Lemma listen_history n : forall s out,
    match listen (winput_round E) n s out with
    | IGoing s' out' | IWaiting s' out' | IQuit s' out' | IFailed s' out' =>
        exists k rs, run_wr E (repeat (REvent None) k) s = Some (s', rs) /\ out' = out ++ printed_of rs
    | IPanicked => False
    end.
  Proof.
    assert (Z : forall s out, exists k rs, run_wr E (repeat (REvent None) k) s = Some (s, rs) /\ out = out ++ printed_of rs)
      by (intros s out; exists 0, []; split; [reflexivity|symmetry; apply app_nil_r]).
    induction n as [|n IH]; intros s out; cbn [listen]; [apply Z|]. unfold winput_round.
    pose proof (read_event_did E None s) as D.
    destruct (win_read_event E None s) as [s1 [e rs]|s1 e| |] eqn:R; cbn [obind fst].
    2:{ exists 1, [RErr e]. cbn [repeat run_wr rop]. rewrite R. split; [reflexivity|symmetry; apply app_nil_r]. }
    2:{ discriminate D. }
    2:{ apply Z. }
    clear D. assert (G : forall s' k rs' out', run_wr E (repeat (REvent None) k) s1 = Some (s', rs') -> out' = (out ++ fst (tell_event e)) ++ printed_of rs' ->
      exists k rs, run_wr E (repeat (REvent None) k) s = Some (s', rs) /\ out' = out ++ printed_of rs).
    { intros s' k rs' out' H1 H2. exists (S k), (RGot e rs :: rs'). cbn [repeat run_wr rop]. rewrite R. cbn [fst snd]. rewrite H1. split; [reflexivity|].
      rewrite H2, <- app_assoc. f_equal. unfold printed_of at 2. cbn [flat_map]. f_equal. destruct e as [[]|]; reflexivity. }
    destruct (tell_event e) as [l stop]. cbn [fst] in G. destruct stop.
    { apply (G s1 0 []); [reflexivity|symmetry; apply app_nil_r]. }
    specialize (IH s1 (out ++ l)).
    match goal with |- match ?x with _ => _ end => change x with (listen (winput_round E) n s1 (out ++ l)) end.
    destruct (listen (winput_round E) n s1 (out ++ l)) as [v o|v o|v o|v o|]; try exact IH; destruct IH as (k & rs' & I1 & I2); exact (G _ _ _ _ I1 I2).
  Qed.

  Lemma catches_breaks catch regs l : (forall c, caught catch regs c = (c <? 2)%N) -> catches catch regs l = breaks l.
  Proof.
    intros H. unfold breaks. induction l as [|t l IH]; [reflexivity|]. destruct t; cbn [catches flat_map app]; try exact IH.
    rewrite H. destruct (c <? 2)%N; cbn [app]; now rewrite IH.
  Qed.

  Lemma signals_caught s s' st : win_prepare signals_config s = Ret s' st -> forall c, caught (w_catch s') (w_regs s') c = (c <? 2)%N.
  Proof.
    unfold win_prepare. intros H. apply bind_ret in H. destruct H as (s1 & old & H1 & H). unfold console_mode in H1.
    apply os_inv in H1. destruct H1 as (o & H1). injection H1 as <- <-. cbv zeta in H.
    apply bind_ret in H. destruct H as (s2 & u & H2 & H). unfold set_console_mode in H2.
    apply os_inv in H2. destruct H2 as (o2 & H2). injection H2 as <- _.
    rewrite P_WinPrepare.intersects_ok in H. change (P_WinPrepare.reports_ctrl signals_config) with true in H. cbv iota in H.
    apply bind_ret in H. destruct H as (s3 & u3 & H3 & H). injection H as <- _. unfold set_ctrl_handler in H3.
    apply os_inv in H3. destruct H3 as (o3 & H3). injection H3 as <- _.
    intros c. unfold caught. cbn [w_regs with_regs]. cbn [negb Nat.eqb andb].
    destruct (N.ltb_spec c 2) as [L|L]; [|reflexivity]. assert (C : c = 0%N \/ c = 1%N) by lia. destruct C as [-> | ->]; vm_compute; reflexivity.
  Qed.

  Lemma signals_printed n s0 s1 st : win_prepare signals_config s0 = Ret s1 st ->
    match listen (winput_round E) n s1 [] with
    | IGoing s' out | IWaiting s' out | IQuit s' out | IFailed s' out =>
        exists k rs l, fits_all E (repeat (REvent None) k) (w_rd s1) rs (w_rd s') /\ records s1 = concat (map handed rs) ++ records s' /\
          w_time s1 = l ++ w_time s' /\ told (unreported s1) (breaks l) rs (unreported s') /\ out = printed_of rs
    | IPanicked => False
    end.
  Proof.
    intros P. pose proof (signals_caught _ _ _ P) as C. pose proof (listen_history n s1 []) as H.
    assert (G : forall s' out, (exists k rs, run_wr E (repeat (REvent None) k) s1 = Some (s', rs) /\ out = [] ++ printed_of rs) ->
      exists k rs l, fits_all E (repeat (REvent None) k) (w_rd s1) rs (w_rd s') /\ records s1 = concat (map handed rs) ++ records s' /\
          w_time s1 = l ++ w_time s' /\ told (unreported s1) (breaks l) rs (unreported s') /\ out = printed_of rs).
    { intros s' out (k & rs & H1 & H2). destruct (history E _ _ _ _ H1) as (F1 & F2 & l & L1 & L2 & _). exists k, rs, l.
      rewrite <- (catches_breaks _ _ l C). auto 7. }
    destruct (listen (winput_round E) n s1 []); try exact H; apply G; exact H.
  Qed.
End S.
