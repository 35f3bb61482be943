(** Proofs about errors met while waiting for input and reading it (C114). *)
From Verif Require Import Base M_Utf8 M_Geom M_Seq M_Signal M_Util M_Buf M_Input M_Writer M_Prepare M_Reader S_Reader M_WinReader S_Errs.
Local Open Scope N_scope.

(** ** Windows *)
Section Win.
  Variable E : env.
  Notation met := (met (fun _ => false)).
  Definition wmoves (s : wsys) (r : list (option N)) (s' : wsys) : Prop :=
    exists l, w_time s = l ++ w_time s' /\
      forall es rs q, met (w_failing s') es rs q -> met (w_failing s) (wfailures l ++ es) (r ++ rs) q.
  Lemma wfailures_app a b : wfailures (a ++ b) = wfailures a ++ wfailures b.
  Proof. induction a as [|[] a IH]; cbn; rewrite ?IH; reflexivity. Qed.
  Lemma wmoves_refl s s' : w_time s' = w_time s -> w_failing s' = w_failing s -> wmoves s [] s'.
  Proof. intros H1 H2. exists []. rewrite H1, H2. split; [reflexivity|]. auto. Qed.
  Lemma wmoves_trans a r b r' c : wmoves a r b -> wmoves b r' c -> wmoves a (r ++ r') c.
  Proof.
    intros (l1 & A1 & A2) (l2 & B1 & B2). exists (l1 ++ l2). split; [now rewrite A1, B1, app_assoc|].
    intros es rs q H. rewrite wfailures_app, <- !app_assoc. apply A2, B2, H.
  Qed.
  Lemma whappens_failing t s : (forall e, t <> WFail e) -> w_failing (whappens t s) = w_failing s.
  Proof.
    destruct t; intros H; try reflexivity; [|now destruct (H e)]. cbn. unfold raise_ctrl. destruct (w_regs s); [reflexivity|].
    unfold ctrl_handler. destruct (_ || _); [|reflexivity]. destruct (_ =? 0); [reflexivity|]. destruct w; reflexivity.
  Qed.
  Lemma whappens_time t s : w_time (whappens t s) = w_time s.
  Proof.
    destruct t; try reflexivity. cbn. unfold raise_ctrl. destruct (w_regs s); [reflexivity|].
    unfold ctrl_handler. destruct (_ || _); [|reflexivity]. destruct (_ =? 0); [reflexivity|]. destruct w; reflexivity.
  Qed.
  Lemma met_tick t s es rs q : met (w_failing (whappens t s)) es rs q -> met (w_failing s) (wfailures [t] ++ es) rs q.
  Proof.
    destruct t; try (rewrite whappens_failing by discriminate; auto; fail). cbn. intros H. now apply met_comes.
  Qed.
  (* [l]: the timeline, in front of [s] *)
  Lemma wpass_moves l : forall s, exists l1, l = l1 ++ w_time (wpass l s) /\
    forall es rs q, met (w_failing (wpass l s)) es rs q -> met (w_failing s) (wfailures l1 ++ es) rs q.
  Proof.
    induction l as [|t l IH]; intros s; cbn [wpass].
    - exists []. auto.
    - assert (G : exists l1, t :: l = l1 ++ w_time (wpass l (whappens t s)) /\
        forall es rs q, met (w_failing (wpass l (whappens t s))) es rs q -> met (w_failing s) (wfailures l1 ++ es) rs q).
      { destruct (IH (whappens t s)) as (l1 & L1 & L2). exists (t :: l1). split; [cbn [app]; now rewrite <- L1|].
        intros es rs q H. change (t :: l1) with ([t] ++ l1). rewrite wfailures_app, <- app_assoc. apply met_tick. auto. }
      destruct t; try exact G. exists [WStep]. split; [reflexivity|]. auto.
  Qed.
  Lemma wadvance_moves s : wmoves s [] (wadvance s).
  Proof. unfold wadvance. destruct (wpass_moves (w_time s) s) as (l & H1 & H2). exists l. auto. Qed.
  Definition told_of (x : wwoke) : list (option N) := match x with XError e => [Some e] | _ => [] end.
  Lemma wawait_moves ms l : forall s, exists l1, l = l1 ++ w_time (fst (wawait ms l s)) /\
    forall es rs q, met (w_failing (fst (wawait ms l s))) es rs q -> met (w_failing s) (wfailures l1 ++ es) (told_of (snd (wawait ms l s)) ++ rs) q.
  Proof.
    induction l as [|t l IH]; intros s; cbn [wawait].
    - destruct (w_failing s) as [e|] eqn:Ef; [exists []; split; [reflexivity|]; cbn; intros; now apply met_told|].
      destruct (w_queue s); [|exists []; cbn; rewrite Ef; auto]. destruct ms as [[|]|]; exists []; cbn; rewrite Ef; auto.
    - destruct (w_failing s) as [e|] eqn:Ef; [exists []; split; [reflexivity|]; cbn; intros; now apply met_told|].
      destruct (w_queue s); [|exists []; cbn; rewrite Ef; auto].
      assert (G : exists l1, t :: l = l1 ++ w_time (fst (wawait ms l (whappens t s))) /\
        forall es rs q, met (w_failing (fst (wawait ms l (whappens t s)))) es rs q ->
          met None (wfailures l1 ++ es) (told_of (snd (wawait ms l (whappens t s))) ++ rs) q).
      { destruct (IH (whappens t s)) as (l1 & L1 & L2). exists (t :: l1). split; [cbn [app]; now rewrite <- L1|].
        intros es rs q H. change (t :: l1) with ([t] ++ l1). rewrite wfailures_app, <- app_assoc, <- Ef. apply met_tick. auto. }
      destruct ms as [[|p]|]; [exists []; cbn; rewrite Ef; auto| |];
        (destruct t; try exact G; cbn [whappens] in G; try exact G; exists [WTime]; cbn; rewrite Ef; auto).
  Qed.
  Lemma wawait_from ms s : wmoves s (told_of (snd (wawait ms (w_time s) s))) (fst (wawait ms (w_time s) s)).
  Proof. destruct (wawait_moves ms (w_time s) s) as (l & H1 & H2). exists l. auto. Qed.

  Definition goes {A} (s : wsys) (r : wsres A) : Prop :=
    match r with Ret s' _ => wmoves s [] s' | Fail s' e => wmoves s [Some e] s' | _ => True end.
  Lemma goes_bind {A B} s (r : wsres A) (k : wsys -> A -> wsres B) : goes s r -> (forall s' a, goes s' (k s' a)) -> goes s (obind r k).
  Proof.
    intros H Hk. destruct r as [s1 a|s1 e| |]; cbn in *; auto. specialize (Hk s1 a). destruct (k s1 a) as [s2 b|s2 e| |]; cbn in *; auto.
    - exact (wmoves_trans _ [] _ [] _ H Hk).
    - exact (wmoves_trans _ [] _ [Some e] _ H Hk).
  Qed.
  Lemma goes_after {A} s s' (r : wsres A) : wmoves s [] s' -> goes s' r -> goes s r.
  Proof.
    intros H Hr. destruct r as [s2 b|s2 e| |]; cbn in *; auto.
    - exact (wmoves_trans _ [] _ [] _ H Hr).
    - exact (wmoves_trans _ [] _ [Some e] _ H Hr).
  Qed.
  Lemma goes_ret {A} s (a : A) : goes s (Ret s a).
  Proof. now apply wmoves_refl. Qed.

  Lemma goes_wait t s : goes s (win_wait_event t s).
  Proof.
    unfold win_wait_event, win_get_signal. apply (goes_after s (wadvance s)); [apply wadvance_moves|].
    destruct (win_conv_signal _); [apply goes_ret|]. destruct (as_millis t) as [ms|]; [|exact I].
    unfold wait_for_single_object. set (s1 := wadvance s). clearbody s1. set (s2 := wadvance s1).
    assert (M := wawait_from (if ms =? INFINITE then None else Some ms) s2).
    assert (M1 := wadvance_moves s1). fold s2 in M1. clearbody s2.
    destruct (wawait _ _ _) as [s3 [| |e|]]; cbn in *; auto; exact (wmoves_trans _ [] _ _ _ M1 M).
  Qed.
  Lemma goes_read len s : goes s (read_console_input len s).
  Proof.
    unfold read_console_input. apply (goes_after s (wadvance s)); [apply wadvance_moves|]. destruct (len =? 0); [apply goes_ret|].
    set (s1 := wadvance s). clearbody s1. assert (M := wawait_from None s1).
    destruct (wawait _ _ _) as [s3 [| |e|]]; cbn in *; auto.
  Qed.
  Lemma goes_raw_event len t s : goes s (win_read_raw_event len t s).
  Proof.
    apply goes_bind; [apply goes_wait|]. intros s1 [|]; cbn [negb]; [|apply goes_ret]. unfold win_take_signal.
    apply (goes_after s1 (with_wlast NO_SIGNAL (wadvance s1))).
    { exact (wmoves_trans _ [] _ [] _ (wadvance_moves s1) (wmoves_refl (wadvance s1) _ eq_refl eq_refl)). }
    destruct (win_conv_signal _); [apply goes_ret|]. apply goes_bind; [apply goes_read|]. intros; apply goes_ret.
  Qed.
  Lemma goes_decode r s : goes s (win_decode E r s).
  Proof.
    unfold win_decode. destruct (key_press_event r); [apply goes_ret|]. destruct (win_mouse_event E r (w_rd s)) as [[rd [m|]]|]; [| |exact I];
      now apply wmoves_refl.
  Qed.
  Lemma goes_event t s : goes s (win_read_event E t s).
  Proof.
    apply goes_bind; [apply goes_raw_event|]. intros s1 [e rs].
    destruct e as [[]|]; try apply goes_ret. destruct rs as [|r rs]; [apply goes_ret|]. apply goes_bind; [apply goes_decode|].
    intros; apply goes_ret.
  Qed.
  Lemma goes_console fuel : forall room s, goes s (read_console fuel room s).
  Proof.
    induction fuel as [|fuel IH]; intros room s; cbn [read_console]; (destruct (room =? 0)%nat; [apply goes_ret|]);
      assert (M := wawait_from None s); destruct (wawait _ _ _) as [s3 [| |e|]]; cbn [fst snd told_of] in M; try exact I; try exact M;
      destruct (take_chars room (w_queue s3)) as [[|u us] q]; try exact I; try exact M.
    apply (goes_after s (with_wqueue q s3)); [exact M|apply IH].
  Qed.
  Lemma goes_raw len t s : goes s (win_read_raw len t s).
  Proof.
    apply goes_bind; [apply goes_wait|]. intros s1 [|]; cbn [negb]; [|apply goes_ret]. unfold win_take_signal.
    apply (goes_after s1 (with_wlast NO_SIGNAL (wadvance s1))).
    { exact (wmoves_trans _ [] _ [] _ (wadvance_moves s1) (wmoves_refl (wadvance s1) _ eq_refl eq_refl)). }
    destruct (win_conv_signal _); [apply goes_ret|]. cbv zeta. set (s2 := with_wlast _ _). clearbody s2.
    apply (goes_after s2 (wadvance s2)); [apply wadvance_moves|]. apply goes_bind; [apply goes_console|].
    intros s3 [|]; apply goes_ret.
  Qed.
  Lemma goes_call o s : goes s (wcall_run E o s).
  Proof.
    assert (P : forall A (r : wsres A), goes s r -> goes s (plainly r)) by (intros A []; auto).
    destruct o; cbn; apply P; [apply goes_wait|apply goes_event|apply goes_raw_event|apply goes_raw].
  Qed.

  Lemma win_errors os : forall s s' rs, wcalls E os s = Some (s', rs) ->
    exists l, w_time s = l ++ w_time s' /\ met (w_failing s) (wfailures l) rs (w_failing s').
  Proof.
    assert (G : forall os s s' rs, wcalls E os s = Some (s', rs) -> wmoves s rs s').
    { clear. induction os as [|o os IH]; intros s s' rs H; cbn in H; [injection H as <- <-; now apply wmoves_refl|].
      assert (Hc := goes_call o s). destruct (wcall_run E o s) as [s1 u|s1 e| |]; try discriminate;
        destruct (wcalls E os s1) as [[s2 rs2]|] eqn:Ew; try discriminate; injection H as <- <-; specialize (IH _ _ _ Ew); cbn [goes] in Hc.
      - destruct (wmoves_trans _ _ _ _ _ Hc IH) as (l & L1 & L2). exists l. split; [exact L1|]. intros es rs q Hq. cbn [app]. apply met_fine. now apply L2.
      - exact (wmoves_trans _ _ _ _ _ Hc IH). }
    intros s s' rs H. destruct (G _ _ _ _ H) as (l & L1 & L2). exists l. split; [exact L1|].
    assert (X := L2 [] [] _ (met_end _ _)). rewrite !app_nil_r in X. exact X.
  Qed.
End Win.

Section WinPrompt.
  Variable E : env.
  Lemma wpass_calm l : forall s, Forall (fun t => match t with WCtrl _ _ | WFail _ => False | _ => True end) l ->
    w_failing (wpass l s) = w_failing s /\ w_last (wpass l s) = w_last s /\
    Forall (fun t => match t with WCtrl _ _ | WFail _ => False | _ => True end) (w_time (wpass l s)).
  Proof.
    induction l as [|t l IH]; intros s H; cbn [wpass]; [auto|]. inversion H as [|? ? H1 H2]; subst.
    destruct t; try contradiction; cbn [whappens]; try (exact (IH _ H2)); auto.
  Qed.
  Lemma wait_prompt t s e : w_failing s = Some e -> wuneventful s -> as_millis t <> Boom ->
    exists s', win_wait_event t s = Fail s' e /\ w_failing s' = None.
  Proof.
    intros Hf [Hl Ht] Hm. unfold win_wait_event, win_get_signal, wadvance.
    destruct (wpass_calm (w_time s) s Ht) as (A1 & A2 & A3). rewrite A2, Hl.
    destruct (as_millis t) as [ms|]; [|congruence]. unfold wait_for_single_object, wadvance.
    set (s1 := wpass (w_time s) s) in *. clearbody s1. destruct (wpass_calm (w_time s1) s1 A3) as (B1 & B2 & B3).
    set (s2 := wpass (w_time s1) s1) in *. clearbody s2.
    assert (F2 : w_failing s2 = Some e) by congruence. destruct (w_time s2); cbn [wawait]; rewrite F2; eexists; split; reflexivity.
  Qed.
  Lemma win_prompt o s e : w_failing s = Some e -> wuneventful s -> wlooks o ->
    exists s', wcall_run E o s = Fail s' e /\ w_failing s' = None.
  Proof.
    intros Hf Hu Hl. destruct o as [t|t|len t|len t]; cbn [wlooks] in Hl; destruct (wait_prompt t s e Hf Hu Hl) as (s' & H & H');
      exists s'; (split; [|exact H']); cbn [wcall_run]; unfold win_read_event, win_read_raw_event, win_read_raw; rewrite H; reflexivity.
  Qed.
End WinPrompt.

(** ** Unix *)
Section Unix.
  Variables (C : tcfg) (m : seq_map).
  Notation met := (met (N.eqb EINTR)).
  Definition umoves (s : sys) (r : list (option N)) (s' : sys) : Prop :=
    (undisturbed s -> undisturbed s') /\
    exists l, time s = l ++ time s' /\
      forall es rs q, met (failing s') es rs q -> met (failing s) (failures l ++ es) (r ++ rs) q.
  Lemma failures_app a b : failures (a ++ b) = failures a ++ failures b.
  Proof. induction a as [|[] a IH]; cbn; rewrite ?IH; reflexivity. Qed.
  Lemma umoves_refl s s' : time s' = time s -> failing s' = failing s -> last_sig s' = last_sig s \/ last_sig s' = 0 -> umoves s [] s'.
  Proof.
    intros H1 H2 H3. split.
    - intros (A & B & D). unfold undisturbed. rewrite H1. destruct H3 as [->| ->]; repeat split; auto; discriminate.
    - exists []. rewrite H1, H2. split; [reflexivity|]. auto.
  Qed.
  Lemma umoves_trans a r b r' c : umoves a r b -> umoves b r' c -> umoves a (r ++ r') c.
  Proof.
    intros (U1 & l1 & A1 & A2) (U2 & l2 & B1 & B2). split; [auto|]. exists (l1 ++ l2). split; [now rewrite A1, B1, app_assoc|].
    intros es rs q H. rewrite failures_app, <- !app_assoc. apply A2, B2, H.
  Qed.
  Lemma happens_failing t s : (forall e, t <> TFail e) -> failing (happens t s) = failing s.
  Proof. destruct t as [n| | | | | |]; intros H; try reflexivity; [cbn; destruct (disp s n); reflexivity|now destruct (H e)]. Qed.
  Lemma met_utick t s es rs q : met (failing (happens t s)) es rs q -> met (failing s) (failures [t] ++ es) rs q.
  Proof. destruct t; try (rewrite happens_failing by discriminate; auto; fail). cbn. intros H. now apply met_comes. Qed.
  Definition nice_tick (t : tick) : Prop := match t with TSig n => n <> SIGCONT /\ n <> SIGWINCH | _ => True end.
  Definition nice_last (s : sys) : Prop := last_sig s <> SIGCONT /\ last_sig s <> SIGWINCH.
  Lemma happens_nice t s : nice_tick t -> nice_last s -> nice_last (happens t s).
  Proof. destruct t as [n| | | | | |]; intros H1 H2; try exact H2. cbn. destruct (disp s n); [exact H1|exact H2]. Qed.

  Lemma pass_moves l : forall s, (nice_last s -> Forall nice_tick l -> nice_last (pass l s) /\ Forall nice_tick (time (pass l s))) /\
    exists l1, l = l1 ++ time (pass l s) /\
    forall es rs q, met (failing (pass l s)) es rs q -> met (failing s) (failures l1 ++ es) rs q.
  Proof.
    induction l as [|t l IH]; intros s; cbn [pass].
    - split; [auto|]. exists []. auto.
    - assert (G : (nice_last s -> Forall nice_tick (t :: l) -> nice_last (pass l (happens t s)) /\ Forall nice_tick (time (pass l (happens t s)))) /\
        exists l1, t :: l = l1 ++ time (pass l (happens t s)) /\
        forall es rs q, met (failing (pass l (happens t s))) es rs q -> met (failing s) (failures l1 ++ es) rs q).
      { destruct (IH (happens t s)) as (U & l1 & L1 & L2). split.
        - intros N1 N2. inversion N2; subst. apply U; [|assumption]. now apply happens_nice.
        - exists (t :: l1). split; [cbn [app]; now rewrite <- L1|].
          intros es rs q H. change (t :: l1) with ([t] ++ l1). rewrite failures_app, <- app_assoc. apply met_utick. auto. }
      destruct t; try exact G. split; [intros N1 N2; inversion N2; auto|]. exists [TStep]. split; [reflexivity|]. auto.
  Qed.
  Lemma advance_moves s : umoves s [] (advance s).
  Proof.
    unfold advance. destruct (pass_moves (time s) s) as (U & l & H1 & H2). split; [|exists l; auto].
    intros (A & B & D). destruct (U (conj A B) D) as ((A' & B') & D'). repeat split; auto.
  Qed.
  Definition utold (x : woke) : list (option N) := match x with WError e => if e =? EINTR then [] else [Some e] | _ => [] end.
  Lemma await_moves ms l : forall s, (nice_last s -> Forall nice_tick l -> nice_last (fst (await ms l s)) /\ Forall nice_tick (time (fst (await ms l s)))) /\
    exists l1, l = l1 ++ time (fst (await ms l s)) /\
    forall es rs q, met (failing (fst (await ms l s))) es rs q -> met (failing s) (failures l1 ++ es) (utold (snd (await ms l s)) ++ rs) q.
  Proof.
    assert (F : forall l s e, (nice_last s -> Forall nice_tick l -> nice_last (with_failing None (with_time l s)) /\ Forall nice_tick l) /\
      exists l1, l = l1 ++ l /\ forall es rs q, met None es rs q -> met (Some e) (failures l1 ++ es) (utold (WError e) ++ rs) q).
    { intros l0 s e. split; [auto|]. exists []. split; [reflexivity|]. cbn. intros es rs q H. destruct (N.eqb_spec e EINTR) as [->|Hn].
      - now apply met_again.
      - apply met_told; [apply N.eqb_neq; congruence|exact H]. }
    assert (I : forall l s f, failing s = f -> (nice_last s -> Forall nice_tick l -> nice_last (with_time l s) /\ Forall nice_tick l) /\
      exists l1, l = l1 ++ l /\ forall es rs q, met f es rs q -> met f (failures l1 ++ es) rs q).
    { intros l0 s f Hf. split; [auto|]. exists []. auto. }
    induction l as [|t l IH]; intros s; cbn [await].
    - destruct (failing s) as [e|] eqn:Ef; [exact (F [] s e)|].
      destruct (queue s); [|cbn; rewrite Ef; apply I, Ef]. destruct ms as [[|]|]; cbn; rewrite Ef; apply I, Ef.
    - destruct (failing s) as [e|] eqn:Ef; [exact (F (t :: l) s e)|].
      destruct (queue s); [|cbn; rewrite Ef; apply I, Ef].
      destruct (match ms with Some 0 => true | _ => false end); [cbn; rewrite Ef; apply I, Ef|].
      assert (G : (nice_last s -> Forall nice_tick (t :: l) -> nice_last (fst (await ms l (happens t s))) /\ Forall nice_tick (time (fst (await ms l (happens t s))))) /\
        exists l1, t :: l = l1 ++ time (fst (await ms l (happens t s))) /\
        forall es rs q, met (failing (fst (await ms l (happens t s)))) es rs q ->
          met None (failures l1 ++ es) (utold (snd (await ms l (happens t s))) ++ rs) q).
      { destruct (IH (happens t s)) as (U & l1 & L1 & L2). split.
        - intros N1 N2. inversion N2; subst. apply U; [|assumption]. now apply happens_nice.
        - exists (t :: l1). split; [cbn [app]; now rewrite <- L1|].
          intros es rs q H. change (t :: l1) with ([t] ++ l1). rewrite failures_app, <- app_assoc, <- Ef. apply met_utick. auto. }
      assert (J : forall s', failing s' = None -> (nice_last s -> nice_tick t -> nice_last s') -> failures [t] = [] ->
        (nice_last s -> Forall nice_tick (t :: l) -> nice_last (with_time l s') /\ Forall nice_tick l) /\
        exists l1, t :: l = l1 ++ l /\ forall es rs q, met (failing s') es rs q -> met None (failures l1 ++ es) rs q).
      { intros s' F' N' T'. split; [intros N1 N2; inversion N2; subst; split; [apply N'; assumption|assumption]|]. exists [t].
        split; [reflexivity|]. rewrite T', F'. auto. }
      destruct t as [n| | | | | |]; try exact G.
      + cbn [happens] in G. destruct (disp s n); [|exact G]. apply (J (with_last n s)); [exact Ef|intros _ X; exact X|reflexivity].
      + apply (J s); auto.
      + destruct ms as [p|]; [apply (J s); auto|exact G].
  Qed.
  Lemma await_from ms s : umoves s (utold (snd (await ms (time s) s))) (fst (await ms (time s) s)).
  Proof.
    destruct (await_moves ms (time s) s) as (U & l & H1 & H2). split; [|exists l; auto].
    intros (A & B & D). destruct (U (conj A B) D) as ((A' & B') & D'). repeat split; auto.
  Qed.

  Definition err_told (e : rerr) : list (option N) := match e with RW (EOs e) => [Some e] | _ => [] end.
  Definition ugoes {A} (Q : A -> Prop) (s : sys) (r : rres A) : Prop :=
    match r with
    | Ret s' a => umoves s [] s' /\ (undisturbed s -> Q a)
    | Fail s' e => umoves s (err_told e) s'
    | _ => True
    end.
  Definition any {A} (a : A) : Prop := True.
  Definition plain_signal (sig : signal) : Prop := sig <> Continue /\ sig <> Resize.
  Definition plain_input (i : option input) : Prop := match i with Some (ISignal sig) => plain_signal sig | _ => True end.

  Lemma ugoes_after {A} (Q : A -> Prop) s s' (r : rres A) : umoves s [] s' -> ugoes Q s' r -> ugoes Q s r.
  Proof.
    intros H Hr. destruct r as [s2 b|s2 e| |]; cbn in *; auto.
    - destruct Hr as [Hr Hq]. split; [exact (umoves_trans _ [] _ [] _ H Hr)|]. intros U. apply Hq, H, U.
    - exact (umoves_trans _ [] _ _ _ H Hr).
  Qed.
  Lemma ugoes_ret {A} (Q : A -> Prop) s (a : A) : (undisturbed s -> Q a) -> ugoes Q s (Ret s a).
  Proof. intros H. split; [apply umoves_refl; auto|exact H]. Qed.

  Lemma conv_plain s sig : undisturbed s -> conv_signal (last_sig s) = Some sig -> plain_signal sig.
  Proof.
    intros (A & B & _). unfold conv_signal. destruct (N.eqb_spec (last_sig s) SIGCONT); [congruence|].
    destruct (_ =? SIGINT); [intros [= <-]; split; discriminate|]. destruct (_ =? SIGQUIT); [intros [= <-]; split; discriminate|].
    destruct (_ =? SIGTSTP); [intros [= <-]; split; discriminate|]. destruct (N.eqb_spec (last_sig s) SIGWINCH); [congruence|discriminate].
  Qed.
  Lemma take_moves s : umoves s [] (fst (take_signal s)) /\ (undisturbed s -> forall sig, snd (take_signal s) = Some sig -> plain_signal sig).
  Proof.
    unfold take_signal. cbn [fst snd]. split.
    - refine (umoves_trans _ [] _ [] _ (advance_moves s) _). apply umoves_refl; auto.
    - intros U sig. apply conv_plain. now apply (advance_moves s).
  Qed.
  Lemma select_moves ms s : umoves s (utold (snd (select ms s))) (fst (select ms s)).
  Proof. unfold select. exact (umoves_trans _ [] _ _ _ (advance_moves s) (await_from ms (advance s))). Qed.

  Lemma ugoes_wait_loop fuel : forall ms s, ugoes any s (wait_loop fuel ms s).
  Proof.
    induction fuel as [|fuel IH]; intros ms s; cbn [wait_loop]; [exact I|].
    assert (M := select_moves ms s). destruct (select ms s) as [s1 r]. cbn [fst snd] in M.
    assert (T : umoves s [] s1 -> ugoes any s (let '(s2, sig) := get_signal s1 in match sig with Some _ => Ret s2 true | None => wait_loop fuel ms s2 end)).
    { intros M1. unfold get_signal. apply (ugoes_after any s s1 _ M1). apply (ugoes_after any s1 (advance s1)); [apply advance_moves|].
      destruct (conv_signal _); [now apply ugoes_ret|apply IH]. }
    destruct r as [| | |e|]; cbn [utold] in M.
    - now split.
    - now split.
    - exact (T M).
    - destruct (e =? EINTR) eqn:Ee; [exact (T M)|exact M].
    - exact I.
  Qed.
  Lemma ugoes_wait t s : ugoes any s (wait_event m t s).
  Proof.
    unfold wait_event, get_signal. apply (ugoes_after any s (advance s)); [apply advance_moves|].
    destruct (conv_signal _); [now apply ugoes_ret|]. unfold peek. destruct (peek_event _ m) as [[| |ev n]|]; cbn [obind].
    - apply umoves_refl; auto.
    - destruct t as [d|]; [destruct (to_timeval d); [|exact I]|]; apply ugoes_wait_loop.
    - now apply ugoes_ret.
    - exact I.
  Qed.
  Definition got_told (x : got) : list (option N) := match x with GErr e => if e =? EINTR then [] else [Some e] | _ => [] end.
  Lemma os_read_moves room s : umoves s (got_told (snd (os_read room s))) (fst (os_read room s)).
  Proof.
    unfold os_read. set (ms := if never_waits _ then Some 0 else None). assert (M := umoves_trans _ [] _ _ _ (advance_moves s) (await_from ms (advance s))).
    destruct (await ms (time (advance s)) (advance s)) as [s1 [| | |e|]]; cbn in M |- *; try exact M.
    assert (T : umoves s1 (got_told (snd (take_queue room s1))) (fst (take_queue room s1))).
    { unfold take_queue. destruct (queue s1) as [|bs q]; [apply umoves_refl; auto|]. destruct (_ <=? room)%nat; apply umoves_refl; auto. }
    exact (umoves_trans _ [] _ _ _ M T).
  Qed.
  Lemma ugoes_read_loop fuel : forall room s, ugoes plain_input s (read_loop fuel room s).
  Proof.
    induction fuel as [|fuel IH]; intros room s; cbn [read_loop]; [exact I|].
    assert (M := os_read_moves room s). destruct (os_read room s) as [s1 r]. cbn [fst snd] in M.
    assert (T : umoves s [] s1 -> ugoes plain_input s (let '(s2, sig) := take_signal s1 in match sig with Some sig => Ret s2 (Some (ISignal sig)) | None => read_loop fuel room s2 end)).
    { intros M1. apply (ugoes_after _ s s1 _ M1). destruct (take_moves s1) as [K1 K2]. destruct (take_signal s1) as [s2 [sig|]]; cbn [fst snd] in *.
      - split; [exact K1|]. intros U. exact (K2 U sig eq_refl).
      - apply (ugoes_after _ s1 s2 _ K1). apply IH. }
    destruct r as [bs| |e|]; cbn [got_told] in M.
    - split; [exact M|]. intros _. exact I.
    - exact (T M).
    - destruct (e =? EINTR) eqn:Ee; [exact (T M)|exact M].
    - exact I.
  Qed.
  Lemma ugoes_input room t s : ugoes plain_input s (read_input m room t s).
  Proof.
    unfold read_input. destruct (take_moves s) as [K1 K2]. destruct (take_signal s) as [s1 [sig|]]; cbn [fst snd] in *.
    { split; [exact K1|]. intros U. exact (K2 U sig eq_refl). }
    apply (ugoes_after _ s s1 _ K1). assert (W := ugoes_wait t s1). destruct (wait_event m t s1) as [s2 b|s2 e| |]; cbn [obind]; auto.
    destruct W as [W _]. apply (ugoes_after _ s1 s2 _ W). destruct b; cbn [negb]; [|now apply ugoes_ret].
    destruct (take_moves s2) as [J1 J2]. destruct (take_signal s2) as [s3 [sig|]]; cbn [fst snd] in *.
    { split; [exact J1|]. intros U. exact (J2 U sig eq_refl). }
    apply (ugoes_after _ s2 s3 _ J1). apply ugoes_read_loop.
  Qed.
  Lemma inbuf_moves s b c : umoves s [] (with_inbuf b c s).
  Proof. apply umoves_refl; auto. Qed.
  Lemma inbuf_after s r b c s' : umoves s r s' -> umoves s r (with_inbuf b c s').
  Proof. intros H. assert (X := umoves_trans _ _ _ [] _ H (inbuf_moves s' b c)). now rewrite app_nil_r in X. Qed.
  Lemma ugoes_into t s : ugoes plain_input s (read_into_buffer C m t s).
  Proof.
    unfold read_into_buffer. set (cap := if (_ <=? incap s)%nat then incap s else _). assert (H := ugoes_input (cap - length (inbuf s)) t (with_inbuf [] 0 s)).
    apply (ugoes_after _ s _ _ (inbuf_moves s [] 0)).
    destruct (read_input m (cap - length (inbuf s)) t (with_inbuf [] 0 s)) as [s1 [[sig|bs]|]|s1 e| |]; cbn in H |- *; auto;
      try (destruct H as [H1 H2]; split; [now apply inbuf_after|exact H2]).
  Qed.
  Lemma ugoes_try s : ugoes any s (try_read m s).
  Proof.
    unfold try_read. destruct (inbuf s); [now apply ugoes_ret|]. unfold peek. destruct (peek_event _ m) as [[| |ev n']|]; cbn [obind]; try exact I.
    - apply umoves_refl; auto.
    - now apply ugoes_ret.
    - split; [apply inbuf_moves|exact (fun _ => I)].
  Qed.
  Lemma ugoes_handle sig s : plain_signal sig -> ugoes any s (handle_signal C sig s).
  Proof.
    intros [H1 H2]. assert (R : ugoes any s (report_signal sig s)) by (unfold report_signal; destruct (ss_contains _ _); now apply ugoes_ret).
    destruct sig; try exact R; congruence.
  Qed.
  Lemma ugoes_event t s : undisturbed s -> ugoes any s (read_event C m t s).
  Proof.
    intros U. unfold read_event. assert (T := ugoes_try s). destruct (try_read m s) as [s1 [e|]|s1 e| |]; cbn [obind]; auto.
    destruct T as [T _]. apply (ugoes_after _ s s1 _ T). assert (U1 : undisturbed s1) by (apply T, U).
    assert (I1 := ugoes_into t s1). destruct (read_into_buffer C m t s1) as [s2 [[sig|bs]|]|s2 e| |]; cbn [obind]; auto;
      destruct I1 as [J1 J2]; apply (ugoes_after _ s1 s2 _ J1).
    - apply ugoes_handle. exact (J2 U1).
    - apply ugoes_try.
  Qed.
  Lemma ugoes_raw room t s : undisturbed s -> ugoes any s (read_raw C m room t s).
  Proof.
    intros U. unfold read_raw. destruct (inbuf s).
    - assert (I1 := ugoes_input room t s). destruct (read_input m room t s) as [s2 [[sig|bs]|]|s2 e| |]; cbn [obind]; auto;
        destruct I1 as [J1 J2]; apply (ugoes_after _ s s2 _ J1).
      + assert (H := ugoes_handle sig s2 (J2 U)). destruct (handle_signal C sig s2) as [s3 ev|s3 e| |]; cbn [obind]; auto.
    - split; [apply inbuf_moves|exact (fun _ => I)].
  Qed.

  Definition call_told (r : reply) : list (option N) := match reported r with Some e => [Some e] | None => [] end.
  Lemma step_moves o s s' r : reads o -> undisturbed s -> rstep C m o s = Some (s', r) -> umoves s (call_told r) s'.
  Proof.
    intros Ho U H.
    assert (G : forall A (x : rres A) (f : A -> reply), ugoes any s x -> (forall a e, f a <> YErr e) -> ret x f = Some (s', r) -> umoves s (call_told r) s').
    { intros A x f Hx Hf Hr. destruct x as [s1 a|s1 e| |]; cbn in Hr; try discriminate; injection Hr as <- <-.
      - destruct Hx as [Hx _]. unfold call_told. destruct (reported (f a)) eqn:Er; [|exact Hx]. 
        exfalso. destruct (f a) as [| | | | |e0] eqn:Ef; try discriminate Er. exact (Hf a e0 Ef).
      - destruct e as [[]|]; exact Hx. }
    destruct o; try contradiction; cbn [rstep] in H.
    - refine (G _ _ _ (ugoes_wait _ _) _ H); intros; discriminate.
    - refine (G _ _ _ (ugoes_event _ _ U) _ H); intros; discriminate.
    - refine (G _ _ _ (ugoes_raw _ _ _ U) _ H); intros; discriminate.
  Qed.
  Lemma unix_errors ops : forall s s' rs, Forall reads ops -> undisturbed s -> rrun C m ops s = Some (s', rs) ->
    exists l, time s = l ++ time s' /\ met (failing s) (failures l) (map reported rs) (failing s').
  Proof.
    assert (G : forall ops s s' rs, Forall reads ops -> undisturbed s -> rrun C m ops s = Some (s', rs) -> umoves s (map reported rs) s').
    { induction ops0 as [|o ops0 IH]; intros s s' rs Ho U H; cbn [rrun] in H; [injection H as <- <-; apply umoves_refl; auto|].
      inversion Ho as [|? ? O1 O2]; subst. destruct (rstep C m o s) as [[s1 r]|] eqn:Er; [|discriminate].
      destruct (rrun C m ops0 s1) as [[s2 rs2]|] eqn:Ew; [|discriminate]. injection H as <- <-.
      assert (M1 := step_moves _ _ _ _ O1 U Er). assert (M2 := IH _ _ _ O2 (proj1 M1 U) Ew).
      assert (M3 := umoves_trans _ _ _ _ _ M1 M2). cbn [map]. unfold call_told in M3. destruct (reported r) as [e|]; [exact M3|].
      destruct M3 as (U3 & l & L1 & L2). split; [exact U3|]. exists l. split; [exact L1|]. intros es rs q Hq. cbn [app] in *.
      apply met_fine. now apply L2. }
    intros s s' rs Ho U H. destruct (G _ _ _ _ Ho U H) as (_ & l & L1 & L2). exists l. split; [exact L1|].
    assert (X := L2 [] [] _ (met_end _ _)). rewrite !app_nil_r in X. exact X.
  Qed.

  Lemma pass_calm l : forall s, Forall (fun t => match t with TSig _ | TFail _ => False | _ => True end) l ->
    failing (pass l s) = failing s /\ last_sig (pass l s) = last_sig s /\ inbuf (pass l s) = inbuf s /\
    Forall (fun t => match t with TSig _ | TFail _ => False | _ => True end) (time (pass l s)).
  Proof.
    induction l as [|t l IH]; intros s H; cbn [pass]; [auto|]. inversion H as [|? ? H1 H2]; subst.
    destruct t; try contradiction; cbn [happens]; try (exact (IH _ H2)); auto 6.
  Qed.
  Lemma loop_prompt fuel ms s e : failing s = Some e -> e <> EINTR -> uneventful s ->
    exists s', wait_loop (S fuel) ms s = Fail s' (RW (EOs e)) /\ failing s' = None.
  Proof.
    intros Hf He [Hl Ht]. cbn [wait_loop]. unfold select, advance. destruct (pass_calm (time s) s Ht) as (A1 & A2 & A3 & A4).
    set (s1 := pass (time s) s) in *. clearbody s1. assert (F1 : failing s1 = Some e) by congruence. apply N.eqb_neq in He.
    destruct (time s1); cbn [await]; rewrite F1, He; eexists; split; reflexivity.
  Qed.
  Lemma wait_uprompt t s e : failing s = Some e -> e <> EINTR -> uneventful s -> ~ overflows t -> peek_event (inbuf s) m = Val PNone ->
    exists s', wait_event m t s = Fail s' (RW (EOs e)) /\ failing s' = None.
  Proof.
    intros Hf He Hu Ho Hp. assert (Hu' := Hu). destruct Hu as [Hl Ht]. unfold wait_event, get_signal, advance.
    destruct (pass_calm (time s) s Ht) as (A1 & A2 & A3 & A4). rewrite A2, Hl. unfold peek. rewrite A3, Hp. cbn [obind].
    set (s1 := pass (time s) s) in *. assert (U1 : uneventful s1) by (split; [now rewrite A2|exact A4]). clearbody s1. unfold turns.
    destruct t as [d|]; [|now apply loop_prompt; [congruence| |]].
    destruct (to_timeval d) as [ms|] eqn:Ed; [now apply loop_prompt; [congruence| |]|]. exfalso. apply Ho. now exists d.
  Qed.
  Lemma input_prompt room t s e : failing s = Some e -> e <> EINTR -> uneventful s -> ~ overflows t -> peek_event (inbuf s) m = Val PNone ->
    exists s', read_input m room t s = Fail s' (RW (EOs e)) /\ failing s' = None.
  Proof.
    intros Hf He Hu Ho Hp. destruct Hu as [Hl Ht]. unfold read_input, take_signal, advance.
    destruct (pass_calm (time s) s Ht) as (A1 & A2 & A3 & A4). rewrite A2, Hl.
    set (s1 := pass (time s) s) in *. clearbody s1.
    destruct (wait_uprompt t (with_last 0 s1) e) as (s' & H1 & H2); auto.
    - cbn. congruence.
    - split; [reflexivity|exact A4].
    - cbn. now rewrite A3.
    - exists s'. rewrite H1. auto.
  Qed.
  Lemma unix_prompt o s e : failing s = Some e -> e <> EINTR -> uneventful s -> looks m s o ->
    exists s', rstep C m o s = Some (s', YErr (RW (EOs e))) /\ failing s' = None.
  Proof.
    intros Hf He Hu Hl. destruct o as [t|t|room t| |]; cbn [looks] in Hl; try contradiction; destruct Hl as [Ho Hp].
    - destruct (wait_uprompt t s e Hf He Hu Ho Hp) as (s' & H1 & H2). exists s'. cbn [rstep]. rewrite H1. auto.
    - assert (Ht : try_read m s = Ret s None).
      { unfold try_read. destruct (inbuf s) eqn:Ei; [reflexivity|]. unfold peek. now rewrite Ei, Hp. }
      cbn [rstep]. unfold read_event. rewrite Ht. cbn [obind]. unfold read_into_buffer. set (cap := if (_ <=? incap s)%nat then incap s else _).
      destruct (input_prompt (cap - length (inbuf s)) t (with_inbuf [] 0 s) e) as (s' & H1 & H2); auto.
      rewrite H1. cbn. eexists. split; [reflexivity|exact H2].
    - subst. cbn [rstep]. unfold read_raw. rewrite Hp.
      destruct (input_prompt room t s e) as (s' & H1 & H2); auto; [now rewrite Hp|]. rewrite H1. cbn. eauto.
  Qed.
End Unix.
