(** Proofs about attributes and text (C94). *)
From Verif Require Import Base M_Utf8 P_Utf8 M_Geom M_Attr M_Buf M_Writer S_Tty S_Writer S_Buf S_Emu S_Styled P_Writer P_Attr P_Writer2
  M_Screen M_Locks S_Locks P_Locks P_Locks2 S_Blocks P_Blocks P_Blocks2.

Lemma tells_app E C K t x l1 : implements E C K -> tells K t x l1 -> forall y l2, tells K (feed K t x) y l2 ->
  tells K t (x ++ y) (l1 ++ l2).
Proof.
  intros HK H. induction H as [t|t v s x log Hl H IH|t v a x y0 log Hl Ha H IH]; intros y l2 H2; cbn [app].
  - rewrite (feed_nil _ _ _ HK) in H2. exact H2.
  - rewrite <- app_assoc. apply tells_text; [exact Hl|]. apply IH. now rewrite <- (feed_app _ _ _ HK).
  - rewrite <- app_assoc. eapply tells_attrs; eauto. apply IH. now rewrite <- (feed_app _ _ _ HK).
Qed.

Lemma text_log_cons a o ops : text_log a (o :: ops) = text_log a [o] ++ text_log (request a o) ops.
Proof. destruct o; reflexivity. Qed.

(** Some operations took [w] to [w'], and the terminal shows [log] of what was sent. *)
Definition told (E : env) (C : tcfg) (w w' : wst) (log : list (list N * attrs)) : Prop :=
  exists x, stream w' = stream w ++ x /\
  forall K, caps_coherent C -> implements E C K -> forall t v, look K t = Some v ->
    vattrs v = shown_attrs C (wat w) ->
    tells K t x (as_shown C log) /\
    exists v', look K (feed K t x) = Some v' /\ vattrs v' = shown_attrs C (wat w').

Lemma told_refl E C w : told E C w w [].
Proof.
  exists []. rewrite app_nil_r. split; [reflexivity|]. intros K _ HK t v Hl Hv.
  split; [constructor|]. exists v. rewrite (feed_nil _ _ _ HK). auto.
Qed.
Lemma told_trans E C w1 w2 w3 l1 l2 : told E C w1 w2 l1 -> told E C w2 w3 l2 -> told E C w1 w3 (l1 ++ l2).
Proof.
  intros (x & X1 & X2) (y & Y1 & Y2). exists (x ++ y). rewrite Y1, X1, app_assoc. split; [reflexivity|].
  intros K Hc HK t v Hl Hv. destruct (X2 K Hc HK t v Hl Hv) as (A & v1 & B1 & B2).
  destruct (Y2 K Hc HK _ _ B1 B2) as (A' & v2 & B3 & B4). split.
  - unfold as_shown. rewrite map_app. eapply tells_app; eauto.
  - exists v2. rewrite (feed_app _ _ _ HK). auto.
Qed.
Lemma told_stream E C w w1 w2 log : told E C w w1 log -> stream w2 = stream w1 -> wat w2 = wat w1 -> told E C w w2 log.
Proof. intros (x & X1 & X2) Hs Ha. exists x. rewrite Hs, Ha. auto. Qed.

Lemma told_text E C s w w' u : Forall (texty E) s -> whole_writes (script w) -> write_bytes C (utf8s s) w = Ret w' u ->
  whole_writes (script w') /\ wat w' = wat w /\ told E C w w' [(s, wat w)].
Proof.
  intros Hs Hw Hrun. assert (H := write_bytes_whole C (utf8s s) w Hw). rewrite Hrun in H.
  destruct H as (H1 & (H2 & _) & H3). split; [exact H1|]. split; [exact H2|].
  exists (utf8s s). split; [exact H3|]. intros K Hc HK t v Hl Hv.
  destruct (feed_text E C K HK s Hs t v Hl) as (v1 & E1 & K1). apply keeps_attrs in K1. split.
  - cbn. rewrite <- Hv, <- (app_nil_r (utf8s s)). apply tells_text; [exact Hl|constructor].
  - exists v1. split; [exact E1|]. congruence.
Qed.

Lemma op_told E C o w w' u : styled_op E o -> whole_writes (script w) -> run_wop C o w = Ret w' u ->
  whole_writes (script w') /\ wat w' = request (wat w) o /\ told E C w w' (text_log (wat w) [o]).
Proof.
  intros Ho Hw Hrun. assert (Hd : attr_op o \/ ~ attr_op o) by (destruct o; cbn; auto).
  destruct Hd as [Hd|Hd].
  - assert (H := attr_op_adv C o w Hd). rewrite Hrun in H. destruct H as (H1 & H2 & H3 & x & H4 & H5).
    split; [now rewrite H3|]. split; [exact H1|].
    exists x. unfold stream. rewrite H2, H4, app_assoc. split; [reflexivity|].
    intros K Hc HK t v Hl Hv. assert (X := H5 E K Hc HK t v Hl Hv). split.
    + replace (text_log (wat w) [o]) with (@nil (list N * attrs)) by (destruct o; try contradiction; reflexivity).
      cbn. rewrite <- (app_nil_r x). eapply tells_attrs; [exact Hl|exact X|constructor].
    + eexists. split; [exact X|]. cbn. now rewrite H1.
  - destruct o; try (exfalso; apply Hd; exact Ho); cbn [run_wop styled_op] in *.
    + destruct (told_text E C [c] w w' u) as (A & B & D); auto.
      { unfold utf8s. cbn. rewrite app_nil_r. exact Hrun. }
    + destruct (told_text E C s w w' u) as (A & B & D); auto.
    + destruct (write_styled_detail C E a s w w' u Hw Hrun) as (H1 & H2 & pre & post & H3 & H4).
      split; [exact H1|]. split; [exact H2|]. exists (pre ++ utf8s s ++ post). split; [exact H3|].
      intros K Hc HK t v Hl Hv. destruct (H4 K Hc HK Ho t v Hl Hv) as (A & v2 & B & B' & D). split.
      * cbn. eapply tells_attrs; [exact Hl|exact A|].
        change (shown_attrs C a) with (vattrs (set_vattrs (shown_attrs C a) v)). apply tells_text; [exact A|].
        rewrite <- (feed_app _ _ _ HK). rewrite <- (app_nil_r post).
        eapply tells_attrs; [exact B|rewrite <- (feed_app _ _ _ HK), <- app_assoc; exact D|constructor].
      * eexists. split; [exact D|]. cbn. now rewrite H2, shown_none.
Qed.

Lemma ops_told E C ops : forall w w', Forall (styled_op E) ops -> whole_writes (script w) -> run_ok C ops w = Some w' ->
  whole_writes (script w') /\ wat w' = fold_left request ops (wat w) /\ told E C w w' (text_log (wat w) ops).
Proof.
  induction ops as [|o ops IH]; intros w w' Ho Hw H; cbn [run_ok] in H.
  - injection H as <-. split; [exact Hw|]. split; [reflexivity|apply told_refl].
  - inversion Ho as [|? ? Ho1 Ho2]; subst. destruct (run_wop C o w) as [w1 u|w1 e| |] eqn:Er; try discriminate H.
    destruct (op_told E C o w w1 u Ho1 Hw Er) as (A & B & D).
    destruct (IH w1 w' Ho2 A H) as (A' & B' & D'). split; [exact A'|]. cbn [fold_left]. rewrite B', B. split; [reflexivity|].
    rewrite text_log_cons. eapply told_trans; [exact D|]. rewrite <- B. exact D'.
Qed.

Section Threads.
  Variables (E : env) (C : tcfg).

  Definition good (l : list (act * ans)) : Prop := forall a r, In (a, r) l -> r = AOk.


  Lemma performed_run ops l : performed ops l -> good l -> forall w d w' d', replays E C l (Some w, d) (Some w', d') ->
    run_ok C ops w = Some w'.
  Proof.
    induction 1 as [|o ops l P IH|o ops r Hr]; intros G w d w' d' H.
    - cbn in H. injection H as <- <-. reflexivity.
    - cbn [replays meaning wmeaning] in H. destruct H as [Hr H]. cbn [run_ok].
      destruct (run_wop C o w) as [w1 u|w1 e| |] eqn:Er; cbn in Hr, H; try discriminate Hr.
      apply (IH (fun a r X => G a r (or_intror X)) w1 d w' d' H).
    - exfalso. apply Hr. apply (G _ _ (or_introl eq_refl)).
  Qed.

  Lemma session_told ops l w d w' d' : macro_sess ops l -> good l -> Forall (styled_op E) ops -> tidy ops ->
    whole_writes (script w) -> wat w = no_attrs -> replays E C l (Some w, d) (Some w', d') ->
    whole_writes (script w') /\ wat w' = no_attrs /\ told E C w w' (text_log no_attrs ops).
  Proof.
    intros (l' & r & P & ->) G Ho Ht Hw Ha H. apply replays_app in H.
    destruct H as ([[w1|] d1] & H1 & H2); [|apply replays_gone in H2; discriminate H2].
    assert (G' : good l') by (intros a r' X; apply (G a r'); apply in_or_app; now left).
    assert (R := performed_run ops l' P G' w d w1 d1 H1).
    destruct (ops_told E C ops w w1 Ho Hw R) as (A & B & D). rewrite Ha in B, D. unfold tidy in Ht. rewrite Ht in B.
    cbn [replays meaning wmeaning] in H2. destruct H2 as [_ H2]. unfold guard_drop in H2.
    pose proof (flush_whole w1 A) as F. pose proof (flush_stream w1 A) as F'.
    destruct (flush w1) as [w2 u|w2 e| |]; try contradiction; cbn in H2; try discriminate H2; injection H2 as <- <-.
    - destruct F as (F1 & (F2 & _) & _). split; [exact F1|]. split; [congruence|].
      apply told_stream with (w1 := w1); [exact D|apply F'|exact F2].
    - assert (X : wat w2 = wat w1) by (destruct F as (_ & (X & _) & _); exact X).
      destruct F' as [F1 F2]. split; [exact F1|]. split; [congruence|].
      apply told_stream with (w1 := w1); [exact D|exact F2|exact X].
  Qed.

  Lemma order_told order : forall (want : nat -> list (list wop)) w d w' d',
    whole_writes (script w) -> wat w = no_attrs ->
    (forall i, Forall2 macro_sess (want i) (mine i order)) -> (forall i, Forall (Forall (styled_op E)) (want i)) ->
    (forall i, Forall tidy (want i)) -> Forall good (map snd order) ->
    replays E C (concat (map snd order)) (Some w, d) (Some w', d') ->
    wat w' = no_attrs /\ exists logs : list (nat * list (list N * attrs)),
      told E C w w' (concat (map snd logs)) /\
      forall i : nat, by_thread i logs = map (text_log no_attrs) (want i).
  Proof.
    induction order as [|[j l] order IH]; intros want w d w' d' Hw Ha HF Ho Ht HG H; cbn [map concat snd] in H.
    - cbn in H. injection H as <- <-. split; [exact Ha|]. exists []. split; [apply told_refl|].
      intros i. specialize (HF i). cbn in HF. inversion HF as [E1|]. reflexivity.
    - apply replays_app in H. destruct H as ([[w1|] d1] & H1 & H2); [|apply replays_gone in H2; discriminate H2].
      assert (Hj := HF j). unfold mine in Hj. cbn [filter fst] in Hj. rewrite Nat.eqb_refl in Hj. cbn [map snd] in Hj.
      pose proof (Ho j) as Hoj. pose proof (Ht j) as Htj.
      destruct (want j) as [|ops rest] eqn:Ew; [inversion Hj|].
      inversion Hj as [|? ? ? ? Hm Hrest]; subst. inversion Hoj; subst. inversion Htj; subst. inversion HG; subst.
      destruct (session_told ops l w d w1 d1) as (W1 & A1 & T1); auto.
      destruct (IH (fun i => if j =? i then rest else want i) w1 d1 w' d' W1 A1) as (A2 & logs & T2 & F2).
      + intros i. specialize (HF i). unfold mine in HF |- *. cbn [filter fst] in HF.
        destruct (Nat.eqb_spec j i) as [Ei|Ei]; [subst i; exact Hrest|exact HF].
      + intros i. destruct (j =? i); auto.
      + intros i. destruct (j =? i); auto.
      + assumption.
      + exact H2.
      + split; [exact A2|]. exists ((j, text_log no_attrs ops) :: logs). cbn [map concat snd].
        split; [eapply told_trans; eauto|].
        intros i. specialize (F2 i). unfold by_thread in *. cbn [filter fst].
        destruct (Nat.eqb_spec j i) as [Ei|Ei]; [|exact F2].
        subst i. rewrite Ew. cbn [map snd]. f_equal. exact F2.
  Qed.

  Lemma threads_told (progs : list (list (list wop))) w d tr c w' :
    run E C (start (map macros_client progs) (Some w, d)) tr c -> finished c ->
    (forall i a r, In (a, r) (concat (sessions i tr)) -> r = AOk) ->
    Forall (Forall (Forall (styled_op E))) progs -> Forall (Forall tidy) progs ->
    whole_writes (script w) -> wat w = no_attrs -> fst (shared c) = Some w' ->
    exists (x : bytes) (logs : list (nat * list (list N * attrs))),
      stream w' = stream w ++ x /\
      (forall i : nat, by_thread i logs = map (text_log no_attrs) (nth i progs [])) /\
      forall K t v, caps_coherent C -> implements E C K ->
        look K t = Some v -> vattrs v = no_attrs ->
        tells K t x (as_shown C (concat (map snd logs))).
  Proof.
    intros R F HG Ho Ht Hw Ha Hs.
    assert (L : forall b, Forall (follows b None None) (map macros_client progs)).
    { intros b. apply Forall_forall. intros p Hq. apply in_map_iff in Hq. destruct Hq as (l & <- & _). apply macros_follow. }
    assert (U := finished_unlocked E C _ _ _ _ (L true) R F).
    destruct (sessions_atomic E C _ _ tr c (L false) R (U LWriter) (U LData)) as (order & O1 & O2).
    destruct (shared c) as [w1 d1]. cbn in Hs. subst w1.
    assert (D : forall (P : list wop -> Prop) i, Forall (Forall P) progs -> Forall P (nth i progs [])).
    { intros P i H. destruct (nth_in_or_default i progs []) as [Hi|Hi]; [|rewrite Hi; constructor].
      rewrite Forall_forall in H. now apply H. }
    destruct (order_told order (fun i => nth i progs []) w d w' d1 Hw Ha) as (_ & logs & (x & X1 & X2) & B).
    - intros i. unfold mine. rewrite O1. exact (macro_sessions E C progs _ tr c i R F).
    - intros i. now apply D.
    - intros i. now apply D.
    - apply Forall_forall. intros l Hl a r Hr. apply in_map_iff in Hl. destruct Hl as ([j l'] & El & Hj). cbn in El. subst l'.
      apply (HG j a r). apply in_concat. exists l. split; [|exact Hr]. rewrite <- O1.
      apply in_map_iff. exists (j, l). split; [reflexivity|]. apply filter_In. split; [exact Hj|apply Nat.eqb_refl].
    - exact O2.
    - exists x, logs. split; [exact X1|]. split; [exact B|]. intros K t v Hc HK Hl Hv.
      apply (X2 K Hc HK t v Hl). rewrite Ha, shown_none. exact Hv.
  Qed.
End Threads.

(** ** What is not cleared is inherited *)

Lemma untidy_leaks :
  let E := demo_env 1000 in
  let w0 := writer_new 64 [WAll; WAll; WAll] in
  let progs := [[untidy_a]; [plain_b]] in
  exists tr c w', run E ansi_cfg (start (map macros_client progs) (Some w0, None)) tr c /\
    finished c /\ (forall i a r, In (a, r) (concat (sessions i tr)) -> r = AOk) /\
    fst (shared c) = Some w' /\ text_log no_attrs plain_b = [([98%N], no_attrs)] /\
    option_map vcells (emu_look (feed (ansi_tty E) (emu_new (Size 1 2)) (dev w'))) =
      Some [VC [97%N] (Attrs None None BOLD); VC [98%N] (Attrs None None BOLD)].
Proof.
  cbv zeta. do 3 eexists. split.
  - eapply run_snoc.
    1: eapply run_snoc.
    1: eapply run_snoc.
    1: eapply run_snoc.
    1: eapply run_snoc.
    1: eapply run_snoc.
    1: eapply run_snoc.
    1: eapply run_snoc.
    1: eapply run_snoc.
    1: apply run_nil.
    + eapply (step_acq _ _ 0 LWriter); reflexivity.
    + eapply (step_act _ _ 0); reflexivity.
    + eapply (step_act _ _ 0); reflexivity.
    + eapply (step_act _ _ 0); reflexivity.
    + eapply (step_rel _ _ 0 LWriter); reflexivity.
    + eapply (step_acq _ _ 1 LWriter); reflexivity.
    + eapply (step_act _ _ 1); reflexivity.
    + eapply (step_act _ _ 1); reflexivity.
    + eapply (step_rel _ _ 1 LWriter); reflexivity.
  - split; [intros [|[|i]]; [reflexivity|reflexivity|cbn; now destruct i]|].
    split. { intros [|[|i]] a r H; vm_compute in H; repeat match type of H with _ \/ _ => destruct H as [H|H] end; try contradiction; now inversion H. }
    split; [reflexivity|]. split; [reflexivity|vm_compute; reflexivity].
Qed.
