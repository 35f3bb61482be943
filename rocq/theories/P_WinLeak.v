(** Proofs about read guards that are never dropped on Windows (C133), along the lines of
    P_WinLocks.v and P_WinFair.v. *)
From Verif Require Import Base M_Geom M_Buf M_Writer M_Locks S_Locks P_Locks S_Fair P_Fair M_WinLocks S_WinLocks S_WinFair P_WinLocks P_WinFair
  M_Leak S_Leak P_Leak.

Lemma kwcompile_safe p : forall r w, wmay_keep_read r w p -> ksafe (holding r w) (wcompile p).
Proof.
  induction p as [|c k IH]; intros r w H.
  { cbn in H. subst w. split; reflexivity. }
  destruct H as [Ha Hk].
  assert (G : forall a, ksafe (holding (read_guard_after c a r) (write_guard_after c a w)) (wcompile (k a)))
    by (intros a; apply IH, Hk). clear IH Hk.
  destruct Ha as [Ha Hs]; destruct c; cbn [allowed] in Ha; cbn [wcompile wmethod read_guard_after write_guard_after] in *;
    repeat match goal with
           | H : _ /\ _ |- _ => destruct H
           | H : SRRead = SRRead -> _ |- _ => destruct (H eq_refl) as [?|[? _]]; [clear H|discriminate]
           end; subst;
    unfold with_reader, wscreen_read_block, wread_block, wait_block; unfold wwith_writer, wdrop_screen_writer, drop_writer;
    try (match goal with o : wop |- _ => destruct o as [| | | | | | | | | |[|]|[|]|[|]|[|]| | | | | | |] end);
    try (apply (G AOk));
    repeat (cbn [ksafe has put holding some screen_guard h_r h_w h_d];
            repeat match goal with
                   | |- _ /\ _ => split
                   | |- forall l', has _ l' = true -> _ =>
                       let l := fresh in intros l ?; destruct l; cbn in *; try discriminate;
                       try (destruct r); cbn in *; try discriminate; lia
                   | |- forall _ : ans, _ => intros ?a
                   | |- forall _ : choice, _ => intros [[|]|? ? ?|]
                   | |- ksafe _ (match ?a with AOk => _ | _ => _ end) => destruct a
                   | |- true = true => reflexivity
                   | |- false = false => reflexivity
                   | |- some _ = _ => reflexivity
                   end);
    try exact (G AOk); try exact (G AWouldBlock); try exact (G AGone);
    try match goal with
        | a : ans |- _ => exact (G a)
        end;
    try apply (G (AErr _)); try apply (G (AResized _)); try apply (G (AOther _)).
Qed.

Section Win.
Context {Wd Dd : Type}.
Variable M : access Wd Dd.

Definition kwordered (c : wconfig Wd Dd) : Prop := forall i, ksafe (wheld_by c i) (wthreads c i).

Lemma kwordered_step c e c' : kwordered c -> wstep M c e c' -> kwordered c'.
Proof.
  intros H St j.
  destruct St as [i l k t o s Ht Ho|i l k k' t o s Ht Ho|i l k k' j' t o s Ht Ho
                 |i l k t o s Ht Ho|i a k t o s s' r Ht Ho|i k x t o s Ht];
    pose proof (H i) as Hi; cbn [wthreads] in Hi |- *; rewrite Ht in Hi; cbn [ksafe] in Hi;
    (destruct (Nat.eq_dec j i) as [->|Hj];
     [rewrite set_thread_same|rewrite set_thread_other by exact Hj]).
  - rewrite (wheld_put_same _ t o _ s i l true). apply Hi.
  - rewrite (wheld_put_other _ t o _ s i j l) by auto. apply H.
  - rewrite (wheld_put_same _ t o _ s i l true). apply Hi.
  - rewrite (wheld_put_other _ t o _ s i j l) by auto. apply H.
  - apply Hi.
  - apply (H j).
  - rewrite (wheld_put_same _ t o _ s i l false). apply Hi.
  - rewrite (wheld_put_other _ t o _ s i j l) by auto. apply H.
  - apply Hi.
  - apply (H j).
  - apply Hi.
  - apply (H j).
Qed.

Lemma kwordered_start l s : Forall (wmay_keep_read None None) l -> kwordered (wstart l s).
Proof.
  intros H i. unfold wstart, wheld_by. cbn.
  apply (kwcompile_safe _ None None).
  destruct (nth_in_or_default i l Finish) as [Hi|Hi]; [|rewrite Hi; cbn; auto].
  rewrite Forall_forall in H. now apply H.
Qed.

Lemma kwordered_run c tr c' : kwordered c -> wrun M c tr c' -> kwordered c'.
Proof. intros H R. induction R as [|tr c1 e c2 R IH St]; [exact H|]. eapply kwordered_step; eauto. Qed.

End Win.

Section Win2.
Context {Wd Dd : Type}.
Variable M : access Wd Dd.

  (** A thread does something without waiting for others, if it is not about to wait. *)
  Lemma kwmoves c i : kwordered c -> wthreads c i <> Done -> (forall l k, wthreads c i = Acq l k -> wowner c l = None) ->
    exists e c', wstep M c e c' /\ walone i c c' /\ smaller (wthreads c' i) (wthreads c i) /\
      forall l, wowner c l = Some i -> wowner c' l = Some i \/ exists k, wthreads c i = Rel l k /\ wowner c' l = None.
  Proof.
    intros H Hd Hf. destruct c as [t o s]. pose proof (H i) as Hi. cbn [wthreads wowner] in *.
    destruct (t i) as [|l k|l y n|l k|a k|k] eqn:Ht; [contradiction| | | | |]; cbn [ksafe] in Hi.
    - specialize (Hf l k eq_refl). do 2 eexists. split; [eapply wstep_acq; eauto|]. split; [now apply walone_take|].
      cbn [wthreads wowner]. rewrite set_thread_same. split; [constructor|]. intros l' Hl. left.
      destruct (lock_dec l' l) as [->|N]; [apply owner_same|now rewrite owner_other].
    - destruct (o l) as [j|] eqn:Ho.
      + do 2 eexists. split; [eapply wstep_try_no; eauto|]. split; [apply walone_same|].
        cbn [wthreads wowner]. rewrite set_thread_same. split; [constructor|auto].
      + do 2 eexists. split; [eapply wstep_try_yes; eauto|]. split; [now apply walone_take|].
        cbn [wthreads wowner]. rewrite set_thread_same. split; [constructor|]. intros l' Hl. left.
        destruct (lock_dec l' l) as [->|N]; [apply owner_same|now rewrite owner_other].
    - destruct Hi as [Hi _]. rewrite whas_held in Hi. cbn in Hi. apply is_some in Hi.
      do 2 eexists. split; [eapply wstep_rel; eauto|]. split; [now apply walone_give|].
      cbn [wthreads wowner]. rewrite set_thread_same. split; [constructor|]. intros l' Hl.
      destruct (lock_dec l' l) as [->|N]; [right; exists k; split; [reflexivity|apply owner_same]|left; now rewrite owner_other].
    - destruct (wmeans M a s) as [s' r] eqn:Hm. do 2 eexists. split; [eapply wstep_act; eauto|]. split; [apply walone_same|].
      cbn [wthreads wowner]. rewrite set_thread_same. split; [constructor|auto].
    - do 2 eexists. split; [apply wstep_env with (c := COther 0); exact Ht|]. split; [apply walone_same|].
      cbn [wthreads wowner]. rewrite set_thread_same. split; [constructor|auto].
  Qed.

  Lemma kwowner_not_done (c : wconfig Wd Dd) i l : kwordered c -> l <> LReader -> wowner c l = Some i -> wthreads c i <> Done.
  Proof.
    intros H N Ho Hd. pose proof (H i) as Hi. rewrite Hd in Hi. destruct Hi as [Hw Hdd]. cbn in Hw, Hdd.
    destruct l; [congruence|rewrite Ho in Hw; cbn in Hw|rewrite Ho in Hdd; cbn in Hdd]; rewrite Nat.eqb_refl in *; discriminate.
  Qed.
  Lemma kwowner_rank (c : wconfig Wd Dd) i l l' k : kwordered c -> wowner c l = Some i -> wthreads c i = Acq l' k -> rank l < rank l'.
  Proof.
    intros H Ho Ht. pose proof (H i) as Hi. rewrite Ht in Hi. destruct Hi as [Hi _]. apply Hi.
    rewrite whas_held, Ho. apply some_is.
  Qed.

  (** The holder of the data can give it back by itself. *)
  Lemma kwdata_freed p : Acc smaller p -> forall (c : wconfig Wd Dd) i, kwordered c -> wthreads c i = p -> wowner c LData = Some i ->
    exists tr c', wrun M c tr c' /\ walone i c c' /\ wowner c' LData = None.
  Proof.
    induction 1 as [p _ IH]. intros c i H Hp Ho. subst p.
    destruct (kwmoves c i H (kwowner_not_done c i LData H ltac:(discriminate) Ho)) as (e & c1 & St & A & S1 & K).
    { intros l k Ht. exfalso. pose proof (kwowner_rank c i LData l k H Ho Ht) as R. destruct l; cbn in R; lia. }
    destruct (K LData Ho) as [Ho1|(k & _ & Ho1)].
    - destruct (IH _ S1 c1 i (kwordered_step M _ _ _ H St) eq_refl Ho1) as (tr & c2 & R & A2 & D).
      exists ([e] ++ tr), c2. split; [eapply wrun_trans; [apply wrun_one; exact St|exact R]|].
      split; [eapply walone_trans; eauto|exact D].
    - exists [e], c1. split; [now apply wrun_one|]. split; [exact A|exact Ho1].
  Qed.

  (** The holder of the output can give it back, at most after the holder of the data. *)
  Lemma kwwriter_freed p : Acc smaller p -> forall (c : wconfig Wd Dd) i, kwordered c -> wthreads c i = p -> wowner c LWriter = Some i ->
    exists tr c', wrun M c tr c' /\ wowner c' LWriter = None /\
      (forall j, j <> i -> wowner c LData <> Some j -> wstill j c c').
  Proof.
    induction 1 as [p _ IH]. intros c i H Hp Ho. subst p.
    assert (G : forall c0, kwordered c0 -> wthreads c0 i = wthreads c i -> wowner c0 LWriter = Some i ->
      (forall l k, wthreads c0 i = Acq l k -> wowner c0 l = None) ->
      exists tr c', wrun M c0 tr c' /\ wowner c' LWriter = None /\
      (forall j, j <> i -> wowner c0 LData <> Some j -> wstill j c0 c')).
    { intros c0 H0 Ht0 Ho0 Hf. destruct (kwmoves c0 i H0 (kwowner_not_done c0 i LWriter H0 ltac:(discriminate) Ho0) Hf) as (e & c1 & St & A & S1 & K).
      destruct (K LWriter Ho0) as [Ho1|(k & _ & Ho1)].
      - rewrite Ht0 in S1. destruct (IH _ S1 c1 i (kwordered_step M _ _ _ H0 St) eq_refl Ho1) as (tr & c2 & R & W & T).
        exists ([e] ++ tr), c2. split; [eapply wrun_trans; [apply wrun_one; exact St|exact R]|]. split; [exact W|].
        intros j Hj Hn. eapply wstill_trans; [now apply A|]. apply T; [exact Hj|]. intros X. apply Hn. now apply (proj2 (A j Hj) LData).
      - exists [e], c1. split; [now apply wrun_one|]. split; [exact Ho1|]. intros j Hj _. now apply A. }
    assert (X : (forall l k, wthreads c i = Acq l k -> wowner c l = None) \/ exists j k, wthreads c i = Acq LData k /\ wowner c LData = Some j).
    { destruct (wthreads c i) as [|l k|l y n|l k|a k|k] eqn:Ht; try (left; intros; discriminate).
      pose proof (kwowner_rank c i LWriter l k H Ho Ht) as R. destruct l; cbn in R; try lia.
      destruct (wowner c LData) as [j|] eqn:Hd; [right; eauto|left]. intros l k0 [= <- _]. exact Hd. }
    destruct X as [X|(j & k & Ht & Hd)]; [now apply G|].
    assert (Hj : i <> j).
    { intros <-. pose proof (kwowner_rank c i LData LData k H Hd Ht) as R. cbn in R. lia. }
    destruct (kwdata_freed _ (smaller_acc _) c j H eq_refl Hd) as (tr & c1 & R & A & D).
    assert (H1 := kwordered_run M _ _ _ H R).
    assert (Ht1 : wthreads c1 i = wthreads c i) by (now apply A).
    destruct (G c1 H1 Ht1) as (tr2 & c2 & R2 & W & T).
    { now apply (proj2 (A i Hj) LWriter). }
    { intros l k0 Hl. rewrite Ht1, Ht in Hl. injection Hl as <- _. exact D. }
    exists (tr ++ tr2), c2. split; [eapply wrun_trans; eauto|]. split; [exact W|].
    intros j' Hj' Hn. eapply wstill_trans; [apply A; congruence|]. apply T; [exact Hj'|rewrite D; discriminate].
  Qed.

  (** From [c], thread [j] kwgets to [p], and nobody kwmoves who neither holds the output
      nor is [j]. *)
  Definition kwgets (j : nat) (c : wconfig Wd Dd) (p : prog) (c' : wconfig Wd Dd) : Prop :=
    (exists tr, wrun M c tr c') /\ wthreads c' j = p /\
    forall i, i <> j -> wowner c LWriter <> Some i -> wowner c LData <> Some i -> wstill i c c'.
  Lemma kwgets_trans j c p c1 q c2 : kwgets j c p c1 -> kwgets j c1 q c2 -> kwgets j c q c2.
  Proof.
    intros ([tr R] & _ & S) ([tr2 R2] & T & S2). split; [eexists; eapply wrun_trans; eauto|]. split; [exact T|].
    intros i Hi Hw Hd. pose proof (S i Hi Hw Hd) as Q. eapply wstill_trans; [exact Q|].
    apply S2; [exact Hi| |]; intros X; apply (proj2 Q) in X; auto.
  Qed.

  Lemma kwgets_acq c j lk k : kwordered c -> wthreads c j = Acq lk k -> lk <> LReader ->
    exists c', kwgets j c k c' /\ wowner c' lk = Some j.
  Proof.
    intros H Ht Hr.
    assert (X : exists tr' c', wrun M c tr' c' /\ wowner c' lk = None /\ wthreads c' j = wthreads c j /\
      forall i, i <> j -> wowner c LWriter <> Some i -> wowner c LData <> Some i -> wstill i c c').
    { destruct (wowner c lk) as [i|] eqn:Ho; [|exists [], c; split; [constructor|auto using wstill_refl]].
      assert (Hi : j <> i).
      { intros <-. pose proof (kwowner_rank c j lk lk k H Ho Ht). lia. }
      destruct lk; [congruence| |].
      - destruct (kwwriter_freed _ (smaller_acc _) c i H eq_refl Ho) as (tr' & c' & R' & W & T).
        exists tr', c'. split; [exact R'|]. split; [exact W|]. split.
        + apply T; [exact Hi|]. intros X. pose proof (kwowner_rank c j LData LWriter k H X Ht) as Q. cbn in Q. lia.
        + intros i' _ Hw Hd. apply T; [|exact Hd]. intros ->. now apply Hw.
      - destruct (kwdata_freed _ (smaller_acc _) c i H eq_refl Ho) as (tr' & c' & R' & A & D).
        exists tr', c'. split; [exact R'|]. split; [exact D|]. split; [now apply A|].
        intros i' _ _ Hd. apply A. intros ->. now apply Hd. }
    destruct X as (tr1 & c1 & R1 & O1 & T1 & F1). destruct c1 as [t o sh]. cbn [wthreads wowner] in *.
    exists (WConfig (set_thread j k t) (set_owner lk (Some j) o) sh). split; [|apply owner_same].
    split; [eexists; eapply wrun_snoc; [exact R1|]; apply wstep_acq; congruence|].
    split; [apply set_thread_same|].
    intros i Hi Hw Hd. eapply wstill_trans; [now apply F1|]. now apply walone_take.
  Qed.

  Lemma kwgets_act c j a k : wthreads c j = Act a k -> exists r c', kwgets j c (k r) c'.
  Proof.
    intros Ht. destruct c as [t o s]. destruct (wmeans M a s) as [s' r] eqn:Hm. exists r.
    exists (WConfig (set_thread j (k r) t) o s'). split; [eexists; apply wrun_one; eapply wstep_act; eauto|].
    split; [apply set_thread_same|]. intros i Hi _ _. now apply walone_same.
  Qed.
  Lemma kwgets_env c j k : wthreads c j = Env k -> forall x, exists c', kwgets j c (k x) c'.
  Proof.
    intros Ht x. destruct c as [t o s].
    exists (WConfig (set_thread j (k x) t) o s). split; [eexists; apply wrun_one; eapply wstep_env; eauto|].
    split; [apply set_thread_same|]. intros i Hi _ _. now apply walone_same.
  Qed.
  Lemma kwgets_rel c j l k : kwordered c -> wthreads c j = Rel l k -> exists c', kwgets j c k c'.
  Proof.
    intros H Ht. pose proof (H j) as Hi. rewrite Ht in Hi. destruct Hi as [Hi _]. rewrite whas_held in Hi. apply is_some in Hi.
    destruct c as [t o s]. cbn [wthreads wowner] in *.
    exists (WConfig (set_thread j k t) (set_owner l None o) s). split; [eexists; apply wrun_one; eapply wstep_rel; eauto|].
    split; [apply set_thread_same|]. intros i Hj _ _. now apply walone_give.
  Qed.
  Lemma kwgets_try c j l y n : wthreads c j = TryAcq l y n -> exists c', kwgets j c y c' \/ kwgets j c n c'.
  Proof.
    intros Ht. destruct c as [t o s]. cbn [wthreads] in Ht. destruct (o l) as [i|] eqn:Ho.
    - exists (WConfig (set_thread j n t) o s). right. split; [eexists; apply wrun_one; eapply wstep_try_no; eauto|].
      split; [apply set_thread_same|]. intros i' Hi _ _. now apply walone_same.
    - exists (WConfig (set_thread j y t) (set_owner l (Some j) o) s). left. split; [eexists; apply wrun_one; eapply wstep_try_yes; eauto|].
      split; [apply set_thread_same|]. intros i' Hi _ _. now apply walone_take.
  Qed.
  Lemma kwgets_ordered j c p c' : kwordered c -> kwgets j c p c' -> kwordered c'.
  Proof. intros H ([tr R] & _). eapply kwordered_run; eauto. Qed.
  Lemma kwgets_refl j c p : wthreads c j = p -> kwgets j c p c.
  Proof. intros H. split; [exists []; constructor|]. split; [exact H|]. intros; apply wstill_refl. Qed.

  (** Getting somewhere by a chain of such kwmoves. *)
  Definition kwreaches (j : nat) (c : wconfig Wd Dd) (G : prog -> Prop) : Prop := exists p c', kwgets j c p c' /\ G p.
  Lemma kwreaches_trans j c p c1 (G : prog -> Prop) : kwgets j c p c1 -> kwreaches j c1 G -> kwreaches j c G.
  Proof. intros A (q & c2 & B & HG). exists q, c2. split; [eapply kwgets_trans; eauto|exact HG]. Qed.

  Lemma kwleads_reaches G p : leads G p -> forall j (c : wconfig Wd Dd), kwordered c -> wthreads c j = p -> kwreaches j c G.
  Proof.
    induction 1 as [p HG|l k Hl _ IH|l y n _ IHy _ IHn|l k _ IH|a k _ IH|k x _ IH]; intros j c H Ht.
    - exists p, c. split; [now apply kwgets_refl|exact HG].
    - destruct (kwgets_acq c j l k H Ht Hl) as (c1 & A & _). eapply kwreaches_trans; [exact A|].
      apply IH; [eapply kwgets_ordered; eauto|apply A].
    - destruct (kwgets_try c j l y n Ht) as (c1 & [A|A]); (eapply kwreaches_trans; [exact A|]);
        [apply IHy|apply IHn]; solve [eapply kwgets_ordered; eauto|apply A].
    - destruct (kwgets_rel c j l k H Ht) as (c1 & A). eapply kwreaches_trans; [exact A|].
      apply IH; [eapply kwgets_ordered; eauto|apply A].
    - destruct (kwgets_act c j a k Ht) as (r & c1 & A). eapply kwreaches_trans; [exact A|].
      apply (IH r); [eapply kwgets_ordered; eauto|apply A].
    - destruct (kwgets_env c j k Ht x) as (c1 & A). eapply kwreaches_trans; [exact A|].
      apply IH; [eapply kwgets_ordered; eauto|apply A].
  Qed.

  Lemma kwoutput_goes_on l s tr c j x k : Forall (wmay_keep_read None None) l -> wrun M (wstart l s) tr c ->
    wthreads c j = wcompile (Call x k) -> output_call x = true ->
    exists tr' c' a, wrun M c tr' c' /\ wthreads c' j = wcompile (k a) /\
      forall i, i <> j -> wawaiting c i -> wthreads c' i = wthreads c i /\ wawaiting c' i.
  Proof.
    intros Hl R Ht Hx. assert (H : kwordered c) by (eapply kwordered_run; [|exact R]; now apply kwordered_start).
    destruct (kwleads_reaches (fun p => exists a, p = wcompile (k a)) _
      (woutput_leads x (fun r => wcompile (k r)) (fun p => exists a, p = wcompile (k a)) Hx (fun a => ex_intro _ a eq_refl)) j c H Ht)
      as (p & c' & ([tr' R'] & T & S) & (a & ->)).
    exists tr', c', a. split; [exact R'|]. split; [exact T|]. intros i Hi ((k' & Hk) & Hw & Hd).
    destruct (S i Hi Hw Hd) as [S1 S2]. split; [exact S1|]. split; [exists k'; congruence|].
    split; intros X; apply S2 in X; auto.
  Qed.

End Win2.

(** ** Calls that wait for a lock that is kept *)

Lemma wwaits_before l x k : waits_for l x = true -> before l (wmethod x k).
Proof.
  intros H. destruct l, x; try discriminate H; cbn [wmethod waits_for] in *;
    try match goal with |- context [match ?o with OMoveUp _ => _ | _ => _ end] => destruct o end;
    try match goal with |- context [match ?n with 0 => _ | S _ => _ end] => destruct n end; try discriminate H;
    unfold with_reader, wwith_writer;
    first [left; eexists; reflexivity|right; do 2 eexists; split; [|reflexivity]; discriminate].
Qed.

Section WKept.
  Context {Wd Dd : Type}.
  Variable M : access Wd Dd.

  Definition wstays (c : wconfig Wd Dd) (i j : nat) (l : lock) : Prop := wkeeps c i j l /\ before l (wthreads c j).

  Lemma wstays_step c e c' i j l : wstays c i j l -> wstep M c e c' -> wstays c' i j l /\ forall a r, e <> EvAct j a r.
  Proof.
    intros ((Ho & Hk) & Hb) St.
    destruct (Nat.eq_dec (mover e) j) as [Hj|Hj].
    - assert (X : exists l' k, l' <> l /\ wthreads c j = Acq l' (Acq l k) /\ e = EvAcq j l' /\ wowner c l' = None /\
          wthreads c' = set_thread j (Acq l k) (wthreads c) /\ wowner c' = set_owner l' (Some j) (wowner c)).
      { destruct Hb as [(k & Hb)|(l' & k & N & Hb)].
        - exfalso. destruct St; cbn in *; subst; congruence.
        - exists l', k. split; [exact N|]. split; [exact Hb|]. destruct St; cbn in *; subst; try congruence.
          assert (Q : Acq l' (Acq l k) = Acq l0 k0) by congruence. injection Q as <- <-. repeat split; auto. }
      destruct X as (l' & k & N & Ht & -> & Ho' & Ht' & Hw'). split; [|discriminate]. split.
      + split; [rewrite Hw'; apply set_owner_kept; auto|]. rewrite Ht'. destruct Hk as [Hk| ->]; [|now right].
        destruct (Nat.eq_dec i j) as [->|N']; [now right|left]. now rewrite set_thread_other.
      + left. exists k. rewrite Ht'. apply set_thread_same.
    - split; [|intros a r ->; now apply Hj]. split.
      + split.
        * destruct St; cbn in *; try exact Ho; apply set_owner_kept; auto; left; intros ->; try congruence.
          assert (i = i0) by congruence. subst i0. destruct Hk as [Hk| ->]; congruence.
        * destruct Hk as [Hk| ->]; [|now right]. left.
          destruct St; cbn in *; match goal with H : _ ?i0 = _ |- _ =>
            rewrite set_thread_other; [exact Hk|intros ->; congruence] end.
      + assert (wthreads c' j = wthreads c j) as ->; [|exact Hb].
        destruct St; cbn in *; apply set_thread_other; congruence.
  Qed.

  Lemma wstays_for_ever c i j l : wstays c i j l -> wwaits_for_ever M c j.
  Proof.
    intros H tr c' R.
    assert (X : wstays c' i j l /\ forall a r, ~ In (EvAct j a r) tr).
    { induction R as [|tr c1 e c2 R [IH IHn] St]; [split; [exact H|auto]|].
      destruct (wstays_step _ _ _ _ _ _ IH St) as [IH2 N]. split; [exact IH2|].
      intros a r Q. apply in_app_iff in Q as [Q|[Q|[]]]; [now apply (IHn a r)|now apply (N a r)]. }
    destruct X as [[_ Hb] Hn]. split; [|exact Hn].
    destruct Hb as [(k & ->)|(l' & k & _ & ->)]; do 2 eexists; reflexivity.
  Qed.

  Lemma wlocked_out (c : wconfig Wd Dd) i j l x k : wkeeps c i j l -> wthreads c j = wmethod x k -> waits_for l x = true ->
    wwaits_for_ever M c j.
  Proof. intros H Ht Hx. apply (wstays_for_ever c i j l). split; [exact H|]. rewrite Ht. now apply wwaits_before. Qed.

  Lemma wtried_in_vain (c : wconfig Wd Dd) i j l x k : wowner c l = Some i -> wthreads c j = wmethod x k -> tries l x = true ->
    forall e c', wstep M c e c' -> mover e = j -> wthreads c' j = k AWouldBlock.
  Proof.
    intros Ho Ht Hx e c' St Hj.
    assert (Q : wthreads c j = TryAcq l (k AOk) (k AWouldBlock)) by (rewrite Ht; destruct l, x; try discriminate Hx; reflexivity).
    destruct St; cbn in *; subst; try congruence.
    assert (X : TryAcq l (k AOk) (k AWouldBlock) = TryAcq l0 k0 k') by congruence. injection X as <- <- <-. apply set_thread_same.
  Qed.

  Lemma wdrop_locked_out (c : wconfig Wd Dd) i j l state k : wkeeps c i j l ->
    l = LWriter /\ (wthreads c j = wdrop_terminal k \/ wthreads c j = wdrop_screen state k) \/
    l = LReader /\ state <> None /\ wthreads c j = wdrop_screen state k ->
    wwaits_for_ever M c j.
  Proof.
    intros H Hd. apply (wstays_for_ever c i j l). split; [exact H|].
    destruct Hd as [(-> & [->| ->])|(-> & Hs & ->)].
    - left. eexists. reflexivity.
    - destruct state as [[m kp]|]; [right; do 2 eexists; split; [|reflexivity]; discriminate|left; eexists; reflexivity].
    - destruct state as [[m kp]|]; [left; eexists; reflexivity|congruence].
  Qed.

End WKept.
