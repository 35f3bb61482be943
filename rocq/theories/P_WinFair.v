(** Proofs about who waits for whom on Windows (C93). *)
From Verif Require Import Base M_Geom M_Buf M_Writer M_Locks S_Locks P_Locks S_Fair P_Fair M_WinLocks S_WinLocks S_WinFair P_WinLocks.

Section WinFair.
  Context {Wd Dd : Type}.
  Variable M : access Wd Dd.

  Lemma wrun_one c e c' : wstep M c e c' -> wrun M c [e] c'.
  Proof. intros H. change [e] with ([] ++ [e]). eapply wrun_snoc; [constructor|exact H]. Qed.

(** Thread [j] has not moved. *)
Definition wstill (j : nat) (c c' : wconfig Wd Dd) : Prop :=
  wthreads c' j = wthreads c j /\ forall l, wowner c' l = Some j <-> wowner c l = Some j.
Lemma wstill_refl j c : wstill j c c. Proof. split; [auto|tauto]. Qed.
Lemma wstill_trans j a b c : wstill j a b -> wstill j b c -> wstill j a c.
Proof. intros [A1 A2] [B1 B2]. split; [congruence|]. intros l. rewrite B2. apply A2. Qed.

(** Only thread [i] has moved. *)
Definition walone (i : nat) (c c' : wconfig Wd Dd) : Prop := forall j, j <> i -> wstill j c c'.
Lemma walone_trans i a b c : walone i a b -> walone i b c -> walone i a c.
Proof. intros A B j Hj. eapply wstill_trans; [now apply A|now apply B]. Qed.
Lemma walone_same i p t o s s' : walone i (WConfig t o s) (WConfig (set_thread i p t) o s').
Proof. intros j Hj. split; cbn; [|tauto]. now rewrite set_thread_other. Qed.
Lemma walone_take i p l t o s s' : o l = None -> walone i (WConfig t o s) (WConfig (set_thread i p t) (set_owner l (Some i) o) s').
Proof.
  intros H j Hj. split; cbn; [now rewrite set_thread_other|].
  intros l'. destruct (lock_dec l' l) as [->|Hl]; [rewrite owner_same, H; split; congruence|].
  rewrite owner_other by exact Hl. tauto.
Qed.
Lemma walone_give i p l t o s s' : o l = Some i -> walone i (WConfig t o s) (WConfig (set_thread i p t) (set_owner l None o) s').
Proof.
  intros H j Hj. split; cbn; [now rewrite set_thread_other|].
  intros l'. destruct (lock_dec l' l) as [->|Hl]; [rewrite owner_same, H; split; congruence|].
  rewrite owner_other by exact Hl. tauto.
Qed.


  (** A thread does something without waiting for others, if it is not about to wait. *)
  Lemma wmoves c i : wordered c -> wthreads c i <> Done -> (forall l k, wthreads c i = Acq l k -> wowner c l = None) ->
    exists e c', wstep M c e c' /\ walone i c c' /\ smaller (wthreads c' i) (wthreads c i) /\
      forall l, wowner c l = Some i -> wowner c' l = Some i \/ exists k, wthreads c i = Rel l k /\ wowner c' l = None.
  Proof.
    intros H Hd Hf. destruct c as [t o s]. pose proof (H i) as Hi. cbn [wthreads wowner] in *.
    destruct (t i) as [|l k|l y n|l k|a k|k] eqn:Ht; [contradiction| | | | |]; cbn [safe] in Hi.
    - specialize (Hf l k eq_refl). do 2 eexists. split; [eapply wstep_acq; eauto|]. split; [now apply walone_take|].
      cbn [wthreads wowner]. rewrite set_thread_same. split; [constructor|]. intros l' Hl. left.
      destruct (lock_dec l' l) as [->|N]; [apply owner_same|now rewrite owner_other].
    - destruct (o l) as [j|] eqn:Ho.
      + do 2 eexists. split; [eapply wstep_try_no; eauto|]. split; [apply walone_same|].
        cbn [wthreads wowner]. rewrite set_thread_same. split; [constructor|auto].
      + do 2 eexists. split; [eapply wstep_try_yes; eauto|]. split; [now apply walone_take|].
        cbn [wthreads wowner]. rewrite set_thread_same. split; [constructor|]. intros l' Hl. left.
        destruct (lock_dec l' l) as [->|N]; [apply owner_same|now rewrite owner_other].
    - destruct Hi as [Hi _]. rewrite whas_held in Hi. cbn in Hi. apply is_some in Hi.
      do 2 eexists. split; [eapply wstep_rel; eauto|]. split; [now apply walone_give|].
      cbn [wthreads wowner]. rewrite set_thread_same. split; [constructor|]. intros l' Hl.
      destruct (lock_dec l' l) as [->|N]; [right; exists k; split; [reflexivity|apply owner_same]|left; now rewrite owner_other].
    - destruct (wmeans M a s) as [s' r] eqn:Hm. do 2 eexists. split; [eapply wstep_act; eauto|]. split; [apply walone_same|].
      cbn [wthreads wowner]. rewrite set_thread_same. split; [constructor|auto].
    - do 2 eexists. split; [apply wstep_env with (c := COther 0); exact Ht|]. split; [apply walone_same|].
      cbn [wthreads wowner]. rewrite set_thread_same. split; [constructor|auto].
  Qed.

  Lemma wowner_not_done (c : wconfig Wd Dd) i l : wordered c -> wowner c l = Some i -> wthreads c i <> Done.
  Proof.
    intros H Ho Hd. pose proof (H i) as Hi. rewrite Hd in Hi. cbn in Hi.
    assert (X : has (wheld_by c i) l = true) by (rewrite whas_held, Ho; apply some_is).
    rewrite Hi in X. destruct l; discriminate X.
  Qed.
  Lemma wowner_rank (c : wconfig Wd Dd) i l l' k : wordered c -> wowner c l = Some i -> wthreads c i = Acq l' k -> rank l < rank l'.
  Proof.
    intros H Ho Ht. pose proof (H i) as Hi. rewrite Ht in Hi. destruct Hi as [Hi _]. apply Hi.
    rewrite whas_held, Ho. apply some_is.
  Qed.

  (** The holder of the data can give it back by itself. *)
  Lemma wdata_freed p : Acc smaller p -> forall (c : wconfig Wd Dd) i, wordered c -> wthreads c i = p -> wowner c LData = Some i ->
    exists tr c', wrun M c tr c' /\ walone i c c' /\ wowner c' LData = None.
  Proof.
    induction 1 as [p _ IH]. intros c i H Hp Ho. subst p.
    destruct (wmoves c i H (wowner_not_done c i _ H Ho)) as (e & c1 & St & A & S1 & K).
    { intros l k Ht. exfalso. pose proof (wowner_rank c i LData l k H Ho Ht) as R. destruct l; cbn in R; lia. }
    destruct (K LData Ho) as [Ho1|(k & _ & Ho1)].
    - destruct (IH _ S1 c1 i (wordered_step M _ _ _ H St) eq_refl Ho1) as (tr & c2 & R & A2 & D).
      exists ([e] ++ tr), c2. split; [eapply wrun_trans; [apply wrun_one; exact St|exact R]|].
      split; [eapply walone_trans; eauto|exact D].
    - exists [e], c1. split; [now apply wrun_one|]. split; [exact A|exact Ho1].
  Qed.

  (** The holder of the output can give it back, at most after the holder of the data. *)
  Lemma wwriter_freed p : Acc smaller p -> forall (c : wconfig Wd Dd) i, wordered c -> wthreads c i = p -> wowner c LWriter = Some i ->
    exists tr c', wrun M c tr c' /\ wowner c' LWriter = None /\
      (forall j, j <> i -> wowner c LData <> Some j -> wstill j c c').
  Proof.
    induction 1 as [p _ IH]. intros c i H Hp Ho. subst p.
    assert (G : forall c0, wordered c0 -> wthreads c0 i = wthreads c i -> wowner c0 LWriter = Some i ->
      (forall l k, wthreads c0 i = Acq l k -> wowner c0 l = None) ->
      exists tr c', wrun M c0 tr c' /\ wowner c' LWriter = None /\
      (forall j, j <> i -> wowner c0 LData <> Some j -> wstill j c0 c')).
    { intros c0 H0 Ht0 Ho0 Hf. destruct (wmoves c0 i H0 (wowner_not_done c0 i _ H0 Ho0) Hf) as (e & c1 & St & A & S1 & K).
      destruct (K LWriter Ho0) as [Ho1|(k & _ & Ho1)].
      - rewrite Ht0 in S1. destruct (IH _ S1 c1 i (wordered_step M _ _ _ H0 St) eq_refl Ho1) as (tr & c2 & R & W & T).
        exists ([e] ++ tr), c2. split; [eapply wrun_trans; [apply wrun_one; exact St|exact R]|]. split; [exact W|].
        intros j Hj Hn. eapply wstill_trans; [now apply A|]. apply T; [exact Hj|]. intros X. apply Hn. now apply (proj2 (A j Hj) LData).
      - exists [e], c1. split; [now apply wrun_one|]. split; [exact Ho1|]. intros j Hj _. now apply A. }
    assert (X : (forall l k, wthreads c i = Acq l k -> wowner c l = None) \/ exists j k, wthreads c i = Acq LData k /\ wowner c LData = Some j).
    { destruct (wthreads c i) as [|l k|l y n|l k|a k|k] eqn:Ht; try (left; intros; discriminate).
      pose proof (wowner_rank c i LWriter l k H Ho Ht) as R. destruct l; cbn in R; try lia.
      destruct (wowner c LData) as [j|] eqn:Hd; [right; eauto|left]. intros l k0 [= <- _]. exact Hd. }
    destruct X as [X|(j & k & Ht & Hd)]; [now apply G|].
    assert (Hj : i <> j).
    { intros <-. pose proof (wowner_rank c i LData LData k H Hd Ht) as R. cbn in R. lia. }
    destruct (wdata_freed _ (smaller_acc _) c j H eq_refl Hd) as (tr & c1 & R & A & D).
    assert (H1 := wordered_run M _ _ _ H R).
    assert (Ht1 : wthreads c1 i = wthreads c i) by (now apply A).
    destruct (G c1 H1 Ht1) as (tr2 & c2 & R2 & W & T).
    { now apply (proj2 (A i Hj) LWriter). }
    { intros l k0 Hl. rewrite Ht1, Ht in Hl. injection Hl as <- _. exact D. }
    exists (tr ++ tr2), c2. split; [eapply wrun_trans; eauto|]. split; [exact W|].
    intros j' Hj' Hn. eapply wstill_trans; [apply A; congruence|]. apply T; [exact Hj'|rewrite D; discriminate].
  Qed.

  (** From [c], thread [j] wgets to [p], and nobody wmoves who neither holds the output
      nor is [j]. *)
  Definition wgets (j : nat) (c : wconfig Wd Dd) (p : prog) (c' : wconfig Wd Dd) : Prop :=
    (exists tr, wrun M c tr c') /\ wthreads c' j = p /\
    forall i, i <> j -> wowner c LWriter <> Some i -> wowner c LData <> Some i -> wstill i c c'.
  Lemma wgets_trans j c p c1 q c2 : wgets j c p c1 -> wgets j c1 q c2 -> wgets j c q c2.
  Proof.
    intros ([tr R] & _ & S) ([tr2 R2] & T & S2). split; [eexists; eapply wrun_trans; eauto|]. split; [exact T|].
    intros i Hi Hw Hd. pose proof (S i Hi Hw Hd) as Q. eapply wstill_trans; [exact Q|].
    apply S2; [exact Hi| |]; intros X; apply (proj2 Q) in X; auto.
  Qed.

  Lemma wgets_acq c j lk k : wordered c -> wthreads c j = Acq lk k -> lk <> LReader ->
    exists c', wgets j c k c' /\ wowner c' lk = Some j.
  Proof.
    intros H Ht Hr.
    assert (X : exists tr' c', wrun M c tr' c' /\ wowner c' lk = None /\ wthreads c' j = wthreads c j /\
      forall i, i <> j -> wowner c LWriter <> Some i -> wowner c LData <> Some i -> wstill i c c').
    { destruct (wowner c lk) as [i|] eqn:Ho; [|exists [], c; split; [constructor|auto using wstill_refl]].
      assert (Hi : j <> i).
      { intros <-. pose proof (wowner_rank c j lk lk k H Ho Ht). lia. }
      destruct lk; [congruence| |].
      - destruct (wwriter_freed _ (smaller_acc _) c i H eq_refl Ho) as (tr' & c' & R' & W & T).
        exists tr', c'. split; [exact R'|]. split; [exact W|]. split.
        + apply T; [exact Hi|]. intros X. pose proof (wowner_rank c j LData LWriter k H X Ht) as Q. cbn in Q. lia.
        + intros i' _ Hw Hd. apply T; [|exact Hd]. intros ->. now apply Hw.
      - destruct (wdata_freed _ (smaller_acc _) c i H eq_refl Ho) as (tr' & c' & R' & A & D).
        exists tr', c'. split; [exact R'|]. split; [exact D|]. split; [now apply A|].
        intros i' _ _ Hd. apply A. intros ->. now apply Hd. }
    destruct X as (tr1 & c1 & R1 & O1 & T1 & F1). destruct c1 as [t o sh]. cbn [wthreads wowner] in *.
    exists (WConfig (set_thread j k t) (set_owner lk (Some j) o) sh). split; [|apply owner_same].
    split; [eexists; eapply wrun_snoc; [exact R1|]; apply wstep_acq; congruence|].
    split; [apply set_thread_same|].
    intros i Hi Hw Hd. eapply wstill_trans; [now apply F1|]. now apply walone_take.
  Qed.

  Lemma wgets_act c j a k : wthreads c j = Act a k -> exists r c', wgets j c (k r) c'.
  Proof.
    intros Ht. destruct c as [t o s]. destruct (wmeans M a s) as [s' r] eqn:Hm. exists r.
    exists (WConfig (set_thread j (k r) t) o s'). split; [eexists; apply wrun_one; eapply wstep_act; eauto|].
    split; [apply set_thread_same|]. intros i Hi _ _. now apply walone_same.
  Qed.
  Lemma wgets_env c j k : wthreads c j = Env k -> forall x, exists c', wgets j c (k x) c'.
  Proof.
    intros Ht x. destruct c as [t o s].
    exists (WConfig (set_thread j (k x) t) o s). split; [eexists; apply wrun_one; eapply wstep_env; eauto|].
    split; [apply set_thread_same|]. intros i Hi _ _. now apply walone_same.
  Qed.
  Lemma wgets_rel c j l k : wordered c -> wthreads c j = Rel l k -> exists c', wgets j c k c'.
  Proof.
    intros H Ht. pose proof (H j) as Hi. rewrite Ht in Hi. destruct Hi as [Hi _]. rewrite whas_held in Hi. apply is_some in Hi.
    destruct c as [t o s]. cbn [wthreads wowner] in *.
    exists (WConfig (set_thread j k t) (set_owner l None o) s). split; [eexists; apply wrun_one; eapply wstep_rel; eauto|].
    split; [apply set_thread_same|]. intros i Hj _ _. now apply walone_give.
  Qed.
  Lemma wgets_try c j l y n : wthreads c j = TryAcq l y n -> exists c', wgets j c y c' \/ wgets j c n c'.
  Proof.
    intros Ht. destruct c as [t o s]. cbn [wthreads] in Ht. destruct (o l) as [i|] eqn:Ho.
    - exists (WConfig (set_thread j n t) o s). right. split; [eexists; apply wrun_one; eapply wstep_try_no; eauto|].
      split; [apply set_thread_same|]. intros i' Hi _ _. now apply walone_same.
    - exists (WConfig (set_thread j y t) (set_owner l (Some j) o) s). left. split; [eexists; apply wrun_one; eapply wstep_try_yes; eauto|].
      split; [apply set_thread_same|]. intros i' Hi _ _. now apply walone_take.
  Qed.
  Lemma wgets_ordered j c p c' : wordered c -> wgets j c p c' -> wordered c'.
  Proof. intros H ([tr R] & _). eapply wordered_run; eauto. Qed.
  Lemma wgets_refl j c p : wthreads c j = p -> wgets j c p c.
  Proof. intros H. split; [exists []; constructor|]. split; [exact H|]. intros; apply wstill_refl. Qed.

  (** Getting somewhere by a chain of such wmoves. *)
  Definition wreaches (j : nat) (c : wconfig Wd Dd) (G : prog -> Prop) : Prop := exists p c', wgets j c p c' /\ G p.
  Lemma wreaches_trans j c p c1 (G : prog -> Prop) : wgets j c p c1 -> wreaches j c1 G -> wreaches j c G.
  Proof. intros A (q & c2 & B & HG). exists q, c2. split; [eapply wgets_trans; eauto|exact HG]. Qed.

  Lemma wleads_reaches G p : leads G p -> forall j (c : wconfig Wd Dd), wordered c -> wthreads c j = p -> wreaches j c G.
  Proof.
    induction 1 as [p HG|l k Hl _ IH|l y n _ IHy _ IHn|l k _ IH|a k _ IH|k x _ IH]; intros j c H Ht.
    - exists p, c. split; [now apply wgets_refl|exact HG].
    - destruct (wgets_acq c j l k H Ht Hl) as (c1 & A & _). eapply wreaches_trans; [exact A|].
      apply IH; [eapply wgets_ordered; eauto|apply A].
    - destruct (wgets_try c j l y n Ht) as (c1 & [A|A]); (eapply wreaches_trans; [exact A|]);
        [apply IHy|apply IHn]; solve [eapply wgets_ordered; eauto|apply A].
    - destruct (wgets_rel c j l k H Ht) as (c1 & A). eapply wreaches_trans; [exact A|].
      apply IH; [eapply wgets_ordered; eauto|apply A].
    - destruct (wgets_act c j a k Ht) as (r & c1 & A). eapply wreaches_trans; [exact A|].
      apply (IH r); [eapply wgets_ordered; eauto|apply A].
    - destruct (wgets_env c j k Ht x) as (c1 & A). eapply wreaches_trans; [exact A|].
      apply IH; [eapply wgets_ordered; eauto|apply A].
  Qed.

  Lemma woutput_leads x k (G : prog -> Prop) : output_call x = true -> (forall a, G (k a)) -> leads G (wmethod x k).
  Proof.
    intros Hx HG.
    assert (H0 : forall a, leads G (k a)) by (intros; now constructor).
    destruct x; try discriminate Hx; cbn [wmethod];
      try match goal with |- context [match ?o with OMoveUp _ => _ | _ => _ end] => destruct o end;
      try match goal with |- context [match ?n with 0 => _ | S _ => _ end] => destruct n end;
      unfold wwith_writer, drop_writer, wdrop_screen_writer;
      repeat first
        [ exact (H0 _)
        | apply leads_acq; [intros Q; discriminate Q|]
        | apply leads_rel
        | apply leads_try
        | apply leads_act; intros
        | apply leads_env with (x := COther 0) ]; auto.
  Qed.

  Lemma woutput_goes_on l s tr c j x k : Forall (wfollows true None None) l -> wrun M (wstart l s) tr c ->
    wthreads c j = wcompile (Call x k) -> output_call x = true ->
    exists tr' c' a, wrun M c tr' c' /\ wthreads c' j = wcompile (k a) /\
      forall i, i <> j -> wawaiting c i -> wthreads c' i = wthreads c i /\ wawaiting c' i.
  Proof.
    intros Hl R Ht Hx. assert (H : wordered c) by (eapply wordered_run; [|exact R]; now apply wordered_start).
    destruct (wleads_reaches (fun p => exists a, p = wcompile (k a)) _
      (woutput_leads x (fun r => wcompile (k r)) (fun p => exists a, p = wcompile (k a)) Hx (fun a => ex_intro _ a eq_refl)) j c H Ht)
      as (p & c' & ([tr' R'] & T & S) & (a & ->)).
    exists tr', c', a. split; [exact R'|]. split; [exact T|]. intros i Hi ((k' & Hk) & Hw & Hd).
    destruct (S i Hi Hw Hd) as [S1 S2]. split; [exact S1|]. split; [exists k'; congruence|].
    split; intros X; apply S2 in X; auto.
  Qed.

  Lemma wwaits_for_holders l s tr c j lk k : Forall (wfollows true None None) l -> wrun M (wstart l s) tr c ->
    wthreads c j = Acq lk k -> lk <> LReader ->
    exists tr' c', wrun M c tr' c' /\ wthreads c' j = k /\ wowner c' lk = Some j /\
      forall i, i <> j -> wowner c LWriter <> Some i -> wowner c LData <> Some i -> wthreads c' i = wthreads c i.
  Proof.
    intros Hl R Ht Hr. assert (H : wordered c) by (eapply wordered_run; [|exact R]; now apply wordered_start).
    destruct (wgets_acq c j lk k H Ht Hr) as (c' & ([tr' R'] & T & S) & O).
    exists tr', c'. split; [exact R'|]. split; [exact T|]. split; [exact O|]. intros i Hi Hw Hd. now apply S.
  Qed.

End WinFair.
