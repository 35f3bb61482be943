(** Proofs about who waits for whom (C93). *)
From Verif Require Import Base M_Geom M_Buf M_Writer M_Locks S_Locks S_Fair P_Locks.

Lemma run_one E C c e c' : step E C c e c' -> run E C c [e] c'.
Proof. intros H. change [e] with ([] ++ [e]). eapply run_snoc; [constructor|exact H]. Qed.

Lemma owner_same l x o : set_owner l x o l = x.
Proof. unfold set_owner. destruct l; reflexivity. Qed.
Lemma owner_other l l' x o : l' <> l -> set_owner l x o l' = o l'.
Proof. unfold set_owner. destruct l, l'; cbn; congruence. Qed.
Lemma lock_dec (a b : lock) : {a = b} + {a <> b}. Proof. decide equality. Qed.

(** Thread [j] has not moved. *)
Definition still (j : nat) (c c' : config) : Prop :=
  threads c' j = threads c j /\ forall l, owner c' l = Some j <-> owner c l = Some j.
Lemma still_refl j c : still j c c. Proof. split; [auto|tauto]. Qed.
Lemma still_trans j a b c : still j a b -> still j b c -> still j a c.
Proof. intros [A1 A2] [B1 B2]. split; [congruence|]. intros l. rewrite B2. apply A2. Qed.

(** Only thread [i] has moved. *)
Definition alone (i : nat) (c c' : config) : Prop := forall j, j <> i -> still j c c'.
Lemma alone_trans i a b c : alone i a b -> alone i b c -> alone i a c.
Proof. intros A B j Hj. eapply still_trans; [now apply A|now apply B]. Qed.
Lemma alone_same i p t o s s' : alone i (Config t o s) (Config (set_thread i p t) o s').
Proof. intros j Hj. split; cbn; [|tauto]. now rewrite set_thread_other. Qed.
Lemma alone_take i p l t o s s' : o l = None -> alone i (Config t o s) (Config (set_thread i p t) (set_owner l (Some i) o) s').
Proof.
  intros H j Hj. split; cbn; [now rewrite set_thread_other|].
  intros l'. destruct (lock_dec l' l) as [->|Hl]; [rewrite owner_same, H; split; congruence|].
  rewrite owner_other by exact Hl. tauto.
Qed.
Lemma alone_give i p l t o s s' : o l = Some i -> alone i (Config t o s) (Config (set_thread i p t) (set_owner l None o) s').
Proof.
  intros H j Hj. split; cbn; [now rewrite set_thread_other|].
  intros l'. destruct (lock_dec l' l) as [->|Hl]; [rewrite owner_same, H; split; congruence|].
  rewrite owner_other by exact Hl. tauto.
Qed.

Section Fair.
  Variables (E : env) (C : tcfg).

  Lemma is_some i o : is i o = true -> o = Some i.
  Proof. destruct o as [j|]; cbn; [|discriminate]. intros H. apply Nat.eqb_eq in H. now subst. Qed.
  Lemma some_is i : is i (Some i) = true. Proof. cbn. apply Nat.eqb_refl. Qed.

  (** A thread does something without waiting for others, if it is not about to wait. *)
  Lemma moves c i : ordered c -> threads c i <> Done -> (forall l k, threads c i = Acq l k -> owner c l = None) ->
    exists e c', step E C c e c' /\ alone i c c' /\ smaller (threads c' i) (threads c i) /\
      forall l, owner c l = Some i -> owner c' l = Some i \/ exists k, threads c i = Rel l k /\ owner c' l = None.
  Proof.
    intros H Hd Hf. destruct c as [t o s]. pose proof (H i) as Hi. cbn [threads owner] in *.
    destruct (t i) as [|l k|l y n|l k|a k|k] eqn:Ht; [contradiction| | | | |]; cbn [safe] in Hi.
    - specialize (Hf l k eq_refl). do 2 eexists. split; [eapply step_acq; eauto|]. split; [now apply alone_take|].
      cbn [threads owner]. rewrite set_thread_same. split; [constructor|]. intros l' Hl. left.
      destruct (lock_dec l' l) as [->|N]; [apply owner_same|now rewrite owner_other].
    - destruct (o l) as [j|] eqn:Ho.
      + do 2 eexists. split; [eapply step_try_no; eauto|]. split; [apply alone_same|].
        cbn [threads owner]. rewrite set_thread_same. split; [constructor|auto].
      + do 2 eexists. split; [eapply step_try_yes; eauto|]. split; [now apply alone_take|].
        cbn [threads owner]. rewrite set_thread_same. split; [constructor|]. intros l' Hl. left.
        destruct (lock_dec l' l) as [->|N]; [apply owner_same|now rewrite owner_other].
    - destruct Hi as [Hi _]. rewrite has_held in Hi. cbn in Hi. apply is_some in Hi.
      do 2 eexists. split; [eapply step_rel; eauto|]. split; [now apply alone_give|].
      cbn [threads owner]. rewrite set_thread_same. split; [constructor|]. intros l' Hl.
      destruct (lock_dec l' l) as [->|N]; [right; exists k; split; [reflexivity|apply owner_same]|left; now rewrite owner_other].
    - destruct (meaning E C a s) as [s' r] eqn:Hm. do 2 eexists. split; [eapply step_act; eauto|]. split; [apply alone_same|].
      cbn [threads owner]. rewrite set_thread_same. split; [constructor|auto].
    - do 2 eexists. split; [apply step_env with (c := COther 0); exact Ht|]. split; [apply alone_same|].
      cbn [threads owner]. rewrite set_thread_same. split; [constructor|auto].
  Qed.

  Lemma owner_not_done c i l : ordered c -> owner c l = Some i -> threads c i <> Done.
  Proof.
    intros H Ho Hd. pose proof (H i) as Hi. rewrite Hd in Hi. cbn in Hi.
    assert (X : has (held_by c i) l = true) by (rewrite has_held, Ho; apply some_is).
    rewrite Hi in X. destruct l; discriminate X.
  Qed.
  Lemma owner_rank c i l l' k : ordered c -> owner c l = Some i -> threads c i = Acq l' k -> rank l < rank l'.
  Proof.
    intros H Ho Ht. pose proof (H i) as Hi. rewrite Ht in Hi. destruct Hi as [Hi _]. apply Hi.
    rewrite has_held, Ho. apply some_is.
  Qed.

  (** The holder of the data can give it back by itself. *)
  Lemma data_freed p : Acc smaller p -> forall c i, ordered c -> threads c i = p -> owner c LData = Some i ->
    exists tr c', run E C c tr c' /\ alone i c c' /\ owner c' LData = None.
  Proof.
    induction 1 as [p _ IH]. intros c i H Hp Ho. subst p.
    destruct (moves c i H (owner_not_done c i _ H Ho)) as (e & c1 & St & A & S1 & K).
    { intros l k Ht. exfalso. pose proof (owner_rank c i LData l k H Ho Ht) as R. destruct l; cbn in R; lia. }
    destruct (K LData Ho) as [Ho1|(k & _ & Ho1)].
    - destruct (IH _ S1 c1 i (ordered_step E C _ _ _ H St) eq_refl Ho1) as (tr & c2 & R & A2 & D).
      exists ([e] ++ tr), c2. split; [eapply run_trans; [apply run_one; exact St|exact R]|].
      split; [eapply alone_trans; eauto|exact D].
    - exists [e], c1. split; [now apply run_one|]. split; [exact A|exact Ho1].
  Qed.

  (** The holder of the output can give it back, at most after the holder of the data. *)
  Lemma writer_freed p : Acc smaller p -> forall c i, ordered c -> threads c i = p -> owner c LWriter = Some i ->
    exists tr c', run E C c tr c' /\ owner c' LWriter = None /\
      (forall j, j <> i -> owner c LData <> Some j -> still j c c').
  Proof.
    induction 1 as [p _ IH]. intros c i H Hp Ho. subst p.
    assert (G : forall c0, ordered c0 -> threads c0 i = threads c i -> owner c0 LWriter = Some i ->
      (forall l k, threads c0 i = Acq l k -> owner c0 l = None) ->
      exists tr c', run E C c0 tr c' /\ owner c' LWriter = None /\
      (forall j, j <> i -> owner c0 LData <> Some j -> still j c0 c')).
    { intros c0 H0 Ht0 Ho0 Hf. destruct (moves c0 i H0 (owner_not_done c0 i _ H0 Ho0) Hf) as (e & c1 & St & A & S1 & K).
      destruct (K LWriter Ho0) as [Ho1|(k & _ & Ho1)].
      - rewrite Ht0 in S1. destruct (IH _ S1 c1 i (ordered_step E C _ _ _ H0 St) eq_refl Ho1) as (tr & c2 & R & W & T).
        exists ([e] ++ tr), c2. split; [eapply run_trans; [apply run_one; exact St|exact R]|]. split; [exact W|].
        intros j Hj Hn. eapply still_trans; [now apply A|]. apply T; [exact Hj|]. intros X. apply Hn. now apply (proj2 (A j Hj) LData).
      - exists [e], c1. split; [now apply run_one|]. split; [exact Ho1|]. intros j Hj _. now apply A. }
    assert (X : (forall l k, threads c i = Acq l k -> owner c l = None) \/ exists j k, threads c i = Acq LData k /\ owner c LData = Some j).
    { destruct (threads c i) as [|l k|l y n|l k|a k|k] eqn:Ht; try (left; intros; discriminate).
      pose proof (owner_rank c i LWriter l k H Ho Ht) as R. destruct l; cbn in R; try lia.
      destruct (owner c LData) as [j|] eqn:Hd; [right; eauto|left]. intros l k0 [= <- _]. exact Hd. }
    destruct X as [X|(j & k & Ht & Hd)]; [now apply G|].
    assert (Hj : i <> j).
    { intros <-. pose proof (owner_rank c i LData LData k H Hd Ht) as R. cbn in R. lia. }
    destruct (data_freed _ (smaller_acc _) c j H eq_refl Hd) as (tr & c1 & R & A & D).
    assert (H1 := ordered_run E C _ _ _ H R).
    assert (Ht1 : threads c1 i = threads c i) by (now apply A).
    destruct (G c1 H1 Ht1) as (tr2 & c2 & R2 & W & T).
    { now apply (proj2 (A i Hj) LWriter). }
    { intros l k0 Hl. rewrite Ht1, Ht in Hl. injection Hl as <- _. exact D. }
    exists (tr ++ tr2), c2. split; [eapply run_trans; eauto|]. split; [exact W|].
    intros j' Hj' Hn. eapply still_trans; [apply A; congruence|]. apply T; [exact Hj'|rewrite D; discriminate].
  Qed.

  (** From [c], thread [j] gets to [p], and nobody moves who neither holds the output
      nor is [j]. *)
  Definition gets (j : nat) (c : config) (p : prog) (c' : config) : Prop :=
    (exists tr, run E C c tr c') /\ threads c' j = p /\
    forall i, i <> j -> owner c LWriter <> Some i -> owner c LData <> Some i -> still i c c'.
  Lemma gets_trans j c p c1 q c2 : gets j c p c1 -> gets j c1 q c2 -> gets j c q c2.
  Proof.
    intros ([tr R] & _ & S) ([tr2 R2] & T & S2). split; [eexists; eapply run_trans; eauto|]. split; [exact T|].
    intros i Hi Hw Hd. pose proof (S i Hi Hw Hd) as Q. eapply still_trans; [exact Q|].
    apply S2; [exact Hi| |]; intros X; apply (proj2 Q) in X; auto.
  Qed.

  Lemma gets_acq c j lk k : ordered c -> threads c j = Acq lk k -> lk <> LReader ->
    exists c', gets j c k c' /\ owner c' lk = Some j.
  Proof.
    intros H Ht Hr.
    assert (X : exists tr' c', run E C c tr' c' /\ owner c' lk = None /\ threads c' j = threads c j /\
      forall i, i <> j -> owner c LWriter <> Some i -> owner c LData <> Some i -> still i c c').
    { destruct (owner c lk) as [i|] eqn:Ho; [|exists [], c; split; [constructor|auto using still_refl]].
      assert (Hi : j <> i).
      { intros <-. pose proof (owner_rank c j lk lk k H Ho Ht). lia. }
      destruct lk; [congruence| |].
      - destruct (writer_freed _ (smaller_acc _) c i H eq_refl Ho) as (tr' & c' & R' & W & T).
        exists tr', c'. split; [exact R'|]. split; [exact W|]. split.
        + apply T; [exact Hi|]. intros X. pose proof (owner_rank c j LData LWriter k H X Ht) as Q. cbn in Q. lia.
        + intros i' _ Hw Hd. apply T; [|exact Hd]. intros ->. now apply Hw.
      - destruct (data_freed _ (smaller_acc _) c i H eq_refl Ho) as (tr' & c' & R' & A & D).
        exists tr', c'. split; [exact R'|]. split; [exact D|]. split; [now apply A|].
        intros i' _ _ Hd. apply A. intros ->. now apply Hd. }
    destruct X as (tr1 & c1 & R1 & O1 & T1 & F1). destruct c1 as [t o sh]. cbn [threads owner] in *.
    exists (Config (set_thread j k t) (set_owner lk (Some j) o) sh). split; [|apply owner_same].
    split; [eexists; eapply run_snoc; [exact R1|]; apply step_acq; congruence|].
    split; [apply set_thread_same|].
    intros i Hi Hw Hd. eapply still_trans; [now apply F1|]. now apply alone_take.
  Qed.

  Lemma gets_act c j a k : threads c j = Act a k -> exists r c', gets j c (k r) c'.
  Proof.
    intros Ht. destruct c as [t o s]. destruct (meaning E C a s) as [s' r] eqn:Hm. exists r.
    exists (Config (set_thread j (k r) t) o s'). split; [eexists; apply run_one; eapply step_act; eauto|].
    split; [apply set_thread_same|]. intros i Hi _ _. now apply alone_same.
  Qed.
  Lemma gets_env c j k : threads c j = Env k -> forall x, exists c', gets j c (k x) c'.
  Proof.
    intros Ht x. destruct c as [t o s].
    exists (Config (set_thread j (k x) t) o s). split; [eexists; apply run_one; eapply step_env; eauto|].
    split; [apply set_thread_same|]. intros i Hi _ _. now apply alone_same.
  Qed.
  Lemma gets_rel c j l k : ordered c -> threads c j = Rel l k -> exists c', gets j c k c'.
  Proof.
    intros H Ht. pose proof (H j) as Hi. rewrite Ht in Hi. destruct Hi as [Hi _]. rewrite has_held in Hi. apply is_some in Hi.
    destruct c as [t o s]. cbn [threads owner] in *.
    exists (Config (set_thread j k t) (set_owner l None o) s). split; [eexists; apply run_one; eapply step_rel; eauto|].
    split; [apply set_thread_same|]. intros i Hj _ _. now apply alone_give.
  Qed.
  Lemma gets_try c j l y n : threads c j = TryAcq l y n -> exists c', gets j c y c' \/ gets j c n c'.
  Proof.
    intros Ht. destruct c as [t o s]. cbn [threads] in Ht. destruct (o l) as [i|] eqn:Ho.
    - exists (Config (set_thread j n t) o s). right. split; [eexists; apply run_one; eapply step_try_no; eauto|].
      split; [apply set_thread_same|]. intros i' Hi _ _. now apply alone_same.
    - exists (Config (set_thread j y t) (set_owner l (Some j) o) s). left. split; [eexists; apply run_one; eapply step_try_yes; eauto|].
      split; [apply set_thread_same|]. intros i' Hi _ _. now apply alone_take.
  Qed.
  Lemma gets_ordered j c p c' : ordered c -> gets j c p c' -> ordered c'.
  Proof. intros H ([tr R] & _). eapply ordered_run; eauto. Qed.
  Lemma gets_refl j c p : threads c j = p -> gets j c p c.
  Proof. intros H. split; [exists []; constructor|]. split; [exact H|]. intros; apply still_refl. Qed.

  (** Getting somewhere by a chain of such moves. *)
  Definition reaches (j : nat) (c : config) (G : prog -> Prop) : Prop := exists p c', gets j c p c' /\ G p.
  Lemma reaches_trans j c p c1 (G : prog -> Prop) : gets j c p c1 -> reaches j c1 G -> reaches j c G.
  Proof. intros A (q & c2 & B & HG). exists q, c2. split; [eapply gets_trans; eauto|exact HG]. Qed.

  (** What a program needs in order to reach [G] without the input lock. *)
  Inductive leads (G : prog -> Prop) : prog -> Prop :=
  | leads_here p : G p -> leads G p
  | leads_acq l k : l <> LReader -> leads G k -> leads G (Acq l k)
  | leads_try l y n : leads G y -> leads G n -> leads G (TryAcq l y n)
  | leads_rel l k : leads G k -> leads G (Rel l k)
  | leads_act a k : (forall r, leads G (k r)) -> leads G (Act a k)
  | leads_env k x : leads G (k x) -> leads G (Env k).
  Lemma leads_reaches G p : leads G p -> forall j c, ordered c -> threads c j = p -> reaches j c G.
  Proof.
    induction 1 as [p HG|l k Hl _ IH|l y n _ IHy _ IHn|l k _ IH|a k _ IH|k x _ IH]; intros j c H Ht.
    - exists p, c. split; [now apply gets_refl|exact HG].
    - destruct (gets_acq c j l k H Ht Hl) as (c1 & A & _). eapply reaches_trans; [exact A|].
      apply IH; [eapply gets_ordered; eauto|apply A].
    - destruct (gets_try c j l y n Ht) as (c1 & [A|A]); (eapply reaches_trans; [exact A|]);
        [apply IHy|apply IHn]; solve [eapply gets_ordered; eauto|apply A].
    - destruct (gets_rel c j l k H Ht) as (c1 & A). eapply reaches_trans; [exact A|].
      apply IH; [eapply gets_ordered; eauto|apply A].
    - destruct (gets_act c j a k Ht) as (r & c1 & A). eapply reaches_trans; [exact A|].
      apply (IH r); [eapply gets_ordered; eauto|apply A].
    - destruct (gets_env c j k Ht x) as (c1 & A). eapply reaches_trans; [exact A|].
      apply IH; [eapply gets_ordered; eauto|apply A].
  Qed.

  Lemma output_leads x k (G : prog -> Prop) : output_call x = true -> (forall a, G (k a)) -> leads G (method x k).
  Proof.
    intros Hx HG.
    assert (H0 : forall a, leads G (k a)) by (intros; now constructor).
    destruct x; try discriminate Hx; cbn [method];
      try match goal with |- context [match ?o with OMoveUp _ => _ | _ => _ end] => destruct o end;
      try match goal with |- context [match ?n with 0 => _ | S _ => _ end] => destruct n end;
      unfold with_writer, drop_writer, drop_screen_writer;
      repeat first
        [ exact (H0 _)
        | apply leads_acq; [intros Q; discriminate Q|]
        | apply leads_rel
        | apply leads_try
        | apply leads_act; intros
        | apply leads_env with (x := COther 0) ]; auto.
  Qed.

  Lemma output_goes_on l s tr c j x k : Forall (follows true None None) l -> run E C (start l s) tr c ->
    threads c j = compile (Call x k) -> output_call x = true ->
    exists tr' c' a, run E C c tr' c' /\ threads c' j = compile (k a) /\
      forall i, i <> j -> awaiting c i -> threads c' i = threads c i /\ awaiting c' i.
  Proof.
    intros Hl R Ht Hx. assert (H : ordered c) by (eapply ordered_run; [|exact R]; now apply ordered_start).
    destruct (leads_reaches (fun p => exists a, p = compile (k a)) _
      (output_leads x (fun r => compile (k r)) (fun p => exists a, p = compile (k a)) Hx (fun a => ex_intro _ a eq_refl)) j c H Ht)
      as (p & c' & ([tr' R'] & T & S) & (a & ->)).
    exists tr', c', a. split; [exact R'|]. split; [exact T|]. intros i Hi ((k' & Hk) & Hw & Hd).
    destruct (S i Hi Hw Hd) as [S1 S2]. split; [exact S1|]. split; [exists k'; congruence|].
    split; intros X; apply S2 in X; auto.
  Qed.

  Lemma waits_for_holders l s tr c j lk k : Forall (follows true None None) l -> run E C (start l s) tr c ->
    threads c j = Acq lk k -> lk <> LReader ->
    exists tr' c', run E C c tr' c' /\ threads c' j = k /\ owner c' lk = Some j /\
      forall i, i <> j -> owner c LWriter <> Some i -> owner c LData <> Some i -> threads c' i = threads c i.
  Proof.
    intros Hl R Ht Hr. assert (H : ordered c) by (eapply ordered_run; [|exact R]; now apply ordered_start).
    destruct (gets_acq c j lk k H Ht Hr) as (c' & ([tr' R'] & T & S) & O).
    exists tr', c'. split; [exact R'|]. split; [exact T|]. split; [exact O|]. intros i Hi Hw Hd. now apply S.
  Qed.

  Lemma reading_is_awaiting l s tr c i k : Forall (follows true None None) l -> run E C (start l s) tr c ->
    threads c i = read_block k \/ threads c i = screen_read_block k -> awaiting c i.
  Proof.
    intros Hl R Ht. assert (H : ordered c) by (eapply ordered_run; [|exact R]; now apply ordered_start).
    pose proof (H i) as Hi.
    assert (X : forall l', has (held_by c i) l' = true -> rank l' < rank LWriter).
    { destruct Ht as [Ht|Ht]; rewrite Ht in Hi; exact (proj1 (Hi (CResize (inl (EOs 0))))). }
    split; [destruct Ht; eexists; eauto|].
    split; intros Ho; [specialize (X LWriter)|specialize (X LData)]; rewrite has_held, Ho, some_is in X;
      specialize (X eq_refl); cbn in X; lia.
  Qed.
End Fair.
