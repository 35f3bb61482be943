(** Proofs about read guards that are never dropped (C133), along the lines of P_Locks.v and
    P_Fair.v. *)
From Verif Require Import Base M_Geom M_Buf M_Writer M_Locks S_Locks S_Fair P_Locks P_Fair M_WinLocks S_WinLocks M_Leak S_Leak.

(** As [safe], but the input lock may be held in the end. *)
Fixpoint ksafe (h : held) (p : prog) : Prop :=
  match p with
  | Done => h_w h = false /\ h_d h = false
  | Acq l k => (forall l', has h l' = true -> rank l' < rank l) /\ ksafe (put h l true) k
  | TryAcq l y n => has h l = false /\ ksafe (put h l true) y /\ ksafe h n
  | Rel l k => has h l = true /\ ksafe (put h l false) k
  | Act a k => forall r, ksafe h (k r)
  | Env k => forall c, ksafe h (k c)
  end.

Lemma kcompile_safe p : forall r w, may_keep_read r w p -> ksafe (holding r w) (compile p).
Proof.
  induction p as [|c k IH]; intros r w H.
  { cbn in H. subst w. split; reflexivity. }
  destruct H as [Ha Hk].
  assert (G : forall a, ksafe (holding (read_guard_after c a r) (write_guard_after c a w)) (compile (k a)))
    by (intros a; apply IH, Hk). clear IH Hk.
  destruct c; cbn [allowed] in Ha; cbn [compile method read_guard_after write_guard_after] in *;
    repeat match goal with
           | H : _ /\ _ |- _ => destruct H
           | H : true = true -> _ |- _ => specialize (H eq_refl)
           end; subst;
    unfold with_reader, screen_read_block, read_block, wait_block; unfold with_writer, drop_screen_writer, drop_writer;
    try (match goal with o : wop |- _ => destruct o as [| | | | | | | | | |[|]|[|]|[|]|[|]| | | | | | |] end);
    try (apply (G AOk));
    repeat (cbn [ksafe has put holding some screen_guard h_r h_w h_d];
            repeat match goal with
                   | |- _ /\ _ => split
                   | |- forall l', has _ l' = true -> _ =>
                       let l := fresh in intros l ?; destruct l; cbn in *; try discriminate;
                       try (destruct r); cbn in *; try discriminate; lia
                   | |- forall _ : ans, _ => intros ?a
                   | |- forall _ : choice, _ => intros [[|]|? ? ?|]
                   | |- ksafe _ (match ?a with AOk => _ | _ => _ end) => destruct a
                   | |- true = true => reflexivity
                   | |- false = false => reflexivity
                   | |- some _ = _ => reflexivity
                   end);
    try exact (G AOk); try exact (G AWouldBlock); try exact (G AGone);
    try match goal with
        | a : ans |- _ => exact (G a)
        end;
    try apply (G (AErr _)); try apply (G (AResized _)); try apply (G (AOther _)).
Qed.

Definition kordered (c : config) : Prop := forall i, ksafe (held_by c i) (threads c i).

Lemma kordered_step E C c e c' : kordered c -> step E C c e c' -> kordered c'.
Proof.
  intros H St j.
  destruct St as [i l k t o s Ht Ho|i l k k' t o s Ht Ho|i l k k' j' t o s Ht Ho
                 |i l k t o s Ht Ho|i a k t o s s' r Ht Ho|i k x t o s Ht];
    pose proof (H i) as Hi; cbn [threads] in Hi |- *; rewrite Ht in Hi; cbn [ksafe] in Hi;
    (destruct (Nat.eq_dec j i) as [->|Hj];
     [rewrite set_thread_same|rewrite set_thread_other by exact Hj]).
  - rewrite (held_put_same _ t o _ s i l true). apply Hi.
  - rewrite (held_put_other _ t o _ s i j l) by auto. apply H.
  - rewrite (held_put_same _ t o _ s i l true). apply Hi.
  - rewrite (held_put_other _ t o _ s i j l) by auto. apply H.
  - apply Hi.
  - apply (H j).
  - rewrite (held_put_same _ t o _ s i l false). apply Hi.
  - rewrite (held_put_other _ t o _ s i j l) by auto. apply H.
  - apply Hi.
  - apply (H j).
  - apply Hi.
  - apply (H j).
Qed.

Lemma kordered_start l s : Forall (may_keep_read None None) l -> kordered (start l s).
Proof.
  intros H i. unfold start, held_by. cbn.
  apply (kcompile_safe _ None None).
  destruct (nth_in_or_default i l Finish) as [Hi|Hi]; [|rewrite Hi; cbn; auto].
  rewrite Forall_forall in H. now apply H.
Qed.

Lemma kordered_run E C c tr c' : kordered c -> run E C c tr c' -> kordered c'.
Proof. intros H R. induction R as [|tr c1 e c2 R IH St]; [exact H|]. eapply kordered_step; eauto. Qed.


Section Fair.
  Variables (E : env) (C : tcfg).

  (** A thread does something without waiting for others, if it is not about to wait. *)
  Lemma kmoves c i : kordered c -> threads c i <> Done -> (forall l k, threads c i = Acq l k -> owner c l = None) ->
    exists e c', step E C c e c' /\ alone i c c' /\ smaller (threads c' i) (threads c i) /\
      forall l, owner c l = Some i -> owner c' l = Some i \/ exists k, threads c i = Rel l k /\ owner c' l = None.
  Proof.
    intros H Hd Hf. destruct c as [t o s]. pose proof (H i) as Hi. cbn [threads owner] in *.
    destruct (t i) as [|l k|l y n|l k|a k|k] eqn:Ht; [contradiction| | | | |]; cbn [ksafe] in Hi.
    - specialize (Hf l k eq_refl). do 2 eexists. split; [eapply step_acq; eauto|]. split; [now apply alone_take|].
      cbn [threads owner]. rewrite set_thread_same. split; [constructor|]. intros l' Hl. left.
      destruct (lock_dec l' l) as [->|N]; [apply owner_same|now rewrite owner_other].
    - destruct (o l) as [j|] eqn:Ho.
      + do 2 eexists. split; [eapply step_try_no; eauto|]. split; [apply alone_same|].
        cbn [threads owner]. rewrite set_thread_same. split; [constructor|auto].
      + do 2 eexists. split; [eapply step_try_yes; eauto|]. split; [now apply alone_take|].
        cbn [threads owner]. rewrite set_thread_same. split; [constructor|]. intros l' Hl. left.
        destruct (lock_dec l' l) as [->|N]; [apply owner_same|now rewrite owner_other].
    - destruct Hi as [Hi _]. rewrite has_held in Hi. cbn in Hi. apply is_some in Hi.
      do 2 eexists. split; [eapply step_rel; eauto|]. split; [now apply alone_give|].
      cbn [threads owner]. rewrite set_thread_same. split; [constructor|]. intros l' Hl.
      destruct (lock_dec l' l) as [->|N]; [right; exists k; split; [reflexivity|apply owner_same]|left; now rewrite owner_other].
    - destruct (meaning E C a s) as [s' r] eqn:Hm. do 2 eexists. split; [eapply step_act; eauto|]. split; [apply alone_same|].
      cbn [threads owner]. rewrite set_thread_same. split; [constructor|auto].
    - do 2 eexists. split; [apply step_env with (c := COther 0); exact Ht|]. split; [apply alone_same|].
      cbn [threads owner]. rewrite set_thread_same. split; [constructor|auto].
  Qed.

  Lemma kowner_not_done c i l : kordered c -> l <> LReader -> owner c l = Some i -> threads c i <> Done.
  Proof.
    intros H N Ho Hd. pose proof (H i) as Hi. rewrite Hd in Hi. destruct Hi as [Hw Hdd]. cbn in Hw, Hdd.
    destruct l; [congruence|rewrite Ho in Hw; cbn in Hw|rewrite Ho in Hdd; cbn in Hdd]; rewrite Nat.eqb_refl in *; discriminate.
  Qed.
  Lemma kowner_rank c i l l' k : kordered c -> owner c l = Some i -> threads c i = Acq l' k -> rank l < rank l'.
  Proof.
    intros H Ho Ht. pose proof (H i) as Hi. rewrite Ht in Hi. destruct Hi as [Hi _]. apply Hi.
    rewrite has_held, Ho. apply some_is.
  Qed.

  (** The holder of the data can give it back by itself. *)
  Lemma kdata_freed p : Acc smaller p -> forall c i, kordered c -> threads c i = p -> owner c LData = Some i ->
    exists tr c', run E C c tr c' /\ alone i c c' /\ owner c' LData = None.
  Proof.
    induction 1 as [p _ IH]. intros c i H Hp Ho. subst p.
    destruct (kmoves c i H (kowner_not_done c i LData H ltac:(discriminate) Ho)) as (e & c1 & St & A & S1 & K).
    { intros l k Ht. exfalso. pose proof (kowner_rank c i LData l k H Ho Ht) as R. destruct l; cbn in R; lia. }
    destruct (K LData Ho) as [Ho1|(k & _ & Ho1)].
    - destruct (IH _ S1 c1 i (kordered_step E C _ _ _ H St) eq_refl Ho1) as (tr & c2 & R & A2 & D).
      exists ([e] ++ tr), c2. split; [eapply run_trans; [apply run_one; exact St|exact R]|].
      split; [eapply alone_trans; eauto|exact D].
    - exists [e], c1. split; [now apply run_one|]. split; [exact A|exact Ho1].
  Qed.

  (** The holder of the output can give it back, at most after the holder of the data. *)
  Lemma kwriter_freed p : Acc smaller p -> forall c i, kordered c -> threads c i = p -> owner c LWriter = Some i ->
    exists tr c', run E C c tr c' /\ owner c' LWriter = None /\
      (forall j, j <> i -> owner c LData <> Some j -> still j c c').
  Proof.
    induction 1 as [p _ IH]. intros c i H Hp Ho. subst p.
    assert (G : forall c0, kordered c0 -> threads c0 i = threads c i -> owner c0 LWriter = Some i ->
      (forall l k, threads c0 i = Acq l k -> owner c0 l = None) ->
      exists tr c', run E C c0 tr c' /\ owner c' LWriter = None /\
      (forall j, j <> i -> owner c0 LData <> Some j -> still j c0 c')).
    { intros c0 H0 Ht0 Ho0 Hf. destruct (kmoves c0 i H0 (kowner_not_done c0 i LWriter H0 ltac:(discriminate) Ho0) Hf) as (e & c1 & St & A & S1 & K).
      destruct (K LWriter Ho0) as [Ho1|(k & _ & Ho1)].
      - rewrite Ht0 in S1. destruct (IH _ S1 c1 i (kordered_step E C _ _ _ H0 St) eq_refl Ho1) as (tr & c2 & R & W & T).
        exists ([e] ++ tr), c2. split; [eapply run_trans; [apply run_one; exact St|exact R]|]. split; [exact W|].
        intros j Hj Hn. eapply still_trans; [now apply A|]. apply T; [exact Hj|]. intros X. apply Hn. now apply (proj2 (A j Hj) LData).
      - exists [e], c1. split; [now apply run_one|]. split; [exact Ho1|]. intros j Hj _. now apply A. }
    assert (X : (forall l k, threads c i = Acq l k -> owner c l = None) \/ exists j k, threads c i = Acq LData k /\ owner c LData = Some j).
    { destruct (threads c i) as [|l k|l y n|l k|a k|k] eqn:Ht; try (left; intros; discriminate).
      pose proof (kowner_rank c i LWriter l k H Ho Ht) as R. destruct l; cbn in R; try lia.
      destruct (owner c LData) as [j|] eqn:Hd; [right; eauto|left]. intros l k0 [= <- _]. exact Hd. }
    destruct X as [X|(j & k & Ht & Hd)]; [now apply G|].
    assert (Hj : i <> j).
    { intros <-. pose proof (kowner_rank c i LData LData k H Hd Ht) as R. cbn in R. lia. }
    destruct (kdata_freed _ (smaller_acc _) c j H eq_refl Hd) as (tr & c1 & R & A & D).
    assert (H1 := kordered_run E C _ _ _ H R).
    assert (Ht1 : threads c1 i = threads c i) by (now apply A).
    destruct (G c1 H1 Ht1) as (tr2 & c2 & R2 & W & T).
    { now apply (proj2 (A i Hj) LWriter). }
    { intros l k0 Hl. rewrite Ht1, Ht in Hl. injection Hl as <- _. exact D. }
    exists (tr ++ tr2), c2. split; [eapply run_trans; eauto|]. split; [exact W|].
    intros j' Hj' Hn. eapply still_trans; [apply A; congruence|]. apply T; [exact Hj'|rewrite D; discriminate].
  Qed.

  (** From [c], thread [j] kgets to [p], and nobody kmoves who neither holds the output
      nor is [j]. *)
  Definition kgets (j : nat) (c : config) (p : prog) (c' : config) : Prop :=
    (exists tr, run E C c tr c') /\ threads c' j = p /\
    forall i, i <> j -> owner c LWriter <> Some i -> owner c LData <> Some i -> still i c c'.
  Lemma kgets_trans j c p c1 q c2 : kgets j c p c1 -> kgets j c1 q c2 -> kgets j c q c2.
  Proof.
    intros ([tr R] & _ & S) ([tr2 R2] & T & S2). split; [eexists; eapply run_trans; eauto|]. split; [exact T|].
    intros i Hi Hw Hd. pose proof (S i Hi Hw Hd) as Q. eapply still_trans; [exact Q|].
    apply S2; [exact Hi| |]; intros X; apply (proj2 Q) in X; auto.
  Qed.

  Lemma kgets_acq c j lk k : kordered c -> threads c j = Acq lk k -> lk <> LReader ->
    exists c', kgets j c k c' /\ owner c' lk = Some j.
  Proof.
    intros H Ht Hr.
    assert (X : exists tr' c', run E C c tr' c' /\ owner c' lk = None /\ threads c' j = threads c j /\
      forall i, i <> j -> owner c LWriter <> Some i -> owner c LData <> Some i -> still i c c').
    { destruct (owner c lk) as [i|] eqn:Ho; [|exists [], c; split; [constructor|auto using still_refl]].
      assert (Hi : j <> i).
      { intros <-. pose proof (kowner_rank c j lk lk k H Ho Ht). lia. }
      destruct lk; [congruence| |].
      - destruct (kwriter_freed _ (smaller_acc _) c i H eq_refl Ho) as (tr' & c' & R' & W & T).
        exists tr', c'. split; [exact R'|]. split; [exact W|]. split.
        + apply T; [exact Hi|]. intros X. pose proof (kowner_rank c j LData LWriter k H X Ht) as Q. cbn in Q. lia.
        + intros i' _ Hw Hd. apply T; [|exact Hd]. intros ->. now apply Hw.
      - destruct (kdata_freed _ (smaller_acc _) c i H eq_refl Ho) as (tr' & c' & R' & A & D).
        exists tr', c'. split; [exact R'|]. split; [exact D|]. split; [now apply A|].
        intros i' _ _ Hd. apply A. intros ->. now apply Hd. }
    destruct X as (tr1 & c1 & R1 & O1 & T1 & F1). destruct c1 as [t o sh]. cbn [threads owner] in *.
    exists (Config (set_thread j k t) (set_owner lk (Some j) o) sh). split; [|apply owner_same].
    split; [eexists; eapply run_snoc; [exact R1|]; apply step_acq; congruence|].
    split; [apply set_thread_same|].
    intros i Hi Hw Hd. eapply still_trans; [now apply F1|]. now apply alone_take.
  Qed.

  Lemma kgets_act c j a k : threads c j = Act a k -> exists r c', kgets j c (k r) c'.
  Proof.
    intros Ht. destruct c as [t o s]. destruct (meaning E C a s) as [s' r] eqn:Hm. exists r.
    exists (Config (set_thread j (k r) t) o s'). split; [eexists; apply run_one; eapply step_act; eauto|].
    split; [apply set_thread_same|]. intros i Hi _ _. now apply alone_same.
  Qed.
  Lemma kgets_env c j k : threads c j = Env k -> forall x, exists c', kgets j c (k x) c'.
  Proof.
    intros Ht x. destruct c as [t o s].
    exists (Config (set_thread j (k x) t) o s). split; [eexists; apply run_one; eapply step_env; eauto|].
    split; [apply set_thread_same|]. intros i Hi _ _. now apply alone_same.
  Qed.
  Lemma kgets_rel c j l k : kordered c -> threads c j = Rel l k -> exists c', kgets j c k c'.
  Proof.
    intros H Ht. pose proof (H j) as Hi. rewrite Ht in Hi. destruct Hi as [Hi _]. rewrite has_held in Hi. apply is_some in Hi.
    destruct c as [t o s]. cbn [threads owner] in *.
    exists (Config (set_thread j k t) (set_owner l None o) s). split; [eexists; apply run_one; eapply step_rel; eauto|].
    split; [apply set_thread_same|]. intros i Hj _ _. now apply alone_give.
  Qed.
  Lemma kgets_try c j l y n : threads c j = TryAcq l y n -> exists c', kgets j c y c' \/ kgets j c n c'.
  Proof.
    intros Ht. destruct c as [t o s]. cbn [threads] in Ht. destruct (o l) as [i|] eqn:Ho.
    - exists (Config (set_thread j n t) o s). right. split; [eexists; apply run_one; eapply step_try_no; eauto|].
      split; [apply set_thread_same|]. intros i' Hi _ _. now apply alone_same.
    - exists (Config (set_thread j y t) (set_owner l (Some j) o) s). left. split; [eexists; apply run_one; eapply step_try_yes; eauto|].
      split; [apply set_thread_same|]. intros i' Hi _ _. now apply alone_take.
  Qed.
  Lemma kgets_ordered j c p c' : kordered c -> kgets j c p c' -> kordered c'.
  Proof. intros H ([tr R] & _). eapply kordered_run; eauto. Qed.
  Lemma kgets_refl j c p : threads c j = p -> kgets j c p c.
  Proof. intros H. split; [exists []; constructor|]. split; [exact H|]. intros; apply still_refl. Qed.

  (** Getting somewhere by a chain of such kmoves. *)
  Definition kreaches (j : nat) (c : config) (G : prog -> Prop) : Prop := exists p c', kgets j c p c' /\ G p.
  Lemma kreaches_trans j c p c1 (G : prog -> Prop) : kgets j c p c1 -> kreaches j c1 G -> kreaches j c G.
  Proof. intros A (q & c2 & B & HG). exists q, c2. split; [eapply kgets_trans; eauto|exact HG]. Qed.

  Lemma kleads_reaches G p : leads G p -> forall j c, kordered c -> threads c j = p -> kreaches j c G.
  Proof.
    induction 1 as [p HG|l k Hl _ IH|l y n _ IHy _ IHn|l k _ IH|a k _ IH|k x _ IH]; intros j c H Ht.
    - exists p, c. split; [now apply kgets_refl|exact HG].
    - destruct (kgets_acq c j l k H Ht Hl) as (c1 & A & _). eapply kreaches_trans; [exact A|].
      apply IH; [eapply kgets_ordered; eauto|apply A].
    - destruct (kgets_try c j l y n Ht) as (c1 & [A|A]); (eapply kreaches_trans; [exact A|]);
        [apply IHy|apply IHn]; solve [eapply kgets_ordered; eauto|apply A].
    - destruct (kgets_rel c j l k H Ht) as (c1 & A). eapply kreaches_trans; [exact A|].
      apply IH; [eapply kgets_ordered; eauto|apply A].
    - destruct (kgets_act c j a k Ht) as (r & c1 & A). eapply kreaches_trans; [exact A|].
      apply (IH r); [eapply kgets_ordered; eauto|apply A].
    - destruct (kgets_env c j k Ht x) as (c1 & A). eapply kreaches_trans; [exact A|].
      apply IH; [eapply kgets_ordered; eauto|apply A].
  Qed.

  Lemma koutput_goes_on l s tr c j x k : Forall (may_keep_read None None) l -> run E C (start l s) tr c ->
    threads c j = compile (Call x k) -> output_call x = true ->
    exists tr' c' a, run E C c tr' c' /\ threads c' j = compile (k a) /\
      forall i, i <> j -> awaiting c i -> threads c' i = threads c i /\ awaiting c' i.
  Proof.
    intros Hl R Ht Hx. assert (H : kordered c) by (eapply kordered_run; [|exact R]; now apply kordered_start).
    destruct (kleads_reaches (fun p => exists a, p = compile (k a)) _
      (output_leads x (fun r => compile (k r)) (fun p => exists a, p = compile (k a)) Hx (fun a => ex_intro _ a eq_refl)) j c H Ht)
      as (p & c' & ([tr' R'] & T & S) & (a & ->)).
    exists tr', c', a. split; [exact R'|]. split; [exact T|]. intros i Hi ((k' & Hk) & Hw & Hd).
    destruct (S i Hi Hw Hd) as [S1 S2]. split; [exact S1|]. split; [exists k'; congruence|].
    split; intros X; apply S2 in X; auto.
  Qed.

End Fair.

(** ** Calls that wait for a lock that is kept *)

Lemma set_owner_kept l l' i x o : o l = Some i -> l <> l' \/ x = Some i -> set_owner l' x o l = Some i.
Proof.
  intros H [N| ->]; [now rewrite owner_other|]. destruct (lock_dec l l') as [->|N]; [apply owner_same|now rewrite owner_other].
Qed.

(** At once, or after one more lock. *)
Definition before (l : lock) (p : prog) : Prop :=
  (exists k, p = Acq l k) \/ exists l' k, l' <> l /\ p = Acq l' (Acq l k).

Lemma waits_before l x k : waits_for l x = true -> before l (method x k).
Proof.
  intros H. destruct l, x; try discriminate H; cbn [method waits_for] in *;
    try match goal with |- context [match ?o with OMoveUp _ => _ | _ => _ end] => destruct o end;
    try match goal with |- context [match ?n with 0 => _ | S _ => _ end] => destruct n end; try discriminate H;
    unfold with_reader, with_writer;
    first [left; eexists; reflexivity|right; do 2 eexists; split; [|reflexivity]; discriminate].
Qed.

Section Kept.
  Variables (E : env) (C : tcfg).

  Definition stays (c : config) (i j : nat) (l : lock) : Prop := keeps c i j l /\ before l (threads c j).

  Lemma stays_step c e c' i j l : stays c i j l -> step E C c e c' -> stays c' i j l /\ forall a r, e <> EvAct j a r.
  Proof.
    intros ((Ho & Hk) & Hb) St.
    destruct (Nat.eq_dec (mover e) j) as [Hj|Hj].
    - assert (X : exists l' k, l' <> l /\ threads c j = Acq l' (Acq l k) /\ e = EvAcq j l' /\ owner c l' = None /\
          threads c' = set_thread j (Acq l k) (threads c) /\ owner c' = set_owner l' (Some j) (owner c)).
      { destruct Hb as [(k & Hb)|(l' & k & N & Hb)].
        - exfalso. destruct St; cbn in *; subst; congruence.
        - exists l', k. split; [exact N|]. split; [exact Hb|]. destruct St; cbn in *; subst; try congruence.
          assert (Q : Acq l' (Acq l k) = Acq l0 k0) by congruence. injection Q as <- <-. repeat split; auto. }
      destruct X as (l' & k & N & Ht & -> & Ho' & Ht' & Hw'). split; [|discriminate]. split.
      + split; [rewrite Hw'; apply set_owner_kept; auto|]. rewrite Ht'. destruct Hk as [Hk| ->]; [|now right].
        destruct (Nat.eq_dec i j) as [->|N']; [now right|left]. now rewrite set_thread_other.
      + left. exists k. rewrite Ht'. apply set_thread_same.
    - split; [|intros a r ->; now apply Hj]. split.
      + split.
        * destruct St; cbn in *; try exact Ho; apply set_owner_kept; auto; left; intros ->; try congruence.
          assert (i = i0) by congruence. subst i0. destruct Hk as [Hk| ->]; congruence.
        * destruct Hk as [Hk| ->]; [|now right]. left.
          destruct St; cbn in *; match goal with H : _ ?i0 = _ |- _ =>
            rewrite set_thread_other; [exact Hk|intros ->; congruence] end.
      + assert (threads c' j = threads c j) as ->; [|exact Hb].
        destruct St; cbn in *; apply set_thread_other; congruence.
  Qed.

  Lemma stays_for_ever c i j l : stays c i j l -> waits_for_ever E C c j.
  Proof.
    intros H tr c' R.
    assert (X : stays c' i j l /\ forall a r, ~ In (EvAct j a r) tr).
    { induction R as [|tr c1 e c2 R [IH IHn] St]; [split; [exact H|auto]|].
      destruct (stays_step _ _ _ _ _ _ IH St) as [IH2 N]. split; [exact IH2|].
      intros a r Q. apply in_app_iff in Q as [Q|[Q|[]]]; [now apply (IHn a r)|now apply (N a r)]. }
    destruct X as [[_ Hb] Hn]. split; [|exact Hn].
    destruct Hb as [(k & ->)|(l' & k & _ & ->)]; do 2 eexists; reflexivity.
  Qed.

  Lemma locked_out c i j l x k : keeps c i j l -> threads c j = method x k -> waits_for l x = true ->
    waits_for_ever E C c j.
  Proof. intros H Ht Hx. apply (stays_for_ever c i j l). split; [exact H|]. rewrite Ht. now apply waits_before. Qed.

  Lemma tried_in_vain c i j l x k : owner c l = Some i -> threads c j = method x k -> tries l x = true ->
    forall e c', step E C c e c' -> mover e = j -> threads c' j = k AWouldBlock.
  Proof.
    intros Ho Ht Hx e c' St Hj.
    assert (Q : threads c j = TryAcq l (k AOk) (k AWouldBlock)) by (rewrite Ht; destruct l, x; try discriminate Hx; reflexivity).
    destruct St; cbn in *; subst; try congruence.
    assert (X : TryAcq l (k AOk) (k AWouldBlock) = TryAcq l0 k0 k') by congruence. injection X as <- <- <-. apply set_thread_same.
  Qed.

  Lemma drop_locked_out c i j l state k : keeps c i j l ->
    l = LWriter /\ (threads c j = drop_terminal k \/ threads c j = drop_screen state k) \/
    l = LReader /\ state <> None /\ threads c j = drop_screen state k ->
    waits_for_ever E C c j.
  Proof.
    intros H Hd. apply (stays_for_ever c i j l). split; [exact H|].
    destruct Hd as [(-> & [->| ->])|(-> & Hs & ->)].
    - left. eexists. reflexivity.
    - destruct state as [[m kp]|]; [right; do 2 eexists; split; [|reflexivity]; discriminate|left; eexists; reflexivity].
    - destruct state as [[m kp]|]; [left; eexists; reflexivity|congruence].
  Qed.

End Kept.
