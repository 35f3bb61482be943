(** Proofs about locking: no deadlock (C52). *)
From Verif Require Import Base M_Geom M_Buf M_Writer M_Locks S_Locks.

Record held : Type := Held { h_r : bool; h_w : bool; h_d : bool }.
Definition has (h : held) (l : lock) : bool :=
  match l with LReader => h_r h | LWriter => h_w h | LData => h_d h end.
Definition put (h : held) (l : lock) (b : bool) : held :=
  match l with
  | LReader => Held b (h_w h) (h_d h)
  | LWriter => Held (h_r h) b (h_d h)
  | LData => Held (h_r h) (h_w h) b
  end.
Definition rank (l : lock) : nat := match l with LReader => 0 | LWriter => 1 | LData => 2 end.

(** Locks are waited for in increasing order, released when held, all in the end. *)
Fixpoint safe (h : held) (p : prog) : Prop :=
  match p with
  | Done => h = Held false false false
  | Acq l k => (forall l', has h l' = true -> rank l' < rank l) /\ safe (put h l true) k
  | TryAcq l y n => has h l = false /\ safe (put h l true) y /\ safe h n
  | Rel l k => has h l = true /\ safe (put h l false) k
  | Act a k => forall r, safe h (k r)
  | Env k => forall c, safe h (k c)
  end.

Definition some {A} (o : option A) : bool := match o with Some _ => true | None => false end.
Definition screen_guard (w : option kind) : bool :=
  match w with Some OfScreen => true | _ => false end.
Definition holding (r w : option kind) : held := Held (some r) (some w) (screen_guard w).

Lemma compile_safe p : forall r w, follows true r w p -> safe (holding r w) (compile p).
Proof.
  induction p as [|c k IH]; intros r w H.
  { destruct H as [-> ->]. reflexivity. }
  destruct H as [Ha Hk].
  assert (G : forall a, safe (holding (read_guard_after c a r) (write_guard_after c a w)) (compile (k a)))
    by (intros a; apply IH, Hk). clear IH Hk.
  destruct c; cbn [allowed] in Ha; cbn [compile method read_guard_after write_guard_after] in *;
    repeat match goal with
           | H : _ /\ _ |- _ => destruct H
           | H : true = true -> _ |- _ => specialize (H eq_refl)
           end; subst;
    unfold with_reader, screen_read_block, read_block, wait_block; unfold with_writer, drop_screen_writer, drop_writer;
    try (match goal with o : wop |- _ => destruct o as [| | | | | | | | | |[|]|[|]|[|]|[|]| | | | | | |] end);
    try (apply (G AOk));
    repeat (cbn [safe has put holding some screen_guard h_r h_w h_d];
            repeat match goal with
                   | |- _ /\ _ => split
                   | |- forall l', has _ l' = true -> _ =>
                       let l := fresh in intros l ?; destruct l; cbn in *; try discriminate;
                       try (destruct r); cbn in *; try discriminate; lia
                   | |- forall _ : ans, _ => intros ?a
                   | |- forall _ : choice, _ => intros [[|]|? ? ?|]
                   | |- safe _ (match ?a with AOk => _ | _ => _ end) => destruct a
                   | |- true = true => reflexivity
                   | |- false = false => reflexivity
                   | |- some _ = _ => reflexivity
                   end);
    try exact (G AOk); try exact (G AWouldBlock); try exact (G AGone);
    try match goal with
        | a : ans |- _ => exact (G a)
        end;
    try apply (G (AErr _)); try apply (G (AResized _)); try apply (G (AOther _)).
Qed.

(** The locks thread [i] holds. *)
Definition is (i : nat) (o : option nat) : bool :=
  match o with Some j => j =? i | None => false end.
Definition held_by (c : config) (i : nat) : held :=
  Held (is i (owner c LReader)) (is i (owner c LWriter)) (is i (owner c LData)).

Lemma has_held c i l : has (held_by c i) l = is i (owner c l).
Proof. destruct l; reflexivity. Qed.

Definition ordered (c : config) : Prop := forall i, safe (held_by c i) (threads c i).

Lemma set_thread_same i p (t : nat -> prog) : set_thread i p t i = p.
Proof. unfold set_thread. now rewrite Nat.eqb_refl. Qed.
Lemma set_thread_other i j p t : j <> i -> set_thread i p t j = t j.
Proof. unfold set_thread. intros H. now apply Nat.eqb_neq in H as ->. Qed.

Lemma held_put_same t t' o s s' i l (b : bool) :
  held_by (Config t (set_owner l (if b then Some i else None) o) s) i =
  put (held_by (Config t' o s') i) l b.
Proof.
  destruct l, b; unfold held_by, set_owner; cbn; try rewrite Nat.eqb_refl; reflexivity.
Qed.

Lemma held_put_other t t' o s s' i j l x :
  j <> i -> o l = None \/ o l = Some i -> x = None \/ x = Some i ->
  held_by (Config t (set_owner l x o) s) j = held_by (Config t' o s') j.
Proof.
  intros H Ho Hx.
  assert (is j (o l) = false).
  { destruct Ho as [->| ->]; cbn; [reflexivity|]. apply Nat.eqb_neq. congruence. }
  assert (is j x = false).
  { destruct Hx as [->| ->]; cbn; [reflexivity|]. apply Nat.eqb_neq. congruence. }
  destruct l; unfold held_by, set_owner; cbn; congruence.
Qed.

Lemma ordered_step E C c e c' : ordered c -> step E C c e c' -> ordered c'.
Proof.
  intros H St j.
  destruct St as [i l k t o s Ht Ho|i l k k' t o s Ht Ho|i l k k' j' t o s Ht Ho
                 |i l k t o s Ht Ho|i a k t o s s' r Ht Ho|i k x t o s Ht];
    pose proof (H i) as Hi; cbn [threads] in Hi |- *; rewrite Ht in Hi; cbn [safe] in Hi;
    (destruct (Nat.eq_dec j i) as [->|Hj];
     [rewrite set_thread_same|rewrite set_thread_other by exact Hj]).
  - rewrite (held_put_same _ t o _ s i l true). apply Hi.
  - rewrite (held_put_other _ t o _ s i j l) by auto. apply H.
  - rewrite (held_put_same _ t o _ s i l true). apply Hi.
  - rewrite (held_put_other _ t o _ s i j l) by auto. apply H.
  - apply Hi.
  - apply (H j).
  - rewrite (held_put_same _ t o _ s i l false). apply Hi.
  - rewrite (held_put_other _ t o _ s i j l) by auto. apply H.
  - apply Hi.
  - apply (H j).
  - apply Hi.
  - apply (H j).
Qed.

Lemma ordered_start l s : Forall (follows true None None) l -> ordered (start l s).
Proof.
  intros H i. unfold start, held_by. cbn.
  apply (compile_safe _ None None).
  destruct (nth_in_or_default i l Finish) as [Hi|Hi]; [|rewrite Hi; cbn; auto].
  rewrite Forall_forall in H. now apply H.
Qed.

Lemma ordered_run E C c tr c' : ordered c -> run E C c tr c' -> ordered c'.
Proof. intros H R. induction R as [|tr c1 e c2 R IH St]; [exact H|]. eapply ordered_step; eauto. Qed.

(** A thread that is not done can step unless it waits for a lock someone holds. *)
Definition waits (c : config) (i : nat) (l : lock) : Prop :=
  exists k j, threads c i = Acq l k /\ owner c l = Some j.

Lemma can_step E C c i : ordered c -> threads c i <> Done ->
  (exists e c', step E C c e c') \/ exists l, waits c i l.
Proof.
  intros H Hd. destruct c as [t o s]. pose proof (H i) as Hi. cbn in Hd, Hi.
  destruct (t i) as [|l k|l y n|l k|a k|k] eqn:Ht; [contradiction| | | | |]; cbn [safe] in Hi.
  - destruct (o l) as [j|] eqn:Ho.
    + right. exists l, k, j. auto.
    + left. do 2 eexists. eapply step_acq; eauto.
  - left. destruct (o l) as [j|] eqn:Ho; do 2 eexists;
      [eapply step_try_no|eapply step_try_yes]; eauto.
  - left. destruct Hi as [Hi _]. rewrite has_held in Hi. cbn in Hi. unfold is in Hi.
    destruct (o l) as [j|] eqn:Ho; [|discriminate Hi]. apply Nat.eqb_eq in Hi. subst j.
    do 2 eexists. eapply step_rel; eauto.
  - left. destruct (meaning E C a s) as [s' r] eqn:Hm. do 2 eexists. eapply step_act; eauto.
  - left. do 2 eexists. apply step_env with (c := COther 0). exact Ht.
Qed.

Lemma someone_steps E C c : ordered c -> forall n i l, 2 - rank l <= n -> waits c i l ->
  exists e c', step E C c e c'.
Proof.
  intros H n. induction n as [|n IH]; intros i l Hn (k & j & Ht & Ho).
  - pose proof (H j) as Hj.
    assert (Hh : has (held_by c j) l = true).
    { rewrite has_held, Ho. cbn. apply Nat.eqb_refl. }
    assert (Hd : threads c j <> Done).
    { intros E1. rewrite E1 in Hj. cbn in Hj. rewrite Hj in Hh. destruct l; discriminate Hh. }
    destruct (can_step E C c j H Hd) as [S1|[l' (k' & j' & Ht' & Ho')]]; [exact S1|].
    rewrite Ht' in Hj. destruct Hj as [Hj _]. apply Hj in Hh. destruct l, l'; cbn in *; lia.
  - pose proof (H j) as Hj.
    assert (Hh : has (held_by c j) l = true).
    { rewrite has_held, Ho. cbn. apply Nat.eqb_refl. }
    assert (Hd : threads c j <> Done).
    { intros E1. rewrite E1 in Hj. cbn in Hj. rewrite Hj in Hh. destruct l; discriminate Hh. }
    destruct (can_step E C c j H Hd) as [S1|[l' Hw]]; [exact S1|].
    apply (IH j l'); [|exact Hw].
    destruct Hw as (k' & j' & Ht' & _). rewrite Ht' in Hj. destruct Hj as [Hj _]. apply Hj in Hh. lia.
Qed.

(** Only the threads of the list ever do anything. *)
Lemma done_stays E C c tr c' i : run E C c tr c' -> threads c i = Done -> threads c' i = Done.
Proof.
  intros R. induction R as [|tr c1 e c2 R IH St]; intros H; [exact H|].
  specialize (IH H).
  destruct St; cbn in *;
    match goal with Ht : ?t ?j = _ |- set_thread ?j _ ?t i = _ =>
      destruct (Nat.eq_dec i j) as [->|Hj]; [congruence|now rewrite set_thread_other] end.
Qed.

Lemma all_done_or E C c n : ordered c -> (forall i, n <= i -> threads c i = Done) ->
  finished c \/ exists e c', step E C c e c'.
Proof.
  intros H. induction n as [|n IH]; intros Hn.
  - left. intros i. apply Hn. lia.
  - assert (D : {threads c n = Done} + {threads c n <> Done}).
    { destruct (threads c n); [left; reflexivity|right; discriminate ..]. }
    destruct D as [D|D].
    + apply IH. intros i Hi. destruct (Nat.eq_dec i n) as [->|]; [exact D|]. apply Hn. lia.
    + right. destruct (can_step E C c n H D) as [S1|[l Hw]]; [exact S1|].
      eapply someone_steps; eauto.
Qed.

Lemma no_deadlock E C l s tr c :
  Forall (follows true None None) l -> run E C (start l s) tr c ->
  finished c \/ exists e c', step E C c e c'.
Proof.
  intros H R. apply (all_done_or E C c (length l)).
  - eapply ordered_run; [|exact R]. now apply ordered_start.
  - intros i Hi. eapply done_stays; [exact R|]. cbn. rewrite nth_overflow by exact Hi. reflexivity.
Qed.

(** Every schedule comes to an end: threads shrink. *)
Inductive smaller : prog -> prog -> Prop :=
| sm_acq l k : smaller k (Acq l k)
| sm_yes l y n : smaller y (TryAcq l y n)
| sm_no l y n : smaller n (TryAcq l y n)
| sm_rel l k : smaller k (Rel l k)
| sm_act a k r : smaller (k r) (Act a k)
| sm_env k x : smaller (k x) (Env k).

Lemma smaller_acc p : Acc smaller p.
Proof.
  induction p as [|l k IH|l y IHy n IHn|l k IH|a k IH|k IH]; constructor; intros q Hq;
    inversion Hq; subst; auto.
Qed.

Lemma step_smaller E C c e c' : step E C c e c' ->
  exists i, smaller (threads c' i) (threads c i) /\ forall j, j <> i -> threads c' j = threads c j.
Proof.
  intros St. destruct St; cbn; exists i; rewrite set_thread_same;
    (split; [|intros j' Hj; now rewrite set_thread_other]);
    match goal with H : ?t ?i = _ |- smaller _ (?t ?i) => rewrite H end.
  - apply sm_acq.
  - apply sm_yes.
  - apply sm_no.
  - apply sm_rel.
  - apply sm_act.
  - apply sm_env.
Qed.


(** Well-foundedness for [n] threads. *)
Definition tuple_smaller (n : nat) (f g : nat -> prog) : Prop :=
  exists i, i < n /\ smaller (f i) (g i) /\ forall j, j < n -> j <> i -> f j = g j.

Lemma tuple_acc n : forall g, Acc (tuple_smaller n) g.
Proof.
  induction n as [|n IH].
  - intros g. constructor. intros f (i & Hi & _). lia.
  - assert (G : forall p, Acc smaller p -> forall g, Acc (tuple_smaller n) g -> g n = p ->
                          Acc (tuple_smaller (S n)) g).
    { induction 1 as [p _ IHp]. induction 1 as [g Hg IHg]. intros Hn.
      constructor. intros f (i & Hi & Hs & Hj).
      destruct (Nat.eq_dec i n) as [->|Hin].
      - eapply IHp; [rewrite <- Hn; exact Hs| apply IH|reflexivity].
      - apply IHg; [|rewrite <- Hn; apply Hj; lia].
        exists i. repeat split; [lia|exact Hs|]. intros j Hjn Hji. apply Hj; lia. }
    intros g. apply (G (g n) (smaller_acc _) g (IH g) eq_refl).
Qed.

Lemma next_acc E C n : forall g, Acc (tuple_smaller n) g ->
  forall c, threads c = g -> (forall i, n <= i -> threads c i = Done) -> Acc (next E C) c.
Proof.
  induction 1 as [g _ IH]. intros c Hc Hn. constructor. intros c' [e St].
  destruct (step_smaller _ _ _ _ _ St) as (i & Hs & Ho).
  assert (Hi : i < n).
  { destruct (le_lt_dec n i) as [Hle|]; [|exact l]. rewrite (Hn i Hle) in Hs. inversion Hs. }
  apply (IH (threads c')); [|reflexivity|].
  - exists i. subst g. repeat split; [exact Hi|exact Hs|]. intros j _ Hj. now apply Ho.
  - intros j Hj. rewrite Ho by lia. now apply Hn.
Qed.

Lemma always_ends E C l s : Acc (next E C) (start l s).
Proof.
  apply (next_acc E C (length l) _ (tuple_acc _ (threads (start l s)))); [reflexivity|].
  intros i Hi. cbn. rewrite nth_overflow by exact Hi. reflexivity.
Qed.

(** A thread waiting for a lock it holds waits for ever. *)
Lemma waits_for_itself E C c tr c' i l k :
  run E C c tr c' -> threads c i = Acq l k -> owner c l = Some i ->
  threads c' i = Acq l k /\ owner c' l = Some i.
Proof.
  intros R Ht Ho. induction R as [|tr c1 e c2 R [IHt IHo] St]; [auto|].
  destruct St; cbn in *;
    match goal with H : ?t ?j = _ |- _ /\ _ =>
      destruct (Nat.eq_dec i j) as [<-|Hj]; [|rewrite set_thread_other by exact Hj] end.
  - rewrite IHt in H. injection H as <- <-. congruence.
  - split; [exact IHt|]. unfold set_owner. destruct (lock_eqb l l0) eqn:El; [|exact IHo].
    assert (l = l0) as -> by (destruct l, l0; try discriminate El; reflexivity). congruence.
  - congruence.
  - split; [exact IHt|]. unfold set_owner. destruct (lock_eqb l l0) eqn:El; [|exact IHo].
    assert (l = l0) as -> by (destruct l, l0; try discriminate El; reflexivity). congruence.
  - congruence.
  - auto.
  - congruence.
  - split; [exact IHt|]. unfold set_owner. destruct (lock_eqb l l0) eqn:El; [|exact IHo].
    assert (l = l0) as -> by (destruct l, l0; try discriminate El; reflexivity). congruence.
  - congruence.
  - auto.
  - congruence.
  - auto.
Qed.

Lemma reads_for_ever E C c i k x : x = RRead \/ x = SRRead ->
  threads c i = compile (Call x k) -> owner c LWriter = Some i ->
  forall sz : size, exists c1, step E C c (EvOther i) c1 /\
    forall tr c2, run E C c1 tr c2 -> threads c2 i = threads c1 i /\ threads c2 i <> Done.
Proof.
  intros Hx Ht Ho sz. destruct c as [t o s]. cbn in Ht, Ho.
  assert (exists k', t i = Env k' /\ exists k'', k' (CResize (inr sz)) = Acq LWriter k'') as (k' & Hk & k'' & Hk').
  { destruct Hx as [-> | ->]; cbn in Ht; eexists; (split; [exact Ht|]); eexists; reflexivity. }
  eexists. split; [apply step_env with (c := CResize (inr sz)); exact Hk|].
  intros tr c2 R. cbn.
  pose proof (waits_for_itself E C _ tr c2 i LWriter k'' R) as W. cbn in W.
  rewrite set_thread_same in W |- *. specialize (W Hk' Ho). destruct W as [W _].
  rewrite W, Hk'. split; [reflexivity|discriminate].
Qed.

(** From any point of a schedule of careful clients the rest can be run to the end. *)
Lemma run_trans E C a t1 b : run E C a t1 b -> forall t2 c, run E C b t2 c -> run E C a (t1 ++ t2) c.
Proof.
  intros R t2 c R2. induction R2 as [|t2 c1 e c2 R2 IH St]; [now rewrite app_nil_r|].
  rewrite app_assoc. econstructor; eauto.
Qed.

Lemma acc_run E C a : Acc (next E C) a -> forall t b, run E C a t b -> Acc (next E C) b.
Proof.
  intros H t b R. induction R as [|t b e c R IH St]; [exact H|]. destruct IH as [IH]. apply IH. now exists e.
Qed.

Lemma can_finish E C l s tr c :
  Forall (follows true None None) l -> run E C (start l s) tr c ->
  exists tr' c', run E C c tr' c' /\ finished c'.
Proof.
  intros H R. assert (A : Acc (next E C) c) by (eapply acc_run; [apply always_ends|exact R]).
  revert tr R. induction A as [c _ IH]. intros tr R.
  destruct (no_deadlock E C l s tr c H R) as [F|(e & c' & St)].
  - exists [], c. split; [constructor|exact F].
  - destruct (IH c' (ex_intro _ e St) (tr ++ [e])) as (tr' & c2 & R2 & F); [econstructor; eauto|].
    exists ([e] ++ tr'), c2. split; [|exact F].
    apply run_trans with (b := c'); [|exact R2].
    change [e] with ([] ++ [e]). econstructor; [constructor|exact St].
Qed.

Lemma finished_unlocked E C l s tr c :
  Forall (follows true None None) l -> run E C (start l s) tr c -> finished c -> all_unlocked c.
Proof.
  intros H R F k. destruct (owner c k) as [j|] eqn:Ho; [exfalso|reflexivity].
  assert (O : ordered c) by (eapply ordered_run; [apply ordered_start; exact H|exact R]).
  specialize (O j). rewrite (F j) in O. cbn in O.
  assert (Hh : has (held_by c j) k = true).
  { rewrite has_held, Ho. cbn. apply Nat.eqb_refl. }
  rewrite O in Hh. destruct k; discriminate Hh.
Qed.

Lemma all_finish E C l s :
  Forall (follows true None None) l ->
  Acc (next E C) (start l s) /\
  forall tr c, run E C (start l s) tr c ->
    (finished c \/ exists e c', step E C c e c') /\
    (exists tr' c', run E C c tr' c' /\ finished c') /\
    (finished c -> all_unlocked c).
Proof.
  intros H. split; [apply always_ends|]. intros tr c R. split; [eapply no_deadlock; eauto|].
  split; [eapply can_finish; eauto|]. eapply finished_unlocked; eauto.
Qed.

(** A documented-order client that waits for itself. *)
Definition stuck_client (x y z u v : call) : client :=
  Call x (fun _ => Call y (fun _ => Call z (fun _ => Call u (fun _ => Call v (fun _ => Finish))))).

Lemma reader_waits_for_itself E C s (sz : size) :
  exists p, follows false None None p /\
  exists tr c, run E C (start [p] s) tr c /\ ~ finished c /\
    forall tr' c', run E C c tr' c' -> c' = c /\ tr' = [].
Proof.
  exists (stuck_client TLockRead TLockWrite RRead WDrop RDrop). split; [cbn; intuition discriminate|].
  assert (R : exists tr c k, run E C (start [stuck_client TLockRead TLockWrite RRead WDrop RDrop] s) tr c /\
    threads c 0 = Acq LWriter k /\ owner c LWriter = Some 0 /\ forall i, threads c (S i) = Done).
  { do 3 eexists. split.
    - eapply run_snoc. 1: eapply run_snoc. 1: eapply run_snoc. 1: apply run_nil.
      + eapply (step_acq _ _ 0 LReader); reflexivity.
      + eapply (step_acq _ _ 0 LWriter); reflexivity.
      + eapply (step_env _ _ 0 _ (CResize (inr sz))). reflexivity.
    - cbn. split; [reflexivity|]. split; [reflexivity|]. intros [|i]; reflexivity. }
  destruct R as (tr & c & k & R & Ht & Ho & Hd). exists tr, c. split; [exact R|].
  split; [intros F; rewrite (F 0) in Ht; discriminate Ht|].
  intros tr' c' R'. induction R' as [|tr' c1 e c2 R' [-> ->] St]; [auto|exfalso].
  destruct St as [i l k' t o s' Ht' Ho'|i l k' k'' t o s' Ht' Ho'|i l k' k'' j' t o s' Ht' Ho'
                 |i l k' t o s' Ht' Ho'|i a k' t o s' s'' r Ht' Ho'|i k' x t o s' Ht'];
    cbn in *; (destruct i as [|i]; [|rewrite Hd in Ht'; discriminate Ht']); rewrite Ht in Ht';
    try discriminate Ht'. injection Ht' as <- <-. congruence.
Qed.
