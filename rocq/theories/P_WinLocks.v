(** Proofs about locking on Windows: no deadlock (C89). *)
From Verif Require Import Base M_Geom M_Buf M_Writer M_Locks S_Locks P_Locks M_WinLocks S_WinLocks.

Lemma wcompile_safe p : forall r w, wfollows true r w p -> safe (holding r w) (wcompile p).
Proof.
  induction p as [|c k IH]; intros r w H.
  { destruct H as [-> ->]. reflexivity. }
  destruct H as [Ha Hk].
  assert (G : forall a, safe (holding (read_guard_after c a r) (write_guard_after c a w)) (wcompile (k a)))
    by (intros a; apply IH, Hk). clear IH Hk.
  destruct Ha as [Ha Hs]; destruct c; cbn [allowed] in Ha; cbn [wcompile wmethod read_guard_after write_guard_after] in *;
    repeat match goal with
           | H : _ /\ _ |- _ => destruct H
           | H : SRRead = SRRead -> _ |- _ => destruct (H eq_refl) as [?|[? _]]; [clear H|discriminate]
           end; subst;
    unfold with_reader, wscreen_read_block, wread_block, wait_block; unfold wwith_writer, wdrop_screen_writer, drop_writer;
    try (match goal with o : wop |- _ => destruct o as [| | | | | | | | | |[|]|[|]|[|]|[|]| | | | | | |] end);
    try (apply (G AOk));
    repeat (cbn [safe has put holding some screen_guard h_r h_w h_d];
            repeat match goal with
                   | |- _ /\ _ => split
                   | |- forall l', has _ l' = true -> _ =>
                       let l := fresh in intros l ?; destruct l; cbn in *; try discriminate;
                       try (destruct r); cbn in *; try discriminate; lia
                   | |- forall _ : ans, _ => intros ?a
                   | |- forall _ : choice, _ => intros [[|]|? ? ?|]
                   | |- safe _ (match ?a with AOk => _ | _ => _ end) => destruct a
                   | |- true = true => reflexivity
                   | |- false = false => reflexivity
                   | |- some _ = _ => reflexivity
                   end);
    try exact (G AOk); try exact (G AWouldBlock); try exact (G AGone);
    try match goal with
        | a : ans |- _ => exact (G a)
        end;
    try apply (G (AErr _)); try apply (G (AResized _)); try apply (G (AOther _)).
Qed.

Section Win.
Context {Wd Dd : Type}.
Variable M : access Wd Dd.

(** The locks thread [i] holds. *)
Definition wheld_by (c : wconfig Wd Dd) (i : nat) : held :=
  Held (is i (wowner c LReader)) (is i (wowner c LWriter)) (is i (wowner c LData)).

Lemma whas_held c i l : has (wheld_by c i) l = is i (wowner c l).
Proof. destruct l; reflexivity. Qed.

Definition wordered (c : wconfig Wd Dd) : Prop := forall i, safe (wheld_by c i) (wthreads c i).

Lemma wheld_put_same t t' o s s' i l (b : bool) :
  wheld_by (WConfig t (set_owner l (if b then Some i else None) o) s) i =
  put (wheld_by (WConfig t' o s') i) l b.
Proof.
  destruct l, b; unfold wheld_by, set_owner; cbn; try rewrite Nat.eqb_refl; reflexivity.
Qed.

Lemma wheld_put_other t t' o s s' i j l x :
  j <> i -> o l = None \/ o l = Some i -> x = None \/ x = Some i ->
  wheld_by (WConfig t (set_owner l x o) s) j = wheld_by (WConfig t' o s') j.
Proof.
  intros H Ho Hx.
  assert (is j (o l) = false).
  { destruct Ho as [->| ->]; cbn; [reflexivity|]. apply Nat.eqb_neq. congruence. }
  assert (is j x = false).
  { destruct Hx as [->| ->]; cbn; [reflexivity|]. apply Nat.eqb_neq. congruence. }
  destruct l; unfold wheld_by, set_owner; cbn; congruence.
Qed.

Lemma wordered_step c e c' : wordered c -> wstep M c e c' -> wordered c'.
Proof.
  intros H St j.
  destruct St as [i l k t o s Ht Ho|i l k k' t o s Ht Ho|i l k k' j' t o s Ht Ho
                 |i l k t o s Ht Ho|i a k t o s s' r Ht Ho|i k x t o s Ht];
    pose proof (H i) as Hi; cbn [wthreads] in Hi |- *; rewrite Ht in Hi; cbn [safe] in Hi;
    (destruct (Nat.eq_dec j i) as [->|Hj];
     [rewrite set_thread_same|rewrite set_thread_other by exact Hj]).
  - rewrite (wheld_put_same _ t o _ s i l true). apply Hi.
  - rewrite (wheld_put_other _ t o _ s i j l) by auto. apply H.
  - rewrite (wheld_put_same _ t o _ s i l true). apply Hi.
  - rewrite (wheld_put_other _ t o _ s i j l) by auto. apply H.
  - apply Hi.
  - apply (H j).
  - rewrite (wheld_put_same _ t o _ s i l false). apply Hi.
  - rewrite (wheld_put_other _ t o _ s i j l) by auto. apply H.
  - apply Hi.
  - apply (H j).
  - apply Hi.
  - apply (H j).
Qed.

Lemma wordered_start l s : Forall (wfollows true None None) l -> wordered (wstart l s).
Proof.
  intros H i. unfold wstart, wheld_by. cbn.
  apply (wcompile_safe _ None None).
  destruct (nth_in_or_default i l Finish) as [Hi|Hi]; [|rewrite Hi; cbn; auto].
  rewrite Forall_forall in H. now apply H.
Qed.

Lemma wordered_run c tr c' : wordered c -> wrun M c tr c' -> wordered c'.
Proof. intros H R. induction R as [|tr c1 e c2 R IH St]; [exact H|]. eapply wordered_step; eauto. Qed.

(** A thread that is not done can wstep unless it wwaits for a lock someone holds. *)
Definition wwaits (c : wconfig Wd Dd) (i : nat) (l : lock) : Prop :=
  exists k j, wthreads c i = Acq l k /\ wowner c l = Some j.

Lemma wcan_step c i : wordered c -> wthreads c i <> Done ->
  (exists e c', wstep M c e c') \/ exists l, wwaits c i l.
Proof.
  intros H Hd. destruct c as [t o s]. pose proof (H i) as Hi. cbn in Hd, Hi.
  destruct (t i) as [|l k|l y n|l k|a k|k] eqn:Ht; [contradiction| | | | |]; cbn [safe] in Hi.
  - destruct (o l) as [j|] eqn:Ho.
    + right. exists l, k, j. auto.
    + left. do 2 eexists. eapply wstep_acq; eauto.
  - left. destruct (o l) as [j|] eqn:Ho; do 2 eexists;
      [eapply wstep_try_no|eapply wstep_try_yes]; eauto.
  - left. destruct Hi as [Hi _]. rewrite whas_held in Hi. cbn in Hi. unfold is in Hi.
    destruct (o l) as [j|] eqn:Ho; [|discriminate Hi]. apply Nat.eqb_eq in Hi. subst j.
    do 2 eexists. eapply wstep_rel; eauto.
  - left. destruct (wmeans M a s) as [s' r] eqn:Hm. do 2 eexists. eapply wstep_act; eauto.
  - left. do 2 eexists. apply wstep_env with (c := COther 0). exact Ht.
Qed.

Lemma wsomeone_steps c : wordered c -> forall n i l, 2 - rank l <= n -> wwaits c i l ->
  exists e c', wstep M c e c'.
Proof.
  intros H n. induction n as [|n IH]; intros i l Hn (k & j & Ht & Ho).
  - pose proof (H j) as Hj.
    assert (Hh : has (wheld_by c j) l = true).
    { rewrite whas_held, Ho. cbn. apply Nat.eqb_refl. }
    assert (Hd : wthreads c j <> Done).
    { intros E1. rewrite E1 in Hj. cbn in Hj. rewrite Hj in Hh. destruct l; discriminate Hh. }
    destruct (wcan_step c j H Hd) as [S1|[l' (k' & j' & Ht' & Ho')]]; [exact S1|].
    rewrite Ht' in Hj. destruct Hj as [Hj _]. apply Hj in Hh. destruct l, l'; cbn in *; lia.
  - pose proof (H j) as Hj.
    assert (Hh : has (wheld_by c j) l = true).
    { rewrite whas_held, Ho. cbn. apply Nat.eqb_refl. }
    assert (Hd : wthreads c j <> Done).
    { intros E1. rewrite E1 in Hj. cbn in Hj. rewrite Hj in Hh. destruct l; discriminate Hh. }
    destruct (wcan_step c j H Hd) as [S1|[l' Hw]]; [exact S1|].
    apply (IH j l'); [|exact Hw].
    destruct Hw as (k' & j' & Ht' & _). rewrite Ht' in Hj. destruct Hj as [Hj _]. apply Hj in Hh. lia.
Qed.

(** Only the wthreads of the list ever do anything. *)
Lemma wdone_stays c tr c' i : wrun M c tr c' -> wthreads c i = Done -> wthreads c' i = Done.
Proof.
  intros R. induction R as [|tr c1 e c2 R IH St]; intros H; [exact H|].
  specialize (IH H).
  destruct St; cbn in *;
    match goal with Ht : ?t ?j = _ |- set_thread ?j _ ?t i = _ =>
      destruct (Nat.eq_dec i j) as [->|Hj]; [congruence|now rewrite set_thread_other] end.
Qed.

Lemma wall_done_or c n : wordered c -> (forall i, n <= i -> wthreads c i = Done) ->
  wfinished c \/ exists e c', wstep M c e c'.
Proof.
  intros H. induction n as [|n IH]; intros Hn.
  - left. intros i. apply Hn. lia.
  - assert (D : {wthreads c n = Done} + {wthreads c n <> Done}).
    { destruct (wthreads c n); [left; reflexivity|right; discriminate ..]. }
    destruct D as [D|D].
    + apply IH. intros i Hi. destruct (Nat.eq_dec i n) as [->|]; [exact D|]. apply Hn. lia.
    + right. destruct (wcan_step c n H D) as [S1|[l Hw]]; [exact S1|].
      eapply wsomeone_steps; eauto.
Qed.

Lemma wno_deadlock l s tr c :
  Forall (wfollows true None None) l -> wrun M (wstart l s) tr c ->
  wfinished c \/ exists e c', wstep M c e c'.
Proof.
  intros H R. apply (wall_done_or c (length l)).
  - eapply wordered_run; [|exact R]. now apply wordered_start.
  - intros i Hi. eapply wdone_stays; [exact R|]. cbn. rewrite nth_overflow by exact Hi. reflexivity.
Qed.

Lemma wstep_smaller c e c' : wstep M c e c' ->
  exists i, smaller (wthreads c' i) (wthreads c i) /\ forall j, j <> i -> wthreads c' j = wthreads c j.
Proof.
  intros St. destruct St; cbn; exists i; rewrite set_thread_same;
    (split; [|intros j' Hj; now rewrite set_thread_other]);
    match goal with H : ?t ?i = _ |- smaller _ (?t ?i) => rewrite H end.
  - apply sm_acq.
  - apply sm_yes.
  - apply sm_no.
  - apply sm_rel.
  - apply sm_act.
  - apply sm_env.
Qed.


Lemma wnext_acc n : forall g, Acc (tuple_smaller n) g ->
  forall c, wthreads c = g -> (forall i, n <= i -> wthreads c i = Done) -> Acc (wnext M) c.
Proof.
  induction 1 as [g _ IH]. intros c Hc Hn. constructor. intros c' [e St].
  destruct (wstep_smaller _ _ _ St) as (i & Hs & Ho).
  assert (Hi : i < n).
  { destruct (le_lt_dec n i) as [Hle|]; [|exact l]. rewrite (Hn i Hle) in Hs. inversion Hs. }
  apply (IH (wthreads c')); [|reflexivity|].
  - exists i. subst g. repeat split; [exact Hi|exact Hs|]. intros j _ Hj. now apply Ho.
  - intros j Hj. rewrite Ho by lia. now apply Hn.
Qed.

Lemma walways_ends l s : Acc (wnext M) (wstart l s).
Proof.
  apply (wnext_acc (length l) _ (tuple_acc _ (wthreads (wstart l s)))); [reflexivity|].
  intros i Hi. cbn. rewrite nth_overflow by exact Hi. reflexivity.
Qed.

(** A thread waiting for a lock it holds wwaits for ever. *)
Lemma wwaits_for_itself c tr c' i l k :
  wrun M c tr c' -> wthreads c i = Acq l k -> wowner c l = Some i ->
  wthreads c' i = Acq l k /\ wowner c' l = Some i.
Proof.
  intros R Ht Ho. induction R as [|tr c1 e c2 R [IHt IHo] St]; [auto|].
  destruct St; cbn in *;
    match goal with H : ?t ?j = _ |- _ /\ _ =>
      destruct (Nat.eq_dec i j) as [<-|Hj]; [|rewrite set_thread_other by exact Hj] end.
  - rewrite IHt in H. injection H as <- <-. congruence.
  - split; [exact IHt|]. unfold set_owner. destruct (lock_eqb l l0) eqn:El; [|exact IHo].
    assert (l = l0) as -> by (destruct l, l0; try discriminate El; reflexivity). congruence.
  - congruence.
  - split; [exact IHt|]. unfold set_owner. destruct (lock_eqb l l0) eqn:El; [|exact IHo].
    assert (l = l0) as -> by (destruct l, l0; try discriminate El; reflexivity). congruence.
  - congruence.
  - auto.
  - congruence.
  - split; [exact IHt|]. unfold set_owner. destruct (lock_eqb l l0) eqn:El; [|exact IHo].
    assert (l = l0) as -> by (destruct l, l0; try discriminate El; reflexivity). congruence.
  - congruence.
  - auto.
  - congruence.
  - auto.
Qed.

(** From any point of a schedule of careful clients the rest can be wrun to the end. *)
Lemma wrun_trans a t1 b : wrun M a t1 b -> forall t2 c, wrun M b t2 c -> wrun M a (t1 ++ t2) c.
Proof.
  intros R t2 c R2. induction R2 as [|t2 c1 e c2 R2 IH St]; [now rewrite app_nil_r|].
  rewrite app_assoc. econstructor; eauto.
Qed.

Lemma wacc_run a : Acc (wnext M) a -> forall t b, wrun M a t b -> Acc (wnext M) b.
Proof.
  intros H t b R. induction R as [|t b e c R IH St]; [exact H|]. destruct IH as [IH]. apply IH. now exists e.
Qed.

Lemma wcan_finish l s tr c :
  Forall (wfollows true None None) l -> wrun M (wstart l s) tr c ->
  exists tr' c', wrun M c tr' c' /\ wfinished c'.
Proof.
  intros H R. assert (A : Acc (wnext M) c) by (eapply wacc_run; [apply walways_ends|exact R]).
  revert tr R. induction A as [c _ IH]. intros tr R.
  destruct (wno_deadlock l s tr c H R) as [F|(e & c' & St)].
  - exists [], c. split; [constructor|exact F].
  - destruct (IH c' (ex_intro _ e St) (tr ++ [e])) as (tr' & c2 & R2 & F); [econstructor; eauto|].
    exists ([e] ++ tr'), c2. split; [|exact F].
    apply wrun_trans with (b := c'); [|exact R2].
    change [e] with ([] ++ [e]). econstructor; [constructor|exact St].
Qed.

Lemma wfinished_unlocked l s tr c :
  Forall (wfollows true None None) l -> wrun M (wstart l s) tr c -> wfinished c -> wall_unlocked c.
Proof.
  intros H R F k. destruct (wowner c k) as [j|] eqn:Ho; [exfalso|reflexivity].
  assert (O : wordered c) by (eapply wordered_run; [apply wordered_start; exact H|exact R]).
  specialize (O j). rewrite (F j) in O. cbn in O.
  assert (Hh : has (wheld_by c j) k = true).
  { rewrite whas_held, Ho. cbn. apply Nat.eqb_refl. }
  rewrite O in Hh. destruct k; discriminate Hh.
Qed.

Lemma wall_finish l s :
  Forall (wfollows true None None) l ->
  Acc (wnext M) (wstart l s) /\
  forall tr c, wrun M (wstart l s) tr c ->
    (wfinished c \/ exists e c', wstep M c e c') /\
    (exists tr' c', wrun M c tr' c' /\ wfinished c') /\
    (wfinished c -> wall_unlocked c).
Proof.
  intros H. split; [apply walways_ends|]. intros tr c R. split; [eapply wno_deadlock; eauto|].
  split; [eapply wcan_finish; eauto|]. eapply wfinished_unlocked; eauto.
Qed.

End Win.
