(** Proofs about [term_write!] whose expressions use the terminal. *)
From Verif Require Import Base M_Geom M_Buf M_Writer M_Locks S_Locks P_Locks M_WinLocks S_WinLocks P_WinLocks P_WinLocks3 S_MacroArgs.

(** ** One call after the other *)

Lemma calling_follows b cs k : Forall (fun c => term_call c \/ screen_call c) cs ->
  follows b None None k -> follows b None None (calling cs k).
Proof.
  intros H Hk. induction H as [|c cs Hc _ IH]; cbn; auto.
  split; [destruct c; cbn in *; tauto|]. intros a.
  replace (read_guard_after c a None) with (@None kind) by (destruct c, a; cbn in *; tauto).
  replace (write_guard_after c a None) with (@None kind) by (destruct c, a; cbn in *; tauto).
  exact IH.
Qed.
Lemma term_methods_follow b els k : Forall (fun e => Forall term_call (fst e)) els ->
  (forall r, follows b None None (k r)) -> follows b None None (term_methods els k).
Proof.
  intros H Hk. induction H as [|[cs o] els Hc _ IH]; cbn; auto.
  apply calling_follows; [eapply Forall_impl; [|exact Hc]; auto|].
  split; [reflexivity|]. intros a. destruct a; cbn; auto.
Qed.
Lemma screen_methods_follow b els k : Forall (fun e => Forall screen_call (fst e)) els ->
  follows b None None k -> follows b None None (screen_methods els k).
Proof.
  intros H Hk. induction H as [|[cs o] els Hc _ IH]; cbn; auto.
  apply calling_follows; [eapply Forall_impl; [|exact Hc]; auto|].
  split; [reflexivity|]. intros a. destruct a; cbn; auto.
Qed.

(** ** With the guard held *)

Section Unix.
  Variables (E : env) (C : tcfg).
  (** A thread that acquires lock [l], possibly after another lock, and then acquires a
      lock it has, never finishes. *)
  Inductive heading (l : lock) : prog -> list lock -> Prop :=
  | He_here k held : In l held -> heading l (Acq l k) held
  | He_first l' k held : heading l k (l' :: held) -> heading l (Acq l' k) held.
  Lemma heading_not_done l p h : heading l p h -> p <> Done.
  Proof. destruct 1; discriminate. Qed.

  Definition owns (c : config) (i : nat) (h : list lock) : Prop := forall l, In l h -> owner c l = Some i.
  Definition goes_wrong (l : lock) (c : config) (i : nat) : Prop :=
    exists h, heading l (threads c i) h /\ owns c i h.

  Lemma wrong_step l c e c' i : step E C c e c' -> goes_wrong l c i -> goes_wrong l c' i.
  Proof.
    intros St (h & Hh & Ho). destruct St as [j l0 k t o s Ht Hf|j l0 k k' t o s Ht Hf|j l0 k k' j' t o s Ht Hf|j l0 k t o s Ht Hf|j a k t o s s' r Ht Hm|j k c0 t o s Ht];
      unfold goes_wrong, owns in *; cbn in *;
      (destruct (Nat.eq_dec i j) as [<-|N]; [rewrite set_thread_same|rewrite set_thread_other by exact N]).
    - rewrite Ht in Hh. inversion Hh; subst.
      + rewrite (Ho l0) in Hf by assumption. discriminate.
      + exists (l0 :: h). split; [assumption|]. intros x [<-|Hx]; unfold set_owner.
        * destruct l0; reflexivity.
        * destruct (lock_eqb x l0) eqn:El; auto.
    - exists h. split; auto. intros x Hx. unfold set_owner. destruct (lock_eqb x l0) eqn:El; auto.
      assert (x = l0) as -> by (destruct x, l0; try discriminate El; reflexivity). rewrite (Ho _ Hx) in Hf. discriminate.
    - rewrite Ht in Hh. inversion Hh.
    - exists h. split; auto. intros x Hx. unfold set_owner. destruct (lock_eqb x l0) eqn:El; auto.
      assert (x = l0) as -> by (destruct x, l0; try discriminate El; reflexivity). rewrite (Ho _ Hx) in Hf. discriminate.
    - rewrite Ht in Hh. inversion Hh.
    - eauto.
    - rewrite Ht in Hh. inversion Hh.
    - exists h. split; auto. intros x Hx. unfold set_owner. destruct (lock_eqb x l0) eqn:El; auto.
      assert (x = l0) as -> by (destruct x, l0; try discriminate El; reflexivity). rewrite (Ho _ Hx) in Hf. congruence.
    - rewrite Ht in Hh. inversion Hh.
    - eauto.
    - rewrite Ht in Hh. inversion Hh.
    - eauto.
  Qed.
  Lemma wrong_run l c tr c' i : run E C c tr c' -> goes_wrong l c i -> goes_wrong l c' i.
  Proof. induction 1; auto. intro. eapply wrong_step; eauto. Qed.

  Lemma keeps l c tr c' i : run E C c tr c' -> goes_wrong l c i -> forall x, owner c x = Some i -> owner c' x = Some i.
  Proof.
    induction 1 as [|tr c1 e c2 R IH St]; auto. intros G x Hx. specialize (IH G x Hx).
    destruct (wrong_run _ _ _ _ _ R G) as (h & Hh & _). destruct St; cbn in *; auto; unfold set_owner;
      destruct (lock_eqb x l0) eqn:El; auto;
      assert (x = l0) as -> by (destruct x, l0; try discriminate El; reflexivity); try congruence.
    rewrite IH in H0. injection H0 as ->. rewrite H in Hh. inversion Hh.
  Qed.

  Lemma writes_acq c k : writes c -> exists p, method c k = Acq LWriter p.
  Proof.
    destruct c; cbn; try tauto; intros H; try (eexists; reflexivity).
    destruct o; try (eexists; reflexivity); destruct n; try tauto; eexists; reflexivity.
  Qed.
  Lemma draws_acq c : draws c -> exists l, (l = LWriter \/ l = LData) /\ forall k, exists p, method c k = Acq l p.
  Proof.
    destruct c; cbn; try tauto; intros H; eexists; (split; [|intros k; eexists; reflexivity]); auto.
  Qed.

  Theorem term_macro_stuck : forall ps s i c cs o els k, writes c -> nth_error ps i = Some (term_macro ((c :: cs, o) :: els) k) ->
    forall tr c', run E C (start ps s) tr c' -> threads c' i <> Done /\
      forall tr2 c2, run E C c' tr2 c2 -> forall l, owner c' l = Some i -> owner c2 l = Some i.
  Proof.
    intros ps s i c cs o els k Hc Hi tr c' R.
    assert (G : goes_wrong LWriter (start ps s) i).
    { exists []. split; [|intros x []]. cbn. rewrite (nth_error_nth _ _ _ Hi). cbn. apply He_first.
      match goal with |- heading _ (method c ?kk) _ => destruct (writes_acq c kk Hc) as (p & ->) end.
      apply He_here. now left. }
    assert (G' := wrong_run _ _ _ _ _ R G). split; [destruct G' as (h & Hh & _); exact (heading_not_done _ _ _ Hh)|].
    intros tr2 c2 R2. exact (keeps _ _ _ _ _ R2 G').
  Qed.
  Theorem screen_macro_stuck : forall ps s i c cs o els k, draws c -> nth_error ps i = Some (screen_macro ((c :: cs, o) :: els) k) ->
    forall tr c', run E C (start ps s) tr c' -> threads c' i <> Done /\
      forall tr2 c2, run E C c' tr2 c2 -> forall l, owner c' l = Some i -> owner c2 l = Some i.
  Proof.
    intros ps s i c cs o els k Hc Hi tr c' R.
    destruct (draws_acq c Hc) as (l & E2 & E1).
    assert (G : goes_wrong l (start ps s) i).
    { exists []. split; [|intros x []]. cbn. rewrite (nth_error_nth _ _ _ Hi). cbn. apply He_first. apply He_first.
      match goal with |- heading _ (method c ?kk) _ => destruct (E1 kk) as (p & ->) end. apply He_here. destruct E2 as [-> | ->]; cbn; auto. }
    assert (G' := wrong_run _ _ _ _ _ R G). split; [destruct G' as (h & Hh & _); exact (heading_not_done _ _ _ Hh)|].
    intros tr2 c2 R2. exact (keeps _ _ _ _ _ R2 G').
  Qed.
End Unix.

Section Win.
  Context {Wd Dd : Type}.
  Variable M : access Wd Dd.
  Definition wowns (c : wconfig Wd Dd) (i : nat) (h : list lock) : Prop := forall l, In l h -> wowner c l = Some i.
  Definition wgoes_wrong (l : lock) (c : wconfig Wd Dd) (i : nat) : Prop :=
    exists h, heading l (wthreads c i) h /\ wowns c i h.

  Lemma wwrong_step l c e c' i : wstep M c e c' -> wgoes_wrong l c i -> wgoes_wrong l c' i.
  Proof.
    intros St (h & Hh & Ho). destruct St as [j l0 k t o s Ht Hf|j l0 k k' t o s Ht Hf|j l0 k k' j' t o s Ht Hf|j l0 k t o s Ht Hf|j a k t o s s' r Ht Hm|j k c0 t o s Ht];
      unfold wgoes_wrong, wowns in *; cbn in *;
      (destruct (Nat.eq_dec i j) as [<-|N]; [rewrite set_thread_same|rewrite set_thread_other by exact N]).
    - rewrite Ht in Hh. inversion Hh; subst.
      + rewrite (Ho l0) in Hf by assumption. discriminate.
      + exists (l0 :: h). split; [assumption|]. intros x [<-|Hx]; unfold set_owner.
        * destruct l0; reflexivity.
        * destruct (lock_eqb x l0) eqn:El; auto.
    - exists h. split; auto. intros x Hx. unfold set_owner. destruct (lock_eqb x l0) eqn:El; auto.
      assert (x = l0) as -> by (destruct x, l0; try discriminate El; reflexivity). rewrite (Ho _ Hx) in Hf. discriminate.
    - rewrite Ht in Hh. inversion Hh.
    - exists h. split; auto. intros x Hx. unfold set_owner. destruct (lock_eqb x l0) eqn:El; auto.
      assert (x = l0) as -> by (destruct x, l0; try discriminate El; reflexivity). rewrite (Ho _ Hx) in Hf. discriminate.
    - rewrite Ht in Hh. inversion Hh.
    - eauto.
    - rewrite Ht in Hh. inversion Hh.
    - exists h. split; auto. intros x Hx. unfold set_owner. destruct (lock_eqb x l0) eqn:El; auto.
      assert (x = l0) as -> by (destruct x, l0; try discriminate El; reflexivity). rewrite (Ho _ Hx) in Hf. congruence.
    - rewrite Ht in Hh. inversion Hh.
    - eauto.
    - rewrite Ht in Hh. inversion Hh.
    - eauto.
  Qed.
  Lemma wwrong_run l c tr c' i : wrun M c tr c' -> wgoes_wrong l c i -> wgoes_wrong l c' i.
  Proof. induction 1; auto. intro. eapply wwrong_step; eauto. Qed.

  Lemma wkeeps l c tr c' i : wrun M c tr c' -> wgoes_wrong l c i -> forall x, wowner c x = Some i -> wowner c' x = Some i.
  Proof.
    induction 1 as [|tr c1 e c2 R IH St]; auto. intros G x Hx. specialize (IH G x Hx).
    destruct (wwrong_run _ _ _ _ _ R G) as (h & Hh & _). destruct St; cbn in *; auto; unfold set_owner;
      destruct (lock_eqb x l0) eqn:El; auto;
      assert (x = l0) as -> by (destruct x, l0; try discriminate El; reflexivity); try congruence.
    rewrite IH in H0. injection H0 as ->. rewrite H in Hh. inversion Hh.
  Qed.

  Lemma wwrites_acq c k : writes c -> exists p, wmethod c k = Acq LWriter p.
  Proof.
    destruct c; cbn; try tauto; intros H; try (eexists; reflexivity).
    destruct o; try (eexists; reflexivity); destruct n; try tauto; eexists; reflexivity.
  Qed.
  Lemma wdraws_acq c : draws c -> exists l, (l = LWriter \/ l = LData) /\ forall k, exists p, wmethod c k = Acq l p.
  Proof.
    destruct c; cbn; try tauto; intros H; eexists; (split; [|intros k; eexists; reflexivity]); auto.
  Qed.

  Theorem wterm_macro_stuck : forall ps s i c cs o els k, writes c -> nth_error ps i = Some (term_macro ((c :: cs, o) :: els) k) ->
    forall tr c', wrun M (wstart ps s) tr c' -> wthreads c' i <> Done /\
      forall tr2 c2, wrun M c' tr2 c2 -> forall l, wowner c' l = Some i -> wowner c2 l = Some i.
  Proof.
    intros ps s i c cs o els k Hc Hi tr c' R.
    assert (G : wgoes_wrong LWriter (wstart ps s) i).
    { exists []. split; [|intros x []]. cbn. rewrite (nth_error_nth _ _ _ Hi). cbn. apply He_first.
      match goal with |- heading _ (wmethod c ?kk) _ => destruct (wwrites_acq c kk Hc) as (p & ->) end.
      apply He_here. now left. }
    assert (G' := wwrong_run _ _ _ _ _ R G). split; [destruct G' as (h & Hh & _); exact (heading_not_done _ _ _ Hh)|].
    intros tr2 c2 R2. exact (wkeeps _ _ _ _ _ R2 G').
  Qed.
  Theorem wscreen_macro_stuck : forall ps s i c cs o els k, draws c -> nth_error ps i = Some (screen_macro ((c :: cs, o) :: els) k) ->
    forall tr c', wrun M (wstart ps s) tr c' -> wthreads c' i <> Done /\
      forall tr2 c2, wrun M c' tr2 c2 -> forall l, wowner c' l = Some i -> wowner c2 l = Some i.
  Proof.
    intros ps s i c cs o els k Hc Hi tr c' R.
    destruct (wdraws_acq c Hc) as (l & E2 & E1).
    assert (G : wgoes_wrong l (wstart ps s) i).
    { exists []. split; [|intros x []]. cbn. rewrite (nth_error_nth _ _ _ Hi). cbn. apply He_first. apply He_first.
      match goal with |- heading _ (wmethod c ?kk) _ => destruct (E1 kk) as (p & ->) end. apply He_here. destruct E2 as [-> | ->]; cbn; auto. }
    assert (G' := wwrong_run _ _ _ _ _ R G). split; [destruct G' as (h & Hh & _); exact (heading_not_done _ _ _ Hh)|].
    intros tr2 c2 R2. exact (wkeeps _ _ _ _ _ R2 G').
  Qed.
End Win.

(** ** Expressions that do not use the terminal *)
Lemma term_macro_follows b els k : Forall (fun e => fst e = []) els ->
  (forall r, follows b None None (k r)) -> follows b None None (term_macro els k).
Proof.
  intros H Hk. split; [reflexivity|]. intros a.
  cbn [read_guard_after write_guard_after]. clear a.
  induction H as [|[cs o] els Hc _ IH]; cbn [term_guard].
  - split; [reflexivity|]. intros a. cbn. apply Hk.
  - cbn in Hc. subst cs. cbn [calling fold_right]. split; [reflexivity|]. intros a.
    cbn [read_guard_after write_guard_after]. destruct a; auto; (split; [reflexivity|]; intros a'; cbn; apply Hk).
Qed.
Lemma screen_macro_follows b els k : Forall (fun e => fst e = []) els ->
  follows b None None k -> follows b None None (screen_macro els k).
Proof.
  intros H Hk. split; [reflexivity|]. intros a.
  cbn [read_guard_after write_guard_after]. clear a.
  induction H as [|[cs o] els Hc _ IH]; cbn [screen_guard].
  - split; [reflexivity|]. intros a. cbn. apply Hk.
  - cbn in Hc. subst cs. cbn [calling fold_right]. split; [reflexivity|]. intros a.
    cbn [read_guard_after write_guard_after]. exact IH.
Qed.

(** Threads of these kinds. *)
Lemma all_wfollow l : Forall (follows true None None) l -> Forall (wfollows true None None) l.
Proof. intros H. eapply Forall_impl; [|exact H]. intros p. apply careful_follows. Qed.
