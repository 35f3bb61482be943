(** Dropping a terminal or screen while no lock that it needs is kept (C133). *)
From Verif Require Import Base M_Geom M_Buf M_Writer M_Locks S_Locks S_Fair P_Locks P_Fair M_WinLocks S_WinLocks S_WinFair P_WinLocks P_WinFair
  M_Leak S_Leak P_Leak P_WinLeak.

Section Unix.
  Variables (E : env) (C : tcfg).

  (** Thread [j] gets to [p] by itself. *)
  Definition by_itself (c : config) (j : nat) (p : prog) (c' : config) : Prop :=
    (exists tr, run E C c tr c') /\ threads c' j = p /\ (forall i, i <> j -> threads c' i = threads c i).
  Lemma by_trans c j p c1 q c2 : by_itself c j p c1 -> by_itself c1 j q c2 -> by_itself c j q c2.
  Proof.
    intros ([tr R] & _ & N) ([tr2 R2] & T & N2). split; [eexists; eapply run_trans; eauto|]. split; [exact T|].
    intros i Hi. rewrite N2, N by exact Hi. reflexivity.
  Qed.
  Lemma by_acq c j l k : threads c j = Acq l k -> owner c l = None ->
    exists c', by_itself c j k c' /\ owner c' = set_owner l (Some j) (owner c).
  Proof.
    intros Ht Ho. destruct c as [t o s]. eexists. split; [split; [eexists; apply run_one; apply step_acq; eauto|split; [apply set_thread_same|]]|reflexivity].
    intros i Hi. now apply set_thread_other.
  Qed.
  Lemma by_rel c j l k : threads c j = Rel l k -> owner c l = Some j ->
    exists c', by_itself c j k c' /\ owner c' = set_owner l None (owner c).
  Proof.
    intros Ht Ho. destruct c as [t o s]. eexists. split; [split; [eexists; apply run_one; apply step_rel; eauto|split; [apply set_thread_same|]]|reflexivity].
    intros i Hi. now apply set_thread_other.
  Qed.
  Lemma by_act c j a k : threads c j = Act a k -> exists r c', by_itself c j (k r) c' /\ owner c' = owner c.
  Proof.
    intros Ht. destruct c as [t o s]. destruct (meaning E C a s) as [s' r] eqn:Hm. do 2 eexists. split; [split; [eexists; apply run_one; eapply step_act; eauto|split; [apply set_thread_same|]]|reflexivity].
    intros i Hi. now apply set_thread_other.
  Qed.
  Ltac put T := let c := fresh "c" in let A := fresh "A" in let O := fresh "O" in
    destruct T as (c & A & O); pose proof (proj1 (proj2 A)).
  Ltac put2 T := let r := fresh "r" in let c := fresh "c" in let A := fresh "A" in let O := fresh "O" in
    destruct T as (r & c & A & O); pose proof (proj1 (proj2 A)).
  Ltac own := repeat match goal with O : owner ?c = _ |- context [owner ?c _] => rewrite O; unfold set_owner; cbn end; auto.
  Ltac walk := first
    [ match goal with H : threads ?c ?j = Acq ?l ?k |- _ => put (by_acq c j l k H ltac:(own)); clear H end
    | match goal with H : threads ?c ?j = Rel ?l ?k |- _ => put (by_rel c j l k H ltac:(own)); clear H end
    | match goal with H : threads ?c ?j = Act ?a ?k |- _ => put2 (by_act c j a k H); clear H; cbv beta in * end ].

  Lemma terminal_drops c j k : owner c LWriter = None -> threads c j = drop_terminal k ->
    exists c', by_itself c j k c' /\ owner c' LWriter = None.
  Proof.
    intros Ho Ht. unfold drop_terminal, with_writer, drop_writer in Ht.
    do 5 (cbv beta in *; try walk).
    match goal with H : threads ?c j = k |- _ => exists c end. split; [eauto using by_trans|own].
  Qed.

  Lemma screen_drops c j state k : owner c LWriter = None -> (state <> None -> owner c LReader = None) ->
    threads c j = drop_screen state k -> exists c', by_itself c j k c' /\ owner c' LWriter = None.
  Proof.
    intros Ho Hr Ht.
    assert (Hx : forall c, owner c LWriter = None ->
      threads c j = with_writer (fun k => k AOk) (fun _ => drop_terminal k) ->
      exists c', by_itself c j k c' /\ owner c' LWriter = None).
    { clear. intros c Ho Ht. unfold with_writer at 1, drop_writer at 1 in Ht.
      do 3 (cbv beta in *; walk).
      match goal with H : threads ?c j = drop_terminal k |- _ =>
        destruct (terminal_drops c j k ltac:(own) H) as (c' & B & O') end.
      exists c'. split; [eauto 6 using by_trans|exact O']. }
    unfold drop_screen in Ht. destruct state as [[m kp]|]; [|now apply Hx].
    specialize (Hr ltac:(discriminate)). unfold with_reader in Ht. unfold with_writer at 1, drop_writer at 1 in Ht.
    do 6 (cbv beta in *; try walk).
    match goal with H : threads ?c j = (match ?r with _ => _ end) |- _ =>
      assert (X : exists c', by_itself c j k c' /\ owner c' LWriter = None) by
       (destruct r; [apply Hx; [own|exact H]|apply terminal_drops; [own|exact H]..]) end.
    destruct X as (c' & B & O'). exists c'. split; [eauto 8 using by_trans|exact O'].
  Qed.

  (** The guard of an output that is never dropped, and reading. *)
  Definition leaker : client := Call TLockWrite (fun _ => Finish).
  Definition one_read : client := Call TRead (fun _ => Finish).
  Definition one_lock : client := Call TLockRead (fun _ => Call RDrop (fun _ => Finish)).
  Lemma reading_hangs s (sz : size) : exists tr c,
    run E C (start [leaker; one_read; one_lock] s) tr c /\ threads c 0 = Done /\ owner c LWriter = Some 0 /\
    waits_for_ever E C c 1 /\ waits_for_ever E C c 2.
  Proof.
    do 2 eexists. split; [|].
    - eapply run_snoc.
      1: eapply run_snoc.
      1: eapply run_snoc.
      1: apply run_nil.
      + apply step_acq with (i := 0) (l := LWriter); reflexivity.
      + apply step_acq with (i := 1) (l := LReader); reflexivity.
      + eapply step_env with (i := 1) (c := CResize (inr sz)). reflexivity.
    - cbn. split; [reflexivity|]. split; [reflexivity|]. split.
      + apply stays_for_ever with (i := 0) (l := LWriter). split; [split; [reflexivity|left; reflexivity]|].
        left. eexists. reflexivity.
      + set (c0 := Config _ _ _).
        assert (K : forall tr c', run E C c0 tr c' ->
          (threads c' 0 = Done /\ owner c' LWriter = Some 0 /\ owner c' LReader = Some 1 /\
           (exists k, threads c' 1 = Acq LWriter k) /\ (exists k, threads c' 2 = Acq LReader k)) /\
          forall a r, ~ In (EvAct 2 a r) tr).
        { intros tr c' R. induction R as [|tr c1 e c2 R [(A0 & A1 & A2 & (k1 & A3) & (k2 & A4)) IH] St].
          - subst c0. cbn. split; [|auto]. repeat split; eexists; reflexivity.
          - assert (M0 : mover e <> 0) by (intros Q; destruct St; cbn in *; subst; congruence).
            assert (M1 : mover e <> 1) by (intros Q; destruct St; cbn in *; subst; congruence).
            assert (M2 : mover e <> 2) by (intros Q; destruct St; cbn in *; subst; congruence).
            split.
            + destruct St; cbn in *;
                (split; [rewrite set_thread_other; auto|];
                 split; [try exact A1; apply set_owner_kept; auto; left; intros <-; congruence|];
                 split; [try exact A2; apply set_owner_kept; auto; left; intros <-; congruence|];
                 split; eexists; rewrite set_thread_other; eauto).
            + intros a r Q. apply in_app_iff in Q as [Q|[Q|[]]]; [now apply (IH a r)|]. subst e. now apply M2. }
        intros tr c' R. destruct (K tr c' R) as [(_ & _ & _ & _ & (k & Hk)) N]. split; [eauto|exact N].
  Qed.
  Lemma reading_hangs_so s : exists l tr c,
    nth 0 l Finish = Call TLockWrite (fun _ => Finish) /\ Forall (follows true None None) (skipn 1 l) /\
    run E C (start l s) tr c /\ threads c 0 = Done /\ owner c LWriter = Some 0 /\
    nth 1 l Finish = Call TRead (fun _ => Finish) /\ nth 2 l Finish = Call TLockRead (fun _ => Call RDrop (fun _ => Finish)) /\
    waits_for_ever E C c 1 /\ waits_for_ever E C c 2.
  Proof.
    destruct (reading_hangs s (Size 1 1)) as (tr & c & R & A & B & W1 & W2).
    exists [leaker; one_read; one_lock], tr, c. split; [reflexivity|]. split.
    { repeat (apply Forall_cons; [|]); [..|apply Forall_nil]; cbn; auto 6. }
    split; [exact R|]. split; [exact A|]. split; [exact B|]. split; [reflexivity|]. split; [reflexivity|]. split; [exact W1|exact W2].
  Qed.

  Lemma drops c j state k : owner c LWriter = None ->
    threads c j = drop_terminal k \/ threads c j = drop_screen state k /\ (state <> None -> owner c LReader = None) ->
    exists tr c', run E C c tr c' /\ threads c' j = k /\ forall i, i <> j -> threads c' i = threads c i.
  Proof.
    intros Ho [H|[H Hr]]; [destruct (terminal_drops c j k Ho H) as (c' & ([tr R] & T & N) & _)
                          |destruct (screen_drops c j state k Ho Hr H) as (c' & ([tr R] & T & N) & _)]; eauto.
  Qed.
End Unix.

Section Win.
  Context {Wd Dd : Type}.
  Variable M : access Wd Dd.

  Definition wby_itself (c : wconfig Wd Dd) (j : nat) (p : prog) (c' : wconfig Wd Dd) : Prop :=
    (exists tr, wrun M c tr c') /\ wthreads c' j = p /\ (forall i, i <> j -> wthreads c' i = wthreads c i).
  Lemma wby_trans c j p c1 q c2 : wby_itself c j p c1 -> wby_itself c1 j q c2 -> wby_itself c j q c2.
  Proof.
    intros ([tr R] & _ & N) ([tr2 R2] & T & N2). split; [eexists; eapply wrun_trans; eauto|]. split; [exact T|].
    intros i Hi. rewrite N2, N by exact Hi. reflexivity.
  Qed.
  Lemma wby_acq c j l k : wthreads c j = Acq l k -> wowner c l = None ->
    exists c', wby_itself c j k c' /\ wowner c' = set_owner l (Some j) (wowner c).
  Proof.
    intros Ht Ho. destruct c as [t o s]. eexists. split; [split; [eexists; apply wrun_one; apply wstep_acq; eauto|split; [apply set_thread_same|]]|reflexivity].
    intros i Hi. now apply set_thread_other.
  Qed.
  Lemma wby_rel c j l k : wthreads c j = Rel l k -> wowner c l = Some j ->
    exists c', wby_itself c j k c' /\ wowner c' = set_owner l None (wowner c).
  Proof.
    intros Ht Ho. destruct c as [t o s]. eexists. split; [split; [eexists; apply wrun_one; apply wstep_rel; eauto|split; [apply set_thread_same|]]|reflexivity].
    intros i Hi. now apply set_thread_other.
  Qed.
  Lemma wby_act c j a k : wthreads c j = Act a k -> exists r c', wby_itself c j (k r) c' /\ wowner c' = wowner c.
  Proof.
    intros Ht. destruct c as [t o s]. destruct (wmeans M a s) as [s' r] eqn:Hm. do 2 eexists. split; [split; [eexists; apply wrun_one; eapply wstep_act; eauto|split; [apply set_thread_same|]]|reflexivity].
    intros i Hi. now apply set_thread_other.
  Qed.
  Ltac put T := let c := fresh "c" in let A := fresh "A" in let O := fresh "O" in
    destruct T as (c & A & O); pose proof (proj1 (proj2 A)).
  Ltac put2 T := let r := fresh "r" in let c := fresh "c" in let A := fresh "A" in let O := fresh "O" in
    destruct T as (r & c & A & O); pose proof (proj1 (proj2 A)).
  Ltac own := repeat match goal with O : wowner ?c = _ |- context [wowner ?c _] => rewrite O; unfold set_owner; cbn end; auto.
  Ltac walk := first
    [ match goal with H : wthreads ?c ?j = Acq ?l ?k |- _ => put (wby_acq c j l k H ltac:(own)); clear H end
    | match goal with H : wthreads ?c ?j = Rel ?l ?k |- _ => put (wby_rel c j l k H ltac:(own)); clear H end
    | match goal with H : wthreads ?c ?j = Act ?a ?k |- _ => put2 (wby_act c j a k H); clear H; cbv beta in * end ].

  Lemma wterminal_drops c j k : wowner c LWriter = None -> wthreads c j = wdrop_terminal k ->
    exists c', wby_itself c j k c' /\ wowner c' LWriter = None.
  Proof.
    intros Ho Ht. unfold wdrop_terminal, wwith_writer in Ht.
    do 3 (cbv beta in *; walk).
    match goal with H : wthreads ?c j = (match ?r with _ => _ end) |- _ =>
      assert (X : exists c', wby_itself c j k c' /\ wowner c' LWriter = None) end.
    { match goal with H : wthreads ?c j = (match ?r with _ => _ end) |- _ => destruct r;
        [|eexists; split; [split; [exists []; constructor|split; [exact H|reflexivity]]|own]..] end.
      do 2 (cbv beta in *; walk). match goal with H : wthreads ?c j = k |- _ => exists c end. split; [eauto using wby_trans|own]. }
    destruct X as (c' & B & O'). exists c'. split; [eauto 8 using wby_trans|exact O'].
  Qed.

  Lemma wscreen_drops c j state k : wowner c LWriter = None -> (state <> None -> wowner c LReader = None) ->
    wthreads c j = wdrop_screen state k -> exists c', wby_itself c j k c' /\ wowner c' LWriter = None.
  Proof.
    intros Ho Hr Ht.
    assert (Hx : forall c, wowner c LWriter = None ->
      wthreads c j = wwith_writer (fun k => k AOk) (fun _ => wdrop_terminal k) ->
      exists c', wby_itself c j k c' /\ wowner c' LWriter = None).
    { clear. intros c Ho Ht. unfold wwith_writer at 1 in Ht.
      do 2 (cbv beta in *; walk).
      match goal with H : wthreads ?c j = wdrop_terminal k |- _ =>
        destruct (wterminal_drops c j k ltac:(own) H) as (c' & B & O') end.
      exists c'. split; [eauto 6 using wby_trans|exact O']. }
    unfold wdrop_screen in Ht. destruct state as [[m kp]|]; [|now apply Hx].
    specialize (Hr ltac:(discriminate)). unfold with_reader in Ht. unfold wwith_writer at 1 in Ht.
    do 5 (cbv beta in *; try walk).
    match goal with H : wthreads ?c j = (match ?r with _ => _ end) |- _ =>
      assert (X : exists c', wby_itself c j k c' /\ wowner c' LWriter = None) by
       (destruct r; [apply Hx; [own|exact H]|apply wterminal_drops; [own|exact H]..]) end.
    destruct X as (c' & B & O'). exists c'. split; [eauto 8 using wby_trans|exact O'].
  Qed.

  Lemma wdrops (c : wconfig Wd Dd) j state k : wowner c LWriter = None ->
    wthreads c j = wdrop_terminal k \/ wthreads c j = wdrop_screen state k /\ (state <> None -> wowner c LReader = None) ->
    exists tr c', wrun M c tr c' /\ wthreads c' j = k /\ forall i, i <> j -> wthreads c' i = wthreads c i.
  Proof.
    intros Ho [H|[H Hr]]; [destruct (wterminal_drops c j k Ho H) as (c' & ([tr R] & T & N) & _)
                          |destruct (wscreen_drops c j state k Ho Hr H) as (c' & ([tr R] & T & N) & _)]; eauto.
  Qed.
End Win.
