(** Proofs about threads that share the input of a terminal. *)
From Verif Require Import Base M_ReadShare S_Together S_ReadShare.

Section Share.
  Context {St Op An : Type}.
  Variable act : Op -> St -> option (St * An).
  Notation prog := (reader_prog Op An).
  Notation rcode := (reader_code Op An).

  Lemma one_by_one_app : forall l l' s s' s'',
    one_by_one act s l s' -> one_by_one act s' l' s'' -> one_by_one act s (l ++ l') s''.
  Proof. induction 1; cbn; auto. intros. econstructor; eauto. Qed.

  (** Where a thread is in its program. *)
  Inductive stands (p0 : prog) : rcode -> option (list (Op * An)) -> list (list (Op * An)) -> Prop :=
  | St_out q d : proper false q -> (forall l, did None q l -> did None p0 (d ++ l)) -> stands p0 (code q) None d
  | St_in q g d : proper true q -> (forall l, did (Some g) q l -> did None p0 (d ++ l)) ->
      stands p0 (code q) (Some g) d
  | St_call o k d : (forall a, proper false (k a)) ->
      (forall a l, did None (k a) l -> did None p0 (d ++ [(o, a)] :: l)) ->
      stands p0 (KDo o (fun a => KUnlock (code (k a)))) (Some []) d
  | St_called o a q d : proper false q ->
      (forall l, did None q l -> did None p0 (d ++ [(o, a)] :: l)) ->
      stands p0 (KUnlock (code q)) (Some [(o, a)]) d.

  Definition has_reader (c : readers St Op An) (cur : list (Op * An)) (i : nat) : option (list (Op * An)) :=
    match r_owner c with Some j => if Nat.eqb i j then Some cur else None | None => None end.
  Definition shared (ps : list prog) (s : St) (c : readers St Op An) : Prop :=
    exists order cur,
      (forall i, stands (nth i ps HEnd) (r_threads c i) (has_reader c cur i) (done_by i order)) /\
      (r_owner c = None -> cur = []) /\
      one_by_one act s (concat (map snd order) ++ cur) (r_state c).

  Lemma done_by_snoc : forall {A} i j (x : A) l,
    done_by i (l ++ [(j, x)]) = done_by i l ++ if Nat.eqb j i then [x] else [].
  Proof.
    intros. unfold done_by. rewrite filter_app, map_app. cbn. destruct (Nat.eqb j i); reflexivity.
  Qed.

  Lemma shared_start : forall ps s, Forall (proper false) ps -> shared ps s (reader_start ps s).
  Proof.
    intros ps s H. exists [], []. split; [|split; [auto|constructor]].
    intro i. cbn. apply St_out; [|auto].
    destruct (Nat.lt_ge_cases i (length ps)) as [L|L].
    - rewrite Forall_forall in H. apply H, nth_In, L.
    - rewrite nth_overflow by lia. reflexivity.
  Qed.

  Lemma stands_inv_lock : forall p0 x g d k, stands p0 x g d -> x = KLock k ->
    g = None /\ ((exists o kk, k = KDo o (fun a => KUnlock (code (kk a))) /\ stands p0 k (Some []) d) \/
                 (exists q, k = code q /\ stands p0 k (Some []) d)).
  Proof.
    intros p0 x g d k H. destruct H as [q d Hp Hd|q g d Hp Hd|o kk d Hp Hd|o a q d Hp Hd]; intro E; try discriminate.
    - split; auto. destruct q; try discriminate; cbn in E; injection E as <-; cbn in Hp.
      + left. exists o, k0. split; auto. apply St_call; [apply Hp|]. intros. apply Hd. constructor; auto.
      + right. exists q. split; auto. apply St_in; [apply Hp|]. intros. apply Hd. constructor; auto.
    - destruct q; try discriminate; cbn in Hp; destruct Hp; discriminate.
  Qed.

  Lemma shared_step : forall ps s c i c', reader_step act c i c' -> shared ps s c -> shared ps s c'.
  Proof.
    intros ps s c i c' H (order & cur & Ht & Hn & Hp).
    destruct H as [i k f s0 E|i yes no f s0 E|i yes no f j s0 E|i o k f w s0 s1 a E Ea|i k f w s0 E];
      unfold has_reader in Ht; cbn [r_owner r_threads r_state] in *.
    - rewrite (Hn eq_refl) in *. exists order, []. split; [|split; [discriminate|exact Hp]].
      intro j. unfold has_reader, at_thread; cbn. destruct (Nat.eqb_spec j i) as [->|]; [|apply Ht].
      specialize (Ht i). destruct (stands_inv_lock _ _ _ _ _ Ht E) as (_ & [(o & kk & _ & X)|(q & _ & X)]); exact X.
    - rewrite (Hn eq_refl) in *. exists order, []. split; [|split; [discriminate|exact Hp]].
      intro j. unfold has_reader, at_thread; cbn. destruct (Nat.eqb_spec j i) as [->|]; [|apply Ht].
      specialize (Ht i). rewrite E in Ht. inversion Ht as [q d Hq Hd Ec| | |]; subst.
      destruct q; try discriminate. injection Ec as <- <-. cbn in Hq. apply St_in; [apply Hq|].
      intros. apply Hd. apply Di_got; auto.
    - exists order, cur. split; [|split; [discriminate|exact Hp]].
      intro j'. unfold has_reader, at_thread; cbn. destruct (Nat.eqb_spec j' i) as [->|]; [|apply Ht].
      specialize (Ht i). rewrite E in Ht. destruct (Nat.eqb i j).
      + inversion Ht as [|q g d Hq Hd Ec| |]; subst. destruct q; try discriminate. cbn in Hq. destruct Hq; discriminate.
      + inversion Ht as [q d Hq Hd Ec| | |]; subst. destruct q; try discriminate. injection Ec as <- <-.
        cbn in Hq. apply St_out; [apply Hq|]. intros. apply Hd. apply Di_busy; auto.
    - pose proof (Ht i) as X. rewrite E in X.
      assert (Hw : w = Some i).
      { destruct w as [j|]; [destruct (Nat.eqb_spec i j) as [->|]; auto|];
          inversion X as [q d Hq Hd Ec| | |]; subst; destruct q; try discriminate; cbn in Hq; destruct Hq; discriminate. }
      subst w. rewrite Nat.eqb_refl in X. exists order, (cur ++ [(o, a)]). split; [|split; [discriminate|]].
      + intro j. specialize (Ht j). unfold has_reader, at_thread; cbn.
        destruct (Nat.eqb_spec j i) as [Ej|Nj]; [subst j; clear Ht|exact Ht].
        inversion X as [|q g d Hq Hd Ec|o' kk d Hq Hd Ec|]; subst.
        * destruct q; try discriminate. injection Ec as -> <-. cbn in Hq. apply St_in; [apply Hq|].
          intros. apply Hd. eapply Di_guard; eauto.
        * cbn. apply St_called; auto.
      + rewrite app_assoc. eapply one_by_one_app; [exact Hp|]. econstructor; [exact Ea|constructor].
    - pose proof (Ht i) as X. rewrite E in X.
      assert (Hw : w = Some i).
      { destruct w as [j|]; [destruct (Nat.eqb_spec i j) as [->|]; auto|];
          inversion X as [q d Hq Hd Ec| | |]; subst; destruct q; try discriminate; cbn in Hq; destruct Hq; discriminate. }
      subst w. rewrite Nat.eqb_refl in X. exists (order ++ [(i, cur)]), []. split; [|split; [auto|]].
      + intro j. specialize (Ht j). unfold has_reader, at_thread; cbn. rewrite done_by_snoc.
        rewrite (Nat.eqb_sym i j). destruct (Nat.eqb_spec j i) as [Ej|Nj]; [subst j; clear Ht|rewrite app_nil_r; exact Ht].
        inversion X as [|q g d Hq Hd Ec| |o a q d Hq Hd Ec]; subst.
        * destruct q; try discriminate. injection Ec as <-. cbn in Hq. apply St_out; [apply Hq|].
          intros. rewrite <- app_assoc. apply Hd. apply Di_drop; auto.
        * apply St_out; auto. intros. rewrite <- app_assoc. apply Hd. auto.
      + rewrite map_app, concat_app. cbn. rewrite !app_nil_r. exact Hp.
  Qed.

  Lemma shared_run : forall ps s c l c', reader_run act c l c' -> shared ps s c -> shared ps s c'.
  Proof. induction 1; auto. intro. apply IHreader_run. eapply shared_step; eauto. Qed.

  Lemma ended_free : forall ps s c, shared ps s c -> all_ended c -> r_owner c = None.
  Proof.
    intros ps s c (order & cur & Ht & _ & _) He. destruct (r_owner c) as [j|] eqn:Eo; auto.
    specialize (Ht j). unfold has_reader in Ht. rewrite Eo, Nat.eqb_refl, He in Ht.
    inversion Ht as [|q g d Hq Hd Ec| |]; subst. destruct q; discriminate.
  Qed.

  Theorem share_readers : forall ps s l c,
    Forall (proper false) ps -> reader_run act (reader_start ps s) l c -> all_ended c ->
    exists order, (forall i, did None (nth i ps HEnd) (done_by i order)) /\
      one_by_one act s (concat (map snd order)) (r_state c).
  Proof.
    intros ps s l c Hp Hr He. pose proof (shared_run _ _ _ _ _ Hr (shared_start ps s Hp)) as Hi.
    pose proof (ended_free _ _ _ Hi He) as Ho. destruct Hi as (order & cur & Ht & Hn & H1).
    rewrite (Hn Ho), app_nil_r in H1. exists order. split; auto.
    intro i. specialize (Ht i). unfold has_reader in Ht. rewrite Ho, He in Ht.
    inversion Ht as [q d Hq Hd Ec| | |]; subst. destruct q; try discriminate.
    specialize (Hd [] Di_end). rewrite app_nil_r in Hd. exact Hd.
  Qed.

  (** At any moment, finished or not. *)
  Theorem share_so_far : forall ps s l c,
    Forall (proper false) ps -> reader_run act (reader_start ps s) l c ->
    exists calls, one_by_one act s calls (r_state c).
  Proof.
    intros ps s l c Hp Hr. destruct (shared_run _ _ _ _ _ Hr (shared_start ps s Hp)) as (order & cur & _ & _ & H).
    eauto.
  Qed.

  Lemma nth_ended : forall ps i, (length ps <= i)%nat -> code (nth i ps (@HEnd Op An)) = KEnd.
  Proof. intros. rewrite nth_overflow by lia. reflexivity. Qed.

  (** Threads beyond the list never do anything. *)
  Lemma beyond : forall ps s l c, reader_run act (reader_start ps s) l c ->
    forall i, (length ps <= i)%nat -> r_threads c i = KEnd.
  Proof.
    intros ps s l c Hr. assert (H0 : forall i, (length ps <= i)%nat -> r_threads (reader_start ps s) i = KEnd).
    { intros. cbn. apply nth_ended. auto. }
    revert H0. generalize (reader_start ps s) Hr. clear Hr. intros c0 Hr. induction Hr; auto.
    intro H0. apply IHHr. intros j L. specialize (H0 j L).
    destruct H; cbn in *; unfold at_thread; destruct (Nat.eqb_spec j i) as [->|]; auto; congruence.
  Qed.

  Lemma find_busy : forall n (f : nat -> rcode), (exists i, (i < n)%nat /\ f i <> KEnd) \/ forall i, (i < n)%nat -> f i = KEnd.
  Proof.
    induction n as [|n IH]; intro f; [right; lia|]. destruct (IH f) as [(i & L & H)|H].
    - left. exists i. split; [lia|auto].
    - destruct (f n) eqn:E; [right; intros i L; destruct (Nat.eq_dec i n) as [->|]; auto; apply H; lia|..];
        left; exists n; split; try lia; congruence.
  Qed.

  (** Threads get stuck only because a call does not return. *)
  Theorem stuck_waiting : forall ps s l c,
    Forall (proper false) ps -> reader_run act (reader_start ps s) l c -> stuck act c ->
    exists i o k, r_owner c = Some i /\ r_threads c i = KDo o k /\ act o (r_state c) = None.
  Proof.
    intros ps s l c Hp Hr (Hne & Hno).
    pose proof (beyond _ _ _ _ Hr) as Hb.
    destruct (shared_run _ _ _ _ _ Hr (shared_start ps s Hp)) as (order & cur & Ht & Hn & _).
    destruct c as [f w s0]; cbn in *. destruct w as [j|].
    - specialize (Ht j). unfold has_reader in Ht. cbn in Ht. rewrite Nat.eqb_refl in Ht.
      exists j. destruct (f j) eqn:E.
      + inversion Ht as [|q g d Hq Hd Ec| |]; subst. destruct q; discriminate.
      + inversion Ht as [|q g d Hq Hd Ec| |]; subst. destruct q; try discriminate; cbn in Hq; destruct Hq; discriminate.
      + inversion Ht as [|q g d Hq Hd Ec| |]; subst. destruct q; try discriminate; cbn in Hq; destruct Hq; discriminate.
      + exists o, k. repeat split; auto. destruct (act o s0) as [[s1 a]|] eqn:Ea; auto.
        exfalso. apply (Hno j (Readers (at_thread j (k a) f) (Some j) s1)). econstructor; eauto.
      + exfalso. eapply Hno. apply Rs_unlock. exact E.
    - exfalso. apply Hne. intro i. destruct (Nat.lt_ge_cases i (length ps)) as [L|L]; [|auto].
      specialize (Ht i). unfold has_reader in Ht. cbn in Ht. cbn. destruct (f i) eqn:E; auto; exfalso.
      + eapply Hno. eapply Rs_lock. exact E.
      + eapply Hno. eapply Rs_try. exact E.
      + inversion Ht as [q d Hq Hd Ec| | |]; subst. destruct q; try discriminate; cbn in Hq; destruct Hq; discriminate.
      + inversion Ht as [q d Hq Hd Ec| | |]; subst. destruct q; try discriminate; cbn in Hq; destruct Hq; discriminate.
  Qed.

  (** The calls made are of the kind the programs make. *)
  Lemma did_only : forall P g p l, did g p l -> calls_only P p ->
    (forall g0 : list (Op * An), g = Some g0 -> Forall P (map fst g0)) -> Forall P (map fst (concat l)).
  Proof.
    intros P g p l H. induction H; cbn; intros Hc Hg.
    - constructor.
    - constructor; [apply Hc|]. apply IHdid; [apply Hc|discriminate].
    - apply IHdid; auto. intros ? [= <-]. constructor.
    - apply IHdid; [apply Hc|]. intros ? [= <-]. constructor.
    - apply IHdid; [apply Hc|discriminate].
    - apply IHdid; [apply Hc|]. intros ? [= <-]. rewrite map_app. apply Forall_app. split; [auto|].
      repeat constructor. apply Hc.
    - rewrite map_app. apply Forall_app. split; [auto|]. apply IHdid; [auto|discriminate].
  Qed.
  Lemma did_in : forall (order : list (nat * list (Op * An))) x, In x order -> In (snd x) (done_by (fst x) order).
  Proof.
    intros order x H. unfold done_by. apply in_map. apply filter_In. split; auto. apply Nat.eqb_refl.
  Qed.
  Lemma order_only : forall P ps (order : list (nat * list (Op * An))), Forall (calls_only P) ps ->
    (forall i, did None (nth i ps HEnd) (done_by i order)) -> Forall P (map fst (concat (map snd order))).
  Proof.
    intros P ps order Hp Hd. rewrite Forall_forall. intros o Ho. apply in_map_iff in Ho.
    destruct Ho as (x & <- & Hx). apply in_concat in Hx. destruct Hx as (y & Hy & Hx).
    apply in_map_iff in Hy. destruct Hy as (z & <- & Hz).
    assert (Hc : calls_only P (nth (fst z) ps HEnd)).
    { destruct (Nat.lt_ge_cases (fst z) (length ps)) as [L|L].
      - rewrite Forall_forall in Hp. apply Hp, nth_In, L.
      - rewrite nth_overflow by lia. exact I. }
    assert (G := did_only P _ _ _ (Hd (fst z)) Hc ltac:(discriminate)). rewrite Forall_forall in G.
    apply G. apply in_map. apply in_concat. exists (snd z). split; auto. apply did_in. auto.
  Qed.

  (** A thread that waits for ever keeps all the others waiting. *)
  Definition kept (c : readers St Op An) (i : nat) (o : Op) (k : An -> rcode) : Prop :=
    r_owner c = Some i /\ r_threads c i = KDo o k /\ act o (r_state c) = None /\
    forall j, j <> i -> exists q, r_threads c j = code q /\ proper false q.
  Lemma kept_step : forall c i0 c1 i o k, reader_step act c i0 c1 -> kept c i o k ->
    kept c1 i o k /\ forall j kk, r_threads c j = KLock kk -> r_threads c1 j = KLock kk.
  Proof.
    intros c i0 c1 i o k Hs (Ho & Ht & Ha & Hj).
    destruct Hs as [i0 k0 f s0 E|i0 yes no f s0 E|i0 yes no f j s0 E|i0 o0 k0 f w s0 s1 a E Ea|i0 k0 f w s0 E];
      cbn in *; try discriminate.
    - destruct (Nat.eq_dec i0 i) as [->|N]; [congruence|]. split; [split; [|split; [|split]]|]; cbn; auto.
      + unfold at_thread. destruct (Nat.eqb_spec i i0); congruence.
      + intros j' Hj'. unfold at_thread. destruct (Nat.eqb_spec j' i0) as [->|]; auto.
        destruct (Hj _ N) as (q & Eq & Hq). rewrite E in Eq. destruct q; try discriminate.
        injection Eq as -> ->. cbn in Hq. exists q2. split; auto. apply Hq.
      + intros j' kk Hk. unfold at_thread. destruct (Nat.eqb_spec j' i0) as [->|]; auto. congruence.
    - destruct (Nat.eq_dec i0 i) as [->|N]; [congruence|].
      destruct (Hj _ N) as (q & Eq & Hq). rewrite E in Eq. destruct q; try discriminate. cbn in Hq. destruct Hq; discriminate.
    - destruct (Nat.eq_dec i0 i) as [->|N]; [congruence|].
      destruct (Hj _ N) as (q & Eq & Hq). rewrite E in Eq. destruct q; try discriminate. cbn in Hq. destruct Hq; discriminate.
  Qed.
  Lemma kept_run : forall c l c1 i o k, reader_run act c l c1 -> kept c i o k ->
    forall j kk, r_threads c j = KLock kk -> r_threads c1 j = KLock kk.
  Proof.
    induction 1; auto. intros Hk j kk Hj. destruct (kept_step _ _ _ _ _ _ H Hk). auto.
  Qed.
  Theorem kept_waiting : forall o k ps s, act o s = None -> Forall (proper false) ps ->
    exists c, reader_run act (reader_start (HCall o k :: ps) s) [0%nat] c /\
      forall l c', reader_run act c l c' -> forall j o' k', nth_error ps j = Some (HCall o' k') ->
        r_threads c' (S j) = code (HCall o' k').
  Proof.
    intros o k ps s Ha Hp. eexists. split; [econstructor; [eapply Rs_lock; reflexivity|constructor]|].
    intros l c' Hr j o' k' Hj. refine (kept_run _ _ _ _ _ _ Hr _ _ _ _).
    - split; [reflexivity|]. split; [reflexivity|]. split; [exact Ha|]. intros [|i] Hi; [congruence|].
      exists (nth i ps HEnd). split; [reflexivity|]. destruct (Nat.lt_ge_cases i (length ps)) as [L|L].
      + rewrite Forall_forall in Hp. apply Hp, nth_In, L.
      + rewrite nth_overflow by lia. reflexivity.
    - cbn. rewrite (nth_error_nth _ _ _ Hj). reflexivity.
  Qed.
End Share.
