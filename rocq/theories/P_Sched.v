(** Computing schedules, for the examples (C105, C106). *)
From Verif Require Import Base M_Utf8 M_Geom S_Geom M_Attr M_Buf S_Buf M_Writer S_Tty S_Writer M_Screen S_Screen S_Emu P_Emu P_Screen5
  M_ScreenApi S_Canvas P_Canvas2 M_Locks S_Locks S_Together.

Section Sched.
  Variables (E : env) (C : tcfg).

  (** The next step of thread [i], if it can take one without an answer of the environment. *)
  Definition sstep (i : nat) (c : config) : option (event * config) :=
    let '(Config t o s) := c in
    match t i with
    | Acq l k => match o l with
                 | None => Some (EvAcq i l, Config (set_thread i k t) (set_owner l (Some i) o) s)
                 | Some _ => None
                 end
    | TryAcq l k k' => match o l with
                       | None => Some (EvAcq i l, Config (set_thread i k t) (set_owner l (Some i) o) s)
                       | Some _ => Some (EvOther i, Config (set_thread i k' t) o s)
                       end
    | Rel l k => match o l with
                 | Some j => if j =? i then Some (EvRel i l, Config (set_thread i k t) (set_owner l None o) s) else None
                 | None => None
                 end
    | Act a k => let '(s', r) := meaning E C a s in Some (EvAct i a r, Config (set_thread i (k r) t) o s')
    | _ => None
    end.
  Lemma sstep_ok i c e c' : sstep i c = Some (e, c') -> step E C c e c'.
  Proof.
    destruct c as [t o s]. cbn. destruct (t i) as [|l k|l k k'|l k|a k|k] eqn:Et; try discriminate.
    - destruct (o l) eqn:Eo; [discriminate|]. intros H. injection H as <- <-. now constructor.
    - destruct (o l) as [j|] eqn:Eo; intros H; injection H as <- <-.
      + apply step_try_no with (l := l) (k := k) (j := j); assumption.
      + apply step_try_yes with (k' := k'); assumption.
    - destruct (o l) as [j|] eqn:Eo; [|discriminate]. destruct (Nat.eqb_spec j i) as [->|]; [|discriminate].
      intros H. injection H as <- <-. now constructor.
    - destruct (meaning E C a s) as [s' r] eqn:Em. intros H. injection H as <- <-. now constructor.
  Qed.

  Fixpoint srun (l : list nat) (tr : list event) (c : config) : option (list event * config) :=
    match l with
    | [] => Some (tr, c)
    | i :: l => match sstep i c with Some (e, c) => srun l (tr ++ [e]) c | None => None end
    end.
  Lemma srun_ok l : forall tr c0 c tr' c', run E C c0 tr c -> srun l tr c = Some (tr', c') -> run E C c0 tr' c'.
  Proof.
    induction l as [|i l IH]; intros tr c0 c tr' c' R H; cbn in H.
    - now injection H as <- <-.
    - destruct (sstep i c) as [[e c1]|] eqn:Es; [|discriminate]. refine (IH _ _ _ _ _ _ H).
      eapply run_snoc; [exact R|exact (sstep_ok _ _ _ _ Es)].
  Qed.
End Sched.

Definition is_fail (e : event) : bool := match e with EvAct _ _ (AErr _) => true | _ => false end.
Lemma no_fail_ok tr : existsb is_fail tr = false -> no_failure tr.
Proof.
  intros H i a e Hi. assert (X : existsb is_fail tr = true); [|congruence].
  apply existsb_exists. exists (EvAct i a (AErr e)). auto.
Qed.
Definition is_done (p : prog) : bool := match p with Done => true | _ => false end.

(** Threads [0 .. n-1] draw on a new screen of a terminal with the given schedule, to the
    end; test the terminal's view. *)
Section Demo.
  Variable E : env.
  Hypothesis HE : env_ok E.

  Definition together (sz : size) (sc : list wresp) (progs : list (list doing)) (sch : list nat) (P : view -> bool) : bool :=
    match P_Screen5.start E sz sc with
    | Some (s, t) =>
        match srun E ansi_cfg sch [] (start (map doings_client progs) (share s)) with
        | Some (tr, c) =>
            forallb (fun i => is_done (threads c i)) (seq 0 (length progs)) && negb (existsb is_fail tr) &&
            match shared c with
            | (Some w', Some d') =>
                match grown s (Scr (dbuf d') (dclr d') (dreal d') w') with
                | Some x => match look (ansi_tty E) (feed (ansi_tty E) t x) with Some v => P v | None => false end
                | None => false
                end
            | _ => false
            end
        | None => false
        end
    | None => false
    end.

  Lemma thread_past (progs : list (list doing)) s tr c i : run E ansi_cfg (start (map doings_client progs) s) tr c ->
    length progs <= i -> threads c i = Done.
  Proof.
    intros R Hi. remember (start (map doings_client progs) s) as c0 eqn:Ec. induction R as [|tr c1 e c2 R IH St].
    - subst. cbn. rewrite nth_overflow; [reflexivity|]. now rewrite map_length.
    - destruct St as [j l k t o d Ht Ho|j l k k' t o d Ht Ho|j l k k' j' t o d Ht Ho
                   |j l k t o d Ht Ho|j a k t o d d' r Ht Ho|j k x t o d Ht]; cbn [threads] in *;
      unfold set_thread; destruct (Nat.eqb_spec i j) as [->|]; auto; congruence.
  Qed.

  Lemma together_ok sz sc progs sch P : screen_size sz -> whole_writes sc -> together sz sc progs sch P = true ->
    exists s t tr c w' d' x v, painted E ansi_cfg (ansi_tty E) s t (blank_canvas sz) /\
      run E ansi_cfg (start (map doings_client progs) (share s)) tr c /\ finished c /\ no_failure tr /\
      shared c = (Some w', Some d') /\ stream w' = stream (wr s) ++ x /\
      look (ansi_tty E) (feed (ansi_tty E) t x) = Some v /\ P v = true.
  Proof.
    intros Hs Hw H. unfold together in H. destruct (P_Screen5.start E sz sc) as [[s t]|] eqn:Es; [|discriminate].
    destruct (srun _ _ _ _ _) as [[tr c]|] eqn:Er; [|discriminate].
    apply andb_prop in H. destruct H as [H H3]. apply andb_prop in H. destruct H as [H1 H2].
    destruct (shared c) as [[w'|] [d'|]] eqn:Ec; try discriminate.
    destruct (grown _ _) as [x|] eqn:Eg; [|discriminate]. destruct (look _ _) as [v|] eqn:El; [|discriminate].
    assert (R := srun_ok E ansi_cfg sch [] _ _ tr c (run_nil _ _ _) Er).
    exists s, t, tr, c, w', d', x, v. split; [|split; [exact R|split; [|split; [|split; [exact Ec|split; [|split; [exact El|exact H3]]]]]]].
    - unfold P_Screen5.start in Es. destruct (screen_new _ _ _ _ _) as [s2 []| | |] eqn:En; try discriminate.
      injection Es as <- <-.
      apply (Pt_new E ansi_cfg (ansi_tty E) sz (writer_new (N.to_nat 8192) sc) s2 (emu_new sz)
        (View sz (repeat (VC [SPACE] no_attrs) (total sz)) (Cursor 0 0) no_attrs true)); auto.
      cbn [stream writer_new dev obuf app]. rewrite (feed_nil _ _ _ (ansi_implements E HE)). apply emu_new_look.
    - intros i. destruct (Nat.lt_ge_cases i (length progs)) as [Hi|Hi]; [|exact (thread_past _ _ _ _ _ R Hi)].
      rewrite forallb_forall in H1. specialize (H1 i). rewrite in_seq in H1. specialize (H1 ltac:(lia)).
      destruct (threads c i); try discriminate. reflexivity.
    - apply no_fail_ok. now destruct (existsb is_fail tr).
    - exact (grown_ok _ _ _ Eg).
  Qed.
End Demo.
