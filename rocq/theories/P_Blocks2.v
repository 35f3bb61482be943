(** Proofs about what threads write together: one [term_write!] is one piece (C92). *)
From Verif Require Import Base M_Utf8 P_Utf8 M_Geom M_Attr M_Buf M_Writer S_Writer P_Writer P_Writer2 M_Screen M_Locks S_Locks P_Locks P_Locks2 S_Blocks P_Blocks.

Inductive performed : list wop -> list (act * ans) -> Prop :=
| pf_end : performed [] []
| pf_next o ops l : performed ops l -> performed (o :: ops) ((AW (WOp o), AOk) :: l)
| pf_error o ops r : r <> AOk -> performed (o :: ops) [(AW (WOp o), r)].

Definition macro_sess (ops : list wop) (l : list (act * ans)) : Prop :=
  exists l' r, performed ops l' /\ l = l' ++ [(AW WGuardDrop, r)].

Definition oks (ops : list wop) : list (act * ans) := map (fun o => (AW (WOp o), AOk)) ops.

Lemma performed_app a b l : performed b l -> performed (a ++ b) (oks a ++ l).
Proof. intros H. induction a as [|o a IH]; [exact H|]. now constructor. Qed.

Lemma piece_app l1 : forall l2 x, piece (l1 ++ l2) x -> exists x1 x2, x = x1 ++ x2 /\ piece l1 x1 /\ piece l2 x2.
Proof.
  induction l1 as [|[a r] l1 IH]; intros l2 x H; cbn [app] in H.
  - exists [], x. repeat split; [constructor|exact H].
  - inversion H as [|? ? ? x0 y0 Hg Hp]; subst. destruct (IH _ _ Hp) as (x1 & x2 & -> & P1 & P2).
    exists (x0 ++ x1), x2. rewrite app_assoc. repeat split; [now constructor|exact P2].
Qed.

Lemma performed_bytes ops l : performed ops l -> forall x, piece l x -> macro_bytes ops x.
Proof.
  induction 1 as [|o ops l H IH|o ops r Hr]; intros x P.
  - inversion P; subst. constructor.
  - inversion P as [|? ? ? x0 y0 Hg Hp]; subst. constructor; [exact Hg|now apply IH].
  - inversion P as [|? ? ? x0 y0 Hg Hp]; subst. inversion Hp; subst. rewrite app_nil_r.
    destruct r as [|e| | | |]; cbn in Hg; try contradiction. now apply mb_error with (e := e).
Qed.

Lemma macro_sess_bytes ops l x : macro_sess ops l -> piece l x -> macro_bytes ops x.
Proof.
  intros (l' & r & Hp & ->) H. apply piece_app in H. destruct H as (x1 & x2 & -> & P1 & P2).
  inversion P2 as [|? ? ? x0 y0 Hg Hq]; subst. inversion Hq; subst. cbn in Hg. subst x0.
  rewrite !app_nil_r. eapply performed_bytes; eauto.
Qed.

Lemma macros_follow b progs : follows b None None (macros_client progs).
Proof.
  induction progs as [|ops progs IH]; [cbn; auto|].
  change (macros_client (ops :: progs)) with (macro_client ops (macros_client progs)).
  set (k := macros_client progs) in *. clearbody k. cbn. split; [reflexivity|]. intros _.
  induction ops as [|o ops IHo]; cbn.
  - split; [reflexivity|]. intros _. exact IH.
  - split; [reflexivity|]. intros [| | | | |]; try exact IHo; cbn; (split; [reflexivity|]); intros _; exact IH.
Qed.

(** Where a thread running such calls is. *)
Inductive at_point (progs : list (list wop)) : prog -> sess -> Prop :=
| ap_between done rest ss : progs = done ++ rest -> Forall2 macro_sess done ss ->
    at_point progs (compile (macros_client rest)) (Sess false false [] ss)
| ap_inside done ops1 ops2 rest ss : progs = done ++ (ops1 ++ ops2) :: rest -> Forall2 macro_sess done ss ->
    at_point progs (compile (macro_body ops2 (macros_client rest))) (Sess true false (oks ops1) ss)
| ap_failed done ops rest l ss : progs = done ++ ops :: rest -> Forall2 macro_sess done ss -> performed ops l ->
    at_point progs (drop_writer (compile (macros_client rest))) (Sess true false l ss)
| ap_drop done ops rest l ss : progs = done ++ ops :: rest -> Forall2 macro_sess done ss -> macro_sess ops l ->
    at_point progs (Rel LWriter (compile (macros_client rest))) (Sess true false l ss).

Definition at_point' progs p s : Prop := exists q t, p = q /\ s = t /\ at_point progs q t.
Lemma at_point_intro progs p s q t : at_point progs q t -> p = q -> s = t -> at_point progs p s.
Proof. now intros H -> ->. Qed.

Section Run.
  Variables (E : env) (C : tcfg).

  Lemma point_step progs i c e c' s : at_point progs (threads c i) s -> step E C c e c' ->
    at_point progs (threads c' i) (sess_step i s e).
  Proof.
    intros H St.
    destruct St as [j l k t o d Ht Ho|j l k k' t o d Ht Ho|j l k k' j' t o d Ht Ho
                   |j l k t o d Ht Ho|j a k t o d d' r Ht Ho|j k x t o d Ht]; cbn [threads] in *;
      (destruct (Nat.eq_dec i j) as [<-|Hj];
       [rewrite set_thread_same; rewrite Ht in H
       |rewrite set_thread_other by exact Hj;
        rewrite sess_other by (cbn; congruence); exact H]).
    - inversion H as [done rest ss Hp HF Hq|done ops1 ops2 rest ss Hp HF Hq|done ops rest l' ss Hp HF Hpf Hq|done ops rest l' ss Hp HF Hm Hq]; subst.
      + destruct rest as [|ops rest]; [discriminate Hq|]. cbn in Hq. injection Hq as <- <-.
        cbn [sess_step]. rewrite Nat.eqb_refl. cbn.
        apply (at_point_intro _ _ _ (compile (macro_body ops (macros_client rest))) (Sess true false (oks []) ss));
          [|reflexivity|reflexivity].
        now apply ap_inside with (done := done).
      + destruct ops2; discriminate Hq.
    - inversion H as [done rest ss Hp HF Hq|done ops1 ops2 rest ss Hp HF Hq|done ops rest l' ss Hp HF Hpf Hq|done ops rest l' ss Hp HF Hm Hq]; subst.
      + destruct rest as [|ops rest]; discriminate Hq.
      + destruct ops2; discriminate Hq.
    - inversion H as [done rest ss Hp HF Hq|done ops1 ops2 rest ss Hp HF Hq|done ops rest l' ss Hp HF Hpf Hq|done ops rest l' ss Hp HF Hm Hq]; subst.
      + destruct rest as [|ops rest]; discriminate Hq.
      + destruct ops2; discriminate Hq.
    - inversion H as [done rest ss Hp HF Hq|done ops1 ops2 rest ss Hp HF Hq|done ops rest l' ss Hp HF Hpf Hq|done ops rest l' ss Hp HF Hm Hq]; subst.
      + destruct rest as [|ops rest]; discriminate Hq.
      + destruct ops2; discriminate Hq.
      + cbn [sess_step]. rewrite Nat.eqb_refl. cbn.
        apply ap_between with (done := done ++ [ops]); [now rewrite <- app_assoc|].
        apply Forall2_app; [exact HF|]. now constructor.
    - inversion H as [done rest ss Hp HF Hq|done ops1 ops2 rest ss Hp HF Hq|done ops rest l' ss Hp HF Hpf Hq|done ops rest l' ss Hp HF Hm Hq]; subst.
      + destruct rest as [|ops rest]; discriminate Hq.
      + destruct ops2 as [|o2 ops2]; cbn in Hq; injection Hq as <- <-.
        * cbn [sess_step]. rewrite Nat.eqb_refl. cbn.
          eapply ap_drop; [reflexivity|exact HF|]. rewrite app_nil_r.
          exists (oks ops1), r. split; [|reflexivity].
          rewrite <- (app_nil_r ops1) at 1. rewrite <- (app_nil_r (oks ops1)). apply performed_app. constructor.
        * cbn [sess_step]. rewrite Nat.eqb_refl. cbn.
          destruct r as [|e2| |sz2|n2|].
          { apply (at_point_intro _ _ _ (compile (macro_body ops2 (macros_client rest))) (Sess true false (oks (ops1 ++ [o2])) ss)).
            - eapply ap_inside; [|exact HF]. rewrite <- app_assoc. reflexivity.
            - reflexivity.
            - unfold oks. now rewrite map_app. }
          all: eapply ap_failed; [reflexivity|exact HF|]; apply performed_app, pf_error; intros X; discriminate X.
      + cbn [sess_step]. rewrite Nat.eqb_refl. cbn.
        eapply ap_drop; [reflexivity|exact HF|]. exists l', r. auto.
    - inversion H as [done rest ss Hp HF Hq|done ops1 ops2 rest ss Hp HF Hq|done ops rest l' ss Hp HF Hpf Hq|done ops rest l' ss Hp HF Hm Hq]; subst.
      + destruct rest as [|ops rest]; discriminate Hq.
      + destruct ops2; discriminate Hq.
  Qed.

  Lemma point_run progs i c tr c' : run E C c tr c' -> at_point progs (threads c i) (Sess false false [] []) ->
    at_point progs (threads c' i) (sess_of i tr).
  Proof.
    intros R H. induction R as [|tr c1 e c2 R IH St]; [exact H|].
    rewrite sess_snoc. eapply point_step; eauto.
  Qed.

  Lemma macro_sessions progs s tr c i : run E C (start (map macros_client progs) s) tr c -> finished c ->
    Forall2 macro_sess (nth i progs []) (sessions i tr).
  Proof.
    intros R F.
    assert (P : at_point (nth i progs []) (threads c i) (sess_of i tr)).
    { eapply point_run; [exact R|]. cbn [start threads].
      change Finish with (macros_client []). rewrite map_nth.
      apply ap_between with (done := []) (rest := nth i progs []); [reflexivity|constructor]. }
    rewrite (F i) in P. unfold sessions.
    inversion P as [done rest ss Hp HF Hq|done ops1 ops2 rest ss Hp HF Hq|done ops rest l' ss Hp HF Hpf Hq|done ops rest l' ss Hp HF Hm Hq]; subst.
    - destruct rest as [|ops rest]; [|discriminate Hq]. rewrite app_nil_r in Hp. rewrite Hp. exact HF.
    - destruct ops2; discriminate Hq.
  Qed.

  Lemma macros_in_pieces progs w d tr c w' :
    run E C (start (map macros_client progs) (Some w, d)) tr c -> finished c ->
    whole_writes (script w) -> fst (shared c) = Some w' ->
    exists blocks : list (nat * bytes), stream w' = stream w ++ concat (map snd blocks) /\
      forall i : nat, Forall2 macro_bytes (nth i progs []) (of_thread i blocks).
  Proof.
    intros R F Hw Hs.
    assert (L : forall b, Forall (follows b None None) (map macros_client progs)).
    { intros b. apply Forall_forall. intros p Hp. apply in_map_iff in Hp. destruct Hp as (l & <- & _). apply macros_follow. }
    assert (U := finished_unlocked E C _ _ _ _ (L true) R F).
    destruct (sessions_in_pieces E C _ w d tr c w' (L false) R (U LWriter) (U LData) Hw Hs) as (blocks & B1 & B2).
    exists blocks. split; [exact B1|]. intros i.
    pose proof (macro_sessions progs _ tr c i R F) as M. specialize (B2 i).
    revert B2. generalize (of_thread i blocks). revert M. generalize (sessions i tr). generalize (nth i progs []).
    intros l ss M. induction M as [|ops s l ss Hm M IH]; intros bs B; inversion B; subst; constructor; auto.
    eapply macro_sess_bytes; eauto.
  Qed.

  (** Text on a device that takes everything. *)
  Lemma text_performed strs l : performed (map OWriteStr strs) l -> forall w d w' d', perfect (script w) ->
    replays E C l (Some w, d) (Some w', d') ->
    perfect (script w') /\ stream w' = stream w ++ utf8s (concat strs).
  Proof.
    remember (map OWriteStr strs) as ops eqn:Eo. intros P. revert strs Eo.
    induction P as [|o ops l P IH|o ops r Hr]; intros strs Eo w d w' d' Hp H.
    - destruct strs; [|discriminate Eo]. cbn in H. injection H as <- <-. split; [exact Hp|]. cbn. now rewrite app_nil_r.
    - destruct strs as [|s strs]; [discriminate Eo|]. cbn [map] in Eo. injection Eo as -> Eo.
      cbn [replays meaning wmeaning] in H. destruct H as [_ H].
      pose proof (write_bytes_perfect C (utf8s s) w Hp) as G1.
      pose proof (write_bytes_whole C (utf8s s) w (perfect_whole _ Hp)) as G2.
      unfold run_wop in H. unfold write_str in H.
      destruct (write_bytes C (utf8s s) w) as [w1 u|w1 e| |]; try contradiction; cbn in H.
      + destruct (IH strs Eo w1 d w' d' G1 H) as [I1 I2]. split; [exact I1|].
        destruct G2 as (_ & _ & G2). cbn [concat]. rewrite utf8s_app, I2, G2, app_assoc. reflexivity.
      + apply replays_gone in H. discriminate H.
    - destruct strs as [|s strs]; [discriminate Eo|]. cbn [map] in Eo. injection Eo as -> Eo.
      cbn [replays meaning wmeaning] in H. destruct H as [H1 H].
      pose proof (write_bytes_perfect C (utf8s s) w Hp) as G1.
      unfold run_wop in H, H1. unfold write_str in H, H1.
      destruct (write_bytes C (utf8s s) w) as [w1 u|w1 e| |]; try contradiction; cbn in H, H1.
      + congruence.
      + discriminate H.
  Qed.

  Lemma text_session strs l w d w' d' : macro_sess (map OWriteStr strs) l -> perfect (script w) -> obuf w = [] ->
    replays E C l (Some w, d) (Some w', d') ->
    perfect (script w') /\ obuf w' = [] /\ dev w' = dev w ++ utf8s (concat strs).
  Proof.
    intros (l' & r & P & ->) Hp Ho H. apply replays_app in H.
    destruct H as ([[w1|] d1] & H1 & H2); [|apply replays_gone in H2; discriminate H2].
    destruct (text_performed strs l' P w d w1 d1 Hp H1) as [P1 S1].
    cbn [replays meaning wmeaning] in H2. destruct H2 as [_ H2]. unfold guard_drop in H2.
    pose proof (flush_perfect w1 P1) as F.
    destruct (flush w1) as [w2 u|w2 e| |]; try contradiction; cbn in H2.
    - injection H2 as <- <-. destruct F as (F1 & F2 & F3 & _). repeat split; auto.
      rewrite F3, S1. unfold stream. now rewrite Ho, app_nil_r.
    - discriminate H2.
  Qed.

  Definition mine (i : nat) (order : list (nat * list (act * ans))) : list (list (act * ans)) :=
    map snd (filter (fun x => fst x =? i) order).

  Lemma text_order order : forall (want : nat -> list (list (list N))) w d w' d', perfect (script w) -> obuf w = [] ->
    (forall i, Forall2 macro_sess (map (map OWriteStr) (want i)) (mine i order)) ->
    replays E C (concat (map snd order)) (Some w, d) (Some w', d') ->
    obuf w' = [] /\ exists blocks : list (nat * bytes), dev w' = dev w ++ concat (map snd blocks) /\
      forall i : nat, of_thread i blocks = map (fun strs => utf8s (concat strs)) (want i).
  Proof.
    induction order as [|[j l] order IH]; intros want w d w' d' Hp Ho HF H; cbn [map concat snd] in H.
    - cbn in H. injection H as <- <-. split; [exact Ho|]. exists []. cbn. rewrite app_nil_r. split; [reflexivity|].
      intros i. specialize (HF i). cbn in HF. inversion HF as [E1|]. destruct (want i); [reflexivity|discriminate].
    - apply replays_app in H. destruct H as ([[w1|] d1] & H1 & H2); [|apply replays_gone in H2; discriminate H2].
      assert (Hj := HF j). unfold mine in Hj. cbn [filter fst] in Hj. rewrite Nat.eqb_refl in Hj. cbn [map snd] in Hj.
      destruct (want j) as [|strs rest] eqn:Ew; [inversion Hj|]. cbn [map] in Hj.
      inversion Hj as [|? ? ? ? Hm Hrest]; subst.
      destruct (text_session strs l w d w1 d1 Hm Hp Ho H1) as (P1 & O1 & D1).
      destruct (IH (fun i => if j =? i then rest else want i) w1 d1 w' d' P1 O1) as (O2 & blocks & D2 & F2).
      + intros i. specialize (HF i). unfold mine in HF |- *. cbn [filter fst] in HF.
        destruct (Nat.eqb_spec j i) as [Ei|Ei]; [subst i; exact Hrest|exact HF].
      + exact H2.
      + split; [exact O2|]. exists ((j, utf8s (concat strs)) :: blocks). cbn [map concat snd].
        rewrite D2, D1, app_assoc. split; [reflexivity|].
        intros i. specialize (F2 i). unfold of_thread in *. cbn [filter fst].
        destruct (Nat.eqb_spec j i) as [Ei|Ei]; [|exact F2].
        subst i. rewrite Ew. cbn [map snd]. f_equal. exact F2.
  Qed.

  Lemma texts_in_order (progs : list (list (list (list N)))) w d tr c w' :
    run E C (start (map (fun l => macros_client (map (map OWriteStr) l)) progs) (Some w, d)) tr c -> finished c ->
    perfect (script w) -> obuf w = [] -> fst (shared c) = Some w' ->
    obuf w' = [] /\ exists blocks : list (nat * bytes), dev w' = dev w ++ concat (map snd blocks) /\
      forall i : nat, of_thread i blocks = map (fun strs => utf8s (concat strs)) (nth i progs []).
  Proof.
    intros R F Hp Ho Hs.
    rewrite <- (map_map (map (map OWriteStr)) macros_client) in R.
    set (ops := map (map (map OWriteStr)) progs) in *.
    assert (L : forall b, Forall (follows b None None) (map macros_client ops)).
    { intros b. apply Forall_forall. intros p Hq. apply in_map_iff in Hq. destruct Hq as (l & <- & _). apply macros_follow. }
    assert (U := finished_unlocked E C _ _ _ _ (L true) R F).
    destruct (sessions_atomic E C _ _ tr c (L false) R (U LWriter) (U LData)) as (order & O1 & O2).
    destruct (shared c) as [w1 d1]. cbn in Hs. subst w1.
    apply (text_order order (fun i => nth i progs []) w d w' d1 Hp Ho); [|exact O2].
    intros i. unfold mine. rewrite O1. pose proof (macro_sessions ops _ tr c i R F) as M.
    unfold ops in M. change [] with (map (map OWriteStr) []) in M at 1. rewrite map_nth in M. exact M.
  Qed.
End Run.
