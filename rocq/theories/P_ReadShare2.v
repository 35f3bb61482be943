(** Threads that share the input of a Unix terminal or a Windows console. *)
From Verif Require Import Base M_Utf8 S_Utf8 M_Geom M_Seq S_Seq M_Signal M_Util M_Input S_Input M_Buf M_Writer M_Prepare
  M_Reader S_Reader S_Typing P_Typing M_WinWriter M_WinReader S_WinReader P_WinReader S_Together M_ReadShare S_ReadShare P_ReadShare.

Lemma unix_replay : forall C m s l s', one_by_one (unix_act C m) s l s' ->
  rrun C m (map fst l) s = Some (s', map snd l).
Proof.
  induction 1 as [|s o a l s' s'' H _ IH]; cbn [rrun map fst snd]; auto.
  unfold unix_act in H. rewrite H, IH. reflexivity.
Qed.
Lemma win_replay : forall E s l s', one_by_one (win_act E) s l s' ->
  run_wr E (map fst l) s = Some (s', map snd l).
Proof.
  induction 1 as [|s o a l s' s'' H _ IH]; cbn [run_wr map fst snd]; auto.
  unfold win_act in H. destruct (S_WinReader.rop E o s); try discriminate. injection H as -> ->. rewrite IH. reflexivity.
Qed.

Theorem unix_share : forall C m ps s l c, Forall (proper false) ps ->
  reader_run (unix_act C m) (reader_start ps s) l c -> all_ended c ->
  exists order, (forall i, did None (nth i ps HEnd) (done_by i order)) /\
    rrun C m (map fst (concat (map snd order))) s = Some (r_state c, map snd (concat (map snd order))).
Proof.
  intros C m ps s l c Hp Hr He. destruct (share_readers _ _ _ _ _ Hp Hr He) as (order & A & B).
  exists order. split; auto. apply unix_replay, B.
Qed.
Theorem unix_typed_once : forall C m, key_map m -> forall ps text s l c,
  Forall (proper false) ps -> Forall (calls_only not_raw) ps ->
  Forall (fun c => scalar c /\ begins_nothing m c) text -> S_Reader.stream s = utf8s text ->
  reader_run (unix_act C m) (reader_start ps s) l c -> all_ended c ->
  exists order t1 t2, (forall i, did None (nth i ps HEnd) (done_by i order)) /\
    text = t1 ++ t2 /\
    flat_map key_or_mouse (map snd (concat (map snd order))) = map (fun c => EKey (key_from_char c)) t1 /\
    S_Reader.stream (r_state c) = utf8s t2.
Proof.
  intros C m Hm ps text s l c Hp Hc Ht Hs Hr He. destruct (unix_share _ _ _ _ _ _ Hp Hr He) as (order & A & B).
  assert (Ho := order_only not_raw ps order Hc A).
  destruct (text_always C m Hm _ _ _ _ _ Ht Ho Hs B) as (_ & t1 & t2 & X & Y & Z).
  exists order, t1, t2. auto.
Qed.
Theorem win_share : forall E ps s l c, Forall (proper false) ps ->
  reader_run (win_act E) (reader_start ps s) l c -> all_ended c ->
  exists order, (forall i, did None (nth i ps HEnd) (done_by i order)) /\
    run_wr E (map fst (concat (map snd order))) s = Some (r_state c, map snd (concat (map snd order))) /\
    records s = concat (map handed (map snd (concat (map snd order)))) ++ records (r_state c).
Proof.
  intros E ps s l c Hp Hr He. destruct (share_readers _ _ _ _ _ Hp Hr He) as (order & A & B).
  exists order. apply win_replay in B. split; [exact A|]. split; [exact B|].
  destruct (history E _ _ _ _ B) as (_ & X & _). exact X.
Qed.

(** ** Schedules that are computed *)
Section Exec.
  Context {St Op An : Type}.
  Variable act : Op -> St -> option (St * An).
  Definition exec1 (c : readers St Op An) (i : nat) : option (readers St Op An) :=
    match r_threads c i, r_owner c with
    | KLock k, None => Some (Readers (at_thread i k (r_threads c)) (Some i) (r_state c))
    | KTry yes _, None => Some (Readers (at_thread i yes (r_threads c)) (Some i) (r_state c))
    | KTry _ no, Some j => Some (Readers (at_thread i no (r_threads c)) (Some j) (r_state c))
    | KDo o k, w => match act o (r_state c) with
                    | Some (s', a) => Some (Readers (at_thread i (k a) (r_threads c)) w s')
                    | None => None
                    end
    | KUnlock k, _ => Some (Readers (at_thread i k (r_threads c)) None (r_state c))
    | _, _ => None
    end.
  Fixpoint exec (c : readers St Op An) (l : list nat) : option (readers St Op An) :=
    match l with
    | [] => Some c
    | i :: l => match exec1 c i with Some c => exec c l | None => None end
    end.
  Lemma exec_ok : forall l c c', exec c l = Some c' -> reader_run act c l c'.
  Proof.
    induction l as [|i l IH]; cbn; intros c c' H; [injection H as <-; constructor|].
    destruct (exec1 c i) as [c1|] eqn:E; [|discriminate]. apply Rr_cons with c1; [|auto].
    unfold exec1 in E. destruct c as [f w s]; cbn in E. destruct (f i) eqn:Ef; try discriminate.
    - destruct w; [discriminate|]. injection E as <-. eapply Rs_lock; eauto.
    - destruct w; injection E as <-; [eapply Rs_busy|eapply Rs_try]; eauto.
    - destruct (act o s) as [[s' a]|] eqn:Ea; [|discriminate]. injection E as <-. eapply Rs_do; eauto.
    - injection E as <-. eapply Rs_unlock; eauto.
  Qed.
  (** Threads that are none of the programs have nothing to do. *)
  Lemma ended_all : forall ps s l c, reader_run act (reader_start ps s) l c ->
    forallb (fun i => match r_threads c i with KEnd => true | _ => false end) (seq 0 (length ps)) = true -> all_ended c.
  Proof.
    intros ps s l c Hr H i. destruct (Nat.lt_ge_cases i (length ps)) as [L|L].
    - rewrite forallb_forall in H. specialize (H i). rewrite in_seq in H. specialize (H ltac:(lia)).
      destruct (r_threads c i); try discriminate. reflexivity.
    - exact (beyond act ps s l c Hr i L).
  Qed.
End Exec.
