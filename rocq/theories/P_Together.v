(** Proofs about threads that draw on one screen (C105). *)
From Verif Require Import Base M_Utf8 M_Geom M_Attr M_Buf S_Buf M_Writer S_Tty S_Writer P_Writer M_Screen S_Screen P_Screen P_Screen2 P_Screen5 M_ScreenApi
  S_Canvas P_Canvas M_Locks S_Locks P_Locks P_Locks2 P_Blocks S_Together.

(** ** Threads whose programs do not depend on answers *)
Inductive instr : Type := IAcq (l : lock) | IRel (l : lock) | IAct (a : act).
Fixpoint straight (l : list instr) : prog :=
  match l with
  | [] => Done
  | IAcq x :: l => Acq x (straight l)
  | IRel x :: l => Rel x (straight l)
  | IAct a :: l => Act a (fun _ => straight l)
  end.

(** Sessions without the answers. *)
Record isess : Type := ISess { i_w : bool; i_d : bool; i_cur : list act; i_done : list (list act) }.
Definition istep (s : isess) (x : instr) : isess :=
  match x with
  | IAcq LWriter => ISess true (i_d s) (i_cur s) (i_done s)
  | IAcq LData => ISess (i_w s) true (i_cur s) (i_done s)
  | IRel LWriter => if i_d s then ISess false true (i_cur s) (i_done s)
                    else ISess false false [] (i_done s ++ [i_cur s])
  | IRel LData => if i_w s then ISess true false (i_cur s) (i_done s)
                  else ISess false false [] (i_done s ++ [i_cur s])
  | IAct a => ISess (i_w s) (i_d s) (i_cur s ++ [a]) (i_done s)
  | _ => s
  end.
Definition plain_sess (s : sess) : isess := ISess (s_w s) (s_d s) (map fst (s_cur s)) (map (map fst) (s_done s)).

Section Straight.
  Variables (E : env) (C : tcfg).

  Lemma straight_step all i c e c' s : (exists don rest, all = don ++ rest /\ threads c i = straight rest /\
      plain_sess s = fold_left istep don (ISess false false [] [])) ->
    step E C c e c' ->
    exists don rest, all = don ++ rest /\ threads c' i = straight rest /\
      plain_sess (sess_step i s e) = fold_left istep don (ISess false false [] []).
  Proof.
    intros (don & rest & Ha & Hp & Hs) St.
    destruct St as [j l k t o d Ht Ho|j l k k' t o d Ht Ho|j l k k' j' t o d Ht Ho
                   |j l k t o d Ht Ho|j a k t o d d' r Ht Ho|j k x t o d Ht]; cbn [threads] in *;
      (destruct (Nat.eq_dec i j) as [<-|Hj];
       [rewrite set_thread_same; rewrite Hp in Ht
       |rewrite set_thread_other by exact Hj; rewrite sess_other by (cbn; congruence); exists don, rest; auto]);
      destruct rest as [|[x1|x1|a1] rest]; try discriminate Ht; injection Ht as E1 E2; subst.
    - exists (don ++ [IAcq l]), rest. rewrite <- app_assoc. split; [reflexivity|]. split; [reflexivity|].
      rewrite fold_left_app, <- Hs. destruct l; cbn; rewrite ?Nat.eqb_refl; reflexivity.
    - exists (don ++ [IRel l]), rest. rewrite <- app_assoc. split; [reflexivity|]. split; [reflexivity|].
      rewrite fold_left_app, <- Hs. destruct l; cbn; rewrite ?Nat.eqb_refl; [reflexivity| |].
      + destruct s as [sw sd sc sn]. cbn. destruct sd; unfold plain_sess; cbn; rewrite ?map_app; reflexivity.
      + destruct s as [sw sd sc sn]. cbn. destruct sw; unfold plain_sess; cbn; rewrite ?map_app; reflexivity.
    - exists (don ++ [IAct a]), rest. rewrite <- app_assoc. split; [reflexivity|]. split; [reflexivity|].
      rewrite fold_left_app, <- Hs. cbn. rewrite Nat.eqb_refl. unfold plain_sess. cbn. now rewrite map_app.
  Qed.

  Lemma straight_run all i c tr c' : run E C c tr c' -> threads c i = straight all ->
    exists don rest, all = don ++ rest /\ threads c' i = straight rest /\
      plain_sess (sess_of i tr) = fold_left istep don (ISess false false [] []).
  Proof.
    intros R H. induction R as [|tr c1 e c2 R IH St].
    - exists [], all. auto.
    - rewrite sess_snoc. eapply straight_step; [exact IH|exact St].
  Qed.

  Lemma straight_sessions all i c tr c' : run E C c tr c' -> threads c i = straight all -> threads c' i = Done ->
    map (map fst) (sessions i tr) = i_done (fold_left istep all (ISess false false [] [])).
  Proof.
    intros R H F. destruct (straight_run _ _ _ _ _ R H) as (don & rest & -> & Hp & Hs). rewrite F in Hp.
    destruct rest as [|[| |] rest]; try discriminate Hp. rewrite app_nil_r, <- Hs. reflexivity.
  Qed.
End Straight.

(** Every access of a session is in the history, with its answer. *)
Lemma session_events i tr : forall a r, In (a, r) (s_cur (sess_of i tr)) \/ In (a, r) (concat (sessions i tr)) -> In (EvAct i a r) tr.
Proof.
  induction tr as [|e tr IH] using rev_ind; intros a r H.
  - cbn in H. destruct H as [[]|[]].
  - unfold sessions in *. rewrite sess_snoc in H. apply in_or_app.
    assert (D : In (a, r) (s_cur (sess_of i tr)) \/ In (a, r) (concat (s_done (sess_of i tr))) -> In (EvAct i a r) tr) by apply IH.
    destruct (sess_of i tr) as [sw sd sc sn]. cbn [s_cur s_done] in D.
    destruct e as [j [| |]|j [| |]|j b q|j]; cbn [sess_step] in H; try (left; apply D; exact H);
      destruct (Nat.eqb_spec j i) as [->|Hj]; try (left; apply D; exact H); cbn [s_cur s_done s_w s_d] in H.
    + destruct sd; cbn [s_cur s_done] in H; [left; apply D; exact H|].
      rewrite concat_app in H. cbn in H. rewrite app_nil_r in H. destruct H as [[]|H]. apply in_app_or in H. left. apply D. tauto.
    + destruct sw; cbn [s_cur s_done] in H; [left; apply D; exact H|].
      rewrite concat_app in H. cbn in H. rewrite app_nil_r in H. destruct H as [[]|H]. apply in_app_or in H. left. apply D. tauto.
    + destruct H as [H|H]; [|left; apply D; auto]. apply in_app_or in H. destruct H as [H|[H|[]]]; [left; apply D; auto|].
      injection H as -> ->. right. now left.
Qed.

(** ** What the clients are made of *)
Definition stroke_act (s : stroke) : act := match s with Draw m => AD (DBuf (sforward m)) | Show => ARefresh end.
Definition drop_instrs : list instr := [IAct ARefresh; IAct (AW WGuardDrop); IRel LWriter; IRel LData].
Definition doing_instrs (d : doing) : list instr :=
  match d with
  | Alone m => [IAcq LData; IAct (AD (DBuf (sforward m))); IRel LData]
  | Redraw => [IAcq LWriter; IAcq LData; IAct ARefresh] ++ drop_instrs
  | Together l => [IAcq LWriter; IAcq LData] ++ map (fun s => IAct (stroke_act s)) l ++ drop_instrs
  end.
Definition doing_acts (d : doing) : list act :=
  match d with
  | Alone m => [AD (DBuf (sforward m))]
  | Redraw => [ARefresh; ARefresh; AW WGuardDrop]
  | Together l => map stroke_act l ++ [ARefresh; AW WGuardDrop]
  end.

Lemma guard_straight l k r : compile k = straight r ->
  compile (guard_client l k) = straight (map (fun s => IAct (stroke_act s)) l ++ drop_instrs ++ r).
Proof.
  intros H. induction l as [|s l IH]; cbn; [now rewrite H|]. destruct s; cbn; now rewrite IH.
Qed.
Lemma doings_straight l : compile (doings_client l) = straight (concat (map doing_instrs l)).
Proof.
  induction l as [|d l IH]; [reflexivity|]. cbn [map concat]. change (doings_client (d :: l)) with (doing_client d (doings_client l)).
  destruct d as [m| |s]; cbn [doing_client doing_instrs].
  - cbn. now rewrite IH.
  - cbn. now rewrite IH.
  - cbn [compile method]. rewrite (guard_straight _ _ _ IH). rewrite <- !app_assoc. reflexivity.
Qed.

Lemma acts_parse l : forall w d cur don, fold_left istep (map (fun s => IAct (stroke_act s)) l) (ISess w d cur don) =
  ISess w d (cur ++ map stroke_act l) don.
Proof.
  induction l as [|s l IH]; intros w d cur don; cbn; [now rewrite app_nil_r|]. rewrite IH, <- app_assoc. reflexivity.
Qed.
Lemma doing_parse d don : fold_left istep (doing_instrs d) (ISess false false [] don) = ISess false false [] (don ++ [doing_acts d]).
Proof.
  destruct d as [m| |l]; cbn [doing_instrs]; [reflexivity|reflexivity|].
  rewrite fold_left_app. change (fold_left istep [IAcq LWriter; IAcq LData] (ISess false false [] don)) with (ISess true true [] don).
  rewrite fold_left_app, acts_parse. cbn. rewrite <- app_assoc. reflexivity.
Qed.
Lemma doings_parse l : forall don, fold_left istep (concat (map doing_instrs l)) (ISess false false [] don) =
  ISess false false [] (don ++ map doing_acts l).
Proof.
  induction l as [|d l IH]; intros don; cbn [map concat]; [cbn; now rewrite app_nil_r|].
  rewrite fold_left_app, doing_parse, IH, <- app_assoc. reflexivity.
Qed.

Lemma doings_follow b l : follows b None None (doings_client l).
Proof.
  induction l as [|d l IH]; [cbn; auto|]. change (doings_client (d :: l)) with (doing_client d (doings_client l)).
  set (k := doings_client l) in *. clearbody k. destruct d as [m| |s]; cbn; (split; [reflexivity|]); intros _; try exact IH.
  induction s as [|[m|] s IHs]; cbn; (split; [reflexivity|]); intros _; assumption.
Qed.

(** ** What the sessions do *)
Lemma flush_nothing w : obuf w = [] -> flush w = Ret w tt.
Proof. intros H. destruct w as [o cp a x d sc]. cbn in H. subst o. unfold flush. cbn [obuf dev script]. destruct sc; reflexivity. Qed.

Section Picture.
  Variables (E : env) (C : tcfg) (K : tty).
  Hypothesis HE : env_ok E.
  Hypothesis HC : env_chars E.
  Hypothesis Hco : caps_coherent C.
  Hypothesis HK : implements E C K.

  (** The state of a screen in use: [last] is what the terminal shows, if it is known. *)
  Definition drawn (s0 : scr) (t0 : tstate K) (s : scr) (k : canvas) (last : option canvas) : Prop :=
    exists x, stream (wr s) = stream (wr s0) ++ x /\ painted E C K s (feed K t0 x) k /\
    match last with
    | Some k' => obuf (wr s) = [] /\ exists v, look K (feed K t0 x) = Some v /\ displays C v k' /\ vcur v = pen_goal k'
    | None => x = []
    end.


  Definition fine (l : list (act * ans)) : Prop := forall a e, ~ In (a, AErr e) l.

  Lemma share_parts w d : exists s, (Some w, Some d) = share s.
  Proof. exists (Scr (dbuf d) (dclr d) (dreal d) w). destruct d. reflexivity. Qed.

  Lemma refresh_replay s p : snd (meaning E C ARefresh (share s)) = p -> p <> AGone -> (forall e, p <> AErr e) ->
    exists s', fst (meaning E C ARefresh (share s)) = share s' /\ refresh E C s = Ret s' tt.
  Proof.
    unfold share, meaning. cbn [dbuf dclr dreal]. destruct s as [b c r w]. cbn [sb clr real wr].
    destruct (refresh E C (Scr b c r w)) as [s' []|s' e| |]; cbn; intros <- H1 H2; try congruence.
    exists s'. auto.
  Qed.

  Lemma drawn_draw s0 t0 s k last m b : drawn s0 t0 s k last -> no_wide E (method_text m) ->
    screen_method E m (sb s) = Val b -> drawn s0 t0 (with_sb b s) (S_Canvas.draw E m k) last.
  Proof.
    intros (x & X1 & X2 & X3) Hn Hm. exists x. split; [exact X1|]. split; [now apply Pt_method|].
    destruct last; exact X3.
  Qed.
  Lemma drawn_show s0 t0 s k last s' : drawn s0 t0 s k last -> refresh E C s = Ret s' tt -> drawn s0 t0 s' k (Some k).
  Proof.
    intros (x & X1 & X2 & X3) Hr.
    destruct (painting_shows E HE C K HC Hco HK _ _ _ X2) as (_ & _ & P).
    destruct (painted_history E HE C K HC Hco HK _ _ _ X2) as (Hh & _).
    destruct (minimal_history E C K HE HC Hco HK s _ s' tt Hh Hr) as (y & Hy & _).
    destruct (P s' y Hr Hy) as (P1 & v & P2 & P3 & P4).
    exists (x ++ y). rewrite (feed_app _ _ _ HK). split; [rewrite Hy, X1; now rewrite app_assoc|]. split; [eapply Pt_refresh; eassumption|].
    split; [exact P1|]. exists v. auto.
  Qed.

  Lemma fine_cons a r l : fine ((a, r) :: l) -> (forall e, r <> AErr e) /\ fine l.
  Proof. intros H. split; [intros e ->; apply (H a e); now left|]. intros b e Hi. apply (H b e). now right. Qed.
  Lemma fine_app l1 l2 : fine (l1 ++ l2) -> fine l1 /\ fine l2.
  Proof. intros H. split; intros b e Hi; apply (H b e), in_or_app; auto. Qed.

  Lemma meaning_gone a s : snd (meaning E C a s) = AGone ->
    fst (fst (meaning E C a s)) = None \/ snd (fst (meaning E C a s)) = None.
  Proof.
    destruct s as [w d]. destruct a as [a|a|]; cbn.
    - destruct (wmeaning C a w) as [w' r] eqn:Ew. cbn. intros ->. left. unfold wmeaning in Ew.
      destruct w as [w|]; [|now injection Ew].
      destruct (match a with WOp o => _ | _ => _ end); cbn in Ew; injection Ew; congruence.
    - destruct (dmeaning E a d) as [d' r] eqn:Ed. cbn. intros ->. right. unfold dmeaning in Ed.
      destruct d as [d|]; [|now injection Ed]. destruct a.
      + destruct (run_buf_op E (dbuf d) o); injection Ed; congruence.
      + destruct (update_size _ _ _); injection Ed; congruence.
    - destruct w as [w|]; [|now left]. destruct d as [d|]; [|now left].
      destruct (refresh E C _); cbn; intros H; auto; discriminate.
  Qed.
  Lemma replays_none l : forall s s', replays E C l s s' -> fst s = None \/ snd s = None -> fst s' = None \/ snd s' = None.
  Proof.
    induction l as [|[a r] l IH]; intros s s' H N; cbn in H; [now subst|]. destruct H as [_ H]. apply (IH _ _ H).
    destruct s as [w d]. cbn in N. destruct a as [a|a|]; cbn.
    - destruct N as [->| ->]; cbn; [now left|]. destruct (wmeaning C a w) as [w' q]. cbn. now right.
    - destruct N as [->| ->]; cbn; [|now right]. destruct (dmeaning E a d) as [d' q]. cbn. now left.
    - destruct N as [->| ->]; cbn; [now left|]. destruct w; now left.
  Qed.
  Lemma alive_not_gone a r l s w' d' : replays E C ((a, r) :: l) s (Some w', Some d') -> r <> AGone.
  Proof.
    cbn. intros [H1 H2] ->. apply meaning_gone in H1. apply (replays_none _ _ _ H2) in H1. cbn in H1. destruct H1; discriminate.
  Qed.

  Lemma show_replay s0 t0 s k last r l w' d' : drawn s0 t0 s k last ->
    replays E C ((ARefresh, r) :: l) (share s) (Some w', Some d') -> fine ((ARefresh, r) :: l) ->
    exists s', replays E C l (share s') (Some w', Some d') /\ drawn s0 t0 s' k (Some k).
  Proof.
    intros Hd H Hf. assert (Hg := alive_not_gone _ _ _ _ _ _ H). apply fine_cons in Hf. destruct Hf as [Hf _].
    cbn [replays] in H. destruct H as [H1 H2]. destruct (refresh_replay s r H1 Hg Hf) as (s' & R1 & R2).
    exists s'. rewrite R1 in H2. split; [exact H2|]. eapply drawn_show; eauto.
  Qed.
  Lemma draw_replay s0 t0 s k last m r l w' d' : drawn s0 t0 s k last -> no_wide E (method_text m) ->
    replays E C ((AD (DBuf (sforward m)), r) :: l) (share s) (Some w', Some d') ->
    exists s', replays E C l (share s') (Some w', Some d') /\ drawn s0 t0 s' (S_Canvas.draw E m k) last.
  Proof.
    intros Hd Hn H. assert (Hg := alive_not_gone _ _ _ _ _ _ H).
    cbn [replays] in H. destruct H as [H1 H2]. unfold share, meaning, dmeaning in H1, H2. cbn [dbuf dclr dreal] in H1, H2.
    destruct (run_buf_op E (sb s) (sforward m)) as [b|] eqn:Eb; cbn in H1, H2; [|congruence].
    exists (with_sb b s). split; [exact H2|]. now apply drawn_draw.
  Qed.
  Lemma drop_replay s0 t0 s k k' r l w' d' : drawn s0 t0 s k (Some k') ->
    replays E C ((AW WGuardDrop, r) :: l) (share s) (Some w', Some d') -> replays E C l (share s) (Some w', Some d').
  Proof.
    intros (x & _ & _ & X3 & _) H. cbn [replays] in H. destruct H as [_ H]. unfold share, meaning, wmeaning, guard_drop in H.
    rewrite (flush_nothing _ X3) in H. exact H.
  Qed.

  (** Strokes made one after the other. *)
  Lemma strokes_replay q : forall s0 t0 s k last rs l w' d', drawn s0 t0 s k last -> Forall (narrow_stroke E) q ->
    map fst rs = map stroke_act q -> fine rs -> replays E C (rs ++ l) (share s) (Some w', Some d') ->
    exists s', replays E C l (share s') (Some w', Some d') /\ drawn s0 t0 s' (picture E q k) (displayed E q k last).
  Proof.
    induction q as [|[m|] q IH]; intros s0 t0 s k last rs l w' d' Hd Hn Hm Hf H.
    - destruct rs; [|discriminate Hm]. exists s. auto.
    - destruct rs as [|[a r] rs]; [discriminate Hm|]. cbn [map fst stroke_act] in Hm. injection Hm as -> Hm.
      inversion Hn as [|? ? N1 N2]; subst. destruct (fine_cons _ _ _ Hf) as [_ Hf']. cbn [app] in H.
      destruct (draw_replay _ _ _ _ _ _ _ _ _ _ Hd N1 H) as (s' & H' & D').
      exact (IH _ _ _ _ _ _ _ _ _ D' N2 Hm Hf' H').
    - destruct rs as [|[a r] rs]; [discriminate Hm|]. cbn [map fst stroke_act] in Hm. injection Hm as -> Hm.
      inversion Hn as [|? ? N1 N2]; subst. destruct (fine_cons _ _ _ Hf) as [Hr Hf']. cbn [app] in H.
      assert (Hf1 : fine [(ARefresh, r)]) by (intros b e [X|[]]; injection X as _ ->; now apply (Hr e)).
      assert (Hg := alive_not_gone _ _ _ _ _ _ H). cbn [replays] in H. destruct H as [H1 H2].
      destruct (refresh_replay s r H1 Hg Hr) as (s' & R1 & R2). rewrite R1 in H2.
      exact (IH _ _ _ _ _ _ _ _ _ (drawn_show _ _ _ _ _ _ Hd R2) N2 Hm Hf' H2).
  Qed.

  Lemma picture_app q1 : forall q2 k, picture E (q1 ++ q2) k = picture E q2 (picture E q1 k).
  Proof. induction q1 as [|[m|] q1 IH]; intros q2 k; cbn; auto. Qed.
  Lemma displayed_app q1 : forall q2 k last, displayed E (q1 ++ q2) k last = displayed E q2 (picture E q1 k) (displayed E q1 k last).
  Proof. induction q1 as [|[m|] q1 IH]; intros q2 k last; cbn; auto. Qed.

  Lemma doing_replay d s0 t0 s k last rs l w' d' : drawn s0 t0 s k last -> narrow_doing E d ->
    map fst rs = doing_acts d -> fine rs -> replays E C (rs ++ l) (share s) (Some w', Some d') ->
    exists s', replays E C l (share s') (Some w', Some d') /\
      drawn s0 t0 s' (picture E (strokes d) k) (displayed E (strokes d) k last).
  Proof.
    intros Hd Hn Hm Hf H.
    assert (G : forall q, Forall (narrow_stroke E) (q ++ [Show]) -> map fst rs = map stroke_act (q ++ [Show]) ++ [AW WGuardDrop] ->
      exists s', replays E C l (share s') (Some w', Some d') /\
        drawn s0 t0 s' (picture E (q ++ [Show]) k) (displayed E (q ++ [Show]) k last)).
    { intros q Hq Hmq. apply map_eq_app in Hmq. destruct Hmq as (r1 & r2 & -> & M1 & M2).
      destruct r2 as [|[a r] [|]]; try discriminate M2. injection M2 as ->.
      apply fine_app in Hf. rewrite <- app_assoc in H. cbn [app] in H.
      destruct (strokes_replay _ _ _ _ _ _ _ _ _ _ Hd Hq M1 (proj1 Hf) H) as (s' & H' & D').
      rewrite displayed_app in *. cbn [displayed] in *. exists s'. split; [|exact D'].
      exact (drop_replay _ _ _ _ _ _ _ _ _ D' H'). }
    destruct d as [m| |q]; unfold narrow_doing in Hn; cbn [strokes doing_acts] in *.
    - exact (strokes_replay [Draw m] _ _ _ _ _ rs l w' d' Hd Hn Hm Hf H).
    - apply (G [Show]); [repeat constructor|exact Hm].
    - apply (G q Hn). rewrite map_app, Hm, <- app_assoc. reflexivity.
  Qed.

  (** All sessions. *)
  Lemma order_replay order : forall (want : nat -> list doing) s0 t0 s k last w' d', drawn s0 t0 s k last ->
    (forall i, Forall (narrow_doing E) (want i)) ->
    (forall i, map (map fst) (done_by i order) = map doing_acts (want i)) -> fine (concat (map snd order)) ->
    replays E C (concat (map snd order)) (share s) (Some w', Some d') ->
    exists (plan : list (nat * doing)) s', (forall i, done_by i plan = want i) /\ share s' = (Some w', Some d') /\
      drawn s0 t0 s' (picture E (concat (map strokes (map snd plan))) k) (displayed E (concat (map strokes (map snd plan))) k last).
  Proof.
    induction order as [|[j rs] order IH]; intros want s0 t0 s k last w' d' Hd Hn Hw Hf H; cbn [map concat snd] in *.
    - cbn in H. exists [], s. split; [|split; [exact H|exact Hd]].
      intros i. specialize (Hw i). cbn in Hw. destruct (want i); [reflexivity|discriminate].
    - assert (Hj := Hw j). unfold done_by in Hj. cbn [filter fst] in Hj. rewrite Nat.eqb_refl in Hj. cbn [map snd] in Hj.
      destruct (want j) as [|d rest] eqn:Ew; [discriminate Hj|]. cbn [map] in Hj. injection Hj as Hd1 Hrest.
      assert (Hnj := Hn j). rewrite Ew in Hnj. inversion Hnj as [|? ? N1 N2]; subst.
      apply fine_app in Hf.
      destruct (doing_replay d _ _ _ _ _ _ _ _ _ Hd N1 Hd1 (proj1 Hf) H) as (s' & H' & D').
      destruct (IH (fun i => if j =? i then rest else want i) _ _ _ _ _ w' d' D') as (plan & s2 & P1 & P2 & P3).
      + intros i. destruct (Nat.eqb_spec j i) as [Ei|Ei]; [exact N2|apply Hn].
      + intros i. specialize (Hw i). unfold done_by in Hw |- *. cbn [filter fst] in Hw.
        destruct (Nat.eqb_spec j i) as [Ei|Ei]; [subst i; exact Hrest|exact Hw].
      + exact (proj2 Hf).
      + exact H'.
      + exists ((j, d) :: plan), s2. split; [|split; [exact P2|]].
        * intros i. specialize (P1 i). unfold done_by in *. cbn [filter fst].
          destruct (Nat.eqb_spec j i) as [Ei|Ei]; [|exact P1]. subst i. rewrite Ew. cbn [map snd]. f_equal. exact P1.
        * cbn [map snd concat]. rewrite picture_app, displayed_app. exact P3.
  Qed.

  Lemma sessions_fine i tr : no_failure tr -> fine (concat (sessions i tr)).
  Proof. intros H a e Hi. apply (H i a e). apply session_events. now right. Qed.
  Lemma fine_order order tr : no_failure tr -> (forall i, done_by i order = sessions i tr) -> fine (concat (map snd order)).
  Proof.
    intros H Ho a e Hi. apply in_concat in Hi. destruct Hi as (l & Hl & Hi). apply in_map_iff in Hl.
    destruct Hl as ([j l'] & El & Hl). cbn in El. subst l'.
    apply (sessions_fine j tr H a e). apply in_concat. exists l. split; [|exact Hi]. rewrite <- Ho.
    unfold done_by. apply in_map_iff. exists (j, l). split; [reflexivity|]. apply filter_In. split; [exact Hl|]. cbn. apply Nat.eqb_refl.
  Qed.

  Lemma threads_draw (progs : list (list doing)) s t k tr c w' d' : painted E C K s t k ->
    Forall (Forall (narrow_doing E)) progs ->
    run E C (start (map doings_client progs) (share s)) tr c -> finished c -> no_failure tr ->
    shared c = (Some w', Some d') ->
    exists order : list (nat * doing), (forall i, done_by i order = nth i progs []) /\
      let l := concat (map strokes (map snd order)) in
      holds (dbuf d') (picture E l k) /\
      exists x, stream w' = stream (wr s) ++ x /\
      match displayed E l k None with
      | Some k' => obuf w' = [] /\ exists v, look K (feed K t x) = Some v /\ displays C v k' /\ vcur v = pen_goal k'
      | None => x = []
      end.
  Proof.
    intros Hp Hn R F Hf Hs.
    assert (L : forall b, Forall (follows b None None) (map doings_client progs)).
    { intros b. apply Forall_forall. intros q Hq. apply in_map_iff in Hq. destruct Hq as (l & <- & _). apply doings_follow. }
    assert (U := finished_unlocked E C _ _ _ _ (L true) R F).
    destruct (sessions_atomic E C _ _ tr c (L false) R (U LWriter) (U LData)) as (order & O1 & O2).
    rewrite Hs in O2.
    destruct (order_replay order (fun i => nth i progs []) s t s k None w' d') as (plan & s' & P1 & P2 & P3).
    - exists []. rewrite app_nil_r, (feed_nil _ _ _ HK). auto.
    - intros i. destruct (Nat.lt_ge_cases i (length progs)) as [Hi|Hi].
      + apply (proj1 (Forall_forall _ _) Hn). now apply nth_In.
      + rewrite nth_overflow by exact Hi. constructor.
    - intros i. unfold done_by. rewrite O1.
      rewrite (straight_sessions E C (concat (map doing_instrs (nth i progs []))) i _ _ _ R); [|cbn [start threads]|apply F].
      + rewrite doings_parse. reflexivity.
      + change Finish with (doings_client []). rewrite map_nth. apply doings_straight.
    - exact (fine_order order tr Hf O1).
    - exact O2.
    - exists plan. split; [exact P1|]. cbv zeta. unfold share in P2. injection P2 as <- <-. cbn [dbuf].
      destruct P3 as (x & X1 & X2 & X3). split.
      + destruct (painted_history E HE C K HC Hco HK _ _ _ X2) as [_ [_ _ _ HH]]. exact HH.
      + exists x. split; [exact X1|]. exact X3.
  Qed.
End Picture.
