(** Proofs about any programs that share a [Screen] on Windows (C117): what a thread does. *)
From Verif Require Import Base M_Utf8 M_Geom S_Geom M_Attr M_Buf S_Buf M_Writer M_ScreenApi
  M_Locks S_Locks P_Locks P_Locks2 S_Program P_Program M_WinLocks S_WinLocks S_WinProgram.

Section Run.
  Context {Wd Dd : Type}.
  Variable M : access Wd Dd.
Lemma wjwalk_run i c tr c' : wrun M c tr c' ->
  exists is, jwalks (wthreads c i) is (wthreads c' i) /\
    sess_of i tr = fold_left jstep is (Sess false false [] []) /\
    forall a r, In (JAct a r) is -> In (EvAct i a r) tr.
Proof.
  induction 1 as [|tr c1 e c2 R (is & IH1 & IH2 & IH3) St].
  - exists []. split; [constructor|]. split; [reflexivity|intros a r []].
  - rewrite sess_snoc.
    assert (K : forall xs, jwalks (wthreads c1 i) xs (wthreads c2 i) ->
      sess_step i (sess_of i tr) e = fold_left jstep xs (sess_of i tr) ->
      (forall a r, In (JAct a r) xs -> In (EvAct i a r) [e]) ->
      exists is, jwalks (wthreads c i) is (wthreads c2 i) /\
        sess_step i (sess_of i tr) e = fold_left jstep is (Sess false false [] []) /\
        forall a r, In (JAct a r) is -> In (EvAct i a r) (tr ++ [e])).
    { intros xs X1 X2 X3. exists (is ++ xs). split; [exact (jwalks_app _ _ _ IH1 _ _ X1)|]. split; [now rewrite fold_left_app, <- IH2|].
      intros a r Ha. apply in_app_or in Ha. apply in_or_app. destruct Ha as [Ha|Ha]; auto. }
    destruct (sess_of i tr) as [sw sd sc sn].
    destruct St as [j l k t o d Ht Ho|j l k k' t o d Ht Ho|j l k k' j' t o d Ht Ho
                   |j l k t o d Ht Ho|j a k t o d d' r Ht Ho|j k x t o d Ht]; cbn [wthreads] in *;
      (destruct (Nat.eq_dec i j) as [<-|Hj];
       [rewrite set_thread_same in K |- *; rewrite Ht in K
       |rewrite set_thread_other in K |- * by exact Hj; rewrite sess_other in K |- * by (cbn; congruence);
        apply (K []); [constructor|reflexivity|intros a0 r0 []]]).
    + apply (K [JAcq l]); [constructor; constructor| |intros a0 r0 [X|[]]; discriminate X].
      destruct l; cbn; rewrite ?Nat.eqb_refl; reflexivity.
    + apply (K [JAcq l]); [constructor; constructor| |intros a0 r0 [X|[]]; discriminate X].
      destruct l; cbn; rewrite ?Nat.eqb_refl; reflexivity.
    + apply (K []); [apply J_no; constructor|reflexivity|intros a0 r0 []].
    + apply (K [JRel l]); [constructor; constructor| |intros a0 r0 [X|[]]; discriminate X].
      destruct l; cbn; rewrite ?Nat.eqb_refl; reflexivity.
    + apply (K [JAct a r]); [econstructor; constructor| |].
      * cbn. rewrite Nat.eqb_refl. reflexivity.
      * intros a0 r0 [X|[]]. injection X as -> ->. now left.
    + apply (K []); [econstructor; constructor|reflexivity|intros a0 r0 []].
Qed.
End Run.

(** ** Sessions *)
Definition wmv_acts (x : mv) : list act :=
  match x with
  | VAlone Shown => [ARefresh; ARefresh]
  | VAlone x => [mark_act x]
  | VGuard g => map mark_act g ++ [ARefresh]
  | VQuiet | VNone => []
  end.
Definition wgood_mark (T : smethod -> Prop) (x : mark) : Prop :=
  match x with Drawn m => T m | Fitted sz => False | _ => True end.
Definition wgood_mv (T : smethod -> Prop) (x : mv) : Prop :=
  match x with VAlone x => wgood_mark T x | VGuard g => Forall (wgood_mark T) g | _ => True end.

Section Client.
  Variable T : smethod -> Prop.

  (** Everything about the rest of a program, from a state in which it holds the guard or not. *)
  Definition wrest_ok (o : option (list mark)) (p : client) (is : list jinstr) (cur : list (act * ans)) (don : list (list (act * ans))) : Prop :=
    exists ls l, fold_left jstep is (Sess (holds_guard o) (holds_guard o) cur don) = Sess false false [] (don ++ ls) /\
      Forall2 (fun x v => map fst x = wmv_acts v) ls l /\ incl cur (concat ls) /\ Forall (wgood_mv T) l /\
      ((forall a r, In (a, r) (concat ls) -> r = AOk) -> did o p (flat_map vis l)).

  Lemma wrest_quiet o p q is js cur don :
    (forall don, fold_left jstep js (Sess (holds_guard o) (holds_guard o) cur don) = Sess (holds_guard o) (holds_guard o) cur don) ->
    (forall l, did o q l -> did o p l) -> wrest_ok o q is cur don -> wrest_ok o p (js ++ is) cur don.
  Proof.
    intros Hj Hd (ls & l & L1 & L2 & L3 & L4 & L5). exists ls, l. rewrite fold_left_app, Hj. auto 8.
  Qed.
  Lemma wrest_session p q is js v rs don : map fst rs = wmv_acts v -> wgood_mv T v ->
    (forall don, fold_left jstep js (Sess false false [] don) = Sess false false [] (don ++ [rs])) ->
    (forall l, (forall a r, In (a, r) rs -> r = AOk) -> did None q l -> did None p (vis v ++ l)) ->
    (forall don, wrest_ok None q is [] don) -> wrest_ok None p (js ++ is) [] don.
  Proof.
    intros Hv Hg Hj Hd Hr. destruct (Hr (don ++ [rs])) as (ls & l & L1 & L2 & L3 & L4 & L5). exists (rs :: ls), (v :: l).
    cbn [holds_guard] in *. rewrite fold_left_app, Hj, L1, <- app_assoc. split; [reflexivity|].
    split; [now constructor|]. split; [intros y []|]. split; [now constructor|].
    intros H. cbn [flat_map]. apply Hd; [|apply L5]; intros a r Hi; apply (H a r); cbn [concat]; apply in_or_app; auto.
  Qed.

  Definition wcur_ok (o : option (list mark)) (cur : list (act * ans)) : Prop :=
    match o with None => cur = [] | Some g => map fst cur = map mark_act g /\ Forall (wgood_mark T) g end.

  Lemma wrest_open p q is don : (forall l, did (Some []) q l -> did None p l) ->
    wrest_ok (Some []) q is [] don -> wrest_ok None p (JAcq LWriter :: JAcq LData :: is) [] don.
  Proof. intros Hd (ls & l & L1 & L2 & L3 & L4 & L5). exists ls, l. auto 8. Qed.
  Lemma wrest_mark p q is g x r cur don : (forall l, r = AOk -> did (Some (g ++ [x])) q l -> did (Some g) p l) ->
    wrest_ok (Some (g ++ [x])) q is (cur ++ [(mark_act x, r)]) don -> wrest_ok (Some g) p (JAct (mark_act x) r :: is) cur don.
  Proof.
    intros Hd (ls & l & L1 & L2 & L3 & L4 & L5). exists ls, l. split; [exact L1|]. split; [exact L2|].
    split; [intros y Hy; apply L3, in_or_app; auto|]. split; [exact L4|].
    intros H. apply Hd; [|auto]. apply (H (mark_act x)). apply L3, in_or_app. right. now left.
  Qed.
  Lemma wrest_drop p q is g cur r1 don : wcur_ok (Some g) cur -> (forall l, did None q l -> did (Some g) p ((g ++ [Shown]) :: l)) ->
    (forall don, wrest_ok None q is [] don) ->
    wrest_ok (Some g) p (JAct ARefresh r1 :: JRel LWriter :: JRel LData :: is) cur don.
  Proof.
    intros [C1 C2] Hd Hr. set (rs := cur ++ [(ARefresh, r1)]).
    destruct (Hr (don ++ [rs])) as (ls & l & L1 & L2 & L3 & L4 & L5). exists (rs :: ls), (VGuard g :: l).
    split; [cbn in L1 |- *; unfold rs in L1; rewrite L1, <- app_assoc; reflexivity|].
    split; [constructor; [unfold rs; rewrite map_app, C1; reflexivity|exact L2]|].
    split; [intros y Hy; cbn [concat]; apply in_or_app; left; apply in_or_app; now left|]. split; [now constructor|].
    intros H. cbn [flat_map vis app]. apply Hd, L5. intros a r Hi. apply (H a r). cbn [concat]. apply in_or_app. auto.
  Qed.

  Lemma wread_walks (P : ans -> prog) is : jwalks (wscreen_read_block P) is Done ->
    (forall sz r, ~ In (JAct (AD (DUpdateSize sz)) r) is) ->
    exists r, ((exists n, r = AOther n) \/ (exists e, r = AErr e)) /\ jwalks (P r) is Done.
  Proof.
    intros H Hc. unfold wscreen_read_block, wread_block in H. jwalk.
    destruct c as [[e|sz]|mo tk kp|n]; jwalk; eauto 6. exfalso. eapply Hc. right. left. reflexivity.
  Qed.

  Lemma wclient_walks p : forall g o is cur don, follows true g (kind_of o) p -> drawing_program T p -> jwalks (wcompile p) is Done ->
    (forall sz r, ~ In (JAct (AD (DUpdateSize sz)) r) is) -> wcur_ok o cur -> wrest_ok o p is cur don.
  Proof.
    induction p as [|c k IH]; intros g o is cur don Hf Hs H Hc Ho.
    { destruct Hf as [_ Hf]. destruct o as [g0|]; [discriminate Hf|]. cbn in Ho. subst cur. inversion H; subst.
      exists [], []. cbn. rewrite app_nil_r. repeat split; try constructor. intros y []. }
    destruct Hf as [Ha Hf]. destruct Hs as [Hs1 Hs2]. cbn [wcompile] in H.
    assert (IHq : forall r o' is' cur' don', (exists js, is = js ++ is') -> kind_of o' = write_guard_after c r (kind_of o) ->
      jwalks (wcompile (k r)) is' Done -> wcur_ok o' cur' -> wrest_ok o' (k r) is' cur' don').
    { intros r o' is' cur' don' (js & Hi) Hk Hw Hok. specialize (Hf r). rewrite <- Hk in Hf.
      apply (IH r _ _ _ _ _ Hf (Hs2 r) Hw); [|exact Hok]. intros sz r' X. apply (Hc sz r'). rewrite Hi. apply in_or_app. now right. }
    clear IH Hf Hs2. assert (H00 : wcur_ok None []) by reflexivity.
    assert (Hn : kind_of o = None -> o = None /\ cur = []) by (destruct o; [discriminate|auto]).
    assert (Hy : kind_of o = Some OfScreen -> exists g, o = Some g) by (destruct o; [eauto|discriminate]).
    destruct c; cbn [drawing_call] in Hs1; try contradiction; cbn [allowed] in Ha; cbn [wmethod] in H.
    - (* lock_read *) jwalk. destruct Ha as [_ Ha]. destruct (Hn Ha) as [-> ->].
      apply (wrest_quiet None _ (k AOk) _ [JAcq LReader]); [reflexivity|intros l; apply did_input; reflexivity|].
      apply IHq; auto. exists [JAcq LReader]. reflexivity.
    - (* lock_write *) jwalk. destruct (Hn Ha) as [-> ->].
      apply (wrest_open _ (k AOk)); [intros l; apply did_lock; auto|]. apply IHq; auto; [eexists [_; _]; reflexivity|split; [reflexivity|constructor]].
    - (* try_lock_read *) inversion H; subst; clear H.
      + apply (wrest_quiet o _ (k AOk) _ [JAcq LReader]); [reflexivity|intros l; apply did_input; cbn; auto|].
        apply IHq; auto. exists [JAcq LReader]. reflexivity.
      + apply (wrest_quiet o _ (k AWouldBlock) _ []); [reflexivity|intros l; apply did_input; cbn; auto|].
        apply IHq; auto. exists []. reflexivity.
    - (* try_lock_write *) destruct (Hn Ha) as [-> ->]. inversion H as [|X| l0 k0 k1 is0 p0 H0|l0 k0 k1 is0 p0 H0|X|X|X]; subst; clear H;
        inversion H0 as [|X| l1 k2 k3 is1 p1 H1|l1 k2 k3 is1 p1 H1|X|X|X]; subst; clear H0.
      + apply (wrest_open _ (k AOk)); [intros l; apply did_lock; auto|]. apply IHq; auto; [eexists [_; _]; reflexivity|split; [reflexivity|constructor]].
      + jwalk. apply (wrest_session _ (k AWouldBlock) _ [JAcq LWriter; JRel LWriter] VNone []); auto; try exact I; [intros l _; apply did_locked|].
        intros don'. apply IHq; auto. eexists [_; _]. reflexivity.
      + jwalk. apply (wrest_session _ (k AWouldBlock) _ [JAcq LData; JRel LData] VNone []); auto; try exact I; [intros l _; apply did_locked|].
        intros don'. apply IHq; auto. eexists [_; _]. reflexivity.
      + apply (wrest_quiet None _ (k AWouldBlock) _ []); [reflexivity|intros l; apply did_locked|].
        apply IHq; auto. exists []. reflexivity.
    - (* wait *) destruct Ha as [_ Ha]. destruct (Hn Ha) as [-> ->]. unfold with_reader, wait_block in H. jwalk.
      match goal with c : choice |- _ => assert (G : exists r is', is0 = JRel LReader :: is' /\ jwalks (wcompile (k r)) is' Done /\ input_answer SWait r)
        by (destruct c as [?|? ? ?|n]; jwalk; [exists AOk|exists AOk|exists (AOther n)]; eexists; (split; [reflexivity|split; [eassumption|cbn; eauto]])) end.
      destruct G as (r & is' & -> & G & G'). apply (wrest_quiet None _ (k r) _ [JAcq LReader; JRel LReader]); [reflexivity|intros l; now apply did_input|].
      apply IHq; auto. eexists [_; _]. reflexivity.
    - (* read *) destruct Ha as [_ Ha]. destruct (Hn Ha) as [-> ->]. unfold with_reader in H. inversion H as [|? ? is1 ? H1| | | | |]; subst; clear H.
      destruct (wread_walks _ _ H1) as (r & G & G'); [intros sz r X; apply (Hc sz r); now right|]. inversion G'; subst; clear G'.
      match goal with |- wrest_ok _ _ (_ :: _ :: ?x) _ _ => apply (wrest_quiet None _ (k r) x [JAcq LReader; JRel LReader]) end;
        [reflexivity|intros l; now apply did_input|].
      apply IHq; auto. eexists [_; _]. reflexivity.
    - (* refresh *) destruct (Hn Ha) as [-> ->]. unfold wdrop_screen_writer in H. jwalk.
      match goal with X : jwalks (wcompile (k ?r)) _ _ |- wrest_ok _ _ (_ :: _ :: JAct _ ?r0 :: JAct _ ?r1 :: _) _ _ =>
        apply (wrest_session _ (k r) _ [JAcq LWriter; JAcq LData; JAct ARefresh r0; JAct ARefresh r1; JRel LWriter; JRel LData]
          (VAlone Shown) [(ARefresh, r0); (ARefresh, r1)]); auto; try exact I;
        [intros l Hok; rewrite (Hok ARefresh r) by (cbn; auto); apply did_alone; constructor|] end.
      intros don'. apply IHq; auto. eexists [_; _; _; _; _; _]. reflexivity.
    - (* set_cursor_mode *) destruct (Hn Ha) as [-> ->]. unfold wwith_writer in H. jwalk.
      match goal with X : jwalks (wcompile (k ?r)) _ _ |- wrest_ok _ _ (_ :: JAct _ ?r0 :: _) _ _ =>
        apply (wrest_session _ (k r) _ [JAcq LWriter; JAct (AW (WOp (OSetCursorMode m))) r0; JRel LWriter]
          (VAlone (Asked m)) [(AW (WOp (OSetCursorMode m)), r0)]); auto; try exact I;
        [intros l Hok; rewrite (Hok (AW (WOp (OSetCursorMode m))) r) by (cbn; auto); apply did_alone; constructor|] end.
      intros don'. apply IHq; auto. eexists [_; _; _]. reflexivity.
    - (* drawing *) destruct (Hn Ha) as [-> ->]. destruct Hs1 as (m & -> & Hm). jwalk.
      match goal with X : jwalks (wcompile (k ?r)) _ _ |- _ =>
        apply (wrest_session _ (k r) _ [JAcq LData; JAct (AD (DBuf (sforward m))) r; JRel LData] (VAlone (Drawn m)) [(AD (DBuf (sforward m)), r)]); auto;
        [intros l Hok; rewrite (Hok (AD (DBuf (sforward m))) r) by (cbn; auto); apply did_alone; constructor|] end.
      intros don'. apply IHq; auto. eexists [_; _; _]. reflexivity.
    - (* dropping the read guard *) jwalk. apply (wrest_quiet o _ (k AOk) _ [JRel LReader]); [reflexivity|intros l; apply did_input; reflexivity|].
      apply IHq; auto. exists [JRel LReader]. reflexivity.
    - (* waiting through it *) unfold wait_block in H. jwalk.
      match goal with c : choice |- _ => assert (G : exists r, jwalks (wcompile (k r)) is Done /\ input_answer SRWait r)
        by (destruct c as [?|? ? ?|n]; [exists AOk|exists AOk|exists (AOther n)]; (split; [assumption|cbn; eauto])) end.
      destruct G as (r & G & G'). apply (wrest_quiet o _ (k r) _ []); [reflexivity|intros l; now apply did_input|].
      apply IHq; auto. exists []. reflexivity.
    - (* reading through it *) destruct Ha as [_ Ha]. destruct (Hn (Ha eq_refl)) as [-> ->].
      destruct (wread_walks _ _ H Hc) as (r & G & G').
      apply (wrest_quiet None _ (k r) is []); [reflexivity|intros l; now apply did_input|].
      apply IHq; auto. exists []. reflexivity.
    - (* dropping the write guard *) destruct (Hy Ha) as (g0 & ->). unfold wdrop_screen_writer in H. jwalk.
      apply (wrest_drop _ (k AOk)); [exact Ho|intros l; apply did_drop|]. intros don'. apply IHq; auto. eexists [_; _; _]. reflexivity.
    - (* refreshing through it *) destruct (Hy Ha) as (g0 & ->). destruct Ho as [O1 O2]. jwalk.
      apply (wrest_mark _ (k r) _ _ Shown); [intros l ->; apply did_through; constructor|].
      apply IHq; auto; [eexists [_]; reflexivity|]. split; [rewrite !map_app, O1; reflexivity|]. apply Forall_app. split; [exact O2|]. repeat constructor.
    - destruct (Hy Ha) as (g0 & ->). destruct Ho as [O1 O2]. jwalk.
      apply (wrest_mark _ (k r) _ _ (Asked m)); [intros l ->; apply did_through; constructor|].
      apply IHq; auto; [eexists [_]; reflexivity|]. split; [rewrite !map_app, O1; reflexivity|]. apply Forall_app. split; [exact O2|]. repeat constructor.
    - destruct (Hy Ha) as (g0 & ->). destruct Ho as [O1 O2]. destruct Hs1 as (m & -> & Hm). jwalk.
      apply (wrest_mark _ (k r) _ _ (Drawn m)); [intros l ->; apply did_through; constructor|].
      apply IHq; auto; [eexists [_]; reflexivity|]. split; [rewrite !map_app, O1; reflexivity|]. apply Forall_app. split; [exact O2|]. constructor; [exact Hm|constructor].
  Qed.
End Client.
