(** Proofs about any programs that share a [Screen] (C116): what a thread does. *)
From Verif Require Import Base M_Utf8 M_Geom S_Geom M_Attr M_Buf S_Buf M_Writer S_Tty S_Writer M_Screen S_Screen M_ScreenApi
  S_Canvas M_Locks S_Locks P_Locks P_Locks2 P_Blocks S_CursorMode S_Program.

(** ** Walking along a program *)
Inductive jinstr : Type := JAcq (l : lock) | JRel (l : lock) | JAct (a : act) (r : ans).
Definition jstep (s : sess) (x : jinstr) : sess :=
  sess_step 0 s match x with JAcq l => EvAcq 0 l | JRel l => EvRel 0 l | JAct a r => EvAct 0 a r end.
Inductive jwalks : prog -> list jinstr -> prog -> Prop :=
| J_nil p : jwalks p [] p
| J_acq l k is p : jwalks k is p -> jwalks (Acq l k) (JAcq l :: is) p
| J_yes l k k' is p : jwalks k is p -> jwalks (TryAcq l k k') (JAcq l :: is) p
| J_no l k k' is p : jwalks k' is p -> jwalks (TryAcq l k k') is p
| J_rel l k is p : jwalks k is p -> jwalks (Rel l k) (JRel l :: is) p
| J_act a k r is p : jwalks (k r) is p -> jwalks (Act a k) (JAct a r :: is) p
| J_env k c is p : jwalks (k c) is p -> jwalks (Env k) is p.

Lemma jwalks_app p is q : jwalks p is q -> forall js r, jwalks q js r -> jwalks p (is ++ js) r.
Proof. induction 1; intros js q' H'; cbn [app]; [exact H'|..]; try (econstructor; eauto; fail). Qed.

Lemma jwalk_run E C i c tr c' : run E C c tr c' ->
  exists is, jwalks (threads c i) is (threads c' i) /\
    sess_of i tr = fold_left jstep is (Sess false false [] []) /\
    forall a r, In (JAct a r) is -> In (EvAct i a r) tr.
Proof.
  induction 1 as [|tr c1 e c2 R (is & IH1 & IH2 & IH3) St].
  - exists []. split; [constructor|]. split; [reflexivity|intros a r []].
  - rewrite sess_snoc.
    assert (K : forall xs, jwalks (threads c1 i) xs (threads c2 i) ->
      sess_step i (sess_of i tr) e = fold_left jstep xs (sess_of i tr) ->
      (forall a r, In (JAct a r) xs -> In (EvAct i a r) [e]) ->
      exists is, jwalks (threads c i) is (threads c2 i) /\
        sess_step i (sess_of i tr) e = fold_left jstep is (Sess false false [] []) /\
        forall a r, In (JAct a r) is -> In (EvAct i a r) (tr ++ [e])).
    { intros xs X1 X2 X3. exists (is ++ xs). split; [exact (jwalks_app _ _ _ IH1 _ _ X1)|]. split; [now rewrite fold_left_app, <- IH2|].
      intros a r Ha. apply in_app_or in Ha. apply in_or_app. destruct Ha as [Ha|Ha]; auto. }
    destruct (sess_of i tr) as [sw sd sc sn].
    destruct St as [j l k t o d Ht Ho|j l k k' t o d Ht Ho|j l k k' j' t o d Ht Ho
                   |j l k t o d Ht Ho|j a k t o d d' r Ht Ho|j k x t o d Ht]; cbn [threads] in *;
      (destruct (Nat.eq_dec i j) as [<-|Hj];
       [rewrite set_thread_same in K |- *; rewrite Ht in K
       |rewrite set_thread_other in K |- * by exact Hj; rewrite sess_other in K |- * by (cbn; congruence);
        apply (K []); [constructor|reflexivity|intros a0 r0 []]]).
    + apply (K [JAcq l]); [constructor; constructor| |intros a0 r0 [X|[]]; discriminate X].
      destruct l; cbn; rewrite ?Nat.eqb_refl; reflexivity.
    + apply (K [JAcq l]); [constructor; constructor| |intros a0 r0 [X|[]]; discriminate X].
      destruct l; cbn; rewrite ?Nat.eqb_refl; reflexivity.
    + apply (K []); [apply J_no; constructor|reflexivity|intros a0 r0 []].
    + apply (K [JRel l]); [constructor; constructor| |intros a0 r0 [X|[]]; discriminate X].
      destruct l; cbn; rewrite ?Nat.eqb_refl; reflexivity.
    + apply (K [JAct a r]); [econstructor; constructor| |].
      * cbn. rewrite Nat.eqb_refl. reflexivity.
      * intros a0 r0 [X|[]]. injection X as -> ->. now left.
    + apply (K []); [econstructor; constructor|reflexivity|intros a0 r0 []].
Qed.

(** ** Sessions *)
Definition mark_act (x : mark) : act :=
  match x with
  | Drawn m => AD (DBuf (sforward m))
  | Shown => ARefresh
  | Asked m => AW (WOp (OSetCursorMode m))
  | Fitted sz => AD (DUpdateSize sz)
  end.
Inductive mv : Type := VAlone (x : mark) | VGuard (g : list mark) | VQuiet | VNone.
Definition mv_acts (x : mv) : list act :=
  match x with
  | VAlone Shown => [ARefresh; ARefresh; AW WGuardDrop]
  | VAlone (Asked m) => [AW (WOp (OSetCursorMode m)); AW WGuardDrop]
  | VAlone x => [mark_act x]
  | VGuard g => map mark_act g ++ [ARefresh; AW WGuardDrop]
  | VQuiet => [AW WGuardDrop]
  | VNone => []
  end.
Definition vis (x : mv) : list (list mark) :=
  match x with VAlone x => [[x]] | VGuard g => [g ++ [Shown]] | _ => [] end.
Definition good_mark (E : env) (is : list jinstr) (x : mark) : Prop :=
  match x with
  | Drawn m => no_wide E (method_text m)
  | Fitted sz => exists r, In (JAct (AD (DUpdateSize sz)) r) is
  | _ => True
  end.
Definition good_mv (E : env) (is : list jinstr) (x : mv) : Prop :=
  match x with VAlone x => good_mark E is x | VGuard g => Forall (good_mark E is) g /\ one_size g | _ => True end.
Lemma good_more E is js x : incl is js -> good_mark E is x -> good_mark E js x.
Proof. intros H. destruct x; cbn; auto. intros (r & Hr). exists r. now apply H. Qed.
Lemma good_mv_more E is js x : incl is js -> good_mv E is x -> good_mv E js x.
Proof.
  intros H. destruct x as [x|g| |]; cbn; auto; [now apply good_more|]. intros [H1 H2]. split; [|exact H2].
  refine (Forall_impl _ _ H1). intros x. now apply good_more.
Qed.

Definition kind_of (o : option (list mark)) : option kind := match o with Some _ => Some OfScreen | None => None end.
Definition holds_guard (o : option (list mark)) : bool := match o with Some _ => true | None => false end.

Ltac jwalk :=
  repeat match goal with
  | X : jwalks (Acq _ _) _ _ |- _ => inversion X; subst; clear X
  | X : jwalks (Act _ _) _ _ |- _ => inversion X; subst; clear X
  | X : jwalks (Rel _ _) _ _ |- _ => inversion X; subst; clear X
  | X : jwalks (Env _) _ _ |- _ => inversion X; subst; clear X
  end.

Section Client.
  Variable E : env.

  (** Everything about the rest of a program, from a state in which it holds the guard or not. *)
  Definition rest_ok (o : option (list mark)) (p : client) (is : list jinstr) (cur : list (act * ans)) (don : list (list (act * ans))) : Prop :=
    exists ls l, fold_left jstep is (Sess (holds_guard o) (holds_guard o) cur don) = Sess false false [] (don ++ ls) /\
      Forall2 (fun x v => map fst x = mv_acts v) ls l /\ incl cur (concat ls) /\ Forall (good_mv E is) l /\
      ((forall a r, In (a, r) (concat ls) -> r = AOk) -> did o p (flat_map vis l)).

  (** One more instruction that does not matter to the sessions, or several. *)
  Lemma rest_quiet o p q is js cur don :
    (forall don, fold_left jstep js (Sess (holds_guard o) (holds_guard o) cur don) = Sess (holds_guard o) (holds_guard o) cur don) ->
    (forall l, did o q l -> did o p l) -> rest_ok o q is cur don -> rest_ok o p (js ++ is) cur don.
  Proof.
    intros Hj Hd (ls & l & L1 & L2 & L3 & L4 & L5). exists ls, l. rewrite fold_left_app, Hj.
    split; [exact L1|]. split; [exact L2|]. split; [exact L3|]. split; [|auto].
    refine (Forall_impl _ _ L4). intros x. apply good_mv_more. intros y Hy. apply in_or_app. now right.
  Qed.
  (** A whole session. *)
  Lemma rest_session p q is js v rs don : map fst rs = mv_acts v -> good_mv E js v ->
    (forall don, fold_left jstep js (Sess false false [] don) = Sess false false [] (don ++ [rs])) ->
    (forall l, (forall a r, In (a, r) rs -> r = AOk) -> did None q l -> did None p (vis v ++ l)) ->
    (forall don, rest_ok None q is [] don) -> rest_ok None p (js ++ is) [] don.
  Proof.
    intros Hv Hg Hj Hd Hr. destruct (Hr (don ++ [rs])) as (ls & l & L1 & L2 & L3 & L4 & L5). exists (rs :: ls), (v :: l).
    cbn [holds_guard] in *. rewrite fold_left_app, Hj, L1, <- app_assoc. split; [reflexivity|].
    split; [now constructor|]. split; [intros y []|]. split.
    - constructor; [|refine (Forall_impl _ _ L4); intros x]; [refine (good_mv_more E _ _ _ _ Hg)|apply good_mv_more];
        intros y Hy; apply in_or_app; auto.
    - intros H. cbn [flat_map]. apply Hd; [|apply L5]; intros a r Hi; apply (H a r); cbn [concat]; apply in_or_app; auto.
  Qed.

  Definition plain_mark (x : mark) : Prop := match x with Drawn m => no_wide E (method_text m) | Fitted _ => False | _ => True end.
  Definition cur_ok (o : option (list mark)) (cur : list (act * ans)) : Prop :=
    match o with None => cur = [] | Some g => map fst cur = map mark_act g /\ Forall plain_mark g end.
  Lemma plain_good is g : Forall plain_mark g -> Forall (good_mark E is) g /\ one_size g.
  Proof.
    intros H. split.
    - refine (Forall_impl _ _ H). intros []; cbn; auto. intros [].
    - intros sz Hi. rewrite Forall_forall in H. exact (H _ Hi).
  Qed.

  Lemma rest_open p q is don : (forall l, did (Some []) q l -> did None p l) ->
    rest_ok (Some []) q is [] don -> rest_ok None p (JAcq LWriter :: JAcq LData :: is) [] don.
  Proof.
    intros Hd (ls & l & L1 & L2 & L3 & L4 & L5). exists ls, l. split; [exact L1|]. split; [exact L2|]. split; [exact L3|]. split; [|auto].
    refine (Forall_impl _ _ L4). intros x. apply good_mv_more. intros y Hy. right. now right.
  Qed.
  Lemma rest_mark p q is g x r cur don : (forall l, r = AOk -> did (Some (g ++ [x])) q l -> did (Some g) p l) ->
    rest_ok (Some (g ++ [x])) q is (cur ++ [(mark_act x, r)]) don -> rest_ok (Some g) p (JAct (mark_act x) r :: is) cur don.
  Proof.
    intros Hd (ls & l & L1 & L2 & L3 & L4 & L5). exists ls, l. split; [exact L1|]. split; [exact L2|].
    split; [intros y Hy; apply L3, in_or_app; auto|]. split.
    - refine (Forall_impl _ _ L4). intros y. apply good_mv_more. intros z Hz. now right.
    - intros H. apply Hd; [|auto]. apply (H (mark_act x)). apply L3, in_or_app. right. now left.
  Qed.
  Lemma rest_drop p q is g cur r1 r2 don : cur_ok (Some g) cur -> (forall l, did None q l -> did (Some g) p ((g ++ [Shown]) :: l)) ->
    (forall don, rest_ok None q is [] don) ->
    rest_ok (Some g) p (JAct ARefresh r1 :: JAct (AW WGuardDrop) r2 :: JRel LWriter :: JRel LData :: is) cur don.
  Proof.
    intros [C1 C2] Hd Hr. set (rs := cur ++ [(ARefresh, r1); (AW WGuardDrop, r2)]).
    destruct (Hr (don ++ [rs])) as (ls & l & L1 & L2 & L3 & L4 & L5). exists (rs :: ls), (VGuard g :: l).
    split; [cbn in L1 |- *; unfold rs in L1; rewrite <- !app_assoc; cbn [app]; rewrite L1, <- app_assoc; reflexivity|].
    split; [constructor; [unfold rs; rewrite map_app, C1; reflexivity|exact L2]|].
    split; [intros y Hy; cbn [concat]; apply in_or_app; left; apply in_or_app; now left|]. split.
    - constructor; [exact (plain_good _ _ C2)|]. refine (Forall_impl _ _ L4). intros x. apply good_mv_more.
      intros y Hy. cbn. auto.
    - intros H. cbn [flat_map vis app]. apply Hd, L5. intros a r Hi. apply (H a r). cbn [concat]. apply in_or_app. auto.
  Qed.

  Lemma read_walks (T : ans -> prog) is : jwalks (screen_read_block T) is Done ->
    (forall mo tk kp r, ~ In (JAct (AW (WPrepare mo tk kp)) r) is) ->
    (exists n, jwalks (T (AOther n)) is Done) \/
    (exists e r is', is = [JAcq LWriter; JAct (AW WGuardDrop) r; JRel LWriter] ++ is' /\ jwalks (T (AErr e)) is' Done) \/
    exists sz r r' is', is = [JAcq LWriter; JAct (AW WGuardDrop) r; JRel LWriter] ++ [JAcq LData; JAct (AD (DUpdateSize sz)) r'; JRel LData] ++ is' /\
      jwalks (T (AResized sz)) is' Done.
  Proof.
    intros H Hc. unfold screen_read_block, read_block, with_writer, drop_writer in H. jwalk.
    destruct c as [[e|sz]|mo tk kp|n]; jwalk.
    - right. left. exists e. eexists _, _. split; [reflexivity|assumption].
    - right. right. exists sz. eexists _, _, _. split; [reflexivity|assumption].
    - exfalso. eapply Hc. right. left. reflexivity.
    - left. eauto.
  Qed.
  Lemma rest_read c k js js' is don : reads c ->
    (forall s, fold_left jstep js s = s) -> (forall s, fold_left jstep js' s = s) ->
    (forall r o' is' cur' don', (exists js0, js ++ is = js0 ++ is') -> kind_of o' = None ->
      jwalks (compile (k r)) is' Done -> cur_ok o' cur' -> rest_ok o' (k r) is' cur' don') ->
    jwalks (screen_read_block (fun r => fold_right (fun x p => match x with JRel l => Rel l p | _ => p end) (compile (k r)) js')) is Done ->
    (forall mo tk kp r, ~ In (JAct (AW (WPrepare mo tk kp)) r) is) ->
    (forall r is', jwalks (fold_right (fun x p => match x with JRel l => Rel l p | _ => p end) (compile (k r)) js') is' Done ->
       exists is2, is' = js' ++ is2 /\ jwalks (compile (k r)) is2 Done) ->
    rest_ok None (Call c k) (js ++ is) [] don.
  Proof.
    intros Hr Hj Hj' IHq H Hc Hx. assert (H00 : cur_ok None []) by reflexivity.
    assert (Hi : forall r, (exists n, r = AOther n) \/ (exists e, r = AErr e) -> input_answer c r) by (intros r Hq; destruct Hr as [->| ->]; exact Hq).
    destruct (read_walks _ _ H Hc) as [(n & G)|[(e & r & is' & -> & G)|(sz & r & r' & is' & -> & G)]];
      destruct (Hx _ _ G) as (is2 & -> & G').
    - rewrite app_assoc. apply (rest_quiet None _ (k (AOther n)) _ (js ++ js')); [intros; rewrite fold_left_app, Hj, Hj'; reflexivity| |].
      + intros l. apply did_input, Hi. eauto.
      + apply IHq; auto. exists (js ++ js'). now rewrite <- !app_assoc.
    - replace (js ++ [JAcq LWriter; JAct (AW WGuardDrop) r; JRel LWriter] ++ js' ++ is2) with
        ((js ++ [JAcq LWriter; JAct (AW WGuardDrop) r; JRel LWriter] ++ js') ++ is2) by (now rewrite !app_assoc).
      apply (rest_session _ (k (AErr e)) _ _ VQuiet [(AW WGuardDrop, r)]); [reflexivity|exact I| | |].
      + intros don'. rewrite !fold_left_app, Hj, Hj'. reflexivity.
      + intros l _. apply did_input, Hi. eauto.
      + intros don'. apply IHq; auto. exists (js ++ [JAcq LWriter; JAct (AW WGuardDrop) r; JRel LWriter] ++ js'). now rewrite <- !app_assoc.
    - rewrite app_assoc. apply (rest_session _ (Call c k) _ _ VQuiet [(AW WGuardDrop, r)]); [reflexivity|exact I| |auto|].
      + intros don'. rewrite !fold_left_app, Hj. reflexivity.
      + intros don'. rewrite app_assoc.
        apply (rest_session _ (k (AResized sz)) _ _ (VAlone (Fitted sz)) [(AD (DUpdateSize sz), r')]); [reflexivity| | | |].
        * exists r'. cbn. auto.
        * intros don2. rewrite !fold_left_app, Hj'. reflexivity.
        * intros l _. now apply did_told.
        * intros don2. apply IHq; auto.
          exists (js ++ [JAcq LWriter; JAct (AW WGuardDrop) r; JRel LWriter] ++ [JAcq LData; JAct (AD (DUpdateSize sz)) r'; JRel LData] ++ js').
          now rewrite <- !app_assoc.
  Qed.

  Lemma client_walks p : forall g o is cur don, follows true g (kind_of o) p -> screen_program E p -> jwalks (compile p) is Done ->
    (forall mo tk kp r, ~ In (JAct (AW (WPrepare mo tk kp)) r) is) -> cur_ok o cur -> rest_ok o p is cur don.
  Proof.
    induction p as [|c k IH]; intros g o is cur don Hf Hs H Hc Ho.
    { destruct Hf as [_ Hf]. destruct o as [g0|]; [discriminate Hf|]. cbn in Ho. subst cur. inversion H; subst.
      exists [], []. cbn. rewrite app_nil_r. repeat split; try constructor. intros y []. }
    destruct Hf as [Ha Hf]. destruct Hs as [Hs1 Hs2]. cbn [compile] in H.
    assert (IHq : forall r o' is' cur' don', (exists js, is = js ++ is') -> kind_of o' = write_guard_after c r (kind_of o) ->
      jwalks (compile (k r)) is' Done -> cur_ok o' cur' -> rest_ok o' (k r) is' cur' don').
    { intros r o' is' cur' don' (js & Hi) Hk Hw Hok. specialize (Hf r). rewrite <- Hk in Hf.
      apply (IH r _ _ _ _ _ Hf (Hs2 r) Hw); [|exact Hok]. intros mo tk kp r' X. apply (Hc mo tk kp r'). rewrite Hi. apply in_or_app. now right. }
    clear IH Hf Hs2. assert (H00 : cur_ok None []) by reflexivity.
    assert (Hn : kind_of o = None -> o = None /\ cur = []) by (destruct o; [discriminate|auto]).
    assert (Hy : kind_of o = Some OfScreen -> exists g, o = Some g) by (destruct o; [eauto|discriminate]).
    destruct c; cbn [screen_call] in Hs1; try contradiction; cbn [allowed] in Ha; cbn [method] in H.
    - (* lock_read *) jwalk. destruct Ha as [_ Ha]. destruct (Hn Ha) as [-> ->].
      apply (rest_quiet None _ (k AOk) _ [JAcq LReader]); [reflexivity|intros l; apply did_input; reflexivity|].
      apply IHq; auto. exists [JAcq LReader]. reflexivity.
    - (* lock_write *) jwalk. destruct (Hn Ha) as [-> ->].
      apply (rest_open _ (k AOk)); [intros l; apply did_lock; auto|]. apply IHq; auto; [eexists [_; _]; reflexivity|split; [reflexivity|constructor]].
    - (* try_lock_read *) inversion H; subst; clear H.
      + apply (rest_quiet o _ (k AOk) _ [JAcq LReader]); [reflexivity|intros l; apply did_input; cbn; auto|].
        apply IHq; auto. exists [JAcq LReader]. reflexivity.
      + apply (rest_quiet o _ (k AWouldBlock) _ []); [reflexivity|intros l; apply did_input; cbn; auto|].
        apply IHq; auto. exists []. reflexivity.
    - (* try_lock_write *) destruct (Hn Ha) as [-> ->]. inversion H as [|X| l0 k0 k1 is0 p0 H0|l0 k0 k1 is0 p0 H0|X|X|X]; subst; clear H;
        inversion H0 as [|X| l1 k2 k3 is1 p1 H1|l1 k2 k3 is1 p1 H1|X|X|X]; subst; clear H0.
      + apply (rest_open _ (k AOk)); [intros l; apply did_lock; auto|]. apply IHq; auto; [eexists [_; _]; reflexivity|split; [reflexivity|constructor]].
      + unfold drop_writer in H1. jwalk.
        apply (rest_session _ (k AWouldBlock) _ [JAcq LWriter; JAct (AW WGuardDrop) r; JRel LWriter] VQuiet [(AW WGuardDrop, r)]); auto; try exact I; [intros l _; apply did_locked|].
        intros don'. apply IHq; auto. eexists [_; _; _]. reflexivity.
      + jwalk. apply (rest_session _ (k AWouldBlock) _ [JAcq LData; JRel LData] VNone []); auto; try exact I; [intros l _; apply did_locked|].
        intros don'. apply IHq; auto. eexists [_; _]. reflexivity.
      + apply (rest_quiet None _ (k AWouldBlock) _ []); [reflexivity|intros l; apply did_locked|].
        apply IHq; auto. exists []. reflexivity.
    - (* wait *) destruct Ha as [_ Ha]. destruct (Hn Ha) as [-> ->]. unfold with_reader, wait_block in H. jwalk.
      match goal with c : choice |- _ => assert (G : exists r is', is0 = JRel LReader :: is' /\ jwalks (compile (k r)) is' Done /\ input_answer SWait r)
        by (destruct c as [?|? ? ?|n]; jwalk; [exists AOk|exists AOk|exists (AOther n)]; eexists; (split; [reflexivity|split; [eassumption|cbn; eauto]])) end.
      destruct G as (r & is' & -> & G & G'). apply (rest_quiet None _ (k r) _ [JAcq LReader; JRel LReader]); [reflexivity|intros l; now apply did_input|].
      apply IHq; auto. eexists [_; _]. reflexivity.
    - (* read *) destruct Ha as [_ Ha]. destruct (Hn Ha) as [-> ->]. unfold with_reader in H. inversion H; subst; clear H.
      apply (rest_read SRead k [JAcq LReader] [JRel LReader]); auto; [now left| |].
      + intros mo tk kp r X. apply (Hc mo tk kp r). now right.
      + intros r is' X. cbn in X. inversion X; subst. eexists. split; [reflexivity|assumption].
    - (* refresh *) destruct (Hn Ha) as [-> ->]. unfold drop_screen_writer in H. jwalk.
      match goal with X : jwalks (compile (k ?r)) _ _ |- rest_ok _ _ (_ :: _ :: JAct _ ?r0 :: JAct _ ?r1 :: JAct _ ?r2 :: _) _ _ =>
        apply (rest_session _ (k r) _ [JAcq LWriter; JAcq LData; JAct ARefresh r0; JAct ARefresh r1; JAct (AW WGuardDrop) r2; JRel LWriter; JRel LData]
          (VAlone Shown) [(ARefresh, r0); (ARefresh, r1); (AW WGuardDrop, r2)]); auto; try exact I;
        [intros l Hok; rewrite (Hok ARefresh r) by (cbn; auto); apply did_alone; constructor|] end.
      intros don'. apply IHq; auto. eexists [_; _; _; _; _; _; _]. reflexivity.
    - (* set_cursor_mode *) destruct (Hn Ha) as [-> ->]. unfold with_writer, drop_writer in H. jwalk.
      match goal with X : jwalks (compile (k ?r)) _ _ |- rest_ok _ _ (_ :: JAct _ ?r0 :: JAct _ ?r1 :: _) _ _ =>
        apply (rest_session _ (k r) _ [JAcq LWriter; JAct (AW (WOp (OSetCursorMode m))) r0; JAct (AW WGuardDrop) r1; JRel LWriter]
          (VAlone (Asked m)) [(AW (WOp (OSetCursorMode m)), r0); (AW WGuardDrop, r1)]); auto; try exact I;
        [intros l Hok; rewrite (Hok (AW (WOp (OSetCursorMode m))) r) by (cbn; auto); apply did_alone; constructor|] end.
      intros don'. apply IHq; auto. eexists [_; _; _; _]. reflexivity.
    - (* drawing *) destruct (Hn Ha) as [-> ->]. destruct Hs1 as (m & -> & Hm). jwalk.
      match goal with X : jwalks (compile (k ?r)) _ _ |- _ =>
        apply (rest_session _ (k r) _ [JAcq LData; JAct (AD (DBuf (sforward m))) r; JRel LData] (VAlone (Drawn m)) [(AD (DBuf (sforward m)), r)]); auto;
        [intros l Hok; rewrite (Hok (AD (DBuf (sforward m))) r) by (cbn; auto); apply did_alone; constructor|] end.
      intros don'. apply IHq; auto. eexists [_; _; _]. reflexivity.
    - (* dropping the read guard *) jwalk. apply (rest_quiet o _ (k AOk) _ [JRel LReader]); [reflexivity|intros l; apply did_input; reflexivity|].
      apply IHq; auto. exists [JRel LReader]. reflexivity.
    - (* waiting through it *) unfold wait_block in H. jwalk.
      match goal with c : choice |- _ => assert (G : exists r, jwalks (compile (k r)) is Done /\ input_answer SRWait r)
        by (destruct c as [?|? ? ?|n]; [exists AOk|exists AOk|exists (AOther n)]; (split; [assumption|cbn; eauto])) end.
      destruct G as (r & G & G'). apply (rest_quiet o _ (k r) _ []); [reflexivity|intros l; now apply did_input|].
      apply IHq; auto. exists []. reflexivity.
    - (* reading through it *) destruct Ha as [_ Ha]. destruct (Hn (Ha eq_refl)) as [-> ->].
      apply (rest_read SRRead k [] []); auto; [now right|]. intros r is' X. cbn in X. exists is'. auto.
    - (* dropping the write guard *) destruct (Hy Ha) as (g0 & ->). unfold drop_screen_writer in H. jwalk.
      apply (rest_drop _ (k AOk)); [exact Ho|intros l; apply did_drop|]. intros don'. apply IHq; auto. eexists [_; _; _; _]. reflexivity.
    - (* refreshing through it *) destruct (Hy Ha) as (g0 & ->). destruct Ho as [O1 O2]. jwalk.
      apply (rest_mark _ (k r) _ _ Shown); [intros l ->; apply did_through; constructor|].
      apply IHq; auto; [eexists [_]; reflexivity|]. split; [rewrite !map_app, O1; reflexivity|]. apply Forall_app. split; [exact O2|]. repeat constructor.
    - destruct (Hy Ha) as (g0 & ->). destruct Ho as [O1 O2]. jwalk.
      apply (rest_mark _ (k r) _ _ (Asked m)); [intros l ->; apply did_through; constructor|].
      apply IHq; auto; [eexists [_]; reflexivity|]. split; [rewrite !map_app, O1; reflexivity|]. apply Forall_app. split; [exact O2|]. repeat constructor.
    - destruct (Hy Ha) as (g0 & ->). destruct Ho as [O1 O2]. destruct Hs1 as (m & -> & Hm). jwalk.
      apply (rest_mark _ (k r) _ _ (Drawn m)); [intros l ->; apply did_through; constructor|].
      apply IHq; auto; [eexists [_]; reflexivity|]. split; [rewrite !map_app, O1; reflexivity|]. apply Forall_app. split; [exact O2|]. constructor; [exact Hm|constructor].
  Qed.
End Client.
