(** Proofs about any programs that share a [Terminal], at any time, also when accesses to it
    fail and when the process is stopped and continued (C124). *)
From Verif Require Import Base M_Utf8 M_Geom M_Attr M_Buf M_Writer M_Api M_Locks S_Locks P_Locks P_Locks2 P_Blocks S_Together P_Together S_Loop P_Loop P_Program P_Program2
  M_WinWriter M_WinApi M_WinLocks S_WinLocks P_WinLocks P_WinLocks2 P_WinLocks3 M_WinShare P_WinTogether P_WinProgram P_WinProgram3 S_TermProgram P_TermProgram P_TermProgram3 S_OneThread P_OneThread S_WinOneThread S_TermOneThread.

Definition tdeed_act (x : tdeed) : act * ans :=
  match x with
  | Wrote m r => (AW (WOp (forward m)), r)
  | Ready mo tk kp r => (AW (WPrepare mo tk kp), r)
  | Undone mo kp r => (AW (WRestore mo kp), r)
  | LetGo => (AW WGuardDrop, AOk)
  end.
Definition some_tdeeds (l : list tdeed) : bool := match l with [] => false | _ => true end.
Lemma piece_filter l : piece l = filter some_tdeeds [l].
Proof. now destruct l. Qed.

Definition tdeeds_cur (o : option (list tdeed)) : list (act * ans) := match o with Some g => map tdeed_act g | None => [] end.
Definition tin_guard (o : option (list tdeed)) : bool := match o with Some _ => true | None => false end.
Definition tin_kind (o : option (list tdeed)) : option kind := match o with Some _ => Some OfTerminal | None => None end.

Section Any.
  Variable u : bool.

  Definition td_ok (o : option (list tdeed)) (p : client) (is : list jinstr) : Prop :=
    forall don, exists l, fold_left jstep is (Sess (tin_guard o) false (tdeeds_cur o) don) = Sess false false [] (don ++ map (map tdeed_act) l) /\
      tdid u o p (filter some_tdeeds l).

  Lemma tdk_quiet o p q is js :
    (forall cur don, fold_left jstep js (Sess (tin_guard o) false cur don) = Sess (tin_guard o) false cur don) ->
    (forall l, tdid u o q l -> tdid u o p l) -> td_ok o q is -> td_ok o p (js ++ is).
  Proof. intros Hj Hd Hq don. destruct (Hq don) as (l & L1 & L2). exists l. rewrite fold_left_app, Hj. auto. Qed.
  Lemma tdk_session p q is js x :
    (forall don, fold_left jstep js (Sess false false [] don) = Sess false false [] (don ++ [map tdeed_act x])) ->
    (forall l, tdid u None q l -> tdid u None p (piece x ++ l)) -> td_ok None q is -> td_ok None p (js ++ is).
  Proof.
    intros Hj Hd Hq don. destruct (Hq (don ++ [map tdeed_act x])) as (l & L1 & L2). exists (x :: l). cbn [tin_guard tdeeds_cur] in *.
    rewrite fold_left_app, Hj, L1. split; [now rewrite <- app_assoc|]. change (x :: l) with ([x] ++ l). rewrite filter_app, <- piece_filter. auto.
  Qed.
  Lemma tdk_open p q is : (forall l, tdid u (Some []) q l -> tdid u None p l) -> td_ok (Some []) q is ->
    td_ok None p (JAcq LWriter :: is).
  Proof. intros Hd Hq don. destruct (Hq don) as (l & L1 & L2). exists l. auto. Qed.
  Lemma tdk_deed p q is g x a r : tdeed_act x = (a, r) -> (forall l, tdid u (Some (g ++ [x])) q l -> tdid u (Some g) p l) ->
    td_ok (Some (g ++ [x])) q is -> td_ok (Some g) p (JAct a r :: is).
  Proof.
    intros Hx Hd Hq don. destruct (Hq don) as (l & L1 & L2). exists l. split; [|auto]. cbn [tdeeds_cur tin_guard] in *. rewrite map_app in L1. cbn [map] in L1.
    rewrite Hx in L1. rewrite <- L1. reflexivity.
  Qed.
  Lemma tdk_close p q is js g : (forall don, fold_left jstep js (Sess true false (map tdeed_act g) don) = Sess false false [] (don ++ [map tdeed_act (g ++ let_go u)])) ->
    (forall l, tdid u None q l -> tdid u (Some g) p (piece (g ++ let_go u) ++ l)) -> td_ok None q is ->
    td_ok (Some g) p (js ++ is).
  Proof.
    intros Hj Hd Hq don. destruct (Hq (don ++ [map tdeed_act (g ++ let_go u)])) as (l & L1 & L2).
    exists ((g ++ let_go u) :: l). cbn [tin_guard tdeeds_cur] in *. rewrite fold_left_app, Hj, L1. split; [now rewrite <- app_assoc|].
    change ((g ++ let_go u) :: l) with ([g ++ let_go u] ++ l). rewrite filter_app, <- piece_filter. auto.
  Qed.
End Any.

(** ** Unix *)
Lemma tread_walks' (P : ans -> prog) is : jwalks (read_block P) is Done ->
  exists r js is', is = js ++ is' /\ jwalks (P r) is' Done /\
    (js = [] /\ (exists n, r = AOther n) \/
     (exists r1, js = [JAcq LWriter; JAct (AW WGuardDrop) r1; JRel LWriter] /\ sized r) \/
     exists mo tk kp r1, js = [JAcq LWriter; JAct (AW (WPrepare mo tk kp)) r; JAct (AW WGuardDrop) r1; JRel LWriter]).
Proof.
  intros H. unfold read_block, with_writer, drop_writer in H. unfold sized. jwalk. destruct c as [[e|sz]|mo tk kp|n]; jwalk.
  - exists (AErr e), [JAcq LWriter; JAct (AW WGuardDrop) r; JRel LWriter]. eexists. split; [reflexivity|]. split; [eassumption|]. eauto 8.
  - exists (AResized sz), [JAcq LWriter; JAct (AW WGuardDrop) r; JRel LWriter]. eexists. split; [reflexivity|]. split; [eassumption|]. eauto 8.
  - do 3 eexists. split; [|split; [eassumption|]]; [|right; right; do 4 eexists; reflexivity]. reflexivity.
  - exists (AOther n), [], is. eauto 8.
Qed.

Lemma td_walks p : forall g o is, follows true g (tin_kind o) p -> uses_terminal p -> fit is -> jwalks (compile p) is Done -> td_ok true o p is.
Proof.
  induction p as [|c k IH]; intros g o is Hf Hs Hi H.
  { destruct Hf as [_ Hf]. destruct o as [g0|]; [discriminate Hf|]. inversion H; subst.
    intros don. exists []. cbn. rewrite app_nil_r. split; [reflexivity|constructor]. }
  destruct Hf as [Ha Hf]. destruct Hs as [Hs1 Hs2]. cbn [compile] in H.
  assert (IHq : forall r o' is', tin_kind o' = write_guard_after c r (tin_kind o) -> fit is' ->
    jwalks (compile (k r)) is' Done -> td_ok true o' (k r) is').
  { intros r o' is' Hk Hfi Hw. specialize (Hf r). rewrite <- Hk in Hf. exact (IH r _ _ _ Hf (Hs2 r) Hfi Hw). }
  clear IH Hf Hs2.
  assert (Hn : tin_kind o = None -> o = None) by (destruct o; [discriminate|auto]).
  assert (Hy : tin_kind o = Some OfTerminal -> exists g, o = Some g) by (destruct o; [eauto|discriminate]).
  assert (Halone : forall m, o = None -> ~ idle m -> jwalks (with_writer (fun k => Act (AW (WOp (forward m))) k) (fun r => compile (k r))) is Done ->
    c = TWrite (forward m) -> td_ok true None (Call c k) is).
  { intros m -> Hm Hw ->. unfold with_writer, drop_writer in Hw. jwalk.
    apply fit_cons, fit_cons, fit_act in Hi. destruct Hi as [Hr0 Hi]; cbn in Hr0; subst. apply fit_cons in Hi.
    match goal with J : jwalks (compile (k ?r)) ?x _ |- _ =>
      apply (tdk_session true _ (k r) x [JAcq LWriter; JAct (AW (WOp (forward m))) r; JAct (AW WGuardDrop) AOk; JRel LWriter] [Wrote m r; LetGo]) end;
      [reflexivity|intros l; now apply td_alone|now apply IHq]. }
  assert (Hidle : forall m, o = None -> c = TWrite (forward m) -> idle m -> jwalks (compile (k AOk)) is Done -> td_ok true None (Call (TWrite (forward m)) k) is).
  { intros m -> -> Hm Hw. apply (tdk_quiet true None _ (k AOk) is []); [reflexivity|intros l; now apply td_idle|]. apply IHq; auto. }
  assert (Hread : forall js js' is' , reads_terminal c -> o = None -> is = js ++ is' -> (forall r, write_guard_after c r None = None) ->
    (forall s, fold_left jstep js s = s) -> (forall s, fold_left jstep js' s = s) ->
    (forall r is', jwalks (rels js' (compile (k r))) is' Done -> exists is2, is' = js' ++ is2 /\ jwalks (compile (k r)) is2 Done) ->
    jwalks (read_block (fun r => rels js' (compile (k r)))) is' Done -> td_ok true None (Call c k) is).
  { intros js js' is' Hr -> -> Hg Hj Hj' Hx Hw. destruct (tread_walks' _ _ Hw) as (r & js1 & is1 & -> & G & G'). destruct (Hx _ _ G) as (is2 & -> & G2). clear G Hx Hw.
    apply fit_app in Hi.
    destruct G' as [(-> & n & ->)|[(r1 & -> & G1)|(mo & tk & kp & r1 & ->)]].
    - cbn [app] in *. apply fit_app in Hi. rewrite app_assoc. apply (tdk_quiet true None _ (k (AOther n)) is2 (js ++ js'));
        [intros; now rewrite fold_left_app, Hj, Hj'|intros l; apply td_input; destruct Hr as [->| ->]; cbn; eauto|]. apply IHq; auto.
    - assert (Hfr : r1 = AOk) by (apply (Hi (AW WGuardDrop)); cbn; auto). subst r1. apply fit_app, fit_app in Hi.
      rewrite !app_assoc. apply (tdk_session true _ (k r) is2 _ [LetGo]); [| |apply IHq; auto].
      + intros don. now rewrite !fold_left_app, Hj, Hj'.
      + intros l. now apply td_told.
    - assert (Hfr : r1 = AOk) by (apply (Hi (AW WGuardDrop)); cbn; auto). subst r1. apply fit_app, fit_app in Hi.
      rewrite !app_assoc. apply (tdk_session true _ (k r) is2 _ [Ready mo tk kp r; LetGo]); [| |apply IHq; auto].
      + intros don. now rewrite !fold_left_app, Hj, Hj'.
      + intros l. now apply td_resumed. }
  assert (Hset : forall js a x r is', readies c r x -> o = None -> is = js ++ is' -> tdeed_act x = (a, r) -> (forall r, write_guard_after c r None = None) -> fit is' ->
    (forall don, fold_left jstep js (Sess false false [] don) = Sess false false [] (don ++ [[(a, r); (AW WGuardDrop, AOk)]])) ->
    jwalks (compile (k r)) is' Done -> td_ok true None (Call c k) is).
  { intros js a x r is' Hr -> -> Hx Hg Hi' Hj Hw. apply (tdk_session true _ (k r) is' js [x; LetGo]).
    - intros don. rewrite Hj. cbn [map]. now rewrite Hx.
    - intros l. now apply td_ready.
    - apply IHq; auto. }
  destruct c; cbn [terminal_call] in Hs1; try contradiction; cbn [allowed] in Ha; cbn [method] in H.
  - (* lock_read *) jwalk. destruct Ha as [_ Ha]. rewrite (Hn Ha) in *. apply fit_cons in Hi.
    apply (tdk_quiet true None _ (k AOk) _ [JAcq LReader]); [reflexivity|intros l; apply td_input; reflexivity|]. now apply IHq.
  - (* lock_write *) jwalk. rewrite (Hn Ha) in *. apply fit_cons in Hi.
    apply (tdk_open true _ (k AOk)); [intros l; apply td_lock; auto|]. now apply IHq.
  - (* try_lock_read *) inversion H; subst; clear H.
    + apply fit_cons in Hi. apply (tdk_quiet true o _ (k AOk) _ [JAcq LReader]); [reflexivity|intros l; apply td_input; cbn; auto|]. now apply IHq.
    + apply (tdk_quiet true o _ (k AWouldBlock) _ []); [reflexivity|intros l; apply td_input; cbn; auto|]. now apply IHq.
  - (* try_lock_write *) rewrite (Hn Ha) in *. inversion H; subst; clear H.
    + apply fit_cons in Hi. apply (tdk_open true _ (k AOk)); [intros l; apply td_lock; auto|]. now apply IHq.
    + apply (tdk_quiet true None _ (k AWouldBlock) _ []); [reflexivity|intros l; apply td_locked|]. now apply IHq.
  - (* size *) rewrite (Hn Ha) in *. unfold with_writer, drop_writer in H. jwalk.
    match goal with c : choice |- _ => assert (G : exists r r1 is', is0 = JAct (AW WGuardDrop) r1 :: JRel LWriter :: is' /\ jwalks (compile (k r)) is' Done /\ (r = AOk \/ sized r))
      by (unfold sized; destruct c as [[e|sz]|? ? ?|n]; jwalk; [exists (AErr e)|exists (AResized sz)|exists AOk|exists AOk]; do 2 eexists; (split; [reflexivity|split; [eassumption|eauto]])) end.
    destruct G as (r & r1 & is' & -> & G & G'). apply fit_cons, fit_act in Hi. destruct Hi as [Hr0 Hi]; cbn in Hr0; subst. apply fit_cons in Hi.
    apply (tdk_session true _ (k r) is' [JAcq LWriter; JAct (AW WGuardDrop) AOk; JRel LWriter] [LetGo]); [reflexivity|intros l; now apply (td_size true)|now apply IHq].
  - (* wait *) destruct Ha as [_ Ha]. rewrite (Hn Ha) in *. unfold with_reader, wait_block in H. jwalk. apply fit_cons in Hi.
    match goal with c : choice |- _ => assert (G : exists r is', is0 = JRel LReader :: is' /\ jwalks (compile (k r)) is' Done /\ tinput_answer true TWait r)
      by (destruct c as [?|? ? ?|n]; jwalk; [exists AOk|exists AOk|exists (AOther n)]; eexists; (split; [reflexivity|split; [eassumption|cbn; eauto]])) end.
    destruct G as (r & is' & -> & G & G'). apply fit_cons in Hi. apply (tdk_quiet true None _ (k r) _ [JAcq LReader; JRel LReader]); [reflexivity|intros l; now apply td_input|]. now apply IHq.
  - (* read *) destruct Ha as [_ Ha]. rewrite (Hn Ha) in *. unfold with_reader in H. inversion H; subst; clear H.
    eapply (Hread [JAcq LReader] [JRel LReader]); [now left|reflexivity..| |eassumption].
    intros r is' X. cbn in X. inversion X; subst. eexists. split; [reflexivity|assumption].
  - (* prepare *) destruct Ha as [_ Ha]. rewrite (Hn Ha) in *. unfold with_reader, with_writer, drop_writer in H. jwalk.
    apply fit_cons, fit_cons, fit_cons, fit_act in Hi. destruct Hi as [Hr0 Hi]; cbn in Hr0; subst. apply fit_cons, fit_cons in Hi.
    match goal with J : jwalks (compile (k ?r)) ?x _ |- _ =>
      apply (Hset [JAcq LReader; JAcq LWriter; JAct (AW (WPrepare mouse track keypad)) r; JAct (AW WGuardDrop) AOk; JRel LWriter; JRel LReader]
        (AW (WPrepare mouse track keypad)) (Ready mouse track keypad r) r x); [constructor|reflexivity|reflexivity|reflexivity|reflexivity|exact Hi|reflexivity|exact J] end.
  - (* restore *) destruct Ha as [_ Ha]. rewrite (Hn Ha) in *. unfold with_reader, with_writer, drop_writer in H. jwalk.
    apply fit_cons, fit_cons, fit_cons, fit_act in Hi. destruct Hi as [Hr0 Hi]; cbn in Hr0; subst. apply fit_cons, fit_cons in Hi.
    match goal with J : jwalks (compile (k ?r)) ?x _ |- _ =>
      apply (Hset [JAcq LReader; JAcq LWriter; JAct (AW (WRestore mouse keypad)) r; JAct (AW WGuardDrop) AOk; JRel LWriter; JRel LReader]
        (AW (WRestore mouse keypad)) (Undone mouse keypad r) r x); [constructor|reflexivity|reflexivity|reflexivity|reflexivity|exact Hi|reflexivity|exact J] end.
  - (* writing *) rewrite (Hn Ha) in *. destruct Hs1 as (m & -> & _).
    specialize (Halone m eq_refl). specialize (Hidle m eq_refl eq_refl). unfold idle in Hidle, Halone.
    destruct m; try destruct n; cbn [forward api_add_style api_write_str] in *;
      first [apply Hidle; [tauto|exact H]|apply Halone; [intuition discriminate|exact H|reflexivity]].
  - (* dropping the read guard *) jwalk. apply fit_cons in Hi. apply (tdk_quiet true o _ (k AOk) _ [JRel LReader]); [reflexivity|intros l; apply td_input; reflexivity|]. now apply IHq.
  - (* waiting through it *) unfold wait_block in H. jwalk.
    match goal with c : choice |- _ => assert (G : exists r, jwalks (compile (k r)) is Done /\ tinput_answer true RWait r)
      by (destruct c as [?|? ? ?|n]; [exists AOk|exists AOk|exists (AOther n)]; (split; [assumption|cbn; eauto])) end.
    destruct G as (r & G & G'). apply (tdk_quiet true o _ (k r) _ []); [reflexivity|intros l; now apply td_input|]. now apply IHq.
  - (* reading through it *) destruct Ha as [_ Ha]. rewrite (Hn (Ha eq_refl)) in *.
    eapply (Hread [] []); [now right|reflexivity..| |eassumption]. intros r is' X. cbn in X. exists is'. auto.
  - (* prepare through it *) destruct Ha as [_ Ha]. rewrite (Hn Ha) in *. unfold with_writer, drop_writer in H. jwalk.
    apply fit_cons, fit_cons, fit_act in Hi. destruct Hi as [Hr0 Hi]; cbn in Hr0; subst. apply fit_cons in Hi.
    match goal with J : jwalks (compile (k ?r)) ?x _ |- _ =>
      apply (Hset [JAcq LWriter; JAct (AW (WPrepare mouse track keypad)) r; JAct (AW WGuardDrop) AOk; JRel LWriter]
        (AW (WPrepare mouse track keypad)) (Ready mouse track keypad r) r x); [constructor|reflexivity|reflexivity|reflexivity|reflexivity|exact Hi|reflexivity|exact J] end.
  - (* restore through it *) destruct Ha as [_ Ha]. rewrite (Hn Ha) in *. unfold with_writer, drop_writer in H. jwalk.
    apply fit_cons, fit_cons, fit_act in Hi. destruct Hi as [Hr0 Hi]; cbn in Hr0; subst. apply fit_cons in Hi.
    match goal with J : jwalks (compile (k ?r)) ?x _ |- _ =>
      apply (Hset [JAcq LWriter; JAct (AW (WRestore mouse keypad)) r; JAct (AW WGuardDrop) AOk; JRel LWriter]
        (AW (WRestore mouse keypad)) (Undone mouse keypad r) r x); [constructor|reflexivity|reflexivity|reflexivity|reflexivity|exact Hi|reflexivity|exact J] end.
  - (* with both guards *) destruct Ha as [_ Ha]. destruct (Hy Ha) as (g0 & ->). jwalk. apply fit_cons in Hi.
    apply (tdk_deed true _ (k r) _ _ (Ready mouse track keypad r)); [reflexivity|intros l; apply td_through; constructor|]. now apply IHq.
  - destruct Ha as [_ Ha]. destruct (Hy Ha) as (g0 & ->). jwalk. apply fit_cons in Hi.
    apply (tdk_deed true _ (k r) _ _ (Undone mouse keypad r)); [reflexivity|intros l; apply td_through; constructor|]. now apply IHq.
  - (* dropping the write guard *) destruct (Hy Ha) as (g0 & ->). unfold drop_writer in H. jwalk.
    apply fit_act in Hi. destruct Hi as [Hr0 Hi]; cbn in Hr0; subst. apply fit_cons in Hi.
    apply (tdk_close true _ (k AOk) _ [JAct (AW WGuardDrop) AOk; JRel LWriter]); [|intros l; apply td_drop|now apply IHq].
    intros don. cbn. now rewrite map_app.
  - (* writing through it *) destruct (Hy Ha) as (g0 & ->). destruct Hs1 as (m & -> & _). jwalk. apply fit_cons in Hi.
    apply (tdk_deed true _ (k r) _ _ (Wrote m r)); [reflexivity|intros l; apply td_through; constructor|]. now apply IHq.
Qed.

(** ** Windows *)
Lemma wtread_walks' (P : ans -> prog) is : jwalks (wread_block P) is Done ->
  exists r, ((exists n, r = AOther n) \/ false = false /\ sized r) /\ jwalks (P r) is Done.
Proof.
  intros H. unfold wread_block in H. unfold sized. jwalk. destruct c as [[e|sz]|mo tk kp|n];
    [exists (AErr e)|exists (AResized sz)|exists (AOther 0%N)|exists (AOther n)]; (split; [eauto 6|assumption]).
Qed.

Lemma wtd_walks p : forall g o is, follows false g (tin_kind o) p -> uses_terminal p -> jwalks (wcompile p) is Done -> td_ok false o p is.
Proof.
  induction p as [|c k IH]; intros g o is Hf Hs H.
  { destruct Hf as [_ Hf]. destruct o as [g0|]; [discriminate Hf|]. inversion H; subst.
    intros don. exists []. cbn. rewrite app_nil_r. split; [reflexivity|constructor]. }
  destruct Hf as [Ha Hf]. destruct Hs as [Hs1 Hs2]. cbn [wcompile] in H.
  assert (IHq : forall r o' is', tin_kind o' = write_guard_after c r (tin_kind o) ->
    jwalks (wcompile (k r)) is' Done -> td_ok false o' (k r) is').
  { intros r o' is' Hk Hw. specialize (Hf r). rewrite <- Hk in Hf. exact (IH r _ _ _ Hf (Hs2 r) Hw). }
  clear IH Hf Hs2.
  assert (Hn : tin_kind o = None -> o = None) by (destruct o; [discriminate|auto]).
  assert (Hy : tin_kind o = Some OfTerminal -> exists g, o = Some g) by (destruct o; [eauto|discriminate]).
  assert (Halone : forall m, o = None -> ~ idle m -> jwalks (wwith_writer (fun k => Act (AW (WOp (forward m))) k) (fun r => wcompile (k r))) is Done ->
    c = TWrite (forward m) -> td_ok false None (Call c k) is).
  { intros m -> Hm Hw ->. unfold wwith_writer in Hw. jwalk.
    match goal with J : jwalks (wcompile (k ?r)) ?x _ |- _ =>
      apply (tdk_session false _ (k r) x [JAcq LWriter; JAct (AW (WOp (forward m))) r; JRel LWriter] [Wrote m r]) end;
      [reflexivity|intros l; now apply td_alone|now apply IHq]. }
  assert (Hidle : forall m, o = None -> c = TWrite (forward m) -> idle m -> jwalks (wcompile (k AOk)) is Done -> td_ok false None (Call (TWrite (forward m)) k) is).
  { intros m -> -> Hm Hw. apply (tdk_quiet false None _ (k AOk) is []); [reflexivity|intros l; now apply td_idle|]. apply IHq; auto. }
  assert (Hset : forall js a x r is', readies c r x -> o = None -> is = js ++ is' -> tdeed_act x = (a, r) -> (forall r, write_guard_after c r None = None) ->
    (forall don, fold_left jstep js (Sess false false [] don) = Sess false false [] (don ++ [[(a, r)]])) ->
    jwalks (wcompile (k r)) is' Done -> td_ok false None (Call c k) is).
  { intros js a x r is' Hr -> -> Hx Hg Hj Hw. apply (tdk_session false _ (k r) is' js [x]).
    - intros don. rewrite Hj. cbn [map]. now rewrite Hx.
    - intros l. now apply td_ready.
    - apply IHq; auto. }
  destruct c; cbn [terminal_call] in Hs1; try contradiction; cbn [allowed] in Ha; cbn [wmethod] in H.
  - (* lock_read *) jwalk. destruct Ha as [_ Ha]. rewrite (Hn Ha) in *.
    apply (tdk_quiet false None _ (k AOk) _ [JAcq LReader]); [reflexivity|intros l; apply td_input; reflexivity|]. now apply IHq.
  - (* lock_write *) jwalk. rewrite (Hn Ha) in *.
    apply (tdk_open false _ (k AOk)); [intros l; apply td_lock; auto|]. now apply IHq.
  - (* try_lock_read *) inversion H; subst; clear H.
    + apply (tdk_quiet false o _ (k AOk) _ [JAcq LReader]); [reflexivity|intros l; apply td_input; cbn; auto|]. now apply IHq.
    + apply (tdk_quiet false o _ (k AWouldBlock) _ []); [reflexivity|intros l; apply td_input; cbn; auto|]. now apply IHq.
  - (* try_lock_write *) rewrite (Hn Ha) in *. inversion H; subst; clear H.
    + apply (tdk_open false _ (k AOk)); [intros l; apply td_lock; auto|]. now apply IHq.
    + apply (tdk_quiet false None _ (k AWouldBlock) _ []); [reflexivity|intros l; apply td_locked|]. now apply IHq.
  - (* size *) rewrite (Hn Ha) in *. unfold wwith_writer in H. jwalk.
    match goal with c : choice |- _ => assert (G : exists r is', is0 = JRel LWriter :: is' /\ jwalks (wcompile (k r)) is' Done /\ (r = AOk \/ sized r))
      by (unfold sized; destruct c as [[e|sz]|? ? ?|n]; jwalk; [exists (AErr e)|exists (AResized sz)|exists AOk|exists AOk]; eexists; (split; [reflexivity|split; [eassumption|eauto]])) end.
    destruct G as (r & is' & -> & G & G').
    apply (tdk_session false _ (k r) is' [JAcq LWriter; JRel LWriter] []); [reflexivity|intros l; now apply (td_size false)|now apply IHq].
  - (* wait *) destruct Ha as [_ Ha]. rewrite (Hn Ha) in *. unfold with_reader, wait_block in H. jwalk.
    match goal with c : choice |- _ => assert (G : exists r is', is0 = JRel LReader :: is' /\ jwalks (wcompile (k r)) is' Done /\ tinput_answer false TWait r)
      by (destruct c as [?|? ? ?|n]; jwalk; [exists AOk|exists AOk|exists (AOther n)]; eexists; (split; [reflexivity|split; [eassumption|cbn; eauto]])) end.
    destruct G as (r & is' & -> & G & G'). apply (tdk_quiet false None _ (k r) _ [JAcq LReader; JRel LReader]); [reflexivity|intros l; now apply td_input|]. now apply IHq.
  - (* read *) destruct Ha as [_ Ha]. rewrite (Hn Ha) in *. unfold with_reader in H. inversion H as [|? ? is1 ? H1| | | | |]; subst; clear H.
    destruct (wtread_walks' _ _ H1) as (r & G1 & G). clear H1. inversion G as [| | | |l0 k0 is2 p0 G0| |]; subst; clear G.
    apply (tdk_quiet false None _ (k r) is2 [JAcq LReader; JRel LReader]); [reflexivity|intros l; apply td_input; exact G1|]. now apply IHq.
  - (* prepare *) destruct Ha as [_ Ha]. rewrite (Hn Ha) in *. unfold with_reader, wwith_writer in H. jwalk.
    match goal with J : jwalks (wcompile (k ?r)) ?x _ |- _ =>
      apply (Hset [JAcq LReader; JAcq LWriter; JAct (AW (WPrepare mouse track keypad)) r; JRel LWriter; JRel LReader]
        (AW (WPrepare mouse track keypad)) (Ready mouse track keypad r) r x); [constructor|reflexivity|reflexivity|reflexivity|reflexivity|reflexivity|exact J] end.
  - (* restore *) destruct Ha as [_ Ha]. rewrite (Hn Ha) in *. unfold with_reader, wwith_writer in H. jwalk.
    match goal with J : jwalks (wcompile (k ?r)) ?x _ |- _ =>
      apply (Hset [JAcq LReader; JAcq LWriter; JAct (AW (WRestore mouse keypad)) r; JRel LWriter; JRel LReader]
        (AW (WRestore mouse keypad)) (Undone mouse keypad r) r x); [constructor|reflexivity|reflexivity|reflexivity|reflexivity|reflexivity|exact J] end.
  - (* writing *) rewrite (Hn Ha) in *. destruct Hs1 as (m & -> & _).
    specialize (Halone m eq_refl). specialize (Hidle m eq_refl eq_refl). unfold idle in Hidle, Halone.
    destruct m; try destruct n; cbn [forward api_add_style api_write_str] in *;
      first [apply Hidle; [tauto|exact H]|apply Halone; [intuition discriminate|exact H|reflexivity]].
  - (* dropping the read guard *) jwalk. apply (tdk_quiet false o _ (k AOk) _ [JRel LReader]); [reflexivity|intros l; apply td_input; reflexivity|]. now apply IHq.
  - (* waiting through it *) unfold wait_block in H. jwalk.
    match goal with c : choice |- _ => assert (G : exists r, jwalks (wcompile (k r)) is Done /\ tinput_answer false RWait r)
      by (destruct c as [?|? ? ?|n]; [exists AOk|exists AOk|exists (AOther n)]; (split; [assumption|cbn; eauto])) end.
    destruct G as (r & G & G'). apply (tdk_quiet false o _ (k r) _ []); [reflexivity|intros l; now apply td_input|]. now apply IHq.
  - (* reading through it *) destruct (wtread_walks' _ _ H) as (r & G1 & G). clear H.
    apply (tdk_quiet false o _ (k r) is []); [reflexivity|intros l; apply td_input; exact G1|]. now apply IHq.
  - (* prepare through it *) destruct Ha as [_ Ha]. rewrite (Hn Ha) in *. unfold wwith_writer in H. jwalk.
    match goal with J : jwalks (wcompile (k ?r)) ?x _ |- _ =>
      apply (Hset [JAcq LWriter; JAct (AW (WPrepare mouse track keypad)) r; JRel LWriter]
        (AW (WPrepare mouse track keypad)) (Ready mouse track keypad r) r x); [constructor|reflexivity|reflexivity|reflexivity|reflexivity|reflexivity|exact J] end.
  - (* restore through it *) destruct Ha as [_ Ha]. rewrite (Hn Ha) in *. unfold wwith_writer in H. jwalk.
    match goal with J : jwalks (wcompile (k ?r)) ?x _ |- _ =>
      apply (Hset [JAcq LWriter; JAct (AW (WRestore mouse keypad)) r; JRel LWriter]
        (AW (WRestore mouse keypad)) (Undone mouse keypad r) r x); [constructor|reflexivity|reflexivity|reflexivity|reflexivity|reflexivity|exact J] end.
  - (* with both guards *) destruct Ha as [_ Ha]. destruct (Hy Ha) as (g0 & ->). jwalk.
    apply (tdk_deed false _ (k r) _ _ (Ready mouse track keypad r)); [reflexivity|intros l; apply td_through; constructor|]. now apply IHq.
  - destruct Ha as [_ Ha]. destruct (Hy Ha) as (g0 & ->). jwalk.
    apply (tdk_deed false _ (k r) _ _ (Undone mouse keypad r)); [reflexivity|intros l; apply td_through; constructor|]. now apply IHq.
  - (* dropping the write guard *) destruct (Hy Ha) as (g0 & ->). jwalk.
    apply (tdk_close false _ (k AOk) _ [JRel LWriter]); [|intros l; apply td_drop|now apply IHq].
    intros don. cbn. now rewrite app_nil_r.
  - (* writing through it *) destruct (Hy Ha) as (g0 & ->). destruct Hs1 as (m & -> & _). jwalk.
    apply (tdk_deed false _ (k r) _ _ (Wrote m r)); [reflexivity|intros l; apply td_through; constructor|]. now apply IHq.
Qed.

(** ** No thread touches the other lock *)
Fixpoint no_data (p : prog) : Prop :=
  match p with
  | Done => True
  | Acq l k | Rel l k => l <> LData /\ no_data k
  | TryAcq l k k' => l <> LData /\ no_data k /\ no_data k'
  | Act a k => forall r, no_data (k r)
  | M_Locks.Env k => forall c, no_data (k c)
  end.
Lemma terminal_no_data p : uses_terminal p -> no_data (compile p) /\ no_data (wcompile p).
Proof.
  induction p as [|c k IH]; [cbn; auto|]. intros [H1 H2].
  assert (A : forall r, no_data (compile (k r))) by (intros r; apply IH, H2).
  assert (B : forall r, no_data (wcompile (k r))) by (intros r; apply IH, H2). clear IH H2.
  cbn [compile wcompile].
  destruct c; cbn [terminal_call] in H1; try contradiction; cbn [method wmethod];
    unfold with_reader, with_writer, wwith_writer, drop_writer, read_block, wread_block, wait_block; cbn;
    try (split; repeat (split; try discriminate; intros); auto; fail).
  - split; (split; [discriminate|]); intros [[?|?]|? ? ?|?]; cbn; repeat (split; try discriminate; intros); auto.
  - split; (split; [discriminate|]); intros [[?|?]|? ? ?|?]; cbn; repeat (split; try discriminate; intros); auto.
  - split; (split; [discriminate|]); intros [[?|?]|? ? ?|?]; cbn; repeat (split; try discriminate; intros); auto.
  - destruct H1 as (m & -> & _). destruct m; try destruct n; cbn; try (split; repeat (split; try discriminate; intros); auto; fail).
  - split; intros [[?|?]|? ? ?|?]; cbn; repeat (split; try discriminate; intros); auto.
  - split; intros [[?|?]|? ? ?|?]; cbn; repeat (split; try discriminate; intros); auto.
Qed.

Lemma set_thread_all (P : prog -> Prop) i k t : (forall j, P (t j)) -> P k -> forall j, P (set_thread i k t j).
Proof. intros H Hk j. unfold set_thread. destruct (j =? i); auto. Qed.
Lemma data_free E C c tr c' : run E C c tr c' -> (forall i, no_data (threads c i)) -> owner c LData = None ->
  (forall i, no_data (threads c' i)) /\ owner c' LData = None.
Proof.
  induction 1 as [|tr c1 e c2 R IH St]; intros H1 H2; [auto|]. destruct (IH H1 H2) as [I1 I2]. clear IH H1 H2 R.
  inversion St as [i l k t o s Ht Ho|i l k k' t o s Ht Ho|i l k k' j t o s Ht Ho|i l k t o s Ht Ho|i a k t o s s' r Ht Hm|i k x t o s Ht]; subst; cbn [threads owner] in *;
    assert (X := I1 i); rewrite Ht in X; cbn in X; (split; [apply set_thread_all; [exact I1|try apply X]|]); try exact I2;
    destruct X as [X _]; unfold set_owner; destruct l; cbn; auto; congruence.
Qed.
Lemma wdata_free {Wd Dd} (M : access Wd Dd) c tr c' : wrun M c tr c' -> (forall i, no_data (wthreads c i)) -> wowner c LData = None ->
  (forall i, no_data (wthreads c' i)) /\ wowner c' LData = None.
Proof.
  induction 1 as [|tr c1 e c2 R IH St]; intros H1 H2; [auto|]. destruct (IH H1 H2) as [I1 I2]. clear IH H1 H2 R.
  inversion St as [i l k t o s Ht Ho|i l k k' t o s Ht Ho|i l k k' j t o s Ht Ho|i l k t o s Ht Ho|i a k t o s s' r Ht Hm|i k x t o s Ht]; subst; cbn [wthreads wowner] in *;
    assert (X := I1 i); rewrite Ht in X; cbn in X; (split; [apply set_thread_all; [exact I1|try apply X]|]); try exact I2;
    destruct X as [X _]; unfold set_owner; destruct l; cbn; auto; congruence.
Qed.

(** ** One after the other *)
Lemma plan_exact {D} (f : D -> act * ans) (order : list (nat * list (act * ans))) : forall (want : nat -> list (list D)),
  (forall i, done_by i order = map (map f) (want i)) ->
  exists plan : list (nat * list D), (forall i, done_by i plan = want i) /\ map snd order = map (map f) (map snd plan).
Proof.
  induction order as [|[j rs] order IH]; intros want Hw.
  - exists []. split; [|reflexivity]. intros i. specialize (Hw i). cbn in Hw. destruct (want i); [reflexivity|discriminate].
  - assert (Hj := Hw j). unfold done_by in Hj. cbn [filter fst] in Hj. rewrite Nat.eqb_refl in Hj. cbn [map snd] in Hj.
    destruct (want j) as [|d rest] eqn:Ew; [discriminate Hj|]. cbn [map] in Hj. injection Hj as Hd1 Hrest.
    destruct (IH (fun i => if j =? i then rest else want i)) as (plan & P1 & P2).
    + intros i. specialize (Hw i). unfold done_by in Hw |- *. cbn [filter fst] in Hw.
      destruct (Nat.eqb_spec j i) as [Ei|Ei]; [subst i; exact Hrest|exact Hw].
    + exists ((j, d) :: plan). split; [|cbn [map snd]; now rewrite Hd1, P2].
      intros i. specialize (P1 i). unfold done_by in *. cbn [filter fst].
      destruct (Nat.eqb_spec j i) as [Ei|Ei]; [|exact P1]. subst i. rewrite Ew. cbn [map snd]. f_equal. exact P1.
Qed.
Definition some_tplan (plan : list (nat * list tdeed)) : list (nat * list tdeed) := filter (fun x => some_tdeeds (snd x)) plan.
Lemma some_tplan_by i plan : done_by i (some_tplan plan) = filter some_tdeeds (done_by i plan).
Proof.
  unfold done_by, some_tplan. induction plan as [|[j x] plan IH]; [reflexivity|]. cbn [filter fst snd].
  destruct (some_tdeeds x) eqn:Ex; cbn [filter fst]; destruct (j =? i); cbn [map filter snd]; rewrite ?Ex; congruence.
Qed.
Lemma some_tplan_snd plan : concat (map snd (some_tplan plan)) = concat (map snd plan).
Proof.
  unfold some_tplan. induction plan as [|[j x] plan IH]; [reflexivity|]. cbn [filter snd]. destruct x; cbn [some_tdeeds map concat snd]; [exact IH|].
  now rewrite IH.
Qed.

(** What a thread has done, from its whole walk [is ++ is2]. *)
Lemma walked u p is is2 i tr (D : Prop) : td_ok u None p (is ++ is2) -> sess_of i tr = fold_left jstep is (Sess false false [] []) -> (D -> is2 = []) ->
  exists l, sessions i tr = map (map tdeed_act) l /\ exists rest, tdid u None p (filter some_tdeeds l ++ rest) /\ (D -> rest = []).
Proof.
  intros H W Hd. destruct (H []) as (l & T1 & T2). cbn [tin_guard tdeeds_cur app] in T1. rewrite fold_left_app, <- W in T1. destruct (done_more is2 (sess_of i tr)) as (ls & D1).
  rewrite T1 in D1. cbn [s_done] in D1. fold (sessions i tr) in D1. symmetry in D1. apply eq_sym in D1. apply map_eq_app in D1. destruct D1 as (l1 & l2 & -> & D1 & D2).
  exists l1. split; [now rewrite D1|]. exists (filter some_tdeeds l2). rewrite <- filter_app. split; [exact T2|].
  intros X. rewrite (Hd X) in T1. cbn [fold_left] in T1. assert (Y := f_equal s_done T1). cbn [s_done] in Y.
  fold (sessions i tr) in Y. rewrite <- D1, map_app in Y. rewrite <- (app_nil_r (map (map tdeed_act) l1)) in Y at 1. apply app_inv_head in Y.
  destruct l2; [reflexivity|discriminate Y].
Qed.
Lemma all_planned u (progs : list client) (ss : nat -> list (list (act * ans))) (D : nat -> Prop) (order : list (nat * list (act * ans))) :
  (forall i, done_by i order = ss i) ->
  (forall i, exists l, ss i = map (map tdeed_act) l /\ exists rest, tdid u None (nth i progs Finish) (filter some_tdeeds l ++ rest) /\ (D i -> rest = [])) ->
  (forall i, length progs <= i -> ss i = []) ->
  exists plan : list (nat * list tdeed), (forall i, exists rest, tdid u None (nth i progs Finish) (done_by i plan ++ rest) /\ (D i -> rest = [])) /\
    concat (map snd order) = map tdeed_act (concat (map snd plan)).
Proof.
  intros O1 Hwalk Hend.
  assert (Hch : forall n, exists f : nat -> list (list tdeed), forall i, i < n -> ss i = map (map tdeed_act) (f i) /\
    exists rest, tdid u None (nth i progs Finish) (filter some_tdeeds (f i) ++ rest) /\ (D i -> rest = [])).
  { induction n as [|n [f Hfn]]; [exists (fun _ => []); intros i Hi; lia|]. destruct (Hwalk n) as (l & Hl).
    exists (fun i => if i =? n then l else f i). intros i Hi. destruct (Nat.eqb_spec i n) as [->|Hni]; [exact Hl|]. apply Hfn. lia. }
  destruct (Hch (length progs)) as (f & Hfl).
  set (want := fun i => if i <? length progs then f i else []).
  destruct (plan_exact tdeed_act order want) as (plan & P1 & P2).
  { intros i. rewrite O1. unfold want. destruct (Nat.ltb_spec i (length progs)) as [Hi|Hi]; [apply Hfl, Hi|]. now rewrite Hend. }
  exists (some_tplan plan). split; [|rewrite some_tplan_snd, P2; symmetry; apply concat_map].
  intros i. rewrite some_tplan_by, P1. unfold want. destruct (Nat.ltb_spec i (length progs)) as [Hi|Hi]; [apply Hfl, Hi|].
  exists []. rewrite nth_overflow by exact Hi. split; [constructor|reflexivity].
Qed.

Lemma uses_nth b (progs : list client) i : Forall (fun p => follows b None None p /\ uses_terminal p) progs ->
  follows b None None (nth i progs Finish) /\ uses_terminal (nth i progs Finish).
Proof.
  intros H. destruct (Nat.lt_ge_cases i (length progs)) as [Hi|Hi]; [exact (proj1 (Forall_forall _ _) H _ (nth_In _ Finish Hi))|].
  rewrite nth_overflow by exact Hi. repeat split.
Qed.

Section Unix.
  Variables (E : env) (C : tcfg).

  Lemma tdeed_performed x w rest w' d d' :
    replays E C (tdeed_act x :: rest) (Some w, d) (Some w', d') ->
    exists w1, replays E C rest (Some w1, d) (Some w', d') /\ forall l w2, tperformed C l w1 w2 -> tperformed C (x :: l) w w2.
  Proof.
    intros H. destruct (tdeed_act x) as [a r] eqn:Ea. cbn [replays] in H. destruct H as [H1 H2].
    assert (Hg : fst (fst (meaning E C a (Some w, d))) <> None).
    { intros X. assert (N : forall l s s', replays E C l s s' -> fst s = None -> fst s' = None).
      { induction l as [|[b q] l IH]; intros s s' H N; cbn [replays] in H; [now subst|]. destruct H as [_ H]. exact (IH _ _ H (gone_stays E C b s N)). }
      now specialize (N _ _ _ H2 X). }
    destruct x as [m r0|mo tk kp r0|mo kp r0|]; cbn [tdeed_act] in Ea; injection Ea as <- <-; cbn [meaning wmeaning] in *.
    - assert (Q : forall l w1 w2, answers (guard_method C m w) w1 r0 -> tperformed C l w1 w2 -> tperformed C (Wrote m r0 :: l) w w2) by (intros; eapply tperf_wrote; eassumption).
      unfold guard_method in Q.
      destruct (run_wop C (forward m) w) as [w1 u|w1 e| |]; cbn in H1, H2, Hg; try congruence; subst r0; exists w1; (split; [exact H2|]); intros l w2; apply Q; constructor.
    - assert (Q : forall l w1 w2, answers (prepared_again C mo tk kp w) w1 r0 -> tperformed C l w1 w2 -> tperformed C (Ready mo tk kp r0 :: l) w w2) by (intros; eapply tperf_ready; eassumption).
      fold (prepared_again C mo tk kp w) in *.
      destruct (prepared_again C mo tk kp w) as [w1 u|w1 e| |]; cbn in H1, H2, Hg; try congruence; subst r0; exists w1; (split; [exact H2|]); intros l w2; apply Q; constructor.
    - assert (Q : forall l w1 w2, answers (restored C mo kp w) w1 r0 -> tperformed C l w1 w2 -> tperformed C (Undone mo kp r0 :: l) w w2) by (intros; eapply tperf_undone; eassumption).
      fold (restored C mo kp w) in *.
      destruct (restored C mo kp w) as [w1 u|w1 e| |]; cbn in H1, H2, Hg; try congruence; subst r0; exists w1; (split; [exact H2|]); intros l w2; apply Q; constructor.
    - destruct (guard_drop w) as [w1 u|w1 e| |] eqn:Em; cbn in H1, H2, Hg; try congruence.
      exists w1. split; [exact H2|]. intros l w2. now apply tperf_let_go with (u := u).
  Qed.
  Lemma tdeeds_performed l : forall w d w' d', replays E C (map tdeed_act l) (Some w, d) (Some w', d') -> tperformed C l w w' /\ d = d'.
  Proof.
    induction l as [|x l IH]; intros w d w' d' H.
    - cbn in H. injection H as -> ->. split; [constructor|reflexivity].
    - cbn [map] in H. destruct (tdeed_performed _ _ _ _ _ _ H) as (w1 & H1 & H2). destruct (IH _ _ _ _ H1) as [Q1 Q2]. auto.
  Qed.

  Lemma tone_after_another (progs : list client) w d tr c w' d' :
    Forall (fun p => follows true None None p /\ uses_terminal p) progs ->
    run E C (start progs (Some w, d)) tr c -> owner c LWriter = None -> shared c = (Some w', d') ->
    exists order : list (nat * list tdeed),
      (forall i, exists rest, tdid true None (nth i progs Finish) (done_by i order ++ rest) /\ (threads c i = Done -> rest = [])) /\
      tperformed C (concat (map snd order)) w w'.
  Proof.
    intros Hn R U1 Hs.
    assert (L1 : Forall (follows true None None) progs) by (refine (Forall_impl _ _ Hn); intros p [H _]; exact H).
    assert (L2 : Forall (follows false None None) progs) by (refine (Forall_impl _ _ L1); intros p; apply follows_less).
    destruct (data_free E C _ _ _ R) as [_ U2]; [intros i; exact (proj1 (terminal_no_data _ (proj2 (uses_nth true progs i Hn))))|reflexivity|].
    destruct (sessions_atomic E C _ _ tr c L2 R U1 U2) as (order & O1 & O2). rewrite Hs in O2.
    assert (Hfits : forall i a r, In (EvAct i a r) tr -> fits a r) by (apply (run_fits E C _ _ _ R); rewrite Hs; discriminate).
    destruct (all_planned true progs (fun i => sessions i tr) (fun i => threads c i = Done) order) as (plan & P1 & P2).
    - exact O1.
    - intros i. destruct (jwalk_run E C i _ _ _ R) as (is & W1 & W2 & W3). cbn [start threads] in W1.
      destruct (uses_nth true progs i Hn) as [I1 I2]. destruct (walk_on (threads c i)) as (is2 & V1 & V2).
      apply (walked true _ is is2 i tr); [|exact W2|].
      + apply (td_walks _ None None); [exact I1|exact I2| |exact (jwalks_app _ _ _ W1 _ _ V1)].
        intros a r X. apply in_app_or in X. destruct X as [X|X]; [exact (Hfits i a r (W3 _ _ X))|exact (V2 a r X)].
      + intros X. rewrite X in V1. now inversion V1.
    - intros i Hi. destruct (jwalk_run E C i _ _ _ R) as (is & W1 & W2 & _). cbn [start threads] in W1.
      rewrite nth_overflow in W1 by exact Hi. inversion W1; subst. unfold sessions. now rewrite W2.
    - exists plan. split; [exact P1|]. rewrite P2 in O2. apply (tdeeds_performed _ _ _ _ _ O2).
  Qed.
End Unix.

Section Windows.
  Variables (draw : list N -> N -> view -> view) (default : N) (E : env).
  Let M := console_access draw E default.

  Lemma wtdeed_performed x s rest s' d d' : (x = LetGo -> False) ->
    wreplays M (tdeed_act x :: rest) (Some s, d) (Some s', d') ->
    exists s1, wreplays M rest (Some s1, d) (Some s', d') /\ forall l s2, wtperformed draw default E l s1 s2 -> wtperformed draw default E (x :: l) s s2.
  Proof.
    intros Hx H. destruct (tdeed_act x) as [a r] eqn:Ea. cbn [wreplays] in H. destruct H as [H1 H2].
    assert (N : forall l s s', wreplays M l s s' -> fst s = None -> fst s' = None).
    { induction l as [|[b q] l IH]; intros s0 s0' H N; cbn [wreplays] in H; [now subst|]. destruct H as [_ H]. apply (IH _ _ H).
      destruct s0 as [w0 d0]. cbn in N. subst w0. now destruct b. }
    specialize (N _ _ _ H2).
    destruct x as [m r0|mo tk kp r0|mo kp r0|]; cbn [tdeed_act] in Ea; injection Ea as <- <-; unfold M, console_access in *; cbn [wmeans on_writer] in *; [| | |now destruct Hx].
    - assert (Q : forall l s1 s2, wanswers (win_guard_method draw default E m s) s1 r0 -> wtperformed draw default E l s1 s2 -> wtperformed draw default E (Wrote m r0 :: l) s s2)
        by (intros; eapply wtperf_wrote; eassumption).
      unfold win_guard_method in Q.
      destruct (run_win draw default E (forward m) s) as [s1 u|s1 e| |]; cbn in H1, H2, N; try (now specialize (N eq_refl)); subst r0; exists s1; (split; [exact H2|]); intros l s2; apply Q; constructor.
    - cbn in H1, H2. subst r0. exists s. split; [exact H2|]. intros l s2. apply wtperf_ready.
    - cbn in H1, H2. subst r0. exists s. split; [exact H2|]. intros l s2. apply wtperf_undone.
  Qed.
  Lemma wtdeeds_performed l : forall s d s' d', ~ In LetGo l -> wreplays M (map tdeed_act l) (Some s, d) (Some s', d') -> wtperformed draw default E l s s'.
  Proof.
    induction l as [|x l IH]; intros s d s' d' Hl H.
    - cbn in H. injection H as -> ->. constructor.
    - cbn [map] in H. destruct (wtdeed_performed x _ _ _ _ _ (fun e => Hl (or_introl e)) H) as (w1 & H1 & H2). apply H2, (IH _ d _ d'); [|exact H1]. intros X. apply Hl. now right.
  Qed.
  Lemma tdid_windows o p l : tdid false o p l -> (match o with Some g => ~ In LetGo g | None => True end) -> ~ In LetGo (concat l).
  Proof.
    induction 1 as [|m k r l Hm H IH|m k l Hi H IH|c x k r l Hr H IH|c k l Hc H IH|k l H IH|c x k r g l Hw H IH|k g l H IH|k r l Hr H IH|c k r l Hu|c k mo tk kp r l Hu|g c k r l Hq H IH];
      intros Ho; try discriminate Hu; auto.
    - intros [X|X]; [discriminate X|]. now apply IH.
    - intros [X|X]; [subst x; inversion Hr|]. now apply IH.
    - apply IH. intros X. apply in_app_or in X. destruct X as [X|[X|[]]]; [auto|]. subst x. inversion Hw.
    - cbn [let_go]. rewrite app_nil_r, concat_app. intros X. apply in_app_or in X. destruct X as [X|X]; [|now apply IH].
      destruct g; [destruct X|]. cbn [piece concat] in X. rewrite app_nil_r in X. auto.
  Qed.

  Lemma wtone_after_another (progs : list client) s tr c s' :
    Forall (fun p => follows false None None p /\ uses_terminal p) progs ->
    wrun (console_access draw E default) (wstart progs (Some s, tt)) tr c -> wowner c LWriter = None -> wshared c = (Some s', tt) ->
    exists order : list (nat * list tdeed),
      (forall i, exists rest, tdid false None (nth i progs Finish) (done_by i order ++ rest) /\ (wthreads c i = Done -> rest = [])) /\
      wtperformed draw default E (concat (map snd order)) s s'.
  Proof.
    intros Hn R U1 Hs.
    assert (L1 : Forall (wfollows true None None) progs).
    { refine (Forall_impl _ _ Hn). intros p [H1 H2]. apply no_screen_follows; [exact (terminal_no_screen _ _ _ H2)|exact H1]. }
    assert (L2 : Forall (wfollows false None None) progs) by (refine (Forall_impl _ _ L1); intros p; apply wfollows_less).
    destruct (wdata_free _ _ _ _ R) as [_ U2]; [intros i; exact (proj2 (terminal_no_data _ (proj2 (uses_nth false progs i Hn))))|reflexivity|].
    destruct (wsessions_atomic _ _ _ tr c L2 R U1 U2) as (order & O1 & O2). rewrite Hs in O2.
    destruct (all_planned false progs (fun i => sessions i tr) (fun i => wthreads c i = Done) order) as (plan & P1 & P2).
    - exact O1.
    - intros i. destruct (wjwalk_run _ i _ _ _ R) as (is & W1 & W2 & W3). cbn [wstart wthreads] in W1.
      destruct (uses_nth false progs i Hn) as [I1 I2]. destruct (walk_on (wthreads c i)) as (is2 & V1 & V2).
      apply (walked false _ is is2 i tr); [|exact W2|].
      + apply (wtd_walks _ None None); [exact I1|exact I2|exact (jwalks_app _ _ _ W1 _ _ V1)].
      + intros X. rewrite X in V1. now inversion V1.
    - intros i Hi. destruct (wjwalk_run _ i _ _ _ R) as (is & W1 & W2 & _). cbn [wstart wthreads] in W1.
      rewrite nth_overflow in W1 by exact Hi. inversion W1; subst. unfold sessions. now rewrite W2.
    - exists plan. split; [exact P1|]. rewrite P2 in O2. refine (wtdeeds_performed _ _ _ _ _ _ O2).
      intros X. apply in_concat in X. destruct X as (g & X1 & X2). apply in_map_iff in X1. destruct X1 as ([i g'] & X1 & X3). cbn in X1. subst g'.
      destruct (P1 i) as (rest & T & _). apply (tdid_windows _ _ _ T I). rewrite concat_app. apply in_or_app. left. apply in_concat. exists g. split; [|exact X2].
      unfold done_by. apply in_map_iff. exists (i, g). split; [reflexivity|]. apply filter_In. split; [exact X3|apply Nat.eqb_refl].
  Qed.
End Windows.

(** ** For the examples *)
Definition tstuck (E : env) (C : tcfg) (w : wst) (progs : list client) (sch : list (nat * choice)) (i : nat) : bool :=
  match lrun E C sch [] (start progs (Some w, None)) with
  | Some (tr, c) =>
      match owner c LWriter, shared c, threads c i with
      | None, (Some _, _), M_Locks.Env _ => existsb failed_event tr && existsb resumed_event tr
      | _, _, _ => false
      end
  | None => false
  end.
Lemma tstuck_ok E C w progs sch i : tstuck E C w progs sch i = true ->
  exists tr c w' d', run E C (start progs (Some w, None)) tr c /\ owner c LWriter = None /\ shared c = (Some w', d') /\
    (exists i a e, In (EvAct i a (AErr e)) tr) /\ (exists i mo tk kp, In (EvAct i (AW (WPrepare mo tk kp)) AOk) tr) /\ threads c i <> Done.
Proof.
  unfold tstuck. destruct (lrun E C sch [] (start progs (Some w, None))) as [[tr c]|] eqn:Er; [|discriminate].
  destruct (owner c LWriter) eqn:O1; [discriminate|]. destruct (shared c) as [[w'|] d'] eqn:Ec; [|discriminate].
  destruct (threads c i) eqn:Et; try discriminate. intros H. apply andb_prop in H. destruct H as [H1 H2].
  exists tr, c, w', d'. split; [exact (lrun_ok E C sch [] _ _ tr c (run_nil _ _ _) Er)|]. repeat (split; [assumption|]). split; [|split; [|rewrite Et; discriminate]].
  - apply existsb_exists in H1. destruct H1 as (e & X & Y). destruct e as [| |j a r|]; try discriminate. destruct r; try discriminate. eauto.
  - apply existsb_exists in H2. destruct H2 as (e & X & Y). destruct e as [| |j a r|]; try discriminate. destruct a as [[| | |]| |]; try discriminate.
    destruct r; try discriminate. eauto 6.
Qed.
Definition wtstuck (draw : list N -> N -> view -> view) (E : env) (default : N) (s : wins) (progs : list client) (sch : list (nat * choice)) (i : nat) : bool :=
  match wlrun (console_access draw E default) sch [] (wstart progs (Some s, tt)) with
  | Some (tr, c) =>
      match wowner c LWriter, wshared c, wthreads c i with
      | None, (Some _, _), M_Locks.Env _ => existsb failed_event tr
      | _, _, _ => false
      end
  | None => false
  end.
Lemma wtstuck_ok draw E default s progs sch i : wtstuck draw E default s progs sch i = true ->
  exists tr c s', wrun (console_access draw E default) (wstart progs (Some s, tt)) tr c /\ wowner c LWriter = None /\ wshared c = (Some s', tt) /\
    (exists i a e, In (EvAct i a (AErr e)) tr) /\ wthreads c i <> Done.
Proof.
  unfold wtstuck. destruct (wlrun _ sch [] (wstart progs (Some s, tt))) as [[tr c]|] eqn:Er; [|discriminate].
  destruct (wowner c LWriter) eqn:O1; [discriminate|]. destruct (wshared c) as [[s'|] []] eqn:Ec; [|discriminate].
  destruct (wthreads c i) eqn:Et; try discriminate. intros H1.
  exists tr, c, s'. split; [exact (wlrun_ok _ sch [] _ _ tr c (wrun_nil _ _) Er)|]. repeat (split; [assumption|]). split; [|rewrite Et; discriminate].
  apply existsb_exists in H1. destruct H1 as (e & X & Y). destruct e as [| |j a r|]; try discriminate. destruct r; try discriminate. eauto.
Qed.
