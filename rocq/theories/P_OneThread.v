(** Proofs about any programs that share a [Screen], also when accesses to the terminal
    fail and when the process is stopped and continued (C121). *)
From Verif Require Import Base M_Utf8 M_Geom S_Geom M_Attr M_Buf S_Buf M_Writer S_Tty S_Writer P_Buf P_Buf2 P_Buf3 P_Writer P_Attr P_Writer3 M_Screen S_Screen P_Screen P_Screen2 P_Screen5 M_ScreenApi
  S_Canvas P_Canvas P_WholeScreen2 M_Locks S_Locks P_Locks P_Locks2 P_Blocks S_Together P_Together S_Loop P_Loop S_CursorMode P_CursorMode S_Program P_Program P_Program2
  S_WideCanvas S_WideProgram S_OneThread.

Definition deed_act (x : deed) : act * ans :=
  match x with
  | Did x r => (mark_act x, r)
  | Resumed mo tk kp r => (AW (WPrepare mo tk kp), r)
  | Freed => (AW WGuardDrop, AOk)
  end.
Definition some_deeds (l : list deed) : bool := match l with [] => false | _ => true end.
Definition fits (a : act) (r : ans) : Prop :=
  match a with
  | AW WGuardDrop => r = AOk
  | AW (WPrepare _ _ _) => forall sz, r <> AResized sz
  | _ => True
  end.
Definition fit (is : list jinstr) : Prop := forall a r, In (JAct a r) is -> fits a r.
Lemma fit_cons x is : fit (x :: is) -> fit is.
Proof. intros H a r Hi. apply H. now right. Qed.
Lemma fit_act a r is : fit (JAct a r :: is) -> fits a r /\ fit is.
Proof. intros H. split; [apply H; now left|now apply fit_cons in H]. Qed.
Lemma fit_app is js : fit (is ++ js) -> fit js.
Proof. intros H a r Hi. apply H, in_or_app. now right. Qed.

Definition deeds_cur (o : option (list deed)) : list (act * ans) := match o with Some g => map deed_act g | None => [] end.
Definition in_guard (o : option (list deed)) : bool := match o with Some _ => true | None => false end.
Definition in_kind (o : option (list deed)) : option kind := match o with Some _ => Some OfScreen | None => None end.

Definition so_ok (o : option (list deed)) (p : client) (is : list jinstr) : Prop :=
  forall don, exists l, fold_left jstep is (Sess (in_guard o) (in_guard o) (deeds_cur o) don) = Sess false false [] (don ++ map (map deed_act) l) /\
    did_so o p (filter some_deeds l).

Lemma so_quiet o p q is js :
  (forall cur don, fold_left jstep js (Sess (in_guard o) (in_guard o) cur don) = Sess (in_guard o) (in_guard o) cur don) ->
  (forall l, did_so o q l -> did_so o p l) -> so_ok o q is -> so_ok o p (js ++ is).
Proof. intros Hj Hd Hq don. destruct (Hq don) as (l & L1 & L2). exists l. rewrite fold_left_app, Hj. auto. Qed.
Lemma so_sessions p q is js v :
  (forall don, fold_left jstep js (Sess false false [] don) = Sess false false [] (don ++ map (map deed_act) v)) ->
  (forall l, did_so None q l -> did_so None p (filter some_deeds v ++ l)) -> so_ok None q is -> so_ok None p (js ++ is).
Proof.
  intros Hj Hd Hq don. destruct (Hq (don ++ map (map deed_act) v)) as (l & L1 & L2). exists (v ++ l). cbn [in_guard deeds_cur] in *.
  rewrite fold_left_app, Hj, L1. rewrite map_app, filter_app. split; [now rewrite <- app_assoc|auto].
Qed.
Lemma so_open p q is : (forall l, did_so (Some []) q l -> did_so None p l) -> so_ok (Some []) q is ->
  so_ok None p (JAcq LWriter :: JAcq LData :: is).
Proof. intros Hd Hq don. destruct (Hq don) as (l & L1 & L2). exists l. auto. Qed.
Lemma so_deed p q is g x a r : deed_act x = (a, r) -> (forall l, did_so (Some (g ++ [x])) q l -> did_so (Some g) p l) ->
  so_ok (Some (g ++ [x])) q is -> so_ok (Some g) p (JAct a r :: is).
Proof.
  intros Hx Hd Hq don. destruct (Hq don) as (l & L1 & L2). exists l. split; [|auto]. cbn [deeds_cur in_guard] in *. rewrite map_app in L1. cbn [map] in L1.
  rewrite Hx in L1. rewrite <- L1. reflexivity.
Qed.
Lemma so_close p q is g r1 : (forall l, did_so None q l -> did_so (Some g) p ((g ++ [Did Shown r1; Freed]) :: l)) -> so_ok None q is ->
  so_ok (Some g) p (JAct ARefresh r1 :: JAct (AW WGuardDrop) AOk :: JRel LWriter :: JRel LData :: is).
Proof.
  intros Hd Hq don. destruct (Hq (don ++ [map deed_act (g ++ [Did Shown r1; Freed])])) as (l & L1 & L2).
  exists ((g ++ [Did Shown r1; Freed]) :: l). split.
  - cbn [map]. cbn in L1 |- *. rewrite map_app in *. cbn in *. rewrite <- !app_assoc in *. cbn in *. exact L1.
  - cbn [filter]. replace (some_deeds (g ++ [Did Shown r1; Freed])) with true by (destruct g; reflexivity). auto.
Qed.

Definition rels (js : list jinstr) (p : prog) : prog := fold_right (fun x p => match x with JRel l => Rel l p | _ => p end) p js.
Lemma so_read c k js js' is : reads c ->
  (forall s, fold_left jstep js s = s) -> (forall s, fold_left jstep js' s = s) -> fit is ->
  (forall r is', fit is' -> jwalks (compile (k r)) is' Done -> so_ok None (k r) is') ->
  jwalks (screen_read_block (fun r => rels js' (compile (k r)))) is Done ->
  (forall r is', jwalks (rels js' (compile (k r))) is' Done -> exists is2, is' = js' ++ is2 /\ jwalks (compile (k r)) is2 Done) ->
  so_ok None (Call c k) (js ++ is).
Proof.
  intros Hr Hj Hj' Hfit IH H Hx.
  assert (Hi : forall r, (exists n, r = AOther n) \/ (exists e, r = AErr e) -> input_answer c r) by (intros r Hq; destruct Hr as [->| ->]; exact Hq).
  unfold screen_read_block, read_block, with_writer, drop_writer in H. jwalk. destruct c0 as [[e|sz]|mo tk kp|n]; jwalk.
  - match goal with X : jwalks (rels js' (compile (k (AErr e)))) ?i Done |- _ => destruct (Hx _ _ X) as (is2 & -> & G) end.
    apply fit_cons, fit_act in Hfit. destruct Hfit as [-> Hfit]. apply fit_cons, fit_app in Hfit.
    replace (js ++ _) with ((js ++ [JAcq LWriter; JAct (AW WGuardDrop) AOk; JRel LWriter] ++ js') ++ is2) by (now rewrite <- !app_assoc).
    apply (so_sessions _ (k (AErr e)) _ _ [[Freed]]); [| |auto].
    + intros don'. rewrite !fold_left_app, Hj, Hj'. reflexivity.
    + intros l. now apply so_untold.
  - match goal with X : jwalks (rels js' (compile (k (AResized sz)))) ?i Done |- _ => destruct (Hx _ _ X) as (is2 & -> & G) end.
    apply fit_cons, fit_act in Hfit. destruct Hfit as [-> Hfit]. apply fit_cons, fit_cons, fit_act in Hfit. destruct Hfit as [_ Hfit]. apply fit_cons, fit_app in Hfit.
    match goal with |- context [JAct (AD (DUpdateSize sz)) ?r2] =>
      replace (js ++ _) with ((js ++ [JAcq LWriter; JAct (AW WGuardDrop) AOk; JRel LWriter] ++ [JAcq LData; JAct (AD (DUpdateSize sz)) r2; JRel LData] ++ js') ++ is2)
        by (now rewrite <- !app_assoc);
      apply (so_sessions _ (k (AResized sz)) _ _ [[Freed]; [Did (Fitted sz) r2]]); [| |auto] end.
    + intros don'. rewrite !fold_left_app, Hj, Hj'. cbn. now rewrite <- !app_assoc.
    + intros l. now apply so_told.
  - apply fit_cons, fit_act in Hfit. destruct Hfit as [Hsz Hfit]. apply fit_act in Hfit. destruct Hfit as [-> Hfit]. apply fit_cons in Hfit.
    match goal with X : jwalks match ?r with _ => _ end ?i Done |- _ => rename X into G; rename i into is1; rename r into ra end.
    assert (G' : jwalks (rels js' (compile (k ra))) is1 Done) by (destruct ra as [| | |sz| |]; try exact G; destruct (Hsz sz eq_refl)). clear G.
    destruct (Hx _ _ G') as (is2 & -> & G). apply fit_app in Hfit.
    replace (js ++ _) with ((js ++ [JAcq LWriter; JAct (AW (WPrepare mo tk kp)) ra; JAct (AW WGuardDrop) AOk; JRel LWriter] ++ js') ++ is2) by (now rewrite <- !app_assoc).
    apply (so_sessions _ (k ra) _ _ [[Resumed mo tk kp ra; Freed]]); [| |auto].
    + intros don'. rewrite !fold_left_app, Hj, Hj'. reflexivity.
    + intros l. now apply so_resumed.
  - match goal with X : jwalks (rels js' (compile (k (AOther n)))) ?i Done |- _ => destruct (Hx _ _ X) as (is2 & -> & G) end.
    apply fit_app in Hfit.
    rewrite app_assoc. apply (so_quiet None _ (k (AOther n)) _ (js ++ js')); [intros; rewrite fold_left_app, Hj, Hj'; reflexivity| |auto].
    intros l. apply so_input, Hi. eauto.
Qed.

Lemma so_walks p : forall g o is, follows true g (in_kind o) p -> uses_screen p -> fit is -> jwalks (compile p) is Done -> so_ok o p is.
Proof.
  induction p as [|c k IH]; intros g o is Hf Hs Hi H.
  { destruct Hf as [_ Hf]. destruct o as [g0|]; [discriminate Hf|]. inversion H; subst.
    intros don. exists []. cbn. rewrite app_nil_r. split; [reflexivity|constructor]. }
  destruct Hf as [Ha Hf]. destruct Hs as [Hs1 Hs2]. cbn [compile] in H.
  assert (IHq : forall r o' is', in_kind o' = write_guard_after c r (in_kind o) -> fit is' ->
    jwalks (compile (k r)) is' Done -> so_ok o' (k r) is').
  { intros r o' is' Hk Hfi Hw. specialize (Hf r). rewrite <- Hk in Hf. exact (IH r _ _ _ Hf (Hs2 r) Hfi Hw). }
  clear IH Hf Hs2.
  assert (Hn : in_kind o = None -> o = None) by (destruct o; [discriminate|auto]).
  assert (Hy : in_kind o = Some OfScreen -> exists g, o = Some g) by (destruct o; [eauto|discriminate]).
  destruct c; cbn [calls_screen] in Hs1; try contradiction; cbn [allowed] in Ha; cbn [method] in H.
  - (* lock_read *) jwalk. destruct Ha as [_ Ha]. rewrite (Hn Ha) in *. apply fit_cons in Hi.
    apply (so_quiet None _ (k AOk) _ [JAcq LReader]); [reflexivity|intros l; apply so_input; reflexivity|]. now apply IHq.
  - (* lock_write *) jwalk. rewrite (Hn Ha) in *. apply fit_cons, fit_cons in Hi.
    apply (so_open _ (k AOk)); [intros l; apply so_lock; auto|]. now apply IHq.
  - (* try_lock_read *) inversion H; subst; clear H.
    + apply fit_cons in Hi. apply (so_quiet o _ (k AOk) _ [JAcq LReader]); [reflexivity|intros l; apply so_input; cbn; auto|]. now apply IHq.
    + apply (so_quiet o _ (k AWouldBlock) _ []); [reflexivity|intros l; apply so_input; cbn; auto|]. now apply IHq.
  - (* try_lock_write *) rewrite (Hn Ha) in *. inversion H as [|X| l0 k0 k1 is0 p0 H0|l0 k0 k1 is0 p0 H0|X|X|X]; subst; clear H;
      inversion H0 as [|X| l1 k2 k3 is1 p1 H1|l1 k2 k3 is1 p1 H1|X|X|X]; subst; clear H0.
    + apply fit_cons, fit_cons in Hi. apply (so_open _ (k AOk)); [intros l; apply so_lock; auto|]. now apply IHq.
    + unfold drop_writer in H1. jwalk. apply fit_cons, fit_act in Hi. destruct Hi as [-> Hi]. apply fit_cons in Hi.
      apply (so_sessions _ (k AWouldBlock) _ [JAcq LWriter; JAct (AW WGuardDrop) AOk; JRel LWriter] [[Freed]]); [reflexivity|intros l; apply so_locked_late|]. now apply IHq.
    + jwalk. apply fit_cons, fit_cons in Hi. apply (so_sessions _ (k AWouldBlock) _ [JAcq LData; JRel LData] [[]]); [reflexivity|intros l; apply so_locked|]. now apply IHq.
    + apply (so_quiet None _ (k AWouldBlock) _ []); [reflexivity|intros l; apply so_locked|]. now apply IHq.
  - (* wait *) destruct Ha as [_ Ha]. rewrite (Hn Ha) in *. unfold with_reader, wait_block in H. jwalk. apply fit_cons in Hi.
    match goal with c : choice |- _ => assert (G : exists r is', is0 = JRel LReader :: is' /\ jwalks (compile (k r)) is' Done /\ input_answer SWait r)
      by (destruct c as [?|? ? ?|n]; jwalk; [exists AOk|exists AOk|exists (AOther n)]; eexists; (split; [reflexivity|split; [eassumption|cbn; eauto]])) end.
    destruct G as (r & is' & -> & G & G'). apply fit_cons in Hi. apply (so_quiet None _ (k r) _ [JAcq LReader; JRel LReader]); [reflexivity|intros l; now apply so_input|]. now apply IHq.
  - (* read *) destruct Ha as [_ Ha]. rewrite (Hn Ha) in *. unfold with_reader in H. inversion H; subst; clear H. apply fit_cons in Hi.
    apply (so_read SRead k [JAcq LReader] [JRel LReader]); auto; [now left|].
    intros r is' X. cbn in X. inversion X; subst. eexists. split; [reflexivity|assumption].
  - (* refresh *) rewrite (Hn Ha) in *. unfold drop_screen_writer in H. jwalk.
    apply fit_cons, fit_cons, fit_cons, fit_cons, fit_act in Hi. destruct Hi as [-> Hi]. apply fit_cons, fit_cons in Hi.
    match goal with X : jwalks (compile (k ?r)) _ _ |- so_ok _ _ (_ :: _ :: JAct _ ?r0 :: JAct _ ?r1 :: _) =>
      apply (so_sessions _ (k r) _ [JAcq LWriter; JAcq LData; JAct ARefresh r0; JAct ARefresh r1; JAct (AW WGuardDrop) AOk; JRel LWriter; JRel LData]
        [[Did Shown r0; Did Shown r1; Freed]]); [reflexivity|intros l; apply so_show|now apply IHq] end.
  - (* set_cursor_mode *) rewrite (Hn Ha) in *. unfold with_writer, drop_writer in H. jwalk.
    apply fit_cons, fit_cons, fit_act in Hi. destruct Hi as [-> Hi]. apply fit_cons in Hi.
    match goal with X : jwalks (compile (k ?r)) _ _ |- _ =>
      apply (so_sessions _ (k r) _ [JAcq LWriter; JAct (AW (WOp (OSetCursorMode m))) r; JAct (AW WGuardDrop) AOk; JRel LWriter]
        [[Did (Asked m) r; Freed]]); [reflexivity|intros l; apply so_mode|now apply IHq] end.
  - (* drawing *) rewrite (Hn Ha) in *. destruct Hs1 as (m & ->). jwalk. apply fit_cons, fit_cons, fit_cons in Hi.
    match goal with X : jwalks (compile (k ?r)) _ _ |- _ =>
      apply (so_sessions _ (k r) _ [JAcq LData; JAct (AD (DBuf (sforward m))) r; JRel LData] [[Did (Drawn m) r]]); [reflexivity|intros l; apply so_draw|now apply IHq] end.
  - (* dropping the read guard *) jwalk. apply fit_cons in Hi. apply (so_quiet o _ (k AOk) _ [JRel LReader]); [reflexivity|intros l; apply so_input; reflexivity|]. now apply IHq.
  - (* waiting through it *) unfold wait_block in H. jwalk.
    match goal with c : choice |- _ => assert (G : exists r, jwalks (compile (k r)) is Done /\ input_answer SRWait r)
      by (destruct c as [?|? ? ?|n]; [exists AOk|exists AOk|exists (AOther n)]; (split; [assumption|cbn; eauto])) end.
    destruct G as (r & G & G'). apply (so_quiet o _ (k r) _ []); [reflexivity|intros l; now apply so_input|]. now apply IHq.
  - (* reading through it *) destruct Ha as [_ Ha]. rewrite (Hn (Ha eq_refl)) in *.
    apply (so_read SRRead k [] []); auto; [now right|]. intros r is' X. cbn in X. exists is'. auto.
  - (* dropping the write guard *) destruct (Hy Ha) as (g0 & ->). unfold drop_screen_writer in H. jwalk.
    apply fit_cons, fit_act in Hi. destruct Hi as [-> Hi]. apply fit_cons, fit_cons in Hi.
    apply (so_close _ (k AOk)); [intros l; apply so_drop|]. now apply IHq.
  - (* refreshing through it *) destruct (Hy Ha) as (g0 & ->). jwalk. apply fit_cons in Hi.
    apply (so_deed _ (k r) _ _ (Did Shown r)); [reflexivity|intros l; apply so_through; constructor|]. now apply IHq.
  - destruct (Hy Ha) as (g0 & ->). jwalk. apply fit_cons in Hi.
    apply (so_deed _ (k r) _ _ (Did (Asked m) r)); [reflexivity|intros l; apply so_through; constructor|]. now apply IHq.
  - destruct (Hy Ha) as (g0 & ->). destruct Hs1 as (m & ->). jwalk. apply fit_cons in Hi.
    apply (so_deed _ (k r) _ _ (Did (Drawn m) r)); [reflexivity|intros l; apply so_through; constructor|]. now apply IHq.
Qed.

(** ** A walk can be completed *)
Lemma walk_on p : exists is, jwalks p is Done /\ fit is.
Proof.
  induction p as [|l k [is [IH IF]]|l k [is [IH IF]] k' _|l k [is [IH IF]]|a k IH|k IH].
  - exists []. split; [constructor|intros a r []].
  - exists (JAcq l :: is). split; [now constructor|]. intros a r [X|X]; [discriminate X|now apply IF].
  - exists (JAcq l :: is). split; [now constructor|]. intros a r [X|X]; [discriminate X|now apply IF].
  - exists (JRel l :: is). split; [now constructor|]. intros a r [X|X]; [discriminate X|now apply IF].
  - destruct (IH AOk) as (is & IH' & IF). exists (JAct a AOk :: is). split; [now constructor|].
    intros a' r [X|X]; [|now apply IF]. injection X as <- <-. destruct a as [[| | |]| |]; cbn; auto. discriminate.
  - destruct (IH (COther 0%N)) as (is & IH' & IF). exists is. split; [now apply (J_env k (COther 0%N))|exact IF].
Qed.
Lemma done_more is : forall s, exists ls, s_done (fold_left jstep is s) = s_done s ++ ls.
Proof.
  induction is as [|x is IH]; intros s; cbn [fold_left].
  - exists []. now rewrite app_nil_r.
  - destruct (IH (jstep s x)) as (ls & ->).
    assert (G : exists ls, s_done (jstep s x) = s_done s ++ ls).
    { destruct s as [w d cur don]. destruct x as [[| |]|[| |]|a r]; unfold jstep; cbn;
        repeat match goal with |- context [if ?b then _ else _] => destruct b end; cbn;
        eauto; exists []; now rewrite app_nil_r. }
    destruct G as (ls1 & ->). exists (ls1 ++ ls). now rewrite app_assoc.
Qed.

Section Run.
  Variables (E : env) (C : tcfg).

  Lemma prepare_answer mo tk kp w sz : snd (wmeaning C (WPrepare mo tk kp) w) <> AResized sz.
  Proof. destruct w as [w|]; cbn [wmeaning snd]; [|discriminate]. match goal with |- snd (wresult ?x) <> _ => destruct x end; discriminate. Qed.
  Lemma free_answer w : snd (wmeaning C WGuardDrop w) = AOk \/ fst (wmeaning C WGuardDrop w) = None.
  Proof.
    destruct w as [w|]; cbn [wmeaning snd]; [|now right]. destruct (guard_drop w) as [w' u|w' e| |] eqn:Ed; cbn; auto.
    unfold guard_drop in Ed. destruct (flush w); discriminate.
  Qed.
  Lemma gone_stays a s : fst s = None -> fst (fst (meaning E C a s)) = None.
  Proof. destruct s as [w d]. cbn. intros ->. destruct a as [a|a|]; cbn; auto. now destruct (dmeaning E a d). Qed.

  Lemma run_fits c0 tr c : run E C c0 tr c -> fst (shared c) <> None -> forall i a r, In (EvAct i a r) tr -> fits a r.
  Proof.
    induction 1 as [|tr c1 e c2 R IH St]; intros Hs i a r Hi; [destruct Hi|].
    assert (Hs1 : fst (shared c1) <> None).
    { intros X. apply Hs. destruct St; cbn in *; auto. pose proof (gone_stays a0 s X) as G. rewrite H0 in G. exact G. }
    apply in_app_or in Hi. destruct Hi as [Hi|[->|[]]]; [now apply (IH Hs1 i)|]. inversion St as [| | | |j b k t o s s' r' Ht Hm|]; subst; cbn in *.
    destruct s as [w d]. destruct a as [[| | |]| |]; cbn; auto; cbn [meaning] in *.
    - pose proof (free_answer w) as G. destruct (wmeaning C WGuardDrop w) as [w' r']. injection Hm as <- <-. cbn in *. destruct G as [G|G]; congruence.
    - intros sz ->. pose proof (prepare_answer mouse track keypad w sz) as G. destruct (wmeaning C (WPrepare mouse track keypad) w) as [w' r'].
      injection Hm as <- ->. now apply G.
  Qed.

  (** ** One after the other *)
  Lemma deed_performed x s rest w' d' :
    replays E C (deed_act x :: rest) (share s) (Some w', Some d') ->
    exists s', replays E C rest (share s') (Some w', Some d') /\ forall l s2, performed E C l s' s2 -> performed E C (x :: l) s s2.
  Proof.
    intros H. destruct (deed_act x) as [a r] eqn:Ea. assert (Hg := alive_not_gone E C _ _ _ _ _ _ H).
    cbn [replays] in H. destruct H as [H1 H2]. destruct x as [[m| |m|sz] r0|mo tk kp r0|]; cbn [deed_act mark_act] in Ea; injection Ea as <- <-.
    - unfold share, meaning, dmeaning in H1, H2. cbn [dbuf dclr dreal] in H1, H2.
      destruct (run_buf_op E (sb s) (sforward m)) as [b|] eqn:Eb; cbn in H1, H2; [subst r0|congruence].
      exists (with_sb b s). split; [exact H2|]. intros l s2. now apply perf_drawn.
    - unfold share, meaning in H1, H2. cbn [dbuf dclr dreal] in H1, H2.
      replace (Scr (sb s) (clr s) (real s) (wr s)) with s in * by (now destruct s).
      destruct (refresh E C s) as [s1 u|s1 e| |] eqn:Er; cbn in H1, H2; try congruence; subst r0;
        exists s1; (split; [exact H2|]); intros l s2; apply perf_shown; rewrite Er; constructor.
    - unfold share, meaning, wmeaning in H1, H2. cbn [run_wop] in H1, H2.
      destruct (set_cursor_mode C m (wr s)) as [w []|w e| |] eqn:Em; cbn in H1, H2; try congruence; subst r0;
        exists (with_wr w s); (split; [exact H2|]); intros l s2; apply perf_asked; unfold on_writer; rewrite Em; constructor.
    - unfold share, meaning, dmeaning in H1, H2. cbn [dbuf dclr dreal] in H1, H2.
      assert (U := update_writer E sz (sb s) (clr s) (real s) (wr s) (writer_new 0 [])).
      destruct (update_size E sz (Scr (sb s) (clr s) (real s) (writer_new 0 []))) as [s1|] eqn:Eu; cbn in H1, H2; [subst r0|congruence].
      exists (with_wr (wr s) s1). split; [exact H2|]. intros l s2. apply perf_fitted. destruct s; exact U.
    - unfold share, meaning, wmeaning in H1, H2. fold (prepared_again C mo tk kp (wr s)) in H1, H2.
      destruct (prepared_again C mo tk kp (wr s)) as [w []|w e| |] eqn:Em; cbn in H1, H2; try congruence; subst r0;
        exists (with_wr w s); (split; [exact H2|]); intros l s2; apply perf_resumed; unfold on_writer; rewrite Em; constructor.
    - unfold share, meaning, wmeaning in H1, H2.
      destruct (guard_drop (wr s)) as [w u|w e| |] eqn:Em; cbn in H1, H2; try congruence.
      exists (with_wr w s). split; [exact H2|]. intros l s2. apply perf_freed with (u := tt). unfold on_writer. rewrite Em. now destruct u.
  Qed.
  Lemma deeds_performed l : forall s w' d', replays E C (map deed_act l) (share s) (Some w', Some d') ->
    exists s', share s' = (Some w', Some d') /\ performed E C l s s'.
  Proof.
    induction l as [|x l IH]; intros s w' d' H.
    - cbn in H. exists s. split; [exact H|constructor].
    - cbn [map] in H. destruct (deed_performed _ _ _ _ _ H) as (s1 & H1 & H2). destruct (IH _ _ _ H1) as (s2 & Q1 & Q2). eauto.
  Qed.

  Lemma exact_plan (order : list (nat * list (act * ans))) : forall (want : nat -> list (list deed)),
    (forall i, done_by i order = map (map deed_act) (want i)) ->
    exists plan : list (nat * list deed), (forall i, done_by i plan = want i) /\
      map snd order = map (map deed_act) (map snd plan).
  Proof.
    induction order as [|[j rs] order IH]; intros want Hw.
    - exists []. split; [|reflexivity]. intros i. specialize (Hw i). cbn in Hw. destruct (want i); [reflexivity|discriminate].
    - assert (Hj := Hw j). unfold done_by in Hj. cbn [filter fst] in Hj. rewrite Nat.eqb_refl in Hj. cbn [map snd] in Hj.
      destruct (want j) as [|d rest] eqn:Ew; [discriminate Hj|]. cbn [map] in Hj. injection Hj as Hd1 Hrest.
      destruct (IH (fun i => if j =? i then rest else want i)) as (plan & P1 & P2).
      + intros i. specialize (Hw i). unfold done_by in Hw |- *. cbn [filter fst] in Hw.
        destruct (Nat.eqb_spec j i) as [Ei|Ei]; [subst i; exact Hrest|exact Hw].
      + exists ((j, d) :: plan). split; [|cbn [map snd]; now rewrite Hd1, P2].
        intros i. specialize (P1 i). unfold done_by in *. cbn [filter fst].
        destruct (Nat.eqb_spec j i) as [Ei|Ei]; [|exact P1]. subst i. rewrite Ew. cbn [map snd]. f_equal. exact P1.
  Qed.
  Definition some_plan (plan : list (nat * list deed)) : list (nat * list deed) := filter (fun x => some_deeds (snd x)) plan.
  Lemma some_plan_by i plan : done_by i (some_plan plan) = filter some_deeds (done_by i plan).
  Proof.
    unfold done_by, some_plan. induction plan as [|[j x] plan IH]; [reflexivity|]. cbn [filter fst snd].
    destruct (some_deeds x) eqn:Ex; cbn [filter fst]; destruct (j =? i); cbn [map filter snd]; rewrite ?Ex; congruence.
  Qed.
  Lemma some_plan_snd plan : concat (map snd (some_plan plan)) = concat (map snd plan).
  Proof.
    unfold some_plan. induction plan as [|[j x] plan IH]; [reflexivity|]. cbn [filter snd]. destruct x; cbn [some_deeds map concat snd]; [exact IH|].
    now rewrite IH.
  Qed.

  Lemma one_after_another (progs : list client) s tr c w' d' :
    Forall (fun p => follows true None None p /\ uses_screen p) progs ->
    run E C (start progs (share s)) tr c -> owner c LWriter = None -> owner c LData = None ->
    shared c = (Some w', Some d') ->
    exists order : list (nat * list deed),
      (forall i, exists rest, did_so None (nth i progs Finish) (done_by i order ++ rest) /\ (threads c i = Done -> rest = [])) /\
      exists s', performed E C (concat (map snd order)) s s' /\ share s' = (Some w', Some d').
  Proof.
    intros Hn R U1 U2 Hs.
    assert (L1 : Forall (follows true None None) progs) by (refine (Forall_impl _ _ Hn); intros p [H _]; exact H).
    assert (L2 : Forall (follows false None None) progs) by (refine (Forall_impl _ _ L1); intros p; apply follows_less).
    destruct (sessions_atomic E C _ _ tr c L2 R U1 U2) as (order & O1 & O2).
    rewrite Hs in O2.
    assert (Hfits : forall i a r, In (EvAct i a r) tr -> fits a r) by (apply (run_fits _ _ _ R); rewrite Hs; discriminate).
    assert (Hwalk : forall i, exists l, sessions i tr = map (map deed_act) l /\
      exists rest, did_so None (nth i progs Finish) (filter some_deeds l ++ rest) /\ (threads c i = Done -> rest = [])).
    { intros i. destruct (jwalk_run E C i _ _ _ R) as (is & W1 & W2 & W3). cbn [start threads] in W1.
      assert (Hi : follows true None None (nth i progs Finish) /\ uses_screen (nth i progs Finish)).
      { destruct (Nat.lt_ge_cases i (length progs)) as [Hi|Hi].
        - exact (proj1 (Forall_forall _ _) Hn _ (nth_In _ Finish Hi)).
        - rewrite nth_overflow by exact Hi. repeat split. }
      destruct (walk_on (threads c i)) as (is2 & V1 & V2).
      assert (Hf : fit (is ++ is2)).
      { intros a r X. apply in_app_or in X. destruct X as [X|X]; [exact (Hfits i a r (W3 _ _ X))|exact (V2 a r X)]. }
      destruct (so_walks _ None None (is ++ is2) (proj1 Hi) (proj2 Hi) Hf (jwalks_app _ _ _ W1 _ _ V1) []) as (l & T1 & T2).
      cbn [in_guard deeds_cur app] in T1. rewrite fold_left_app, <- W2 in T1. destruct (done_more is2 (sess_of i tr)) as (ls & D).
      rewrite T1 in D. cbn [s_done] in D. fold (sessions i tr) in D. symmetry in D. apply eq_sym in D. apply map_eq_app in D. destruct D as (l1 & l2 & -> & D1 & D2).
      exists l1. split; [now rewrite D1|]. exists (filter some_deeds l2). rewrite <- filter_app. split; [exact T2|].
      intros Hd. rewrite Hd in V1. inversion V1; subst. cbn [fold_left] in T1. assert (X := f_equal s_done T1). cbn [s_done] in X.
      fold (sessions i tr) in X. rewrite <- D1, map_app in X. rewrite <- (app_nil_r (map (map deed_act) l1)) in X at 1. apply app_inv_head in X.
      destruct l2; [reflexivity|discriminate X]. }
    assert (Hch : forall n, exists f : nat -> list (list deed), forall i, i < n -> sessions i tr = map (map deed_act) (f i) /\
      exists rest, did_so None (nth i progs Finish) (filter some_deeds (f i) ++ rest) /\ (threads c i = Done -> rest = [])).
    { induction n as [|n [f Hfn]]; [exists (fun _ => []); intros i Hi; lia|]. destruct (Hwalk n) as (l & Hl).
      exists (fun i => if i =? n then l else f i). intros i Hi. destruct (Nat.eqb_spec i n) as [->|Hni]; [exact Hl|]. apply Hfn. lia. }
    destruct (Hch (length progs)) as (f & Hfl).
    set (want := fun i => if i <? length progs then f i else []).
    assert (Hend : forall i, length progs <= i -> sessions i tr = []).
    { intros i Hi. destruct (jwalk_run E C i _ _ _ R) as (is & W1 & W2 & _). cbn [start threads] in W1.
      rewrite nth_overflow in W1 by exact Hi. inversion W1; subst. unfold sessions. now rewrite W2. }
    destruct (exact_plan order want) as (plan & P1 & P2).
    { intros i. unfold done_by. rewrite O1. unfold want. destruct (Nat.ltb_spec i (length progs)) as [Hi|Hi].
      - apply Hfl, Hi.
      - now rewrite Hend. }
    rewrite P2, <- concat_map in O2. destruct (deeds_performed _ _ _ _ O2) as (s' & Q1 & Q2).
    exists (some_plan plan). split; [|rewrite some_plan_snd; eauto].
    intros i. rewrite some_plan_by, P1. unfold want. destruct (Nat.ltb_spec i (length progs)) as [Hi|Hi]; [apply Hfl, Hi|].
    exists []. rewrite nth_overflow by exact Hi. split; [constructor|reflexivity].
  Qed.
End Run.

(** ** For the example *)
Definition failed_event (e : event) : bool := match e with EvAct _ _ (AErr _) => true | _ => false end.
Definition resumed_event (e : event) : bool := match e with EvAct _ (AW (WPrepare _ _ _)) AOk => true | _ => false end.
Definition stuck_sharing (E : env) (C : tcfg) (sz : size) (sc : list wresp) (progs : list client) (sch : list (nat * choice)) (P : prog -> bool) : bool :=
  match P_Screen5.start E sz sc with
  | Some (s, _) =>
      match lrun E C sch [] (start progs (share s)) with
      | Some (tr, c) =>
          match owner c LWriter, owner c LData, shared c with
          | None, None, (Some _, Some _) => existsb failed_event tr && existsb resumed_event tr && P (threads c 2)
          | _, _, _ => false
          end
      | None => false
      end
  | None => false
  end.
Lemma stuck_sharing_ok E C sz sc progs sch P : stuck_sharing E C sz sc progs sch P = true ->
  exists s tr c w' d', run E C (start progs (share s)) tr c /\ owner c LWriter = None /\ owner c LData = None /\
    shared c = (Some w', Some d') /\ (exists i a e, In (EvAct i a (AErr e)) tr) /\
    (exists i mo tk kp, In (EvAct i (AW (WPrepare mo tk kp)) AOk) tr) /\ P (threads c 2) = true.
Proof.
  unfold stuck_sharing. destruct (P_Screen5.start E sz sc) as [[s t]|]; [|discriminate].
  destruct (lrun E C sch [] (start progs (share s))) as [[tr c]|] eqn:Er; [|discriminate].
  destruct (owner c LWriter) eqn:O1; [discriminate|]. destruct (owner c LData) eqn:O2; [discriminate|].
  destruct (shared c) as [[w'|] [d'|]] eqn:Ec; try discriminate. intros H. apply andb_prop in H. destruct H as [H H3]. apply andb_prop in H. destruct H as [H1 H2].
  exists s, tr, c, w', d'. split; [exact (lrun_ok E C sch [] _ _ tr c (run_nil _ _ _) Er)|]. repeat (split; [assumption|]). split; [|split; [|exact H3]].
  - apply existsb_exists in H1. destruct H1 as (e & X & Y). destruct e as [| |i a r|]; try discriminate. destruct r; try discriminate. eauto.
  - apply existsb_exists in H2. destruct H2 as (e & X & Y). destruct e as [| |i a r|]; try discriminate. destruct a as [[| | |]| |]; try discriminate.
    destruct r; try discriminate. eauto 6.
Qed.
