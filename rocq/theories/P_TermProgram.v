(** Proofs about any programs that share a [Terminal] (C118): what a thread does. *)
From Verif Require Import Base M_Utf8 M_Geom M_Attr M_Buf M_Writer M_Api M_Locks S_Locks P_Locks P_Locks2 S_Together P_Loop
  P_Program M_WinLocks S_WinLocks S_TermProgram.

(** ** Sessions: what is written, and the accesses *)
Record tv : Type := Tv { tv_out : option (list tmethod); tv_acts : list act }.
Definition written (x : tv) : list tmethod := match tv_out x with Some g => g | None => [] end.
Definition tvis (x : tv) : list (list tmethod) := match tv_out x with Some g => [g] | None => [] end.
Definition output (a : act) : list wop := match a with AW (WOp o) => [o] | _ => [] end.
Definition usual (X : Prop) (a : act) : Prop :=
  match a with AW (WRestore mouse _) => mouse = true -> X | AW _ => True | _ => False end.
Definition tgood (X : Prop) (T : tmethod -> Prop) (Z : list act -> Prop) (x : tv) : Prop :=
  Forall T (written x) /\ Forall (usual X) (tv_acts x) /\ flat_map output (tv_acts x) = map forward (written x) /\ Z (tv_acts x).
Definition shut (l : list act) : Prop := exists pre, l = pre ++ [AW WGuardDrop].

Definition tkind (o : option (list tmethod)) : option kind := match o with Some _ => Some OfTerminal | None => None end.
Definition tholds (o : option (list tmethod)) : bool := match o with Some _ => true | None => false end.

Section Client.
  Variables (X : Prop) (T : tmethod -> Prop) (Z : list act -> Prop).

  Definition trest (o : option (list tmethod)) (p : client) (is : list jinstr) (cur : list (act * ans)) (don : list (list (act * ans))) : Prop :=
    exists ls l, fold_left jstep is (Sess (tholds o) false cur don) = Sess false false [] (don ++ ls) /\
      Forall2 (fun x v => map fst x = tv_acts v) ls l /\ incl cur (concat ls) /\ Forall (tgood X T Z) l /\
      ((forall a r, In (a, r) (concat ls) -> r = AOk) -> wrote o p (flat_map tvis l)).
  Definition tcur (o : option (list tmethod)) (cur : list (act * ans)) : Prop :=
    match o with
    | None => cur = []
    | Some g => Forall T g /\ Forall (usual X) (map fst cur) /\ flat_map output (map fst cur) = map forward g
    end.

  Lemma trest_quiet o p q is js cur don :
    (forall don, fold_left jstep js (Sess (tholds o) false cur don) = Sess (tholds o) false cur don) ->
    (forall l, wrote o q l -> wrote o p l) -> trest o q is cur don -> trest o p (js ++ is) cur don.
  Proof. intros Hj Hd (ls & l & L1 & L2 & L3 & L4 & L5). exists ls, l. rewrite fold_left_app, Hj. auto 8. Qed.
  Lemma trest_session p q is js v rs don : map fst rs = tv_acts v -> tgood X T Z v ->
    (forall don, fold_left jstep js (Sess false false [] don) = Sess false false [] (don ++ [rs])) ->
    (forall l, (forall a r, In (a, r) rs -> r = AOk) -> wrote None q l -> wrote None p (tvis v ++ l)) ->
    (forall don, trest None q is [] don) -> trest None p (js ++ is) [] don.
  Proof.
    intros Hv Hg Hj Hd Hr. destruct (Hr (don ++ [rs])) as (ls & l & L1 & L2 & L3 & L4 & L5). exists (rs :: ls), (v :: l).
    cbn [tholds] in *. rewrite fold_left_app, Hj, L1, <- app_assoc. split; [reflexivity|].
    split; [now constructor|]. split; [intros y []|]. split; [now constructor|].
    intros H. cbn [flat_map]. apply Hd; [|apply L5]; intros a r Hi; apply (H a r); cbn [concat]; apply in_or_app; auto.
  Qed.
  Lemma trest_open p q is don : (forall l, wrote (Some []) q l -> wrote None p l) ->
    trest (Some []) q is [] don -> trest None p (JAcq LWriter :: is) [] don.
  Proof. intros Hd (ls & l & L1 & L2 & L3 & L4 & L5). exists ls, l. auto 8. Qed.
  Lemma trest_act p q is g g' a r cur don : (forall l, r = AOk -> wrote (Some g') q l -> wrote (Some g) p l) ->
    trest (Some g') q is (cur ++ [(a, r)]) don -> trest (Some g) p (JAct a r :: is) cur don.
  Proof.
    intros Hd (ls & l & L1 & L2 & L3 & L4 & L5). exists ls, l. split; [exact L1|]. split; [exact L2|].
    split; [intros y Hy; apply L3, in_or_app; auto|]. split; [exact L4|].
    intros H. apply Hd; [|auto]. apply (H a). apply L3, in_or_app. right. now left.
  Qed.
  Lemma trest_drop p q is js g cur more don : tcur (Some g) cur -> Forall (fun x => fst x = AW WGuardDrop) more -> Z (map fst (cur ++ more)) ->
    (forall don, fold_left jstep js (Sess true false cur don) = Sess false false [] (don ++ [cur ++ more])) ->
    (forall l, wrote None q l -> wrote (Some g) p (g :: l)) ->
    (forall don, trest None q is [] don) -> trest (Some g) p (js ++ is) cur don.
  Proof.
    intros (C1 & C2 & C3) Hm Hz Hj Hd Hr. set (rs := cur ++ more).
    destruct (Hr (don ++ [rs])) as (ls & l & L1 & L2 & L3 & L4 & L5). exists (rs :: ls), (Tv (Some g) (map fst rs) :: l).
    cbn [tholds] in *. rewrite fold_left_app, Hj. fold rs. rewrite L1, <- app_assoc. split; [reflexivity|].
    split; [constructor; [reflexivity|exact L2]|].
    split; [intros y Hy; cbn [concat]; apply in_or_app; left; apply in_or_app; now left|]. split.
    - constructor; [|exact L4]. split; [exact C1|]. cbn [written tv_out tv_acts]. unfold rs. cut (Forall (usual X) (map fst (cur ++ more)) /\ flat_map output (map fst (cur ++ more)) = map forward g); [tauto|].
      rewrite map_app.
      assert (D : Forall (usual X) (map fst more) /\ flat_map output (map fst more) = []).
      { clear - Hm. induction Hm as [|x m Hx _ [I1 I2]]; [split; constructor|]. cbn [map flat_map]. rewrite Hx. split; [constructor; [exact I|exact I1]|exact I2]. }
      destruct D as [D1 D2]. split; [apply Forall_app; auto|]. now rewrite flat_map_app, D2, app_nil_r.
    - intros H. cbn [flat_map tvis tv_out app]. apply Hd, L5. intros a r Hi. apply (H a r). cbn [concat]. apply in_or_app. auto.
  Qed.

End Client.

(** ** Unix *)
Section Unix.
  Variables (X : Prop) (T : tmethod -> Prop).
  Let trest := trest X T shut.
  Let tcur := tcur X T.
  Lemma tread_walks (P : ans -> prog) is : jwalks (read_block P) is Done ->
    exists r js is', is = js ++ is' /\ jwalks (P r) is' Done /\
      (js = [] /\ (exists n, r = AOther n) \/
       (exists r1, js = [JAcq LWriter; JAct (AW WGuardDrop) r1; JRel LWriter] /\ r <> AWouldBlock /\ r <> AGone) \/
       exists mo tk kp r1, js = [JAcq LWriter; JAct (AW (WPrepare mo tk kp)) r; JAct (AW WGuardDrop) r1; JRel LWriter]).
  Proof.
    intros H. unfold read_block, with_writer, drop_writer in H. jwalk. destruct c as [[e|sz]|mo tk kp|n]; jwalk.
    - exists (AErr e), [JAcq LWriter; JAct (AW WGuardDrop) r; JRel LWriter]. eexists. split; [reflexivity|]. split; [eassumption|].
      right. left. exists r. split; [reflexivity|]. split; discriminate.
    - exists (AResized sz), [JAcq LWriter; JAct (AW WGuardDrop) r; JRel LWriter]. eexists. split; [reflexivity|]. split; [eassumption|].
      right. left. exists r. split; [reflexivity|]. split; discriminate.
    - do 3 eexists. split; [|split; [eassumption|]]; [|right; right; do 4 eexists; reflexivity]. reflexivity.
    - exists (AOther n), [], is. eauto 8.
  Qed.

  Ltac session := repeat split; cbn; auto; repeat constructor; auto; first [exists []; reflexivity|eexists [_]; reflexivity].

  Lemma tclient_walks p : forall g o is cur don, follows true g (tkind o) p -> terminal_program X T p -> jwalks (compile p) is Done ->
    tcur o cur -> trest o p is cur don.
  Proof.
    induction p as [|c k IH]; intros g o is cur don Hf Hs H Ho.
    { destruct Hf as [_ Hf]. destruct o as [g0|]; [discriminate Hf|]. cbn in Ho. subst cur. inversion H; subst.
      exists [], []. cbn. rewrite app_nil_r. repeat split; try constructor. intros y []. }
    destruct Hf as [Ha Hf]. destruct Hs as [Hs1 Hs2]. cbn [compile] in H.
    assert (IHq : forall r o' is' cur' don', tkind o' = write_guard_after c r (tkind o) ->
      jwalks (compile (k r)) is' Done -> tcur o' cur' -> trest o' (k r) is' cur' don').
    { intros r o' is' cur' don' Hk Hw Hok. specialize (Hf r). rewrite <- Hk in Hf. exact (IH r _ _ _ _ _ Hf (Hs2 r) Hw Hok). }
    clear IH Hf Hs2. assert (H00 : tcur None []) by reflexivity.
    assert (Hn : tkind o = None -> o = None /\ cur = []) by (destruct o; [discriminate|auto]).
    assert (Hy : tkind o = Some OfTerminal -> exists g, o = Some g) by (destruct o; [eauto|discriminate]).
    assert (Halone : forall m, o = None -> T m -> jwalks (with_writer (fun k => Act (AW (WOp (forward m))) k) (fun r => compile (k r))) is Done ->
      write_guard_after c AOk None = None -> (forall r, write_guard_after c r None = None) -> c = TWrite (forward m) -> trest o (Call c k) is cur don).
    { intros m -> Tm Hw _ Hg ->. cbn in Ho. subst cur. unfold with_writer, drop_writer in Hw. jwalk.
      match goal with J : jwalks (compile (k ?r)) ?x _ |- trest _ _ (_ :: _ :: JAct _ ?r1 :: _) _ _ =>
        apply (trest_session X T shut _ (k r) x [JAcq LWriter; JAct (AW (WOp (forward m))) r; JAct (AW WGuardDrop) r1; JRel LWriter]
          (Tv (Some [m]) [AW (WOp (forward m)); AW WGuardDrop]) [(AW (WOp (forward m)), r); (AW WGuardDrop, r1)]) end; try reflexivity; [session| |].
      - intros l Hok. rewrite (Hok _ _ (or_introl eq_refl)). apply wrote_alone.
      - intros don'. apply IHq; auto. }
    destruct c; cbn [terminal_call] in Hs1; try contradiction; cbn [allowed] in Ha; cbn [method] in H.
    - (* lock_read *) jwalk. destruct Ha as [_ Ha]. destruct (Hn Ha) as [-> ->].
      apply (trest_quiet X T shut None _ (k AOk) _ [JAcq LReader]); [reflexivity|intros l; apply wrote_quiet; reflexivity|]. apply IHq; auto.
    - (* lock_write *) jwalk. destruct (Hn Ha) as [-> ->].
      apply (trest_open X T shut _ (k AOk)); [intros l; apply wrote_lock; auto|]. apply IHq; auto. repeat split; constructor.
    - (* try_lock_read *) inversion H; subst; clear H.
      + apply (trest_quiet X T shut o _ (k AOk) _ [JAcq LReader]); [reflexivity|intros l; apply wrote_quiet; cbn; auto|]. apply IHq; auto.
      + apply (trest_quiet X T shut o _ (k AWouldBlock) _ []); [reflexivity|intros l; apply wrote_quiet; cbn; auto|]. apply IHq; auto.
    - (* try_lock_write *) destruct (Hn Ha) as [-> ->]. inversion H; subst; clear H.
      + apply (trest_open X T shut _ (k AOk)); [intros l; apply wrote_lock; auto|]. apply IHq; auto. repeat split; constructor.
      + apply (trest_quiet X T shut None _ (k AWouldBlock) _ []); [reflexivity|intros l; apply wrote_locked|]. apply IHq; auto.
    - (* size *) destruct (Hn Ha) as [-> ->]. unfold with_writer, drop_writer in H. jwalk.
      match goal with c : choice |- _ => assert (G : exists r r1 is', is0 = JAct (AW WGuardDrop) r1 :: JRel LWriter :: is' /\ jwalks (compile (k r)) is' Done /\ quiet_answer TSize r)
        by (destruct c as [[e|sz]|? ? ?|n]; jwalk; [exists (AErr e)|exists (AResized sz)|exists AOk|exists AOk]; do 2 eexists; (split; [reflexivity|split; [eassumption|cbn; split; discriminate]])) end.
      destruct G as (r & r1 & is' & -> & G & G').
      apply (trest_session X T shut _ (k r) is' [JAcq LWriter; JAct (AW WGuardDrop) r1; JRel LWriter] (Tv None [AW WGuardDrop]) [(AW WGuardDrop, r1)]);
        try reflexivity; [session| |].
      + intros l _. now apply wrote_quiet.
      + intros don'. apply IHq; auto.
    - (* wait *) destruct Ha as [_ Ha]. destruct (Hn Ha) as [-> ->]. unfold with_reader, wait_block in H. jwalk.
      match goal with c : choice |- _ => assert (G : exists r is', is0 = JRel LReader :: is' /\ jwalks (compile (k r)) is' Done /\ quiet_answer TWait r)
        by (destruct c as [?|? ? ?|n]; jwalk; [exists AOk|exists AOk|exists (AOther n)]; eexists; (split; [reflexivity|split; [eassumption|cbn; split; discriminate]])) end.
      destruct G as (r & is' & -> & G & G'). apply (trest_quiet X T shut None _ (k r) _ [JAcq LReader; JRel LReader]); [reflexivity|intros l; now apply wrote_quiet|].
      apply IHq; auto.
    - (* read *) destruct Ha as [_ Ha]. destruct (Hn Ha) as [-> ->]. unfold with_reader in H. inversion H as [|? ? is1 ? H1| | | | |]; subst; clear H.
      destruct (tread_walks _ _ H1) as (r & js & is' & -> & G & G'). clear H1. inversion G as [| | | |l0 k0 is2 p0 G0| |]; subst; clear G.
      destruct G' as [(-> & n & ->)|[(r1 & -> & G1 & G2)|(mo & tk & kp & r1 & ->)]]; cbn [app].
      + apply (trest_quiet X T shut None _ (k (AOther n)) is2 [JAcq LReader; JRel LReader]); [reflexivity|intros l; apply wrote_quiet; cbn; split; discriminate|].
        apply IHq; auto.
      + apply (trest_session X T shut _ (k r) is2 [JAcq LReader; JAcq LWriter; JAct (AW WGuardDrop) r1; JRel LWriter; JRel LReader] (Tv None [AW WGuardDrop]) [(AW WGuardDrop, r1)]);
          try reflexivity; [session| |].
        * intros l _. apply wrote_quiet. cbn. auto.
        * intros don'. apply IHq; auto.
      + apply (trest_session X T shut _ (k r) is2 [JAcq LReader; JAcq LWriter; JAct (AW (WPrepare mo tk kp)) r; JAct (AW WGuardDrop) r1; JRel LWriter; JRel LReader]
          (Tv None [AW (WPrepare mo tk kp); AW WGuardDrop]) [(AW (WPrepare mo tk kp), r); (AW WGuardDrop, r1)]);
          try reflexivity; [session| |].
        * intros l Hok. rewrite (Hok _ _ (or_introl eq_refl)). apply wrote_quiet. cbn. split; discriminate.
        * intros don'. apply IHq; auto.
    - (* prepare *) destruct Ha as [_ Ha]. destruct (Hn Ha) as [-> ->]. unfold with_reader, with_writer, drop_writer in H. jwalk.
      match goal with J : jwalks (compile (k ?r)) ?x _ |- trest _ _ (_ :: _ :: _ :: JAct _ ?r1 :: _) _ _ =>
        apply (trest_session X T shut _ (k r) x [JAcq LReader; JAcq LWriter; JAct (AW (WPrepare mouse track keypad)) r; JAct (AW WGuardDrop) r1; JRel LWriter; JRel LReader]
          (Tv None [AW (WPrepare mouse track keypad); AW WGuardDrop]) [(AW (WPrepare mouse track keypad), r); (AW WGuardDrop, r1)]) end; try reflexivity; [session| |].
      + intros l Hok. rewrite (Hok _ _ (or_introl eq_refl)). apply wrote_quiet. reflexivity.
      + intros don'. apply IHq; auto.
    - (* restore *) destruct Ha as [_ Ha]. destruct (Hn Ha) as [-> ->]. unfold with_reader, with_writer, drop_writer in H. jwalk.
      match goal with J : jwalks (compile (k ?r)) ?x _ |- trest _ _ (_ :: _ :: _ :: JAct _ ?r1 :: _) _ _ =>
        apply (trest_session X T shut _ (k r) x [JAcq LReader; JAcq LWriter; JAct (AW (WRestore mouse keypad)) r; JAct (AW WGuardDrop) r1; JRel LWriter; JRel LReader]
          (Tv None [AW (WRestore mouse keypad); AW WGuardDrop]) [(AW (WRestore mouse keypad), r); (AW WGuardDrop, r1)]) end; try reflexivity; [session| |].
      + intros l Hok. rewrite (Hok _ _ (or_introl eq_refl)). apply wrote_quiet. reflexivity.
      + intros don'. apply IHq; auto.
    - (* writing *) destruct (Hn Ha) as [-> ->]. destruct Hs1 as (m & -> & Tm).
      assert (Hidle : idle m -> jwalks (compile (k AOk)) is Done -> trest None (Call (TWrite (forward m)) k) is [] don).
      { intros Hi Hw. apply (trest_quiet X T shut None _ (k AOk) is []); [reflexivity|intros l; now apply wrote_idle|]. apply IHq; auto. }
      unfold idle in Hidle.
      destruct m; try destruct n; cbn [forward api_add_style api_write_str] in *;
        first [apply Hidle; [tauto|exact H]
              |match goal with |- trest _ (Call (TWrite ?f) _) _ _ _ => idtac end;
               eapply Halone; [reflexivity|exact Tm|exact H|reflexivity|reflexivity|reflexivity]].
    - (* dropping the read guard *) jwalk. apply (trest_quiet X T shut o _ (k AOk) _ [JRel LReader]); [reflexivity|intros l; apply wrote_quiet; reflexivity|].
      apply IHq; auto.
    - (* waiting through it *) unfold wait_block in H. jwalk.
      match goal with c : choice |- _ => assert (G : exists r, jwalks (compile (k r)) is Done /\ quiet_answer RWait r)
        by (destruct c as [?|? ? ?|n]; [exists AOk|exists AOk|exists (AOther n)]; (split; [assumption|cbn; split; discriminate])) end.
      destruct G as (r & G & G'). apply (trest_quiet X T shut o _ (k r) _ []); [reflexivity|intros l; now apply wrote_quiet|].
      apply IHq; auto.
    - (* reading through it *) destruct Ha as [_ Ha]. destruct (Hn (Ha eq_refl)) as [-> ->].
      destruct (tread_walks _ _ H) as (r & js & is' & -> & G & G'). clear H.
      destruct G' as [(-> & n & ->)|[(r1 & -> & G1 & G2)|(mo & tk & kp & r1 & ->)]]; cbn [app].
      + apply (trest_quiet X T shut None _ (k (AOther n)) is' []); [reflexivity|intros l; apply wrote_quiet; cbn; split; discriminate|].
        apply IHq; auto.
      + apply (trest_session X T shut _ (k r) is' [JAcq LWriter; JAct (AW WGuardDrop) r1; JRel LWriter] (Tv None [AW WGuardDrop]) [(AW WGuardDrop, r1)]);
          try reflexivity; [session| |].
        * intros l _. apply wrote_quiet. cbn. auto.
        * intros don'. apply IHq; auto.
      + apply (trest_session X T shut _ (k r) is' [JAcq LWriter; JAct (AW (WPrepare mo tk kp)) r; JAct (AW WGuardDrop) r1; JRel LWriter]
          (Tv None [AW (WPrepare mo tk kp); AW WGuardDrop]) [(AW (WPrepare mo tk kp), r); (AW WGuardDrop, r1)]);
          try reflexivity; [session| |].
        * intros l Hok. rewrite (Hok _ _ (or_introl eq_refl)). apply wrote_quiet. cbn. split; discriminate.
        * intros don'. apply IHq; auto.
    - (* prepare through it *) destruct Ha as [_ Ha]. destruct (Hn Ha) as [-> ->]. unfold with_writer, drop_writer in H. jwalk.
      match goal with J : jwalks (compile (k ?r)) ?x _ |- trest _ _ (_ :: _ :: JAct _ ?r1 :: _) _ _ =>
        apply (trest_session X T shut _ (k r) x [JAcq LWriter; JAct (AW (WPrepare mouse track keypad)) r; JAct (AW WGuardDrop) r1; JRel LWriter]
          (Tv None [AW (WPrepare mouse track keypad); AW WGuardDrop]) [(AW (WPrepare mouse track keypad), r); (AW WGuardDrop, r1)]) end; try reflexivity; [session| |].
      + intros l Hok. rewrite (Hok _ _ (or_introl eq_refl)). apply wrote_quiet. reflexivity.
      + intros don'. apply IHq; auto.
    - (* restore through it *) destruct Ha as [_ Ha]. destruct (Hn Ha) as [-> ->]. unfold with_writer, drop_writer in H. jwalk.
      match goal with J : jwalks (compile (k ?r)) ?x _ |- trest _ _ (_ :: _ :: JAct _ ?r1 :: _) _ _ =>
        apply (trest_session X T shut _ (k r) x [JAcq LWriter; JAct (AW (WRestore mouse keypad)) r; JAct (AW WGuardDrop) r1; JRel LWriter]
          (Tv None [AW (WRestore mouse keypad); AW WGuardDrop]) [(AW (WRestore mouse keypad), r); (AW WGuardDrop, r1)]) end; try reflexivity; [session| |].
      + intros l Hok. rewrite (Hok _ _ (or_introl eq_refl)). apply wrote_quiet. reflexivity.
      + intros don'. apply IHq; auto.
    - (* with both guards *) destruct Ha as [_ Ha]. destruct (Hy Ha) as (g0 & ->). destruct Ho as (O1 & O2 & O3). jwalk.
      apply (trest_act X T shut _ (k r) _ g0 g0); [intros l ->; apply wrote_quiet; reflexivity|].
      apply IHq; auto. split; [exact O1|]. rewrite map_app, flat_map_app, O3. split; [|cbn; now rewrite app_nil_r].
      apply Forall_app. split; [exact O2|]. repeat constructor.
    - destruct Ha as [_ Ha]. destruct (Hy Ha) as (g0 & ->). destruct Ho as (O1 & O2 & O3). jwalk.
      apply (trest_act X T shut _ (k r) _ g0 g0); [intros l ->; apply wrote_quiet; reflexivity|].
      apply IHq; auto. split; [exact O1|]. rewrite map_app, flat_map_app, O3. split; [|cbn; now rewrite app_nil_r].
      apply Forall_app. split; [exact O2|]. constructor; [exact Hs1|constructor].
    - (* dropping the write guard *) destruct (Hy Ha) as (g0 & ->). unfold drop_writer in H. jwalk.
      apply (trest_drop X T shut _ (k AOk) _ [JAct (AW WGuardDrop) r; JRel LWriter] g0 cur [(AW WGuardDrop, r)]);
        [exact Ho|repeat constructor|rewrite map_app; eexists; reflexivity|reflexivity|intros l; apply wrote_drop|]. intros don'. apply IHq; auto.
    - (* writing through it *) destruct (Hy Ha) as (g0 & ->). destruct Ho as (O1 & O2 & O3). destruct Hs1 as (m & -> & Tm). jwalk.
      apply (trest_act X T shut _ (k r) _ g0 (g0 ++ [m])); [intros l ->; apply wrote_through|].
      apply IHq; auto. split; [apply Forall_app; auto|]. rewrite map_app, flat_map_app, O3, map_app. split; [|reflexivity].
      apply Forall_app. split; [exact O2|]. repeat constructor.
  Qed.
End Unix.

(** ** Windows *)
Section Windows.
  Variables (X : Prop) (T : tmethod -> Prop).
  Let Z (l : list act) : Prop := True.
  Let trest := trest X T Z.
  Let tcur := tcur X T.
  Ltac session := repeat split; cbn; auto; repeat constructor; auto.

  Lemma wtread_walks (P : ans -> prog) is : jwalks (wread_block P) is Done ->
    exists r, r <> AWouldBlock /\ r <> AGone /\ jwalks (P r) is Done.
  Proof.
    intros H. unfold wread_block in H. jwalk. destruct c as [[e|sz]|mo tk kp|n];
      [exists (AErr e)|exists (AResized sz)|exists (AOther 0%N)|exists (AOther n)]; repeat split; try discriminate; assumption.
  Qed.

  Lemma wtclient_walks p : forall g o is cur don, follows false g (tkind o) p -> terminal_program X T p -> jwalks (wcompile p) is Done ->
    tcur o cur -> trest o p is cur don.
  Proof.
    induction p as [|c k IH]; intros g o is cur don Hf Hs H Ho.
    { destruct Hf as [_ Hf]. destruct o as [g0|]; [discriminate Hf|]. cbn in Ho. subst cur. inversion H; subst.
      exists [], []. cbn. rewrite app_nil_r. repeat split; try constructor. intros y []. }
    destruct Hf as [Ha Hf]. destruct Hs as [Hs1 Hs2]. cbn [wcompile] in H.
    assert (IHq : forall r o' is' cur' don', tkind o' = write_guard_after c r (tkind o) ->
      jwalks (wcompile (k r)) is' Done -> tcur o' cur' -> trest o' (k r) is' cur' don').
    { intros r o' is' cur' don' Hk Hw Hok. specialize (Hf r). rewrite <- Hk in Hf. exact (IH r _ _ _ _ _ Hf (Hs2 r) Hw Hok). }
    clear IH Hf Hs2. assert (H00 : tcur None []) by reflexivity.
    assert (Hn : tkind o = None -> o = None /\ cur = []) by (destruct o; [discriminate|auto]).
    assert (Hy : tkind o = Some OfTerminal -> exists g, o = Some g) by (destruct o; [eauto|discriminate]).
    assert (Halone : forall m, o = None -> T m -> jwalks (wwith_writer (fun k => Act (AW (WOp (forward m))) k) (fun r => wcompile (k r))) is Done ->
      (forall r, write_guard_after c r None = None) -> c = TWrite (forward m) -> trest o (Call c k) is cur don).
    { intros m -> Tm Hw Hg ->. cbn in Ho. subst cur. unfold wwith_writer in Hw. jwalk.
      match goal with J : jwalks (wcompile (k ?r)) ?x _ |- _ =>
        apply (trest_session X T Z _ (k r) x [JAcq LWriter; JAct (AW (WOp (forward m))) r; JRel LWriter]
          (Tv (Some [m]) [AW (WOp (forward m))]) [(AW (WOp (forward m)), r)]) end; try reflexivity; [session| |].
      - intros l Hok. rewrite (Hok _ _ (or_introl eq_refl)). apply wrote_alone.
      - intros don'. apply IHq; auto. }
    destruct c; cbn [terminal_call] in Hs1; try contradiction; cbn [allowed] in Ha; cbn [wmethod] in H.
    - (* lock_read *) jwalk. destruct Ha as [_ Ha]. destruct (Hn Ha) as [-> ->].
      apply (trest_quiet X T Z None _ (k AOk) _ [JAcq LReader]); [reflexivity|intros l; apply wrote_quiet; reflexivity|]. apply IHq; auto.
    - (* lock_write *) jwalk. destruct (Hn Ha) as [-> ->].
      apply (trest_open X T Z _ (k AOk)); [intros l; apply wrote_lock; auto|]. apply IHq; auto. repeat split; constructor.
    - (* try_lock_read *) inversion H; subst; clear H.
      + apply (trest_quiet X T Z o _ (k AOk) _ [JAcq LReader]); [reflexivity|intros l; apply wrote_quiet; cbn; auto|]. apply IHq; auto.
      + apply (trest_quiet X T Z o _ (k AWouldBlock) _ []); [reflexivity|intros l; apply wrote_quiet; cbn; auto|]. apply IHq; auto.
    - (* try_lock_write *) destruct (Hn Ha) as [-> ->]. inversion H; subst; clear H.
      + apply (trest_open X T Z _ (k AOk)); [intros l; apply wrote_lock; auto|]. apply IHq; auto. repeat split; constructor.
      + apply (trest_quiet X T Z None _ (k AWouldBlock) _ []); [reflexivity|intros l; apply wrote_locked|]. apply IHq; auto.
    - (* size *) destruct (Hn Ha) as [-> ->]. unfold wwith_writer in H. jwalk.
      match goal with c : choice |- _ => assert (G : exists r is', is0 = JRel LWriter :: is' /\ jwalks (wcompile (k r)) is' Done /\ quiet_answer TSize r)
        by (destruct c as [[e|sz]|? ? ?|n]; jwalk; [exists (AErr e)|exists (AResized sz)|exists AOk|exists AOk]; eexists; (split; [reflexivity|split; [eassumption|cbn; split; discriminate]])) end.
      destruct G as (r & is' & -> & G & G').
      apply (trest_session X T Z _ (k r) is' [JAcq LWriter; JRel LWriter] (Tv None []) []);
        try reflexivity; [session| |].
      + intros l _. now apply wrote_quiet.
      + intros don'. apply IHq; auto.
    - (* wait *) destruct Ha as [_ Ha]. destruct (Hn Ha) as [-> ->]. unfold with_reader, wait_block in H. jwalk.
      match goal with c : choice |- _ => assert (G : exists r is', is0 = JRel LReader :: is' /\ jwalks (wcompile (k r)) is' Done /\ quiet_answer TWait r)
        by (destruct c as [?|? ? ?|n]; jwalk; [exists AOk|exists AOk|exists (AOther n)]; eexists; (split; [reflexivity|split; [eassumption|cbn; split; discriminate]])) end.
      destruct G as (r & is' & -> & G & G'). apply (trest_quiet X T Z None _ (k r) _ [JAcq LReader; JRel LReader]); [reflexivity|intros l; now apply wrote_quiet|].
      apply IHq; auto.
    - (* read *) destruct Ha as [_ Ha]. destruct (Hn Ha) as [-> ->]. unfold with_reader in H. inversion H as [|? ? is1 ? H1| | | | |]; subst; clear H.
      destruct (wtread_walks _ _ H1) as (r & G1 & G2 & G). clear H1. inversion G as [| | | |l0 k0 is2 p0 G0| |]; subst; clear G.
      apply (trest_quiet X T Z None _ (k r) is2 [JAcq LReader; JRel LReader]); [reflexivity|intros l; apply wrote_quiet; cbn; auto|].
      apply IHq; auto.
    - (* prepare *) destruct Ha as [_ Ha]. destruct (Hn Ha) as [-> ->]. unfold with_reader, wwith_writer in H. jwalk.
      match goal with J : jwalks (wcompile (k ?r)) ?x _ |- _ =>
        apply (trest_session X T Z _ (k r) x [JAcq LReader; JAcq LWriter; JAct (AW (WPrepare mouse track keypad)) r; JRel LWriter; JRel LReader]
          (Tv None [AW (WPrepare mouse track keypad)]) [(AW (WPrepare mouse track keypad), r)]) end; try reflexivity; [session| |].
      + intros l Hok. rewrite (Hok _ _ (or_introl eq_refl)). apply wrote_quiet. reflexivity.
      + intros don'. apply IHq; auto.
    - (* restore *) destruct Ha as [_ Ha]. destruct (Hn Ha) as [-> ->]. unfold with_reader, wwith_writer in H. jwalk.
      match goal with J : jwalks (wcompile (k ?r)) ?x _ |- _ =>
        apply (trest_session X T Z _ (k r) x [JAcq LReader; JAcq LWriter; JAct (AW (WRestore mouse keypad)) r; JRel LWriter; JRel LReader]
          (Tv None [AW (WRestore mouse keypad)]) [(AW (WRestore mouse keypad), r)]) end; try reflexivity; [session| |].
      + intros l Hok. rewrite (Hok _ _ (or_introl eq_refl)). apply wrote_quiet. reflexivity.
      + intros don'. apply IHq; auto.
    - (* writing *) destruct (Hn Ha) as [-> ->]. destruct Hs1 as (m & -> & Tm).
      assert (Hidle : idle m -> jwalks (wcompile (k AOk)) is Done -> trest None (Call (TWrite (forward m)) k) is [] don).
      { intros Hi Hw. apply (trest_quiet X T Z None _ (k AOk) is []); [reflexivity|intros l; now apply wrote_idle|]. apply IHq; auto. }
      unfold idle in Hidle.
      destruct m; try destruct n; cbn [forward api_add_style api_write_str] in *;
        first [apply Hidle; [tauto|exact H]
              |eapply Halone; [reflexivity|exact Tm|exact H|reflexivity|reflexivity]].
    - (* dropping the read guard *) jwalk. apply (trest_quiet X T Z o _ (k AOk) _ [JRel LReader]); [reflexivity|intros l; apply wrote_quiet; reflexivity|].
      apply IHq; auto.
    - (* waiting through it *) unfold wait_block in H. jwalk.
      match goal with c : choice |- _ => assert (G : exists r, jwalks (wcompile (k r)) is Done /\ quiet_answer RWait r)
        by (destruct c as [?|? ? ?|n]; [exists AOk|exists AOk|exists (AOther n)]; (split; [assumption|cbn; split; discriminate])) end.
      destruct G as (r & G & G'). apply (trest_quiet X T Z o _ (k r) _ []); [reflexivity|intros l; now apply wrote_quiet|].
      apply IHq; auto.
    - (* reading through it *)
      destruct (wtread_walks _ _ H) as (r & G1 & G2 & G). clear H.
      apply (trest_quiet X T Z o _ (k r) is []); [reflexivity|intros l; apply wrote_quiet; cbn; auto|].
      apply IHq; auto.
    - (* prepare through it *) destruct Ha as [_ Ha]. destruct (Hn Ha) as [-> ->]. unfold wwith_writer in H. jwalk.
      match goal with J : jwalks (wcompile (k ?r)) ?x _ |- _ =>
        apply (trest_session X T Z _ (k r) x [JAcq LWriter; JAct (AW (WPrepare mouse track keypad)) r; JRel LWriter]
          (Tv None [AW (WPrepare mouse track keypad)]) [(AW (WPrepare mouse track keypad), r)]) end; try reflexivity; [session| |].
      + intros l Hok. rewrite (Hok _ _ (or_introl eq_refl)). apply wrote_quiet. reflexivity.
      + intros don'. apply IHq; auto.
    - (* restore through it *) destruct Ha as [_ Ha]. destruct (Hn Ha) as [-> ->]. unfold wwith_writer in H. jwalk.
      match goal with J : jwalks (wcompile (k ?r)) ?x _ |- _ =>
        apply (trest_session X T Z _ (k r) x [JAcq LWriter; JAct (AW (WRestore mouse keypad)) r; JRel LWriter]
          (Tv None [AW (WRestore mouse keypad)]) [(AW (WRestore mouse keypad), r)]) end; try reflexivity; [session| |].
      + intros l Hok. rewrite (Hok _ _ (or_introl eq_refl)). apply wrote_quiet. reflexivity.
      + intros don'. apply IHq; auto.
    - (* with both guards *) destruct Ha as [_ Ha]. destruct (Hy Ha) as (g0 & ->). destruct Ho as (O1 & O2 & O3). jwalk.
      apply (trest_act X T Z _ (k r) _ g0 g0); [intros l ->; apply wrote_quiet; reflexivity|].
      apply IHq; auto. split; [exact O1|]. rewrite map_app, flat_map_app, O3. split; [|cbn; now rewrite app_nil_r].
      apply Forall_app. split; [exact O2|]. repeat constructor.
    - destruct Ha as [_ Ha]. destruct (Hy Ha) as (g0 & ->). destruct Ho as (O1 & O2 & O3). jwalk.
      apply (trest_act X T Z _ (k r) _ g0 g0); [intros l ->; apply wrote_quiet; reflexivity|].
      apply IHq; auto. split; [exact O1|]. rewrite map_app, flat_map_app, O3. split; [|cbn; now rewrite app_nil_r].
      apply Forall_app. split; [exact O2|]. constructor; [exact Hs1|constructor].
    - (* dropping the write guard *) destruct (Hy Ha) as (g0 & ->). jwalk.
      apply (trest_drop X T Z _ (k AOk) _ [JRel LWriter] g0 cur []);
        [exact Ho|constructor|exact I|intros don'; rewrite app_nil_r; reflexivity|intros l; apply wrote_drop|]. intros don'. apply IHq; auto.
    - (* writing through it *) destruct (Hy Ha) as (g0 & ->). destruct Ho as (O1 & O2 & O3). destruct Hs1 as (m & -> & Tm). jwalk.
      apply (trest_act X T Z _ (k r) _ g0 (g0 ++ [m])); [intros l ->; apply wrote_through|].
      apply IHq; auto. split; [apply Forall_app; auto|]. rewrite map_app, flat_map_app, O3, map_app. split; [|reflexivity].
      apply Forall_app. split; [exact O2|]. repeat constructor.
  Qed.
End Windows.

(** ** A plan from the order of sessions *)
Lemma tplan (n : nat) (order : list (nat * list (act * ans))) (P : nat -> list tv -> Prop) :
  (forall i, i < n -> exists l, map (map fst) (done_by i order) = map tv_acts l /\ P i l) -> (forall i, n <= i -> done_by i order = []) ->
  exists plan : list (nat * tv), (forall i, i < n -> P i (done_by i plan)) /\ (forall i, n <= i -> done_by i plan = []) /\
    map (map fst) (map snd order) = map tv_acts (map snd plan).
Proof.
  intros H Hend.
  assert (Hch : forall m, m <= n -> exists f : nat -> list tv, forall i, i < m -> map (map fst) (done_by i order) = map tv_acts (f i) /\ P i (f i)).
  { induction m as [|m IH]; intros Hm; [exists (fun _ => []); intros i Hi; lia|]. destruct (IH ltac:(lia)) as (f & Hf). destruct (H m ltac:(lia)) as (l & Hl).
    exists (fun i => if i =? m then l else f i). intros i Hi. destruct (Nat.eqb_spec i m) as [->|Hni]; [exact Hl|]. apply Hf. lia. }
  destruct (Hch n (Nat.le_refl n)) as (f & Hf). set (want := fun i => if i <? n then f i else []).
  destruct (order_plan_of tv_acts order want) as (plan & P1 & P2).
  { intros i. unfold want. destruct (Nat.ltb_spec i n) as [Hi|Hi]; [apply Hf, Hi|]. now rewrite Hend. }
  exists plan. split; [|split; [|exact P2]]; intros i Hi; rewrite P1; unfold want; destruct (Nat.ltb_spec i n); try lia; [now apply Hf|reflexivity].
Qed.

Definition visible_tvs (plan : list (nat * tv)) : list (nat * list tmethod) := flat_map (fun p => map (pair (fst p)) (tvis (snd p))) plan.
Lemma visible_tvs_by i plan : done_by i (visible_tvs plan) = flat_map tvis (done_by i plan).
Proof.
  unfold done_by, visible_tvs. induction plan as [|[j x] plan IH]; [reflexivity|]. cbn [flat_map fst snd filter].
  rewrite filter_app, map_app, IH. destruct (Nat.eqb_spec j i) as [->|H]; cbn [map flat_map snd].
  - f_equal. destruct x as [[g|] a]; cbn; rewrite ?Nat.eqb_refl; reflexivity.
  - apply Nat.eqb_neq in H. destruct x as [[g|] a]; cbn; rewrite ?H; reflexivity.
Qed.
Lemma visible_tvs_snd plan : concat (map snd (visible_tvs plan)) = flat_map written (map snd plan).
Proof.
  unfold visible_tvs. induction plan as [|[j x] plan IH]; [reflexivity|]. cbn [flat_map fst snd map]. rewrite map_app, concat_app, IH. f_equal.
  destruct x as [[g|] a]; cbn; rewrite ?app_nil_r; reflexivity.
Qed.
