(** Proofs about threads that draw on a screen while others read its events (C113). *)
From Verif Require Import Base M_Utf8 M_Geom S_Geom M_Attr M_Buf S_Buf M_Writer S_Tty S_Writer P_Buf P_Buf2 P_Buf3 P_Writer P_Attr P_Writer3 M_Screen S_Screen P_Screen P_Screen2 P_Screen5 M_ScreenApi
  S_Canvas P_Canvas P_WholeScreen2 M_Locks S_Locks P_Locks P_Locks2 P_Blocks S_Together P_Together S_Loop.

(** ** What threads do, whatever is answered *)
Inductive walks : prog -> list instr -> prog -> Prop :=
| W_nil p : walks p [] p
| W_acq l k is p : walks k is p -> walks (Acq l k) (IAcq l :: is) p
| W_yes l k k' is p : walks k is p -> walks (TryAcq l k k') (IAcq l :: is) p
| W_no l k k' is p : walks k' is p -> walks (TryAcq l k k') is p
| W_rel l k is p : walks k is p -> walks (Rel l k) (IRel l :: is) p
| W_act a k r is p : walks (k r) is p -> walks (Act a k) (IAct a :: is) p
| W_env k c is p : walks (k c) is p -> walks (Env k) is p.

Lemma walks_app p is q : walks p is q -> forall js r, walks q js r -> walks p (is ++ js) r.
Proof. induction 1; intros js q' H'; cbn [app]; [exact H'|..]; try (econstructor; eauto; fail). Qed.

Section Walk.
  Variables (E : env) (C : tcfg).

  Lemma walk_run i c tr c' : run E C c tr c' ->
    exists is, walks (threads c i) is (threads c' i) /\
      plain_sess (sess_of i tr) = fold_left istep is (ISess false false [] []) /\
      forall a, In (IAct a) is -> exists r, In (EvAct i a r) tr.
  Proof.
    induction 1 as [|tr c1 e c2 R (is & IH1 & IH2 & IH3) St].
    - exists []. split; [constructor|]. split; [reflexivity|intros a []].
    - rewrite sess_snoc.
      assert (K : forall xs, walks (threads c1 i) xs (threads c2 i) ->
        plain_sess (sess_step i (sess_of i tr) e) = fold_left istep xs (plain_sess (sess_of i tr)) ->
        (forall a, In (IAct a) xs -> exists r, In (EvAct i a r) [e]) ->
        exists is, walks (threads c i) is (threads c2 i) /\
          plain_sess (sess_step i (sess_of i tr) e) = fold_left istep is (ISess false false [] []) /\
          forall a, In (IAct a) is -> exists r, In (EvAct i a r) (tr ++ [e])).
      { intros xs X1 X2 X3. exists (is ++ xs). split; [exact (walks_app _ _ _ IH1 _ _ X1)|]. split; [now rewrite fold_left_app, <- IH2|].
        intros a Ha. apply in_app_or in Ha. destruct Ha as [Ha|Ha]; [destruct (IH3 a Ha) as [r Hr]|destruct (X3 a Ha) as [r Hr]];
          exists r; apply in_or_app; auto. }
      destruct (sess_of i tr) as [sw sd sc sn].
      destruct St as [j l k t o d Ht Ho|j l k k' t o d Ht Ho|j l k k' j' t o d Ht Ho
                     |j l k t o d Ht Ho|j a k t o d d' r Ht Ho|j k x t o d Ht]; cbn [threads] in *;
        (destruct (Nat.eq_dec i j) as [<-|Hj];
         [rewrite set_thread_same in K |- *; rewrite Ht in K
         |rewrite set_thread_other in K |- * by exact Hj; rewrite sess_other in K |- * by (cbn; congruence);
          apply (K []); [constructor|reflexivity|intros a0 []]]).
      + apply (K [IAcq l]); [constructor; constructor| |intros a0 [X|[]]; discriminate X].
        destruct l; cbn; rewrite ?Nat.eqb_refl; reflexivity.
      + apply (K [IAcq l]); [constructor; constructor| |intros a0 [X|[]]; discriminate X].
        destruct l; cbn; rewrite ?Nat.eqb_refl; reflexivity.
      + apply (K []); [apply W_no; constructor|reflexivity|intros a0 []].
      + apply (K [IRel l]); [constructor; constructor| |intros a0 [X|[]]; discriminate X].
        destruct l; cbn; rewrite ?Nat.eqb_refl; [reflexivity| |]; cbn; [destruct sd|destruct sw];
          unfold plain_sess; cbn; rewrite ?map_app; reflexivity.
      + apply (K [IAct a]); [econstructor; constructor| |].
        * cbn. rewrite Nat.eqb_refl. unfold plain_sess. cbn. now rewrite map_app.
        * intros a0 [X|[]]. injection X as ->. exists r. now left.
      + apply (K []); [econstructor; constructor|reflexivity|intros a0 []].
  Qed.
End Walk.

(** ** What the tasks are made of *)
Definition before_ (js : list instr) (p : prog) : prog :=
  fold_right (fun x p => match x with IAcq l => Acq l p | IRel l => Rel l p | IAct a => Act a (fun _ => p) end) p js.
Lemma walks_before js : forall p is, walks (before_ js p) is Done -> exists is', is = js ++ is' /\ walks p is' Done.
Proof.
  induction js as [|x js IH]; intros p is H; cbn [before_ fold_right] in H; [exists is; auto|].
  destruct x; inversion H; subst;
    match goal with X : walks (fold_right _ _ _) _ _ |- _ => destruct (IH _ _ X) as (is' & -> & Hw) end; exists is'; auto.
Qed.
Lemma guard_before l : forall k, compile (guard_client l k) = before_ (map (fun s => IAct (stroke_act s)) l ++ drop_instrs) (compile k).
Proof. induction l as [|[m|] l IH]; intros k; cbn; [reflexivity| |]; now rewrite IH. Qed.
Lemma doing_before d k : compile (doing_client d k) = before_ (doing_instrs d) (compile k).
Proof.
  destruct d as [m| |l]; [reflexivity|reflexivity|]. cbn [doing_client compile method doing_instrs].
  rewrite guard_before. reflexivity.
Qed.

(** A session of a task. *)
Inductive mv : Type := MDid (d : doing) | MQuiet | MTold (sz : size).
Definition mv_acts (x : mv) : list act :=
  match x with MDid d => doing_acts d | MQuiet => [AW WGuardDrop] | MTold sz => [AD (DUpdateSize sz)] end.
Definition vis (x : mv) : list deed := match x with MDid d => [Did d] | MQuiet => [] | MTold sz => [Told sz] end.
Definition narrow_mv (E : env) (x : mv) : Prop := match x with MDid d => narrow_doing E d | _ => True end.

Ltac walk :=
  repeat match goal with
  | X : walks (Acq _ _) _ _ |- _ => inversion X; subst; clear X
  | X : walks (Act _ _) _ _ |- _ => inversion X; subst; clear X
  | X : walks (Rel _ _) _ _ |- _ => inversion X; subst; clear X
  | X : walks (Env _) _ _ |- _ => inversion X; subst; clear X
  end.
Lemma task_walks E T : forall is don, walks (compile (task_client T)) is Done -> narrow_task E T ->
  (forall mo tk kp, ~ In (IAct (AW (WPrepare mo tk kp))) is) ->
  exists l, fold_left istep is (ISess false false [] don) = ISess false false [] (don ++ map mv_acts l) /\
    does T (flat_map vis l) /\ Forall (narrow_mv E) l /\
    (forall sz, In (MTold sz) l -> In (IAct (AD (DUpdateSize sz))) is).
Proof.
  induction T as [|d T IH|k IH|k IH]; intros is don H Hn Hc.
  - inversion H; subst. exists []. cbn. rewrite app_nil_r. repeat split; try constructor. intros sz [].
  - cbn [task_client] in H. rewrite doing_before in H. apply walks_before in H. destruct H as (is' & -> & H). destruct Hn as [N1 N2].
    destruct (IH is' (don ++ [doing_acts d]) H N2) as (l & L1 & L2 & L3 & L4).
    { intros mo tk kp Hi. apply (Hc mo tk kp). apply in_or_app. now right. }
    exists (MDid d :: l). rewrite fold_left_app, doing_parse, L1, <- app_assoc. split; [reflexivity|].
    split; [cbn; now constructor|]. split; [now constructor|]. intros sz [X|X]; [discriminate|]. apply in_or_app. right. now apply L4.
  - cbn [task_client compile method] in H. unfold with_reader, wait_block in H. walk.
    match goal with c : choice |- _ => assert (G : exists r is', is0 = IRel LReader :: is' /\ walks (compile (task_client (k r))) is' Done)
      by (destruct c; walk; eauto) end.
    destruct G as (r & is' & -> & G).
    destruct (IH r is' don G (Hn r)) as (l & L1 & L2 & L3 & L4).
    { intros mo tk kp Hi. apply (Hc mo tk kp). right. now right. }
    exists l. split; [exact L1|]. split; [now apply (does_poll k r)|]. split; [exact L3|]. intros sz X. right. right. now apply L4.
  - cbn [task_client compile method] in H. unfold with_reader, screen_read_block, read_block, with_writer, drop_writer in H. walk.
    destruct c as [[e|sz]|mo tk kp|n].
    + walk.
      match goal with X : walks (compile _) ?is' Done |- _ => destruct (IH (AErr e) is' (don ++ [[AW WGuardDrop]]) X (Hn _)) as (l & L1 & L2 & L3 & L4) end.
      { intros mo tk kp Hi. apply (Hc mo tk kp). cbn. tauto. }
      exists (MQuiet :: l). split; [cbn; rewrite L1, <- app_assoc; reflexivity|]. split; [cbn; apply (does_next k (AErr e)); [discriminate|exact L2]|].
      split; [now constructor|]. intros sz [X|X]; [discriminate|]. specialize (L4 sz X). cbn. tauto.
    + walk.
      match goal with X : walks (compile _) ?is' Done |- _ =>
        destruct (IH (AResized sz) is' (don ++ [[AW WGuardDrop]; [AD (DUpdateSize sz)]]) X (Hn _)) as (l & L1 & L2 & L3 & L4) end.
      { intros mo tk kp Hi. apply (Hc mo tk kp). cbn. tauto. }
      exists (MQuiet :: MTold sz :: l). split.
      { cbn. rewrite <- !app_assoc. cbn. rewrite L1, <- app_assoc. reflexivity. }
      split; [cbn; now apply does_told|]. split; [repeat constructor; exact L3|].
      intros sz0 [X|[X|X]]; [discriminate|injection X as ->; cbn; tauto|]. specialize (L4 sz0 X). cbn. tauto.
    + walk. exfalso. apply (Hc mo tk kp). cbn. tauto.
    + walk. match goal with X : walks (compile _) ?is' Done |- _ => destruct (IH (AOther n) is' don X (Hn _)) as (l & L1 & L2 & L3 & L4) end.
      { intros mo tk kp Hi. apply (Hc mo tk kp). cbn. tauto. }
      exists l. split; [exact L1|]. split; [apply (does_next k (AOther n)); [discriminate|exact L2]|]. split; [exact L3|].
      intros sz X. specialize (L4 sz X). cbn. tauto.
Qed.

Lemma order_plan_of {A} (f : A -> list act) (order : list (nat * list (act * ans))) : forall (want : nat -> list A),
  (forall i, map (map fst) (done_by i order) = map f (want i)) ->
  exists plan : list (nat * A), (forall i, done_by i plan = want i) /\
    map (map fst) (map snd order) = map f (map snd plan).
Proof.
  induction order as [|[j rs] order IH]; intros want Hw.
  - exists []. split; [|reflexivity]. intros i. specialize (Hw i). cbn in Hw. destruct (want i); [reflexivity|discriminate].
  - assert (Hj := Hw j). unfold done_by in Hj. cbn [filter fst] in Hj. rewrite Nat.eqb_refl in Hj. cbn [map snd] in Hj.
    destruct (want j) as [|d rest] eqn:Ew; [discriminate Hj|]. cbn [map] in Hj. injection Hj as Hd1 Hrest.
    destruct (IH (fun i => if j =? i then rest else want i)) as (plan & P1 & P2).
    + intros i. specialize (Hw i). unfold done_by in Hw |- *. cbn [filter fst] in Hw.
      destruct (Nat.eqb_spec j i) as [Ei|Ei]; [subst i; exact Hrest|exact Hw].
    + exists ((j, d) :: plan). split; [|cbn [map snd]; now rewrite Hd1, P2].
      intros i. specialize (P1 i). unfold done_by in *. cbn [filter fst].
      destruct (Nat.eqb_spec j i) as [Ei|Ei]; [|exact P1]. subst i. rewrite Ew. cbn [map snd]. f_equal. exact P1.
Qed.
Definition visible (plan : list (nat * mv)) : list (nat * deed) := flat_map (fun p => map (pair (fst p)) (vis (snd p))) plan.
Lemma visible_by i plan : done_by i (visible plan) = flat_map vis (done_by i plan).
Proof.
  unfold done_by, visible. induction plan as [|[j x] plan IH]; [reflexivity|]. cbn [flat_map fst snd filter].
  rewrite filter_app, map_app, IH. destruct (Nat.eqb_spec j i) as [->|H]; cbn [map flat_map snd].
  - f_equal. destruct x; cbn; rewrite ?Nat.eqb_refl; reflexivity.
  - apply Nat.eqb_neq in H. destruct x; cbn; rewrite ?H; reflexivity.
Qed.
Lemma visible_snd plan : map snd (visible plan) = flat_map vis (map snd plan).
Proof.
  unfold visible. induction plan as [|[j x] plan IH]; [reflexivity|]. cbn [flat_map fst snd map]. rewrite map_app, IH. f_equal.
  destruct x; reflexivity.
Qed.
Lemma evolved_app E l1 : forall l2 k, evolved E (l1 ++ l2) k = evolved E l2 (evolved E l1 k).
Proof. induction l1 as [|[[m|]|sz] l1 IH]; intros l2 k; cbn; auto. Qed.
Lemma evolved_strokes E l : forall k, evolved E (map Stroke l) k = picture E l k.
Proof. induction l as [|[m|] l IH]; intros k; cbn; auto. Qed.

Section Loop.
  Variables (E : env) (C : tcfg) (K : tty).
  Hypothesis HE : env_ok E.
  Hypothesis HC : env_chars E.
  Hypothesis Hco : caps_coherent C.
  Hypothesis HK : implements E C K.

  Notation syn := (P_WholeScreen2.syn E C K).

  (** The state of a screen in use, since the writer was in the state [w0] and the terminal
      in one of the states [T0]. *)
  Definition drawing (T0 : tstate K -> Prop) (w0 : wst) (s : scr) (k : canvas) (last : option canvas) : Prop :=
    frame E s /\ fits E (sb s) k /\ wat (wr s) = no_attrs /\
    exists x, stream (wr s) = stream w0 ++ x /\ (forall t, T0 t -> syn s (feed K t x)) /\
    match last with
    | Some k' => obuf (wr s) = [] /\ forall t, T0 t -> exists v, look K (feed K t x) = Some v /\ displays C v k' /\ vcur v = pen_goal k'
    | None => x = []
    end.

  Lemma refresh_frame s s' u : frame E s -> wides_fit E (sb s) -> refresh E C s = Ret s' u -> frame E s'.
  Proof.
    intros F Hf H. unfold refresh in H. apply bind_ret in H. destruct H as (s1 & u1 & H1 & H).
    destruct (compose_spec E C HC _ _ _ F Hf H1) as ([A1 A2 A3] & _).
    destruct (goes_flush _ _ _ A3 H) as (T1 & T2 & T3 & T4 & T5 & T6 & T7). constructor; rewrite ?T2; auto.
  Qed.

  Lemma drawing_draw T0 w0 s k last m b : drawing T0 w0 s k last -> no_wide E (method_text m) ->
    screen_method E m (sb s) = Val b -> drawing T0 w0 (with_sb b s) (S_Canvas.draw E m k) last.
  Proof.
    intros (D1 & D2 & D3 & x & X1 & X2 & X3) Hn Hm.
    destruct (op_ok E HE _ _ _ (f_buf _ _ D1) (not_resize m) Hm) as (B1 & B2 & B3).
    assert (Hs : single_width E (sforward m)) by (unfold single_width; rewrite method_text_op; exact Hn).
    split; [destruct D1 as [F1 F2 F3]; constructor; cbn [sb wr with_sb]; rewrite ?B3; auto|].
    split; [exact (method_draws E HE _ _ _ _ D2 Hn Hm)|]. split; [exact D3|]. exists x. split; [exact X1|]. split; [|exact X3].
    intros t Ht. destruct (moves_buffer E C K HE HK _ _ _ (not_resize m) Hs Hm _ (X2 t Ht)) as (y & Y1 & Y2).
    cbn [wr with_sb] in Y1. rewrite <- (app_nil_r (stream (wr s))) in Y1 at 1. apply app_inv_head in Y1. subst y.
    rewrite (feed_nil _ _ _ HK) in Y2. exact Y2.
  Qed.

  Lemma drawing_show T0 w0 s k last s' : drawing T0 w0 s k last -> refresh E C s = Ret s' tt -> drawing T0 w0 s' k (Some k).
  Proof.
    intros (D1 & D2 & D3 & x & X1 & X2 & X3) Hr. destruct D2 as [G1 G2 G3 G4].
    assert (Hw := narrow_no_wide E (sb s) G1 G2). assert (Hf : wides_fit E (sb s)) by (intros i Hx; rewrite Hw in Hx; discriminate).
    destruct (refresh_spec E C HC _ _ _ D1 Hf Hr) as (R1 & R2 & R3 & R4 & R5).
    assert (Fr := refresh_frame _ _ _ D1 Hf Hr).
    destruct R5 as (_ & y & Y1 & Y2).
    split; [exact Fr|]. split; [rewrite R1; apply back_fits; [constructor; auto|rewrite <- R1; apply Fr]|].
    split; [exact R3|]. exists (x ++ y). split; [rewrite Y1, X1; now rewrite app_assoc|].
    assert (Z : forall t, T0 t -> P_WholeScreen2.synd E C K s' (feed K t (x ++ y))).
    { intros t Ht. destruct (moves_drawn E C K HC Hco HK s s' (or_introl Hr) _ (X2 t Ht)) as (y' & Z1 & Z2).
      rewrite Y1 in Z1. apply app_inv_head in Z1. subst y'. now rewrite (feed_app _ _ _ HK). }
    split; [intros t Ht; apply synd_syn; auto|]. split; [exact R4|].
    intros t Ht. destruct (Z t Ht) as (v & V1 & (I1 & (V2 & V3) & V4 & V5) & V6).
    destruct (no_halves_ok E C s' v I1 V6) as (N1 & _). destruct G4 as (H1 & H2 & H3 & H4). unfold screen_get_size, screen_get_cursor in *.
    exists v. split; [exact V1|]. split.
    - split; [rewrite V2, R1; exact H1|]. intros p Hp. assert (X := H4 p Hp).
      rewrite (V3 _ (Cell (snd (ink k (line p) (column p))) (fst (ink k (line p) (column p))))); [now rewrite N1|]. rewrite R1. exact X.
    - destruct V5 as [V5|V5]; [|rewrite N1 in V5; discriminate]. rewrite V5, R1. unfold cursor_goal, pen_goal, on_canvas.
      cbn [bsize bcur with_back]. now rewrite H1, H2.
  Qed.

  (** Dropping a terminal's write guard. *)
  Lemma drop_same w : whole_writes (script w) ->
    match guard_drop w with
    | Ret w' _ => whole_writes (script w') /\ wat w' = wat w /\ stream w' = stream w /\ (obuf w = [] -> obuf w' = [])
    | _ => True
    end.
  Proof.
    intros H. assert (Hf := flush_whole w H). unfold guard_drop.
    destruct (flush w) as [w' []|w' e| |]; auto; destruct Hf as (F1 & (F2 & _) & F3 & F4 & F5); unfold stream; rewrite F4, F5.
    - rewrite app_nil_r. auto.
    - split; [auto|]. split; [auto|]. split; auto.
  Qed.
  Lemma drawing_drop T0 w0 s k last w u : drawing T0 w0 s k last -> guard_drop (wr s) = Ret w u -> drawing T0 w0 (with_wr w s) k last.
  Proof.
    intros (D1 & D2 & D3 & x & X1 & X2 & X3) H. assert (S := drop_same (wr s) (f_whole _ _ D1)). rewrite H in S.
    destruct S as (S1 & S2 & S3 & S4). split; [destruct D1; constructor; auto|]. split; [exact D2|]. split; [cbn; congruence|].
    exists x. split; [cbn; congruence|]. split; [|destruct last; [destruct X3 as [O X3]; split; [now apply S4|exact X3]|exact X3]].
    intros t Ht. destruct (X2 t Ht) as (v & V1 & [[F1 F2 F3] I1 I2 I3 I4 I5 I6] & V3). exists v. split; [exact V1|]. split; [|exact V3].
    constructor; cbn [sb clr real wr with_wr]; rewrite ?S2; auto. constructor; auto.
  Qed.

  Lemma drawing_told T0 w0 s k last sz s' : drawing T0 w0 s k last -> screen_size sz -> update_size E sz s = Val s' ->
    wr s' = wr s /\ drawing (of_size K sz) (wr s) s' (refit sz k) None.
  Proof.
    intros (D1 & D2 & D3 & _) Hz H. unfold update_size in H. destruct (sb_resize E (sb s) sz) as [b|] eqn:Eb; [|discriminate]. injection H as <-.
    destruct D1 as [F1 F2 F3]. destruct (sb_resize_ok E HE _ _ _ F1 Hz Eb) as (R1 & R2 & R3 & R4). split; [reflexivity|].
    split; [constructor; cbn [sb wr]; auto; now rewrite R2|]. split; [exact (refit_fits E HE _ _ _ _ D2 Hz Eb)|]. split; [exact D3|].
    exists []. split; [symmetry; apply app_nil_r|]. split; [|reflexivity].
    intros t (v & V1 & V2 & V3). rewrite (feed_nil _ _ _ HK). exists v. split; [exact V1|].
    assert (Hlen := look_ok _ _ _ HK _ _ V1). unfold view_ok in Hlen. split.
    - constructor; cbn [sb clr real wr]; auto; try congruence.
      + constructor; cbn [sb wr]; auto. congruence.
      + rewrite D3, V3. symmetry. apply shown_none.
    - split; cbn [sb clr]; [|discriminate]. apply (R4 (narrow_text E)); [exact (space_not_wide E HE)|apply D2].
  Qed.

  (** What was done so far, since the screen was in the state [s0]. *)
  Definition along (s0 : scr) (t : tstate K) (k : canvas) (l : list change) (s : scr) : Prop :=
    exists pre post x w0, l = pre ++ map Stroke post /\ (pre = [] \/ exists p sz, pre = p ++ [Fit sz]) /\
      stream w0 = stream (wr s0) ++ x /\ (pre = [] -> x = []) /\
      drawing (fun t' => (pre = [] -> t' = t) /\ (pre <> [] -> of_size K (ksize (evolved E pre k)) t')) w0 s
        (picture E post (evolved E pre k)) (displayed E post (evolved E pre k) None).

  Lemma along_draw s0 t k l s m b : along s0 t k l s -> no_wide E (method_text m) -> screen_method E m (sb s) = Val b ->
    along s0 t k (l ++ [Stroke (Draw m)]) (with_sb b s).
  Proof.
    intros (pre & post & x & w0 & L1 & L2 & L3 & L4 & L5) Hn Hm. exists pre, (post ++ [Draw m]), x, w0.
    split; [rewrite map_app, app_assoc, L1; reflexivity|]. split; [exact L2|]. split; [exact L3|]. split; [exact L4|].
    rewrite picture_app, displayed_app. exact (drawing_draw _ _ _ _ _ _ _ L5 Hn Hm).
  Qed.
  Lemma along_show s0 t k l s s' : along s0 t k l s -> refresh E C s = Ret s' tt ->
    along s0 t k (l ++ [Stroke Show]) s' /\ obuf (wr s') = [].
  Proof.
    intros (pre & post & x & w0 & L1 & L2 & L3 & L4 & L5) Hr. assert (D := drawing_show _ _ _ _ _ _ L5 Hr). split.
    - exists pre, (post ++ [Show]), x, w0.
      split; [rewrite map_app, app_assoc, L1; reflexivity|]. split; [exact L2|]. split; [exact L3|]. split; [exact L4|].
      rewrite picture_app, displayed_app. exact D.
    - destruct D as (_ & _ & _ & y & _ & _ & D & _). exact D.
  Qed.
  Lemma along_drop s0 t k l s w u : along s0 t k l s -> guard_drop (wr s) = Ret w u -> along s0 t k l (with_wr w s).
  Proof.
    intros (pre & post & x & w0 & L1 & L2 & L3 & L4 & L5) H. exists pre, post, x, w0. repeat (split; [assumption|]).
    exact (drawing_drop _ _ _ _ _ _ _ L5 H).
  Qed.
  Lemma strokes_snoc l c pre post : pre ++ map Stroke post = l ++ [Stroke c] -> (pre = [] \/ exists p sz, pre = p ++ [Fit sz]) ->
    exists q, post = q ++ [c] /\ pre ++ map Stroke q = l.
  Proof.
    intros H Hp. destruct post as [|z q _] using rev_ind.
    - cbn in H. rewrite app_nil_r in H. destruct Hp as [->|(p & sz & ->)]; [destruct l; discriminate H|].
      apply app_inj_tail in H. destruct H as [_ H]. discriminate H.
    - rewrite map_app in H. cbn [map] in H. rewrite app_assoc in H. apply app_inj_tail in H. destruct H as [H1 H2]. injection H2 as ->. eauto.
  Qed.
  Lemma along_twice s0 t k l s : along s0 t k (l ++ [Stroke Show; Stroke Show]) s -> along s0 t k (l ++ [Stroke Show]) s.
  Proof.
    intros (pre & post & x & w0 & L1 & L2 & L3 & L4 & L5).
    change (l ++ [Stroke Show; Stroke Show]) with (l ++ [Stroke Show] ++ [Stroke Show]) in L1. rewrite app_assoc in L1. symmetry in L1.
    destruct (strokes_snoc _ _ _ _ L1 L2) as (q & -> & L6). destruct (strokes_snoc _ _ _ _ L6 L2) as (q' & -> & L7).
    exists pre, (q' ++ [Show]), x, w0. split; [now symmetry|]. split; [exact L2|]. split; [exact L3|]. split; [exact L4|].
    rewrite !picture_app, !displayed_app in *. cbn [picture displayed] in *. rewrite picture_app in L5. exact L5.
  Qed.
  Lemma drawing_impl (T T' : tstate K -> Prop) w0 s k last : (forall t, T' t -> T t) -> drawing T w0 s k last -> drawing T' w0 s k last.
  Proof.
    intros H (D1 & D2 & D3 & x & X1 & X2 & X3). split; [exact D1|]. split; [exact D2|]. split; [exact D3|]. exists x.
    split; [exact X1|]. split; [auto|]. destruct last; [destruct X3; split; auto|exact X3].
  Qed.
  Lemma evolved_fits T w0 s k last : drawing T w0 s k last -> ksize k = bsize (sb s).
  Proof. intros (_ & [_ _ _ (H & _)] & _). symmetry. exact H. Qed.
  Lemma along_told s0 t k l s sz s' : along s0 t k l s -> screen_size sz -> update_size E sz s = Val s' ->
    along s0 t k (l ++ [Fit sz]) s'.
  Proof.
    intros (pre & post & x & w0 & L1 & L2 & L3 & L4 & L5) Hz H. destruct (drawing_told _ _ _ _ _ _ _ L5 Hz H) as [Hw D].
    destruct L5 as (_ & _ & _ & y & Y & _).
    exists (l ++ [Fit sz]), [], (x ++ y), (wr s). rewrite app_nil_r. split; [reflexivity|]. split; [right; eauto|].
    split; [rewrite Y, L3; now rewrite app_assoc|]. split; [intros X; apply app_eq_nil in X; destruct X as [_ X]; discriminate X|].
    assert (Hev : evolved E (l ++ [Fit sz]) k = refit sz (picture E post (evolved E pre k))).
    { rewrite evolved_app, L1, evolved_app, evolved_strokes. reflexivity. }
    rewrite Hev. cbn [picture displayed]. refine (drawing_impl _ _ _ _ _ _ _ D). intros t' [_ H'].
    apply H'. intros X. apply app_eq_nil in X. destruct X as [_ X]. discriminate X.
  Qed.

  (** ** The replay *)
  Lemma update_writer sz b c r w w2 : update_size E sz (Scr b c r w) =
    match update_size E sz (Scr b c r w2) with Val s => Val (with_wr w s) | Boom => Boom end.
  Proof. unfold update_size. cbn [sb clr real wr]. destruct (sb_resize E b sz); reflexivity. Qed.

  Lemma show_along s0 t k l s r rest w' d' : along s0 t k l s ->
    replays E C ((ARefresh, r) :: rest) (share s) (Some w', Some d') -> (forall e, r <> AErr e) ->
    exists s', replays E C rest (share s') (Some w', Some d') /\ along s0 t k (l ++ [Stroke Show]) s' /\ obuf (wr s') = [].
  Proof.
    intros Ha H Hf. assert (Hg := alive_not_gone E C _ _ _ _ _ _ H).
    cbn [replays] in H. destruct H as [H1 H2]. destruct (refresh_replay E C s r H1 Hg Hf) as (s' & R1 & R2).
    exists s'. rewrite R1 in H2. split; [exact H2|]. now apply (along_show _ _ _ _ s).
  Qed.
  Lemma draw_along s0 t k l s m r rest w' d' : along s0 t k l s -> no_wide E (method_text m) ->
    replays E C ((AD (DBuf (sforward m)), r) :: rest) (share s) (Some w', Some d') ->
    exists s', replays E C rest (share s') (Some w', Some d') /\ along s0 t k (l ++ [Stroke (Draw m)]) s'.
  Proof.
    intros Ha Hn H. assert (Hg := alive_not_gone E C _ _ _ _ _ _ H).
    cbn [replays] in H. destruct H as [H1 H2]. unfold share, meaning, dmeaning in H1, H2. cbn [dbuf dclr dreal] in H1, H2.
    destruct (run_buf_op E (sb s) (sforward m)) as [b|] eqn:Eb; cbn in H1, H2; [|congruence].
    exists (with_sb b s). split; [exact H2|]. now apply along_draw.
  Qed.
  Lemma told_along s0 t k l s sz r rest w' d' : along s0 t k l s -> screen_size sz ->
    replays E C ((AD (DUpdateSize sz), r) :: rest) (share s) (Some w', Some d') ->
    exists s', replays E C rest (share s') (Some w', Some d') /\ along s0 t k (l ++ [Fit sz]) s'.
  Proof.
    intros Ha Hz H. assert (Hg := alive_not_gone E C _ _ _ _ _ _ H).
    cbn [replays] in H. destruct H as [H1 H2]. unfold share, meaning, dmeaning in H1, H2. cbn [dbuf dclr dreal] in H1, H2.
    assert (U := update_writer sz (sb s) (clr s) (real s) (wr s) (writer_new 0 [])).
    destruct (update_size E sz (Scr (sb s) (clr s) (real s) (writer_new 0 []))) as [s1|] eqn:Eu; cbn in H1, H2; [|congruence].
    exists (with_wr (wr s) s1). split; [exact H2|]. apply (along_told _ _ _ _ s); [exact Ha|exact Hz|]. destruct s; exact U.
  Qed.
  Lemma drop_along s0 t k l s r rest w' d' : along s0 t k l s ->
    replays E C ((AW WGuardDrop, r) :: rest) (share s) (Some w', Some d') ->
    exists s', replays E C rest (share s') (Some w', Some d') /\ along s0 t k l s'.
  Proof.
    intros Ha H. assert (Hg := alive_not_gone E C _ _ _ _ _ _ H). cbn [replays] in H. destruct H as [H1 H2].
    unfold share, meaning, wmeaning in H1, H2.
    destruct (guard_drop (wr s)) as [w u|w e| |] eqn:Ed; cbn in H1, H2; try congruence.
    - exists (with_wr w s). split; [exact H2|]. exact (along_drop _ _ _ _ _ _ _ Ha Ed).
    - unfold guard_drop in Ed. destruct (flush (wr s)); discriminate.
  Qed.

  Lemma strokes_along q : forall s0 t k l s rs rest w' d', along s0 t k l s -> Forall (narrow_stroke E) q ->
    map fst rs = map stroke_act q -> fine rs -> replays E C (rs ++ rest) (share s) (Some w', Some d') ->
    exists s', replays E C rest (share s') (Some w', Some d') /\ along s0 t k (l ++ map Stroke q) s'.
  Proof.
    induction q as [|[m|] q IH]; intros s0 t k l s rs rest w' d' Ha Hn Hm Hf H.
    - destruct rs; [|discriminate Hm]. exists s. cbn [map]. rewrite app_nil_r. auto.
    - destruct rs as [|[a r] rs]; [discriminate Hm|]. cbn [map fst stroke_act] in Hm. injection Hm as -> Hm.
      inversion Hn as [|? ? N1 N2]; subst. destruct (fine_cons _ _ _ Hf) as [_ Hf']. cbn [app] in H.
      destruct (draw_along _ _ _ _ _ _ _ _ _ _ Ha N1 H) as (s' & H' & A').
      destruct (IH _ _ _ _ _ _ _ _ _ A' N2 Hm Hf' H') as (s2 & H2 & A2). exists s2. rewrite <- app_assoc in A2. auto.
    - destruct rs as [|[a r] rs]; [discriminate Hm|]. cbn [map fst stroke_act] in Hm. injection Hm as -> Hm.
      inversion Hn as [|? ? N1 N2]; subst. destruct (fine_cons _ _ _ Hf) as [Hr Hf']. cbn [app] in H.
      destruct (show_along _ _ _ _ _ _ _ _ _ Ha H Hr) as (s' & H' & A' & _).
      destruct (IH _ _ _ _ _ _ _ _ _ A' N2 Hm Hf' H') as (s2 & H2 & A2). exists s2. rewrite <- app_assoc in A2. auto.
  Qed.

  Lemma mv_along x s0 t k l s rs rest w' d' : along s0 t k l s -> narrow_mv E x -> (forall sz, x = MTold sz -> screen_size sz) ->
    map fst rs = mv_acts x -> fine rs -> replays E C (rs ++ rest) (share s) (Some w', Some d') ->
    exists s', replays E C rest (share s') (Some w', Some d') /\ along s0 t k (l ++ concat (map changes (vis x))) s'.
  Proof.
    intros Ha Hn Hz Hm Hf H.
    assert (G : forall q, Forall (narrow_stroke E) q -> map fst rs = map stroke_act q ++ [AW WGuardDrop] ->
      exists s', replays E C rest (share s') (Some w', Some d') /\ along s0 t k (l ++ map Stroke q) s').
    { intros q Hq Hmq. apply map_eq_app in Hmq. destruct Hmq as (r1 & r2 & -> & M1 & M2).
      destruct r2 as [|[a r] [|]]; try discriminate M2. injection M2 as ->.
      apply fine_app in Hf. rewrite <- app_assoc in H. cbn [app] in H.
      destruct (strokes_along _ _ _ _ _ _ _ _ _ _ Ha Hq M1 (proj1 Hf) H) as (s' & H' & A'). exact (drop_along _ _ _ _ _ _ _ _ _ A' H'). }
    destruct x as [d| |sz]; cbn [vis map concat mv_acts narrow_mv] in *.
    - cbn [changes]. rewrite app_nil_r. destruct d as [m| |q]; unfold narrow_doing in Hn; cbn [strokes doing_acts] in *.
      + exact (strokes_along [Draw m] _ _ _ _ _ rs rest w' d' Ha Hn Hm Hf H).
      + destruct (G [Show; Show]) as (s' & H' & A'); [repeat constructor|exact Hm|]. exists s'. split; [exact H'|]. now apply along_twice.
      + apply (G (q ++ [Show]) Hn). rewrite map_app, Hm, <- app_assoc. reflexivity.
    - rewrite app_nil_r. apply (G []) in Hm; [|constructor]. cbn [map] in Hm. rewrite app_nil_r in Hm. exact Hm.
    - destruct rs as [|[a r] [|]]; try discriminate Hm. injection Hm as ->.
      exact (told_along _ _ _ _ _ _ _ _ _ _ Ha (Hz sz eq_refl) H).
  Qed.

  Lemma plan_along plan : forall order s0 t k l s w' d', along s0 t k l s -> Forall (narrow_mv E) plan ->
    (forall sz, In (MTold sz) plan -> screen_size sz) -> map (map fst) order = map mv_acts plan -> fine (concat order) ->
    replays E C (concat order) (share s) (Some w', Some d') ->
    exists s', share s' = (Some w', Some d') /\ along s0 t k (l ++ concat (map changes (flat_map vis plan))) s'.
  Proof.
    induction plan as [|x plan IH]; intros order s0 t k l s w' d' Ha Hn Hz Hm Hf H.
    - destruct order; [|discriminate Hm]. cbn in H. exists s. cbn. rewrite app_nil_r. auto.
    - destruct order as [|rs order]; [discriminate Hm|]. cbn [map] in Hm. injection Hm as M1 M2. cbn [concat] in H, Hf.
      apply fine_app in Hf. inversion Hn as [|? ? N1 N2]; subst.
      destruct (mv_along x _ _ _ _ _ _ _ _ _ Ha N1 ltac:(intros sz ->; apply Hz; now left) M1 (proj1 Hf) H) as (s' & H' & A').
      destruct (IH order _ _ _ _ _ _ _ A' N2 ltac:(intros sz X; apply Hz; now right) M2 (proj2 Hf) H') as (s2 & H2 & A2).
      exists s2. split; [exact H2|]. cbn [flat_map]. rewrite map_app, concat_app, app_assoc. exact A2.
  Qed.

  Lemma task_follows b T : follows b None None (task_client T).
  Proof.
    induction T as [|d T IH|k IH|k IH]; [cbn; auto| | |].
    - cbn [task_client]. set (q := task_client T) in *. clearbody q. destruct d as [m| |s]; cbn; (split; [reflexivity|]); intros _; try exact IH.
      induction s as [|[m|] s IHs]; cbn; (split; [reflexivity|]); intros _; assumption.
    - cbn. split; [auto|]. intros r. apply IH.
    - cbn. split; [auto|]. intros r. apply IH.
  Qed.

  Lemma draw_and_read (tasks : list task) s t k tr c w' d' : painted E C K s t k -> wat (wr s) = no_attrs ->
    Forall (narrow_task E) tasks ->
    run E C (start (map task_client tasks) (share s)) tr c -> finished c -> no_failure tr -> not_continued tr ->
    usable_sizes tr -> shared c = (Some w', Some d') ->
    exists order : list (nat * deed), (forall i, does (nth i tasks End) (done_by i order)) /\
      let l := concat (map changes (map snd order)) in
      holds (dbuf d') (evolved E l k) /\
      exists pre post x y, l = pre ++ map Stroke post /\ (pre = [] \/ exists p sz, pre = p ++ [Fit sz]) /\
        stream w' = stream (wr s) ++ x ++ y /\ (pre = [] -> x = []) /\
        forall t', (pre = [] -> t' = t) -> (pre <> [] -> of_size K (ksize (evolved E pre k)) t') ->
          match displayed E post (evolved E pre k) None with
          | Some k' => obuf w' = [] /\ exists v, look K (feed K t' y) = Some v /\ displays C v k' /\ vcur v = pen_goal k'
          | None => y = []
          end.
  Proof.
    intros Hp Ha Hn R F Hf Hc Hu Hs.
    assert (L : forall b, Forall (follows b None None) (map task_client tasks)).
    { intros b. apply Forall_forall. intros q Hq. apply in_map_iff in Hq. destruct Hq as (T & <- & _). apply task_follows. }
    assert (U := finished_unlocked E C _ _ _ _ (L true) R F).
    destruct (sessions_atomic E C _ _ tr c (L false) R (U LWriter) (U LData)) as (order & O1 & O2).
    rewrite Hs in O2.
    assert (Hwalk : forall i, exists l, map (map fst) (sessions i tr) = map mv_acts l /\ does (nth i tasks End) (flat_map vis l) /\
      Forall (narrow_mv E) l /\ forall sz, In (MTold sz) l -> screen_size sz).
    { intros i. destruct (walk_run E C i _ _ _ R) as (is & W1 & W2 & W3). rewrite (F i) in W1. cbn [start threads] in W1.
      change Finish with (task_client End) in W1. rewrite map_nth in W1.
      destruct (task_walks E (nth i tasks End) is [] W1) as (l & T1 & T2 & T3 & T4).
      - destruct (Nat.lt_ge_cases i (length tasks)) as [Hi|Hi].
        + apply (proj1 (Forall_forall _ _) Hn). now apply nth_In.
        + rewrite nth_overflow by exact Hi. exact I.
      - intros mo tk kp Hi. destruct (W3 _ Hi) as [r Hr]. exact (Hc _ _ _ _ _ Hr).
      - exists l. split; [|split; [exact T2|split; [exact T3|]]].
        + rewrite T1 in W2. unfold sessions. assert (X := f_equal i_done W2). cbn in X. exact X.
        + intros sz Hsz. destruct (W3 _ (T4 sz Hsz)) as [r Hr]. exact (Hu _ _ _ Hr). }
    assert (Hch : forall n, exists f : nat -> list mv, forall i, i < n -> map (map fst) (sessions i tr) = map mv_acts (f i) /\
      does (nth i tasks End) (flat_map vis (f i)) /\ Forall (narrow_mv E) (f i) /\ forall sz, In (MTold sz) (f i) -> screen_size sz).
    { induction n as [|n [f Hfn]]; [exists (fun _ => []); intros i Hi; lia|]. destruct (Hwalk n) as (l & Hl).
      exists (fun i => if i =? n then l else f i). intros i Hi. destruct (Nat.eqb_spec i n) as [->|Hni]; [exact Hl|]. apply Hfn. lia. }
    destruct (Hch (length tasks)) as (f & Hfl).
    set (want := fun i => if i <? length tasks then f i else []).
    assert (Hend : forall i, length tasks <= i -> sessions i tr = []).
    { intros i Hi. destruct (walk_run E C i _ _ _ R) as (is & W1 & W2 & _). rewrite (F i) in W1. cbn [start threads] in W1.
      rewrite nth_overflow in W1 by (now rewrite map_length). inversion W1; subst. assert (X := f_equal i_done W2). cbn in X.
      unfold sessions. destruct (s_done (sess_of i tr)); [reflexivity|discriminate X]. }
    destruct (order_plan_of mv_acts order want) as (plan & P1 & P2).
    { intros i. unfold done_by. rewrite O1. unfold want. destruct (Nat.ltb_spec i (length tasks)) as [Hi|Hi].
      - apply Hfl, Hi.
      - now rewrite Hend. }
    assert (Hin : forall j x, In (j, x) plan -> In x (want j)).
    { intros j x Hx. rewrite <- P1. unfold done_by. apply in_map_iff. exists (j, x). split; [reflexivity|]. apply filter_In.
      split; [exact Hx|]. cbn. apply Nat.eqb_refl. }
    assert (Hok : forall x, In x (map snd plan) -> narrow_mv E x /\ forall sz, x = MTold sz -> screen_size sz).
    { intros x Hx. apply in_map_iff in Hx. destruct Hx as ([j y] & Hy & Hx). cbn in Hy. subst y. apply Hin in Hx. unfold want in Hx.
      destruct (Nat.ltb_spec j (length tasks)) as [Hi|Hi]; [|destruct Hx]. destruct (Hfl j Hi) as (_ & _ & Q1 & Q2). split.
      - now apply (proj1 (Forall_forall _ _) Q1).
      - intros sz ->. now apply Q2. }
    assert (A0 : along s t k [] s).
    { exists [], [], [], (wr s). split; [reflexivity|]. split; [now left|]. split; [symmetry; apply app_nil_r|]. split; [reflexivity|].
      destruct (painted_history E HE C K HC Hco HK _ _ _ Hp) as [Hh Hfit].
      destruct (history_narrow E C HE HC K Hco HK s t Hh) as (v & V1 & Hi & Hnh).
      split; [exact (i_frame _ _ _ _ Hi)|]. split; [exact Hfit|]. split; [exact Ha|]. exists [].
      split; [symmetry; apply app_nil_r|]. split; [|reflexivity]. intros t' [X _]. rewrite (X eq_refl), (feed_nil _ _ _ HK). exists v. auto. }
    destruct (plan_along (map snd plan) (map snd order) s t k [] s w' d' A0) as (s' & Q1 & Q2).
    - apply Forall_forall. intros x Hx. apply (Hok x Hx).
    - intros sz Hx. now apply (Hok _ Hx).
    - exact P2.
    - exact (fine_order order tr Hf O1).
    - exact O2.
    - exists (visible plan). split.
      + intros i. rewrite visible_by, P1. unfold want. destruct (Nat.ltb_spec i (length tasks)) as [Hi|Hi]; [apply Hfl, Hi|].
        rewrite nth_overflow by exact Hi. constructor.
      + cbv zeta. rewrite visible_snd. cbn [app] in Q2. set (l := concat (map changes (flat_map vis (map snd plan)))) in *. clearbody l.
        unfold share in Q1. injection Q1 as <- <-. cbn [dbuf].
        destruct Q2 as (pre & post & x & w0 & L1 & L2 & L3 & L4 & (D1 & D2 & D3 & y & Y1 & Y2 & Y3)). split.
        * rewrite L1, evolved_app, evolved_strokes. apply D2.
        * exists pre, post, x, y. split; [exact L1|]. split; [exact L2|]. split; [rewrite Y1, L3; now rewrite app_assoc|]. split; [exact L4|].
          intros t' T1 T2. destruct (displayed E post (evolved E pre k) None); [|exact Y3]. destruct Y3 as [Y3 Y4]. split; [exact Y3|].
          apply Y4. split; assumption.
  Qed.
End Loop.

(** ** Computing schedules, for the example *)
From Verif Require Import P_Emu S_Emu P_Canvas2 P_Sched.
Section Sched.
  Variables (E : env) (C : tcfg).
  (** The next step of thread [i]; the environment answers [a]. *)
  Definition lstep (i : nat) (a : choice) (c : config) : option (event * config) :=
    match threads c i with
    | Env k => Some (EvOther i, Config (set_thread i (k a) (threads c)) (owner c) (shared c))
    | _ => sstep E C i c
    end.
  Lemma lstep_ok i a c e c' : lstep i a c = Some (e, c') -> step E C c e c'.
  Proof.
    unfold lstep. destruct (threads c i) eqn:Et; try apply sstep_ok. intros H. injection H as <- <-. destruct c as [t o s]. now apply step_env.
  Qed.
  Fixpoint lrun (l : list (nat * choice)) (tr : list event) (c : config) : option (list event * config) :=
    match l with
    | [] => Some (tr, c)
    | (i, a) :: l => match lstep i a c with Some (e, c) => lrun l (tr ++ [e]) c | None => None end
    end.
  Lemma lrun_ok l : forall tr c0 c tr' c', run E C c0 tr c -> lrun l tr c = Some (tr', c') -> run E C c0 tr' c'.
  Proof.
    induction l as [|[i a] l IH]; intros tr c0 c tr' c' R H; cbn in H.
    - now injection H as <- <-.
    - destruct (lstep i a c) as [[e c1]|] eqn:Es; [|discriminate]. refine (IH _ _ _ _ _ _ H).
      eapply run_snoc; [exact R|exact (lstep_ok _ _ _ _ _ Es)].
  Qed.
  Lemma past_done progs s tr c i : run E C (start progs s) tr c -> length progs <= i -> threads c i = Done.
  Proof.
    intros R Hi. remember (start progs s) as c0 eqn:Ec. induction R as [|tr c1 e c2 R IH St].
    - subst. cbn. now rewrite nth_overflow.
    - destruct St as [j l k t o d Ht Ho|j l k k' t o d Ht Ho|j l k k' j' t o d Ht Ho
                   |j l k t o d Ht Ho|j a k t o d d' r Ht Ho|j k x t o d Ht]; cbn [threads] in *;
      unfold set_thread; destruct (Nat.eqb_spec i j) as [->|]; auto; congruence.
  Qed.
End Sched.

Definition continued_event (e : event) : bool := match e with EvAct _ (AW (WPrepare _ _ _)) _ => true | _ => false end.
Lemma not_continued_ok tr : existsb continued_event tr = false -> not_continued tr.
Proof.
  intros H i mo tk kp r Hi. assert (X : existsb continued_event tr = true); [|congruence].
  apply existsb_exists. exists (EvAct i (AW (WPrepare mo tk kp)) r). auto.
Qed.
Definition usable (e : event) : bool :=
  match e with EvAct _ (AD (DUpdateSize sz)) _ => (1 <=? lines sz) && (1 <=? columns sz) && (lines sz <=? 100) && (columns sz <=? 100) | _ => true end.
Lemma usable_ok tr : forallb usable tr = true -> usable_sizes tr.
Proof.
  intros H i sz r Hi. rewrite forallb_forall in H. specialize (H _ Hi). cbn [usable] in H. unfold screen_size. 
  destruct sz as [a b]. cbn [lines columns] in *. apply andb_prop in H. destruct H as [H H4]. apply andb_prop in H. destruct H as [H H3]. apply andb_prop in H. destruct H as [H H2].
  small.
Qed.

Section Demo.
  Variable E : env.
  Hypothesis HE : env_ok E.
  Definition stream_of (c : config) : bytes := match shared c with (Some w, _) => stream w | _ => [] end.
  (** The threads follow the schedule to the end; a terminal of the size [sz'] shows what was
      sent since the end of the first part of the schedule. *)
  Definition looping (sz : size) (sc : list wresp) (tasks : list task) (sch1 sch2 : list (nat * choice)) (sz' : size) (P : view -> bool) : bool :=
    match P_Screen5.start E sz sc with
    | Some (s, t) =>
        match lrun E ansi_cfg sch1 [] (start (map task_client tasks) (share s)) with
        | Some (tr1, c1) =>
            match lrun E ansi_cfg sch2 tr1 c1 with
            | Some (tr, c) =>
                attrs_eqb (wat (wr s)) no_attrs &&
                forallb (fun i => is_done (threads c i)) (seq 0 (length tasks)) && negb (existsb is_fail tr) &&
                negb (existsb continued_event tr) && forallb usable tr &&
                match shared c with
                | (Some w', Some d') =>
                    let n := length (stream_of c1) in
                    bytes_eqb (firstn n (stream w')) (stream_of c1) &&
                    match look (ansi_tty E) (feed (ansi_tty E) (emu_new sz') (skipn n (stream w'))) with Some v => P v | None => false end
                | _ => false
                end
            | None => false
            end
        | None => false
        end
    | None => false
    end.
  Lemma looping_ok sz sc tasks sch1 sch2 sz' P : screen_size sz -> whole_writes sc -> looping sz sc tasks sch1 sch2 sz' P = true ->
    exists s t tr c w' d' x y v, painted E ansi_cfg (ansi_tty E) s t (blank_canvas sz) /\ wat (wr s) = no_attrs /\
      run E ansi_cfg (start (map task_client tasks) (share s)) tr c /\ finished c /\ no_failure tr /\ not_continued tr /\ usable_sizes tr /\
      shared c = (Some w', Some d') /\ stream w' = x ++ y /\ of_size (ansi_tty E) sz' (emu_new sz') /\
      look (ansi_tty E) (feed (ansi_tty E) (emu_new sz') y) = Some v /\ P v = true.
  Proof.
    intros Hs Hw H. unfold looping in H. destruct (P_Screen5.start E sz sc) as [[s t]|] eqn:Es; [|discriminate].
    destruct (lrun _ _ sch1 _ _) as [[tr1 c1]|] eqn:Er; [|discriminate].
    destruct (lrun _ _ sch2 _ _) as [[tr c]|] eqn:Er2; [|discriminate].
    apply andb_prop in H. destruct H as [H H6]. apply andb_prop in H. destruct H as [H H5]. apply andb_prop in H. destruct H as [H H4].
    apply andb_prop in H. destruct H as [H H3]. apply andb_prop in H. destruct H as [H1 H2].
    destruct (shared c) as [[w'|] [d'|]] eqn:Ec; try discriminate. apply andb_prop in H6. destruct H6 as [H6 H7].
    destruct (look _ _) as [v|] eqn:El; [|discriminate].
    assert (R1 := lrun_ok E ansi_cfg sch1 [] _ _ tr1 c1 (run_nil _ _ _) Er).
    assert (R := lrun_ok E ansi_cfg sch2 tr1 _ _ tr c R1 Er2).
    exists s, t, tr, c, w', d', (firstn (length (stream_of c1)) (stream w')), (skipn (length (stream_of c1)) (stream w')), v.
    split; [|split; [|split; [exact R|split; [|split; [|split; [|split; [|split; [exact Ec|split; [symmetry; apply firstn_skipn|split; [|split; [exact El|exact H7]]]]]]]]]]].
    - unfold P_Screen5.start in Es. destruct (screen_new _ _ _ _ _) as [s2 []| | |] eqn:En; try discriminate.
      injection Es as <- <-.
      apply (Pt_new E ansi_cfg (ansi_tty E) sz (writer_new (N.to_nat 8192) sc) s2 (emu_new sz)
        (View sz (repeat (VC [SPACE] no_attrs) (total sz)) (Cursor 0 0) no_attrs true)); auto.
      cbn [stream writer_new dev obuf app]. rewrite (feed_nil _ _ _ (ansi_implements E HE)). apply emu_new_look.
    - now apply attrs_eqb_eq.
    - intros i. destruct (Nat.lt_ge_cases i (length tasks)) as [Hi|Hi]; [|apply (past_done E ansi_cfg _ _ _ _ _ R); now rewrite map_length].
      rewrite forallb_forall in H2. specialize (H2 i). rewrite in_seq in H2. specialize (H2 ltac:(lia)).
      destruct (threads c i); try discriminate. reflexivity.
    - apply no_fail_ok. now destruct (existsb is_fail tr).
    - apply not_continued_ok. now destruct (existsb continued_event tr).
    - now apply usable_ok.
    - eexists. split; [apply emu_new_look|]. auto.
  Qed.
End Demo.
