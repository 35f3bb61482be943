(** Proofs about any programs that share a [Terminal] (C118): what is written. *)
From Verif Require Import Base M_Utf8 M_Geom S_Geom M_Attr M_Buf S_Buf M_Writer S_Tty S_Writer P_Writer P_Attr P_Writer2 P_Writer3 M_Api S_Api P_Api
  M_Locks S_Locks P_Locks P_Locks2 P_Blocks S_Together P_Together S_Loop P_Loop P_Program P_Program2 S_TermProgram P_TermProgram.

Lemma terminal_nth X T b (progs : list client) i :
  Forall (fun p => follows b None None p /\ terminal_program X T p) progs ->
  follows b None None (nth i progs Finish) /\ terminal_program X T (nth i progs Finish).
Proof.
  intros H. destruct (Nat.lt_ge_cases i (length progs)) as [Hi|Hi]; [apply (proj1 (Forall_forall _ _) H); now apply nth_In|].
  rewrite nth_overflow by exact Hi. repeat split.
Qed.
Lemma done_in {A} (plan : list (nat * A)) (P : A -> Prop) : (forall i, Forall P (done_by i plan)) -> Forall P (map snd plan).
Proof.
  intros H. apply Forall_forall. intros x Hx. apply in_map_iff in Hx. destruct Hx as ([j y] & Hy & Hx). cbn in Hy. subst y.
  apply (proj1 (Forall_forall _ _) (H j)). unfold done_by. apply in_map_iff. exists (j, x). split; [reflexivity|].
  apply filter_In. split; [exact Hx|]. apply Nat.eqb_refl.
Qed.
Lemma done_concat {A} i (order : list (nat * list A)) x : In x (concat (done_by i order)) -> In x (concat (map snd order)).
Proof.
  intros Hx. apply in_concat in Hx. destruct Hx as (z & Z1 & Z2).
  apply in_concat. exists z. split; [|exact Z2]. unfold done_by in Z1. apply in_map_iff in Z1. destruct Z1 as (u & <- & Z1).
  apply in_map. apply filter_In in Z1. apply Z1.
Qed.
Lemma forall2_acts (ls : list (list (act * ans))) l : Forall2 (fun x v => map fst x = tv_acts v) ls l -> map (map fst) ls = map tv_acts l.
Proof. intros H. induction H as [|x y xs ys H _ IH]; cbn; congruence. Qed.

Lemma acts_aw X T Z (ls : list (list (act * ans))) l : Forall2 (fun x v => map fst x = tv_acts v) ls l -> Forall (tgood X T Z) l ->
  forall a r, In (a, r) (concat ls) -> exists b, a = AW b.
Proof.
  intros H. induction H as [|x y xs ys H _ IH]; intros G a r Hi; [destruct Hi|]. inversion G as [|? ? (_ & G1 & _) G2]; subst.
  cbn [concat] in Hi. apply in_app_or in Hi. destruct Hi as [Hi|Hi]; [|exact (IH G2 a r Hi)].
  rewrite <- H in G1. apply (in_map fst) in Hi. rewrite Forall_forall in G1. specialize (G1 _ Hi). cbn in G1. destruct a; [eauto|destruct G1..].
Qed.

Section Unix.
  Variables (E : env) (C : tcfg) (K : tty) (t0 : tstate K).
  Hypothesis HK : implements E C K.
  Hypothesis Hfull : full_caps C.

  (** The writer and the terminal are in step. *)
  Definition stepped (w : wst) (v : view) : Prop :=
    whole_writes (script w) /\ style_ok (sty (wat w)) /\ look K (feed K t0 (stream w)) = Some v /\ vattrs v = wat w.
  Definition unseen (x : bytes) : Prop := forall t v, look K t = Some v -> look K (feed K t x) = Some v.
  Lemma stepped_more x w w' v : stepped w v -> unseen x -> whole_writes (script w') -> wat w' = wat w -> stream w' = stream w ++ x -> stepped w' v.
  Proof.
    intros (S1 & S2 & S3 & S4) Hx H1 H2 H3. split; [exact H1|]. rewrite H2, H3, (feed_app _ _ _ HK). auto.
  Qed.
  Lemma unseen_nil : unseen [].
  Proof. intros t v H. now rewrite (feed_nil _ _ _ HK). Qed.
  Lemma flush_stepped w w' u v : stepped w v -> flush w = Ret w' u -> stepped w' v.
  Proof.
    intros S H. assert (F := flush_whole w (proj1 S)). rewrite H in F. destruct F as (F1 & (F2 & _) & _ & F3 & F4).
    apply (stepped_more [] w); auto using unseen_nil. unfold stream. now rewrite F3, F4, !app_nil_r.
  Qed.
  Lemma bytes_stepped x w w' u v : unseen x -> stepped w v -> write_bytes C x w = Ret w' u -> stepped w' v.
  Proof.
    intros Hx S H. assert (F := write_bytes_whole C x w (proj1 S)). rewrite H in F. destruct F as (F1 & (F2 & _) & F3).
    now apply (stepped_more x w).
  Qed.
  Lemma expand_stepped c e w w' u v : (forall v v', cap_effect c [] v v' -> v' = v) -> (forall v, cap_dom c [] v) -> info C c = Some e ->
    stepped w v -> expand C e [] w = Ret w' u -> stepped w' v.
  Proof.
    intros Hc Hd Hi S H. unfold expand in H. destruct (e (wctx w) []) as [[bs k] b] eqn:Ee. destruct b; [|discriminate H]. injection H as <- _.
    apply (stepped_more bs w); [exact S| |exact (proj1 S)|reflexivity|apply app_assoc].
    intros t v0 Hl. destruct (cap_ok _ _ _ HK c e Hi _ _ _ _ Ee t v0 Hl (Hd _)) as (v' & V1 & V2). apply Hc in V2. now subst v'.
  Qed.
  Lemma mouse_unseen : xterm C = true -> unseen XTERM_ENABLE_MOUSE /\ unseen XTERM_ENABLE_MOUSE_MOTION /\
    unseen XTERM_DISABLE_MOUSE /\ unseen XTERM_DISABLE_MOUSE_MOTION.
  Proof. intros X. repeat split; intros t v H; now apply (mouse_ok _ _ _ HK X t v). Qed.

  Lemma act_stepped a w w' v ms : stepped w v -> usual (xterm C = true) (AW a) -> flat_map output [AW a] = map forward ms -> Forall (sensible E) ms ->
    wmeaning C a (Some w) = (Some w', AOk) -> exists v', stepped w' v' /\ effects E (map OnGuard ms) v v'.
  Proof.
    intros S Hu Ho Hm H. unfold wmeaning in H.
    assert (Q : (forall r : wres, wresult r = (Some w', AOk) -> exists u, r = Ret w' u)).
    { intros [x u|x e| |] R; try discriminate R. injection R as ->. eauto. }
    destruct a as [o| |mouse track keypad|mouse keypad]; cbn in Ho; apply Q in H; destruct H as (u & H);
      [|destruct ms; [|discriminate Ho]; exists v; (split; [|constructor])..].
    - destruct ms as [|m [|m' ms]]; try discriminate Ho. injection Ho as ->. inversion Hm as [|? ? Hm1 _]; subst.
      destruct S as (S1 & S2 & S3 & S4).
      destruct (method_in_step E C m w w' u Hfull Hm1 S1 S2 H) as (M1 & M2 & x & M3 & M4).
      destruct (M4 K HK _ v S3 S4) as (v' & V1 & V2 & V3). exists v'. split.
      + split; [exact M1|]. split; [exact M2|]. rewrite M3, (feed_app _ _ _ HK). auto.
      + econstructor; [left; reflexivity|exact V2|constructor].
    - destruct (drop_stream w w' u (proj1 S) H) as (D1 & D2 & D3).
      apply (stepped_more [] w); auto using unseen_nil. now rewrite app_nil_r.
    - assert (G : forall w1, stepped w1 v -> (let! (w, _b) := if keypad then enable_keypad C w1 else Ret w1 false in flush w) = Ret w' u -> stepped w' v).
      { intros w1 S1 G. destruct keypad; [|cbn [obind] in G; exact (flush_stepped _ _ _ _ S1 G)]. unfold enable_keypad in G.
        destruct (info C KeypadXmit) as [e|] eqn:Ei; [|cbn [obind] in G; exact (flush_stepped _ _ _ _ S1 G)].
        destruct (expand C e [] w1) as [w2 u2|? ?| |] eqn:Ee; cbn [obind] in G; try discriminate G.
        refine (flush_stepped _ _ _ _ _ G). apply (expand_stepped KeypadXmit e w1 w2 u2 v); auto; intros; exact I. }
      destruct mouse; [|cbn [obind] in H; exact (G _ S H)]. unfold enable_mouse in H.
      destruct (xterm C) eqn:Ex; [|cbn [obind] in H; exact (G _ S H)]. destruct (mouse_unseen Ex) as (U1 & U2 & _).
      destruct (write_bytes C XTERM_ENABLE_MOUSE w) as [w1 u1|? ?| |] eqn:E1; cbn [obind] in H; try discriminate H.
      assert (S1 := bytes_stepped _ _ _ _ _ U1 S E1). unfold when in H. destruct track; [|cbn [obind] in H; exact (G _ S1 H)].
      destruct (write_bytes C XTERM_ENABLE_MOUSE_MOTION w1) as [w2 u2|? ?| |] eqn:E2; cbn [obind] in H; try discriminate H.
      exact (G _ (bytes_stepped _ _ _ _ _ U2 S1 E2) H).
    - assert (G : forall w1, stepped w1 v -> (let! (w, _u) := when keypad (disable_keypad C) w1 in flush w) = Ret w' u -> stepped w' v).
      { intros w1 S1 G. unfold when in G. destruct keypad; [|cbn [obind] in G; exact (flush_stepped _ _ _ _ S1 G)]. unfold disable_keypad, expand_opt in G.
        destruct (info C KeypadLocal) as [e|] eqn:Ei; [|cbn [obind] in G; exact (flush_stepped _ _ _ _ S1 G)].
        destruct (expand C e [] w1) as [w2 u2|? ?| |] eqn:Ee; cbn [obind] in G; try discriminate G.
        refine (flush_stepped _ _ _ _ _ G). apply (expand_stepped KeypadLocal e w1 w2 u2 v); auto; intros; exact I. }
      unfold when at 1 in H. destruct mouse; [|cbn [obind] in H; exact (G _ S H)]. destruct (mouse_unseen (Hu eq_refl)) as (_ & _ & U1 & U2).
      unfold disable_mouse in H. destruct (write_bytes C XTERM_DISABLE_MOUSE w) as [w1 u1|? ?| |] eqn:E1; cbn [obind] in H; try discriminate H.
      destruct (write_bytes C XTERM_DISABLE_MOUSE_MOTION w1) as [w2 u2|? ?| |] eqn:E2; cbn [obind] in H; try discriminate H.
      exact (G _ (bytes_stepped _ _ _ _ _ U2 (bytes_stepped _ _ _ _ _ U1 S E1) E2) H).
  Qed.

  (** A device that takes everything keeps doing so. *)
  Lemma act_perfect a w w' r : perfect (script w) -> wmeaning C a (Some w) = (Some w', r) ->
    perfect (script w') /\ (a = WGuardDrop -> obuf w' = []).
  Proof.
    intros P H. unfold wmeaning in H.
    assert (Q : (forall x : wres, wresult x = (Some w', r) -> match x with Ret w1 _ | Fail w1 _ => perfect (script w1) | _ => True end -> perfect (script w'))).
    { intros [x u|x e| |] R Hx; try discriminate R; injection R as <- _; exact Hx. }
    assert (Fl : forall w1, perfect (script w1) -> match flush w1 with Ret w2 _ | Fail w2 _ => perfect (script w2) | _ => True end).
    { intros w1 P1. assert (F := flush_perfect w1 P1). destruct (flush w1); auto; [apply F|contradiction]. }
    assert (Ex : forall e w1, perfect (script w1) -> match expand C e [] w1 with Ret w2 _ | Fail w2 _ => perfect (script w2) | _ => True end).
    { intros e w1 P1. unfold expand. destruct (e (wctx w1) []) as [[bs k] b]. destruct b; exact P1. }
    destruct a as [o| |mouse track keypad|mouse keypad]; (split; [|try discriminate]).
    - apply (Q _ H). assert (G := op_perfect C o w P). destruct (run_wop C o w); auto.
    - unfold guard_drop in H. apply (Q _ H). specialize (Fl w P). destruct (flush w); auto.
    - intros _. unfold guard_drop in H. assert (F := flush_perfect w P). destruct (flush w) as [w1 u|w1 e| |]; cbn in H; try discriminate H; try contradiction.
      injection H as <- _. apply F.
    - apply (Q _ H). clear H Q.
      assert (G : forall w1, perfect (script w1) -> match (let! (w, _b) := if keypad then enable_keypad C w1 else Ret w1 false in flush w) with Ret w2 _ | Fail w2 _ => perfect (script w2) | _ => True end).
      { intros w1 P1. destruct keypad; [|exact (Fl _ P1)]. unfold enable_keypad. destruct (info C KeypadXmit) as [e|]; [|exact (Fl _ P1)].
        specialize (Ex e w1 P1). destruct (expand C e [] w1) as [w2 u2|w2 e2| |]; cbn [obind]; [exact (Fl _ Ex)|exact Ex|exact I|exact I]. }
      destruct mouse; [|exact (G _ P)]. unfold enable_mouse. destruct (xterm C); [|exact (G _ P)].
      assert (B := write_bytes_perfect C XTERM_ENABLE_MOUSE w P). destruct (write_bytes C XTERM_ENABLE_MOUSE w) as [w1 u1|w1 e1| |]; cbn [obind]; auto; try contradiction.
      unfold when. destruct track; [|exact (G _ B)]. assert (B2 := write_bytes_perfect C XTERM_ENABLE_MOUSE_MOTION w1 B).
      destruct (write_bytes C XTERM_ENABLE_MOUSE_MOTION w1) as [w2 u2|w2 e2| |]; cbn [obind]; auto; try contradiction. exact (G _ B2).
    - apply (Q _ H). clear H Q.
      assert (G : forall w1, perfect (script w1) -> match (let! (w, _u) := when keypad (disable_keypad C) w1 in flush w) with Ret w2 _ | Fail w2 _ => perfect (script w2) | _ => True end).
      { intros w1 P1. unfold when. destruct keypad; [|exact (Fl _ P1)]. unfold disable_keypad, expand_opt. destruct (info C KeypadLocal) as [e|]; [|exact (Fl _ P1)].
        specialize (Ex e w1 P1). destruct (expand C e [] w1) as [w2 u2|w2 e2| |]; cbn [obind]; [exact (Fl _ Ex)|exact Ex|exact I|exact I]. }
      unfold when at 1. destruct mouse; [|exact (G _ P)]. unfold disable_mouse.
      assert (B := write_bytes_perfect C XTERM_DISABLE_MOUSE w P). destruct (write_bytes C XTERM_DISABLE_MOUSE w) as [w1 u1|w1 e1| |]; cbn [obind]; auto; try contradiction.
      assert (B2 := write_bytes_perfect C XTERM_DISABLE_MOUSE_MOTION w1 B).
      destruct (write_bytes C XTERM_DISABLE_MOUSE_MOTION w1) as [w2 u2|w2 e2| |]; cbn [obind]; auto; try contradiction. exact (G _ B2).
  Qed.

  (** Sessions. *)
  Lemma no_writer l : forall s s', replays E C l s s' -> fst s = None -> fst s' = None.
  Proof.
    induction l as [|[a r] l IH]; intros s s' H N; cbn [replays] in H; [now subst|]. destruct H as [_ H]. apply (IH _ _ H).
    destruct s as [w d]. cbn in N. subst w. destruct a as [a|a|]; [reflexivity| |reflexivity].
    cbn. destruct (dmeaning E a d); reflexivity.
  Qed.
  Lemma writer_ok a r l w d w' d' : (forall e, r <> AErr e) -> replays E C ((AW a, r) :: l) (Some w, d) (Some w', d') ->
    exists w1, wmeaning C a (Some w) = (Some w1, AOk) /\ r = AOk /\ replays E C l (Some w1, d) (Some w', d').
  Proof.
    intros He H. cbn [replays meaning] in H. destruct H as [H1 H2].
    assert (G : (exists w1, wmeaning C a (Some w) = (Some w1, AOk)) \/ (exists w1 e, wmeaning C a (Some w) = (Some w1, AErr e)) \/ wmeaning C a (Some w) = (None, AGone)).
    { unfold wmeaning. destruct (match a with WOp o => _ | WGuardDrop => _ | WPrepare _ _ _ => _ | WRestore _ _ => _ end) as [x u|x e| |];
        cbn; eauto. }
    destruct G as [(w1 & G)|[(w1 & e & G)|G]]; rewrite G in H1, H2; cbn [fst snd] in H1, H2.
    - eauto.
    - destruct (He e). auto.
    - apply no_writer in H2; [discriminate H2|reflexivity].
  Qed.

  Lemma acts_replay rs : forall ms l w d w' d' v, fine rs -> Forall (usual (xterm C = true)) (map fst rs) -> flat_map output (map fst rs) = map forward ms ->
    Forall (sensible E) ms -> stepped w v -> replays E C (rs ++ l) (Some w, d) (Some w', d') ->
    exists w1 v1, replays E C l (Some w1, d) (Some w', d') /\ stepped w1 v1 /\ effects E (map OnGuard ms) v v1 /\
      (forall a r, In (a, r) rs -> r = AOk) /\ (rs = [] -> w1 = w) /\
      (perfect (script w) -> perfect (script w1) /\ (shut (map fst rs) -> obuf w1 = [])).
  Proof.
    induction rs as [|[a r] rs IH]; intros ms l w d w' d' v Hf Hu Ho Hm S H.
    { destruct ms; [|discriminate Ho]. exists w, v. split; [exact H|]. split; [exact S|]. split; [constructor|].
      split; [intros a r []|]. split; [reflexivity|]. intros P. split; [exact P|]. intros ([|? ?] & Hs); discriminate Hs. }
    cbn [map fst] in Hu, Ho. inversion Hu as [|? ? Hu1 Hu2]; subst. destruct (fine_cons _ _ _ Hf) as [He Hf'].
    destruct a as [a|a|]; [|destruct Hu1..]. cbn [app] in H. destruct (writer_ok a r _ w d w' d' He H) as (w1 & W1 & -> & W2).
    assert (exists m1 m2, ms = m1 ++ m2 /\ flat_map output [AW a] = map forward m1 /\ flat_map output (map fst rs) = map forward m2) as (m1 & m2 & -> & O1 & O2).
    { destruct a as [o| | |]; cbn in Ho; [destruct ms as [|m ms]; [discriminate Ho|]; injection Ho as -> Ho; exists [m], ms; auto|exists [], ms; auto..]. }
    apply Forall_app in Hm. destruct Hm as [Hm1 Hm2].
    destruct (act_stepped a w w1 v m1 S Hu1 O1 Hm1 W1) as (v1 & S1 & E1).
    destruct (IH m2 l w1 d w' d' v1 Hf' Hu2 O2 Hm2 S1 W2) as (w2 & v2 & R2 & S2 & E2 & K2 & N2 & P2).
    exists w2, v2. split; [exact R2|]. split; [exact S2|]. split; [|split; [|split; [discriminate|]]].
    - rewrite map_app. clear - E1 E2. induction E1 as [v|c m cs v v1 v3 Hc He _ IH]; [exact E2|]. cbn [app]. econstructor; eauto.
    - intros b q [X|X]; [congruence|eauto].
    - intros P. destruct (act_perfect a w w1 AOk P W1) as [P1 P3]. destruct (P2 P1) as [P4 P5]. split; [exact P4|].
      intros ([|y pre] & Hs); cbn [map fst app] in Hs; injection Hs as Hy Hs.
      + assert (rs = []) as -> by (destruct rs; [reflexivity|discriminate Hs]). rewrite (N2 eq_refl). apply P3. congruence.
      + apply P5. exists pre. exact Hs.
  Qed.

  Lemma tvs_replay l : forall order w d w' d' v, fine (concat (map snd order)) -> Forall (tgood (xterm C = true) (sensible E) shut) l ->
    map (map fst) (map snd (order : list (nat * list (act * ans)))) = map tv_acts l -> stepped w v ->
    replays E C (concat (map snd order)) (Some w, d) (Some w', d') ->
    exists v', stepped w' v' /\ effects E (map OnGuard (flat_map written l)) v v' /\
      (perfect (script w) -> obuf w = [] -> obuf w' = []).
  Proof.
    induction l as [|x l IH]; intros order w d w' d' v Hf Hg Hm S H; (destruct order as [|[j rs] order]; [|cbn [map snd concat] in *]; try discriminate Hm).
    - cbn in H. injection H as -> _. exists v. split; [exact S|]. split; [constructor|]. auto.
    - injection Hm as Hm1 Hm2. inversion Hg as [|? ? (G1 & G2 & G3 & G4) Hg']; subst. apply fine_app in Hf. destruct Hf as [Hf1 Hf2].
      rewrite <- Hm1 in G2, G3, G4.
      destruct (acts_replay rs (written x) _ w d w' d' v Hf1 G2 G3 G1 S H) as (w1 & v1 & R1 & S1 & E1 & _ & _ & P1).
      destruct (IH order w1 d w' d' v1 Hf2 Hg' Hm2 S1 R1) as (v2 & S2 & E2 & P2).
      exists v2. split; [exact S2|]. split.
      + cbn [flat_map]. rewrite map_app. clear - E1 E2. induction E1 as [v|c m cs v v1 v3 Hc He _ IH]; [exact E2|]. cbn [app]. econstructor; eauto.
      + intros P _. destruct (P1 P) as [P3 P4]. auto.
  Qed.
  Lemma treplays_ok l : forall w d w' d', fine l -> replays E C l (w, d) (Some w', d') -> forall a r, In (AW a, r) l -> r = AOk.
  Proof.
    induction l as [|[b q] l IH]; intros w d w' d' Hf H a r Hi; [destruct Hi|]. destruct (fine_cons _ _ _ Hf) as [He Hf'].
    destruct Hi as [Hi|Hi].
    - injection Hi as -> ->. destruct w as [w|]; [|apply no_writer in H; [discriminate H|reflexivity]].
      destruct (writer_ok a r l w d w' d' He H) as (w1 & _ & X & _). exact X.
    - cbn [replays] in H. destruct H as [_ H]. destruct (fst (meaning E C b (w, d))) as [w1 d1]. exact (IH _ _ _ _ Hf' H a r Hi).
  Qed.

  Lemma share_terminal (progs : list client) w d v tr c w' :
    Forall (fun p => follows true None None p /\ terminal_program (xterm C = true) (sensible E) p) progs ->
    whole_writes (script w) -> style_ok (sty (wat w)) -> look K (feed K t0 (stream w)) = Some v -> vattrs v = wat w ->
    run E C (start progs (Some w, d)) tr c -> finished c -> no_failure tr -> fst (shared c) = Some w' ->
    exists order : list (nat * list tmethod), (forall i, wrote None (nth i progs Finish) (done_by i order)) /\
      (perfect (script w) -> obuf w = [] -> obuf w' = []) /\
      exists v', look K (feed K t0 (stream w')) = Some v' /\ vattrs v' = wat w' /\
        effects E (map OnGuard (concat (map snd order))) v v'.
  Proof.
    intros Hn I1 I2 I3 I4 R F Hf Hs.
    assert (L1 : Forall (follows true None None) progs) by (refine (Forall_impl _ _ Hn); tauto).
    assert (L2 : Forall (follows false None None) progs) by (refine (Forall_impl _ _ L1); intros p; apply follows_less).
    assert (U := finished_unlocked E C _ _ _ _ L1 R F).
    destruct (sessions_atomic E C _ _ tr c L2 R (U LWriter) (U LData)) as (order & O1 & O2).
    destruct (shared c) as [sw sd] eqn:Es. cbn [fst] in Hs. subst sw. assert (Hfine := fine_order order tr Hf O1).
    assert (Hok := treplays_ok _ _ _ _ _ Hfine O2).
    destruct (tplan (length progs) order (fun i l => Forall (tgood (xterm C = true) (sensible E) shut) l /\ wrote None (nth i progs Finish) (flat_map tvis l)))
      as (plan & P1 & P2 & P3).
    { intros i _. destruct (jwalk_run E C i _ _ _ R) as (is & W1 & W2 & _). rewrite (F i) in W1. cbn [start threads] in W1.
      destruct (terminal_nth _ _ _ _ i Hn) as [Hi1 Hi2].
      assert (Hcur : tcur (xterm C = true) (sensible E) None []) by reflexivity.
      destruct (tclient_walks _ _ (nth i progs Finish) None None is [] [] Hi1 Hi2 W1 Hcur) as (ls & l & T1 & T2 & T3 & T4 & T5).
      cbn [tholds] in T1. rewrite T1 in W2. assert (Hls : done_by i order = ls) by (unfold done_by; rewrite O1; unfold sessions; now rewrite W2).
      exists l. rewrite Hls. split; [now apply forall2_acts|]. split; [exact T4|].
      apply T5. intros a r Hx. destruct (acts_aw _ _ _ _ _ T2 T4 a r Hx) as (b & ->).
      rewrite <- Hls in Hx. apply done_concat in Hx. exact (Hok b r Hx). }
    { intros i Hi. destruct (jwalk_run E C i _ _ _ R) as (is & W1 & W2 & _). rewrite (F i) in W1. cbn [start threads] in W1.
      rewrite nth_overflow in W1 by exact Hi. inversion W1; subst. unfold done_by. rewrite O1. unfold sessions. now rewrite W2. }
    assert (Hg : Forall (tgood (xterm C = true) (sensible E) shut) (map snd plan)).
    { apply done_in. intros i. destruct (Nat.lt_ge_cases i (length progs)) as [Hi|Hi]; [apply P1, Hi|]. rewrite P2 by exact Hi. constructor. }
    destruct (tvs_replay (map snd plan) order w d w' sd v Hfine Hg P3 (conj I1 (conj I2 (conj I3 I4))) O2) as (v' & (_ & _ & V1 & V2) & V3 & V4).
    exists (visible_tvs plan). split; [|split; [exact V4|]].
    - intros i. rewrite visible_tvs_by. destruct (Nat.lt_ge_cases i (length progs)) as [Hi|Hi]; [apply P1, Hi|].
      rewrite P2, nth_overflow by exact Hi. constructor.
    - exists v'. rewrite visible_tvs_snd. auto.
  Qed.
End Unix.
