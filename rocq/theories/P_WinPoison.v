(** Proofs about panics of a program that uses a Windows screen (C103, C104). *)
From Verif Require Import Base M_Utf8 M_Geom M_Attr M_Buf M_Signal M_Util M_Input M_Writer M_Prepare M_Reader
  M_WinWriter M_WinReader S_WinReader P_WinReader P_WinPrepare M_WinScreen S_WinScreen P_WinScreen P_WinCursor S_Drawing P_Drawing M_WinPoison S_WinPoison.
From Verif Require S_WinWriter.

Section WP.
  Variable draw : list N -> N -> view -> view.
  Variable E : env.
  Notation kstep := (kstep draw E).
  Notation krun := (krun draw E).

  (** *** Steps as calls *)
  Definition as_op (o : kwrite) : wsop :=
    match o with KBuffer o => SBuffer o | KRefresh => SRefresh | KMode m => SCursorMode m end.
  Lemma write1_op o s : k_write1 draw E o s = run_wsop draw E (as_op o) s.
  Proof. destruct o; reflexivity. Qed.
  Lemma writes_ops l : forall s, k_writes draw E l s = run_wsops draw E (map as_op l) s.
  Proof.
    induction l as [|o l IH]; intros s; cbn [k_writes map run_wsops]; [reflexivity|].
    rewrite write1_op. destruct (run_wsop draw E (as_op o) s); auto.
  Qed.
  Lemma ops_app l1 l2 : forall s s1, run_wsops draw E l1 s = Some s1 -> run_wsops draw E (l1 ++ l2) s = run_wsops draw E l2 s1.
  Proof.
    induction l1 as [|o l1 IH]; intros s s1 H; cbn [app run_wsops] in *.
    - injection H as <-. reflexivity.
    - destruct (run_wsop draw E o s); try discriminate H; auto.
  Qed.
  Lemma guard_inv boom l x y r : k_guard draw E boom l x = Some (y, r) ->
    exists ops, run_wsops draw E ops (q_s x) = Some (q_s y) /\
      q_r y = q_r x /\ q_w y = q_w x || boom /\ q_d y = q_d x || boom /\ r = (if boom then KPanicked else KOk).
  Proof.
    unfold k_guard. rewrite writes_ops. destruct (run_wsops draw E (map as_op l) (q_s x)) as [s|] eqn:H; [|discriminate].
    intros G. exists (map as_op l ++ [SRefresh]). rewrite (ops_app _ _ _ _ H). cbn [run_wsops run_wsop].
    destruct (win_refresh draw E s); try discriminate G; injection G as <- <-; cbn; auto.
  Qed.

  (** *** What no step changes *)
  Definition grows (x y : wpscr) : Prop :=
    stays (q_s x) (q_s y) /\ (q_r x = true -> q_r y = true) /\ (q_w x = true -> q_w y = true) /\ (q_d x = true -> q_d y = true).
  Lemma grows_refl x : grows x x.
  Proof. split; [apply stays_refl|auto]. Qed.
  Lemma grows_trans a b c : grows a b -> grows b c -> grows a c.
  Proof. intros (A1 & A2 & A3 & A4) (B1 & B2 & B3 & B4). split; [eapply stays_trans; eauto|auto]. Qed.

  Lemma guard_grows boom l x y r : k_guard draw E boom l x = Some (y, r) -> grows x y.
  Proof.
    intros H. apply guard_inv in H. destruct H as (ops & H1 & H2 & H3 & H4 & _). split; [eapply stays_ops; eauto|].
    rewrite H2, H3, H4. split; [auto|]. split; intros ->; reflexivity.
  Qed.
  Lemma sized_grows {A} z rep (r : gres A) x y a : stays' (q_s x) r -> k_sized E z rep r x = Some (y, a) -> grows x y.
  Proof.
    intros H. unfold k_sized. destruct r as [s v|s e| |]; try discriminate; cbn in H.
    - destruct (z v) as [n|].
      + destruct (q_d x) eqn:D.
        * intros G. injection G as <- <-. split; [exact H|cbn; auto].
        * pose proof (stays_update E n s) as U. destruct (win_update_size E n s); try discriminate.
          intros G. injection G as <- <-. split; [eapply stays_trans; eauto|cbn; auto].
      + intros G. injection G as <- <-. split; [exact H|cbn; auto].
    - intros G. injection G as <- <-. split; [exact H|cbn; auto].
  Qed.
  Lemma read_grows o x y a : k_read E o x = Some (y, a) -> grows x y.
  Proof.
    destruct o; cbn [k_read]; apply sized_grows; apply stays_reader.
    - apply calm_wait. - apply calm_event. - apply calm_raw. - apply calm_raw_event.
  Qed.
  Lemma told_grows r x y a : stays' (q_s x) r -> k_told r x = Some (y, a) -> grows x y.
  Proof. intros H. destruct r; cbn in *; try discriminate; intros G; injection G as <- <-; split; cbn; auto. Qed.
  Lemma write1_stays o s : stays' s (k_write1 draw E o s).
  Proof. rewrite write1_op. apply stays_op. Qed.
  Lemma step_grows o x y a : kstep o x = Some (y, a) -> grows x y.
  Proof.
    destruct o as [w|o|l|l|o|l| |]; cbn [M_WinPoison.kstep].
    - destruct w as [b| |m].
      + destruct (q_d x); [intros G; injection G as <- <-; apply grows_refl|]. apply told_grows, write1_stays.
      + destruct (q_w x || q_d x); [apply guard_grows|].
        pose proof (stays_refresh draw E (q_s x)) as R. destruct (win_refresh draw E (q_s x)) as [s u|s e| |]; try discriminate; cbn in R;
          pose proof (stays_refresh draw E s) as R2.
        * apply told_grows. destruct (win_refresh draw E s); cbn in *; auto; eapply stays_trans; eauto.
        * destruct (win_refresh draw E s); try discriminate; intros G; injection G as <- <-; (split; [eapply stays_trans; eauto|cbn; auto]).
      + destruct (q_w x); [intros G; injection G as <- <-; apply grows_refl|]. apply told_grows, write1_stays.
    - destruct (q_r x) eqn:R; [intros G; injection G as <- <-; apply grows_refl|]. apply read_grows.
    - destruct (q_w x || q_d x); apply guard_grows.
    - apply guard_grows.
    - apply read_grows.
    - apply guard_grows.
    - intros G; injection G as <- <-. split; [apply stays_refl|cbn; auto].
    - intros G; injection G as <- <-. apply grows_refl.
  Qed.
  Lemma run_grows ops : forall x y rs, krun ops x = Some (y, rs) -> grows x y.
  Proof.
    induction ops as [|o ops IH]; intros x y rs H; cbn [M_WinPoison.krun] in H.
    - injection H as <- _. apply grows_refl.
    - destruct (kstep o x) as [[x1 r]|] eqn:S1; [|discriminate H]. destruct (krun ops x1) as [[x2 rs2]|] eqn:S2; [|discriminate H].
      injection H as <- _. eapply grows_trans; [eapply step_grows; eauto|eapply IH; eauto].
  Qed.

  (** *** Programs that do not panic with a guard *)
  Definition clean (x : wpscr) : Prop := q_w x = false /\ q_d x = false.
  Lemma step_clean o x y a : clean x -> ~ in_write_guard o -> kstep o x = Some (y, a) -> clean y.
  Proof.
    intros (W & D) N. destruct o as [w|o|l|l|o|l| |]; cbn [M_WinPoison.kstep].
    - destruct w as [b| |m]; rewrite ?W, ?D; cbn [orb].
      + unfold k_told. destruct (k_write1 _ _ _ _); try discriminate; intros G; injection G as <- _; split; auto.
      + destruct (win_refresh draw E (q_s x)) as [s u|s e| |]; try discriminate;
          destruct (win_refresh draw E s); try discriminate; intros G; injection G as <- _; split; auto.
      + unfold k_told. destruct (k_write1 _ _ _ _); try discriminate; intros G; injection G as <- _; split; auto.
    - destruct (q_r x); [intros G; injection G as <- _; split; auto|].
      intros G. assert (forall A z rep (r : gres A), k_sized E z rep r x = Some (y, a) -> clean y) as K.
      { intros A z rep r. unfold k_sized. rewrite D. destruct r as [s v|s e| |]; try discriminate.
        - destruct (z v); [destruct (win_update_size E _ s); try discriminate|]; intros G'; injection G' as <- _; split; auto.
        - intros G'; injection G' as <- _; split; auto. }
      destruct o; cbn [k_read] in G; eapply K; exact G.
    - rewrite W, D. cbn [orb]. intros G. apply guard_inv in G. destruct G as (_ & _ & _ & G1 & G2 & _). split; [rewrite G1, W|rewrite G2, D]; reflexivity.
    - intros G. apply guard_inv in G. destruct G as (_ & _ & _ & G1 & G2 & _). split; [rewrite G1, W|rewrite G2, D]; reflexivity.
    - intros G. assert (forall A z rep (r : gres A), k_sized E z rep r x = Some (y, a) -> clean y) as K.
      { intros A z rep r. unfold k_sized. rewrite D. destruct r as [s v|s e| |]; try discriminate.
        - destruct (z v); [destruct (win_update_size E _ s); try discriminate|]; intros G'; injection G' as <- _; split; auto.
        - intros G'; injection G' as <- _; split; auto. }
      destruct o; cbn [k_read] in G; eapply K; exact G.
    - destruct (N I).
    - intros G; injection G as <- _. split; auto.
    - intros G; injection G as <- _. split; auto.
  Qed.
  Lemma run_clean ops : forall x y rs, clean x -> Forall (fun o => ~ in_write_guard o) ops -> krun ops x = Some (y, rs) -> clean y.
  Proof.
    induction ops as [|o ops IH]; intros x y rs C F H; cbn [M_WinPoison.krun] in H.
    - injection H as <- _. exact C.
    - destruct (kstep o x) as [[x1 r]|] eqn:S1; [|discriminate H]. destruct (krun ops x1) as [[x2 rs2]|] eqn:S2; [|discriminate H].
      injection H as <- _. inversion F as [|? ? F1 F2]; subst. eapply IH; [|exact F2|exact S2]. eapply step_clean; eauto.
  Qed.
  Lemma sized_unread {A} z rep (r : gres A) x y a : q_d x = false -> q_r x = false -> k_sized E z rep r x = Some (y, a) -> q_r y = false.
  Proof.
    intros D R. unfold k_sized. rewrite D. destruct r as [s v|s e| |]; try discriminate.
    - destruct (z v); [destruct (win_update_size E _ s); try discriminate|]; intros G'; injection G' as <- _; auto.
    - intros G'; injection G' as <- _; auto.
  Qed.
  Lemma step_unread o x y a : clean x -> q_r x = false -> ~ in_guard o -> kstep o x = Some (y, a) -> q_r y = false.
  Proof.
    intros (W & D) R N. destruct o as [w|o|l|l|o|l| |]; cbn [M_WinPoison.kstep].
    - destruct w as [b| |m]; rewrite ?W, ?D; cbn [orb].
      + unfold k_told. destruct (k_write1 _ _ _ _); try discriminate; intros G; injection G as <- _; auto.
      + destruct (win_refresh draw E (q_s x)) as [s u|s e| |]; try discriminate;
          destruct (win_refresh draw E s); try discriminate; intros G; injection G as <- _; auto.
      + unfold k_told. destruct (k_write1 _ _ _ _); try discriminate; intros G; injection G as <- _; auto.
    - rewrite R. destruct o; cbn [k_read]; apply sized_unread; auto.
    - rewrite W, D. cbn [orb]. intros G. apply guard_inv in G. destruct G as (_ & _ & G1 & _). congruence.
    - intros G. apply guard_inv in G. destruct G as (_ & _ & G1 & _). congruence.
    - destruct o; cbn [k_read]; apply sized_unread; auto.
    - destruct (N I).
    - destruct (N I).
    - intros G; injection G as <- _. auto.
  Qed.
  Lemma run_unread ops : forall x y rs, clean x -> q_r x = false -> Forall (fun o => ~ in_guard o) ops -> krun ops x = Some (y, rs) -> q_r y = false.
  Proof.
    induction ops as [|o ops IH]; intros x y rs C R F H; cbn [M_WinPoison.krun] in H.
    - injection H as <- _. exact R.
    - destruct (kstep o x) as [[x1 r]|] eqn:S1; [|discriminate H]. destruct (krun ops x1) as [[x2 rs2]|] eqn:S2; [|discriminate H].
      injection H as <- _. inversion F as [|? ? F1 F2]; subst. assert (~ in_write_guard o) by (destruct o; cbn in *; auto).
      eapply IH; [| |exact F2|exact S2]; [eapply step_clean|eapply step_unread]; eauto.
  Qed.

  (** *** Panics with a guard *)
  Lemma run_written ops : forall x y rs, krun ops x = Some (y, rs) -> Exists in_write_guard ops -> q_w y = true /\ q_d y = true.
  Proof.
    induction ops as [|o ops IH]; intros x y rs H X; cbn [M_WinPoison.krun] in H; [inversion X|].
    destruct (kstep o x) as [[x1 r]|] eqn:S1; [|discriminate H]. destruct (krun ops x1) as [[x2 rs2]|] eqn:S2; [|discriminate H].
    injection H as <- _. inversion X as [? ? X1|? ? X1]; subst; [|eapply IH; eauto].
    apply run_grows in S2. destruct S2 as (_ & _ & S3 & S4). destruct o; try destruct X1. cbn [M_WinPoison.kstep] in S1.
    apply guard_inv in S1. destruct S1 as (_ & _ & _ & G1 & G2 & _). rewrite orb_true_r in G1, G2. auto.
  Qed.
  Lemma run_read ops : forall x y rs, krun ops x = Some (y, rs) -> Exists (fun o => o = KPanicRead) ops -> q_r y = true.
  Proof.
    induction ops as [|o ops IH]; intros x y rs H X; cbn [M_WinPoison.krun] in H; [inversion X|].
    destruct (kstep o x) as [[x1 r]|] eqn:S1; [|discriminate H]. destruct (krun ops x1) as [[x2 rs2]|] eqn:S2; [|discriminate H].
    injection H as <- _. inversion X as [? ? X1|? ? X1]; subst; [|eapply IH; eauto].
    apply run_grows in S2. destruct S2 as (_ & S3 & _). cbn [M_WinPoison.kstep] in S1. injection S1 as <- _. auto.
  Qed.

  (** *** The end *)
  Lemma no_lines cfg old : N.testbit (prepared_mode cfg old) 2 = false /\ N.testbit (prepared_mode cfg old) 1 = false.
  Proof.
    unfold prepared_mode. repeat match goal with |- context [if ?b then _ else _] => destruct b end;
      split; repeat rewrite ?N.lor_spec, ?N.ldiff_spec; cbn; rewrite ?andb_false_r, ?orb_false_r; cbn; rewrite ?andb_false_r; reflexivity.
  Qed.
  Lemma opened_mode cfg t t1 s : win_screen_new E cfg t = Ret t1 s -> exists m, w_mode (t_in t1) = prepared_mode cfg m.
  Proof.
    intros H. apply new_open in H. unfold win_screen_open in H. apply bind_ret in H. destruct H as (t2 & z & _ & H).
    apply bind_ret in H. destruct H as (t3 & old & _ & H). apply bind_ret in H. destruct H as (t4 & st & P & H).
    destruct (sb_new E z); [|discriminate H]. injection H as <- _. apply on_reader_inv in P. destruct P as (i & P & ->). cbn [t_in with_in].
    unfold win_prepare in P. apply bind_ret in P. destruct P as (s1 & m & P1 & P). unfold console_mode in P1.
    apply os_inv in P1. destruct P1 as (o & P1). injection P1 as <- <-. cbv zeta in P.
    apply bind_ret in P. destruct P as (s2 & u & P2 & P). unfold set_console_mode in P2.
    apply os_inv in P2. destruct P2 as (o2 & P2). injection P2 as <- _. exists (w_mode (t_in t3)).
    rewrite intersects_ok in P. destruct (reports_ctrl cfg).
    - apply bind_ret in P. destruct P as (s3 & u3 & P3 & P). injection P as <- _. unfold set_ctrl_handler in P3.
      apply os_inv in P3. destruct P3 as (o3 & P3). rewrite catch_signals_ok in P3. injection P3 as <- _.
      destruct (cfg_mouse cfg); reflexivity.
    - injection P as <- _. destruct (cfg_mouse cfg); reflexivity.
  Qed.
  Lemma drop_keeps t : exists t', win_terminal_drop t = Ret t' tt /\ t_active t' = t_active t /\ t_in t' = t_in t.
  Proof.
    unfold win_terminal_drop. rewrite on_mode. unfold set_out_mode.
    match goal with |- context [t_call true ?f t] => set (F := f); destruct (call_never true F t) as [N1 N2];
      destruct (t_call true F t) as [t1 u|t1 e| |] eqn:E1; try congruence end.
    - apply call_inv in E1. destruct E1 as (_ & l & E1). injection E1 as <- _.
      match goal with |- context [t_call true ?f ?t] => destruct (call_never true f t) as [M1 M2];
        destruct (t_call true f t) as [t2 u2|t2 e2| |] eqn:E2; try congruence end.
      + apply call_inv in E2. destruct E2 as (_ & l2 & E2). injection E2 as <- _. eexists. split; [reflexivity|split; reflexivity].
      + apply call_fail in E2. destruct E2 as (l2 & ->). eexists. split; [reflexivity|split; reflexivity].
    - apply call_fail in E1. destruct E1 as (l & ->). eexists. split; [reflexivity|split; reflexivity].
  Qed.

  Lemma k_given_back cfg ops t t1 s x rs :
    displayed t -> win_screen_new E cfg t = Ret t1 s -> krun ops (unharmed s) = Some (x, rs) ->
    Forall (fun o => ~ in_guard o) ops -> calls_work (g_t (q_s x)) ->
    exists t', kdrop x = KGiven t' /\ same_buffers t t' /\ t_mode t' = t_old t /\
      c_cursor (w_con (t_w t')) = (25%N, true) /\
      w_mode (t_in t') = N.lor (w_mode (t_in t)) ENABLE_EXTENDED_FLAGS /\ w_regs (t_in t') = w_regs (t_in t).
  Proof.
    intros Hd Hn Hr Hf Hw. assert (C : clean (unharmed s)) by (split; reflexivity).
    assert (Hf' : Forall (fun o => ~ in_write_guard o) ops).
    { eapply Forall_impl; [|exact Hf]. intros [] H; cbn in *; auto. }
    destruct (run_clean _ _ _ _ C Hf' Hr) as (W & D). pose proof (run_unread _ _ _ _ C eq_refl Hf Hr) as R.
    apply run_grows in Hr. destruct Hr as (Hr & _). cbn [q_s unharmed] in Hr.
    destruct (round_trip_stays _ _ _ _ _ _ Hd Hn Hr Hw) as (t' & H1 & H2).
    exists t'. split; [|exact H2]. unfold kdrop. rewrite W, R, H1. reflexivity.
  Qed.

  Lemma k_kept cfg ops t t1 s x rs :
    displayed t -> win_screen_new E cfg t = Ret t1 s -> krun ops (unharmed s) = Some (x, rs) -> kept t t1 (g_t (q_s x)).
  Proof.
    intros (Ha & Ho) Hn Hr. pose proof (opened_mode _ _ _ _ Hn) as (m & M). apply new_open in Hn. apply (open_inv _ _ _ _ _ Ho) in Hn.
    destruct Hn as (N1 & N2 & N3 & _ & _ & _ & N7 & N8 & _).
    apply run_grows in Hr. destruct Hr as ((S1 & S2 & S3 & S4 & S5 & S6 & S7 & S8 & S9) & _). cbn [q_s unharmed] in *.
    destruct (fresh_new t) as (F1 & F2 & F3). rewrite N1 in *. unfold kept, strayed. rewrite S4, N8, S9, S8, M.
    destruct (no_lines cfg m). auto 10.
  Qed.
  Lemma k_unwinds cfg ops t t1 s x rs :
    displayed t -> win_screen_new E cfg t = Ret t1 s -> krun ops (unharmed s) = Some (x, rs) ->
    Exists in_guard ops -> Forall (fun o => ~ in_write_guard o) ops ->
    exists t', kdrop x = KUnwinds t' /\ kept t t1 t'.
  Proof.
    intros Hd Hn Hr Hx Hf. assert (C : clean (unharmed s)) by (split; reflexivity).
    destruct (run_clean _ _ _ _ C Hf Hr) as (W & D). assert (R : q_r x = true).
    { eapply run_read; [exact Hr|]. clear -Hx Hf. induction Hx as [o l H|o l H IH]; inversion Hf; subst.
      - left. destruct o; try destruct H; [match goal with N : ~ in_write_guard _ |- _ => destruct (N I) end|reflexivity].
      - right. auto. }
    pose proof (k_kept _ _ _ _ _ _ _ Hd Hn Hr) as (K1 & K2 & K3 & K4 & K5).
    destruct (drop_keeps (g_t (q_s x))) as (t' & T1 & T2 & T3). exists t'. unfold kdrop. rewrite W, R, T1. split; [reflexivity|].
    unfold kept, strayed in *. rewrite T2, T3. auto 10.
  Qed.
  Lemma k_aborts cfg ops t t1 s x rs :
    displayed t -> win_screen_new E cfg t = Ret t1 s -> krun ops (unharmed s) = Some (x, rs) ->
    Exists in_write_guard ops -> exists t', kdrop x = KAborts t' /\ kept t t1 t'.
  Proof.
    intros Hd Hn Hr Hx. destruct (run_written _ _ _ _ Hr Hx) as (W & D). exists (g_t (q_s x)). unfold kdrop. rewrite W.
    split; [reflexivity|]. eapply k_kept; eauto.
  Qed.

  (** *** Going on *)
  Lemma k_output_same ops s x rs o : krun ops (unharmed s) = Some (x, rs) -> Forall (fun o => ~ in_write_guard o) ops -> output o ->
    kstep o x = as_if_unharmed (kstep o (unharmed (q_s x))) x.
  Proof.
    intros Hr Hf Ho. assert (C : clean (unharmed s)) by (split; reflexivity). destruct (run_clean _ _ _ _ C Hf Hr) as (W & D).
    destruct x as [y r w d]. cbn in W, D. subst w d. destruct o as [w|?|l|?|?|?| |]; try destruct Ho; cbn [M_WinPoison.kstep q_w q_d q_s orb unharmed].
    - destruct w as [b| |m].
      + unfold k_told. destruct (k_write1 _ _ _ _); reflexivity.
      + destruct (win_refresh draw E y) as [s1 u|s1 e| |]; cbn; try reflexivity; destruct (win_refresh draw E s1); reflexivity.
      + unfold k_told. destruct (k_write1 _ _ _ _); reflexivity.
    - unfold k_guard, unharmed. cbn [q_s q_r q_w q_d]. destruct (k_writes draw E l y) as [w|]; [|reflexivity]. destruct (win_refresh draw E w); reflexivity.
  Qed.
  Lemma k_forced l x : kstep (KForce l) x = as_if_unharmed (kstep (KLocked l) (unharmed (q_s x))) x.
  Proof.
    destruct x as [y r w d]. cbn [M_WinPoison.kstep q_w q_d q_s orb unharmed]. unfold k_guard, unharmed. cbn [q_s q_r q_w q_d].
    destruct (k_writes draw E l y) as [w0|]; [|reflexivity]. destruct (win_refresh draw E w0); try reflexivity; cbn [orb]; rewrite !orb_false_r; reflexivity.
  Qed.
  Lemma k_output_panics ops x0 x rs o x' r : krun ops x0 = Some (x, rs) -> Exists in_write_guard ops -> output o ->
    kstep o x = Some (x', r) -> r = KPanicked /\ same_drawing (g_sb (q_s x)) (g_sb (q_s x')) /\
      c_cursor (w_con (t_w (g_t (q_s x')))) = c_cursor (w_con (t_w (g_t (q_s x)))).
  Proof.
    intros Hr Hx Ho. destruct (run_written _ _ _ _ Hr Hx) as (W & D).
    assert (K : k_guard draw E true [] x = Some (x', r) -> r = KPanicked /\ same_drawing (g_sb (q_s x)) (g_sb (q_s x')) /\
      c_cursor (w_con (t_w (g_t (q_s x')))) = c_cursor (w_con (t_w (g_t (q_s x))))).
    { unfold k_guard. cbn [k_writes]. assert (G1 := gd_refresh draw E (q_s x)). assert (G2 := g_refresh draw E (q_s x)).
      destruct (win_refresh draw E (q_s x)); try discriminate; intros G; injection G as <- <-; auto. }
    destruct o as [w|?|l|?|?|?| |]; try destruct Ho; cbn [M_WinPoison.kstep]; rewrite ?W, ?D.
    - destruct w as [b| |m]; cbn [orb]; rewrite ?W, ?D.
      + intros G; injection G as <- <-. repeat split.
      + exact K.
      + intros G; injection G as <- <-. repeat split.
    - cbn [orb]. exact K.
  Qed.

  (** A call that does not panic. *)
  Lemma k_told_same o x x' a : answered o -> kstep o x = Some (x', a) -> a <> KPanicked ->
    kstep o (unharmed (q_s x)) = Some (unharmed (q_s x'), a) /\ x' = with_s (q_s x') x.
  Proof.
    intros Ho H Ha. destruct x as [y r w d].
    destruct o as [[b| |m]|o|l|?|?|?| |]; try destruct Ho; cbn [M_WinPoison.kstep q_r q_w q_d q_s orb unharmed] in *.
    - destruct d; [injection H as <- <-; congruence|]. unfold k_told in *. destruct (k_write1 _ _ _ _); try discriminate H; injection H as <- <-; split; reflexivity.
    - destruct (w || d).
      { unfold k_guard in H. cbn [k_writes q_s] in H. destruct (win_refresh draw E y); try discriminate H; injection H as <- <-; congruence. }
      unfold k_told in *.
      destruct (win_refresh draw E y) as [s1 u|s1 e| |]; try discriminate H; destruct (win_refresh draw E s1); try discriminate H; injection H as <- <-; split; reflexivity.
    - destruct w; [injection H as <- <-; congruence|]. unfold k_told in *. destruct (k_write1 _ _ _ _); try discriminate H; injection H as <- <-; split; reflexivity.
    - destruct r; [injection H as <- <-; congruence|].
      assert (K : forall A z rep (g : gres A), k_sized E z rep g (WPScr y false w d) = Some (x', a) ->
        k_sized E z rep g (unharmed y) = Some (unharmed (q_s x'), a) /\ x' = with_s (q_s x') (WPScr y false w d)).
      { intros A z rep g. unfold k_sized. cbn [q_d unharmed]. destruct g as [s1 v|s1 e| |]; try discriminate.
        - destruct (z v); [|intros G; injection G as <- <-; split; reflexivity]. destruct d; [intros G; injection G as <- <-; congruence|].
          destruct (win_update_size E s s1); try discriminate. intros G; injection G as <- <-; split; reflexivity.
        - intros G; injection G as <- <-; split; reflexivity. }
      destruct o; cbn [k_read q_s unharmed] in *; apply K; exact H.
    - destruct (w || d) eqn:Ewd.
      { unfold k_guard in H. cbn [k_writes q_s] in H. destruct (win_refresh draw E y); try discriminate H; injection H as <- <-; congruence. }
      unfold k_guard in *. cbn [q_s unharmed q_r q_w q_d] in *. destruct (k_writes draw E l y) as [z|]; [|discriminate H].
      destruct (win_refresh draw E z); try discriminate H; injection H as <- <-; rewrite !orb_false_r; split; reflexivity.
  Qed.
  Lemma k_input_panics ops x0 x rs o : krun ops x0 = Some (x, rs) -> Exists (fun o => o = KPanicRead) ops ->
    kstep (KRead o) x = Some (x, KPanicked).
  Proof. intros Hr Hx. pose proof (run_read _ _ _ _ Hr Hx) as F. cbn [M_WinPoison.kstep]. now rewrite F. Qed.

  Lemma raw_event_len n t i i' e rs : win_read_raw_event n t i = Ret i' (e, rs) ->
    match e with Some (ERaw k) => k = length rs | Some (EResize _) => False | _ => True end.
  Proof.
    unfold win_read_raw_event. intros H. apply bind_ret in H. destruct H as (i1 & b & _ & H). destruct b; cbn [negb] in H.
    - destruct (win_take_signal i1) as [i2 [g|]]; [injection H as _ <- _; exact I|].
      apply bind_ret in H. destruct H as (i3 & l & _ & H). injection H as _ <- <-. reflexivity.
    - injection H as _ <- _. exact I.
  Qed.
  Lemma read_event_not_raw t i i' e rs : win_read_event E t i = Ret i' (e, rs) ->
    match e with Some (ERaw _) => False | _ => True end.
  Proof.
    unfold win_read_event. intros H. apply bind_ret in H. destruct H as (i1 & [e1 l] & H1 & H).
    assert (forall g s s' d, win_decode E g s = Ret s' d -> match d with ERaw _ => False | _ => True end) as K.
    { intros g s s' d. unfold win_decode. destruct (key_press_event g); [intros G; injection G as _ <-; exact I|].
      destruct (win_mouse_event E g (w_rd s)) as [[rd [mm|]]|]; try discriminate; intros G; injection G as _ <-; [exact I|].
      destruct (size_event E g); exact I. }
    destruct e1 as [[]|]; try (injection H as _ <- _; exact I). destruct l as [|g l]; [injection H as _ <- _; exact I|].
    apply bind_ret in H. destruct H as (i2 & d & H2 & H). injection H as _ <- _. apply K in H2. destruct d; auto.
  Qed.
  Lemma find_size_none rs : find_size E rs = None <-> ~ Exists (fun r => match r with SizeRec _ => True | _ => False end) rs.
  Proof.
    induction rs as [|r rs IH]; cbn [find_size].
    - split; [intros _ X; inversion X|reflexivity].
    - destruct (size_event E r) as [z|] eqn:Z.
      + split; [discriminate|]. intros N. exfalso. apply N. left. destruct r; cbn in Z; try discriminate Z. exact I.
      + rewrite IH. split; intros N X; apply N; [inversion X as [? ? X1|]; subst; [destruct r; cbn in Z; [destruct X1|destruct X1|discriminate Z|destruct X1]|assumption]|right; exact X].
  Qed.

  (** What the answer tells is what the guard acts upon. *)
  Lemma sized_same {A} z rep (r : gres A) x y a :
    k_sized E z rep r (unharmed (q_s x)) = Some (y, a) ->
    (exists s v n, r = Ret s v /\ z v = Some n /\ a = rep v /\
       k_sized E z rep r x = (if q_d x then Some (WPScr s true (q_w x) (q_d x), KPanicked) else Some (with_s (q_s y) x, a))) \/
    ((exists s v, r = Ret s v /\ z v = None /\ a = rep v) \/ (exists e, a = KErr e)) /\ k_sized E z rep r x = Some (with_s (q_s y) x, a).
  Proof.
    unfold k_sized. destruct r as [s v|s e| |]; try discriminate; cbn [q_d unharmed].
    - destruct (z v) as [n|] eqn:Z.
      + intros H. left. exists s, v, n. split; [reflexivity|]. split; [exact Z|]. destruct (win_update_size E n s); try discriminate H.
        injection H as <- <-. split; reflexivity.
      + intros H. injection H as <- <-. right. split; [left; eauto|reflexivity].
    - intros H. injection H as <- <-. right. split; [right; eauto|reflexivity].
  Qed.
  Lemma reads_alike o x y a : k_read E o (unharmed (q_s x)) = Some (y, a) ->
    (tells_size a /\ (q_d x = true -> exists x', k_read E o x = Some (x', KPanicked) /\ q_r x' = true)) \/
    (~ tells_size a /\ k_read E o x = Some (with_s (q_s y) x, a)).
  Proof.
    assert (T : forall A (f : wsys -> wsres A) s s' v, on_term (on_reader f) s = Ret s' v -> exists i, f (t_in (g_t s)) = Ret i v).
    { intros A f s s' v. unfold on_term, on_reader. destruct (f (t_in (g_t s))); try discriminate. intros G; injection G as _ <-. eauto. }
    destruct o; cbn [k_read q_s unharmed]; intros H.
    - apply sized_same in H. destruct H as [(s & v & n & _ & Z & _)|(C & H)]; [discriminate Z|]. right. split; [|exact H].
      destruct C as [(s & v & _ & _ & ->)|(e & ->)]; cbn; auto.
    - apply sized_same in H. destruct H as [(s & [e l] & n & R & Z & -> & H)|(C & H)].
      + left. cbn [fst snd] in *. destruct e as [[]|]; try discriminate Z. split; [exact I|]. intros D. rewrite D in H. eauto.
      + right. split; [|exact H]. destruct C as [(s & [e l] & R & Z & ->)|(e & ->)]; [|cbn; auto].
        apply T in R. destruct R as (i & R). apply read_event_not_raw in R. cbn [fst snd] in *. destruct e as [[]|]; cbn; auto; discriminate Z.
    - apply sized_same in H. destruct H as [(s & [e l] & n & R & Z & -> & H)|(C & H)].
      + left. cbn [fst snd] in *. destruct e as [[]|]; try discriminate Z. split; [exact I|]. intros D. rewrite D in H. eauto.
      + right. split; [|exact H]. destruct C as [(s & [e l] & R & Z & ->)|(e & ->)]; [|cbn; auto].
        cbn [fst snd] in *. destruct e as [[]|]; cbn; auto; discriminate Z.
    - apply sized_same in H. destruct H as [(s & [e l] & n & R & Z & -> & H)|(C & H)].
      + left. apply T in R. destruct R as (i & R). apply raw_event_len in R. cbn [fst snd] in *. destruct e as [[]|]; try discriminate Z. subst.
        rewrite firstn_all in Z. split.
        * cbn. destruct (Exists_dec (fun r => match r with SizeRec _ => True | _ => False end) l) as [X|X]; [intros []; auto|exact X|].
          exfalso. rewrite <- (rev_involutive l) in X. assert (N : ~ Exists (fun r => match r with SizeRec _ => True | _ => False end) (rev l)).
          { intros Y. apply X. apply Exists_rev. exact Y. }
          apply find_size_none in N. congruence.
        * intros D. rewrite D in H. eauto.
      + right. split; [|exact H]. destruct C as [(s & [e l] & R & Z & ->)|(e & ->)]; [|cbn; auto].
        apply T in R. destruct R as (i & R). apply raw_event_len in R. cbn [fst snd] in *. destruct e as [[]|]; cbn; auto.
        subst. rewrite firstn_all in Z. apply find_size_none in Z. intros X. apply Z. apply Exists_rev. exact X.
  Qed.

  Lemma k_reading o x y a : q_r x = false -> kstep (KRead o) (unharmed (q_s x)) = Some (y, a) -> ~ tells_size a ->
    kstep (KRead o) x = Some (with_s (q_s y) x, a).
  Proof.
    intros R H N. cbn [M_WinPoison.kstep q_r unharmed] in *. rewrite R. destruct (reads_alike _ _ _ _ H) as [(T & _)|(_ & K)]; [destruct (N T)|exact K].
  Qed.
  Lemma k_resize ops x0 x rs o y a : krun ops x0 = Some (x, rs) -> Exists in_write_guard ops ->
    kstep (KRead o) (unharmed (q_s x)) = Some (y, a) -> tells_size a ->
    exists x', kstep (KRead o) x = Some (x', KPanicked) /\
      forall more x1 rs1 o' x2 r, krun more x' = Some (x1, rs1) -> kstep (KRead o') x1 = Some (x2, r) -> r = KPanicked.
  Proof.
    intros Hr Hx H T. destruct (run_written _ _ _ _ Hr Hx) as (W & D). cbn [M_WinPoison.kstep q_r unharmed] in *.
    assert (K : exists x', (if q_r x then Some (x, KPanicked) else k_read E o x) = Some (x', KPanicked) /\ q_r x' = true).
    { destruct (q_r x) eqn:R; [eauto|]. destruct (reads_alike _ _ _ _ H) as [(_ & K)|(N & _)]; [auto|destruct (N T)]. }
    destruct K as (x' & K1 & K2). exists x'. split; [exact K1|]. intros more x1 rs1 o' x2 r M S. apply run_grows in M. destruct M as (_ & M & _).
    rewrite (M K2) in S. injection S as _ <-. reflexivity.
  Qed.
End WP.
