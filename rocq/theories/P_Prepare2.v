(** More about [prepare]: settings bit by bit, failures, and what [restore] leaves. *)
From Verif Require Import Base M_Geom M_Signal M_Seq M_Input M_Writer M_Prepare M_Reader S_Prepare P_Prepare.
Local Open Scope N_scope.

Lemma pow_bit a k : N.testbit (2 ^ a) k = (a =? k).
Proof. apply N.pow2_bits_eqb. Qed.

Lemma raw_prepared cfg t : prepared cfg t (raw_tio cfg t).
Proof.
  unfold prepared, raw_tio, bit, flag_remove, flag_insert. cbn [iflag oflag cflag lflag vmin vtime others].
  change INLCR with (2 ^ 6). change ICRNL with (2 ^ 8). change IXON with (2 ^ 10).
  change ISIG with (2 ^ 0). change ICANON with (2 ^ 1). change ECHO with (2 ^ 3).
  rewrite !N.log2_pow2 by lia.
  destruct (block_signals cfg), (enable_control_flow cfg);
    repeat (match goal with |- _ /\ _ => split end);
    try reflexivity; try intros k;
    intros; repeat rewrite ?N.ldiff_spec, ?N.lor_spec, ?pow_bit;
    repeat match goal with
    | |- context [?a =? ?b] =>
        first [ change (a =? b) with true | change (a =? b) with false
              | replace (a =? b) with false by (symmetry; apply N.eqb_neq; congruence) ]
    end; rewrite ?andb_true_r, ?orb_false_r, ?andb_false_r, ?orb_true_r; cbn; rewrite ?andb_true_r, ?orb_false_r, ?andb_false_r, ?orb_true_r; try reflexivity.
Qed.

Lemma prepare_exact C cfg s s' st : prepare C cfg s = Ret s' st ->
  prepared cfg (tio s) (tio s') /\
  (forall n, disp s' n = if handled cfg n then Ours else disp s n) /\
  report s' = report_signals cfg.
Proof.
  intros H. apply prepare_ret in H as (_ & H1 & H2 & H3 & _). rewrite H1. split; [apply raw_prepared|auto].
Qed.

(** ** Failures *)
Lemma prepare_early C cfg s e l : (os s = Some e :: l \/ exists l', os s = None :: Some e :: l') ->
  ends (fun s' => tio s' = tio s /\ disp s' = disp s /\ resume_cfg s' = resume_cfg s /\ report s' = report s)
       (fun _ _ => False) (prepare C cfg s).
Proof.
  intros H. unfold prepare. apply guard_ends; auto. unfold prepare_with_lock, tcgetattr, tcsetattr, os_call.
  destruct H as [->|(l' & ->)]; cbn; auto.
Qed.

Lemma prepare_late C cfg s s' e : settings_set (os s) -> prepare C cfg s = Fail s' e ->
  tio s' = raw_tio cfg (tio s) /\ resume_cfg s' = resume_cfg s /\ report s' = report s.
Proof.
  intros Hs.
  set (P := fun s' : sys => tio s' = raw_tio cfg (tio s) /\ resume_cfg s' = resume_cfg s /\ report s' = report s).
  assert (H : ends P (fun _ _ => True) (prepare C cfg s)).
  { unfold prepare. apply guard_ends; [intros w s1 H; exact H|auto|].
    unfold prepare_with_lock.
    assert (E1 : exists l, tcgetattr s = Ret (with_os l s) (tio s) /\ match l with Some _ :: _ => False | _ => True end).
    { unfold tcgetattr, os_call. destruct (os s) as [|[x|] l] eqn:E; cbn in Hs.
      - exists []. destruct s. cbn in E. subst. auto.
      - contradiction.
      - exists l. split; [reflexivity|]. destruct l as [|[]]; auto. }
    destruct E1 as (l & -> & Hl). cbn [obind].
    assert (E2 : forall t s1, exists l2, match os s1 with Some _ :: _ => False | _ => True end -> tcsetattr t s1 = Ret (with_tio t (with_os l2 s1)) tt).
    { intros t s1. unfold tcsetattr, os_call. destruct (os s1) as [|[x|] l2] eqn:E.
      - exists []. intros _. destruct s1. cbn in E. subst. reflexivity.
      - exists []. intros [].
      - exists l2. reflexivity. }
    destruct (E2 (raw_tio cfg (tio s)) (with_os l s)) as (l2 & E3). rewrite (E3 Hl). cbn [obind].
    set (s1 := with_tio _ _).
    assert (H1 : P s1) by (unfold P; auto). clearbody s1.
    assert (Hi : forall b n s', P s' -> ends P (fun s' _ => P s') (install b n s')).
    { intros b n s2 H2. unfold install. destruct b; [|exact H2]. eapply ends_bind with (Q := fun s' _ => P s').
      - unfold sigaction. apply os_call_ends; intros; exact H2.
      - intros s3 a3 H3. exact H3. }
    eapply ends_bind with (Q := fun s' _ => P s').
    { destruct (cfg_mouse cfg); [apply on_wr_ends; intros; exact H1|exact H1]. }
    intros s2 a2 H2. eapply ends_bind with (Q := fun s' _ => P s').
    { destruct (cfg_keypad cfg); [apply on_wr_ends; intros; exact H2|exact H2]. }
    intros s3 a3 H3. eapply ends_bind with (Q := fun s' _ => P s').
    { apply on_wr_ends; intros; exact H3. }
    intros s4 a4 H4. eapply ends_bind; [apply Hi, H4|].
    intros s5 a5 H5. eapply ends_bind; [apply Hi, H5|].
    intros s6 a6 H6. eapply ends_bind; [apply Hi, H6|].
    intros s7 a7 H7. eapply ends_bind; [apply Hi, H7|].
    intros s8 a8 H8. eapply ends_bind; [apply Hi, H8|].
    intros; exact I. }
  intros E. rewrite E in H. exact H.
Qed.

(** ** What [restore] sends *)
From Verif Require Import M_Utf8 M_Attr M_Buf S_Tty S_Writer P_Writer.

Definition sends (w : wst) (x : bytes) (w' : wst) : Prop :=
  whole_writes (script w') /\ stream w' = stream w ++ x.

Lemma sends_bytes C b w w' u : whole_writes (script w) -> write_bytes C b w = Ret w' u -> sends w b w'.
Proof. intros Hw E. pose proof (write_bytes_whole C b w Hw) as H. rewrite E in H. split; apply H. Qed.

Lemma sends_flush w w' u : whole_writes (script w) -> flush w = Ret w' u -> sends w [] w'.
Proof.
  intros Hw E. pose proof (flush_whole w Hw) as H. rewrite E in H. destruct H as (H1 & _ & _ & H2 & H3).
  split; [exact H1|]. unfold stream. rewrite H2, H3, !app_nil_r. reflexivity.
Qed.

Lemma sends_drop w w' u : whole_writes (script w) -> guard_drop w = Ret w' u -> sends w [] w'.
Proof.
  intros Hw E. unfold guard_drop in E. pose proof (flush_whole w Hw) as H. destruct (flush w) as [a b|a b| |]; try discriminate;
    injection E as <- <-; destruct H as (H1 & _ & _ & H2 & H3); (split; [exact H1|]); unfold stream; rewrite H2, H3, ?app_nil_r; reflexivity.
Qed.

Lemma sends_opt C c ps w w' u : whole_writes (script w) -> expand_opt C c ps w = Ret w' u ->
  sends w (match info C c with Some e => fst (fst (e (wctx w) ps)) | None => [] end) w'.
Proof.
  intros Hw. unfold expand_opt. destruct (info C c) as [e|].
  - unfold expand. destruct (e (wctx w) ps) as [[bs k] []]; [|discriminate]. intros [= <- <-].
    split; [exact Hw|]. unfold stream. cbn. now rewrite app_assoc.
  - intros [= <- <-]. split; [exact Hw|]. now rewrite app_nil_r.
Qed.

Lemma sends_trans a x b y c : sends a x b -> sends b y c -> sends a (x ++ y) c.
Proof. intros [A1 A2] [B1 B2]. split; [exact B1|]. now rewrite B2, A2, app_assoc. Qed.

Definition local_out (C : tcfg) (k : N) (b : bool) : bytes :=
  if b then match info C KeypadLocal with Some e => fst (fst (e k [])) | None => [] end else [].

Lemma restore_output C st s s' u : whole_writes (script (wr s)) -> restore C st s = Ret s' u ->
  exists kp, (exists k, kp = local_out C k (restore_keypad st)) /\
    stream (wr s') = stream (wr s) ++ (if restore_mouse st then XTERM_DISABLE_MOUSE ++ XTERM_DISABLE_MOUSE_MOTION else []) ++ kp.
Proof.
  intros Hw E. unfold restore, with_guard in E.
  destruct (restore_with_lock C st s) as [s1 u1|s1 e1| |] eqn:E1; try discriminate.
  2:{ destruct (on_wr guard_drop s1); discriminate. }
  destruct (on_wr guard_drop s1) as [s2 u2| | |] eqn:E2; try discriminate. injection E as <- <-.
  apply on_wr_ret in E2 as (w2 & -> & E2).
  unfold restore_with_lock in E1.
  set (s0 := with_resume (prev_resume st) s) in *.
  assert (Hw0 : whole_writes (script (wr s0))) by exact Hw.
  match type of E1 with obind ?x _ = _ => assert (H3 : forall a b, x = Ret a b -> exists w, a = with_wr w s0 /\
     sends (wr s) (if restore_mouse st then XTERM_DISABLE_MOUSE ++ XTERM_DISABLE_MOUSE_MOTION else []) w) end.
  { destruct (restore_mouse st); intros a b H.
    - apply on_wr_ret in H as (w & -> & H). exists w. split; [reflexivity|]. unfold disable_mouse in H.
      destruct (write_bytes C XTERM_DISABLE_MOUSE (wr s0)) as [wa ua| | |] eqn:Ea; try discriminate. cbn [obind] in H.
      apply sends_bytes in Ea; [|exact Hw0]. apply sends_bytes in H; [|apply Ea]. eapply sends_trans; eauto.
    - injection H as <- <-. exists (wr s). split; [reflexivity|]. split; [exact Hw|]. now rewrite app_nil_r. }
  match type of E1 with obind ?x _ = _ => destruct x as [s3 mo| | |]; cbn [obind] in E1; try discriminate end.
  destruct (H3 _ _ eq_refl) as (w3 & -> & S3). clear H3.
  match type of E1 with obind ?x _ = _ => assert (H3 : forall a b, x = Ret a b -> exists w kp, a = with_wr w s0 /\
     (exists k, kp = local_out C k (restore_keypad st)) /\ sends w3 kp w) end.
  { destruct (restore_keypad st); intros a b H.
    - apply on_wr_ret in H as (w & -> & H). unfold disable_keypad in H. apply sends_opt in H; [|apply S3].
      exists w. eexists. split; [reflexivity|]. split; [exists (wctx w3); reflexivity|exact H].
    - injection H as <- <-. exists w3, []. split; [reflexivity|]. split; [exists 0%N; reflexivity|]. split; [apply S3|now rewrite app_nil_r]. }
  match type of E1 with obind ?x _ = _ => destruct x as [s4 kp| | |]; cbn [obind] in E1; try discriminate end.
  destruct (H3 _ _ eq_refl) as (w4 & kpb & -> & Hkp & S4). clear H3.
  destruct (on_wr flush _) as [s5 u5| | |] eqn:E5; cbn [obind] in E1; try discriminate.
  apply on_wr_ret in E5 as (w5 & -> & E5). apply sends_flush in E5; [|apply S4].
  destruct (tcsetattr _ _) as [s6 u6| | |] eqn:E6; cbn [obind] in E1; try discriminate.
  apply tcsetattr_ret in E6 as (l6 & ->).
  assert (Hput : forall n o s s' u, put_back n o s = Ret s' u -> wr s' = wr s).
  { intros n o a b c H. apply put_back_ret in H as (l & ->). destruct o; reflexivity. }
  destruct (put_back SIGCONT _ _) as [s7 u7| | |] eqn:E7; cbn [obind] in E1; try discriminate. apply Hput in E7.
  destruct (put_back SIGINT _ _) as [s8 u8| | |] eqn:E8; cbn [obind] in E1; try discriminate. apply Hput in E8.
  destruct (put_back SIGTSTP _ _) as [s9 u9| | |] eqn:E9; cbn [obind] in E1; try discriminate. apply Hput in E9.
  destruct (put_back SIGQUIT _ _) as [s10 u10| | |] eqn:E10; cbn [obind] in E1; try discriminate. apply Hput in E10.
  apply Hput in E1.
  assert (Ew : wr s1 = w5) by (rewrite E1, E10, E9, E8, E7; reflexivity).
  rewrite Ew in E2. apply sends_drop in E2; [|apply E5].
  pose proof (sends_trans _ _ _ _ _ S3 (sends_trans _ _ _ _ _ S4 (sends_trans _ _ _ _ _ E5 E2))) as [_ H].
  rewrite !app_nil_r in H. exists kpb. split; [exact Hkp|exact H].
Qed.

Lemma prepare_flags C cfg s s' st : prepare C cfg s = Ret s' st ->
  restore_mouse st = cfg_mouse cfg && xterm C /\ restore_keypad st = cfg_keypad cfg && has C KeypadXmit.
Proof.
  unfold prepare, with_guard. destruct (prepare_with_lock C cfg s) as [s1 a|s1 a| |] eqn:E; try discriminate.
  2:{ destruct (on_wr guard_drop s1); discriminate. }
  destruct (on_wr guard_drop s1) as [s2 u| | |]; try discriminate. intros [= <- <-]. revert E. clear s2.
  unfold prepare_with_lock.
  destruct (tcgetattr s) as [sa ta| | |]; cbn [obind]; try discriminate.
  destruct (tcsetattr _ sa) as [sb tb| | |]; cbn [obind]; try discriminate.
  match goal with |- obind ?x _ = _ -> _ => assert (Hm : forall a b, x = Ret a b -> b = cfg_mouse cfg && xterm C) end.
  { destruct (cfg_mouse cfg); intros x b H; [|injection H as <- <-; reflexivity].
    apply on_wr_ret in H as (w & -> & H). unfold enable_mouse in H. destruct (xterm C); [|injection H as <- <-; reflexivity].
    destruct (write_bytes C XTERM_ENABLE_MOUSE (wr sb)); try discriminate. cbn [obind] in H.
    destruct (when _ _ _); try discriminate. injection H as <- <-. reflexivity. }
  match goal with |- obind ?x _ = _ -> _ => destruct x as [sc mo| | |]; cbn [obind]; try discriminate end.
  specialize (Hm _ _ eq_refl).
  match goal with |- obind ?x _ = _ -> _ => assert (Hk : forall a b, x = Ret a b -> b = cfg_keypad cfg && has C KeypadXmit) end.
  { destruct (cfg_keypad cfg); intros x b H; [|injection H as <- <-; reflexivity].
    apply on_wr_ret in H as (w & -> & H). unfold enable_keypad, has in *. destruct (info C KeypadXmit); [|injection H as <- <-; reflexivity].
    destruct (expand _ _ _ _); try discriminate. injection H as <- <-. reflexivity. }
  match goal with |- obind ?x _ = _ -> _ => destruct x as [sd kp| | |]; cbn [obind]; try discriminate end.
  specialize (Hk _ _ eq_refl).
  destruct (on_wr flush sd) as [s5 u5| | |]; cbn [obind]; try discriminate.
  destruct (install true SIGCONT _) as [s6 a6| | |]; cbn [obind]; try discriminate.
  destruct (install true SIGWINCH _) as [s7 a7| | |]; cbn [obind]; try discriminate.
  destruct (install _ SIGINT _) as [s8 a8| | |]; cbn [obind]; try discriminate.
  destruct (install _ SIGTSTP _) as [s9 a9| | |]; cbn [obind]; try discriminate.
  destruct (install _ SIGQUIT _) as [s10 a10| | |]; cbn [obind]; try discriminate.
  intros [= <- <-]. split; [exact Hm|exact Hk].
Qed.

(** C49 *)
Lemma mouse_goes_off C cfg s0 s1 st s2 s3 u : xterm C = true -> cfg_mouse cfg = true -> cfg_keypad cfg = false ->
  prepare C cfg s0 = Ret s1 st -> whole_writes (script (wr s2)) -> restore C st s2 = Ret s3 u ->
  stream (wr s3) = stream (wr s2) ++ XTERM_DISABLE_MOUSE ++ XTERM_DISABLE_MOUSE_MOTION /\
  resume_cfg s3 = resume_cfg s0.
Proof.
  intros Hx Hm Hk Hp Hw Hr. destruct (prepare_flags _ _ _ _ _ Hp) as [F1 F2].
  destruct (restore_output _ _ _ _ _ Hw Hr) as (kp & K1 & K2).
  rewrite F1, Hm, Hx in K2. rewrite F2, Hk in K1. destruct K1 as (k & ->). cbn [local_out andb] in K2. cbn [andb] in K2.
  rewrite app_nil_r in K2. split; [exact K2|].
  apply prepare_ret in Hp. apply restore_ret in Hr. destruct Hr as (_ & _ & -> & _). apply Hp.
Qed.

Lemma restore_resets C cfg s0 s1 st s2 s3 u : prepare C cfg s0 = Ret s1 st -> whole_writes (script (wr s2)) ->
  restore C st s2 = Ret s3 u ->
  exists k, stream (wr s3) = stream (wr s2) ++
    (if cfg_mouse cfg && xterm C then XTERM_DISABLE_MOUSE ++ XTERM_DISABLE_MOUSE_MOTION else []) ++
    (if cfg_keypad cfg && has C KeypadXmit then match info C KeypadLocal with Some e => fst (fst (e k [])) | None => [] end else []).
Proof.
  intros Hp Hw Hr. destruct (prepare_flags _ _ _ _ _ Hp) as [F1 F2].
  destruct (restore_output _ _ _ _ _ Hw Hr) as (kp & (k & ->) & K2). exists k. rewrite K2, F1, F2. reflexivity.
Qed.

Lemma report_stays C cfg s0 s1 st s2 u : prepare C cfg s0 = Ret s1 st -> restore C st s1 = Ret s2 u ->
  report s2 = report_signals cfg.
Proof. intros Hp Hr. apply prepare_ret in Hp. apply restore_ret in Hr. destruct Hr as (_ & _ & _ & -> & _). apply Hp. Qed.
