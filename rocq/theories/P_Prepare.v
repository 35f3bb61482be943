(** Proofs about [prepare] and [restore]. *)
From Verif Require Import Base M_Geom M_Signal M_Seq M_Input M_Writer M_Prepare M_Reader S_Prepare.
Local Open Scope N_scope.

(** ** Single calls *)
Definition upd (d : N -> action) (n : N) (a : action) : N -> action := fun k => if k =? n then a else d k.

Lemma os_call_ret {A} (ok : sys -> rres A) s s' a : os_call ok s = Ret s' a -> exists l, ok (with_os l s) = Ret s' a.
Proof.
  unfold os_call. destruct (os s) as [|[e|] l] eqn:E; intros H; [|discriminate|eauto].
  exists []. destruct s. cbn in E. subst. exact H.
Qed.

Lemma tcgetattr_ret s s' t : tcgetattr s = Ret s' t -> exists l, s' = with_os l s /\ t = tio s.
Proof. intros H. apply os_call_ret in H as (l & H). injection H as <- <-. exists l. auto. Qed.

Lemma tcsetattr_ret t s s' u : tcsetattr t s = Ret s' u -> exists l, s' = with_tio t (with_os l s).
Proof. intros H. apply os_call_ret in H as (l & H). injection H as <- <-. exists l. auto. Qed.

Lemma sigaction_ret n a s s' b : sigaction n a s = Ret s' b ->
  exists l, s' = with_disp (upd (disp s) n a) (with_os l s) /\ b = disp s n.
Proof. intros H. apply os_call_ret in H as (l & H). injection H as <- <-. exists l. auto. Qed.

Lemma on_wr_ret {A} (f : wst -> out wst werr A) s s' a : on_wr f s = Ret s' a -> exists w, s' = with_wr w s /\ f (wr s) = Ret w a.
Proof. unfold on_wr. destruct (f (wr s)) as [w b|w b| |] eqn:E; try discriminate. intros [= <- <-]. eauto. Qed.

(** ** What steps leave alone *)
Definition quiet (s s' : sys) : Prop :=
  inbuf s' = inbuf s /\ incap s' = incap s /\ last_sig s' = last_sig s /\ queue s' = queue s /\
  failing s' = failing s /\ win s' = win s /\ time s' = time s.

Lemma quiet_refl s : quiet s s. Proof. unfold quiet. auto 10. Qed.
Lemma quiet_trans a b c : quiet a b -> quiet b c -> quiet a c.
Proof. intros (A1 & A2 & A3 & A4 & A5 & A6 & A7) (B1 & B2 & B3 & B4 & B5 & B6 & B7). unfold quiet. repeat split; congruence. Qed.

(** [cfg] may change: settings, and dispositions of the signals it handles to ours. *)
Definition touched (cfg : config) (s s' : sys) : Prop :=
  forall n, if handled cfg n then disp s' n = disp s n \/ disp s' n = Ours else disp s' n = disp s n.

Lemma ends_bind {A B} (P : sys -> Prop) (Q : sys -> A -> Prop) (R : sys -> B -> Prop) r (k : sys -> A -> rres B) :
  ends P Q r -> (forall s a, Q s a -> ends P R (k s a)) -> ends P R (obind r k).
Proof. destruct r; cbn; auto. Qed.

Lemma ends_weak {A} (P P' : sys -> Prop) (Q Q' : sys -> A -> Prop) r :
  ends P Q r -> (forall s, P s -> P' s) -> (forall s a, Q s a -> Q' s a) -> ends P' Q' r.
Proof. destruct r; cbn; auto. Qed.

Lemma os_call_ends {A} (P : sys -> Prop) (Q : sys -> A -> Prop) (ok : sys -> rres A) s :
  (forall l, P (with_os l s)) -> (forall l, ends P Q (ok (with_os l s))) -> ends P Q (os_call ok s).
Proof.
  intros HP HQ. unfold os_call. destruct (os s) as [|[e|] l] eqn:E; [|apply HP|apply HQ].
  specialize (HQ []). destruct s. cbn in E. subst. exact HQ.
Qed.

Lemma on_wr_ends {A} (P : sys -> Prop) (Q : sys -> A -> Prop) (f : wst -> out wst werr A) s :
  (forall w, P (with_wr w s)) -> (forall w a, Q (with_wr w s) a) -> ends P Q (on_wr f s).
Proof. intros HP HQ. unfold on_wr. destruct (f (wr s)); cbn; auto. Qed.

Lemma guard_ends {A} (P : sys -> Prop) (Q : sys -> A -> Prop) (f : sys -> rres A) s :
  (forall w s, P s -> P (with_wr w s)) -> (forall w s a, Q s a -> Q (with_wr w s) a) ->
  ends P Q (f s) -> ends P Q (with_guard f s).
Proof.
  intros HP HQ. unfold with_guard. destruct (f s) as [s1 a|s1 e| |]; cbn [ends]; auto; intros H.
  - unfold on_wr. destruct (guard_drop (wr s1)) as [w u|w u| |] eqn:E; cbn; auto.
    unfold guard_drop in E. destruct (flush (wr s1)); discriminate.
  - unfold on_wr. destruct (guard_drop (wr s1)) as [w u|w u| |] eqn:E; cbn; auto.
Qed.

(** ** [prepare] *)
Definition prepared_from (cfg : config) (s s' : sys) (st : pstate) : Prop :=
  quiet s s' /\ tio s' = raw_tio cfg (tio s) /\
  (forall n, disp s' n = if handled cfg n then Ours else disp s n) /\
  report s' = report_signals cfg /\ resume_cfg s' = Some cfg /\
  old_tio st = tio s /\ old_cont st = Some (disp s SIGCONT) /\ old_winch st = Some (disp s SIGWINCH) /\
  old_int st = (if ss_contains (report_signals cfg) Interrupt then Some (disp s SIGINT) else None) /\
  old_tstp st = (if ss_contains (report_signals cfg) Suspend then Some (disp s SIGTSTP) else None) /\
  old_quit st = (if ss_contains (report_signals cfg) Quit then Some (disp s SIGQUIT) else None) /\
  prev_resume st = resume_cfg s.

Lemma install_ret b n s s' o : install b n s = Ret s' o ->
  exists l, s' = with_os l (if b then with_disp (upd (disp s) n Ours) s else s) /\ o = if b then Some (disp s n) else None.
Proof.
  unfold install. destruct b.
  - destruct (sigaction n Ours s) as [s1 a|s1 e| |] eqn:E; cbn [obind]; try discriminate.
    apply sigaction_ret in E as (l & -> & ->). intros [= <- <-]. exists l. auto.
  - intros [= <- <-]. exists (os s). split; [destruct s; reflexivity|reflexivity].
Qed.

Lemma prepare_lock_ret C cfg s s' st : prepare_with_lock C cfg s = Ret s' st -> prepared_from cfg s s' st.
Proof.
  unfold prepare_with_lock.
  destruct (tcgetattr s) as [s1 t| | |] eqn:E1; cbn [obind]; try discriminate.
  apply tcgetattr_ret in E1 as (l1 & -> & ->).
  destruct (tcsetattr _ _) as [s2 t| | |] eqn:E1; cbn [obind]; try discriminate.
  apply tcsetattr_ret in E1 as (l2 & ->).
  match goal with |- obind ?x _ = _ -> _ => assert (H3 : forall a b, x = Ret a b -> exists w, a = with_wr w (with_tio (raw_tio cfg (tio s)) (with_os l2 (with_os l1 s)))) end.
  { destruct (cfg_mouse cfg); intros a b H.
    - apply on_wr_ret in H as (w & -> & _). eauto.
    - injection H as <- <-. exists (wr s). reflexivity. }
  match goal with |- obind ?x _ = _ -> _ => destruct x as [s3 mo| | |]; cbn [obind]; try discriminate end.
  destruct (H3 _ _ eq_refl) as (w3 & ->). clear H3.
  match goal with |- obind ?x _ = _ -> _ => assert (H3 : forall a b, x = Ret a b -> exists w, a = with_wr w (with_tio (raw_tio cfg (tio s)) (with_os l2 (with_os l1 s)))) end.
  { destruct (cfg_keypad cfg); intros a b H.
    - apply on_wr_ret in H as (w & -> & _). exists w. reflexivity.
    - injection H as <- <-. exists w3. reflexivity. }
  match goal with |- obind ?x _ = _ -> _ => destruct x as [s4 kp| | |]; cbn [obind]; try discriminate end.
  destruct (H3 _ _ eq_refl) as (w4 & ->). clear H3.
  destruct (on_wr flush _) as [s5 u5| | |] eqn:E5; cbn [obind]; try discriminate.
  apply on_wr_ret in E5 as (w5 & -> & _).
  destruct (install true SIGCONT _) as [s6 a6| | |] eqn:E; cbn [obind]; try discriminate.
  apply install_ret in E as (l6 & -> & ->).
  destruct (install true SIGWINCH _) as [s7 a7| | |] eqn:E; cbn [obind]; try discriminate.
  apply install_ret in E as (l7 & -> & ->).
  destruct (install _ SIGINT _) as [s8 a8| | |] eqn:E; cbn [obind]; try discriminate.
  apply install_ret in E as (l8 & -> & ->).
  destruct (install _ SIGTSTP _) as [s9 a9| | |] eqn:E; cbn [obind]; try discriminate.
  apply install_ret in E as (l9 & -> & ->).
  destruct (install _ SIGQUIT _) as [s10 a10| | |] eqn:E; cbn [obind]; try discriminate.
  apply install_ret in E as (l10 & -> & ->).
  intros [= <- <-]. unfold prepared_from, quiet, handled.
  destruct (ss_contains (report_signals cfg) Interrupt), (ss_contains (report_signals cfg) Suspend),
    (ss_contains (report_signals cfg) Quit); repeat split; try reflexivity;
    intros n; cbn; unfold upd; cbn;
    destruct (N.eqb_spec n SIGQUIT), (N.eqb_spec n SIGTSTP), (N.eqb_spec n SIGINT), (N.eqb_spec n SIGWINCH), (N.eqb_spec n SIGCONT);
      subst; cbn; try discriminate; reflexivity.
Qed.

Lemma prepare_ret C cfg s s' st : prepare C cfg s = Ret s' st -> prepared_from cfg s s' st.
Proof.
  unfold prepare, with_guard. destruct (prepare_with_lock C cfg s) as [s1 a| | |] eqn:E.
  - destruct (on_wr guard_drop s1) as [s2 u| | |] eqn:E2; cbn [obind]; try discriminate.
    intros [= <- <-]. apply on_wr_ret in E2 as (w & -> & _).
    apply prepare_lock_ret in E. exact E.
  - destruct (on_wr guard_drop s0) as [s2 u| | |]; discriminate.
  - discriminate.
  - discriminate.
Qed.

(** ** [restore] *)
Lemma put_back_ret n o s s' u : put_back n o s = Ret s' u ->
  exists l, s' = with_os l (match o with Some a => with_disp (upd (disp s) n a) s | None => s end).
Proof.
  unfold put_back. destruct o as [a|].
  - destruct (sigaction n a s) as [s1 b|s1 e| |] eqn:E; cbn [obind]; try discriminate.
    apply sigaction_ret in E as (l & -> & ->). intros [= <- <-]. exists l. auto.
  - intros [= <- <-]. exists (os s). destruct s; reflexivity.
Qed.

Definition back (o : option action) (a : action) : action := match o with Some b => b | None => a end.

Definition restored_to (st : pstate) (s s' : sys) : Prop :=
  quiet s s' /\ tio s' = old_tio st /\ resume_cfg s' = prev_resume st /\ report s' = report s /\
  forall n, disp s' n = if n =? SIGCONT then back (old_cont st) (disp s n)
                        else if n =? SIGINT then back (old_int st) (disp s n)
                        else if n =? SIGTSTP then back (old_tstp st) (disp s n)
                        else if n =? SIGQUIT then back (old_quit st) (disp s n)
                        else if n =? SIGWINCH then back (old_winch st) (disp s n)
                        else disp s n.

Lemma restore_lock_ret C st s s' u : restore_with_lock C st s = Ret s' u -> restored_to st s s'.
Proof.
  unfold restore_with_lock.
  match goal with |- obind ?x _ = _ -> _ => assert (H3 : forall a b, x = Ret a b -> exists w, a = with_wr w (with_resume (prev_resume st) s)) end.
  { destruct (restore_mouse st); intros a b H.
    - apply on_wr_ret in H as (w & -> & _). eauto.
    - injection H as <- <-. exists (wr s). reflexivity. }
  match goal with |- obind ?x _ = _ -> _ => destruct x as [s3 mo| | |]; cbn [obind]; try discriminate end.
  destruct (H3 _ _ eq_refl) as (w3 & ->). clear H3.
  match goal with |- obind ?x _ = _ -> _ => assert (H3 : forall a b, x = Ret a b -> exists w, a = with_wr w (with_resume (prev_resume st) s)) end.
  { destruct (restore_keypad st); intros a b H.
    - apply on_wr_ret in H as (w & -> & _). exists w. reflexivity.
    - injection H as <- <-. exists w3. reflexivity. }
  match goal with |- obind ?x _ = _ -> _ => destruct x as [s4 kp| | |]; cbn [obind]; try discriminate end.
  destruct (H3 _ _ eq_refl) as (w4 & ->). clear H3.
  destruct (on_wr flush _) as [s5 u5| | |] eqn:E5; cbn [obind]; try discriminate.
  apply on_wr_ret in E5 as (w5 & -> & _).
  destruct (tcsetattr _ _) as [s6 u6| | |] eqn:E; cbn [obind]; try discriminate.
  apply tcsetattr_ret in E as (l6 & ->).
  destruct (put_back SIGCONT _ _) as [s7 u7| | |] eqn:E; cbn [obind]; try discriminate.
  apply put_back_ret in E as (l7 & ->).
  destruct (put_back SIGINT _ _) as [s8 u8| | |] eqn:E; cbn [obind]; try discriminate.
  apply put_back_ret in E as (l8 & ->).
  destruct (put_back SIGTSTP _ _) as [s9 u9| | |] eqn:E; cbn [obind]; try discriminate.
  apply put_back_ret in E as (l9 & ->).
  destruct (put_back SIGQUIT _ _) as [s10 u10| | |] eqn:E; cbn [obind]; try discriminate.
  apply put_back_ret in E as (l10 & ->).
  intros E. apply put_back_ret in E as (l11 & ->).
  unfold restored_to, quiet, back.
  destruct (old_cont st), (old_int st), (old_tstp st), (old_quit st), (old_winch st);
    repeat split; try reflexivity;
    intros n; cbn; unfold upd; cbn;
    destruct (N.eqb_spec n SIGQUIT), (N.eqb_spec n SIGTSTP), (N.eqb_spec n SIGINT), (N.eqb_spec n SIGWINCH), (N.eqb_spec n SIGCONT);
      subst; cbn; try discriminate; try reflexivity.
Qed.

Lemma restore_ret C st s s' u : restore C st s = Ret s' u -> restored_to st s s'.
Proof.
  unfold restore, with_guard. destruct (restore_with_lock C st s) as [s1 a| | |] eqn:E.
  - destruct (on_wr guard_drop s1) as [s2 u2| | |] eqn:E2; cbn [obind]; try discriminate.
    intros [= <- <-]. apply on_wr_ret in E2 as (w & -> & _).
    apply restore_lock_ret in E. exact E.
  - destruct (on_wr guard_drop s0) as [s2 u2| | |]; discriminate.
  - discriminate.
  - discriminate.
Qed.

(** ** Failing [prepare] *)
Definition near (cfg : config) (s s' : sys) : Prop :=
  quiet s s' /\ touched cfg s s' /\ resume_cfg s' = resume_cfg s /\ report s' = report s.

Lemma near_refl cfg s : near cfg s s.
Proof. split; [apply quiet_refl|]. split; [|auto]. intros n. destruct (handled cfg n); auto. Qed.

Lemma touched_trans cfg a b c : touched cfg a b -> touched cfg b c -> touched cfg a c.
Proof.
  intros H1 H2 n. specialize (H1 n). specialize (H2 n). destruct (handled cfg n); [|congruence].
  destruct H2 as [->|H2]; auto.
Qed.

Lemma near_os cfg s s' l : near cfg s s' -> near cfg s (with_os l s').
Proof. exact (fun H => H). Qed.
Lemma near_wr cfg s s' w : near cfg s s' -> near cfg s (with_wr w s').
Proof. exact (fun H => H). Qed.
Lemma near_tio cfg s s' t : near cfg s s' -> near cfg s (with_tio t s').
Proof. exact (fun H => H). Qed.

Lemma install_near cfg s b n s1 : near cfg s s1 -> (b = true -> handled cfg n = true) ->
  ends (near cfg s) (fun s' _ => near cfg s s') (install b n s1).
Proof.
  intros H Hb. unfold install. destruct b; [|exact H]. eapply ends_bind with (Q := fun s' _ => near cfg s s').
  - unfold sigaction. apply os_call_ends; intros l; [now apply near_os|].
    cbn [ends]. destruct H as (H1 & H2 & H3 & H4). split; [exact H1|]. split; [|split; [exact H3|exact H4]].
    intros k. cbn. specialize (H2 k). destruct (N.eqb_spec k n) as [->|]; [|exact H2].
    rewrite (Hb eq_refl) in *. auto.
  - intros s2 a H2. exact H2.
Qed.

Lemma prepare_lock_ends C cfg s :
  ends (near cfg s) (fun s' st => prepared_from cfg s s' st) (prepare_with_lock C cfg s).
Proof.
  assert (Hr : forall s' st, prepare_with_lock C cfg s = Ret s' st -> prepared_from cfg s s' st) by apply prepare_lock_ret.
  assert (Hf : ends (near cfg s) (fun _ _ => True) (prepare_with_lock C cfg s)).
  { clear Hr. unfold prepare_with_lock. eapply ends_bind with (Q := fun s' _ => near cfg s s').
    { unfold tcgetattr. apply os_call_ends; intros l; [|cbn [ends]]; apply near_os, near_refl. }
    intros s1 t H1. eapply ends_bind with (Q := fun s' _ => near cfg s s').
    { unfold tcsetattr. apply os_call_ends; intros l; [apply near_os, H1|cbn [ends]]; apply near_tio, near_os, H1. }
    intros s20 a20 H20. eapply ends_bind with (Q := fun s' _ => near cfg s s').
    { destruct (cfg_mouse cfg); [|exact H20]. apply on_wr_ends; intros; now apply near_wr. }
    intros s21 a21 H21. eapply ends_bind with (Q := fun s' _ => near cfg s s').
    { destruct (cfg_keypad cfg); [|exact H21]. apply on_wr_ends; intros; now apply near_wr. }
    intros s22 a22 H22. eapply ends_bind with (Q := fun s' _ => near cfg s s').
    { apply on_wr_ends; intros; now apply near_wr. }
    intros s23 a23 H23. eapply ends_bind; [apply install_near; [exact H23|reflexivity]|].
    intros s24 a24 H24. eapply ends_bind; [apply install_near; [exact H24|reflexivity]|].
    intros s25 a25 H25. eapply ends_bind; [apply install_near; [exact H25|]|].
    { intros E. unfold handled. rewrite E. reflexivity. }
    intros s26 a26 H26. eapply ends_bind; [apply install_near; [exact H26|]|].
    { intros E. unfold handled. rewrite E. reflexivity. }
    intros s27 a27 H27. eapply ends_bind; [apply install_near; [exact H27|]|].
    { intros E. unfold handled. rewrite E. reflexivity. }
    intros s28 a28 H28. exact I. }
  destruct (prepare_with_lock C cfg s); cbn in *; auto.
Qed.

Lemma prepare_ends C cfg s :
  ends (near cfg s) (fun s' st => prepared_from cfg s s' st) (prepare C cfg s).
Proof.
  unfold prepare. apply guard_ends; [intros; now apply near_wr|intros w s1 a H; exact H|apply prepare_lock_ends].
Qed.

(** ** [resume] *)
Definition resumed (s s' : sys) : Prop :=
  quiet s s' /\ resume_cfg s' = resume_cfg s /\
  match resume_cfg s with
  | None => tio s' = tio s /\ disp s' = disp s /\ report s' = report s
  | Some cfg => touched cfg s s'
  end.

Lemma prepared_touched cfg s s' st : prepared_from cfg s s' st -> touched cfg s s'.
Proof. intros (_ & _ & H & _) n. rewrite H. destruct (handled cfg n); auto. Qed.

Lemma resume_ends C s : ends (resumed s) (fun s' _ => resumed s s') (resume C s).
Proof.
  unfold resume. destruct (resume_cfg s) as [cfg|] eqn:E.
  - pose proof (prepare_ends C cfg s) as H. unfold resumed. rewrite E.
    destruct (prepare C cfg s) as [s1 st|s1 e| |]; cbn in *; auto.
    + split; [apply H|]. split; [apply H|]. eapply prepared_touched, H.
    + destruct H as (H1 & H2 & H3 & H4). rewrite H3, E. auto.
  - cbn. unfold resumed. rewrite E. split; [apply quiet_refl|auto].
Qed.
