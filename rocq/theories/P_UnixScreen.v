(** Proofs about the Unix screen as a whole: giving the terminal back. *)
From Verif Require Import Base M_Utf8 M_Geom M_Attr M_Buf M_Seq M_Signal M_Util M_Input S_Input M_Writer S_Tty S_Writer P_Writer P_Writer2 P_Writer3
  M_Screen M_Prepare M_Reader S_Prepare P_Prepare P_Prepare2 P_Reader M_UnixScreen S_UnixScreen.

Notation pwr := M_Prepare.wr.

(** ** Calls that succeed *)
Definition fine {A} (Q : sys -> A -> Prop) (r : rres A) : Prop :=
  match r with Ret s a => works s /\ Q s a | Blocked => True | _ => False end.

Lemma fine_bind {A B} (Q : sys -> A -> Prop) (R : sys -> B -> Prop) r (k : sys -> A -> rres B) :
  fine Q r -> (forall s a, works s -> Q s a -> fine R (k s a)) -> fine R (obind r k).
Proof. destruct r; cbn; auto. intros [H1 H2] H. auto. Qed.

Lemma fine_weak {A} (Q R : sys -> A -> Prop) r : fine Q r -> (forall s a, Q s a -> R s a) -> fine R r.
Proof. destruct r; cbn; auto. intros [H1 H2] H. auto. Qed.

Lemma os_fine {A} (Q : sys -> A -> Prop) (ok : sys -> rres A) s :
  works s -> (forall l, works (with_os l s) -> fine Q (ok (with_os l s))) -> fine Q (os_call ok s).
Proof.
  intros [H1 H2] H. unfold os_call. destruct (os s) as [|o l] eqn:E.
  - assert (Es : with_os [] s = s) by (destruct s; cbn in E; now subst).
    rewrite <- Es. apply H. split; [exact H1|constructor].
  - inversion H2 as [|? ? H3 H4]. subst o. apply H. split; [exact H1|exact H4].
Qed.

(** What a writer's method adds to the stream. *)
Definition adds (x : bytes) (w w' : wst) : Prop := stream w' = stream w ++ x.
Definition wfine {A} (Q : wst -> A -> Prop) (r : out wst werr A) : Prop :=
  match r with Ret w a => perfect (script w) /\ Q w a | Blocked => True | _ => False end.

Lemma on_wr_fine {A} (Q : wst -> A -> Prop) (f : wst -> out wst werr A) s : works s ->
  wfine Q (f (pwr s)) -> fine (fun s' a => exists w, s' = M_Prepare.with_wr w s /\ Q w a) (on_wr f s).
Proof.
  intros [H1 H2]. unfold on_wr. destruct (f (pwr s)) as [w a|w e| |]; cbn; auto.
  intros [H3 H4]. split; [split; [exact H3|exact H2]|eauto].
Qed.

Lemma flush_fine w : perfect (script w) ->
  wfine (fun w' _ => obuf w' = [] /\ adds [] w w' /\ wat w' = wat w) (flush w).
Proof.
  intros H. pose proof (flush_perfect w H) as P.
  destruct (flush w) as [w' u|w' e| |]; cbn; auto.
  destruct P as (P1 & P2 & P3 & P4). split; [exact P1|]. split; [exact P2|]. split; [|exact P4].
  unfold adds. unfold stream at 1. rewrite P2, P3, !app_nil_r. reflexivity.
Qed.

Lemma drop_fine w : perfect (script w) ->
  wfine (fun w' _ => obuf w' = [] /\ adds [] w w' /\ wat w' = wat w) (guard_drop w).
Proof.
  intros H. pose proof (flush_fine w H) as P. unfold guard_drop. destruct (flush w); cbn in *; auto. contradiction.
Qed.

Lemma bytes_fine C b w : perfect (script w) -> wfine (fun w' _ => adds b w w' /\ wat w' = wat w) (write_bytes C b w).
Proof.
  intros H. pose proof (write_bytes_whole C b w (perfect_whole _ H)) as W. unfold write_bytes in *.
  match goal with |- context [obind ?x _] => assert (P : wfine (fun _ _ => True) x) end.
  { destruct (ocap w <? length b + length (obuf w)); [|split; auto].
    pose proof (flush_fine w H) as P. destruct (flush w); cbn in *; auto. split; [apply P|exact I]. }
  match goal with |- context [obind ?x _] => destruct x as [w1 u|w1 e| |] end; cbn [obind] in *; try (exact P); try contradiction.
  destruct P as [P _]. destruct (ocap w1 <? length b).
  - pose proof (write_data_perfect b (script w1) 0 (dev w1) P) as D.
    destruct (write_data b 0 (dev w1) (script w1)) as [[[[n r] d] sc]|]; [|exact I]. destruct D as [-> D].
    cbn in *. split; [exact D|]. split; [apply W|apply W].
  - cbn in *. split; [exact P|]. split; [apply W|apply W].
Qed.

Lemma opt_fine C c w : plain_caps C -> In c leaving_caps -> perfect (script w) ->
  wfine (fun w' _ => (exists k, adds (cap_bytes C c k) w w') /\ wat w' = wat w) (expand_opt C c [] w).
Proof.
  intros Hc Hin H. unfold expand_opt, cap_bytes, adds. destruct (info C c) as [e|] eqn:Ec.
  - unfold expand. pose proof (Hc c e (wctx w) Hin Ec) as He. 
    destruct (e (wctx w) []) as [[bs k] ok] eqn:Ee. cbn in He. subst ok. cbn. split; [exact H|].
    split; [|reflexivity]. exists (wctx w). rewrite Ee. unfold stream. cbn. now rewrite app_assoc.
  - cbn. split; [exact H|]. split; [|reflexivity]. exists 0%N. now rewrite app_nil_r.
Qed.

Lemma adds_trans x y a b c : adds x a b -> adds y b c -> adds (x ++ y) a c.
Proof. unfold adds. intros -> ->. reflexivity || now rewrite app_assoc. Qed.

(** ** Restoring *)
Definition only_os (s s' : sys) : Prop := pwr s' = pwr s.

Lemma put_back_fine n a s : works s -> fine (fun s' _ => pwr s' = pwr s) (put_back n a s).
Proof.
  intros H. unfold put_back. destruct a as [a|]; [|split; [exact H|reflexivity]].
  apply fine_bind with (Q := fun s' _ => pwr s' = pwr s).
  - apply os_fine; [exact H|]. intros l Hl. split; [exact Hl|reflexivity].
  - intros s1 b H1 E1. split; [exact H1|exact E1].
Qed.

Lemma modes_fine C st s : plain_caps C -> works s ->
  fine (fun s' _ => exists w x, s' = M_Prepare.with_wr w s /\ modes_off C (restore_mouse st) (restore_keypad st) x /\ adds x (pwr s) w)
    (let! (s, _u) := if restore_mouse st then on_wr (disable_mouse C) s else Ret s tt in
     if restore_keypad st then on_wr (disable_keypad C) s else Ret s tt).
Proof.
  intros Hc H.
  set (mo := if restore_mouse st then XTERM_DISABLE_MOUSE ++ XTERM_DISABLE_MOUSE_MOTION else []).
  apply fine_bind with (Q := fun s' _ => exists w, s' = M_Prepare.with_wr w s /\ adds mo (pwr s) w).
  - unfold mo. destruct (restore_mouse st).
    + apply on_wr_fine; [exact H|]. unfold disable_mouse. pose proof (bytes_fine C XTERM_DISABLE_MOUSE (pwr s) (proj1 H)) as W.
      destruct (write_bytes C XTERM_DISABLE_MOUSE (pwr s)) as [w1 u|w1 e| |]; cbn [obind]; try exact W.
      destruct W as [W1 [W2 _]]. pose proof (bytes_fine C XTERM_DISABLE_MOUSE_MOTION w1 W1) as X.
      destruct (write_bytes C XTERM_DISABLE_MOUSE_MOTION w1) as [w2 u2|w2 e| |]; cbn in *; try exact X.
      destruct X as [X1 [X2 _]]. split; [exact X1|]. exact (adds_trans _ _ _ _ _ W2 X2).
    + split; [exact H|]. exists (pwr s). split; [destruct s; reflexivity|]. unfold adds. now rewrite app_nil_r.
  - intros s1 u H1 (w & -> & Hw). unfold modes_off. fold mo. destruct (restore_keypad st).
    + eapply fine_weak; [apply on_wr_fine; [exact H1|]; apply opt_fine; [exact Hc|cbn; auto|exact (proj1 H1)]|].
      intros s2 [] (w2 & -> & (k & Hk) & _). exists w2, (mo ++ cap_bytes C KeypadLocal k).
      split; [reflexivity|]. split; [now exists k|]. eapply adds_trans; eauto.
    + split; [exact H1|]. exists w, (mo ++ []). split; [reflexivity|]. split; [now exists 0%N|]. now rewrite app_nil_r.
Qed.

Lemma restore_fine C st s : plain_caps C -> works s ->
  fine (fun s' _ => exists x, modes_off C (restore_mouse st) (restore_keypad st) x /\ adds x (pwr s) (pwr s') /\ obuf (pwr s') = [])
       (restore C st s).
Proof.
  intros Hc H. unfold restore, with_guard.
  assert (R : fine (fun s' _ => exists x, modes_off C (restore_mouse st) (restore_keypad st) x /\ adds x (pwr s) (pwr s'))
                (restore_with_lock C st s)).
  { unfold restore_with_lock. set (s0 := with_resume (prev_resume st) s).
    assert (H0 : works s0) by exact H.
    pose proof (modes_fine C st s0 Hc H0) as M.
    match goal with |- fine _ (obind ?x _) => destruct x as [s1 u1|s1 e1| |] end; cbn [obind] in *; try exact M.
    match goal with |- fine _ (obind ?x _) => destruct x as [s2 u2|s2 e2| |] end; cbn [obind] in *; try exact M.
    destruct M as [M0 (w & x & -> & M1 & M2)].
    apply fine_bind with (Q := fun s' _ => adds x (pwr s) (pwr s')).
    { eapply fine_weak; [apply on_wr_fine; [exact M0|]; apply flush_fine; exact (proj1 M0)|].
      intros s3 [] (w3 & -> & _ & W2 & _). pose proof (adds_trans _ _ _ _ _ M2 W2) as X. rewrite app_nil_r in X. exact X. }
    intros s3 u3 H3 A3.
    apply fine_bind with (Q := fun s' _ => adds x (pwr s) (pwr s')).
    { apply os_fine; [exact H3|]. intros l Hl. split; [exact Hl|exact A3]. }
    assert (Hp : forall n a (s : sys) x0 s', works s' -> adds x0 (pwr s) (pwr s') ->
                fine (fun s' _ => adds x0 (pwr s) (pwr s')) (put_back n a s')).
    { intros n a z x0 s' Hs A. eapply fine_weak; [apply put_back_fine; exact Hs|]. intros s'' _ ->. exact A. }
    intros s4 u4 H4 A4. eapply fine_bind; [exact (Hp _ _ s x s4 H4 A4)|].
    intros s5 u5 H5 A5. eapply fine_bind; [exact (Hp _ _ s x s5 H5 A5)|].
    intros s6 u6 H6 A6. eapply fine_bind; [exact (Hp _ _ s x s6 H6 A6)|].
    intros s7 u7 H7 A7. eapply fine_bind; [exact (Hp _ _ s x s7 H7 A7)|].
    intros s8 u8 H8 A8. eapply fine_weak; [exact (Hp SIGWINCH (old_winch st) s x s8 H8 A8)|].
    intros s9 u9 A9. exists x. auto. }
  destruct (restore_with_lock C st s) as [s1 u1|s1 e1| |]; cbn [fine] in R; try contradiction; auto.
  destruct R as [R0 (x & R1 & R2)]. eapply fine_bind with (Q := fun s' _ => obuf (pwr s') = [] /\ adds x (pwr s) (pwr s')).
  - eapply fine_weak; [apply on_wr_fine; [exact R0|]; apply drop_fine; exact (proj1 R0)|].
    intros s2 [] (w2 & -> & W1 & W2 & _). split; [exact W1|].
    pose proof (adds_trans _ _ _ _ _ R2 W2) as X. rewrite app_nil_r in X. exact X.
  - intros s2 [] H2 [A2 B2]. split; [exact H2|]. exists x. auto.
Qed.

(** ** The other calls of dropping *)
Lemma locked_fine (f : wst -> wres) (Q : wst -> Prop) s : works s -> wfine (fun w _ => Q w) (f (pwr s)) ->
  fine (fun s' _ => exists w w', Q w /\ s' = M_Prepare.with_wr w' s /\ adds [] w w' /\ obuf w' = []) (locked f s).
Proof.
  intros H Hf. unfold locked, with_guard. pose proof (on_wr_fine _ f s H Hf) as F.
  destruct (on_wr f s) as [s1 u1|s1 e1| |]; cbn [fine] in F; try contradiction; auto.
  destruct F as [F0 (w & -> & F1)]. eapply fine_bind.
  - apply on_wr_fine; [exact F0|]. apply drop_fine. exact (proj1 F0).
  - intros s2 [] H2 (w2 & -> & W1 & W2 & _). split; [exact H2|]. exists w, w2. auto.
Qed.

Lemma exit_fine C w : plain_caps C -> perfect (script w) ->
  wfine (fun w' _ => exists k, adds (cap_bytes C ExitCaMode k) w w') (exit_screen C w).
Proof.
  intros Hc H. pose proof (opt_fine C ExitCaMode w Hc ltac:(cbn; auto) H) as P. unfold exit_screen. unfold expand_opt in P.
  destruct (info C ExitCaMode) as [e|] eqn:Ee.
  - destruct (expand C e [] w) as [w1 u|w1 e1| |]; cbn [obind]; try exact P.
    destruct P as [P1 [(k & P2) _]]. pose proof (flush_fine w1 P1) as F. destruct (flush w1) as [w2 u2|w2 e2| |]; cbn in *; try exact F.
    destruct F as [F1 (_ & F2 & _)]. split; [exact F1|]. exists k. pose proof (adds_trans _ _ _ _ _ P2 F2) as X.
    rewrite app_nil_r in X. exact X.
  - cbn. split; [exact H|]. exists 0%N. unfold adds, cap_bytes. rewrite Ee. now rewrite app_nil_r.
Qed.

Lemma terminal_drop_fine C s : plain_caps C -> works s ->
  fine (fun s' e => e = None /\ obuf (pwr s') = [] /\ (exists k, adds (cap_bytes C CursorNormal k) (pwr s) (pwr s')) /\
                    exists w, s' = M_Prepare.with_wr w s) (terminal_drop C s).
Proof.
  intros Hc H. unfold terminal_drop.
  assert (P : wfine (fun w' _ => obuf w' = [] /\ exists k, adds (cap_bytes C CursorNormal k) (pwr s) w')
                (run_terminal_op C (OSetCursorMode CNormal) (pwr s))).
  { cbn [run_terminal_op run_wop set_cursor_mode]. pose proof (opt_fine C CursorNormal (pwr s) Hc ltac:(cbn; auto) (proj1 H)) as P.
    destruct (expand_opt C CursorNormal [] (pwr s)) as [w1 u|w1 e1| |]; try exact P; try contradiction.
    destruct P as [P1 [(k & P2) _]]. pose proof (drop_fine w1 P1) as F. destruct (guard_drop w1) as [w2 u2|w2 e2| |]; cbn in *; try exact F.
    destruct F as [F1 (F0 & F2 & _)]. split; [exact F1|]. split; [exact F0|]. exists k.
    pose proof (adds_trans _ _ _ _ _ P2 F2) as X. rewrite app_nil_r in X. exact X. }
  pose proof (on_wr_fine _ _ s H P) as F.
  destruct (on_wr (run_terminal_op C (OSetCursorMode CNormal)) s) as [s1 u1|s1 e1| |]; cbn in *; try contradiction; auto.
  destruct F as [F0 (w & -> & F1 & F2)]. split; [exact F0|]. split; [reflexivity|]. split; [exact F1|]. split; [exact F2|eauto].
Qed.

(** Restored to the settings in [st]. *)
Lemma leave_fine C st s : plain_caps C -> works s ->
  fine (fun s' e => e = None /\ restored_to st s s' /\ obuf (pwr s') = [] /\
          exists x k, modes_off C (restore_mouse st) (restore_keypad st) x /\
            adds (x ++ cap_bytes C ExitCaMode k) (pwr s) (pwr s')) (leave C st s).
Proof.
  intros Hc H. unfold leave. pose proof (restore_fine C st s Hc H) as R.
  destruct (restore C st s) as [s1 u1|s1 e1| |] eqn:Er; cbn [fine] in R; try contradiction; auto.
  apply restore_ret in Er. destruct R as [R0 (x & R1 & R2 & R3)].
  pose proof (locked_fine (exit_screen C) _ s1 R0 (exit_fine C (pwr s1) Hc (proj1 R0))) as L.
  destruct (locked (exit_screen C) s1) as [s2 u2|s2 e2| |]; cbn [fine] in L; try contradiction; auto.
  destruct L as [L0 (w & w' & (k & L1) & -> & L2 & L3)]. cbn [fine]. split; [exact L0|]. split; [reflexivity|].
  split; [exact Er|]. split; [exact L3|]. exists x, k. split; [exact R1|].
  pose proof (adds_trans _ _ _ _ _ R2 (adds_trans _ _ _ _ _ L1 L2)) as X. rewrite app_nil_r in X. exact X.
Qed.
