(** Proofs about messages on standard error on Windows (C110). *)
From Verif Require Import Base M_Utf8 M_Geom M_Attr M_Buf M_Signal M_Util M_Input M_Writer M_Prepare M_Reader
  M_WinWriter M_WinReader M_WinScreen M_WinPoison S_WinScreen M_Stderr S_Stderr P_Stderr M_WinStderr S_WinStderr.
Local Open Scope nat_scope.

(** ** When messages can be printed *)
Section Works.
  Variables (draw : list N -> N -> view -> view) (E : env).

  Lemma wguard_works unw l x : printable l ->
    same_call (fbind (wguard_drop_p draw E unw l x) (fun x l _ => if unw then Unwinds x l else Goes x l None)) (k_guard draw E unw [] x).
  Proof.
    intros H. unfold wguard_drop_p, k_guard. cbn [k_writes]. destruct (win_refresh draw E (q_s x)) as [s u|s e| |]; cbn; auto.
    - destruct unw; cbn; auto.
    - destruct (print_ok unw l s H) as (l' & -> & H'). destruct unw; cbn; auto.
  Qed.
  Lemma wrefresh_works l x : printable l -> same_call (wscreen_refresh_p draw E l x) (kstep draw E (KDraw KRefresh) x).
  Proof.
    intros H. unfold wscreen_refresh_p. cbn [kstep]. destruct (q_w x || q_d x) eqn:P; [exact (wguard_works true l x H)|].
    apply Bool.orb_false_iff in P. destruct P as (Pw & Pd).
    assert (S : forall s, WPScr s (q_r x) (q_w x || false) (q_d x || false) = with_s s x)
      by (intros s; unfold with_s; now rewrite !Bool.orb_false_r).
    destruct (win_refresh draw E (q_s x)) as [s u|s e| |]; [| |exact I|exact I]; unfold wguard_drop_p; cbn [q_s q_r q_w q_d with_s];
      destruct (win_refresh draw E s) as [s' u'|s' e'| |]; cbn; auto; rewrite ?S; try (destruct (print_ok false l s' H) as (l' & -> & H'); cbn; rewrite S); auto.
  Qed.
  Lemma wterminal_works unw l t : printable l ->
    match wterminal_drop_p false unw l t, win_terminal_drop t with
    | Goes t' l' _, Ret t'' _ => t' = t'' /\ printable l'
    | Ends _, (Panic | Blocked) => True
    | _, _ => False
    end.
  Proof.
    intros H. unfold wterminal_drop_p, win_terminal_drop.
    destruct (on_wins (win_set_cursor_mode CNormal) t) as [t1 u|t1 e| |]; cbn; auto.
    - destruct (set_out_mode (t_old t1) t1) as [t2 u2|t2 e2| |]; cbn; auto.
      destruct (print_ok unw l t2 H) as (l' & -> & H'). auto.
    - destruct (print_ok unw l t1 H) as (l' & -> & H'). auto.
  Qed.
  Lemma wdrop_works l x : printable l -> same_drop (wscreen_drop_p l x) (kdrop x).
  Proof.
    intros H. unfold wscreen_drop_p, wleave_p, kdrop, win_screen_drop. destruct (q_w x) eqn:W.
    { rewrite Bool.orb_true_r. exact I. }
    rewrite Bool.orb_false_r. destruct (q_r x) eqn:R.
    { pose proof (wterminal_works true l (g_t (q_s x)) H) as T.
      destruct (wterminal_drop_p false true l (g_t (q_s x))) as [t1 l1 u1|t1 l1| |p], (win_terminal_drop (g_t (q_s x))) as [t2 u2|t2 e2| |]; cbn in *; try contradiction; auto. }
    assert (T : forall l t, printable l -> same_drop (wterminal_drop_p false false l t) (match win_terminal_drop t with Ret t _ => KGiven t | _ => KLost end)).
    { intros l0 t H0. pose proof (wterminal_works false l0 t H0) as T.
      destruct (wterminal_drop_p false false l0 t) as [t1 l1 u1|t1 l1| |p], (win_terminal_drop t) as [t2 u2|t2 e2| |]; cbn in *; try contradiction; auto. }
    destruct (on_reader (win_restore (g_state (q_s x))) (g_t (q_s x))) as [t1 u1|t1 e1| |]; [| |exact I|exact I].
    - destruct (win_exit_screen (g_old (q_s x)) t1) as [t2 u2|t2 e2| |]; [exact (T l t2 H)| |exact I|exact I].
      destruct (print_ok false l t2 H) as (l' & -> & H'). exact (T l' t2 H').
    - destruct (print_ok false l t1 H) as (l' & -> & H'). exact (T l' t1 H').
  Qed.
End Works.

(** ** When every call fails *)
Definition out_gone (k : nat) (w : wins) : Prop :=
  Forall (fun r => exists e, r = CFail e) (c_answers (w_con w)) /\ k <= length (c_answers (w_con w)).
(** Either the console is not asked anything, or the call fails at once. *)
Definition at_once {A} (w : wins) (r : winres A) : Prop :=
  match r with
  | Ret w' _ => w_con w' = w_con w
  | Fail w' _ => exists e, c_answers (w_con w) = CFail e :: c_answers (w_con w')
  | Panic | Blocked => True
  end.
Lemma ask_gone {A} v (f : option nat -> con -> con * A) w : out_gone 1 w ->
  exists w' e e', ask v f w = Fail w' e /\ c_answers (w_con w) = CFail e' :: c_answers (w_con w') /\ w_at w' = w_at w.
Proof.
  intros (H & L). unfold ask. destruct (c_answers (w_con w)) as [|a l] eqn:Ea; [cbn in L; lia|].
  inversion H as [|? ? (e & ->) _]; subst. exists (with_con (with_answers l (w_con w)) w), e, e. auto.
Qed.
Lemma once_ask {A} v (f : option nat -> con -> con * A) w : out_gone 1 w -> at_once w (ask v f w).
Proof. intros H. destruct (ask_gone v f w H) as (w' & e & e' & -> & Ha & _). cbn. eauto. Qed.
Lemma once_info {B} w (k : wins -> view -> winres B) : out_gone 1 w -> at_once w (obind (get_info w) k).
Proof. intros H. unfold get_info. destruct (ask_gone true (fun _ c => (c, c_view c)) w H) as (w' & e & e' & -> & Ha & _). cbn. eauto. Qed.
Lemma once_attributes d a w : out_gone 1 w -> at_once w (win_set_attributes d a w).
Proof.
  intros H. unfold win_set_attributes. destruct (negb _ || _ || _); [|reflexivity].
  unfold win_update_attrs, set_console_attr. exact (once_ask true _ (with_at a w) H).
Qed.
Lemma once_write draw str w : out_gone 1 w -> at_once w (win_write_str draw str w).
Proof.
  intros H. unfold win_write_str. rewrite Nat.add_1_r. cbn [write_loop]. destruct (0 <? length (encode_wide str)); [|reflexivity].
  unfold write_console at 1. edestruct @ask_gone as (w' & e & e' & -> & Ha & _); [exact H|]. cbn. eauto.
Qed.

Section Gone.
  Variables (draw : list N -> N -> view -> view) (E : env).

  Definition at_once_g {A} (s : wscr) (r : gres A) : Prop :=
    match r with
    | Ret s' _ => answers (g_t s') = answers (g_t s)
    | Fail s' _ => exists e, answers (g_t s) = CFail e :: answers (g_t s')
    | Panic | Blocked => True
    end.
  Definition sgone (s : wscr) : Prop := out_gone 1 (t_w (g_t s)).
  Lemma once_on {A} (f : wins -> winres A) s : sgone s -> (forall w, out_gone 1 w -> at_once w (f w)) -> at_once_g s (on_term (on_wins f) s).
  Proof.
    intros H F. specialize (F _ H). unfold on_term, on_wins. destruct (f (t_w (g_t s))) as [w a|w e| |]; cbn in *; auto.
    unfold answers. cbn. now rewrite F.
  Qed.
  Lemma sgone_same s s' : sgone s -> answers (g_t s') = answers (g_t s) -> sgone s'.
  Proof. unfold sgone, out_gone, answers. intros H ->. exact H. Qed.
  Lemma once_bind {A B} s (m : gres A) (k : wscr -> A -> gres B) : sgone s -> at_once_g s m ->
    (forall s' a, m = Ret s' a -> sgone s' -> at_once_g s' (k s' a)) -> at_once_g s (obind m k).
  Proof.
    intros H M K. destruct m as [s' a|s' e| |]; cbn [obind]; auto. cbn in M. specialize (K s' a eq_refl (sgone_same _ _ H M)).
    destruct (k s' a) as [s2 b|s2 e| |]; cbn in *; auto; rewrite <- M; exact K.
  Qed.
  Lemma once_move p s : sgone s -> at_once_g s (gs_move_cursor p s).
  Proof.
    intros H. unfold gs_move_cursor. destruct (cursor_eqb (g_real s) p); [reflexivity|]. apply once_bind; [exact H| |reflexivity].
    apply once_on; [exact H|]. intros w Hw. unfold win_move_cursor, move_abs, set_cursor_position. apply once_ask, Hw.
  Qed.
  Lemma once_draw fuel : forall lo hi a s, sgone s -> at_once_g s (gs_draw draw E fuel lo hi a s).
  Proof.
    induction fuel as [|fuel IH]; intros lo hi a s H; cbn [gs_draw]; destruct (next_cell E (g_sb s) lo hi) as [[[b lo'] [[pos cell]|]]|]; try exact I; try reflexivity.
    all: change (at_once_g s) with (at_once_g (A := unit) (with_gsb b s)); apply once_bind; [exact H|exact (once_move pos (with_gsb b s) H)|]; intros s1 u1 _ H1;
      apply once_bind; [exact H1| |].
    1, 3: unfold gs_apply_attrs; destruct (attrs_eqb a (cattrs cell)); [reflexivity|]; apply once_on; [exact H1|]; intros w; apply once_attributes.
    all: intros s2 u2 _ H2; apply once_bind; [exact H2| |]; [apply once_on; [exact H2|]; intros w; apply once_write|].
    all: intros s3 u3 _ H3; destruct (uadd (umax E) (column (g_real s3)) 1) as [c|]; try exact I;
      exact (IH _ _ _ (with_greal (Cursor (line (g_real s3)) c) s3) H3).
  Qed.
  Lemma once_refresh s : sgone s -> at_once_g s (win_refresh draw E s).
  Proof.
    intros H. unfold win_refresh. apply once_bind; [exact H| |].
    - destruct (g_clr s); [|reflexivity]. apply once_bind; [exact H| |reflexivity]. apply once_on; [exact H|]. intros w Hw. apply once_info, Hw.
    - intros s1 u1 _ H1. apply once_bind; [exact H1| |].
      { unfold gs_clear_attributes, win_clear_attributes. apply once_on; [exact H1|]. intros w. apply once_attributes. }
      intros s2 u2 _ H2. destruct (sb_indices E (g_sb s2)) as [[lo hi]|]; [|exact I].
      apply once_bind; [exact H2|apply once_draw, H2|]. intros s3 u3 _ H3. apply once_bind; [exact H3| |].
      { unfold gs_clear_attributes, win_clear_attributes. apply once_on; [exact H3|]. intros w. apply once_attributes. }
      intros s4 u4 _ H4. destruct (is_out_of_bounds _ _); [destruct (cursor_last _); [|exact I]|]; apply once_move, H4.
  Qed.

  Lemma poisoned_aborts l x : q_w x = true -> wscreen_drop_p l x = Aborts.
  Proof. intros H. unfold wscreen_drop_p, wleave_p. rewrite H, Bool.orb_true_r. reflexivity. Qed.

  Lemma gone_out t : wgone t -> out_gone 3 (t_w t).
  Proof. intros (H & _). exact H. Qed.
  Lemma out_less k k' w : k' <= k -> out_gone k w -> out_gone k' w.
  Proof. intros L (H & K). split; [exact H|lia]. Qed.

  Lemma wgone_guard l s : wgone (g_t s) ->
    match wguard_drop_p draw E false (false :: l) (unharmed s) with
    | Goes x l' _ => answers (g_t (q_s x)) = answers (g_t s) /\ l' = false :: l
    | Unwinds x l' => answers (g_t (q_s x)) <> answers (g_t s) /\ l' = l /\ forall l2, wscreen_drop_p l2 x = Aborts
    | Aborts => False
    | Ends _ => win_refresh draw E s = Panic \/ win_refresh draw E s = Blocked
    end.
  Proof.
    intros H. unfold wguard_drop_p. cbn [q_s unharmed]. pose proof (once_refresh s (out_less 3 1 _ ltac:(lia) (gone_out _ H))) as O.
    destruct (win_refresh draw E s) as [s' u|s' e| |]; cbn in *; auto. destruct O as (e' & O). split; [rewrite O; intros C; symmetry in C; apply (f_equal (@length _)) in C; cbn in C; lia|].
    split; [reflexivity|]. intros l2. reflexivity.
  Qed.

  Lemma gone_twice l s s' s2 e e2 : win_refresh draw E s = Fail s' e -> win_refresh draw E s' = Fail s2 e2 ->
    exists x, wscreen_refresh_p draw E (false :: l) (unharmed s) = Unwinds x l /\ forall l2, wscreen_drop_p l2 x = Aborts.
  Proof.
    intros H H2. unfold wscreen_refresh_p. cbn [unharmed q_w q_d orb q_s]. rewrite H. unfold wguard_drop_p. cbn [with_s q_s]. rewrite H2. cbn.
    eexists. split; [reflexivity|]. intros l2. reflexivity.
  Qed.

  Lemma out_gone_terminal l unw t : out_gone 1 (t_w t) -> exists t', wterminal_drop_p false unw (false :: l) t = (if unw then Aborts else Unwinds t' l).
  Proof.
    intros H. unfold wterminal_drop_p, on_wins, win_set_cursor_mode, set_cursor_info.
    edestruct @ask_gone as (w' & e & e' & -> & _); [exact H|]. cbn. exists (with_w w' t). now destruct unw.
  Qed.
  Lemma wgone_terminal l t : wgone t -> exists t', wterminal_drop_p false false (false :: l) t = Unwinds t' l.
  Proof. intros H. exact (out_gone_terminal l false t (out_less 3 1 _ ltac:(lia) (gone_out _ H))). Qed.
  Lemma wgone_screen l x : wgone (g_t (q_s x)) -> wscreen_drop_p (false :: false :: l) x = Aborts.
  Proof.
    intros H. pose proof (out_less 3 1 _ ltac:(lia) (gone_out _ H)) as O. unfold wscreen_drop_p.
    assert (L : exists t l', wleave_p (false :: false :: l) x = Unwinds t (false :: l') /\ out_gone 1 (t_w t)).
    { unfold wleave_p. destruct (q_r x || q_w x); [exists (g_t (q_s x)), (false :: l); auto|].
      destruct H as (H & I1 & I2).
      assert (R : exists i e, win_restore (g_state (q_s x)) (t_in (g_t (q_s x))) = Fail i e).
      { destruct (w_os (t_in (g_t (q_s x)))) as [|r os] eqn:Eo; [cbn in I2; lia|]. inversion I1 as [|? ? (e & ->) _]; subst.
        unfold win_restore. destruct (clear_handler _); unfold set_ctrl_handler, set_console_mode, wos_call; cbn [obind]; cbv beta; rewrite Eo; cbn; eauto. }
      destruct R as (i & e & R).
      unfold on_reader. rewrite R. cbn [eprintln]. exists (with_in i (g_t (q_s x))), l. split; [reflexivity|exact O]. }
    destruct L as (t & l' & -> & O'). destruct (q_w x); [reflexivity|].
    destruct (out_gone_terminal l' true t O') as (_ & ->). reflexivity.
  Qed.
End Gone.
