(** Proofs about the cursor of a Windows screen (C115). *)
From Verif Require Import Base M_Utf8 M_Geom M_Attr M_Buf M_Writer M_WinWriter M_WinReader M_WinScreen S_WinScreen S_WinCursor.

Definition steady {A} (r : winres A) (s : wins) : Prop :=
  match r with
  | Ret s' _ | Fail s' _ => c_cursor (w_con s') = c_cursor (w_con s)
  | _ => True
  end.
Lemma steady_ret {A} s (a : A) : steady (Ret s a) s.
Proof. reflexivity. Qed.
Lemma steady_bind {A B} (r : winres A) (k : wins -> A -> winres B) s :
  steady r s -> (forall s' a, steady (k s' a) s') -> steady (obind r k) s.
Proof.
  intros Hr Hk. destruct r as [s' a|s' e| |]; cbn in *; auto.
  specialize (Hk s' a). destruct (k s' a); cbn in *; congruence.
Qed.
Lemma steady_ask {A} v (f : option nat -> con -> con * A) s :
  (forall n c, c_cursor (fst (f n c)) = c_cursor c) -> steady (ask v f s) s.
Proof.
  intros H. unfold ask. destruct (c_answers (w_con s)) as [|[e|n] l]; cbn.
  - destruct v; [|reflexivity]. specialize (H None (w_con s)). destruct (f None (w_con s)). exact H.
  - reflexivity.
  - destruct v; [|reflexivity]. specialize (H (Some n) (with_answers l (w_con s))). destruct (f _ _). exact H.
Qed.
Lemma steady_at {A} (r : winres A) a s : steady r (with_at a s) -> steady r s.
Proof. destruct r; cbn; auto. Qed.
Lemma steady_short {A} z (k : Z -> winres A) s : (forall z, steady (k z) s) -> steady (short z k) s.
Proof. intros H. unfold short. destruct (_ && _); [apply H|exact I]. Qed.
Lemma steady_dword {A} z (k : Z -> winres A) s : (forall z, steady (k z) s) -> steady (dword z k) s.
Proof. intros H. unfold dword. destruct (_ && _); [apply H|exact I]. Qed.

Ltac steady_tac :=
  repeat first
    [ apply steady_ret
    | match goal with |- steady (ask _ _ _) _ => apply steady_ask; intros ? ?; reflexivity end
    | apply steady_bind; [|intros ? ?] | apply steady_short; intros ? | apply steady_dword; intros ?
    | match goal with |- steady (if ?b then _ else _) _ => destruct b end
    | progress (unfold move_abs, set_cursor_position, scroll, set_window, get_info, clear_area, fill_attr, fill_char, clear_rest; cbv zeta) ].

Lemma steady_clear default s : steady (win_clear_screen default s) s.
Proof. unfold win_clear_screen. steady_tac. Qed.
Lemma steady_move p s : steady (win_move_cursor p s) s.
Proof. unfold win_move_cursor. steady_tac. Qed.
Lemma steady_attrs default a s : steady (win_set_attributes default a s) s.
Proof.
  unfold win_set_attributes. destruct (_ || _); [|apply steady_ret].
  apply (steady_at _ a). unfold win_update_attrs, set_console_attr. steady_tac.
Qed.
Lemma steady_loop draw n : forall buf k s, steady (write_loop draw n buf k s) s.
Proof.
  induction n as [|n IH]; intros buf k s; cbn [write_loop]; destruct (k <? length buf); try apply steady_ret; [exact I|].
  cbv zeta. apply steady_bind; [unfold write_console; steady_tac|]. intros s' a. apply IH.
Qed.

Definition gsteady {A} (r : gres A) (s : wscr) : Prop :=
  match r with
  | Ret s' _ | Fail s' _ => c_cursor (w_con (t_w (g_t s'))) = c_cursor (w_con (t_w (g_t s)))
  | _ => True
  end.
Lemma g_bind {A B} (r : gres A) (k : wscr -> A -> gres B) s :
  gsteady r s -> (forall s' a, gsteady (k s' a) s') -> gsteady (obind r k) s.
Proof.
  intros Hr Hk. destruct r as [s' a|s' e| |]; cbn in *; auto.
  specialize (Hk s' a). destruct (k s' a); cbn in *; congruence.
Qed.
Lemma g_wins {A} (f : wins -> winres A) s : (forall w, steady (f w) w) -> gsteady (on_term (on_wins f) s) s.
Proof. intros H. unfold on_term, on_wins. specialize (H (t_w (g_t s))). destruct (f _); exact H. Qed.
Lemma g_reader {A} (f : wsys -> wsres A) s : gsteady (on_term (on_reader f) s) s.
Proof. unfold on_term, on_reader. destruct (f _); cbn; auto. Qed.
Lemma g_same {A} (r : gres A) s s' : g_t s' = g_t s -> gsteady r s' -> gsteady r s.
Proof. intros H. destruct r; cbn; auto; now rewrite H. Qed.
Lemma g_ret {A} s s' (a : A) : g_t s' = g_t s -> gsteady (Ret s' a) s.
Proof. intros H. cbn. now rewrite H. Qed.

Lemma g_move p s : gsteady (gs_move_cursor p s) s.
Proof.
  unfold gs_move_cursor. destruct (cursor_eqb _ _); [now apply g_ret|].
  apply g_bind; [apply g_wins; intros; apply steady_move|]. intros. now apply g_ret.
Qed.
Lemma g_apply a b s : gsteady (gs_apply_attrs a b s) s.
Proof. unfold gs_apply_attrs. destruct (attrs_eqb _ _); [now apply g_ret|]. apply g_wins. intros. apply steady_attrs. Qed.
Lemma g_clear s : gsteady (gs_clear_attributes s) s.
Proof. apply g_wins. intros. apply steady_attrs. Qed.
Lemma g_draw draw E n : forall lo hi a s, gsteady (gs_draw draw E n lo hi a s) s.
Proof.
  induction n as [|n IH]; intros lo hi a s; cbn [gs_draw]; destruct (next_cell E (g_sb s) lo hi) as [[[b lo'] [[pos c]|]]|]; cbn [gsteady]; auto;
    apply (g_same _ s (with_gsb b s) eq_refl);
    (apply g_bind; [apply g_move|]; intros; apply g_bind; [apply g_apply|]; intros;
     apply g_bind; [apply g_wins; intros; apply steady_loop|]; intros); destruct (uadd _ _ _); try exact I.
  cbv zeta. match goal with |- gsteady (gs_draw _ _ _ _ _ _ ?s0) _ => apply (g_same _ _ s0) end; [reflexivity|apply IH].
Qed.
Lemma g_refresh draw E s : gsteady (win_refresh draw E s) s.
Proof.
  unfold win_refresh. apply g_bind.
  { destruct (g_clr s); [|now apply g_ret].
    apply g_bind; [apply g_wins; intros; apply steady_clear|]. intros. now apply g_ret. }
  intros. apply g_bind; [apply g_clear|]. intros. destruct (sb_indices _ _) as [[lo hi]|]; [|exact I].
  apply g_bind; [apply g_draw|]. intros. apply g_bind; [apply g_clear|]. intros.
  destruct (is_out_of_bounds _ _); [destruct (cursor_last _); [|exact I]|]; apply g_move.
Qed.
Lemma g_update E z s : gsteady (win_update_size E z s) s.
Proof. unfold win_update_size. destruct (sb_resize _ _ _); [now apply g_ret|exact I]. Qed.
Lemma g_drop {A} (r : gres A) s : gsteady r s -> gsteady (drop_answer r) s.
Proof. destruct r; auto. Qed.

Lemma g_op draw E o s : (forall m, o <> SCursorMode m) -> gsteady (run_wsop draw E o s) s.
Proof.
  intros Ho. destruct o as [o| |m|d|d|n d|n d]; cbn [run_wsop].
  - destruct (run_buf_op _ _ _); [now apply g_ret|exact I].
  - apply g_refresh.
  - now destruct (Ho m).
  - apply g_drop, g_reader.
  - apply g_drop. unfold gs_read_event. apply g_bind; [apply g_reader|]. intros s' r. unfold follow_resize.
    destruct (fst r) as [[]|]; try (now apply g_ret). apply g_bind; [apply g_update|]. intros. now apply g_ret.
  - apply g_drop. unfold gs_read_raw. apply g_bind; [apply g_reader|]. intros s' r. unfold follow_resize.
    destruct (fst r) as [[]|]; try (now apply g_ret). apply g_bind; [apply g_update|]. intros. now apply g_ret.
  - apply g_drop. unfold gs_read_raw_event. apply g_bind; [apply g_reader|]. intros s' r.
    destruct (fst r) as [[]|]; try (now apply g_ret). destruct (find_size _ _); [|now apply g_ret].
    apply g_bind; [apply g_update|]. intros. now apply g_ret.
Qed.

Lemma g_mode draw E m s : match run_wsop draw E (SCursorMode m) s with
  | Ret s' _ => c_cursor (w_con (t_w (g_t s'))) = cursor_of m
  | Fail s' _ => c_cursor (w_con (t_w (g_t s'))) = c_cursor (w_con (t_w (g_t s)))
  | _ => True
  end.
Proof.
  cbn [run_wsop]. unfold on_term, on_wins, win_set_cursor_mode, set_cursor_info, ask.
  destruct (c_answers _) as [|[e|n] l]; cbn; destruct m; reflexivity.
Qed.

Lemma cursor_kept draw E ops : forall s s', run_wsops draw E ops s = Some s' ->
  c_cursor (w_con (t_w (g_t s'))) = expects draw E ops s (c_cursor (w_con (t_w (g_t s)))).
Proof.
  induction ops as [|o ops IH]; intros s s' H; cbn [run_wsops expects] in *.
  - injection H as <-. reflexivity.
  - assert (G : match run_wsop draw E o s with
      | Ret s1 _ => c_cursor (w_con (t_w (g_t s1))) = match o with SCursorMode m => cursor_of m | _ => c_cursor (w_con (t_w (g_t s))) end
      | Fail s1 _ => c_cursor (w_con (t_w (g_t s1))) = c_cursor (w_con (t_w (g_t s)))
      | _ => True end).
    { destruct o as [o| |m|d|d|n d|n d]; [|  |apply g_mode| | | |];
        (match goal with |- match run_wsop _ _ ?x _ with _ => _ end => assert (G := g_op draw E x s) end;
         unfold gsteady in G; destruct (run_wsop _ _ _ s); try exact I; apply G; intros ? Hx; discriminate Hx). }
    destruct (run_wsop draw E o s) as [s1 u|s1 e| |]; try discriminate; rewrite <- G; now apply IH.
Qed.
