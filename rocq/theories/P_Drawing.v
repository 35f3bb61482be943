(** Refreshing a screen draws nothing, whether it succeeds or fails. *)
From Verif Require Import Base M_Utf8 M_Geom M_Attr M_Buf M_Writer M_WinWriter M_WinReader M_WinScreen S_Drawing.
From Verif Require M_Screen.

Lemma same_refl b : same_drawing b b.
Proof. repeat split. Qed.
Lemma same_trans b1 b2 b3 : same_drawing b1 b2 -> same_drawing b2 b3 -> same_drawing b1 b3.
Proof. intros (A1 & A2 & A3 & A4) (B1 & B2 & B3 & B4). repeat split; congruence. Qed.

Lemma next_cell_same E b lo hi b' lo' r : next_cell E b lo hi = Val (b', lo', r) -> same_drawing b b'.
Proof.
  unfold next_cell. generalize (hi - lo) as n. intros n. revert lo. induction n as [|n IH]; intros lo; cbn [next_cell_aux].
  { intros H. injection H as <- _ _. apply same_refl. }
  destruct (hi <=? lo); [intros H; injection H as <- _ _; apply same_refl|].
  destruct (nth_error (buffer b) lo) as [c|]; [|discriminate]. destruct (first_char c); [|discriminate].
  destruct (nth_error (back b) lo) as [k|]; [|discriminate]. cbv zeta. destruct (cell_eqb c k); [apply IH|].
  destruct (columns (bsize b)); [discriminate|]. destruct (vec_set lo c (back b)); [|discriminate].
  intros H. injection H as <- _ _. repeat split.
Qed.

(** ** Windows *)
Definition gdrawn {A} (r : gres A) (s : wscr) : Prop :=
  match r with
  | Ret s' _ | Fail s' _ => same_drawing (g_sb s) (g_sb s')
  | _ => True
  end.
Lemma gd_bind {A B} (r : gres A) (k : wscr -> A -> gres B) s :
  gdrawn r s -> (forall s' a, gdrawn (k s' a) s') -> gdrawn (obind r k) s.
Proof.
  intros Hr Hk. destruct r as [s' a|s' e| |]; cbn in *; auto.
  specialize (Hk s' a). destruct (k s' a); cbn in *; try exact I; eapply same_trans; eauto.
Qed.
Lemma gd_term {A} (f : wterm -> tres A) s : gdrawn (on_term f s) s.
Proof. unfold on_term. destruct (f _); cbn; try exact I; apply same_refl. Qed.
Lemma gd_move p s : gdrawn (gs_move_cursor p s) s.
Proof. unfold gs_move_cursor. destruct (cursor_eqb _ _); [apply same_refl|]. apply gd_bind; [apply gd_term|]. intros. apply same_refl. Qed.
Lemma gd_apply a b s : gdrawn (gs_apply_attrs a b s) s.
Proof. unfold gs_apply_attrs. destruct (attrs_eqb _ _); [apply same_refl|apply gd_term]. Qed.
Lemma gd_via {A} (r : gres A) s s' : same_drawing (g_sb s) (g_sb s') -> gdrawn r s' -> gdrawn r s.
Proof. intros H. destruct r; cbn; auto; now apply same_trans. Qed.
Lemma gd_draw draw E n : forall lo hi a s, gdrawn (gs_draw draw E n lo hi a s) s.
Proof.
  induction n as [|n IH]; intros lo hi a s; cbn [gs_draw]; destruct (next_cell E (g_sb s) lo hi) as [[[b lo'] [[pos c]|]]|] eqn:En;
    try exact I; apply next_cell_same in En; try exact En; apply (gd_via _ s (with_gsb b s) En);
    (apply gd_bind; [apply gd_move|]; intros; apply gd_bind; [apply gd_apply|]; intros;
     apply gd_bind; [apply gd_term|]; intros); destruct (uadd _ _ _); try exact I.
  cbv zeta. match goal with |- gdrawn (gs_draw _ _ _ _ _ _ ?s0) _ => apply (gd_via _ _ s0) end; [apply same_refl|apply IH].
Qed.
Lemma gd_refresh draw E s : gdrawn (win_refresh draw E s) s.
Proof.
  unfold win_refresh. apply gd_bind.
  { destruct (g_clr s); [|apply same_refl]. apply gd_bind; [apply gd_term|]. intros. apply same_refl. }
  intros. apply gd_bind; [apply gd_term|]. intros. destruct (sb_indices _ _) as [[lo hi]|]; [|exact I].
  apply gd_bind; [apply gd_draw|]. intros. apply gd_bind; [apply gd_term|]. intros.
  destruct (is_out_of_bounds _ _); [destruct (cursor_last _); [|exact I]|]; apply gd_move.
Qed.

(** ** Unix *)
Import M_Screen.
Definition sdrawn (r : sres) (s : scr) : Prop :=
  match r with
  | Ret s' _ | Fail s' _ => same_drawing (sb s) (sb s')
  | _ => True
  end.
Lemma sd_bind (r : sres) (k : scr -> unit -> sres) s :
  sdrawn r s -> (forall s' a, sdrawn (k s' a) s') -> sdrawn (obind r k) s.
Proof.
  intros Hr Hk. destruct r as [s' a|s' e| |]; cbn in *; auto.
  specialize (Hk s' a). destruct (k s' a); cbn in *; try exact I; eapply same_trans; eauto.
Qed.
Lemma sd_writer f s : sdrawn (on_writer f s) s.
Proof. unfold on_writer. destruct (f _); cbn; try exact I; apply same_refl. Qed.
Lemma sd_move C p s : sdrawn (s_move_cursor C p s) s.
Proof. unfold s_move_cursor. destruct (cursor_eqb _ _); [apply same_refl|]. apply sd_bind; [apply sd_writer|]. intros. apply same_refl. Qed.
Lemma sd_via r s s' : same_drawing (sb s) (sb s') -> sdrawn r s' -> sdrawn r s.
Proof. intros H. destruct r; cbn; auto; now apply same_trans. Qed.
Lemma sd_draw E C n : forall lo hi s, sdrawn (draw E C n lo hi s) s.
Proof.
  induction n as [|n IH]; intros lo hi s; cbn [draw]; destruct (next_cell E (sb s) lo hi) as [[[b lo'] [[pos c]|]]|] eqn:En;
    try exact I; apply next_cell_same in En; try exact En; apply (sd_via _ s (with_sb b s) En);
    (apply sd_bind; [apply sd_move|]; intros; apply sd_bind; [apply sd_writer|]; intros;
     apply sd_bind; [apply sd_writer|]; intros); destruct (uadd _ _ _); try exact I.
  cbv zeta. match goal with |- sdrawn (draw _ _ _ _ _ ?s0) _ => apply (sd_via _ _ s0) end; [apply same_refl|apply IH].
Qed.
Lemma sd_refresh E C s : sdrawn (refresh E C s) s.
Proof.
  unfold refresh, compose. apply sd_bind; [|intros; apply sd_writer]. apply sd_bind.
  { destruct (clr s); [|apply same_refl]. apply sd_bind; [apply sd_writer|]. intros. apply same_refl. }
  intros. apply sd_bind; [apply sd_writer|]. intros. destruct (sb_indices _ _) as [[lo hi]|]; [|exact I].
  apply sd_bind; [apply sd_draw|]. intros. apply sd_bind; [apply sd_writer|]. intros.
  destruct (is_out_of_bounds _ _); [destruct (cursor_last _); [|exact I]|]; apply sd_move.
Qed.
Lemma sd_guard_drop E C s : sdrawn (s_guard_drop E C s) s.
Proof.
  unfold s_guard_drop. assert (H := sd_refresh E C s). destruct (refresh E C s) as [s1 u|s1 e| |]; cbn in H; try exact I;
    apply (sd_via _ _ s1 H), sd_writer.
Qed.
