(** Proofs about builds without overflow checks (C130): the Windows side, and what is
    different. *)
From Verif Require Import Base M_Utf8 M_Geom M_Attr M_Signal M_Util M_Input M_Buf M_Writer M_Prepare M_Reader
  M_WinWriter M_WinReader M_WinScreen M_RelBuf M_RelScreen M_RelReader M_RelWin S_Release P_Release.

Lemma short_same {A} z (k k' : Z -> winres A) : (forall z, osame (k z) (k' z)) -> osame (short z k) (short_r z k').
Proof.
  intros H. unfold short, short_r. destruct (Z.leb_spec (-32768) z); [|triv]. destruct (Z.leb_spec z 32767); [|triv]. cbn [andb].
  replace ((z + 32768) mod 65536 - 32768)%Z with z; [apply H|]. rewrite Z.mod_small; lia.
Qed.
Lemma dword_same {A} z (k k' : Z -> winres A) : (forall z, osame (k z) (k' z)) -> osame (dword z k) (dword_r z k').
Proof.
  intros H. unfold dword, dword_r. destruct (Z.leb_spec 0 z); [|triv]. destruct (Z.leb_spec z 4294967295); [|triv]. cbn [andb].
  rewrite Z.mod_small by lia. apply H.
Qed.

Section Writer.
  Variables (draw : list N -> N -> view -> view) (default : N) (E : env).
  Lemma line_end_same s : osame (win_clear_to_line_end default s) (win_clear_to_line_end_r default s).
  Proof. unfold win_clear_to_line_end, win_clear_to_line_end_r. apply osame_bind; [triv|intros]. cbv zeta. apply short_same. intros; triv. Qed.
  Lemma screen_end_same s : osame (win_clear_to_screen_end default s) (win_clear_to_screen_end_r default s).
  Proof.
    unfold win_clear_to_screen_end, win_clear_to_screen_end_r. apply osame_bind; [triv|intros]. cbv zeta. repeat (apply short_same; intros).
    repeat (apply dword_same; intros). triv.
  Qed.
  Lemma rest_same i h w s : osame (clear_rest i h w s) (clear_rest_r i h w s).
  Proof.
    unfold clear_rest, clear_rest_r. apply short_same. intros. cbv zeta. destruct (_ <? _)%Z; [|triv]. apply short_same. intros. triv.
  Qed.
  Lemma clear_same s : osame (win_clear_screen default s) (win_clear_screen_r default s).
  Proof.
    unfold win_clear_screen, win_clear_screen_r. apply osame_bind; [triv|intros]. cbv zeta. do 2 (apply short_same; intros).
    destruct (_ =? _)%Z; [apply dword_same; intros; triv|]. do 4 (apply short_same; intros).
    destruct (_ <? _)%Z; [|apply rest_same]. do 2 (apply short_same; intros). apply osame_bind; [triv|intros; apply rest_same].
  Qed.
  Lemma rel_same p s : osame (move_rel p s) (move_rel_r p s).
  Proof. unfold move_rel, move_rel_r. apply osame_bind; [triv|intros]. do 2 (apply short_same; intros). triv. Qed.
  Lemma win_op_same o s : osame (run_win draw default E o s) (run_win_r draw default E o s).
  Proof.
    destruct o; cbn [run_win run_win_r]; try triv; try (apply rel_same).
    - apply clear_same.
    - apply line_end_same.
    - apply screen_end_same.
  Qed.
End Writer.

Lemma millis_same t : psame (as_millis t) (as_millis_r t).
Proof.
  destruct t as [d|]; [|triv]. unfold as_millis, as_millis_r. cbv zeta. destruct (N.leb_spec 18446744073709551616 (secs d * 1000)); [triv|].
  rewrite (N.mod_small (secs d * 1000) 18446744073709551616) by lia.
  destruct (N.leb_spec 4294967296 ((secs d * 1000) mod 4294967296 + (nanos d / 1000000) mod 4294967296)); [triv|].
  cbn [psame]. now rewrite (N.mod_small (_ + _)) by lia.
Qed.

(** Timeouts are taken modulo 2^32 milliseconds. *)
Lemma millis_modulo d : as_millis_r (Some d) = Val ((secs d * 1000 + nanos d / 1000000) mod 4294967296)%N.
Proof.
  unfold as_millis_r. cbv zeta. f_equal.
  rewrite N.add_mod_idemp_r, N.add_mod by discriminate. rewrite N.mod_mod by discriminate.
  replace ((secs d * 1000) mod 18446744073709551616 mod 4294967296)%N with ((secs d * 1000) mod 4294967296)%N.
  - rewrite <- N.add_mod by discriminate. reflexivity.
  - change 18446744073709551616%N with (4294967296 * 4294967296)%N. rewrite N.mod_mul_r by discriminate.
    rewrite (N.mul_comm 4294967296 (_ mod _)), N.mod_add by discriminate. now rewrite N.mod_mod by discriminate.
Qed.

Section Reader.
  Variable E : env.
  Lemma wwait_same t s : osame (win_wait_event t s) (win_wait_event_r t s).
  Proof.
    unfold win_wait_event, win_wait_event_r. destruct (win_get_signal s) as [s1 [sig|]]; [triv|]. pstep (millis_same t) as ms. triv.
  Qed.
  Lemma wraw_event_same len t s : osame (win_read_raw_event len t s) (win_read_raw_event_r len t s).
  Proof. unfold win_read_raw_event, win_read_raw_event_r. apply osame_bind; [apply wwait_same|intros; triv]. Qed.
  Lemma wread_same t s : osame (win_read_event E t s) (win_read_event_r E t s).
  Proof. unfold win_read_event, win_read_event_r. apply osame_bind; [apply wraw_event_same|intros; triv]. Qed.
  Lemma wraw_same len t s : osame (win_read_raw len t s) (win_read_raw_r len t s).
  Proof. unfold win_read_raw, win_read_raw_r. apply osame_bind; [apply wwait_same|intros; triv]. Qed.
End Reader.

Section Scr.
  Variables (draw : list N -> N -> view -> view) (E : env).
  Lemma on_wins_same {A} (f g : wins -> winres A) t : (forall s, osame (f s) (g s)) -> osame (on_wins f t) (on_wins g t).
  Proof. intros H. unfold on_wins. specialize (H (t_w t)). destruct (f (t_w t)); cbn in H; try rewrite H; triv. Qed.
  Lemma on_reader_same {A} (f g : wsys -> wsres A) t : (forall s, osame (f s) (g s)) -> osame (on_reader f t) (on_reader g t).
  Proof. intros H. unfold on_reader. specialize (H (t_in t)). destruct (f (t_in t)); cbn in H; try rewrite H; triv. Qed.
  Lemma on_term_same {A} (f g : wterm -> tres A) s : (forall t, osame (f t) (g t)) -> osame (on_term f s) (on_term g s).
  Proof. intros H. unfold on_term. specialize (H (g_t s)). destruct (f (g_t s)); cbn in H; try rewrite H; triv. Qed.
  Lemma drop_answer_same {A} (c r : gres A) : osame c r -> osame (drop_answer c) (drop_answer r).
  Proof. destruct c; cbn; intros H; try rewrite H; triv. Qed.

  Lemma gs_draw_same : forall fuel lo hi a s, osame (gs_draw draw E fuel lo hi a s) (gs_draw_r draw E fuel lo hi a s).
  Proof.
    induction fuel as [|fuel IH]; intros lo hi a s; cbn [gs_draw gs_draw_r]; destruct (next_cell E (g_sb s) lo hi) as [[[b lo'] [[p c]|]]|]; try triv.
    all: apply osame_bind; [triv|intros]; apply osame_bind; [triv|intros]; apply osame_bind; [triv|intros].
    all: pstep (wadd_same (umax E) (column (g_real s2)) 1) as v; [triv || apply IH].
  Qed.
  Lemma win_refresh_same s : osame (win_refresh draw E s) (win_refresh_r draw E s).
  Proof.
    unfold win_refresh, win_refresh_r. apply osame_bind.
    { destruct (g_clr s); [|triv]. apply osame_bind; [|intros; triv]. apply on_term_same. intros t. apply on_wins_same. intros; apply clear_same. }
    intros. apply osame_bind; [triv|intros].
    destruct (sb_indices E (g_sb s1)) as [[lo hi]|]; [|triv]. apply osame_bind; [apply gs_draw_same|intros]. apply osame_bind; [triv|intros].
    destruct (is_out_of_bounds _ _); [|triv]. pstep (last_same (umax E) (bsize (g_sb s3))) as v. triv.
  Qed.
  Lemma gs_read_same t s : osame (gs_read_event E t s) (gs_read_event_r E t s).
  Proof. apply osame_bind; [|intros; triv]. apply on_term_same. intros u. apply on_reader_same. intros; apply wread_same. Qed.
  Lemma gs_raw_same n t s : osame (gs_read_raw E n t s) (gs_read_raw_r E n t s).
  Proof. apply osame_bind; [|intros; triv]. apply on_term_same. intros u. apply on_reader_same. intros; apply wraw_same. Qed.
  Lemma gs_raw_event_same n t s : osame (gs_read_raw_event E n t s) (gs_read_raw_event_r E n t s).
  Proof. apply osame_bind; [|intros; triv]. apply on_term_same. intros u. apply on_reader_same. intros; apply wraw_event_same. Qed.
  Lemma wsop_same o s : osame (run_wsop draw E o s) (run_wsop_r draw E o s).
  Proof.
    destruct o as [bo| |c|t|t|n t|n t]; cbn [run_wsop run_wsop_r]; try triv.
    - pstep (op_same E (g_sb s) bo) as v. triv.
    - apply win_refresh_same.
    - apply drop_answer_same, on_term_same. intros u. apply on_reader_same. intros; apply wwait_same.
    - apply drop_answer_same, gs_read_same.
    - apply drop_answer_same, gs_raw_same.
    - apply drop_answer_same, gs_raw_event_same.
  Qed.
End Scr.
