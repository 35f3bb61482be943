(** Playing programs on both platforms, for the examples of C135. *)
From Verif Require Import Base M_Utf8 S_Utf8 M_Geom S_Geom M_Attr M_Signal M_Util M_Input M_Buf S_Buf M_Writer M_Prepare M_Reader
  M_WinWriter M_WinReader S_WinReader M_WinScreen S_WinScreen M_ScreenApi S_WinCanvas P_WinDraw P_WinDraw2 P_WinCanvas.
From Verif Require S_Tty S_Writer M_Screen S_Screen S_WinWriter S_Canvas S_Emu P_Emu P_Screen5 P_Buf3 .
From Verif Require Import S_SamePicture.

Fixpoint uplay (E : env) (l : list deed) (s : M_Screen.scr) (t : S_Emu.emu) : option (M_Screen.scr * S_Emu.emu) :=
  match l with
  | [] => Some (s, t)
  | Draws m :: l => match screen_method E m (M_Screen.sb s) with Val b => uplay E l (M_Screen.with_sb b s) t | Boom => None end
  | Shows :: l => match M_Screen.refresh E S_Emu.ansi_cfg s with
                  | Ret s' _ => match P_Screen5.grown s s' with
                                | Some x => uplay E l s' (S_Tty.feed (S_Emu.ansi_tty E) t x)
                                | None => None
                                end
                  | _ => None
                  end
  | _ => None
  end.
Lemma uplay_run E sz l : forall l0 s t s' t', unix_run E S_Emu.ansi_cfg (S_Emu.ansi_tty E) sz l0 s t ->
  uplay E l s t = Some (s', t') -> unix_run E S_Emu.ansi_cfg (S_Emu.ansi_tty E) sz (l0 ++ l) s' t'.
Proof.
  induction l as [|d l IH]; intros l0 s t s' t' H Hp; cbn [uplay] in Hp.
  - injection Hp as <- <-. now rewrite app_nil_r.
  - change (l0 ++ d :: l) with (l0 ++ [d] ++ l). rewrite app_assoc. destruct d as [m| | |]; try discriminate.
    + destruct (screen_method E m (M_Screen.sb s)) as [b|] eqn:Em; [|discriminate].
      refine (IH _ _ _ _ _ _ Hp). now apply U_draw.
    + destruct (M_Screen.refresh E S_Emu.ansi_cfg s) as [s2 []| | |] eqn:Er; try discriminate.
      destruct (P_Screen5.grown s s2) as [x|] eqn:Eg; [|discriminate].
      refine (IH _ _ _ _ _ _ Hp). eapply U_show; [exact H|exact Er|]. now apply P_Screen5.grown_ok.
Qed.
Lemma start_run E sz sc s t : env_ok E -> S_Screen.screen_size sz -> S_Writer.whole_writes sc ->
  P_Screen5.start E sz sc = Some (s, t) -> unix_run E S_Emu.ansi_cfg (S_Emu.ansi_tty E) sz [] s t.
Proof.
  intros HE Hs Hw Es. unfold P_Screen5.start in Es.
  destruct (M_Screen.screen_new _ _ _ _ _) as [s2 []| | |] eqn:En; try discriminate. injection Es as <- <-.
  apply (U_new E S_Emu.ansi_cfg (S_Emu.ansi_tty E) sz (writer_new (N.to_nat 8192) sc) s2 (S_Emu.emu_new sz)
    (S_Tty.View sz (repeat (S_Tty.VC [SPACE] no_attrs) (total sz)) (Cursor 0 0) no_attrs true)); auto.
  cbn [S_Writer.stream writer_new dev obuf app]. rewrite (S_Tty.feed_nil _ _ _ (P_Emu.ansi_implements E HE)). apply P_Emu.emu_new_look.
Qed.
Definition unix_play (E : env) (sz : size) (l : list deed) : option (M_Screen.scr * S_Emu.emu) :=
  match P_Screen5.start E sz (P_Screen5.alls 9) with Some (s, t) => uplay E l s t | None => None end.

Fixpoint wplay (l : list deed) (s : wscr) : option wscr :=
  match l with
  | [] => Some s
  | Draws m :: l => match screen_method wide_env m (g_sb s) with Val b => wplay l (with_gsb b s) | Boom => None end
  | Shows :: l => match win_refresh demo_draw wide_env s with Ret s' _ => wplay l s' | _ => None end
  | _ => None
  end.
Lemma wplay_run sz l : forall l0 s s', win_run demo_draw wide_env sz l0 s false ->
  wplay l s = Some s' -> win_run demo_draw wide_env sz (l0 ++ l) s' false.
Proof.
  induction l as [|d l IH]; intros l0 s s' H Hp; cbn [wplay] in Hp.
  - injection Hp as <-. now rewrite app_nil_r.
  - change (l0 ++ d :: l) with (l0 ++ [d] ++ l). rewrite app_assoc. destruct d as [m| | |]; try discriminate.
    + destruct (screen_method wide_env m (g_sb s)) as [b|] eqn:Em; [|discriminate].
      refine (IH _ _ _ _ Hp). now apply W_draw.
    + destruct (win_refresh demo_draw wide_env s) as [s2 u| | |] eqn:Er; try discriminate.
      refine (IH _ _ _ _ Hp). eapply W_show; [exact H|discriminate|exact Er].
Qed.
Lemma unix_play_run E sz l : env_ok E -> S_Screen.screen_size sz ->
  match unix_play E sz l with Some _ => true | None => false end = true ->
  exists s t, unix_run E S_Emu.ansi_cfg (S_Emu.ansi_tty E) sz l s t.
Proof.
  intros HE Hs H. unfold unix_play in H. destruct (P_Screen5.start E sz (P_Screen5.alls 9)) as [[s0 t0]|] eqn:Es; [|discriminate].
  destruct (uplay E l s0 t0) as [[s t]|] eqn:Ep; [|discriminate]. exists s, t.
  refine (uplay_run E sz l [] s0 t0 s t _ Ep). apply (start_run E sz (P_Screen5.alls 9)); auto.
  repeat (apply Forall_cons; [constructor|]). constructor.
Qed.
Lemma win_play_run sz l s : win_run demo_draw wide_env sz [] s false ->
  match wplay l s with Some _ => true | None => false end = true ->
  exists w, win_run demo_draw wide_env sz l w false.
Proof.
  intros H0 H. destruct (wplay l s) as [w|] eqn:Ep; [|discriminate]. exists w. exact (wplay_run sz l [] s w H0 Ep).
Qed.
