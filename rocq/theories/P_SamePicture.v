(** Proofs about one program on a Unix terminal and a Windows console (C135). *)
From Verif Require Import Base M_Utf8 S_Utf8 M_Geom S_Geom M_Attr M_Signal M_Util M_Input M_Buf S_Buf M_Writer M_Prepare M_Reader
  M_WinWriter M_WinReader S_WinReader M_WinScreen S_WinScreen M_ScreenApi S_WinCanvas P_WinDraw P_WinDraw2 P_WinCanvas.
From Verif Require S_Tty S_Writer M_Screen S_Screen S_WinWriter S_Canvas P_Canvas P_Canvas2.
From Verif Require Import S_SamePicture.

Definition deed_draw (E : env) (k : S_Canvas.canvas) (d : deed) : S_Canvas.canvas :=
  match d with Draws m => S_Canvas.draw E m k | Fits sz => S_Canvas.refit sz k | _ => k end.
Definition drawing (E : env) (sz : size) (l : list deed) : S_Canvas.canvas := fold_left (deed_draw E) l (S_Canvas.blank_canvas sz).
Lemma drawing_app E sz l d : drawing E sz (l ++ [d]) = deed_draw E (drawing E sz l) d.
Proof. unfold drawing. now rewrite fold_left_app. Qed.
Lemma plain_app E shown l d : Forall (plain E shown) (l ++ [d]) -> Forall (plain E shown) l /\ plain E shown d.
Proof. intros H. apply Forall_app in H as [H1 H2]. inversion H2; auto. Qed.

Lemma unix_painted E C K sz shown l s t : unix_run E C K sz l s t -> Forall (plain E shown) l ->
  S_Canvas.painted E C K s t (drawing E sz l).
Proof.
  induction 1; intros HP; try (apply plain_app in HP as [HP Hd]; rewrite drawing_app; cbn [deed_draw]).
  - eapply S_Canvas.Pt_new; eassumption.
  - eapply S_Canvas.Pt_method; [exact (IHunix_run HP)|exact (proj1 Hd)|assumption].
  - eapply S_Canvas.Pt_mode; [exact (IHunix_run HP)|eassumption|assumption].
  - eapply S_Canvas.Pt_refresh; [exact (IHunix_run HP)|eassumption|assumption].
  - eapply S_Canvas.Pt_resize; [exact (IHunix_run HP)|eassumption..].
Qed.
Lemma win_painted dr E shown sz l s r : win_run dr E sz l s r -> Forall (plain E shown) l ->
  wpainted dr shown E s (drawing E sz l) r.
Proof.
  induction 1; intros HP; try (apply plain_app in HP as [HP Hd]; rewrite drawing_app; cbn [deed_draw]).
  - change (drawing E sz []) with (S_Canvas.blank_canvas sz). subst sz. eapply WP_new; eassumption.
  - eapply WP_method; [exact (IHwin_run HP)|exact (proj2 Hd)|assumption].
  - eapply WP_mode; [exact (IHwin_run HP)|eassumption].
  - eapply WP_refresh; [exact (IHwin_run HP)|assumption|eassumption].
  - eapply WP_resize; [exact (IHwin_run HP)|assumption|eassumption].
Qed.

Lemma same_pictures dr shown E C K : places dr shown -> env_ok E -> (32767 <= Z.of_nat (umax E))%Z ->
  S_Buf.env_chars E -> S_Writer.caps_coherent C -> S_Tty.implements E C K ->
  forall sz l s t w r s' x w' u,
    Forall (plain E shown) l -> unix_run E C K sz l s t -> win_run dr E sz l w r ->
    screen_get_size (M_Screen.sb s) = screen_get_size (g_sb w) /\
    screen_get_cursor (M_Screen.sb s) = screen_get_cursor (g_sb w) /\
    (M_Screen.refresh E C s = Ret s' tt -> S_Writer.stream (M_Screen.wr s') = S_Writer.stream (M_Screen.wr s) ++ x ->
     (r = true -> covers (sees w)) -> win_refresh dr E w = Ret w' u ->
     exists v, S_Tty.look K (S_Tty.feed K t x) = Some v /\ same_picture C shown (t_default (g_t w)) v (sees w')).
Proof.
  intros HP HE HU HC HK HI sz l s t w r s' x w' u Hl Hs Hw.
  pose proof (unix_painted E C K sz shown l s t Hs Hl) as PU. pose proof (win_painted dr E shown sz l w r Hw Hl) as PW.
  destruct (P_Canvas.painting_shows E HE C K HC HK HI s t _ PU) as (U1 & U2 & U3).
  destruct (winpainting_shows dr shown E HP HE w _ r HU PW) as (W1 & W2 & W3).
  split; [congruence|]. split; [congruence|]. intros R1 X R R2.
  destruct (U3 s' x R1 X) as (_ & v & L & (D1 & D2) & D3). destruct (W3 w' u R R2) as ((Q1 & Q2) & Q3).
  exists v. split; [exact L|]. split; [congruence|]. split; [now rewrite D3|]. intros p Hp. rewrite D1 in *.
  destruct (Q2 p Hp) as (g & i & C1 & C2 & C3). do 4 eexists. split; [exact (D2 p Hp)|]. split; [exact C1|]. split; [exact C2|exact C3].
Qed.
