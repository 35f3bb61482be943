(** Proofs about the visibility of the cursor of a [Screen] (C115).  The terminal is
    looked at only while its cursor is as it was: to a program that never asks for a
    visible or an invisible cursor such a terminal is as good as the real one. *)
From Verif Require Import Base M_Utf8 S_Utf8 M_Geom S_Geom M_Attr M_Buf S_Buf M_Writer S_Tty S_Writer M_Screen S_Screen
  P_Buf P_Buf2 P_Buf3 P_Writer P_Attr P_Writer2 P_Writer3 P_Screen P_Screen2 S_CursorMode.

Definition without (C : tcfg) : tcfg :=
  TCfg (fun c => match c with CursorNormal | CursorInvisible => None | _ => info C c end) (grow C) (xterm C).
Lemma compose_without E C s : compose E (without C) s = compose E C s.
Proof. reflexivity. Qed.
Lemma refresh_without E C s : refresh E (without C) s = refresh E C s.
Proof. reflexivity. Qed.
Lemma enter_without C sz w : enter_screen (without C) sz w = enter_screen C sz w.
Proof. reflexivity. Qed.

Definition only (b : bool) (K : tty) : tty :=
  Tty (tstate K) (feed K) (fun t => match look K t with Some v => if Bool.eqb (vvis v) b then Some v else None | None => None end).

Lemma only_look b K t v : look (only b K) t = Some v <-> look K t = Some v /\ vvis v = b.
Proof.
  cbn. destruct (look K t) as [u|]; [|split; [discriminate|intros [H _]; discriminate]].
  destruct (Bool.eqb (vvis u) b) eqn:Eb; split.
  - intros H. injection H as <-. split; [reflexivity|]. now apply Bool.eqb_prop.
  - intros [H _]. exact H.
  - discriminate.
  - intros [H1 H2]. injection H1 as <-. rewrite H2, Bool.eqb_reflx in Eb. discriminate.
Qed.

Lemma only_implements E C K b : implements E C K -> implements E (without C) (only b K).
Proof.
  intros [A1 A2 A3 A4 A5 A6]. constructor.
  - exact A1.
  - exact A2.
  - intros t v H. apply only_look in H. exact (A3 t v (proj1 H)).
  - intros c e He k ps bs k' Hx t v Hl Hd. apply only_look in Hl. destruct Hl as [Hl Hb].
    assert (Hi : info C c = Some e) by (destruct c; try exact He; discriminate He).
    destruct (A4 c e Hi k ps bs k' Hx t v Hl Hd) as (v' & V1 & V2). exists v'. split; [|exact V2].
    apply only_look. split; [exact V1|]. rewrite <- Hb.
    destruct c; cbn in V2; try discriminate He; try (now rewrite V2);
      try (destruct V2 as (kk & _ & ->); reflexivity); try (destruct V2 as ((_ & _ & V2 & _) & _); exact V2);
      try (destruct V2 as (_ & (_ & _ & _ & V2 & _) & _); exact V2); try (destruct V2 as ((_ & _ & _ & V2 & _) & _); exact V2);
      destruct V2 as (_ & _ & V2 & _); exact V2.
  - intros c Hc t v Hl. apply only_look in Hl. destruct Hl as [Hl Hb].
    destruct (A5 c Hc t v Hl) as (v' & V1 & V2 & V3). exists v'. split; [|split; [exact V2|exact V3]].
    apply only_look. split; [exact V1|]. destruct V2 as (_ & _ & V2 & _). congruence.
  - intros Hx t v Hl. apply only_look in Hl. destruct Hl as [Hl Hb]. destruct (A6 Hx t v Hl) as (M1 & M2 & M3 & M4).
    repeat split; apply only_look; auto.
Qed.

Section CursorMode.
  Variables (E : env) (C : tcfg) (K : tty).
  Hypothesis HE : env_ok E.
  Hypothesis HC : env_chars E.
  Hypothesis Hco : caps_coherent C.
  Hypothesis HK : implements E C K.

  Lemma compose_visible s s' u x t v : compose E C s = Ret s' u -> stream (wr s') = stream (wr s) ++ x -> inv E C s v ->
    wides_fit E (sb s) -> (clr s = false -> mended E v (sb s)) -> look K t = Some v ->
    forall v', look K (feed K t x) = Some v' -> vvis v' = vvis v.
  Proof.
    intros H Hx Hi Hf Hu Hl v' Hv'. rewrite <- compose_without in H.
    destruct (compose_spec E (without C) HC s s' u (i_frame _ _ _ _ Hi) Hf H) as (_ & _ & _ & _ & _ & y & Y1 & Y2).
    rewrite Hx in Y1. apply app_inv_head in Y1. subst y.
    destruct (Y2 (only (vvis v) K) Hco (only_implements E C K (vvis v) HK) t v) as (v1 & L1 & _).
    - now apply only_look.
    - split; [|exact Hu]. destruct Hi as [I0 I1 I2 I3 I4 I5 I6]. constructor; auto.
    - apply only_look in L1. destruct L1 as [L1 L2]. change (feed (only (vvis v) K)) with (feed K) in L1. congruence.
  Qed.

  Lemma new_visible sz w s t0 v0 v : screen_size sz -> whole_writes (script w) ->
    look K (feed K t0 (stream w)) = Some v0 -> vsize v0 = sz -> vattrs v0 = shown_attrs C (wat w) ->
    screen_new E C sz (inr sz) w = Ret s tt -> look K (feed K t0 (stream (wr s))) = Some v -> vvis v = vvis v0.
  Proof.
    intros Hs Hw Hl Hz Ha H Hv.
    assert (N : screen_new E (without C) sz (inr sz) w = Ret s tt) by exact H.
    destruct (history_inv E (without C) HE HC (only (vvis v0) K) Hco (only_implements E C K _ HK) any_text (fun _ _ => False) s
      (feed K t0 (stream (wr s)))) as (v1 & L1 & _).
    - intros ? ? _ [].
    - apply (H_new E (without C) (only (vvis v0) K) any_text (fun _ _ => False) sz w s t0 v0); auto. now apply only_look.
    - apply only_look in L1. destruct L1 as [L1 L2]. congruence.
  Qed.

  Lemma watched_history allowed careful s t b : watched E C K allowed careful s t b -> history E C K allowed careful s t.
  Proof.
    induction 1; [eapply H_new|eapply H_buffer|eapply H_mode|eapply H_refresh|eapply H_unflushed|eapply H_resize]; eauto.
  Qed.

  Lemma watched_visible allowed (careful : scr -> view -> Prop) s t b :
    has C CursorNormal = true -> has C CursorInvisible = true ->
    (forall s t, history E C K allowed careful s t -> exists v, look K t = Some v /\ inv E C s v /\
      ((forall v, look K t = Some v -> careful s v) -> wides_fit E (sb s) /\ (clr s = false -> mended E v (sb s)))) ->
    watched E C K allowed careful s t b -> forall v, look K t = Some v -> vvis v = b.
  Proof.
    intros C1 C2 Hg H.
    induction H as [sz w s t0 v0 Hsz Hw Hl Hs Ha H|s t b o b' H IH Ho Hr Hb|s t b m s' x H IH Hm Hx
      |s t b s' x H IH Hca Hre Hx|s t b s1 s2 e x H IH Hca Hco1 Hfl Hx|s t b v1 new s' t' v' H IH Hl Hsz Hob Hl' Hs' Ha' Hvv Hu]; intros v Hv.
    - exact (new_visible _ _ _ _ _ _ Hsz Hw Hl Hs Ha H Hv).
    - exact (IH v Hv).
    - destruct (Hg s t (watched_history _ _ _ _ _ H)) as (v1 & V1 & Hi & _).
      apply on_writer_ret in Hm. destruct Hm as (w & Hm & ->).
      destruct (cursor_mode_effect E C m (wr s) w tt Hm) as (X1 & _ & y & X2 & X3).
      assert (Y : stream w = stream (wr s) ++ y) by (unfold stream; now rewrite X1, X2, app_assoc).
      cbn [wr with_wr] in Hx. rewrite Hx in Y. apply app_inv_head in Y. subst y.
      rewrite (X3 K HK C1 C2 t v1 V1) in Hv. injection Hv as <-. reflexivity.
    - destruct (Hg s t (watched_history _ _ _ _ _ H)) as (v1 & V1 & Hi & Hc).
      destruct (Hc Hca) as [Hf Hun].
      unfold refresh in Hre. apply bind_ret in Hre. destruct Hre as (s1 & u1 & R1 & R2).
      destruct (compose_spec E C HC s s1 u1 (i_frame _ _ _ _ Hi) Hf R1) as (F1 & _).
      destruct (goes_flush s1 s' tt (f_whole _ _ F1) R2) as (_ & _ & _ & _ & _ & _ & T7). rewrite T7 in Hx.
      rewrite <- (IH v1 V1). exact (compose_visible _ _ _ _ _ _ R1 Hx Hi Hf Hun V1 v Hv).
    - destruct (Hg s t (watched_history _ _ _ _ _ H)) as (v1 & V1 & Hi & Hc).
      destruct (Hc Hca) as [Hf Hun].
      destruct (compose_spec E C HC s s1 tt (i_frame _ _ _ _ Hi) Hf Hco1) as (F1 & _).
      destruct (flush_failed s1 s2 e (f_whole _ _ F1) Hfl) as (_ & _ & _ & _ & _ & T7). rewrite T7 in Hx.
      rewrite <- (IH v1 V1). exact (compose_visible _ _ _ _ _ _ Hco1 Hx Hi Hf Hun V1 v Hv).
    - rewrite Hl' in Hv. injection Hv as <-. rewrite Hvv. exact (IH v1 Hl).
  Qed.

  Lemma narrow_visible s t b : has C CursorNormal = true -> has C CursorInvisible = true ->
    watched E C K (single_width E) anyhow s t b -> exists v, look K t = Some v /\ vvis v = b.
  Proof.
    intros C1 C2 H.
    assert (Hg : forall s t, history E C K (single_width E) anyhow s t -> exists v, look K t = Some v /\ inv E C s v /\
      ((forall v, look K t = Some v -> anyhow s v) -> wides_fit E (sb s) /\ (clr s = false -> mended E v (sb s)))).
    { intros s0 t0 H0. destruct (history_narrow E C HE HC K Hco HK s0 t0 H0) as (v & V1 & V2 & V3).
      exists v. split; [exact V1|]. split; [exact V2|]. intros _. exact (proj2 (no_halves_ok E C s0 v V2 V3)). }
    destruct (Hg s t (watched_history _ _ _ _ _ H)) as (v & V1 & _). exists v. split; [exact V1|].
    exact (watched_visible _ _ s t b C1 C2 Hg H v V1).
  Qed.

  Lemma wide_visible s t b : has C CursorNormal = true -> has C CursorInvisible = true ->
    watched E C K any_text (wides_mend E) s t b -> exists v, look K t = Some v /\ vvis v = b.
  Proof.
    intros C1 C2 H.
    assert (Hg : forall s t, history E C K any_text (wides_mend E) s t -> exists v, look K t = Some v /\ inv E C s v /\
      ((forall v, look K t = Some v -> wides_mend E s v) -> wides_fit E (sb s) /\ (clr s = false -> mended E v (sb s)))).
    { intros s0 t0 H0. destruct (history_inv E C HE HC K Hco HK any_text (wides_mend E) s0 t0 (fun s v _ H => H) H0) as (v & V1 & V2).
      exists v. split; [exact V1|]. split; [exact V2|]. intros Hc. exact (Hc v V1). }
    destruct (Hg s t (watched_history _ _ _ _ _ H)) as (v & V1 & _). exists v. split; [exact V1|].
    exact (watched_visible _ _ s t b C1 C2 Hg H v V1).
  Qed.
End CursorMode.
