(** Proofs about programs on a Unix screen, continued. *)
From Verif Require Import Base M_Utf8 S_Utf8 M_Geom S_Geom M_Attr M_Buf S_Buf P_Buf P_Buf2 P_Buf3 P_Buf4 M_Seq M_Signal M_Util M_Input M_Writer S_Tty S_Writer
  P_Writer P_Attr P_Writer2 P_Writer3 M_Screen S_Screen P_Screen P_Screen2 P_Screen3 P_Screen4 P_Screen5
  M_Prepare M_Reader S_Prepare P_Prepare P_Prepare2 P_Reader M_UnixScreen S_UnixScreen P_UnixScreen P_UnixScreen2 P_WinScreen P_UnixScreen3 S_WholeScreen P_WholeScreen.

Section Whole2.
  Variables (E : env) (C : tcfg) (m : seq_map) (K : tty).
  Hypothesis HE : env_ok E.
  Hypothesis HC : env_chars E.
  Hypothesis Hco : caps_coherent C.
  Hypothesis HK : implements E C K.
  Hypothesis Hpc : plain_caps C.

  (** ** The buffer stays sound whatever happens *)
  Definition nice (b : sbuf) : Prop :=
    buf_ok E b /\ screen_size (bsize b) /\ Forall (fun c => narrow_text E (ctext c)) (buffer b).
  Definition nices (r : sres) : Prop := match r with Ret x _ | Fail x _ => nice (sb x) | _ => True end.

  Lemma vec_set_length {A} i (a : A) l l' : vec_set i a l = Some l' -> length l' = length l.
  Proof. intros H. destruct (vec_set_some i a l l' H) as [H1 ->]. now apply P_Buf.upd_length. Qed.
  Lemma nice_back b l : nice b -> length l = length (M_Buf.back b) -> nice (with_back b l).
  Proof.
    intros ((B1 & B2 & B3 & B4) & N2 & N3) Hl. split; [|split; assumption]. unfold buf_ok. cbn [bsize buffer M_Buf.back with_back].
    repeat split; auto. congruence.
  Qed.
  Lemma next_cell_nice fuel : forall b lo hi r, nice b -> next_cell_aux E fuel b lo hi = Val r -> nice (fst (fst r)).
  Proof.
    induction fuel as [|fuel IH]; intros b lo hi r Hb; cbn [next_cell_aux]; [now intros [= <-]|].
    destruct (hi <=? lo); [now intros [= <-]|].
    destruct (nth_error (buffer b) lo) as [c|]; [|discriminate]. destruct (first_char c) as [ch|]; [|discriminate].
    destruct (nth_error (M_Buf.back b) lo) as [k|]; [|discriminate]. destruct (cell_eqb c k); [now apply IH|].
    destruct (columns (bsize b)); [discriminate|]. destruct (vec_set lo c (M_Buf.back b)) as [l|] eqn:Ev; [|discriminate].
    intros [= <-]. cbn [fst]. apply nice_back; [exact Hb|]. now apply vec_set_length in Ev.
  Qed.
  Lemma nices_bind r (k : scr -> unit -> sres) : nices r -> (forall x u, nice (sb x) -> nices (k x u)) -> nices (obind r k).
  Proof. destruct r; cbn; auto. Qed.
  Lemma nices_on f x : nice (sb x) -> nices (on_writer f x).
  Proof. intros H. unfold on_writer. destruct (f (M_Screen.wr x)); cbn; auto. Qed.
  Lemma nices_move p x : nice (sb x) -> nices (s_move_cursor C p x).
  Proof.
    intros H. unfold s_move_cursor. destruct (cursor_eqb _ _); [exact H|].
    apply nices_bind; [now apply nices_on|]. intros y u Hy. exact Hy.
  Qed.
  Lemma nices_draw fuel : forall lo hi x, nice (sb x) -> nices (draw E C fuel lo hi x).
  Proof.
    induction fuel as [|fuel IH]; intros lo hi x H; cbn [draw];
      destruct (next_cell E (sb x) lo hi) as [[[b lo'] [[p c]|]]|] eqn:Hn; try exact I; unfold next_cell in Hn; apply next_cell_nice in Hn; try exact H;
      cbn [fst] in Hn; try exact Hn;
      (apply nices_bind; [apply nices_move; exact Hn|]; intros x1 u1 H1;
       apply nices_bind; [now apply nices_on|]; intros x2 u2 H2; apply nices_bind; [now apply nices_on|]; intros x3 u3 H3;
       destruct (uadd _ _ _); try exact I).
    apply IH. exact H3.
  Qed.
  Lemma nices_refresh x : nice (sb x) -> nices (refresh E C x).
  Proof.
    intros H. unfold refresh, compose. apply nices_bind; [|intros; now apply nices_on].
    apply nices_bind.
    { destruct (clr x); [|exact H]. apply nices_bind; [now apply nices_on|]. intros y u Hy. exact Hy. }
    intros x1 u1 H1. apply nices_bind; [now apply nices_on|]. intros x2 u2 H2.
    destruct (sb_indices E (sb x2)) as [[lo hi]|]; [|exact I].
    apply nices_bind; [now apply nices_draw|]. intros x3 u3 H3. apply nices_bind; [now apply nices_on|]. intros x4 u4 H4.
    destruct (is_out_of_bounds _ _); [destruct (cursor_last _); [|exact I]|]; now apply nices_move.
  Qed.
  Lemma nices_guard x : nice (sb x) -> nices (s_guard_drop E C x).
  Proof.
    intros H. unfold s_guard_drop. pose proof (nices_refresh x H) as R.
    destruct (refresh E C x); cbn in R; auto; now apply nices_on.
  Qed.
  Lemma nices_screen_refresh x : nice (sb x) -> nices (screen_refresh E C x).
  Proof.
    intros H. unfold screen_refresh. pose proof (nices_refresh x H) as R.
    destruct (refresh E C x) as [y u|y e| |]; cbn in R; auto; pose proof (nices_guard y R) as G;
      destruct (s_guard_drop E C y); cbn in *; auto.
  Qed.
  Lemma nice_buffer o b b' : (forall z, o <> BResize z) -> single_width E o -> run_buf_op E b o = Val b' -> nice b -> nice b'.
  Proof.
    intros Hr Hs R (B1 & B2 & B3). destruct (op_ok E HE b o b' B1 Hr R) as (O1 & _ & O3).
    split; [exact O1|]. split; [now rewrite O3|]. exact (op_narrow E HE b o b' Hr Hs R B3).
  Qed.
  Lemma public_not_resize o : public_gop (GBuffer o) -> forall z, o <> BResize z.
  Proof. intros H z ->. exact H. Qed.
  Lemma nices_gop o x : public_gop o -> single_gop E o -> nice (sb x) -> nices (g_step E C o x).
  Proof.
    intros Hp Hs H. destruct o; cbn [g_step]; [|now apply nices_on|now apply nices_refresh].
    destruct (run_buf_op E (sb x) o) as [b|] eqn:R; [|exact I]. cbn. exact (nice_buffer o (sb x) b (public_not_resize o Hp) Hs R H).
  Qed.
  Lemma nices_grun l : forall x, Forall public_gop l -> Forall (single_gop E) l -> nice (sb x) -> nices (g_run E C l x).
  Proof.
    induction l as [|o l IH]; intros x Hp Hs H; cbn [g_run]; [now apply nices_guard|]. inversion Hp as [|? ? P1 P2]. inversion Hs as [|? ? S1 S2].
    pose proof (nices_gop o x P1 S1 H) as S. destruct (g_step E C o x); cbn in *; auto.
  Qed.
  Lemma nice_out f u u' r : nices (f (out_side u)) -> on_out f u = Some (u', r) -> nice (u_sb u').
  Proof. intros Hf. unfold on_out. destruct (f (out_side u)); intros [= <- _]; exact Hf. Qed.
  Lemma nice_follow e u u' : (forall z, e = Some (EResize z) -> screen_size z) -> nice (u_sb u) -> follow E e u = Val u' -> nice (u_sb u').
  Proof.
    intros Hz H. unfold follow. destruct e as [[]|]; try (now intros [= <-]).
    unfold update_size. destruct (sb_resize E (sb (out_side u)) _) as [b|] eqn:R; [|discriminate]. intros [= <-]. cbn.
    destruct H as (B1 & B2 & B3). destruct (sb_resize_ok E HE _ _ _ B1 (Hz _ eq_refl) R) as (R1 & R2 & _ & R4).
    split; [exact R1|]. split; [rewrite R2; now apply Hz|]. apply (R4 (narrow_text E)); [exact (space_not_wide E HE)|exact B3].
  Qed.
  Lemma nice_step o u u' r : public_op o -> single_op E o -> (forall z, resize_of r = Some z -> screen_size z) -> nice (u_sb u) ->
    ustep E C m o u = Some (u', r) -> nice (u_sb u').
  Proof.
    intros Hp Hs Hz H. destruct o; cbn [ustep].
    - apply nice_out. apply nices_gop; [exact Hp|exact Hs|exact H].
    - apply nice_out. now apply nices_on.
    - apply nice_out. now apply nices_screen_refresh.
    - apply nice_out. now apply nices_grun.
    - destruct (wait_event m timeout (u_sys u)) as [x b|x e| |]; intros [= <- <-]; exact H.
    - destruct (read_event C m timeout (u_sys u)) as [x b|x e| |]; try discriminate; [|intros [= <- <-]; exact H].
      destruct (follow E b (with_sys x u)) as [v|] eqn:Ef; [|discriminate]. intros [= <- <-].
      apply (nice_follow b (with_sys x u)); [|exact H|exact Ef]. intros z ->. now apply Hz.
    - destruct (read_raw C m room timeout (u_sys u)) as [x [b bs]|x e| |]; try discriminate; [|intros [= <- <-]; exact H].
      destruct (follow E b (with_sys x u)) as [v|] eqn:Ef; [|discriminate]. intros [= <- <-].
      apply (nice_follow b (with_sys x u)); [|exact H|exact Ef]. intros z ->. now apply Hz.
  Qed.

  (** ** The terminal is in step *)
  Definition syn (x : scr) (t : tstate K) : Prop := exists v, look K t = Some v /\ inv E C x v /\ no_halves E x v.
  Definition synd (x : scr) (t : tstate K) : Prop := exists v, look K t = Some v /\ done E C x v /\ no_halves E x v.
  Lemma synd_syn x t : synd x t -> syn x t.
  Proof. intros (v & V1 & V2 & V3). exists v. split; [exact V1|]. split; [apply V2|exact V3]. Qed.
  Definition moves (P : scr -> tstate K -> Prop) (x x' : scr) : Prop :=
    forall t, syn x t -> exists y, stream (M_Screen.wr x') = stream (M_Screen.wr x) ++ y /\ P x' (feed K t y).
  Lemma moves_trans P a b c : moves syn a b -> moves P b c -> moves P a c.
  Proof.
    intros H1 H2 t Ht. destruct (H1 t Ht) as (y & Y1 & Y2). destruct (H2 _ Y2) as (z & Z1 & Z2). exists (y ++ z).
    split; [now rewrite Z1, Y1, app_assoc|]. now rewrite (feed_app _ _ _ HK).
  Qed.
  Lemma moves_syn x x' : moves synd x x' -> moves syn x x'.
  Proof. intros H t Ht. destruct (H t Ht) as (y & Y1 & Y2). exists y. split; [exact Y1|]. now apply synd_syn. Qed.

  Lemma moves_buffer o x b : (forall z, o <> BResize z) -> single_width E o -> run_buf_op E (sb x) o = Val b -> moves syn x (with_sb b x).
  Proof.
    intros Hr Hs R t (v & V1 & [[F1 F2 F3] I1 I2 I3 I4 I5 I6] & N1 & N2). exists []. split; [symmetry; apply app_nil_r|].
    rewrite (feed_nil _ _ _ HK). exists v. split; [exact V1|]. destruct (op_ok E HE _ _ _ F1 Hr R) as (B1 & B2 & B3).
    assert (Hsy : forall j, synced_at E C (sb x) v j -> synced_at E C b v j).
    { unfold synced_at. now rewrite B2. }
    split; [|split; [exact (op_narrow E HE _ _ _ Hr Hs R N1)|exact N2]].
    constructor; cbn [sb clr real M_Screen.wr with_sb]; rewrite ?B3; auto.
    - constructor; cbn [sb M_Screen.wr with_sb]; rewrite ?B3; auto.
    - intros Hc. destruct (I4 Hc). split; auto.
    - unfold all_invalid. rewrite B2. exact I5.
    - unfold belongs. rewrite B2. exact I6.
  Qed.
  Lemma moves_mode c x x' u : on_writer (set_cursor_mode C c) x = Ret x' u -> moves syn x x'.
  Proof.
    intros R t (v & V1 & [F I1 I2 I3 I4 I5 I6] & N1 & N2).
    destruct (mode_goes E C _ _ _ _ (f_whole _ _ F) R) as (M1 & M2 & M3 & M4 & M5). assert (M6 := M5).
    destruct M6 as (_ & y & Y & _). exists y. split; [exact Y|].
    destruct (goes_here E C K Hco HK _ _ _ _ y t v M5 Y V1 I) as (v' & V2 & b & ->). exists (set_vvis b v). split; [exact V2|].
    destruct F as [F1 F2 F3]. split.
    - constructor; rewrite ?M1, ?M2, ?M3, ?M4; auto. constructor; rewrite ?M1; auto. apply M5.
    - split; [now rewrite M1|]. rewrite M2. exact N2.
  Qed.
  Lemma moves_drawn x x' : drawn E C x x' -> moves synd x x'.
  Proof.
    intros D t (v & V1 & V2 & V3). destruct (no_halves_ok E C x v V2 V3) as (H1 & H2 & H3). destruct V3 as [N1 N2].
    assert (G : forall x1 v1, sb x1 = with_back (sb x) (M_Buf.back (sb x1)) -> done E C x1 v1 -> no_halves E x1 v1).
    { intros x1 v1 S1 D1. split; [rewrite S1; exact N1|]. intros _. apply (done_no_halves E C x1 v1 D1). intros i. rewrite S1. apply H1. }
    destruct D as [D|(x1 & e & D1 & D2)].
    - destruct (refresh_spec E C HC _ _ _ (i_frame _ _ _ _ V2) H2 D) as (R1 & R2 & R3 & R4 & R5). assert (R6 := R5). destruct R6 as (_ & y & Y & _).
      exists y. split; [exact Y|]. destruct (goes_here E C K Hco HK _ _ _ _ y t v R5 Y V1 (conj V2 H3)) as (v' & W1 & W2).
      exists v'. split; [exact W1|]. split; [exact W2|]. now apply G.
    - destruct (compose_spec E C HC _ _ _ (i_frame _ _ _ _ V2) H2 D1) as (R1 & R2 & R3 & R4 & R5).
      destruct (flush_failed _ _ _ (f_whole _ _ R1) D2) as (T2 & T3 & T4 & T5 & T6 & T7). assert (R6 := R5). destruct R6 as (_ & y & Y & _).
      exists y. split; [now rewrite T7|]. destruct (goes_here E C K Hco HK _ _ _ _ y t v R5 Y V1 (conj V2 H3)) as (v' & W1 & W2).
      exists v'. split; [exact W1|]. split; [exact (done_same E C x1 x' v' T2 T3 T4 T5 T6 W2)|].
      destruct (G x1 v' R2 W2) as [G1 G2]. split; [now rewrite T2|]. rewrite T3. exact G2.
  Qed.
  (** The writer's guard is dropped. *)
  Lemma moves_still (P : scr -> tstate K -> Prop) x w : (P = syn \/ P = synd) -> still K (M_Screen.wr x) w ->
    forall t, P x t -> exists y, stream w = stream (M_Screen.wr x) ++ y /\ P (M_Screen.with_wr w x) (feed K t y).
  Proof.
    intros HP (S1 & S2 & y & S3 & S4) t. assert (Hi : forall v, inv E C x v -> inv E C (M_Screen.with_wr w x) v).
    { intros v [[F1 F2 F3] I1 I2 I3 I4 I5 I6]. constructor; cbn [sb clr real M_Screen.wr M_Screen.with_wr]; rewrite ?S2; auto. constructor; auto. }
    destruct HP as [->| ->]; intros (v & V1 & V2 & V3); exists y; (split; [exact S3|]); exists v; (split; [now apply S4|]);
      (split; [|exact V3]); [now apply Hi|]. destruct V2 as (D1 & D2). split; [now apply Hi|exact D2].
  Qed.
  Lemma moves_on_drop (P : scr -> tstate K -> Prop) x x' u t : (P = syn \/ P = synd) -> on_writer guard_drop x = Ret x' u -> P x t ->
    exists y, stream (M_Screen.wr x') = stream (M_Screen.wr x) ++ y /\ P x' (feed K t y).
  Proof.
    intros HP H Hx. apply on_writer_ret in H. destruct H as (w & H & ->).
    assert (Hw : whole_writes (script (M_Screen.wr x))).
    { destruct HP as [->| ->]; destruct Hx as (v & _ & V2 & _); [apply V2|apply (proj1 V2)]. }
    pose proof (still_drop E C K HK (M_Screen.wr x) Hw) as S. rewrite H in S. exact (moves_still P x w HP S t Hx).
  Qed.
  Lemma drawn_state x x' : drawn E C x x' -> refresh E C x = Ret x' tt \/ exists e, refresh E C x = Fail x' e.
  Proof. intros [H|(x1 & e & H1 & H2)]; [now left|]. right. exists e. unfold refresh. now rewrite H1. Qed.
  Lemma moves_guard x x1 x' u : drawn E C x x1 -> s_guard_drop E C x = Ret x' u -> moves synd x x'.
  Proof.
    intros D H t Ht. destruct (moves_drawn x x1 D t Ht) as (y & Y1 & Y2).
    assert (Hg : on_writer guard_drop x1 = Ret x' u).
    { unfold s_guard_drop in H. destruct (drawn_state x x1 D) as [R|[e R]]; rewrite R in H; exact H. }
    destruct (moves_on_drop synd x1 x' u _ (or_intror eq_refl) Hg Y2) as (z & Z1 & Z2). exists (y ++ z).
    split; [now rewrite Z1, Y1, app_assoc|]. now rewrite (feed_app _ _ _ HK).
  Qed.
  Lemma no_drop_error x x' e : on_writer guard_drop x = Fail x' e -> False.
  Proof. unfold on_writer, guard_drop. destruct (flush (M_Screen.wr x)); discriminate. Qed.
  Lemma no_guard_error x x' e : s_guard_drop E C x = Fail x' e -> False.
  Proof. unfold s_guard_drop. destruct (refresh E C x); try discriminate; apply no_drop_error. Qed.
  Lemma moves_grun l : forall x x', Forall public_gop l -> Forall (single_gop E) l -> g_calm E C l x ->
    g_run E C l x = Ret x' tt -> moves synd x x'.
  Proof.
    induction l as [|o l IH]; intros x x' Hp Hs Hc H; cbn [g_run] in H.
    - inversion Hc. subst. eapply moves_guard; eassumption.
    - inversion Hp as [|? ? P1 P2]. inversion Hs as [|? ? S1 S2]. subst.
      inversion Hc as [|o0 l0 x0 b R Hc' Q1 Q2|c l0 x0 x1 R Hc' Q1 Q2|l0 x0 x1 D Hc' Q1 Q2]; subst; cbn [g_step] in H.
      + rewrite R in H. exact (moves_trans _ _ _ _ (moves_buffer _ _ _ (public_not_resize _ P1) S1 R) (IH _ _ P2 S2 Hc' H)).
      + rewrite R in H. exact (moves_trans _ _ _ _ (moves_mode _ _ _ _ R) (IH _ _ P2 S2 Hc' H)).
      + assert (H' : g_run E C l x1 = Ret x' tt) by (destruct (drawn_state x x1 D) as [R|[e R]]; rewrite R in H; exact H).
        exact (moves_trans _ _ _ _ (moves_syn _ _ (moves_drawn _ _ D)) (IH _ _ P2 S2 Hc' H')).
  Qed.
  Lemma grun_no_error l : forall x x' e, g_run E C l x = Fail x' e -> False.
  Proof.
    induction l as [|o l IH]; intros x x' e; cbn [g_run]; [apply no_guard_error|]. destruct (g_step E C o x); try discriminate; apply IH.
  Qed.
  Lemma refresh_run x : g_run E C [GRefresh] x = match screen_refresh E C x with Ret x' _ | Fail x' _ => Ret x' tt | r => r end.
  Proof.
    cbn [g_run g_step]. unfold screen_refresh. destruct (refresh E C x) as [y u|y e| |]; try reflexivity;
      destruct (s_guard_drop E C y) as [z []|z f| |] eqn:Eg; try reflexivity; destruct (no_guard_error _ _ _ Eg).
  Qed.
End Whole2.
