(** Proofs about the example programs (C140): Windows. *)
From Verif Require Import Base M_Utf8 S_Utf8 M_Geom S_Geom M_Attr M_Buf S_Buf M_Writer M_Api S_Api M_ScreenApi M_Locks S_Locks S_Together
  M_WinWriter S_WinWriter M_WinReader M_WinScreen S_WinScreen S_WinCanvas M_WinApi S_WinApi M_WinLocks S_WinLocks M_WinShare S_WinTogether S_WinCursor
  S_Program S_WinProgram P_WinProgram2 S_TermProgram P_TermProgram3 M_Examples S_Examples P_Examples P_Examples2 P_Examples3.
From Verif Require S_Canvas.
Import S_Canvas.

Lemma single_round E shown d x : plain_text E d -> In x (kvalues d) -> drawable shown d ->
  Forall (fun m => Forall (single E shown) (method_text m)) (round_calls d x).
Proof.
  intros (T1 & T2 & T3 & T4) Hx Hsh.
  assert (S : forall s, Forall (one_column E) s -> Forall (fun c => shown [c] <> None) s -> Forall (single E shown) s).
  { intros s H H'. rewrite Forall_forall in *. intros c Hc. right. right. right. specialize (H' c Hc). destruct (H c Hc) as (W & Cb & _). split; [exact Cb|].
    split; [intros [_ X]; congruence|auto]. }
  unfold drawable in Hsh. rewrite !Forall_app in Hsh. destruct Hsh as (D1 & D2 & D3 & D4).
  assert (D5 : Forall (fun c => shown [c] <> None) x) by (rewrite Forall_forall in *; intros c Hc; apply D4, in_concat; eauto).
  assert (Hn : Forall (single E shown) []) by constructor.
  unfold round_calls. do 6 (apply Forall_cons; [cbn [method_text]; first [exact Hn|now apply S]|]).
  apply Forall_cons; [|apply Forall_cons; [exact Hn|apply Forall_nil]].
  cbn [method_text concat]. rewrite app_nil_r. apply Forall_app. split; [now apply S|]. apply Forall_app.
  split; [apply S; [exact (proj1 (Forall_forall _ _) T4 x Hx)|exact D5]|]. constructor; [|constructor]. right. now left.
Qed.

Lemma example_console draw shown E : places draw shown -> env_ok E -> (32767 <= Z.of_nat (umax E))%Z ->
  forall kids n s k r tr c t' d', wpainted draw shown E s k r -> (r = true -> covers (sees s)) -> brush k = no_attrs ->
  Forall (plain_text E) kids -> Forall (drawable shown) kids -> own_lines kids -> Forall (has_room (ksize k)) kids ->
  wrun (screen_access draw E (g_state s) (g_old s)) (wstart (main_task n :: map draw_task kids) (wshare s)) tr c ->
  wfinished c -> S_Together.no_failure tr -> no_new_size tr -> wshared c = (Some t', Some d') ->
  (exists d, In d kids /\ kvalues d <> []) ->
  exists k', holds (dbuf d') k' /\ shows_latest kids k' /\ ksize k' = ksize k /\
    (forall l c, elsewhere kids l c -> ink k' l c = ink k l c) /\
    wdisplays shown (t_default (g_t s)) (c_view (w_con (t_w t'))) k' /\ v_cur (c_view (w_con (t_w t'))) = Coord 0 0.
Proof.
  intros HP HE HU kids n s k r tr c t' d' Hp Hcv Hb Ht Hsh Ho Hr R F Hf Hn Hs Hd.
  destruct (wshare_screen draw shown E HP HE HU (main_task n :: map draw_task kids) s k r tr c t' d' Hp Hcv) as (order & O1 & H1 & H2 & _ & H3); auto.
  { constructor.
    - split; [apply main_follows|]. apply main_draws.
    - apply Forall_forall. intros p Hi. apply in_map_iff in Hi. destruct Hi as (d & <- & Hi). split; [apply draw_follows|].
      apply draw_draws. intros x Hx. apply single_round; [|exact Hx|]; rewrite Forall_forall in Ht, Hsh; auto. }
  destruct (lines_shown E kids k n order Hb Ht Ho Hr O1) as (L1 & L2 & L3); [intros sz Hi; destruct (H1 sz Hi)|].
  destruct (L3 H1) as (K1 & K2 & K3). destruct (K3 Hd) as (Kp & Kl & Ks).
  eexists. split; [exact H2|]. split; [exact L1|]. split; [exact K1|]. split; [exact K2|]. rewrite Kl in H3. destruct H3 as [H3 H4]. split; [exact H3|].
  rewrite H4. unfold pen_goal. rewrite Kp, K1. destruct Hd as (d & Hi & Hv).
  destruct (proj1 (Forall_forall _ _) Hr d Hi) as [G1 G2]. destruct (kvalues d) as [|x0 vs] eqn:Ev; [now destruct Hv|].
  specialize (G2 x0 (or_introl eq_refl)). unfold on_canvas. cbn [line column].
  destruct (lines (ksize k)); [lia|]. destruct (columns (ksize k)); [lia|]. reflexivity.
Qed.

Lemma win_effect_forward draw default m m' F F' : forward m = forward m' -> win_effect draw default m F F' -> win_effect draw default m' F F'.
Proof.
  destruct m, m'; cbn; intros H; try discriminate H;
    unfold api_add_style, api_write_str, style_or_default in *;
    repeat match goal with o : option style |- _ => destruct o end;
    repeat match goal with H0 : context [to_string ?p] |- _ => rewrite (to_string_concat p) in H0 end;
    intros X; try exact X; injection H; intros; subst; try exact X; try discriminate; try congruence; try reflexivity.
  all: match goal with H0 : concat _ = concat _ |- _ => rewrite H0 in X; exact X end.
Qed.
Lemma win_effects_forward draw default l l' : Forall2 same_call l l' ->
  forall F F', win_effects draw default (map OnGuard l) F F' -> win_effects draw default (map OnGuard l') F F'.
Proof.
  induction 1 as [|m m' l l' Hm _ IH]; intros F F' H; [exact H|]. cbn [map] in *. inversion H as [|c cs F0 F1 F2 He Hr]; subst.
  econstructor; [exact (win_effect_forward draw default _ _ _ _ Hm He)|now apply IH].
Qed.

Lemma example_console_terminal draw default E : S_WinApi.draws draw -> (default < 65536)%N -> (65536 <= Z.of_nat (umax E))%Z ->
  forall kids s F tr c s', (forall e x, In e kids -> In x (kvalues e) -> Forall scalar_text (line_calls e x)) ->
  faces default (w_con s) F -> f_attrs F = w_at s -> view_ok (f_view F) ->
  wrun (console_access draw E default) (wstart (map say_task kids) (Some s, tt)) tr c -> wfinished c -> S_Together.no_failure tr ->
  wshared c = (Some s', tt) ->
  exists (lines : list (nat * list N)) F', (forall i, done_by i lines = kvalues (nth i kids nobody)) /\
    win_effects draw default (map OnGuard (concat (map (fun x => line_calls (nth (fst x) kids nobody) (snd x)) lines))) F F' /\
    faces default (w_con s') F'.
Proof.
  intros HD Hd HU kids s F tr c s' Hk H1 H2 H3 R Hfin Hf Hs.
  destruct (wshare_terminal draw default E HD Hd HU (map say_task kids) s F tr c s') as (order & F' & O1 & O2 & O3); auto.
  { apply Forall_forall. intros p Hi. apply in_map_iff in Hi. destruct Hi as (e & <- & Hi). split; [apply say_follows|]. apply say_terminal. eauto. }
  destruct (say_order kids order O1) as (lines & L1 & L2). exists lines, F'. split; [exact L1|]. split; [|exact O3].
  exact (win_effects_forward draw default _ _ L2 _ _ O2).
Qed.
