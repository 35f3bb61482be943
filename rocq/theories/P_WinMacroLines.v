(** Proofs about what [term_write!] shows on a Windows console (C142). *)
From Verif Require Import Base M_Utf8 S_Utf8 M_Geom M_Attr M_Buf M_Writer M_Macros S_Macros P_Macros M_Api S_Api M_WinWriter S_WinWriter S_WinScreen M_WinApi S_WinApi M_WinScreen M_WinMacros M_ScreenApi S_Buf S_WinCanvas P_WinCanvas P_Succeeds3
  M_Lines S_Lines S_WinLines P_WinLines S_MacroLines P_MacroLines.

Section WinMacroLines.
  Variables (U : Type) (draw : list N -> N -> view -> view) (default : N) (E : env).
  Notation weval := (win_term_eval U draw default E).

  Lemma win_method_asks m u s : win_term_method U draw default E m (u, s) =
    match P_Macros.asked U m u with
    | (u', Some q) => match run_win draw default E (on_terminal q) s with
                      | Ret s' _ => Ret (u', s') tt | Fail s' e => Fail (u', s') e | Panic => Panic | Blocked => Blocked end
    | (_, None) => Panic
    end.
  Proof.
    destruct m; cbn; try reflexivity; unfold from; destruct (e u) as [u' x]; cbn; try reflexivity. destruct x; reflexivity.
  Qed.
  Lemma win_eval_chain ms : forall r st, weval (chain U r ms) st = obind (weval r st) (fun st _ => weval (chain U (EInit U) ms) st).
  Proof.
    induction ms as [|m ms IH]; intros r st.
    - cbn. destruct (weval r st) as [? []| | |]; reflexivity.
    - cbn [chain]. rewrite IH. symmetry. cbn [win_term_eval]. destruct (weval r st) as [st' []| | |]; cbn [obind]; try reflexivity.
      rewrite (IH (EChain U (EInit U) m)). reflexivity.
  Qed.
  Lemma win_chain_calls l ms : Forall2 (fun t m => rule U t = Some m) l ms -> forall u qs u1, answers U l u qs u1 ->
    forall s u' s', weval (chain U (EInit U) ms) (u, s) = Ret (u', s') tt ->
    u' = u1 /\ win_api_run draw default E (map OnGuard (map as_call qs)) s = Some s'.
  Proof.
    induction 1 as [|t m l ms Hr _ IH]; intros u qs u1 Ha s u' s' R; inversion Ha as [|? ? f ? u2 q qs' ? A1 A2 A3]; subst.
    - cbn in R. injection R as <- <-. auto.
    - cbn [chain] in R. rewrite win_eval_chain in R. cbn [win_term_eval obind] in R. rewrite win_method_asks in R.
      destruct (means_rule U t f A1) as (m' & M1 & M2). rewrite Hr in M1. injection M1 as <-. rewrite <- M2, A2 in R.
      cbn [map win_api_run win_api_run1]. unfold win_guard_method. rewrite forward_request.
      destruct (run_win draw default E (on_terminal q) s) as [s2 []| | |]; cbn [obind] in R; try discriminate. eauto.
  Qed.
  Lemma win_macro_calls l u qs u1 : l <> [] -> answers U l u qs u1 -> forall s u' s',
    win_term_write U draw default E l (u, s) = Some (Ret (u', s') tt) ->
    u' = u1 /\ win_api_run draw default E (map OnGuard (map as_call qs)) s = Some s'.
  Proof.
    intros Hn Ha s u' s' R. destruct (documented_methods U l (answers_documented U _ _ _ _ Ha)) as [ms Hms].
    unfold win_term_write, expansion_of in R. destruct l as [|t l]; [contradiction|].
    rewrite main_rules_chain, (methods_fold U _ _ Hms) in R. cbn [option_map] in R. injection R as R. eapply win_chain_calls; eauto.
  Qed.

  Lemma win_macro_line shown : draws draw -> places draw shown -> (default < 65536)%N -> (65536 <= Z.of_nat (umax E))%Z ->
    forall l u qs u1 s F u' s', l <> [] -> answers U l u qs u1 -> Forall (win_line_call shown) (map as_call qs) ->
    faces default (w_con s) F -> f_attrs F = w_at s -> view_ok (f_view F) ->
    let ms := map as_call qs in
    let x := inked ms (f_attrs F) in
    (cX (v_cur (f_view F)) + Z.of_nat (length x) < cX (v_size (f_view F)))%Z ->
    win_term_write U draw default E l (u, s) = Some (Ret (u', s') tt) ->
    u' = u1 /\ exists F', faces default (w_con s') F' /\ f_attrs F' = asked_at_end ms (f_attrs F) /\ wlaid shown default x (f_view F) (f_view F').
  Proof.
    intros HD HP Hd HU l u qs u1 s F u' s' Hn Ha Hq Hf Hat Hv ms x Hr R. subst ms x.
    destruct (win_macro_calls l u qs u1 Hn Ha s u' s' R) as (-> & R'). split; [reflexivity|].
    pose proof (win_line_shown draw shown default E HD HP Hd HU (map OnGuard (map as_call qs)) s s' F) as T. cbv zeta in T.
    assert (Em : map (fun c => match c with OnGuard m | OnTerminal m => m end) (map OnGuard (map as_call qs)) = map as_call qs) by (rewrite map_map; apply map_id).
    rewrite Em in T. apply T; auto. apply Forall_forall. intros c Hi. apply in_map_iff in Hi. destruct Hi as (m & <- & Hi). rewrite Forall_forall in Hq. exact (Hq m Hi).
  Qed.

  Lemma win_methods_painted shown s k r ms : forall b, wpainted draw shown E (with_gsb b s) k r -> Forall (single E shown) (concat (map S_Canvas.method_text ms)) ->
    forall b', screen_methods E ms b = Val b' -> wpainted draw shown E (with_gsb b' s) (S_Canvas.draws E ms k) r.
  Proof.
    revert k. induction ms as [|m ms IH]; intros k b H Hn b' R; cbn [screen_methods S_Canvas.draws map concat] in *; [now injection R as <-|].
    apply Forall_app in Hn as [N1 N2]. destruct (screen_method E m b) as [b1|] eqn:E1; [|discriminate].
    refine (IH _ b1 _ N2 b' R). exact (WP_method draw shown E (with_gsb b s) k r m b1 H N1 E1).
  Qed.

  Lemma win_macro_canvas shown : places draw shown -> env_ok E -> (32767 <= Z.of_nat (umax E))%Z ->
    forall l u qs u1 s k r o, l <> [] -> answers U l u qs u1 -> wpainted draw shown E s k r -> (r = true -> covers (sees s)) ->
    Forall (single E shown) (concat (map (fun q => S_Canvas.method_text (as_drawing q)) qs)) ->
    S_WinWriter.no_failure (c_answers (w_con (t_w (g_t s)))) ->
    win_screen_write U draw E l (u, s) = Some o -> o <> Panic ->
    exists s', o = Ret (u1, s') tt /\
      let k' := S_Canvas.draws E (map as_drawing qs) k in
      wdisplays shown (t_default (g_t s)) (sees s') k' /\
      v_cur (sees s') = Coord (Z.of_nat (column (S_Canvas.pen_goal k'))) (Z.of_nat (line (S_Canvas.pen_goal k'))).
  Proof.
    intros HP HE HU l u qs u1 s k r o Hn Ha Hk Hcv Ht Hw R Hr.
    pose proof (answers_documented U _ _ _ _ Ha) as Hd. unfold win_screen_write in R. destruct (expansion_of U l) as [e|] eqn:Ee; [|discriminate].
    cbn in R. injection R as R. destruct (screen_eval U E e (u, g_sb s)) as [[u2 b]|] eqn:Es; [|now subst o].
    assert (Hrun : screen_run U E l (u, g_sb s) (Val (u2, b))).
    { apply (proj2 (screen_guard_facts U E l (u, g_sb s) (Val (u2, b)) Hd) Hn). unfold screen_write_guard. rewrite Ee. cbn. now rewrite Es. }
    destruct (macro_draws U E l u qs u1 Ha (g_sb s) u2 b Hrun) as (-> & Hm).
    assert (Hk0 : wpainted draw shown E (with_gsb (g_sb s) s) k r) by (destruct s; exact Hk).
    rewrite <- map_map in Ht. pose proof (win_methods_painted shown s k r _ _ Hk0 Ht b Hm) as Hk'.
    set (k' := S_Canvas.draws E (map as_drawing qs) k) in *.
    destruct (wpainted_history draw shown E HP HE _ _ _ HU Hk') as (I1 & I2 & I3 & I4).
    destruct (whistory_goes draw shown E (with_gsb b s) HP HE HU I1 (sheer_one shown E _ _ I2 I3) Hw) as (s' & Q).
    rewrite Q in R. subst o. exists s'. split; [reflexivity|].
    destruct (winpainting_shows draw shown E HP HE _ _ _ HU Hk') as (_ & _ & P). exact (P s' tt Hcv Q).
  Qed.
End WinMacroLines.
