(** Proofs about what [term_write!] shows (C142). *)
From Verif Require Import Base M_Utf8 S_Utf8 M_Geom S_Geom M_Attr M_Buf S_Buf M_Writer S_Tty S_Writer P_Writer2 M_Screen M_Macros S_Macros P_Macros M_Api S_Api M_ScreenApi
  S_Canvas P_Canvas M_Lines S_Lines P_Lines S_NoPanic S_Succeeds P_Succeeds P_Succeeds2 P_Screen3 P_Screen5 S_MacroLines.

Section MacroLines.
  Variable U : Type.

  Lemma means_same t f g : means U t f -> means U t g -> forall u, f u = g u.
  Proof.
    intros Hf Hg u. destruct (means_rule U t f Hf) as (m & M1 & M2). destruct (means_rule U t g Hg) as (m' & M3 & M4).
    rewrite M2, M4. congruence.
  Qed.
  Lemma answers_documented l u qs u' : answers U l u qs u' -> documented U l.
  Proof. induction 1; constructor; eauto. Qed.

  Lemma forward_request q : forward (as_call q) = on_terminal q.
  Proof. destruct q; cbn; try reflexivity. now destruct a. Qed.
  Lemma sforward_request q : sforward (as_drawing q) = on_screen q.
  Proof. destruct q; cbn; try reflexivity. now destruct a. Qed.

  Lemma macro_calls C l : forall u qs u1, answers U l u qs u1 -> forall w u' w', terminal_run U C l (u, w) (Ret (u', w') tt) ->
    u' = u1 /\ api_run C (map OnGuard (map as_call qs)) w = Some w'.
  Proof.
    induction 1 as [u|t l f u u2 q qs u3 H1 H2 H3 IH]; intros w u' w' R; inversion R as [|? ? g ? v2 q2 ? w2 ? G1 G2 G3 G4| | | |]; subst.
    - auto.
    - pose proof (means_same _ _ _ H1 G1 u) as Hs. rewrite H2, G2 in Hs. injection Hs as <- <-.
      cbn [map api_run api_run1]. unfold guard_method. rewrite forward_request, G3. eauto.
  Qed.
  Lemma macro_draws E l : forall u qs u1, answers U l u qs u1 -> forall b u' b', screen_run U E l (u, b) (Val (u', b')) ->
    u' = u1 /\ screen_methods E (map as_drawing qs) b = Val b'.
  Proof.
    induction 1 as [u|t l f u u2 q qs u3 H1 H2 H3 IH]; intros w u' w' R; inversion R as [|? ? g ? v2 q2 ? w2 ? G1 G2 G3 G4| |]; subst.
    - auto.
    - pose proof (means_same _ _ _ H1 G1 u) as Hs. rewrite H2, G2 in Hs. injection Hs as <- <-.
      cbn [map screen_methods]. unfold screen_method. rewrite sforward_request, G3. eauto.
  Qed.

  Lemma guard_perfect C ms : forall w w', perfect (script w) -> api_run C (map OnGuard ms) w = Some w' -> perfect (script w').
  Proof.
    induction ms as [|m ms IH]; intros w w' Hp R; cbn [map api_run] in R; [now injection R as <-|].
    destruct (api_run1 C (OnGuard m) w) as [w1 []| | |] eqn:E1; try discriminate. refine (IH _ _ _ R).
    pose proof (op_perfect C (forward m) w Hp) as H. cbn [api_run1] in E1. unfold guard_method in E1. rewrite E1 in H. exact H.
  Qed.

  Lemma macro_line E C K t0 : implements E C K -> full_caps C ->
    forall l u qs u1 w v u' w', l <> [] -> answers U l u qs u1 -> Forall (line_call E) (map as_call qs) ->
    perfect (script w) -> obuf w = [] -> style_ok (sty (wat w)) ->
    look K (feed K t0 (dev w)) = Some v -> vattrs v = wat w ->
    let ms := map as_call qs in
    let x := row E ms (vattrs v) in
    space (length x) v -> term_write_terminal U C l (u, w) = Some (Ret (u', w') tt) ->
    u' = u1 /\ exists v', look K (feed K t0 (dev w')) = Some v' /\ vsize v' = vsize v /\ vattrs v' = asked_at_end ms (vattrs v) /\
      vcur v' = Cursor (line (vcur v)) (column (vcur v) + length x) /\
      vcells v' = splice (cell_no (vsize v) (vcur v)) x (vcells v).
  Proof.
    intros HK Hc l u qs u1 w v u' w' Hn Ha Hq Hp Ho Hs Hl Hv ms x Hsp R. subst ms x.
    destruct (terminal_facts U C l (u, w) Hn (answers_documented _ _ _ _ Ha)) as (r & R1 & R2). rewrite R in R2. injection R2 as R2.
    assert (Hr : exists u2 w2, r = Ret (u2, w2) tt /\ u2 = u' /\ flush w2 = Ret w' tt \/ r = Ret (u2, w2) tt /\ u2 = u' /\ exists e, flush w2 = Fail w' e).
    { unfold unlocked, after_flush in R2. destruct r as [[u2 w2] []|[u2 w2] e| |]; try discriminate R2.
      - exists u2, w2. destruct (flush w2) as [w3 []|w3 e| |]; try discriminate R2; injection R2 as <- <-; eauto.
      - destruct (flush w2) as [w3 []|w3 e'| |]; discriminate R2. }
    destruct Hr as (u2 & w2 & Hr).
    assert (Hr' : r = Ret (u2, w2) tt /\ u2 = u' /\ (flush w2 = Ret w' tt \/ exists e, flush w2 = Fail w' e)) by (destruct Hr as [(A & B & D)|(A & B & D)]; auto).
    clear Hr. destruct Hr' as (-> & -> & Hf). destruct (macro_calls C l u qs u1 Ha w u' w2 R1) as (-> & R3). split; [reflexivity|].
    assert (Hp2 := guard_perfect C _ _ _ Hp R3). pose proof (flush_perfect w2 Hp2) as F.
    destruct Hf as [Hf|(e & Hf)]; rewrite Hf in F; [|contradiction]. destruct F as (F1 & F2 & F3 & F4). rewrite F3.
    assert (Sw : stream w = dev w) by (unfold stream; now rewrite Ho, app_nil_r). rewrite <- Sw in Hl.
    assert (Em : map (fun c => match c with OnGuard m | OnTerminal m => m end) (map OnGuard (map as_call qs)) = map as_call qs) by (rewrite map_map; apply map_id).
    pose proof (line_shown E C K t0 (map OnGuard (map as_call qs)) HK Hc w w2 v) as H. cbv zeta in H. rewrite Em in H. apply H; auto.
    - apply Forall_forall. intros c Hi. apply in_map_iff in Hi. destruct Hi as (m & <- & Hi). rewrite Forall_forall in Hq. exact (Hq m Hi).
    - now apply P_Writer.perfect_whole.
  Qed.

  Lemma methods_painted E C K s t k ms : forall b, painted E C K (with_sb b s) t k -> no_wide E (concat (map method_text ms)) ->
    forall b', screen_methods E ms b = Val b' -> painted E C K (with_sb b' s) t (draws E ms k).
  Proof.
    revert k. induction ms as [|m ms IH]; intros k b H Hn b' R; cbn [screen_methods draws map concat] in *; [now injection R as <-|].
    apply Forall_app in Hn as [N1 N2]. destruct (screen_method E m b) as [b1|] eqn:E1; [|discriminate].
    refine (IH _ b1 _ N2 b' R). exact (Pt_method E C K (with_sb b s) t k m b1 H N1 E1).
  Qed.

  Lemma macro_canvas E C K : env_ok E -> env_chars E -> caps_coherent C -> implements E C K -> drawable C -> (forall c n, n <= grow C c n) ->
    forall l u qs u1 s t k r, l <> [] -> answers U l u qs u1 -> painted E C K s t k ->
    no_wide E (concat (map (fun q => method_text (as_drawing q)) qs)) ->
    0 < lines (ksize k) -> 0 < columns (ksize k) ->
    perfect (script (wr s)) -> 2 * total (ksize k) < writes_left (script (wr s)) ->
    screen_write_screen U E C l (u, s) = Some r -> r <> Panic ->
    exists s' x v, r = Ret (u1, s') tt /\ stream (wr s') = stream (wr s) ++ x /\ obuf (wr s') = [] /\
      let k' := draws E (map as_drawing qs) k in
      look K (feed K t x) = Some v /\ displays C v k' /\ vcur v = pen_goal k'.
  Proof.
    intros HE HC Hco HK HD Hg l u qs u1 s t k r Hn Ha Hk Ht Hl Hc Hp Hw R Hr.
    pose proof (answers_documented _ _ _ _ Ha) as Hd. unfold screen_write_screen in R. destruct (expansion_of U l) as [e|] eqn:Ee; [|discriminate]. cbn in R. injection R as R.
    destruct (screen_eval U E e (u, sb s)) as [[u2 b]|] eqn:Es; [|now subst r].
    assert (Hrun : screen_run U E l (u, sb s) (Val (u2, b))).
    { apply (proj2 (screen_guard_facts U E l (u, sb s) (Val (u2, b)) Hd) Hn). unfold screen_write_guard. rewrite Ee. cbn. now rewrite Es. }
    destruct (macro_draws E l u qs u1 Ha (sb s) u2 b Hrun) as (-> & Hm).
    assert (Hk0 : painted E C K (with_sb (sb s) s) t k) by (destruct s; exact Hk).
    rewrite <- map_map in Ht. pose proof (methods_painted E C K s t k _ _ Hk0 Ht b Hm) as Hk'.
    set (k' := draws E (map as_drawing qs) k) in *.
    destruct (painted_history E HE C K HC Hco HK _ _ _ Hk') as [Hh Hfit]. cbn [sb with_sb] in Hfit.
    assert (Hz : ksize k' = ksize k).
    { destruct (painted_history E HE C K HC Hco HK _ _ _ Hk) as [_ Hf0]. exact (methods_ksize E HE _ _ _ _ Hf0 Ht Hm). }
    assert (Hbz : bsize b = ksize k) by (rewrite <- Hz; exact (proj1 (f_holds _ _ _ Hfit))).
    destruct (refresh_goes E C HD Hg (with_sb b s) (f_ok _ _ _ Hfit)) as (s2 & Q1 & Q2 & _); cbn [sb wr with_sb]; try rewrite Hbz; auto.
    { pose proof (stale_total b). rewrite Hbz in *. lia. }
    destruct (refresh_and_drop E C _ _ _ Q1) as [_ Q3]. rewrite Q3 in R. subst r.
    destruct (painting_shows E HE C K HC Hco HK _ _ _ Hk') as (_ & _ & P).
    assert (Hx : exists x, stream (wr s2) = stream (wr (with_sb b s)) ++ x).
    { destruct (minimal_history E C K HE HC Hco HK _ _ _ _ Hh Q1) as (x & Hx & _). eauto. }
    destruct Hx as (x & Hx). destruct (P s2 x Q1 Hx) as (P1 & v & P2 & P3 & P4). exists s2, x, v. auto 10.
  Qed.
End MacroLines.
