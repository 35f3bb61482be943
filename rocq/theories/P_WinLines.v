(** Proofs about lines of styled text on a Windows console (C141). *)
From Coq Require Import String.
From Verif Require Import Base M_Utf8 S_Utf8 M_Geom M_Attr M_Buf M_Writer M_Api M_WinWriter S_WinWriter S_WinScreen M_WinApi S_WinApi P_WinApi S_Api M_Lines S_Lines S_WinLines.

(** There is one way to write a text in UTF-16. *)
Lemma decode_encode : forall n l, List.length l <= n -> forall s, Forall (fun u => (u < 65536)%N) l -> utf16_decode l = Some s -> l = encode_wide s.
Proof.
  induction n as [|n IH]; intros l Hn s Hl H.
  - destruct l; [|cbn in Hn; lia]. now injection H as <-.
  - destruct l as [|u l]; [now injection H as <-|]. inversion Hl as [|? ? Hu Hl']; subst. cbn [utf16_decode] in H.
    destruct ((0xD800 <=? u) && (u <? 0xDC00))%N eqn:E1.
    + destruct l as [|x l]; [discriminate|]. destruct ((0xDC00 <=? x) && (x <? 0xE000))%N eqn:E2; [|discriminate].
      inversion Hl' as [|? ? Hx Hl'']; subst. destruct (utf16_decode l) as [t|] eqn:Ed; [|discriminate].
      apply (f_equal (fun o => match o with Some x => x | None => [] end)) in H. cbv beta iota in H. rewrite <- H. clear H.
      change (u :: x :: l = utf16_units (0x10000 + (u - 0xD800) * 0x400 + (x - 0xDC00))%N ++ encode_wide t).
      rewrite <- (IH l ltac:(cbn in Hn; lia) t Hl'' Ed). unfold utf16_units.
      set (c := (0x10000 + (u - 0xD800) * 0x400 + (x - 0xDC00))%N).
      assert (Hc : (c - 0x10000 = (u - 0xD800) * 1024 + (x - 0xDC00))%N) by (subst c; lia).
      replace (c <? 0x10000)%N with false by (subst c; lia). cbn zeta. rewrite Hc. clear Hc c.
      rewrite N.shiftr_div_pow2. change (2 ^ 10)%N with 1024%N. change 1023%N with (N.ones 10). rewrite N.land_ones. change (2 ^ 10)%N with 1024%N.
      rewrite N.div_add_l by discriminate. rewrite (N.add_comm ((u - 0xD800) * 1024) (x - 0xDC00))%N, N.mod_add by discriminate. rewrite N.mod_small, N.div_small by lia.
      cbn [app]. f_equal; [lia|]. f_equal. lia.
    + destruct ((0xDC00 <=? u) && (u <? 0xE000))%N eqn:E2; [discriminate|]. destruct (utf16_decode l) as [t|] eqn:Ed; [|discriminate]. injection H as <-.
      cbn [encode_wide flat_map]. fold (encode_wide t). rewrite (IH l ltac:(cbn in Hn; lia) t Hl' Ed) at 1. unfold utf16_units.
      replace (u <? 0x10000)%N with true by lia. reflexivity.
Qed.

Section WinLines.
  Variables (draw : list N -> N -> view -> view) (shown : list N -> option N) (default : N).
  Hypothesis HP : places draw shown.

  Lemma wlaid_nil v : wlaid shown default [] v v.
  Proof.
    unfold wlaid. cbn [List.length]. split; [reflexivity|]. split; [destruct (v_cur v); cbn; f_equal; lia|].
    intros y x _ _. replace ((y =? _) && _ && _)%Z with false; [reflexivity|]. lia.
  Qed.
  Lemma wlaid_app l1 l2 v v1 v2 : wlaid shown default l1 v v1 -> wlaid shown default l2 v1 v2 -> wlaid shown default (l1 ++ l2) v v2.
  Proof.
    intros (A1 & A2 & A3) (B1 & B2 & B3). unfold wlaid. rewrite app_length. split; [congruence|]. split.
    - rewrite B2, A2. cbn [cX cY]. f_equal. lia.
    - intros y x Hy Hx. specialize (A3 y x Hy Hx). rewrite A1, A2 in B3. cbn [cX cY] in B3. specialize (B3 y x Hy Hx).
      destruct ((y =? cY (v_cur v)) && (cX (v_cur v) + Z.of_nat (List.length l1) <=? x) && (x <? cX (v_cur v) + Z.of_nat (List.length l1) + Z.of_nat (List.length l2)))%Z eqn:E2.
      + replace ((y =? cY (v_cur v)) && (cX (v_cur v) <=? x) && (x <? cX (v_cur v) + Z.of_nat (List.length l1 + List.length l2)))%Z with true by lia.
        destruct B3 as (c & a & g & w & B3 & B4). exists c, a, g, w. split; [|exact B4].
        rewrite nth_error_app2 by lia. rewrite <- B3. f_equal. lia.
      + rewrite B3. destruct ((y =? cY (v_cur v)) && (cX (v_cur v) <=? x) && (x <? cX (v_cur v) + Z.of_nat (List.length l1)))%Z eqn:E1.
        * replace ((y =? cY (v_cur v)) && (cX (v_cur v) <=? x) && (x <? cX (v_cur v) + Z.of_nat (List.length l1 + List.length l2)))%Z with true by lia.
          destruct A3 as (c & a & g & w & A3 & A4). exists c, a, g, w. split; [|exact A4]. rewrite nth_error_app1 by lia. exact A3.
        * replace ((y =? cY (v_cur v)) && (cX (v_cur v) <=? x) && (x <? cX (v_cur v) + Z.of_nat (List.length l1 + List.length l2)))%Z with false by lia. exact A3.
  Qed.

  Lemma text_laid a w s : shows default a w -> Forall (win_letter shown) s -> forall v, view_ok v ->
    (cX (v_cur v) + Z.of_nat (List.length s) < cX (v_size v))%Z ->
    view_ok (draw (encode_wide s) w v) /\ wlaid shown default (map (fun c => (c, a)) s) v (draw (encode_wide s) w v).
  Proof.
    intros Hw. induction s as [|c s IH]; intros Hs v Hv Hr.
    - cbn. rewrite (p_nil _ _ HP). split; [exact Hv|apply wlaid_nil].
    - inversion Hs as [|? ? [_ Hc] Hs']; subst. change (encode_wide (c :: s)) with (utf16_units c ++ encode_wide s). rewrite (p_app _ _ HP).
      destruct (shown [c]) as [g|] eqn:Eg; [|now destruct Hc].
      pose proof (p_cell _ _ HP [c] g w v Eg Hv) as Hp. cbn zeta in Hp. replace (encode_wide [c]) with (utf16_units c) in Hp by (cbn; now rewrite app_nil_r).
      destruct Hp as (P1 & P2 & P3 & P4). cbn [List.length] in Hr. specialize (P3 ltac:(lia)).
      destruct (IH Hs' (draw (utf16_units c) w v) P1) as (I1 & I2); [rewrite P2, P3; cbn [cX]; lia|]. split; [exact I1|].
      change (map (fun c0 => (c0, a)) (c :: s)) with ([(c, a)] ++ map (fun c0 => (c0, a)) s). refine (wlaid_app _ _ _ _ _ _ I2).
      unfold wlaid. cbn [List.length]. split; [exact P2|]. split; [exact P3|]. intros y x Hy Hx. specialize (P4 y x Hy Hx).
      destruct ((y =? cY (v_cur v)) && (x =? cX (v_cur v)))%Z eqn:E1.
      + replace ((y =? cY (v_cur v)) && (cX (v_cur v) <=? x) && (x <? cX (v_cur v) + Z.of_nat 1))%Z with true by lia.
        exists c, a, g, w. replace (Z.to_nat (x - cX (v_cur v))) with 0 by lia. auto.
      + replace ((y =? cY (v_cur v)) && (cX (v_cur v) <=? x) && (x <? cX (v_cur v) + Z.of_nat 1))%Z with false by lia. exact P4.
  Qed.
  Lemma types_laid a s v v' : Forall (win_letter shown) s -> view_ok v -> (cX (v_cur v) + Z.of_nat (List.length s) < cX (v_size v))%Z ->
    types_text draw default a s v v' -> view_ok v' /\ wlaid shown default (map (fun c => (c, a)) s) v v'.
  Proof.
    intros Hs Hv Hr (units & w & H1 & H2 & H3 & ->). rewrite (decode_encode _ units (le_n _) s H1 H2). now apply text_laid.
  Qed.

  Lemma win_effect_laid m F F' : win_line_call shown m -> view_ok (f_view F) ->
    (cX (v_cur (f_view F)) + Z.of_nat (List.length (inked_by m (f_attrs F))) < cX (v_size (f_view F)))%Z ->
    win_effect draw default m F F' ->
    view_ok (f_view F') /\ wlaid shown default (inked_by m (f_attrs F)) (f_view F) (f_view F') /\ f_attrs F' = asked m (f_attrs F).
  Proof.
    intros Hm Hv Hr H. pose proof (wlaid_nil (f_view F)) as L.
    destruct m as [| | | | | | | | |[]| | |[]| | | | | | | | |f b st text|c|s|ps]; cbn [win_line_call] in Hm; try contradiction; cbn [win_effect inked_by asked] in *;
      try (subst F'; split; [exact Hv|split; [exact L|reflexivity]]).
    - destruct H as (n & ->). auto.
    - destruct H as (v' & H & ->). rewrite map_length in Hr. cbn [f_view f_attrs]. destruct (types_laid _ _ _ _ Hm Hv Hr H) as [A1 A2]. auto.
    - destruct H as (H1 & H2 & H). destruct (types_laid _ [c] _ _ (Forall_cons _ Hm (Forall_nil _)) Hv Hr H) as [A1 A2]. auto.
    - destruct H as (H1 & H2 & H). rewrite map_length in Hr. destruct (types_laid _ _ _ _ Hm Hv Hr H) as [A1 A2]. auto.
    - destruct H as (H1 & H2 & H). rewrite map_length in Hr. destruct (types_laid _ (concat ps) _ _ ltac:(now apply Forall_concat) Hv Hr H) as [A1 A2]. auto.
  Qed.
  Lemma win_effects_laid cs : forall F F', Forall (on_api (win_line_call shown)) cs -> view_ok (f_view F) ->
    let ms := map (fun c => match c with OnGuard m | OnTerminal m => m end) cs in
    (cX (v_cur (f_view F)) + Z.of_nat (List.length (inked ms (f_attrs F))) < cX (v_size (f_view F)))%Z -> win_effects draw default cs F F' ->
    wlaid shown default (inked ms (f_attrs F)) (f_view F) (f_view F') /\ f_attrs F' = asked_at_end ms (f_attrs F).
  Proof.
    induction cs as [|c cs IH]; intros F F' Hc Hv ms Hr H; subst ms; inversion H; subst; [split; [apply wlaid_nil|reflexivity]|].
    inversion Hc as [|? ? C1 C2]; subst. cbn [map inked] in *. rewrite app_length in Hr.
    set (m := match c with OnGuard m | OnTerminal m => m end) in *.
    assert (Hm : win_line_call shown m) by (destruct c; exact C1).
    assert (He : win_effect draw default m F F1).
    { destruct c as [m0|m0]; subst m; cbn [call_effect] in *; [assumption|]. destruct m0; cbn in Hm; try contradiction; cbn [no_move] in *; assumption. }
    clearbody m. destruct (win_effect_laid m F F1) as (A1 & A2 & A3); auto; [lia|].
    destruct (IH F1 F') as (B1 & B2); auto.
    - destruct A2 as (S1 & S2 & _). rewrite S1, S2, A3. cbn [cX]. lia.
    - rewrite A3 in B1, B2. split; [eapply wlaid_app; eauto|exact B2].
  Qed.
End WinLines.

Lemma win_line_shown draw shown default E : draws draw -> places draw shown -> (default < 65536)%N -> (65536 <= Z.of_nat (umax E))%Z ->
  forall cs s s' F, Forall (on_api (win_line_call shown)) cs -> faces default (w_con s) F -> f_attrs F = w_at s -> view_ok (f_view F) ->
  let ms := map (fun c => match c with OnGuard m | OnTerminal m => m end) cs in
  let l := inked ms (f_attrs F) in
  (cX (v_cur (f_view F)) + Z.of_nat (List.length l) < cX (v_size (f_view F)))%Z ->
  win_api_run draw default E cs s = Some s' ->
  exists F', faces default (w_con s') F' /\ f_attrs F' = asked_at_end ms (f_attrs F) /\ wlaid shown default l (f_view F) (f_view F').
Proof.
  intros HD HP Hd HU cs s s' F Hc Hf Ha Hv ms l Hr R. subst ms l.
  destruct (win_api_does draw default E HD Hd HU cs s s' F) as (F' & H1 & H2 & _); auto.
  { eapply Forall_impl; [|exact Hc]. intros c H.
    assert (Hs : forall l, Forall (win_letter shown) l -> Forall scalar l) by (intros l Hl; eapply Forall_impl; [|exact Hl]; cbn; intros y Hy; apply Hy).
    destruct c as [m|m]; destruct m; cbn [on_api win_line_call] in H; cbn; try exact Logic.I; try apply Hs; try apply H;
      eapply Forall_impl; try exact H; exact Hs. }
  destruct (win_effects_laid draw shown default HP cs F F' Hc Hv Hr H2) as (L1 & L2). exists F'. auto.
Qed.

Lemma ascii_calls shown ms : ascii_shown shown ->
  forallb (fun m => match m with
    | TWriteStyled _ _ _ text | TWriteStr text => forallb (fun c => (32 <=? c) && (c <? 127))%N text
    | TWriteFmt ps => forallb (forallb (fun c => (32 <=? c) && (c <? 127))%N) ps
    | TWriteChar _ | TClearScreen | TClearToLineEnd | TClearToScreenEnd | TMoveUp _ | TMoveDown _ | TMoveLeft _ | TMoveRight _ | TMoveToFirstColumn => false
    | _ => true end) ms = true ->
  Forall (on_api (win_line_call shown)) (map OnTerminal ms).
Proof.
  intros Hs H. rewrite forallb_forall in H. apply Forall_forall. intros c Hc. apply in_map_iff in Hc. destruct Hc as (m & <- & Hm). specialize (H m Hm).
  assert (Ht : forall l, forallb (fun c => (32 <=? c) && (c <? 127))%N l = true -> Forall (win_letter shown) l).
  { intros l Hl. rewrite forallb_forall in Hl. apply Forall_forall. intros c Hc. specialize (Hl c Hc). split; [unfold scalar, is_scalar; lia|]. apply Hs. lia. }
  destruct m; cbn [on_api win_line_call]; try exact Logic.I; try discriminate H; try (apply Ht; exact H).
  rewrite forallb_forall in H. apply Forall_forall. intros l Hl. apply Ht, H, Hl.
Qed.
Lemma win_examples_shown draw shown default E : draws draw -> places draw shown -> (default < 65536)%N -> (65536 <= Z.of_nat (umax E))%Z ->
  ascii_shown shown -> forall ms l s s' F, In (ms, l) example_lines -> faces default (w_con s) F -> f_attrs F = no_attrs -> w_at s = no_attrs ->
  view_ok (f_view F) -> (cX (v_cur (f_view F)) + Z.of_nat (List.length (in_runs l)) < cX (v_size (f_view F)))%Z ->
  win_api_run draw default E (map OnTerminal ms) s = Some s' ->
  exists F', faces default (w_con s') F' /\ f_attrs F' = no_attrs /\ wlaid shown default (in_runs l) (f_view F) (f_view F').
Proof.
  intros HD HP Hd HU Ha ms l s s' F Hi Hf Hn Hw Hv Hr R.
  assert (H : Forall (on_api (win_line_call shown)) (map OnTerminal ms) /\ inked ms no_attrs = in_runs l /\ asked_at_end ms no_attrs = no_attrs).
  { destruct Hi as [Hi|[Hi|[Hi|[]]]]; injection Hi as <- <-; (split; [apply ascii_calls; [exact Ha|vm_compute; reflexivity]|]); split; vm_compute; reflexivity. }
  destruct H as (H1 & H2 & H3).
  pose proof (win_line_shown draw shown default E HD HP Hd HU (map OnTerminal ms) s s' F H1 Hf ltac:(congruence) Hv) as T. cbn zeta in T.
  rewrite map_map, map_id, Hn, H2, H3 in T. exact (T Hr R).
Qed.
