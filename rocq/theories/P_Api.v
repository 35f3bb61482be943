(** Proofs about the public output methods (S_Api.v). *)
From Verif Require Import Base M_Utf8 P_Utf8 S_Utf8 M_Geom S_Geom M_Attr M_Buf S_Buf M_Writer S_Tty S_Writer
  P_Writer P_Attr P_Writer2 P_Writer3 M_Api S_Api.

Lemma to_string_concat ps : to_string ps = concat ps.
Proof. induction ps as [|p ps IH]; cbn; [reflexivity|now rewrite IH]. Qed.

Lemma feed_prints E C K : implements E C K -> forall s, Forall (texty E) s ->
  forall t v, look K t = Some v -> exists v', look K (feed K t (utf8s s)) = Some v' /\ prints E s v v'.
Proof.
  intros HK s Hs. induction Hs as [|c s Hc Hs IH]; intros t v Hl.
  - exists v. cbn. rewrite (feed_nil _ _ _ HK). split; [assumption|constructor].
  - destruct (text_ok _ _ _ HK c Hc t v Hl) as (v1 & E1 & K1).
    destruct (IH _ _ E1) as (v2 & E2 & K2). exists v2.
    change (utf8s (c :: s)) with (utf8 c ++ utf8s s). rewrite (feed_app _ _ _ HK). split; [assumption|].
    econstructor; [|exact K2]. exact K1.
Qed.

(** ** Every method but [write_styled], from a terminal in step *)
Definition reaches E C (m : tmethod) (w w' : wst) : Prop :=
  exists x, stream w' = stream w ++ x /\
    forall K, implements E C K -> forall t v, look K t = Some v -> vattrs v = wat w ->
    exists v', look K (feed K t x) = Some v' /\ effect E m v v'.

Lemma reaches_obuf E C m w w' x : dev w' = dev w -> obuf w' = obuf w ++ x ->
  (forall K, implements E C K -> forall t v, look K t = Some v -> vattrs v = wat w ->
    exists v', look K (feed K t x) = Some v' /\ effect E m v v') -> reaches E C m w w'.
Proof.
  intros H1 H2 H. exists x. split; [|exact H]. unfold stream. now rewrite H1, H2, app_assoc.
Qed.

Lemma attr_reaches E C m w w' u : full_caps C -> attr_op (forward m) -> op_style_ok (forward m) ->
  style_ok (sty (wat w)) ->
  guard_method C m w = Ret w' u ->
  (forall v, vattrs v = wat w -> effect E m v (set_vattrs (request (wat w) (forward m)) v)) ->
  reaches E C m w w'.
Proof.
  intros (Hc & _) Ha Hso Hs Hrun He. unfold guard_method in Hrun.
  assert (H := attr_op_adv C (forward m) w Ha). rewrite Hrun in H. cbn [ok] in H.
  destruct H as (H1 & H2 & H3 & x & H4 & H5). apply (reaches_obuf _ _ _ _ _ x H2 H4).
  intros K HK t v Hl Hv. eexists. split.
  - apply (H5 E K (all_caps_coherent C Hc) HK t v Hl). rewrite all_caps_shown; auto.
  - rewrite all_caps_shown; [|assumption|]. { now apply He. }
    apply request_ok; auto.
Qed.

Lemma bytes_reaches E C m b w w' u : whole_writes (script w) -> write_bytes C b w = Ret w' u ->
  (forall K, implements E C K -> forall t v, look K t = Some v ->
     exists v', look K (feed K t b) = Some v' /\ effect E m v v') -> reaches E C m w w'.
Proof.
  intros Hw Hrun H. assert (Hb := write_bytes_whole C b w Hw). rewrite Hrun in Hb.
  destruct Hb as (_ & _ & B3). exists b. split; [exact B3|]. intros K HK t v Hl _. eauto.
Qed.

Lemma move_req C d n w : 0 < n -> exists c ps,
  run_wop C (move_op d n) w = expand_req C c ps w /\
  forall v, cap_dom c ps v /\
    forall v', cap_effect c ps v v' -> moved (shift d (N.to_nat (N.min (N.of_nat n) u32_max)) (vsize v) (vcur v)) v v'.
Proof.
  intros Hn. assert (Hu : forall m, to_u32 m = N.min (N.of_nat m) u32_max) by reflexivity.
  assert (H1 : N.to_nat (N.min (N.of_nat 1) u32_max) = 1) by reflexivity.
  destruct n as [|[|n]]; [lia| |].
  - rewrite H1. destruct d.
    + exists CursorUp, []. split; [reflexivity|]. intros v. split; [exact I|]. intros v' H. exact H.
    + exists ParmDownCursor, [to_u32 1]. split; [reflexivity|]. intros v. split; [apply to_u32_pos|].
      intros v' H. unfold cap_effect in H. cbn [hd] in H.
      change (N.to_nat (to_u32 1)) with (N.to_nat (N.min (N.of_nat 1) u32_max)) in H. rewrite H1 in H. exact H.
    + exists CursorLeft, []. split; [reflexivity|]. intros v. split; [exact I|]. intros v' H. exact H.
    + exists CursorRight, []. split; [reflexivity|]. intros v. split; [exact I|]. intros v' H. exact H.
  - set (m := S (S n)). exists (move_cap d m), [to_u32 m]. split; [destruct d; reflexivity|].
    rewrite <- Hu.
    assert (Hp : (0 < to_u32 m)%N) by apply to_u32_pos. generalize (to_u32 m) Hp. intros q Hq v.
    destruct d; cbn [move_cap m]; (split; [exact Hq|]); intros v' H; exact H.
Qed.

Lemma keeps_refl v : keeps v v.
Proof. repeat split. Qed.

Lemma move_reaches E C d n m w w' u : guard_method C m w = Ret w' u -> forward m = move_op d n ->
  (forall v v', goes d n v v' -> effect E m v v') -> reaches E C m w w'.
Proof.
  intros Hrun Hf He. unfold guard_method in Hrun. rewrite Hf in Hrun. destruct (Nat.eq_dec n 0) as [Hn|Hn].
  - subst n. assert (w' = w) as -> by (destruct d; cbn in Hrun; congruence).
    exists []. rewrite app_nil_r. split; [reflexivity|]. intros K HK t v Hl _. exists v.
    rewrite (feed_nil _ _ _ HK). split; [assumption|]. apply He. split; [reflexivity|].
    split; [apply keeps_refl|lia].
  - destruct (move_req C d n w ltac:(lia)) as (c & ps & H1 & H2). rewrite H1 in Hrun.
    destruct (req_effect E C c ps w w' u Hrun) as (A1 & A2 & A3 & x & A4 & A5).
    apply (reaches_obuf _ _ _ _ _ x A1 A4). intros K HK t v Hl _. destruct (H2 v) as (Hd & Hm).
    destruct (A5 K HK t v Hl Hd) as (v' & V1 & V2). exists v'. split; [assumption|].
    apply Hm in V2. destruct V2 as (V2 & V3). apply He. split; [contradiction|]. split; [assumption|].
    intros _ Hu Hcol. rewrite (V3 Hcol), N.min_l, Nat2N.id; auto.
Qed.

Lemma clear_reaches E C m c w w' u : guard_method C m w = Ret w' u ->
  run_wop C (forward m) w = expand_req C c [] w -> (forall v, cap_dom c [] v) ->
  (forall v v', cap_effect c [] v v' -> effect E m v v') -> reaches E C m w w'.
Proof.
  intros Hrun Hf Hd He. unfold guard_method in Hrun. rewrite Hf in Hrun.
  destruct (req_effect E C c [] w w' u Hrun) as (A1 & A2 & A3 & x & A4 & A5).
  apply (reaches_obuf _ _ _ _ _ x A1 A4). intros K HK t v Hl _.
  destruct (A5 K HK t v Hl (Hd v)) as (v' & V1 & V2). eauto.
Qed.

Lemma eta_attrs a : Attrs (fg a) (bg a) (sty a) = a.
Proof. now destruct a. Qed.

Lemma style_default_ok s : match s with Some s => style_ok s | None => True end -> style_ok (style_or_default s).
Proof. destruct s; cbn; auto. intros _. reflexivity. Qed.

Lemma method_reaches E C m w w' u : full_caps C -> sensible E m -> whole_writes (script w) ->
  style_ok (sty (wat w)) -> guard_method C m w = Ret w' u -> reaches E C m w w'.
Proof.
  intros Hc Hm Hw Hs Hrun.
  destruct m; cbn [sensible] in Hm;
    try (eapply attr_reaches; [exact Hc|exact I|first [exact Hm|exact I|reflexivity]|exact Hs|exact Hrun|];
         intros v Hv; unfold effect, with_style; try rewrite Hv; reflexivity);
    try (unfold guard_method in Hrun; cbn [forward run_wop] in Hrun).
  - assert (H := flush_whole w Hw). rewrite Hrun in H. destruct H as (H1 & H2 & H3 & H4 & H5).
    exists []. unfold stream. rewrite H4, H5, !app_nil_r. split; [reflexivity|].
    intros K HK t v Hl _. exists v. now rewrite (feed_nil _ _ _ HK).
  - eapply (clear_reaches E C TClearScreen ClearScreen); [exact Hrun|reflexivity|intros; exact I|].
    intros v v' (H1 & (H2 & H3 & H4 & H5 & H6) & H7). cbn in *. auto.
  - eapply (clear_reaches E C TClearToLineEnd ClrEol); [exact Hrun|reflexivity|intros; exact I|].
    intros v v' H; exact H.
  - eapply (clear_reaches E C TClearToScreenEnd ClrEos); [exact Hrun|reflexivity|intros; exact I|].
    intros v v' H; exact H.
  - eapply (move_reaches E C Up n (TMoveUp n)); [exact Hrun|reflexivity|auto].
  - eapply (move_reaches E C Down n (TMoveDown n)); [exact Hrun|reflexivity|auto].
  - eapply (move_reaches E C Left n (TMoveLeft n)); [exact Hrun|reflexivity|auto].
  - eapply (move_reaches E C Right n (TMoveRight n)); [exact Hrun|reflexivity|auto].
  - eapply bytes_reaches; [exact Hw|exact Hrun|]. intros K HK t v Hl.
    destruct (text_ok _ _ _ HK CR (texty_CR E) t v Hl) as (v1 & E1 & _ & _ & _ & K1).
    exists v1. split; [exact E1|]. now apply K1.
  - destruct (cursor_mode_effect E C m w w' u Hrun) as (A1 & A2 & x & A3 & A4).
    apply (reaches_obuf _ _ _ _ _ x A1 A3). intros K HK t v Hl _. destruct Hc as (_ & Hc1 & Hc2).
    eexists. split; [exact (A4 K HK Hc1 Hc2 t v Hl)|]. destruct m; reflexivity.
  - eapply attr_reaches; [exact Hc|exact I|cbn; apply style_default_ok; exact Hm|exact Hs|exact Hrun|].
    intros v Hv; unfold effect, with_style; rewrite Hv; destruct s; reflexivity.
  - destruct Hm as (Hm1 & Hm2). assert (Hc1 := proj1 Hc).
    destruct (write_styled_detail C E _ text w w' u Hw Hrun) as (H1 & H2 & pre & post & H3 & H4).
    exists (pre ++ utf8s text ++ post). split; [exact H3|]. intros K HK t v Hl Hv.
    destruct (H4 K (all_caps_coherent C Hc1) HK Hm2 t v Hl) as (P1 & v2 & P2 & P3 & P4).
    { rewrite all_caps_shown; auto. }
    assert (Hst : style_ok (style_or_default s)) by now apply style_default_ok.
    destruct (feed_prints E C K HK text Hm2 _ _ P1) as (v2' & P5 & P6).
    rewrite (feed_app _ _ _ HK) in P2. rewrite P2 in P5. injection P5 as <-.
    eexists. split; [exact P4|]. exists v2. split; [|reflexivity].
    rewrite all_caps_shown in P6; [exact P6|assumption|exact Hst].
  - eapply bytes_reaches; [exact Hw|exact Hrun|]. intros K HK t v Hl.
    destruct (text_ok _ _ _ HK c Hm t v Hl) as (v1 & E1 & K1). exists v1. split; [exact E1|exact K1].
  - eapply bytes_reaches; [exact Hw|exact Hrun|]. intros K HK t v Hl. now apply (feed_prints E C K).
  - eapply bytes_reaches; [exact Hw|exact Hrun|]. intros K HK t v Hl. rewrite to_string_concat.
    apply (feed_prints E C K); auto. rewrite Forall_concat. exact Hm.
Qed.

(** The writer stays in step with the terminal. *)
Lemma sensible_plain E m : sensible E m -> plain_op E (forward m) /\ op_style_ok (forward m).
Proof.
  destruct m; cbn [sensible forward plain_op op_style_ok api_add_style api_write_str sty]; intros H; split;
    try exact I; try exact H; try reflexivity; try (apply style_default_ok; first [exact H|apply H]).
  - apply H.
  - rewrite to_string_concat, Forall_concat. exact H.
Qed.

Lemma method_in_step E C m w w' u : full_caps C -> sensible E m -> whole_writes (script w) ->
  style_ok (sty (wat w)) -> guard_method C m w = Ret w' u ->
  whole_writes (script w') /\ style_ok (sty (wat w')) /\
  exists x, stream w' = stream w ++ x /\
    forall K, implements E C K -> forall t v, look K t = Some v -> vattrs v = wat w ->
    exists v', look K (feed K t x) = Some v' /\ effect E m v v' /\ vattrs v' = wat w'.
Proof.
  intros Hc Hm Hw Hs Hrun. destruct (sensible_plain E m Hm) as (Hp & Ho). assert (Hc1 := proj1 Hc).
  destruct (op_sim C E (forward m) w w' u Hw Hp Hrun) as (S1 & S2 & y & S3 & S4).
  destruct (method_reaches E C m w w' u Hc Hm Hw Hs Hrun) as (x & X1 & X2).
  assert (y = x). { rewrite X1 in S3. now apply app_inv_head in S3. } subst y.
  assert (Hs' : style_ok (sty (wat w'))) by (rewrite S2; now apply request_ok).
  split; [assumption|]. split; [assumption|]. exists x. split; [assumption|]. intros K HK t v Hl Hv.
  destruct (X2 K HK t v Hl Hv) as (v' & V1 & V2). exists v'. split; [assumption|]. split; [assumption|].
  destruct (S4 K (all_caps_coherent C Hc1) HK t v Hl) as (v2 & V3 & V4). { rewrite all_caps_shown; auto. }
  rewrite V1 in V3. injection V3 as <-. rewrite V4. now apply all_caps_shown.
Qed.

(** Dropping the guard sends what is left, or keeps it. *)
Lemma drop_stream w w' u : whole_writes (script w) -> guard_drop w = Ret w' u ->
  whole_writes (script w') /\ stream w' = stream w /\ wat w' = wat w.
Proof.
  intros Hw. unfold guard_drop. assert (H := flush_whole w Hw).
  destruct (flush w) as [w1 u1|w1 e| |]; try discriminate; intros R; injection R as <- _;
    destruct H as (H1 & (H2 & _) & _ & H3 & H4); unfold stream; rewrite H3, H4; rewrite ?app_nil_r; auto.
Qed.

Lemma move_zero d w : (Ret w tt : wres) = Ret w tt /\ forall C, run_wop C (move_op d 0) w = Ret w tt.
Proof. split; [reflexivity|]. intros C. destruct d; reflexivity. Qed.

(** A method of [Terminal] is the one of the guard, and the drop of the guard (which a
    movement by 0 leaves out). *)
Lemma terminal_is_guard C m w w' u : terminal_method C m w = Ret w' u ->
  guard_method C m w = Ret w tt /\ w' = w \/
  exists w1, guard_method C m w = Ret w1 tt /\ guard_drop w1 = Ret w' u.
Proof.
  unfold terminal_method, guard_method, run_terminal_op.
  assert (Hmain : match run_wop C (forward m) w with
        | Ret w' _ => guard_drop w'
        | Fail w' e => match guard_drop w' with Ret w'' _ => Fail w'' e | r => r end
        | r => r end = Ret w' u ->
      run_wop C (forward m) w = Ret w tt /\ w' = w \/
      exists w1, run_wop C (forward m) w = Ret w1 tt /\ guard_drop w1 = Ret w' u).
  { destruct (run_wop C (forward m) w) as [w1 []|w1 e| |]; try discriminate; [right; eauto|].
    destruct (guard_drop w1); discriminate. }
  destruct (forward m) as [| | | | | | | | | |[|n]|[|n]|[|n]|[|n]| | | | | | |]; try exact Hmain;
    intros H; injection H as <- _; left; split; reflexivity.
Qed.

Lemma call_in_step E C c w w' u : full_caps C -> on_api (sensible E) c -> whole_writes (script w) ->
  style_ok (sty (wat w)) -> api_run1 C c w = Ret w' u ->
  whole_writes (script w') /\ style_ok (sty (wat w')) /\
  exists x, stream w' = stream w ++ x /\
    forall K, implements E C K -> forall t v, look K t = Some v -> vattrs v = wat w ->
    exists v', look K (feed K t x) = Some v' /\ on_api (fun m => effect E m v v') c /\ vattrs v' = wat w'.
Proof.
  intros Hc Hm Hw Hs Hrun. destruct c as [m|m]; cbn [on_api api_run1] in *.
  - now apply (method_in_step E C m w w' u).
  - destruct (terminal_is_guard C m w w' u Hrun) as [(H1 & ->)|(w1 & H1 & H2)].
    + destruct (method_in_step E C m w w tt Hc Hm Hw Hs H1) as (M1 & M2 & x & M3 & M4).
      split; [assumption|]. split; [assumption|]. eauto.
    + destruct (method_in_step E C m w w1 tt Hc Hm Hw Hs H1) as (M1 & M2 & x & M3 & M4).
      destruct (drop_stream w1 w' u M1 H2) as (D1 & D2 & D3). split; [assumption|]. rewrite D3.
      split; [assumption|]. exists x. rewrite D2. auto.
Qed.

(** C95. *)
Lemma api_does E C K t0 cs : implements E C K -> full_caps C ->
  forall w w' v, Forall (on_api (sensible E)) cs ->
  whole_writes (script w) -> style_ok (sty (wat w)) ->
  look K (feed K t0 (stream w)) = Some v -> vattrs v = wat w ->
  api_run C cs w = Some w' ->
  exists v', look K (feed K t0 (stream w')) = Some v' /\ effects E cs v v' /\ vattrs v' = wat w' /\
    whole_writes (script w') /\ style_ok (sty (wat w')).
Proof.
  intros HK Hc. induction cs as [|c cs IH]; intros w w' v Hall Hw Hs Hl Hv Hrun; cbn [api_run] in Hrun.
  - injection Hrun as <-. exists v. split; [exact Hl|]. split; [constructor|auto].
  - inversion Hall as [|? ? Hm Hms]; subst. destruct (api_run1 C c w) as [w1 u| | |] eqn:E1; try discriminate.
    destruct (call_in_step E C c w w1 u Hc Hm Hw Hs E1) as (M1 & M2 & x & M3 & M4).
    destruct (M4 K HK _ _ Hl Hv) as (v1 & V1 & V2 & V3).
    rewrite <- (feed_app _ _ _ HK), <- M3 in V1.
    destruct (IH w1 w' v1 Hms M1 M2 V1 V3 Hrun) as (v' & R1 & R2 & R3). exists v'. split; [exact R1|].
    split; [|exact R3]. destruct c as [m|m]; cbn in V2; econstructor; eauto.
Qed.

(** What a method of [Terminal] sends has all arrived when it returns. *)
Lemma terminal_arrives C m w w' u : perfect (script w) -> obuf w = [] ->
  terminal_method C m w = Ret w' u -> obuf w' = [] /\ perfect (script w') /\ stream w' = dev w'.
Proof.
  intros Hp Ho Hrun. destruct (terminal_op_delivers C (forward m) w w' u Hp Ho Hrun) as (H1 & H2 & _).
  split; [exact H1|]. split; [exact H2|]. unfold stream. rewrite H1, app_nil_r. reflexivity.
Qed.

Lemma terminal_does E C K t0 m w w' u v : implements E C K -> full_caps C -> sensible E m ->
  perfect (script w) -> obuf w = [] -> style_ok (sty (wat w)) ->
  look K (feed K t0 (dev w)) = Some v -> vattrs v = wat w ->
  terminal_method C m w = Ret w' u ->
  exists v', look K (feed K t0 (dev w')) = Some v' /\ effect E m v v' /\ vattrs v' = wat w' /\
    perfect (script w') /\ obuf w' = [] /\ style_ok (sty (wat w')).
Proof.
  intros HK Hc Hm Hp Ho Hs Hl Hv Hrun. destruct (terminal_arrives C m w w' u Hp Ho Hrun) as (A1 & A2 & A3).
  destruct (call_in_step E C (OnTerminal m) w w' u Hc Hm (perfect_whole _ Hp) Hs Hrun) as (M1 & M2 & x & M3 & M4).
  assert (Hst : stream w = dev w) by (unfold stream; rewrite Ho; apply app_nil_r).
  destruct (M4 K HK _ _ Hl Hv) as (v1 & V1 & V2 & V3).
  rewrite <- (feed_app _ _ _ HK), <- Hst, <- M3, A3 in V1. exists v1. cbn in V2. auto 10.
Qed.
