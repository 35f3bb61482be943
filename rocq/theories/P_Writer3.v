(** Erasing, cursor visibility, and entering and leaving the alternate screen. *)
From Verif Require Import Base M_Utf8 P_Utf8 S_Utf8 M_Geom S_Geom M_Attr M_Buf S_Buf M_Writer S_Tty S_Writer
  P_Writer P_Attr P_Writer2.

(** A capability whose string was appended has its effect. *)
Lemma expand_effect E C c e ps w w' u : info C c = Some e -> expand C e ps w = Ret w' u ->
  dev w' = dev w /\ script w' = script w /\ wat w' = wat w /\
  exists x, obuf w' = obuf w ++ x /\
    forall K, implements E C K -> forall t v, look K t = Some v -> cap_dom c ps v ->
    exists v', look K (feed K t x) = Some v' /\ cap_effect c ps v v'.
Proof.
  intros Hi H. unfold expand in H. destruct (e (wctx w) ps) as [[bs k] ok] eqn:Ee.
  destruct ok; [|discriminate]. injection H as <- _. cbn. repeat split. exists bs. split; [reflexivity|].
  intros K HK t v Hl Hd. eapply (cap_ok _ _ _ HK); eauto.
Qed.

Lemma req_effect E C c ps w w' u : expand_req C c ps w = Ret w' u ->
  dev w' = dev w /\ script w' = script w /\ wat w' = wat w /\
  exists x, obuf w' = obuf w ++ x /\
    forall K, implements E C K -> forall t v, look K t = Some v -> cap_dom c ps v ->
    exists v', look K (feed K t x) = Some v' /\ cap_effect c ps v v'.
Proof.
  unfold expand_req. destruct (info C c) as [e|] eqn:Ei; [|discriminate]. now apply expand_effect.
Qed.

Lemma clear_effect E C o w w' u : o = OClearScreen \/ o = OClearToLineEnd \/ o = OClearToScreenEnd ->
  run_wop C o w = Ret w' u ->
  dev w' = dev w /\ script w' = script w /\ wat w' = wat w /\
  exists x, obuf w' = obuf w ++ x /\
    forall K, implements E C K -> forall t v, look K t = Some v ->
    (o <> OClearScreen -> on_cell v) ->
    exists v', look K (feed K t x) = Some v' /\
      vsize v' = vsize v /\ vattrs v' = vattrs v /\ vvis v' = vvis v /\
      vcur v' = (match o with OClearScreen => Cursor 0 0 | _ => vcur v end) /\
      let from := match o with OClearScreen => 0 | _ => cell_no (vsize v) (vcur v) end in
      let to := match o with
                | OClearToLineEnd => S (line (vcur v)) * columns (vsize v)
                | _ => total (vsize v) end in
      erased from to v v'.
Proof.
  intros Ho H.
  destruct Ho as [->|[->| ->]]; cbn [run_wop] in H; unfold clear_screen, clear_to_line_end, clear_to_screen_end in H;
    destruct (req_effect E C _ _ _ _ _ H) as (H1 & H2 & H3 & x & H4 & H5);
    (split; [assumption|]; split; [assumption|]; split; [assumption|]; exists x; split; [assumption|]);
    intros K HK t v Hl Hc; destruct (H5 K HK t v Hl I) as (v' & E1 & E2); exists v'; (split; [assumption|]);
    cbn [cap_effect] in E2.
  - destruct E2 as (E2 & (E3 & E4 & E5 & E6 & _) & E7). cbn in *. repeat (split; [assumption|]). assumption.
  - destruct E2 as ((E3 & E4 & E5 & E6 & _) & E7). repeat (split; [assumption|]). apply E7, Hc. discriminate.
  - destruct E2 as ((E3 & E4 & E5 & E6 & _) & E7). repeat (split; [assumption|]). apply E7, Hc. discriminate.
Qed.

Lemma clear_missing C o w : o = OClearScreen \/ o = OClearToLineEnd \/ o = OClearToScreenEnd ->
  let c := match o with OClearScreen => ClearScreen | OClearToLineEnd => ClrEol | _ => ClrEos end in
  has C c = false -> run_wop C o w = Fail w (ENotSupported c).
Proof.
  unfold has. intros [->|[->| ->]]; cbn [run_wop]; cbv zeta;
    unfold clear_screen, clear_to_line_end, clear_to_screen_end, expand_req; destruct (info C _); congruence.
Qed.

(** Cursor visibility. *)
Lemma cursor_mode_effect E C m w w' u : run_wop C (OSetCursorMode m) w = Ret w' u ->
  dev w' = dev w /\ wat w' = wat w /\
  exists x, obuf w' = obuf w ++ x /\
    forall K, implements E C K -> has C CursorNormal = true -> has C CursorInvisible = true ->
    forall t v, look K t = Some v ->
    look K (feed K t x) = Some (set_vvis (match m with CInvisible => false | _ => true end) v).
Proof.
  cbn [run_wop]. unfold set_cursor_mode, has. intros H.
  assert (Hn : match info C (match m with CInvisible => CursorInvisible | _ => CursorNormal end) with
               | Some _ => expand_req C (match m with CInvisible => CursorInvisible | _ => CursorNormal end) [] w = Ret w' u
               | None => w' = w end).
  { unfold expand_req. destruct m; unfold expand_opt in H;
      destruct (info C _); auto; injection H; auto. }
  destruct (info C (match m with CInvisible => CursorInvisible | _ => CursorNormal end)) as [e|] eqn:Ei.
  - destruct (req_effect E C _ _ _ _ _ Hn) as (H1 & H2 & H3 & x & H4 & H5).
    split; [assumption|]. split; [assumption|]. exists x. split; [assumption|].
    intros K HK _ _ t v Hl. destruct (H5 K HK t v Hl) as (v' & E1 & E2); [destruct m; exact I|].
    rewrite E1. destruct m; cbn in E2; now rewrite E2.
  - subst w'. split; [reflexivity|]. split; [reflexivity|]. exists []. split; [now rewrite app_nil_r|].
    intros K HK Hc1 Hc2. destruct m; rewrite Ei in *; discriminate.
Qed.

(** Entering the alternate screen. *)
Lemma bind_ret {S Er A B} (r : out S Er A) (k : S -> A -> out S Er B) s b :
  obind r k = Ret s b -> exists s1 a, r = Ret s1 a /\ k s1 a = Ret s b.
Proof. destruct r; cbn; intros H; try discriminate. eauto. Qed.

Definition carries E C (w w' : wst) (P : view -> Prop) (Q : view -> view -> Prop) : Prop :=
  dev w' = dev w /\ script w' = script w /\
  exists x, obuf w' = obuf w ++ x /\
    forall K, implements E C K -> forall t v, look K t = Some v -> P v ->
    exists v', look K (feed K t x) = Some v' /\ Q v v'.

Lemma carries_trans E C w1 w2 w3 P Q P' Q' (R : view -> view -> Prop) :
  carries E C w1 w2 P Q -> carries E C w2 w3 P' Q' ->
  (forall v v', P v -> Q v v' -> P' v') ->
  (forall v v' v'', P v -> Q v v' -> Q' v' v'' -> R v v'') ->
  carries E C w1 w3 P R.
Proof.
  intros (H1 & H2 & x & H3 & H4) (K1 & K2 & y & K3 & K4) HP HR.
  split; [congruence|]. split; [congruence|]. exists (x ++ y).
  split; [now rewrite K3, H3, app_assoc|]. intros K HK t v Hl Hp.
  destruct (H4 K HK t v Hl Hp) as (v' & E1 & E2). destruct (K4 K HK _ _ E1 (HP _ _ Hp E2)) as (v'' & E3 & E4).
  exists v''. rewrite (feed_app _ _ _ HK). split; [assumption|]. eapply HR; eauto.
Qed.

Lemma carries_refl E C w (P : view -> Prop) (Q : view -> view -> Prop) :
  (forall v, P v -> Q v v) -> carries E C w w P Q.
Proof.
  intros H. split; [reflexivity|]. split; [reflexivity|]. exists []. split; [now rewrite app_nil_r|].
  intros K HK t v Hl Hp. exists v. rewrite (feed_nil _ _ _ HK). auto.
Qed.

Lemma carries_expand E C c e ps w w' u (P : view -> Prop) : info C c = Some e -> expand C e ps w = Ret w' u ->
  (forall v, P v -> cap_dom c ps v) -> wat w' = wat w /\ carries E C w w' P (cap_effect c ps).
Proof.
  intros Hi He Hd. destruct (expand_effect E C c e ps w w' u Hi He) as (H1 & H2 & H3 & x & H4 & H5).
  split; [assumption|]. split; [assumption|]. split; [assumption|]. exists x. split; [assumption|].
  intros K HK t v Hl Hp. apply (H5 K HK t v Hl). auto.
Qed.

Lemma carries_opt E C c w w' u (P : view -> Prop) : expand_opt C c [] w = Ret w' u ->
  (forall v, P v -> cap_dom c [] v) -> (forall v v', cap_effect c [] v v' -> keeps v v') ->
  wat w' = wat w /\ carries E C w w' P keeps.
Proof.
  unfold expand_opt. destruct (info C c) as [e|] eqn:Ei; intros H Hd Hk.
  - destruct (carries_expand E C c e [] w w' u P Ei H Hd) as (H1 & H2). split; [assumption|].
    destruct H2 as (H2 & H3 & x & H4 & H5). split; [assumption|]. split; [assumption|]. exists x.
    split; [assumption|]. intros K HK t v Hl Hp. destruct (H5 K HK t v Hl Hp) as (v' & E1 & E2). eauto.
  - injection H as <- _. split; [reflexivity|]. apply carries_refl. intros v _. repeat split.
Qed.

Lemma enter_effect0 E C sz w w' u : caps_coherent C -> enter_screen C (inr sz) w = Ret w' u ->
  (N.of_nat (lines sz) <= u32_max)%N ->
  script w' = script w /\ dev w' = dev w /\ wat w' = no_attrs /\ exists x, obuf w' = obuf w ++ x /\
    forall K, implements E C K -> forall t v, look K t = Some v -> vsize v = sz -> vattrs v = shown_attrs C (wat w) ->
    exists v', look K (feed K t x) = Some v' /\ vsize v' = sz /\ vcur v' = Cursor 0 0 /\ vattrs v' = no_attrs /\
      vvis v' = vvis v /\
      forall i, i < total sz -> nth_error (vcells v') i = Some (VC [SPACE] no_attrs).
Proof.
  intros Hcoh H Hu. unfold enter_screen in H.
  destruct (info C ChangeScrollRegion) as [scroll|] eqn:Es; [|discriminate].
  destruct (info C CursorHome) as [home|] eqn:Eh; [|discriminate].
  apply bind_ret in H. destruct H as (w1 & u1 & H1 & H).
  destruct (lines sz) as [|l] eqn:El; [discriminate|].
  apply bind_ret in H. destruct H as (w2 & u2 & H2 & H).
  apply bind_ret in H. destruct H as (w3 & u3 & H3 & H).
  apply bind_ret in H. destruct H as (w4 & u4 & H4 & H).
  pose (P := fun v : view => vsize v = sz /\ vattrs v = shown_attrs C (wat w)).
  assert (Hkeep : forall v v', P v -> keeps v v' -> P v').
  { unfold P, keeps. intros v v' [-> ->] (-> & -> & _). auto. }
  destruct (carries_opt E C EnterCaMode w w1 u1 P H1) as (A1 & B1); [intros; exact I|intros v v'; auto|].
  destruct (carries_expand E C ChangeScrollRegion scroll _ w1 w2 u2 P Es H2) as (A2 & B2).
  { intros v [Hv _]. cbn [cap_dom]. rewrite Hv, El. split; [reflexivity|].
    assert (Hl : to_u32 l = N.min (N.of_nat l) u32_max) by reflexivity. rewrite Hl. lia. }
  destruct (carries_expand E C CursorHome home _ w2 w3 u3 P Eh H3) as (A3 & B3); [intros; exact I|].
  assert (B13 : carries E C w w3 P (fun v v' => keeps v v')).
  { eapply carries_trans with (P' := P) (Q' := fun v v' => keeps v v').
    - exact B1.
    - eapply carries_trans with (P' := P); [exact B2|exact B3| |].
      + intros v v' Hp Hq. eapply Hkeep; eauto.
      + cbn [cap_effect]. intros v v' v'' _ Hq ->. exact Hq.
    - eauto.
    - intros v v' v'' _ (K1 & K2 & K3 & K4) (L1 & L2 & L3 & L4). repeat split; congruence. }
  assert (H4' := clear_adv C w3). rewrite H4 in H4'. destruct H4' as (A4 & D1 & D2 & y & D3 & D4).
  assert (Hw3 : wat w3 = wat w) by congruence.
  destruct (req_effect E C _ _ _ _ _ H) as (F1 & F2 & F3 & z & F4 & F5).
  destruct B13 as (G1 & G2 & x & G3 & G4).
  split; [congruence|]. split; [congruence|]. split; [congruence|]. exists (x ++ y ++ z).
  split; [now rewrite F4, D3, G3, !app_assoc|].
  intros K HK t v Hl Hs Ha. destruct (G4 K HK t v Hl (conj Hs Ha)) as (v1 & E1 & E2 & E3 & E4 & E5).
  assert (E6 := D4 E K Hcoh HK _ v1 E1). rewrite Hw3 in E6. specialize (E6 ltac:(congruence)).
  rewrite shown_none in E6.
  destruct (F5 K HK _ _ E6 I) as (v2 & E7 & E8). exists v2.
  rewrite !(feed_app _ _ _ HK). split; [assumption|]. cbn [cap_effect] in E8.
  destruct E8 as (E8 & (E9 & _ & E10 & E11 & _) & _ & E12). cbn in E9, E10, E11, E12.
  split; [congruence|]. split; [assumption|]. split; [assumption|]. split; [congruence|].
  intros i Hi. destruct (E12 i) as (a & E13 & E14).
  - rewrite E2, Hs. unfold total in *. lia.
  - rewrite E13, E14; reflexivity.
Qed.

Lemma enter_effect E C sz w w' u : caps_coherent C -> enter_screen C (inr sz) w = Ret w' u ->
  (N.of_nat (lines sz) <= u32_max)%N ->
  dev w' = dev w /\ wat w' = no_attrs /\ exists x, obuf w' = obuf w ++ x /\
    forall K, implements E C K -> forall t v, look K t = Some v -> vsize v = sz -> vattrs v = shown_attrs C (wat w) ->
    exists v', look K (feed K t x) = Some v' /\ vsize v' = sz /\ vcur v' = Cursor 0 0 /\ vattrs v' = no_attrs /\
      vvis v' = vvis v /\
      forall i, i < total sz -> nth_error (vcells v') i = Some (VC [SPACE] no_attrs).
Proof. intros H1 H2 H3. exact (proj2 (enter_effect0 E C sz w w' u H1 H2 H3)). Qed.

(** Leaving it. *)
Lemma exit_effect C w : perfect (script w) ->
  match exit_screen C w with
  | Ret w' _ => (has C ExitCaMode = true -> obuf w' = [] /\ exists x, dev w' = dev w ++ obuf w ++ x) /\
                (has C ExitCaMode = false -> w' = w)
  | Fail _ e => e = EExpand
  | Panic => False
  | Blocked => True
  end.
Proof.
  intros Hp. unfold exit_screen, has. destruct (info C ExitCaMode) as [e|]; [|split; [discriminate|reflexivity]].
  unfold expand. destruct (e (wctx w) []) as [[bs k] ok]. destruct ok; [|reflexivity]. cbn [obind].
  set (w1 := with_wctx k (push C bs w)).
  assert (H := flush_perfect w1 Hp). destruct (flush w1); auto; [|contradiction].
  split; [|discriminate]. intros _. destruct H as (_ & H1 & H2 & _). split; [assumption|]. exists bs. exact H2.
Qed.
