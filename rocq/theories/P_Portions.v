From Verif Require Import Base M_Utf8 S_Utf8 P_Utf8 M_Geom M_Seq S_Seq P_Seq M_Signal M_Util M_Input S_Input P_Input M_Writer M_Prepare M_Reader S_Prepare S_Reader P_Prepare P_Reader P_Reader2 S_Typing S_Portions.
Notation report := S_Input.report.
Local Open Scope N_scope.

Section Portions.
  Variables (C : tcfg) (m : seq_map).
  Hypothesis Hgrow : forall c n, (n <= grow C c n)%nat.
  Hypothesis Hm : key_map m.

  Lemma front_peeked buf e rest : front m buf e rest ->
    exists n, peek_event buf m = Val (PEvent e n) /\ skipn n buf = rest /\ buf <> [].
  Proof.
    intros H. destruct H as [q k rest H|d rest H H1 H2|c rest Hc H|d rest s H H0 H1 H2 H3].
    - exists (length q). split; [now apply peek_key|]. split; [apply skipn_len_app|].
      destruct H as [(_ & Hq & _) _]. destruct q; [congruence|discriminate].
    - exists (length (report d)). split; [now apply report_decodes|]. split; [apply skipn_len_app|]. discriminate.
    - exists (length (utf8 c)). split; [now apply peek_plain|]. split; [apply skipn_len_app|].
      intros X. apply app_eq_nil in X as [X _]. now apply utf8_nonempty in X.
    - exists 1%nat. split; [|split; [reflexivity|discriminate]]. eapply split_report; eauto. discriminate.
  Qed.

  Lemma try_front s e rest : front m (inbuf s) e rest ->
    try_read m s = Ret (with_inbuf rest (incap s) s) (Some e).
  Proof.
    intros H. destruct (front_peeked _ _ _ H) as (n & H1 & H2 & H3).
    unfold try_read. destruct (inbuf s) as [|b l] eqn:E; [congruence|]. rewrite <- E in *.
    unfold peek. rewrite H1. cbn [obind]. now rewrite H2.
  Qed.
  Lemma try_not_yet s : not_yet (inbuf s) -> try_read m s = Ret s None.
  Proof. intros H. apply try_truncated. exact H. Qed.

  Lemma calm_inbuf s b c : calm s -> calm (with_inbuf b c s).
  Proof. intros H. exact H. Qed.

  Lemma reads_portions buf ps out buf' ps' : reading m buf ps out buf' ps' ->
    Forall (fun p => length p <= 128)%nat ps ->
    forall s, calm s -> inbuf s = buf -> portions s = ps ->
    exists s', rrun C m (repeat (RRead None) (length out)) s = Some (s', map YEvent out) /\
      inbuf s' = buf' /\ portions s' = ps' /\ calm s'.
  Proof.
    intros H. induction H as [buf ps|buf ps e rest out buf' ps' H1 H2 IH|buf p ps e rest out buf' ps' H0 H1 H2 IH|buf p ps out buf' ps' H0 H1 H2 IH];
      intros Hl s Hs Hi Hp; cbn [length repeat rrun rstep map].
    - exists s. auto.
    - subst buf. unfold read_event. rewrite (try_front s e rest H1). cbn [obind ret].
      destruct (IH Hl (with_inbuf rest (incap s) s) Hs eq_refl Hp) as (s' & -> & R). exists s'. auto.
    - inversion Hl as [|? ? Hl1 Hl2]; subst.
      destruct (read_portion C m Hgrow s p ps Hs Hp Hl1 (try_not_yet s H0)) as (s1 & E1 & I1 & P1 & C1).
      rewrite E1. rewrite <- I1 in H1. rewrite (try_front s1 e rest H1). cbn [ret].
      destruct (IH Hl2 (with_inbuf rest (incap s1) s1) C1 eq_refl P1) as (s' & -> & R). exists s'. auto.
    - inversion Hl as [|? ? Hl1 Hl2]; subst.
      destruct (read_portion C m Hgrow s p ps Hs Hp Hl1 (try_not_yet s H0)) as (s1 & E1 & I1 & P1 & C1).
      rewrite E1. rewrite <- I1 in H1. rewrite (try_not_yet s1 H1). cbn [ret].
      destruct (IH Hl2 s1 C1 I1 P1) as (s' & -> & R). exists s'. auto.
  Qed.

  Lemma holds_reading buf es : holds m buf es -> forall ps, reading m buf ps (map Some es) [] ps.
  Proof.
    induction 1 as [|buf e rest es H _ IH]; intros ps; cbn [map]; [apply Reading_ends|].
    eapply Reading_there; [exact H|apply IH].
  Qed.
  Lemma reading_app buf ps out buf' ps' : reading m buf ps out buf' ps' ->
    forall out2 b2 p2, reading m buf' ps' out2 b2 p2 -> reading m buf ps (out ++ out2) b2 p2.
  Proof.
    induction 1; intros; cbn [app]; eauto using Reading_there, Reading_comes, Reading_part.
  Qed.
  Lemma portion_reading p es ps : p <> [] -> holds m p es -> reading m [] (p :: ps) (map Some es) [] ps.
  Proof.
    intros Hp H. inversion H as [E|? e rest es' H1 H2]; subst; [congruence|]. cbn [map].
    eapply Reading_comes; [now left|exact H1|]. now apply holds_reading.
  Qed.
  Lemma each_by_itself ps rest ess : Forall2 (holds m) ps ess -> Forall (fun p => p <> []) ps ->
    reading m [] (ps ++ rest) (map Some (concat ess)) [] rest.
  Proof.
    induction 1 as [|p es ps ess H _ IH]; intros Hn; cbn [app concat]; [apply Reading_ends|].
    inversion Hn; subst. rewrite map_app. eapply reading_app; [apply portion_reading; [assumption|exact H]|]. now apply IH.
  Qed.

  Lemma portions_by_themselves ps ess s : Forall2 (holds m) ps ess ->
    Forall (fun p => p <> [] /\ length p <= 128)%nat ps -> calm s -> inbuf s = [] -> portions s = ps ->
    exists s', rrun C m (repeat (RRead None) (length (concat ess))) s =
        Some (s', map (fun e => YEvent (Some e)) (concat ess)) /\ inbuf s' = [] /\ portions s' = [].
  Proof.
    intros H Hl Hs Hi Hp.
    assert (R := each_by_itself ps [] ess H (Forall_impl _ (fun p X => proj1 X) Hl)). rewrite app_nil_r in R.
    destruct (reads_portions _ _ _ _ _ R (Forall_impl _ (fun p X => proj2 X) Hl) s Hs Hi Hp) as (s' & E & I & P & _).
    rewrite map_length, map_map in E. exists s'. auto.
  Qed.

  Lemma reads_portions_closed s out buf' ps' : reading m (inbuf s) (portions s) out buf' ps' ->
    Forall (fun p => length p <= 128)%nat (portions s) -> calm s ->
    exists s', rrun C m (repeat (RRead None) (length out)) s = Some (s', map YEvent out) /\
      inbuf s' = buf' /\ portions s' = ps'.
  Proof.
    intros H Hl Hs. destruct (reads_portions _ _ _ _ _ H Hl s Hs eq_refl eq_refl) as (s' & E & I & P & _). exists s'. auto.
  Qed.

  (** ** A mouse report in two pieces *)
  Lemma ascii_utf8 b : b < 128 -> utf8 b = [b] /\ scalar b.
  Proof.
    intros H. split.
    - unfold utf8. now replace (b <? 128) with true by lia.
    - unfold scalar, is_scalar. lia.
  Qed.
  Definition idle (b : N) : Prop := b < 128 /\ begins_nothing m b.
  Lemma idle_holds bs : Forall idle bs -> holds m bs (keys_for bs).
  Proof.
    induction 1 as [|b bs [H1 H2] _ IH]; cbn [keys_for map]; [constructor|].
    destruct (ascii_utf8 b H1) as [E Hs]. change (b :: bs) with ([b] ++ bs). rewrite <- E.
    eapply Holds_event; [apply Front_char; [exact Hs|]|exact IH].
    intros q v (Hin & Hq & (r & Hr)). apply (H2 q v Hin). rewrite E in Hr |- *. destruct q as [|x q]; [congruence|].
    injection Hr as -> _. now exists q.
  Qed.

  Lemma report_bytes d : exists l, report d = 27 :: l /\ Forall (fun b => digit b \/ In b [91; 60; 59; 77; 109]) l.
  Proof.
    unfold report, sgr, decimal. cbn [app]. eexists. split; [reflexivity|].
    assert (D : forall u, Forall (fun b => digit b \/ In b [91; 60; 59; 77; 109]) (digits_of u)).
    { intros u. eapply Forall_impl; [|apply digits_digit]. auto. }
    repeat (apply Forall_cons; [right; cbn; auto 8|]). apply Forall_app. split; [apply D|].
    repeat (apply Forall_cons; [right; cbn; auto 8|]). apply Forall_app. split; [apply D|].
    repeat (apply Forall_cons; [right; cbn; auto 8|]). apply Forall_app. split; [apply D|].
    apply Forall_cons; [right; destruct (what d); cbn; auto 8|constructor].
  Qed.

  Lemma cut_report_keys d p p' st : report d = p ++ p' -> p <> [] -> p' <> [] ->
    at_line d < U32_MAX -> at_column d < U32_MAX -> (length (report d) <= 128)%nat ->
    (forall q v, matches m p q v -> q = XTERM_MOUSE_INTRO /\ v = XTermMouse) ->
    (forall b, digit b \/ In b [91; 60; 59; 77; 109] -> begins_nothing m b) ->
    calm st -> inbuf st = [] -> portions st = [p; p'] ->
    exists st', rrun C m (repeat (RRead None) (length (report d))) st =
      Some (st', map (fun e => YEvent (Some e)) (keys_for (report d))) /\ inbuf st' = [] /\ portions st' = [].
  Proof.
    intros H Hp Hp' H1 H2 Hl Hq Hb Hs Hi Hps.
    destruct (report_bytes d) as (l & El & Fl). rewrite El in H.
    destruct p as [|b p]; [congruence|]. cbn [app] in H. injection H as <- H.
    assert (Hidle : Forall idle l).
    { eapply Forall_impl; [|exact Fl]. intros b Hx. split; [|now apply Hb].
      destruct Hx as [Hx|Hx]; [unfold digit in Hx; lia|]. cbn in Hx. lia. }
    rewrite H in Hidle. apply Forall_app in Hidle as [A1 A2].
    destruct (portions_by_themselves [27 :: p; p'] [EKey KEscape :: keys_for p; keys_for p'] st) as (st' & E & I & P); auto.
    - constructor; [|constructor; [now apply idle_holds|constructor]].
      eapply Holds_event; [|now apply idle_holds]. eapply Front_cut with (d := d) (s := p'); auto.
      rewrite El. cbn [app]. now rewrite H.
    - rewrite El, H in Hl. cbn [length] in Hl. rewrite app_length in Hl.
      constructor; [split; [discriminate|cbn [length]; lia]|constructor; [split; [assumption|lia]|constructor]].
    - assert (K : keys_for (report d) = concat [EKey KEscape :: keys_for p; keys_for p']).
      { rewrite El, H. cbn [concat]. unfold keys_for. rewrite app_nil_r. cbn [map app]. now rewrite map_app. }
      rewrite <- K in E. assert (L : length (keys_for (report d)) = length (report d)) by apply map_length.
      rewrite L in E. exists st'. auto.
  Qed.
End Portions.
