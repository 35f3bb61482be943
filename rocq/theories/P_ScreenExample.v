(** Proofs about the example program examples/screen.rs (C143). *)
From Coq Require Import String.
From Verif Require Import Base M_Utf8 S_Utf8 M_Geom S_Geom M_Attr M_Seq S_Seq M_Signal M_Util M_Input S_Input M_Buf S_Buf M_Writer M_Prepare M_Reader
  S_Reader P_Reader P_Reader2 S_Typing P_Typing M_ScreenApi M_UnixScreen M_Lines.
From Verif Require M_Api S_Prepare S_Tty S_Writer M_Screen S_Screen P_Canvas P_Buf2 P_Screen2 P_Screen3 P_Screen5 S_UnixScreen S_Lines.
From Verif Require Import S_Canvas S_Interact P_Interact S_Succeeds P_Succeeds P_Succeeds2 M_ScreenExample S_ScreenExample.
Local Open Scope nat_scope.

(** Canvases that look the same. *)
Definition alike (k k' : canvas) : Prop :=
  ksize k = ksize k' /\ pen k = pen k' /\ brush k = brush k' /\ forall l c, ink k l c = ink k' l c.
Lemma alike_refl k : alike k k. Proof. unfold alike. auto. Qed.
Lemma alike_displays C v k k' : alike k k' -> displays C v k -> displays C v k'.
Proof. intros (H1 & H2 & H3 & H4) (D1 & D2). split; [congruence|]. intros p Hp. rewrite <- H1 in *. rewrite <- H4. now apply D2. Qed.
Lemma alike_goal k k' : alike k k' -> pen_goal k = pen_goal k'.
Proof. intros (H1 & H2 & _). unfold pen_goal. now rewrite H1, H2. Qed.

Lemma typed_alike E c k k' : alike k k' ->
  match typed E c k, typed E c k' with
  | Some x, Some y => alike x y
  | None, None => True
  | _, _ => False
  end.
Proof.
  destruct k as [z f p a], k' as [z' f' p' a']. intros (H1 & H2 & H3 & H4). cbn in H1, H2, H3, H4. subst z' p' a'. unfold typed. cbn [pen ksize brush ink].
  destruct (c =? 13)%N; [repeat split; exact H4|]. destruct (c =? 10)%N; [repeat split; exact H4|].
  destruct (c =? 9)%N.
  { destruct (on_canvas z p); [|exact Logic.I]. repeat split. intros l c'. cbn [ink set_pen set_ink]. now rewrite H4. }
  destruct (combining E c).
  { destruct (before z p); [|repeat split; exact H4]. destruct (on_canvas z _); [|exact Logic.I]. repeat split. intros l c'.
    cbn [ink set_pen set_ink]. now rewrite !H4. }
  destruct (cwidth E c) as [[|[|w]]|]; try (repeat split; exact H4).
  destruct (on_canvas z p); [|exact Logic.I]. repeat split. intros l c'. cbn [ink set_pen set_ink]. now rewrite H4.
Qed.
Lemma typing_alike E s : forall k k', alike k k' -> alike (fst (typing E s k)) (fst (typing E s k')).
Proof.
  induction s as [|c s IH]; intros k k' H; cbn [typing]; [exact H|]. pose proof (typed_alike E c k k' H) as T.
  destruct (typed E c k), (typed E c k'); try contradiction; [now apply IH|exact H].
Qed.

(** Where the pen can be after some text. *)
Lemma typed_line E c k k' : typed E c k = Some k' ->
  ksize k' = ksize k /\ brush k' = brush k /\
  line (pen k') <= Nat.max (line (pen k)) (lines (ksize k)) + (if (c =? 10)%N then 1 else 0).
Proof.
  unfold typed. destruct (c =? 13)%N eqn:E1; [intros [= <-]; cbn; split; [reflexivity|split; [reflexivity|lia]]|].
  destruct (c =? 10)%N; [intros [= <-]; cbn; split; [reflexivity|split; [reflexivity|lia]]|].
  destruct (c =? 9)%N.
  { destruct (on_canvas _ _) eqn:Ho; [|discriminate]. intros [= <-]. cbn [ksize brush pen set_pen set_ink]. split; [reflexivity|split; [reflexivity|]].
    unfold on_canvas in Ho. destruct (Nat.min _ _ <? _); cbn [line]; lia. }
  destruct (combining E c).
  { destruct (before _ _); [|intros [= <-]; split; [reflexivity|split; [reflexivity|lia]]]. destruct (on_canvas _ _); [|discriminate].
    intros [= <-]. cbn. split; [reflexivity|split; [reflexivity|lia]]. }
  destruct (cwidth E c) as [[|[|w]]|]; try (intros [= <-]; split; [reflexivity|split; [reflexivity|lia]]).
  destruct (on_canvas _ _) eqn:Ho; [|discriminate]. intros [= <-]. cbn [ksize brush pen set_pen set_ink]. split; [reflexivity|split; [reflexivity|]].
  unfold on_canvas in Ho. destruct (_ + 1 <? _); cbn [line]; lia.
Qed.
Lemma typing_line E s : forall k, let k' := fst (typing E s k) in
  ksize k' = ksize k /\ brush k' = brush k /\ line (pen k') <= Nat.max (line (pen k)) (lines (ksize k)) + newlines s.
Proof.
  induction s as [|c s IH]; intros k; cbn [typing]; [cbn [fst]; split; [reflexivity|split; [reflexivity|lia]]|].
  destruct (typed E c k) as [k1|] eqn:Et; [|cbn [fst]; split; [reflexivity|split; [reflexivity|lia]]].
  destruct (typed_line E c k k1 Et) as (T1 & T2 & T3). destruct (IH k1) as (I1 & I2 & I3). rewrite I1, I2, T1, T2. split; [reflexivity|]. split; [reflexivity|].
  rewrite T1 in I3. unfold newlines in *. cbn [count_occ]. change LF with 10%N in *.
  destruct (N.eq_dec c 10) as [->|Hc]; [rewrite N.eqb_refl in T3; cbv iota in T3; lia|]. apply N.eqb_neq in Hc. rewrite Hc in T3. lia.
Qed.

(** ASCII text on one line. *)
Lemma typing_ascii E s : S_Lines.ascii_plain E -> Forall (fun c => (32 <= c < 127)%N) s ->
  forall k, line (pen k) < lines (ksize k) -> column (pen k) + List.length s <= columns (ksize k) ->
  exists k', typing E s k = (k', true) /\ ksize k' = ksize k /\ brush k' = brush k /\
    (forall l c, ink k' l c = put (line (pen k)) (column (pen k)) s (brush k) (ink k) l c) /\
    (column (pen k) + List.length s < columns (ksize k) -> pen k' = Cursor (line (pen k)) (column (pen k) + List.length s)).
Proof.
  intros HA. induction s as [|c s IH]; intros Hs k Hl Hc; cbn [typing List.length] in *.
  - exists k. split; [reflexivity|]. split; [reflexivity|]. split; [reflexivity|]. split.
    + intros l c. unfold put. cbn [List.length]. destruct ((l =? _) && (_ <=? c) && (c <? _ + 0)) eqn:Eb; [lia|reflexivity].
    + intros _. destruct (pen k). cbn. now rewrite Nat.add_0_r.
  - inversion Hs as [|? ? Hc0 Hs']; subst. destruct (HA c Hc0) as [(_ & HP) HW].
    assert (Hco : combining E c = false) by (destruct HP; tauto).
    assert (Ho : on_canvas (ksize k) (pen k) = true) by (unfold on_canvas; lia).
    unfold typed. replace (c =? 13)%N with false by lia. replace (c =? 10)%N with false by lia. replace (c =? 9)%N with false by lia.
    rewrite Hco, HW, Ho.
    set (f := fun l c' => if (l =? line (pen k)) && (c' =? column (pen k)) then ([c], brush k) else ink k l c').
    destruct s as [|d s].
    + cbn [typing]. eexists. split; [reflexivity|]. split; [reflexivity|]. split; [reflexivity|]. split.
      * intros l c'. cbn [ink set_pen set_ink]. unfold f, put. cbn [List.length].
        destruct ((l =? line (pen k)) && (c' =? column (pen k))) eqn:Eb.
        -- replace ((l =? line (pen k)) && (column (pen k) <=? c') && (c' <? column (pen k) + 1)) with true by lia.
           replace (c' - column (pen k)) with 0 by lia. reflexivity.
        -- replace ((l =? line (pen k)) && (column (pen k) <=? c') && (c' <? column (pen k) + 1)) with false by lia. reflexivity.
      * cbn [List.length]. intros Hlt. cbn [pen set_pen]. replace (column (pen k) + 1 <? columns (ksize k)) with true by lia. reflexivity.
    + cbn [List.length] in Hc. replace (column (pen k) + 1 <? columns (ksize k)) with true by lia.
      destruct (IH Hs' (set_pen (Cursor (line (pen k)) (column (pen k) + 1)) (set_ink f k))) as (k' & K1 & K2 & K3 & K4 & K5).
      { exact Hl. } { cbn [pen set_pen ksize set_ink column List.length]. lia. }
      exists k'. split; [exact K1|]. split; [exact K2|]. split; [exact K3|]. cbn [pen set_pen ksize set_ink column line brush ink] in K4, K5. split.
      * intros l c'. rewrite K4. unfold put, f. cbn [List.length].
        destruct ((l =? line (pen k)) && (c' =? column (pen k))) eqn:Eb.
        -- replace ((l =? line (pen k)) && (column (pen k) <=? c') && (c' <? column (pen k) + S (S (List.length s)))) with true by lia.
           replace ((l =? line (pen k)) && (column (pen k) + 1 <=? c') && (c' <? column (pen k) + 1 + S (List.length s))) with false by lia.
           replace (c' - column (pen k)) with 0 by lia. reflexivity.
        -- destruct ((l =? line (pen k)) && (column (pen k) <=? c') && (c' <? column (pen k) + S (S (List.length s)))) eqn:Ec.
           ++ replace ((l =? line (pen k)) && (column (pen k) + 1 <=? c') && (c' <? column (pen k) + 1 + S (List.length s))) with true by lia.
              replace (c' - column (pen k)) with (S (c' - (column (pen k) + 1))) by lia. reflexivity.
           ++ replace ((l =? line (pen k)) && (column (pen k) + 1 <=? c') && (c' <? column (pen k) + 1 + S (List.length s))) with false by lia. reflexivity.
      * intros Hlt. cbn [List.length] in K5, Hlt. rewrite K5 by lia. f_equal. cbn [List.length]. lia.
Qed.

Section Pictures.
  Variables (E : env) (debug : event -> list (list N)) (z : size).
  Hypothesis HA : S_Lines.ascii_plain E.
  Hypothesis Hl : 3 <= lines z.
  Hypothesis Hc : 33 <= columns z.

  Lemma text1_ascii : Forall (fun c => (32 <= c < 127)%N) (chars "Reading input. Press 'q' to stop.").
  Proof. apply Forall_forall. intros c Hi. vm_compute in Hi. repeat (destruct Hi as [<-|Hi]; [lia|]). contradiction. Qed.
  Lemma text2_ascii : Forall (fun c => (32 <= c < 127)%N) (chars "Hello, world!").
  Proof. apply Forall_forall. intros c Hi. vm_compute in Hi. repeat (destruct Hi as [<-|Hi]; [lia|]). contradiction. Qed.

  Lemma greets k : ksize k = z -> brush k = Attrs None None 0%N -> alike (draws E draw_screen k) (picture E debug z None).
  Proof.
    intros Hz Hb. unfold draw_screen. cbn [draws draw where_ pick]. cbn [ksize set_ink]. rewrite Hz.
    replace (on_canvas z (Cursor 0 0)) with true by (unfold on_canvas; cbn [line column]; lia). unfold write.
    destruct (typing_ascii E _ HA text1_ascii (set_pen (Cursor 0 0) (set_ink (fun _ _ => empty_ink) k))) as (k1 & K1 & K2 & K3 & K4 & _).
    { cbn [pen set_pen line ksize set_ink]. rewrite Hz. lia. }
    { cbn [pen set_pen column ksize set_ink]. rewrite Hz. change (List.length (chars "Reading input. Press 'q' to stop.")) with 33. lia. }
    rewrite K1. cbn [fst]. cbn [ksize brush pen ink set_pen set_ink line column] in K2, K3, K4. rewrite Hz in K2. rewrite Hb in K3, K4. rewrite K2.
    replace (on_canvas z (Cursor 2 5)) with true by (unfold on_canvas; cbn [line column]; lia). unfold write_with.
    destruct (typing_ascii E _ HA text2_ascii (set_brush (Attrs (Some Red) None BOLD) (set_pen (Cursor 2 5) k1))) as (k2 & L1 & L2 & L3 & L4 & L5).
    { cbn [pen set_pen line ksize set_brush]. rewrite K2. lia. }
    { cbn [pen set_pen column ksize set_brush]. rewrite K2. change (List.length (chars "Hello, world!")) with 13. lia. }
    rewrite L1. cbn [ksize brush pen ink set_pen set_brush line column] in L2, L3, L4, L5.
    split; [|split; [|split]]; cbn [ksize brush pen ink set_brush picture].
    - congruence.
    - rewrite L5; [reflexivity|]. rewrite K2. change (List.length (chars "Hello, world!")) with 13. lia.
    - reflexivity.
    - intros l c. rewrite L4. unfold greeting. unfold put at 1 3. rewrite K4. unfold put.
      destruct ((l =? 2) && _ && _) eqn:E1; [|reflexivity].
      replace ((l =? 0) && (0 <=? c) && (c <? 0 + List.length (chars "Reading input. Press 'q' to stop."))) with false by lia. reflexivity.
  Qed.
  Lemma draws_app ms ms' k : draws E (ms ++ ms') k = draws E ms' (draws E ms k).
  Proof. revert k. induction ms as [|o ms IH]; intros k; cbn [app draws]; [reflexivity|apply IH]. Qed.
  Lemma shows_event e k : ksize k = z -> brush k = Attrs None None 0%N -> alike (draws E (show_event debug e) k) (picture E debug z (Some e)).
  Proof.
    intros Hz Hb. destruct (greets k Hz Hb) as (G1 & G2 & G3 & G4). unfold show_event. rewrite draws_app. cbn [draws draw where_ picture]. unfold write.
    apply typing_alike. repeat split; cbn [ksize pen brush ink set_pen]; [exact G1|exact G3|exact G4].
  Qed.
  Lemma picture_frame h e k : (forall e, newlines (concat (debug e)) <= h) -> alike k (picture E debug z e) ->
    ksize k = z /\ brush k = Attrs None None 0%N /\ line (pen k) <= 4 + lines z + h.
  Proof.
    intros Hh (A1 & A2 & A3 & _). rewrite A1, A2, A3. destruct e as [e|]; cbn [picture]; [|cbn; split; [reflexivity|split; [reflexivity|lia]]].
    destruct (typing_line E (concat (debug e)) (Canvas z greeting (Cursor 4 0) (Attrs None None 0%N))) as (T1 & T2 & T3). unfold write.
    rewrite T1, T2. split; [reflexivity|]. split; [reflexivity|]. cbn [pen ksize line] in T3. specialize (Hh e). lia.
  Qed.

  (** Nothing here panics. *)
  Lemma run_methods ms : forall b, screen_methods E ms b = run_buf_ops E b (map sforward ms).
  Proof. induction ms as [|o ms IH]; intros b; cbn [screen_methods map run_buf_ops]; [reflexivity|]. unfold screen_method. destruct (run_buf_op E b (sforward o)); auto. Qed.
  Lemma plain_text s : Forall (fun c => (32 <= c < 127)%N) s -> no_wide E s.
  Proof. apply Forall_impl. intros c Hx (_ & Hw). destruct (HA c Hx) as (_ & Hq). congruence. Qed.
  Lemma plain_lines s : Forall (fun c => (32 <= c < 127)%N) s -> newlines s = 0.
  Proof. intros H. apply count_occ_not_In. intros Hi. apply (proj1 (Forall_forall _ _) H) in Hi. change LF with 10%N in Hi. lia. Qed.
  Lemma draw_narrow : no_wide E (concat (map method_text draw_screen)).
  Proof. cbn [draw_screen map method_text concat app]. apply Forall_app. split; [apply plain_text, text1_ascii|]. rewrite app_nil_r. apply plain_text, text2_ascii. Qed.
  Lemma event_narrow e : no_wide E (concat (debug e)) -> no_wide E (concat (map method_text (show_event debug e))).
  Proof.
    intros H. unfold show_event. rewrite map_app, concat_app. apply Forall_app. split; [apply draw_narrow|].
    cbn [map method_text concat app]. now rewrite app_nil_r.
  Qed.
  Lemma narrow_ops ms : no_wide E (concat (map method_text ms)) -> Forall (fun o => P_Buf2.chars_ok 1 E (op_text o)) (map sforward ms).
  Proof.
    induction ms as [|o ms IH]; intros H; cbn [map]; [apply Forall_nil|]. cbn [map concat] in H. apply Forall_app in H as [H1 H2].
    apply Forall_cons; [|now apply IH]. assert (Q : op_text (sforward o) = method_text o) by (destruct o; reflexivity). rewrite Q.
    eapply Forall_impl; [|exact H1]. intros c Hx Hw. contradiction.
  Qed.
  Lemma event_runs h e b k : env_ok E -> P_Canvas.fits E b k -> ksize k = z -> line (pen k) <= 4 + lines z + h ->
    no_wide E (concat (debug e)) -> newlines (concat (debug e)) <= h -> 4 + lines z + 2 * h <= umax E ->
    (exists b', screen_methods E draw_screen b = Val b') /\ exists b', screen_methods E (show_event debug e) b = Val b'.
  Proof.
    intros HE [F1 _ F3 (F4 & F5 & _)] Hz Hp Hn Hh Hu. unfold screen_get_size, screen_get_cursor in *. rewrite Hz in F4.
    assert (A : forall ms, ms = draw_screen \/ ms = show_event debug e -> exists b', screen_methods E ms b = Val b').
    { intros ms Hms. rewrite run_methods.
      assert (Q : list_sum (map op_newlines (map sforward ms)) <= h).
      { destruct Hms as [->| ->]; unfold show_event; cbn [draw_screen app map sforward op_newlines list_sum fold_right screen_write_str];
          rewrite (plain_lines _ text1_ascii), (plain_lines _ text2_ascii); change (M_Api.to_string (debug e)) with (concat (debug e)); lia. }
      destruct (P_Buf2.history_step 1 (le_n 1) E (map sforward ms) HE b) as (b' & B & _); [| | | |now exists b'].
      - split; [exact F1|]. rewrite F4, F5. repeat split; lia.
      - destruct Hms as [->| ->]; repeat constructor.
      - apply narrow_ops. destruct Hms as [->| ->]; [apply draw_narrow|now apply event_narrow].
      - intros l Hi. destruct Hms as [->| ->]; cbn in Hi; [contradiction|]. destruct Hi as [<-|[]]. lia. }
    split; apply A; auto.
  Qed.
End Pictures.
