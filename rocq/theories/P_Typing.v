From Verif Require Import Base M_Utf8 S_Utf8 M_Geom M_Seq S_Seq M_Signal M_Util M_Input S_Input P_Utf8 P_Input M_Writer S_Writer S_Emu
  M_Prepare M_Reader S_Prepare S_Reader P_Prepare P_Reader P_Reader2 P_Reader3 S_Typing.

Section Typing.
  Variable C : tcfg.
  Variable m : seq_map.
  Hypothesis Hm : key_map m.

  Lemma peek_clear a rest : clear_before m rest a ->
    peek_event (sent a ++ rest) m = Val (PEvent (heard a) (length (sent a))).
  Proof.
    destruct a as [c|q k|d]; cbn [clear_before sent heard].
    - intros (Hc & Hn). now apply peek_plain.
    - intros Hl. now apply peek_key.
    - intros (Hl & H1 & H2). now apply report_decodes.
  Qed.

  Lemma sent_nonempty a rest : clear_before m rest a -> sent a <> [].
  Proof.
    intros H. pose proof (peek_clear a rest H) as Hp. apply (peek_bounds m _ _ _ Hm) in Hp.
    destruct (sent a); [cbn in Hp; lia|discriminate].
  Qed.

  Lemma rrun_app a : forall b s s1 rs s2 rs', rrun C m a s = Some (s1, rs) -> rrun C m b s1 = Some (s2, rs') ->
    rrun C m (a ++ b) s = Some (s2, rs ++ rs').
  Proof.
    induction a as [|o a IH]; intros b s s1 rs s2 rs' H1 H2; cbn [rrun app] in *.
    - injection H1 as <- <-. exact H2.
    - destruct (rstep C m o s) as [[s0 r]|]; [|discriminate].
      destruct (rrun C m a s0) as [[s3 rs3]|] eqn:E; [|discriminate]. injection H1 as <- <-.
      rewrite (IH _ _ _ _ _ _ E H2). reflexivity.
  Qed.

  Lemma read_all l : forall rest s, legible m l rest -> inbuf s = all_sent l ++ rest ->
    rrun C m (repeat (RRead None) (length l)) s =
    Some (match l with [] => s | _ => with_inbuf rest (incap s) s end, map (fun a => YEvent (Some (heard a))) l).
  Proof.
    induction l as [|a l IH]; intros rest s Hl Hi; [reflexivity|]. destruct Hl as [Ha Hl].
    cbn [length repeat rrun rstep]. cbn [all_sent flat_map] in Hi. rewrite <- app_assoc in Hi.
    rewrite (read_buffered_at C m None s (sent a) (all_sent l ++ rest) (heard a) Hi)
      by (rewrite Hi; apply (peek_clear a _ Ha)).
    cbn [ret]. rewrite (IH rest (with_inbuf (all_sent l ++ rest) (incap s) s) Hl eq_refl). cbn [map].
    destruct l; reflexivity.
  Qed.

  Lemma somes_app {A} (a b : list (option A)) : somes (a ++ b) = somes a ++ somes b.
  Proof. induction a as [|[x|] a IH]; cbn [app somes]; congruence. Qed.
  Lemma somes_all {A B} (f : B -> A) l : somes (map (fun b => Some (f b)) l) = map f l.
  Proof. induction l; cbn; congruence. Qed.

  Lemma after_read s1 l held : calm s1 -> legible m l held -> inbuf s1 = all_sent l ++ held -> l <> [] ->
    exists s', (let! (s, e) := try_read m s1 in Ret s e) = Ret s' (Some (heard (hd (Typed 0) l))) /\
      inbuf s' = all_sent (tl l) ++ held /\ portions s' = portions s1 /\ calm s'.
  Proof.
    intros Hc Hl Hi Hne. destruct l as [|a l]; [congruence|]. destruct Hl as [Ha Hl].
    cbn [all_sent flat_map] in Hi. rewrite <- app_assoc in Hi. fold (all_sent l) in Hi.
    pose proof (sent_nonempty _ _ Ha) as Hn. unfold try_read. rewrite Hi.
    destruct (sent a ++ all_sent l ++ held) eqn:E; [destruct (sent a); discriminate||congruence|]. rewrite <- E in *.
    unfold peek. rewrite Hi, (peek_clear a _ Ha). cbn [obind]. rewrite Hi.
    rewrite skipn_app, skipn_all, Nat.sub_diag. cbn [skipn app]. eexists. split; [reflexivity|]. cbn. auto.
  Qed.

  Hypothesis Hgrow : forall c n, n <= grow C c n.

  (** One [read_event] that gets a portion, and the following ones that use it up. *)
  Lemma use_portion s s1 l held : read_event C m None s = try_read m s1 -> calm s1 ->
    inbuf s1 = all_sent l ++ held -> legible m l held -> in_part held -> l <> [] \/ held <> [] ->
    exists n s' es, rrun C m (repeat (RRead None) n) s = Some (s', map YEvent es) /\
      somes es = map heard l /\ n <= length l + 1 /\ length l <= n /\
      inbuf s' = held /\ portions s' = portions s1 /\ calm s'.
  Proof.
    intros He Hc Hi Hl Hh Hne. destruct l as [|a l].
    - exists 1, s1, [None]. cbn [repeat rrun rstep]. rewrite He, (try_truncated m s1).
      + cbn. repeat split; auto; apply Hc.
      + cbn in Hi. rewrite Hi. destruct Hh; [|now right]. now left.
    - destruct (after_read s1 (a :: l) held Hc Hl Hi) as (s2 & E2 & I2 & P2 & C2); [discriminate|].
      assert (E3 : try_read m s1 = Ret s2 (Some (heard a))).
      { cbn [hd] in E2. destruct (try_read m s1); cbn [obind] in E2; congruence. }
      cbn [tl] in I2. exists (S (length l)), (match l with [] => s2 | _ => with_inbuf held (incap s2) s2 end),
        (Some (heard a) :: map (fun a => Some (heard a)) l).
      cbn [repeat rrun rstep]. rewrite He, E3. cbn [ret]. rewrite (read_all l held s2 (proj2 Hl) I2).
      rewrite map_cons, map_map. split; [reflexivity|]. cbn [somes map]. rewrite somes_all. split; [reflexivity|].
      cbn [length]. split; [lia|]. split; [lia|]. destruct l; [cbn in I2|]; auto.
  Qed.

  Lemma typed_is_read ps held l : arriving m held ps l -> in_part held ->
    forall s, calm s -> inbuf s = held -> portions s = ps ->
    exists n s' es, rrun C m (repeat (RRead None) n) s = Some (s', map YEvent es) /\
      somes es = map heard l /\ length l <= n <= length l + length ps /\ S_Reader.stream s' = [] /\ calm s'.
  Proof.
    induction 1 as [|held b l held' ps l' Hb Hlen Hs Hl Hh Ha IH]; intros Hp s Hc Hi Hq.
    - exists 0, s, []. split; [reflexivity|]. split; [reflexivity|]. split; [cbn; lia|]. split; [|exact Hc].
      unfold S_Reader.stream, pending. unfold portions in Hq. apply app_eq_nil in Hq as [Q1 Q2]. now rewrite Hi, Q1, Q2.
    - destruct (read_portion C m Hgrow s b ps Hc Hq Hlen) as (s1 & E1 & I1 & P1 & C1).
      { apply try_truncated. rewrite Hi. destruct Hp; auto. }
      rewrite Hi, Hs in I1.
      destruct (use_portion s s1 l held' E1 C1 I1 Hl Hh) as (n & s2 & es & R2 & S2 & N2 & N2' & I2 & P2 & C2).
      { destruct l; [|left; discriminate]. right. cbn in Hs. intros ->. destruct held, b; try discriminate. congruence. }
      destruct (IH Hh s2 C2 I2 (eq_trans P2 P1)) as (n' & s' & es' & R' & S' & N' & T' & C').
      exists (n + n'), s', (es ++ es'). rewrite repeat_app, map_app, somes_app, map_app, app_length, S2, S'.
      split; [eapply rrun_app; eauto|]. split; [reflexivity|]. split; [cbn [length]; lia|]. auto.
  Qed.

  (** ** Unambiguous input *)
  Lemma prefix_of_both (a b c : bytes) : is_prefix a c -> is_prefix b c -> is_prefix a b \/ is_prefix b a.
  Proof.
    intros (x & ->) (y & Hy). revert b y Hy. induction a as [|h a IH]; intros b y Hy; [left; now exists b|].
    destruct b as [|h' b]; [right; now exists (h :: a)|]. injection Hy as <- Hy.
    destruct (IH b y Hy) as [(r & ->)|(r & ->)]; [left|right]; exists r; reflexivity.
  Qed.

  Lemma prefix_length (a b : bytes) : is_prefix a b -> length a <= length b.
  Proof. intros (r & ->). rewrite app_length. lia. Qed.

  Lemma longest_unambiguous input q v : unambiguous m -> In (q, v) (sm_sequences m) -> q <> [] -> is_prefix q input ->
    longest m input q v.
  Proof.
    intros Hu Hin Hne Hp. split; [split; [exact Hin|split; assumption]|]. intros q' v' (Hin' & _ & Hp').
    destruct (prefix_of_both _ _ _ Hp Hp') as [H|H].
    - rewrite (Hu _ _ _ _ Hin Hin' H). lia.
    - now apply prefix_length.
  Qed.

  Lemma begins_no_match c rest : scalar c -> begins_nothing m c -> no_match m (utf8 c ++ rest).
  Proof.
    intros Hc Hb q v (Hin & Hne & Hp). destruct (proj2 Hm _ _ Hin) as (cs & Hcs & ->).
    destruct cs as [|d cs]; [now apply Hne|]. inversion Hcs; subst.
    assert (Hd : d = c).
    { destruct Hp as (r & Hr). rewrite utf8s_cons, <- app_assoc in Hr. symmetry in Hr.
      now destruct (utf8_prefix_free d c _ _ ltac:(assumption) Hc Hr). }
    subst d. apply (Hb _ _ Hin). exists (utf8s cs). apply utf8s_cons.
  Qed.

  Lemma intro_first d : is_prefix XTERM_MOUSE_INTRO (S_Input.report d).
  Proof. unfold S_Input.report, sgr. eexists. unfold XTERM_MOUSE_INTRO. reflexivity. Qed.

  Lemma ordinary_clear a rest : unambiguous m -> ordinary m a -> clear_before m rest a.
  Proof.
    intros Hu. destruct a as [c|q k|d]; cbn [ordinary clear_before].
    - intros (Hc & Hb). split; [exact Hc|now apply begins_no_match].
    - intros (Hi & Hne). apply longest_unambiguous; auto. now exists rest.
    - intros (Hi & H1 & H2). split; [|auto]. apply longest_unambiguous; auto; [discriminate|].
      destruct (intro_first d) as (r & ->). exists (r ++ rest). now rewrite app_assoc.
  Qed.

  Lemma ordinary_legible l rest : unambiguous m -> Forall (ordinary m) l -> legible m l rest.
  Proof. intros Hu. induction 1; cbn [legible]; [exact I|]. split; [now apply ordinary_clear|assumption]. Qed.

  Lemma all_sent_app a b : all_sent (a ++ b) = all_sent a ++ all_sent b.
  Proof. unfold all_sent. apply flat_map_app. Qed.

  Lemma escape_last l : unambiguous m -> Forall (ordinary m) l -> (forall v, ~ In ([27%N], v) (sm_sequences m)) ->
    legible m (l ++ [Typed 27]) [].
  Proof.
    intros Hu Ho He. induction Ho; cbn [app legible].
    - split; [|exact I]. split; [reflexivity|]. intros q v (Hin & Hne & (r & Hr)). cbn in Hr.
      destruct q as [|x [|y q]]; [congruence| |discriminate]. injection Hr as <- _. exact (He _ Hin).
    - split; [|assumption]. now apply ordinary_clear.
  Qed.

  (** ** Text, however it arrives *)
  Lemma text_ordinary text : Forall (fun c => scalar c /\ begins_nothing m c) text -> forall rest,
    legible m (map Typed text) rest.
  Proof.
    induction 1 as [|c text [Hc Hb] _ IH]; intros rest; cbn [map legible]; [exact I|]. split; [|apply IH].
    split; [exact Hc|]. now apply begins_no_match.
  Qed.
  Lemma text_sent text : all_sent (map Typed text) = utf8s text.
  Proof. unfold all_sent, utf8s. now rewrite flat_map_concat_map, map_map, <- flat_map_concat_map. Qed.
  Lemma text_heard text : map heard (map Typed text) = map (fun c => EKey (key_from_char c)) text.
  Proof. rewrite map_map. reflexivity. Qed.

  Lemma prefix_split text : Forall scalar text -> forall p r, utf8s text = p ++ r ->
    exists t1 t2 held, text = t1 ++ t2 /\ p = utf8s t1 ++ held /\ in_part held /\ utf8s t2 = held ++ r.
  Proof.
    induction 1 as [|c text Hc Ht IH]; intros p r H.
    - apply eq_sym, app_eq_nil in H as [-> ->]. exists [], [], []. repeat split. now left.
    - rewrite utf8s_cons in H. destruct (Nat.leb_spec (length (utf8 c)) (length p)) as [L|L].
      + assert (Hp : p = utf8 c ++ skipn (length (utf8 c)) p).
        { rewrite <- (firstn_skipn (length (utf8 c)) p) at 1. f_equal.
          apply (f_equal (firstn (length (utf8 c)))) in H. rewrite !firstn_app, firstn_all, Nat.sub_diag in H. cbn [firstn] in H.
          rewrite app_nil_r in H. replace (length (utf8 c) - length p) with 0 in H by lia. cbn [firstn] in H.
          now rewrite app_nil_r in H. }
        rewrite Hp, <- app_assoc in H. apply app_inv_head in H.
        destruct (IH _ _ H) as (t1 & t2 & held & -> & E & Hh & E2). exists (c :: t1), t2, held.
        split; [reflexivity|]. split; [|auto]. rewrite Hp, E, utf8s_cons, app_assoc. reflexivity.
      + exists [], (c :: text), p. split; [reflexivity|]. split; [reflexivity|]. split; [|now rewrite utf8s_cons].
        destruct p as [|x p]; [now left|right]. split; [discriminate|]. exists c, (skipn (length (x :: p)) (utf8 c)).
        split; [exact Hc|].
        assert (Hu : utf8 c = (x :: p) ++ skipn (length (x :: p)) (utf8 c)).
        { rewrite <- (firstn_skipn (length (x :: p)) (utf8 c)) at 1. f_equal.
          apply (f_equal (firstn (length (x :: p)))) in H. rewrite !firstn_app in H.
          replace (length (x :: p) - length (utf8 c)) with 0 in H by lia.
          rewrite Nat.sub_diag in H. cbn [firstn] in H. rewrite !app_nil_r, firstn_all in H. exact H. }
        split; [|exact Hu]. intros Hn. rewrite Hn, app_nil_r in Hu. rewrite Hu in L. lia.
  Qed.

  (** A portion that may be too long for one read. *)
  Lemma read_input_calm_any room s b q : calm s -> inbuf s = [] -> portions s = b :: q ->
    exists s', read_input m room None s = Ret s' (Some (IRaw (firstn room b))) /\
      portions s' = (if length b <=? room then q else skipn room b :: q) /\ calm s'.
  Proof.
    intros Hc Hi Hp. destruct (Nat.leb_spec (length b) room) as [L|L].
    { destruct (read_input_calm m room s b q Hc Hi Hp L) as (s' & E & _ & P & K). exists s'. rewrite firstn_all2 by exact L. auto. }
    unfold read_input, take_signal.
    destruct (advance_calm s Hc) as ((A1 & A2 & A3) & _ & _). rewrite (proj1 (proj2 A3)).
    set (s1 := with_last 0 (advance s)).
    assert (C1 : calm s1) by (split; [apply A3|split; [reflexivity|apply A3]]).
    assert (P1 : portions s1 = b :: q) by (transitivity (portions (advance s)); [reflexivity|congruence]).
    assert (V1 : passive s s1) by exact A1. clearbody s1. clear A1 A2 A3.
    unfold wait_event, get_signal.
    destruct (advance_calm s1 C1) as ((A1 & A2 & A3) & _ & _). rewrite (proj1 (proj2 A3)).
    assert (B1 : inbuf (advance s1) = []).
    { destruct A1 as (_ & _ & _ & _ & _ & _ & A1 & _). destruct V1 as (_ & _ & _ & _ & _ & _ & V1 & _). congruence. }
    unfold peek. rewrite B1. change (peek_event [] m) with (Val PNone). cbn [obind].
    destruct (wait_loop_calm (turns (advance s1)) (advance s1) A3) as (s2 & E2 & S2 & Q2).
    { rewrite A2, P1. discriminate. } { unfold turns. lia. }
    rewrite E2. cbn [obind negb]. destruct S2 as (S21 & S22 & S23).
    destruct (advance_calm s2 S23) as ((D1 & D2 & D3) & _ & D4). rewrite (proj1 (proj2 D3)).
    set (s3 := with_last 0 (advance s2)).
    assert (C3 : calm s3) by (split; [apply D3|split; [reflexivity|apply D3]]).
    assert (P3 : portions s3 = b :: q) by (transitivity (portions (advance s2)); [reflexivity|congruence]).
    assert (Q3 : queue s3 <> []) by (exact (D4 Q2)).
    clearbody s3. clear - C3 P3 Q3 L.
    cbn [turns read_loop]. unfold os_read.
    destruct (advance_calm s3 C3) as ((D1 & D2 & D3) & _ & D4). specialize (D4 Q3).
    set (ms := if never_waits _ then _ else _). clearbody ms.
    assert (Ea : await ms (time (advance s3)) (advance s3) = (with_time (time (advance s3)) (advance s3), WReady)).
    { destruct (time (advance s3)); unfold await; fold await; rewrite (proj1 D3); destruct (queue (advance s3)); congruence. }
    rewrite Ea. unfold take_queue. cbn [queue with_time].
    rewrite P3 in D2. unfold portions in D2. destruct (queue (advance s3)) as [|b' q'] eqn:Eq; [congruence|].
    cbn [app] in D2. injection D2 as -> D2.
    replace (length b <=? room) with false by lia. eexists. split; [reflexivity|]. split.
    - unfold portions. cbn [queue with_queue with_time time app]. now rewrite D2.
    - split; [apply D3|]. split; [apply D3|]. apply D3.
  Qed.

  Lemma read_portion_any s b q : calm s -> portions s = b :: q -> b <> [] -> try_read m s = Ret s None ->
    exists s' b' rest, read_event C m None s = try_read m s' /\ inbuf s' = inbuf s ++ b' /\ b' <> [] /\
      b' ++ rest = b /\ concat (portions s') = rest ++ concat q /\
      (portions s' = q \/ portions s' = rest :: q /\ rest <> []) /\ calm s'.
  Proof.
    intros Hc Hp Hb Ht. unfold read_event. rewrite Ht. cbn [obind]. unfold read_into_buffer.
    set (cap := if (_ <=? _) then incap s else _).
    assert (Hr : 128 <= cap - length (inbuf s)).
    { unfold cap. destruct (Nat.leb_spec (length (inbuf s) + 128) (incap s)); [lia|].
      pose proof (Hgrow (incap s) (length (inbuf s) + 128)). lia. }
    destruct (read_input_calm_any (cap - length (inbuf s)) (with_inbuf [] 0 s) b q Hc eq_refl Hp) as (s1 & E & P1 & C1).
    set (room := cap - length (inbuf s)) in *. rewrite E. cbn [obind].
    eexists. exists (firstn room b), (skipn room b). split; [reflexivity|]. split; [reflexivity|].
    split; [destruct b; [congruence|]; destruct room; [lia|discriminate]|]. split; [apply firstn_skipn|].
    change (portions (with_inbuf (inbuf s ++ firstn room b) cap s1)) with (portions s1). rewrite P1.
    destruct (Nat.leb_spec (length b) room) as [L|L].
    - rewrite skipn_all2 by exact L. auto 10.
    - split; [reflexivity|]. split; [|exact C1]. right. split; [reflexivity|].
      intros H. apply (f_equal (@length _)) in H. rewrite skipn_length in H. cbn in H. lia.
  Qed.

  Lemma text_is_read : forall fuel text s held, Forall (fun c => scalar c /\ begins_nothing m c) text ->
    calm s -> inbuf s = held -> in_part held -> Forall (fun b => b <> []) (portions s) ->
    utf8s text = held ++ concat (portions s) -> length (concat (portions s)) <= fuel ->
    exists n s' es, rrun C m (repeat (RRead None) n) s = Some (s', map YEvent es) /\
      somes es = map (fun c => EKey (key_from_char c)) text /\ S_Reader.stream s' = [] /\ calm s'.
  Proof.
    induction fuel as [|fuel IH]; intros text s held Ht Hc Hi Hh Hne Hs Hf.
    all: destruct (portions s) as [|b q] eqn:Ep.
    1, 3: cbn in Hs; rewrite app_nil_r in Hs; exists 0, s, []; (split; [reflexivity|]).
    1, 2: assert (Hsc : Forall scalar text) by (eapply Forall_impl; [|exact Ht]; intros c Hcc; apply Hcc).
    1, 2: assert (Hx : text = []).
    1, 3: destruct text as [|c text]; [reflexivity|]; exfalso; rewrite utf8s_cons in Hs; inversion Hsc as [|? ? K1 K2]; subst;
          destruct Hh as [Hh|Hh]; [rewrite Hh in Hs; apply (utf8_nonempty c); destruct (utf8 c); [reflexivity|discriminate]|];
          apply step_truncated in Hh; rewrite <- Hs, (validate_utf8 c _ K1) in Hh; discriminate.
    1, 2: subst text; unfold utf8s in Hs; cbn in Hs; (split; [reflexivity|]); (split; [|exact Hc]);
      unfold S_Reader.stream, pending; unfold portions in Ep; apply app_eq_nil in Ep as [Q1 Q2]; rewrite Hi, <- Hs, Q1, Q2; reflexivity.
    - exfalso. inversion Hne; subst. destruct b; [congruence|]. cbn in Hf. lia.
    - inversion Hne as [|? ? Hb Hq]; subst.
      destruct (read_portion_any s b q Hc Ep Hb) as (s1 & b' & rest & E1 & I1 & B1 & B2 & B3 & B4 & C1).
      { apply try_truncated. exact Hh. }
      cbn [concat] in Hs. rewrite <- B2, <- app_assoc, app_assoc in Hs. rewrite <- B3 in Hs.
      assert (Hsc : Forall scalar text) by (eapply Forall_impl; [|exact Ht]; intros c Hcc; apply Hcc).
      destruct (prefix_split text Hsc _ _ Hs) as (t1 & t2 & held' & -> & E2 & Hh' & E3).
      apply Forall_app in Ht as [T1 T2].
      rewrite E2, <- text_sent in I1.
      destruct (use_portion s s1 (map Typed t1) held' E1 C1 I1 (text_ordinary t1 T1 held') Hh') as (n & s2 & es & R2 & S2 & N2 & N2' & I2 & P2 & C2).
      { destruct t1; [|left; discriminate]. right. cbn in E2. intros ->. apply app_eq_nil in E2 as [_ E2]. congruence. }
      destruct (IH t2 s2 held' T2 C2 I2 Hh') as (n' & s' & es' & R' & S' & T' & C').
      { rewrite P2. destruct B4 as [->|[-> ?]]; [exact Hq|]. now constructor. }
      { now rewrite P2. }
      { rewrite P2, B3. cbn [concat] in Hf. rewrite app_length in *. rewrite <- B2, app_length in Hf. destruct b'; [congruence|]. cbn in Hf. lia. }
      exists (n + n'), s', (es ++ es'). rewrite repeat_app, map_app, somes_app, map_app, S2, S', text_heard.
      split; [eapply rrun_app; eauto|]. auto.
  Qed.

  Lemma text_arrives text s : Forall (fun c => scalar c /\ begins_nothing m c) text ->
    calm s -> inbuf s = [] -> Forall (fun b => b <> []) (portions s) -> utf8s text = concat (portions s) ->
    exists n s' es, rrun C m (repeat (RRead None) n) s = Some (s', map YEvent es) /\
      somes es = map (fun c => EKey (key_from_char c)) text /\ S_Reader.stream s' = [] /\ calm s'.
  Proof.
    intros Ht Hc Hi Hne Hs. apply (text_is_read (length (concat (portions s))) text s [] Ht Hc Hi); auto. now left.
  Qed.
End Typing.

(** ** Text, whatever happens *)
Section Always.
  Variable C : tcfg.
  Variable m : seq_map.
  Hypothesis Hm : key_map m.

  Lemma app_same_length {A} (a c : list A) : forall b d, length a = length c -> a ++ b = c ++ d -> a = c /\ b = d.
  Proof.
    revert c. induction a as [|x a IH]; intros [|y c] b d L H; try discriminate L; [auto|]. injection H as -> H.
    injection L as L. destruct (IH c b d L H) as [-> ->]. auto.
  Qed.

  Lemma decode_text text used later x : Forall (fun c => scalar c /\ begins_nothing m c) text ->
    used <> [] -> utf8s text = used ++ later ++ x -> forall e, peek_event (used ++ later) m = Val (PEvent e (length used)) ->
    exists c text', text = c :: text' /\ used = utf8 c /\ e = EKey (key_from_char c) /\ utf8s text' = later ++ x.
  Proof.
    intros Ht Hne Hs e Hp.
    assert (Hsc : Forall scalar text) by (eapply Forall_impl; [|exact Ht]; intros c Hcc; apply Hcc).
    rewrite app_assoc in Hs. destruct (prefix_split text Hsc _ _ Hs) as (t1 & t2 & held & -> & E & Hh & E2).
    destruct t1 as [|c t1].
    - exfalso. cbn in E. destruct Hh as [->|Hh]; [destruct used; discriminate||congruence|].
      rewrite E, (peek_truncated m held Hh) in Hp. discriminate.
    - rewrite utf8s_cons, <- app_assoc in E. inversion Ht as [|? ? [Kc Kb] K]; subst.
      rewrite E, (peek_plain m c _ Hm Kc (begins_no_match m Hm c _ Kc Kb)) in Hp. injection Hp as <- Hl.
      assert (Hu : used = utf8 c /\ later = utf8s t1 ++ held).
      { apply app_same_length; [now symmetry|exact E]. }
      destruct Hu as [-> ->]. exists c, (t1 ++ t2). split; [reflexivity|]. split; [reflexivity|]. split; [reflexivity|].
      now rewrite utf8s_app, E2, app_assoc.
  Qed.

  (** [read_event] and [wait_event] complain about UTF-8 only for a reason. *)
  Definition utf8_err {A} (P : Prop) (r : rres A) : Prop := match r with Fail _ RUtf8 => P | _ => True end.
  Lemma ue_bind {A B} P (r : rres A) (k : sys -> A -> rres B) :
    utf8_err P r -> (forall s a, r = Ret s a -> utf8_err P (k s a)) -> utf8_err P (obind r k).
  Proof. destruct r; cbn; auto. Qed.
  Lemma ue_on {A} P (f : wst -> out wst werr A) s : utf8_err P (on_wr f s).
  Proof. unfold on_wr. destruct (f (wr s)); exact I. Qed.
  Lemma ue_guard {A} P (f : sys -> rres A) s : utf8_err P (f s) -> utf8_err P (with_guard f s).
  Proof.
    unfold with_guard. destruct (f s) as [s1 a|s1 e| |]; auto; intros H; (apply ue_bind; [apply ue_on|]); intros; [exact I|exact H].
  Qed.
  Lemma ue_os {A} P (ok : sys -> rres A) s : (forall s, utf8_err P (ok s)) -> utf8_err P (os_call ok s).
  Proof. intros H. unfold os_call. destruct (os s) as [|[e|] l]; [apply H|exact I|apply H]. Qed.
  Lemma ue_install P b n s : utf8_err P (install b n s).
  Proof. unfold install. destruct b; [|exact I]. apply ue_bind; [|intros; exact I]. apply ue_os. intros; exact I. Qed.
  Lemma ue_put P n o s : utf8_err P (put_back n o s).
  Proof. unfold put_back. destruct o; [|exact I]. apply ue_bind; [|intros; exact I]. apply ue_os. intros; exact I. Qed.
  Lemma ue_prepare P cfg s : utf8_err P (prepare C cfg s).
  Proof.
    unfold prepare. apply ue_guard. unfold prepare_with_lock, tcgetattr, tcsetattr.
    repeat (apply ue_bind; [first [apply ue_os; intros; exact I|apply ue_install|apply ue_on|
      destruct (cfg_mouse cfg); [apply ue_on|exact I] | destruct (cfg_keypad cfg); [apply ue_on|exact I]]|intros]). exact I.
  Qed.
  Lemma ue_restore P st s : utf8_err P (restore C st s).
  Proof.
    unfold restore. apply ue_guard. unfold restore_with_lock, tcsetattr.
    repeat (apply ue_bind; [first [apply ue_os; intros; exact I|apply ue_put|apply ue_on|
      destruct (restore_mouse st); [apply ue_on|exact I] | destruct (restore_keypad st); [apply ue_on|exact I]]|intros]). apply ue_put.
  Qed.
  Lemma ue_handle P sig s : utf8_err P (handle_signal C sig s).
  Proof.
    assert (Hr : forall k s, utf8_err P (report_signal k s)) by (intros k z; unfold report_signal; destruct (ss_contains _ _); exact I).
    destruct sig; cbn [handle_signal]; try apply Hr.
    - apply ue_bind; [|intros; apply Hr]. unfold resume. destruct (resume_cfg s); [|exact I].
      apply ue_bind; [apply ue_prepare|intros; exact I].
    - apply ue_bind; [|intros; exact I]. unfold term_size. apply ue_guard. destruct (win s); exact I.
  Qed.
  Lemma ue_wait_loop P fuel : forall ms s, utf8_err P (wait_loop fuel ms s).
  Proof.
    induction fuel as [|fuel IH]; intros ms s; [exact I|]. cbn [wait_loop]. destruct (select ms s) as [s1 w].
    assert (Hi : utf8_err P (let '(z, sig) := get_signal s1 in match sig with Some _ => Ret z true | None => wait_loop fuel ms z end)).
    { unfold get_signal. destruct (conv_signal _); [exact I|apply IH]. }
    destruct w; try exact I; [exact Hi|]. destruct (e =? EINTR)%N; [exact Hi|exact I].
  Qed.
  Lemma ue_read_loop P fuel room : forall s, utf8_err P (read_loop fuel room s).
  Proof.
    induction fuel as [|fuel IH]; intros s; [exact I|]. cbn [read_loop]. destruct (os_read room s) as [s1 w].
    assert (Hi : utf8_err P (let '(z, sig) := take_signal s1 in match sig with Some sig => Ret z (Some (ISignal sig)) | None => read_loop fuel room z end)).
    { unfold take_signal. destruct (conv_signal _); [exact I|apply IH]. }
    destruct w; try exact I; [exact Hi|]. destruct (e =? EINTR)%N; [exact Hi|exact I].
  Qed.
  Lemma ue_wait t s : utf8_err (peek_event (inbuf s) m = Val PErr) (wait_event m t s).
  Proof.
    unfold wait_event. pose proof (get_signal_flows s) as H. destruct (get_signal s) as [s1 sig]. cbn [fst] in H.
    destruct sig; [exact I|]. assert (Hi : inbuf s1 = inbuf s) by (destruct H as [(_ & _ & _ & _ & _ & _ & H & _) _]; exact H).
    apply ue_bind.
    - unfold peek. rewrite Hi. destruct (peek_event (inbuf s) m) as [[]|]; cbn; auto.
    - intros s2 [p|] _; [exact I|]. destruct t as [d|]; [|apply ue_wait_loop]. destruct (to_timeval d); [apply ue_wait_loop|exact I].
  Qed.
  Lemma ue_input room t s : inbuf s = [] -> utf8_err False (read_input m room t s).
  Proof.
    intros Hs. unfold read_input. pose proof (take_signal_flows s) as H. destruct (take_signal s) as [s1 sig]. cbn [fst] in H.
    destruct sig; [exact I|]. assert (Hi : inbuf s1 = []) by (destruct H as [(_ & _ & _ & _ & _ & _ & H & _) _]; congruence).
    apply ue_bind.
    - pose proof (ue_wait t s1) as X. rewrite Hi in X. change (peek_event [] m) with (Val PNone) in X.
      unfold utf8_err in *. destruct (wait_event m t s1) as [|? e| |]; auto. destruct e; auto. discriminate X.
    - intros s2 ready _. destruct ready; cbn [negb]; [|exact I]. destruct (take_signal s2) as [s3 [sig|]]; [exact I|apply ue_read_loop].
  Qed.

  Lemma ue_try s : utf8_err (peek_event (inbuf s) m = Val PErr) (try_read m s).
  Proof.
    unfold try_read. destruct (inbuf s) as [|b bs] eqn:E; [exact I|]. rewrite <- E. unfold peek.
    destruct (peek_event (inbuf s) m) as [[]|]; cbn; auto.
  Qed.

  Lemma ue_read t s : utf8_err (exists p, is_prefix p (S_Reader.stream s) /\ peek_event p m = Val PErr) (read_event C m t s).
  Proof.
    unfold read_event.
    assert (Hp : is_prefix (inbuf s) (S_Reader.stream s)) by (exists (pending s); reflexivity).
    apply ue_bind.
    { pose proof (ue_try s) as X. unfold utf8_err in *. destruct (try_read m s) as [|? []| |]; auto. exists (inbuf s). auto. }
    intros s1 [e|] E1; [exact I|].
    assert (Hs1 : S_Reader.stream s1 = S_Reader.stream s).
    { pose proof (try_read_ends m Hm s) as X. rewrite E1 in X. destruct X as (_ & X1 & X2). unfold S_Reader.stream. congruence. }
    apply ue_bind.
    { unfold read_into_buffer. match goal with |- context [read_input m ?r t ?z] => pose proof (ue_input r t z eq_refl) as X;
        destruct (read_input m r t z) as [z1 [[]|]|z1 []| |] end; auto; exact I || destruct X. }
    intros s2 r E2. pose proof (into_buffer_ends C m t s1) as X. rewrite E2 in X. destruct X as (_ & X1 & _).
    destruct r as [[sig|bs]|]; [apply ue_handle| |exact I].
    pose proof (ue_try s2) as Y. unfold utf8_err in *. destruct (try_read m s2) as [|? []| |]; auto. exists (inbuf s2).
    split; [|exact Y]. rewrite <- Hs1, <- X1. exists (pending s2). reflexivity.
  Qed.

  Lemma text_no_err text p x : Forall (fun c => scalar c /\ begins_nothing m c) text -> utf8s text = p ++ x ->
    peek_event p m <> Val PErr.
  Proof.
    intros Ht Hs Hp.
    assert (Hsc : Forall scalar text) by (eapply Forall_impl; [|exact Ht]; intros c Hcc; apply Hcc).
    destruct (prefix_split text Hsc _ _ Hs) as (t1 & t2 & held & -> & E & Hh & E2).
    destruct t1 as [|c t1].
    - cbn in E. subst p. destruct Hh as [->|Hh]; [discriminate Hp|]. rewrite (peek_truncated m held Hh) in Hp. discriminate.
    - rewrite utf8s_cons, <- app_assoc in E. inversion Ht as [|? ? [Kc Kb] K]; subst.
      rewrite (peek_plain m c _ Hm Kc (begins_no_match m Hm c _ Kc Kb)) in Hp. discriminate.
  Qed.

  Lemma text_always ops : forall text s s' rs, Forall (fun c => scalar c /\ begins_nothing m c) text ->
    Forall not_raw ops -> S_Reader.stream s = utf8s text -> rrun C m ops s = Some (s', rs) ->
    ~ In (YErr RUtf8) rs /\
    exists t1 t2, text = t1 ++ t2 /\ flat_map key_or_mouse rs = map (fun c => EKey (key_from_char c)) t1 /\
      S_Reader.stream s' = utf8s t2.
  Proof.
    induction ops as [|o ops IH]; intros text s s' rs Ht Ho Hs Hr; cbn [rrun] in Hr.
    - injection Hr as <- <-. split; [intros []|]. exists [], text. auto.
    - inversion Ho as [|? ? O1 O2]; subst. destruct (rstep C m o s) as [[s1 r]|] eqn:E; [|discriminate].
      destruct (rrun C m ops s1) as [[s2 rs2]|] eqn:E2; [|discriminate]. injection Hr as <- <-.
      destruct (rstep_accounts C m Hm o s s1 r E) as (used & U1 & U2).
      assert (Hne : r <> YErr RUtf8).
      { intros ->. destruct o; cbn [rstep] in E; try contradiction.
        - pose proof (ue_wait timeout s) as X. destruct (wait_event m timeout s) as [|? e| |]; try discriminate.
          injection E as _ ->. apply (text_no_err text (inbuf s) (pending s) Ht); [|exact X]. rewrite <- Hs. reflexivity.
        - pose proof (ue_read timeout s) as X. destruct (read_event C m timeout s) as [|? e| |]; try discriminate.
          injection E as _ ->. destruct X as (p & (x & Hx) & Hp). apply (text_no_err text p x Ht); [|exact Hp]. now rewrite <- Hs.
        - pose proof (ue_prepare False cfg s) as X. destruct (prepare C cfg s) as [|? e| |]; try discriminate. injection E as _ ->. exact X.
        - pose proof (ue_restore False st s) as X. destruct (restore C st s) as [|? e| |]; try discriminate. injection E as _ ->. exact X. }
      assert (Hd : exists t1 t2, text = t1 ++ t2 /\ key_or_mouse r = map (fun c => EKey (key_from_char c)) t1 /\ S_Reader.stream s1 = utf8s t2).
      { assert (Hn : used = [] -> key_or_mouse r = [] -> exists t1 t2, text = t1 ++ t2 /\ key_or_mouse r = map (fun c => EKey (key_from_char c)) t1 /\ S_Reader.stream s1 = utf8s t2).
        { intros -> K. exists [], text. rewrite K, <- Hs, U1. auto. }
        assert (Hraw : forall e b, r <> YRaw e b).
        { intros e b ->. destruct o; cbn [rstep] in E; try contradiction;
            match type of E with ret ?x _ = _ => destruct x; discriminate end. }
        assert (He : forall e, (used <> [] /\ exists later, is_prefix later (S_Reader.stream s1) /\ peek_event (used ++ later) m = Val (PEvent e (length used))) ->
          key_or_mouse r = [e] -> exists t1 t2, text = t1 ++ t2 /\ key_or_mouse r = map (fun c => EKey (key_from_char c)) t1 /\ S_Reader.stream s1 = utf8s t2).
        { intros e (N & later & (x & Hx) & Hp) K. rewrite U1, Hx in Hs.
          destruct (decode_text text used later x Ht N (eq_sym Hs) e Hp) as (c & text' & -> & -> & -> & D).
          exists [c], text'. split; [reflexivity|]. split; [exact K|]. now rewrite Hx, D. }
        destruct r as [b|[e|]|e b|st| |e]; cbn [uses] in U2; try (now apply Hn).
        - destruct e; try (now apply Hn); eapply He; eauto; reflexivity.
        - exfalso. exact (Hraw _ _ eq_refl). }
      destruct Hd as (t1 & t2 & -> & K & S1). apply Forall_app in Ht as [T1 T2].
      destruct (IH t2 s1 _ _ T2 O2 S1 E2) as (I1 & a & b & -> & I2 & I3).
      split; [intros [X|X]; [exact (Hne X)|exact (I1 X)]|].
      exists (t1 ++ a), b. rewrite app_assoc. split; [reflexivity|]. cbn [flat_map]. rewrite K, I2, map_app. auto.
  Qed.
End Always.
