(** Proofs about threads that draw in areas of their own (C106). *)
From Verif Require Import Base M_Utf8 M_Geom S_Geom M_Attr M_Buf S_Buf M_Writer S_Tty S_Writer M_Screen S_Screen M_ScreenApi
  S_Canvas M_Locks S_Locks S_Together P_Together.

Lemma typing_size E s : forall k, ksize (fst (typing E s k)) = ksize k.
Proof.
  induction s as [|c s IH]; intros k; cbn; [reflexivity|]. destruct (typed E c k) as [k'|] eqn:Et; [|reflexivity]. rewrite IH.
  unfold typed in Et.
  repeat match type of Et with
  | context [if ?b then _ else _] => destruct b
  | context [match ?b with _ => _ end] => destruct b
  end; try discriminate Et; injection Et as <-; reflexivity.
Qed.
Lemma write_with_size E a s k : ksize (write_with E a s k) = ksize k.
Proof.
  unfold write_with. assert (H := typing_size E s (set_brush a k)). destruct (typing E s (set_brush a k)) as [k' []]; exact H.
Qed.
Lemma draw_size E m k : ksize (S_Canvas.draw E m k) = ksize k.
Proof.
  destruct m; cbn; try reflexivity; unfold S_Canvas.write;
    repeat match goal with |- context [if ?b then _ else _] => destruct b end;
    rewrite ?typing_size, ?write_with_size; reflexivity.
Qed.

Section Areas.
  Variables (E : env) (sz : size) (areas : nat -> area).
  Hypothesis Hdis : forall i j l c, i <> j -> areas i l c -> ~ areas j l c.

  Definition agree (A : area) (k k' : canvas) : Prop := forall l c, A l c -> ink k l c = ink k' l c.

  Lemma picture_size q : forall k, ksize (picture E q k) = ksize k.
  Proof. induction q as [|[m|] q IH]; intros k; cbn; rewrite ?IH, ?draw_size; reflexivity. Qed.

  Lemma own_strokes (A : area) q : (forall m, In (Draw m) q -> stays_in E sz A m) -> forall k k', ksize k = sz -> ksize k' = sz ->
    agree A k k' -> agree A (picture E q k) (picture E q k').
  Proof.
    induction q as [|[m|] q IH]; intros Hq k k' Hk Hk' Ha; cbn [picture].
    - exact Ha.
    - apply IH.
      + intros m' Hm. apply Hq. now right.
      + now rewrite draw_size.
      + now rewrite draw_size.
      + destruct (Hq m (or_introl eq_refl) k Hk) as [_ G]. exact (G k' Hk' Ha).
    - apply IH; try assumption. intros m' Hm. apply Hq. now right.
  Qed.
  Lemma other_strokes (A B : area) q : (forall m, In (Draw m) q -> stays_in E sz A m) -> (forall l c, B l c -> ~ A l c) ->
    forall k, ksize k = sz -> agree B (picture E q k) k.
  Proof.
    intros Hq Hb. induction q as [|[m|] q IH]; intros k Hk; cbn [picture].
    - intros l c _. reflexivity.
    - intros l c Hc. rewrite IH; [|intros m' Hm; apply Hq; now right|now rewrite draw_size|exact Hc].
      destruct (Hq m (or_introl eq_refl) k Hk) as [G _]. apply G. now apply Hb.
    - apply IH; [|exact Hk]. intros m' Hm. apply Hq. now right.
  Qed.

  Lemma area_order i plan : forall k k', ksize k = sz -> ksize k' = sz ->
    (forall j d, In (j, d) plan -> keeps_to E sz (areas j) d) -> agree (areas i) k k' ->
    agree (areas i) (picture E (concat (map strokes (map snd plan))) k)
      (picture E (concat (map strokes (done_by i plan))) k').
  Proof.
    induction plan as [|[j d] plan IH]; intros k k' Hk Hk' Hp Ha; [exact Ha|].
    unfold done_by. cbn [map snd concat filter fst]. rewrite picture_app.
    assert (Hd := Hp j d (or_introl eq_refl)).
    destruct (Nat.eqb_spec j i) as [->|Hj].
    - cbn [map snd concat]. rewrite picture_app. apply IH.
      + now rewrite picture_size.
      + now rewrite picture_size.
      + intros j' d' Hi. apply Hp. now right.
      + now apply own_strokes.
    - apply IH; [now rewrite picture_size|assumption|intros j' d' Hi; apply Hp; now right|].
      intros l c Hc. rewrite <- (Ha l c Hc).
      apply (other_strokes (areas j) (areas i)); try assumption. intros l' c' Hx. apply Hdis with (i := i); [congruence|exact Hx].
  Qed.

  Lemma nobodys_order plan l c : forall k, ksize k = sz ->
    (forall j d, In (j, d) plan -> keeps_to E sz (areas j) d) -> (forall j, ~ areas j l c) ->
    ink (picture E (concat (map strokes (map snd plan))) k) l c = ink k l c.
  Proof.
    induction plan as [|[j d] plan IH]; intros k Hk Hp Hn; [reflexivity|].
    cbn [map snd concat]. rewrite picture_app. rewrite IH; [|now rewrite picture_size|intros; apply Hp; now right|exact Hn].
    apply (other_strokes (areas j) (fun l' c' => l' = l /\ c' = c)); [apply Hp; now left|intros l' c' [-> ->]; apply Hn|exact Hk|auto].
  Qed.

  Lemma shown_last q k last : displayed E (q ++ [Show]) k last = Some (picture E (q ++ [Show]) k).
  Proof. rewrite displayed_app, picture_app. reflexivity. Qed.

  Lemma plan_shown (plan : list (nat * doing)) k last : plan <> [] ->
    (forall i, done_by i plan <> [] -> ends_shown (done_by i plan)) ->
    displayed E (concat (map strokes (map snd plan))) k last = Some (picture E (concat (map strokes (map snd plan))) k).
  Proof.
    destruct plan as [|x plan _] using rev_ind; [congruence|]. intros _ He. destruct x as [i d].
    assert (D : done_by i (plan ++ [(i, d)]) = done_by i plan ++ [d]).
    { unfold done_by. rewrite filter_app, map_app. cbn. now rewrite Nat.eqb_refl. }
    specialize (He i). rewrite D in He. destruct He as (l' & d' & E1 & E2); [now destruct (done_by i plan)|].
    apply app_inj_tail in E1. destruct E1 as [_ <-].
    rewrite !map_app, concat_app. cbn [map snd concat]. rewrite app_nil_r.
    destruct d as [m| |s]; [contradiction| |]; cbn [strokes]; [|rewrite app_assoc]; apply shown_last.
  Qed.
End Areas.

Section Shown.
  Variables (E : env) (C : tcfg) (K : tty).
  Hypothesis HE : env_ok E.
  Hypothesis HC : env_chars E.
  Hypothesis Hco : caps_coherent C.
  Hypothesis HK : implements E C K.

  Lemma done_by_nil {A} (plan : list (nat * A)) : (forall i, done_by i plan = []) -> plan = [].
  Proof.
    destruct plan as [|[j d] plan]; [reflexivity|]. intros H. specialize (H j). unfold done_by in H. cbn in H.
    rewrite Nat.eqb_refl in H. discriminate.
  Qed.

  Lemma own_areas (areas : nat -> area) (progs : list (list doing)) s t k tr c w' d' : painted E C K s t k ->
    (forall i j l c, i <> j -> areas i l c -> ~ areas j l c) ->
    (forall i d, In d (nth i progs []) -> keeps_to E (ksize k) (areas i) d) ->
    Forall (Forall (narrow_doing E)) progs -> progs <> [] -> Forall ends_shown progs ->
    run E C (start (map doings_client progs) (share s)) tr c -> finished c -> no_failure tr ->
    shared c = (Some w', Some d') ->
    exists x v, stream w' = stream (wr s) ++ x /\ obuf w' = [] /\ look K (feed K t x) = Some v /\ vsize v = ksize k /\
      forall p, in_bounds p (ksize k) ->
        (forall i, areas i (line p) (column p) ->
           nth_error (vcells v) (cell_no (ksize k) p) =
           Some (shown_ink C (ink (picture E (concat (map strokes (nth i progs []))) k) (line p) (column p)))) /\
        ((forall i, ~ areas i (line p) (column p)) ->
           nth_error (vcells v) (cell_no (ksize k) p) =
           Some (shown_ink C (ink k (line p) (column p)))).
  Proof.
    intros Hp Hdis Hkeep Hn Hne Hend R F Hf Hs.
    destruct (threads_draw E C K HE HC Hco HK progs s t k tr c w' d' Hp Hn R F Hf Hs) as (order & O1 & _ & x & X1 & X2).
    assert (Hk : forall j d, In (j, d) order -> keeps_to E (ksize k) (areas j) d).
    { intros j d Hi. apply Hkeep. rewrite <- O1. unfold done_by. apply in_map_iff. exists (j, d). split; [reflexivity|].
      apply filter_In. split; [exact Hi|]. apply Nat.eqb_refl. }
    assert (Hsh : forall i, done_by i order <> [] -> ends_shown (done_by i order)).
    { intros i. rewrite O1. intros Hx. destruct (Nat.lt_ge_cases i (length progs)) as [Hi|Hi].
      - apply (proj1 (Forall_forall _ _) Hend). now apply nth_In.
      - rewrite nth_overflow in Hx by exact Hi. congruence. }
    assert (Ho : order <> []).
    { intros ->. destruct progs as [|p progs]; [congruence|]. inversion Hend as [|? ? (l' & d0 & E1 & _) _]; subst.
      specialize (O1 0). cbn in O1. destruct l'; discriminate O1. }
    rewrite (plan_shown E order k None Ho Hsh) in X2. destruct X2 as (X2 & v & V1 & (V2 & V3) & _).
    rewrite picture_size in V2, V3.
    exists x, v. split; [exact X1|]. split; [exact X2|]. split; [exact V1|]. split; [exact V2|].
    intros p Hpin. specialize (V3 p Hpin). split.
    - intros i Hi. rewrite V3, <- O1.
      rewrite (area_order E (ksize k) areas Hdis i order k k eq_refl eq_refl Hk (fun _ _ _ => eq_refl) _ _ Hi).
      reflexivity.
    - intros Hi. rewrite V3, (nobodys_order E (ksize k) areas order (line p) (column p) k eq_refl Hk Hi).
      reflexivity.
  Qed.
End Shown.

(** ** Styled text at a place *)
Section Styled.
  Variables (E : env) (sz : size).

  Lemma one_typed c k : one_column E c -> on_canvas (ksize k) (pen k) = true ->
    typed E c k = Some (set_pen (if column (pen k) + 1 <? columns (ksize k) then Cursor (line (pen k)) (column (pen k) + 1)
                                 else Cursor (line (pen k) + 1) 0)
      (set_ink (fun l c' => if (l =? line (pen k)) && (c' =? column (pen k)) then ([c], brush k) else ink k l c') k)).
  Proof.
    intros (H1 & H2 & H3 & H4 & H5) Ho. unfold typed. rewrite H1, H2, Ho.
    apply N.eqb_neq in H3, H4, H5. now rewrite H3, H4, H5.
  Qed.

  Lemma plain_typing s : forall k, ksize k = sz -> Forall (one_column E) s -> line (pen k) < lines sz ->
    column (pen k) + length s <= columns sz ->
    exists k', typing E s k = (k', true) /\ forall l c, ink k' l c =
      if (l =? line (pen k)) && (column (pen k) <=? c) && (c <? column (pen k) + length s)
      then ([nth (c - column (pen k)) s 0%N], brush k) else ink k l c.
  Proof.
    induction s as [|x s IH]; intros k Hz Hs Hl Hc.
    - exists k. split; [reflexivity|]. intros l c. cbn [length].
      destruct ((l =? line (pen k)) && (column (pen k) <=? c) && (c <? column (pen k) + 0)) eqn:Eb; [lia|reflexivity].
    - inversion Hs; subst. cbn [length] in Hc. cbn [typing]. rewrite one_typed; [|assumption|unfold on_canvas; lia].
      destruct (column (pen k) + 1 <? columns (ksize k)) eqn:Ec.
      + edestruct (IH (set_pen (Cursor (line (pen k)) (column (pen k) + 1)) (set_ink (fun l c' =>
          if (l =? line (pen k)) && (c' =? column (pen k)) then ([x], brush k) else ink k l c') k))) as (k' & T & I);
          [reflexivity|assumption|cbn; lia|cbn; lia|].
        exists k'. split; [exact T|]. intros l c. rewrite I. cbn [set_pen set_ink pen line column brush ink length].
        destruct (Nat.eqb_spec l (line (pen k))) as [->|]; cbn [andb]; [|reflexivity].
        destruct (Nat.eqb_spec c (column (pen k))) as [->|Hne].
        * replace (column (pen k) + 1 <=? column (pen k)) with false by lia.
          replace (column (pen k) <=? column (pen k)) with true by lia.
          replace (column (pen k) <? column (pen k) + S (length s)) with true by lia. cbn [andb].
          now rewrite Nat.sub_diag.
        * destruct (column (pen k) <=? c) eqn:E1.
          -- replace (column (pen k) + 1 <=? c) with true by lia.
             replace (c <? column (pen k) + S (length s)) with (c <? column (pen k) + 1 + length s) by (f_equal; lia).
             cbn [andb]. destruct (c <? column (pen k) + 1 + length s); [|reflexivity].
             replace (c - column (pen k)) with (S (c - (column (pen k) + 1))) by lia. reflexivity.
          -- replace (column (pen k) + 1 <=? c) with false by lia. reflexivity.
      + destruct s as [|y s]; [|cbn [length] in Hc; lia]. cbn [typing]. eexists. split; [reflexivity|].
        intros l c. cbn [set_pen set_ink ink length].
        destruct (Nat.eqb_spec l (line (pen k))) as [->|]; cbn [andb]; [|reflexivity].
        destruct (Nat.eqb_spec c (column (pen k))) as [->|Hne].
        * replace (column (pen k) <=? column (pen k)) with true by lia.
          replace (column (pen k) <? column (pen k) + 1) with true by lia. cbn [andb]. now rewrite Nat.sub_diag.
        * destruct ((column (pen k) <=? c) && (c <? column (pen k) + 1)) eqn:E1; [lia|reflexivity].
  Qed.

  Lemma styled_at_ink p f b st s k : ksize k = sz -> Forall (one_column E) s -> line (where_ p) < lines sz ->
    column (where_ p) + length s <= columns sz ->
    forall l c, ink (S_Canvas.draw E (SWriteStyledAt p f b st s) k) l c =
      if (l =? line (where_ p)) && (column (where_ p) <=? c) && (c <? column (where_ p) + length s)
      then ([nth (c - column (where_ p)) s 0%N], Attrs f b (pick st)) else ink k l c.
  Proof.
    intros Hz Hs Hl Hc l c. cbn [S_Canvas.draw].
    destruct (on_canvas (ksize k) (where_ p)) eqn:Eo.
    - unfold write_with.
      edestruct (plain_typing s (set_brush (Attrs f b (pick st)) (set_pen (where_ p) k))) as (k' & T & I);
        [exact Hz|exact Hs|exact Hl|exact Hc|].
      rewrite T. cbn [set_brush ink]. rewrite I. reflexivity.
    - assert (length s = 0).
      { unfold on_canvas in Eo. rewrite Hz in Eo. lia. }
      destruct ((l =? line (where_ p)) && (column (where_ p) <=? c) && (c <? column (where_ p) + length s)) eqn:Eb; [lia|reflexivity].
  Qed.

  Lemma styled_at_stays p f b st s : Forall (one_column E) s -> line (where_ p) < lines sz ->
    column (where_ p) + length s <= columns sz ->
    stays_in E sz (span (where_ p) (length s)) (SWriteStyledAt p f b st s).
  Proof.
    intros Hs Hl Hc k Hk. assert (I := styled_at_ink p f b st s k Hk Hs Hl Hc). split.
    - intros l c Hn. rewrite I. destruct ((l =? _) && _ && _) eqn:Eb; [|reflexivity]. destruct Hn. unfold span. lia.
    - intros k' Hk' _ l c Ha. rewrite I, (styled_at_ink p f b st s k' Hk' Hs Hl Hc).
      unfold span in Ha. destruct ((l =? _) && _ && _) eqn:Eb; [reflexivity|lia].
  Qed.
  Lemma stays_wider (A B : area) m : stays_in E sz A m -> (forall l c, A l c -> B l c) -> (forall l c, A l c \/ ~ A l c) -> stays_in E sz B m.
  Proof.
    intros H Hab Hdec k Hk. destruct (H k Hk) as [H1 H2]. split.
    - intros l c Hb. apply H1. auto.
    - intros k' Hk' Ha l c Hb. destruct (Hdec l c) as [HA|HA].
      + apply H2; auto.
      + rewrite H1 by exact HA. destruct (H k' Hk') as [H3 _]. rewrite H3 by exact HA. auto.
  Qed.
End Styled.
