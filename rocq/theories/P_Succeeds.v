(** Proofs that drawing succeeds when the OS takes the output, and with how many calls (C138). *)
From Verif Require Import Base M_Utf8 S_Utf8 M_Geom S_Geom M_Attr M_Buf S_Buf M_Writer S_Tty S_Writer
  M_Screen S_Screen P_Buf P_Buf2 P_Buf3 P_Buf4 P_Writer P_Attr P_Writer2 P_Writer3 P_Screen P_Screen2 P_Screen3 P_Screen4 S_Succeeds.
Local Open Scope nat_scope.

(** ** The calls of [write] *)
Lemma left_intr sc : writes_left (WIntr :: sc) = writes_left sc.
Proof. reflexivity. Qed.
Lemma left_all sc : writes_left (WAll :: sc) = S (writes_left sc).
Proof. reflexivity. Qed.

Lemma data_goes buf : forall sc d, perfect sc -> buf = [] \/ 0 < writes_left sc ->
  exists n sc', write_data buf 0 d sc = Some (n, None, d ++ buf, sc') /\ n = length buf /\ perfect sc' /\
    writes_left sc = (if length buf =? 0 then 0 else 1) + writes_left sc'.
Proof.
  intros sc d Hp Hl. destruct (Nat.eqb_spec (length buf) 0) as [Eb|Eb].
  - apply length_zero_iff_nil in Eb. subst buf. exists 0, sc. rewrite app_nil_r. destruct sc; cbn; auto.
  - destruct Hl as [->|Hl]; [now contradiction Eb|]. revert Hl. induction sc as [|x sc IH]; intros Hl; [cbn in Hl; lia|].
    inversion Hp as [|? ? Hx Hs]; subst. cbn [write_data]. replace (0 =? length buf) with false by lia.
    destruct Hx as [->| ->].
    + rewrite left_all. cbn [Nat.add]. exists (length buf), sc. destruct sc; cbn [write_data]; rewrite Nat.eqb_refl; auto.
    + rewrite left_intr in *. exact (IH Hs Hl).
Qed.

(** From [w] to [w'], [k] calls were answered, with [n] bytes each or more. *)
Definition took (n : nat) (k : nat) (w w' : wst) : Prop :=
  perfect (script w') /\ writes_left (script w) = k + writes_left (script w') /\
  k * n + length (dev w) <= length (dev w') /\ ocap w <= ocap w'.

Lemma took_refl n w : perfect (script w) -> took n 0 w w.
Proof. intros H. repeat split; auto. Qed.
Lemma took_trans n k l a b c : took n k a b -> took n l b c -> took n (k + l) a c.
Proof. intros (_ & A2 & A3 & A4) (B1 & B2 & B3 & B4). repeat split; [assumption|lia|lia|lia]. Qed.

Section Succeeds.
  Variable E : env.
  Variable C : tcfg.
  Hypothesis HC : drawable C.
  Hypothesis Hgrow : forall c n, n <= grow C c n.

  Lemma flush_goes n w : perfect (script w) -> 0 < writes_left (script w) ->
    exists w' k, flush w = Ret w' tt /\ took 0 k w w' /\ k <= 1 /\ (n <= length (obuf w) -> took n k w w') /\
      obuf w' = [] /\ ocap w' = ocap w.
  Proof.
    intros Hp Hl. destruct (data_goes (obuf w) (script w) (dev w) Hp (or_intror Hl)) as (m & sc & D1 & D2 & D3 & D4).
    unfold flush. rewrite D1, D2, Nat.leb_refl. eexists. exists (if length (obuf w) =? 0 then 0 else 1). split; [reflexivity|].
    rewrite skipn_all. unfold took. cbn [script dev ocap obuf with_io with_obuf]. rewrite app_length.
    destruct (Nat.eqb_spec (length (obuf w)) 0) as [Q|Q].
    - split; [repeat split; [exact D3|exact D4|lia|lia]|]. split; [lia|]. split; [|auto]. intros _. repeat split; [exact D3|exact D4|lia|lia].
    - split; [repeat split; [exact D3|exact D4|lia|lia]|]. split; [lia|]. split; [|auto]. intros Hn. repeat split; [exact D3|exact D4|lia|lia].
  Qed.

  Lemma push_took n bs w : perfect (script w) -> took n 0 w (push C bs w).
  Proof.
    intros Hp. unfold took, push. cbn [script dev ocap]. repeat split; [assumption|lia|].
    destruct (Nat.leb_spec (length (obuf w) + length bs) (ocap w)); [lia|].
    assert (H1 := Hgrow (ocap w) (length (obuf w) + length bs)). lia.
  Qed.

  (** Text goes out with at most two calls; text that fits the buffer with at most one,
      which takes what the buffer held. *)
  Lemma text_goes bs w : perfect (script w) -> 1 < writes_left (script w) ->
    exists w' k, write_bytes C bs w = Ret w' tt /\ k <= 2 /\ took 0 k w w' /\
      (forall m, length bs <= m -> m <= ocap w -> k <= 1 /\ took (S (ocap w) - m) k w w').
  Proof.
    intros Hp Hl. unfold write_bytes.
    destruct (Nat.ltb_spec (ocap w) (length bs + length (obuf w))) as [Hb|Hb]; cbn [obind].
    - destruct (flush_goes (S (ocap w) - length bs) w Hp ltac:(lia)) as (w1 & k1 & F1 & F2 & F3 & F4 & F5 & F6). rewrite F1. cbn [obind].
      assert (Hp1 := proj1 F2). destruct (Nat.ltb_spec (ocap w1) (length bs)) as [Hc|Hc].
      + assert (Hl1 : 0 < writes_left (script w1)) by (destruct F2 as (_ & F2 & _); lia).
        destruct (data_goes bs (script w1) (dev w1) Hp1 (or_intror Hl1)) as (n & sc & D1 & D2 & D3 & D4). rewrite D1.
        eexists. exists (k1 + (if length bs =? 0 then 0 else 1)). split; [reflexivity|]. split; [destruct (_ =? _); lia|]. split.
        * apply (took_trans 0 k1 _ w w1); [exact F2|]. unfold took. cbn [script dev ocap with_io]. rewrite app_length.
          repeat split; [exact D3|exact D4|lia|lia].
        * intros m Hm Hm'. lia.
      + eexists. exists k1. split; [reflexivity|]. split; [lia|]. split.
        * rewrite <- (Nat.add_0_r k1). apply (took_trans 0 k1 0 w w1); [exact F2|apply push_took, Hp1].
        * intros m Hm Hm'. split; [exact F3|]. specialize (F4 ltac:(lia)). destruct F4 as (G1 & G2 & G3 & G4).
          destruct (push_took 0 bs w1 Hp1) as (P1 & P2 & P3 & P4). repeat split; [exact P1|lia| |lia].
          cbn [push dev] in *. destruct k1 as [|[|k1]]; [lia| |lia]. lia.
    - destruct (Nat.ltb_spec (ocap w) (length bs)) as [Hc|Hc]; [lia|].
      eexists. exists 0. split; [reflexivity|]. split; [lia|]. split; [apply push_took, Hp|]. intros m _ _. split; [lia|]. apply push_took, Hp.
  Qed.

  (** ** Attributes, moving, clearing: nothing is sent *)
  Definition goes (w : wst) (r : wres) : Prop := exists w', r = Ret w' tt /\ forall n, perfect (script w) -> took n 0 w w'.
  Lemma goes_bind w r k : goes w r -> (forall w1, goes w1 (k w1 tt)) -> goes w (obind r k).
  Proof.
    intros (w1 & -> & H1) Hk. destruct (Hk w1) as (w2 & H2 & H3). exists w2. split; [exact H2|]. intros n Hp.
    specialize (H1 n Hp). apply (took_trans n 0 0 w w1 w2); [exact H1|]. apply H3, (proj1 H1).
  Qed.
  Lemma goes_ret w f : script (f w) = script w -> dev (f w) = dev w -> ocap (f w) = ocap w -> goes w (Ret (f w) tt).
  Proof. intros H1 H2 H3. exists (f w). split; [reflexivity|]. intros n Hp. unfold took. rewrite H1, H2, H3. repeat split; auto. Qed.
  Lemma goes_expand e ps w : (forall k, snd (e k ps) = true) -> goes w (expand C e ps w).
  Proof.
    intros He. unfold expand. specialize (He (wctx w)). destruct (e (wctx w) ps) as [[bs k] ok]. cbn [snd] in He. subst ok.
    eexists. split; [reflexivity|]. intros n Hp. destruct (push_took n bs w Hp) as (A & B & D & F). repeat split; assumption.
  Qed.
  Lemma goes_opt c ps w : (forall e k, info C c = Some e -> snd (e k ps) = true) -> goes w (expand_opt C c ps w).
  Proof.
    intros H. unfold expand_opt. destruct (info C c) as [e|]; [apply goes_expand; intros k; now apply H|]. now apply (goes_ret w (fun w => w)).
  Qed.
  Lemma goes_when b f w : goes w (f w) -> goes w (when b f w).
  Proof. intros H. unfold when. destruct b; [exact H|]. now apply (goes_ret w (fun w => w)). Qed.

  Lemma goes_style c w : In c [ExitAttributeMode; EnterBoldMode; EnterItalicsMode; EnterReverseMode; EnterUnderlineMode;
                                ExitItalicsMode; ExitUnderlineMode] -> goes w (expand_opt C c [] w).
  Proof. intros Hc. apply goes_opt. intros e k He. exact (dr_style C HC c e k Hc He). Qed.
  Ltac gin := solve [cbn [In]; tauto].
  Lemma goes_with f w r : script (f w) = script w -> dev (f w) = dev w -> ocap (f w) = ocap w -> goes (f w) r -> goes w r.
  Proof.
    intros H1 H2 H3 (w' & Hr & H). exists w'. split; [exact Hr|]. intros n Hp. specialize (H n). rewrite H1 in H. specialize (H Hp).
    unfold took in *. now rewrite H1, H2, H3 in H.
  Qed.
  Lemma goes_clear w : goes w (clear_attributes C w).
  Proof.
    unfold clear_attributes. destruct (attrs_eqb _ _); [now apply (goes_ret w (fun w => w))|].
    apply (goes_with (with_wat no_attrs)); try reflexivity. apply goes_style. gin.
  Qed.
  Lemma goes_add s w : goes w (add_style C s w).
  Proof.
    unfold add_style. repeat (apply goes_bind; [apply goes_when, goes_style; gin|intros]). 
    match goal with |- goes ?w (Ret (?f ?w) tt) => now apply (goes_ret w f) | |- goes ?w (Ret (set_tracked_style ?s ?w) tt) => now apply (goes_ret w (fun w => set_tracked_style s w)) end.
  Qed.
  Lemma goes_all fuel : 
    (forall c w, set_fg C fuel c w = Panic \/ goes w (set_fg C fuel c w)) /\
    (forall c w, set_bg C fuel c w = Panic \/ goes w (set_bg C fuel c w)) /\
    (forall s w, remove_style C fuel s w = Panic \/ goes w (remove_style C fuel s w)) /\
    (forall s w, set_style C fuel s w = Panic \/ goes w (set_style C fuel s w)) /\
    (forall w, clear_fg C fuel w = Panic \/ goes w (clear_fg C fuel w)) /\
    (forall w, clear_bg C fuel w = Panic \/ goes w (clear_bg C fuel w)).
  Proof.
    assert (PB : forall w r k, r = Panic \/ goes w r -> (forall w1, k w1 tt = Panic \/ goes w1 (k w1 tt)) ->
      obind r k = Panic \/ goes w (obind r k)).
    { intros w r k [->|(w1 & -> & H1)] Hk; [now left|]. cbn [obind]. destruct (Hk w1) as [->|(w2 & H2 & H3)]; [now left|]. right.
      exists w2. split; [exact H2|]. intros n Hp. specialize (H1 n Hp). apply (took_trans n 0 0 w w1 w2); [exact H1|]. apply H3, (proj1 H1). }
    induction fuel as [|fuel (I1 & I2 & I3 & I4 & I5 & I6)]; [repeat split; intros; now left|].
    split; [|split; [|split; [|split; [|split]]]].
    - intros c w. cbn [set_fg]. destruct (ocolor_eqb _ _); [right; now apply (goes_ret w (fun w => w))|].
      apply PB; [|intros w1; right; now apply (goes_ret w1 (fun w => set_tracked_fg c w))].
      destruct c as [k|]; [|apply I5]. right. apply goes_opt. intros e q. apply (dr_color C HC); gin.
    - intros c w. cbn [set_bg]. destruct (ocolor_eqb _ _); [right; now apply (goes_ret w (fun w => w))|].
      apply PB; [|intros w1; right; now apply (goes_ret w1 (fun w => set_tracked_bg c w))].
      destruct c as [k|]; [|apply I6]. right. apply goes_opt. intros e q. apply (dr_color C HC); gin.
    - intros s w. cbn [remove_style]. destruct (style_intersects _ _).
      + apply PB; [right; apply goes_clear|intros]. apply PB; [right; apply goes_add|intros]. apply PB; [apply I1|intros]. apply I2.
      + right. repeat (apply goes_bind; [apply goes_when, goes_style; gin|intros]).
        match goal with |- goes ?w (Ret (set_tracked_style ?s ?w) tt) => now apply (goes_ret w (fun w => set_tracked_style s w)) | |- goes ?w (Ret (?f ?w) tt) => now apply (goes_ret w f) end.
    - intros s w. cbn [set_style]. destruct (style_intersects _ _).
      + apply PB; [right; apply goes_clear|intros]. apply PB; [apply I1|intros]. apply PB; [apply I2|intros]. right. apply goes_add.
      + apply PB; [right; apply goes_add|intros]. apply I3.
    - intros w. cbn [clear_fg]. apply PB; [right; apply goes_clear|intros]. apply PB; [apply I2|intros]. apply I4.
    - intros w. cbn [clear_bg]. apply PB; [right; apply goes_clear|intros]. apply PB; [apply I1|intros]. apply I4.
  Qed.
  Lemma goes_attrs a w : goes w (set_attrs C a w).
  Proof.
    assert (Hok := set_attrs_adv C a w). revert Hok.
    assert (H : set_attrs C a w = Panic \/ goes w (set_attrs C a w)); [|destruct H as [->|H]; [intros []|intros _; exact H]].
    assert (PB : forall w r k, r = Panic \/ goes w r -> (forall w1, k w1 tt = Panic \/ goes w1 (k w1 tt)) ->
      obind r k = Panic \/ goes w (obind r k)).
    { intros w0 r k [->|(w1 & -> & H1)] Hk; [now left|]. cbn [obind]. destruct (Hk w1) as [->|(w2 & H2 & H3)]; [now left|]. right.
      exists w2. split; [exact H2|]. intros n Hp. specialize (H1 n Hp). apply (took_trans n 0 0 w0 w1 w2); [exact H1|]. apply H3, (proj1 H1). }
    destruct (goes_all depth) as (I1 & I2 & _ & I4 & _).
    unfold set_attrs. apply PB; [right; apply goes_when, goes_clear|intros]. apply PB; [apply I4|intros]. apply PB; [apply I1|intros]. apply I2.
  Qed.
  Lemma goes_move p w : goes w (move_cursor C p w).
  Proof.
    destruct (dr_move C HC) as (a & Ha & Ha'). unfold move_cursor. rewrite Ha. destruct (info C CursorHome) as [h|] eqn:Eh.
    - destruct (cursor_eqb _ _); apply goes_expand; intros k; [exact (dr_home C HC h k Eh)|apply Ha'].
    - apply goes_expand. intros k. apply Ha'.
  Qed.

  (** ** On the screen *)
  Definition sgoes (s : scr) (r : sres) : Prop := exists s', r = Ret s' tt /\ sb s' = sb s /\ clr s' = clr s /\
    forall n, perfect (script (wr s)) -> took n 0 (wr s) (wr s').
  Lemma on_goes f s : goes (wr s) (f (wr s)) -> sgoes s (on_writer f s).
  Proof. intros (w & H & Ht). unfold on_writer. rewrite H. exists (with_wr w s). auto. Qed.
  Lemma s_move_goes p s : sgoes s (s_move_cursor C p s).
  Proof.
    unfold s_move_cursor. destruct (cursor_eqb _ _).
    - exists s. split; [reflexivity|]. split; [reflexivity|]. split; [reflexivity|]. intros n Hp. now apply took_refl.
    - destruct (on_goes (move_cursor C p) s (goes_move p (wr s))) as (s1 & -> & S1 & S2 & S3). cbn [obind]. exists (with_real p s1). auto.
  Qed.

  (** ** The cells that are drawn *)
  Definition stale_from (b : sbuf) (lo hi : nat) : nat := length (filter (stale_at b) (seq lo (hi - lo))).
  Lemma stale_split b lo i hi : lo <= i -> i < hi -> stale_at b i = true -> forall lo', i < lo' -> 
    S (stale_from b lo' hi) <= stale_from b lo hi.
  Proof.
    clear Hgrow. intros H1 H2 H3 lo' H4. unfold stale_from.
    replace (hi - lo) with ((i - lo) + (1 + ((Nat.min hi lo' - S i) + (hi - lo')))) by lia.
    rewrite !seq_app, !filter_app, !app_length. replace (lo + (i - lo)) with i by lia. cbn [seq filter]. rewrite H3. cbn [length].
    destruct (Nat.le_gt_cases lo' hi) as [Hh|Hh].
    - replace (i + 1 + (Nat.min hi lo' - S i)) with lo' by lia. lia.
    - replace (hi - lo') with 0 by lia. cbn. lia.
  Qed.
  Lemma next_stale hi b : buf_ok E b -> hi = total (bsize b) -> forall fuel lo,
    match next_cell_aux E fuel b lo hi with
    | Val (b', lo', Some (p, c)) => S (stale_from b' lo' hi) <= stale_from b lo hi /\ buffer b' = buffer b /\ In c (buffer b)
    | _ => True
    end.
  Proof.
    clear Hgrow. intros Hb Hhi. assert (Hb' := Hb). destruct Hb' as (B1 & B2 & B3 & B4).
    induction fuel as [|fuel IH]; intros lo; cbn [next_cell_aux]; [exact Logic.I|].
    destruct (Nat.leb_spec hi lo); [exact Logic.I|].
    destruct (nth_error (buffer b) lo) as [c|] eqn:Ec; [|exact Logic.I].
    unfold first_char. destruct (ctext c) as [|ch r]; [exact Logic.I|].
    destruct (nth_error (back b) lo) as [k|] eqn:Ek; [|exact Logic.I].
    fold (wstep E ch lo hi). assert (Hst : lo < wstep E ch lo hi) by (unfold wstep; destruct (_ && _); lia).
    destruct (cell_eqb c k) eqn:Eq.
    - specialize (IH (wstep E ch lo hi)). destruct (next_cell_aux E fuel b (wstep E ch lo hi) hi) as [[[b' lo'] [[p c']|]]|]; auto.
      destruct IH as (IH & IH'). split; [|exact IH']. etransitivity; [exact IH|]. unfold stale_from.
      replace (hi - lo) with ((Nat.min hi (wstep E ch lo hi) - lo) + (hi - wstep E ch lo hi)) by lia.
      rewrite seq_app, filter_app, app_length. destruct (Nat.le_gt_cases (wstep E ch lo hi) hi) as [Hh|Hh].
      + replace (lo + (Nat.min hi (wstep E ch lo hi) - lo)) with (wstep E ch lo hi) by lia. lia.
      + replace (hi - wstep E ch lo hi) with 0 by lia. cbn. lia.
    - destruct (columns (bsize b)) as [|cl]; [exact Logic.I|]. rewrite vec_set_upd by lia.
      split; [|split; [reflexivity|exact (nth_error_In _ _ Ec)]].
      assert (Hs : stale_at b lo = true) by (unfold stale_at; now rewrite Ec, Ek, Eq).
      etransitivity; [|exact (stale_split b lo lo hi (le_n _) ltac:(lia) Hs (wstep E ch lo hi) Hst)]. apply le_n_S.
      unfold stale_from. apply Nat.eq_le_incl. f_equal. apply filter_ext_in. intros j Hj. apply in_seq in Hj.
      unfold stale_at. cbn [buffer back with_back]. rewrite nth_upd by lia. replace (j =? lo) with false by lia. reflexivity.
  Qed.

  Lemma draw_goes fuel : forall lo hi s, hi - lo <= fuel -> hi = total (bsize (sb s)) ->
    buf_ok E (sb s) -> perfect (script (wr s)) -> 2 * stale_from (sb s) lo hi < writes_left (script (wr s)) ->
    exists s' k, draw E C fuel lo hi s = Ret s' tt /\ k <= 2 * stale_from (sb s) lo hi /\
      bsize (sb s') = bsize (sb s) /\ bcur (sb s') = bcur (sb s) /\ took 0 k (wr s) (wr s') /\
      (forall m, short_cells m (sb s) -> m <= ocap (wr s) -> k <= stale_from (sb s) lo hi /\ took (S (ocap (wr s)) - m) k (wr s) (wr s')).
  Proof.
    induction fuel as [|fuel IH]; intros lo hi s Hfu Hhi Hb Hp Hl; cbn [draw]; unfold next_cell;
      assert (Hst := next_stale hi (sb s) Hb Hhi (hi - lo) lo);
      destruct (next_cell_val E hi (sb s) Hb Hhi (hi - lo) lo) as ([[b' lo'] [[p c]|]] & R1 & R2); rewrite R1 in *.
    1: destruct R2 as (_ & _ & _ & _ & R2 & _); lia.
    1, 3: subst b'; eexists; exists 0; split; [reflexivity|]; split; [lia|]; split; [reflexivity|]; split; [reflexivity|]; split;
          [now apply took_refl|]; intros m _ _; split; [lia|]; now apply took_refl.
    destruct R2 as (P1 & P2 & P3 & P4 & P5 & P6). destruct Hst as (Q1 & Q2 & Q3).
    destruct (s_move_goes p (with_sb b' s)) as (s1 & M0 & M1 & _ & M2). rewrite M0. cbn [obind].
    assert (Mr : real s1 = p) by (apply (move_keeps E C p (with_sb b' s) s1 tt), M0).
    destruct (on_goes (set_attrs C (cattrs c)) s1 (goes_attrs _ _)) as (s2 & A0 & A1 & _ & A2).
    assert (Ar : real s2 = p) by (rewrite <- Mr; unfold on_writer in A0; destruct (set_attrs C (cattrs c) (wr s1)); try discriminate A0; now injection A0 as <-).
    rewrite A0. cbn [obind]. cbn [wr with_sb] in M2.
    assert (T02 : forall n, took n 0 (wr s) (wr s2)).
    { intros n. apply (took_trans n 0 0 _ (wr s1)); [now apply M2|]. apply A2, (proj1 (M2 0 Hp)). }
    assert (Hp2 := proj1 (T02 0)). assert (Hl2 : writes_left (script (wr s2)) = writes_left (script (wr s))) by (destruct (T02 0) as (_ & -> & _); reflexivity).
    unfold on_writer at 1, write_str at 1.
    destruct (text_goes (utf8s (ctext c)) (wr s2) Hp2 ltac:(lia)) as (w3 & k3 & W1 & W2 & W3 & W4). rewrite W1. cbn [obind].
    cbn [real with_wr]. rewrite Ar. destruct Hb as (B1 & Bb). destruct (lines_bound _ _ _ B1 P1) as [_ Hcb].
    unfold uadd. destruct (Nat.leb_spec (column p + 1) (umax E)); [|lia].
    cbn [line column]. set (s3 := with_real (Cursor (line p) (column p + 1)) (with_wr w3 s2)).
    assert (Hs3 : sb s3 = b') by (cbn [s3 sb with_real with_wr]; rewrite A1, M1; reflexivity).
    destruct (IH lo' hi s3) as (s' & k & D1 & D2 & D3 & D4 & D5 & D6).
    { lia. } { rewrite Hs3. congruence. } { rewrite Hs3. exact P2. } { exact (proj1 W3). }
    { rewrite Hs3. cbn [s3 wr with_real with_wr]. destruct W3 as (_ & W3 & _). lia. }
    rewrite Hs3 in *. exists s', (0 + (k3 + k)). split; [exact D1|]. split; [lia|]. split; [congruence|]. split; [congruence|]. split.
    - apply (took_trans 0 0 _ _ (wr s2)); [apply T02|]. apply (took_trans 0 k3 k _ w3); [exact W3|exact D5].
    - intros m Hm Hc. assert (Hcm : length (utf8s (ctext c)) <= m) by (unfold short_cells in Hm; rewrite Forall_forall in Hm; exact (Hm c Q3)).
      assert (O2 : ocap (wr s) <= ocap (wr s2)) by apply (T02 0). assert (O3 : ocap (wr s2) <= ocap w3) by apply W3.
      destruct (W4 m Hcm ltac:(lia)) as (V1 & V2). destruct (D6 m) as (U1 & U2).
      { unfold short_cells. rewrite Q2. exact Hm. } { cbn [s3 wr with_real with_wr]. lia. }
      cbn [s3 wr with_real with_wr] in U2.
      assert (Wk : forall n n' k a b, n <= n' -> took n' k a b -> took n k a b).
      { intros n n' q a b Hn (X1 & X2 & X3 & X4). repeat split; [exact X1|exact X2| |exact X4]. nia. }
      split; [lia|]. apply (took_trans _ 0 _ _ (wr s2)); [apply T02|]. apply (took_trans _ k3 k _ w3).
      + eapply Wk; [|exact V2]. lia.
      + eapply Wk; [|exact U2]. lia.
  Qed.

  (** ** [refresh] *)
  Lemma compose_goes s : buf_ok E (sb s) -> 0 < lines (bsize (sb s)) -> 0 < columns (bsize (sb s)) ->
    perfect (script (wr s)) -> 2 * stale (sb s) < writes_left (script (wr s)) ->
    exists s' k, compose E C s = Ret s' tt /\ k <= 2 * stale (sb s) /\ took 0 k (wr s) (wr s') /\
      (forall m, short_cells m (sb s) -> m <= ocap (wr s) -> k <= stale (sb s) /\ took (S (ocap (wr s)) - m) k (wr s) (wr s')).
  Proof.
    intros Hb Hl Hc Hp Hn. unfold compose.
    assert (H1 : exists s1, (if clr s then let! (s, _u) := on_writer (clear_screen C) s in Ret (with_clr false s) tt else Ret s tt) = Ret s1 tt /\
              sb s1 = sb s /\ forall n, took n 0 (wr s) (wr s1)).
    { destruct (clr s).
      - destruct (dr_clear C HC) as (e & He & He').
        assert (G : goes (wr s) (clear_screen C (wr s))) by (unfold clear_screen, expand_req; rewrite He; now apply goes_expand).
        destruct (on_goes (clear_screen C) s G) as (s1 & -> & S1 & _ & S2). cbn [obind]. exists (with_clr false s1).
        split; [reflexivity|]. split; [exact S1|]. intros n. now apply S2.
      - exists s. split; [reflexivity|]. split; [reflexivity|]. intros n. now apply took_refl. }
    destruct H1 as (s1 & E1 & S1 & T1). rewrite E1. cbn [obind]. assert (Hp1 := proj1 (T1 0)).
    destruct (on_goes (clear_attributes C) s1 (goes_clear _)) as (s2 & E2 & S2 & _ & T2). rewrite E2. cbn [obind].
    specialize (fun n => T2 n Hp1) as T2'. assert (Hp2 := proj1 (T2' 0)).
    assert (T02 : forall n, took n 0 (wr s) (wr s2)) by (intros n; apply (took_trans n 0 0 _ (wr s1)); auto).
    assert (Hs2 : sb s2 = sb s) by congruence. assert (Hb' := Hb). destruct Hb' as (B1 & _).
    unfold sb_indices, area, checked_area. rewrite Hs2. unfold total in B1.
    destruct (Nat.leb_spec (lines (bsize (sb s)) * columns (bsize (sb s))) (umax E)); [|lia].
    set (n := lines (bsize (sb s)) * columns (bsize (sb s))) in *.
    assert (Hst : stale_from (sb s) 0 n = stale (sb s)) by (unfold stale_from, stale; now rewrite Nat.sub_0_r).
    assert (Hl2 : writes_left (script (wr s2)) = writes_left (script (wr s))) by (destruct (T02 0) as (_ & -> & _); reflexivity).
    destruct (draw_goes (n - 0) 0 n s2) as (s3 & k & D1 & D2 & D3 & D4 & D5 & D6).
    { lia. } { now rewrite Hs2. } { now rewrite Hs2. } { exact Hp2. } { rewrite Hs2, Hst, Hl2. exact Hn. }
    rewrite D1. cbn [obind]. rewrite Hs2, Hst in *. assert (Hp3 := proj1 D5).
    destruct (on_goes (clear_attributes C) s3 (goes_clear _)) as (s4 & E4 & S4 & _ & T4). rewrite E4. cbn [obind].
    specialize (fun n => T4 n Hp3) as T4'. assert (Hp4 := proj1 (T4' 0)).
    assert (Hlast : exists p, (if is_out_of_bounds (bcur (sb s4)) (bsize (sb s4)) then
        match cursor_last (bsize (sb s4)) with Boom => Panic | Val p => s_move_cursor C p s4 end
        else s_move_cursor C (bcur (sb s4)) s4) = s_move_cursor C p s4).
    { destruct (is_out_of_bounds _ _); [|now eexists].
      unfold cursor_last. rewrite S4, D3. unfold usub. destruct (Nat.leb_spec 1 (lines (bsize (sb s)))); [|lia].
      destruct (Nat.leb_spec 1 (columns (bsize (sb s)))); [|lia]. now eexists. }
    destruct Hlast as (p & Hlast). destruct (s_move_goes p s4) as (s5 & E5 & _ & _ & T5). specialize (fun n => T5 n Hp4) as T5'.
    exists s5, (0 + (k + (0 + 0))). split; [etransitivity; [exact Hlast|exact E5]|]. split; [lia|]. split.
    - apply (took_trans 0 0 _ _ (wr s2)); [apply T02|]. apply (took_trans 0 k _ _ (wr s3)); [exact D5|].
      apply (took_trans 0 0 0 _ (wr s4)); auto.
    - intros m Hm Hm'. assert (O2 : ocap (wr s) <= ocap (wr s2)) by apply (T02 0).
      destruct (D6 m Hm ltac:(lia)) as (V1 & V2). split; [lia|].
      apply (took_trans _ 0 _ _ (wr s2)); [apply T02|]. apply (took_trans _ k _ _ (wr s3)).
      + destruct V2 as (X1 & X2 & X3 & X4). repeat split; [exact X1|exact X2| |exact X4]. nia.
      + apply (took_trans _ 0 0 _ (wr s4)); auto.
  Qed.

  Lemma refresh_goes s : buf_ok E (sb s) -> 0 < lines (bsize (sb s)) -> 0 < columns (bsize (sb s)) ->
    perfect (script (wr s)) -> 2 * stale (sb s) < writes_left (script (wr s)) ->
    exists s', refresh E C s = Ret s' tt /\ perfect (script (wr s')) /\
      writes_left (script (wr s)) <= writes_left (script (wr s')) + (2 * stale (sb s) + 1) /\
      (forall m, short_cells m (sb s) -> m <= ocap (wr s) ->
         writes_made (wr s) (wr s') <= stale (sb s) + 1 /\
         (writes_made (wr s) (wr s') - 1) * (S (ocap (wr s)) - m) <= bytes_taken (wr s) (wr s')).
  Proof.
    intros Hb Hl Hc Hp Hn. destruct (compose_goes s Hb Hl Hc Hp Hn) as (s1 & k & E1 & K & T & Hm). unfold refresh. rewrite E1. cbn [obind].
    assert (T' := T). destruct T' as (T1 & T2 & T3 & T4).
    destruct (flush_goes 0 (wr s1) T1 ltac:(lia)) as (w2 & k2 & F1 & F2 & F3 & _). destruct F2 as (G1 & G2 & G3 & G4).
    unfold on_writer. rewrite F1. exists (with_wr w2 s1). split; [reflexivity|]. cbn [wr with_wr]. split; [exact G1|]. split; [lia|].
    intros m Hm1 Hm2. destruct (Hm m Hm1 Hm2) as (V1 & V2 & V3 & V4 & V5). unfold writes_made, bytes_taken.
    replace (writes_left (script (wr s)) - writes_left (script w2)) with (k + k2) by lia. split; [lia|].
    assert (k + k2 - 1 <= k) by lia. nia.
  Qed.
End Succeeds.
