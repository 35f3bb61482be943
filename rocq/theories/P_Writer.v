(** Lemmas about the byte stream of the writer. *)
From Verif Require Import Base M_Utf8 M_Geom M_Attr M_Buf M_Writer S_Tty S_Writer.

(** ** write_data under whole writes *)
Lemma write_data_whole buf : forall sc offset d,
  whole_writes sc -> offset = 0 \/ offset = length buf ->
  match write_data buf offset d sc with
  | None => offset <> length buf
  | Some (n, r, d', sc') =>
      whole_writes sc' /\
      ((n = length buf /\ r = None /\
        d' = d ++ (if offset =? length buf then [] else buf)) \/
       (n = offset /\ offset <> length buf /\ r <> None /\ d' = d))
  end.
Proof.
  induction sc as [|x sc IH]; intros offset d Hw Ho; cbn [write_data];
    destruct (Nat.eqb_spec offset (length buf)) as [E|E].
  - split; [assumption|]. left. rewrite app_nil_r. auto.
  - assumption.
  - split; [assumption|]. left. rewrite app_nil_r. auto.
  - assert (offset = 0) by (destruct Ho; congruence). subst offset.
    inversion Hw as [|? ? Hx Hsc]; subst.
    destruct x as [|[|n]| |e]; simpl in Hx; try contradiction.
    + specialize (IH (length buf) (d ++ buf) Hsc (or_intror eq_refl)).
      cbn [Nat.add]. destruct (write_data buf (length buf) (d ++ buf) sc) as [[[[n r] d'] sc']|].
      * destruct IH as [H1 [(H2 & H3 & H4)|(H2 & H3 & _)]]; [|congruence].
        rewrite Nat.eqb_refl, app_nil_r in H4. split; [assumption|]. left. auto.
      * congruence.
    + cbn [Nat.min]. split; [assumption|]. right. repeat split; congruence.
    + specialize (IH 0 d Hsc (or_introl eq_refl)).
      destruct (Nat.eqb_spec 0 (length buf)) as [E2|E2]; [congruence|exact IH].
    + split; [assumption|]. right. repeat split; congruence.
Qed.

Lemma write_data_whole0 buf d sc : whole_writes sc ->
  match write_data buf 0 d sc with
  | None => True
  | Some (n, r, d', sc') =>
      whole_writes sc' /\
      ((n = length buf /\ r = None /\ d' = d ++ buf) \/ (n = 0 /\ r <> None /\ d' = d))
  end.
Proof.
  intros Hw. assert (H := write_data_whole buf sc 0 d Hw (or_introl eq_refl)).
  destruct (write_data buf 0 d sc) as [[[[n r] d'] sc']|]; [|trivial].
  destruct H as [H1 [(H2 & H3 & H4)|(H2 & H3 & H4 & H5)]]; (split; [assumption|]); [left|right]; auto.
  destruct (Nat.eqb_spec 0 (length buf)); [|auto].
  destruct buf; [|discriminate]. auto.
Qed.

(** ** flush and write_bytes under whole writes *)
Definition same_side (w w' : wst) : Prop := wat w' = wat w /\ wctx w' = wctx w.

Lemma flush_whole w : whole_writes (script w) ->
  match flush w with
  | Ret w' _ => whole_writes (script w') /\ same_side w w' /\ ocap w' = ocap w /\
                obuf w' = [] /\ dev w' = dev w ++ obuf w
  | Fail w' _ => whole_writes (script w') /\ same_side w w' /\ ocap w' = ocap w /\
                obuf w' = obuf w /\ dev w' = dev w
  | Panic => False
  | Blocked => True
  end.
Proof.
  intros Hw. unfold flush. assert (H := write_data_whole0 (obuf w) (dev w) (script w) Hw).
  destruct (write_data (obuf w) 0 (dev w) (script w)) as [[[[n r] d'] sc']|]; [|trivial].
  destruct H as [H1 [(H2 & H3 & H4)|(H2 & H3 & H4)]]; subst.
  - rewrite Nat.leb_refl, skipn_all. repeat split; auto.
  - cbn [Nat.leb]. destruct r as [e|]; [|congruence]. repeat split; auto.
Qed.

Lemma stream_app w : stream w = dev w ++ obuf w. Proof. reflexivity. Qed.

Lemma write_bytes_whole C buf w : whole_writes (script w) ->
  match write_bytes C buf w with
  | Ret w' _ => whole_writes (script w') /\ same_side w w' /\ stream w' = stream w ++ buf
  | Fail w' _ => whole_writes (script w') /\ same_side w w' /\ stream w' = stream w
  | Panic => False
  | Blocked => True
  end.
Proof.
  intros Hw. unfold write_bytes, stream.
  match goal with |- context [obind ?x _] => set (r := x) end.
  assert (Hr : match r with
    | Ret w' _ => whole_writes (script w') /\ same_side w w' /\ dev w' ++ obuf w' = dev w ++ obuf w /\
         (obuf w' = [] \/ ~ ocap w' < length buf)
    | Fail w' _ => whole_writes (script w') /\ same_side w w' /\ dev w' ++ obuf w' = dev w ++ obuf w
    | Panic => False
    | Blocked => True end).
  { subst r. destruct (Nat.ltb_spec (ocap w) (length buf + length (obuf w))).
    - assert (H1 := flush_whole w Hw). destruct (flush w) as [w' u|w' e| |]; auto.
      + destruct H1 as (? & ? & ? & E1 & E2). rewrite E1, E2, app_nil_r. auto.
      + destruct H1 as (? & ? & ? & E1 & E2). rewrite E1, E2. auto.
    - repeat split; auto. right. lia. }
  destruct r as [w1 u|w1 e| |]; cbn [obind]; auto.
  destruct Hr as (H1 & H2 & H3 & H4).
  destruct (Nat.ltb_spec (ocap w1) (length buf)) as [Hc|Hc].
  - destruct H4 as [H4|H4]; [|contradiction]. rewrite H4, app_nil_r in H3.
    assert (H := write_data_whole0 buf (dev w1) (script w1) H1).
    destruct (write_data buf 0 (dev w1) (script w1)) as [[[[n r] d'] sc']|]; [|trivial].
    destruct H as [H5 [(H6 & H7 & H8)|(H6 & H7 & H8)]]; subst.
    + cbn [with_io dev obuf script wat wctx]. rewrite H4, app_nil_r, H3. repeat split; auto; apply H2.
    + destruct r as [e|]; [|congruence]. cbn [with_io dev obuf script wat wctx].
      rewrite H4, app_nil_r, H3. repeat split; auto; apply H2.
  - cbn [push dev obuf script wat wctx]. rewrite app_assoc, H3. repeat split; auto; apply H2.
Qed.

(** ** Operations that only append to the buffer *)
Definition ext (w w' : wst) : Prop :=
  dev w' = dev w /\ script w' = script w /\ exists x, obuf w' = obuf w ++ x.

Lemma ext_refl w : ext w w.
Proof. repeat split. exists []. now rewrite app_nil_r. Qed.

Lemma ext_trans w1 w2 w3 : ext w1 w2 -> ext w2 w3 -> ext w1 w3.
Proof.
  intros (A1 & A2 & x & A3) (B1 & B2 & y & B3). repeat split; try congruence.
  exists (x ++ y). now rewrite app_assoc, <- A3.
Qed.

Definition quiet {A} (w : wst) (r : out wst werr A) : Prop :=
  match r with
  | Ret w' _ => ext w w'
  | Fail w' _ => ext w w'
  | Panic => True
  | Blocked => False
  end.

Lemma quiet_bind {A B} w (r : out wst werr A) (k : wst -> A -> out wst werr B) :
  quiet w r -> (forall w' a, ext w w' -> quiet w' (k w' a)) -> quiet w (obind r k).
Proof.
  intros H1 H2. destruct r as [w' a|w' e| |]; cbn in *; auto.
  specialize (H2 w' a H1). unfold quiet in *. destruct (k w' a); auto; eapply ext_trans; eauto.
Qed.

Lemma quiet_ret w a : quiet w (Ret w a : wres).
Proof. apply ext_refl. Qed.

Lemma quiet_track a w : quiet w (Ret (with_wat a w) tt : wres).
Proof. repeat split. exists []. cbn. now rewrite app_nil_r. Qed.

Lemma quiet_from {A} w w' (r : out wst werr A) : ext w w' -> quiet w' r -> quiet w r.
Proof. unfold quiet. destruct r; auto; intros; eapply ext_trans; eauto. Qed.

Section Quiet.
  Variable C : tcfg.

  Lemma quiet_expand e ps w : quiet w (expand C e ps w).
  Proof.
    unfold expand. destruct (e (wctx w) ps) as [[bs k] ok].
    assert (ext w (with_wctx k (push C bs w))) by (repeat split; exists bs; reflexivity).
    destruct ok; assumption.
  Qed.

  Lemma quiet_opt c ps w : quiet w (expand_opt C c ps w).
  Proof. unfold expand_opt. destruct (info C c); [apply quiet_expand|apply quiet_ret]. Qed.

  Lemma quiet_req c ps w : quiet w (expand_req C c ps w).
  Proof. unfold expand_req. destruct (info C c); [apply quiet_expand|apply ext_refl]. Qed.

  Lemma quiet_when b f w : (forall w, quiet w (f w)) -> quiet w (when b f w).
  Proof. intros H. unfold when. destruct b; [apply H|apply quiet_ret]. Qed.

  Lemma quiet_clear w : quiet w (clear_attributes C w).
  Proof.
    unfold clear_attributes. destruct (attrs_eqb (wat w) no_attrs); [apply quiet_ret|].
    apply (quiet_from w (with_wat no_attrs w)); [apply (quiet_track no_attrs w)|apply quiet_opt].
  Qed.

  Ltac q := repeat first
    [ apply quiet_ret | apply quiet_track | apply quiet_opt | apply quiet_req | apply quiet_clear
    | apply quiet_when; intros | apply quiet_bind; [|intros] ].

  Lemma quiet_add s w : quiet w (add_style C s w).
  Proof. unfold add_style. q. Qed.

  Lemma quiet_attrs : forall fuel,
    (forall c w, quiet w (set_fg C fuel c w)) /\
    (forall c w, quiet w (set_bg C fuel c w)) /\
    (forall s w, quiet w (remove_style C fuel s w)) /\
    (forall s w, quiet w (set_style C fuel s w)) /\
    (forall w, quiet w (clear_fg C fuel w)) /\
    (forall w, quiet w (clear_bg C fuel w)).
  Proof.
    induction fuel as [|fuel (I1 & I2 & I3 & I4 & I5 & I6)].
    - repeat split; intros; exact I.
    - repeat split; intros; cbn [set_fg set_bg remove_style set_style clear_fg clear_bg];
        repeat match goal with |- context [if ?b then _ else _] => destruct b end;
        try destruct c; unfold set_fg_color, set_bg_color, set_tracked_fg, set_tracked_bg, set_tracked_style; q;
        auto using quiet_add.
  Qed.

  Lemma quiet_set_attrs a w : quiet w (set_attrs C a w).
  Proof.
    unfold set_attrs. destruct (quiet_attrs depth) as (I1 & I2 & I3 & I4 & I5 & I6). q; auto.
  Qed.

  Lemma quiet_move_cursor p w : quiet w (move_cursor C p w).
  Proof.
    unfold move_cursor. destruct (info C CursorAddress), (info C CursorHome); try destruct (cursor_eqb _ _);
      try apply quiet_expand; apply ext_refl.
  Qed.

  (** All methods except the ones that write text or flush. *)
  Definition writes (o : wop) : Prop :=
    match o with
    | OMoveToFirstColumn | OWriteChar _ | OWriteStr _ | OWriteStyled _ _ | OFlush => True
    | _ => False
    end.

  Lemma quiet_op o w : ~ writes o -> quiet w (run_wop C o w).
  Proof.
    destruct (quiet_attrs depth) as (I1 & I2 & I3 & I4 & I5 & I6).
    intros H. destruct o; cbn [run_wop]; auto using quiet_add, quiet_set_attrs, quiet_clear, quiet_move_cursor;
      try (exfalso; apply H; exact I); try apply quiet_req.
    1: unfold move_up. 2: unfold move_down. 3: unfold move_left. 4: unfold move_right.
    1-4: destruct n as [|[|n]]; try apply quiet_ret; apply quiet_req.
    unfold set_cursor_mode. destruct m; apply quiet_opt.
  Qed.
End Quiet.

Lemma ext_stream w w' : ext w w' -> exists x, stream w' = stream w ++ x.
Proof. intros (H1 & H2 & x & H3). exists x. unfold stream. now rewrite H1, H3, app_assoc. Qed.

(** ** Any operation, whole writes *)
Lemma req_unsupported C c ps w w' k : expand_req C c ps w = Fail w' (ENotSupported k) -> w' = w.
Proof.
  unfold expand_req, expand. destruct (info C c) as [e|]; [|congruence].
  destruct (e (wctx w) ps) as [[bs k'] []]; congruence.
Qed.

Lemma quiet_unsupported C o w w' k : ~ writes o ->
  run_wop C o w = Fail w' (ENotSupported k) ->
  match o with
  | OClearScreen | OClearToLineEnd | OClearToScreenEnd | OMoveCursor _
  | OMoveUp _ | OMoveDown _ | OMoveLeft _ | OMoveRight _ => w' = w
  | _ => True
  end.
Proof.
  intros _. destruct o; cbn [run_wop]; auto; try apply req_unsupported.
  1: unfold move_up. 2: unfold move_down. 3: unfold move_left. 4: unfold move_right.
  1-4: destruct n as [|[|n]]; [discriminate| |]; apply req_unsupported.
  unfold move_cursor, expand. destruct (info C CursorAddress), (info C CursorHome); try destruct (cursor_eqb _ _);
    try destruct (_ (wctx w) _) as [[bs k'] []]; congruence.
Qed.

Lemma op_whole C o w : whole_writes (script w) ->
  match run_wop C o w with
  | Ret w' _ => whole_writes (script w') /\ exists x, stream w' = stream w ++ x /\ contributes o None x
  | Fail w' e => whole_writes (script w') /\ exists x, stream w' = stream w ++ x /\ contributes o (Some e) x
  | Panic => True
  | Blocked => writes o
  end.
Proof.
  intros Hw.
  assert (Hd : writes o \/ ~ writes o) by (destruct o; cbn; auto).
  destruct Hd as [Hd|Hd].
  - destruct o; try contradiction; cbn [run_wop contributes].
    + assert (H := write_bytes_whole C [13%N] w Hw). unfold move_to_first_column.
      destruct (write_bytes C [13%N] w); auto; destruct H as (H1 & H2 & H3); split; auto.
      * eexists; eauto.
      * exists []. rewrite app_nil_r. auto.
    + assert (H := write_bytes_whole C (utf8 c) w Hw). unfold write_char.
      destruct (write_bytes C (utf8 c) w); auto; destruct H as (H1 & H2 & H3); split; auto.
      * eexists; eauto.
      * exists []. rewrite app_nil_r. auto.
    + assert (H := write_bytes_whole C (utf8s s) w Hw). unfold write_str.
      destruct (write_bytes C (utf8s s) w); auto; destruct H as (H1 & H2 & H3); split; auto.
      * eexists; eauto.
      * exists []. rewrite app_nil_r. auto.
    + unfold write_styled. assert (H := quiet_set_attrs C a w).
      destruct (set_attrs C a w) as [w1 u|w1 e| |]; cbn [obind]; try contradiction; auto.
      * destruct (ext_stream _ _ H) as [pre E1]. destruct H as (H1 & H2 & _). rewrite <- H2 in Hw.
        assert (H3 := write_bytes_whole C (utf8s s) w1 Hw). unfold write_str.
        destruct (write_bytes C (utf8s s) w1) as [w2 u2|w2 e| |]; cbn [obind]; auto.
        -- destruct H3 as (H4 & H5 & H6). assert (H7 := quiet_clear C w2).
           destruct (clear_attributes C w2) as [w3 u3|w3 e| |]; cbn in H7; try contradiction; auto.
           ++ destruct (ext_stream _ _ H7) as [post E2]. destruct H7 as (_ & H8 & _). rewrite H8. split; auto.
              exists (pre ++ utf8s s ++ post). rewrite E2, H6, E1, <- !app_assoc. split; [reflexivity|].
              now exists pre, post.
           ++ destruct (ext_stream _ _ H7) as [post E2]. destruct H7 as (_ & H8 & _). rewrite H8. split; auto.
              exists (pre ++ utf8s s ++ post). rewrite E2, H6, E1, <- !app_assoc. split; [reflexivity|exact I].
        -- destruct H3 as (H4 & H5 & H6). split; auto. exists pre. rewrite H6, E1. auto.
      * destruct (ext_stream _ _ H) as [pre E1]. destruct H as (H1 & H2 & _). rewrite H2. split; auto.
        exists pre. auto.
    + assert (H := flush_whole w Hw). unfold stream. destruct (flush w); auto;
        destruct H as (H1 & H2 & H3 & H4 & H5); split; auto; exists []; rewrite H4, H5, !app_nil_r; auto.
  - assert (H := quiet_op C o w Hd). assert (H0 := quiet_unsupported C o w).
    destruct (run_wop C o w) as [w' u|w' e| |]; auto; cbn in H.
    + destruct (ext_stream _ _ H) as [x E1]. destruct H as (_ & H2 & _). rewrite H2. split; auto.
      exists x. split; auto. destruct o; cbn in *; auto; exfalso; auto.
    + destruct (ext_stream _ _ H) as [x E1]. destruct H as (_ & H2 & _). rewrite H2. split; auto.
      exists x. split; auto.
      assert (Hx : forall k, e = ENotSupported k -> w' = w -> x = []).
      { intros k -> ->. rewrite <- (app_nil_r (stream w)) in E1 at 1. now apply app_inv_head in E1. }
      specialize (fun k => H0 w' k Hd).
      destruct o; cbn in *; auto; try (exfalso; now auto); destruct e as [| | |k]; auto;
        apply (Hx k eq_refl), (H0 k eq_refl).
    + contradiction.
Qed.

Lemma history_whole C ops : forall w rs w', whole_writes (script w) ->
  run_any C ops w = Some (rs, w') ->
  whole_writes (script w') /\ length rs = length ops /\
  exists xs, stream w' = stream w ++ concat xs /\ length xs = length ops /\
    forall i o r x, nth_error ops i = Some o -> nth_error rs i = Some r -> nth_error xs i = Some x ->
      contributes o r x.
Proof.
  induction ops as [|o ops IH]; intros w rs w' Hw H; cbn [run_any] in H.
  - injection H as <- <-. repeat split; auto. exists []. cbn. rewrite app_nil_r. repeat split; auto.
    intros [|i]; discriminate.
  - assert (Ho := op_whole C o w Hw).
    assert (Hg : forall w1 r, whole_writes (script w1) -> (exists x, stream w1 = stream w ++ x /\ contributes o r x) ->
      option_map (fun p => (r :: fst p, snd p)) (run_any C ops w1) = Some (rs, w') ->
      whole_writes (script w') /\ length rs = length (o :: ops) /\
      exists xs, stream w' = stream w ++ concat xs /\ length xs = length (o :: ops) /\
        forall i o0 r x, nth_error (o :: ops) i = Some o0 -> nth_error rs i = Some r -> nth_error xs i = Some x ->
          contributes o0 r x).
    { clear H Ho. intros w1 r H1 (x & E & Hc) H.
      destruct (run_any C ops w1) as [[rs1 w2]|] eqn:E1; [|discriminate]. cbn in H. injection H as <- <-.
      destruct (IH _ _ _ H1 E1) as (A1 & A2 & xs & A3 & A4 & A5).
      split; [assumption|]. split; [cbn; lia|]. exists (x :: xs). cbn [concat length].
      rewrite A3, E, <- app_assoc. repeat split; auto.
      intros [|i] o0 r0 x0; cbn [nth_error]; [|apply A5]. congruence. }
    destruct (run_wop C o w) as [w1 u|w1 e| |]; try discriminate; destruct Ho; eapply Hg; eauto.
Qed.

(** ** A perfect device *)
Lemma perfect_whole sc : perfect sc -> whole_writes sc.
Proof. intros H. eapply Forall_impl; [|exact H]. intros r [->| ->]; exact I. Qed.

Lemma write_data_perfect buf : forall sc offset d, perfect sc ->
  match write_data buf offset d sc with
  | Some (_, r, _, sc') => r = None /\ perfect sc'
  | None => True
  end.
Proof.
  induction sc as [|x sc IH]; intros offset d H; cbn [write_data]; destruct (offset =? length buf); auto.
  inversion H as [|? ? Hx Hs]; subst. destruct Hx as [->| ->]; apply IH; assumption.
Qed.

(** With enough non-interrupted responses the loop returns. *)
Lemma write_data_returns buf : forall sc d, whole_writes sc -> Exists (fun r => r <> WIntr) sc ->
  write_data buf 0 d sc <> None.
Proof.
  induction sc as [|x sc IH]; intros d Hw He; [inversion He|]. cbn [write_data].
  destruct (Nat.eqb_spec 0 (length buf)) as [E|E]; [discriminate|].
  inversion Hw as [|? ? Hx Hs]; subst.
  destruct x as [|[|n]| |e]; cbn in Hx; try contradiction; try discriminate.
  - cbn [Nat.add]. destruct sc; cbn [write_data]; rewrite Nat.eqb_refl; discriminate.
  - apply IH; [assumption|]. inversion He; subst; [congruence|assumption].
Qed.

(** ** Short writes: the loop never ends *)
Lemma write_data_short k buf : 0 < k < length buf -> length buf mod k <> 0 ->
  forall n m d, write_data buf (m * k) d (repeat (WOk k) n) = None.
Proof.
  intros Hk Hm. induction n as [|n IH]; intros m d; cbn [repeat write_data];
    destruct (Nat.eqb_spec (m * k) (length buf)) as [E|E].
  - exfalso. apply Hm. rewrite <- E. apply Nat.mod_mul. lia.
  - reflexivity.
  - exfalso. apply Hm. rewrite <- E. apply Nat.mod_mul. lia.
  - rewrite Nat.min_l by lia. destruct k as [|k']; [lia|].
    replace (m * S k' + S k') with (S m * S k') by lia. apply IH.
Qed.

Lemma flush_short_forever k w n : 0 < k < length (obuf w) -> length (obuf w) mod k <> 0 ->
  script w = repeat (WOk k) n -> flush w = Blocked.
Proof.
  intros H1 H2 H3. unfold flush. rewrite H3. now rewrite (write_data_short k (obuf w) H1 H2 n 0).
Qed.

(** A dividing short write ends, but sends the wrong bytes. *)
Lemma write_data_divides k buf : 0 < k -> forall n m d sc, m * k + n * k = length buf ->
  write_data buf (m * k) d (repeat (WOk k) n ++ sc) =
  Some (length buf, None, d ++ concat (repeat (firstn k buf) n), sc).
Proof.
  intros Hk. induction n as [|n IH]; intros m d sc H.
  - cbn [repeat app concat]. rewrite app_nil_r. replace (m * k) with (length buf) by lia.
    destruct sc; cbn [write_data]; rewrite Nat.eqb_refl; reflexivity.
  - cbn [repeat app write_data]. destruct (Nat.eqb_spec (m * k) (length buf)) as [E|E]; [nia|].
    rewrite Nat.min_l by nia. destruct k as [|k']; [lia|].
    replace (m * S k' + S k') with (S m * S k') by lia. rewrite IH by lia.
    cbn [concat]. now rewrite app_assoc.
Qed.

Lemma flush_short_garbles k n w sc : 0 < k -> length (obuf w) = n * k ->
  script w = repeat (WOk k) n ++ sc ->
  flush w = Ret (with_io (dev w ++ concat (repeat (firstn k (obuf w)) n)) sc (with_obuf [] w)) tt.
Proof.
  intros Hk H1 H2. unfold flush. rewrite H2.
  assert (H := write_data_divides k (obuf w) Hk n 0 (dev w) sc ltac:(lia)). cbn [Nat.mul] in H.
  rewrite H, Nat.leb_refl, skipn_all. reflexivity.
Qed.
