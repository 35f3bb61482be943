From Verif Require Import Base M_Utf8 S_Utf8 M_Geom S_Geom P_Geom M_Attr S_Buf M_Writer S_Tty S_Writer
  M_Screen S_Screen P_Buf3 P_Screen S_Emu P_Emu P_Screen5 M_Api M_ScreenApi M_Buf S_Canvas S_WideCanvas P_WideCanvas P_WideCanvas2.

(** Pictures that a refresh does not show, on the example terminal. *)
Section Play.
  Variable E : env.
  Hypothesis HE : env_ok E.
  Notation K := (ansi_tty E).

  Definition painted_so (sz : size) (sc : list wresp) (l : list wact) : option (scr * emu * wcanvas * option shot) :=
    match start E sz sc with
    | Some (s, t) => wpaint E (s, t, wblank sz, Some (first_shot (wblank sz))) l
    | None => None
    end.
  Lemma painted_so_ok sz sc l s t k last : screen_size sz -> whole_writes sc -> Forall act_size l ->
    painted_so sz sc l = Some (s, t, k, last) -> wpainted E ansi_cfg K s t k last.
  Proof.
    intros Hs Hw Hl H. unfold painted_so in H. destruct (start E sz sc) as [[s0 t0]|] eqn:Es; [|discriminate].
    refine (wpaint_ok E l _ _ _ _ _ _ _ _ _ Hl H).
    unfold start in Es. destruct (screen_new _ _ _ _ _) as [s2 []| | |] eqn:En; try discriminate.
    injection Es as <- <-.
    apply (WPt_new E ansi_cfg K sz (writer_new (N.to_nat 8192) sc) s2 (emu_new sz)
      (View sz (repeat (VC [SPACE] no_attrs) (total sz)) (Cursor 0 0) no_attrs true)); auto.
    cbn [stream writer_new dev obuf app]. rewrite (feed_nil _ _ _ (ansi_implements E HE)). apply emu_new_look.
  Qed.

  Definition check_shown (sz : size) (sc : list wresp) (l : list wact) (P : wcanvas -> view -> bool) : bool :=
    match painted_so sz sc l with
    | Some (s, t, k, last) => match refreshed E s t with Some (_, _, v) => P k v | None => false end
    | None => false
    end.
  Lemma check_shown_ok sz sc l P : screen_size sz -> whole_writes sc -> Forall act_size l ->
    check_shown sz sc l P = true ->
    exists s t k last s' x v, wpainted E ansi_cfg K s t k last /\
      refresh E ansi_cfg s = Ret s' tt /\ stream (wr s') = stream (wr s) ++ x /\
      look K (feed K t x) = Some v /\ P k v = true.
  Proof.
    intros Hs Hw Hl H. unfold check_shown in H. destruct (painted_so sz sc l) as [[[[s t] k] last]|] eqn:Ep; [|discriminate].
    destruct (refreshed E s t) as [[[s' x] v]|] eqn:Ef; [|discriminate].
    destruct (refreshed_ok _ _ _ _ _ _ Ef) as (A & B & D). exists s, t, k, last, s', x, v.
    split; [exact (painted_so_ok _ _ _ _ _ _ _ Hs Hw Hl Ep)|auto].
  Qed.

  Definition check_cut (sz : size) (sc : list wresp) (l : list wact) (new : size) (P : wcanvas -> view -> bool) : bool :=
    match painted_so sz sc l with
    | Some (s, t, k, last) =>
        match look K t, update_size E new s with
        | Some v, Val s1 =>
            attrs_eqb (vattrs v) no_attrs && (length (obuf (wr s)) =? 0) &&
            match refreshed E s1 (emu_new new) with Some (_, _, v2) => P k v2 | None => false end
        | _, _ => false
        end
    | None => false
    end.
  Lemma check_cut_ok sz sc l new P : screen_size sz -> whole_writes sc -> Forall act_size l ->
    check_cut sz sc l new P = true ->
    exists s t k last v s1 t' v' s2 x v2, wpainted E ansi_cfg K s t k last /\
      look K t = Some v /\ obuf (wr s) = [] /\ look K t' = Some v' /\ vsize v' = new /\ vattrs v' = vattrs v /\
      update_size E new s = Val s1 /\
      refresh E ansi_cfg s1 = Ret s2 tt /\ stream (wr s2) = stream (wr s1) ++ x /\
      look K (feed K t' x) = Some v2 /\ P k v2 = true.
  Proof.
    intros Hs Hw Hl H. unfold check_cut in H. destruct (painted_so sz sc l) as [[[[s t] k] last]|] eqn:Ep; [|discriminate].
    destruct (look K t) as [v|] eqn:El; [|discriminate].
    destruct (update_size E new s) as [s1|] eqn:Eu; [|discriminate].
    apply andb_prop in H as [H H3]. apply andb_prop in H as [H1 H2].
    destruct (refreshed E s1 (emu_new new)) as [[[s2 x] v2]|] eqn:Ef; [|discriminate].
    destruct (refreshed_ok _ _ _ _ _ _ Ef) as (A & B & D).
    exists s, t, k, last, v, s1, (emu_new new),
      (View new (repeat (VC [SPACE] no_attrs) (total new)) (Cursor 0 0) no_attrs true), s2, x, v2.
    split; [exact (painted_so_ok _ _ _ _ _ _ _ Hs Hw Hl Ep)|]. split; [exact El|].
    split; [destruct (obuf (wr s)); [reflexivity|discriminate]|].
    split; [apply emu_new_look|]. split; [reflexivity|].
    split; [cbn [vattrs]; symmetry; now apply P_Attr.attrs_eqb_eq|]. auto.
  Qed.
End Play.

Definition hides (t : list N) (l c i : nat) (k : wcanvas) (v : view) : bool :=
  glyph_is t plain_attrs (wink k l c) && negb (vcell_is t plain_attrs (nth_error (vcells v) i)).
Lemma hides_ok t l c i k v : hides t l c i k v = true ->
  wink k l c = Glyph t plain_attrs /\ nth_error (vcells v) i <> Some (VC t plain_attrs).
Proof.
  unfold hides, glyph_is. intros H. apply andb_prop in H as [H1 H2]. apply negb_true_iff in H2.
  destruct (wink k l c) as [t' a'|]; [|discriminate]. apply andb_prop in H1 as [H1 H3].
  apply P_Attr.attrs_eqb_eq in H3. apply P_Screen.text_eqb_eq in H1. subst t' a'. split; [reflexivity|].
  intros X. rewrite X in H2. unfold vcell_is in H2.
  assert (text_eqb t t = true) as Y by now apply P_Screen.text_eqb_eq.
  assert (attrs_eqb plain_attrs plain_attrs = true) as Z by now apply P_Attr.attrs_eqb_eq.
  rewrite Y, Z in H2. discriminate.
Qed.

Definition torn_text : list wact :=
  [WDo (SWriteAt (Pair 0 0) [120; 121]%N); WRefresh; WDo (SWriteAt (Pair 0 0) [65345]%N); WRefresh;
   WDo (SWriteAt (Pair 0 0) [120; 121]%N)].
Lemma torn_hides :
  let E := demo_env 1000 in
  exists s t k last s' x v, wpainted E ansi_cfg (ansi_tty E) s t k last /\
    refresh E ansi_cfg s = Ret s' tt /\ stream (wr s') = stream (wr s) ++ x /\
    look (ansi_tty E) (feed (ansi_tty E) t x) = Some v /\
    wink k 0 1 = Glyph [121]%N plain_attrs /\ nth_error (vcells v) (cell_no (wsize k) (Cursor 0 1)) <> Some (VC [121]%N plain_attrs).
Proof.
  cbv zeta.
  destruct (check_shown_ok (demo_env 1000) (demo_env_ok 1000) (Size 2 4) (alls 9) torn_text (hides [121]%N 0 1 1))
    as (s & t & k & last & s' & x & v & A & B & D & F & G).
  - small.
  - apply alls_whole.
  - repeat (apply Forall_cons; [exact Logic.I|]). constructor.
  - vm_compute. reflexivity.
  - apply hides_ok in G as [G1 G2]. exists s, t, k, last, s', x, v. do 5 (split; [assumption|]).
    unfold cell_no. cbn [line column]. exact G2.
Qed.

Definition edge_text : list wact :=
  [WDo (SWriteAt (Pair 0 2) [65345]%N); WDo (SWriteAt (Pair 1 0) [120; 121; 122]%N); WRefresh].
Lemma cut_hides :
  let E := demo_env 1000 in let new := Size 2 3 in
  exists s t k last v s1 t' v' s2 x v2, wpainted E ansi_cfg (ansi_tty E) s t k last /\
    look (ansi_tty E) t = Some v /\ obuf (wr s) = [] /\
    look (ansi_tty E) t' = Some v' /\ vsize v' = new /\ vattrs v' = vattrs v /\
    update_size E new s = Val s1 /\
    refresh E ansi_cfg s1 = Ret s2 tt /\ stream (wr s2) = stream (wr s1) ++ x /\
    look (ansi_tty E) (feed (ansi_tty E) t' x) = Some v2 /\
    wink k 1 0 = Glyph [120]%N plain_attrs /\ nth_error (vcells v2) (cell_no new (Cursor 1 0)) <> Some (VC [120]%N plain_attrs).
Proof.
  cbv zeta.
  destruct (check_cut_ok (demo_env 1000) (demo_env_ok 1000) (Size 2 4) (alls 9) edge_text (Size 2 3) (hides [120]%N 1 0 3))
    as (s & t & k & last & v & s1 & t' & v' & s2 & x & v2 & A & B & D & F & G & H & I & J & L & M & N).
  - small.
  - apply alls_whole.
  - repeat (apply Forall_cons; [exact Logic.I|]). constructor.
  - vm_compute. reflexivity.
  - apply hides_ok in N as [G1 G2]. exists s, t, k, last, v, s1, t', v', s2, x, v2. do 11 (split; [assumption|]). exact G2.
Qed.
