(** Proofs about panics of a Unix screen (C107): programs that do not panic. *)
From Verif Require Import Base M_Utf8 M_Geom S_Geom P_Geom M_Attr M_Buf S_Buf P_Buf P_Buf2 P_Buf3 M_Seq M_Signal M_Util M_Input S_Input P_Input
  M_Writer S_Tty S_Writer P_Writer P_Writer2
  M_Screen P_Screen P_Screen2 P_Screen4 M_Prepare M_Reader S_Prepare S_Reader P_Prepare P_Prepare2 P_Reader P_Reader3 M_UnixScreen S_UnixScreen P_UnixScreen P_UnixScreen2
  S_Overrun P_Overrun S_NoPanic P_NoPanic P_NoPanic2 P_NoPanic3.
Local Open Scope nat_scope.

Section Never.
  Variables (E : env) (C : tcfg) (m : seq_map).
  Hypothesis HE : env_ok E.
  Hypothesis Hm : key_map m.

  Lemma weights_app a b : weights (a ++ b) = weights a + weights b.
  Proof. unfold weights. rewrite map_app. apply list_sum_app. Qed.
  Lemma weights_cons o l : weights (o :: l) = weight o + weights l.
  Proof. reflexivity. Qed.

  Lemma walk1_down sz ch p : 2 <= columns sz ->
    match walk1 E sz ch p with Moved q | Stopped q => line q <= line p + 2 | Panics => umax E <= line p end.
  Proof.
    intros Hc. pose proof (walk1_line E sz ch p Hc) as W. destruct (walk1 E sz ch p) as [q|q|] eqn:Ew; auto.
    unfold walk1 in Ew.
    repeat match type of Ew with
    | (if ?b then _ else _) = _ => destruct b
    | match ?x with _ => _ end = _ => destruct x
    end; try discriminate Ew; injection Ew as <-; cbn; lia.
  Qed.
  Lemma walk_down sz s : 2 <= columns sz -> forall p,
    match walk E sz s p with Moved q | Stopped q => line q <= line p + 2 * length s | Panics => umax E <= line p + 2 * length s end.
  Proof.
    intros Hc. induction s as [|ch s IH]; intros p; cbn [walk length]; [lia|].
    pose proof (walk1_down sz ch p Hc) as W. destruct (walk1 E sz ch p) as [q|q|]; try lia.
    specialize (IH q). destruct (walk E sz s q); lia.
  Qed.
  Lemma go_down sz p o : 2 <= columns sz -> public_gop (GBuffer o) ->
    match go E (sz, p) o with
    | Some (sz', q) => sz' = sz /\ line q <= line p + weight o
    | None => umax E <= line p + weight o
    end.
  Proof.
    intros Hc Hp. cbn [go]. destruct o; cbn [public_gop] in Hp; try contradiction; cbn [weight text length];
      try (split; [reflexivity|cbn [line]; lia]).
    - destruct (Nat.leb_spec (line p + 1) (umax E)); [split; [reflexivity|cbn; lia]|lia].
    - pose proof (walk_down sz [ch] Hc p) as W. cbn [length] in W. destruct (walk E sz [ch] p); try split; auto; lia.
    - pose proof (walk_down sz s Hc p) as W. destruct (walk E sz s p); try split; auto; lia.
    - pose proof (walk_down sz s Hc p0) as W. destruct (inside sz p0); [destruct (walk E sz s p0); try split; auto; lia|split; auto; lia].
    - pose proof (walk_down sz s Hc p) as W. destruct (walk E sz s p); try split; auto; lia.
    - pose proof (walk_down sz s Hc p0) as W. destruct (inside sz p0); [destruct (walk E sz s p0); try split; auto; lia|split; auto; lia].
  Qed.
  Lemma goes_down l : forall sz p, 2 <= columns sz -> Forall public_gop (map GBuffer l) ->
    match goes_on E (sz, p) l with
    | Some (sz', q) => sz' = sz /\ line q <= line p + weights l
    | None => umax E <= line p + weights l
    end.
  Proof.
    induction l as [|o l IH]; intros sz p Hc Hp; cbn [goes_on]; [split; [reflexivity|lia]|].
    cbn [map] in Hp. inversion Hp as [|? ? P1 P2]; subst. pose proof (go_down sz p o Hc P1) as G. rewrite weights_cons.
    destruct (go E (sz, p) o) as [[sz' q]|]; [|lia]. destruct G as [-> G]. specialize (IH sz q Hc P2).
    destruct (goes_on E (sz, q) l) as [[sz'' r]|]; [destruct IH; split; [assumption|lia]|lia].
  Qed.
  Lemma drawings_public l : Forall public_gop l -> Forall public_gop (map GBuffer (drawings l)).
  Proof. induction 1 as [|o l H H0 IH]; [constructor|]. destruct o; cbn; auto. Qed.

  Section From.
    Variable s0 : sys.
    Hypothesis Hd : decent E s0.
    Lemma resize_decent st z : window_size s0 z -> exists p, go E st (BResize z) = Some (z, p) /\ p = snd st.
    Proof.
      intros Hz. destruct st as [sz p]. cbn [go]. destruct (Hd z Hz) as (H1 & H2 & H3). unfold total in H3.
      exists p. split; [|reflexivity]. destruct (Nat.leb_spec (lines z * columns z) (umax E)); [|lia].
      destruct (Nat.eqb_spec (columns z) 0); [lia|]. rewrite andb_false_r. reflexivity.
    Qed.
    Lemma ustep_reports u o u' r : inv E s0 (bsize (u_sb u), bcur (u_sb u)) u -> ustep E C m o u = Some (u', r) ->
      forall z, resize_of r = Some z -> window_size s0 z.
    Proof.
      intros [Hx Hs]. assert (Hout : forall f, on_out f u = Some (u', r) -> resize_of r = None).
      { intros f. unfold on_out. destruct (f (out_side u)); intros [= <- <-]; reflexivity. }
      destruct o; cbn [ustep]; try (intros H z Hz; apply Hout in H; congruence).
      - destruct (wait_event m timeout (u_sys u)); intros [= <- <-] z; discriminate.
      - pose proof (read_sees C m (window_size s0) timeout (u_sys u) Hm Hs) as W.
        destruct (read_event C m timeout (u_sys u)) as [x e|x e| |]; try discriminate.
        + destruct (follow E e (with_sys x u)); [|discriminate]. intros [= <- <-] z Hz. apply W. cbn in Hz. destruct e as [[]|]; congruence.
        + intros [= <- <-] z. discriminate.
      - pose proof (raw_sees C m (window_size s0) room timeout (u_sys u) Hs) as W.
        destruct (read_raw C m room timeout (u_sys u)) as [x [e bs]|x e| |]; try discriminate.
        + destruct (follow E e (with_sys x u)); [|discriminate]. intros [= <- <-] z Hz. apply W. cbn in Hz |- *. destruct e as [[]|]; congruence.
        + intros [= <- <-] z. discriminate.
    Qed.

    (** The window's size, and a bound for the cursor's line. *)
    Definition low (n : nat) (st : size * cursor) : Prop := window_size s0 (fst st) /\ line (snd st) <= n.
    Lemma ustep_low n o st u u' r st' : public_op o -> inv E s0 st u -> low n st -> ustep E C m o u = Some (u', r) ->
      tracked E st o r = Some st' -> low (n + weights (op_drawings o)) st'.
    Proof.
      intros Hp Hi [Hl1 Hl2] Hs Ht. destruct st as [sz p]. cbn [fst snd] in *. destruct (Hd sz Hl1) as (_ & Hc & _).
      assert (Hr := ustep_reports u o u' r). assert (Hst : (bsize (u_sb u), bcur (u_sb u)) = (sz, p)) by apply Hi.
      rewrite Hst in Hr. specialize (Hr Hi Hs).
      assert (Hz : match resize_of r with Some z => go E (sz, p) (BResize z) | None => Some (sz, p) end = Some st' -> low n st').
      { destruct (resize_of r) as [z|]; [|intros [= <-]; split; auto]. specialize (Hr z eq_refl).
        destruct (resize_decent (sz, p) z Hr) as (q & -> & ->). intros [= <-]. split; auto. }
      destruct o; cbn [tracked op_drawings] in *; try (rewrite Nat.add_0_r; apply Hz; exact Ht).
      - cbn [public_op] in Hp. assert (Hp' : public_gop (GBuffer o)) by (destruct o; auto).
        pose proof (go_down sz p o Hc Hp') as G. rewrite Ht in G. destruct st' as [sz' q]. destruct G as [-> G].
        split; [exact Hl1|]. cbn [snd]. rewrite weights_cons. change (weights []) with 0. lia.
      - pose proof (goes_down (drawings l) sz p Hc (drawings_public l Hp)) as G. rewrite Ht in G. destruct st' as [sz' q]. destruct G as [-> G].
        split; [exact Hl1|]. cbn [snd]. lia.
    Qed.
    Lemma urun_low ops : forall n st u u' rs st', Forall public_op ops -> inv E s0 st u -> low n st ->
      urun E C m ops u = Some (u', rs) -> track E st ops rs = Some st' -> low (n + weights (flat_map op_drawings ops)) st'.
    Proof.
      induction ops as [|o ops IH]; intros n st u u' rs st' Hp Hi Hl; cbn [urun].
      - intros [= <- <-] [= <-]. destruct Hl as [H1 H2]. split; auto. cbn. lia.
      - inversion Hp as [|? ? P1 P2]; subst. destruct (ustep E C m o u) as [[u1 r]|] eqn:Es; [|discriminate].
        destruct (ustep_inv E C m HE Hm s0 o st u u1 r P1 Hi Es) as (st1 & T1 & I1).
        destruct (urun E C m ops u1) as [[u2 rs2]|] eqn:Er; [|discriminate]. intros [= <- <-]. cbn [track]. rewrite T1. intros Ht.
        cbn [flat_map]. rewrite weights_app, Nat.add_assoc.
        exact (IH _ st1 u1 u2 rs2 st' P2 I1 (ustep_low n o st u u1 r st1 P1 Hi Hl Es T1) Er Ht).
    Qed.
  End From.

  Lemma never cfg s0 s1 u ops o more u' rs : whole_out s0 -> decent E s0 -> no_mouse m ->
    unix_screen_new E C cfg s0 = Ret s1 u -> Forall public_op (ops ++ o :: more) -> modest E (ops ++ o :: more) ->
    Forall modest_timeout (ops ++ o :: more) -> urun E C m ops u = Some (u', rs) -> ~ panics E C m o u'.
  Proof.
    intros Hw Hd Hno Hn Hp Hmo Ht Hr Hpan.
    apply Forall_app in Hp as [Hp1 Hp2]. inversion Hp2 as [|? ? Hp3 Hp4]; subst.
    apply Forall_app in Ht as [_ Ht]. inversion Ht as [|? ? Ht1 _]; subst.
    destruct (new_inv C E cfg s0 s1 u HE Hw Hn) as (z & Hz & Hi).
    destruct (urun_inv E C m HE Hm s0 ops _ u u' rs Hp1 Hi Hr) as (st & T & I').
    assert (L : low s0 (0 + weights (flat_map op_drawings ops)) st).
    { apply (urun_low s0 Hd ops 0 (z, Cursor 0 0) u u' rs st Hp1 Hi); [split; [left; exact Hz|cbn; lia]|exact Hr|exact T]. }
    pose proof (step_reason E C m HE Hm s0 o st u' Hp3 I' Hpan) as R.
    unfold modest in Hmo. rewrite flat_map_app, weights_app in Hmo. cbn [flat_map] in Hmo. rewrite weights_app in Hmo.
    destruct st as [sz p]. destruct L as [L1 L2]. cbn [fst snd] in L1, L2. destruct (Hd sz L1) as (Z1 & Z2 & Z3).
    assert (Hzero : total sz <> 0) by (unfold total; apply Nat.neq_mul_0; lia).
    assert (Hmouse : forall b, ~ zero_mouse m b) by (intros b (q & y & ((Q & _) & _) & _); exact (Hno q Q)).
    assert (Hbad : ~ bad_resize E s0 (sz, p)).
    { intros (y & Y1 & Y2). destruct (resize_decent s0 Hd (sz, p) y Y1) as (? & Y3 & _). congruence. }
    destruct o; cbn [reason op_drawings modest_timeout fst] in *.
    - assert (Hp' : public_gop (GBuffer o)) by (destruct o; auto). pose proof (go_down sz p o Z2 Hp') as G. rewrite R in G.
      rewrite weights_cons in Hmo. lia.
    - exact R.
    - contradiction.
    - destruct R as [R|R]; [|contradiction]. pose proof (goes_down (drawings l) sz p Z2 (drawings_public l Hp3)) as G. rewrite R in G. lia.
    - destruct R as [R|R]; [contradiction|exact (Hmouse _ R)].
    - destruct R as [R|[[y R]|R]]; [contradiction|exact (Hmouse _ R)|contradiction].
    - destruct R as [R|R]; contradiction.
  Qed.
End Never.
