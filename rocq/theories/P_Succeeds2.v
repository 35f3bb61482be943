(** Interactive programs on a Unix terminal that takes all output (C137). *)
From Verif Require Import Base M_Utf8 S_Utf8 M_Geom S_Geom M_Attr M_Seq S_Seq M_Signal M_Util M_Input S_Input M_Buf S_Buf M_Writer M_Prepare M_Reader
  S_Reader P_Reader P_Reader2 S_Typing P_Typing M_ScreenApi M_UnixScreen.
From Verif Require S_Prepare S_Tty S_Writer M_Screen S_Screen S_Canvas P_Canvas P_Canvas2 P_Screen2 P_Screen3 P_Screen5 S_UnixScreen.
From Verif Require Import S_Interact P_Interact S_Succeeds P_Succeeds.
Local Open Scope nat_scope.

Lemma stale_total b : stale b <= total (bsize b).
Proof.
  unfold stale. rewrite <- (seq_length (total (bsize b)) 0) at 2. generalize (seq 0 (total (bsize b))) as l.
  induction l as [|i l IH]; cbn [filter length]; [lia|]. destruct (stale_at b i); cbn [length]; lia.
Qed.

Lemma screen_refresh_goes E C s : drawable C -> (forall c n, n <= grow C c n) ->
  buf_ok E (M_Screen.sb s) -> 0 < lines (bsize (M_Screen.sb s)) -> 0 < columns (bsize (M_Screen.sb s)) ->
  S_Writer.perfect (script (M_Screen.wr s)) -> 2 * stale (M_Screen.sb s) < writes_left (script (M_Screen.wr s)) ->
  exists s', M_Screen.screen_refresh E C s = Ret s' tt /\ M_Screen.refresh E C s = Ret s' tt /\ S_Writer.perfect (script (M_Screen.wr s')) /\
    writes_left (script (M_Screen.wr s)) <= writes_left (script (M_Screen.wr s')) + (2 * stale (M_Screen.sb s) + 1).
Proof.
  intros HD Hg Hb Hl Hc Hp Hn. destruct (refresh_goes E C HD Hg s Hb Hl Hc Hp Hn) as (s' & R & P & L & _).
  destruct (P_Screen3.refresh_and_drop E C _ _ _ R) as [D _]. exists s'. auto.
Qed.

Section Sure.
  Variables (M : Type) (react : M -> key -> M * list smethod).
  Variables (E : env) (C : tcfg) (m : seq_map) (K : S_Tty.tty).
  Hypothesis Hm : key_map m.
  Hypothesis Hgrow : forall c n, n <= grow C c n.
  Hypothesis HE : env_ok E.
  Hypothesis HC : env_chars E.
  Hypothesis Hco : S_Writer.caps_coherent C.
  Hypothesis HK : S_Tty.implements E C K.
  Hypothesis Hr : writes_narrow react E.
  Hypothesis HD : drawable C.

  Lemma methods_ksize ms : forall b k b', P_Canvas.fits E b k -> S_Buf.no_wide E (concat (map S_Canvas.method_text ms)) ->
    screen_methods E ms b = Val b' -> S_Canvas.ksize (S_Canvas.draws E ms k) = S_Canvas.ksize k.
  Proof.
    induction ms as [|o ms IH]; intros b k b' Hf Hn Hs; cbn [screen_methods S_Canvas.draws map concat] in *; [reflexivity|].
    apply Forall_app in Hn as [N1 N2]. destruct (screen_method E o b) as [b1|] eqn:E1; [|discriminate].
    assert (Hf' := P_Canvas.method_draws E HE _ _ _ _ Hf N1 E1). rewrite (IH _ _ _ Hf' N2 Hs).
    destruct (P_Screen2.op_ok E HE b (sforward o) b1 (P_Canvas.f_ok _ _ _ Hf) (P_Canvas.not_resize o) E1) as (_ & _ & B3).
    destruct Hf as [_ _ _ (Z1 & _)], Hf' as [_ _ _ (Z2 & _)]. unfold screen_get_size in *. congruence.
  Qed.

  Lemma sure_round t0 x u k l : unix_at E C K t0 u k -> hears m (u_sys u) l -> S_Screen.screen_size (S_Canvas.ksize k) ->
    S_Writer.perfect (script (wr (u_sys u))) -> 2 * total (S_Canvas.ksize k) < writes_left (script (wr (u_sys u))) ->
    match unix_round M react E C m x u with
    | Going x' u' => S_Writer.perfect (script (wr (u_sys u'))) /\
        writes_left (script (wr (u_sys u))) <= writes_left (script (wr (u_sys u'))) + (2 * total (S_Canvas.ksize k) + 1) /\
        exists k' l', unix_at E C K t0 u' k' /\ hears m (u_sys u') l' /\ S_Canvas.ksize k' = S_Canvas.ksize k
    | Unshown => False
    | _ => True
    end.
  Proof.
    intros Hu Hl Hz Hp Hn. pose proof (one_round M react E C m K Hm Hgrow HE HC Hco HK Hr t0 x u k l Hu Hl) as R.
    unfold unix_round in *.
    destruct (hears_read C m Hm Hgrow _ _ Hl) as [(-> & E1)|[(s' & E1 & H1 & H2 & H3)|(s' & a & l' & -> & E1 & H1 & H2 & H3)]]; rewrite E1 in *; [exact Logic.I| |].
    - cbn [follow] in *. cbn [u_sys with_sys]. rewrite H3. split; [exact Hp|]. split; [lia|]. exists k, l. split; [|auto].
      unfold unix_at, out_side in *. cbn [u_sb u_clr u_real u_sys with_sys]. rewrite H3. exact Hu.
    - rewrite heard_follow in *. set (u1 := with_sys s' u) in *.
      assert (Hu' : unix_at E C K t0 u1 k).
      { unfold unix_at, out_side in *. cbn [u1 u_sb u_clr u_real u_sys with_sys]. rewrite H3. exact Hu. }
      assert (Hk : keys [heard a] = [] \/ exists key, heard a = EKey key) by (destruct a; cbn; eauto).
      destruct Hk as [Hk|(key & Hk)].
      + assert (Hx : forall X (f : key -> X) y, match Some (heard a) with Some (EKey key) => f key | _ => y end = y) by (destruct a; try discriminate; reflexivity).
        rewrite Hx. cbn [u1 u_sys with_sys]. rewrite H3. split; [exact Hp|]. split; [lia|]. exists k, l'. auto.
      + rewrite Hk in *. destruct (screen_methods E (snd (react x key)) (u_sb u1)) as [b|] eqn:Em; [|exact Logic.I].
        assert (P1 := methods_painted E C K _ (out_side u1) _ _ b Hu' (Hr x key) Em).
        destruct (P_Canvas.painted_history E HE C K HC Hco HK _ _ _ Hu') as [_ F0].
        destruct (P_Canvas.painted_history E HE C K HC Hco HK _ _ _ P1) as [_ F1].
        assert (Hz1 := methods_ksize _ _ _ _ F0 (Hr x key) Em).
        set (sc := M_Screen.with_sb b (out_side u1)) in *. set (k1 := S_Canvas.draws E (snd (react x key)) k) in *.
        assert (Hsz : bsize (M_Screen.sb sc) = S_Canvas.ksize k) by (destruct F1 as [_ _ _ (Z & _)]; unfold screen_get_size in Z; congruence).
        assert (Hst := stale_total (M_Screen.sb sc)). rewrite Hsz in Hst.
        assert (Hw : M_Screen.wr sc = wr (u_sys u)) by exact H3.
        destruct Hz as (Hz2 & Hz3 & _).
        destruct (screen_refresh_goes E C sc HD Hgrow (P_Canvas.f_ok _ _ _ F1)) as (y & Y1 & Y2 & Y3 & Y4); rewrite ?Hsz, ?Hw; auto; [lia|].
        rewrite Y1 in *. cbn [u_sys with_out wr M_Prepare.with_wr]. split; [exact Y3|]. rewrite Hw in Y4. split; [lia|].
        destruct R as [(_ & _ & R0 & [(R1 & _)|(a' & l1 & R1 & R2 & R3 & _)])|(a' & l1 & key' & R1 & R2 & R3 & _ & _ & R5 & _)].
        * exists k, (a :: l'). auto.
        * exists k, l1. auto.
        * injection R1 as <- <-. rewrite Hk in R2. injection R2 as <-. exists k1, l'. auto.
  Qed.

  Lemma sure_rounds t0 n : forall x u k l, unix_at E C K t0 u k -> hears m (u_sys u) l -> S_Screen.screen_size (S_Canvas.ksize k) ->
    S_Writer.perfect (script (wr (u_sys u))) -> n * (2 * total (S_Canvas.ksize k) + 1) <= writes_left (script (wr (u_sys u))) ->
    rounds M (unix_round M react E C m) n x u <> Unshown.
  Proof.
    induction n as [|n IH]; intros x u k l Hu Hl Hz Hp Hn; cbn [rounds]; [discriminate|].
    assert (Hn' : 2 * total (S_Canvas.ksize k) < writes_left (script (wr (u_sys u)))) by (cbn [Nat.mul] in Hn; lia).
    pose proof (sure_round t0 x u k l Hu Hl Hz Hp Hn') as R.
    destruct (unix_round M react E C m x u) as [x' u'|x' u'| | |]; try discriminate; [|contradiction].
    destruct R as (R1 & R2 & k' & l' & R3 & R4 & R5). apply (IH x' u' k' l'); rewrite ?R5; auto. cbn [Nat.mul] in Hn. lia.
  Qed.
End Sure.

Lemma unix_always_shows M (react : M -> key -> M * list smethod) E C m K :
  key_map m -> (forall c n, n <= grow C c n) -> env_ok E -> env_chars E -> S_Writer.caps_coherent C ->
  S_Tty.implements E C K -> S_UnixScreen.plain_caps C -> drawable C -> writes_narrow react E ->
  forall z t0 u acts x n, unix_start E C m K z t0 u acts -> S_Writer.perfect (script (wr (u_sys u))) ->
    n * (2 * total z + 1) <= writes_left (script (wr (u_sys u))) ->
    rounds M (unix_round M react E C m) n x u <> Unshown.
Proof.
  intros Hm Hg HE HC Hco HK Hpc HD Hr z t0 u acts x n Hst Hp Hn.
  apply (sure_rounds M react E C m K Hm Hg HE HC Hco HK Hr HD t0 n x u (S_Canvas.blank_canvas z) acts); auto.
  - exact (start_painted E C m K HK Hpc z t0 u acts Hst).
  - exact (start_hears E C m K z t0 u acts Hst).
  - destruct Hst as [(cfg & s0 & s1 & v0 & _ & Hz & _) _ _ _ _]. exact Hz.
Qed.
