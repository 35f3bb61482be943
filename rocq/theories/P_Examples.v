(** Proofs about the example programs (C140). *)
From Verif Require Import Base M_Utf8 M_Geom S_Geom M_Attr M_Buf S_Buf M_Writer S_Tty S_Writer M_Screen S_Screen M_Api M_ScreenApi S_Canvas M_Locks S_Locks S_Together
  S_CursorMode S_Program P_Program2 M_Examples S_Examples.

(** ** What the threads do *)
Definition same_draw (x : mark) (m : smethod) : Prop := exists m', x = Drawn m' /\ sforward m' = sforward m.
Definition a_round (d : kid) (p : list mark) (x : list N) : Prop :=
  exists xs, p = xs ++ [Shown; Shown] /\ Forall2 same_draw xs (round_calls d x).

Lemma did_sketch ms : forall g k l, did (Some g) (sketch ms k) l -> exists xs, Forall2 same_draw xs ms /\ did (Some (g ++ xs)) k l.
Proof.
  induction ms as [|m ms IH]; intros g k l H.
  - exists []. rewrite app_nil_r. split; [constructor|exact H].
  - cbn [sketch] in H. inversion H as [| | | |c k0 x g0 l0 T D| | |g0 c k0 r l0 I D]; subst.
    + inversion T as [m' Hm| |]; subst. destruct (IH _ _ _ D) as (xs & X1 & X2). exists (Drawn m' :: xs).
      split; [constructor; [exists m'; auto|exact X1]|]. rewrite <- app_assoc in X2. exact X2.
    + destruct I.
Qed.
Lemma did_rounds d vs : forall l, did None (fold_right (draw_round d) Finish vs) l -> Forall2 (a_round d) l vs.
Proof.
  induction vs as [|x vs IH]; intros l H; cbn [fold_right] in H; [inversion H; constructor|]. unfold draw_round at 1 in H.
  unfold a_round. set (ms := round_calls d x) in H. assert (Hms : ms = round_calls d x) by reflexivity. clearbody ms.
  inversion H as [|c k0 y l0 T D|c k0 l0 T D| | | |c k0 sz l0 T D|g0 c k0 r l0 I D]; subst.
  - inversion T.
  - clear T. apply did_sketch in D. destruct D as (xs & X1 & D). cbn [app] in D.
    inversion D as [| | | |c k0 y g0 l0 T D1| | |g0 c k0 r l0 I D1]; subst; [|destruct I].
    assert (y = Shown) as -> by (inversion T; reflexivity).
    inversion D1 as [| | | |c k0 y g0 l0 T1 D2|k0 g0 l0 D2| |g0 c k0 r l0 I D2]; subst; [inversion T1| |destruct I].
    constructor; [|exact (IH _ D2)]. exists xs. rewrite <- app_assoc. auto.
  - destruct T; discriminate.
  - destruct I.
Qed.
Lemma did_until n : forall l, did None (until_q n) l -> Forall (fun p => exists sz, p = [Fitted sz]) l.
Proof.
  assert (E : forall l, did None (Call SRDrop (fun _ => Finish)) l -> l = []).
  { intros l H. inversion H as [|c k0 y l0 T D|c k0 l0 T D| | | |c k0 sz l0 T D|g0 c k0 r l0 I D]; subst.
    - inversion T.
    - destruct T; discriminate.
    - destruct T; discriminate.
    - inversion D. reflexivity. }
  assert (E' : forall l, did None (Call SRDrop (fun _ => Finish)) l -> Forall (fun p => exists sz, p = [Fitted sz]) l).
  { intros l H. rewrite (E l H). constructor. }
  induction n as [|n IH]; intros l H; cbn [until_q] in H; [apply E', H|].
  inversion H as [|c k0 y l0 T D|c k0 l0 T D| | | |c k0 sz l0 T D|g0 c k0 r l0 I D]; subst.
  - inversion T.
  - destruct T; discriminate.
  - constructor; [eauto|]. apply IH, D.
  - destruct I as [(e & ->)|(e & ->)]; [|apply E', D]. destruct (e =? 113)%N; [apply E', D|apply IH, D].
Qed.
Lemma did_main n l : did None (main_task n) l -> Forall (fun p => exists sz, p = [Fitted sz]) l.
Proof.
  intros H. inversion H as [|c k0 y l0 T D|c k0 l0 T D| | | |c k0 sz l0 T D|g0 c k0 r l0 I D]; subst.
  - inversion T.
  - destruct T; discriminate.
  - destruct T; discriminate.
  - exact (did_until n l D).
Qed.

(** ** Drawing *)
Lemma to_string_concat ps : to_string ps = concat ps.
Proof. induction ps as [|p ps IH]; cbn; congruence. Qed.
Lemma draw_forward E m m' k : sforward m = sforward m' -> draw E m k = draw E m' k.
Proof.
  destruct m, m'; cbn; rewrite ?to_string_concat; intros H; rewrite ?to_string_concat in H; try discriminate H; try reflexivity;
    unfold screen_add_style, screen_write_str, style_or_default, pick, where_, into_cursor in *;
    repeat match goal with p : position |- _ => destruct p | o : option style |- _ => destruct o end;
    try reflexivity; injection H; intros; subst; try reflexivity; try discriminate; repeat match goal with H0 : context [to_string ?p] |- _ => rewrite (to_string_concat p) in H0 end; congruence.
Qed.
Lemma marked_round E d p x k : a_round d p x -> marked E p k = draws E (round_calls d x) k.
Proof.
  intros (xs & -> & H). rewrite marked_app. cbn [marked]. generalize (round_calls d x) as ms, H, k. clear. intros ms H.
  induction H as [|y m xs ms (m' & -> & Hm) _ IH]; intros k; [reflexivity|]. cbn [marked draws]. rewrite (draw_forward E _ _ k Hm). apply IH.
Qed.

Lemma typing_row E s : forall k, Forall (one_column E) s -> line (pen k) < lines (ksize k) -> column (pen k) + length s < columns (ksize k) ->
  exists k', typing E s k = (k', true) /\ ksize k' = ksize k /\ brush k' = brush k /\ pen k' = Cursor (line (pen k)) (column (pen k) + length s) /\
    forall l c, ink k' l c = if (l =? line (pen k)) && (column (pen k) <=? c) && (c <? column (pen k) + length s)
                             then ([nth (c - column (pen k)) s 0%N], brush k) else ink k l c.
Proof.
  induction s as [|x s IH]; intros k Hs Hl Hc; cbn [length] in *.
  - exists k. cbn [typing length]. split; [reflexivity|]. split; [reflexivity|]. split; [reflexivity|]. split; [destruct (pen k); cbn; f_equal; lia|].
    intros l c. destruct (Nat.eqb_spec l (line (pen k))), (Nat.leb_spec (column (pen k)) c), (Nat.ltb_spec c (column (pen k) + 0)); cbn; try reflexivity; lia.
  - inversion Hs as [|? ? (W & Cb & N9 & N10 & N13) Hs']; subst. cbn [typing].
    assert (T : typed E x k = Some (set_pen (Cursor (line (pen k)) (column (pen k) + 1))
      (set_ink (fun l c => if (l =? line (pen k)) && (c =? column (pen k)) then ([x], brush k) else ink k l c) k))).
    { unfold typed. rewrite (proj2 (N.eqb_neq _ _) N13), (proj2 (N.eqb_neq _ _) N10), (proj2 (N.eqb_neq _ _) N9), Cb, W.
      unfold on_canvas. rewrite (proj2 (Nat.ltb_lt _ _) Hl), (proj2 (Nat.ltb_lt (column (pen k)) (columns (ksize k)))) by lia. cbn [andb].
      now rewrite (proj2 (Nat.ltb_lt (column (pen k) + 1) (columns (ksize k)))) by lia. }
    rewrite T. destruct (IH (set_pen (Cursor (line (pen k)) (column (pen k) + 1))
      (set_ink (fun l c => if (l =? line (pen k)) && (c =? column (pen k)) then ([x], brush k) else ink k l c) k)) Hs') as (k' & K1 & K2 & K3 & K4 & K5);
      [exact Hl|cbn; lia|]. cbn [set_pen set_ink ksize brush pen ink line column] in K2, K3, K4, K5.
    exists k'. split; [exact K1|]. split; [exact K2|]. split; [exact K3|]. split; [rewrite K4; f_equal; lia|].
    intros l c. rewrite K5.
    destruct (Nat.eqb_spec l (line (pen k))); cbn [andb]; [|reflexivity].
    destruct (Nat.eqb_spec c (column (pen k))) as [->|Hn]; cbn [andb].
    + destruct (Nat.leb_spec (column (pen k) + 1) (column (pen k))); [lia|]. cbn [andb]. rewrite Nat.leb_refl, Nat.sub_diag.
      destruct (Nat.ltb_spec (column (pen k)) (column (pen k) + S (length s))); [reflexivity|lia].
    + destruct (Nat.leb_spec (column (pen k) + 1) c), (Nat.leb_spec (column (pen k)) c); try lia; cbn [andb]; [|reflexivity].
      destruct (Nat.ltb_spec c (column (pen k) + 1 + length s)), (Nat.ltb_spec c (column (pen k) + S (length s))); try lia; [|reflexivity].
      replace (c - column (pen k)) with (S (c - (column (pen k) + 1))) by lia. reflexivity.
Qed.

Lemma typing_app E s1 : forall s2 k k1, typing E s1 k = (k1, true) -> typing E (s1 ++ s2) k = typing E s2 k1.
Proof.
  induction s1 as [|x s1 IH]; intros s2 k k1 H; cbn [typing app] in *; [injection H as <-; reflexivity|].
  destruct (typed E x k); [apply IH, H|discriminate H].
Qed.

(** One round. *)
Lemma round_draws E d x k : Forall (one_column E) opening -> Forall (one_column E) closing -> Forall (one_column E) (kname d) -> Forall (one_column E) x ->
  kline d < lines (ksize k) -> length (label d x) < columns (ksize k) -> brush k = Attrs None None 0%N ->
  let k' := draws E (round_calls d x) k in
  ksize k' = ksize k /\ brush k' = Attrs None None 0%N /\ pen k' = Cursor 0 0 /\
  forall l c, ink k' l c = if l =? kline d then match nth_error (label d x) c with Some q => q | None => ink k l c end else ink k l c.
Proof.
  intros Ho Hcl Hn Hx Hl Hc Hb.
  assert (Hlen : length (label d x) = 1 + (length (kname d) + (length closing + length x))).
  { unfold label. rewrite !app_length, !map_length, app_length. reflexivity. }
  cbn [draws round_calls draw where_]. unfold write. cbn [pick].
  set (k0 := set_pen (Cursor (kline d) 0) k).
  destruct (typing_row E opening k0) as (k1 & T1 & S1 & B1 & P1 & I1); [exact Ho|exact Hl|cbn [k0 set_pen pen column ksize length opening]; lia|].
  rewrite T1. cbn [fst]. cbn [k0 set_pen pen line column ksize brush ink] in S1, B1, P1, I1. change (length opening) with 1 in *.
  set (k2 := set_brush _ (set_brush _ k1)).
  assert (B2 : brush k2 = Attrs (Some (kcolor d)) None BOLD) by (cbn; rewrite B1, Hb; reflexivity).
  assert (P2 : pen k2 = Cursor (kline d) 1) by (cbn; rewrite P1; reflexivity).
  assert (S2 : ksize k2 = ksize k) by (cbn; exact S1).
  assert (I2 : ink k2 = ink k1) by reflexivity. clearbody k2. clear k0 T1.
  destruct (typing_row E (kname d) k2) as (k3 & T3 & S3 & B3 & P3 & I3); [exact Hn|rewrite P2, S2; exact Hl|rewrite P2, S2; cbn [column]; lia|].
  rewrite T3. cbn [fst]. rewrite P2 in P3, I3. cbn [line column] in P3, I3.
  set (k4 := set_brush _ k3).
  assert (B4 : brush k4 = Attrs None None 0%N) by reflexivity.
  assert (P4 : pen k4 = Cursor (kline d) (1 + length (kname d))) by exact P3.
  assert (S4 : ksize k4 = ksize k) by (cbn; congruence).
  assert (I4 : ink k4 = ink k3) by reflexivity. clearbody k4.
  destruct (typing_row E (closing ++ x) k4) as (k5 & T5 & S5 & B5 & P5 & I5);
    [apply Forall_app; now split|rewrite P4, S4; exact Hl|rewrite P4, S4, app_length; cbn [column]; lia|].
  replace (concat [closing; x; [10%N]]) with ((closing ++ x) ++ [10%N]) by (cbn [concat]; rewrite app_nil_r, <- app_assoc; reflexivity).
  rewrite (typing_app E _ [10%N] _ _ T5). cbn [typing]. unfold typed. cbn [N.eqb Pos.eqb]. cbn [fst set_pen ksize brush pen ink].
  split; [congruence|]. split; [congruence|]. split; [reflexivity|].
  intros l c. rewrite I5, P4, B4, I4, I3, B2, I2, I1, Hb. cbn [line column].
  destruct (Nat.eqb_spec l (kline d)) as [->|Hne]; cbn [andb]; [|reflexivity].
  unfold label. change (map plain [91%N]) with [plain 91%N]. change ([93; 58; 32; 114; 97; 110; 100; 111; 109; 32; 111; 117; 116; 112; 117; 116; 58; 32]%N) with closing.
  destruct c as [|c]; [reflexivity|]. cbn [nth_error app].
  assert (Hnth : forall (A : Type) (f : N -> A) s j, nth_error (map f s) j = if j <? length s then Some (f (nth j s 0%N)) else None).
  { clear. intros A f s. induction s as [|y s IH]; intros [|j]; cbn; try reflexivity. exact (IH j). }
  destruct (Nat.lt_ge_cases c (length (kname d))) as [Hlt|Hge].
  - rewrite nth_error_app1 by (rewrite map_length; exact Hlt). rewrite Hnth, (proj2 (Nat.ltb_lt _ _) Hlt).
    destruct (Nat.leb_spec (1 + length (kname d)) (S c)); [lia|]. cbn [andb]. change (1 <=? S c) with true. cbn [andb].
    rewrite (proj2 (Nat.ltb_lt (S c) (1 + length (kname d)))) by lia. replace (S c - 1) with c by lia. reflexivity.
  - rewrite nth_error_app2 by (rewrite map_length; exact Hge). rewrite map_length, Hnth.
    destruct (Nat.leb_spec (1 + length (kname d)) (S c)); [|lia]. cbn [andb].
    replace (S c - (1 + length (kname d))) with (c - length (kname d)) by lia.
    destruct (Nat.ltb_spec (S c) (1 + length (kname d) + length (closing ++ x))), (Nat.ltb_spec (c - length (kname d)) (length (closing ++ x))); try lia; [reflexivity|].
    rewrite (proj2 (Nat.ltb_ge (S c) (1 + length (kname d)))) by lia. rewrite andb_false_r. reflexivity.
Qed.
