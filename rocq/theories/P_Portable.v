(** Proofs about keys on Unix and Windows (C134). *)
From Verif Require Import Base M_Utf8 S_Utf8 M_Geom M_Seq S_Seq M_Signal M_Util M_Input S_Input M_Writer M_Prepare M_Reader S_Reader
  M_WinWriter M_WinReader S_WinReader P_WinInput P_WinReader.
From Verif Require S_Typing P_Typing.
From Verif Require Import S_Portable.
Local Open Scope N_scope.

(** What stays as it was while nothing but records and time comes. *)
Definition like (s s' : wsys) : Prop :=
  wcalm s' /\ w_rd s' = w_rd s /\ records s' = records s.

Definition recs (l : list wtick) : list record := flat_map (fun t => match t with WRec r => [r] | _ => [] end) l.
Lemma brings_recs c r l : Forall wcalm_tick l -> brings c r l = recs l.
Proof. induction 1 as [|t l H _ IH]; [reflexivity|]. destruct t; cbn [brings recs flat_map app wcalm_tick] in *; try contradiction; try exact IH. now rewrite IH. Qed.
Lemma records_recs s : wcalm s -> records s = w_queue s ++ recs (w_time s).
Proof. intros (_ & _ & H). unfold records. now rewrite brings_recs. Qed.

(** The parts that matter, for a state whose future is being gone through. *)
Definition same (q : list record) (s s' : wsys) : Prop :=
  w_failing s' = None /\ w_last s' = w_last s /\ w_rd s' = w_rd s /\ Forall wcalm_tick (w_time s') /\
  w_queue s' ++ recs (w_time s') = q.

Lemma pass_same l : forall s, Forall wcalm_tick l -> w_failing s = None -> same (w_queue s ++ recs l) s (wpass l s).
Proof.
  induction l as [|t l IH]; intros s H Hf; [cbn; repeat split; auto|].
  inversion H as [|? ? Ht Hl]; subst. destruct t; cbn [wpass wcalm_tick] in *; try contradiction.
  - specialize (IH (whappens (WRec r) s) Hl Hf). cbn in IH |- *. rewrite <- app_assoc in IH. exact IH.
  - exact (IH s Hl Hf).
  - cbn. repeat split; auto.
Qed.

Lemma await_same l : forall s, Forall wcalm_tick l -> w_failing s = None -> w_queue s ++ recs l <> [] ->
  same (w_queue s ++ recs l) s (fst (wawait None l s)) /\ snd (wawait None l s) = XReady /\ w_queue (fst (wawait None l s)) <> [].
Proof.
  induction l as [|t l IH]; intros s H Hf Hn.
  - cbn in Hn. rewrite app_nil_r in Hn. unfold wawait. rewrite Hf.
    destruct (w_queue s) as [|r q] eqn:Hq; [congruence|]. unfold same. cbn. rewrite Hq. repeat split; auto; try discriminate.
  - cbn [wawait]. rewrite Hf. destruct (w_queue s) as [|r q] eqn:Hq.
    + inversion H as [|? ? Ht Hl]; subst. destruct t; cbn [wcalm_tick] in Ht; try contradiction.
      * pose proof (IH (whappens (WRec r) s) Hl Hf) as I. cbn [whappens w_queue with_wqueue] in I. rewrite Hq in I. cbn [app] in I.
        unfold whappens. rewrite Hq. apply I. discriminate.
      * pose proof (IH s Hl Hf) as I. rewrite Hq in I. exact (I Hn).
      * pose proof (IH (whappens WStep s) Hl Hf) as I. cbn [whappens] in I. rewrite Hq in I. exact (I Hn).
    + unfold same. cbn. rewrite Hq. repeat split; auto; try discriminate.
Qed.

Lemma advance_same s : wcalm s -> same (records s) s (wadvance s).
Proof. intros H. rewrite (records_recs s H). destruct H as (Hf & _ & Ht). now apply pass_same. Qed.

Lemma same_trans q s s1 s2 : same q s s1 -> same q s1 s2 -> same q s s2.
Proof. intros (A1 & A2 & A3 & A4 & A5) (B1 & B2 & B3 & B4 & B5). repeat split; congruence || auto. Qed.
Lemma same_calm q s s' : unreported s = [] -> same q s s' -> wcalm s' /\ records s' = q.
Proof.
  intros Hu (A1 & A2 & A3 & A4 & A5).
  assert (C : wcalm s'). { split; [exact A1|]. split; [|exact A4]. unfold unreported in *. now rewrite A2. }
  split; [exact C|]. rewrite records_recs by exact C. exact A5.
Qed.
Lemma quiet_conv s : unreported s = [] -> win_conv_signal (w_last s) = None.
Proof. unfold unreported. destruct (win_conv_signal (w_last s)); [discriminate|auto]. Qed.

Lemma read_one E s r rest : wcalm s -> records s = r :: rest ->
  exists s' e, win_read_event E None s = Ret s' (Some e, [r]) /\ wcalm s' /\ records s' = rest /\
    forall k, e = EKey k <-> key_press_event r = Some k.
Proof.
  intros Hc Hr. pose proof Hc as (Hf & Hu & Ht).
  unfold win_read_event, win_read_raw_event, win_wait_event, win_get_signal.
  pose proof (advance_same s Hc) as A1. destruct (same_calm _ _ _ Hu A1) as [C1 R1].
  set (s1 := wadvance s) in *. clearbody s1.
  rewrite (quiet_conv s1) by apply C1. cbn [as_millis]. unfold wait_for_single_object.
  change (if INFINITE =? INFINITE then None else Some INFINITE) with (@None N).
  pose proof (advance_same s1 C1) as A2. destruct (same_calm _ _ _ (proj1 (proj2 C1)) A2) as [C2 R2]. rewrite R1 in R2.
  set (s2 := wadvance s1) in *. clearbody s2.
  destruct (await_same (w_time s2) s2) as (A3 & X3 & Q3); [apply C2|apply C2| |].
  { rewrite <- records_recs by exact C2. rewrite R2, Hr. discriminate. }
  rewrite <- records_recs in A3 by exact C2. destruct (same_calm _ _ _ (proj1 (proj2 C2)) A3) as [C3 R3]. rewrite R2 in R3.
  destruct (wawait None (w_time s2) s2) as [s3 w] eqn:W. cbn [fst snd] in *. subst w. clear A3 Q3. cbn [obind negb].
  unfold win_take_signal.
  pose proof (advance_same s3 C3) as A4. destruct (same_calm _ _ _ (proj1 (proj2 C3)) A4) as [C4 R4]. rewrite R3 in R4.
  set (s4 := wadvance s3) in *. clearbody s4. rewrite (quiet_conv s4) by apply C4.
  assert (C5 : wcalm (with_wlast NO_SIGNAL s4)) by (split; [apply C4|split; [reflexivity|apply C4]]).
  assert (R5 : records (with_wlast NO_SIGNAL s4) = records s) by (rewrite <- R4; reflexivity).
  set (s5 := with_wlast NO_SIGNAL s4) in *. clearbody s5. unfold read_console_input.
  pose proof (advance_same s5 C5) as A6. destruct (same_calm _ _ _ (proj1 (proj2 C5)) A6) as [C6 R6]. rewrite R5 in R6.
  set (s6 := wadvance s5) in *. clearbody s6. change (to_dword 1 =? 0) with false. cbn match.
  destruct (await_same (w_time s6) s6) as (A7 & X7 & Q7); [apply C6|apply C6| |].
  { rewrite <- records_recs by exact C6. rewrite R6, Hr. discriminate. }
  rewrite <- records_recs in A7 by exact C6. destruct (same_calm _ _ _ (proj1 (proj2 C6)) A7) as [C7 R7]. rewrite R6 in R7.
  destruct (wawait None (w_time s6) s6) as [s7 w] eqn:W7. cbn [fst snd] in *. subst w. clear A7.
  destruct (w_queue s7) as [|r' q] eqn:Q; [congruence|].
  assert (r' = r /\ q ++ recs (w_time s7) = rest) as [-> Hrest].
  { rewrite records_recs, Q, Hr in R7 by exact C7. cbn in R7. injection R7 as <- <-. auto. }
  change (N.to_nat (to_dword 1)) with 1%nat. cbn [length Nat.min firstn skipn obind].
  set (s8 := with_wqueue q s7).
  assert (C8 : wcalm s8) by (split; [apply C7|split; apply C7]).
  assert (R8 : records s8 = rest) by (rewrite records_recs by exact C8; exact Hrest).
  destruct (decode_ok E r s8) as (rd & e & De & Dd & _). replace (Nat.min 1 (length q)) with (Nat.min 1 (length q)) by reflexivity.
  cbn [firstn]. rewrite De. cbn [obind].
  exists (with_rd rd s8), e. split; [reflexivity|]. split; [split; [apply C8|split; apply C8]|]. split; [exact R8|].
  intros k. unfold decoded in Dd. destruct (key_press_event r) as [k'|].
  - destruct Dd as [_ ->]. split; congruence.
  - destruct Dd as (mo & _ & ->). destruct mo; [split; discriminate|]. destruct (size_event E r); split; discriminate.
Qed.

Lemma beside_no_key r : beside r -> key_press_event r = None.
Proof.
  destruct r as [down vk ctl u| | |]; try reflexivity. intros [->|[Hv ->]]; [reflexivity|].
  destruct down; [|reflexivity]. destruct (key_record true vk ctl 0) as (_ & _ & K); [lia|].
  destruct (K eq_refl Hv) as (_ & K0 & _). auto.
Qed.
Lemma press_key p r : win_press p r -> exists k, meant p = EKey k /\ key_press_event r = Some k.
Proof.
  intros H. inversion H as [c vk ctl Hc Hn Hs Hv Ha Hk|l vk ctl Hl Hv Ha Hk|k vk ctl u Hi Hu]; subst.
  - exists (KChar c). split; [reflexivity|]. now apply typed_bmp.
  - exists (KCtrl l). split; [reflexivity|].
    assert (Hx : l = 97 \/ l = 98 \/ l = 99 \/ l = 100 \/ l = 101 \/ l = 102 \/ l = 103 \/ l = 104 \/ l = 105 \/ l = 106 \/
      l = 107 \/ l = 108 \/ l = 109 \/ l = 110 \/ l = 111 \/ l = 112 \/ l = 113 \/ l = 114 \/ l = 115 \/ l = 116 \/ l = 117 \/
      l = 118 \/ l = 119 \/ l = 120 \/ l = 121 \/ l = 122) by lia.
    unfold key_press_event. cbn [negb]. rewrite (vk_other vk Hv), has_alt_bits, Ha, has_ctrl_bits, Hk. cbn iota.
    clear -Hx. repeat (destruct Hx as [->|Hx]; [reflexivity|]). now subst.
  - exists k. split; [reflexivity|]. destruct (key_record true vk ctl u Hu) as (_ & K & _). auto.
Qed.

Lemma rop_read E s s' e r : win_read_event E None s = Ret s' (Some e, [r]) -> rop E (REvent None) s = Ret s' (RGot (Some e) [r]).
Proof. intros H. unfold rop. now rewrite H. Qed.

Lemma windows_typed E l rs : win_types l rs -> forall s, wcalm s -> records s = rs ->
  exists s' ans, run_wr E (repeat (REvent None) (length rs)) s = Some (s', ans) /\
    flat_map key_told ans = map meant l /\ records s' = [] /\ wcalm s'.
Proof.
  induction 1 as [|l r rs Hb Hw IH|p l r rs Hp Hw IH]; intros s Hc Hr.
  - exists s, []. auto.
  - destruct (read_one E s r rs Hc Hr) as (s1 & e & R & C1 & R1 & K). destruct (IH s1 C1 R1) as (s' & ans & R' & M & Q & C').
    exists s', (RGot (Some e) [r] :: ans). cbn [length repeat run_wr]. rewrite (rop_read _ _ _ _ _ R), R'.
    split; [reflexivity|]. split; [|auto]. rewrite (beside_no_key r Hb) in K.
    destruct e; cbn [flat_map key_told app]; try exact M. destruct (K k) as [K1 _]. now specialize (K1 eq_refl).
  - destruct (read_one E s r rs Hc Hr) as (s1 & e & R & C1 & R1 & K). destruct (IH s1 C1 R1) as (s' & ans & R' & M & Q & C').
    exists s', (RGot (Some e) [r] :: ans). cbn [length repeat run_wr]. rewrite (rop_read _ _ _ _ _ R), R'.
    split; [reflexivity|]. split; [|auto]. destruct (press_key p r Hp) as (k & Mk & Kk).
    destruct (K k) as [_ K2]. rewrite (K2 Kk). cbn [flat_map key_told app map]. now rewrite M, Mk.
Qed.

Lemma letter_key c : 32 <= c -> c <> 127 -> key_from_char c = KChar c.
Proof.
  intros Hc Hn. unfold key_from_char.
  destruct (N.eqb_spec c 0x1b); [lia|]. destruct (N.eqb_spec c 0x7f); [lia|].
  destruct (N.eqb_spec c 13); [lia|]. destruct (N.eqb_spec c 10); [lia|]. destruct (N.eqb_spec c 9); [lia|]. cbn.
  destruct (is_ctrl c) eqn:I; [|reflexivity]. unfold is_ctrl, CTRL_MASK in I.
  apply N.eqb_eq in I. change 0x1f with (N.ones 5) in I. rewrite N.land_ones in I.
  assert (c mod 2 ^ 5 < 2 ^ 5) by (apply N.mod_lt; discriminate). change (2 ^ 5) with 32 in *. lia.
Qed.

Lemma unix_means p a : unix_press p a -> portable p -> S_Typing.heard a = meant p.
Proof.
  intros H Hp. inversion H as [c Hc Hn|l Hl| | | | |q k]; subst; try reflexivity.
  - cbn. now rewrite letter_key.
  - cbn. unfold portable, shares_a_character in Hp.
    assert (Hx : l = 97 \/ l = 98 \/ l = 99 \/ l = 100 \/ l = 101 \/ l = 102 \/ l = 103 \/ l = 104 \/
      l = 107 \/ l = 108 \/ l = 110 \/ l = 111 \/ l = 112 \/ l = 113 \/ l = 114 \/ l = 115 \/ l = 116 \/ l = 117 \/
      l = 118 \/ l = 119 \/ l = 120 \/ l = 121 \/ l = 122) by lia.
    clear -Hx. repeat (destruct Hx as [->|Hx]; [reflexivity|]). now subst.
Qed.
Lemma unix_means_all l acts : Forall2 unix_press l acts -> Forall portable l -> map S_Typing.heard acts = map meant l.
Proof.
  induction 1 as [|p a l acts H _ IH]; intros F; [reflexivity|]. inversion F; subst. cbn. rewrite IH by assumption.
  f_equal. now apply unix_means.
Qed.

Lemma same_events C m : key_map m -> (forall c n, (n <= grow C c n)%nat) ->
  forall E l s acts w,
    Forall portable l ->
    calm s -> inbuf s = [] -> S_Typing.arriving m [] (portions s) acts -> Forall2 unix_press l acts ->
    wcalm w -> win_types l (records w) ->
    exists n s' es n' w' ans,
      rrun C m (repeat (RRead None) n) s = Some (s', map YEvent es) /\ S_Reader.stream s' = [] /\
      run_wr E (repeat (REvent None) n') w = Some (w', ans) /\ records w' = [] /\
      S_Typing.somes es = map meant l /\ flat_map key_told ans = map meant l.
Proof.
  intros Hm Hg E l s acts w Hp Hc Hi Ha Hu Hw Ht.
  destruct (P_Typing.typed_is_read C m Hm Hg (portions s) [] acts Ha (or_introl eq_refl) s Hc Hi eq_refl)
    as (n & s' & es & R & S & _ & Q & _).
  destruct (windows_typed E l _ Ht w Hw eq_refl) as (w' & ans & R' & M & Q' & _).
  exists n, s', es, (length (records w)), w', ans. rewrite S, (unix_means_all l acts Hu Hp). auto 10.
Qed.

Lemma shared_differ l a r : shares_a_character l -> unix_press (WithCtrl l) a -> win_press (WithCtrl l) r ->
  exists k, S_Typing.heard a = EKey k /\ key_press_event r = Some (KCtrl l) /\ k = (if l =? 105 then KTab else KEnter).
Proof.
  intros Hl Ha Hr. destruct (press_key _ _ Hr) as (k & Mk & Kk). cbn in Mk. injection Mk as <-.
  inversion Ha; subst. unfold shares_a_character in Hl.
  destruct Hl as [->|[->| ->]]; eexists; (split; [reflexivity|]); split; auto.
Qed.
