(** Proofs about what typed keys come to after [prepare]. *)
From Verif Require Import Base M_Utf8 S_Utf8 M_Geom M_Seq S_Seq M_Attr M_Signal M_Util M_Input S_Input M_Writer S_Writer
  M_Prepare S_Prepare M_Reader S_Reader P_Prepare P_Prepare2 P_Reader P_Reader2 P_Reader3 S_Typing P_Typing
  M_WinWriter M_WinReader S_WinReader P_WinReader P_WinInput P_WinPrepare P_Input S_Driver.
Local Open Scope N_scope.

Lemma plain_prepared cfg t t' : prepared cfg t t' -> plain t -> plain t'.
Proof.
  intros (_ & _ & _ & _ & _ & _ & _ & _ & _ & _ & _ & H & _) (A & B & D). unfold plain, bit in *.
  rewrite !H by (vm_compute; discriminate). auto.
Qed.

Lemma driver_prepared k cfg t t' b : prepared cfg t t' -> plain t -> driver k t' b = configured k cfg b.
Proof.
  intros Hp Hq. destruct (plain_prepared _ _ _ Hp Hq) as (A & B & D).
  destruct Hp as (H1 & _ & H3 & H4 & H5 & H6 & _). unfold driver, configured.
  rewrite A, D, B, H1, H3, H4, H5, H6. cbn [andb]. rewrite !andb_false_r.
  destruct (enable_control_flow cfg && (is_special b (vstart k) || is_special b (vstop k))); [reflexivity|].
  destruct (block_signals cfg); cbn [negb andb]; reflexivity.
Qed.

Lemma as_configured C cfg s s' st chars : prepare C cfg s = Ret s' st -> plain (tio s) ->
  forall b, driver (chars (others (tio s'))) (tio s') b = configured (chars (others (tio s))) cfg b.
Proof.
  intros H Hq b. apply prepare_exact in H as (H & _ & _).
  assert (Ho : others (tio s') = others (tio s)) by apply H.
  rewrite Ho. eapply driver_prepared; eauto.
Qed.

(** ** Text *)
Lemma types_given k t bs l : types k t bs l -> (forall b, driver k t b = Gives b) ->
  concat (inputs l) = bs /\ Forall (fun p => p <> []) (inputs l) /\ Forall calm_tick l.
Proof.
  intros H G. induction H as [|x bs l Hx H IH|ty p bs l Hp Hf H IH|b n bs l Hb H IH|b bs l Hb H IH].
  - repeat split; constructor.
  - destruct IH as (A & B & D). destruct x; cbn in Hx; try (destruct Hx; fail); cbn [inputs]; repeat split; auto; constructor; cbn; auto.
  - destruct IH as (A & B & D). cbn [inputs concat].
    assert (ty = p) as ->.
    { clear -Hf G. induction Hf as [|b c x y Hbc _ IH]; [reflexivity|]. rewrite G in Hbc. injection Hbc as <-. now rewrite IH. }
    split; [now rewrite A|]. split; constructor; cbn; auto.
  - rewrite G in Hb. discriminate Hb.
  - rewrite G in Hb. destruct Hb; discriminate.
Qed.

Lemma all_given C cfg s s' st chars : prepare C cfg s = Ret s' st -> plain (tio s) ->
  block_signals cfg = true -> enable_control_flow cfg = false ->
  forall b, driver (chars (others (tio s'))) (tio s') b = Gives b.
Proof.
  intros H Hq Hb Hf b. rewrite (as_configured C cfg s s' st chars H Hq). unfold configured. now rewrite Hb, Hf.
Qed.

Lemma typed_text C m cfg s s' st chars text : key_map m -> (forall c n, (n <= grow C c n)%nat) ->
  prepare C cfg s = Ret s' st -> plain (tio s) -> block_signals cfg = true -> enable_control_flow cfg = false ->
  inbuf s = [] -> queue s = [] -> failing s = None -> conv_signal (last_sig s) = None ->
  Forall (fun c => scalar c /\ begins_nothing m c) text ->
  types (chars (others (tio s'))) (tio s') (utf8s text) (time s) ->
  exists n s2 es, rrun C m (repeat (RRead None) n) s' = Some (s2, map YEvent es) /\
    somes es = map (fun c => EKey (key_from_char c)) text /\ stream s2 = [].
Proof.
  intros Hm Hg Hp Hq Hb Hf Hi Hqu Hfa Hl Ht Hty.
  pose proof (all_given C cfg s s' st chars Hp Hq Hb Hf) as G.
  destruct (types_given _ _ _ _ Hty G) as (A & B & D).
  apply prepare_ret in Hp as ((Q1 & _ & Q3 & Q4 & Q5 & _ & Q7) & _).
  destruct (text_arrives C m Hm Hg text s' Ht) as (n & s2 & es & R1 & R2 & R3 & _).
  - unfold calm. rewrite Q5, Q3, Q7. auto.
  - now rewrite Q1.
  - unfold portions. rewrite Q4, Hqu, Q7. exact B.
  - unfold portions. rewrite Q4, Hqu, Q7. symmetry. exact A.
  - eauto 6.
Qed.

(** ** Signals *)

Lemma raises_typed k cfg b n sig : configured k cfg b = Raises n -> conv_signal n = Some sig -> typed_signal sig.
Proof.
  unfold configured, typed_signal. destruct (_ && _); [discriminate|]. destruct (block_signals cfg); [discriminate|].
  destruct (is_special b (vintr k)); [intros [= <-] [= <-]; auto|].
  destruct (is_special b (vquit k)); [intros [= <-] [= <-]; auto|].
  destruct (is_special b (vsusp k)); [intros [= <-] [= <-]; auto|]. discriminate.
Qed.

Lemma handle_typed C sig s : typed_signal sig ->
  handle_signal C sig s = Ret s (if ss_contains (report s) sig then Some (ESignal sig) else None).
Proof. intros [->|[->| ->]]; cbn [handle_signal]; unfold report_signal; destruct (ss_contains _ _); reflexivity. Qed.

Lemma told_before C m t s n sig l : inbuf s = [] -> disp s n = Ours -> conv_signal n = Some sig -> typed_signal sig ->
  time s = TSig n :: TStep :: l ->
  exists s2, read_event C m t s = Ret s2 (if ss_contains (report s) sig then Some (ESignal sig) else None) /\
    last_sig s2 = 0 /\ disp s2 = disp s /\ time s2 = l.
Proof.
  intros Hi Hd Hn Ht Hti.
  assert (Ha : advance s = with_time l (with_last n s)).
  { unfold advance. rewrite Hti. cbn [pass happens]. rewrite Hd. reflexivity. }
  destruct (read_signal C m t s sig) as (cap & E).
  - unfold try_read. now rewrite Hi.
  - rewrite Ha. exact Hn.
  - rewrite E, Ha, (handle_typed C sig _ Ht). cbn [report with_inbuf with_last with_time].
    eexists. split; [reflexivity|]. repeat split.
Qed.

Lemma await_idle_all l : forall r s, Forall idle_tick l -> failing s = None -> queue s = [] ->
  exists s', await None (l ++ r) s = await None r s' /\
    failing s' = None /\ queue s' = [] /\ disp s' = disp s /\ report s' = report s.
Proof.
  induction l as [|k l IH]; intros r s Hl Hf Hq; [exists s; auto 10|].
  inversion Hl as [|? ? Hk Hl']; subst.
  assert (E : await None ((k :: l) ++ r) s = await None (l ++ r) (happens k s)).
  { cbn [app await]. rewrite Hf, Hq. destruct k; cbn in Hk; try contradiction; reflexivity. }
  rewrite E. destruct (IH r (happens k s)) as (s' & E' & A & B & D & R); auto;
    try (destruct k; cbn in Hk; try contradiction; assumption).
  exists s'. rewrite E'. split; [reflexivity|]. rewrite D, R. destruct k; cbn in Hk; try contradiction; auto.
Qed.

Lemma told_asleep C m s idle n sig l : inbuf s = [] -> queue s = [] -> failing s = None -> conv_signal (last_sig s) = None ->
  disp s n = Ours -> conv_signal n = Some sig -> typed_signal sig -> Forall idle_tick idle ->
  time s = TStep :: TStep :: TStep :: idle ++ TSig n :: TStep :: TStep :: l ->
  exists s2, read_event C m None s = Ret s2 (if ss_contains (report s) sig then Some (ESignal sig) else None) /\
    last_sig s2 = 0 /\ time s2 = l.
Proof.
  intros Hi Hqu Hfa Hl Hd Hn Ht Hid Hti. unfold read_event, try_read. rewrite Hi. cbn [obind].
  unfold read_into_buffer, read_input, take_signal, advance. rewrite Hi. cbn [time with_inbuf]. rewrite Hti. cbn [pass].
  cbn [last_sig with_time with_inbuf]. rewrite Hl. cbv zeta.
  match goal with |- context [wait_event m None ?z] => set (s1 := z) end.
  assert (Hc1 : conv_signal (last_sig s1) = None) by reflexivity.
  unfold wait_event, get_signal, advance. cbn [time s1 with_time with_last with_inbuf pass last_sig].
  replace (conv_signal 0) with (@None signal) by reflexivity.
  unfold peek. cbn [inbuf with_time with_last with_inbuf]. change (peek_event (inbuf s1) m) with (Val PNone). cbn [obind].
  unfold turns. cbn [wait_loop]. unfold select, advance. cbn [time with_time pass].
  match goal with |- context [await None (idle ++ ?r) ?z] => destruct (await_idle_all idle r z Hid Hfa Hqu) as (s3 & E & F1 & F2 & F4 & F5) end.
  rewrite E. cbn [await]. rewrite F1, F2, F4. cbn [disp with_time with_last with_inbuf].
  change (disp s1 n) with (disp s n). rewrite Hd.
  unfold get_signal, advance. cbn [time with_time with_last pass last_sig]. rewrite Hn. cbn [obind negb].
  cbn [time with_time with_last pass last_sig]. rewrite Hn. cbn [obind].
  rewrite (handle_typed C sig _ Ht). cbn [report with_inbuf with_last with_time]. rewrite F5.
  eexists. split; [reflexivity|]. repeat split.
Qed.

Lemma handled_sig cfg n sig : conv_signal n = Some sig -> typed_signal sig ->
  handled cfg n = ss_contains (report_signals cfg) sig.
Proof.
  unfold conv_signal, typed_signal, handled. intros H Ht.
  destruct (N.eqb_spec n SIGCONT) as [->|]; [injection H as <-; destruct Ht as [|[|]]; discriminate|].
  destruct (N.eqb_spec n SIGINT) as [->|]; [injection H as <-; generalize (ss_contains (report_signals cfg)); intros f; destruct (f Interrupt), (f Suspend), (f Quit); reflexivity|].
  destruct (N.eqb_spec n SIGQUIT) as [->|]; [injection H as <-; generalize (ss_contains (report_signals cfg)); intros f; destruct (f Interrupt), (f Suspend), (f Quit); reflexivity|].
  destruct (N.eqb_spec n SIGTSTP) as [->|]; [injection H as <-; generalize (ss_contains (report_signals cfg)); intros f; destruct (f Interrupt), (f Suspend), (f Quit); reflexivity|].
  destruct (N.eqb_spec n SIGWINCH) as [->|]; [injection H as <-; destruct Ht as [|[|]]; discriminate|discriminate].
Qed.

Lemma signal_told C m cfg s s' st n sig : prepare C cfg s = Ret s' st -> inbuf s = [] ->
  conv_signal n = Some sig -> typed_signal sig -> ss_contains (report_signals cfg) sig = true ->
  (forall t l, time s = TSig n :: TStep :: l -> exists s2, read_event C m t s' = Ret s2 (Some (ESignal sig)) /\ time s2 = l) /\
  (forall idle l, Forall idle_tick idle -> queue s = [] -> failing s = None -> conv_signal (last_sig s) = None ->
     time s = TStep :: TStep :: TStep :: idle ++ TSig n :: TStep :: TStep :: l ->
     exists s2, read_event C m None s' = Ret s2 (Some (ESignal sig)) /\ time s2 = l).
Proof.
  intros Hp Hi Hn Ht Hr. apply prepare_ret in Hp as ((Q1 & _ & Q3 & Q4 & Q5 & _ & Q7) & _ & D & R & _).
  assert (Hd : disp s' n = Ours) by (rewrite D, (handled_sig cfg n sig Hn Ht), Hr; reflexivity). split.
  - intros t l Hl. destruct (told_before C m t s' n sig l) as (s2 & E & _ & _ & T); auto; try congruence.
    rewrite R, Hr in E. eauto.
  - intros idle l Hid Hq Hf Hc Hl. destruct (told_asleep C m s' idle n sig l) as (s2 & E & _ & T); auto; try congruence.
    rewrite R, Hr in E. eauto.
Qed.

Lemma key_signal C m cfg s s' st chars b n sig : prepare C cfg s = Ret s' st -> plain (tio s) -> inbuf s = [] ->
  configured (chars (others (tio s))) cfg b = Raises n -> conv_signal n = Some sig ->
  driver (chars (others (tio s'))) (tio s') b = Raises n /\
  (ss_contains (report_signals cfg) sig = true ->
     (forall t l, time s = TSig n :: TStep :: l -> exists s2, read_event C m t s' = Ret s2 (Some (ESignal sig)) /\ time s2 = l) /\
     (forall idle l, Forall idle_tick idle -> queue s = [] -> failing s = None -> conv_signal (last_sig s) = None ->
        time s = TStep :: TStep :: TStep :: idle ++ TSig n :: TStep :: TStep :: l ->
        exists s2, read_event C m None s' = Ret s2 (Some (ESignal sig)) /\ time s2 = l)) /\
  (ss_contains (report_signals cfg) sig = false -> disp s' n = disp s n).
Proof.
  intros Hp Hq Hi Hb Hn. pose proof (raises_typed _ _ _ _ _ Hb Hn) as Ht.
  split; [rewrite (as_configured C cfg s s' st chars Hp Hq); exact Hb|]. split.
  - intros Hr. eapply signal_told; eauto.
  - intros Hr. apply prepare_exact in Hp as (_ & D & _). rewrite D, (handled_sig cfg n sig Hn Ht), Hr. reflexivity.
Qed.

(** After a nested [prepare] that does not report the signal has been undone. *)
Lemma nested_swallows C m outer inner s0 s1 st1 s2 st2 s3 u chars b n sig :
  prepare C outer s0 = Ret s1 st1 -> prepare C inner s1 = Ret s2 st2 -> restore C st2 s2 = Ret s3 u ->
  plain (tio s0) -> configured (chars (others (tio s0))) outer b = Raises n -> conv_signal n = Some sig ->
  ss_contains (report_signals outer) sig = true -> ss_contains (report_signals inner) sig = false ->
  driver (chars (others (tio s3))) (tio s3) b = Raises n /\ disp s3 n = Ours /\
  (inbuf s0 = [] -> forall t l, time s0 = TSig n :: TStep :: l ->
     exists s4, read_event C m t s3 = Ret s4 None /\ last_sig s4 = 0 /\ time s4 = l).
Proof.
  intros H1 H2 H3 Hq Hb Hn Ho Hi. pose proof (raises_typed _ _ _ _ _ Hb Hn) as Ht.
  pose proof (as_configured C outer s0 s1 st1 chars H1 Hq) as Hc.
  apply prepare_ret in H1 as ((A1 & _ & A3 & A4 & A5 & _ & A7) & _ & D1 & _).
  apply prepare_ret in H2 as ((B1 & _ & B3 & B4 & B5 & _ & B7) & T2 & D2 & R2 & _ & O2 & Oc & Ow & Oi & Ot & Oq & _).
  apply restore_ret in H3 as ((G1 & _ & G3 & G4 & G5 & _ & G7) & T3 & _ & R3 & D3).
  assert (Hd : disp s3 n = Ours).
  { assert (X : disp s1 n = Ours) by (rewrite D1, (handled_sig outer n sig Hn Ht), Ho; reflexivity).
    assert (Y : disp s2 n = disp s1 n) by (rewrite D2, (handled_sig inner n sig Hn Ht), Hi; reflexivity).
    rewrite D3, Y.
    destruct (N.eqb_spec n SIGCONT) as [->|]; [injection Hn as <-; destruct Ht as [|[|]]; discriminate|].
    destruct (N.eqb_spec n SIGINT) as [->|]; [injection Hn as <-; rewrite Oi, Hi; exact X|].
    destruct (N.eqb_spec n SIGTSTP) as [->|]; [injection Hn as <-; rewrite Ot, Hi; exact X|].
    destruct (N.eqb_spec n SIGQUIT) as [->|]; [injection Hn as <-; rewrite Oq, Hi; exact X|].
    destruct (N.eqb_spec n SIGWINCH) as [->|]; [injection Hn as <-; destruct Ht as [|[|]]; discriminate|]. exact X. }
  split; [rewrite T3, O2, Hc; exact Hb|]. split; [exact Hd|].
  intros Hin t l Hl. destruct (told_before C m t s3 n sig l) as (s4 & E & L & _ & T); auto; try congruence.
  rewrite R3, R2, Hi in E. eauto.
Qed.

(** After the program was stopped, somebody changed the settings, and it was continued. *)
Lemma continued_configured C m t s s' e cfg chars : peek_event (inbuf s) m = Val PNone ->
  last_sig (advance s) = SIGCONT -> resume_cfg s = Some cfg -> read_event C m t s = Ret s' e -> plain (tio s) ->
  forall b, driver (chars (others (tio s'))) (tio s') b = configured (chars (others (tio s))) cfg b.
Proof.
  intros Hp Hl Hr H Hq b. destruct (signal_event C m t s Continue s' e Hp) as (_ & _ & G & _); [now rewrite Hl|exact H|].
  rewrite Hr in G. destruct G as (G & _). assert (Ho : others (tio s') = others (tio s)) by apply G.
  rewrite Ho. eapply driver_prepared; eauto.
Qed.

(** ** Windows *)
Lemma wos_call_ret {A} (ok : wsys -> wsres A) s s' a : wos_call ok s = Ret s' a -> exists o, ok (with_wos o s) = Ret s' a.
Proof.
  unfold wos_call. destruct (w_os s) as [|[e|] l] eqn:E; intros H; [|discriminate|eauto].
  exists []. destruct s. cbn in E. subst. exact H.
Qed.

Lemma win_prepare_ret cfg s s' st : win_prepare cfg s = Ret s' st ->
  w_mode s' = prepared_mode cfg (w_mode s) /\ w_last s' = w_last s /\ w_queue s' = w_queue s /\ w_failing s' = w_failing s /\
  w_time s' = w_time s /\
  (reports_ctrl cfg = true -> forall c, c < 2 -> caught (w_catch s') (w_regs s') c = ss_contains (report_signals cfg) (ctrl_signal c)).
Proof.
  unfold win_prepare. destruct (console_mode s) as [s1 old| | |] eqn:E1; cbn [obind]; try discriminate.
  apply wos_call_ret in E1 as (o1 & E1). injection E1 as <- <-.
  destruct (set_console_mode _ _) as [s2 u| | |] eqn:E2; cbn [obind]; try discriminate.
  apply wos_call_ret in E2 as (o2 & E2). injection E2 as <- _.
  rewrite intersects_ok, catch_signals_ok. destruct (reports_ctrl cfg) eqn:Er.
  - destruct (set_ctrl_handler true _) as [s3 u3| | |] eqn:E3; cbn [obind]; try discriminate.
    apply wos_call_ret in E3 as (o3 & E3). injection E3 as <- _. intros [= <- _].
    destruct (cfg_mouse cfg); repeat split; intros _ c Hc; apply (caught_ok cfg _ c Er Hc).
  - intros [= <- _]. destruct (cfg_mouse cfg); repeat split; discriminate.
Qed.

Lemma console_configured cfg s s' st w r : win_prepare cfg s = Ret s' st ->
  console (w_mode s') w r = configured_console cfg w r.
Proof.
  intros H. apply win_prepare_ret in H as (M & _). unfold console, configured_console. rewrite M, !prepared_bit. reflexivity.
Qed.

(** A caught control event that has been raised is told by the next [read_event]. *)
Lemma ctrl_told E t s c w l : caught (w_catch s) (w_regs s) c = true -> w_time s = WCtrl c w :: WStep :: WStep :: l ->
  exists s', win_read_event E t s = Ret s' (Some (ESignal (ctrl_signal c)), []) /\ w_time s' = l.
Proof.
  intros H T. destruct (raise_caught c w s H) as (A1 & A2 & A3 & _).
  assert (Hc : c < 2) by (unfold caught in H; lia).
  set (s2 := raise_ctrl c w s) in *.
  assert (Adv : wadvance s = with_wtime (WStep :: l) s2) by (unfold wadvance; rewrite T; reflexivity).
  assert (Adv2 : wadvance (with_wtime (WStep :: l) s2) = with_wtime l s2) by reflexivity.
  exists (with_wlast NO_SIGNAL (with_wtime l s2)). split; [|reflexivity].
  unfold win_read_event, win_read_raw_event, win_wait_event, win_get_signal. cbv zeta. rewrite Adv.
  cbn [w_last with_wtime]. rewrite A1, (conv_small c Hc). cbn [obind negb].
  unfold win_take_signal. cbv zeta. rewrite Adv2. cbn [w_last with_wtime]. rewrite A1, (conv_small c Hc). reflexivity.
Qed.

Lemma wawait_ready ms l s r q : w_failing s = None -> w_queue s = r :: q -> wawait ms l s = (with_wtime l s, XReady).
Proof. intros H1 H2. destruct l; cbn [wawait]; rewrite H1, H2; reflexivity. Qed.

(** A key that has been pressed is told by the next [read_event]. *)
Lemma key_told E s r k l : key_press_event r = Some k ->
  w_queue s = [] -> w_failing s = None -> win_conv_signal (w_last s) = None ->
  w_time s = WRec r :: WStep :: WStep :: WStep :: WStep :: l ->
  exists s', win_read_event E None s = Ret s' (Some (EKey k), [r]) /\ w_time s' = l.
Proof.
  intros Hk Hq Hf Hl T. destruct s as [rd ca la mo re q f o p ti]. cbn in Hq, Hf, Hl, T. subst.
  set (z := fun la q l => WSys rd ca la mo re q None o p l).
  assert (W : win_wait_event None (z la [] (WRec r :: WStep :: WStep :: WStep :: WStep :: l)) =
              Ret (z la [r] (WStep :: WStep :: l)) true).
  { unfold win_wait_event, win_get_signal, wadvance. cbn [w_time z wpass whappens with_wqueue app w_queue with_wtime w_last].
    rewrite Hl. cbn [as_millis]. unfold wait_for_single_object, wadvance. cbn [w_time wpass with_wtime].
    rewrite (wawait_ready _ _ _ r []) by reflexivity. reflexivity. }
  unfold win_read_event, win_read_raw_event. fold (z la [] (WRec r :: WStep :: WStep :: WStep :: WStep :: l)).
  rewrite W. cbn [obind negb]. unfold win_take_signal, wadvance. cbn [w_time z wpass with_wtime w_last]. rewrite Hl.
  unfold read_console_input, wadvance. cbn [w_time wpass with_wtime with_wlast]. change (to_dword 1 =? 0) with false. cbv iota.
  rewrite (wawait_ready _ _ _ r []) by reflexivity. cbv beta iota zeta.
  change (N.to_nat (to_dword 1)) with 1%nat.
  match goal with |- context [with_wtime ?a ?b] => set (z2 := with_wtime a b) end.
  change (w_queue z2) with [r]. cbn [Nat.min skipn firstn length obind]. unfold win_decode. rewrite Hk. cbn [obind].
  eexists. split; [reflexivity|]. reflexivity.
Qed.

Lemma ctrl_c_is_key r : is_ctrl_c r = true -> (forall down vk ctl u, r = KeyRec down vk ctl u -> u = 3) ->
  key_press_event r = Some (KCtrl 99).
Proof.
  intros H Hu. destruct r as [down vk ctl u| | |]; try discriminate H. cbn [is_ctrl_c] in H.
  destruct down; [|discriminate H]. specialize (Hu _ _ _ _ eq_refl). subst u.
  apply andb_prop in H as (H & Ha). apply andb_prop in H as (Hv & Hc). apply negb_true_iff in Ha. apply N.eqb_eq in Hv. subst vk.
  destruct (key_record true 0x43 ctl 3) as (_ & _ & G); [lia|].
  destruct (G eq_refl) as (_ & _ & _ & G4); [unfold other_vk; vm_compute; intuition discriminate|].
  destruct (G4 Ha Hc) as (l & El & _); [lia|]. unfold key_press_event in *. cbn [negb] in *.
  change (vk_key 67) with (@None key) in *. cbv iota in *. destruct (has_alt ctl); [discriminate El|].
  destruct (has_ctrl ctl); reflexivity.
Qed.

Lemma win_ctrl_c_key E cfg s s' st w r l : win_prepare cfg s = Ret s' st -> block_signals cfg = true ->
  is_ctrl_c r = true -> (forall down vk ctl u, r = KeyRec down vk ctl u -> u = 3) ->
  w_queue s = [] -> w_failing s = None -> win_conv_signal (w_last s) = None ->
  w_time s = console (w_mode s') w r ++ WStep :: WStep :: WStep :: WStep :: l ->
  exists s2, win_read_event E None s' = Ret s2 (Some (EKey (KCtrl 99)), [r]) /\ w_time s2 = l.
Proof.
  intros Hp Hb Hr Hu Hq Hf Hl Ht. rewrite (console_configured cfg s s' st w r Hp) in Ht.
  assert (Hc : configured_console cfg w r = [WRec r]).
  { unfold configured_console. rewrite Hb, Hr. destruct r as [down vk ctl u| | |]; try discriminate Hr. destruct down; [|discriminate Hr].
    cbn [is_ctrl_c is_break andb negb] in *. destruct (N.eqb_spec vk 0x43) as [->|]; [reflexivity|discriminate Hr]. }
  rewrite Hc in Ht. apply win_prepare_ret in Hp as (_ & P2 & P3 & P4 & P5 & _).
  apply (key_told E s' r (KCtrl 99) l); try congruence.
  all: try (now apply ctrl_c_is_key).
  rewrite P5. exact Ht.
Qed.

Lemma win_ctrl_c_signal E cfg s s' st w r t l : win_prepare cfg s = Ret s' st -> block_signals cfg = false ->
  ss_contains (report_signals cfg) Interrupt = true -> is_ctrl_c r = true ->
  w_time s = console (w_mode s') w r ++ WStep :: WStep :: l ->
  exists s2, win_read_event E t s' = Ret s2 (Some (ESignal Interrupt), []) /\ w_time s2 = l.
Proof.
  intros Hp Hb Hi Hr Ht. rewrite (console_configured cfg s s' st w r Hp) in Ht.
  assert (Hc : configured_console cfg w r = [WCtrl CTRL_C_EVENT w]).
  { unfold configured_console. rewrite Hb, Hr. destruct r as [down vk ctl u| | |]; try discriminate Hr. destruct down; [|discriminate Hr].
    cbn [is_ctrl_c is_break andb negb] in *. destruct (N.eqb_spec vk 0x43) as [->|]; [reflexivity|discriminate Hr]. }
  rewrite Hc in Ht. apply win_prepare_ret in Hp as (_ & P2 & P3 & P4 & P5 & P6).
  apply (ctrl_told E t s' 0 w l); [|now rewrite P5].
  rewrite P6; [exact Hi|unfold reports_ctrl; rewrite Hi; apply orb_true_r|lia].
Qed.

Lemma win_break_signal E cfg s s' st w r t l : win_prepare cfg s = Ret s' st ->
  ss_contains (report_signals cfg) Break = true -> is_break r = true ->
  w_time s = console (w_mode s') w r ++ WStep :: WStep :: l ->
  exists s2, win_read_event E t s' = Ret s2 (Some (ESignal Break), []) /\ w_time s2 = l.
Proof.
  intros Hp Hi Hr Ht. rewrite (console_configured cfg s s' st w r Hp) in Ht.
  unfold configured_console in Ht. rewrite Hr in Ht. apply win_prepare_ret in Hp as (_ & P2 & P3 & P4 & P5 & P6).
  apply (ctrl_told E t s' 1 w l); [|now rewrite P5].
  rewrite P6; [exact Hi|unfold reports_ctrl; now rewrite Hi|lia].
Qed.

(** A mouse report received earlier. *)
Lemma mouse_anyway C m cfg t s s' st d rest : key_map m -> longest m (S_Input.report d ++ rest) XTERM_MOUSE_INTRO XTermMouse ->
  at_line d < U32_MAX -> at_column d < U32_MAX ->
  prepare C cfg s = Ret s' st -> inbuf s = S_Input.report d ++ rest ->
  exists s2, read_event C m t s' = Ret s2 (Some (EMouse (S_Input.told d))).
Proof.
  intros Hm Hl H1 H2 Hp Hi. apply prepare_ret in Hp as ((Q1 & _) & _).
  assert (Hi' : inbuf s' = S_Input.report d ++ rest) by congruence.
  pose proof (report_decodes m d rest Hm Hl H1 H2) as P.
  unfold read_event, try_read, peek. rewrite Hi', P. destruct (S_Input.report d ++ rest) as [|b x] eqn:E.
  - vm_compute in P. discriminate P.
  - cbn [obind]. eauto.
Qed.
