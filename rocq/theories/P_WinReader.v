(** Proofs about reading from the Windows console. *)
From Verif Require Import Base M_Utf8 M_Geom M_Signal P_Signal M_Util M_Input M_Buf M_Writer M_Prepare M_Reader
  M_WinWriter M_WinReader S_WinReader P_WinInput.
Local Open Scope N_scope.

(** ** Timelines *)
Lemma catches_app c r l1 l2 : catches c r (l1 ++ l2) = catches c r l1 ++ catches c r l2.
Proof. induction l1 as [|[] l IH]; cbn; auto. destruct (caught c r c0); cbn; now rewrite IH. Qed.
Lemma misses_app c r l1 l2 : misses c r (l1 ++ l2) = misses c r l1 ++ misses c r l2.
Proof. induction l1 as [|[] l IH]; cbn; auto. destruct (caught c r c0); cbn; now rewrite IH. Qed.
Lemma brings_app c r l1 l2 : brings c r (l1 ++ l2) = brings c r l1 ++ brings c r l2.
Proof.
  induction l1 as [|[] l IH]; cbn; auto; [now rewrite IH|].
  destruct w; auto. destruct (caught c r c0); cbn; now rewrite IH.
Qed.
Lemma last_of_app a b : last_of (last_of a ++ b) = last_of (a ++ b).
Proof.
  unfold last_of. rewrite !rev_app_distr. destruct (rev b) as [|x y]; [|reflexivity]. cbn.
  destruct (rev a); reflexivity.
Qed.
Lemma last_of_snoc a c : last_of (a ++ [c]) = [c].
Proof. unfold last_of. now rewrite rev_app_distr. Qed.

(** The part of the state reading does not change, and what ticks do to the rest. *)
Record steps (l : list wtick) (s s' : wsys) : Prop := Steps {
  st_rd : w_rd s' = w_rd s;
  st_catch : w_catch s' = w_catch s;
  st_regs : w_regs s' = w_regs s;
  st_mode : w_mode s' = w_mode s;
  st_queue : w_queue s' = w_queue s ++ brings (w_catch s) (w_regs s) l;
  st_passed : w_passed s' = w_passed s ++ misses (w_catch s) (w_regs s) l;
  st_last : unreported s' = last_of (unreported s ++ catches (w_catch s) (w_regs s) l)
}.

Lemma unreported_last s : last_of (unreported s) = unreported s.
Proof. unfold unreported. destruct (win_conv_signal (w_last s)); reflexivity. Qed.

Lemma steps_nil s : steps [] s s.
Proof. constructor; cbn; rewrite ?app_nil_r; auto. now rewrite unreported_last. Qed.

Lemma steps_app l1 l2 s s1 s2 : steps l1 s s1 -> steps l2 s1 s2 -> steps (l1 ++ l2) s s2.
Proof.
  intros [A1 A2 A3 A4 A5 A6 A7] [B1 B2 B3 B4 B5 B6 B7]. constructor; try congruence.
  - rewrite B5, A5, A2, A3, brings_app. now rewrite app_assoc.
  - rewrite B6, A6, A2, A3, misses_app. now rewrite app_assoc.
  - rewrite B7, A7, A2, A3, catches_app, last_of_app. now rewrite app_assoc.
Qed.

Lemma conv_small c : c < 2 -> win_conv_signal c = Some (ctrl_signal c).
Proof.
  intros H. unfold win_conv_signal, ctrl_signal, CTRL_BREAK_EVENT, CTRL_C_EVENT.
  destruct (N.eqb_spec c 1) as [->|]; [reflexivity|]. destruct (N.eqb_spec c 0); [reflexivity|lia].
Qed.
Lemma conv_some n sig : win_conv_signal n = Some sig -> sig = ctrl_signal n.
Proof.
  unfold win_conv_signal, ctrl_signal, CTRL_BREAK_EVENT, CTRL_C_EVENT.
  destruct (N.eqb_spec n 1) as [->|]; [intros H; now injection H|].
  destruct (N.eqb_spec n 0); [intros H; now injection H|discriminate].
Qed.

Lemma raise_steps c w s : steps [WCtrl c w] s (raise_ctrl c w s).
Proof.
  unfold raise_ctrl. destruct (w_regs s) as [|n] eqn:R.
  - constructor; cbn; rewrite ?R; auto; cbn.
    + destruct w; now rewrite app_nil_r.
    + rewrite app_nil_r. change (unreported (with_passed (w_passed s ++ [c]) s)) with (unreported s).
      now rewrite unreported_last.
  - unfold ctrl_handler.
    assert (Hc : caught (w_catch s) (S n) c = ((c =? CTRL_BREAK_EVENT) || (c =? CTRL_C_EVENT)) && N.testbit (w_catch s) c).
    { unfold caught, CTRL_BREAK_EVENT, CTRL_C_EVENT. cbn [negb Nat.eqb]. f_equal. lia. }
    assert (Hm : caught (w_catch s) (S n) c = false -> steps [WCtrl c w] s (with_passed (w_passed s ++ [c]) s)).
    { intros Hf. constructor; cbn; rewrite ?R, ?Hf; auto.
      - destruct w; now rewrite app_nil_r.
      - rewrite app_nil_r. change (unreported (with_passed (w_passed s ++ [c]) s)) with (unreported s).
        now rewrite unreported_last. }
    destruct ((c =? CTRL_BREAK_EVENT) || (c =? CTRL_C_EVENT)) eqn:K; [|apply Hm; now rewrite Hc].
    rewrite land_bit. destruct (N.testbit (w_catch s) c) eqn:T; cbn [negb]; [|apply Hm; now rewrite Hc].
    cbn [andb] in Hc.
    assert (H2 : c < 2) by (unfold CTRL_BREAK_EVENT, CTRL_C_EVENT in K; lia).
    destruct w; constructor; cbn; rewrite ?R, ?Hc; cbn; rewrite ?app_nil_r; auto;
      rewrite last_of_snoc; unfold unreported; cbn; now rewrite conv_small.
Qed.

Lemma happens_steps t s : steps [t] s (whappens t s).
Proof.
  destruct t; cbn [whappens]; try apply raise_steps;
    constructor; cbn; rewrite ?app_nil_r; auto; symmetry; exact (unreported_last s).
Qed.

Lemma steps_time l s s' t : steps l s s' -> steps l s (with_wtime t s').
Proof. intros [A1 A2 A3 A4 A5 A6 A7]. constructor; auto. Qed.
Lemma steps_failing l s s' t : steps l s s' -> steps l s (with_wfailing t s').
Proof. intros [A1 A2 A3 A4 A5 A6 A7]. constructor; auto. Qed.

Lemma pass_steps l : forall s, exists l1 l2, l = l1 ++ l2 /\ w_time (wpass l s) = l2 /\ steps l1 s (wpass l s) /\
  after_steps 1 l = l2.
Proof.
  induction l as [|t l IH]; intros s.
  - exists [], []. cbn. split; [reflexivity|]. split; [reflexivity|]. split; [|reflexivity]. apply steps_time, steps_nil.
  - destruct (match t with WStep => true | _ => false end) eqn:Hstep.
    + destruct t; try discriminate Hstep. exists [WStep], l. cbn. split; [reflexivity|]. split; [reflexivity|]. split; [|now destruct l].
      apply steps_time. exact (happens_steps WStep s).
    + destruct (IH (whappens t s)) as (l1 & l2 & -> & Ht & Hs & Ha).
      assert (Hw : wpass (t :: l1 ++ l2) s = wpass (l1 ++ l2) (whappens t s)) by (destruct t; auto; discriminate Hstep).
      exists (t :: l1), l2. rewrite Hw. split; [reflexivity|]. split; [exact Ht|]. split.
      * exact (steps_app [t] l1 _ _ _ (happens_steps t s) Hs).
      * transitivity (after_steps 1 (l1 ++ l2)); [|exact Ha]. destruct t; try reflexivity. discriminate Hstep.
Qed.

Lemma advance_steps s : exists l, w_time s = l ++ w_time (wadvance s) /\ steps l s (wadvance s) /\
  after_steps 1 (w_time s) = w_time (wadvance s).
Proof.
  unfold wadvance. destruct (pass_steps (w_time s) s) as (l1 & l2 & E & T & S & A).
  exists l1. rewrite T. auto.
Qed.

Lemma await_steps ms l : forall s, exists l1, l = l1 ++ w_time (fst (wawait ms l s)) /\ steps l1 s (fst (wawait ms l s)) /\
  match snd (wawait ms l s) with
  | XReady => w_queue (fst (wawait ms l s)) <> []
  | XTimeout => w_queue (fst (wawait ms l s)) = [] /\ ms <> None
  | XNever => w_queue (fst (wawait ms l s)) = [] /\ (ms <> None -> ~ In WTime l)
  | _ => True
  end.
Proof.
  induction l as [|t l IH]; intros s.
  - cbn [wawait]. destruct (w_failing s).
    { exists []. cbn. split; [reflexivity|]. split; [apply steps_failing, steps_time, steps_nil|exact I]. }
    destruct (w_queue s) eqn:Q.
    + destruct ms as [[|p]|]; exists []; cbn; (split; [reflexivity|]); (split; [apply steps_time, steps_nil|]);
        rewrite Q; auto; split; auto; discriminate.
    + exists []. cbn. split; [reflexivity|]. split; [apply steps_time, steps_nil|]. rewrite Q. discriminate.
  - cbn [wawait]. destruct (w_failing s).
    { exists []. cbn. split; [reflexivity|]. split; [apply steps_failing, steps_time, steps_nil|exact I]. }
    destruct (w_queue s) as [|q0 q] eqn:Q.
    2: { exists []. cbn. split; [reflexivity|]. split; [apply steps_time, steps_nil|]. rewrite Q. discriminate. }
    destruct (match ms with Some 0 => true | _ => false end) eqn:Z.
    { exists []. cbn. split; [reflexivity|]. split; [apply steps_time, steps_nil|]. rewrite Q. split; auto. now destruct ms. }
    destruct (match t, ms with WTime, Some _ => true | _, _ => false end) eqn:K.
    + destruct t; try discriminate K. destruct ms as [ms|]; [|discriminate K].
      exists [WTime]. cbn. split; [reflexivity|]. split; [apply steps_time; exact (happens_steps WTime s)|].
      rewrite Q. split; auto. discriminate.
    + destruct (IH (whappens t s)) as (l1 & El & Hs & Hw).
      assert (G : exists l2, l = l2 ++ w_time (fst (wawait ms l (whappens t s))) /\
        steps (t :: l2) s (fst (wawait ms l (whappens t s))) /\
        match snd (wawait ms l (whappens t s)) with
        | XReady => w_queue (fst (wawait ms l (whappens t s))) <> []
        | XTimeout => w_queue (fst (wawait ms l (whappens t s))) = [] /\ ms <> None
        | XNever => w_queue (fst (wawait ms l (whappens t s))) = [] /\ (ms <> None -> ~ In WTime (t :: l))
        | _ => True
        end).
      { exists l1. split; [exact El|]. split; [exact (steps_app [t] l1 _ _ _ (happens_steps t s) Hs)|].
        destruct (snd (wawait ms l (whappens t s))); auto. destruct Hw as [Hw1 Hw2]. split; auto.
        intros Hms [->|Hin]; [destruct ms; [discriminate K|now elim Hms]|now apply Hw2]. }
      clear IH Hw Hs El. destruct G as (l2 & El & Hs & Hw).
      assert (Heq : match t with
                    | WTime => match ms with Some _ => (with_wtime l s, XTimeout) | None => wawait ms l s end
                    | _ => wawait ms l (whappens t s)
                    end = wawait ms l (whappens t s)).
      { destruct t; try reflexivity. destruct ms; [discriminate K|reflexivity]. }
      rewrite Heq. exists (t :: l2). split; [cbn; now rewrite <- El|]. split; [exact Hs|exact Hw].
Qed.

(** ** Operations *)

(** What an operation with reply [r] does. *)
Definition did (s : wsys) (r : wreply) (s' : wsys) : Prop :=
  w_catch s' = w_catch s /\ w_regs s' = w_regs s /\ w_mode s' = w_mode s /\
  exists l, w_time s = l ++ w_time s' /\
    w_queue s ++ brings (w_catch s) (w_regs s) l = handed r ++ w_queue s' /\
    w_passed s' = w_passed s ++ misses (w_catch s) (w_regs s) l /\
    match r with
    | RGot (Some (ESignal sig)) _ =>
        exists l0 c, unreported s ++ catches (w_catch s) (w_regs s) l = l0 ++ [c] /\ sig = ctrl_signal c /\ unreported s' = []
    | _ => unreported s' = last_of (unreported s ++ catches (w_catch s) (w_regs s) l) /\ (r = RBool true \/ unreported s = [])
    end.

Lemma last_of_nil l : last_of l = [] -> l = [].
Proof. unfold last_of. destruct (rev l) eqn:R; [|discriminate]. intros _. rewrite <- (rev_involutive l), R. reflexivity. Qed.
Lemma last_of_some l c : last_of l = [c] -> exists l0, l = l0 ++ [c].
Proof.
  unfold last_of. destruct (rev l) as [|x y] eqn:R; [discriminate|]. intros H. injection H as ->.
  exists (rev y). rewrite <- (rev_involutive l), R. reflexivity.
Qed.

Lemma steps_quiet l s s' : steps l s s' -> unreported s' = [] -> unreported s = [].
Proof. intros H E. rewrite (st_last _ _ _ H) in E. apply last_of_nil, app_eq_nil in E. apply E. Qed.

(** Waiting. *)
Lemma wait_did t s :
  match win_wait_event t s with
  | Ret s' b => exists l, w_time s = l ++ w_time s' /\ steps l s s' /\ (b = true \/ unreported s = []) /\
      (b = true -> w_queue s' <> [] \/ unreported s' <> []) /\ (b = false -> w_queue s' = [] /\ t <> None)
  | Fail s' e => exists l, w_time s = l ++ w_time s' /\ steps l s s' /\ unreported s = []
  | Panic => as_millis t = Boom
  | Blocked => exists ms, as_millis t = Val ms /\ (ms <> INFINITE -> ~ In WTime (after_steps 2 (w_time s)))
  end.
Proof.
  unfold win_wait_event, win_get_signal. cbv zeta.
  destruct (advance_steps s) as (l1 & E1 & S1 & A1). set (s1 := wadvance s) in *. clearbody s1.
  destruct (win_conv_signal (w_last s1)) as [sig|] eqn:C.
  - exists l1. split; [exact E1|]. split; [exact S1|]. split; [now left|]. split.
    + intros _. right. unfold unreported. rewrite C. discriminate.
    + discriminate.
  - assert (U1 : unreported s1 = []) by (unfold unreported; now rewrite C).
    pose proof (steps_quiet _ _ _ S1 U1) as U.
    destruct (as_millis t) as [ms|] eqn:M; [|reflexivity].
    unfold wait_for_single_object. cbv zeta.
    destruct (advance_steps s1) as (l2 & E2 & S2 & A2). set (s2 := wadvance s1) in *. clearbody s2.
    set (o := if ms =? INFINITE then None else Some ms).
    destruct (await_steps o (w_time s2) s2) as (l3 & E3 & S3 & W).
    destruct (wawait o (w_time s2) s2) as [s3 w] eqn:A. cbn [fst snd] in *.
    assert (Ht : w_time s = (l1 ++ l2 ++ l3) ++ w_time s3).
    { rewrite E1, E2, E3, <- !app_assoc. reflexivity. }
    assert (Hs : steps (l1 ++ l2 ++ l3) s s3) by (apply (steps_app l1 _ s s1); auto; apply (steps_app l2 _ s1 s2); auto).
    destruct w; try (exists (l1 ++ l2 ++ l3); split; [exact Ht|]; split; [exact Hs|]).
    + split; [now left|]. split; [intros _; now left|discriminate].
    + split; [now right|]. split; [discriminate|]. intros _. split; [apply W|].
      intros ->. cbn in M. injection M as <-. destruct W as [_ W]. now elim W.
    + exact U.
    + exists ms. split; [reflexivity|]. intros Hm. destruct W as [_ W].
      assert (Hafter : after_steps 2 (w_time s) = w_time s2).
      { assert (G : forall l, after_steps 2 l = after_steps 1 (after_steps 1 l)).
        { induction l as [|t0 l IH]; [reflexivity|]. destruct t0; try exact IH. destruct l; reflexivity. }
        now rewrite G, A1, A2. }
      rewrite Hafter. apply W. unfold o. apply N.eqb_neq in Hm. rewrite Hm. discriminate.
Qed.

Lemma steps_did l s s' r :
  steps l s s' -> w_time s = l ++ w_time s' -> handed r = [] ->
  (forall sig used, r <> RGot (Some (ESignal sig)) used) -> (r = RBool true \/ unreported s = []) -> did s r s'.
Proof.
  intros [A1 A2 A3 A4 A5 A6 A7] Ht Hh Hr Hu. split; [exact A2|]. split; [exact A3|]. split; [exact A4|].
  exists l. split; [exact Ht|]. split; [rewrite Hh, A5; reflexivity|]. split; [exact A6|].
  destruct r as [| [[]|] |]; try (split; [exact A7|exact Hu]). exfalso. eapply Hr; reflexivity.
Qed.

Lemma read_raw_event_did len t s :
  match win_read_raw_event len t s with
  | Ret s' (e, rs) => did s (RGot e rs) s' /\ w_rd s' = w_rd s /\
      match e with
      | None | Some (ESignal _) => rs = []
      | Some (ERaw n) => n = length rs /\ (n <= len)%nat
      | _ => False
      end
  | Fail s' e => did s (RErr e) s' /\ w_rd s' = w_rd s
  | Panic => as_millis t = Boom
  | Blocked => exists ms, as_millis t = Val ms /\ (ms <> INFINITE -> ~ In WTime (after_steps 2 (w_time s)))
  end.
Proof.
  unfold win_read_raw_event. pose proof (wait_did t s) as W.
  destruct (win_wait_event t s) as [s1 ready|s1 e| |]; cbn [obind]; [| |exact W|exact W].
  2: { destruct W as (l & Ht & Hs & Hu). split; [|apply Hs]. apply (steps_did l); auto. discriminate. }
  destruct W as (l1 & Ht1 & Hs1 & Hu1 & Hready & _).
  destruct ready; cbn [negb].
  2: { destruct Hu1 as [Hu1|Hu1]; [discriminate Hu1|]. split; [|split; [apply Hs1|reflexivity]].
       apply (steps_did l1); auto. discriminate. }
  specialize (Hready eq_refl).
  unfold win_take_signal. cbv zeta.
  destruct (advance_steps s1) as (l2 & Ht2 & Hs2 & _). set (s2 := wadvance s1) in *. clearbody s2.
  pose proof (steps_app _ _ _ _ _ Hs1 Hs2) as Hs12.
  assert (Ht12 : w_time s = (l1 ++ l2) ++ w_time s2) by (rewrite Ht1, Ht2, <- app_assoc; reflexivity).
  destruct (win_conv_signal (w_last s2)) as [sig|] eqn:C.
  - split; [|split; [exact (st_rd _ _ _ Hs12)|reflexivity]].
    pose proof (st_last _ _ _ Hs12) as Hl. unfold unreported at 1 in Hl. rewrite C in Hl. symmetry in Hl.
    destruct (last_of_some _ _ Hl) as [l0 Hl0].
    split; [exact (st_catch _ _ _ Hs12)|]. split; [exact (st_regs _ _ _ Hs12)|]. split; [exact (st_mode _ _ _ Hs12)|].
    exists (l1 ++ l2). split; [exact Ht12|]. split; [symmetry; exact (st_queue _ _ _ Hs12)|].
    split; [exact (st_passed _ _ _ Hs12)|]. exists l0, (w_last s2). split; [exact Hl0|].
    split; [now apply conv_some|reflexivity].
  - assert (U2 : unreported s2 = []) by (unfold unreported; now rewrite C).
    pose proof (steps_quiet _ _ _ Hs2 U2) as U1. pose proof (steps_quiet _ _ _ Hs1 U1) as U.
    assert (Q1 : w_queue s1 <> []) by (destruct Hready as [|H]; [assumption|now elim H]).
    assert (Hs2' : steps (l1 ++ l2) s (with_wlast NO_SIGNAL s2)).
    { destruct Hs12 as [B1 B2 B3 B4 B5 B6 B7]. constructor; auto. rewrite <- B7, U2. reflexivity. }
    assert (Q2 : w_queue (with_wlast NO_SIGNAL s2) <> []).
    { cbn. rewrite (st_queue _ _ _ Hs2). destruct (w_queue s1); [now elim Q1|discriminate]. }
    assert (Ht2' : w_time s = (l1 ++ l2) ++ w_time (with_wlast NO_SIGNAL s2)) by exact Ht12.
    set (s2' := with_wlast NO_SIGNAL s2) in *. clearbody s2'. clear Hs1 Hs2 Hs12 Ht1 Ht2 Ht12 C U2 Q1 U1 Hready Hu1 s1 s2.
    unfold read_console_input.
    destruct (advance_steps s2') as (l3 & Ht3 & Hs3 & _). set (s3 := wadvance s2') in *. clearbody s3.
    pose proof (steps_app _ _ _ _ _ Hs2' Hs3) as Hs13.
    assert (Ht13 : w_time s = ((l1 ++ l2) ++ l3) ++ w_time s3) by (rewrite Ht2', Ht3, <- !app_assoc; reflexivity).
    destruct (to_dword len =? 0) eqn:L.
    { cbn [obind]. split; [|split; [apply Hs13|split; cbn; lia]].
      apply (steps_did ((l1 ++ l2) ++ l3)); auto. discriminate. }
    assert (Q3 : w_queue s3 <> []).
    { rewrite (st_queue _ _ _ Hs3). destruct (w_queue s2'); [now elim Q2|discriminate]. }
    destruct (await_steps None (w_time s3) s3) as (l4 & Ht4 & Hs4 & W).
    destruct (wawait None (w_time s3) s3) as [s4 w]. cbn [fst snd] in *.
    pose proof (steps_app _ _ _ _ _ Hs13 Hs4) as Hs14.
    assert (Ht14 : w_time s = (((l1 ++ l2) ++ l3) ++ l4) ++ w_time s4) by (rewrite Ht13, Ht4, <- !app_assoc; reflexivity).
    destruct w; cbn [obind].
    + set (k := Nat.min (N.to_nat (to_dword len)) (length (w_queue s4))).
      split; [|split; [exact (st_rd _ _ _ Hs14)|]].
      * split; [exact (st_catch _ _ _ Hs14)|]. split; [exact (st_regs _ _ _ Hs14)|]. split; [exact (st_mode _ _ _ Hs14)|].
        exists (((l1 ++ l2) ++ l3) ++ l4). split; [exact Ht14|].
        split; [cbn [handed w_queue with_wqueue]; rewrite firstn_skipn; symmetry; exact (st_queue _ _ _ Hs14)|].
        split; [exact (st_passed _ _ _ Hs14)|]. split; [exact (st_last _ _ _ Hs14)|now right].
      * split; [reflexivity|]. rewrite firstn_length. unfold k, to_dword. lia.
    + destruct W as [_ W]. now elim W.
    + split; [|exact (st_rd _ _ _ Hs14)]. apply (steps_did (((l1 ++ l2) ++ l3) ++ l4)); auto. discriminate.
    + destruct W as [W _]. rewrite (st_queue _ _ _ Hs4) in W. apply app_eq_nil in W. now elim Q3.
Qed.

Lemma did_rd s r s' rd : did s r s' -> did s r (with_rd rd s').
Proof. intros H. exact H. Qed.

(** Decoding never panics. *)
Lemma changed_from_val p b n : forall k, (N.to_nat k + n <= 32)%nat -> changed_from p b n k <> Boom.
Proof.
  induction n as [|n IH]; intros k Hk; cbn [changed_from]; [discriminate|].
  destruct (negb (N.land (N.lxor p b) (N.shiftl 1 k) =? 0)).
  - rewrite bit_to_button_ok by lia. discriminate.
  - apply IH. lia.
Qed.
Lemma mouse_event_val E r rd : win_mouse_event E r rd <> Boom.
Proof.
  destruct r; cbn [win_mouse_event]; try discriminate.
  destruct (negb (N.land flags MOUSE_WHEELED =? 0)); [destruct (0 <? high_word buttons)%Z; discriminate|].
  destruct (prev_buttons rd =? buttons).
  - destruct ((buttons =? 0) && negb (always_track rd)); discriminate.
  - unfold button_changed. pose proof (changed_from_val (prev_buttons rd) buttons 32 0) as H.
    destruct (changed_from (prev_buttons rd) buttons 32 0) as [[i|]|]; try discriminate.
    intros _. apply H; [cbn; lia|reflexivity].
Qed.

Lemma decode_ok E r s : exists rd e, win_decode E r s = Ret (with_rd rd s) e /\ decoded E (w_rd s) r rd e /\
  forall sig, e <> ESignal sig.
Proof.
  unfold win_decode, decoded. destruct (key_press_event r) as [k|].
  - exists (w_rd s), (EKey k). split; [destruct s; reflexivity|]. split; [auto|discriminate].
  - pose proof (mouse_event_val E r (w_rd s)) as Hv. destruct (win_mouse_event E r (w_rd s)) as [[rd [m|]]|]; [| |now elim Hv].
    + exists rd, (EMouse m). split; [reflexivity|]. split; [exists (Some m); auto|discriminate].
    + eexists rd, _. split; [reflexivity|]. split; [exists None; split; reflexivity|].
      destruct (size_event E r); discriminate.
Qed.

Lemma did_swap s rs rs' e e' s' : did s (RGot e rs) s' -> rs' = rs ->
  (forall sig, e <> Some (ESignal sig)) -> (forall sig, e' <> Some (ESignal sig)) -> did s (RGot e' rs') s'.
Proof.
  intros (A & B & M & l & C & D & F & G) -> H H'. split; [exact A|]. split; [exact B|]. split; [exact M|].
  exists l. split; [exact C|]. split; [exact D|]. split; [exact F|].
  assert (G' : unreported s' = last_of (unreported s ++ catches (w_catch s) (w_regs s) l) /\ unreported s = []).
  { destruct e as [[]|]; try (destruct G as [G1 [G2|G2]]; [discriminate G2|split; assumption]). now elim (H s0). }
  destruct G' as [G1 G2]. destruct e' as [[]|]; try (split; [exact G1|now right]). now elim (H' s0).
Qed.

Lemma read_event_did E t s :
  match win_read_event E t s with
  | Ret s' (e, rs) => did s (RGot e rs) s' /\ fits E (REvent t) (w_rd s) (RGot e rs) (w_rd s')
  | Fail s' e => did s (RErr e) s' /\ w_rd s' = w_rd s
  | Panic => as_millis t = Boom
  | Blocked => exists ms, as_millis t = Val ms /\ (ms <> INFINITE -> ~ In WTime (after_steps 2 (w_time s)))
  end.
Proof.
  unfold win_read_event. pose proof (read_raw_event_did 1 t s) as R.
  destruct (win_read_raw_event 1 t s) as [s1 [e rs]|s1 e| |]; cbn [obind]; [|exact R|exact R|exact R].
  destruct R as (D & Hrd & He). destruct e as [e|].
  2: { rewrite He in *. split; [exact D|exact Hrd]. }
  destruct e; try contradiction.
  - destruct He as [-> Hn]. destruct rs as [|r rs].
    + split; [|exact Hrd]. apply (did_swap _ _ _ _ _ _ D); auto; discriminate.
    + destruct (decode_ok E r s1) as (rd & e & -> & Hd & Hns). cbn [obind].
      assert (rs = []) as -> by (destruct rs; [reflexivity|cbn in Hn; lia]).
      split.
      * apply did_rd. apply (did_swap _ _ _ _ _ _ D); auto; [discriminate|congruence].
      * rewrite Hrd in Hd. cbn. destruct e; try exact Hd.
  - rewrite He in *. split; [exact D|exact Hrd].
Qed.

(** Histories. *)
Lemma rop_did E o s s' r : rop E o s = Ret s' r -> did s r s' /\ fits E o (w_rd s) r (w_rd s').
Proof.
  destruct o as [t|t|len t]; cbn [rop].
  - pose proof (wait_did t s) as W. destruct (win_wait_event t s) as [s1 b|s1 e| |]; intros H; try discriminate H; injection H as <- <-.
    + destruct W as (l & Ht & Hs & Hu & _). split; [|exact (st_rd _ _ _ Hs)].
      apply (steps_did l); auto; [discriminate|]. destruct Hu as [->|Hu]; auto.
    + destruct W as (l & Ht & Hs & Hu). split; [|exact (st_rd _ _ _ Hs)]. apply (steps_did l); auto. discriminate.
  - pose proof (read_event_did E t s) as W.
    destruct (win_read_event E t s) as [s1 [e rs]|s1 e| |]; intros H; try discriminate H; injection H as <- <-; exact W.
  - pose proof (read_raw_event_did len t s) as W.
    destruct (win_read_raw_event len t s) as [s1 [e rs]|s1 e| |]; intros H; try discriminate H; injection H as <- <-; cbn [fst snd] in *.
    + destruct W as (D & Hrd & He). split; [exact D|]. destruct e as [[]|]; try contradiction; try (rewrite He in *; exact Hrd).
      cbn. split; [exact Hrd|exact He].
    + exact W.
Qed.

Lemma history E os : forall s s' rs, run_wr E os s = Some (s', rs) ->
  fits_all E os (w_rd s) rs (w_rd s') /\
  records s = concat (map handed rs) ++ records s' /\
  exists l, w_time s = l ++ w_time s' /\
    told (unreported s) (catches (w_catch s) (w_regs s) l) rs (unreported s') /\
    w_passed s' = w_passed s ++ misses (w_catch s) (w_regs s) l.
Proof.
  induction os as [|o os IH]; intros s s' rs; cbn [run_wr].
  - intros H. injection H as <- <-. split; [constructor|]. split; [reflexivity|].
    exists []. cbn. split; [reflexivity|]. split; [constructor|now rewrite app_nil_r].
  - destruct (rop E o s) as [s1 r|s1 []| |] eqn:R; try discriminate.
    destruct (run_wr E os s1) as [[s2 rs1]|] eqn:Rs; [|discriminate]. intros H. injection H as <- <-.
    destruct (IH _ _ _ Rs) as (F & Hrec & l2 & Ht2 & Hto & Hp).
    destruct (rop_did _ _ _ _ _ R) as ((A & B & _ & l1 & Ht1 & Hq & Hp1 & Hsig) & F1).
    rewrite A, B in *.
    split; [now apply (fits_cons E o os r rs1 _ (w_rd s1))|]. split.
    + unfold records at 1. rewrite Ht1, brings_app, app_assoc, Hq. cbn [map concat]. rewrite <- app_assoc, <- app_assoc.
      f_equal. rewrite <- Hrec. unfold records. now rewrite A, B.
    + exists (l1 ++ l2). split; [rewrite Ht1, Ht2; apply app_assoc|]. split.
      * rewrite catches_app.
        destruct r as [b|e x|e].
        -- destruct Hsig as [Hl Hu]. apply told_other; [discriminate|exact Hu|]. rewrite <- Hl. exact Hto.
        -- destruct e as [e|]; [destruct (match e with ESignal _ => true | _ => false end) eqn:K|].
           ++ destruct e; try discriminate K. destruct Hsig as (l0 & c & Hl & -> & Hu).
              apply (told_signal _ _ l0); [exact Hl|]. rewrite <- Hu. exact Hto.
           ++ assert (Hsig' : unreported s1 = last_of (unreported s ++ catches (w_catch s) (w_regs s) l1) /\
                (RGot (Some e) x = RBool true \/ unreported s = [])) by (destruct e; try exact Hsig; discriminate K).
              destruct Hsig' as [Hl Hu]. apply told_other; [intros sig u X; injection X as -> _; discriminate K|exact Hu|].
              rewrite <- Hl. exact Hto.
           ++ destruct Hsig as [Hl Hu]. apply told_other; [discriminate|exact Hu|]. rewrite <- Hl. exact Hto.
        -- destruct Hsig as [Hl Hu]. apply told_other; [discriminate|exact Hu|]. rewrite <- Hl. exact Hto.
      * rewrite Hp, Hp1, misses_app. symmetry. apply app_assoc.
Qed.
