(** Proofs about the example programs (C140): any terminal, any console. *)
From Verif Require Import Base M_Utf8 S_Utf8 M_Geom S_Geom M_Attr M_Buf S_Buf M_Writer S_Tty S_Writer M_Screen S_Screen P_Screen2 M_Api S_Api M_ScreenApi S_Canvas P_Canvas M_Locks S_Locks S_Together
  S_Loop S_CursorMode S_Program P_Program2 S_WinProgram S_TermProgram P_TermProgram2 P_TermProgram3 P_TermProgram4 M_Examples S_Examples P_Examples P_Examples2.

Lemma example_screen E C K : env_ok E -> env_chars E -> caps_coherent C -> implements E C K ->
  forall kids n s t k tr c w' d', painted E C K s t k -> wat (wr s) = no_attrs -> brush k = no_attrs ->
  Forall (plain_text E) kids -> own_lines kids -> Forall (has_room (ksize k)) kids ->
  (forall i sz r, In (EvAct i (AD (DUpdateSize sz)) r) tr -> screen_size sz /\ Forall (has_room sz) kids) ->
  run E C (start (main_task n :: map draw_task kids) (share s)) tr c -> finished c -> no_failure tr -> not_continued tr ->
  shared c = (Some w', Some d') ->
  exists k', holds (dbuf d') k' /\ shows_latest kids k' /\
    (forall l c, elsewhere kids l c -> ink k' l c = ink k l c \/ ink k' l c = empty_ink) /\
    (no_new_size tr -> ksize k' = ksize k /\ (forall l c, elsewhere kids l c -> ink k' l c = ink k l c) /\
      ((exists d, In d kids /\ kvalues d <> []) -> exists y v, stream w' = stream (wr s) ++ y /\ obuf w' = [] /\
        look K (feed K t y) = Some v /\ displays C v k' /\ vcur v = Cursor 0 0)).
Proof.
  intros HE HC Hco HK kids n s t k tr c w' d' Hp Ha Hb Ht Ho Hr Hz R F Hf Hc Hs.
  destruct (share_screen E C K HE HC Hco HK (main_task n :: map draw_task kids) s t k tr c w' d' Hp Ha) as (order & O1 & O2 & O3); auto.
  { constructor.
    - split; [apply main_follows|]. apply draws_screen, main_draws.
    - apply Forall_forall. intros p Hi. apply in_map_iff in Hi. destruct Hi as (d & <- & Hi). split; [apply draw_follows|].
      apply draws_screen, draw_draws. intros x Hx. apply narrow_round; [|exact Hx]. exact (proj1 (Forall_forall _ _) Ht d Hi). }
  { intros i sz r Hi. exact (proj1 (Hz _ _ _ Hi)). }
  cbv zeta in O3. destruct O3 as (H1 & pre & post & x & y & M1 & M2 & M3 & M4 & M5 & M6 & M7).
  assert (Hfit : forall sz, In (Fitted sz) (concat (map snd order)) -> Forall (has_room sz) kids).
  { intros sz Hi. apply O2 in Hi. destruct Hi as (i & r & Hi). exact (proj2 (Hz _ _ _ Hi)). }
  destruct (lines_shown E kids k n order Hb Ht Ho Hr O1 Hfit) as (L1 & L2 & L3).
  eexists. split; [exact H1|]. split; [exact L1|]. split; [exact L2|]. intros Hn.
  assert (H1s : one_size (concat (map snd order))).
  { intros sz Hi. apply O2 in Hi. destruct Hi as (i & r & Hi). exact (Hn _ _ _ Hi). }
  destruct (L3 H1s) as (K1 & K2 & K3). split; [exact K1|]. split; [exact K2|]. intros Hd. destruct (K3 Hd) as (Kp & Kl & Ks).
  assert (Hpre : pre = []).
  { destruct M3 as [M3|(p & sz & M3)]; [exact M3|]. destruct (H1s sz). rewrite M1, M3. apply in_or_app. left. apply in_or_app. right. now left. }
  subst pre. cbn [app] in M1. rewrite (M5 eq_refl) in M4. cbn [app marked] in *. subst post.
  destruct (painted_history E HE C K HC Hco HK _ _ _ Hp) as [Hh _].
  destruct (history_narrow E C HE HC K Hco HK s t Hh) as (v0 & V0 & _).
  destruct (M7 t v0 (fun _ => eq_refl)) as (v & V1 & _ & V2); [intros X; now destruct X|exact V0|].
  rewrite Kl in V2. exists y, v. split; [exact M4|]. split; [exact (M6 Ks)|]. split; [exact V1|]. split; [apply V2|].
  destruct V2 as [_ V2]. rewrite V2. unfold pen_goal. rewrite Kp, K1. destruct Hd as (d & Hi & Hv).
  destruct (proj1 (Forall_forall _ _) Hr d Hi) as [G1 G2]. destruct (kvalues d) as [|x0 vs] eqn:Ev; [now destruct Hv|].
  specialize (G2 x0 (or_introl eq_refl)). unfold on_canvas. cbn [line column].
  destruct (lines (ksize k)); [lia|]. destruct (columns (ksize k)); [lia|]. reflexivity.
Qed.

(** ** A terminal *)
Definition same_call (a b : tmethod) : Prop := forward a = forward b.
Lemma wrote_insist ms : forall g k l, wrote (Some g) (insist ms k) l -> exists xs, Forall2 same_call xs ms /\ wrote (Some (g ++ xs)) k l.
Proof.
  induction ms as [|m ms IH]; intros g k l H.
  - exists []. rewrite app_nil_r. split; [constructor|exact H].
  - cbn [insist] in H. inversion H as [| | | | |m' k0 g0 l0 D Hm| |g0 c k0 r l0 I D]; subst; [|destruct I].
    destruct (IH _ _ _ D) as (xs & X1 & X2). exists (m' :: xs). split; [constructor; [assumption|exact X1]|]. rewrite <- app_assoc in X2. exact X2.
Qed.
Lemma wrote_rounds d vs : forall l, wrote None (fold_right (say_round d) Finish vs) l -> Forall2 (fun p x => Forall2 same_call p (line_calls d x)) l vs.
Proof.
  induction vs as [|x vs IH]; intros l H; cbn [fold_right] in H; [inversion H; constructor|]. unfold say_round at 1 in H.
  set (ms := line_calls d x) in H. assert (Hms : ms = line_calls d x) by reflexivity. clearbody ms.
  inversion H as [|m k0 l0 D|m k0 l0 I D|c k0 l0 T D|k0 l0 D| | |g0 c k0 r l0 I D]; subst; [|destruct I].
  apply wrote_insist in D. destruct D as (xs & X1 & D). cbn [app] in D.
  inversion D as [| | | | |m k0 g0 l0 D1|k0 g0 l0 D1|g0 c k0 r l0 I D1]; subst; [|destruct I].
  constructor; [exact X1|]. exact (IH _ D1).
Qed.

Lemma effect_forward E m m' v v' : forward m = forward m' -> effect E m v v' -> effect E m' v v'.
Proof.
  destruct m, m'; cbn; intros H; try discriminate H; auto;
    unfold api_add_style, api_write_str, style_or_default in *;
    repeat match goal with o : option style |- _ => destruct o end;
    repeat match goal with H0 : context [to_string ?p] |- _ => rewrite (to_string_concat p) in H0 end;
    intros X; try exact X; injection H; intros; subst; try exact X; try discriminate; try congruence.
  all: reflexivity.
Qed.
Lemma effects_forward E l l' : Forall2 same_call l l' -> forall v v', effects E (map OnGuard l) v v' -> effects E (map OnGuard l') v v'.
Proof.
  induction 1 as [|m m' l l' Hm _ IH]; intros v v' H; [exact H|]. cbn [map] in *. inversion H as [|c m0 cs v0 v1 v2 Hc He Hr]; subst.
  destruct Hc as [Hc|Hc]; [|discriminate Hc]. injection Hc as <-. econstructor; [now left|exact (effect_forward E _ _ _ _ Hm He)|now apply IH].
Qed.

(** Pieces of known kinds, in some order. *)
Lemma plan_of {A B} (R : nat -> A -> B -> Prop) order : forall want : nat -> list B, (forall i, Forall2 (R i) (done_by i order) (want i)) ->
  exists plan : list (nat * B), (forall i, done_by i plan = want i) /\ Forall2 (fun a b => fst a = fst b /\ R (fst a) (snd a) (snd b)) order plan.
Proof.
  induction order as [|[j a] order IH]; intros want H.
  - exists []. split; [|constructor]. intros i. specialize (H i). cbn in *. now inversion H.
  - assert (Hj := H j). unfold done_by in Hj. cbn [filter fst] in Hj. rewrite Nat.eqb_refl in Hj. cbn [map snd] in Hj.
    inversion Hj as [|a0 b l bs Hb Hbs E1 E2]; subst.
    destruct (IH (fun i => if i =? j then bs else want i)) as (plan & P1 & P2).
    { intros i. specialize (H i). unfold done_by in H. cbn [filter fst] in H. rewrite (Nat.eqb_sym i j). destruct (Nat.eqb_spec j i) as [->|Hi]; [exact Hbs|exact H]. }
    exists ((j, b) :: plan). split; [|constructor; [auto|exact P2]]. intros i. unfold done_by. cbn [filter fst].
    specialize (P1 i). rewrite (Nat.eqb_sym i j) in P1. destruct (Nat.eqb_spec j i) as [->|Hi]; [|exact P1]. cbn [map snd]. unfold done_by in P1. now rewrite P1, <- E2.
Qed.

Lemma insist_follows b ms k : follows b None (Some OfTerminal) k -> follows b None (Some OfTerminal) (insist ms k).
Proof.
  intros H. induction ms as [|m ms IH]; [exact H|]. cbn [insist]. split; [reflexivity|].
  intros [|e| |sz|c|]; [exact IH| | | | |]; cbn; repeat split.
Qed.
Lemma say_follows b d : follows b None None (say_task d).
Proof.
  unfold say_task. induction (kvalues d) as [|x vs IH]; [cbn; repeat split|]. cbn [fold_right]. unfold say_round at 1.
  split; [reflexivity|]. intros r. apply insist_follows. cbn. split; [reflexivity|]. intros _. exact IH.
Qed.
Lemma insist_terminal X T ms k : Forall T ms -> terminal_program X T k -> terminal_program X T (insist ms k).
Proof.
  intros H Hk. induction H as [|m ms Hm _ IH]; [exact Hk|]. cbn [insist]. split; [cbn; eauto|].
  intros [|e| |sz|c|]; [exact IH| | | | |]; cbn; repeat split.
Qed.
Lemma say_terminal X T d : (forall x, In x (kvalues d) -> Forall T (line_calls d x)) -> terminal_program X T (say_task d).
Proof.
  unfold say_task. induction (kvalues d) as [|x vs IH]; intros H; [exact I|]. cbn [fold_right]. unfold say_round at 1.
  split; [exact I|]. intros _. apply insist_terminal; [apply H; now left|]. split; [exact I|]. intros _. apply IH. intros y Y. apply H. now right.
Qed.

Lemma say_order kids (order : list (nat * list tmethod)) : (forall i, wrote None (nth i (map say_task kids) Finish) (done_by i order)) ->
  exists lines : list (nat * list N), (forall i, done_by i lines = kvalues (nth i kids nobody)) /\
    Forall2 same_call (concat (map snd order)) (concat (map (fun x => line_calls (nth (fst x) kids nobody) (snd x)) lines)).
Proof.
  intros H. destruct (plan_of (fun i p x => Forall2 same_call p (line_calls (nth i kids nobody) x)) order (fun i => kvalues (nth i kids nobody))) as (plan & P1 & P2).
  { intros i. apply (wrote_rounds (nth i kids nobody)). change Finish with (say_task nobody) in H. specialize (H i). rewrite map_nth in H. exact H. }
  exists plan. split; [exact P1|]. clear - P2. induction P2 as [|[i p] [j x] l l' [E1 E2] _ IH]; [constructor|]. cbn [fst snd map concat] in *. subst j.
  now apply Forall2_app.
Qed.

Lemma example_terminal E C K t0 : implements E C K -> full_caps C ->
  forall kids w d v tr c w', (forall e x, In e kids -> In x (kvalues e) -> Forall (sensible E) (line_calls e x)) ->
  whole_writes (script w) -> style_ok (sty (wat w)) -> look K (feed K t0 (stream w)) = Some v -> vattrs v = wat w ->
  run E C (start (map say_task kids) (Some w, d)) tr c -> finished c -> no_failure tr -> fst (shared c) = Some w' ->
  exists lines : list (nat * list N), (forall i, done_by i lines = kvalues (nth i kids nobody)) /\
    (perfect (script w) -> obuf w = [] -> obuf w' = []) /\
    exists v', look K (feed K t0 (stream w')) = Some v' /\ vattrs v' = wat w' /\
      effects E (map OnGuard (concat (map (fun x => line_calls (nth (fst x) kids nobody) (snd x)) lines))) v v'.
Proof.
  intros HK HC kids w d v tr c w' Hk Hw Hst Hl Hv R F Hf Hs.
  destruct (share_terminal E C K t0 HK HC (map say_task kids) w d v tr c w') as (order & O1 & O2 & v' & V1 & V2 & V3); auto.
  { apply Forall_forall. intros p Hi. apply in_map_iff in Hi. destruct Hi as (e & <- & Hi). split; [apply say_follows|]. apply say_terminal. eauto. }
  destruct (say_order kids order O1) as (lines & L1 & L2). exists lines. split; [exact L1|]. split; [exact O2|]. exists v'.
  split; [exact V1|]. split; [exact V2|]. exact (effects_forward E _ _ L2 _ _ V3).
Qed.
