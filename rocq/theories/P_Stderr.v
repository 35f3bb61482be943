(** Proofs about messages on standard error (C110). *)
From Verif Require Import Base M_Utf8 M_Geom S_Geom M_Attr M_Buf S_Buf P_Buf M_Seq M_Signal M_Util M_Input
  M_Writer S_Writer P_Writer P_Writer2 M_Screen M_Prepare M_Reader M_UnixScreen M_Stderr S_UnixScreen S_Stderr P_NoPanic2.
Local Open Scope nat_scope.

(** ** When messages can be printed *)
Lemma print_ok {S} unw l (s : S) : printable l -> exists l', eprintln unw l s = Goes s l' tt /\ printable l'.
Proof. intros H. destruct H as [|b l <- H]; [exists []|exists l]; split; auto; constructor. Qed.

Section Works.
  Variables (E : env) (C : tcfg).

  Definition no_answer (_ : option werr) : unit := tt.
  Lemma guard_works unw l w : printable l -> same_end (guard_drop_p unw l w) (guard_drop w) no_answer.
  Proof.
    intros H. unfold guard_drop_p, guard_drop. destruct (flush w) as [w' u|w' e| |]; cbn; auto.
    destruct (print_ok unw l w' H) as (l' & -> & H'). cbn. auto.
  Qed.
  Lemma drop_never_fails w w' e : guard_drop w <> Fail w' e.
  Proof. unfold guard_drop. destruct (flush w); discriminate. Qed.

  Lemma op_works unw l o w : printable l -> same_end (terminal_op_p C unw l o w) (run_terminal_op C o w) (fun e => e).
  Proof.
    intros H.
    assert (G : same_end (match run_wop C o w with
        | Ret w _ => fbind (guard_drop_p unw l w) (fun w l _ => Goes w l None)
        | Fail w e => fbind (guard_drop_p unw l w) (fun w l _ => Goes w l (Some e))
        | Panic => Ends true
        | Blocked => Ends false
        end) (match run_wop C o w with
        | Ret w' _ => guard_drop w'
        | Fail w' e => match guard_drop w' with Ret w'' _ => Fail w'' e | r => r end
        | r => r end) (fun e => e)).
    { destruct (run_wop C o w) as [w' u|w' e| |]; cbn; auto;
        pose proof (guard_works unw l w' H) as G; pose proof (drop_never_fails w') as N;
        destruct (guard_drop_p unw l w'), (guard_drop w'); cbn in *; try contradiction; try congruence; first [exact G | destruct (N _ _ eq_refl) | intuition]. }
    unfold terminal_op_p, run_terminal_op. destruct o; try exact G; destruct n; try exact G; cbn; auto.
  Qed.
  Lemma terminal_drop_works unw l w : printable l ->
    same_end (terminal_drop_p C unw l w) (match run_terminal_op C (OSetCursorMode CNormal) w with
      | Ret w _ | Fail w _ => Ret w tt | r => r end : wres) no_answer.
  Proof.
    intros H. unfold terminal_drop_p. pose proof (op_works unw l (OSetCursorMode CNormal) w H) as G.
    destruct (terminal_op_p C unw l (OSetCursorMode CNormal) w) as [w' l' a| | |p], (run_terminal_op C (OSetCursorMode CNormal) w) as [x u|x e| |];
      cbn [fbind same_end] in *; try contradiction; auto; destruct G as (-> & G & ->); [repeat split; exact G|].
    destruct (print_ok unw l' x G) as (l2 & -> & G2). cbn. auto.
  Qed.
  Lemma screen_guard_works l s : printable l -> same_end (screen_guard_drop_p E C false l s) (s_guard_drop E C s) no_answer.
  Proof.
    intros H. unfold screen_guard_drop_p, s_guard_drop.
    assert (D : forall l x, printable l -> same_end (within M_Screen.with_wr x (guard_drop_p false l (M_Screen.wr x))) (on_writer guard_drop x) no_answer).
    { intros l0 x H0. pose proof (guard_works false l0 (M_Screen.wr x) H0) as G. unfold on_writer.
      destruct (guard_drop_p false l0 (M_Screen.wr x)), (guard_drop (M_Screen.wr x)); cbn in *; auto; destruct G as (-> & G); auto. }
    destruct (refresh E C s) as [x u|x e| |]; cbn; auto.
    destruct (print_ok false l x H) as (l' & -> & H'). cbn [fbind]. auto.
  Qed.
  Lemma refresh_works l s : printable l -> same_end (screen_refresh_p E C l s) (screen_refresh E C s) (fun e => e).
  Proof.
    intros H. unfold screen_refresh_p, screen_refresh.
    assert (N : forall x y e, s_guard_drop E C x <> Fail y e).
    { intros x y e. unfold s_guard_drop, on_writer, guard_drop. destruct (refresh E C x) as [z u|z e'| |]; try discriminate;
        destruct (flush (M_Screen.wr z)); discriminate. }
    destruct (refresh E C s) as [x u|x e| |]; cbn; auto; pose proof (screen_guard_works l x H) as G; specialize (N x);
      destruct (screen_guard_drop_p E C false l x), (s_guard_drop E C x); cbn in *; try contradiction; try congruence; first [exact G | destruct (N _ _ eq_refl) | intuition].
  Qed.

  (** Dropping a screen. *)
  Lemma locked_works {A} (f : sys -> rres A) l s : printable l ->
    match locked_p f l s, with_guard f s with
    | Goes x l' (inr a), Ret x' a' => x = x' /\ printable l' /\ a = a'
    | Goes x l' (inl e), Fail x' e' => x = x' /\ printable l' /\ e = e'
    | Ends true, Panic | Ends false, Blocked => True
    | _, _ => False
    end.
  Proof.
    intros H. unfold locked_p, with_guard.
    assert (D : forall x, same_end (within M_Prepare.with_wr x (guard_drop_p false l (M_Prepare.wr x))) (on_wr guard_drop x) (fun _ => tt)).
    { intros x. pose proof (guard_works false l (M_Prepare.wr x) H) as G. pose proof (drop_never_fails (M_Prepare.wr x)) as N. unfold on_wr.
      destruct (guard_drop_p false l (M_Prepare.wr x)), (guard_drop (M_Prepare.wr x)); cbn in *; auto; first [destruct (N _ _ eq_refl) | destruct G as (-> & G); auto]. }
    assert (N : forall x y e, on_wr guard_drop x <> Fail y e).
    { intros x y e. unfold on_wr. pose proof (drop_never_fails (M_Prepare.wr x)) as N. destruct (guard_drop (M_Prepare.wr x)); try discriminate. destruct (N _ _ eq_refl). }
    destruct (f s) as [x a|x e| |]; auto; specialize (D x); specialize (N x);
      destruct (within M_Prepare.with_wr x (guard_drop_p false l (M_Prepare.wr x))), (on_wr guard_drop x); cbn in *; try contradiction; try congruence; first [exact D | destruct (N _ _ eq_refl) | intuition].
  Qed.
  Lemma leave_works l st s : printable l ->
    same_end (leave_p C l st s) (match leave C st s with Ret s _ => Ret s tt | Fail s e => Fail s e | Panic => Panic | Blocked => Blocked end : rres unit) (fun _ => tt).
  Proof.
    intros H. unfold leave_p, leave, restore. pose proof (locked_works (restore_with_lock C st) l s H) as G.
    destruct (locked_p (restore_with_lock C st) l s) as [x l1 [e|a]|x l1| |p], (with_guard (restore_with_lock C st) s) as [y b|y e'| |];
      cbn [fbind]; try contradiction; auto; try (destruct p; contradiction || exact I).
    - destruct G as (-> & G & ->). destruct (print_ok false l1 y G) as (l2 & -> & G2). cbn. auto.
    - destruct G as (-> & G & ->). unfold locked. pose proof (locked_works (on_wr (exit_screen C)) l1 y G) as G1.
      destruct (locked_p (on_wr (exit_screen C)) l1 y) as [x2 l2 [e2|a2]|x2 l2| |p], (with_guard (on_wr (exit_screen C)) y) as [y2 b2|y2 e2'| |];
        cbn [fbind]; try contradiction; auto; try (destruct p; contradiction || exact I).
      + destruct G1 as (-> & G1 & ->). destruct (print_ok false l2 y2 G1) as (l3 & -> & G3). cbn. auto.
      + destruct G1 as (-> & G1 & ->). cbn. auto.
  Qed.
  Lemma leave_never_fails st s x e : leave C st s <> Fail x e.
  Proof. unfold leave. destruct (restore C st s) as [y u|y e'| |]; try discriminate. destruct (locked (exit_screen C) y); discriminate. Qed.
  Lemma screen_drop_works l u : printable l ->
    same_end (screen_drop_p C l u) (match screen_drop C u with Ret s _ => Ret s tt | Fail s e => Fail s e | Panic => Panic | Blocked => Blocked end : rres unit) (fun _ => tt).
  Proof.
    intros H. unfold screen_drop_p, screen_drop. pose proof (leave_never_fails (u_st u) (u_sys u)) as N. pose proof (leave_works l (u_st u) (u_sys u) H) as G.
    destruct (leave_p C l (u_st u) (u_sys u)) as [x l1 a|x l1| |p], (leave C (u_st u) (u_sys u)) as [y b|y e'| |];
      cbn [obind] in *; cbn in G; try contradiction; auto; try (destruct p; contradiction); try destruct (N _ _ eq_refl).
    destruct G as (-> & G & _). unfold terminal_drop, on_wr.
      pose proof (terminal_drop_works false l1 (M_Prepare.wr y) G) as T.
      destruct (terminal_drop_p C false l1 (M_Prepare.wr y)) as [w2 l2 a2|w2 l2| |p2],
        (run_terminal_op C (OSetCursorMode CNormal) (M_Prepare.wr y)) as [w3 u3|w3 e3| |]; cbn in *; try contradiction; auto;
        destruct T as (-> & T & ->); auto.
  Qed.
End Works.

(** ** When every write fails *)
Definition dead (k : nat) (w : wst) : Prop := Forall (fun r => exists e, r = WErr e) (script w) /\ k <= length (script w).
Lemma dead_whole k w : dead k w -> whole_writes (script w).
Proof. intros (H & _). unfold whole_writes. eapply Forall_impl; [|exact H]. intros r (e & ->). exact I. Qed.

(** What a method does then: nothing reaches the device; if output was waiting, some is
    afterwards; and at most one write was tried. *)
Definition tries {A} (w : wst) (r : out wst werr A) : Prop :=
  match r with
  | Ret w' _ => dev w' = dev w /\ script w' = script w /\ (obuf w <> [] -> obuf w' <> [])
  | Fail w' _ => dev w' = dev w /\ (script w' = script w \/ exists r, script w = r :: script w') /\ (obuf w <> [] -> obuf w' <> [])
  | Panic => True
  | Blocked => script w = []
  end.
Lemma tries_bind {A B} w (r : out wst werr A) (k : wst -> A -> out wst werr B) :
  tries w r -> (forall w' a, script w' = script w -> tries w' (k w' a)) -> tries w (obind r k).
Proof.
  intros H1 H2. destruct r as [w' a|w' e| |]; cbn in *; auto.
  destruct H1 as (D1 & S1 & O1). specialize (H2 w' a S1). unfold tries in *. destruct (k w' a); auto.
  - destruct H2 as (D2 & S2 & O2). repeat split; try congruence. auto.
  - destruct H2 as (D2 & S2 & O2). repeat split; try congruence; auto. rewrite <- S1. exact S2.
  - congruence.
Qed.
Lemma quiet_tries {A} w (r : out wst werr A) : quiet w r -> tries w r.
Proof.
  assert (N : forall w' x, obuf w' = obuf w ++ x -> obuf w <> [] -> obuf w' <> []).
  { intros w' x E1 N E2. rewrite E1 in E2. apply app_eq_nil in E2 as (E2 & _). contradiction. }
  destruct r as [w' a|w' e| |]; cbn; try contradiction; auto; intros (H1 & H2 & x & H3); repeat split; auto; eapply N; eauto.
Qed.
Lemma dead_flush k w : dead (S k) w ->
  (obuf w = [] /\ flush w = Ret w tt) \/
  (obuf w <> [] /\ exists e sc, script w = WErr e :: sc /\ flush w = Fail (with_io (dev w) sc w) (EOs e)).
Proof.
  intros (H1 & H2). unfold flush. destruct w as [ob oc wa wc dv scr]. cbn [obuf script dev] in *.
  destruct ob as [|b ob].
  - left. split; [reflexivity|]. destruct scr; reflexivity.
  - right. split; [discriminate|]. destruct scr as [|r sc]; [cbn in H2; lia|]. inversion H1 as [|? ? (e & ->) H3]; subst.
    exists e, sc. split; reflexivity.
Qed.
Lemma tries_flush w : Forall (fun r => exists e, r = WErr e) (script w) -> tries w (flush w).
Proof.
  intros H. destruct (script w) as [|r sc] eqn:Es.
  - unfold flush. rewrite Es. destruct (obuf w) as [|b ob] eqn:Eo; cbn; [|exact Es]. rewrite Es. repeat split; congruence.
  - destruct (dead_flush 0 w) as [(H1 & ->)|(H1 & e & sc' & H2 & ->)]; [split; [now rewrite Es|rewrite Es; cbn; lia]| |].
    + repeat split; auto.
    + cbn. repeat split; auto. right. exists (WErr e). exact H2.
Qed.
Lemma dead_writes buf d sc : Forall (fun r => exists e, r = WErr e) sc -> buf <> [] ->
  match write_data buf 0 d sc with
  | None => sc = []
  | Some (n, r, d', sc') => d' = d /\ r <> None /\ exists r, sc = r :: sc'
  end.
Proof.
  intros H Hb. destruct buf as [|b buf]; [congruence|]. destruct sc as [|r sc]; [reflexivity|].
  inversion H as [|? ? (e & ->) H3]; subst. cbn. repeat split; [discriminate|]. eauto.
Qed.
Lemma tries_write C buf w : Forall (fun r => exists e, r = WErr e) (script w) -> tries w (write_bytes C buf w).
Proof.
  intros H. unfold write_bytes. set (r := if _ : bool then _ else _).
  assert (R : tries w r /\ forall w' a, r = Ret w' a -> obuf w' = [] \/ length buf <= ocap w').
  { subst r. destruct (Nat.ltb_spec (ocap w) (length buf + length (obuf w))).
    - split; [now apply tries_flush|]. intros w' a. unfold flush. destruct (write_data _ _ _ _) as [[[[n x] d] sc]|] eqn:Ew; [|discriminate].
      destruct (Nat.leb_spec n (length (obuf w))); [|discriminate]. destruct x; [discriminate|]. intros E1. injection E1 as <- _. left.
      assert (X := write_data_whole0 (obuf w) (dev w) (script w)). rewrite Ew in X. destruct X as [_ [(X & _)|(_ & X & _)]].
      + unfold whole_writes. eapply Forall_impl; [|exact H]. intros r (e & ->). exact I.
      + cbn. subst n. apply skipn_all.
      + congruence.
    - split; [repeat split; auto|]. intros w' a E1. injection E1 as <- _. right. lia. }
  destruct R as [R1 R2]. destruct r as [w1 u|w1 e| |]; cbn [obind]; auto. specialize (R2 w1 u eq_refl).
  destruct R1 as (D1 & S1 & O1). destruct (Nat.ltb_spec (ocap w1) (length buf)) as [Hc|Hc].
  - destruct R2 as [R2|R2]; [|lia]. assert (Hb : buf <> []) by (intros ->; cbn in Hc; lia).
    rewrite S1. pose proof (dead_writes buf (dev w1) (script w) H Hb) as X.
    destruct (write_data buf 0 (dev w1) (script w)) as [[[[n x] d] sc]|]; [|exact X].
    destruct X as (-> & Hx & Hr). destruct x; [|congruence]. cbn. rewrite D1. repeat split; auto.
  - cbn. repeat split; auto. intros O2 E2. apply app_eq_nil in E2 as (E2 & _). now apply O1.
Qed.

Section Dead.
  Variables (E : env) (C : tcfg).
  Lemma tries_op o w : Forall (fun r => exists e, r = WErr e) (script w) -> tries w (run_wop C o w).
  Proof.
    intros H. assert (Hd : writes o \/ ~ writes o) by (destruct o; cbn; auto).
    destruct Hd as [Hd|Hd]; [|apply quiet_tries; now apply quiet_op].
    destruct o; try contradiction; cbn [run_wop]; try (now apply tries_write); try (now apply tries_flush).
    unfold write_styled. apply tries_bind; [apply quiet_tries, quiet_set_attrs|]. intros w1 u1 S1.
    apply tries_bind; [apply tries_write; now rewrite S1|]. intros w2 u2 S2. apply quiet_tries, quiet_clear.
  Qed.
  Lemma tries_dead {A} k w (r : out wst werr A) : tries w r -> dead (S k) w ->
    match r with Ret w' _ => dead (S k) w' | Fail w' _ => dead k w' | Panic => True | Blocked => False end.
  Proof.
    intros H (D1 & D2). unfold dead. destruct r as [w' a|w' e| |]; cbn in *; auto.
    - destruct H as (_ & -> & _). split; auto.
    - destruct H as (_ & [->|(r & Hr)] & _); [split; auto; lia|]. rewrite Hr in *. inversion D1; subst. split; auto. cbn in D2. lia.
    - rewrite H in D2. cbn in D2. lia.
  Qed.

  (** Dropping a guard. *)
  Lemma dead_guard k unw l w : dead (S k) w ->
    (obuf w = [] /\ guard_drop_p unw l w = Goes w l tt) \/
    (obuf w <> [] /\ exists w', dev w' = dev w /\ obuf w' = obuf w /\ dead k w' /\ guard_drop_p unw l w = eprintln unw l w').
  Proof.
    intros H. unfold guard_drop_p. destruct (dead_flush k w H) as [(H1 & ->)|(H1 & e & sc & H2 & ->)]; [now left|right].
    split; [exact H1|]. eexists. split; [|split; [|split; [|reflexivity]]]; try reflexivity.
    destruct H as (F & L). rewrite H2 in *. inversion F; subst. split; [assumption|]. cbn in *. lia.
  Qed.

  (** A method of the terminal whose messages are refused: with output left it panics. *)
  Lemma dead_op_pending l o w : dead 2 w -> obuf w <> [] ->
    match o with OMoveUp 0 | OMoveDown 0 | OMoveLeft 0 | OMoveRight 0 => False | _ => True end ->
    exists w', terminal_op_p C false (false :: l) o w = Unwinds w' l.
  Proof.
    intros Hw Hp Ho.
    assert (G : exists w', (match run_wop C o w with
        | Ret w _ => fbind (guard_drop_p false (false :: l) w) (fun w l _ => Goes w l None)
        | Fail w e => fbind (guard_drop_p false (false :: l) w) (fun w l _ => Goes w l (Some e))
        | Panic => Ends true
        | Blocked => Ends false
        end) = Unwinds w' l).
    { pose proof (tries_op o w (proj1 Hw)) as T. pose proof (tries_dead 1 w _ T Hw) as D.
      pose proof (op_no_panic C o w (dead_whole _ _ Hw)) as P.
      destruct (run_wop C o w) as [w1 u|w1 e| |]; try contradiction; try congruence; destruct T as (_ & _ & T1).
      - destruct (dead_guard 1 false (false :: l) w1 D) as [(H1 & ->)|(H1 & w2 & H2 & H3 & H4 & ->)]; [destruct (T1 Hp H1)|]. now exists w2.
      - destruct (dead_guard 0 false (false :: l) w1 D) as [(H1 & ->)|(H1 & w2 & H2 & H3 & H4 & ->)]; [destruct (T1 Hp H1)|]. now exists w2. }
    unfold terminal_op_p. destruct o; try exact G; destruct n; try exact G; contradiction.
  Qed.

  (** Refreshing a screen. *)
  Definition stries (s : scr) (r : sres) : Prop :=
    match r with
    | Ret s' _ => tries (M_Screen.wr s) (Ret (M_Screen.wr s') tt : wres)
    | Fail s' e => tries (M_Screen.wr s) (Fail (M_Screen.wr s') e : wres)
    | Panic => True
    | Blocked => script (M_Screen.wr s) = []
    end.
  Lemma stries_refl s : stries s (Ret s tt).
  Proof. cbn. auto. Qed.
  Lemma stries_bind s r (k : scr -> unit -> sres) :
    stries s r -> (forall s' u, script (M_Screen.wr s') = script (M_Screen.wr s) -> stries s' (k s' u)) -> stries s (obind r k).
  Proof.
    intros H1 H2. destruct r as [s' a|s' e| |]; cbn [obind]; auto.
    assert (S1 : script (M_Screen.wr s') = script (M_Screen.wr s)) by apply H1.
    specialize (H2 s' a S1). destruct H1 as (D1 & _ & O1). unfold stries, tries in *. destruct (k s' a) as [x b|x e| |]; auto.
    - destruct H2 as (D2 & S2 & O2). repeat split; try congruence. auto.
    - destruct H2 as (D2 & S2 & O2). repeat split; try congruence; auto. rewrite <- S1. exact S2.
    - congruence.
  Qed.
  Lemma stries_on f s : tries (M_Screen.wr s) (f (M_Screen.wr s)) -> stries s (on_writer f s).
  Proof. unfold on_writer. destruct (f (M_Screen.wr s)); auto. Qed.
  Definition alldead (s : scr) : Prop := Forall (fun r => exists e, r = WErr e) (script (M_Screen.wr s)).
  Lemma stries_op o s : alldead s -> stries s (on_writer (run_wop C o) s).
  Proof. intros H. apply stries_on. now apply tries_op. Qed.
  Lemma stries_move p s : alldead s -> stries s (s_move_cursor C p s).
  Proof.
    intros H. unfold s_move_cursor. destruct (cursor_eqb _ _); [apply stries_refl|].
    apply stries_bind; [exact (stries_op (OMoveCursor p) s H)|]. intros x u _. cbn. auto.
  Qed.
  Lemma stries_draw fuel : forall lo hi s, alldead s -> stries s (draw E C fuel lo hi s).
  Proof.
    induction fuel as [|fuel IH]; intros lo hi s H; cbn [draw]; destruct (next_cell E (sb s) lo hi) as [[[b lo'] [[p c]|]]|]; try exact I;
      try (cbn; auto; fail).
    all: apply (stries_bind s (s_move_cursor C p (with_sb b s))); [exact (stries_move p (with_sb b s) H)|]; intros s1 u1 S1.
    all: assert (H1 : alldead s1) by (unfold alldead; rewrite S1; exact H).
    all: apply stries_bind; [exact (stries_op (OSetAttrs (cattrs c)) s1 H1)|]; intros s2 u2 S2.
    all: assert (H2 : alldead s2) by (unfold alldead; rewrite S2; exact H1).
    all: apply stries_bind; [exact (stries_op (OWriteStr (ctext c)) s2 H2)|]; intros s3 u3 S3.
    all: assert (H3 : alldead s3) by (unfold alldead; rewrite S3; exact H2).
    all: destruct (uadd _ _ _) as [col|]; try exact I.
    apply (IH lo' hi (with_real (Cursor (line (real s3)) col) s3) H3).
  Qed.
  Lemma stries_compose s : alldead s -> stries s (compose E C s).
  Proof.
    intros H. unfold compose. apply stries_bind.
    { destruct (clr s); [|apply stries_refl]. apply stries_bind; [exact (stries_op OClearScreen s H)|]. intros x u _. cbn. auto. }
    intros s1 u1 S1. assert (H1 : alldead s1) by (unfold alldead; rewrite S1; exact H).
    apply stries_bind; [exact (stries_op OClearAttributes s1 H1)|]. intros s2 u2 S2. assert (H2 : alldead s2) by (unfold alldead; rewrite S2; exact H1).
    destruct (sb_indices E (sb s2)) as [[lo hi]|]; [|exact I].
    apply stries_bind; [now apply stries_draw|]. intros s3 u3 S3. assert (H3 : alldead s3) by (unfold alldead; rewrite S3; exact H2).
    apply stries_bind; [exact (stries_op OClearAttributes s3 H3)|]. intros s4 u4 S4. assert (H4 : alldead s4) by (unfold alldead; rewrite S4; exact H3).
    destruct (is_out_of_bounds _ _); [|now apply stries_move]. destruct (cursor_last _); [now apply stries_move|exact I].
  Qed.
  Lemma refresh_dead k s : dead (S k) (M_Screen.wr s) ->
    match refresh E C s with
    | Ret s' _ => dead (S k) (M_Screen.wr s') /\ obuf (M_Screen.wr s') = [] /\ dev (M_Screen.wr s') = dev (M_Screen.wr s) /\
                  obuf (M_Screen.wr s) = []
    | Fail s' _ => dead k (M_Screen.wr s') /\ dev (M_Screen.wr s') = dev (M_Screen.wr s) /\
                   (obuf (M_Screen.wr s) <> [] -> obuf (M_Screen.wr s') <> [])
    | Panic => True
    | Blocked => False
    end.
  Proof.
    intros H. pose proof (stries_compose s (proj1 H)) as T. unfold refresh.
    destruct (compose E C s) as [x u|x e| |]; cbn [obind stries] in *; auto.
    - pose proof (tries_dead k _ _ T H) as D. cbn in D. destruct T as (T1 & T2 & T3). unfold on_writer.
      destruct (dead_flush k _ D) as [(F1 & ->)|(F1 & e & sc & F2 & ->)]; cbn.
      + split; [destruct D as (D1 & D2); split; assumption|]. repeat split; auto.
        destruct (obuf (M_Screen.wr s)); [reflexivity|]. exfalso. now apply T3.
      + destruct D as (D1 & D2). rewrite F2 in D1, D2. inversion D1; subst. cbn in D2. repeat split; auto. cbn. lia.
    - pose proof (tries_dead k _ _ T H) as D. cbn in D. destruct T as (T1 & T2 & T3). auto.
    - destruct H as (_ & H). rewrite T in H. cbn in H. lia.
  Qed.

  (** Dropping a screen's guard. *)
  Lemma dead_screen_guard l s : dead 2 (M_Screen.wr s) -> refresh E C s <> Panic ->
    match screen_guard_drop_p E C false (false :: false :: l) s with
    | Goes s' _ _ => obuf (M_Screen.wr s') = [] /\ obuf (M_Screen.wr s) = []
    | Unwinds s' _ => obuf (M_Screen.wr s') = [] /\ obuf (M_Screen.wr s) = []
    | Aborts => True
    | Ends _ => False
    end.
  Proof.
    intros H P. unfold screen_guard_drop_p. pose proof (refresh_dead 1 s H) as R.
    destruct (refresh E C s) as [x u|x e| |]; try contradiction; try congruence.
    - destruct R as (R1 & R2 & R3 & R4). destruct (dead_guard 1 false (false :: false :: l) _ R1) as [(G1 & ->)|(G1 & _)]; [|congruence].
      cbn. auto.
    - destruct R as (R1 & R2 & R3). cbn [eprintln]. destruct (dead_guard 0 true (false :: l) _ R1) as [(G1 & ->)|(G1 & w & G2 & G3 & G4 & ->)].
      + cbn. split; [exact G1|]. destruct (obuf (M_Screen.wr s)); [reflexivity|]. exfalso. now apply R3.
      + exact I.
  Qed.

  (** Dropping a screen. *)
  Lemma dead_restore st s : dead 1 (M_Prepare.wr s) -> obuf (M_Prepare.wr s) <> [] ->
    exists s' e, restore_with_lock C st s = Fail s' e /\ obuf (M_Prepare.wr s') <> [] /\
      dead 0 (M_Prepare.wr s') /\ length (script (M_Prepare.wr s)) <= S (length (script (M_Prepare.wr s'))).
  Proof.
    intros H Hp. unfold restore_with_lock. cbv zeta.
    assert (K : forall {A} (f : wst -> out wst werr A) x, dead 1 (M_Prepare.wr x) -> obuf (M_Prepare.wr x) <> [] ->
      tries (M_Prepare.wr x) (f (M_Prepare.wr x)) -> f (M_Prepare.wr x) <> Panic ->
      (exists y a, on_wr f x = Ret y a /\ obuf (M_Prepare.wr y) <> [] /\ script (M_Prepare.wr y) = script (M_Prepare.wr x)) \/
      (exists y e, on_wr f x = Fail y e /\ obuf (M_Prepare.wr y) <> [] /\ dead 0 (M_Prepare.wr y) /\
         length (script (M_Prepare.wr x)) <= S (length (script (M_Prepare.wr y))))).
    { intros A f x Hx Ho T P. pose proof (tries_dead 0 _ _ T Hx) as D. unfold on_wr.
      destruct (f (M_Prepare.wr x)) as [w a|w e| |]; try contradiction; try congruence.
      - left. do 2 eexists. split; [reflexivity|]. destruct T as (_ & T2 & T3). split; [exact (T3 Ho)|exact T2].
      - right. do 2 eexists. split; [reflexivity|]. destruct T as (_ & T2 & T3). split; [exact (T3 Ho)|]. split; [exact D|].
        destruct T2 as [T2|(r & T2)]; cbn in *; rewrite T2; cbn; lia. }
    set (s0 := with_resume _ s). change (M_Prepare.wr s) with (M_Prepare.wr s0) in H, Hp. 
    change (script (M_Prepare.wr s)) with (script (M_Prepare.wr s0)).
    assert (X : forall b (f : wst -> wres) x, dead 1 (M_Prepare.wr x) -> obuf (M_Prepare.wr x) <> [] ->
      (forall w, Forall (fun r => exists e, r = WErr e) (script w) -> tries w (f w) /\ f w <> Panic) ->
      let r : out sys rerr unit := if b : bool then on_wr f x else Ret x tt in
      (exists y a, r = Ret y a /\ obuf (M_Prepare.wr y) <> [] /\ script (M_Prepare.wr y) = script (M_Prepare.wr x)) \/
      (exists y e, r = Fail y e /\ obuf (M_Prepare.wr y) <> [] /\ dead 0 (M_Prepare.wr y) /\
         length (script (M_Prepare.wr x)) <= S (length (script (M_Prepare.wr y))))).
    { intros b f x Hx Ho Hf r. destruct b; subst r; [|left; exists x, tt; auto]. destruct (Hf (M_Prepare.wr x) (proj1 Hx)) as [F1 F2].
      apply K; auto. }
    assert (M : forall w, Forall (fun r => exists e, r = WErr e) (script w) -> tries w (disable_mouse C w) /\ disable_mouse C w <> Panic).
    { intros w Hw. split.
      - unfold disable_mouse. apply tries_bind; [now apply tries_write|]. intros w1 u S1. apply tries_write. now rewrite S1.
      - assert (W : forall buf w, Forall (fun r => exists e, r = WErr e) (script w) -> write_bytes C buf w <> Panic).
        { intros buf w0 W0 Q. pose proof (write_bytes_whole C buf w0) as Z. rewrite Q in Z. apply Z.
          unfold whole_writes. eapply Forall_impl; [|exact W0]. intros r (e & ->). exact I. }
        unfold disable_mouse. pose proof (tries_write C XTERM_DISABLE_MOUSE w Hw) as T. pose proof (W XTERM_DISABLE_MOUSE w Hw) as P.
        destruct (write_bytes C XTERM_DISABLE_MOUSE w) as [w1 u|w1 e| |]; cbn [obind]; try discriminate; try congruence.
        apply W. destruct T as (_ & T & _). now rewrite T. }
    assert (Q : forall w, Forall (fun r => exists e, r = WErr e) (script w) -> tries w (disable_keypad C w) /\ disable_keypad C w <> Panic).
    { intros w Hw. split; [apply quiet_tries, quiet_opt|]. unfold disable_keypad, expand_opt, expand. destruct (info C KeypadLocal) as [e|]; [|discriminate].
      destruct (e (wctx w) []) as [[bs kk] []]; discriminate. }
    destruct (X (restore_mouse st) (disable_mouse C) s0 H Hp M) as [(s1 & u1 & -> & O1 & S1)|(s1 & e1 & -> & R)]; cbn [obind].
    2: { exists s1, e1. split; [reflexivity|exact R]. }
    assert (H1 : dead 1 (M_Prepare.wr s1)) by (unfold dead; rewrite S1; exact H).
    destruct (X (restore_keypad st) (disable_keypad C) s1 H1 O1 Q) as [(s2 & u2 & -> & O2 & S2)|(s2 & e2 & -> & R)]; cbn [obind].
    2: { exists s2, e2. split; [reflexivity|]. rewrite S1 in R. exact R. }
    assert (H2 : dead 1 (M_Prepare.wr s2)) by (unfold dead; rewrite S2; exact H1).
    unfold on_wr. destruct (dead_flush 0 _ H2) as [(F1 & _)|(F1 & e & sc & F2 & ->)]; [contradiction|]. cbn [obind].
    do 2 eexists. split; [reflexivity|]. split; [exact F1|]. rewrite S1 in S2. rewrite <- S2, F2. cbn. split; [|lia].
    destruct H2 as (H2 & _). rewrite F2 in H2. inversion H2; subst. split; [assumption|cbn; lia].
  Qed.
  Lemma dead_screen_drop l u : dead 2 (M_Prepare.wr (u_sys u)) -> obuf (M_Prepare.wr (u_sys u)) <> [] ->
    screen_drop_p C (false :: l) u = Aborts.
  Proof.
    intros (H & Hn) Hp. unfold screen_drop_p, leave_p, poisoned.
    destruct (dead_restore (u_st u) (u_sys u)) as (s & e & R & O & D & L); [split; [exact H|lia]|exact Hp|].
    assert (D1 : dead 1 (M_Prepare.wr s)) by (destruct D as (D & _); split; [exact D|lia]).
    destruct (dead_guard 0 false (false :: l) _ D1) as [(G1 & _)|(G1 & w & G2 & G3 & G4 & G5)]; [contradiction|].
    assert (U : locked_p (restore_with_lock C (u_st u)) (false :: l) (u_sys u) = Unwinds (M_Prepare.with_wr w s) l).
    { unfold locked_p. rewrite R. cbv zeta. rewrite G5. reflexivity. }
    rewrite U. reflexivity.
  Qed.

  (** Whether or not anything is pending. *)
  Definition rtries (s : sys) (r : rres unit) : Prop :=
    match r with
    | Ret s' _ => script (M_Prepare.wr s') = script (M_Prepare.wr s)
    | Fail s' _ => script (M_Prepare.wr s') = script (M_Prepare.wr s) \/ exists x, script (M_Prepare.wr s) = x :: script (M_Prepare.wr s')
    | _ => False
    end.
  Lemma rtries_bind s r (k : sys -> unit -> rres unit) : rtries s r ->
    (forall s' u, script (M_Prepare.wr s') = script (M_Prepare.wr s) -> rtries s' (k s' u)) -> rtries s (obind r k).
  Proof.
    intros H1 H2. destruct r as [s' u|s' e| |]; cbn [obind]; auto. specialize (H2 s' u H1). cbn in H1. unfold rtries in *.
    now rewrite H1 in H2.
  Qed.
  Lemma rtries_tcsetattr t s : rtries s (tcsetattr t s).
  Proof. unfold tcsetattr, os_call. destruct (os s) as [|[e|] l]; cbn; auto. Qed.
  Lemma rtries_put_back n o s : rtries s (put_back n o s).
  Proof. unfold put_back, sigaction, os_call. destruct o; [|reflexivity]. destruct (os s) as [|[e|] l]; cbn; auto. Qed.
  Lemma rtries_on (f : wst -> wres) s : tries (M_Prepare.wr s) (f (M_Prepare.wr s)) -> f (M_Prepare.wr s) <> Panic ->
    script (M_Prepare.wr s) <> [] -> rtries s (on_wr f s).
  Proof.
    intros T P H. unfold on_wr. destruct (f (M_Prepare.wr s)) as [w a|w e| |]; cbn in *; try congruence; [apply T|].
    destruct T as (_ & [T|(r & T)] & _); [left; exact T|right]. eexists; exact T.
  Qed.
  Lemma dead_disable_mouse w : Forall (fun r => exists e, r = WErr e) (script w) -> tries w (disable_mouse C w) /\ disable_mouse C w <> Panic.
  Proof.
    intros Hw. split.
    - unfold disable_mouse. apply tries_bind; [now apply tries_write|]. intros w1 u S1. apply tries_write. now rewrite S1.
    - assert (W : forall buf w, Forall (fun r => exists e, r = WErr e) (script w) -> write_bytes C buf w <> Panic).
      { intros buf w0 W0 Q. pose proof (write_bytes_whole C buf w0) as Z. rewrite Q in Z. apply Z.
        unfold whole_writes. eapply Forall_impl; [|exact W0]. intros r (e & ->). exact I. }
      unfold disable_mouse. pose proof (tries_write C XTERM_DISABLE_MOUSE w Hw) as T. pose proof (W XTERM_DISABLE_MOUSE w Hw) as P.
      destruct (write_bytes C XTERM_DISABLE_MOUSE w) as [w1 u|w1 e| |]; cbn [obind]; try discriminate; try congruence.
      apply W. destruct T as (_ & T & _). now rewrite T.
  Qed.
  Lemma dead_expand c ps w : tries w (expand_opt C c ps w) /\ expand_opt C c ps w <> Panic.
  Proof.
    split; [apply quiet_tries, quiet_opt|]. unfold expand_opt, expand. destruct (info C c) as [e|]; [|discriminate].
    destruct (e (wctx w) ps) as [[bs kk] []]; discriminate.
  Qed.
  Lemma dead_flush_no_panic w : Forall (fun r => exists e, r = WErr e) (script w) -> tries w (flush w) /\ flush w <> Panic.
  Proof.
    intros H. split; [now apply tries_flush|]. exact (op_no_panic C OFlush w (dead_whole 0 w (conj H (Nat.le_0_l _)))).
  Qed.
  Lemma rtries_restore st s : dead 1 (M_Prepare.wr s) -> rtries s (restore_with_lock C st s).
  Proof.
    intros (H & Hn). unfold restore_with_lock. cbv zeta. set (s0 := with_resume _ s).
    change (M_Prepare.wr s) with (M_Prepare.wr s0) in H, Hn. change (rtries s) with (rtries s0).
    assert (HN : script (M_Prepare.wr s0) <> []) by (destruct (script (M_Prepare.wr s0)); [cbn in Hn; lia|discriminate]).
    clearbody s0. clear Hn s.
    apply rtries_bind.
    { destruct (restore_mouse st); [|reflexivity]. destruct (dead_disable_mouse _ H). now apply rtries_on. }
    intros s1 _u1 S1. rewrite <- S1 in H, HN. apply rtries_bind.
    { destruct (restore_keypad st); [|reflexivity]. destruct (dead_expand KeypadLocal [] (M_Prepare.wr s1)). now apply rtries_on. }
    intros s2 _u2 S2. rewrite <- S2 in H, HN. apply rtries_bind.
    { destruct (dead_flush_no_panic _ H). now apply rtries_on. }
    intros s3 _u3 _. apply rtries_bind; [apply rtries_tcsetattr|]. intros s4 _u4 _.
    do 4 (apply rtries_bind; [apply rtries_put_back|]; intros ? ? _). apply rtries_put_back.
  Qed.
  Lemma dead_terminal_drop l w : dead 2 w -> (forall k, cap_bytes C CursorNormal k <> []) ->
    terminal_drop_p C true (false :: l) w = Aborts.
  Proof.
    intros H Hc. unfold terminal_drop_p, terminal_op_p. change (run_wop C (OSetCursorMode CNormal) w) with (expand_opt C CursorNormal [] w).
    destruct (dead_expand CursorNormal [] w) as [T P]. pose proof (tries_dead 1 _ _ T H) as D.
    assert (N : match expand_opt C CursorNormal [] w with Ret w' _ | Fail w' _ => obuf w' <> [] | _ => False end).
    { specialize (Hc (wctx w)). unfold cap_bytes in Hc. unfold expand_opt, expand. destruct (info C CursorNormal) as [e|]; [|congruence].
      destruct (e (wctx w) []) as [[bs kk] []]; cbn in *; destruct (obuf w); cbn; congruence. }
    destruct (expand_opt C CursorNormal [] w) as [w1 u|w1 e| |]; try contradiction.
    - destruct (dead_guard 1 true (false :: l) _ D) as [(G1 & _)|(G1 & w2 & _ & _ & _ & ->)]; [contradiction|reflexivity].
    - destruct (dead_guard 0 true (false :: l) _ D) as [(G1 & _)|(G1 & w2 & _ & _ & _ & ->)]; [contradiction|reflexivity].
  Qed.
  Lemma dead_exit l s : dead 2 (M_Prepare.wr s) -> (forall k, cap_bytes C ExitCaMode k <> []) ->
    exists x, locked_p (on_wr (exit_screen C)) (false :: l) s = Unwinds x l.
  Proof.
    intros H Hc. unfold locked_p, on_wr, exit_screen. specialize (Hc (wctx (M_Prepare.wr s))). unfold cap_bytes in Hc.
    destruct (info C ExitCaMode) as [e|]; [|congruence]. unfold expand.
    destruct (e (wctx (M_Prepare.wr s)) []) as [[bs kk] ok]. cbn in Hc. set (w1 := with_wctx kk _).
    assert (N : obuf w1 <> []) by (cbn; destruct (obuf (M_Prepare.wr s)); cbn; congruence).
    assert (D : dead 2 w1) by exact H. clearbody w1.
    assert (G : forall w, dead 1 w -> obuf w <> [] -> exists w', guard_drop_p false (false :: l) w = Unwinds w' l).
    { intros w Hw Hn. destruct (dead_guard 0 false (false :: l) _ Hw) as [(G1 & _)|(G1 & w2 & _ & _ & _ & ->)]; [contradiction|]. now exists w2. }
    destruct ok; cbn [obind].
    - destruct (dead_flush 1 _ D) as [(F1 & _)|(F1 & e1 & sc & F2 & ->)]; [contradiction|].
      destruct (G (with_io (dev w1) sc w1)) as (w' & E1); [destruct D as (D1 & D2); rewrite F2 in D1, D2; inversion D1; subst; split; [assumption|cbn in *; lia]|exact F1|].
      cbv zeta. change (M_Prepare.wr (M_Prepare.with_wr (with_io (dev w1) sc w1) s)) with (with_io (dev w1) sc w1).
      rewrite E1. eexists. reflexivity.
    - destruct (G w1) as (w' & E1); [destruct D as (D1 & D2); split; [exact D1|lia]|exact N|].
      cbv zeta. change (M_Prepare.wr (M_Prepare.with_wr w1 s)) with w1. rewrite E1. eexists. reflexivity.
  Qed.
  Lemma dead_screen_drop_any l u : dead 3 (M_Prepare.wr (u_sys u)) ->
    (forall k, cap_bytes C ExitCaMode k <> []) -> (forall k, cap_bytes C CursorNormal k <> []) ->
    screen_drop_p C (false :: false :: l) u = Aborts.
  Proof.
    intros (H & Hn) Hx Hc. set (s0 := u_sys u) in *.
    assert (T : rtries s0 (restore_with_lock C (u_st u) s0)) by (apply rtries_restore; split; [exact H|lia]).
    assert (R : (exists x, locked_p (restore_with_lock C (u_st u)) (false :: false :: l) s0 = Unwinds x (false :: l)) \/
                (exists x e, locked_p (restore_with_lock C (u_st u)) (false :: false :: l) s0 = Goes x (false :: false :: l) (inl e) /\ dead 2 (M_Prepare.wr x)) \/
                (exists x, locked_p (restore_with_lock C (u_st u)) (false :: false :: l) s0 = Goes x (false :: false :: l) (inr tt) /\ dead 2 (M_Prepare.wr x))).
    { unfold locked_p. destruct (restore_with_lock C (u_st u) s0) as [x []|x e| |]; try contradiction; cbn in T; cbv zeta.
      - assert (D : dead 3 (M_Prepare.wr x)) by (unfold dead; rewrite T; split; assumption).
        destruct (dead_guard 2 false (false :: false :: l) _ D) as [(G1 & ->)|(G1 & w & G2 & G3 & G4 & ->)]; cbn [within fbind eprintln].
        + right; right. eexists. split; [reflexivity|]. destruct D as (D1 & D2); split; [exact D1|cbn; lia].
        + left. eexists. reflexivity.
      - assert (D : dead 2 (M_Prepare.wr x)).
        { destruct T as [T|(y & T)]; [unfold dead; rewrite T; split; [assumption|lia]|]. rewrite T in H, Hn. inversion H; subst. split; [assumption|cbn in Hn; lia]. }
        destruct (dead_guard 1 false (false :: false :: l) _ D) as [(G1 & ->)|(G1 & w & G2 & G3 & G4 & ->)]; cbn [within fbind eprintln].
        + right; left. do 2 eexists. split; [reflexivity|]. destruct D as (D1 & D2); split; [exact D1|cbn; lia].
        + left. eexists. reflexivity. }
    unfold screen_drop_p, leave_p, poisoned. fold s0.
    destruct R as [(x & ->)|[(x & e & -> & D)|(x & -> & D)]]; cbn [fbind].
    - reflexivity.
    - cbn [eprintln]. rewrite (dead_terminal_drop l _ D Hc). reflexivity.
    - destruct (dead_exit (false :: l) x D Hx) as (y & ->). reflexivity.
  Qed.
End Dead.

(** The theorems of C110. *)
Lemma gone_dead w k : k <= 8 -> gone w -> dead k w.
Proof. intros Hk (H1 & H2). split; [exact H1|lia]. Qed.

Lemma op_prints_nothing C unw l o w : perfect (script w) ->
  match terminal_op_p C unw l o w with
  | Goes _ l' _ => l' = l
  | Ends false => True
  | _ => False
  end.
Proof.
  intros H.
  assert (G : match (match run_wop C o w with
      | Ret w _ => fbind (guard_drop_p unw l w) (fun w l _ => Goes w l None)
      | Fail w e => fbind (guard_drop_p unw l w) (fun w l _ => Goes w l (Some e))
      | Panic => Ends true
      | Blocked => Ends false
      end) with Goes _ l' _ => l' = l | Ends false => True | _ => False end).
  { pose proof (op_perfect C o w H) as P. pose proof (op_no_panic C o w (perfect_whole _ H)) as NP.
    destruct (run_wop C o w) as [w1 u|w1 e| |]; try congruence; try exact I; unfold guard_drop_p;
      pose proof (flush_perfect w1 P) as F; destruct (flush w1) as [w2 u2|w2 e2| |]; cbn; auto; contradiction. }
  unfold terminal_op_p. destruct o; try exact G; destruct n; try exact G; reflexivity.
Qed.

Lemma gone_op C l o w : gone w ->
  match terminal_op_p C false (false :: l) o w with
  | Goes w' l' _ => (obuf w' = [] \/ w' = w) /\ dev w' = dev w /\ l' = false :: l
  | Unwinds w' _ => obuf w' <> [] /\ dev w' = dev w
  | Aborts | Ends _ => False
  end.
Proof.
  intros H. assert (D : dead 2 w) by (apply gone_dead; [lia|exact H]).
  assert (G : idle o \/ match terminal_op_p C false (false :: l) o w with
    | Goes w' l' _ => obuf w' = [] /\ dev w' = dev w /\ l' = false :: l
    | Unwinds w' _ => obuf w' <> [] /\ dev w' = dev w
    | Aborts | Ends _ => False
    end).
  { unfold idle. pose proof (tries_op C o w (proj1 H)) as T. pose proof (tries_dead 1 w _ T D) as D1.
    pose proof (op_no_panic C o w (dead_whole _ _ D)) as P.
    assert (G : match (match run_wop C o w with
      | Ret w _ => fbind (guard_drop_p false (false :: l) w) (fun w l _ => Goes w l None)
      | Fail w e => fbind (guard_drop_p false (false :: l) w) (fun w l _ => Goes w l (Some e))
      | Panic => Ends true
      | Blocked => Ends false
      end) with
      | Goes w' l' _ => obuf w' = [] /\ dev w' = dev w /\ l' = false :: l
      | Unwinds w' _ => obuf w' <> [] /\ dev w' = dev w
      | Aborts | Ends _ => False
      end).
    { destruct (run_wop C o w) as [w1 u|w1 e| |]; try contradiction; try congruence; destruct T as (T1 & _ & _).
      - destruct (dead_guard 1 false (false :: l) w1 D1) as [(H1 & ->)|(H1 & w2 & H2 & H3 & H4 & ->)]; cbn; repeat split; congruence.
      - destruct (dead_guard 0 false (false :: l) w1 D1) as [(H1 & ->)|(H1 & w2 & H2 & H3 & H4 & ->)]; cbn; repeat split; congruence. }
    unfold terminal_op_p. destruct o; try (right; exact G); destruct n; try (right; exact G); left; exact I. }
  destruct G as [G|G].
  - destruct o; try contradiction; destruct n; try contradiction; cbn; auto.
  - destruct (terminal_op_p C false (false :: l) o w); intuition.
Qed.

Lemma gone_op_pending C l o w : gone w -> obuf w <> [] -> ~ idle o ->
  exists w', terminal_op_p C false (false :: l) o w = Unwinds w' l.
Proof.
  intros H Hp Ho. apply dead_op_pending; [apply gone_dead; [lia|exact H]|exact Hp|].
  destruct o; auto; destruct n; auto; now apply Ho.
Qed.

Lemma gone_guard E C l s : gone (M_Screen.wr s) -> refresh E C s <> Panic -> obuf (M_Screen.wr s) <> [] ->
  screen_guard_drop_p E C false (false :: false :: l) s = Aborts.
Proof.
  intros H P Hp. pose proof (dead_screen_guard E C l s (gone_dead _ 2 ltac:(lia) H) P) as G.
  destruct (screen_guard_drop_p E C false (false :: false :: l) s); intuition congruence.
Qed.
Lemma gone_screen C l u : gone (M_Prepare.wr (u_sys u)) -> obuf (M_Prepare.wr (u_sys u)) <> [] ->
  screen_drop_p C (false :: l) u = Aborts.
Proof. intros H. apply dead_screen_drop. apply gone_dead; [lia|exact H]. Qed.

Lemma gone_any_screen C l u : gone (M_Prepare.wr (u_sys u)) ->
  (forall k, cap_bytes C ExitCaMode k <> []) -> (forall k, cap_bytes C CursorNormal k <> []) ->
  screen_drop_p C (false :: false :: l) u = Aborts.
Proof. intros H. apply dead_screen_drop_any. apply gone_dead; [lia|exact H]. Qed.
