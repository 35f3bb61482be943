(** Proofs about what threads write together (C92). *)
From Verif Require Import Base M_Utf8 M_Geom M_Attr M_Buf M_Writer S_Writer P_Writer M_Screen M_Locks S_Locks P_Locks P_Locks2 S_Blocks.

(** ** Whatever is called, the stream only grows. *)
Definition gr {A} (w : wst) (r : out wst werr A) : Prop :=
  match r with
  | Ret w' _ | Fail w' _ => whole_writes (script w') /\ exists x, stream w' = stream w ++ x
  | _ => True
  end.

Lemma gr_ret {A} w (a : A) : whole_writes (script w) -> gr w (Ret w a).
Proof. intros H. split; [exact H|]. exists []. now rewrite app_nil_r. Qed.

Lemma gr_bind {A B} w (r : out wst werr A) (k : wst -> A -> out wst werr B) :
  gr w r -> (forall w a, whole_writes (script w) -> gr w (k w a)) -> gr w (obind r k).
Proof.
  intros H K. destruct r as [w1 a|w1 e| |]; cbn [obind]; auto.
  destruct H as [H [x Hx]]. specialize (K w1 a H). destruct (k w1 a) as [w2 b|w2 e| |]; auto;
    destruct K as [K [y Hy]]; (split; [exact K|]); exists (x ++ y); now rewrite Hy, Hx, app_assoc.
Qed.

Lemma gr_quiet w (r : wres) : whole_writes (script w) -> quiet w r -> gr w r.
Proof.
  intros Hw. destruct r as [w' u|w' e| |]; cbn; auto; intros H;
    (split; [destruct H as (_ & H & _); now rewrite H|now apply ext_stream]).
Qed.

Lemma gr_bytes C b w : whole_writes (script w) -> gr w (write_bytes C b w).
Proof.
  intros H. pose proof (write_bytes_whole C b w H) as H1.
  destruct (write_bytes C b w) as [w' u|w' e| |]; cbn; auto; destruct H1 as (H1 & _ & H2); (split; [exact H1|]).
  - now exists b.
  - exists []. now rewrite H2, app_nil_r.
Qed.

Lemma flush_stream w : whole_writes (script w) ->
  match flush w with
  | Ret w' _ | Fail w' _ => whole_writes (script w') /\ stream w' = stream w
  | _ => True
  end.
Proof.
  intros H. pose proof (flush_whole w H) as H1. unfold stream.
  destruct (flush w) as [w' u|w' e| |]; auto; destruct H1 as (H1 & _ & _ & H2 & H3); rewrite H2, H3;
    (split; [exact H1|]); now rewrite ?app_nil_r.
Qed.

Lemma gr_flush w : whole_writes (script w) -> gr w (flush w).
Proof.
  intros H. pose proof (flush_stream w H) as H1. destruct (flush w) as [w' u|w' e| |]; cbn; auto;
    destruct H1 as [H1 H2]; (split; [exact H1|]); exists []; now rewrite H2, app_nil_r.
Qed.

Lemma gr_when b f w : (forall w, whole_writes (script w) -> gr w (f w)) -> whole_writes (script w) -> gr w (when b f w).
Proof. intros H Hw. unfold when. destruct b; [now apply H|now apply gr_ret]. Qed.

Lemma gr_mouse C b w : whole_writes (script w) -> gr w (enable_mouse C b w).
Proof.
  intros H. unfold enable_mouse. destruct (xterm C); [|now apply gr_ret].
  apply gr_bind; [now apply gr_bytes|]. intros w1 _ H1. apply gr_bind.
  - apply gr_when; [|exact H1]. intros w2. apply gr_bytes.
  - intros w2 _ H2. now apply gr_ret.
Qed.

Lemma gr_keypad C w : whole_writes (script w) -> gr w (enable_keypad C w).
Proof.
  intros H. unfold enable_keypad. destruct (info C KeypadXmit) as [e|]; [|now apply gr_ret].
  apply gr_bind.
  - apply gr_quiet; [exact H|apply quiet_expand].
  - intros w2 _ H2. now apply gr_ret.
Qed.

(** Refreshing. *)
Definition sgr (s : scr) (r : sres) : Prop :=
  match r with
  | Ret s' _ | Fail s' _ => whole_writes (script (wr s')) /\ exists x, stream (wr s') = stream (wr s) ++ x
  | _ => True
  end.
Notation fine s := (whole_writes (script (wr s))).

Lemma sgr_ret s s' : wr s' = wr s -> fine s -> sgr s (Ret s' tt).
Proof. intros E H. cbn. rewrite E. split; [exact H|]. exists []. now rewrite app_nil_r. Qed.

Lemma sgr_bind s r k : sgr s r -> (forall s1 a, fine s1 -> sgr s1 (k s1 a)) -> sgr s (obind r k).
Proof.
  intros H K. destruct r as [s1 a|s1 e| |]; cbn [obind]; auto.
  destruct H as [H [x Hx]]. specialize (K s1 a H). destruct (k s1 a) as [s2 b|s2 e| |]; auto;
    destruct K as [K [y Hy]]; (split; [exact K|]); exists (x ++ y); now rewrite Hy, Hx, app_assoc.
Qed.

Lemma sgr_on f s : fine s -> (forall w, whole_writes (script w) -> gr w (f w)) -> sgr s (on_writer f s).
Proof.
  intros H F. unfold on_writer. specialize (F (wr s) H). destruct (f (wr s)); exact F.
Qed.

Lemma sgr_with b s r : sgr (with_sb b s) r -> sgr s r.
Proof. exact (fun H => H). Qed.

Section Refresh.
  Variables (E : env) (C : tcfg).

  Lemma sgr_move p s : fine s -> sgr s (s_move_cursor C p s).
  Proof.
    intros H. unfold s_move_cursor. destruct (cursor_eqb (real s) p); [now apply sgr_ret|].
    apply sgr_bind.
    - apply sgr_on; [exact H|]. intros w Hw. apply gr_quiet; [exact Hw|apply quiet_move_cursor].
    - intros s1 _ H1. now apply sgr_ret.
  Qed.

  Lemma sgr_clear s : fine s -> sgr s (on_writer (clear_attributes C) s).
  Proof. intros H. apply sgr_on; [exact H|]. intros w Hw. apply gr_quiet; [exact Hw|apply quiet_clear]. Qed.

  Lemma sgr_draw fuel : forall lo hi s, fine s -> sgr s (draw E C fuel lo hi s).
  Proof.
    induction fuel as [|fuel IH]; intros lo hi s H; cbn [draw];
      (destruct (next_cell E (sb s) lo hi) as [[[b lo'] [[pos cell]|]]|]; [|now apply sgr_ret|exact I]);
      apply (sgr_with b);
      (apply sgr_bind; [apply sgr_move; exact H|]); intros s1 _ H1;
      (apply sgr_bind; [apply sgr_on; [exact H1|]; intros w Hw; apply gr_quiet; [exact Hw|apply quiet_set_attrs]|]);
      intros s2 _ H2;
      (apply sgr_bind; [apply sgr_on; [exact H2|]; intros w Hw; apply gr_bytes; exact Hw|]);
      intros s3 _ H3;
      (destruct (uadd (umax E) (column (real s3)) 1) as [c|]; [|exact I]); [exact I|].
    match goal with |- sgr s3 (draw _ _ _ _ _ ?x) => assert (W : wr x = wr s3) by reflexivity; specialize (IH lo' hi x) end.
    rewrite W in IH. specialize (IH H3).
    unfold sgr in IH |- *. rewrite W in IH. exact IH.
  Qed.

  Lemma sgr_refresh s : fine s -> sgr s (refresh E C s).
  Proof.
    intros H. unfold refresh, compose. apply sgr_bind; [|intros s9 _ H9; apply sgr_on; [exact H9|apply gr_flush]].
    apply sgr_bind.
    { destruct (clr s); [|now apply sgr_ret]. apply sgr_bind; [|intros s1 _ H1; now apply sgr_ret].
      apply sgr_on; [exact H|]. intros w Hw. apply gr_quiet; [exact Hw|apply quiet_req]. }
    intros s1 _ H1. apply sgr_bind; [now apply sgr_clear|]. intros s2 _ H2.
    destruct (sb_indices E (sb s2)) as [[lo hi]|]; [|exact I].
    apply sgr_bind; [now apply sgr_draw|]. intros s3 _ H3.
    apply sgr_bind; [now apply sgr_clear|]. intros s4 _ H4.
    destruct (is_out_of_bounds _ _); [|now apply sgr_move].
    destruct (cursor_last _); [now apply sgr_move|exact I].
  Qed.

  (** ** Accesses *)
  Lemma wresult_some r w' q : wresult r = (Some w', q) ->
    match r with Ret w _ => w' = w /\ q = AOk | Fail w e => w' = w /\ q = AErr e | _ => False end.
  Proof. destruct r; cbn; intros X; try discriminate X; injection X as <- <-; auto. Qed.

  Lemma act_gives a w d w' d' r : whole_writes (script w) -> meaning E C a (Some w, d) = ((Some w', d'), r) ->
    whole_writes (script w') /\ exists x, stream w' = stream w ++ x /\ gives a r x.
  Proof.
    intros Hw H. destruct a as [a|a|].
    - cbn [meaning] in H. destruct (wmeaning C a (Some w)) as [w1 r1] eqn:Em. injection H as -> <- <-.
      destruct a as [o| |mouse track keypad|mouse keypad]; cbn [wmeaning] in Em; apply wresult_some in Em.
      + pose proof (op_whole C o w Hw) as G. destruct (run_wop C o w) as [w2 u|w2 e| |]; try contradiction;
          destruct Em as [-> ->]; exact G.
      + pose proof (flush_stream w Hw) as G. unfold guard_drop in Em.
        destruct (flush w) as [w2 u|w2 e| |]; try contradiction; destruct Em as [-> ->]; destruct G as [G1 G2];
          (split; [exact G1|]); exists []; rewrite G2, app_nil_r; split; reflexivity.
      + assert (G : gr w (let! (w, _b) := if mouse then enable_mouse C track w else Ret w false in
              let! (w, _b) := if keypad then enable_keypad C w else Ret w false in flush w)).
        { apply gr_bind; [destruct mouse; [now apply gr_mouse|now apply gr_ret]|]. intros w1 _ H1.
          apply gr_bind; [destruct keypad; [now apply gr_keypad|now apply gr_ret]|]. intros w2 _ H2. now apply gr_flush. }
        match type of Em with match ?x with _ => _ end => destruct x as [w2 u|w2 e| |] end; try contradiction;
          destruct Em as [-> ->]; destruct G as [G1 [x G2]]; (split; [exact G1|]); exists x; split; auto; exact I.
      + assert (G : gr w (let! (w, _u) := when mouse (disable_mouse C) w in
              let! (w, _u) := when keypad (disable_keypad C) w in flush w)).
        { apply gr_bind.
          { apply gr_when; [|exact Hw]. intros w0 H0. apply gr_bind; [now apply gr_bytes|]. intros w2 _ H2. now apply gr_bytes. }
          intros w1 _ H1. apply gr_bind; [|intros w2 _ H2; now apply gr_flush].
          apply gr_when; [|exact H1]. intros w0 H0. apply gr_quiet; [exact H0|apply quiet_opt]. }
        match type of Em with match ?x with _ => _ end => destruct x as [w2 u|w2 e| |] end; try contradiction;
          destruct Em as [-> ->]; destruct G as [G1 [x G2]]; (split; [exact G1|]); exists x; split; auto; exact I.
    - cbn [meaning] in H. destruct (dmeaning E a d) as [d1 r1]. injection H as <- <- <-.
      split; [exact Hw|]. exists []. rewrite app_nil_r. split; reflexivity.
    - cbn [meaning] in H. destruct d as [d|]; [|discriminate H].
      pose proof (sgr_refresh (Scr (dbuf d) (dclr d) (dreal d) w) Hw) as G.
      destruct (refresh E C (Scr (dbuf d) (dclr d) (dreal d) w)) as [s u|s e| |]; try discriminate H;
        injection H as <- <- <-; destruct G as [G1 [x G2]]; (split; [exact G1|]); exists x; split; auto; exact I.
  Qed.

  Lemma act_gone a d s' r : meaning E C a (None, d) = (s', r) -> fst s' = None.
  Proof.
    destruct a as [a|a|]; cbn; intros H.
    - injection H as <- <-. reflexivity.
    - destruct (dmeaning E a d) as [d1 r1]. injection H as <- <-. reflexivity.
    - injection H as <- <-. reflexivity.
  Qed.

  Lemma replays_gone l : forall d s', replays E C l (None, d) s' -> fst s' = None.
  Proof.
    induction l as [|[a r] l IH]; intros d s' H; cbn [replays] in H; [now subst|].
    destruct H as [_ H]. destruct (meaning E C a (None, d)) as [[w1 d1] r1] eqn:Em.
    apply act_gone in Em. cbn in Em, H. subst w1. exact (IH _ _ H).
  Qed.

  Lemma replays_piece l : forall w d w' d', whole_writes (script w) ->
    replays E C l (Some w, d) (Some w', d') ->
    whole_writes (script w') /\ exists x, stream w' = stream w ++ x /\ piece l x.
  Proof.
    induction l as [|[a r] l IH]; intros w d w' d' Hw H; cbn [replays] in H.
    - injection H as <- <-. split; [exact Hw|]. exists []. rewrite app_nil_r. split; [reflexivity|constructor].
    - destruct H as [Hr H]. destruct (meaning E C a (Some w, d)) as [[w1 d1] r1] eqn:Em. cbn in Hr, H. subst r1.
      destruct w1 as [w1|]; [|apply replays_gone in H; discriminate H].
      destruct (act_gives a w d w1 d1 r Hw Em) as (W1 & x & X1 & X2).
      destruct (IH w1 d1 w' d' W1 H) as (W2 & y & Y1 & Y2).
      split; [exact W2|]. exists (x ++ y). rewrite Y1, X1, app_assoc. split; [reflexivity|]. now constructor.
  Qed.

  Lemma order_blocks order : forall w d w' d', whole_writes (script w) ->
    replays E C (concat (map snd order)) (Some w, d) (Some w', d') ->
    exists blocks : list (nat * bytes), stream w' = stream w ++ concat (map snd blocks) /\
      forall i : nat, Forall2 piece (map snd (filter (fun x => fst x =? i) order)) (of_thread i blocks).
  Proof.
    induction order as [|[j l] order IH]; intros w d w' d' Hw H; cbn [map concat snd] in H.
    - cbn in H. injection H as <- <-. exists []. rewrite app_nil_r. split; [reflexivity|]. intros i. constructor.
    - apply replays_app in H. destruct H as ([[w1|] d1] & H1 & H2); [|apply replays_gone in H2; discriminate H2].
      destruct (replays_piece l w d w1 d1 Hw H1) as (W1 & x & X1 & X2).
      destruct (IH w1 d1 w' d' W1 H2) as (blocks & B1 & B2).
      exists ((j, x) :: blocks). cbn [map concat snd]. rewrite B1, X1, app_assoc. split; [reflexivity|].
      intros i. unfold of_thread in *. cbn [filter fst]. destruct (j =? i); [|apply B2].
      cbn [map snd]. constructor; [exact X2|apply B2].
  Qed.

  Lemma sessions_in_pieces l w d tr c w' :
    Forall (follows false None None) l -> run E C (start l (Some w, d)) tr c ->
    owner c LWriter = None -> owner c LData = None ->
    whole_writes (script w) -> fst (shared c) = Some w' ->
    exists blocks : list (nat * bytes), stream w' = stream w ++ concat (map snd blocks) /\
      forall i : nat, Forall2 piece (sessions i tr) (of_thread i blocks).
  Proof.
    intros Hl R Ho1 Ho2 Hw Hs. destruct (sessions_atomic E C l (Some w, d) tr c Hl R Ho1 Ho2) as (order & O1 & O2).
    destruct (shared c) as [w1 d1]. cbn in Hs. subst w1.
    destruct (order_blocks order w d w' d1 Hw O2) as (blocks & B1 & B2).
    exists blocks. split; [exact B1|]. intros i. rewrite <- O1. apply B2.
  Qed.
End Refresh.
