(** Proofs about the memory the library's buffers take. *)
From Verif Require Import Base M_Utf8 S_Utf8 P_Utf8 M_Geom M_Seq S_Seq M_Signal M_Util M_Attr M_Input S_Input P_Input
  M_Writer S_Writer M_Prepare M_Reader S_Prepare S_Reader P_Prepare P_Reader P_Timeout M_Buf M_Screen S_Memory.
Local Open Scope nat_scope.

(** ** Input *)
Section Input.
  Variables (C : tcfg) (m : seq_map).
  Hypothesis Hd : doubling C.
  Hypothesis Hm : key_map m.

  (** The capacities the buffer can have. *)
  Definition small (s : sys) : Prop :=
    length (inbuf s) <= incap s /\ (incap s = 0 \/ incap s = 128 \/ incap s = 256).
  Definition same (s s' : sys) : Prop := inbuf s' = inbuf s /\ incap s' = incap s.
  Lemma same_small s s' : same s s' -> small s -> small s'.
  Proof. intros (A & B) (D & E). unfold small. rewrite A, B. auto. Qed.
  Lemma same_refl s : same s s. Proof. split; reflexivity. Qed.
  Lemma same_trans a b c : same a b -> same b c -> same a c.
  Proof. intros (A & B) (D & E). split; congruence. Qed.
  Lemma quiet_same s s' : quiet s s' -> same s s'.
  Proof. intros (H1 & H2 & _). split; assumption. Qed.
  Lemma passive_same s s' : passive s s' -> same s s'.
  Proof. intros (_ & _ & _ & _ & _ & _ & H1 & H2). split; assumption. Qed.

  Lemma truncated_short v : truncated_char v -> length v <= 3.
  Proof.
    intros (_ & c & t & _ & Ht & E). assert (L : length (utf8 c) <= 4) by (unfold utf8; repeat destruct (_ <? _)%N; cbn; lia).
    rewrite E, app_length in L. destruct t; [congruence|]. cbn in L. lia.
  Qed.

  Lemma handle_same sig s :
    ends (fun s' => same s s') (fun s' _ => same s s') (handle_signal C sig s).
  Proof.
    assert (Hrep : forall s', same s s' -> ends (fun s' => same s s') (fun s' _ => same s s') (report_signal sig s')).
    { intros s' H. unfold report_signal. destruct (ss_contains _ _); exact H. }
    destruct sig; cbn [handle_signal]; try (apply Hrep, same_refl).
    - eapply ends_bind with (Q := fun s' _ => same s s').
      + eapply ends_weak; [apply resume_ends| |]; [intros s' (H & _)|intros s' u (H & _)]; now apply quiet_same.
      + intros s' _ H. now apply Hrep.
    - eapply ends_bind with (Q := fun s' _ => same s s').
      + unfold term_size. apply guard_ends; auto. destruct (win s); apply same_refl.
      + intros s' z H. exact H.
  Qed.

  Definition room_for (room : nat) (r : option input) : Prop :=
    match r with Some (IRaw bs) => length bs <= room | _ => True end.

  Lemma os_read_room room s : match snd (os_read room s) with GBytes bs => length bs <= room | _ => True end.
  Proof.
    unfold os_read. set (ms := if never_waits _ then _ else _).
    destruct (await ms (time (advance s)) (advance s)) as [s1 w]. destruct w; cbn [snd]; try exact I; try (cbn; lia).
    unfold take_queue. destruct (queue s1) as [|bs q]; cbn [snd]; [cbn; lia|].
    destruct (length bs <=? room) eqn:E; cbn [snd]; [apply Nat.leb_le in E; exact E|]. rewrite firstn_length. lia.
  Qed.

  Lemma read_loop_room fuel room : forall s, match read_loop fuel room s with Ret _ r => room_for room r | _ => True end.
  Proof.
    induction fuel as [|fuel IH]; intros s; cbn [read_loop]; [exact I|].
    pose proof (os_read_room room s) as H. destruct (os_read room s) as [s1 g]. cbn [snd] in H.
    assert (Hi : match (let '(s2, sig) := take_signal s1 in match sig with Some sig => Ret s2 (Some (ISignal sig)) | None => read_loop fuel room s2 end)
                 with Ret _ r => room_for room r | _ => True end).
    { destruct (take_signal s1) as [s2 [sig|]]; [exact I|apply IH]. }
    destruct g; [exact H|exact Hi|destruct (e =? EINTR)%N; [exact Hi|exact I]|exact I].
  Qed.

  Lemma read_input_room room t s : match read_input m room t s with Ret _ r => room_for room r | _ => True end.
  Proof.
    unfold read_input. destruct (take_signal s) as [s1 [sig|]]; [exact I|].
    destruct (wait_event m t s1) as [s2 ready| | |]; cbn [obind]; try exact I. destruct ready; cbn [negb]; [|exact I].
    destruct (take_signal s2) as [s3 [sig|]]; [exact I|]. apply read_loop_room.
  Qed.

  Lemma into_buffer_small t s : small s -> length (inbuf s) <= 3 ->
    ends (fun s' => small s') (fun s' _ => small s') (read_into_buffer C m t s).
  Proof.
    intros (S1 & S2) Hl. unfold read_into_buffer. set (cap := if (_ <=? _) then incap s else _).
    assert (Hc : cap = 128 \/ cap = 256).
    { unfold cap. destruct (Nat.leb_spec (length (inbuf s) + 128) (incap s)); [lia|]. rewrite Hd. lia. }
    pose proof (read_input_room (cap - length (inbuf s)) t (with_inbuf [] 0 s)) as R.
    destruct (read_input m _ t _) as [s1 [[sig|bs]|]|s1 e| |]; cbn [ends room_for] in *; auto;
      unfold small; cbn [inbuf incap with_inbuf]; rewrite ?app_length; lia.
  Qed.

  Lemma try_small s : small s -> ends (fun s' => small s') (fun s' _ => small s') (try_read m s).
  Proof.
    intros H. unfold try_read. destruct (inbuf s) as [|b bs] eqn:Eb; [exact H|].
    unfold peek. destruct (peek_event (inbuf s) m) as [[| |e n]|]; cbn [obind ends]; auto.
    destruct H as (H1 & H2). split; [|exact H2]. cbn [inbuf incap with_inbuf]. rewrite skipn_length. lia.
  Qed.

  Lemma read_small t s : small s -> ends (fun s' => small s') (fun s' _ => small s') (read_event C m t s).
  Proof.
    intros H. unfold read_event. pose proof (try_small s H) as T.
    destruct (try_read m s) as [s1 [e|]|s1 e| |] eqn:Et; cbn [obind ends] in *; auto.
    apply try_none in Et as (<- & Ep).
    assert (L : length (inbuf s) <= 3).
    { destruct (peek_none m (inbuf s) Hm Ep) as [->|]; [cbn; lia|now apply truncated_short]. }
    pose proof (into_buffer_small t s H L) as G.
    destruct (read_into_buffer C m t s) as [s2 [[sig|bs]|]|s2 e| |]; cbn [obind ends] in *; auto.
    - eapply ends_weak; [apply handle_same| |]; [intros s3 X|intros s3 a X]; exact (same_small _ _ X G).
    - now apply try_small.
  Qed.

  Lemma raw_small room t s : small s -> ends (fun s' => small s') (fun s' _ => small s') (read_raw C m room t s).
  Proof.
    intros H. unfold read_raw. destruct (inbuf s) as [|b bs] eqn:Eb.
    - pose proof (read_input_ends m room t s) as R.
      destruct (read_input m room t s) as [s1 [[sig|bs]|]|s1 e| |]; cbn [obind ends] in *; auto;
        destruct R as (R & _); apply passive_same in R; try (eapply same_small; eassumption).
      eapply ends_bind with (Q := fun s' _ => small s').
      + eapply ends_weak; [apply handle_same| |]; [intros s3 X|intros s3 a X]; exact (same_small _ _ (same_trans _ _ _ R X) H).
      + intros s2 e H2. exact H2.
    - rewrite <- Eb. destruct H as (H1 & H2). split; [|exact H2]. cbn [inbuf incap with_inbuf]. rewrite skipn_length. lia.
  Qed.

  Lemma step_small o s s' r : small s -> rstep C m o s = Some (s', r) -> small s'.
  Proof.
    intros H. assert (G : forall A (x : rres A) f, ends (fun s' => small s') (fun s' _ => small s') x -> ret x f = Some (s', r) -> small s').
    { intros A [s1 a|s1 e| |] f; cbn; intros X [=]; congruence. }
    destruct o; cbn [rstep]; apply G.
    - eapply ends_weak; [apply wait_event_ends| |]; [intros s1 (F & _)|intros s1 a (F & _)]; exact (same_small _ _ (passive_same _ _ F) H).
    - now apply read_small.
    - now apply raw_small.
    - eapply ends_weak; [apply prepare_ends| |]; [intros s1 (F & _)|intros s1 a (F & _)]; exact (same_small _ _ (quiet_same _ _ F) H).
    - eapply ends_weak; [apply restore_quiet| |]; [intros s1 F|intros s1 a F]; exact (same_small _ _ (quiet_same _ _ F) H).
  Qed.

  Lemma run_small ops : forall s s' rs, small s -> rrun C m ops s = Some (s', rs) -> small s'.
  Proof.
    induction ops as [|o ops IH]; intros s s' rs H; cbn [rrun]; [intros [= <- _]; exact H|].
    destruct (rstep C m o s) as [[s1 r]|] eqn:E; [|discriminate]. destruct (rrun C m ops s1) as [[s2 rs2]|] eqn:E2; [|discriminate].
    intros [= <- _]. eapply IH; [|exact E2]. eapply step_small; eauto.
  Qed.
End Input.

Lemma input_bounded C m ops s s' rs : doubling C -> key_map m -> inbuf s = [] -> incap s = 0 ->
  rrun C m ops s = Some (s', rs) -> length (inbuf s') <= incap s' /\ incap s' <= 256.
Proof.
  intros Hd Hm Hi Hc H. destruct (run_small C m Hd Hm ops s s' rs) as (A & B); auto; [|lia].
  unfold small. rewrite Hi, Hc. cbn. auto.
Qed.

(** ** Output *)
Definition total (w : wst) : nat := length (dev w) + length (obuf w).
Definition grown (w w' : wst) : Prop :=
  length (dev w) <= length (dev w') /\ total w <= total w' /\ ocap w <= ocap w' /\
  ocap w' <= Nat.max (ocap w) (2 * (total w' - length (dev w))).

Lemma grown_refl w : grown w w. Proof. unfold grown. lia. Qed.
Lemma grown_trans a b c : grown a b -> grown b c -> grown a c.
Proof. unfold grown, total. lia. Qed.

Definition grows {A} (w : wst) (r : out wst werr A) : Prop :=
  match r with Ret w' _ | Fail w' _ => grown w w' | _ => True end.
Lemma grows_bind {A B} w (r : out wst werr A) (k : wst -> A -> out wst werr B) :
  grows w r -> (forall w' a, grows w' (k w' a)) -> grows w (obind r k).
Proof.
  intros H1 H2. destruct r as [w' a|w' e| |]; cbn in *; auto.
  specialize (H2 w' a). destruct (k w' a); cbn in *; auto; eapply grown_trans; eauto.
Qed.
Lemma grows_from {A} w w' (r : out wst werr A) : grown w w' -> grows w' r -> grows w r.
Proof. destruct r; cbn; auto; intros; eapply grown_trans; eauto. Qed.

Lemma data_grows buf sc : forall off d n r d' sc', write_data buf off d sc = Some (n, r, d', sc') ->
  off <= n /\ length d' = length d + (n - off).
Proof.
  induction sc as [|x sc IH]; intros off d n r d' sc'; cbn [write_data]; destruct (Nat.eqb_spec off (length buf)).
  - intros [= <- _ <- _]. lia.
  - discriminate.
  - intros [= <- _ <- _]. lia.
  - destruct x as [|k| |e].
    + intros H. apply IH in H as (H1 & H2). rewrite app_length in H2. lia.
    + destruct (Nat.min k (length buf)) as [|j] eqn:Ek; [intros [= <- _ <- _]; lia|].
      intros H. apply IH in H as (H1 & H2). rewrite app_length, firstn_length in H2. lia.
    + apply IH.
    + intros [= <- _ <- _]. lia.
Qed.

Lemma flush_grows w : grows w (flush w).
Proof.
  unfold flush. destruct (write_data _ _ _ _) as [[[[n r] d] sc]|] eqn:E; [|exact I].
  apply data_grows in E as (_ & E). destruct (Nat.leb_spec n (length (obuf w))); [|exact I].
  assert (G : grown w (with_io d sc (with_obuf (skipn n (obuf w)) w))).
  { unfold grown, total. cbn [dev obuf ocap with_io with_obuf]. rewrite skipn_length. lia. }
  destruct r; exact G.
Qed.

Lemma flush_all w w' u : flush w = Ret w' u -> obuf w' = [] /\ ocap w' = ocap w.
Proof.
  unfold flush. destruct (write_data _ _ _ _) as [[[[n r] d] sc]|] eqn:E; [|discriminate].
  destruct (n <=? length (obuf w)) eqn:L; [|discriminate]. destruct r; [discriminate|]. intros [= <- _]. split; [|reflexivity].
  cbn. assert (N : n = length (obuf w)); [|rewrite N; apply skipn_all].
  revert E. generalize 0, (dev w), d. generalize (script w). clear. intros s. induction s as [|x s IH]; intros off d d'; cbn [write_data];
    destruct (Nat.eqb_spec off (length (obuf w))); try congruence.
  destruct x as [|k| |e]; try discriminate; [apply IH| |apply IH]. destruct (Nat.min k (length (obuf w))); [discriminate|apply IH].
Qed.

Section Output.
  Variable C : tcfg.
  Hypothesis Hd : doubling C.

  Lemma push_grown bs w : grown w (push C bs w).
  Proof.
    unfold grown, total, push. cbn [dev obuf ocap]. rewrite app_length.
    destruct (Nat.leb_spec (length (obuf w) + length bs) (ocap w)); [lia|]. rewrite Hd. lia.
  Qed.

  Lemma write_grows buf w : grows w (write_bytes C buf w).
  Proof.
    unfold write_bytes. apply grows_bind.
    - destruct (_ <? _); [apply flush_grows|apply grown_refl].
    - intros w' u. destruct (ocap w' <? length buf); [|apply push_grown].
      destruct (write_data _ _ _ _) as [[[[n r] d] sc]|] eqn:E; [|exact I]. apply data_grows in E as (_ & E).
      assert (G : grown w' (with_io d sc w')) by (unfold grown, total; cbn [dev obuf ocap with_io]; lia).
      destruct r; exact G.
  Qed.

  Lemma grows_ret {A} w (a : A) : grows w (Ret w a).
  Proof. apply grown_refl. Qed.
  Lemma grows_track a w : grows w (Ret (with_wat a w) tt : wres).
  Proof. unfold grows, grown, total. cbn. lia. Qed.
  Lemma grows_expand e ps w : grows w (expand C e ps w).
  Proof.
    unfold expand. destruct (e (wctx w) ps) as [[bs k] ok].
    pose proof (push_grown bs w) as G. destruct ok; exact G.
  Qed.
  Lemma grows_opt c ps w : grows w (expand_opt C c ps w).
  Proof. unfold expand_opt. destruct (info C c); [apply grows_expand|apply grows_ret]. Qed.
  Lemma grows_req c ps w : grows w (expand_req C c ps w).
  Proof. unfold expand_req. destruct (info C c); [apply grows_expand|apply grown_refl]. Qed.
  Lemma grows_when b f w : (forall w, grows w (f w)) -> grows w (when b f w).
  Proof. intros H. unfold when. destruct b; [apply H|apply grows_ret]. Qed.
  Lemma grows_clear w : grows w (clear_attributes C w).
  Proof.
    unfold clear_attributes. destruct (attrs_eqb (wat w) no_attrs); [apply grows_ret|].
    apply (grows_from w (with_wat no_attrs w)); [apply (grows_track no_attrs w)|apply grows_opt].
  Qed.

  Ltac q := repeat first
    [ apply grows_ret | apply grows_track | apply grows_opt | apply grows_req | apply grows_clear
    | apply grows_when; intros | apply grows_bind; [|intros] ].

  Lemma grows_add s w : grows w (add_style C s w).
  Proof. unfold add_style. q. Qed.

  Lemma grows_attrs : forall fuel,
    (forall c w, grows w (set_fg C fuel c w)) /\
    (forall c w, grows w (set_bg C fuel c w)) /\
    (forall s w, grows w (remove_style C fuel s w)) /\
    (forall s w, grows w (set_style C fuel s w)) /\
    (forall w, grows w (clear_fg C fuel w)) /\
    (forall w, grows w (clear_bg C fuel w)).
  Proof.
    induction fuel as [|fuel (I1 & I2 & I3 & I4 & I5 & I6)].
    - repeat split; intros; exact I.
    - repeat split; intros; cbn [set_fg set_bg remove_style set_style clear_fg clear_bg];
        repeat match goal with |- context [if ?b then _ else _] => destruct b end;
        try destruct c; unfold set_fg_color, set_bg_color, set_tracked_fg, set_tracked_bg, set_tracked_style; q;
        auto using grows_add.
  Qed.

  Lemma grows_set_attrs a w : grows w (set_attrs C a w).
  Proof. unfold set_attrs. destruct (grows_attrs depth) as (I1 & I2 & I3 & I4 & I5 & I6). q; auto. Qed.

  Lemma grows_op o w : grows w (run_wop C o w).
  Proof.
    destruct (grows_attrs depth) as (I1 & I2 & I3 & I4 & I5 & I6).
    destruct o; cbn [run_wop]; auto using grows_add, grows_set_attrs, grows_clear, flush_grows; try apply grows_req; try apply write_grows.
    1: unfold move_up. 2: unfold move_down. 3: unfold move_left. 4: unfold move_right.
    1-4: destruct n as [|[|n]]; try apply grows_ret; apply grows_req.
    - unfold move_cursor. destruct (info C CursorAddress), (info C CursorHome); try destruct (cursor_eqb _ _);
        try apply grows_expand; apply grown_refl.
    - unfold set_cursor_mode. destruct m; apply grows_opt.
    - unfold write_styled. apply grows_bind; [apply grows_set_attrs|intros]. apply grows_bind; [apply write_grows|intros]. apply grows_clear.
  Qed.

  Lemma grows_run ops : forall w rs w', run_any C ops w = Some (rs, w') -> grown w w'.
  Proof.
    induction ops as [|o ops IH]; intros w rs w'; cbn [run_any]; [intros [= _ <-]; apply grown_refl|].
    pose proof (grows_op o w) as G. destruct (run_wop C o w) as [w1 u|w1 e| |]; try discriminate;
      (destruct (run_any C ops w1) as [[rs1 w2]|] eqn:E; [|discriminate]); intros [= _ <-]; eapply grown_trans; eauto.
  Qed.

  Lemma drop_grown w w' u : guard_drop w = Ret w' u -> grown w w'.
  Proof.
    unfold guard_drop. pose proof (flush_grows w) as G. destruct (flush w) as [w1 v|w1 e| |]; try discriminate; intros [= <- _]; exact G.
  Qed.

  Lemma sessions_grown N w w' : guarded C N w w' -> obuf w = [] -> obuf w' = [] /\ ocap w' <= Nat.max (ocap w) (2 * N).
  Proof.
    intros H. induction H as [w|w ops rs w1 w2 w3 H1 H2 H3 H4 H5 IH]; intros H0; [split; [exact H0|lia]|].
    destruct (IH H3) as (A & B). split; [exact A|].
    pose proof (grown_trans _ _ _ (grows_run _ _ _ _ H1) (drop_grown _ _ _ H2)) as (G1 & G2 & G3 & G4).
    unfold total in *. rewrite H0, H3 in *. cbn [length] in *. lia.
  Qed.
End Output.

(** Within a guard, what is pending is at most what was written with it. *)
Lemma pending_written C ops w rs w' : doubling C -> obuf w = [] -> run_any C ops w = Some (rs, w') ->
  let written := length (dev w') + length (obuf w') - length (dev w) in
  length (obuf w') <= written /\ ocap w' <= Nat.max (ocap w) (2 * written).
Proof. intros Hd H0 H. apply (grows_run C Hd) in H as (H1 & _ & _ & H). unfold total in H. cbv zeta. split; [lia|exact H]. Qed.

(** ** Screens *)
Section Screens.
  Variables (E : env) (C : tcfg).
  Hypothesis Hd : doubling C.
  Definition sgrows {A} (s : scr) (r : out scr werr A) : Prop :=
    match r with Ret s' _ | Fail s' _ => grown (wr s) (wr s') | _ => True end.
  Lemma sgrows_bind {A B} s (r : out scr werr A) (k : scr -> A -> out scr werr B) :
    sgrows s r -> (forall s' a, sgrows s' (k s' a)) -> sgrows s (obind r k).
  Proof.
    intros H1 H2. destruct r as [s' a|s' e| |]; cbn in *; auto.
    specialize (H2 s' a). destruct (k s' a); cbn in *; auto; eapply grown_trans; eauto.
  Qed.
  Lemma sgrows_on f s : (forall w, grows w (f w)) -> sgrows s (on_writer f s).
  Proof. intros H. unfold on_writer. specialize (H (wr s)). destruct (f (wr s)); exact H. Qed.
  Lemma sgrows_move p s : sgrows s (s_move_cursor C p s).
  Proof.
    unfold s_move_cursor. destruct (cursor_eqb _ _); [apply grown_refl|]. apply sgrows_bind; [|intros; apply grown_refl].
    apply sgrows_on. intros w. exact (grows_op C Hd (OMoveCursor p) w).
  Qed.
  Lemma sgrows_draw fuel hi : forall lo s, sgrows s (draw E C fuel lo hi s).
  Proof.
    induction fuel as [|fuel IH]; intros lo s; cbn [draw]; (destruct (next_cell E (sb s) lo hi) as [[[b lo'] [[pos cell]|]]|];
      [|apply grown_refl|exact I]);
      (assert (G : sgrows (with_sb b s) (s_move_cursor C pos (with_sb b s))) by apply sgrows_move; apply (sgrows_bind s); [exact G|intros s1 _]);
      (apply sgrows_bind; [apply sgrows_on, grows_set_attrs, Hd|intros s2 _]); (apply sgrows_bind; [apply sgrows_on, write_grows, Hd|intros s3 _]);
      (destruct (uadd _ _ _) as [c|]; [|exact I]); [exact I|].
    exact (IH lo' (with_real (Cursor (line (real s3)) c) s3)).
  Qed.
  Lemma sgrows_refresh s : sgrows s (refresh E C s).
  Proof.
    unfold refresh, compose. apply sgrows_bind; [|intros; apply sgrows_on, flush_grows].
    apply sgrows_bind.
    { destruct (clr s); [|apply grown_refl]. apply sgrows_bind; [apply sgrows_on; intros w; exact (grows_op C Hd OClearScreen w)|intros; apply grown_refl]. }
    intros s1 _. apply sgrows_bind; [apply sgrows_on, grows_clear, Hd|intros s2 _].
    destruct (sb_indices E (sb s2)) as [[lo hi]|]; [|exact I]. apply sgrows_bind; [apply sgrows_draw|intros s3 _].
    apply sgrows_bind; [apply sgrows_on, grows_clear, Hd|intros s4 _].
    destruct (is_out_of_bounds _ _); [|apply sgrows_move]. destruct (cursor_last _); [apply sgrows_move|exact I].
  Qed.
  Lemma refresh_empty s s' : refresh E C s = Ret s' tt -> obuf (wr s') = [].
  Proof.
    unfold refresh. destruct (compose E C s) as [s1 u| | |]; cbn [obind]; try discriminate. unfold on_writer.
    destruct (flush (wr s1)) as [w u'| | |] eqn:F; try discriminate. intros [= <-]. now apply flush_all in F as (F & _).
  Qed.
  Lemma refreshing_grown N s s' : refreshing E C N s s' -> obuf (wr s) = [] ->
    obuf (wr s') = [] /\ ocap (wr s') <= Nat.max (ocap (wr s)) (2 * N).
  Proof.
    intros H. induction H as [s|s b c r s' H IH|s s1 s' H1 H2 H IH]; intros H0.
    - split; [exact H0|lia].
    - now apply IH.
    - pose proof (refresh_empty _ _ H1) as H3. destruct (IH H3) as (A & B). split; [exact A|].
      pose proof (sgrows_refresh s) as G. rewrite H1 in G. destruct G as (_ & _ & _ & G). unfold total in G. rewrite H3 in G.
      cbn [length] in G. lia.
  Qed.
End Screens.

(** Text alone never makes the buffer grow. *)
Lemma text_fixed C ss : forall w rs w', length (obuf w) <= ocap w -> run_any C (map OWriteStr ss) w = Some (rs, w') ->
  ocap w' = ocap w /\ length (obuf w') <= ocap w.
Proof.
  induction ss as [|t ss IH]; intros w rs w' H; cbn [map run_any]; [intros [= _ <-]; auto|].
  assert (G : forall w1, (exists u, run_wop C (OWriteStr t) w = Ret w1 u) \/ (exists e, run_wop C (OWriteStr t) w = Fail w1 e) ->
    ocap w1 = ocap w /\ length (obuf w1) <= ocap w).
  { cbn [run_wop]. unfold M_Writer.write_str, write_bytes. set (bs := utf8s t).
    assert (P : forall w1 : wst, ocap w1 = ocap w -> length (obuf w1) <= ocap w -> length bs + length (obuf w1) <= ocap w \/ obuf w1 = [] ->
      forall w2, (exists u, (if ocap w1 <? length bs then
        match write_data bs 0 (dev w1) (script w1) with
        | None => Blocked
        | Some (_, r, d, sc) => match r with None => Ret (with_io d sc w1) tt | Some e => Fail (with_io d sc w1) e end
        end else Ret (push C bs w1) tt) = Ret w2 u) \/ (exists e, (if ocap w1 <? length bs then
        match write_data bs 0 (dev w1) (script w1) with
        | None => Blocked
        | Some (_, r, d, sc) => match r with None => Ret (with_io d sc w1) tt | Some e => Fail (with_io d sc w1) e end
        end else Ret (push C bs w1) tt) = Fail w2 e) -> ocap w2 = ocap w /\ length (obuf w2) <= ocap w).
    { intros w1 A1 A2 A3 w2 X. destruct (Nat.ltb_spec (ocap w1) (length bs)).
      - destruct (write_data _ _ _ _) as [[[[n [e|]] d] sc]|]; destruct X as [(u & X)|(e' & X)]; try discriminate;
          injection X as <- _; cbn; auto.
      - destruct X as [(u & X)|(e & X)]; [|discriminate]. injection X as <- _. unfold push. cbn [ocap obuf]. rewrite app_length.
        assert (L : length (obuf w1) + length bs <= ocap w1) by (destruct A3 as [A3|A3]; [|rewrite A3; cbn]; lia).
        apply Nat.leb_le in L as L'. rewrite L'. split; [exact A1|lia]. }
    intros w2. destruct (Nat.ltb_spec (ocap w) (length bs + length (obuf w))) as [L|L].
    - pose proof (flush_all w) as F. pose proof (flush_grows w) as G. destruct (flush w) as [w1 u|w1 e| |] eqn:Ef; cbn [obind].
      + destruct (F w1 u eq_refl) as (F1 & F2). apply P; auto. rewrite F1. cbn. lia.
      + intros [(u & X)|(e' & X)]; [discriminate|]. injection X as <- _. revert Ef. unfold flush.
        destruct (write_data _ _ _ _) as [[[[n [e2|]] d] sc]|]; try discriminate; destruct (n <=? length (obuf w)); try discriminate.
        intros [= <- _]. cbn. rewrite skipn_length. lia.
      + intros [(u & X)|(e' & X)]; discriminate.
      + intros [(u & X)|(e' & X)]; discriminate.
    - cbn [obind]. apply P; auto. }
  destruct (run_wop C (OWriteStr t) w) as [w1 u|w1 e| |]; try discriminate;
    (destruct (G w1) as (G1 & G2); [eauto|]); (destruct (run_any C (map OWriteStr ss) w1) as [[rs1 w2]|] eqn:E; [|discriminate]);
    intros [= _ <-]; (destruct (IH w1 rs1 w2) as (A & B); [lia|exact E|]); lia.
Qed.

(** A device that takes nothing. *)
Lemma piles_up C e bs n : forall w, info C ClearScreen = Some e -> (forall k, e k [] = (bs, k, true)) -> bs <> [] ->
  Forall (fun r => exists x, r = WErr x) (script w) -> n <= length (script w) ->
  exists w', times C n OClearScreen w = Ret w' tt /\ dev w' = dev w /\ obuf w' = obuf w ++ concat (repeat bs n) /\
    script w' = skipn n (script w).
Proof.
  induction n as [|n IH]; intros w Hi He Hb Hs Hn; cbn [times].
  - exists w. repeat split. cbn. now rewrite app_nil_r.
  - unfold run_terminal_op. cbn [run_wop]. unfold clear_screen, expand_req. rewrite Hi. unfold expand. rewrite He. cbn [obind].
    set (w1 := with_wctx _ (push C bs w)).
    destruct (script w) as [|r sc] eqn:Es; [cbn in Hn; lia|]. inversion Hs as [|? ? (x & ->) Hs']; subst.
    assert (F : guard_drop w1 = Ret (with_io (dev w1) sc w1) tt).
    { unfold guard_drop, flush. change (script w1) with (script w). rewrite Es. change (obuf w1) with (obuf w ++ bs). cbn [write_data].
      destruct (Nat.eqb_spec 0 (length (obuf w ++ bs))) as [L|L]; [rewrite app_length in L; destruct bs; [congruence|cbn in L; lia]|].
      reflexivity. }
    rewrite F. cbn [obind]. destruct (IH (with_io (dev w1) sc w1)) as (w' & A & B & D & G); auto; [cbn in Hn |- *; lia|].
    exists w'. split; [exact A|]. split; [rewrite B; reflexivity|]. split; [|exact G].
    rewrite D. cbn [obuf with_io w1 with_wctx push repeat concat]. now rewrite <- app_assoc.
Qed.
