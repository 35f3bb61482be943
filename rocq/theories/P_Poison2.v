(** Proofs about a screen after a panic: the calls that still work (C85). *)
From Verif Require Import Base M_Utf8 M_Geom M_Attr M_Buf M_Seq M_Signal M_Util M_Input S_Input M_Writer S_Tty S_Writer P_Writer P_Writer2 P_Writer3
  M_Screen M_Prepare M_Reader S_Prepare P_Prepare P_Prepare2 P_Reader P_Reader2 P_Reader3 M_UnixScreen S_UnixScreen P_UnixScreen P_UnixScreen2 P_UnixScreen3 M_Poison S_Poison P_Poison.

(** A signal that does not come is not read. *)
Section Away.
  Variables (C : tcfg) (m : seq_map) (n : N) (g : signal).
  Hypothesis n0 : 0%N <> n.
  Hypothesis Hg : forall k, conv_signal k = Some g -> k = n.
  Notation no_sig := (no_signal n).

  Lemma pass_no_sig l : forall s, last_sig s <> n -> ~ In (TSig n) l -> no_sig (pass l s).
  Proof.
    induction l as [|t l IH]; intros s H1 H2; cbn [pass]; [split; [exact H1|auto]|].
    assert (H3 : ~ In (TSig n) l) by (intros H; apply H2; now right).
    assert (H4 : last_sig (happens t s) <> n).
    { destruct t as [k| | | | | |]; cbn; auto. destruct (disp s k); [|exact H1]. cbn. intros ->. apply H2. now left. }
    destruct t; try (apply IH; assumption). split; [exact H1|exact H3].
  Qed.
  Lemma advance_no_sig s : no_sig s -> no_sig (advance s).
  Proof. intros [H1 H2]. now apply pass_no_sig. Qed.

  Lemma await_no_sig ms l : forall s, last_sig s <> n -> ~ In (TSig n) l -> no_sig (fst (await ms l s)).
  Proof.
    induction l as [|t l IH]; intros s H1 H2; cbn [await].
    - destruct (failing s); [split; auto|]. destruct (queue s); [|split; auto].
      destruct (match ms with Some 0%N => true | _ => false end); split; auto.
    - assert (H3 : ~ In (TSig n) l) by (intros H; apply H2; now right).
      destruct (failing s); [split; auto|]. destruct (queue s); [|split; auto].
      destruct (match ms with Some 0%N => true | _ => false end); [split; auto|].
      destruct t as [k| | | | | |]; cbn [happens]; try (apply IH; assumption); try (split; assumption).
      + destruct (disp s k) as [|k']; [|now apply IH]. split; [|exact H3]. cbn. intros ->. apply H2. now left.
      + destruct ms; [split; assumption|now apply IH].
  Qed.
  Lemma select_no_sig ms s : no_sig s -> no_sig (fst (select ms s)).
  Proof. intros H. apply advance_no_sig in H as [H1 H2]. now apply await_no_sig. Qed.
  Lemma os_read_no_sig room s : no_sig s -> no_sig (fst (os_read room s)).
  Proof.
    intros H. apply advance_no_sig in H as [H1 H2]. unfold os_read.
    set (ms := if never_waits _ then _ else _).
    pose proof (await_no_sig ms (time (advance s)) (advance s) H1 H2) as H.
    destruct (await ms (time (advance s)) (advance s)) as [s1 w]. destruct w; cbn [fst] in *; try exact H.
    unfold take_queue. destruct (queue s1) as [|bs q]; [exact H|]. destruct (_ <=? _); exact H.
  Qed.

  Definition not_given (r : option input) : Prop := r <> Some (ISignal g).
  Lemma signal_no_sig s : no_sig s -> no_sig (fst (get_signal s)) /\ no_sig (fst (take_signal s)) /\
    snd (get_signal s) <> Some g /\ snd (take_signal s) <> Some g.
  Proof.
    intros H. apply advance_no_sig in H. cbn. split; [exact H|]. destruct H as [H1 H2].
    assert (H3 : conv_signal (last_sig (advance s)) <> Some g) by (intros H; now apply Hg in H).
    split; [split; [exact n0|exact H2]|]. auto.
  Qed.

  Lemma wait_loop_no_sig fuel ms : forall s, no_sig s -> ends no_sig (fun s' _ => no_sig s') (wait_loop fuel ms s).
  Proof.
    induction fuel as [|fuel IH]; intros s Hs; cbn [wait_loop]; [exact I|].
    pose proof (select_no_sig ms s Hs) as H. destruct (select ms s) as [s1 w]. cbn [fst] in H.
    assert (Hi : ends no_sig (fun s' _ => no_sig s')
       (let '(s2, sig) := get_signal s1 in match sig with Some _ => Ret s2 true | None => wait_loop fuel ms s2 end)).
    { pose proof (signal_no_sig s1 H) as (H2 & _). destruct (get_signal s1) as [s2 sig]. cbn [fst] in H2.
      destruct sig; [exact H2|]. now apply IH. }
    destruct w; try exact H; try exact I; try exact Hi. destruct (e =? EINTR)%N; [exact Hi|exact H].
  Qed.
  Lemma wait_no_sig t s : no_sig (fst (get_signal s)) -> ends no_sig (fun s' _ => no_sig s') (wait_event m t s).
  Proof.
    intros H. unfold wait_event. destruct (get_signal s) as [s1 sig]. cbn [fst] in H. destruct sig; [exact H|].
    unfold peek. destruct (peek_event (inbuf s1) m) as [[| |e k]|]; cbn [obind ends]; try exact H; try exact I.
    destruct t as [d|]; [destruct (to_timeval d); [|exact I]|]; now apply wait_loop_no_sig.
  Qed.
  Lemma read_loop_no_sig fuel room : forall s, no_sig s ->
    ends no_sig (fun s' r => no_sig s' /\ not_given r) (read_loop fuel room s).
  Proof.
    induction fuel as [|fuel IH]; intros s Hs; cbn [read_loop]; [exact I|].
    pose proof (os_read_no_sig room s Hs) as H. destruct (os_read room s) as [s1 w]. cbn [fst] in H.
    assert (Hi : ends no_sig (fun s' r => no_sig s' /\ not_given r)
       (let '(s2, sig) := take_signal s1 in match sig with Some sig => Ret s2 (Some (ISignal sig)) | None => read_loop fuel room s2 end)).
    { pose proof (signal_no_sig s1 H) as (_ & H2 & _ & H3). destruct (take_signal s1) as [s2 sig]. cbn [fst snd] in H2, H3.
      destruct sig; [|now apply IH]. split; [exact H2|]. intros [= ->]. now apply H3. }
    destruct w; try exact I; try exact Hi.
    - split; [exact H|discriminate].
    - destruct (e =? EINTR)%N; [exact Hi|exact H].
  Qed.
  (** The state the first look at the signals leaves matters only. *)
  Definition sig_gone (s : sys) : Prop := no_sig (advance s).
  Lemma gone_take s : sig_gone s -> no_sig (fst (take_signal s)) /\ snd (take_signal s) <> Some g.
  Proof.
    intros [H1 H2]. cbn. split; [split; [exact n0|exact H2]|]. intros H. now apply Hg in H.
  Qed.
  Lemma read_input_no_sig room t s : sig_gone s -> ends no_sig (fun s' r => no_sig s' /\ not_given r) (read_input m room t s).
  Proof.
    intros H. unfold read_input. apply gone_take in H as [H1 H2]. destruct (take_signal s) as [s1 sig]. cbn [fst snd] in *.
    destruct sig; [split; [exact H1|]; intros [= ->]; now apply H2|].
    eapply ends_bind; [apply wait_no_sig; now apply signal_no_sig|]. intros s2 ready H3. cbn beta in H3.
    destruct ready; cbn [negb]; [|split; [exact H3|discriminate]].
    apply signal_no_sig in H3 as (_ & H4 & _ & H5). destruct (take_signal s2) as [s3 sig]. cbn [fst snd] in *.
    destruct sig; [split; [exact H4|]; intros [= ->]; now apply H5|]. now apply read_loop_no_sig.
  Qed.
  Lemma gone_inbuf s b c : sig_gone s -> sig_gone (with_inbuf b c s).
  Proof. unfold sig_gone, advance. cbn [time with_inbuf]. rewrite inbuf_pass. exact (fun H => H). Qed.
  Lemma gone_no_sig s : no_sig s -> sig_gone s.
  Proof. apply advance_no_sig. Qed.

  Lemma into_buffer_no_sig t s : sig_gone s -> ends no_sig (fun s' r => no_sig s' /\ not_given r) (read_into_buffer C m t s).
  Proof.
    intros H. unfold read_into_buffer. set (cap := if (_ <=? _) then incap s else _).
    pose proof (read_input_no_sig (cap - length (inbuf s)) t (with_inbuf [] 0 s) (gone_inbuf s [] 0 H)) as R.
    destruct (read_input m (cap - length (inbuf s)) t (with_inbuf [] 0 s)) as [s1 r|s1 e| |]; cbn [ends] in *; auto.
    destruct r as [[sig|bs]|]; exact R.
  Qed.

End Away.

Lemma conv_continue k : conv_signal k = Some Continue -> k = SIGCONT.
Proof.
  unfold conv_signal. destruct (N.eqb_spec k SIGCONT); [auto|]. destruct (N.eqb_spec k SIGINT); [discriminate|].
  destruct (N.eqb_spec k SIGQUIT); [discriminate|]. destruct (N.eqb_spec k SIGTSTP); [discriminate|].
  destruct (N.eqb_spec k SIGWINCH); discriminate.
Qed.

(** Nothing that needs the writer comes: the process is not continued, or the terminal is not
    prepared. *)
Definition not_resumed (s : sys) : Prop := no_signal SIGCONT s \/ resume_cfg s = None.
Definition easy (r : option input) (s : sys) : Prop := r <> Some (ISignal Resize) /\ (r <> Some (ISignal Continue) \/ resume_cfg s = None).
Lemma into_easy C m t s s' r : no_signal SIGWINCH s -> not_resumed s -> read_into_buffer C m t s = Ret s' r -> easy r s'.
Proof.
  intros H1 H2 H.
  pose proof (into_buffer_no_sig C m SIGWINCH Resize ltac:(discriminate) conv_resize t s (gone_no_sig _ _ H1)) as A.
  rewrite H in A. split; [apply A|]. destruct H2 as [H2|H2].
  - pose proof (into_buffer_no_sig C m SIGCONT Continue ltac:(discriminate) conv_continue t s (gone_no_sig _ _ H2)) as B.
    rewrite H in B. left. apply B.
  - pose proof (into_buffer_ends C m t s) as B. rewrite H in B. destruct B as [[B _] _]. right. congruence.
Qed.
Lemma input_easy m room t s s' r : no_signal SIGWINCH s -> not_resumed s -> read_input m room t s = Ret s' r -> easy r s'.
Proof.
  intros H1 H2 H.
  pose proof (read_input_no_sig m SIGWINCH Resize ltac:(discriminate) conv_resize room t s (gone_no_sig _ _ H1)) as A.
  rewrite H in A. split; [apply A|]. destruct H2 as [H2|H2].
  - pose proof (read_input_no_sig m SIGCONT Continue ltac:(discriminate) conv_continue room t s (gone_no_sig _ _ H2)) as B.
    rewrite H in B. left. apply B.
  - pose proof (read_input_ends m room t s) as B. rewrite H in B. destruct B as [B _]. apply passive_steady in B. destruct B as [B _]. right. congruence.
Qed.
Lemma handle_easy C pw sig s : easy (Some (ISignal sig)) s -> p_handle_signal C pw sig s = lifted (handle_signal C sig s).
Proof.
  intros [H1 H2]. unfold p_handle_signal. destruct sig; try congruence; try now rewrite andb_false_r.
  destruct H2 as [H2|H2]; [congruence|]. now rewrite H2, andb_false_r.
Qed.

Lemma read_easy C m pw t s : no_signal SIGWINCH s -> not_resumed s -> p_read_event C m pw t s = lifted (read_event C m t s).
Proof.
  intros H1 H2. unfold p_read_event, read_event. rewrite lifted_bind. pose proof (try_no_winch m s) as T.
  assert (Hs : forall s1, try_read m s = Ret s1 None -> s1 = s).
  { intros s1. unfold try_read, peek. destruct (inbuf s); [now intros [= <-]|].
    destruct (peek_event _ m) as [[| |e k]|]; cbn; try discriminate; now intros [= <-]. }
  destruct (try_read m s) as [s1 [e|]|s1 e| |]; cbn [lifted obind]; auto. rewrite (Hs s1 eq_refl).
  destruct (read_into_buffer C m t s) as [s2 r|s2 e| |] eqn:Er; cbn [lifted obind]; auto. apply into_easy in Er; auto.
  destruct r as [[sig|bs]|]; auto. now apply handle_easy.
Qed.
Lemma raw_easy C m pw n t s : no_signal SIGWINCH s -> not_resumed s -> p_read_raw C m pw n t s = lifted (read_raw C m n t s).
Proof.
  intros H1 H2. unfold p_read_raw. destruct (inbuf s) eqn:Eb; [|reflexivity]. unfold read_raw. rewrite Eb, lifted_bind.
  destruct (read_input m n t s) as [s2 r|s2 e| |] eqn:Er; cbn [lifted obind]; auto. apply input_easy in Er; auto.
  destruct r as [[sig|bs]|]; auto. rewrite handle_easy by exact Er. now rewrite lifted_bind.
Qed.

Lemma p_read_easy E {A} (ev : A -> option event) rep (r : rres A) x : (forall s a, r = Ret s a -> not_resized (ev a)) ->
  p_read E ev rep (lifted r) x =
  as_if_unpoisoned match r with
    | Ret s a => match follow E (ev a) (with_sys s (x_u x)) with Val v => Some (v, rep a) | Boom => None end
    | Fail s e => Some (with_sys s (x_u x), YErr e)
    | _ => None end x.
Proof.
  intros H. unfold p_read, lifted. destruct r as [s a|s e| |]; try reflexivity. specialize (H s a eq_refl).
  destruct (ev a) as [[k|k|k|z|k|]|] eqn:Ee; try reflexivity. now destruct (H z).
Qed.

Lemma reading_same E C m o x : x_r x = false -> read_call o ->
  no_signal SIGWINCH (u_sys (x_u x)) -> no_signal SIGCONT (u_sys (x_u x)) \/ resume_cfg (u_sys (x_u x)) = None ->
  xstep E C m (XDo o) x = as_if_unpoisoned (ustep E C m o (x_u x)) x.
Proof.
  intros Hr Ho H1 H2. destruct o; try contradiction; cbn [xstep]; rewrite Hr; [reflexivity| |].
  - rewrite read_easy by assumption. rewrite p_read_easy.
    + cbn [ustep]. destruct (read_event C m timeout (u_sys (x_u x))); reflexivity.
    + intros s a Er. pose proof (read_no_winch C m timeout _ (P_UnixScreen3.gone_no_winch _ H1)) as R. rewrite Er in R. apply R.
  - rewrite raw_easy by assumption. rewrite p_read_easy.
    + cbn [ustep]. destruct (read_raw C m room timeout (u_sys (x_u x))) as [s [e bs]|s e| |]; reflexivity.
    + intros s a Er. pose proof (raw_no_winch C m room timeout _ (P_UnixScreen3.gone_no_winch _ H1)) as R. rewrite Er in R. apply R.
Qed.

(** Panics without a write guard leave the output side alone. *)
Section Flags.
  Variables (E : env) (C : tcfg) (m : seq_map).
  Lemma step_flags o x x' r : ~ write_panic o -> x_w x = false -> x_d x = false -> xstep E C m o x = Some (x', r) ->
    x_w x' = false /\ x_d x' = false.
  Proof.
    intros Hp Hw Hd.
    assert (Hok : forall o, match ustep E C m o (x_u x) with Some (u, r) => Some (with_u u x, XReply r) | None => None end = Some (x', r) -> x_w x' = false /\ x_d x' = false).
    { intros o'. destruct (ustep E C m o' (x_u x)) as [[u r0]|]; [|discriminate]. intros [= <- <-]. auto. }
    assert (Hs : Some (x, XPanicked) = Some (x', r) -> x_w x' = false /\ x_d x' = false) by (intros [= <- <-]; auto).
    assert (Hread : forall A (ev : A -> option event) rep y, p_read E ev rep y x = Some (x', r) -> x_w x' = false /\ x_d x' = false).
    { intros A ev rep y. unfold p_read. destruct y as [s a|s [e|]| |]; try discriminate; try (intros [= <- <-]; auto).
      destruct (ev a) as [[k|k|k|z|k|]|]; try (intros [= <- <-]; auto). rewrite Hd. destruct (follow E _ _); [|discriminate]. intros [= <- <-]. auto. }
    destruct o as [o|l|l| |]; cbn [xstep]; cbn in Hp; try tauto.
    - rewrite ?Hw, ?Hd. destruct o; cbn [orb]; try apply Hok; (destruct (x_r x); [exact Hs|]); [apply Hok|apply Hread|apply Hread].
    - unfold p_write. destruct (g_run _ _ _ _); intros [= <- <-]; cbn; rewrite Hw, Hd; auto.
    - intros [= <- <-]. auto.
  Qed.
  Lemma run_flags ops : forall x x' rs, Forall (fun o => ~ write_panic o) ops -> x_w x = false -> x_d x = false -> xrun E C m ops x = Some (x', rs) ->
    x_w x' = false /\ x_d x' = false.
  Proof.
    induction ops as [|o ops IH]; intros x x' rs Hp Hw Hd; cbn [xrun]; [intros [= <- <-]; auto|]. inversion Hp as [|? ? P1 P2]; subst.
    destruct (xstep E C m o x) as [[x1 r]|] eqn:Es; [|discriminate]. destruct (xrun E C m ops x1) as [[x2 rs2]|] eqn:Er; [|discriminate].
    intros [= <- <-]. apply step_flags in Es as [W D]; auto. now apply (IH _ _ _ P2 W D Er).
  Qed.

  Lemma output_same ops u x rs o : xrun E C m ops (unpoisoned u) = Some (x, rs) -> Forall (fun o => ~ write_panic o) ops -> output_call o ->
    xstep E C m (XDo o) x = as_if_unpoisoned (ustep E C m o (x_u x)) x.
  Proof.
    intros Hr Hp Ho. destruct (run_flags ops (unpoisoned u) x rs Hp eq_refl eq_refl Hr) as [W D].
    destruct o; try contradiction; cbn [xstep]; rewrite ?W, ?D; reflexivity.
  Qed.

  (** A call that does not panic. *)
  Lemma told_read {A} (ev : A -> option event) rep (pr : xres A) (r : rres A) x x' a :
    (pr = lifted r \/ exists s, pr = Fail s None) -> p_read E ev rep pr x = Some (x', XReply a) ->
    match r with
    | Ret s b => match follow E (ev b) (with_sys s (x_u x)) with Val v => Some (v, rep b) | Boom => None end
    | Fail s e => Some (with_sys s (x_u x), YErr e)
    | _ => None end = Some (x_u x', a) /\ x' = with_u (x_u x') x.
  Proof.
    intros [->|(s & ->)]; [|discriminate]. unfold p_read. destruct r as [s b|s e| |]; cbn [lifted]; try discriminate.
    - destruct (ev b) as [[k|k|k|z|k|]|]; try (intros [= <- <-]; split; reflexivity).
      destruct (x_d x); [discriminate|]. destruct (follow E _ _) as [v|]; [|discriminate]. intros [= <- <-]. split; reflexivity.
    - intros [= <- <-]. split; reflexivity.
  Qed.
  Lemma handle_either pw sig s : p_handle_signal C pw sig s = lifted (handle_signal C sig s) \/
    (exists s', p_handle_signal C pw sig s = Fail s' None) \/ p_handle_signal C pw sig s = Blocked \/ p_handle_signal C pw sig s = Panic.
  Proof.
    unfold p_handle_signal. destruct (pw && _); [|auto]. unfold writer_panics. right. destruct (on_wr guard_drop s); eauto.
  Qed.
  Definition either {A} (pr : xres A) (r : rres A) : Prop := pr = lifted r \/ (exists s, pr = Fail s None) \/ pr = Blocked \/ pr = Panic.
  Lemma read_either pw t s : either (p_read_event C m pw t s) (read_event C m t s).
  Proof.
    unfold either, p_read_event, read_event. rewrite lifted_bind. destruct (try_read m s) as [s1 [e|]|s1 e| |]; cbn [lifted obind]; auto.
    rewrite lifted_bind. destruct (read_into_buffer C m t s1) as [s2 [[sig|bs]|]|s2 e| |]; cbn [lifted obind]; auto. apply handle_either.
  Qed.
  Lemma raw_either pw n t s : either (p_read_raw C m pw n t s) (read_raw C m n t s).
  Proof.
    unfold either, p_read_raw. destruct (inbuf s) eqn:Eb; [|auto]. unfold read_raw. rewrite Eb, lifted_bind.
    destruct (read_input m n t s) as [s2 [[sig|bs]|]|s2 e| |]; cbn [lifted obind]; auto. rewrite lifted_bind.
    destruct (handle_either pw sig s2) as [->|[(s' & ->)|[->| ->]]]; cbn [obind]; eauto.
  Qed.
  Lemma told_either {A} (ev : A -> option event) rep (pr : xres A) (r : rres A) x x' a :
    either pr r -> p_read E ev rep pr x = Some (x', XReply a) ->
    match r with
    | Ret s b => match follow E (ev b) (with_sys s (x_u x)) with Val v => Some (v, rep b) | Boom => None end
    | Fail s e => Some (with_sys s (x_u x), YErr e)
    | _ => None end = Some (x_u x', a) /\ x' = with_u (x_u x') x.
  Proof. intros [->|[(s & ->)|[->| ->]]]; try discriminate. apply told_read; auto. Qed.

  Lemma told_same o x x' a : xstep E C m (XDo o) x = Some (x', XReply a) -> ustep E C m o (x_u x) = Some (x_u x', a) /\ x' = with_u (x_u x') x.
  Proof.
    assert (Hok : forall o, match ustep E C m o (x_u x) with Some (u, r) => Some (with_u u x, XReply r) | None => None end = Some (x', XReply a) ->
              ustep E C m o (x_u x) = Some (x_u x', a) /\ x' = with_u (x_u x') x).
    { intros o'. destruct (ustep E C m o' (x_u x)) as [[u r0]|]; [|discriminate]. intros [= <- <-]. auto. }
    destruct o; cbn [xstep].
    - destruct (x_d x); [discriminate|apply Hok].
    - destruct (x_w x); [|apply Hok]. destruct (writer_panics (u_sys (x_u x))); discriminate.
    - destruct (x_w x || x_d x); [|apply Hok]. unfold p_write. destruct (g_run _ _ _ _); discriminate.
    - destruct (x_w x || x_d x); [|apply Hok]. unfold p_write. destruct (g_run _ _ _ _); discriminate.
    - destruct (x_r x); [discriminate|apply Hok].
    - destruct (x_r x); [discriminate|]. intros H. apply (told_either _ _ _ _ _ _ _ (read_either (x_w x) timeout (u_sys (x_u x)))) in H.
      cbn [ustep]. destruct (read_event C m timeout (u_sys (x_u x))); exact H.
    - destruct (x_r x); [discriminate|]. intros H. apply (told_either _ _ _ _ _ _ _ (raw_either (x_w x) room timeout (u_sys (x_u x)))) in H.
      cbn [ustep]. destruct (read_raw C m room timeout (u_sys (x_u x))) as [s [e bs]|s e| |]; exact H.
  Qed.

  (** A panic with a read guard. *)
  Lemma read_panicked ops : forall x x' rs, xrun E C m ops x = Some (x', rs) -> Exists read_panic ops -> x_r x' = true.
  Proof.
    induction ops as [|o ops IH]; intros x x' rs H Hp; [inversion Hp|]. cbn [xrun] in H.
    destruct (xstep E C m o x) as [[x1 r]|] eqn:Es; [|discriminate]. destruct (xrun E C m ops x1) as [[x2 rs2]|] eqn:Er; [|discriminate].
    injection H as <- <-. inversion Hp as [? ? P|? ? P]; subst; [|now apply (IH _ _ _ Er)].
    apply xrun_more in Er as (M1 & M2 & M3). destruct o; try contradiction. cbn in Es. injection Es as <- <-. cbn in M1. auto.
  Qed.
  Lemma input_panics ops x0 x rs o : xrun E C m ops x0 = Some (x, rs) -> Exists read_panic ops -> read_call o ->
    xstep E C m (XDo o) x = Some (x, XPanicked).
  Proof. intros Hr Hp Ho. pose proof (read_panicked _ _ _ _ Hr Hp) as F. destruct o; try contradiction; cbn [xstep]; now rewrite F. Qed.

  (** A resumption. *)
  Lemma continue_panics ops x0 x rs t x' r : xrun E C m ops x0 = Some (x, rs) -> Exists write_panic ops ->
    resume_cfg (u_sys (x_u x)) <> None ->
    peek_event (inbuf (u_sys (x_u x))) m = Val PNone -> last_sig (advance (u_sys (x_u x))) = SIGCONT ->
    xstep E C m (XDo (URead t)) x = Some (x', r) -> r = XPanicked /\ x_r x' = true.
  Proof.
    intros Hr Hg Hc Hk Hs. destruct (write_panicked _ _ _ _ _ _ _ Hr Hg) as [F1 F2]. cbn [xstep]. destruct (x_r x) eqn:Fr.
    { intros [= <- <-]. auto. }
    unfold p_read_event.
    assert (Ht : try_read m (u_sys (x_u x)) = Ret (u_sys (x_u x)) None).
    { unfold try_read, peek. rewrite Hk. destruct (inbuf (u_sys (x_u x))); reflexivity. }
    rewrite Ht. cbn [lifted obind].
    assert (Hi : exists s2, read_into_buffer C m t (u_sys (x_u x)) = Ret s2 (Some (ISignal Continue)) /\ resume_cfg s2 = resume_cfg (u_sys (x_u x))).
    { pose proof (into_buffer_ends C m t (u_sys (x_u x))) as En.
      unfold read_into_buffer, read_input, take_signal, advance in *. cbn [time with_inbuf] in *. rewrite inbuf_pass in *.
      cbn [last_sig with_inbuf] in *. rewrite Hs in *. cbn in *. eexists. split; [reflexivity|]. apply (proj1 En). }
    destruct Hi as (s2 & -> & Hi). cbn [lifted obind]. unfold p_handle_signal. rewrite F1, Hi.
    destruct (resume_cfg (u_sys (x_u x))); [|congruence]. cbn [andb]. unfold writer_panics.
    destruct (on_wr guard_drop s2); unfold p_read; try discriminate; intros [= <- <-]; auto.
  Qed.
End Flags.
