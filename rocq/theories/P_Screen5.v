(** Property-level lemmas about [refresh], and concrete histories. *)
From Verif Require Import Base M_Utf8 S_Utf8 M_Geom S_Geom M_Attr M_Buf S_Buf M_Writer S_Tty S_Writer
  M_Screen S_Screen P_Buf P_Buf2 P_Buf3 P_Buf4 P_Writer P_Attr P_Writer2 P_Writer3 P_Screen P_Screen2 P_Screen3 P_Screen4
  S_Emu P_Emu.

Section Props.
  Variables (E : env) (C : tcfg) (K : tty).
  Hypothesis HE : env_ok E.
  Hypothesis HC : env_chars E.
  Hypothesis Hco : caps_coherent C.
  Hypothesis HK : implements E C K.

  Lemma narrow_refresh s t s' u x : history E C K (single_width E) anyhow s t ->
    refresh E C s = Ret s' u -> stream (wr s') = stream (wr s) ++ x ->
    obuf (wr s') = [] /\ buffer (sb s') = buffer (sb s) /\ bsize (sb s') = bsize (sb s) /\ bcur (sb s') = bcur (sb s) /\
    exists v, look K (feed K t x) = Some v /\ vsize v = bsize (sb s) /\ vattrs v = no_attrs /\
      vcur v = cursor_goal (sb s) /\
      forall i c, cell_at (sb s) i = Some c -> nth_error (vcells v) i = Some (VC (ctext c) (shown_attrs C (cattrs c))).
  Proof.
    intros H Hr Hx. destruct (history_narrow E C HE HC K Hco HK s t H) as (v & V1 & Hi & Hn).
    destruct (no_halves_ok E C s v Hi Hn) as (N1 & N2 & N3).
    destruct (refresh_spec E C HC _ _ _ (i_frame _ _ _ _ Hi) N2 Hr) as (R1 & R2 & R3 & R4 & R5).
    split; [assumption|]. rewrite R1. do 3 (split; [reflexivity|]).
    destruct (goes_here E C K Hco HK _ _ _ _ x t v R5 Hx V1 (conj Hi N3)) as (v' & V2 & D1 & (D2 & D3) & D4 & D5).
    exists v'. split; [assumption|]. split; [rewrite D2, R1; reflexivity|]. split; [assumption|]. split.
    - destruct D5 as [D5|D5]; [rewrite D5, R1; reflexivity|]. rewrite R1 in D5. cbn [bsize bcur with_back] in D5.
      match type of D5 with half E ?b ?i = true => change (half E (sb s) i = true) in D5 end.
      rewrite N1 in D5. discriminate.
    - intros i c Hc. rewrite (D3 i c).
      + rewrite R1. change (half E (with_back (sb s) (back (sb s'))) i) with (half E (sb s) i). now rewrite N1.
      + rewrite R1. exact Hc.
  Qed.

  Lemma narrow_exact s t s' u x : history E C K (single_width E) anyhow s t ->
    all_attr_caps C -> Forall (fun c => style_ok (sty (cattrs c))) (buffer (sb s)) ->
    refresh E C s = Ret s' u -> stream (wr s') = stream (wr s) ++ x ->
    exists v, look K (feed K t x) = Some v /\
      forall i c, cell_at (sb s) i = Some c -> nth_error (vcells v) i = Some (VC (ctext c) (cattrs c)).
  Proof.
    intros H Ha Hst Hr Hx. destruct (narrow_refresh _ _ _ _ _ H Hr Hx) as (_ & _ & _ & _ & v & V1 & _ & _ & _ & V2).
    exists v. split; [assumption|]. intros i c Hc. rewrite (V2 i c Hc), all_caps_shown; auto.
    rewrite Forall_forall in Hst. apply Hst. eapply nth_error_In. exact Hc.
  Qed.

  Lemma wide_refresh s t s' u x : history E C K any_text (wides_mend E) s t ->
    (forall v, look K t = Some v -> wides_mend E s v) ->
    refresh E C s = Ret s' u -> stream (wr s') = stream (wr s) ++ x ->
    obuf (wr s') = [] /\ buffer (sb s') = buffer (sb s) /\ bsize (sb s') = bsize (sb s) /\ bcur (sb s') = bcur (sb s) /\
    exists v, look K (feed K t x) = Some v /\ shows E C v (sb s) /\ vattrs v = no_attrs /\
      (half E (sb s) (cell_no (bsize (sb s)) (cursor_goal (sb s))) = false -> vcur v = cursor_goal (sb s)).
  Proof.
    intros H Hw Hr Hx.
    destruct (done_history E C HE HC K Hco HK any_text (wides_mend E) s t s' u x) as (D1 & D2 & v & D3 & D4 & (D5 & D8) & D6 & D7); auto.
    split; [assumption|]. rewrite D2. do 3 (split; [reflexivity|]). exists v. split; [assumption|].
    rewrite D2 in D5, D8, D7. split; [split; assumption|]. split; [assumption|].
    intros Hh. destruct D7 as [D7|D7]; [exact D7|]. cbn [bsize bcur with_back] in D7.
    match type of D7 with half E ?b ?i = true => change (half E (sb s) i = true) in D7 end. 
    change (cursor_goal (with_back (sb s) (back (sb s')))) with (cursor_goal (sb s)) in D7. congruence.
  Qed.

  Lemma history_ops s t ops : history E C K (single_width E) anyhow s t ->
    Forall (single_width E) ops -> Forall (fun o => forall sz, o <> BResize sz) ops ->
    forall b, run_buf_ops E (sb s) ops = Val b -> history E C K (single_width E) anyhow (with_sb b s) t.
  Proof.
    intros H Ho Hr. revert s H. induction ops as [|o ops IH]; intros s H b Hb; cbn [run_buf_ops] in Hb.
    - injection Hb as <-. now rewrite with_sb_id.
    - inversion Ho; inversion Hr; subst. destruct (run_buf_op E (sb s) o) as [b1|] eqn:E1; [|discriminate].
      assert (H5 : history E C K (single_width E) anyhow (with_sb b1 s) t) by (eapply H_buffer; eauto).
      specialize (IH ltac:(assumption) ltac:(assumption) _ H5 b Hb). exact IH.
  Qed.

  Lemma retry s t s1 s2 e : history E C K (single_width E) anyhow s t ->
    compose E C s = Ret s1 tt -> on_writer flush s1 = Fail s2 e ->
    refresh E C s = Fail s2 e /\
    forall ops b s3 u x, Forall (single_width E) ops -> Forall (fun o => forall sz, o <> BResize sz) ops ->
      run_buf_ops E (sb s2) ops = Val b ->
      refresh E C (with_sb b s2) = Ret s3 u -> stream (wr s3) = stream (wr s) ++ x ->
      obuf (wr s3) = [] /\
      exists v, look K (feed K t x) = Some v /\ vsize v = bsize b /\
        forall i c, cell_at b i = Some c -> nth_error (vcells v) i = Some (VC (ctext c) (shown_attrs C (cattrs c))).
  Proof.
    intros H H1 H2. split; [unfold refresh; rewrite H1; exact H2|].
    intros ops b s3 u x Ho Hr Hb H3 Hx.
    assert (Hy : exists y, stream (wr s2) = stream (wr s) ++ y).
    { destruct (history_narrow E C HE HC K Hco HK s t H) as (v & V1 & Hi & Hn).
      destruct (no_halves_ok E C s v Hi Hn) as (N1 & N2 & N3).
      destruct (compose_spec E C HC _ _ _ (i_frame _ _ _ _ Hi) N2 H1) as (R1 & R2 & R3 & R4 & (_ & y & Y1 & _)).
      destruct (flush_failed _ _ _ (f_whole _ _ R1) H2) as (T2 & T3 & T4 & T5 & T6 & T7).
      exists y. congruence. }
    destruct Hy as (y & Hy).
    assert (Hh : history E C K (single_width E) anyhow s2 (feed K t y)).
    { eapply H_unflushed; eauto. intros; exact I. }
    assert (Hh2 := history_ops _ _ _ Hh Ho Hr b Hb).
    destruct (history_narrow E C HE HC K Hco HK _ _ Hh2) as (v & V1 & Hi & Hn).
    destruct (no_halves_ok E C _ v Hi Hn) as (N1 & N2 & N3).
    destruct (refresh_emits E C HC _ _ _ (i_frame _ _ _ _ Hi) N2 H3) as (_ & z & Z1 & _).
    destruct (narrow_refresh _ _ _ _ z Hh2 H3 Z1) as (A1 & A2 & A3 & A4 & v' & V2 & V3 & V4 & V5 & V6).
    split; [assumption|]. exists v'. cbn [sb with_sb wr] in *.
    assert (Hz : y ++ z = x).
    { apply (app_inv_head (stream (wr s))). rewrite app_assoc, <- Hy, <- Z1, Hx. reflexivity. }
    rewrite <- Hz, (feed_app _ _ _ HK). auto.
  Qed.

  Lemma minimal_output s s' u : buf_ok E (sb s) -> screen_size (bsize (sb s)) -> whole_writes (script (wr s)) ->
    wides_fit E (sb s) -> refresh E C s = Ret s' u ->
    exists x, stream (wr s') = stream (wr s) ++ x /\ drawing C (map (text_at (sb s)) (changed E (sb s))) x.
  Proof. intros H1 H2 H3 H4 H5. apply (refresh_emits E C HC s s' u); auto. now constructor. Qed.

  Lemma minimal_history s t s' u : history E C K (single_width E) anyhow s t -> refresh E C s = Ret s' u ->
    exists x, stream (wr s') = stream (wr s) ++ x /\ drawing C (map (text_at (sb s)) (changed E (sb s))) x.
  Proof.
    intros H Hr. destruct (history_narrow E C HE HC K Hco HK s t H) as (v & V1 & Hi & Hn).
    destruct (no_halves_ok E C s v Hi Hn) as (N1 & N2 & N3).
    apply (refresh_emits E C HC s s' u (i_frame _ _ _ _ Hi) N2 Hr).
  Qed.
End Props.

(** ** Concrete histories on the ANSI terminal *)
Lemma demo_chars u : env_chars (demo_env u).
Proof.
  intros c. unfold demo_env, demo_width; cbn [cwidth combining]. intros [H|H].
  - unfold scalar. destruct (is_scalar c) eqn:Ei; [reflexivity|]. exfalso. apply H. cbn [negb]. now rewrite orb_true_r.
  - unfold scalar, is_scalar. lia.
Qed.

Inductive act : Type := ABuf (o : buf_op) | ARefresh.

Section Play.
  Variable E : env.
  Hypothesis HE : env_ok E.
  Let K := ansi_tty E.

  Definition grown (s s' : scr) : option bytes :=
    let n := length (stream (wr s)) in
    if list_eq_dec N.eq_dec (firstn n (stream (wr s'))) (stream (wr s)) then Some (skipn n (stream (wr s'))) else None.

  Lemma grown_ok s s' x : grown s s' = Some x -> stream (wr s') = stream (wr s) ++ x.
  Proof.
    unfold grown. destruct (list_eq_dec _ _ _) as [H|]; [|discriminate]. intros Hx. injection Hx as <-.
    transitivity (firstn (length (stream (wr s))) (stream (wr s')) ++ skipn (length (stream (wr s))) (stream (wr s'))).
    - symmetry. apply firstn_skipn.
    - now rewrite H.
  Qed.

  Definition play1 (st : scr * emu) (a : act) : option (scr * emu) :=
    let '(s, t) := st in
    match a with
    | ABuf (BResize _) => None
    | ABuf o => match run_buf_op E (sb s) o with Val b => Some (with_sb b s, t) | Boom => None end
    | ARefresh => match refresh E ansi_cfg s with
                  | Ret s' _ => match grown s s' with Some x => Some (s', feed K t x) | None => None end
                  | _ => None
                  end
    end.
  Fixpoint play (st : scr * emu) (l : list act) : option (scr * emu) :=
    match l with
    | [] => Some st
    | a :: l => match play1 st a with Some st => play st l | None => None end
    end.

  Definition start (sz : size) (sc : list wresp) : option (scr * emu) :=
    match screen_new E ansi_cfg sz (inr sz) (writer_new (N.to_nat 8192) sc) with
    | Ret s _ => Some (s, feed K (emu_new sz) (stream (wr s)))
    | _ => None
    end.

  Lemma play_history allowed l : forall s t s' t', history E ansi_cfg K allowed anyhow s t ->
    Forall (fun a => match a with ABuf o => allowed o | ARefresh => True end) l ->
    play (s, t) l = Some (s', t') -> history E ansi_cfg K allowed anyhow s' t'.
  Proof.
    induction l as [|a l IH]; intros s t s' t' H Hl Hp; cbn [play] in Hp.
    - injection Hp as <- <-. exact H.
    - inversion Hl; subst. destruct (play1 (s, t) a) as [[s1 t1]|] eqn:E1; [|discriminate].
      apply (IH s1 t1); auto. destruct a as [o|]; cbn [play1] in E1.
      + assert (Hr : forall sz, o <> BResize sz) by (intros sz ->; discriminate).
        assert (Hb : exists b, run_buf_op E (sb s) o = Val b /\ (s1, t1) = (with_sb b s, t)).
        { destruct o; try discriminate; match type of E1 with context [match ?r with _ => _ end] => destruct r eqn:Er end;
            try discriminate; injection E1 as <- <-; eauto. }
        destruct Hb as (b & Hb & Hq). injection Hq as -> ->. eapply H_buffer; eauto.
      + destruct (refresh E ansi_cfg s) as [s2 u| | |] eqn:Er; try discriminate.
        destruct (grown s s2) as [x|] eqn:Eg; [|discriminate]. injection E1 as <- <-.
        destruct u.
        apply (H_refresh E ansi_cfg K allowed anyhow s t s2 x); auto using grown_ok; try (intros; exact I).
  Qed.

  Lemma start_history allowed sz sc s t : screen_size sz -> whole_writes sc -> start sz sc = Some (s, t) ->
    history E ansi_cfg K allowed anyhow s t.
  Proof.
    intros Hsz Hw H. unfold start in H. destruct (screen_new _ _ _ _ _) as [s0 u| | |] eqn:Es; try discriminate.
    injection H as <- <-. destruct u.
    apply (H_new E ansi_cfg K allowed anyhow sz (writer_new (N.to_nat 8192) sc) s0 (emu_new sz) (View sz (repeat (VC [SPACE] no_attrs) (total sz)) (Cursor 0 0) no_attrs true)); auto.
    - cbn [stream writer_new dev obuf app]. rewrite (feed_nil _ _ _ (ansi_implements E HE)). apply emu_new_look.
  Qed.

  Definition run_acts (sz : size) (sc : list wresp) (l : list act) : option (scr * emu) :=
    match start sz sc with Some st => play st l | None => None end.

  Lemma run_history allowed sz sc l s t : screen_size sz -> whole_writes sc ->
    Forall (fun a => match a with ABuf o => allowed o | ARefresh => True end) l ->
    run_acts sz sc l = Some (s, t) -> history E ansi_cfg K allowed anyhow s t.
  Proof.
    intros Hsz Hw Hl H. unfold run_acts in H. destruct (start sz sc) as [[s0 t0]|] eqn:Es; [|discriminate].
    eapply play_history; eauto. eapply start_history; eauto.
  Qed.
End Play.

Lemma ansi_coherent : caps_coherent ansi_cfg. Proof. repeat split; auto. Qed.

Definition alls (n : nat) : list wresp := repeat WAll n.
Lemma alls_whole n : whole_writes (alls n).
Proof. apply Forall_forall. intros r H. apply repeat_spec in H. now subst. Qed.

Definition torn_acts : list act :=
  [ABuf (BWriteAt (Cursor 0 0) [120; 121]%N); ARefresh;
   ABuf (BWriteAt (Cursor 0 0) [0xFF21]%N); ARefresh;
   ABuf (BWriteAt (Cursor 0 0) [120; 121]%N)].


(** What a refresh leads to: the new state, what it sent, the new terminal and its view. *)
Definition refreshed (E : env) (s : scr) (t : emu) : option (scr * bytes * view) :=
  match refresh E ansi_cfg s with
  | Ret s' _ => match grown s s' with
                | Some x => match look (ansi_tty E) (feed (ansi_tty E) t x) with
                            | Some v => Some (s', x, v)
                            | None => None
                            end
                | None => None
                end
  | _ => None
  end.

Lemma refreshed_ok E s t s' x v : refreshed E s t = Some (s', x, v) ->
  refresh E ansi_cfg s = Ret s' tt /\ stream (wr s') = stream (wr s) ++ x /\
  look (ansi_tty E) (feed (ansi_tty E) t x) = Some v.
Proof.
  unfold refreshed. destruct (refresh E ansi_cfg s) as [s1 []| | |]; try discriminate.
  destruct (grown s s1) as [y|] eqn:Eg; [|discriminate].
  destruct (look _ _) as [w|] eqn:El; [|discriminate]. intros H. injection H as <- <- <-.
  split; [reflexivity|]. split; [now apply grown_ok|assumption].
Qed.

(** Run the actions, then refresh, and test the outcome. *)
Definition outcome (E : env) (sz : size) (sc : list wresp) (l : list act) (P : scr -> view -> bool) : bool :=
  match run_acts E sz sc l with
  | Some (s, t) => match refreshed E s t with Some (s', x, v) => P s v | None => false end
  | None => false
  end.

Lemma outcome_ok E allowed sz sc l P : env_ok E -> screen_size sz -> whole_writes sc ->
  Forall (fun a => match a with ABuf o => allowed o | ARefresh => True end) l ->
  outcome E sz sc l P = true ->
  exists s t s' x v, history E ansi_cfg (ansi_tty E) allowed anyhow s t /\
    refresh E ansi_cfg s = Ret s' tt /\ stream (wr s') = stream (wr s) ++ x /\
    look (ansi_tty E) (feed (ansi_tty E) t x) = Some v /\ P s v = true.
Proof.
  intros HE Hs Hw Hl H. unfold outcome in H.
  destruct (run_acts E sz sc l) as [[s t]|] eqn:Er; [|discriminate].
  destruct (refreshed E s t) as [[[s' x] v]|] eqn:Ef; [|discriminate].
  destruct (refreshed_ok _ _ _ _ _ _ Ef) as (A & B & D).
  exists s, t, s', x, v. split; [eapply run_history; eauto|auto].
Qed.

Definition bytes_eqb (a b : list N) : bool := if list_eq_dec N.eq_dec a b then true else false.
Lemma bytes_eqb_ok a b : bytes_eqb a b = true -> a = b.
Proof. unfold bytes_eqb. destruct (list_eq_dec _ _ _); congruence. Qed.

Ltac small := unfold screen_size, u32_max; cbn; lia.

Lemma torn : exists s t s' x v,
  history (demo_env 1000) ansi_cfg (ansi_tty (demo_env 1000)) any_text anyhow s t /\
  refresh (demo_env 1000) ansi_cfg s = Ret s' tt /\ stream (wr s') = stream (wr s) ++ x /\
  look (ansi_tty (demo_env 1000)) (feed (ansi_tty (demo_env 1000)) t x) = Some v /\
  ~ shows (demo_env 1000) ansi_cfg v (sb s).
Proof.
  assert (HE : env_ok (demo_env 1000)) by apply demo_env_ok.
  destruct (outcome_ok (demo_env 1000) any_text (Size 2 4) (alls 9) torn_acts
    (fun s v => match cell_at (sb s) 1, nth_error (vcells v) 1 with
                | Some c, Some (VC t _) => negb (bytes_eqb (ctext c) t) && negb (half (demo_env 1000) (sb s) 1)
                | _, _ => false end))
    as (s & t & s' & x & v & A & B & D & F & G); auto using alls_whole.
  - small.
  - repeat constructor.
  - exists s, t, s', x, v. do 4 (split; [assumption|]). intros (_ & Hs).
    destruct (cell_at (sb s) 1) as [c|] eqn:Ec; [|discriminate]. specialize (Hs _ _ Ec).
    rewrite Hs in G. destruct (half (demo_env 1000) (sb s) 1); [discriminate|].
    unfold bytes_eqb in G. destruct (list_eq_dec N.eq_dec (ctext c) (ctext c)); [discriminate|contradiction].
Qed.

Definition half_acts : list act :=
  [ABuf (BWriteAt (Cursor 0 0) [0xFF21]%N); ABuf (BSetCursor (Cursor 0 1))].

Lemma half_cursor : exists s t s' x v,
  history (demo_env 1000) ansi_cfg (ansi_tty (demo_env 1000)) any_text anyhow s t /\
  refresh (demo_env 1000) ansi_cfg s = Ret s' tt /\ stream (wr s') = stream (wr s) ++ x /\
  look (ansi_tty (demo_env 1000)) (feed (ansi_tty (demo_env 1000)) t x) = Some v /\
  bcur (sb s) = Cursor 0 1 /\ vcur v = Cursor 0 2.
Proof.
  assert (HE : env_ok (demo_env 1000)) by apply demo_env_ok.
  destruct (outcome_ok (demo_env 1000) any_text (Size 1 4) (alls 9) half_acts
    (fun s v => cursor_eqb (bcur (sb s)) (Cursor 0 1) && cursor_eqb (vcur v) (Cursor 0 2)))
    as (s & t & s' & x & v & A & B & D & F & G); auto using alls_whole.
  - small.
  - repeat constructor.
  - exists s, t, s', x, v. do 4 (split; [assumption|]). apply andb_prop in G as [G1 G2].
    split; now apply cursor_eqb_eq.
Qed.

(** A refresh that fails while it draws: the character that did not fit the output
    buffer (of the real size, 8192) is never drawn. *)
Definition big_text : list N := 120%N :: repeat 769%N (N.to_nat 4095) ++ [233%N].
Definition lost_run (E : env) (P : scr -> view -> bool) : bool :=
  match run_acts E (Size 1 2) (WAll :: WErr 5%N :: alls 9) [ABuf (BWriteAt (Cursor 0 0) big_text)] with
  | Some (s, t) =>
      match refresh E ansi_cfg s with
      | Fail s1 e =>
          match refresh E ansi_cfg s1 with
          | Ret s2 _ =>
              match grown s s2 with
              | Some x => match look (ansi_tty E) (feed (ansi_tty E) t x) with
                          | Some v => P s v
                          | None => false
                          end
              | None => false
              end
          | _ => false
          end
      | _ => false
      end
  | None => false
  end.

Lemma big_text_narrow : no_wide (demo_env 1000) big_text.
Proof.
  unfold big_text, no_wide. apply Forall_forall. intros c [<-|Hc].
  - intros (_ & H). discriminate.
  - apply in_app_or in Hc as [Hc|[<-|[]]].
    + apply repeat_spec in Hc. subst. intros (_ & H). discriminate.
    + intros (_ & H). discriminate.
Qed.

Definition cell1_differs (E : env) (s : scr) (v : view) : bool :=
  match cell_at (sb s) 1, nth_error (vcells v) 1 with
  | Some c, Some (VC t _) => negb (bytes_eqb (ctext c) t) && negb (half E (sb s) 1)
  | _, _ => false
  end.
Lemma cell1_differs_ok E s v : cell1_differs E s v = true -> ~ shows E ansi_cfg v (sb s).
Proof.
  unfold cell1_differs. intros H (_ & Hs).
  destruct (cell_at (sb s) 1) as [c|] eqn:Ec; [|discriminate H]. specialize (Hs _ _ Ec).
  rewrite Hs in H. destruct (half E (sb s) 1); [discriminate H|].
  unfold bytes_eqb in H. destruct (list_eq_dec N.eq_dec (ctext c) (ctext c)); [discriminate H|contradiction].
Qed.

Lemma lost_run_ok E : env_ok E -> no_wide E big_text -> lost_run E (cell1_differs E) = true ->
  exists s t s1 e s2 x v,
  history E ansi_cfg (ansi_tty E) (single_width E) anyhow s t /\
  refresh E ansi_cfg s = Fail s1 e /\
  refresh E ansi_cfg s1 = Ret s2 tt /\ stream (wr s2) = stream (wr s) ++ x /\
  look (ansi_tty E) (feed (ansi_tty E) t x) = Some v /\ ~ shows E ansi_cfg v (sb s).
Proof.
  intros HE Hn H. unfold lost_run in H.
  destruct (run_acts _ _ _ _) as [[s t]|] eqn:Er; [|discriminate H].
  destruct (refresh E ansi_cfg s) as [|s1 e| |] eqn:E1; try discriminate H.
  destruct (refresh E ansi_cfg s1) as [s2 []| | |] eqn:E2; try discriminate H.
  destruct (grown s s2) as [x|] eqn:Eg; [|discriminate H].
  destruct (look _ _) as [v|] eqn:El; [|discriminate H].
  exists s, t, s1, e, s2, x, v. split.
  - eapply run_history; [exact HE| | | |exact Er].
    + small.
    + repeat (apply Forall_cons; [constructor|]). constructor.
    + apply Forall_cons; [exact Hn|constructor].
  - split; [exact E1|]. split; [exact E2|]. split; [exact (grown_ok _ _ _ Eg)|]. split; [exact El|].
    apply cell1_differs_ok. exact H.
Qed.

Lemma lost : exists s t s1 e s2 x v,
  history (demo_env 1000) ansi_cfg (ansi_tty (demo_env 1000)) (single_width (demo_env 1000)) anyhow s t /\
  refresh (demo_env 1000) ansi_cfg s = Fail s1 e /\
  refresh (demo_env 1000) ansi_cfg s1 = Ret s2 tt /\ stream (wr s2) = stream (wr s) ++ x /\
  look (ansi_tty (demo_env 1000)) (feed (ansi_tty (demo_env 1000)) t x) = Some v /\
  ~ shows (demo_env 1000) ansi_cfg v (sb s).
Proof.
  assert (H : lost_run (demo_env 1000) (cell1_differs (demo_env 1000)) = true) by (vm_compute; reflexivity).
  exact (lost_run_ok _ (demo_env_ok 1000) big_text_narrow H).
Qed.

(** A screen without cells cannot be refreshed. *)
Lemma no_cells E C s : clr s = false -> wat (wr s) = no_attrs ->
  total (bsize (sb s)) = 0 -> refresh E C s = Panic.
Proof.
  intros Hc Ha Ht. unfold total in Ht. unfold refresh, compose. rewrite Hc. cbn [obind].
  assert (Hw : on_writer (clear_attributes C) s = Ret s tt).
  { unfold on_writer, clear_attributes. rewrite Ha. cbn. now rewrite with_wr_id. }
  rewrite Hw. cbn [obind]. unfold sb_indices, area, checked_area. rewrite Ht. cbn [Nat.leb].
  replace (0 - 0) with 0 by reflexivity. cbn [draw]. unfold next_cell. cbn [next_cell_aux Nat.sub obind].
  rewrite (with_sb_id s), Hw. cbn [obind].
  assert (Ho : is_out_of_bounds (bcur (sb s)) (bsize (sb s)) = true).
  { unfold is_out_of_bounds. apply Nat.eq_mul_0 in Ht as [Ht|Ht]; rewrite Ht; cbn [Nat.leb]; auto using orb_true_r. }
  rewrite Ho. unfold cursor_last, usub.
  apply Nat.eq_mul_0 in Ht as [Ht|Ht]; rewrite Ht.
  - reflexivity.
  - destruct (lines (bsize (sb s))); reflexivity.
Qed.

(** ** Deciding [wides_mend], for examples *)
Definition wides_fitb (E : env) (b : sbuf) : bool :=
  forallb (fun i => implb (wide_at E b i) ((i mod columns (bsize b) + 2 <=? columns (bsize b)) && negb (wide_at E b (S i))))
          (seq 0 (length (buffer b))).
Definition mendedb (E : env) (v : view) (b : sbuf) : bool :=
  forallb (fun i => implb (is_trail (nth_error (vcells v) i) && negb (half E b i))
      match nth_error (back b) i, nth_error (buffer b) i with
      | Some k, Some c => negb (cell_eqb k c)
      | _, _ => false
      end) (seq 0 (length (vcells v))).

Lemma wides_fitb_ok E b : wides_fitb E b = true -> wides_fit E b.
Proof.
  unfold wides_fitb. rewrite forallb_forall. intros H i Hi.
  assert (Hl : i < length (buffer b)).
  { unfold wide_at, cell_at in Hi. destruct (nth_error (buffer b) i) eqn:En; [|discriminate].
    apply nth_error_Some. congruence. }
  specialize (H i). rewrite in_seq, Hi in H. specialize (H ltac:(lia)). cbn [implb] in H.
  apply andb_prop in H as [H1 H2]. split; [now apply Nat.leb_le|]. now destruct (wide_at E b (S i)).
Qed.
Lemma mendedb_ok E v b : mendedb E v b = true -> mended E v b.
Proof.
  unfold mendedb. rewrite forallb_forall. intros H i Hi Hh.
  assert (Hl : i < length (vcells v)) by (apply nth_error_Some; congruence).
  specialize (H i). rewrite in_seq, Hi, Hh in H. specialize (H ltac:(lia)). cbn [is_trail negb andb implb] in H.
  destruct (nth_error (back b) i) as [k|]; [|discriminate H]. destruct (nth_error (buffer b) i) as [c|]; [|discriminate H].
  intros Q. injection Q as ->. assert (Hc : cell_eqb c c = true) by now apply cell_eqb_eq. rewrite Hc in H. discriminate H.
Qed.

Definition stayb (E : env) (st : scr * emu) : bool :=
  match look (ansi_tty E) (snd st) with
  | Some v => wides_fitb E (sb (fst st)) && (clr (fst st) || mendedb E v (sb (fst st)))
  | None => true
  end.
Lemma stayb_ok E s t : stayb E (s, t) = true -> forall v, look (ansi_tty E) t = Some v -> wides_mend E s v.
Proof.
  unfold stayb. cbn [fst snd]. intros H v Hv. rewrite Hv in H. apply andb_prop in H as [H1 H2].
  split; [now apply wides_fitb_ok|]. intros Hc. rewrite Hc in H2. now apply mendedb_ok.
Qed.
Fixpoint stays (E : env) (st : scr * emu) (l : list act) : bool :=
  match l with
  | [] => stayb E st
  | a :: l => (match a with ARefresh => stayb E st | _ => true end) &&
              match play1 E st a with Some st => stays E st l | None => false end
  end.

Lemma play_stays E l : forall s t s' t', history E ansi_cfg (ansi_tty E) any_text (wides_mend E) s t ->
  play E (s, t) l = Some (s', t') -> stays E (s, t) l = true ->
  history E ansi_cfg (ansi_tty E) any_text (wides_mend E) s' t' /\
  (forall v, look (ansi_tty E) t' = Some v -> wides_mend E s' v).
Proof.
  induction l as [|a l IH]; intros s t s' t' H Hp Hs; cbn [play stays] in *.
  - injection Hp as <- <-. split; [exact H|]. now apply stayb_ok.
  - apply andb_prop in Hs as [Hs1 Hs2]. destruct (play1 E (s, t) a) as [[s1 t1]|] eqn:E1; [|discriminate].
    apply (IH s1 t1); auto. clear IH Hp Hs2. destruct a as [o|]; cbn [play1] in E1.
    + assert (Hr : forall sz, o <> BResize sz) by (intros sz ->; discriminate).
      assert (Hb : exists b, run_buf_op E (sb s) o = Val b /\ (s1, t1) = (with_sb b s, t)).
      { destruct o; try discriminate; match type of E1 with context [match ?r with _ => _ end] => destruct r eqn:Er end;
          try discriminate; injection E1 as <- <-; eauto. }
      destruct Hb as (b & Hb & Hq). injection Hq as -> ->. eapply H_buffer; eauto. exact I.
    + destruct (refresh E ansi_cfg s) as [s2 u| | |] eqn:Er; try discriminate.
      destruct (grown s s2) as [x|] eqn:Eg; [|discriminate]. injection E1 as <- <-. destruct u.
      apply (H_refresh E ansi_cfg (ansi_tty E) any_text (wides_mend E) s t s2 x); [exact H|now apply stayb_ok|exact Er|now apply grown_ok].
Qed.

Definition stay_outcome (E : env) (sz : size) (sc : list wresp) (l : list act) (P : scr -> view -> bool) : bool :=
  match start E sz sc with
  | Some st => stays E st l
  | None => false
  end && outcome E sz sc l P.

Lemma start_history_stay E sz sc s t : env_ok E -> screen_size sz -> whole_writes sc -> start E sz sc = Some (s, t) ->
  history E ansi_cfg (ansi_tty E) any_text (wides_mend E) s t.
Proof.
  intros HE Hsz Hw H. unfold start in H. destruct (screen_new _ _ _ _ _) as [s0 u| | |] eqn:Es; try discriminate.
  injection H as <- <-. destruct u.
  apply (H_new E ansi_cfg (ansi_tty E) any_text (wides_mend E) sz (writer_new (N.to_nat 8192) sc) s0 (emu_new sz)
    (View sz (repeat (VC [SPACE] no_attrs) (total sz)) (Cursor 0 0) no_attrs true)); auto.
  cbn [stream writer_new dev obuf app]. rewrite (feed_nil _ _ _ (ansi_implements E HE)). apply emu_new_look.
Qed.

Lemma stay_outcome_ok E sz sc l P : env_ok E -> screen_size sz -> whole_writes sc ->
  stay_outcome E sz sc l P = true ->
  exists s t s' x v, history E ansi_cfg (ansi_tty E) any_text (wides_mend E) s t /\
    (forall v, look (ansi_tty E) t = Some v -> wides_mend E s v) /\
    refresh E ansi_cfg s = Ret s' tt /\ stream (wr s') = stream (wr s) ++ x /\
    look (ansi_tty E) (feed (ansi_tty E) t x) = Some v /\ P s v = true.
Proof.
  intros HE Hs Hw H. unfold stay_outcome, outcome, run_acts in H.
  apply andb_prop in H as [H1 H2].
  destruct (start E sz sc) as [[s0 t0]|] eqn:Es; [|discriminate].
  destruct (play E (s0, t0) l) as [[s t]|] eqn:Ep; [|discriminate].
  destruct (refreshed E s t) as [[[s' x] v]|] eqn:Ef; [|discriminate].
  destruct (refreshed_ok _ _ _ _ _ _ Ef) as (A & B & D).
  destruct (play_stays E l s0 t0 s t) as (F & G); auto. { eapply start_history_stay; eauto. }
  exists s, t, s', x, v. exact (conj F (conj G (conj A (conj B (conj D H2))))). 
Qed.
