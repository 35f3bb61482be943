(** Checking examples of programs on a Unix screen by computation. *)
From Verif Require Import Base M_Utf8 M_Geom M_Attr M_Buf S_Buf M_Seq M_Signal M_Util M_Input M_Writer S_Tty S_Writer
  M_Screen S_Screen P_Buf2 P_Attr P_Screen3 P_Screen5 M_Prepare M_Reader M_UnixScreen S_UnixScreen S_WholeScreen.

Section Check.
  Variables (E : env) (C : tcfg) (m : seq_map) (K : tty).

  Fixpoint g_calmb (l : list gop) (x : scr) : bool :=
    match l with
    | [] => match refresh E C x with Ret _ _ => true | _ => false end
    | o :: l => match g_step E C o x with Ret x _ => g_calmb l x | _ => false end
    end.
  Lemma g_calmb_ok l : forall x, g_calmb l x = true -> g_calm E C l x.
  Proof.
    induction l as [|o l IH]; intros x; cbn [g_calmb].
    - destruct (refresh E C x) as [x' []|x' e| |] eqn:R; try discriminate. intros _. apply (Calm_drop E C x x'). now left.
    - destruct o; cbn [g_step].
      + destruct (run_buf_op E (sb x) o) as [b|] eqn:R; [|discriminate]. intros H. apply (Calm_buffer E C o l x b R). now apply IH.
      + destruct (on_writer (set_cursor_mode C c) x) as [x' []|x' e| |] eqn:R; try discriminate. intros H. apply (Calm_mode E C c l x x' R). now apply IH.
      + destruct (refresh E C x) as [x' []|x' e| |] eqn:R; try discriminate. intros H. apply (Calm_refresh E C l x x'); [now left|]. now apply IH.
  Qed.
  Definition calmb (o : uop) (u : uscr) : bool :=
    match o with
    | URefresh => g_calmb [GRefresh] (out_side u)
    | ULocked l => g_calmb l (out_side u)
    | UMode c => match set_cursor_mode C c (M_Prepare.wr (u_sys u)) with Ret _ _ => true | _ => false end
    | _ => true
    end.
  Lemma calmb_ok o u : calmb o u = true -> calm E C o u.
  Proof.
    destruct o; cbn [calmb calm]; try (intros _; exact I); try apply g_calmb_ok.
    destruct (set_cursor_mode C c (M_Prepare.wr (u_sys u))) as [w []|w e| |]; try discriminate. intros _. now exists w.
  Qed.

  (** The next state, the reply, and what is sent. *)
  Definition nxt (o : uop) (u : uscr) : uscr := match ustep E C m o u with Some (u', _) => u' | None => u end.
  Definition rep (o : uop) (u : uscr) : reply := match ustep E C m o u with Some (_, r) => r | None => YUnit end.
  Definition sent (o : uop) (u : uscr) : bytes :=
    skipn (length (stream (M_Prepare.wr (u_sys u)))) (stream (M_Prepare.wr (u_sys (nxt o u)))).
  Definition runs (o : uop) (u : uscr) : bool := match ustep E C m o u with Some _ => true | None => false end.
  Definition grows (o : uop) (u : uscr) : bool :=
    bytes_eqb (firstn (length (stream (M_Prepare.wr (u_sys u)))) (stream (M_Prepare.wr (u_sys (nxt o u))))) (stream (M_Prepare.wr (u_sys u))).
  Lemma runs_ok o u : runs o u = true -> ustep E C m o u = Some (nxt o u, rep o u).
  Proof. unfold runs, nxt, rep. destruct (ustep E C m o u) as [[u' r]|]; [reflexivity|discriminate]. Qed.
  Lemma grows_ok o u : grows o u = true -> stream (M_Prepare.wr (u_sys (nxt o u))) = stream (M_Prepare.wr (u_sys u)) ++ sent o u.
  Proof.
    unfold grows, sent. intros H. apply bytes_eqb_ok in H.
    set (n := length (stream (M_Prepare.wr (u_sys u)))) in *. rewrite <- H. symmetry. apply firstn_skipn.
  Qed.
  Definition not_told (r : reply) : bool := match resize_of r with None => true | Some _ => false end.
  Definition is_win (t : tick) : bool := match t with TWin _ => true | _ => false end.

  Definition tick_eq_dec (a b : tick) : {a = b} + {a <> b}.
  Proof. repeat decide equality. Defined.
  Definition ticks_eqb (a b : list tick) : bool := if list_eq_dec tick_eq_dec a b then true else false.
  (** The ticks that pass during a step. *)
  Definition passed (u u' : uscr) : nat := length (time (u_sys u)) - length (time (u_sys u')).
  Definition wholeb (l : list wresp) : bool := forallb (fun r => match r with WOk (S _) => false | _ => true end) l.
  Lemma wholeb_ok l : wholeb l = true -> whole_writes l.
  Proof. intros H. apply Forall_forall. intros r Hr. unfold wholeb in H. rewrite forallb_forall in H. specialize (H r Hr). destruct r as [|[|]| |]; try exact I. discriminate. Qed.

  Inductive pact : Type := PDo (o : uop) | PTold (o : uop) (t' : tstate K).
  Definition pact_op (a : pact) : uop := match a with PDo o | PTold o _ => o end.
  Definition pact_step (a : pact) (u : uscr) (t : tstate K) : option (uscr * tstate K) :=
    match a with
    | PDo o =>
        if calmb o u && runs o u && grows o u && not_told (rep o u) &&
           forallb (fun x => negb (is_win x)) (firstn (passed u (nxt o u)) (time (u_sys u))) &&
           ticks_eqb (skipn (passed u (nxt o u)) (time (u_sys u))) (time (u_sys (nxt o u)))
        then Some (nxt o u, feed K t (sent o u)) else None
    | PTold o t' =>
        match resize_of (rep o u), look K (feed K t' (obuf (M_Prepare.wr (u_sys (nxt o u))))) with
        | Some z, Some v' =>
            if runs o u && wholeb (script (M_Prepare.wr (u_sys (nxt o u)))) &&
               size_eqb (vsize v') z && attrs_eqb (vattrs v') (shown_attrs C (wat (M_Prepare.wr (u_sys (nxt o u))))) &&
               (0 <? lines z) && (0 <? columns z) && (lines z <=? 1000) && (columns z <=? 1000)
            then Some (nxt o u, (feed K t' (obuf (M_Prepare.wr (u_sys (nxt o u)))))) else None
        | _, _ => None
        end
    end.
  Fixpoint pact_run (l : list pact) (u : uscr) (t : tstate K) : option (uscr * tstate K) :=
    match l with
    | [] => Some (u, t)
    | a :: l => match pact_step a u t with Some (u, t) => pact_run l u t | None => None end
    end.
  Lemma small_size z : (0 <? lines z) = true -> (0 <? columns z) = true -> (lines z <=? 1000) = true -> (columns z <=? 1000) = true -> screen_size z.
  Proof. intros. unfold screen_size, u32_max. lia. Qed.
  Lemma pact_run_ok l : forall u t u' t', program E C m K u (Some t) -> Forall (fun a => public_op (pact_op a) /\ single_op E (pact_op a)) l ->
    pact_run l u t = Some (u', t') -> program E C m K u' (Some t').
  Proof.
    induction l as [|a l IH]; intros u t u' t' Hp Hl; cbn [pact_run]; [now intros [= <- <-]|].
    inversion Hl as [|? ? [L1 L2] L3]. subst. destruct (pact_step a u t) as [[u1 t1]|] eqn:Ea; [|discriminate].
    apply IH; [|exact L3]. destruct a as [o|o tt']; cbn [pact_step pact_op] in *.
    - match type of Ea with (if ?b then _ else _) = _ => destruct b eqn:H; [|discriminate] end. injection Ea as <- <-.
      apply andb_prop in H as [H H6]. apply andb_prop in H as [H H5]. apply andb_prop in H as [H H4]. apply andb_prop in H as [H H3].
      apply andb_prop in H as [Hc Hr]. apply (P_step E C m K u t o (nxt o u) (rep o u) (sent o u)); auto.
      + now apply calmb_ok.
      + now apply runs_ok.
      + unfold not_told in H4. destruct (resize_of (rep o u)); [discriminate|reflexivity].
      + exists (firstn (passed u (nxt o u)) (time (u_sys u))). unfold ticks_eqb in H6. destruct (list_eq_dec _ _ _) as [Q|]; [|discriminate].
        split; [rewrite <- Q; symmetry; apply firstn_skipn|].
        intros r Hr'. rewrite forallb_forall in H5. specialize (H5 _ Hr'). discriminate.
      + now apply grows_ok.
    - destruct (resize_of (rep o u)) as [z|] eqn:Ez; [|discriminate]. destruct (look K (feed K tt' (obuf (M_Prepare.wr (u_sys (nxt o u)))))) as [v'|] eqn:Ev; [|discriminate].
      match type of Ea with (if ?b then _ else _) = _ => destruct b eqn:H; [|discriminate] end. injection Ea as <- <-.
      apply andb_prop in H as [H H9]. apply andb_prop in H as [H H8]. apply andb_prop in H as [H H7]. apply andb_prop in H as [H H6].
      apply andb_prop in H as [H H5]. apply andb_prop in H as [H H4]. apply andb_prop in H as [H1 H2].
      apply (P_told E C m K u (Some t) o (nxt o u) (rep o u) z tt' v'); auto.
      + now apply runs_ok.
      + now apply small_size.
      + now apply wholeb_ok.
      + now apply size_eqb_eq.
      + now apply attrs_eqb_eq.
  Qed.

  (** The screen is made on a terminal that has received nothing, the program runs, and then
      [o] is done, with an outcome that [P] tests. *)
  Definition made (cfg : config) (s0 : sys) : option uscr := match unix_screen_new E C cfg s0 with Ret _ u => Some u | _ => None end.
  Definition whole_outcome (cfg : config) (s0 : sys) (t0 : tstate K) (l : list pact) (o : uop) (P : uscr -> reply -> view -> bool) : bool :=
    match win s0, look K (feed K t0 (stream (M_Prepare.wr s0))), made cfg s0 with
    | inr z, Some v0, Some u =>
        wholeb (script (M_Prepare.wr s0)) && size_eqb (vsize v0) z && attrs_eqb (vattrs v0) (shown_attrs C (wat (M_Prepare.wr s0))) &&
        (0 <? lines z) && (0 <? columns z) && (lines z <=? 1000) && (columns z <=? 1000) &&
        match pact_run l u (feed K t0 (stream (M_Prepare.wr (u_sys u)))) with
        | Some (u1, t1) =>
            calmb o u1 && runs o u1 && grows o u1 &&
            match look K (feed K t1 (sent o u1)) with Some v => P (nxt o u1) (rep o u1) v | None => false end
        | None => false
        end
    | _, _, _ => false
    end.
  Lemma whole_outcome_ok cfg s0 t0 l o P : Forall (fun a => public_op (pact_op a) /\ single_op E (pact_op a)) l ->
    whole_outcome cfg s0 t0 l o P = true ->
    exists u t u' r x v, program E C m K u (Some t) /\ calm E C o u /\ ustep E C m o u = Some (u', r) /\
      stream (M_Prepare.wr (u_sys u')) = stream (M_Prepare.wr (u_sys u)) ++ x /\ look K (feed K t x) = Some v /\ P u' r v = true.
  Proof.
    intros Hl. unfold whole_outcome, made. destruct (win s0) as [|z] eqn:Ew; [discriminate|].
    destruct (look K (feed K t0 (stream (M_Prepare.wr s0)))) as [v0|] eqn:El; [|discriminate].
    destruct (unix_screen_new E C cfg s0) as [s1 u| | |] eqn:En; try discriminate. intros H. apply andb_prop in H as [H H10].
    apply andb_prop in H as [H H9]. apply andb_prop in H as [H H8]. apply andb_prop in H as [H H7]. apply andb_prop in H as [H H6].
    apply andb_prop in H as [H H5]. apply andb_prop in H as [H3 H4].
    destruct (pact_run l u _) as [[u1 t1]|] eqn:Er; [|discriminate].
    apply andb_prop in H10 as [H10 H11]. apply andb_prop in H10 as [H10 H12]. apply andb_prop in H10 as [H10 H13].
    destruct (look K (feed K t1 (sent o u1))) as [v|] eqn:Ev; [|discriminate].
    exists u1, t1, (nxt o u1), (rep o u1), (sent o u1), v. split; [|split; [now apply calmb_ok|split; [now apply runs_ok|split; [now apply grows_ok|auto]]]].
    apply (pact_run_ok l u (feed K t0 (stream (M_Prepare.wr (u_sys u)))) u1 t1); [|exact Hl|exact Er].
    apply (P_new E C m K cfg s0 s1 u z t0 v0); auto.
    - now apply small_size.
    - now apply wholeb_ok.
    - now apply size_eqb_eq.
    - now apply attrs_eqb_eq.
  Qed.
  (** The program runs, [o1] is done whatever comes of it, the program is told the size
      by [o2], and then [o] is done, with an outcome that [P] tests. *)
  Definition told_outcome (cfg : config) (s0 : sys) (t0 : tstate K) (l : list pact) (o1 o2 : uop) (t' : tstate K) (o : uop)
      (P : uscr -> reply -> reply -> view -> bool) : bool :=
    match win s0, look K (feed K t0 (stream (M_Prepare.wr s0))), made cfg s0 with
    | inr z, Some v0, Some u =>
        wholeb (script (M_Prepare.wr s0)) && size_eqb (vsize v0) z && attrs_eqb (vattrs v0) (shown_attrs C (wat (M_Prepare.wr s0))) &&
        (0 <? lines z) && (0 <? columns z) && (lines z <=? 1000) && (columns z <=? 1000) &&
        match pact_run l u (feed K t0 (stream (M_Prepare.wr (u_sys u)))) with
        | Some (u1, t1) =>
            let u2 := nxt o1 u1 in
            let u3 := nxt o2 u2 in
            runs o1 u1 && not_told (rep o1 u1) && runs o2 u2 &&
            match resize_of (rep o2 u2), look K (feed K t' (obuf (M_Prepare.wr (u_sys u3)))) with
            | Some z', Some v' =>
                wholeb (script (M_Prepare.wr (u_sys u3))) && size_eqb (vsize v') z' && attrs_eqb (vattrs v') (shown_attrs C (wat (M_Prepare.wr (u_sys u3)))) &&
                (0 <? lines z') && (0 <? columns z') && (lines z' <=? 1000) && (columns z' <=? 1000) &&
                calmb o u3 && runs o u3 && grows o u3 &&
                match look K (feed K (feed K t' (obuf (M_Prepare.wr (u_sys u3)))) (sent o u3)) with Some v => P (nxt o u3) (rep o1 u1) (rep o u3) v | None => false end
            | _, _ => false
            end
        | None => false
        end
    | _, _, _ => false
    end.
  Lemma told_outcome_ok cfg s0 t0 l o1 o2 t' o P : Forall (fun a => public_op (pact_op a) /\ single_op E (pact_op a)) l ->
    public_op o1 -> single_op E o1 -> public_op o2 -> single_op E o2 ->
    told_outcome cfg s0 t0 l o1 o2 t' o P = true ->
    exists u1 u2 u3 r1 r2 z v' u4 r x v, program E C m K u2 None /\ ustep E C m o1 u1 = Some (u2, r1) /\
      ustep E C m o2 u2 = Some (u3, r2) /\ resize_of r2 = Some z /\ screen_size z /\
      whole_writes (script (M_Prepare.wr (u_sys u3))) /\
      look K (feed K t' (obuf (M_Prepare.wr (u_sys u3)))) = Some v' /\ vsize v' = z /\ vattrs v' = shown_attrs C (wat (M_Prepare.wr (u_sys u3))) /\
      calm E C o u3 /\ ustep E C m o u3 = Some (u4, r) /\
      stream (M_Prepare.wr (u_sys u4)) = stream (M_Prepare.wr (u_sys u3)) ++ x /\ look K (feed K (feed K t' (obuf (M_Prepare.wr (u_sys u3)))) x) = Some v /\ P u4 r1 r v = true.
  Proof.
    intros Hl A1 A2 A3 A4. unfold told_outcome, made. destruct (win s0) as [|z] eqn:Ew; [discriminate|].
    destruct (look K (feed K t0 (stream (M_Prepare.wr s0)))) as [v0|] eqn:El; [|discriminate].
    destruct (unix_screen_new E C cfg s0) as [s1 u| | |] eqn:En; try discriminate. intros H. apply andb_prop in H as [H H10].
    apply andb_prop in H as [H H9]. apply andb_prop in H as [H H8]. apply andb_prop in H as [H H7]. apply andb_prop in H as [H H6].
    apply andb_prop in H as [H H5]. apply andb_prop in H as [H3 H4].
    destruct (pact_run l u _) as [[u1 t1]|] eqn:Er; [|discriminate]. cbv zeta in H10.
    apply andb_prop in H10 as [H10 G]. apply andb_prop in H10 as [H10 R2]. apply andb_prop in H10 as [R1 N1].
    set (u2 := nxt o1 u1) in *. set (u3 := nxt o2 u2) in *.
    destruct (resize_of (rep o2 u2)) as [z'|] eqn:Ez; [|discriminate]. destruct (look K (feed K t' (obuf (M_Prepare.wr (u_sys u3))))) as [v'|] eqn:Ev'; [|discriminate].
    apply andb_prop in G as [G G12]. apply andb_prop in G as [G G11]. apply andb_prop in G as [G G10]. apply andb_prop in G as [G G9].
    apply andb_prop in G as [G G8]. apply andb_prop in G as [G G7]. apply andb_prop in G as [G G6]. apply andb_prop in G as [G G5].
    apply andb_prop in G as [G G4]. apply andb_prop in G as [G1 G3].
    destruct (look K (feed K (feed K t' (obuf (M_Prepare.wr (u_sys u3)))) (sent o u3))) as [v|] eqn:Ev; [|discriminate].
    exists u1, u2, u3, (rep o1 u1), (rep o2 u2), z', v', (nxt o u3), (rep o u3), (sent o u3), v.
    split. { apply (P_away E C m K u1 (Some t1) o1 u2 (rep o1 u1)); auto.
      - apply (pact_run_ok l u (feed K t0 (stream (M_Prepare.wr (u_sys u)))) u1 t1); [|exact Hl|exact Er].
        apply (P_new E C m K cfg s0 s1 u z t0 v0); auto.
        + now apply small_size.
        + now apply wholeb_ok.
        + now apply size_eqb_eq.
        + now apply attrs_eqb_eq.
      - now apply runs_ok.
      - unfold not_told in N1. destruct (resize_of (rep o1 u1)); [discriminate|]. intros q Hq. discriminate Hq. }
    split; [now apply runs_ok|]. split; [now apply runs_ok|]. split; [exact Ez|]. split; [now apply small_size|].
    split; [now apply wholeb_ok|]. split; [exact Ev'|]. split; [now apply size_eqb_eq|].
    split; [now apply attrs_eqb_eq|]. split; [now apply calmb_ok|]. split; [now apply runs_ok|]. split; [now apply grows_ok|]. auto.
  Qed.
End Check.
Arguments PDo {K} o.
Arguments PTold {K} o t'.
