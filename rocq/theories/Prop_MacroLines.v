(** Property theorems for what [term_write!] shows (C142). *)
From Coq Require Import String.
From Verif Require Import Base M_Utf8 S_Utf8 M_Geom S_Geom M_Attr M_Buf S_Buf M_Writer S_Tty S_Writer S_Emu P_Emu P_Screen5 P_Buf3 M_Screen S_Screen M_Macros S_Macros
  M_Api S_Api M_ScreenApi S_Canvas M_Lines S_Lines S_Succeeds P_Succeeds4 S_MacroLines P_MacroLines Prop_Lines.
Local Open Scope nat_scope.

(** C142: [term_write!] of a [Terminal], with elements of the documented forms that ask for
    [qs] (in the order in which they stand), on a terminal that implements its terminfo
    entry and shows [v], of which the attributes are those asked for last; the texts have
    characters of one or two columns, and fit on the cursor's line.  If it returns [Ok],
    every expression has been evaluated, and the terminal already shows the texts one
    after the other from the cursor on, each with the attributes that the elements before
    it name, the cursor behind them, and the rest as before. *)
Theorem C142_terminal : forall (U : Type) E C K t0, implements E C K -> full_caps C ->
  forall l u qs u1 w v u' w', l <> [] -> answers U l u qs u1 -> Forall (line_call E) (map as_call qs) ->
  perfect (script w) -> obuf w = [] -> style_ok (sty (wat w)) ->
  look K (feed K t0 (dev w)) = Some v -> vattrs v = wat w ->
  let ms := map as_call qs in
  let x := row E ms (vattrs v) in
  space (List.length x) v -> term_write_terminal U C l (u, w) = Some (Ret (u', w') tt) ->
  u' = u1 /\ exists v', look K (feed K t0 (dev w')) = Some v' /\ vsize v' = vsize v /\ vattrs v' = asked_at_end ms (vattrs v) /\
    vcur v' = Cursor (line (vcur v)) (column (vcur v) + List.length x) /\
    vcells v' = splice (cell_no (vsize v) (vcur v)) x (vcells v).
Proof. exact macro_line. Qed.
Print Assumptions C142_terminal.

(** C142: [term_write!] of a [Screen] in any history of calls (C96), of which the canvas is
    [k]; the terminal has what drawing needs, and the OS takes what is written.  If it does
    not panic, it succeeds, every expression has been evaluated, and the terminal already
    shows the canvas as the documented equivalents of the elements draw on it, with the
    cursor at the pen. *)
Theorem C142_screen : forall (U : Type) E C K, env_ok E -> env_chars E -> caps_coherent C -> implements E C K -> drawable C -> (forall c n, n <= grow C c n) ->
  forall l u qs u1 s t k r, l <> [] -> answers U l u qs u1 -> painted E C K s t k ->
  no_wide E (concat (map (fun q => method_text (as_drawing q)) qs)) ->
  0 < lines (ksize k) -> 0 < columns (ksize k) ->
  perfect (script (wr s)) -> 2 * total (ksize k) < writes_left (script (wr s)) ->
  screen_write_screen U E C l (u, s) = Some r -> r <> Panic ->
  exists s' x v, r = Ret (u1, s') tt /\ stream (wr s') = stream (wr s) ++ x /\ obuf (wr s') = [] /\
    let k' := draws E (map as_drawing qs) k in
    look K (feed K t x) = Some v /\ displays C v k' /\ vcur v = pen_goal k'.
Proof. exact macro_canvas. Qed.
Print Assumptions C142_screen.

(** The documentation's [term_write!(term, "The answer is: " [bold] (: value) [reset])], where
    evaluating the expression is counted: what it asks for, on the ANSI terminal of
    S_Emu.v with a line of 30 columns, and on a screen with two such lines. *)
Definition answer : list (tree nat) :=
  [Literal (chars "The answer is: "); Brackets [Id "bold"%string]; Parens [Colon; Arg (XText (fun u => (S u, Some (chars "42"))))]; Brackets [Id "reset"%string]].
Definition answer_asks : list request := [RText (chars "The answer is: "); RAddStyle BOLD; RText (chars "42"); RClear].
Example C142_example_asks : answers nat answer 0 answer_asks 1 /\ answer <> [].
Proof.
  split; [|discriminate].
  refine (an_cons _ _ _ _ _ _ _ _ _ (m_literal _ _) eq_refl _). refine (an_cons _ _ _ _ _ _ _ _ _ (m_style _ _ BOLD _) eq_refl _); [cbn; tauto|].
  eapply an_cons; [apply m_display|reflexivity|]. refine (an_cons _ _ _ _ _ _ _ _ _ (m_reset _) eq_refl _). constructor.
Qed.
Example C142_example_terminal :
  let E := demo_env 1000 in
  let w := writer_new 64 (repeat WAll 9) in
  let v := View (Size 1 30) (repeat (VC [32%N] no_attrs) 30) (Cursor 0 0) no_attrs true in
  Forall (line_call E) (map as_call answer_asks) /\ perfect (script w) /\ obuf w = [] /\ style_ok (sty (wat w)) /\
  look (ansi_tty E) (feed (ansi_tty E) (emu_new (Size 1 30)) (dev w)) = Some v /\ vattrs v = wat w /\
  row E (map as_call answer_asks) no_attrs =
    (map (fun c => VC [c] no_attrs) (chars "The answer is: ") ++ map (fun c => VC [c] (Attrs None None BOLD)) (chars "42"))%list /\
  space 17 v /\ exists w', term_write_terminal nat ansi_cfg answer (0, w) = Some (Ret (1, w') tt).
Proof.
  cbv zeta. split.
  { assert (H : forall c, (32 <= c < 127)%N -> letter (demo_env 1000) c) by (intros c Hc; apply (demo_ascii 1000 c Hc)).
    repeat constructor; apply H; vm_compute; intuition discriminate. }
  split; [repeat (constructor; [left; reflexivity|]); constructor|]. split; [reflexivity|]. split; [reflexivity|]. split; [vm_compute; reflexivity|].
  split; [reflexivity|]. split; [vm_compute; reflexivity|].
  split; [apply no_trails; [apply no_trail_ok; vm_compute; reflexivity|cbn; lia|cbn; lia]|].
  assert (H : match term_write_terminal nat ansi_cfg answer (0, writer_new 64 (repeat WAll 9)) with Some (Ret (1, _) tt) => true | _ => false end = true) by (vm_compute; reflexivity).
  destruct (term_write_terminal _ _ _ _) as [[[[|[|n]] w'] []| | |]|]; try discriminate H. now exists w'.
Qed.
Lemma new_painted E sz sc s t : env_ok E -> screen_size sz -> whole_writes sc -> P_Screen5.start E sz sc = Some (s, t) ->
  painted E ansi_cfg (ansi_tty E) s t (blank_canvas sz).
Proof.
  intros HE Hs Hw Es. unfold P_Screen5.start in Es. destruct (screen_new _ _ _ _ _) as [s2 []| | |] eqn:En; try discriminate.
  injection Es as <- <-.
  apply (Pt_new E ansi_cfg (ansi_tty E) sz (writer_new (N.to_nat 8192) sc) s2 (emu_new sz)
    (View sz (repeat (VC [SPACE] no_attrs) (total sz)) (Cursor 0 0) no_attrs true)); auto.
  cbn [stream writer_new dev obuf app]. rewrite (feed_nil _ _ _ (ansi_implements E HE)). apply emu_new_look.
Qed.
Example C142_example_screen :
  let E := demo_env 1000 in
  drawable ansi_cfg /\ no_wide E (concat (map (fun q => method_text (as_drawing q)) answer_asks)) /\
  exists s t, painted E ansi_cfg (ansi_tty E) s t (blank_canvas (Size 2 30)) /\
    perfect (script (wr s)) /\ (2 * total (Size 2 30) <? writes_left (script (wr s))) = true /\
    let k := draws E (map as_drawing answer_asks) (blank_canvas (Size 2 30)) in
    ink k 0 15 = ([52%N], Attrs None None BOLD) /\ pen k = Cursor 0 17 /\
    match screen_write_screen nat E ansi_cfg answer (0, s) with Some (Ret (1, _) tt) => True | _ => False end.
Proof.
  cbv zeta. split; [apply ansi_drawable|].
  split; [apply Forall_forall; intros c Hc (_ & Hw); vm_compute in Hc; repeat (destruct Hc as [<-|Hc]; [discriminate Hw|]); contradiction|].
  destruct (P_Screen5.start (demo_env 1000) (Size 2 30) (repeat WAll 130)) as [[s t]|] eqn:Es; [|vm_compute in Es; discriminate Es].
  exists s, t. split.
  { apply (new_painted _ _ _ _ _ (demo_env_ok 1000)) in Es; [exact Es|small|]. apply Forall_forall. intros r Hr. apply repeat_spec in Hr. now subst r. }
  assert (H : match P_Screen5.start (demo_env 1000) (Size 2 30) (repeat WAll 130) with
    | Some (s, _) => forallb (fun r => match r with WAll => true | _ => false end) (script (wr s)) && (2 * total (Size 2 30) <? writes_left (script (wr s))) &&
        match screen_write_screen nat (demo_env 1000) ansi_cfg answer (0, s) with Some (Ret (1, _) tt) => true | _ => false end
    | None => false end = true) by (vm_compute; reflexivity).
  rewrite Es in H. apply andb_prop in H. destruct H as [H H3]. apply andb_prop in H. destruct H as [H1 H2].
  split; [apply Forall_forall; intros r Hr; rewrite forallb_forall in H1; specialize (H1 r Hr); destruct r; try discriminate; now left|].
  split; [exact H2|]. split; [vm_compute; reflexivity|]. split; [vm_compute; reflexivity|].
  destruct (screen_write_screen _ _ _ _ _) as [[[[|[|n]] w'] []| | |]|]; try discriminate H3. exact Logic.I.
Qed.
