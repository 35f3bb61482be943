(** Proofs about the macros. *)
From Coq Require Import String.
From Verif Require Import Base M_Attr M_Buf M_Writer M_Screen M_Macros S_Macros.
Local Open Scope string_scope.

Section Proofs.
  Variable U : Type.
  Notation tree := (tree U).
  Notation method := (method U).

  Definition rule (t : tree) : option method :=
    match t with
    | Brackets ts => style_rules U ts
    | Parens ts => format_rules U ts
    | Literal s => Some (MWriteStr U s)
    end.

  (** What a method asks for. *)
  Definition asked (m : method) : asks U :=
    match m with
    | MSetFg _ e => from U e RFg | MSetBg _ e => from U e RBg
    | MAddStyle _ e => from U e RAddStyle | MRemoveStyle _ e => from U e RRemoveStyle
    | MSetStyle _ e => from U e RStyle
    | MClearAttributes _ => just U RClear
    | MSetTheme _ e => from U e RTheme
    | MWriteFmt _ e => fun u => (fst (e u), option_map RText (snd (e u)))
    | MWriteStr _ s => just U (RText s)
    end.

  Lemma color_rule_names n c : color_rule n = Some c <-> In (n, c) color_names.
  Proof.
    unfold color_rule. split.
    - intros H.
      repeat match type of H with
             | (if ?x =? ?y then _ else _) = _ =>
                 destruct (String.eqb_spec x y) as [->|]; [injection H as <-; cbn; tauto|]
             end. discriminate H.
    - intros H. cbn in H.
      repeat (destruct H as [H|H]; [injection H as <- <-; reflexivity|]). destruct H.
  Qed.

  Lemma style_rule_names n s : style_rule n = Some s <-> In (n, s) style_names.
  Proof.
    unfold style_rule. split.
    - intros H.
      repeat match type of H with
             | (if ?x =? ?y then _ else _) = _ =>
                 destruct (String.eqb_spec x y) as [->|]; [injection H as <-; cbn; tauto|]
             end. discriminate H.
    - intros H. cbn in H.
      repeat (destruct H as [H|H]; [injection H as <- <-; reflexivity|]). destruct H.
  Qed.

  Lemma color_not_style n c : color_rule n = Some c -> style_rule n = None.
  Proof.
    intros H. apply color_rule_names in H. cbn in H.
    repeat (destruct H as [H|H]; [injection H as <- <-; reflexivity|]). destruct H.
  Qed.

  (** The elements with a rule are the documented ones, and the rule is right. *)
  Lemma means_rule t f : means U t f -> exists m, rule t = Some m /\ forall u, f u = asked m u.
  Proof.
    intros H. destruct H; cbn; eauto.
    - rewrite (proj2 (color_rule_names _ _) H). cbn. eauto.
    - rewrite (proj2 (color_rule_names _ _) H). cbn. eauto.
    - pose proof (proj2 (style_rule_names _ _) H) as Hs.
      destruct (color_rule n) as [c|] eqn:Hc.
      { rewrite (color_not_style _ _ Hc) in Hs. discriminate Hs. }
      rewrite Hs. eauto.
    - rewrite (proj2 (style_rule_names _ _) H). cbn. eauto.
  Qed.

  Lemma rule_means t m : rule t = Some m -> exists f, means U t f.
  Proof.
    intros H. destruct t as [ts|ts|s]; cbn [rule] in H; [| |eauto using means].
    - destruct ts as [|t1 ts]; [discriminate H|].
      destruct t1 as [n| | | | | | | |a]; cbn in H;
        try (destruct ts as [|t2 [|t3 ts]]; try discriminate H).
      + destruct (color_rule n) as [c|] eqn:Hc.
        { eexists. apply m_color, color_rule_names, Hc. }
        destruct (style_rule n) as [s|] eqn:Hs.
        { eexists. apply m_style, style_rule_names, Hs. }
        destruct (String.eqb_spec n "reset") as [->|]; [|discriminate H]. eexists. apply m_reset.
      + destruct t2; discriminate H.
      + destruct t2; try discriminate H;
          (destruct t3 as [| | | | | | | |a]; try discriminate H);
          (destruct ts; [|try discriminate H; destruct a; discriminate H]).
        * destruct (String.eqb_spec n "fg") as [->|].
          { destruct a; try discriminate H. eexists. apply m_fg. }
          destruct (String.eqb_spec n "bg") as [->|].
          { destruct a; try discriminate H. eexists. apply m_bg. }
          destruct (String.eqb_spec n "style") as [->|].
          { destruct a; try discriminate H. eexists. apply m_set_style. }
          destruct (String.eqb_spec n "theme") as [->|]; [|discriminate H].
          destruct a; try discriminate H. eexists. apply m_theme.
        * destruct a; try discriminate H.
          destruct (String.eqb_spec n "style") as [->|]; [|discriminate H]. eexists. apply m_add_style.
        * destruct a; try discriminate H.
          destruct (String.eqb_spec n "style") as [->|]; [|discriminate H]. eexists. apply m_sub_style.
      + destruct t2 as [n| | | | | | | |]; try discriminate H.
        destruct (color_rule n) as [c|] eqn:Hc; [|discriminate H].
        eexists. apply m_bg_color, color_rule_names, Hc.
      + destruct t2; discriminate H.
      + destruct t2 as [n| | | | | | | |]; try discriminate H.
        destruct (style_rule n) as [s|] eqn:Hs.
        { eexists. apply m_no_style, style_rule_names, Hs. }
        destruct (String.eqb_spec n "fg") as [->|]; [eexists; apply m_no_fg|].
        destruct (String.eqb_spec n "bg") as [->|]; [eexists; apply m_no_bg|].
        destruct (String.eqb_spec n "style") as [->|]; [eexists; apply m_no_styles|discriminate H].
      + destruct t2; discriminate H.
    - destruct ts as [|t1 ts]; [discriminate H|].
      destruct t1 as [n| | | | | | | |a]; cbn in H; try discriminate H.
      + destruct ts as [|[n| | | | | | | |a] [|t3 ts]]; try discriminate H;
          destruct a; try discriminate H. eexists. apply m_display.
      + destruct ts as [|[n| | | | | | | |a] [|t3 ts]]; try discriminate H;
          destruct a; try discriminate H. eexists. apply m_debug.
      + destruct a; try discriminate H. destruct ts; [|discriminate H]. eexists. apply m_format.
  Qed.

  Fixpoint chain (r : expr U) (ms : list method) : expr U :=
    match ms with
    | [] => r
    | m :: ms => chain (EChain U r m) ms
    end.

  Lemma main_rules_chain l : forall r,
    main_rules U r l = option_map (chain r)
      (fold_right (fun t acc => match rule t, acc with Some m, Some ms => Some (m :: ms) | _, _ => None end)
                  (Some []) l).
  Proof.
    induction l as [|t l IH]; intros r; [reflexivity|].
    change (main_rules U r (t :: l)) with
      (match rule t with Some m => main_rules U (EChain U r m) l | None => None end).
    cbn [fold_right]. destruct (rule t) as [m|]; [|reflexivity].
    rewrite IH. destruct (fold_right _ _ l); reflexivity.
  Qed.

  Lemma documented_methods l :
    documented U l -> exists ms, Forall2 (fun t m => rule t = Some m) l ms.
  Proof.
    induction 1 as [|t l [f Hf] _ [ms IH]]; [exists []; constructor|].
    apply means_rule in Hf. destruct Hf as [m [Hm _]]. exists (m :: ms). now constructor.
  Qed.

  Lemma methods_fold l ms : Forall2 (fun t m => rule t = Some m) l ms ->
    fold_right (fun t acc => match rule t, acc with Some m, Some ms => Some (m :: ms) | _, _ => None end)
               (Some []) l = Some ms.
  Proof. induction 1 as [|t m l ms H _ IH]; cbn; [|rewrite H, IH]; reflexivity. Qed.

  Section Terminal.
    Variable C : tcfg.

    Definition map_user (u : U) (r : wres) : out (U * wst) werr unit :=
      match r with
      | Ret w' _ => Ret (u, w') tt
      | Fail w' e => Fail (u, w') e
      | Panic => Panic
      | Blocked => Blocked
      end.

    Lemma term_method_asks m u w :
      term_method U C m (u, w) =
      match asked m u with
      | (u', Some q) => map_user u' (run_wop C (on_terminal q) w)
      | (_, None) => Panic
      end.
    Proof.
      destruct m; cbn; try reflexivity; unfold from; destruct (e u) as [u' x]; cbn; try reflexivity.
      destruct x; reflexivity.
    Qed.

    Lemma eval_chain ms : forall r st,
      term_eval U C (chain r ms) st =
      obind (term_eval U C r st) (fun st _ => term_eval U C (chain (EInit U) ms) st).
    Proof.
      induction ms as [|m ms IH]; intros r st.
      - cbn. destruct (term_eval U C r st) as [? []| | |]; reflexivity.
      - cbn [chain]. rewrite IH. cbn [term_eval].
        destruct (term_eval U C r st) as [st' []| | |]; cbn [obind]; try reflexivity.
        rewrite (IH (EChain U (EInit U) m)). reflexivity.
    Qed.

    Lemma run_chain l ms : Forall2 (fun t m => rule t = Some m) l ms ->
      forall st r, term_eval U C (chain (EInit U) ms) st = r <-> terminal_run U C l st r.
    Proof.
      induction 1 as [|t m l ms Hr _ IH]; intros [u w] r.
      - cbn. split; [intros <-; constructor|intros H; inversion H; reflexivity].
      - cbn [chain]. rewrite eval_chain. cbn [term_eval obind]. rewrite term_method_asks.
        split.
        + intros <-. destruct (rule_means t m Hr) as [f Hf].
          destruct (means_rule t f Hf) as [m' [Hm' Ha]].
          rewrite Hr in Hm'. injection Hm' as <-. specialize (Ha u).
          destruct (asked m u) as [u' [q|]] eqn:Hq.
          * destruct (run_wop C (on_terminal q) w) as [w' []|w' e| |] eqn:Hw; cbn [map_user obind].
            -- eapply tr_next; [exact Hf|exact Ha|exact Hw|]. now apply IH.
            -- eapply tr_error; eauto.
            -- eapply tr_panic; eauto.
            -- eapply tr_waits; eauto.
          * eapply tr_format; eauto.
        + intros H. inversion H; subst;
            (match goal with Hf : means U t ?f |- _ =>
               destruct (means_rule t f Hf) as [m' [Hm' Ha]];
               rewrite Hr in Hm'; injection Hm' as <-; specialize (Ha u);
               match goal with Hu : f u = _ |- _ => rewrite Hu in Ha; rewrite <- Ha end end);
            try (match goal with Hw : run_wop _ _ _ = _ |- _ => rewrite Hw end); cbn [map_user obind];
            try reflexivity.
          now apply IH.
    Qed.

    Lemma guard_facts l st r : l <> [] -> documented U l ->
      (term_write_guard U C l st = Some r <-> terminal_run U C l st r).
    Proof.
      intros Hn Hd. destruct (documented_methods l Hd) as [ms Hms].
      unfold term_write_guard, expansion_of.
      destruct l as [|t l]; [contradiction|].
      rewrite main_rules_chain, (methods_fold _ _ Hms). cbn [option_map].
      rewrite <- (run_chain _ _ Hms). split; [intros H; injection H as <-; reflexivity|congruence].
    Qed.

    Lemma terminal_facts l st : l <> [] -> documented U l ->
      exists r, terminal_run U C l st r /\ term_write_terminal U C l st = Some (unlocked U r).
    Proof.
      intros Hn Hd. destruct (documented_methods l Hd) as [ms Hms].
      exists (term_eval U C (chain (EInit U) ms) st). split.
      - now apply (run_chain _ _ Hms).
      - unfold term_write_terminal, expansion_of.
        destruct l as [|t l]; [contradiction|].
        rewrite main_rules_chain, (methods_fold _ _ Hms). cbn [option_map]. f_equal.
        destruct (term_eval U C (chain (EInit U) ms) st) as [[u w] []|[u w] e| |]; cbn;
          try reflexivity; unfold after_flush, guard_drop; destruct (flush w); reflexivity.
    Qed.

    Lemma rejects_facts l st :
      (term_write_guard U C l st = None <-> l = [] \/ ~ documented U l).
    Proof.
      unfold term_write_guard, expansion_of. destruct l as [|t0 l0].
      { cbn. tauto. }
      set (l := t0 :: l0). rewrite main_rules_chain.
      destruct (fold_right _ _ l) as [ms|] eqn:Hf; cbn [option_map].
      - split; [discriminate|]. intros [H|H]; [discriminate H|]. exfalso. apply H. clear H.
        clearbody l. clear t0 l0. revert ms Hf. induction l as [|t l IH]; intros ms Hf; constructor.
        + cbn in Hf. destruct (rule t) as [m|] eqn:Hr; [|discriminate Hf]. apply (rule_means t m Hr).
        + cbn in Hf. destruct (rule t); [|discriminate Hf]. destruct (fold_right _ _ l); [|discriminate Hf].
          eapply IH. reflexivity.
      - split; [|reflexivity]. intros _. right. intros Hd.
        destruct (documented_methods l Hd) as [ms Hms]. rewrite (methods_fold _ _ Hms) in Hf. discriminate Hf.
    Qed.

    Lemma documented_literal l s : documented U l -> documented U (l ++ [Literal s])%list.
    Proof.
      intros H. apply Forall_app. split; [exact H|]. constructor; [|constructor].
      eexists. apply m_literal.
    Qed.

    Lemma writeln_app l : writeln_trees U l = (l ++ [Literal [10%N]])%list.
    Proof. destruct l; reflexivity. Qed.

    Lemma writeln_facts l st r : documented U l ->
      (term_write_guard U C (writeln_trees U l) st = Some r <->
       terminal_run U C (l ++ [Literal [10%N]]) st r).
    Proof.
      intros Hd. rewrite writeln_app. apply guard_facts.
      - destruct l; discriminate.
      - now apply documented_literal.
    Qed.
  End Terminal.

  Section Screen.
    Variables (E : env) (C : tcfg).

    Lemma screen_method_asks m u b :
      screen_method U E m (u, b) =
      match asked m u with
      | (u', Some q) => match run_buf_op E b (on_screen q) with Val b' => Val (u', b') | Boom => Boom end
      | (_, None) => Boom
      end.
    Proof.
      destruct m; cbn; try reflexivity; unfold from; destruct (e u) as [u' x]; cbn; try reflexivity.
      destruct x; reflexivity.
    Qed.

    Lemma screen_eval_chain ms : forall r st,
      screen_eval U E (chain r ms) st =
      match screen_eval U E r st with
      | Val st => screen_eval U E (chain (EInit U) ms) st
      | Boom => Boom
      end.
    Proof.
      induction ms as [|m ms IH]; intros r st.
      - cbn. destruct (screen_eval U E r st); reflexivity.
      - cbn [chain]. rewrite IH. cbn [screen_eval].
        destruct (screen_eval U E r st) as [st'|]; [|reflexivity].
        rewrite (IH (EChain U (EInit U) m)). reflexivity.
    Qed.

    Lemma screen_run_chain l ms : Forall2 (fun t m => rule t = Some m) l ms ->
      forall st r, screen_eval U E (chain (EInit U) ms) st = r <-> screen_run U E l st r.
    Proof.
      induction 1 as [|t m l ms Hr _ IH]; intros [u w] r.
      - cbn. split; [intros <-; constructor|intros H; inversion H; reflexivity].
      - cbn [chain]. rewrite screen_eval_chain. cbn [screen_eval]. rewrite screen_method_asks.
        split.
        + intros <-. destruct (rule_means t m Hr) as [f Hf].
          destruct (means_rule t f Hf) as [m' [Hm' Ha]].
          rewrite Hr in Hm'. injection Hm' as <-. specialize (Ha u).
          destruct (asked m u) as [u' [q|]] eqn:Hq.
          * destruct (run_buf_op E w (on_screen q)) as [w'|] eqn:Hw.
            -- eapply sr_next; [exact Hf|exact Ha|exact Hw|]. now apply IH.
            -- eapply sr_panic; eauto.
          * eapply sr_format; eauto.
        + intros H. inversion H; subst;
            (match goal with Hf : means U t ?f |- _ =>
               destruct (means_rule t f Hf) as [m' [Hm' Ha]];
               rewrite Hr in Hm'; injection Hm' as <-; specialize (Ha u);
               match goal with Hu : f u = _ |- _ => rewrite Hu in Ha; rewrite <- Ha end end);
            try (match goal with Hw : run_buf_op _ _ _ = _ |- _ => rewrite Hw end);
            try reflexivity.
          now apply IH.
    Qed.

    Lemma screen_guard_facts l st r : documented U l ->
      (screen_write_guard U E (writeln_trees U l) st = Some r <->
       screen_run U E (l ++ [Literal [10%N]]) st r) /\
      (l <> [] -> screen_write_guard U E l st = Some r <-> screen_run U E l st r).
    Proof.
      intros Hd.
      assert (G : forall l, l <> [] -> documented U l ->
                  (screen_write_guard U E l st = Some r <-> screen_run U E l st r)).
      { clear l Hd. intros l Hn Hd. destruct (documented_methods l Hd) as [ms Hms].
        unfold screen_write_guard, expansion_of.
        destruct l as [|t l]; [contradiction|].
        rewrite main_rules_chain, (methods_fold _ _ Hms). cbn [option_map].
        rewrite <- (screen_run_chain _ _ Hms). split; [intros H; injection H as <-; reflexivity|congruence]. }
      split; [|intros Hn; now apply G].
      rewrite writeln_app. apply G.
      - destruct l; discriminate.
      - now apply documented_literal.
    Qed.

    Lemma screen_session_facts l u s u' b : l <> [] -> documented U l ->
      screen_run U E l (u, sb s) (Val (u', b)) ->
      screen_write_screen U E C l (u, s) =
      Some (match s_guard_drop E C (with_sb b s) with
            | Ret s' _ => Ret (u', s') tt
            | Fail s' e => Fail (u', s') e
            | Panic => Panic
            | Blocked => Blocked
            end).
    Proof.
      intros Hn Hd H. destruct (documented_methods l Hd) as [ms Hms].
      apply (screen_run_chain _ _ Hms) in H.
      unfold screen_write_screen, expansion_of. destruct l as [|t l]; [contradiction|].
      rewrite main_rules_chain, (methods_fold _ _ Hms). cbn [option_map]. now rewrite H.
    Qed.
  End Screen.
End Proofs.
