(** Computing schedules of the example programs, for the examples (C140). *)
From Verif Require Import Base M_Utf8 M_Geom S_Geom M_Attr M_Buf S_Buf M_Writer S_Tty S_Writer P_Buf P_Buf2 P_Buf3 P_Writer P_Attr P_Writer3 M_Screen S_Screen P_Screen P_Screen2 P_Screen5 M_ScreenApi
  S_Canvas P_Canvas P_WholeScreen2 M_Locks S_Locks P_Locks P_Locks2 P_Blocks S_Together P_Together S_Loop P_Loop P_Emu S_Emu P_Canvas2 P_Sched S_WinProgram P_WinProgram3 P_Program3.

Section Demo.
  Variable E : env.
  Hypothesis HE : env_ok E.
  Definition drawing_run (sz : size) (sc : list wresp) (progs : list client) (sch : list (nat * choice)) (P : view -> bool) : bool :=
    match P_Screen5.start E sz sc with
    | Some (s, t) =>
        match lrun E ansi_cfg sch [] (start progs (share s)) with
        | Some (tr, c) =>
            attrs_eqb (wat (wr s)) no_attrs &&
            forallb (fun i => is_done (threads c i)) (seq 0 (length progs)) && negb (existsb is_fail tr) &&
            negb (existsb continued_event tr) && negb (existsb is_new_size tr) &&
            match shared c with
            | (Some w', Some d') => match look (ansi_tty E) (feed (ansi_tty E) (emu_new sz) (stream w')) with Some v => P v | None => false end
            | _ => false
            end
        | None => false
        end
    | None => false
    end.
  Lemma drawing_run_ok sz sc progs sch P : screen_size sz -> whole_writes sc -> drawing_run sz sc progs sch P = true ->
    exists s t tr c w' d' v, painted E ansi_cfg (ansi_tty E) s t (blank_canvas sz) /\ wat (wr s) = no_attrs /\
      run E ansi_cfg (start progs (share s)) tr c /\ finished c /\ no_failure tr /\ not_continued tr /\ no_new_size tr /\
      shared c = (Some w', Some d') /\ look (ansi_tty E) (feed (ansi_tty E) (emu_new sz) (stream w')) = Some v /\ P v = true.
  Proof.
    intros Hs Hw H. unfold drawing_run in H. destruct (P_Screen5.start E sz sc) as [[s t]|] eqn:Es; [|discriminate].
    destruct (lrun _ _ sch _ _) as [[tr c]|] eqn:Er; [|discriminate].
    apply andb_prop in H. destruct H as [H H6]. apply andb_prop in H. destruct H as [H H5]. apply andb_prop in H. destruct H as [H H4].
    apply andb_prop in H. destruct H as [H H3]. apply andb_prop in H. destruct H as [H1 H2].
    destruct (shared c) as [[w'|] [d'|]] eqn:Ec; try discriminate.
    destruct (look _ _) as [v|] eqn:El; [|discriminate].
    assert (R := lrun_ok E ansi_cfg sch [] _ _ tr c (run_nil _ _ _) Er).
    exists s, t, tr, c, w', d', v.
    split; [|split; [|split; [exact R|split; [|split; [|split; [|split; [|split; [exact Ec|split; [exact El|exact H6]]]]]]]]].
    - unfold P_Screen5.start in Es. destruct (screen_new _ _ _ _ _) as [s2 []| | |] eqn:En; try discriminate.
      injection Es as <- <-.
      apply (Pt_new E ansi_cfg (ansi_tty E) sz (writer_new (N.to_nat 8192) sc) s2 (emu_new sz)
        (View sz (repeat (VC [SPACE] no_attrs) (total sz)) (Cursor 0 0) no_attrs true)); auto.
      cbn [stream writer_new dev obuf app]. rewrite (feed_nil _ _ _ (ansi_implements E HE)). apply emu_new_look.
    - now apply attrs_eqb_eq.
    - intros i. destruct (Nat.lt_ge_cases i (length progs)) as [Hi|Hi]; [|apply (past_done E ansi_cfg _ _ _ _ _ R); exact Hi].
      rewrite forallb_forall in H2. specialize (H2 i). rewrite in_seq in H2. specialize (H2 ltac:(lia)).
      destruct (threads c i); try discriminate. reflexivity.
    - apply no_fail_ok. now destruct (existsb is_fail tr).
    - apply not_continued_ok. now destruct (existsb continued_event tr).
    - apply no_new_size_ok. now destruct (existsb is_new_size tr).
  Qed.
End Demo.
