(** Computing schedules of any programs that share a [Screen], for the example (C116). *)
From Verif Require Import Base M_Utf8 M_Geom S_Geom M_Attr M_Buf S_Buf M_Writer S_Tty S_Writer P_Buf P_Buf2 P_Buf3 P_Writer P_Attr P_Writer3 M_Screen S_Screen P_Screen P_Screen2 P_Screen5 M_ScreenApi
  S_Canvas P_Canvas P_WholeScreen2 M_Locks S_Locks P_Locks P_Locks2 P_Blocks S_Together P_Together S_Loop P_Loop P_Emu S_Emu P_Canvas2 P_Sched.

Section Demo.
  Variable E : env.
  Hypothesis HE : env_ok E.
  Definition stream_of (c : config) : bytes := match shared c with (Some w, _) => stream w | _ => [] end.
  (** The threads follow the schedule to the end; a terminal of the size [sz'] shows what was
      sent since the end of the first part of the schedule. *)
  Definition sharing (sz : size) (sc : list wresp) (progs : list client) (sch1 sch2 : list (nat * choice)) (sz' : size) (P : view -> bool) : bool :=
    match P_Screen5.start E sz sc with
    | Some (s, t) =>
        match lrun E ansi_cfg sch1 [] (start progs (share s)) with
        | Some (tr1, c1) =>
            match lrun E ansi_cfg sch2 tr1 c1 with
            | Some (tr, c) =>
                attrs_eqb (wat (wr s)) no_attrs &&
                forallb (fun i => is_done (threads c i)) (seq 0 (length progs)) && negb (existsb is_fail tr) &&
                negb (existsb continued_event tr) && forallb usable tr &&
                match shared c with
                | (Some w', Some d') =>
                    let n := length (stream_of c1) in
                    bytes_eqb (firstn n (stream w')) (stream_of c1) &&
                    match look (ansi_tty E) (feed (ansi_tty E) (emu_new sz') (skipn n (stream w'))) with Some v => P v | None => false end
                | _ => false
                end
            | None => false
            end
        | None => false
        end
    | None => false
    end.
  Lemma sharing_ok sz sc progs sch1 sch2 sz' P : screen_size sz -> whole_writes sc -> sharing sz sc progs sch1 sch2 sz' P = true ->
    exists s t tr c w' d' x y v, painted E ansi_cfg (ansi_tty E) s t (blank_canvas sz) /\ wat (wr s) = no_attrs /\
      run E ansi_cfg (start progs (share s)) tr c /\ finished c /\ no_failure tr /\ not_continued tr /\ usable_sizes tr /\
      shared c = (Some w', Some d') /\ stream w' = x ++ y /\ of_size (ansi_tty E) sz' (emu_new sz') /\
      look (ansi_tty E) (feed (ansi_tty E) (emu_new sz') y) = Some v /\ P v = true.
  Proof.
    intros Hs Hw H. unfold sharing in H. destruct (P_Screen5.start E sz sc) as [[s t]|] eqn:Es; [|discriminate].
    destruct (lrun _ _ sch1 _ _) as [[tr1 c1]|] eqn:Er; [|discriminate].
    destruct (lrun _ _ sch2 _ _) as [[tr c]|] eqn:Er2; [|discriminate].
    apply andb_prop in H. destruct H as [H H6]. apply andb_prop in H. destruct H as [H H5]. apply andb_prop in H. destruct H as [H H4].
    apply andb_prop in H. destruct H as [H H3]. apply andb_prop in H. destruct H as [H1 H2].
    destruct (shared c) as [[w'|] [d'|]] eqn:Ec; try discriminate. apply andb_prop in H6. destruct H6 as [H6 H7].
    destruct (look _ _) as [v|] eqn:El; [|discriminate].
    assert (R1 := lrun_ok E ansi_cfg sch1 [] _ _ tr1 c1 (run_nil _ _ _) Er).
    assert (R := lrun_ok E ansi_cfg sch2 tr1 _ _ tr c R1 Er2).
    exists s, t, tr, c, w', d', (firstn (length (stream_of c1)) (stream w')), (skipn (length (stream_of c1)) (stream w')), v.
    split; [|split; [|split; [exact R|split; [|split; [|split; [|split; [|split; [exact Ec|split; [symmetry; apply firstn_skipn|split; [|split; [exact El|exact H7]]]]]]]]]]].
    - unfold P_Screen5.start in Es. destruct (screen_new _ _ _ _ _) as [s2 []| | |] eqn:En; try discriminate.
      injection Es as <- <-.
      apply (Pt_new E ansi_cfg (ansi_tty E) sz (writer_new (N.to_nat 8192) sc) s2 (emu_new sz)
        (View sz (repeat (VC [SPACE] no_attrs) (total sz)) (Cursor 0 0) no_attrs true)); auto.
      cbn [stream writer_new dev obuf app]. rewrite (feed_nil _ _ _ (ansi_implements E HE)). apply emu_new_look.
    - now apply attrs_eqb_eq.
    - intros i. destruct (Nat.lt_ge_cases i (length progs)) as [Hi|Hi]; [|apply (past_done E ansi_cfg _ _ _ _ _ R); exact Hi].
      rewrite forallb_forall in H2. specialize (H2 i). rewrite in_seq in H2. specialize (H2 ltac:(lia)).
      destruct (threads c i); try discriminate. reflexivity.
    - apply no_fail_ok. now destruct (existsb is_fail tr).
    - apply not_continued_ok. now destruct (existsb continued_event tr).
    - now apply usable_ok.
    - eexists. split; [apply emu_new_look|]. auto.
  Qed.
End Demo.
