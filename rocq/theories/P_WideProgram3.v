(** Computing schedules of programs that share a [Screen] and write double-width text, for
    the example (C121). *)
From Verif Require Import Base M_Utf8 M_Geom S_Geom M_Attr M_Buf S_Buf M_Writer S_Tty S_Writer P_Buf P_Buf2 P_Buf3 P_Writer P_Attr P_Writer3 M_Screen S_Screen P_Screen P_Screen2 P_Screen5 M_ScreenApi
  S_Canvas P_Canvas S_WideCanvas P_WideCanvas P_WideCanvas2 P_WholeScreen2 M_Locks S_Locks P_Locks P_Locks2 P_Blocks S_Together P_Together S_Loop P_Loop P_Emu S_Emu P_Canvas2 P_Sched
  S_Program P_Program3 S_WideProgram P_WideProgram P_WideProgram2.

Section Demo.
  Variable E : env.
  Hypothesis HE : env_ok E.
  Lemma sharing_wide_ok sz sc progs sch1 sch2 sz' P : screen_size sz -> whole_writes sc -> sharing E sz sc progs sch1 sch2 sz' P = true ->
    exists s t tr c w' d' x y v, wpainted E ansi_cfg (ansi_tty E) s t (wblank sz) (Some (first_shot (wblank sz))) /\ wat (wr s) = no_attrs /\
      run E ansi_cfg (start progs (share s)) tr c /\ finished c /\ no_failure tr /\ not_continued tr /\ usable_sizes tr /\
      shared c = (Some w', Some d') /\ stream w' = x ++ y /\ of_size (ansi_tty E) sz' (emu_new sz') /\
      look (ansi_tty E) (feed (ansi_tty E) (emu_new sz') y) = Some v /\ P v = true.
  Proof.
    intros Hs Hw H. unfold sharing in H. destruct (P_Screen5.start E sz sc) as [[s t]|] eqn:Es; [|discriminate].
    destruct (lrun _ _ sch1 _ _) as [[tr1 c1]|] eqn:Er; [|discriminate].
    destruct (lrun _ _ sch2 _ _) as [[tr c]|] eqn:Er2; [|discriminate].
    apply andb_prop in H. destruct H as [H H6]. apply andb_prop in H. destruct H as [H H5]. apply andb_prop in H. destruct H as [H H4].
    apply andb_prop in H. destruct H as [H H3]. apply andb_prop in H. destruct H as [H1 H2].
    destruct (shared c) as [[w'|] [d'|]] eqn:Ec; try discriminate. apply andb_prop in H6. destruct H6 as [H6 H7].
    destruct (look _ _) as [v|] eqn:El; [|discriminate].
    assert (R1 := lrun_ok E ansi_cfg sch1 [] _ _ tr1 c1 (run_nil _ _ _) Er).
    assert (R := lrun_ok E ansi_cfg sch2 tr1 _ _ tr c R1 Er2).
    exists s, t, tr, c, w', d', (firstn (length (stream_of c1)) (stream w')), (skipn (length (stream_of c1)) (stream w')), v.
    split; [|split; [|split; [exact R|split; [|split; [|split; [|split; [|split; [exact Ec|split; [symmetry; apply firstn_skipn|split; [|split; [exact El|exact H7]]]]]]]]]]].
    - unfold P_Screen5.start in Es. destruct (screen_new _ _ _ _ _) as [s2 []| | |] eqn:En; try discriminate.
      injection Es as <- <-.
      apply (WPt_new E ansi_cfg (ansi_tty E) sz (writer_new (N.to_nat 8192) sc) s2 (emu_new sz)
        (View sz (repeat (VC [SPACE] no_attrs) (total sz)) (Cursor 0 0) no_attrs true)); auto.
      cbn [stream writer_new dev obuf app]. rewrite (feed_nil _ _ _ (ansi_implements E HE)). apply emu_new_look.
    - now apply attrs_eqb_eq.
    - intros i. destruct (Nat.lt_ge_cases i (length progs)) as [Hi|Hi]; [|apply (past_done E ansi_cfg _ _ _ _ _ R); exact Hi].
      rewrite forallb_forall in H2. specialize (H2 i). rewrite in_seq in H2. specialize (H2 ltac:(lia)).
      destruct (threads c i); try discriminate. reflexivity.
    - apply no_fail_ok. now destruct (existsb is_fail tr).
    - apply not_continued_ok. now destruct (existsb continued_event tr).
    - now apply usable_ok.
    - eexists. split; [apply emu_new_look|]. auto.
  Qed.

  Fixpoint gentleb (l : list S_Program.mark) (k : wcanvas) (last : option shot) : bool :=
    match l with
    | [] => true
    | Drawn m :: l => easyb E m k && gentleb l (wdraw E m k) last
    | Fitted sz :: l => cutsb sz k && gentleb l (wrefit sz k) None
    | Shown :: l => mends_last last k && gentleb l k (Some (next_shot last k))
    | Asked _ :: l => gentleb l k last
    end.
  Lemma gentleb_ok l : forall k last, gentleb l k last = true -> gentle E l k last.
  Proof.
    induction l as [|[m| |m|sz] l IH]; intros k last H; cbn [gentleb gentle] in *; [exact I|..]; auto;
      apply andb_prop in H; destruct H as [H1 H2]; (split; [|now apply IH]).
    - now apply easyb_ok.
    - now apply mends_last_ok.
    - now apply cutsb_ok.
  Qed.
End Demo.
