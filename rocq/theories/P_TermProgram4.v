(** Computing schedules of any programs that share a [Terminal], for the example (C118). *)
From Verif Require Import Base M_Utf8 M_Geom S_Geom M_Attr M_Buf S_Buf M_Writer S_Tty S_Writer M_Locks S_Locks S_Together P_Loop P_Sched S_Emu.

Section Demo.
  Variable E : env.
  (** The threads follow the schedule to the end; test the view of the terminal. *)
  Definition terminal_shows (progs : list client) (w : wst) (sch : list (nat * choice)) (t0 : emu) (P : view -> bool) : bool :=
    match lrun E ansi_cfg sch [] (start progs (Some w, None)) with
    | Some (tr, c) =>
        forallb (fun i => is_done (threads c i)) (seq 0 (length progs)) && negb (existsb is_fail tr) &&
        match shared c with
        | (Some w', _) => match look (ansi_tty E) (feed (ansi_tty E) t0 (stream w')) with Some v => P v | None => false end
        | _ => false
        end
    | None => false
    end.
  Lemma terminal_shows_ok progs w sch t0 P : terminal_shows progs w sch t0 P = true ->
    exists tr c w' v, run E ansi_cfg (start progs (Some w, None)) tr c /\ finished c /\ no_failure tr /\
      fst (shared c) = Some w' /\ look (ansi_tty E) (feed (ansi_tty E) t0 (stream w')) = Some v /\ P v = true.
  Proof.
    unfold terminal_shows. destruct (lrun _ _ sch _ _) as [[tr c]|] eqn:Er; [|discriminate]. intros H.
    apply andb_prop in H. destruct H as [H H3]. apply andb_prop in H. destruct H as [H1 H2].
    destruct (shared c) as [[w'|] d] eqn:Ec; try discriminate. destruct (look _ _) as [v|] eqn:El; [|discriminate].
    assert (R := lrun_ok E ansi_cfg sch [] _ _ tr c (run_nil _ _ _) Er).
    exists tr, c, w', v. split; [exact R|]. split; [|split; [|split; [now rewrite Ec|auto]]].
    - intros i. destruct (Nat.lt_ge_cases i (length progs)) as [Hi|Hi]; [|apply (past_done E ansi_cfg _ _ _ _ _ R); exact Hi].
      rewrite forallb_forall in H1. specialize (H1 i). rewrite in_seq in H1. specialize (H1 ltac:(lia)).
      destruct (threads c i); try discriminate. reflexivity.
    - apply no_fail_ok. now destruct (existsb is_fail tr).
  Qed.
End Demo.
