(** Proofs about any programs that share a [Screen] on Windows, whatever text they write (C127). *)
From Verif Require Import Base M_Utf8 S_Utf8 M_Geom S_Geom M_Attr M_Buf S_Buf M_Writer M_ScreenApi
  M_Locks S_Locks S_Together M_WinWriter S_WinWriter M_WinReader M_WinScreen S_WinScreen P_WinScreen S_WinCanvas
  M_WinLocks S_WinLocks M_WinShare S_WinTogether S_WinCursor P_WinCursor S_Program S_WinProgram
  S_WideCanvas S_WideProgram S_WinWide S_OneThread S_WinOneThread P_WinOneThread S_WinWideProgram.
From Verif Require P_WideCanvas P_WinWide P_WinWide2.

Lemma answered {S A} (o : out S N A) s : wanswers o s AOk -> exists a, o = Ret s a.
Proof. inversion 1; subst. eauto. Qed.

Section Run.
  Variables (draw : list N -> N -> view -> view) (shown : list N -> option N)
    (shown2 : list N -> option (N * N)) (is_half : N -> bool) (E : env).
  Hypothesis HP : wide_places draw shown shown2 is_half.
  Hypothesis HE : env_ok E.
  Hypothesis HU : (32767 <= Z.of_nat (umax E))%Z.

  Definition pictures (v0 : view) (default : N) (s : wscr) (ls : option wcanvas) : Prop :=
    match ls with
    | Some k => win_wdisplays E shown shown2 default (sees s) k /\
        (wink k (line (wpen_goal k)) (column (wpen_goal k)) <> Right ->
         v_cur (sees s) = Coord (Z.of_nat (column (wpen_goal k))) (Z.of_nat (line (wpen_goal k))))
    | None => sees s = v0
    end.

  Lemma performed_pictures l s s' : wperformed draw E l s s' -> forall v0 default k last i ls,
    all_well l -> win_painted draw shown shown2 E s k last -> (last = None -> covers (sees s)) ->
    win_gentle E shown shown2 (marks_of l) k last ->
    t_default (g_t s) = default -> c_cursor (w_con (t_w (g_t s))) = i -> pictures v0 default s ls ->
    t_default (g_t s') = default /\ P_WideCanvas.wfits E (g_sb s') (wmarked E (marks_of l) k) /\
    c_cursor (w_con (t_w (g_t s'))) = cursor_after (marks_of l) i /\
    pictures v0 default s' (wlast_shown E (marks_of l) k ls).
  Proof.
    induction 1 as [s|m l s b s' Hm Hl IH|l s s1 r s' Ha Hl IH|m l s s1 r s' Ha Hl IH|sz l s s1 u s' Hu Hl IH];
      intros v0 default k last i ls Hw W C G D I P.
    - cbn. split; [exact D|]. split; [exact (proj1 (proj2 (P_WinWide2.win_painted_history draw shown shown2 is_half E HP HE s k last HU W)))|]. auto.
    - cbn in G. destruct G as [G1 G2]. cbn [marks_of flat_map app wmarked cursor_after wlast_shown].
      apply (IH v0 default (wdraw E m k) last); auto.
      + intros d Hd. apply Hw. now right.
      + now apply WW_method.
    - cbn in G. destruct G as (G1 & G2 & G3). cbn [marks_of flat_map app wmarked cursor_after wlast_shown].
      destruct (Hw _ (or_introl eq_refl)) as (x & Hx). injection Hx as Hx Hr. subst r. destruct (answered _ _ Ha) as (u & Ea).
      assert (St := stays_refresh draw E s). assert (Sc := g_refresh draw E s). rewrite Ea in St, Sc.
      destruct St as (_ & _ & _ & _ & _ & _ & S3 & _). cbn in Sc.
      assert (G2' : match last with Some h => mends h k | None => covers (sees s) end) by (destruct last; auto).
      destruct (P_WinWide2.win_painting_shows draw shown shown2 is_half E HP HE s k last HU W) as (_ & _ & Q).
      specialize (Q _ _ G1 G2' Ea).
      apply (IH v0 default k (Some (next_shot last k))); auto.
      + intros d Hd. apply Hw. now right.
      + eapply WW_refresh; eassumption.
      + discriminate.
      + congruence.
      + congruence.
      + cbn. rewrite <- D. exact Q.
    - cbn in G. cbn [marks_of flat_map app wmarked cursor_after wlast_shown].
      destruct (Hw _ (or_introl eq_refl)) as (x & Hx). injection Hx as Hx Hr. subst r. destruct (answered _ _ Ha) as (u & Ea).
      assert (Sc := g_mode draw E m s). rewrite Ea in Sc.
      assert (St : t_default (g_t s1) = t_default (g_t s) /\ sees s1 = sees s).
      { cbn [run_wsop] in Ea. unfold on_term, on_wins, win_set_cursor_mode, set_cursor_info, ask in Ea. unfold sees.
        destruct (c_answers _) as [|[e|n] la]; cbn in Ea; try discriminate Ea; injection Ea as <-; repeat split. }
      destruct St as (S1 & S2).
      apply (IH v0 default k last); auto.
      + intros d Hd. apply Hw. now right.
      + eapply WW_mode; eassumption.
      + now rewrite S2.
      + congruence.
      + destruct ls; unfold pictures in *; now rewrite S2.
    - destruct G.
  Qed.

  Lemma win_share_wide (progs : list client) s k last tr c t' d' :
    win_painted draw shown shown2 E s k last -> (last = None -> covers (sees s)) ->
    Forall (fun p => wfollows true None None p /\ uses_screen p) progs ->
    wrun (screen_access draw E (g_state s) (g_old s)) (wstart progs (wshare s)) tr c ->
    wowner c LWriter = None -> wowner c LData = None -> wshared c = (Some t', Some d') ->
    exists order : list (nat * list deed),
      (forall i, exists rest, wdid_so None (nth i progs Finish) (done_by i order ++ rest) /\ (wthreads c i = Done -> rest = [])) /\
      let l := concat (map snd order) in
      (exists s', wperformed draw E l s s' /\ wshare s' = (Some t', Some d')) /\
      (all_well l -> win_gentle E shown shown2 (marks_of l) k last ->
       wholds (dbuf d') (wmarked E (marks_of l) k) /\
       c_cursor (w_con (t_w t')) = cursor_after (marks_of l) (c_cursor (w_con (t_w (g_t s)))) /\
       match wlast_shown E (marks_of l) k None with
       | Some k' => win_wdisplays E shown shown2 (t_default (g_t s)) (c_view (w_con (t_w t'))) k' /\
           (wink k' (line (wpen_goal k')) (column (wpen_goal k')) <> Right ->
            v_cur (c_view (w_con (t_w t'))) = Coord (Z.of_nat (column (wpen_goal k'))) (Z.of_nat (line (wpen_goal k'))))
       | None => c_view (w_con (t_w t')) = sees s
       end).
  Proof.
    intros W C Hf R O1 O2 Hs.
    destruct (wone_after_another draw E progs s tr c t' d' Hf R O1 O2 Hs) as (order & P1 & s' & P2 & P3).
    exists order. split; [exact P1|]. cbv zeta. split; [eauto|]. intros A G.
    destruct (performed_pictures _ _ _ P2 (sees s) _ k last _ None A W C G eq_refl eq_refl eq_refl) as (_ & Q1 & Q2 & Q3).
    unfold wshare in P3. injection P3 as Et Ed. subst d'. cbn [dbuf]. rewrite <- Et. split; [exact (P_WideCanvas.wfits_holds E _ _ Q1)|].
    split; [exact Q2|]. unfold pictures in Q3. unfold sees in *. destruct (wlast_shown E _ k None); exact Q3.
  Qed.
End Run.

(** ** For the example *)
From Verif Require Import M_Prepare P_WideCanvas2 P_WinDraw2 P_WinWide2 P_Sched P_WinProgram3.
Fixpoint win_gentleb (l : list mark) (k : wcanvas) (last : option shot) : bool :=
  match l with
  | [] => true
  | Drawn m :: l => easyb wide_env m k && win_gentleb l (wdraw wide_env m k) last
  | Shown :: l => readableb wide_env k && match last with Some h => mendsb h k | None => true end &&
      win_gentleb l k (Some (next_shot last k))
  | Asked _ :: l => win_gentleb l k last
  | Fitted _ :: _ => false
  end.
Lemma win_gentleb_ok l : forall k last, win_gentleb l k last = true -> win_gentle wide_env duo_shown duo_shown2 l k last.
Proof.
  induction l as [|[m| |m|sz] l IH]; intros k last H; cbn in *; auto; try discriminate H.
  - apply andb_prop in H as [H1 H2]. split; [now apply easyb_ok|auto].
  - apply andb_prop in H as [H H3]. apply andb_prop in H as [H1 H2]. split; [now apply readableb_ok|]. split; [|auto].
    intros h ->. now apply mendsb_ok.
Qed.

Definition sharing_duo (v : view) (l : list client) (sch : list (nat * choice)) (P : view -> bool) : bool :=
  let s := some_screen v [] in
  is_ret (win_screen_new wide_env default_config (some_term v [])) && view_okb v &&
  match wlrun (screen_access duo_draw wide_env (g_state s) (g_old s)) sch [] (wstart l (wshare s)) with
  | Some (tr, c) =>
      match wowner c LWriter, wowner c LData, wshared c with
      | None, None, (Some t, Some _) => negb (is_done (wthreads c 2)) && P (c_view (w_con (t_w t)))
      | _, _, _ => false
      end
  | None => false
  end.
Lemma sharing_duo_ok v l sch P : sharing_duo v l sch P = true ->
  exists s tr c t' d', win_painted duo_draw duo_shown duo_shown2 wide_env s (wblank (size_of_view v)) (Some (first_shot (wblank (size_of_view v)))) /\
    wrun (screen_access duo_draw wide_env (g_state s) (g_old s)) (wstart l (wshare s)) tr c /\
    wowner c LWriter = None /\ wowner c LData = None /\ wshared c = (Some t', Some d') /\ wthreads c 2 <> Done /\
    P (c_view (w_con (t_w t'))) = true.
Proof.
  unfold sharing_duo. cbv zeta. set (s := some_screen v []). intros H. apply andb_prop in H as [H H3]. apply andb_prop in H as [H1 H2].
  destruct (wlrun _ sch [] _) as [[tr c]|] eqn:Er; [|discriminate H3].
  destruct (wowner c LWriter) eqn:O1; [discriminate|]. destruct (wowner c LData) eqn:O2; [discriminate|].
  destruct (wshared c) as [[t'|] [d'|]] eqn:Ec; try discriminate. apply andb_prop in H3 as [H3 H4].
  exists s, tr, c, t', d'. split; [|split; [exact (wlrun_ok _ sch [] _ _ tr c (wrun_nil _ _) Er)|]].
  - apply made_ok in H1. destruct H1 as (t1 & H1). refine (WW_new duo_draw duo_shown duo_shown2 wide_env default_config (some_term v []) t1 _ _ _ _ _ _ H1).
    + split; [reflexivity|]. intros [].
    + now apply view_okb_ok.
    + reflexivity.
    + reflexivity.
    + reflexivity.
  - repeat (split; [assumption|]). split; [|exact H4]. intros Hd. rewrite Hd in H3. discriminate H3.
Qed.
