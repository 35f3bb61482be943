(** Proofs about any programs that share a [Terminal] on Windows (C118). *)
From Verif Require Import Base M_Utf8 S_Utf8 M_Geom S_Geom M_Attr M_Buf S_Buf M_Writer M_Api M_Locks S_Locks P_Locks P_Locks2 S_Together P_Together P_Loop P_Program
  M_WinWriter S_WinWriter M_WinApi S_WinApi P_WinApi M_WinLocks S_WinLocks P_WinLocks P_WinLocks2 P_WinLocks3 M_WinShare S_WinTogether P_WinTogether
  P_WinProgram P_WinProgram2 S_TermProgram P_TermProgram P_TermProgram2.

Lemma terminal_no_screen X T p : terminal_program X T p -> no_screen p.
Proof.
  induction p as [|c k IH]; intros H; [exact I|]. destruct H as [H1 H2]. split; [|intros a; apply IH, H2].
  destruct c; cbn in H1; try contradiction; reflexivity.
Qed.

Section WinTerminal.
  Variables (draw : list N -> N -> view -> view) (default : N) (E : env).
  Hypothesis HD : S_WinApi.draws draw.
  Hypothesis Hd : (default < 65536)%N.
  Hypothesis HE : (65536 <= Z.of_nat (umax E))%Z.
  Let M := console_access draw E default.

  Lemma wtacts_replay rs : forall ms l s s', mute rs -> Forall (usual True) (map fst rs) -> flat_map output (map fst rs) = map forward ms ->
    wreplays M (rs ++ l) (Some s, tt) (Some s', tt) ->
    exists s1, wreplays M l (Some s1, tt) (Some s', tt) /\ win_api_run draw default E (map OnGuard ms) s = Some s1.
  Proof.
    induction rs as [|[a r] rs IH]; intros ms l s s' Hf Hu Ho H.
    { destruct ms; [|discriminate Ho]. exists s. auto. }
    cbn [map fst] in Hu, Ho. inversion Hu as [|? ? Hu1 Hu2]; subst. destruct (mute_cons _ _ _ Hf) as [He Hf'].
    destruct a as [a|a|]; [|destruct Hu1..]. cbn [app wreplays] in H. destruct H as [H1 H2].
    unfold M, console_access, wmeans in H1, H2. cbn [on_writer] in H1, H2.
    destruct a as [o| | |]; cbn [flat_map output app] in Ho; [|exact (IH ms l s s' Hf' Hu2 Ho H2)..].
    destruct ms as [|m ms]; [discriminate Ho|]. injection Ho as -> Ho. cbn [map win_api_run win_api_run1].
    change (win_guard_method draw default E m s) with (run_win draw default E (forward m) s).
    destruct (run_win draw default E (forward m) s) as [s1 []|s1 e| |]; cbn [told fst snd] in H1, H2.
    - exact (IH ms l s1 s' Hf' Hu2 Ho H2).
    - destruct (He (EOs e)). congruence.
    - apply console_none in H2; [discriminate H2|reflexivity].
    - apply console_none in H2; [discriminate H2|reflexivity].
  Qed.
  Lemma wtvs_replay l : forall (order : list (nat * list (act * M_Locks.ans))) s s', mute (concat (map snd order)) -> Forall (tgood True scalar_text (fun _ => True)) l ->
    map (map fst) (map snd order) = map tv_acts l ->
    wreplays M (concat (map snd order)) (Some s, tt) (Some s', tt) ->
    win_api_run draw default E (map OnGuard (flat_map written l)) s = Some s'.
  Proof.
    induction l as [|x l IH]; intros order s s' Hf Hg Hm H; (destruct order as [|[j rs] order]; [|cbn [map snd concat] in *]; try discriminate Hm).
    - cbn in H. injection H as ->. reflexivity.
    - injection Hm as Hm1 Hm2. inversion Hg as [|? ? (G1 & G2 & G3 & G4) Hg']; subst. apply mute_app in Hf. destruct Hf as [Hf1 Hf2].
      rewrite <- Hm1 in G2, G3.
      destruct (wtacts_replay rs (written x) _ s s' Hf1 G2 G3 H) as (s1 & R1 & A1).
      cbn [flat_map]. rewrite map_app, (api_app draw default E _ _ _ _ A1). exact (IH order s1 s' Hf2 Hg' Hm2 R1).
  Qed.
  Lemma wtreplays_ok l : forall w s', mute l -> wreplays M l (w, tt) (Some s', tt) -> forall a r, In (AW a, r) l -> r = AOk.
  Proof.
    induction l as [|[b q] l IH]; intros w s' Hf H a r Hi; [destruct Hi|]. destruct (mute_cons _ _ _ Hf) as [He Hf'].
    cbn [wreplays] in H. destruct H as [H1 H2]. destruct Hi as [Hi|Hi].
    - injection Hi as -> ->. destruct w as [w|]; [|apply console_none in H2; [discriminate H2|reflexivity]].
      unfold M, console_access, wmeans in H1, H2. cbn [on_writer] in H1, H2. destruct a as [o| | |]; cbn in H1; auto.
      destruct (run_win draw default E o w) as [s1 []|s1 e| |]; cbn [told fst snd] in H1, H2; auto.
      + destruct (He (EOs e)). auto.
      + apply console_none in H2; [discriminate H2|reflexivity].
      + apply console_none in H2; [discriminate H2|reflexivity].
    - destruct (fst (wmeans M b (w, tt))) as [w1 []]. exact (IH _ _ Hf' H2 a r Hi).
  Qed.

  Lemma wshare_terminal (progs : list client) s F tr c s' :
    Forall (fun p => S_Locks.follows false None None p /\ terminal_program True scalar_text p) progs ->
    faces default (w_con s) F -> f_attrs F = w_at s -> view_ok (f_view F) ->
    wrun M (wstart progs (Some s, tt)) tr c -> wfinished c -> S_Together.no_failure tr -> wshared c = (Some s', tt) ->
    exists (order : list (nat * list tmethod)) F', (forall i, wrote None (nth i progs Finish) (done_by i order)) /\
      win_effects draw default (map OnGuard (concat (map snd order))) F F' /\ faces default (w_con s') F'.
  Proof.
    intros Hn I1 I2 I3 R Fi Hf Hs.
    assert (L1 : Forall (wfollows true None None) progs).
    { refine (Forall_impl _ _ Hn). intros p [H1 H2]. apply no_screen_follows; [exact (terminal_no_screen _ _ _ H2)|exact H1]. }
    assert (L2 : Forall (wfollows false None None) progs) by (refine (Forall_impl _ _ L1); intros p; apply wfollows_less).
    assert (U := wfinished_unlocked _ _ _ _ _ L1 R Fi).
    destruct (wsessions_atomic _ _ _ tr c L2 R (U LWriter) (U LData)) as (order & O1 & O2).
    rewrite Hs in O2. assert (Hfine := mute_order order tr Hf O1).
    assert (Hok := wtreplays_ok _ _ _ Hfine O2).
    destruct (tplan (length progs) order (fun i l => Forall (tgood True scalar_text (fun _ => True)) l /\ wrote None (nth i progs Finish) (flat_map tvis l)))
      as (plan & P1 & P2 & P3).
    { intros i _. destruct (wjwalk_run _ i _ _ _ R) as (is & W1 & W2 & _). rewrite (Fi i) in W1. cbn [wstart wthreads] in W1.
      destruct (terminal_nth _ _ _ _ i Hn) as [Hi1 Hi2].
      assert (Hcur : tcur True scalar_text None []) by reflexivity.
      destruct (wtclient_walks _ _ (nth i progs Finish) None None is [] [] Hi1 Hi2 W1 Hcur) as (ls & l & T1 & T2 & T3 & T4 & T5).
      cbn [tholds] in T1. rewrite T1 in W2. assert (Hls : done_by i order = ls) by (unfold done_by; rewrite O1; unfold sessions; now rewrite W2).
      exists l. rewrite Hls. split; [now apply forall2_acts|]. split; [exact T4|].
      apply T5. intros a r Hx. destruct (acts_aw _ _ _ _ _ T2 T4 a r Hx) as (b & ->).
      rewrite <- Hls in Hx. apply done_concat in Hx. exact (Hok b r Hx). }
    { intros i Hi. destruct (wjwalk_run _ i _ _ _ R) as (is & W1 & W2 & _). rewrite (Fi i) in W1. cbn [wstart wthreads] in W1.
      rewrite nth_overflow in W1 by exact Hi. inversion W1; subst. unfold done_by. rewrite O1. unfold sessions. now rewrite W2. }
    assert (Hg : Forall (tgood True scalar_text (fun _ => True)) (map snd plan)).
    { apply done_in. intros i. destruct (Nat.lt_ge_cases i (length progs)) as [Hi|Hi]; [apply P1, Hi|]. rewrite P2 by exact Hi. constructor. }
    assert (A := wtvs_replay (map snd plan) order s s' Hfine Hg P3 O2).
    assert (Hsc : Forall call_scalar (map OnGuard (flat_map written (map snd plan)))).
    { clear - Hg. induction Hg as [|x l (G & _) _ IH]; [constructor|]. cbn [flat_map]. rewrite map_app. apply Forall_app. split; [|exact IH].
      apply Forall_forall. intros y Hy. apply in_map_iff in Hy. destruct Hy as (m & <- & Hy). exact (proj1 (Forall_forall _ _) G m Hy). }
    destruct (win_api_does draw default E HD Hd HE _ s s' F Hsc I1 I2 I3 A) as (F' & F1 & F2 & _).
    exists (visible_tvs plan), F'. split; [|split; [|exact F1]].
    - intros i. rewrite visible_tvs_by. destruct (Nat.lt_ge_cases i (length progs)) as [Hi|Hi]; [apply P1, Hi|].
      rewrite P2, nth_overflow by exact Hi. constructor.
    - rewrite visible_tvs_snd. exact F2.
  Qed.
End WinTerminal.
