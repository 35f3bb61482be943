(** Property theorems for [term_write!] whose expressions use the terminal (C120). *)
From Verif Require Import Base M_Attr M_Geom M_Buf M_Writer M_Locks S_Locks P_Locks M_WinLocks S_WinLocks P_WinLocks P_WinLocks3 S_MacroArgs P_MacroArgs.

(** C120: the methods that the documentation gives as equivalent may have arguments that
    call methods of the terminal or screen: such programs follow the rules, so that they
    all finish (C52 and, on Windows, C89). *)
Theorem C120_methods_may :
  (forall els k, Forall (fun e => Forall term_call (fst e)) els -> (forall r, follows true None None (k r)) ->
     follows true None None (term_methods els k)) /\
  (forall els k, Forall (fun e => Forall screen_call (fst e)) els -> follows true None None k ->
     follows true None None (screen_methods els k)) /\
  (forall l, Forall (follows true None None) l -> Forall (wfollows true None None) l).
Proof. exact (conj (term_methods_follow true) (conj (screen_methods_follow true) all_wfollow)). Qed.
Print Assumptions C120_methods_may.

(** C120: and so does [term_write!], if its expressions do not use the terminal. *)
Theorem C120_pure_expressions_may_partial :
  (forall els k, Forall (fun e => fst e = []) els -> (forall r, follows true None None (k r)) ->
     follows true None None (term_macro els k)) /\
  (forall els k, Forall (fun e => fst e = []) els -> follows true None None k ->
     follows true None None (screen_macro els k)).
Proof. exact (conj (term_macro_follows true) (screen_macro_follows true)). Qed.
Print Assumptions C120_pure_expressions_may_partial.

(** C120, what does not hold: a thread that evaluates [term_write!(term, ...)] whose first
    expression calls [term.size()], or anything that writes to [term], never finishes,
    whatever the other threads do; and what it has locked is never unlocked, so that
    nobody writes to the terminal any more. *)
Theorem C120_terminal_refuted :
  forall E C ps s i c cs o els k, writes c -> nth_error ps i = Some (term_macro ((c :: cs, o) :: els) k) ->
  forall tr c', run E C (start ps s) tr c' -> threads c' i <> Done /\
    forall tr2 c2, run E C c' tr2 c2 -> forall l, owner c' l = Some i -> owner c2 l = Some i.
Proof. exact term_macro_stuck. Qed.
Print Assumptions C120_terminal_refuted.

(** The same for [term_write!(screen, ...)] and methods that draw or refresh. *)
Theorem C120_screen_refuted :
  forall E C ps s i c cs o els k, draws c -> nth_error ps i = Some (screen_macro ((c :: cs, o) :: els) k) ->
  forall tr c', run E C (start ps s) tr c' -> threads c' i <> Done /\
    forall tr2 c2, run E C c' tr2 c2 -> forall l, owner c' l = Some i -> owner c2 l = Some i.
Proof. exact screen_macro_stuck. Qed.
Print Assumptions C120_screen_refuted.

(** And on Windows. *)
Theorem C120_windows_terminal_refuted :
  forall Wd Dd (M : access Wd Dd) ps s i c cs o els k, writes c ->
  nth_error ps i = Some (term_macro ((c :: cs, o) :: els) k) ->
  forall tr c', wrun M (wstart ps s) tr c' -> wthreads c' i <> Done /\
    forall tr2 c2, wrun M c' tr2 c2 -> forall l, wowner c' l = Some i -> wowner c2 l = Some i.
Proof. exact @wterm_macro_stuck. Qed.
Print Assumptions C120_windows_terminal_refuted.
Theorem C120_windows_screen_refuted :
  forall Wd Dd (M : access Wd Dd) ps s i c cs o els k, draws c ->
  nth_error ps i = Some (screen_macro ((c :: cs, o) :: els) k) ->
  forall tr c', wrun M (wstart ps s) tr c' -> wthreads c' i <> Done /\
    forall tr2 c2, wrun M c' tr2 c2 -> forall l, wowner c' l = Some i -> wowner c2 l = Some i.
Proof. exact @wscreen_macro_stuck. Qed.
Print Assumptions C120_windows_screen_refuted.

(** [term_write!(term, [bold] (: term.size()?))] and its documented equivalent, and the
    same of a screen: [term_write!(screen, (: { screen.clear_screen(); 1 }))]. *)
Definition ex_els : list (list call * wop) := [([TSize], OAddStyle BOLD); ([], OWriteStr [50; 52]%N)].
Definition ex_sels : list (list call * buf_op) := [([SBuf BClearAttributes], BWriteStr [49]%N)].
Example C120_example :
  Forall (fun e => Forall term_call (fst e)) ex_els /\ Forall (fun e => Forall screen_call (fst e)) ex_sels /\
  follows true None None (term_methods ex_els (fun _ => Finish)) /\
  follows true None None (screen_methods ex_sels Finish) /\
  writes TSize /\ draws (SBuf BClearAttributes) /\
  (forall E C s, exists tr c, run E C (start [term_macro ex_els (fun _ => Finish)] s) tr c /\ owner c LWriter = Some 0) /\
  ~ follows false None None (term_macro ex_els (fun _ => Finish)).
Proof.
  split; [repeat constructor|]. split; [repeat constructor|].
  split; [apply term_methods_follow; [repeat constructor|split; reflexivity]|].
  split; [apply screen_methods_follow; [repeat constructor|split; reflexivity]|].
  split; [exact I|]. split; [exact I|]. split.
  - intros E C s. eexists. eexists. split.
    + eapply (run_snoc _ _ _ [] _ _ _); [constructor|]. eapply (step_acq _ _ 0); reflexivity.
    + reflexivity.
  - intros H. cbn in H. destruct H as (_ & H). destruct (H AOk) as (H1 & _). discriminate H1.
Qed.
