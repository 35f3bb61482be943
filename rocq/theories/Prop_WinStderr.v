(** Property theorems for errors that can only be printed, on Windows (C110). *)
From Verif Require Import Base M_Utf8 M_Geom M_Attr M_Buf M_Signal M_Util M_Input M_Writer M_Prepare M_Reader
  M_WinWriter M_WinReader M_WinScreen M_WinPoison S_WinScreen M_Stderr S_Stderr M_WinStderr S_WinStderr P_WinStderr Prop_WinScreen.

(** C110 on Windows: as long as standard error can be written, printing changes nothing:
    dropping a write guard, refreshing and dropping a screen end as they do in the models
    without printing, whatever mutexes are poisoned. *)
Theorem C110_windows_printed :
  forall draw E l x, printable l ->
  same_call (fbind (wguard_drop_p draw E false l x) (fun x l _ => Goes x l None)) (kstep draw E (KForce []) x) /\
  same_call (wscreen_refresh_p draw E l x) (kstep draw E (KDraw KRefresh) x) /\
  same_drop (wscreen_drop_p l x) (kdrop x).
Proof.
  exact (fun draw E l x H => conj (wguard_works draw E false l x H) (conj (wrefresh_works draw E l x H) (wdrop_works l x H))).
Qed.
Print Assumptions C110_windows_printed.

(** C110 on Windows: the console is gone and messages cannot be printed.  One would expect
    that dropping a write guard reports the error at most.  It panics exactly if anything
    is asked of the console, and then dropping the screen aborts the process, even if
    messages can be printed again. *)
Theorem C110_windows_guard_refuted :
  forall draw E l s, wgone (g_t s) ->
  match wguard_drop_p draw E false (false :: l) (unharmed s) with
  | Goes x l' _ => answers (g_t (q_s x)) = answers (g_t s) /\ l' = false :: l
  | Unwinds x l' => answers (g_t (q_s x)) <> answers (g_t s) /\ l' = l /\ forall l2, wscreen_drop_p l2 x = Aborts
  | Aborts => False
  | Ends _ => win_refresh draw E s = Panic \/ win_refresh draw E s = Blocked
  end.
Proof. exact wgone_guard. Qed.
Print Assumptions C110_windows_guard_refuted.

(** [refresh] panics instead of replying its error if the guard's own refresh fails too. *)
Theorem C110_windows_refresh_refuted :
  forall draw E l s s' s2 e e2, win_refresh draw E s = Fail s' e -> win_refresh draw E s' = Fail s2 e2 ->
  exists x, wscreen_refresh_p draw E (false :: l) (unharmed s) = Unwinds x l /\ forall l2, wscreen_drop_p l2 x = Aborts.
Proof. exact gone_twice. Qed.
Print Assumptions C110_windows_refresh_refuted.

(** Dropping a terminal panics, and dropping a screen aborts the process, in any state. *)
Theorem C110_windows_drop_refuted :
  (forall l t, wgone t -> exists t', wterminal_drop_p false false (false :: l) t = Unwinds t' l) /\
  (forall l x, wgone (g_t (q_s x)) -> wscreen_drop_p (false :: false :: l) x = Aborts).
Proof. exact (conj wgone_terminal wgone_screen). Qed.
Print Assumptions C110_windows_drop_refuted.

(** A screen is made, "hi" is drawn on it, and then the console is closed. *)
Definition closed_console (s : wscr) : wscr :=
  let t := g_t s in
  let c := w_con (t_w t) in
  let i := t_in t in
  with_gt (with_in (with_wos (repeat (Some 6%N) 4) i) (with_w (with_con (with_answers (repeat (CFail 6) 9) c) (t_w t)) t)) s.
Definition drawn_then_closed : option wscr :=
  match win_screen_new demo_env_w default_config (demo_term [] []) with
  | Ret _ s => match run_wsop demo_same demo_env_w (SBuffer (BWriteStr [104; 105]%N)) s with
               | Ret s _ => Some (closed_console s)
               | _ => None
               end
  | _ => None
  end.
Example C110_windows_example :
  match drawn_then_closed with
  | Some s =>
      wgone (g_t s) /\
      match wguard_drop_p demo_same demo_env_w false (repeat false 4) (unharmed s) with Unwinds _ _ => True | _ => False end /\
      match wguard_drop_p demo_same demo_env_w false [] (unharmed s) with Goes x _ _ => q_w x = false | _ => False end /\
      match win_refresh demo_same demo_env_w s with
      | Fail s' e => match win_refresh demo_same demo_env_w s' with Fail _ e2 => e = 6%N /\ e2 = 6%N | _ => False end
      | _ => False
      end /\
      wscreen_drop_p (repeat false 4) (unharmed s) = Aborts /\
      match wscreen_drop_p [] (unharmed s) with Goes _ _ _ => True | _ => False end
  | None => False
  end.
Proof.
  vm_compute. split; [split; (split; [repeat constructor; eexists; reflexivity|repeat constructor])|].
  repeat split.
Qed.
