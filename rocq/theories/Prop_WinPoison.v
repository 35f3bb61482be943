(** Property theorems for programs that panic while they use a Windows screen (C103,
    C104). *)
From Verif Require Import Base M_Utf8 S_Utf8 M_Geom S_Geom M_Attr M_Signal M_Util M_Input M_Buf S_Buf M_Writer M_Prepare M_Reader
  M_WinWriter M_WinReader S_WinReader M_WinScreen S_WinScreen M_WinPoison S_Drawing S_WinPoison P_WinPoison Prop_WinScreen.
From Verif Require S_WinWriter.
Local Open Scope N_scope.

(** For the examples: a screen after a program. *)
Definition kx_after (ops : list kop) : option (wterm * wpscr * list kreply) :=
  match win_screen_new demo_env_w default_config (demo_term [] []) with
  | Ret t1 s => match krun demo_same demo_env_w ops (unharmed s) with
                | Some (x, rs) => Some (t1, x, rs)
                | None => None
                end
  | _ => None
  end.

(** C103, of programs that never panic while they have a guard of the screen: when the
    screen is dropped, by unwinding or not, the console is given back as in C72: the buffer
    displayed before is displayed again as it was, the modes are put back, the cursor is
    visible, the control handler is removed. *)
Theorem C103_given_back_partial :
  forall draw E cfg ops t t1 s x rs,
  displayed t -> win_screen_new E cfg t = Ret t1 s -> krun draw E ops (unharmed s) = Some (x, rs) ->
  Forall (fun o => ~ in_guard o) ops -> calls_work (g_t (q_s x)) ->
  exists t', kdrop x = KGiven t' /\ same_buffers t t' /\ t_mode t' = t_old t /\
    c_cursor (w_con (t_w t')) = (25, true) /\
    w_mode (t_in t') = N.lor (w_mode (t_in t)) ENABLE_EXTENDED_FLAGS /\ w_regs (t_in t') = w_regs (t_in t).
Proof. exact k_given_back. Qed.
Print Assumptions C103_given_back_partial.

(** C103 is not true of programs that panic with a read guard, whatever they do before and
    after: dropping the screen panics, the screen's buffer stays displayed, and the input
    stays as the screen set it. *)
Theorem C103_read_guard_refuted :
  forall draw E cfg ops t t1 s x rs,
  displayed t -> win_screen_new E cfg t = Ret t1 s -> krun draw E ops (unharmed s) = Some (x, rs) ->
  Exists in_guard ops -> Forall (fun o => ~ in_write_guard o) ops ->
  exists t', kdrop x = KUnwinds t' /\ kept t t1 t'.
Proof. exact k_unwinds. Qed.
Print Assumptions C103_read_guard_refuted.

(** Nor of programs that panic with a write guard: then dropping the screen aborts the
    process, with the console as the screen had it. *)
Theorem C103_write_guard_refuted :
  forall draw E cfg ops t t1 s x rs,
  displayed t -> win_screen_new E cfg t = Ret t1 s -> krun draw E ops (unharmed s) = Some (x, rs) ->
  Exists in_write_guard ops -> exists t', kdrop x = KAborts t' /\ kept t t1 t'.
Proof. exact k_aborts. Qed.
Print Assumptions C103_write_guard_refuted.

(** Three programs: one that draws, reads a size and a key, and panics without a guard; one
    that panics with a read guard; one that panics with a write guard. *)
Example C103_example :
  displayed (demo_term [] []) /\
  match kx_after [KDraw (KBuffer (BWriteStr [97; 98])); KRead (KEvent None); KForce [KMode CInvisible]; KRead (KEvent None); KPanic],
        kx_after [KPanicRead; KDraw KRefresh], kx_after [KDraw KRefresh; KPanicWrite [KBuffer (BWriteStr [97])]] with
  | Some (_, x, rs), Some (t2, x2, rs2), Some (t3, x3, rs3) =>
      rs = [KOk; KGot (Some (EResize (Size 2 5))) [SizeRec (Coord 5 2)]; KOk;
            KGot (Some (EKey (KChar 97))) [KeyRec true 0x41 0 0x61]; KPanicked] /\
      calls_work (g_t (q_s x)) /\ rs2 = [KPanicked; KOk] /\ rs3 = [KOk; KPanicked] /\
      match kdrop x, kdrop x2, kdrop x3 with
      | KGiven t', KUnwinds t2', KAborts t3' => t_active t' = 5 /\ t_active t2' = 10 /\ t_active t3' = 10
      | _, _, _ => False
      end
  | _, _, _ => False
  end.
Proof.
  split; [split; [reflexivity|cbn; intuition discriminate]|]. vm_compute.
  split; [reflexivity|]. split; [split; constructor|]. repeat split.
Qed.

(** C104: after panics, none with a write guard, the calls on a screen's output do what
    they do without panics. *)
Theorem C104_output_partial :
  forall draw E ops s x rs o,
  krun draw E ops (unharmed s) = Some (x, rs) -> Forall (fun o => ~ in_write_guard o) ops -> output o ->
  kstep draw E o x = as_if_unharmed (kstep draw E o (unharmed (q_s x))) x.
Proof. exact k_output_same. Qed.
Print Assumptions C104_output_partial.

(** With a guard taken out of the error of [lock_write], a program draws as if there had
    been no panic, whichever mutexes are poisoned. *)
Theorem C104_forced_partial :
  forall draw E l x, kstep draw E (KForce l) x = as_if_unharmed (kstep draw E (KLocked l) (unharmed (q_s x))) x.
Proof. exact k_forced. Qed.
Print Assumptions C104_forced_partial.

(** Reading goes on unless the reader's mutex is poisoned or the answer tells of a new
    size. *)
Theorem C104_reading_partial :
  forall draw E o x y a,
  q_r x = false -> kstep draw E (KRead o) (unharmed (q_s x)) = Some (y, a) -> ~ tells_size a ->
  kstep draw E (KRead o) x = Some (with_s (q_s y) x, a).
Proof. exact k_reading. Qed.
Print Assumptions C104_reading_partial.

(** Whichever mutexes are poisoned: a call that does not panic does what it does on a
    screen nobody panicked with. *)
Theorem C104_told_partial :
  forall draw E o x x' a, answered o -> kstep draw E o x = Some (x', a) -> a <> KPanicked ->
  kstep draw E o (unharmed (q_s x)) = Some (unharmed (q_s x'), a) /\ x' = with_s (q_s x') x.
Proof. exact k_told_same. Qed.
Print Assumptions C104_told_partial.

(** After a panic with a read guard, every call on the screen's input panics, for ever. *)
Theorem C104_input_refuted :
  forall draw E ops x0 x rs o, krun draw E ops x0 = Some (x, rs) -> Exists (fun o => o = KPanicRead) ops ->
  kstep draw E (KRead o) x = Some (x, KPanicked).
Proof. exact k_input_panics. Qed.
Print Assumptions C104_input_refuted.

(** C104 is not true otherwise: after one thread panicked with a write guard, every call
    on the screen's output panics, for ever; nothing is drawn by it, and the cursor keeps its
    look. *)
Theorem C104_output_refuted :
  forall draw E ops x0 x rs o x' r, krun draw E ops x0 = Some (x, rs) -> Exists in_write_guard ops -> output o ->
  kstep draw E o x = Some (x', r) -> r = KPanicked /\ same_drawing (g_sb (q_s x)) (g_sb (q_s x')) /\
    c_cursor (w_con (t_w (g_t (q_s x')))) = c_cursor (w_con (t_w (g_t (q_s x)))).
Proof. exact k_output_panics. Qed.
Print Assumptions C104_output_refuted.

(** And a read call whose answer would tell of a new size panics instead, and so does every
    read call after it, whatever is done in between. *)
Theorem C104_resize_refuted :
  forall draw E ops x0 x rs o y a, krun draw E ops x0 = Some (x, rs) -> Exists in_write_guard ops ->
  kstep draw E (KRead o) (unharmed (q_s x)) = Some (y, a) -> tells_size a ->
  exists x', kstep draw E (KRead o) x = Some (x', KPanicked) /\
    forall more x1 rs1 o' x2 r, krun draw E more x' = Some (x1, rs1) -> kstep draw E (KRead o') x1 = Some (x2, r) -> r = KPanicked.
Proof. exact k_resize. Qed.
Print Assumptions C104_resize_refuted.

(** After a panic with a write guard: drawing panics, a forced guard does not, and reading
    panics at the size record, and then at a key. *)
Example C104_example :
  match kx_after [KPanicWrite [KBuffer (BWriteStr [97])]; KDraw (KBuffer (BWriteStr [98])); KDraw (KMode CInvisible); KDraw KRefresh; KLocked [];
                  KForce [KBuffer (BWriteStr [98])]; KRead (KEvent None); KRead (KEvent None); KForceRead (KEvent None)],
        kx_after [KPanicRead; KDraw (KBuffer (BWriteStr [98])); KLocked [KMode CInvisible]; KRead (KWait None)] with
  | Some (_, x, rs), Some (_, x2, rs2) =>
      rs = [KPanicked; KPanicked; KPanicked; KPanicked; KPanicked; KOk; KPanicked; KPanicked;
            KGot (Some (EKey (KChar 97))) [KeyRec true 0x41 0 0x61]] /\
      rs2 = [KPanicked; KOk; KOk; KPanicked]
  | _, _ => False
  end.
Proof. vm_compute. split; reflexivity. Qed.
