(** Property theorems for panics of a Unix screen (C107). *)
From Verif Require Import Base M_Utf8 M_Geom S_Geom M_Attr M_Buf S_Buf P_Buf3 M_Seq M_Signal M_Util M_Input S_Input P_Input M_Writer S_Writer S_Emu
  M_Screen M_Prepare M_Reader S_Prepare S_Reader M_UnixScreen S_UnixScreen S_Overrun S_NoPanic P_NoPanic P_NoPanic2 P_NoPanic3 P_NoPanic4
  Prop_Input Prop_Prepare Prop_UnixScreen.
Local Open Scope nat_scope.

(** C107: what can make a call of a screen panic, after any history of the program, the
    terminal and the window.  Size and cursor of the screen are as [track] says from the
    calls and their replies.  Drawing panics exactly if [go] (C14) says so; a refresh only
    if the screen has no cell; waiting and reading only for a timeout that overflows (C47),
    a mouse report with a zero coordinate (C39) or a size of the window that the buffer
    cannot take; changing the cursor's visibility and dropping the screen never do. *)
Theorem C107_causes :
  forall E C m cfg ops s0 s1 u u' rs, env_ok E -> key_map m -> whole_writes (script (M_Prepare.wr s0)) ->
  unix_screen_new E C cfg s0 = Ret s1 u -> Forall public_op ops -> urun E C m ops u = Some (u', rs) ->
  exists z st, win s0 = inr z /\ track E (z, Cursor 0 0) ops rs = Some st /\ (bsize (u_sb u'), bcur (u_sb u')) = st /\
    (forall b, panics E C m (UBuffer b) u' <-> go E st b = None) /\
    (forall o, public_op o -> panics E C m o u' -> reason E m s0 (inbuf (u_sys u')) st o) /\
    screen_drop C u' <> Panic.
Proof. intros E C m cfg ops s0 s1 u u' rs HE Hm. exact (panics_only E C m HE Hm cfg ops s0 s1 u u' rs). Qed.
Print Assumptions C107_causes.

(** A call that does not return panics or waits for ever. *)
Theorem C107_otherwise :
  forall E C m o u, ustep E C m o u = None <-> panics E C m o u \/ hangs E C m o u.
Proof. exact step_ends. Qed.
Print Assumptions C107_otherwise.

(** C107: creating a screen panics only on a window with no line or with more cells than
    a [usize] can count. *)
Theorem C107_creation :
  forall E C cfg s0, whole_writes (script (M_Prepare.wr s0)) -> unix_screen_new E C cfg s0 = Panic ->
  exists z, win s0 = inr z /\ (umax E < total z \/ lines z = 0).
Proof. intros E C cfg s0. exact (new_panics C E cfg s0). Qed.
Print Assumptions C107_creation.

(** Text on a screen with two columns or more panics only at the last line there is. *)
Theorem C107_drawing :
  forall E sz p o, 2 <= columns sz -> (forall z, o <> BResize z) -> go E (sz, p) o = None ->
  umax E <= start_line p o + 2 * length (text o).
Proof. exact go_line. Qed.
Print Assumptions C107_drawing.

(** C107: on a terminal whose window always has a line and two columns, and without mouse
    reports, no call of a program panics that goes down by less than [usize::MAX] lines
    and gives no timeout that overflows. *)
Theorem C107_never :
  forall E C m cfg s0 s1 u ops o more u' rs, env_ok E -> key_map m -> whole_writes (script (M_Prepare.wr s0)) ->
  decent E s0 -> no_mouse m -> unix_screen_new E C cfg s0 = Ret s1 u ->
  Forall public_op (ops ++ o :: more) -> modest E (ops ++ o :: more) -> Forall modest_timeout (ops ++ o :: more) ->
  urun E C m ops u = Some (u', rs) -> ~ panics E C m o u'.
Proof. intros E C m cfg s0 s1 u ops o more u' rs HE Hm. exact (never E C m HE Hm cfg s0 s1 u ops o more u' rs). Qed.
Print Assumptions C107_never.

(** A program that meets the hypotheses of [C107_never]; the window grows while it runs,
    some writes are interrupted or fail. *)
Definition np_map : seq_map := match sequences ex_caps [118; 116]%N with Some m => m | None => sm_new end.
Definition np_sys : sys :=
  Sys [] 0 None ss_new (W [] 512 no_attrs 0 [] ([WAll; WAll; WIntr; WErr 5; WAll; WOk 0] ++ repeat WAll 40)) 0 ex_tio (fun n => Other n) [] None
    (inr (Size 2 3)) [] [TStep; TWin (inr (Size 3 4)); TSig SIGWINCH; TStep; TInput [120]%N; TStep].
Definition np_ops : list uop :=
  [UBuffer (BWriteStr [104; 10; 65281]%N); URefresh; URead None; ULocked [GBuffer (BWriteStyledAt (Cursor 2 3) no_attrs [65282]%N); GRefresh; GMode CInvisible];
   UMode CNormal; URefresh; URead (Some (Duration 3 0)); UWait (Some (Duration 0 0)); UBuffer (BNextLine 2)].
Lemma np_key_map : key_map np_map /\ no_mouse np_map.
Proof.
  split.
  - destruct (sequences_map ex_caps [118; 116]%N) as (m & E & H & _). unfold np_map. rewrite E. exact H.
  - intros q. vm_compute. intuition discriminate.
Qed.
Example C107_example_hyps : whole_writes (script (M_Prepare.wr np_sys)) /\ decent ux_env np_sys /\
  Forall public_op np_ops /\ modest ux_env np_ops.
Proof.
  split; [repeat constructor|]. split; [|split; [repeat constructor|]].
  - intros z [Hz|Hz]; cbn in Hz; [injection Hz as <-|destruct Hz as [D|[[= <-]|[D|[D|[D|[D|[]]]]]]]; try discriminate D]; cbn; lia.
  - unfold modest. cbn. lia.
Qed.
Example C107_example_timeouts : Forall modest_timeout np_ops.
Proof. repeat constructor; intros (d & [= <-] & H); vm_compute in H; discriminate H. Qed.
Example C107_example :
  match unix_screen_new ux_env ansi_cfg ex_cfg np_sys with
  | Ret _ u =>
      match urun ux_env ansi_cfg np_map np_ops u with
      | Some (u', rs) =>
          rs = [YUnit; YErr (RW (EOs 5)); YEvent (Some (EResize (Size 3 4))); YUnit; YUnit; YUnit; YEvent (Some (EKey (KChar 120))); YBool false; YUnit] /\
          track ux_env (Size 2 3, Cursor 0 0) np_ops rs = Some (bsize (u_sb u'), bcur (u_sb u'))
      | None => False
      end
  | _ => False
  end.
Proof. vm_compute. repeat split; reflexivity. Qed.

(** Each cause does make a call panic: a window of no columns, a refresh there, one column,
    and a mouse report. *)
Example C107_example_panics :
  match unix_screen_new ux_env ansi_cfg ex_cfg (ux_sys [TWin (inr (Size 2 0)); TSig SIGWINCH; TStep]) with
  | Ret _ u => panics ux_env ansi_cfg ex_map (URead None) u
  | _ => False
  end /\
  match unix_screen_new ux_env ansi_cfg ex_cfg (with_win (inr (Size 2 0)) (ux_sys [])) with
  | Ret _ u => panics ux_env ansi_cfg ex_map URefresh u
  | _ => False
  end /\
  match unix_screen_new ux_env ansi_cfg ex_cfg (with_win (inr (Size 2 1)) (ux_sys [])) with
  | Ret _ u => panics ux_env ansi_cfg ex_map (UBuffer (BWriteChar 65281)) u
  | _ => False
  end /\
  match unix_screen_new ux_env ansi_cfg ex_cfg (ux_sys [TInput [27; 91; 60; 48; 59; 48; 59; 53; 77]%N]) with
  | Ret _ u => panics ux_env ansi_cfg ex_map (URead None) u
  | _ => False
  end /\
  unix_screen_new ux_env ansi_cfg ex_cfg (with_win (inr (Size 0 3)) (ux_sys [])) = Panic.
Proof.
  split.
  { vm_compute. right. do 2 eexists. split; reflexivity. }
  split; [vm_compute; reflexivity|]. split; [vm_compute; reflexivity|]. split; [vm_compute; left; reflexivity|vm_compute; reflexivity].
Qed.
