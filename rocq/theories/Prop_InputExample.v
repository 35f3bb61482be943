(** C144: the example programs examples/input.rs and examples/raw_input.rs. *)
From Verif Require Import Base M_Utf8 S_Utf8 M_Geom M_Attr M_Seq S_Seq M_Signal M_Util M_Input S_Input M_Buf M_Writer M_Prepare M_Reader
  S_Reader S_Prepare S_Typing M_UnixScreen S_UnixScreen S_Poison M_ScreenExample S_ScreenExample M_InputExample S_InputExample P_InputExample.
From Verif Require S_Interact S_Emu Prop_Prepare Prop_Typing Prop_ScreenExample.
Local Open Scope nat_scope.

(** C144: the user does [acts], in any portions: input.rs prints the events of these, each once
    and in their order, and leaves its loop exactly when it has printed [q].  ([s]: the state
    after [prepare]; at most [n] rounds.) *)
Theorem C144_input_example :
  forall C m, key_map m -> (forall c n, n <= grow C c n) -> forall n s acts,
  calm s -> inbuf s = [] -> arriving m [] (portions s) acts ->
  match listen (input_round C m) n s [] with
  | IGoing _ out => n <= length acts + length (portions s) /\
      exists now later, acts = now ++ later /\ out = map heard now /\ ~ In the_q out
  | IWaiting _ out => out = map heard acts /\ ~ In the_q out
  | IQuit _ out => exists now a later, acts = now ++ a :: later /\ out = map heard now ++ [the_q] /\ ~ In the_q (map heard now) /\ heard a = the_q
  | _ => False
  end.
Proof. exact input_prints. Qed.
Print Assumptions C144_input_example.

Definition typed_q : sys := Prop_Prepare.ex_sys Prop_ScreenExample.ex_time.
Definition prepared_q : sys := match prepare S_Emu.ansi_cfg input_config typed_q with Ret s _ => s | _ => typed_q end.
Example C144_example :
  calm prepared_q /\ inbuf prepared_q = [] /\ arriving Prop_Typing.ex_clear [] (portions prepared_q) Prop_ScreenExample.ex_acts /\
  match listen (input_round S_Emu.ansi_cfg Prop_Typing.ex_clear) 4 prepared_q [] with
  | IQuit _ out => out = [EKey (KChar 97); the_q]
  | _ => False
  end.
Proof.
  assert (Ht : time prepared_q = Prop_ScreenExample.ex_time) by (vm_compute; reflexivity).
  split; [|split; [|split]].
  - assert (H : failing prepared_q = None /\ last_sig prepared_q = 0%N) by (split; vm_compute; reflexivity). destruct H as (H1 & H2).
    unfold calm. rewrite H1, H2, Ht. split; [reflexivity|]. split; [reflexivity|]. repeat constructor.
  - vm_compute. reflexivity.
  - pose proof (S_Interact.us_typed _ _ _ _ _ _ _ _ Prop_ScreenExample.C143_example_start) as H.
    assert (P : portions (u_sys Prop_ScreenExample.ex_u) = portions prepared_q) by (vm_compute; reflexivity). now rewrite <- P.
  - vm_compute. reflexivity.
Qed.

(** C144: whatever else happens (signals, changes of the size, interruptions): if input.rs ends
    without an error, it has just printed [q] for the first time, and the settings and signal
    handlers are as before the program. *)
Theorem C144_input_ends :
  forall C m, key_map m -> forall n s0 out s, input_main C (input_round C m) input_config n s0 = IEnded out true s ->
  same_terminal s0 s /\ exists before, out = before ++ [the_q] /\ ~ In the_q before.
Proof. exact (fun C m H => input_ends C m H input_config). Qed.
Print Assumptions C144_input_ends.
Example C144_ends_example :
  match input_main S_Emu.ansi_cfg (input_round S_Emu.ansi_cfg Prop_Typing.ex_clear) input_config 9
    (Prop_Prepare.ex_sys [TSig SIGCONT; TStep; TInput [97]%N; TStep; TStep; TStep; TStep; TSig SIGWINCH; TStep; TInput [113; 98]%N]) with
  | IEnded out ok s => ok = true /\ (2 <= length out) /\ tio s = Prop_Prepare.ex_tio
  | INotYet => False
  end.
Proof. vm_compute. repeat split. lia. Qed.

(** C144: whatever else happens, the bytes that raw_input.rs prints, one line after the other,
    are the input, without loss or repetition, up to what is not yet read; the numbers of bytes
    are right; and it ends exactly when a line has the one byte [q]. *)
Theorem C144_raw_example :
  forall C m n s0,
  match listen (raw_round C m) n s0 [] with
  | IQuit s' out => stream s0 = printed_bytes out ++ stream s' /\ Forall sound out /\ exists before, out = before ++ [raw_q] /\ ~ In raw_q before
  | IGoing s' out | IWaiting s' out | IFailed s' out => stream s0 = printed_bytes out ++ stream s' /\ Forall sound out /\ ~ In raw_q out
  | IPanicked => True
  end.
Proof. exact (fun C m n s0 => raw_told C m n s0 s0 [] eq_refl (Forall_nil _) (fun x => x)). Qed.
Print Assumptions C144_raw_example.
Theorem C144_raw_ends :
  forall C m, key_map m -> forall n s0 out s, input_main C (raw_round C m) raw_config n s0 = IEnded out true s ->
  same_terminal s0 s /\ exists before, out = before ++ [raw_q] /\ ~ In raw_q before.
Proof. exact raw_ends. Qed.
Print Assumptions C144_raw_ends.
(** [q] together with another byte does not end it. *)
Example C144_raw_run :
  match input_main S_Emu.ansi_cfg (raw_round S_Emu.ansi_cfg Prop_Typing.ex_clear) raw_config 9
    (Prop_Prepare.ex_sys [TInput [97; 113]%N; TStep; TStep; TStep; TSig SIGWINCH; TStep; TInput [195; 169]%N; TInput [113]%N]) with
  | IEnded out ok s => ok = true /\ out = [(EResize (Size 24 80), []); (ERaw 2, [97; 113]%N); (ERaw 2, [195; 169]%N); raw_q]
  | INotYet => False
  end.
Proof. vm_compute. repeat split. Qed.

(** The programs do not give the terminal back when reading fails: the error leaves [main] past
    [restore], and dropping the terminal does not restore. *)
Theorem C144_input_error_refuted :
  forall C m n s0 s1 st s2 out, prepare C input_config s0 = Ret s1 st -> listen (input_round C m) n s1 [] = IFailed s2 out ->
  match input_main C (input_round C m) input_config n s0 with
  | IEnded out' ok s => out' = out /\ ok = false /\ still_prepared input_config s0 s
  | INotYet => True
  end.
Proof. exact (fun C m => input_fails C m input_config). Qed.
Print Assumptions C144_input_error_refuted.
Theorem C144_raw_error_refuted :
  forall C m n s0 s1 st s2 out, prepare C raw_config s0 = Ret s1 st -> listen (raw_round C m) n s1 [] = IFailed s2 out ->
  match input_main C (raw_round C m) raw_config n s0 with
  | IEnded out' ok s => out' = out /\ ok = false /\ still_prepared raw_config s0 s
  | INotYet => True
  end.
Proof. exact raw_fails. Qed.
Print Assumptions C144_raw_error_refuted.
Example C144_error_example :
  let s0 := Prop_Prepare.ex_sys [TInput [97]%N; TStep; TStep; TStep; TStep; TStep; TStep; TStep; TFail 5] in
  (match input_main S_Emu.ansi_cfg (input_round S_Emu.ansi_cfg Prop_Typing.ex_clear) input_config 9 s0 with
   | IEnded out ok s => ok = false /\ out = [EKey (KChar 97)] /\ tio s <> Prop_Prepare.ex_tio
   | INotYet => False
   end) /\
  match input_main S_Emu.ansi_cfg (raw_round S_Emu.ansi_cfg Prop_Typing.ex_clear) raw_config 9 s0 with
  | IEnded out ok s => ok = false /\ out = [(ERaw 1, [97%N])] /\ tio s <> Prop_Prepare.ex_tio
  | INotYet => False
  end.
Proof. vm_compute. repeat split; discriminate. Qed.
