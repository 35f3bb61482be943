(** Property theorems for what ends a wait (C86). *)
From Verif Require Import Base M_Utf8 S_Utf8 M_Geom M_Seq S_Seq M_Signal M_Util M_Input S_Input P_Input M_Writer S_Writer S_Emu
  M_Prepare M_Reader S_Prepare S_Reader P_Prepare P_Reader P_Reader2 P_Reader3 S_Timeout P_Timeout Prop_Input Prop_Prepare Prop_Reader.
Local Open Scope N_scope.

(** C86 holds for [wait_event]: if it returns [false] there was a timeout, it has
    elapsed, there is no input, and what is buffered is no event. *)
Theorem C86_wait_false :
  forall m t s s', wait_event m t s = Ret s' false ->
    elapsed t s s' /\ queue s' = [] /\ peek_event (inbuf s') m = Val PNone /\ inbuf s' = inbuf s /\ portions s' = portions s.
Proof. exact wait_false. Qed.
Print Assumptions C86_wait_false.

Definition ex_half : duration := Duration 0 500000000.
(** One signal is not handled, one input comes too late. *)
Example C86_wait_example :
  (match wait_event ex_map (Some ex_half) (ex_ready [TStep; TSig 2; TStep; TIntr; TStep; TStep; TTime; TInput [97]]) with
   | Ret s b => (time s, b) | _ => ([], true) end) = ([TInput [97]], false).
Proof. vm_compute. reflexivity. Qed.

(** For [read_event]: without an event it returns because the timeout has elapsed, or a
    signal came that the program does not want to hear of, or what was read (and what
    was buffered before) is only a part of a character, or the end of the input. *)
Theorem C86_read_none_partial :
  forall C m t s s', (forall c n, (n <= grow C c n)%nat) -> key_map m -> handlers_known s -> read_event C m t s = Ret s' None ->
    (elapsed t s s' /\ inbuf s' = inbuf s /\ queue s' = []) \/
    (exists sig, arrived sig s /\ sig <> Resize /\ ss_contains (M_Prepare.report s') sig = false) \/
    (exists bs, inbuf s' = inbuf s ++ bs /\ ((bs = [] /\ In [] (portions s)) \/ truncated_char (inbuf s'))).
Proof. exact read_none. Qed.
Print Assumptions C86_read_none_partial.

(** [read_raw] is told nothing apart: parts of characters are input. *)
Theorem C86_raw_none_partial :
  forall C m room t s s' bs, handlers_known s -> read_raw C m room t s = Ret s' (None, bs) ->
    bs = [] /\ inbuf s = [] /\
    ((elapsed t s s' /\ queue s' = []) \/
     exists sig, arrived sig s /\ sig <> Resize /\ ss_contains (M_Prepare.report s') sig = false).
Proof. exact raw_none. Qed.
Print Assumptions C86_raw_none_partial.

Example C86_read_example :
  handlers_known (ex_ready [TStep; TStep; TStep; TTime; TInput [97]]) /\
  (match read_event ansi_cfg ex_map (Some ex_half) (ex_ready [TStep; TStep; TStep; TTime; TInput [97]]) with
   | Ret s e => (time s, e) | _ => ([], None) end) = ([TInput [97]], None) /\
  (match read_raw ansi_cfg ex_map 5 (Some ex_half) (ex_ready [TStep; TStep; TStep; TTime; TInput [97]]) with
   | Ret s e => (time s, e) | _ => ([], (None, [])) end) = ([TInput [97]], (None, [])).
Proof.
  split; [intros n; cbn; destruct (N.eqb_spec n 28) as [E|_]; [rewrite E|]; discriminate|].
  split; vm_compute; reflexivity.
Qed.

(** The others do happen, without any timeout: after a signal the program did not ask
    for (the handler may be that of an outer [prepare], or of another terminal; that of
    SIGCONT is always installed, see also [C43_signal_event]) ... *)
Theorem C86_signal_refuted :
  forall C m t s sig, peek_event (inbuf s) m = Val PNone -> conv_signal (last_sig (advance s)) = Some sig ->
    sig <> Resize -> (sig = Continue -> resume_cfg s = None) -> ss_contains (M_Prepare.report s) sig = false ->
    exists s', read_event C m t s = Ret s' None.
Proof. exact unreported_none. Qed.
Print Assumptions C86_signal_refuted.

Example C86_signal_example :
  match rrun ansi_cfg ex_map [RPrepare default_config; RRead None] (ex_sys [TSig 18; TStep; TInput [97]]) with
  | Some (_, rs) => skipn 1 rs = [YEvent None]
  | None => False
  end /\
  conv_signal (last_sig (advance (with_last 2 (ex_ready [])))) = Some Interrupt /\
  ss_contains (M_Prepare.report (with_last 2 (ex_ready []))) Interrupt = false.
Proof. vm_compute. repeat split; reflexivity. Qed.

(** ... and when input ends or comes in parts of characters. *)
Theorem C86_incomplete_refuted :
  forall C m s b q, (forall c n, (n <= grow C c n)%nat) -> calm s -> inbuf s = [] -> portions s = b :: q ->
    b = [] \/ truncated_char b ->
    exists s', read_event C m None s = Ret s' None /\ inbuf s' = b /\ portions s' = q.
Proof. exact incomplete_none. Qed.
Print Assumptions C86_incomplete_refuted.

Example C86_incomplete_example :
  (match rrun ansi_cfg ex_map [RRead None; RRead None; RRead None] (ex_ready [TStep; TInput [195]; TStep; TInput [169]; TInput []]) with
   | Some (_, rs) => rs | None => [] end) = [YEvent None; YEvent (Some (EKey (KChar 233))); YEvent None] /\
  calm (ex_ready [TInput [195]; TInput [169]]) /\ truncated_char [195].
Proof.
  split; [vm_compute; reflexivity|]. split; [split; [reflexivity|split; [reflexivity|repeat constructor]]|].
  split; [discriminate|]. exists 233, [169]. split; [vm_compute; auto|]. split; [discriminate|vm_compute; reflexivity].
Qed.
