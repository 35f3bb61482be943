(** What is read when the input comes in portions (C68). *)
From Verif Require Import Base M_Utf8 S_Utf8 M_Geom M_Seq S_Seq M_Signal M_Util M_Input S_Input P_Input M_Writer S_Writer S_Emu
  M_Prepare M_Reader S_Prepare S_Reader P_Prepare P_Reader P_Reader2 P_Reader3 Prop_Input Prop_Prepare S_Typing P_Typing Prop_Typing
  S_Portions P_Portions.
Local Open Scope N_scope.

(** What a program that calls [read_event] is told of: each time what stands at the front of
    the input read so far. *)
Theorem C68_read_by_portions_partial :
  forall C m, (forall c n, (n <= grow C c n)%nat) -> key_map m ->
  forall s out buf' ps', reading m (inbuf s) (portions s) out buf' ps' ->
    Forall (fun p => length p <= 128)%nat (portions s) -> calm s ->
    exists s', rrun C m (repeat (RRead None) (length out)) s = Some (s', map YEvent out) /\
      inbuf s' = buf' /\ portions s' = ps'.
Proof. exact reads_portions_closed. Qed.
Print Assumptions C68_read_by_portions_partial.

(** In particular portions that hold whole events are read one by one: nothing is lost and
    nothing is merged across their borders. *)
Theorem C68_whole_events_partial :
  forall C m, (forall c n, (n <= grow C c n)%nat) -> key_map m ->
  forall ps ess s, Forall2 (holds m) ps ess ->
    Forall (fun p => p <> [] /\ length p <= 128)%nat ps -> calm s -> inbuf s = [] -> portions s = ps ->
    exists s', rrun C m (repeat (RRead None) (length (concat ess))) s =
        Some (s', map (fun e => YEvent (Some e)) (concat ess)) /\ inbuf s' = [] /\ portions s' = [].
Proof. exact portions_by_themselves. Qed.
Print Assumptions C68_whole_events_partial.

(** A mouse report that comes in two portions, wherever it is cut: the program is told of one
    key for every byte of it, and of no mouse event (if no other sequence is in it). *)
Theorem C68_report_becomes_keys_refuted :
  forall C m, (forall c n, (n <= grow C c n)%nat) -> key_map m ->
  forall d p p' st, S_Input.report d = p ++ p' -> p <> [] -> p' <> [] ->
    at_line d < U32_MAX -> at_column d < U32_MAX -> (length (S_Input.report d) <= 128)%nat ->
    (forall q v, matches m p q v -> q = XTERM_MOUSE_INTRO /\ v = XTermMouse) ->
    (forall b, digit b \/ In b [91; 60; 59; 77; 109] -> begins_nothing m b) ->
    calm st -> inbuf st = [] -> portions st = [p; p'] ->
    exists st', rrun C m (repeat (RRead None) (length (S_Input.report d))) st =
      Some (st', map (fun e => YEvent (Some e)) (keys_for (S_Input.report d))) /\ inbuf st' = [] /\ portions st' = [].
Proof. exact cut_report_keys. Qed.
Print Assumptions C68_report_becomes_keys_refuted.

Definition ex_cut : sys := ex_sys [TStep; TInput (firstn 6 (S_Input.report ex_deed)); TIntr; TTime; TInput (skipn 6 (S_Input.report ex_deed))].
Example C68_cut_example :
  calm ex_cut /\ inbuf ex_cut = [] /\ portions ex_cut = [[27; 91; 60; 50; 49; 59]; [49; 50; 59; 53; 109]] /\
  (forall q v, matches ex_clear [27; 91; 60; 50; 49; 59] q v -> q = XTERM_MOUSE_INTRO /\ v = XTermMouse) /\
  (forall b, digit b \/ In b [91; 60; 59; 77; 109] -> begins_nothing ex_clear b) /\
  (match rrun ansi_cfg ex_clear (repeat (RRead None) 11) ex_cut with Some (_, rs) => rs | None => [] end)
  = map (fun e => YEvent (Some (EKey e)))
      [KEscape; KChar 91; KChar 60; KChar 50; KChar 49; KChar 59; KChar 49; KChar 50; KChar 59; KChar 53; KChar 109].
Proof.
  split; [split; [reflexivity|]; split; [reflexivity|]; repeat constructor|]. split; [reflexivity|]. split; [reflexivity|].
  split; [|split; [|vm_compute; reflexivity]].
  - intros q v (H & _ & (r & Hr)). rewrite ex_clear_seqs in H. cbn [In] in H.
    repeat match type of H with _ \/ _ => destruct H as [H|H] end; try contradiction; injection H as <- <-;
      try (split; reflexivity); discriminate Hr.
  - intros b Hb q v H (r & Hr). rewrite ex_clear_seqs in H. cbn [In] in H.
    assert (Hn : b <> 27 /\ b < 128) by (destruct Hb as [Hb|Hb]; [unfold digit in Hb; lia|cbn in Hb; lia]).
    destruct (ascii_utf8 b (proj2 Hn)) as [E _]. rewrite E in Hr.
    repeat match type of H with _ \/ _ => destruct H as [H|H] end; try contradiction; injection H as <- <-;
      injection Hr; intros; now apply (proj1 Hn).
Qed.
