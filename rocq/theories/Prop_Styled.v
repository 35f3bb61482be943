(** Property theorems for threads, attributes and text (C94). *)
From Verif Require Import Base M_Utf8 S_Utf8 M_Geom M_Attr M_Buf S_Buf M_Writer S_Tty S_Writer S_Emu P_Emu P_Screen5 P_Buf3 M_Screen M_Locks S_Locks S_Blocks S_Styled P_Styled.

(** C94: threads that write messages under a guard each, however scheduled, on a
    terminal that implements its terminfo entry; each message sets attributes and
    writes text as it likes, and leaves no attributes behind; no call failed.  Then
    the terminal shows the messages one after the other, each thread's in its order,
    and every text with the attributes that its own message asked for (as far as the
    terminal has them), none of another's. *)
Theorem C94_attributes_stay_with_text :
  forall E C (progs : list (list (list wop))) w d tr c w',
  run E C (start (map macros_client progs) (Some w, d)) tr c -> finished c ->
  (forall i a r, In (a, r) (concat (sessions i tr)) -> r = AOk) ->
  Forall (Forall (Forall (styled_op E))) progs -> Forall (Forall tidy) progs ->
  whole_writes (script w) -> wat w = no_attrs -> fst (shared c) = Some w' ->
  exists (x : bytes) (logs : list (nat * list (list N * attrs))),
    stream w' = stream w ++ x /\
    (forall i : nat, by_thread i logs = map (text_log no_attrs) (nth i progs [])) /\
    forall K t v, caps_coherent C -> implements E C K ->
      look K t = Some v -> vattrs v = no_attrs ->
      tells K t x (as_shown C (concat (map snd logs))).
Proof. exact threads_told. Qed.
Print Assumptions C94_attributes_stay_with_text.

(** The messages of examples/threads.rs, lines 64-69, are such messages. *)
Definition child_message (name : list N) (c : color) (number : list N) : list wop :=
  [OWriteStr [91%N]; OAddStyle BOLD; OSetFg (Some c); OWriteStr name; OClearAttributes;
   OWriteStr ([93; 58; 32]%N ++ number); OWriteStr [10%N]].

Ltac texty_char := split; [reflexivity|first [left; split; [intros X; discriminate X|split; [intros X; discriminate X|split; [intros X; discriminate X|split; [reflexivity|left; reflexivity]]]]|right; right; auto]].

Example C94_example_threads : forall c name number,
  let E := demo_env 1000 in
  Forall (texty E) name -> Forall (texty E) number ->
  Forall (styled_op E) (child_message name c number) /\ tidy (child_message name c number) /\
  text_log no_attrs (child_message name c number) =
    [([91%N], no_attrs); (name, Attrs (Some c) None BOLD); ([93; 58; 32]%N ++ number, no_attrs); ([10%N], no_attrs)].
Proof.
  cbv zeta. intros c name number Hn Hm. split; [|split; reflexivity].
  repeat (apply Forall_cons; [|]); try apply Forall_nil; cbn [styled_op attr_op app]; try exact I; try assumption;
    repeat (apply Forall_cons; [texty_char|]); first [texty_char|apply Forall_nil|exact Hm].
Qed.

(** A run of two threads: the first writes "a" in bold, the second "b" without
    attributes; the second is served in between the first one's two messages. *)
Definition bold_a : list wop := [OAddStyle BOLD; OWriteStr [97%N]; OClearAttributes].

Example C94_example :
  let E := demo_env 1000 in
  let w0 := writer_new 64 [WAll; WAll; WAll] in
  let progs := [[bold_a; plain_b]; [plain_b]] in
  exists tr c w', run E ansi_cfg (start (map macros_client progs) (Some w0, None)) tr c /\
    finished c /\ (forall i a r, In (a, r) (concat (sessions i tr)) -> r = AOk) /\
    Forall (Forall (Forall (styled_op E))) progs /\ Forall (Forall tidy) progs /\
    whole_writes (script w0) /\ wat w0 = no_attrs /\ fst (shared c) = Some w' /\
    implements E ansi_cfg (ansi_tty E) /\ caps_coherent ansi_cfg /\
    option_map vcells (emu_look (feed (ansi_tty E) (emu_new (Size 1 3)) (dev w'))) =
      Some [VC [97%N] (Attrs None None BOLD); VC [98%N] no_attrs; VC [98%N] no_attrs].
Proof.
  cbv zeta. do 3 eexists. split.
  - eapply run_snoc.
    1: eapply run_snoc.
    1: eapply run_snoc.
    1: eapply run_snoc.
    1: eapply run_snoc.
    1: eapply run_snoc.
    1: eapply run_snoc.
    1: eapply run_snoc.
    1: eapply run_snoc.
    1: eapply run_snoc.
    1: eapply run_snoc.
    1: eapply run_snoc.
    1: eapply run_snoc.
    1: eapply run_snoc.
    1: apply run_nil.
    + eapply (step_acq _ _ 0 LWriter); reflexivity.
    + eapply (step_act _ _ 0); reflexivity.
    + eapply (step_act _ _ 0); reflexivity.
    + eapply (step_act _ _ 0); reflexivity.
    + eapply (step_act _ _ 0); reflexivity.
    + eapply (step_rel _ _ 0 LWriter); reflexivity.
    + eapply (step_acq _ _ 1 LWriter); reflexivity.
    + eapply (step_act _ _ 1); reflexivity.
    + eapply (step_act _ _ 1); reflexivity.
    + eapply (step_rel _ _ 1 LWriter); reflexivity.
    + eapply (step_acq _ _ 0 LWriter); reflexivity.
    + eapply (step_act _ _ 0); reflexivity.
    + eapply (step_act _ _ 0); reflexivity.
    + eapply (step_rel _ _ 0 LWriter); reflexivity.
  - split; [intros [|[|i]]; [reflexivity|reflexivity|cbn; now destruct i]|].
    split. { intros [|[|i]] a r H; vm_compute in H; repeat match type of H with _ \/ _ => destruct H as [H|H] end; try contradiction; now inversion H. }
    split. { repeat (apply Forall_cons; [repeat (apply Forall_cons; [repeat (apply Forall_cons; [cbn [styled_op attr_op]; try exact I; repeat (apply Forall_cons; [texty_char|]); apply Forall_nil|]); apply Forall_nil|]); apply Forall_nil|]); apply Forall_nil. }
    split. { repeat constructor. }
    split; [repeat constructor|]. split; [reflexivity|]. split; [reflexivity|].
    split; [apply ansi_implements; apply demo_env_ok; cbn; lia|]. split; [apply ansi_coherent|vm_compute; reflexivity].
Qed.

(** What a message leaves behind, the next one inherits, whoever writes it: with the
    first thread's attributes not cleared, the second thread's "b" comes out bold. *)
Theorem C94_attributes_are_inherited :
  let E := demo_env 1000 in
  let w0 := writer_new 64 [WAll; WAll; WAll] in
  let progs := [[untidy_a]; [plain_b]] in
  exists tr c w', run E ansi_cfg (start (map macros_client progs) (Some w0, None)) tr c /\
    finished c /\ (forall i a r, In (a, r) (concat (sessions i tr)) -> r = AOk) /\
    fst (shared c) = Some w' /\ text_log no_attrs plain_b = [([98%N], no_attrs)] /\
    option_map vcells (emu_look (feed (ansi_tty E) (emu_new (Size 1 2)) (dev w'))) =
      Some [VC [97%N] (Attrs None None BOLD); VC [98%N] (Attrs None None BOLD)].
Proof. exact untidy_leaks. Qed.
Print Assumptions C94_attributes_are_inherited.
