(** C143: the example program examples/screen.rs shows what it is told until [q] is pressed. *)
From Coq Require Import String.
From Verif Require Import Base M_Utf8 S_Utf8 M_Geom S_Geom M_Attr M_Seq S_Seq M_Signal M_Util M_Input S_Input M_Buf S_Buf M_Writer M_Prepare M_Reader
  M_ScreenApi M_UnixScreen M_Lines S_WinCanvas P_WinDraw2 S_SamePicture P_SamePicture.
From Verif Require S_Tty S_Writer M_Screen S_Screen S_UnixScreen S_Reader S_Typing S_Lines S_Emu P_Emu P_Screen5 P_Buf3 Prop_Typing Prop_Prepare
  Prop_UnixScreen P_Typing Prop_Interact P_Succeeds4 Prop_Lines.
From Verif Require Import S_Canvas S_Interact S_Succeeds M_ScreenExample S_ScreenExample P_ScreenExample P_ScreenExample2.
Local Open Scope nat_scope.

(** C143: on a window of at least 3 lines and 33 columns of a Unix terminal that has what
    drawing needs and takes what is written, where the user does [acts]: the program does not
    fail and does not panic.  After at most [n] events or incomplete inputs it has been told of
    some first part of [acts] without [q] and goes on, or it waits and has been told of all of
    them, or [q] was pressed and it has left its loop; and then the window shows the greeting
    and the text of the latest event before (none at first), with the cursor after it. *)
Theorem C143_screen_example :
  forall debug E C m K h,
  key_map m -> (forall c n, n <= grow C c n) -> env_ok E -> env_chars E -> S_Lines.ascii_plain E -> S_Writer.caps_coherent C ->
  S_Tty.implements E C K -> S_UnixScreen.plain_caps C -> drawable C ->
  (forall e, no_wide E (concat (debug e)) /\ newlines (concat (debug e)) <= h) ->
  forall z t0 u acts n, unix_start E C m K z t0 u acts ->
    3 <= lines z -> 33 <= columns z -> 4 + lines z + 2 * h <= umax E ->
    S_Writer.perfect (script (wr (u_sys u))) -> (n + 1) * (2 * total z + 1) <= writes_left (script (wr (u_sys u))) ->
    match demo debug E C m n u with
    | DGoing u' => n <= List.length acts + List.length (S_Reader.portions (u_sys u)) /\
        exists now later, acts = now ++ later /\ ~ In the_q (map S_Typing.heard now) /\
          shows C (unix_sees K t0 u') (picture E debug z (latest (map S_Typing.heard now)))
    | DWaiting u' => ~ In the_q (map S_Typing.heard acts) /\
        shows C (unix_sees K t0 u') (picture E debug z (latest (map S_Typing.heard acts)))
    | DQuit u' => exists now a later, acts = now ++ a :: later /\ ~ In the_q (map S_Typing.heard now) /\ S_Typing.heard a = the_q /\
        shows C (unix_sees K t0 u') (picture E debug z (latest (map S_Typing.heard now)))
    | _ => False
    end.
Proof. exact screen_example. Qed.
Print Assumptions C143_screen_example.

(** On 6 lines of 34 columns: a, q, b.  A key's text is "Key" and the character on the next
    line. *)
Definition ex_debug (e : event) : list (list N) :=
  match e with EKey (KChar c) => [chars "Key"; [10%N]; if Prop_Interact.printable c then [c] else [63%N]] | _ => [[63%N]] end.
Definition ex_time : list tick := [TInput [97]%N; TStep; TTime; TInput [113; 98]%N].
Definition ex_acts : list S_Typing.act := [S_Typing.Typed 97; S_Typing.Typed 113; S_Typing.Typed 98].
Definition ex_size : size := Size 6 34.
Definition ex_sys0 : sys :=
  Sys [] 0 None ss_new (W [] 512 no_attrs 0 [] (P_Screen5.alls (53 * 40))) 0 Prop_Prepare.ex_tio (fun n => Other n) [] None
    (inr ex_size) [] ex_time.
Definition ex_u : uscr := Prop_Interact.got_u (unix_screen_new wide_env S_Emu.ansi_cfg default_config ex_sys0).

Lemma ex_u_ok : exists s, unix_screen_new wide_env S_Emu.ansi_cfg default_config ex_sys0 = Ret s ex_u.
Proof. unfold ex_u. apply Prop_Interact.got_u_ok. vm_compute. reflexivity. Qed.
Example C143_example_start : unix_start wide_env S_Emu.ansi_cfg Prop_Typing.ex_clear (S_Emu.ansi_tty wide_env) ex_size
  (S_Emu.emu_new ex_size) ex_u ex_acts.
Proof.
  assert (Ht : time (u_sys ex_u) = ex_time) by (vm_compute; reflexivity).
  constructor.
  - destruct ex_u_ok as (s1 & H).
    exists default_config, ex_sys0, s1, (S_Tty.View ex_size (repeat (S_Tty.VC [SPACE] no_attrs) (total ex_size)) (Cursor 0 0) no_attrs true).
    split; [reflexivity|]. split; [unfold ex_size; P_Screen5.small|]. split.
    { assert (Q : forallb (fun r => match r with WAll => true | _ => false end) (P_Screen5.alls (53 * 40)) = true) by (vm_compute; reflexivity).
      cbn [ex_sys0 wr script]. apply Forall_forall. intros r Hr. apply (proj1 (forallb_forall _ _) Q) in Hr. clear Q. destruct r; try discriminate Hr. constructor. }
    split; [|split; [reflexivity|split; [reflexivity|exact H]]].
    cbn [S_Writer.stream ex_sys0 wr dev obuf app]. rewrite (S_Tty.feed_nil _ _ _ (P_Emu.ansi_implements _ wide_env_ok)). apply P_Emu.emu_new_look.
  - assert (H : failing (u_sys ex_u) = None /\ last_sig (u_sys ex_u) = 0%N) by (split; vm_compute; reflexivity).
    destruct H as (H1 & H2). unfold S_Reader.calm. rewrite H1, H2, Ht. split; [reflexivity|]. split; [reflexivity|]. repeat constructor.
  - rewrite Ht. intros r Q. cbn [In ex_time] in Q. repeat (destruct Q as [Q|Q]; [discriminate Q|]). exact Q.
  - vm_compute. reflexivity.
  - assert (H : S_Reader.portions (u_sys ex_u) = [[97]; [113; 98]]%N) by (vm_compute; reflexivity). rewrite H.
    assert (Hu := proj1 Prop_Typing.C98_example).
    assert (Hb : forall c rest, scalar c -> c <> 27%N -> (c < 128)%N -> S_Typing.clear_before Prop_Typing.ex_clear rest (S_Typing.Typed c)).
    { intros c rest Hc Hn Hl. apply (P_Typing.ordinary_clear _ Prop_Typing.ex_clear_map _ _ Hu). split; [exact Hc|]. intros q v Hi (r & Hr).
      assert (U : utf8 c = [c]) by (unfold utf8; replace (c <? 128)%N with true by lia; reflexivity). rewrite U in Hr.
      rewrite Prop_Typing.ex_clear_seqs in Hi. cbn [In] in Hi.
      repeat match type of Hi with _ \/ _ => destruct Hi as [Hi|Hi] end; try contradiction; injection Hi as <- <-; injection Hr as Hr _; congruence. }
    change ex_acts with ([S_Typing.Typed 97] ++ [S_Typing.Typed 113; S_Typing.Typed 98] ++ []).
    repeat (apply S_Typing.Ar_portion with (held' := []); [discriminate|cbn; lia|reflexivity| |now left|]); [| |apply S_Typing.Ar_end];
      repeat split; try (apply Hb; [reflexivity|discriminate|reflexivity]).
Qed.
Lemma plain_narrow c : (32 <= c < 127)%N -> ~ wide wide_env c.
Proof.
  intros Hc (_ & Hw). unfold wide_env in Hw. cbn [demo_env cwidth] in Hw. unfold demo_width in Hw.
  destruct (_ || _) in Hw; [discriminate Hw|]. replace ((768 <=? c) && (c <=? 879))%N with false in Hw by lia.
  replace ((65281 <=? c) && (c <=? 65376))%N with false in Hw by lia. discriminate Hw.
Qed.
Example C143_example_meets :
  S_Lines.ascii_plain wide_env /\ drawable S_Emu.ansi_cfg /\
  (forall e, no_wide wide_env (concat (ex_debug e)) /\ newlines (concat (ex_debug e)) <= 1) /\
  4 + lines ex_size + 2 * 1 <= umax wide_env /\
  S_Writer.perfect (script (wr (u_sys ex_u))) /\ (4 + 1) * (2 * total ex_size + 1) <= writes_left (script (wr (u_sys ex_u))).
Proof.
  split; [apply Prop_Lines.demo_ascii|]. split; [apply P_Succeeds4.ansi_drawable|]. split; [|split; [|split]].
  - assert (L : forall c, (32 <= c < 127)%N -> no_wide wide_env (chars "Key" ++ [10; c])%N /\ newlines (chars "Key" ++ [10; c])%N <= 1).
    { intros c Hc. split.
      - apply Forall_app. split; [|apply Forall_cons; [intros (_ & Q); discriminate Q|apply Forall_cons; [now apply plain_narrow|apply Forall_nil]]].
        repeat (apply Forall_cons; [apply plain_narrow; cbn; lia|]). apply Forall_nil.
      - unfold newlines. rewrite count_occ_app. change (count_occ N.eq_dec (chars "Key") LF) with 0. cbn [count_occ].
        destruct (N.eq_dec 10 LF), (N.eq_dec c LF) as [H|]; change LF with 10%N in *; lia. }
    assert (O : no_wide wide_env [63%N] /\ newlines [63%N] <= 1).
    { split; [apply Forall_cons; [apply plain_narrow; lia|apply Forall_nil]|cbn; lia]. }
    intros e. destruct e as [[]| | | | |]; try exact O. cbn [ex_debug concat app]. unfold Prop_Interact.printable.
    destruct ((32 <=? c) && (c <? 127))%N eqn:Ep; apply L; lia.
  - pose proof wide_env_max. unfold ex_size. cbn [lines]. lia.
  - assert (H : forallb (fun r => match r with WAll | WIntr => true | _ => false end) (script (wr (u_sys ex_u))) = true) by (vm_compute; reflexivity).
    apply Forall_forall. intros r Hr. apply (proj1 (forallb_forall _ _) H) in Hr. clear H. destruct r; try discriminate Hr; cbn; tauto.
  - apply Nat.leb_le. vm_compute. reflexivity.
Qed.
(** The texts of a line of the window. *)
Definition row_text (v : S_Tty.view) (l : nat) : list N :=
  flat_map (fun c => match c with S_Tty.VC t _ => t | _ => [] end) (firstn 34 (skipn (34 * l) (S_Tty.vcells v))).
Example C143_example_run :
  match demo ex_debug wide_env S_Emu.ansi_cfg Prop_Typing.ex_clear 4 ex_u with
  | DQuit u => match unix_sees (S_Emu.ansi_tty wide_env) (S_Emu.emu_new ex_size) u with
               | Some v => (map (row_text v) [0; 1; 2; 3; 4; 5], S_Tty.vcur v) =
                   ([chars "Reading input. Press 'q' to stop. "; repeat 32%N 34;
                     chars "     Hello, world!                "; repeat 32%N 34; chars "Key                               ";
                     chars "a                                 "], Cursor 5 1)
               | None => False
               end
  | _ => False
  end.
Proof. vm_compute. reflexivity. Qed.
