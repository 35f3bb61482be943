(** Property theorems for the memory the library's buffers take (C132). *)
From Verif Require Import Base M_Utf8 M_Geom M_Seq S_Seq M_Signal M_Util M_Attr M_Input S_Input M_Buf S_Buf M_Writer S_Writer S_Emu
  M_Prepare M_Reader S_Prepare S_Reader M_Screen P_Input P_Writer S_Memory P_Memory Prop_Input Prop_Prepare.
Local Open Scope nat_scope.

(** C132, input: however much is typed and whatever the program calls, a terminal never
    holds more than 256 bytes of input it has not handed out; the rest stays with the
    system. *)
Theorem C132_input :
  forall C m ops s s' rs, doubling C -> key_map m -> inbuf s = [] -> incap s = 0 ->
    rrun C m ops s = Some (s', rs) -> length (inbuf s') <= incap s' /\ incap s' <= 256.
Proof. exact input_bounded. Qed.
Print Assumptions C132_input.

(** 400 bytes are typed at once; one is told, 127 are held. *)
Example C132_input_example :
  doubling ansi_cfg /\
  match rrun ansi_cfg ex_map [RRead None] (ex_sys [TInput (repeat 97%N 400)]) with
  | Some (s', _) => length (inbuf s') = 127 /\ incap s' = 128 /\ length (concat (queue s')) = 272
  | None => False
  end.
Proof. split; [intros c n; reflexivity|]. vm_compute. repeat split; reflexivity. Qed.

(** C132, output: within a guard no more is pending than was written with it, and the
    buffer's capacity is at most twice that (or what it was before). *)
Theorem C132_pending :
  forall C ops w rs w', doubling C -> obuf w = [] -> run_any C ops w = Some (rs, w') ->
    let written := length (dev w') + length (obuf w') - length (dev w) in
    length (obuf w') <= written /\ ocap w' <= Nat.max (ocap w) (2 * written).
Proof. exact pending_written. Qed.
Print Assumptions C132_pending.

(** C132, output: so a program can go on for ever taking guards; if with each at most [N]
    bytes are written and the device takes them, the buffer never gets larger than twice
    that. *)
Theorem C132_guards :
  forall C, doubling C -> forall N w w', guarded C N w w' -> obuf w = [] ->
    obuf w' = [] /\ ocap w' <= Nat.max (ocap w) (2 * N).
Proof. exact sessions_grown. Qed.
Print Assumptions C132_guards.

(** C132, output: the same for refreshing a screen, with any drawing in between. *)
Theorem C132_refreshes :
  forall E C, doubling C -> forall N s s', refreshing E C N s s' -> obuf (wr s) = [] ->
    obuf (wr s') = [] /\ ocap (wr s') <= Nat.max (ocap (wr s)) (2 * N).
Proof. exact refreshing_grown. Qed.
Print Assumptions C132_refreshes.

(** C132, output: text alone never makes the buffer grow, whatever the device answers. *)
Theorem C132_text :
  forall C ss w rs w', length (obuf w) <= ocap w -> run_any C (map OWriteStr ss) w = Some (rs, w') ->
    ocap w' = ocap w /\ length (obuf w') <= ocap w.
Proof. exact text_fixed. Qed.
Print Assumptions C132_text.

(** A buffer of 8 bytes: a long command makes it larger, text does not, and it is empty
    after each guard. *)
Definition ex_w (sc : list wresp) : wst := W [] 8 no_attrs 0 [] sc.
Definition ex_ops : list wop := [OWriteStr (repeat 97%N 6); OMoveCursor (Cursor 10 20); OWriteStr (repeat 98%N 30)].
Example C132_example :
  match run_any ansi_cfg ex_ops (ex_w (repeat WAll 9)) with
  | Some (_, w1) => ocap w1 = 16 /\ length (obuf w1) = 0 /\
      match guard_drop w1 with
      | Ret w2 _ => obuf w2 = [] /\ length (dev w2) = 44 /\ guarded ansi_cfg 44 (ex_w (repeat WAll 9)) w2
      | _ => False
      end
  | None => False
  end /\
  match run_any ansi_cfg (map OWriteStr (repeat [97; 98; 99]%N 20)) (ex_w (repeat WAll 99)) with
  | Some (_, w1) => ocap w1 = 8 /\ length (obuf w1) = 6
  | None => False
  end.
Proof.
  split; [|vm_compute; split; reflexivity].
  destruct (run_any ansi_cfg ex_ops (ex_w (repeat WAll 9))) as [[rs w1]|] eqn:E; [|vm_compute in E; discriminate E].
  destruct (guard_drop w1) as [w2 []| | |] eqn:E2; try (vm_compute in E; injection E as _ <-; vm_compute in E2; discriminate E2).
  assert (H : ocap w1 = 16 /\ length (obuf w1) = 0 /\ obuf w2 = [] /\ length (dev w2) = 44).
  { vm_compute in E. injection E as _ <-. vm_compute in E2. injection E2 as <-. vm_compute. auto. }
  destruct H as (A & B & D & F). repeat split; auto.
  eapply (GSession ansi_cfg 44 _ ex_ops); [exact E|exact E2|exact D|rewrite F; vm_compute; lia|apply GDone].
Qed.

(** C132 fails on a device that takes nothing: each [clear_screen] succeeds all the same
    and leaves its sequence in the buffer, so memory use has no bound; nothing is thrown
    away, and once the device takes output again it gets all of it. *)
Theorem C132_failing_refuted :
  forall C e bs n w, info C ClearScreen = Some e -> (forall k, e k [] = (bs, k, true)) -> bs <> [] ->
    Forall (fun r => exists x, r = WErr x) (script w) -> n <= length (script w) ->
    exists w', times C n OClearScreen w = Ret w' tt /\ dev w' = dev w /\ obuf w' = obuf w ++ concat (repeat bs n) /\
      script w' = skipn n (script w).
Proof. exact piles_up. Qed.
Print Assumptions C132_failing_refuted.

Example C132_failing_witness :
  match times ansi_cfg 100 OClearScreen (ex_w (repeat (WErr 5) 100)) with
  | Ret w' _ => length (obuf w') = 100 * length (match info ansi_cfg ClearScreen with Some e => fst (fst (e 0%N [])) | None => [] end) /\
      length (obuf w') <> 0 /\ length (obuf w') <= ocap w'
  | _ => False
  end.
Proof. vm_compute. repeat split; try discriminate; lia. Qed.

(** A screen of two columns, refreshed after "ab" was drawn. *)
Definition ex_screen : scr :=
  Scr match sb_new (demo_env 1000) (Size 1 2) with
      | Val b => match M_Buf.write_str (demo_env 1000) b [97; 98]%N with Ret b _ | Fail b _ => b | _ => b end
      | Boom => SBuf [] [] (Size 0 0) (Cursor 0 0) no_attrs
      end true (Cursor 0 0) (ex_w (repeat WAll 9)).
Example C132_refreshes_example :
  match refresh (demo_env 1000) ansi_cfg ex_screen with
  | Ret s1 _ => obuf (wr s1) = [] /\ length (dev (wr s1)) <= 20 /\ refreshing (demo_env 1000) ansi_cfg 20 ex_screen s1
  | _ => False
  end.
Proof.
  destruct (refresh (demo_env 1000) ansi_cfg ex_screen) as [s1 []| | |] eqn:E; try (vm_compute in E; discriminate E).
  assert (H : obuf (wr s1) = [] /\ length (dev (wr s1)) <= 20).
  { vm_compute in E. injection E as <-. vm_compute. split; [reflexivity|lia]. }
  destruct H as (A & B). repeat split; auto. eapply RRefresh; [exact E|cbn; lia|apply RDone].
Qed.
