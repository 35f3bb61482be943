From Verif Require Import Base M_Geom S_Geom M_Attr M_Buf S_Buf S_Overrun P_Buf3 P_Overrun.

(** C14: which sessions panic, exactly, for every size and every sequence of operations:
    those for which the walk of the cursor says so.  The others end with the size and the
    cursor of the walk. *)
Theorem C14_panics_exactly :
  forall E sz ops, env_ok E ->
    match story E sz ops with
    | None => buf_history E sz ops = Boom
    | Some (sz', p) => exists b, buf_history E sz ops = Val b /\ bsize b = sz' /\ bcur b = p
    end.
Proof. exact (fun E sz ops HE => panics_exactly E HE sz ops). Qed.
Print Assumptions C14_panics_exactly.

Example C14_example :
  let E := demo_env 20 in
  story E (Size 2 1) [BWriteStr [65313]%N] = None /\
  story E (Size 3 1) [BWriteStr [65313]%N] = Some (Size 3 1, Cursor 2 0) /\
  story E (Size 3 0) [BWriteStr [10; 769]%N] = None /\
  story E (Size 3 0) [BWriteStr [769; 10; 97]%N] = Some (Size 3 0, Cursor 1 0) /\
  story E (Size 3 2) [BResize (Size 3 0)] = None /\
  story E (Size 0 2) [BResize (Size 3 0); BResize (Size 4 5)] = Some (Size 4 5, Cursor 0 0) /\
  story E (Size 4 5) [BResize (Size 3 7)] = None /\
  story E (Size 2 2) [BSetCursor (Cursor 19 0); BWriteStr [10]%N; BNextLine 1] = None /\
  forallb (fun x => outcome_is (buf_history E (fst x) (snd x)) (story E (fst x) (snd x)))
    [(Size 2 1, [BWriteStr [65313]%N]); (Size 3 1, [BWriteStr [65313]%N]); (Size 3 0, [BWriteStr [10; 769]%N]);
     (Size 3 0, [BWriteStr [769; 10; 97]%N]); (Size 3 2, [BResize (Size 3 0)]);
     (Size 0 2, [BResize (Size 3 0); BResize (Size 4 5)]); (Size 4 5, [BResize (Size 3 7)]);
     (Size 2 2, [BSetCursor (Cursor 19 0); BWriteStr [10]%N; BNextLine 1])] = true.
Proof. exact overrun_example. Qed.

(** C22, exactly: after any session, styled text leaves no attribute if all of it went on the
    screen, and its own attributes if it met the end of the screen. *)
Theorem C22_attributes_left_exactly :
  forall E sz ops b a s, env_ok E -> buf_history E sz ops = Val b ->
    match run_buf_op E b (BWriteStyled a s) with
    | Val b' => battrs b' = attrs_after (walk E (bsize b) s (bcur b)) a
    | Boom => walk E (bsize b) s (bcur b) = Panics
    end.
Proof. exact (fun E sz ops b a s HE => styled_leaves_history E HE sz ops b a s). Qed.
Print Assumptions C22_attributes_left_exactly.

Example C22_exactly_example :
  let E := demo_env 1000 in let a := Attrs (Some Red) None 0%N in
  exists b, buf_history E (Size 1 4) [BWriteStr [97]%N] = Val b /\
    walk E (bsize b) [65313; 98]%N (bcur b) = Moved (Cursor 1 0) /\
    walk E (bsize b) [98; 65313; 99]%N (bcur b) = Stopped (Cursor 1 0).
Proof. exact leaves_example. Qed.
