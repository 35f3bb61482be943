(** Property theorems for the Windows output side (C56, C58, C61, C70, C71). *)
From Verif Require Import Base M_Geom M_Attr M_Utf8 S_Utf8 M_Buf S_Buf M_Writer S_Tty S_Writer M_WinWriter S_WinWriter
  P_WinWriter P_WinView.

(** C56: the word for attributes [a] shows exactly them: requested colours replace those
    of the default word, bold sets the intensity, reverse exchanges text and background
    colours, all other bits are those of the default word. *)
Theorem C56_word : forall default a, (default < 65536)%N -> shows default a (win_word default a).
Proof. exact word_shows. Qed.
Print Assumptions C56_word.

Theorem C56_swapping_twice : forall w, (w < 65536)%N -> win_swap_colors (win_swap_colors w) = w.
Proof. exact swap_twice. Qed.
Print Assumptions C56_swapping_twice.

(** C56, for whole histories: as long as operations (of any kind, in any order) report
    success, the console's attribute word shows the attributes requested last, and the
    text received consists of the characters written, each with the attributes requested
    for it. *)
Theorem C56_console_follows :
  forall draw default E ops s s',
  (default < 65536)%N -> Forall op_scalar ops -> shows default (w_at s) (c_attr (w_con s)) ->
  run_wins draw default E ops s = Some s' ->
  shows default (fold_left request ops (w_at s)) (c_attr (w_con s')) /\
  exists l, received s s' l /\ typed default (texts (w_at s) ops) l.
Proof. exact console_follows. Qed.
Print Assumptions C56_console_follows.

(** C56 does not hold across failures: after a change of attributes that the console
    refused, the terminal takes it as made; repeating the request reports success and
    does nothing. *)
Theorem C56_after_failure_refuted :
  forall draw default E o s e l,
  attr_op o -> c_answers (w_con s) = CFail e :: l -> request (w_at s) o <> w_at s ->
  exists s', run_win draw default E o s = Fail s' e /\
    c_attr (w_con s') = c_attr (w_con s) /\ w_at s' = request (w_at s) o /\
    run_win draw default E o s' = Ret s' tt.
Proof. exact failed_change. Qed.
Print Assumptions C56_after_failure_refuted.

(** A console of 5 lines and 4 columns with lines 1 and 2 visible, full of text. *)
Definition demo_view : view :=
  View (Coord 4 5) (Coord 2 1) (Rect 1 2 0 3) (fun y x => (Z.to_N (65 + 4 * y + x), 7%N)).
Definition demo_draw (_l : list N) (_a : N) (v : view) : view := v.
Definition demo_wins (l : list cans) : wins := Wins no_attrs (Con demo_view 7 [] (25%N, true) l).

Example C56_example :
  let ops := [OSetFg (Some Red); OAddStyle 5%N; OWriteStr [97; 0x1F600]%N; OClearToScreenEnd;
              OSetBg (Some Cyan); OWriteStyled (Attrs None (Some Blue) 0%N) [98]%N; OFlush] in
  shows 7%N no_attrs (c_attr (w_con (demo_wins [CTake 1]))) /\ Forall op_scalar ops /\
  exists s', run_wins demo_draw 7%N (demo_env 1000) ops (demo_wins [CTake 1; CTake 1; CTake 1; CTake 0; CTake 2]) = Some s' /\
    c_text (w_con s') = [(97, 0x48); (0xD83D, 0x48); (0xDE00, 0x48); (98, 0x17)]%N /\
    c_attr (w_con s') = 7%N.
Proof.
  cbv zeta. split; [apply (word_shows 7 no_attrs); reflexivity|]. split; [repeat constructor|].
  eexists. split; [vm_compute; reflexivity|]. split; reflexivity.
Qed.

(** C58: whatever numbers of code units the console takes at a time: [write_str] always
    returns; if it reports success, the console has received exactly a UTF-16 encoding
    of the string, in order, once; if it reports an error, a prefix of it. *)
Theorem C58_write_str :
  forall draw str s, Forall scalar str ->
  exists units, utf16_decode units = Some str /\
  match win_write_str draw str s with
  | Ret s' _ => received s s' (map (fun u => (u, c_attr (w_con s))) units)
  | Fail s' _ => exists k, received s s' (map (fun u => (u, c_attr (w_con s))) (firstn k units))
  | _ => False
  end.
Proof. exact (fun draw => write_str_units draw 7%N). Qed.
Print Assumptions C58_write_str.

Example C58_example :
  utf16_decode [0x48; 0xD83D; 0xDE00; 0xFFFF]%N = Some [0x48; 0x1F600; 0xFFFF]%N /\
  exists s', win_write_str demo_draw [0x48; 0x1F600; 0xFFFF]%N (demo_wins [CTake 2; CTake 0; CTake 1; CFail 5]) = Fail s' 5%N /\
    map fst (c_text (w_con s')) = [0x48; 0xD83D; 0xDE00]%N.
Proof. split; [reflexivity|]. eexists. split; vm_compute; reflexivity. Qed.

Local Open Scope Z_scope.

(** C61, what holds: moving right and down stops at the edges; moving left and up is
    exact as long as the edge is not passed; nothing else changes. *)
Theorem C61_moves_partial :
  forall E n s,
  65536 <= Z.of_nat (umax E) -> view_ok (c_view (w_con s)) -> no_failure (c_answers (w_con s)) ->
  let v := c_view (w_con s) in
  let x := cX (v_cur v) in
  let y := cY (v_cur v) in
  (exists s', win_move_right n s = Ret s' tt /\
     goes_to s s' (Coord (Z.min (x + Z.of_nat n) (cX (v_size v) - 1)) y)) /\
  (exists s', win_move_down n s = Ret s' tt /\
     goes_to s s' (Coord x (Z.min (y + Z.of_nat n) (cY (v_size v) - 1)))) /\
  (Z.of_nat n <= x -> exists s', win_move_left E n s = Ret s' tt /\
     goes_to s s' (Coord (x - Z.of_nat n) y)) /\
  (Z.of_nat n <= y -> exists s', win_move_up E n s = Ret s' tt /\
     goes_to s s' (Coord x (y - Z.of_nat n))).
Proof. exact moves. Qed.
Print Assumptions C61_moves_partial.

(** C61 does not hold at the left and upper edges: moving further than there is room is
    not clamped; the console rejects the position and the method fails without moving. *)
Theorem C61_left_up_refuted :
  forall E n s,
  65536 <= Z.of_nat (umax E) -> view_ok (c_view (w_con s)) -> no_failure (c_answers (w_con s)) ->
  let v := c_view (w_con s) in
  (cX (v_cur v) < Z.of_nat n -> exists s', win_move_left E n s = Fail s' ERROR_INVALID_PARAMETER /\
     now s s' (v_cur v) (v_cell v)) /\
  (cY (v_cur v) < Z.of_nat n -> exists s', win_move_up E n s = Fail s' ERROR_INVALID_PARAMETER /\
     now s s' (v_cur v) (v_cell v)).
Proof. exact moves_fail. Qed.
Print Assumptions C61_left_up_refuted.

Example C61_example :
  view_ok demo_view /\ no_failure [CTake 1] /\
  (forall E, 65536 <= Z.of_nat (umax E) ->
   exists s', win_move_left E 2 (demo_wins []) = Ret s' tt /\ v_cur (c_view (w_con s')) = Coord 0 1) /\
  (exists s', win_move_down 100 (demo_wins []) = Ret s' tt /\ v_cur (c_view (w_con s')) = Coord 2 4).
Proof.
  split; [vm_compute; intuition discriminate|]. split; [repeat econstructor|]. split.
  - intros E HE. destruct (moves E 2 (demo_wins []) HE) as (_ & _ & H & _); [vm_compute; intuition discriminate|constructor|].
    destruct H as (s' & -> & N); [vm_compute; discriminate|]. exists s'. split; [reflexivity|].
    destruct N as (_ & _ & _ & _ & _ & N & _). exact N.
  - eexists. split; vm_compute; reflexivity.
Qed.

(** C70: [clear_to_line_end] and [clear_to_screen_end] make exactly the cells from the
    cursor to the end of the line or buffer blank, with the default attributes, and
    change nothing else. *)
Theorem C70_erase_to_end :
  forall default s,
  view_ok (c_view (w_con s)) -> no_failure (c_answers (w_con s)) ->
  let v := c_view (w_con s) in
  (exists s', win_clear_to_line_end default s = Ret s' tt /\ no_failure (c_answers (w_con s')) /\
     now s s' (v_cur v) (fun y x => if (y =? cY (v_cur v)) && (cX (v_cur v) <=? x)
                                    then (SPACE, default) else v_cell v y x)) /\
  (exists s', win_clear_to_screen_end default s = Ret s' tt /\ no_failure (c_answers (w_con s')) /\
     now s s' (v_cur v) (fun y x => if (cY (v_cur v) <? y) || (y =? cY (v_cur v)) && (cX (v_cur v) <=? x)
                                    then (SPACE, default) else v_cell v y x)).
Proof. exact erase_ok. Qed.
Print Assumptions C70_erase_to_end.

Example C70_example :
  exists s', win_clear_to_line_end 7 (demo_wins [CTake 3]) = Ret s' tt /\
    map (v_cell (c_view (w_con s')) 1) [0; 1; 2; 3] = [(69, 7); (70, 7); (32, 7); (32, 7)]%N.
Proof. eexists. split; vm_compute; reflexivity. Qed.

(** C71, what holds: if the window is the whole buffer, or the buffer has at least twice
    the lines of the window and the lines below the cursor are blank, the visible part is
    blank afterwards and the cursor is at its top left corner. *)
Theorem C71_clear_screen_partial :
  forall default s,
  view_ok (c_view (w_con s)) -> no_failure (c_answers (w_con s)) ->
  let v := c_view (w_con s) in
  (win_height v = cY (v_size v) \/
   2 * win_height v <= cY (v_size v) /\
   forall y x, cY (v_cur v) < y < cY (v_size v) -> 0 <= x < cX (v_size v) -> blank (v_cell v y x)) ->
  exists s', win_clear_screen default s = Ret s' tt /\ cleared (c_view (w_con s')) /\
    v_size (c_view (w_con s')) = v_size v /\ win_height (c_view (w_con s')) = win_height v.
Proof. exact clear_screen_clears. Qed.
Print Assumptions C71_clear_screen_partial.

(** C71 does not hold in general.  Text below the cursor: if the cursor is in the window
    but not on its last line and there is room below the window, nothing is erased at
    all; the window just moves so that the line below the cursor becomes its first. *)
Theorem C71_text_below_refuted :
  forall default s,
  view_ok (c_view (w_con s)) -> no_failure (c_answers (w_con s)) ->
  let v := c_view (w_con s) in
  let d := cY (v_cur v) + 1 - rTop (v_win v) in
  rTop (v_win v) <= cY (v_cur v) < rBottom (v_win v) -> d <= cY (v_size v) - (rBottom (v_win v) + 1) ->
  exists s', win_clear_screen default s = Ret s' tt /\
    let v' := c_view (w_con s') in
    rTop (v_win v') = cY (v_cur v) + 1 /\ rBottom (v_win v') = rBottom (v_win v) + d /\
    rBottom (v_win v) < rBottom (v_win v') /\
    forall y x, 0 <= y < cY (v_size v) -> 0 <= x < cX (v_size v) -> v_cell v' y x = v_cell v y x.
Proof. exact text_below_stays. Qed.
Print Assumptions C71_text_below_refuted.

(** A buffer with less than twice the lines of the window: with the window at the top and
    the cursor on its last line, lines in the middle stay visible as they were. *)
Theorem C71_small_buffer_refuted :
  forall default s,
  view_ok (c_view (w_con s)) -> no_failure (c_answers (w_con s)) ->
  let v := c_view (w_con s) in
  let m := cY (v_size v) - win_height v in
  rTop (v_win v) = 0 -> cY (v_cur v) = rBottom (v_win v) -> 0 < m ->
  exists s', win_clear_screen default s = Ret s' tt /\
    let v' := c_view (w_con s') in
    2 * m < win_height v ->
    (forall y x, m <= y < win_height v - m -> rLeft (v_win v) <= x <= rRight (v_win v) -> in_window v' y x) /\
    (forall y x, m <= y < win_height v - m -> 0 <= x < cX (v_size v) -> v_cell v' y x = v_cell v y x).
Proof. exact small_buffer_stays. Qed.
Print Assumptions C71_small_buffer_refuted.

(** C71, exactly, if the buffer has more lines than the window.  The window goes down, by
    as many lines as it takes to have the cursor's line just above it or as many as there
    are.  If the cursor's line is then [up] lines past that, lines [up] up to the cursor's
    move up by [up] lines, over what was there, and leave blank lines where none of them
    came to be.  All other cells stay as they were, so that lines between are left over
    if there are fewer than [up] lines to move; the cursor goes to the window's top left
    corner. *)
Theorem C71_moves_up_exactly :
  forall default s,
  view_ok (c_view (w_con s)) -> no_failure (c_answers (w_con s)) ->
  let v := c_view (w_con s) in
  win_height v < cY (v_size v) ->
  let w := lowered v in
  let up := cY (v_cur v) + 1 - rTop w in
  exists s', win_clear_screen default s = Ret s' tt /\
    let v' := c_view (w_con s') in
    v_size v' = v_size v /\ v_win v' = w /\ v_cur v' = Coord (rLeft w) (rTop w) /\
    forall y x, 0 <= y < cY (v_size v) -> 0 <= x < cX (v_size v) ->
      v_cell v' y x =
        if (0 <? up) && (y + up <=? cY (v_cur v)) then v_cell v (y + up) x
        else if (0 <? up) && (up <=? y) && (y <=? cY (v_cur v)) then (SPACE, 0%N)
        else v_cell v y x.
Proof. exact screen_part. Qed.
Print Assumptions C71_moves_up_exactly.

(** C71, exactly, if the window is as high as the buffer: every cell becomes a space with
    the console's default attributes, and the cursor goes to the window's top left
    corner. *)
Theorem C71_whole_buffer_exactly :
  forall default s,
  view_ok (c_view (w_con s)) -> no_failure (c_answers (w_con s)) ->
  let v := c_view (w_con s) in
  win_height v = cY (v_size v) ->
  exists s', win_clear_screen default s = Ret s' tt /\
    now s s' (Coord (rLeft (v_win v)) (rTop (v_win v))) (fun _ _ => (SPACE, default)).
Proof. exact screen_all. Qed.
Print Assumptions C71_whole_buffer_exactly.

(** The demonstration console: the line below the cursor is still there afterwards. *)
Example C71_example :
  view_ok demo_view /\
  (exists s', win_clear_screen 7 (demo_wins []) = Ret s' tt /\
     v_win (c_view (w_con s')) = Rect 2 3 0 3 /\
     map (v_cell (c_view (w_con s')) 2) [0; 1; 2; 3] = [(73, 7); (74, 7); (75, 7); (76, 7)]%N) /\
  (let s := Wins no_attrs (Con (View (Coord 4 5) (Coord 2 3) (Rect 2 3 0 3)
              (fun y x => if y =? 4 then (SPACE, 7%N) else v_cell demo_view y x)) 7 [] (25%N, true) []) in
   exists s', win_clear_screen 7 s = Ret s' tt /\
     map (fun y => map (fun x => fst (v_cell (c_view (w_con s')) y x)) [0; 1; 2; 3]) [2; 3; 4] =
       [[77; 78; 79; 80]; [32; 32; 32; 32]; [32; 32; 32; 32]]%N /\
     v_win (c_view (w_con s')) = Rect 3 4 0 3).
Proof.
  split; [vm_compute; intuition discriminate|]. split; eexists; repeat split; vm_compute; reflexivity.
Qed.
