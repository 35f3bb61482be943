(** Property theorems for double-width characters on a Windows screen (C126). *)
From Verif Require Import Base M_Utf8 S_Utf8 M_Geom S_Geom M_Attr M_Signal M_Util M_Input M_Buf S_Buf M_Writer M_Prepare M_Reader
  M_WinWriter M_WinReader S_WinReader M_WinScreen S_WinScreen M_ScreenApi S_WinCanvas P_WinDraw2.
From Verif Require S_WinWriter S_Screen S_Canvas.
From Verif Require Import S_WideCanvas S_WinWide P_WinWide P_WinWide2.

(** C126: in any history of buffer methods, cursor modes, refreshes and resizes, where at
    each refresh double-width characters fit and no position that showed the right half of
    one gets back the very cell it held before, a refresh makes the console show the buffer; the cursor is at its
    position (or the last position, if it is off the screen) unless that is the right half
    of a character. *)
Theorem C126_refresh_shows_the_buffer_partial : forall draw shown shown2 is_half E,
  wide_places draw shown shown2 is_half -> env_ok E -> (32767 <= Z.of_nat (umax E))%Z ->
  forall s s' u, whistory draw E (win_ready E shown shown2 is_half) s ->
  win_ready E shown shown2 is_half s -> win_refresh draw E s = Ret s' u ->
  shows_wide E shown shown2 (t_default (g_t s)) (sees s') (g_sb s') /\
  (S_Screen.half E (g_sb s) (cell_no (bsize (g_sb s)) (S_Screen.cursor_goal (g_sb s))) = false ->
    v_cur (sees s') = Coord (Z.of_nat (column (S_Screen.cursor_goal (g_sb s)))) (Z.of_nat (line (S_Screen.cursor_goal (g_sb s))))) /\
  buffer (g_sb s') = buffer (g_sb s) /\ bsize (g_sb s') = bsize (g_sb s) /\ bcur (g_sb s') = bcur (g_sb s).
Proof.
  intros draw shown shown2 is_half E HP HE HU s s' u. exact (whistory_shows draw shown shown2 is_half E HP HE s s' u HU).
Qed.
Print Assumptions C126_refresh_shows_the_buffer_partial.

(** C126: in any history of drawing methods with single- and double-width characters,
    cursor modes, refreshes and resizes, where no position that showed the right half of a
    character gets back, at a refresh, the text and attributes it had before, [size] and
    [cursor] tell what the canvas says and a refresh makes the console show the canvas. *)
Theorem C126_refresh_displays_the_canvas_partial : forall draw shown shown2 is_half E,
  wide_places draw shown shown2 is_half -> env_ok E -> (32767 <= Z.of_nat (umax E))%Z ->
  forall s k last, win_painted draw shown shown2 E s k last ->
  screen_get_size (g_sb s) = wsize k /\ screen_get_cursor (g_sb s) = wpen k /\
  forall s' u, readable E shown shown2 k -> match last with Some h => mends h k | None => covers (sees s) end ->
    win_refresh draw E s = Ret s' u ->
    win_wdisplays E shown shown2 (t_default (g_t s)) (sees s') k /\
    (wink k (line (wpen_goal k)) (column (wpen_goal k)) <> Right ->
      v_cur (sees s') = Coord (Z.of_nat (column (wpen_goal k))) (Z.of_nat (line (wpen_goal k)))).
Proof.
  intros draw shown shown2 is_half E HP HE HU s k last. exact (win_painting_shows draw shown shown2 is_half E HP HE s k last HU).
Qed.
Print Assumptions C126_refresh_displays_the_canvas_partial.

(** C126, why that matters: there is a console and a program, whose double-width
    character fits and whose text the console shows, after which a successful refresh
    leaves the console showing something else than the buffer.  (It draws "x" in the second
    column, then a double-width character over the first two, then "ax" there.) *)
Theorem C126_torn_refuted : exists draw shown shown2 is_half E s s' u,
  env_ok E /\ (32767 <= Z.of_nat (umax E))%Z /\ wide_places draw shown shown2 is_half /\
  whistory draw E (fun s => S_Screen.wides_fit E (g_sb s) /\ all_shown E shown shown2 (g_sb s) /\
                            (g_clr s = true -> covers (sees s))) s /\
  S_Screen.wides_fit E (g_sb s) /\ all_shown E shown shown2 (g_sb s) /\ (g_clr s = true -> covers (sees s)) /\
  win_refresh draw E s = Ret s' u /\ ~ shows_wide E shown shown2 (t_default (g_t s)) (sees s') (g_sb s').
Proof. exact torn_wrong. Qed.
Print Assumptions C126_torn_refuted.

(** A screen of 2 lines and 6 columns: a red U+FF41, "b" and U+FF43; refresh; U+FF44 in
    place of the first; refresh; the console becomes 3 lines of 5 columns full of "x"; "e"
    on the new line; refresh; U+FF46 and "g" in place of "b" and U+FF43, one column apart;
    refresh; "x" in place of the left half of U+FF46; refresh. *)
Definition ex_deeds : list deed :=
  [DDo (SSetFg (Some Red)); DDo (SWriteStr [65345; 98; 65347]%N); DRefresh;
   DDo (SWriteAt (At (Cursor 0 0)) [65348%N]); DRefresh;
   DResize (some_view 5 3 0 2 120); DDo (SWriteAt (At (Cursor 2 4)) [101%N]); DRefresh;
   DDo (SWriteAt (At (Cursor 0 2)) [65350; 103]%N); DRefresh; DDo (SWriteAt (At (Cursor 0 2)) [120%N])].
Definition ex_shows (k : wcanvas) (v : view) : bool :=
  match wink k 0 1, wink k 0 2, wink k 0 3 with Right, Glyph [120%N] _, Glyph [32%N] _ => true | _, _, _ => false end &&
  match map (fun p => v_cell v (fst p) (snd p)) [(0, 0); (0, 1); (0, 2); (0, 3); (0, 4); (1, 0); (2, 4)]%Z with
  | [(65348, 4); (1179460, 4); (120, 4); (32, 4); (103, 4); (32, 7); (101, 4)]%N => true
  | _ => false
  end.
Example C126_example : wide_places duo_draw duo_shown duo_shown2 duo_half /\ env_ok wide_env /\
  (32767 <= Z.of_nat (umax wide_env))%Z /\
  exists s k last s' u, win_painted duo_draw duo_shown duo_shown2 wide_env s k last /\
    readable wide_env duo_shown duo_shown2 k /\ match last with Some h => mends h k | None => covers (sees s) end /\
    win_refresh duo_draw wide_env s = Ret s' u /\ ex_shows k (sees s') = true.
Proof.
  split; [exact duo_places|]. split; [exact wide_env_ok|]. split; [exact wide_env_max|].
  apply (playing_ok (some_view 6 2 0 1 SPACE) ex_deeds). vm_compute. reflexivity.
Qed.

(** The same program meets the conditions of the first theorem. *)
Example C126_example_history : exists s s' u,
  whistory duo_draw wide_env (win_ready wide_env duo_shown duo_shown2 duo_half) s /\
  win_ready wide_env duo_shown duo_shown2 duo_half s /\ win_refresh duo_draw wide_env s = Ret s' u /\
  exists k, ex_shows k (sees s') = true.
Proof.
  destruct C126_example as (HP & HE & HU & s & k & last & s' & u & H1 & H2 & H3 & H4 & H5). exists s, s', u.
  destruct (win_painted_history duo_draw duo_shown duo_shown2 duo_half wide_env HP HE s k last HU H1) as (W & F & P).
  split; [exact W|]. split; [exact (pictured_careful duo_shown duo_shown2 duo_half wide_env HE s k last F P H2 H3)|].
  split; [exact H4|]. exists k. exact H5.
Qed.
