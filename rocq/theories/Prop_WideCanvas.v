(** Property theorems for drawing on a screen with double-width characters (C101). *)
From Verif Require Import Base M_Utf8 S_Utf8 M_Geom S_Geom M_Attr S_Buf M_Writer S_Tty S_Writer
  M_Screen S_Screen P_Buf3 S_Emu P_Emu P_Screen5 M_Api M_ScreenApi M_Buf S_Canvas S_WideCanvas P_WideCanvas P_WideCanvas2.

(** C101: whatever methods a program calls on a new screen, with any text for which no
    double-width character meets a single remaining column and no mark follows one, the
    screen's size, cursor, attributes and cells are those of the canvas drawn by the same
    methods. *)
Theorem C101_methods_draw_the_canvas_partial : forall E, env_ok E -> forall sz b ms b',
  1 <= columns sz -> all_easy E ms (wblank sz) ->
  sb_new E sz = Val b -> screen_methods E ms b = Val b' ->
  wholds b' (wdraws E ms (wblank sz)).
Proof. exact wdrawing_is_held. Qed.
Print Assumptions C101_methods_draw_the_canvas_partial.

(** In any history of such calls, refreshes and resizes, [size] and [cursor] tell what the
    canvas says, and a refresh makes the terminal show the canvas, provided that, where a
    double-width character was torn apart, no position of its right half gets back what
    was shown there before the character ([mends]).
    The cursor is at the pen (or the last position) unless that is a right half. *)
Theorem C101_refresh_displays_the_canvas_partial : forall E, env_ok E -> forall C K, env_chars E -> caps_coherent C ->
  implements E C K -> forall s t k last, wpainted E C K s t k last ->
  screen_get_size (sb s) = wsize k /\ screen_get_cursor (sb s) = wpen k /\
  forall s' x, (forall h, last = Some h -> mends h k) ->
    refresh E C s = Ret s' tt -> stream (wr s') = stream (wr s) ++ x ->
    obuf (wr s') = [] /\
    exists v, look K (feed K t x) = Some v /\ wdisplays C v k /\
      (wink k (line (wpen_goal k)) (column (wpen_goal k)) <> Right -> vcur v = wpen_goal k).
Proof. exact wpainting_shows. Qed.
Print Assumptions C101_refresh_displays_the_canvas_partial.

(** On 2 lines of 6 columns.  Two double-width characters, then a narrow one that covers
    the right half of the first and a double-width one that covers the left half of the
    second: each loses its other half. *)
Example C101_example_halves :
  let E := demo_env 1000 in
  let ms := [SSetFg (Some Red); SWriteStr [65345; 65346; 97]%N; SClearAttributes; SBold;
             SWriteAt (Pair 0 1) [98]%N; SWriteAt (Pair 0 2) [9]%N; SWriteAt (Pair 1 0) [65345; 9; 769]%N] in
  env_ok E /\ all_easy E ms (wblank (Size 2 6)) /\
  exists b b', sb_new E (Size 2 6) = Val b /\ screen_methods E ms b = Val b' /\
    let k := wdraws E ms (wblank (Size 2 6)) in
    glyph_is [32]%N no_attrs (wink k 0 0) && glyph_is [98]%N (Attrs None None BOLD) (wink k 0 1) &&
    glyph_is [32]%N (Attrs None None BOLD) (wink k 0 2) && glyph_is [65345]%N (Attrs None None BOLD) (wink k 1 0) &&
    is_right (wink k 1 1) && glyph_is [32; 769]%N (Attrs None None BOLD) (wink k 1 5) = true.
Proof.
  cbv zeta. split; [apply demo_env_ok|]. split; [apply all_easyb_ok; vm_compute; reflexivity|].
  eexists. eexists. split; [vm_compute; reflexivity|]. split; [vm_compute; reflexivity|]. vm_compute. reflexivity.
Qed.

(** Draw, refresh, draw other double-width characters over the same places and more,
    refresh; shrink the terminal by a column, draw and refresh; tear two double-width
    characters apart and refresh. *)
Example C101_example :
  let E := demo_env 1000 in
  env_ok E /\ env_chars E /\ caps_coherent ansi_cfg /\ implements E ansi_cfg (ansi_tty E) /\
  exists s t k last s' x v, wpainted E ansi_cfg (ansi_tty E) s t k last /\
    (forall h, last = Some h -> mends h k) /\
    refresh E ansi_cfg s = Ret s' tt /\ stream (wr s') = stream (wr s) ++ x /\
    look (ansi_tty E) (feed (ansi_tty E) t x) = Some v /\
    glyph_is [97; 769]%N (Attrs None None REVERSE) (wink k 0 3) && is_right (wink k 1 1) && is_right (wink k 1 3) &&
    vcell_is [32]%N no_attrs (nth_error (vcells v) 1) && vcell_is [98]%N (Attrs None None REVERSE) (nth_error (vcells v) 2) &&
    vcell_is [97; 769]%N (Attrs None None REVERSE) (nth_error (vcells v) 3) &&
    is_trail (nth_error (vcells v) 6) && vcell_is [65346]%N (Attrs None None REVERSE) (nth_error (vcells v) 7) &&
    is_trail (nth_error (vcells v) 8) && vcell_is [99]%N (Attrs None None REVERSE) (nth_error (vcells v) 9) &&
    cursor_eqb (vcur v) (Cursor 1 4) = true.
Proof.
  cbv zeta. split; [apply demo_env_ok|]. split; [apply demo_chars|]. split; [apply ansi_coherent|].
  split; [apply ansi_implements, demo_env_ok|].
  apply (wpainting_ok (demo_env 1000) (demo_env_ok 1000) (Size 2 6) (WAll :: WIntr :: alls 9)
    [WDo (SWriteAt (Pair 0 1) [65345]%N); WRefresh; WDo (SSetFg (Some Red)); WDo (SWriteAt (Pair 0 1) [65346; 98]%N);
     WRefresh; WResize (Size 2 5); WDo SClearAttributes; WDo SReverse; WDo (SWriteAt (Pair 0 3) [97; 769]%N); WRefresh;
     WDo (SWriteAt (Pair 1 0) [65345]%N); WDo (SWriteAt (Pair 1 3) [65345]%N); WRefresh;
     WDo (SWriteAt (Pair 0 2) [98]%N); WDo (SWriteAt (Pair 1 2) [65346; 99]%N)]
    (fun k v => 
    glyph_is [97; 769]%N (Attrs None None REVERSE) (wink k 0 3) && is_right (wink k 1 1) && is_right (wink k 1 3) &&
    vcell_is [32]%N no_attrs (nth_error (vcells v) 1) && vcell_is [98]%N (Attrs None None REVERSE) (nth_error (vcells v) 2) &&
    vcell_is [97; 769]%N (Attrs None None REVERSE) (nth_error (vcells v) 3) &&
    is_trail (nth_error (vcells v) 6) && vcell_is [65346]%N (Attrs None None REVERSE) (nth_error (vcells v) 7) &&
    is_trail (nth_error (vcells v) 8) && vcell_is [99]%N (Attrs None None REVERSE) (nth_error (vcells v) 9) &&
    cursor_eqb (vcur v) (Cursor 1 4))).
  - small.
  - repeat (apply Forall_cons; [constructor|]). apply Forall_forall. intros r [].
  - repeat (apply Forall_cons; [first [exact I|unfold act_size; small]|]). constructor.
  - vm_compute. reflexivity.
Qed.
