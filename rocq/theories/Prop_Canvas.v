(** Property theorems for drawing on a screen (C96). *)
From Verif Require Import Base M_Utf8 S_Utf8 M_Geom S_Geom M_Attr S_Buf M_Writer S_Tty S_Writer
  M_Screen S_Screen P_Buf3 S_Emu P_Emu P_Screen5 M_Api M_ScreenApi M_Buf S_Canvas P_Canvas P_Canvas2.

(** C96: whatever methods a program calls on a new screen with single-width text, the
    screen's size, cursor, attributes and cells are those of the canvas drawn by the same
    methods. *)
Theorem C96_methods_draw_the_canvas : forall E, env_ok E -> forall sz b ms b',
  1 <= columns sz -> no_wide E (concat (map method_text ms)) ->
  sb_new E sz = Val b -> screen_methods E ms b = Val b' ->
  holds b' (draws E ms (blank_canvas sz)).
Proof. exact drawing_is_held. Qed.
Print Assumptions C96_methods_draw_the_canvas.

(** In any history of such calls, refreshes and resizes, [size] and [cursor] tell what the
    canvas says, and a refresh makes the terminal show the canvas, with the cursor at the
    pen (or the last position, if the pen is off the canvas). *)
Theorem C96_refresh_displays_the_canvas : forall E, env_ok E -> forall C K, env_chars E -> caps_coherent C ->
  implements E C K -> forall s t k, painted E C K s t k ->
  screen_get_size (sb s) = ksize k /\ screen_get_cursor (sb s) = pen k /\
  forall s' x, refresh E C s = Ret s' tt -> stream (wr s') = stream (wr s) ++ x ->
    obuf (wr s') = [] /\
    exists v, look K (feed K t x) = Some v /\ displays C v k /\ vcur v = pen_goal k.
Proof. exact painting_shows. Qed.
Print Assumptions C96_refresh_displays_the_canvas.

(** On 3 lines of 10 columns: "ab" and a mark at (0, 8) in red, which wraps; a bold tab and
    "z"; then underlined text that replaces part of it, and the cursor is put on line 2. *)
Example C96_example :
  let E := demo_env 1000 in
  env_ok E /\ env_chars E /\ caps_coherent ansi_cfg /\ implements E ansi_cfg (ansi_tty E) /\
  (exists b b', sb_new E (Size 3 10) = Val b /\ screen_methods E [SWriteStr [97; 9; 98]%N; SBold] b = Val b' /\
     no_wide E [97; 9; 98]%N /\ bcur b' = Cursor 0 9) /\
  exists s t k s' x v, painted E ansi_cfg (ansi_tty E) s t k /\
    refresh E ansi_cfg s = Ret s' tt /\ stream (wr s') = stream (wr s) ++ x /\
    look (ansi_tty E) (feed (ansi_tty E) t x) = Some v /\
    bytes_eqb (fst (ink k 0 9)) [98; 769]%N && bytes_eqb (fst (ink k 1 8)) [122]%N &&
    attrs_eqb (snd (ink k 1 7)) (Attrs None None BOLD) && attrs_eqb (snd (ink k 1 8)) (Attrs None (Some Blue) 4%N) &&
    cursor_eqb (pen k) (Cursor 2 1) && cursor_eqb (vcur v) (Cursor 2 1) &&
    match nth_error (vcells v) 9 with
    | Some (VC txt a) => bytes_eqb txt [98; 769]%N && attrs_eqb a (Attrs (Some Red) None 0%N)
    | _ => false
    end = true.
Proof.
  cbv zeta. split; [apply demo_env_ok|]. split; [apply demo_chars|]. split; [apply ansi_coherent|].
  split; [apply ansi_implements, demo_env_ok|]. split.
  { eexists. eexists. split; [vm_compute; reflexivity|]. split; [vm_compute; reflexivity|].
    split; [|reflexivity]. repeat (apply Forall_cons; [intros (_ & H); discriminate|]). constructor. }
  apply (painting_ok (demo_env 1000) (demo_env_ok 1000) (Size 3 10) (WAll :: WIntr :: alls 9)
    [PDo (SSetFg (Some Red)); PDo (SWriteAt (Pair 0 8) [97; 98; 769]%N); PRefresh;
     PDo SClearAttributes; PDo SBold; PDo (SWriteFmt [[9]%N; [122]%N]); PRefresh;
     PDo (SWriteStyledAt (At (Cursor 1 8)) None (Some Blue) (Some 4%N) [122]%N); PDo (SNextLine 1)]
    (fun k v => 
    bytes_eqb (fst (ink k 0 9)) [98; 769]%N && bytes_eqb (fst (ink k 1 8)) [122]%N &&
    attrs_eqb (snd (ink k 1 7)) (Attrs None None BOLD) && attrs_eqb (snd (ink k 1 8)) (Attrs None (Some Blue) 4%N) &&
    cursor_eqb (pen k) (Cursor 2 1) && cursor_eqb (vcur v) (Cursor 2 1) &&
    match nth_error (vcells v) 9 with
    | Some (VC txt a) => bytes_eqb txt [98; 769]%N && attrs_eqb a (Attrs (Some Red) None 0%N)
    | _ => false
    end)).
  - small.
  - repeat (apply Forall_cons; [constructor|]). apply Forall_forall. intros r [].
  - repeat (apply Forall_cons; [try exact I; unfold narrow_act, no_wide; cbn [method_text concat app];
      repeat (apply Forall_cons; [intros (_ & H); discriminate|]); constructor|]). constructor.
  - vm_compute. reflexivity.
Qed.
