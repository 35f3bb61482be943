(** Property theorems for drawing the screen (C23-C27, C67). *)
From Verif Require Import Base M_Utf8 S_Utf8 M_Geom S_Geom M_Attr M_Buf S_Buf M_Writer S_Tty S_Writer
  M_Screen S_Screen P_Buf P_Buf2 P_Buf3 P_Buf4 P_Writer P_Attr P_Writer2 P_Writer3 P_Screen P_Screen2 P_Screen3 P_Screen4
  S_Emu P_Emu P_Screen5.

(** C23: after any history of single-width buffer operations, cursor modes, refreshes,
    failed flushes and resizes, a refresh that succeeds makes the terminal show every cell of
    the buffer: its text, and its attributes as far as the terminal can show them.  [x]
    is what this refresh adds to the output, [t] the terminal before it; nothing is
    left in the output buffer, and the buffer is unchanged. *)
Theorem C23_refresh_shows_the_buffer :
  forall E C K, env_ok E -> env_chars E -> caps_coherent C -> implements E C K ->
  forall s t s' u x, history E C K (single_width E) anyhow s t ->
    refresh E C s = Ret s' u -> stream (wr s') = stream (wr s) ++ x ->
    obuf (wr s') = [] /\ buffer (sb s') = buffer (sb s) /\ bsize (sb s') = bsize (sb s) /\ bcur (sb s') = bcur (sb s) /\
    exists v, look K (feed K t x) = Some v /\ vsize v = bsize (sb s) /\ vattrs v = no_attrs /\
      vcur v = cursor_goal (sb s) /\
      forall i c, cell_at (sb s) i = Some c -> nth_error (vcells v) i = Some (VC (ctext c) (shown_attrs C (cattrs c))).
Proof. exact narrow_refresh. Qed.
Print Assumptions C23_refresh_shows_the_buffer.

(** On a terminal with all attribute capabilities it shows exactly the cells. *)
Theorem C23_refresh_shows_exactly :
  forall E C K, env_ok E -> env_chars E -> caps_coherent C -> implements E C K ->
  forall s t s' u x, history E C K (single_width E) anyhow s t ->
    all_attr_caps C -> Forall (fun c => style_ok (sty (cattrs c))) (buffer (sb s)) ->
    refresh E C s = Ret s' u -> stream (wr s') = stream (wr s) ++ x ->
    exists v, look K (feed K t x) = Some v /\
      forall i c, cell_at (sb s) i = Some c -> nth_error (vcells v) i = Some (VC (ctext c) (cattrs c)).
Proof. exact narrow_exact. Qed.
Print Assumptions C23_refresh_shows_exactly.

Example C23_example :
  let E := demo_env 1000 in
  env_ok E /\ env_chars E /\ caps_coherent ansi_cfg /\ implements E ansi_cfg (ansi_tty E) /\ all_attr_caps ansi_cfg /\
  exists s t s' x v, history E ansi_cfg (ansi_tty E) (single_width E) anyhow s t /\
    refresh E ansi_cfg s = Ret s' tt /\ stream (wr s') = stream (wr s) ++ x /\
    look (ansi_tty E) (feed (ansi_tty E) t x) = Some v /\
    bytes_eqb (ctext (nth 5 (buffer (sb s)) blank)) [97; 769]%N && cursor_eqb (vcur v) (Cursor 2 1) &&
    match nth_error (vcells v) 5 with
    | Some (VC txt a) => bytes_eqb txt [97; 769]%N && attrs_eqb a (Attrs (Some Red) None 4%N)
    | _ => false
    end = true.
Proof.
  cbv zeta. split; [apply demo_env_ok|]. split; [apply demo_chars|]. split; [apply ansi_coherent|].
  split; [apply ansi_implements, demo_env_ok|]. split; [apply ansi_all_caps|].
  apply (outcome_ok (demo_env 1000) _ (Size 3 4) (WAll :: WIntr :: alls 9)
    [ABuf (BWriteAt (Cursor 0 1) [98; 99; 100]%N); ARefresh; ABuf (BSetFg (Some Red)); ARefresh;
     ABuf (BWriteStyledAt (Cursor 1 0) (Attrs (Some Red) None 4%N) [120; 97; 769]%N);
     ABuf (BSetCursor (Cursor 2 1))]
    (fun s v => bytes_eqb (ctext (nth 5 (buffer (sb s)) blank)) [97; 769]%N && cursor_eqb (vcur v) (Cursor 2 1) &&
    match nth_error (vcells v) 5 with
    | Some (VC txt a) => bytes_eqb txt [97; 769]%N && attrs_eqb a (Attrs (Some Red) None 4%N)
    | _ => false
    end)).
  - apply demo_env_ok.
  - small.
  - repeat (apply Forall_cons; [constructor|]). apply Forall_forall. intros r [].
  - repeat (apply Forall_cons; [try exact I; unfold single_width, no_wide; cbn [op_text];
      repeat (apply Forall_cons; [intros (_ & H); discriminate|]); constructor|]). constructor.
  - vm_compute. reflexivity.
Qed.

(** C24, with double-width characters, which may be covered and torn apart: proved for
    histories in which no position of the right half of a torn character gets back the cell
    that was drawn there before the character.  The full statement, with [anyhow] for
    [wides_mend E], is refuted below. *)
Theorem C24_wide_refresh_partial :
  forall E C K, env_ok E -> env_chars E -> caps_coherent C -> implements E C K ->
  forall s t s' u x, history E C K any_text (wides_mend E) s t ->
    (forall v, look K t = Some v -> wides_mend E s v) ->
    refresh E C s = Ret s' u -> stream (wr s') = stream (wr s) ++ x ->
    obuf (wr s') = [] /\ buffer (sb s') = buffer (sb s) /\ bsize (sb s') = bsize (sb s) /\ bcur (sb s') = bcur (sb s) /\
    exists v, look K (feed K t x) = Some v /\ shows E C v (sb s) /\ vattrs v = no_attrs /\
      (half E (sb s) (cell_no (bsize (sb s)) (cursor_goal (sb s))) = false -> vcur v = cursor_goal (sb s)).
Proof. exact wide_refresh. Qed.
Print Assumptions C24_wide_refresh_partial.

(** Two characters are drawn, then torn apart: one by another one that starts a column
    before, one by a narrow one on its right half. *)
Example C24_example :
  let E := demo_env 1000 in
  exists s t s' x v, history E ansi_cfg (ansi_tty E) any_text (wides_mend E) s t /\
    (forall v, look (ansi_tty E) t = Some v -> wides_mend E s v) /\
    refresh E ansi_cfg s = Ret s' tt /\ stream (wr s') = stream (wr s) ++ x /\
    look (ansi_tty E) (feed (ansi_tty E) t x) = Some v /\
    is_trail (nth_error (vcells v) 1) && negb (is_trail (nth_error (vcells v) 2)) &&
      negb (is_trail (nth_error (vcells v) 5)) = true.
Proof.
  cbv zeta. apply (stay_outcome_ok (demo_env 1000) (Size 2 4) (alls 9)
    [ABuf (BWriteAt (Cursor 0 0) [120; 0xFF21; 121]%N); ARefresh;
     ABuf (BWriteAt (Cursor 0 1) [0xFF22]%N); ABuf (BWriteAt (Cursor 1 0) [0xFF22; 122]%N); ARefresh;
     ABuf (BWriteAt (Cursor 0 0) [0xFF23; 122]%N); ABuf (BWriteAt (Cursor 1 1) [121]%N)]
    (fun s v => is_trail (nth_error (vcells v) 1) && negb (is_trail (nth_error (vcells v) 2)) &&
      negb (is_trail (nth_error (vcells v) 5)))).
  - apply demo_env_ok.
  - small.
  - apply alls_whole.
  - vm_compute. reflexivity.
Qed.

(** The full statement is false: writing narrow text over a double-width character
    whose right half had been drawn as the same narrow text before leaves that text off the
    terminal. *)
Theorem C24_wide_refresh_refuted : exists s t s' x v,
  history (demo_env 1000) ansi_cfg (ansi_tty (demo_env 1000)) any_text anyhow s t /\
  refresh (demo_env 1000) ansi_cfg s = Ret s' tt /\ stream (wr s') = stream (wr s) ++ x /\
  look (ansi_tty (demo_env 1000)) (feed (ansi_tty (demo_env 1000)) t x) = Some v /\
  ~ shows (demo_env 1000) ansi_cfg v (sb s).
Proof. exact torn. Qed.
Print Assumptions C24_wide_refresh_refuted.

(** C25 for single-width text. *)
Theorem C25_refresh_places_the_cursor :
  forall E C K, env_ok E -> env_chars E -> caps_coherent C -> implements E C K ->
  forall s t s' u x, history E C K (single_width E) anyhow s t ->
    refresh E C s = Ret s' u -> stream (wr s') = stream (wr s) ++ x ->
    exists v, look K (feed K t x) = Some v /\ vcur v = cursor_goal (sb s).
Proof.
  exact (fun E C K HE HC Hco HK s t s' u x H Hr Hx =>
    match narrow_refresh E C K HE HC Hco HK s t s' u x H Hr Hx with
    | conj _ (conj _ (conj _ (conj _ (ex_intro _ v (conj a (conj _ (conj _ (conj b _)))))))) =>
        ex_intro _ v (conj a b)
    end).
Qed.
Print Assumptions C25_refresh_places_the_cursor.

(** The cursor is put off the screen and shown at the last position. *)
Example C25_example :
  let E := demo_env 1000 in
  exists s t s' x v, history E ansi_cfg (ansi_tty E) (single_width E) anyhow s t /\
    refresh E ansi_cfg s = Ret s' tt /\ stream (wr s') = stream (wr s) ++ x /\
    look (ansi_tty E) (feed (ansi_tty E) t x) = Some v /\
    cursor_eqb (bcur (sb s)) (Cursor 7 1) && cursor_eqb (vcur v) (Cursor 2 3) = true.
Proof.
  apply (outcome_ok (demo_env 1000) _ (Size 3 4) (alls 9)
    [ABuf (BWriteAt (Cursor 0 1) [98; 99; 100]%N); ARefresh; ABuf (BWriteAt (Cursor 1 3) [121]%N); ABuf (BSetCursor (Cursor 7 1))]
    (fun s v => cursor_eqb (bcur (sb s)) (Cursor 7 1) && cursor_eqb (vcur v) (Cursor 2 3))).
  - apply demo_env_ok.
  - small.
  - apply alls_whole.
  - repeat (apply Forall_cons; [try exact I; unfold single_width, no_wide; cbn [op_text];
      repeat (apply Forall_cons; [intros (_ & H); discriminate|]); constructor|]). constructor.
  - vm_compute. reflexivity.
Qed.

(** With double-width text, unless the cursor is asked for on the right half of one. *)
Theorem C25_wide_refresh_places_the_cursor_partial :
  forall E C K, env_ok E -> env_chars E -> caps_coherent C -> implements E C K ->
  forall s t s' u x, history E C K any_text (wides_mend E) s t ->
    (forall v, look K t = Some v -> wides_mend E s v) ->
    refresh E C s = Ret s' u -> stream (wr s') = stream (wr s) ++ x ->
    half E (sb s) (cell_no (bsize (sb s)) (cursor_goal (sb s))) = false ->
    exists v, look K (feed K t x) = Some v /\ vcur v = cursor_goal (sb s).
Proof.
  exact (fun E C K HE HC Hco HK s t s' u x H Hw Hr Hx Hh =>
    match wide_refresh E C K HE HC Hco HK s t s' u x H Hw Hr Hx with
    | conj _ (conj _ (conj _ (conj _ (ex_intro _ v (conj a (conj _ (conj _ b))))))) =>
        ex_intro _ v (conj a (b Hh))
    end).
Qed.
Print Assumptions C25_wide_refresh_places_the_cursor_partial.

Example C25_wide_example :
  let E := demo_env 1000 in
  exists s t s' x v, history E ansi_cfg (ansi_tty E) any_text (wides_mend E) s t /\
    (forall v, look (ansi_tty E) t = Some v -> wides_mend E s v) /\
    refresh E ansi_cfg s = Ret s' tt /\ stream (wr s') = stream (wr s) ++ x /\
    look (ansi_tty E) (feed (ansi_tty E) t x) = Some v /\
    negb (half E (sb s) (cell_no (bsize (sb s)) (cursor_goal (sb s)))) && is_trail (nth_error (vcells v) 1) && cursor_eqb (vcur v) (Cursor 0 2) = true.
Proof.
  cbv zeta. apply (stay_outcome_ok (demo_env 1000) (Size 2 4) (alls 9)
    [ABuf (BWriteAt (Cursor 0 0) [0xFF21; 121]%N); ARefresh; ABuf (BWriteAt (Cursor 1 0) [0xFF23]%N); ABuf (BSetCursor (Cursor 0 2))]
    (fun s v => negb (half (demo_env 1000) (sb s) (cell_no (bsize (sb s)) (cursor_goal (sb s)))) && is_trail (nth_error (vcells v) 1) &&
       cursor_eqb (vcur v) (Cursor 0 2))).
  - apply demo_env_ok.
  - small.
  - apply alls_whole.
  - vm_compute. reflexivity.
Qed.

(** On a right half it is false: the program asks for column 1 and gets column 2. *)
Theorem C25_cursor_on_a_right_half_refuted : exists s t s' x v,
  history (demo_env 1000) ansi_cfg (ansi_tty (demo_env 1000)) any_text anyhow s t /\
  refresh (demo_env 1000) ansi_cfg s = Ret s' tt /\ stream (wr s') = stream (wr s) ++ x /\
  look (ansi_tty (demo_env 1000)) (feed (ansi_tty (demo_env 1000)) t x) = Some v /\
  bcur (sb s) = Cursor 0 1 /\ vcur v = Cursor 0 2.
Proof. exact half_cursor. Qed.
Print Assumptions C25_cursor_on_a_right_half_refuted.

(** C26: a refresh after a successful refresh changes nothing, neither the screen nor
    what was sent nor what the OS has been asked to do (these are all part of [s']). *)
Theorem C26_second_refresh_is_silent :
  forall E C s s' u, refresh E C s = Ret s' u -> refresh E C s' = Ret s' tt.
Proof. exact refresh_twice. Qed.
Print Assumptions C26_second_refresh_is_silent.

(** So the refresh done again when the guard is dropped has no effect. *)
Theorem C26_drop_after_refresh_is_silent :
  forall E C s s' u, refresh E C s = Ret s' u ->
    screen_refresh E C s = Ret s' tt /\ s_guard_drop E C s = Ret s' tt /\ s_guard_drop E C s' = Ret s' tt.
Proof.
  exact (fun E C s s' u H => conj (proj1 (refresh_and_drop E C s s' u H))
    (conj (proj2 (refresh_and_drop E C s s' u H))
          (proj2 (refresh_and_drop E C s' s' tt (refresh_twice E C s s' u H))))).
Qed.
Print Assumptions C26_drop_after_refresh_is_silent.

(** The text sent is that of the changed cells, each once and in order; everything
    else is expansions of the terminal's capabilities. *)
Theorem C26_only_changed_cells_are_sent :
  forall E C, env_chars E ->
  forall s s' u, buf_ok E (sb s) -> screen_size (bsize (sb s)) -> whole_writes (script (wr s)) ->
    wides_fit E (sb s) -> refresh E C s = Ret s' u ->
    exists x, stream (wr s') = stream (wr s) ++ x /\ drawing C (map (text_at (sb s)) (changed E (sb s))) x.
Proof. exact minimal_output. Qed.
Print Assumptions C26_only_changed_cells_are_sent.

(** In particular for the histories of C23. *)
Theorem C26_only_changed_cells_are_sent_in_histories :
  forall E C K, env_ok E -> env_chars E -> caps_coherent C -> implements E C K ->
  forall s t s' u, history E C K (single_width E) anyhow s t -> refresh E C s = Ret s' u ->
    exists x, stream (wr s') = stream (wr s) ++ x /\ drawing C (map (text_at (sb s)) (changed E (sb s))) x.
Proof. exact minimal_history. Qed.
Print Assumptions C26_only_changed_cells_are_sent_in_histories.

Example C26_example :
  let E := demo_env 1000 in
  exists s t s' x v, history E ansi_cfg (ansi_tty E) (single_width E) anyhow s t /\
    refresh E ansi_cfg s = Ret s' tt /\ stream (wr s') = stream (wr s) ++ x /\
    look (ansi_tty E) (feed (ansi_tty E) t x) = Some v /\
    bytes_eqb (concat (map (text_at (sb s)) (changed E (sb s)))) [121; 122]%N && wides_fitb E (sb s) = true.
Proof.
  apply (outcome_ok (demo_env 1000) _ (Size 3 4) (alls 9)
    [ABuf (BWriteAt (Cursor 0 1) [98; 99; 100]%N); ARefresh;
     ABuf (BWriteAt (Cursor 0 0) [121; 98; 99; 100; 122]%N)]
    (fun s v => bytes_eqb (concat (map (text_at (sb s)) (changed (demo_env 1000) (sb s)))) [121; 122]%N && wides_fitb (demo_env 1000) (sb s))).
  - apply demo_env_ok.
  - small.
  - apply alls_whole.
  - repeat (apply Forall_cons; [try exact I; unfold single_width, no_wide; cbn [op_text];
      repeat (apply Forall_cons; [intros (_ & H); discriminate|]); constructor|]). constructor.
  - vm_compute. reflexivity.
Qed.

(** C27, for refreshes that fail in their final flush (the output buffer is large
    enough for the drawing): any later successful refresh, after any single-width buffer
    operations in between, makes the terminal show the buffer.  Missing: failures while
    drawing, for which it is refuted below. *)
Theorem C27_failed_flush_is_repaired_partial :
  forall E C K, env_ok E -> env_chars E -> caps_coherent C -> implements E C K ->
  forall s t s1 s2 e, history E C K (single_width E) anyhow s t ->
    compose E C s = Ret s1 tt -> on_writer flush s1 = Fail s2 e ->
    refresh E C s = Fail s2 e /\
    forall ops b s3 u x, Forall (single_width E) ops -> Forall (fun o => forall sz, o <> BResize sz) ops ->
      run_buf_ops E (sb s2) ops = Val b ->
      refresh E C (with_sb b s2) = Ret s3 u -> stream (wr s3) = stream (wr s) ++ x ->
      obuf (wr s3) = [] /\
      exists v, look K (feed K t x) = Some v /\ vsize v = bsize b /\
        forall i c, cell_at b i = Some c -> nth_error (vcells v) i = Some (VC (ctext c) (shown_attrs C (cattrs c))).
Proof. exact retry. Qed.
Print Assumptions C27_failed_flush_is_repaired_partial.

Example C27_example :
  let E := demo_env 1000 in
  match run_acts E (Size 1 3) (WAll :: WErr 5%N :: alls 9) [ABuf (BWriteAt (Cursor 0 0) [120; 121]%N)] with
  | Some (s, t) =>
      match compose E ansi_cfg s with
      | Ret s1 _ =>
          match on_writer flush s1 with
          | Fail s2 e =>
              match run_buf_ops E (sb s2) [BWriteAt (Cursor 0 1) [122]%N] with
              | Val b => match refresh E ansi_cfg (with_sb b s2) with
                         | Ret s3 _ => match grown s s3 with Some _ => true | None => false end
                         | _ => false
                         end
              | Boom => false
              end
          | _ => false
          end
      | _ => false
      end
  | None => false
  end = true.
Proof. vm_compute. reflexivity. Qed.

(** The full statement is false: when the write fails while a cell is drawn, that cell
    counts as drawn and is never sent. *)
Theorem C27_failed_refresh_is_repaired_refuted : exists s t s1 e s2 x v,
  history (demo_env 1000) ansi_cfg (ansi_tty (demo_env 1000)) (single_width (demo_env 1000)) anyhow s t /\
  refresh (demo_env 1000) ansi_cfg s = Fail s1 e /\
  refresh (demo_env 1000) ansi_cfg s1 = Ret s2 tt /\ stream (wr s2) = stream (wr s) ++ x /\
  look (ansi_tty (demo_env 1000)) (feed (ansi_tty (demo_env 1000)) t x) = Some v /\
  ~ shows (demo_env 1000) ansi_cfg v (sb s).
Proof. exact lost. Qed.
Print Assumptions C27_failed_refresh_is_repaired_refuted.

(** C67: refreshing never panics on a screen with a cell. *)
Theorem C67_refresh_never_panics :
  forall E C s, buf_ok E (sb s) -> 0 < lines (bsize (sb s)) -> 0 < columns (bsize (sb s)) ->
    whole_writes (script (wr s)) -> refresh E C s <> Panic.
Proof. exact refresh_total. Qed.
Print Assumptions C67_refresh_never_panics.

Example C67_example : exists b, sb_new (demo_env 1000) (Size 2 4) = Val b /\
  buf_ok (demo_env 1000) b /\ 0 < lines (bsize b) /\ 0 < columns (bsize b).
Proof.
  destruct (new_ok 1 (le_n 1) (demo_env 1000) (Size 2 4)) as (b & A & B & D & _);
    [apply demo_env_ok|apply Nat.leb_le; reflexivity|].
  exists b. rewrite D. cbn. auto with arith.
Qed.

(** Without cells it does. *)
Theorem C67_empty_screen_panics :
  forall E C s, clr s = false -> wat (wr s) = no_attrs -> total (bsize (sb s)) = 0 -> refresh E C s = Panic.
Proof. exact no_cells. Qed.
Print Assumptions C67_empty_screen_panics.
