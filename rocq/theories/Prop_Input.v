(** Property theorems for decoding terminal input (C35-C39, C68, C69).  [peek_event buf m]
    is what the reader makes of the pending input [buf] with the key map [m];
    Prop_Reader.v states the same about [read_event]. *)
From Verif Require Import Base M_Utf8 S_Utf8 M_Geom M_Seq S_Seq M_Signal M_Util M_Input S_Input P_Input
  S_XTerm P_XTerm.
Local Open Scope N_scope.

(** A map as [Terminal::new] builds it for an xterm, for the examples:
    Up = ESC O A, Home = ESC O H, End = ESC O, Delete = ESC [ 3 ~. *)
Definition ex_caps : list (option bytes * key) :=
  [(Some [27; 79; 65], KUp); (None, KDown); (Some [27; 79; 72], KHome); (Some [27; 79], KEnd);
   (Some [27; 91; 51; 126], KDelete); (Some [200], KInsert)].
Definition ex_name : bytes := [120; 116; 101; 114; 109; 45; 50].   (* "xterm-2" *)
Definition ex_map : seq_map := match sequences ex_caps ex_name with Some m => m | None => sm_new end.

(** C69: [Terminal::new] builds a key map that has exactly the ASCII capabilities (of
    several with the same string, the last), and the mouse introducer for xterms;
    building it never panics. *)
Theorem C69_key_map :
  forall caps name, exists m, sequences caps name = Some m /\ key_map m /\
    forall q v, In (q, v) (sm_sequences m) <->
      (xterm_name name /\ q = XTERM_MOUSE_INTRO /\ v = XTermMouse) \/
      (~ (xterm_name name /\ q = XTERM_MOUSE_INTRO) /\ exists k, meaning caps q = Some k /\ v = SKey k).
Proof. exact key_map_of_entry. Qed.
Print Assumptions C69_key_map.

Example C69_example : sm_sequences ex_map =
  [([27; 79], SKey KEnd); ([27; 79; 65], SKey KUp); ([27; 79; 72], SKey KHome);
   ([27; 91; 51; 126], SKey KDelete); ([27; 91; 60], XTermMouse)].
Proof. vm_compute. reflexivity. Qed.
Example ex_xterms : xterm_name ex_name /\ ~ xterm_name [120; 116; 101; 114; 109; 115].
Proof.
  split; [right; now exists [50]|]. intros [H|[r H]]; discriminate H.
Qed.
Example ex_key_map : key_map ex_map.
Proof.
  destruct (sequences_map ex_caps ex_name) as (m & E & H & _). unfold ex_map. rewrite E. exact H.
Qed.

(** C35: an event takes at least one byte and no more than there are. *)
Theorem C35_event_bounds :
  forall m buf e n, key_map m -> peek_event buf m = Val (PEvent e n) -> (1 <= n <= length buf)%nat.
Proof. exact peek_bounds. Qed.
Print Assumptions C35_event_bounds.

(** C36: a character at the start that no registered sequence claims is its key. *)
Theorem C36_plain_character :
  forall m c rest, key_map m -> scalar c -> no_match m (utf8 c ++ rest) ->
    peek_event (utf8 c ++ rest) m = Val (PEvent (EKey (key_from_char c)) (length (utf8 c))).
Proof. exact peek_plain. Qed.
Print Assumptions C36_plain_character.

Example C36_example : peek_event ([195; 169] ++ [255]) ex_map = Val (PEvent (EKey (KChar 233)) 2).
Proof. vm_compute. reflexivity. Qed.

(** C37: the longest registered key sequence that the input starts with wins. *)
Theorem C37_longest_sequence :
  forall m buf q k, key_map m -> longest m buf q (SKey k) ->
    peek_event buf m = Val (PEvent (EKey k) (length q)).
Proof. exact peek_key. Qed.
Print Assumptions C37_longest_sequence.

Example C37_example :
  (peek_event [27; 79; 72; 120] ex_map, peek_event [27; 79; 120] ex_map, peek_event [27; 91; 51] ex_map) =
  (Val (PEvent (EKey KHome) 3), Val (PEvent (EKey KEnd) 2), Val (PEvent (EKey KEscape) 1)).
Proof. vm_compute. reflexivity. Qed.
Example C37_hypothesis : longest ex_map [27; 79; 72; 120] [27; 79; 72] (SKey KHome).
Proof.
  split.
  - split; [right; right; left; reflexivity|]. split; [discriminate|]. exists [120]. reflexivity.
  - intros q v (H & _ & (r & Hr)). vm_compute in H.
    repeat (destruct H as [H|H]; [injection H as <- <-; cbn [length]; try lia; discriminate Hr|]). destruct H.
Qed.

(** C38: what xterm sends for a press, release, wheel step or motion at any position,
    with any modifiers, is told as that. *)
Theorem C38_mouse_report :
  forall m d rest, key_map m -> longest m (report d ++ rest) XTERM_MOUSE_INTRO XTermMouse ->
    at_line d < U32_MAX -> at_column d < U32_MAX ->
    peek_event (report d ++ rest) m = Val (PEvent (EMouse (told d)) (length (report d))).
Proof. exact report_decodes. Qed.
Print Assumptions C38_mouse_report.

(** C38 for every code, bit by bit. *)
Theorem C38_every_code :
  forall m code x y f rest, key_map m ->
    longest m (sgr code x y f ++ rest) XTERM_MOUSE_INTRO XTermMouse ->
    code <= U32_MAX -> 1 <= x <= U32_MAX -> 1 <= y <= U32_MAX -> f = 77 \/ f = 109 ->
    peek_event (sgr code x y f ++ rest) m =
      Val (PEvent (EMouse (MouseEvent (Cursor (N.to_nat (y - 1)) (N.to_nat (x - 1)))
                             (code_input code (f =? 77)) (code_mods code))) (length (sgr code x y f))).
Proof. exact sgr_every_code. Qed.
Print Assumptions C38_every_code.

(** C38 fails for buttons 6 to 11 (tilting the wheel, back, forward ...): pressing and
    releasing them is told as motion. *)
Theorem C38_further_buttons_refuted :
  forall m n x y f rest, 6 <= n <= 11 -> key_map m ->
    longest m (sgr (further_button n) x y f ++ rest) XTERM_MOUSE_INTRO XTermMouse ->
    1 <= x <= U32_MAX -> 1 <= y <= U32_MAX -> f = 77 \/ f = 109 ->
    peek_event (sgr (further_button n) x y f ++ rest) m =
      Val (PEvent (EMouse (MouseEvent (Cursor (N.to_nat (y - 1)) (N.to_nat (x - 1))) MMotion 0))
                  (length (sgr (further_button n) x y f))).
Proof. exact further_motion. Qed.
Print Assumptions C38_further_buttons_refuted.

Definition ex_deed : deed := Deed (Release BMiddle) 4 11 true false true.
Example C38_example : report ex_deed = [27; 91; 60; 50; 49; 59; 49; 50; 59; 53; 109] /\
  peek_event (report ex_deed ++ [65]) ex_map =
    Val (PEvent (EMouse (MouseEvent (Cursor 4 11) (MReleased MMiddle) (SHIFT + CTRL))) 11).
Proof. vm_compute. split; reflexivity. Qed.
Example C38_hypothesis : longest ex_map (report ex_deed ++ [65]) XTERM_MOUSE_INTRO XTermMouse.
Proof.
  split.
  - split; [do 4 right; left; reflexivity|]. split; [discriminate|].
    exists [50; 49; 59; 49; 50; 59; 53; 109; 65]. reflexivity.
  - change (length XTERM_MOUSE_INTRO) with 3%nat. intros q v (H & _ & (r & Hr)). vm_compute in H.
    repeat (destruct H as [H|H]; [injection H as <- <-; cbn [length]; try lia; discriminate Hr|]). destruct H.
Qed.

(** C39 fails: a mouse report with a zero coordinate panics (in builds with overflow
    checks).  The theorem says exactly which inputs do: those, and no others. *)
Theorem C39_panics_refuted :
  forall m buf, key_map m ->
    (peek_event buf m = Boom <->
     exists q rest, longest m buf q XTermMouse /\ buf = q ++ rest /\ zero_report rest).
Proof. exact peek_boom. Qed.
Print Assumptions C39_panics_refuted.

Example C39_witness : peek_event [27; 91; 60; 48; 59; 48; 59; 53; 77] ex_map = Boom.
Proof. vm_compute. reflexivity. Qed.

(** C68 fails: a mouse report of which only a part has been read is told as the Escape
    key and not kept (the rest of it then as ordinary characters). *)
Theorem C68_split_report_refuted :
  forall m d p s, key_map m -> report d = p ++ s -> p <> [] -> s <> [] ->
    at_line d < U32_MAX -> at_column d < U32_MAX ->
    (forall q v, matches m p q v -> q = XTERM_MOUSE_INTRO /\ v = XTermMouse) ->
    peek_event p m = Val (PEvent (EKey KEscape) 1).
Proof. exact split_report. Qed.
Print Assumptions C68_split_report_refuted.

(** Likewise a key sequence [q] of which only the part [utf8 c ++ r] has been read. *)
Theorem C68_split_key_refuted :
  forall m c r q, key_map m -> scalar c -> no_match m (utf8 c ++ r) -> is_prefix (utf8 c ++ r) q ->
    peek_event (utf8 c ++ r) m = Val (PEvent (EKey (key_from_char c)) (length (utf8 c))).
Proof. exact split_key. Qed.
Print Assumptions C68_split_key_refuted.

Example C68_example :
  peek_event (firstn 6 (report ex_deed)) ex_map = Val (PEvent (EKey KEscape) 1) /\
  peek_event [27; 91; 51] ex_map = Val (PEvent (EKey KEscape) 1).
Proof. vm_compute. split; reflexivity. Qed.
