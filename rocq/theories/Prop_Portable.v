(** C134: the same keys give the same events on Unix and on Windows. *)
From Verif Require Import Base M_Utf8 S_Utf8 M_Geom M_Seq S_Seq M_Signal M_Util M_Input S_Input M_Writer M_Prepare M_Reader S_Reader
  M_WinWriter M_WinReader S_WinReader.
From Verif Require S_Buf S_Emu S_Typing Prop_Typing Prop_Prepare Prop_WinReader.
From Verif Require Import S_Portable P_Portable.
Local Open Scope N_scope.

(** C134: on Windows, a program that calls [read_event] again and again gets exactly the
    keys pressed, in order, and uses up the records. *)
Theorem C134_windows_typed_is_read :
  forall E l s, wcalm s -> win_types l (records s) ->
  exists s' ans, run_wr E (repeat (REvent None) (length (records s))) s = Some (s', ans) /\
    flat_map key_told ans = map meant l /\ records s' = [] /\ wcalm s'.
Proof. exact (fun E l s Hc Ht => windows_typed E l (records s) Ht s Hc eq_refl). Qed.
Print Assumptions C134_windows_typed_is_read.

(** C134: so programs on a Unix terminal and on a Windows console where the same keys are
    pressed get the same events, those that the keys mean. *)
Theorem C134_same_events :
  forall C m, key_map m -> (forall c n, (n <= grow C c n)%nat) ->
  forall E l s acts w,
    Forall portable l ->
    calm s -> inbuf s = [] -> S_Typing.arriving m [] (portions s) acts -> Forall2 unix_press l acts ->
    wcalm w -> win_types l (records w) ->
    exists n s' es n' w' ans,
      rrun C m (repeat (RRead None) n) s = Some (s', map YEvent es) /\ S_Reader.stream s' = [] /\
      run_wr E (repeat (REvent None) n') w = Some (w', ans) /\ records w' = [] /\
      S_Typing.somes es = map meant l /\ flat_map key_told ans = map meant l.
Proof. exact same_events. Qed.
Print Assumptions C134_same_events.

(** Ctrl with I, J or M is no such key: on Unix it is Tab or Enter, on Windows it is itself. *)
Theorem C134_shared_characters_refuted :
  forall l a r, shares_a_character l -> unix_press (WithCtrl l) a -> win_press (WithCtrl l) r ->
  exists k, S_Typing.heard a = EKey k /\ key_press_event r = Some (KCtrl l) /\ k = (if l =? 105 then KTab else KEnter).
Proof. exact shared_differ. Qed.
Print Assumptions C134_shared_characters_refuted.

(** U+00E9, Ctrl+X, Up and Escape; on Windows with Shift and Ctrl going down, keys going up,
    the mouse and time passing in between. *)
Definition ex_presses : list press := [Letter 233; WithCtrl 120; Named KUp; Named KEscape].
Definition ex_unix_acts : list S_Typing.act :=
  [S_Typing.Typed 233; S_Typing.Typed 24; S_Typing.Struck [27; 79; 65] KUp; S_Typing.Typed 27].
Definition ex_unix : sys := Prop_Prepare.ex_sys [TInput [195]; TStep; TIntr; TInput [169; 24; 27; 79; 65; 27]; TTime; TStep].
Definition ex_win : wsys :=
  Prop_WinReader.demo_wsys
    [WRec (KeyRec true 0xDE 0 233); WStep; WRec (KeyRec false 0xDE 0 233); WRec (KeyRec true 0x11 8 0); WTime;
     WRec (KeyRec true 0x58 8 24); WRec (KeyRec true 0x26 0x100 0); WStep; WRec (KeyRec true 0x1B 0 27)].

Example C134_example_press : Forall portable ex_presses /\ Forall2 unix_press ex_presses ex_unix_acts.
Proof.
  split.
  - repeat (apply Forall_cons); [exact I| |exact I|exact I|apply Forall_nil]. cbn. unfold shares_a_character. lia.
  - repeat (apply Forall2_cons; [constructor; lia|]). apply Forall2_nil.
Qed.
Example C134_example_unix :
  key_map Prop_Typing.ex_clear /\ calm ex_unix /\ inbuf ex_unix = [] /\
  S_Typing.arriving Prop_Typing.ex_clear [] (portions ex_unix) ex_unix_acts.
Proof.
  split; [exact Prop_Typing.ex_clear_map|]. split; [split; [reflexivity|]; split; [reflexivity|]; repeat constructor|]. split; [reflexivity|].
  change ex_unix_acts with ([] ++ (([S_Typing.Typed 233; S_Typing.Typed 24; S_Typing.Struck [27; 79; 65] KUp] ++ [S_Typing.Typed 27]) ++ [])).
  change (portions ex_unix) with ([195] :: [[169; 24; 27; 79; 65; 27]]).
  apply S_Typing.Ar_portion with (held' := [195]); [discriminate|cbn; lia|reflexivity|exact I| |].
  { right. split; [discriminate|]. exists 233, [169]. split; [reflexivity|]. split; [discriminate|reflexivity]. }
  apply S_Typing.Ar_portion with (held' := []); [discriminate|vm_compute; lia|reflexivity| |now left|apply S_Typing.Ar_end].
  apply (Prop_Typing.C98_escape_at_the_end Prop_Typing.ex_clear Prop_Typing.ex_clear_map).
  - exact (proj1 Prop_Typing.C98_example).
  - intros v H. rewrite Prop_Typing.ex_clear_seqs in H. cbn [In] in H.
    repeat match type of H with _ \/ _ => destruct H as [H|H] end; try contradiction; discriminate H.
  - assert (Hb : forall c, c = 233 \/ c = 24 -> S_Typing.begins_nothing Prop_Typing.ex_clear c).
    { intros c Hc q v H (r & Hr). rewrite Prop_Typing.ex_clear_seqs in H. cbn [In] in H.
      repeat match type of H with _ \/ _ => destruct H as [H|H] end; try contradiction; injection H as <- <-;
        destruct Hc as [-> | ->]; discriminate Hr. }
    repeat (apply Forall_cons); [..|apply Forall_nil]; cbn [S_Typing.ordinary]; rewrite ?Prop_Typing.ex_clear_seqs.
    + split; [reflexivity|apply Hb; now left].
    + split; [reflexivity|apply Hb; now right].
    + split; [now left|discriminate].
Qed.
Example C134_example_windows : wcalm ex_win /\ win_types ex_presses (records ex_win).
Proof.
  split; [split; [reflexivity|split; [reflexivity|repeat constructor]]|].
  assert (Ho : other_vk 0xDE /\ other_vk 0x11 /\ other_vk 0x58)
    by (repeat split; intros H; vm_compute in H; repeat (destruct H as [H|H]; [discriminate H|]); exact H).
  destruct Ho as (O1 & O2 & O3).
  apply WT_press; [apply WP_letter; try reflexivity; try assumption; try lia; discriminate|].
  apply WT_beside; [left; reflexivity|]. apply WT_beside; [right; split; [assumption|reflexivity]|].
  apply WT_press; [apply (WP_ctrl 120 0x58 8); try reflexivity; try assumption; lia|].
  apply WT_press; [apply WP_named; [vm_compute; tauto|reflexivity]|].
  apply WT_press; [apply WP_named; [vm_compute; tauto|reflexivity]|]. apply WT_end.
Qed.
Example C134_example_run :
  (match rrun S_Emu.ansi_cfg Prop_Typing.ex_clear (repeat (RRead None) 5) ex_unix with Some (_, rs) => rs | None => [] end)
  = map YEvent [None; Some (EKey (KChar 233)); Some (EKey (KCtrl 120)); Some (EKey KUp); Some (EKey KEscape)] /\
  (match run_wr (S_Buf.demo_env 8) (repeat (REvent None) 6) ex_win with Some (_, rs) => flat_map key_told rs | None => [] end)
  = map meant ex_presses.
Proof. split; vm_compute; reflexivity. Qed.
Example C134_example_tab :
  shares_a_character 105 /\ S_Typing.heard (S_Typing.Typed 9) = EKey KTab /\
  key_press_event (KeyRec true 0x49 8 9) = Some (KCtrl 105).
Proof. split; [now left|]. split; reflexivity. Qed.
