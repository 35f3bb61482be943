(** Specification vocabulary for keys that mean the same on Unix and Windows (C134). *)
From Verif Require Import Base M_Utf8 S_Utf8 M_Geom M_Seq S_Seq M_Signal M_Util M_Input S_Input M_Writer M_Prepare M_Reader S_Reader
  M_WinWriter M_WinReader S_WinReader.
From Verif Require S_Typing.
Local Open Scope N_scope.

(** What the user presses: a key that makes a character, Ctrl with a letter ([l]: the small
    letter), or a key with a name. *)
Inductive press : Type :=
| Letter (c : N)
| WithCtrl (l : N)
| Named (k : key).

(** The event it should be. *)
Definition meant (p : press) : event :=
  EKey (match p with Letter c => KChar c | WithCtrl l => KCtrl l | Named k => k end).

(** What a terminal sends for it ([S_Typing.act]): the character; the control character;
    13, 9, 27 and 127 for Enter, Tab, Escape and Backspace, or the sequence that its
    terminfo entry has for the key. *)
Inductive unix_press : press -> S_Typing.act -> Prop :=
| UP_letter c : 32 <= c -> c <> 127 -> unix_press (Letter c) (S_Typing.Typed c)
| UP_ctrl l : 97 <= l <= 122 -> unix_press (WithCtrl l) (S_Typing.Typed (l - 96))
| UP_enter : unix_press (Named KEnter) (S_Typing.Typed 13)
| UP_tab : unix_press (Named KTab) (S_Typing.Typed 9)
| UP_escape : unix_press (Named KEscape) (S_Typing.Typed 27)
| UP_backspace : unix_press (Named KBackspace) (S_Typing.Typed 127)
| UP_named q k : unix_press (Named k) (S_Typing.Struck q k).

(** The record that a console makes of it, whatever else is held ([vk_table], [other_vk],
    [alt_held] and [ctrl_held]: S_WinReader.v). *)
Inductive win_press : press -> record -> Prop :=
| WP_letter c vk ctl :
    32 <= c < 65536 -> c <> 127 -> scalar c -> other_vk vk -> alt_held ctl = false -> ctrl_held ctl = false ->
    win_press (Letter c) (KeyRec true vk ctl c)
| WP_ctrl l vk ctl :
    97 <= l <= 122 -> other_vk vk -> alt_held ctl = false -> ctrl_held ctl = true ->
    win_press (WithCtrl l) (KeyRec true vk ctl (l - 96))
| WP_named k vk ctl u : In (vk, k) vk_table -> u < 65536 -> win_press (Named k) (KeyRec true vk ctl u).

(** Records that are not about pressing one of these: a key goes up, Shift, Ctrl or Alt goes
    down, the mouse is used, the window changes its size, and so on. *)
Definition beside (r : record) : Prop :=
  match r with KeyRec down vk _ u => down = false \/ other_vk vk /\ u = 0 | _ => True end.
Inductive win_types : list press -> list record -> Prop :=
| WT_end : win_types [] []
| WT_beside l r rs : beside r -> win_types l rs -> win_types l (r :: rs)
| WT_press p l r rs : win_press p r -> win_types l rs -> win_types (p :: l) (r :: rs).

(** No control events and no failures. *)
Definition wcalm_tick (t : wtick) : Prop := match t with WCtrl _ _ | WFail _ => False | _ => True end.
Definition wcalm (s : wsys) : Prop := w_failing s = None /\ unreported s = [] /\ Forall wcalm_tick (w_time s).

(** The keys among the answers. *)
Definition key_told (r : wreply) : list event := match r with RGot (Some (EKey k)) _ => [EKey k] | _ => [] end.

(** Ctrl with I, J or M makes the same character as Tab and Enter. *)
Definition shares_a_character (l : N) : Prop := l = 105 \/ l = 106 \/ l = 109.
Definition portable (p : press) : Prop := match p with WithCtrl l => ~ shares_a_character l | _ => True end.
