(** Model of /repo/src/util.rs and of [Key] / [From<char> for Key] in
    /repo/src/terminal.rs. *)
From Verif Require Import Base M_Utf8.
Local Open Scope N_scope.

(** [ch as u8]: truncation to the low byte. *)
Definition as_u8 (c : N) : N := c mod 256.

(** util.rs:23-24 *)
Definition CTRL_MASK : N := 0x1f.
Definition UNCTRL_BIT : N := 0x40.

(** [ctrl], util.rs:36-38. *)
Definition ctrl (c : N) : N := N.land (as_u8 c) CTRL_MASK.

(** [is_ctrl], util.rs:44-47. *)
Definition is_ctrl (c : N) : bool := N.land c CTRL_MASK =? c.

(** [unctrl_upper], util.rs:61-63. *)
Definition unctrl_upper (c : N) : N := N.lor (as_u8 c) UNCTRL_BIT.

(** [char::to_ascii_lowercase]. *)
Definition to_ascii_lowercase (c : N) : N :=
  if (65 <=? c) && (c <=? 90) then c + 32 else c.

(** [unctrl_lower], util.rs:78-80. *)
Definition unctrl_lower (c : N) : N := to_ascii_lowercase (unctrl_upper c).

(** [prefixes], util.rs:109-122: the iterator yields [&s[..idx + len]] for each
    [(idx, ch)] of [char_indices].  [None] in the list would be a slicing
    panic. *)
Definition prefixes (s : bytes) : list (option bytes) :=
  map (fun p => let '(idx, ch) := p in
                let e := (idx + len_utf8 ch)%nat in
                if (e <=? length s)%nat && is_char_boundary s e then Some (firstn e s) else None)
      (char_indices s).

(** [Key], terminal.rs:238-285. *)
Inductive key : Type :=
| KBackspace | KEnter | KEscape | KTab
| KUp | KDown | KLeft | KRight
| KDelete | KInsert | KHome | KEnd | KPageUp | KPageDown
| KChar (c : N) | KCtrl (c : N) | KF (n : N).

(** [From<char> for Key], terminal.rs:288-301. *)
Definition key_from_char (c : N) : key :=
  if c =? 0x1b then KEscape
  else if c =? 0x7f then KBackspace
  else if (c =? 13) || (c =? 10) then KEnter
  else if c =? 9 then KTab
  else if is_ctrl c then KCtrl (unctrl_lower c)
  else KChar c.
