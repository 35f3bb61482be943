(** What a user does at the keyboard and with the mouse, what the terminal sends for it
    and what the program should be told. *)
From Verif Require Import Base M_Utf8 S_Utf8 M_Geom M_Seq S_Seq M_Signal M_Util M_Input S_Input M_Writer M_Prepare M_Reader S_Reader.

Inductive act : Type :=
| Typed (c : N)                      (* a character, as UTF-8 *)
| Struck (q : bytes) (k : key)       (* a key for which the terminal sends the sequence [q] *)
| Moused (d : deed).                 (* a mouse action *)

Definition sent (a : act) : bytes :=
  match a with Typed c => utf8 c | Struck q _ => q | Moused d => S_Input.report d end.
Definition heard (a : act) : event :=
  match a with Typed c => EKey (key_from_char c) | Struck _ k => EKey k | Moused d => EMouse (told d) end.
Definition all_sent (l : list act) : bytes := flat_map sent l.

(** With [rest] behind it, what [a] sends is not the beginning of something else. *)
Definition clear_before (m : seq_map) (rest : bytes) (a : act) : Prop :=
  match a with
  | Typed c => scalar c /\ no_match m (utf8 c ++ rest)
  | Struck q k => longest m (q ++ rest) q (SKey k)
  | Moused d => longest m (S_Input.report d ++ rest) XTERM_MOUSE_INTRO XTermMouse /\
      (at_line d < U32_MAX)%N /\ (at_column d < U32_MAX)%N
  end.
Fixpoint legible (m : seq_map) (l : list act) (rest : bytes) : Prop :=
  match l with
  | [] => True
  | a :: l => clear_before m (all_sent l ++ rest) a /\ legible m l rest
  end.

(** A simple reason to be legible: no registered sequence begins another, and no
    character typed begins one. *)
Definition unambiguous (m : seq_map) : Prop :=
  forall q v q' v', In (q, v) (sm_sequences m) -> In (q', v') (sm_sequences m) -> is_prefix q q' -> q = q'.
Definition begins_nothing (m : seq_map) (c : N) : Prop :=
  forall q v, In (q, v) (sm_sequences m) -> ~ is_prefix (utf8 c) q.
Definition ordinary (m : seq_map) (a : act) : Prop :=
  match a with
  | Typed c => scalar c /\ begins_nothing m c
  | Struck q k => In (q, SKey k) (sm_sequences m) /\ q <> []
  | Moused d => In (XTERM_MOUSE_INTRO, XTermMouse) (sm_sequences m) /\
      (at_line d < U32_MAX)%N /\ (at_column d < U32_MAX)%N
  end.

(** Input that arrives in portions, each of some whole actions; a character (but not a
    sequence: C68) may be cut by the end of a portion.  [held] is the part of a
    character that is there already. *)
Definition in_part (b : bytes) : Prop := b = [] \/ truncated_char b.
Inductive arriving (m : seq_map) : bytes -> list bytes -> list act -> Prop :=
| Ar_end : arriving m [] [] []
| Ar_portion held b l held' ps l' :
    b <> [] -> length b <= 128 ->
    held ++ b = all_sent l ++ held' -> legible m l held' -> in_part held' ->
    arriving m held' ps l' ->
    arriving m held (b :: ps) (l ++ l').

(** The events among some results. *)
Fixpoint somes {A} (l : list (option A)) : list A :=
  match l with [] => [] | Some a :: l => a :: somes l | None :: l => somes l end.

(** The key and mouse events among replies. *)
Definition key_or_mouse (r : reply) : list event :=
  match r with
  | YEvent (Some (EKey _ as e)) | YEvent (Some (EMouse _ as e)) => [e]
  | _ => []
  end.

(** Everything but reading raw input. *)
Definition not_raw (o : rop) : Prop := match o with RRaw _ _ => False | _ => True end.
