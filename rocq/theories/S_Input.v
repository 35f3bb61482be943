(** Specifications for decoding terminal input. *)
From Coq Require Import Decimal DecimalN.
From Verif Require Import Base M_Utf8 S_Utf8 M_Geom M_Seq S_Seq M_Signal M_Util M_Input.

(** A key map: reachable through the API of [SequenceMap], with strings as keys. *)
Definition key_map (m : seq_map) : Prop :=
  reachable key_ref m /\ forall q v, In (q, v) (sm_sequences m) -> valid_utf8 q.

(** The registered sequence [q] (for [v]) is at the start of the input. *)
Definition matches (m : seq_map) (input q : bytes) (v : seq_data) : Prop :=
  In (q, v) (sm_sequences m) /\ q <> [] /\ is_prefix q input.

(** It is the longest one. *)
Definition longest (m : seq_map) (input q : bytes) (v : seq_data) : Prop :=
  matches m input q v /\ forall q' v', matches m input q' v' -> length q' <= length q.

Definition no_match (m : seq_map) (input : bytes) : Prop := forall q v, ~ matches m input q v.

(** ** Mouse reports, as xterm's documentation (ctlseqs, "Extended coordinates", SGR)
    describes them: [ESC [ < code ; column ; line M], or [m] for a release. *)

(** Numbers in decimal. *)
Fixpoint digits_of (u : uint) : bytes :=
  match u with
  | Nil => []
  | D0 u => 48 :: digits_of u | D1 u => 49 :: digits_of u | D2 u => 50 :: digits_of u
  | D3 u => 51 :: digits_of u | D4 u => 52 :: digits_of u | D5 u => 53 :: digits_of u
  | D6 u => 54 :: digits_of u | D7 u => 55 :: digits_of u | D8 u => 56 :: digits_of u
  | D9 u => 57 :: digits_of u
  end%N.
Definition decimal (n : N) : bytes := digits_of (N.to_uint n).

Definition sgr (code x y : N) (final : N) : bytes :=
  ([27; 91; 60] ++ decimal code ++ [59] ++ decimal x ++ [59] ++ decimal y ++ [final])%N.

(** What the mouse did. *)
Inductive button : Type := BLeft | BMiddle | BRight.
Inductive doing : Type :=
| Press (b : button)
| Release (b : button)
| Wheel (up : bool)
| Move (holding : option button).
Record deed : Type := Deed { what : doing; at_line : N; at_column : N; shift : bool; meta : bool; control : bool }.

Definition button_code (b : button) : N := match b with BLeft => 0 | BMiddle => 1 | BRight => 2 end%N.
Definition doing_code (d : doing) : N :=
  match d with
  | Press b | Release b => button_code b
  | Wheel true => 64
  | Wheel false => 65
  | Move (Some b) => 32 + button_code b
  | Move None => 35
  end%N.
Definition deed_code (d : deed) : N :=
  (doing_code (what d) + (if shift d then 4 else 0) + (if meta d then 8 else 0) + (if control d then 16 else 0))%N.

(** What xterm sends for it (its lines and columns count from 1). *)
Definition report (d : deed) : bytes :=
  sgr (deed_code d) (at_column d + 1) (at_line d + 1)
      (match what d with Release _ => 109%N | _ => 77%N end).

(** What a program should be told. *)
Definition told_button (b : button) : mouse_button :=
  match b with BLeft => MLeft | BMiddle => MMiddle | BRight => MRight end.
Definition told (d : deed) : mouse_event :=
  MouseEvent (Cursor (N.to_nat (at_line d)) (N.to_nat (at_column d)))
    (match what d with
     | Press b => MPressed (told_button b)
     | Release b => MReleased (told_button b)
     | Wheel true => MWheelUp
     | Wheel false => MWheelDown
     | Move _ => MMotion
     end)
    ((if shift d then SHIFT else 0) + (if meta d then ALT else 0) + (if control d then CTRL else 0))%N.

(** A mouse report with a zero coordinate. *)
Definition digit (b : N) : Prop := (48 <= b <= 57)%N.
Definition value (ds : bytes) : N := fold_left (fun n b => n * 10 + (b - 48))%N ds 0%N.
Definition number (ds : bytes) : Prop := Forall digit ds /\ (value ds <= U32_MAX)%N.
Definition zero_report (r : bytes) : Prop :=
  exists a b c f rest, r = a ++ [59%N] ++ b ++ [59%N] ++ c ++ [f] ++ rest /\
    number a /\ number b /\ number c /\ (f = 77%N \/ f = 109%N) /\ (value b = 0%N \/ value c = 0%N).

(** What the key capabilities of a terminfo entry mean: of the capabilities with the
    same (ASCII) value the last one counts. *)
Definition is_ascii (s : bytes) : Prop := Forall (fun b => (b < 128)%N) s.
Fixpoint meaning (caps : list (option bytes * key)) (q : bytes) : option key :=
  match caps with
  | [] => None
  | (s, k) :: caps =>
      match meaning caps q with
      | Some k' => Some k'
      | None => match s with
                | Some s => if list_eq_dec N.eq_dec s q then if forallb (fun b => b <? 128)%N s then Some k else None else None
                | None => None
                end
      end
  end.

(** Every code, by its bits: bits 0 and 1 are the button, bits 2 to 4 the modifiers, and
    the rest the kind of report (0: buttons 1 to 3; 32: motion; 64: buttons 4 to 7, of
    which 4 and 5 are the wheel; 128: buttons 8 to 11). *)
Definition code_mods (code : N) : N :=
  ((if N.testbit code 2 then SHIFT else 0) + (if N.testbit code 3 then ALT else 0)
   + (if N.testbit code 4 then CTRL else 0))%N.
Definition code_input (code : N) (pressed : bool) : mouse_input :=
  if (code / 32 =? 0)%N then
    let b := (if code mod 4 =? 0 then MLeft else if code mod 4 =? 1 then MMiddle
              else if code mod 4 =? 2 then MRight else MOther 3)%N in
    if pressed then MPressed b else MReleased b
  else if (code / 32 =? 2)%N then
    if (code mod 4 =? 0)%N then MWheelUp else if (code mod 4 =? 1)%N then MWheelDown else MMotion
  else MMotion.

(** The code of pressing or releasing one of xterm's further buttons, 6 to 11. *)
Definition further_button (n : N) : N := (if n <? 8 then 64 + (n - 4) else 128 + (n - 8))%N.
