(** What [term_write!] should show (C142). *)
From Verif Require Import Base M_Attr M_Buf M_Writer M_Api M_ScreenApi M_Macros S_Macros.

(** Evaluating the elements from left to right: what they ask for, and the caller's state
    afterwards. *)
Inductive answers (U : Type) : list (tree U) -> U -> list request -> U -> Prop :=
| an_nil u : answers U [] u [] u
| an_cons t l f u u1 q qs u2 : means U t f -> f u = (u1, Some q) -> answers U l u1 qs u2 -> answers U (t :: l) u (q :: qs) u2.

(** The methods that the documentation gives as equivalent (macros.rs:17-44). *)
Definition as_call (q : request) : tmethod :=
  match q with
  | RFg c => TSetFg c
  | RBg c => TSetBg c
  | RAddStyle s => TAddStyle s
  | RRemoveStyle s => TRemoveStyle s
  | RStyle s => TSetStyle (Some s)
  | RClear => TClearAttributes
  | RTheme a => TSetTheme (fg a) (bg a) (sty a)
  | RText s => TWriteStr s
  end.
Definition as_drawing (q : request) : smethod :=
  match q with
  | RFg c => SSetFg c
  | RBg c => SSetBg c
  | RAddStyle s => SAddStyle s
  | RRemoveStyle s => SRemoveStyle s
  | RStyle s => SSetStyle (Some s)
  | RClear => SClearAttributes
  | RTheme a => SSetTheme (fg a) (bg a) (sty a)
  | RText s => SWriteStr s
  end.
