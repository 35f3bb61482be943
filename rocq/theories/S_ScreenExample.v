(** What the example program examples/screen.rs should show (C143). *)
From Coq Require Import String.
From Verif Require Import Base M_Utf8 M_Geom S_Geom M_Attr M_Seq M_Signal M_Util M_Input M_Buf S_Buf M_Writer M_Lines S_Canvas.
From Verif Require S_Tty.

(** The text [s] on line [l] from column [c] on, with the attributes [a]; elsewhere [rest]. *)
Definition put (l c : nat) (s : list N) (a : attrs) (rest : nat -> nat -> list N * attrs) (l' c' : nat) : list N * attrs :=
  if (l' =? l) && (c <=? c') && (c' <? c + List.length s) then ([nth (c' - c) s 32%N], a) else rest l' c'.
(** The greeting. *)
Definition greeting : nat -> nat -> list N * attrs :=
  put 0 0 (chars "Reading input. Press 'q' to stop.") (Attrs None None 0%N)
    (put 2 5 (chars "Hello, world!") (Attrs (Some Red) None BOLD) (fun _ _ => empty_ink)).

(** What a window of the size [z] shows after the event [e], if there was one: the greeting
    and, from the fifth line on, the text of the event. *)
Definition picture (E : env) (debug : event -> list (list N)) (z : size) (e : option event) : canvas :=
  match e with
  | None => Canvas z greeting (Cursor 2 18) (Attrs None None 0%N)
  | Some e => write E (concat (debug e)) (Canvas z greeting (Cursor 4 0) (Attrs None None 0%N))
  end.
Definition latest (es : list event) : option event := last (map Some es) None.

(** The key that ends the program. *)
Definition the_q : event := EKey (KChar 113%N).

(** The terminal shows a canvas, with the cursor where its pen is. *)
Definition shows (C : tcfg) (v : option S_Tty.view) (k : canvas) : Prop :=
  exists v', v = Some v' /\ displays C v' k /\ S_Tty.vcur v' = pen_goal k.
