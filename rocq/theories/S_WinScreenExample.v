(** What the example program examples/screen.rs should show on Windows (C143). *)
From Verif Require Import Base M_Utf8 M_Geom S_Geom M_Attr M_Seq M_Signal M_Util M_Input M_Buf S_Buf M_Writer
  M_WinWriter M_WinReader S_WinReader M_WinScreen S_WinScreen S_Canvas S_WinCanvas.

(** The events for some records, one after the other; the mouse buttons are remembered. *)
Inductive tells (E : env) : wreader -> list record -> list event -> wreader -> Prop :=
| tells_nil rd : tells E rd [] [] rd
| tells_cons rd r rd1 e rs es rd2 : decoded E rd r rd1 e -> tells E rd1 rs es rd2 -> tells E rd (r :: rs) (e :: es) rd2.

(** Those that say something. *)
Definition telling (es : list event) : list event := filter (fun e => match e with ENoEvent => false | _ => true end) es.

(** The console shows a canvas, with the cursor where its pen is; [d]: the default colours. *)
Definition wshows (shown : list N -> option N) (d : N) (w : wscr) (k : canvas) : Prop :=
  wdisplays shown d (sees w) k /\
  v_cur (sees w) = Coord (Z.of_nat (column (pen_goal k))) (Z.of_nat (line (pen_goal k))).
