(** What a refresh on Windows ought to write (C125). *)
From Verif Require Import Base M_Geom M_Attr M_Buf S_Buf M_WinWriter M_WinScreen S_Screen.

(** The attributes of a cell. *)
Definition attrs_at (b : sbuf) (i : nat) : attrs :=
  match cell_at b i with Some c => cattrs c | None => no_attrs end.

(** The characters of the cells that are not what was last shown there, from the first
    cell to the last, each with the attributes of its cell. *)
Definition changes (E : env) (b : sbuf) : list (N * attrs) :=
  flat_map (fun i => map (fun c => (c, attrs_at b i)) (text_at b i)) (changed E b).

(** The console's account of the screen: all the text it has received, with the attribute
    words in force, and the answers it has still to give. *)
Definition heard (s : wscr) : list (N * N) := c_text (w_con (t_w (g_t s))).
