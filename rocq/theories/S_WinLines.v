(** What a line of styled text should look like on a Windows console (C141). *)
From Coq Require Import String.
From Verif Require Import Base M_Utf8 S_Utf8 M_Geom M_Attr M_Buf M_Writer M_Api M_WinWriter S_WinWriter S_WinScreen S_WinApi M_Lines S_Lines.

(** The characters a call writes, with the attributes asked for. *)
Definition inked_by (m : tmethod) (a : attrs) : list (N * attrs) :=
  match m with
  | TWriteChar c => [(c, a)]
  | TWriteStr s => map (fun c => (c, a)) s
  | TWriteFmt pieces => map (fun c => (c, a)) (concat pieces)
  | TWriteStyled f b s text => map (fun c => (c, Attrs f b (match s with Some s => s | None => 0%N end))) text
  | _ => []
  end.
Fixpoint inked (ms : list tmethod) (a : attrs) : list (N * attrs) :=
  match ms with
  | [] => []
  | m :: ms => inked_by m a ++ inked ms (asked m a)
  end.

(** Calls that write characters that take one position on the console, choose attributes, set
    the cursor's look or flush, and nothing else. *)
Definition win_letter (shown : list N -> option N) (c : N) : Prop := scalar c /\ shown [c] <> None.
Definition win_line_call (shown : list N -> option N) (m : tmethod) : Prop :=
  match m with
  | TWriteStyled _ _ _ text | TWriteStr text => Forall (win_letter shown) text
  | TWriteChar c => win_letter shown c
  | TWriteFmt pieces => Forall (Forall (win_letter shown)) pieces
  | TClearScreen | TClearToLineEnd | TClearToScreenEnd | TMoveUp _ | TMoveDown _ | TMoveLeft _ | TMoveRight _ | TMoveToFirstColumn => False
  | _ => True
  end.

(** The characters have come at the cursor of [v], each with an attribute word that shows its
    attributes; everything else is as before. *)
Definition wlaid (shown : list N -> option N) (default : N) (l : list (N * attrs)) (v v' : view) : Prop :=
  let n := Z.of_nat (List.length l) in
  let p := v_cur v in
  v_size v' = v_size v /\ v_cur v' = Coord (cX p + n) (cY p) /\
  forall y x, (0 <= y < cY (v_size v))%Z -> (0 <= x < cX (v_size v))%Z ->
    if ((y =? cY p) && (cX p <=? x) && (x <? cX p + n))%Z
    then exists c a g w, nth_error l (Z.to_nat (x - cX p)) = Some (c, a) /\ shown [c] = Some g /\ shows default a w /\ v_cell v' y x = (g, w)
    else v_cell v' y x = v_cell v y x.

(** The texts of an example program, character by character; ASCII characters take one position. *)
Definition in_runs (l : list (string * attrs)) : list (N * attrs) := concat (map (fun x => map (fun c => (c, snd x)) (chars (fst x))) l).
Definition ascii_shown (shown : list N -> option N) : Prop := forall c, (32 <= c < 127)%N -> shown [c] <> None.
