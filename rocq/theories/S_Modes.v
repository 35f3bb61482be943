(** The modes of a terminal that decide what it sends: mouse reports and the keypad. *)
From Verif Require Import Base M_Utf8 S_Utf8 M_Geom M_Attr M_Buf S_Buf M_Writer S_Tty S_Writer S_Emu M_Prepare.

(** DEC private modes by number (xterm's control sequences: 1002 reports buttons and
    motion with a button held, 1003 all motion, 1006 uses the SGR format), and whether
    the keypad sends application codes. *)
Record modes : Type := Modes { private : N -> bool; application_keypad : bool }.

Definition mouse_mode (n : N) : Prop := n = 1002%N \/ n = 1003%N \/ n = 1006%N.

(** A terminal as far as its modes go; [None] in the middle of a control sequence. *)
Record modal : Type := Modal {
  mstate : Type;
  mfeed : mstate -> bytes -> mstate;
  mlook : mstate -> option modes
}.

(** No mode of interest has changed. *)
Definition same_modes (m m' : modes) : Prop :=
  (forall n, mouse_mode n -> private m' n = private m n) /\ application_keypad m' = application_keypad m.

Definition keypad_cap (c : cap) : bool := match c with KeypadXmit | KeypadLocal => true | _ => false end.

(** What is taken for granted of the terminal: [ESC [ ? n h] and [ESC [ ? n l] turn mouse
    mode [n] on and off, the capabilities for the keypad do what they are for, and
    neither other capabilities nor text change these modes. *)
Record obeys (E : env) (C : tcfg) (M : modal) : Prop := {
  ob_app : forall t x y, mfeed M t (x ++ y) = mfeed M (mfeed M t x) y;
  ob_nil : forall t, mfeed M t [] = t;
  ob_mode : forall t m n (on : bool), mlook M t = Some m -> mouse_mode n ->
    exists m', mlook M (mfeed M t ([27; 91; 63] ++ dec n ++ [if on then 104 else 108])%N) = Some m' /\
      (forall k, mouse_mode k -> private m' k = if (k =? n)%N then on else private m k) /\
      application_keypad m' = application_keypad m;
  ob_cap : forall t m c e k ps bs k', mlook M t = Some m -> info C c = Some e -> keypad_cap c = false ->
    e k ps = (bs, k', true) -> exists m', mlook M (mfeed M t bs) = Some m' /\ same_modes m m';
  ob_keypad : forall t m c e k bs k', mlook M t = Some m -> info C c = Some e -> keypad_cap c = true ->
    e k [] = (bs, k', true) -> exists m', mlook M (mfeed M t bs) = Some m' /\
      (forall n, mouse_mode n -> private m' n = private m n) /\
      application_keypad m' = match c with KeypadXmit => true | _ => false end;
  ob_text : forall t m c, mlook M t = Some m -> texty E c ->
    exists m', mlook M (mfeed M t (utf8 c)) = Some m' /\ same_modes m m'
}.

(** What a configuration asks for is on; what it does not mention is as it was. *)
Definition turned_on (C : tcfg) (cfg : config) (m m' : modes) : Prop :=
  let mouse := cfg_mouse cfg && xterm C in
  private m' 1002 = mouse || private m 1002 /\
  private m' 1006 = mouse || private m 1006 /\
  private m' 1003 = (mouse && always_track_motion cfg) || private m 1003 /\
  application_keypad m' = (cfg_keypad cfg && has C KeypadXmit) || application_keypad m.

(** And turned off again. *)
Definition turned_off (C : tcfg) (cfg : config) (m m' : modes) : Prop :=
  let mouse := cfg_mouse cfg && xterm C in
  (forall n, mouse_mode n -> private m' n = negb mouse && private m n) /\
  application_keypad m' = negb (cfg_keypad cfg && has C KeypadXmit && has C KeypadLocal) && application_keypad m.

(** The text of an output operation. *)
Definition wop_text (o : wop) : list N :=
  match o with OWriteChar c => [c] | OWriteStr s | OWriteStyled _ s => s | _ => [] end.

(** An xterm, as far as its modes go. *)
Inductive xmode : Type := XGround | XEsc | XCsi (q : bool) (ps : list N) (cur : N).
Definition xset (on : bool) (ps : list N) (f : N -> bool) : N -> bool :=
  fun n => if existsb (N.eqb n) ps then on else f n.
Definition xstep (s : xmode * (N -> bool)) (b : N) : xmode * (N -> bool) :=
  let '(x, f) := s in
  match x with
  | XGround => (if b =? 27 then XEsc else XGround, f)
  | XEsc => (if b =? 91 then XCsi false [] 0 else XGround, f)
  | XCsi q ps cur =>
      if (48 <=? b) && (b <=? 57) then (XCsi q ps (cur * 10 + (b - 48)), f)
      else if b =? 59 then (XCsi q (ps ++ [cur]) 0, f)
      else if b =? 63 then (XCsi true ps cur, f)
      else (XGround, if q && (b =? 104) then xset true (ps ++ [cur]) f
                     else if q && (b =? 108) then xset false (ps ++ [cur]) f else f)
  end%N.
Definition xterm_modes : modal :=
  Modal (xmode * (N -> bool)) (fun s bs => fold_left xstep bs s)
    (fun s => match fst s with XGround => Some (Modes (snd s) (snd s 1%N)) | _ => None end).

(** Output operations one after another, all successful. *)
Inductive outputs (C : tcfg) : list wop -> wst -> wst -> Prop :=
| Ou_nil w : outputs C [] w w
| Ou_cons o os w w1 w' : run_wop C o w = Ret w1 tt -> outputs C os w1 w' -> outputs C (o :: os) w w'.
