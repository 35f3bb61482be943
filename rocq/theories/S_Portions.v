(** What is read from input that comes in portions (C68): every portion is looked at when it
    comes, and what stands at the front of the input by then decides. *)
From Verif Require Import Base M_Utf8 S_Utf8 M_Geom M_Seq S_Seq M_Signal M_Util M_Input S_Input M_Writer M_Prepare M_Reader S_Reader S_Typing.
Local Open Scope N_scope.

(** What stands at the front of the input: an event, and the input after it. *)
Inductive front (m : seq_map) : bytes -> event -> bytes -> Prop :=
| Front_key q k rest :             (* the longest key sequence *)
    longest m (q ++ rest) q (SKey k) -> front m (q ++ rest) (EKey k) rest
| Front_mouse d rest :             (* a whole mouse report *)
    longest m (S_Input.report d ++ rest) XTERM_MOUSE_INTRO XTermMouse -> at_line d < U32_MAX -> at_column d < U32_MAX ->
    front m (S_Input.report d ++ rest) (EMouse (told d)) rest
| Front_char c rest :              (* a character, if no sequence is there *)
    scalar c -> no_match m (utf8 c ++ rest) -> front m (utf8 c ++ rest) (EKey (key_from_char c)) rest
| Front_cut d rest s :             (* the Escape key: a part of a mouse report, the last of the input *)
    S_Input.report d = (27 :: rest) ++ s -> s <> [] -> at_line d < U32_MAX -> at_column d < U32_MAX ->
    (forall q v, matches m (27 :: rest) q v -> q = XTERM_MOUSE_INTRO /\ v = XTermMouse) ->
    front m (27 :: rest) (EKey KEscape) rest.

(** No event yet: no input, or a part of a character. *)
Definition not_yet (buf : bytes) : Prop := buf = [] \/ truncated_char buf.

(** [reading m buf ps out buf' ps']: with [buf] read and [ps] to come, the next calls return
    [out], and then [buf'] is read and [ps'] to come. *)
Inductive reading (m : seq_map) : bytes -> list bytes -> list (option event) -> bytes -> list bytes -> Prop :=
| Reading_ends buf ps : reading m buf ps [] buf ps
| Reading_there buf ps e rest out buf' ps' :
    front m buf e rest -> reading m rest ps out buf' ps' ->
    reading m buf ps (Some e :: out) buf' ps'
| Reading_comes buf p ps e rest out buf' ps' :
    not_yet buf -> front m (buf ++ p) e rest -> reading m rest ps out buf' ps' ->
    reading m buf (p :: ps) (Some e :: out) buf' ps'
| Reading_part buf p ps out buf' ps' :
    not_yet buf -> not_yet (buf ++ p) -> reading m (buf ++ p) ps out buf' ps' ->
    reading m buf (p :: ps) (None :: out) buf' ps'.

(** A portion by itself: the events in it. *)
Inductive holds (m : seq_map) : bytes -> list event -> Prop :=
| Holds_nothing : holds m [] []
| Holds_event buf e rest es : front m buf e rest -> holds m rest es -> holds m buf (e :: es).

(** A key for every byte. *)
Definition keys_for (bs : bytes) : list event := map (fun b => EKey (key_from_char b)) bs.
