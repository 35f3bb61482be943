(** Model of which key capabilities of a terminfo entry stand for which keys
    (/repo/src/unix/terminal.rs:1074-1115). *)
From Coq Require Import String.
From Verif Require Import Base M_Utf8 M_Geom M_Seq M_Signal M_Util M_Input.
Local Open Scope N_scope.

(** The key capabilities of the crate terminfo ([terminfo::capability]) that are used. *)
Inductive key_cap : Type :=
| KeyUp | KeyDown | KeyLeft | KeyRight | KeyHome | KeyEnd | KeyNPage | KeyPPage | KeyDc
| KeyIc | KeyF1 | KeyF2 | KeyF3 | KeyF4 | KeyF5 | KeyF6 | KeyF7 | KeyF8 | KeyF9 | KeyF10
| KeyF11 | KeyF12.

(** The [add!] calls (unix/terminal.rs:1087-1108), in order. *)
Definition key_caps : list (key_cap * key) :=
  [ (KeyUp, KUp); (KeyDown, KDown); (KeyLeft, KLeft); (KeyRight, KRight); (KeyHome, KHome);
    (KeyEnd, KEnd); (KeyNPage, KPageDown); (KeyPPage, KPageUp); (KeyDc, KDelete);
    (KeyIc, KInsert); (KeyF1, KF 1); (KeyF2, KF 2); (KeyF3, KF 3); (KeyF4, KF 4);
    (KeyF5, KF 5); (KeyF6, KF 6); (KeyF7, KF 7); (KeyF8, KF 8); (KeyF9, KF 9);
    (KeyF10, KF 10); (KeyF11, KF 11); (KeyF12, KF 12)].

(** [sequences], applied to an entry ([info] is what [info.get] answers, [name] its name). *)
Definition terminal_sequences (info : key_cap -> option bytes) (name : bytes) : option seq_map :=
  sequences (map (fun ck => (info (fst ck), snd ck)) key_caps) name.

(** The names of the capabilities in a terminfo entry, as the crate terminfo has them. *)
Definition cap_name (c : key_cap) : string :=
  match c with
  | KeyUp => "kcuu1" | KeyDown => "kcud1" | KeyLeft => "kcub1" | KeyRight => "kcuf1"
  | KeyHome => "khome" | KeyEnd => "kend" | KeyNPage => "knp" | KeyPPage => "kpp"
  | KeyDc => "kdch1" | KeyIc => "kich1" | KeyF1 => "kf1" | KeyF2 => "kf2" | KeyF3 => "kf3"
  | KeyF4 => "kf4" | KeyF5 => "kf5" | KeyF6 => "kf6" | KeyF7 => "kf7" | KeyF8 => "kf8"
  | KeyF9 => "kf9" | KeyF10 => "kf10" | KeyF11 => "kf11" | KeyF12 => "kf12"
  end%string.
