(** Model of the example programs /repo/examples/input.rs and /repo/examples/raw_input.rs on a
    Windows [Terminal] (M_WinReader.v).  The parts that do not depend on the system are in
    M_InputExample.v. *)
From Verif Require Import Base M_Utf8 M_Geom M_Attr M_Signal M_Util M_Input M_Buf M_Prepare M_WinReader M_InputExample.

Section Input.
  Variable E : env.

  (** A call (input.rs:22, raw_input.rs:33 with [buf] of 32 code units) and what is done with its
      result. *)
  Definition winput_round (s : wsys) : wsres (list event * bool) :=
    let! (s, x) := win_read_event E None s in Ret s (tell_event (fst x)).
  Definition wraw_round (s : wsys) : wsres (list (event * list N) * bool) :=
    let! (s, x) := win_read_raw 32 None s in Ret s (tell_raw (fst x) (snd x)).

  (** The whole program (input.rs:9-40, raw_input.rs:21-54).  Dropping the [Terminal] concerns its output
      (windows/terminal.rs:323-336, M_WinScreen.v) and is left out. *)
  Definition winput_main {X} (once : wsys -> wsres (list X * bool)) (cfg : config) (n : nat) (s : wsys) : iend wsys X :=
    match win_prepare cfg s with
    | Ret s st => match listen once n s [] with
                  | IQuit s printed => match win_restore st s with
                                       | Ret s _ => IEnded printed true s
                                       | Fail s _ => IEnded printed false s
                                       | _ => INotYet
                                       end
                  | IFailed s printed => IEnded printed false s
                  | _ => INotYet
                  end
    | Fail s _ => IEnded [] false s
    | _ => INotYet
    end.
End Input.
