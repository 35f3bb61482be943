(** Model of the example programs /repo/examples/input.rs and /repo/examples/raw_input.rs on a
    Unix [Terminal] (M_Prepare.v, M_Reader.v).  What [println!] writes to the standard output is
    recorded as a list of what the lines tell, without the first line; the standard output takes
    it, and is not the library's. *)
From Verif Require Import Base M_Utf8 M_Geom M_Attr M_Seq M_Signal M_Util M_Input M_Buf M_Writer M_Prepare M_Reader M_ScreenExample.
From Verif Require M_UnixScreen.

(** The configurations (input.rs:13-16, raw_input.rs:25). *)
Definition input_config : config := Config true false true true false ss_new.
Definition raw_config : config := default_config.
(** /repo/examples/signals.rs is input.rs with another configuration (signals.rs:13-17); its loop
    (22-34) is that of input.rs. *)
Definition signals_config : config := Config false false true false false ss_all.

(** What a round prints, and whether it leaves the loop: an event (input.rs:22-32) ... *)
Definition tell_event (e : option event) : list event * bool :=
  match e with
  | None => ([], false)
  | Some e => match e with ENoEvent => ([], false) | _ => ([e], is_q e) end
  end.
(** ... or an event and, with [Event::Raw(n)], the bytes [buf[..n]] (raw_input.rs:33-47), which
    are those this call put there. *)
Definition tell_raw (e : option event) (bs : bytes) : list (event * bytes) * bool :=
  match e with
  | None => ([], false)
  | Some e => match e with
              | ERaw n => ([(e, bs)], (n =? 1)%nat && match bs with b :: _ => (b =? 113)%N | [] => false end)
              | _ => ([(e, [])], false)
              end
  end.

Section Input.
  Variables (C : tcfg) (m : seq_map).

  (** A call (input.rs:22, raw_input.rs:33 with [buf] of 32 bytes) and what is done with its
      result. *)
  Definition input_round (s : sys) : rres (list event * bool) :=
    let! (s, e) := read_event C m None s in Ret s (tell_event e).
  Definition raw_round (s : sys) : rres (list (event * bytes) * bool) :=
    let! (s, x) := read_raw C m 32 None s in Ret s (tell_raw (fst x) (snd x)).

  (** Where a program is, and what it has printed: it goes on, it waits for ever for input, it
      has left its loop, it returns an error, it panicked. *)
  Inductive istage (St X : Type) : Type :=
  | IGoing (s : St) (printed : list X) | IWaiting (s : St) (printed : list X) | IQuit (s : St) (printed : list X)
  | IFailed (s : St) (printed : list X) | IPanicked.
  Arguments IGoing {St X}. Arguments IWaiting {St X}. Arguments IQuit {St X}. Arguments IFailed {St X}. Arguments IPanicked {St X}.

  (** The loop (input.rs:21-34, raw_input.rs:32-48), at most [n] times. *)
  Fixpoint listen {St Er X} (once : St -> out St Er (list X * bool)) (n : nat) (s : St) (printed : list X) : istage St X :=
    match n with
    | O => IGoing s printed
    | S n => match once s with
             | Ret s (l, stop) => if stop : bool then IQuit s (printed ++ l) else listen once n s (printed ++ l)
             | Fail s _ => IFailed s printed
             | Panic => IPanicked
             | Blocked => IWaiting s printed
             end
    end.

  (** The whole program (input.rs:9-40, raw_input.rs:21-54): [prepare], the loop and [restore];
      the [Terminal] is dropped in any case. *)
  Inductive iend (St X : Type) : Type := IEnded (printed : list X) (ok : bool) (s : St) | INotYet.
  Arguments IEnded {St X}. Arguments INotYet {St X}.
  Definition drop_term {X} (printed : list X) (ok : bool) (s : sys) : iend sys X :=
    match M_UnixScreen.terminal_drop C s with Ret s _ => IEnded printed ok s | _ => INotYet end.
  Definition input_main {X} (once : sys -> rres (list X * bool)) (cfg : config) (n : nat) (s : sys) : iend sys X :=
    match prepare C cfg s with
    | Ret s st => match listen once n s [] with
                  | IQuit s printed => match restore C st s with
                                       | Ret s _ => drop_term printed true s
                                       | Fail s _ => drop_term printed false s
                                       | _ => INotYet
                                       end
                  | IFailed s printed => drop_term printed false s
                  | _ => INotYet
                  end
    | Fail s _ => drop_term [] false s
    | _ => INotYet
    end.
End Input.
Arguments IGoing {St X}. Arguments IWaiting {St X}. Arguments IQuit {St X}. Arguments IFailed {St X}. Arguments IPanicked {St X}.
Arguments IEnded {St X}. Arguments INotYet {St X}.
