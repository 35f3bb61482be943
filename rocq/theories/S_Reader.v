(** Specifications for reading from a terminal. *)
From Verif Require Import Base M_Utf8 S_Utf8 M_Geom M_Seq S_Seq M_Signal M_Util M_Input S_Input M_Writer M_Prepare M_Reader.

(** The input still to come in a timeline. *)
Fixpoint inputs (l : list tick) : list bytes :=
  match l with
  | [] => []
  | TInput bs :: l => bs :: inputs l
  | _ :: l => inputs l
  end.

(** All input not yet handed to the program: in the reader's buffer, in the operating
    system's and still to come. *)
Definition pending (s : sys) : bytes := concat (queue s) ++ concat (inputs (time s)).
Definition stream (s : sys) : bytes := inbuf s ++ pending s.

(** What a reply of the reader uses up: raw input is handed out as it is; a key or mouse
    event uses the bytes it is decoded from ([peek_event] on them, followed by input that
    had arrived: [after] is all that is left); everything else uses nothing. *)
Definition uses (m : seq_map) (after : bytes) (r : reply) (used : bytes) : Prop :=
  match r with
  | YRaw (Some (ERaw n)) bs => used = bs /\ n = length bs
  | YEvent (Some (EKey _ as e)) | YEvent (Some (EMouse _ as e)) =>
      used <> [] /\ exists later, is_prefix later after /\
        peek_event (used ++ later) m = Val (PEvent e (length used))
  | _ => used = []
  end.

(** The replies use up the difference between two streams, in order. *)
Fixpoint accounts (m : seq_map) (rs : list reply) (before after : bytes) : Prop :=
  match rs with
  | [] => before = after
  | r :: rs => exists used mid, before = used ++ mid /\ uses m mid r used /\ accounts m rs mid after
  end.

(** The portions in which the input will be read, now and later. *)
Definition portions (s : sys) : list bytes := queue s ++ inputs (time s).

(** No signal the reader watches, and no failure, is pending or to come. *)
Definition calm_tick (t : tick) : Prop := match t with TSig _ | TFail _ => False | _ => True end.
Definition calm (s : sys) : Prop :=
  failing s = None /\ conv_signal (last_sig s) = None /\ Forall calm_tick (time s).

(** The library's handler is only installed for the signals it knows. *)
Definition handlers_known (s : sys) : Prop := forall n, disp s n = Ours -> conv_signal n <> None.

(** The signal set in force and the report a signal deserves. *)
Definition deserved (reported : sigset) (sig : signal) (w : N + size) : option event :=
  match sig, w with
  | Resize, inr z => Some (EResize z)
  | Resize, inl _ => None
  | _, _ => if ss_contains reported sig then Some (ESignal sig) else None
  end.

(** Nothing that ends a wait without a time limit. *)
Definition idle_tick (t : tick) : Prop := match t with TTime | TWin _ | TStep => True | _ => False end.

(** Nothing there: no failure, no input, and no event in the buffer. *)
Definition asleep (m : seq_map) (s : sys) : Prop :=
  failing s = None /\ queue s = [] /\ peek_event (inbuf s) m = Val PNone.

(** The timeouts that overflow. *)
Definition overflows (t : option duration) : Prop := exists d, t = Some d /\ to_timeval d = Boom.
