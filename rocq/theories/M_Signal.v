(** Model of /repo/src/signal.rs. *)
From Coq Require Import String.
From Verif Require Import Base.
Local Open Scope N_scope.

(** [Signal], signal.rs:8-27. *)
Inductive signal : Type := Break | Continue | Interrupt | Resize | Suspend | Quit.

(** [*self as u8]: the discriminant, in declaration order. *)
Definition sig_disc (s : signal) : N :=
  match s with
  | Break => 0 | Continue => 1 | Interrupt => 2 | Resize => 3 | Suspend => 4 | Quit => 5
  end.

(** [NUM_SIGNALS], signal.rs:29. *)
Definition NUM_SIGNALS : N := 6.

(** [u8] shift and complement. *)
Definition u8_shl1 (n : N) : N := N.shiftl 1 n mod 256.
Definition u8_not (x : N) : N := N.lxor x 255.

(** [Signal::as_bit], signal.rs:32-34. *)
Definition as_bit (s : signal) : N := u8_shl1 (sig_disc s).

(** [Signal::all_bits], signal.rs:36-38. *)
Definition all_bits : N := u8_shl1 NUM_SIGNALS - 1.

(** [SignalSet(u8)], signal.rs:62-63. *)
Definition sigset := N.

(** signal.rs:67-69 *)
Definition ss_new : sigset := 0.
(** signal.rs:72-74 *)
Definition ss_all : sigset := all_bits.
(** signal.rs:77-79 *)
Definition ss_contains (x : sigset) (s : signal) : bool := negb (N.land x (as_bit s) =? 0).
(** signal.rs:82-84 *)
Definition ss_contains_all (x y : sigset) : bool := N.land x y =? y.
(** signal.rs:87-89 *)
Definition ss_intersects (x y : sigset) : bool := negb (N.land x y =? 0).
(** signal.rs:92-94 *)
Definition ss_is_empty (x : sigset) : bool := x =? 0.
(** signal.rs:97-99 *)
Definition ss_insert (x : sigset) (s : signal) : sigset := N.lor x (as_bit s).
(** signal.rs:102-104 *)
Definition ss_remove (x : sigset) (s : signal) : sigset := N.land x (u8_not (as_bit s)).
(** signal.rs:107-113 *)
Definition ss_set (x : sigset) (s : signal) (b : bool) : sigset :=
  if b then ss_insert x s else ss_remove x s.
(** signal.rs:121-123; also [-] and [-=] (signal.rs:249-261) *)
Definition ss_difference (x y : sigset) : sigset := N.land x (u8_not y).
(** signal.rs:131-133; also [^] and [^=] *)
Definition ss_symmetric_difference (x y : sigset) : sigset := N.lxor x y.
(** signal.rs:141-143; also [&] and [&=] *)
Definition ss_intersection (x y : sigset) : sigset := N.land x y.
(** signal.rs:150-152; also [|] and [|=] *)
Definition ss_union (x y : sigset) : sigset := N.lor x y.
(** signal.rs:159-161; also [!] *)
Definition ss_inverse (x : sigset) : sigset := N.land (u8_not x) all_bits.

(** Derived [PartialEq] on [SignalSet]. *)
Definition ss_eq (x y : sigset) : bool := x =? y.

(** [From<Signal>], signal.rs:195-201. *)
Definition ss_from (s : signal) : sigset := ss_insert ss_new s.

(** [Extend] and [FromIterator], signal.rs:203-218. *)
Definition ss_extend (x : sigset) (l : list signal) : sigset := fold_left ss_insert l x.
Definition ss_from_iter (l : list signal) : sigset := ss_extend ss_new l.

(** [BitOr for Signal], signal.rs:41-51, and [Not for Signal], :53-59. *)
Definition sig_or (s t : signal) : sigset := ss_insert (ss_insert ss_new s) t.
Definition sig_not (s : signal) : sigset := ss_inverse (ss_from s).

(** Derived [Debug for Signal]. *)
Definition sig_debug (s : signal) : string :=
  match s with
  | Break => "Break" | Continue => "Continue" | Interrupt => "Interrupt"
  | Resize => "Resize" | Suspend => "Suspend" | Quit => "Quit"
  end%string.

(** [Debug for SignalSet], signal.rs:164-193: the constant [SIGNALS] and the
    loop with its [first] flag.  Simplification: the formatter never fails. *)
Definition SIGNALS : list signal := [Break; Continue; Interrupt; Resize; Suspend; Quit].

Fixpoint debug_loop (x : sigset) (l : list signal) (first : bool) (acc : string) : string :=
  match l with
  | [] => acc
  | s :: l' =>
      if ss_contains x s then
        let acc := if first then acc else (acc ++ " | ")%string in
        debug_loop x l' false (acc ++ sig_debug s)%string
      else debug_loop x l' first acc
  end.

Definition ss_debug (x : sigset) : string :=
  (debug_loop x SIGNALS true "SignalSet(" ++ ")")%string.

(** Every way a client can build a [SignalSet]. *)
Inductive ss_expr : Type :=
| XNew | XAll | XFrom (s : signal) | XSigOr (s t : signal) | XSigNot (s : signal)
| XInsert (e : ss_expr) (s : signal) | XRemove (e : ss_expr) (s : signal)
| XSet (e : ss_expr) (s : signal) (b : bool)
| XDiff (e f : ss_expr) | XSym (e f : ss_expr) | XInter (e f : ss_expr) | XUnion (e f : ss_expr)
| XInverse (e : ss_expr)
| XExtend (e : ss_expr) (l : list signal) | XFromIter (l : list signal).

Fixpoint ss_eval (e : ss_expr) : sigset :=
  match e with
  | XNew => ss_new | XAll => ss_all | XFrom s => ss_from s
  | XSigOr s t => sig_or s t | XSigNot s => sig_not s
  | XInsert e s => ss_insert (ss_eval e) s
  | XRemove e s => ss_remove (ss_eval e) s
  | XSet e s b => ss_set (ss_eval e) s b
  | XDiff e f => ss_difference (ss_eval e) (ss_eval f)
  | XSym e f => ss_symmetric_difference (ss_eval e) (ss_eval f)
  | XInter e f => ss_intersection (ss_eval e) (ss_eval f)
  | XUnion e f => ss_union (ss_eval e) (ss_eval f)
  | XInverse e => ss_inverse (ss_eval e)
  | XExtend e l => ss_extend (ss_eval e) l
  | XFromIter l => ss_from_iter l
  end.
