(** What threads that share the input of a terminal should see. *)
From Verif Require Import Base M_ReadShare.

Section Share.
  Context {St Op An : Type}.
  Variable act : Op -> St -> option (St * An).

  (** Programs that use a guard only while they have it and lock no second time
      meanwhile ([std::sync::Mutex] would not return). *)
  Fixpoint proper (held : bool) (p : reader_prog Op An) : Prop :=
    match p with
    | HEnd => held = false
    | HCall _ k => held = false /\ forall a, proper false (k a)
    | HLock k => held = false /\ proper true k
    | HTry yes no => held = false /\ proper true yes /\ proper false no
    | HGuard _ k => held = true /\ forall a, proper true (k a)
    | HDrop k => held = true /\ proper false k
    end.

  (** A program makes only calls of some kind. *)
  Fixpoint calls_only (P : Op -> Prop) (p : reader_prog Op An) : Prop :=
    match p with
    | HEnd => True
    | HCall o k | HGuard o k => P o /\ forall a, calls_only P (k a)
    | HLock k | HDrop k => calls_only P k
    | HTry yes no => calls_only P yes /\ calls_only P no
    end.

  (** What a program did, in pieces: a call on its own, or the calls made with one guard;
      each call with its answer.  The guard now held, if any, has made [g] so far. *)
  Inductive did : option (list (Op * An)) -> reader_prog Op An -> list (list (Op * An)) -> Prop :=
  | Di_end : did None HEnd []
  | Di_call o k a l : did None (k a) l -> did None (HCall o k) ([(o, a)] :: l)
  | Di_lock k l : did (Some []) k l -> did None (HLock k) l
  | Di_got yes no l : did (Some []) yes l -> did None (HTry yes no) l
  | Di_busy yes no l : did None no l -> did None (HTry yes no) l
  | Di_guard g o k a l : did (Some (g ++ [(o, a)])) (k a) l -> did (Some g) (HGuard o k) l
  | Di_drop g k l : did None k l -> did (Some g) (HDrop k) (g :: l).

  (** One thread alone, making the calls one after the other, gets the same answers. *)
  Inductive one_by_one : St -> list (Op * An) -> St -> Prop :=
  | Ob_nil s : one_by_one s [] s
  | Ob_cons s o a l s' s'' : act o s = Some (s', a) -> one_by_one s' l s'' -> one_by_one s ((o, a) :: l) s''.

  (** Nobody can go on, although somebody is not done. *)
  Definition stuck (c : readers St Op An) : Prop :=
    ~ all_ended c /\ forall i c', ~ reader_step act c i c'.
End Share.

(** What the methods do on Unix and on Windows. *)
From Verif Require Import M_Seq M_Util M_Input M_Buf M_Writer M_Prepare M_Reader M_WinWriter M_WinReader S_WinReader.
Definition unix_act : tcfg -> seq_map -> M_Reader.rop -> sys -> option (sys * reply) := M_Reader.rstep.
Definition win_act (E : env) (o : wrop) (s : wsys) : option (wsys * wreply) :=
  match S_WinReader.rop E o s with Ret s r => Some (s, r) | _ => None end.
