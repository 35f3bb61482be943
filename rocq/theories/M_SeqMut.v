(** Changing the sequences of a [SequenceMap] in place, through the slice that
    [sequences_mut] returns. *)
From Verif Require Import Base M_Seq.

Section SequencesMut.
  Variables (K V : Type) (as_ref : K -> bytes).

  (** [sequences_mut], sequence.rs:60-69: a mutable slice of the elements.  What a caller can do
      with a slice is to put other elements in its places, one after the other; a place beyond
      its end is none ([get_mut] on the slice gives [None]).  Simplification: the element that
      was there is dropped (swapping two is two assignments). *)
  Definition sm_assign (m : seqmap K V) (i : nat) (kv : K * V) : seqmap K V :=
    match vec_set i kv m with
    | Some m' => m'
    | None => m
    end.

  (** A call: one of those of M_Seq, [find] (sequence.rs:89-104), or an assignment. *)
  Inductive seq_call : Type :=
  | CallOp (o : seq_op K V)
  | CallFind (q : bytes)
  | CallAssign (i : nat) (kv : K * V).
  Inductive call_reply : Type :=
  | ReplyOp (r : seq_reply K V)
  | ReplyFind (r : find_result V)
  | ReplyNone.

  (** [None] is a panic. *)
  Definition call (m : seqmap K V) (c : seq_call) : option (seqmap K V * call_reply) :=
    match c with
    | CallOp o => match sm_step as_ref m o with
                  | Some (m', r) => Some (m', ReplyOp r)
                  | None => None
                  end
    | CallFind q => match sm_find as_ref m q with
                    | Some r => Some (m, ReplyFind r)
                    | None => None
                    end
    | CallAssign i kv => Some (sm_assign m i kv, ReplyNone)
    end.
  Fixpoint calls (m : seqmap K V) (l : list seq_call) : option (seqmap K V * list call_reply) :=
    match l with
    | [] => Some (m, [])
    | c :: l => match call m c with
                | Some (m, r) => match calls m l with
                                 | Some (m, rs) => Some (m, r :: rs)
                                 | None => None
                                 end
                | None => None
                end
    end.
End SequencesMut.

Arguments sm_assign {K V} m i kv.
Arguments CallOp {K V} o.
Arguments CallFind {K V} q.
Arguments CallAssign {K V} i kv.
Arguments ReplyOp {K V} r.
Arguments ReplyFind {K V} r.
Arguments ReplyNone {K V}.
Arguments call {K V} as_ref m c.
Arguments calls {K V} as_ref m l.
