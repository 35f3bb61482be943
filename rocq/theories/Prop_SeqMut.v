From Verif Require Import Base M_Seq S_Seq M_SeqMut S_SeqMut P_SeqMut.

(** C102: whatever is assigned through [sequences_mut], no call of the map panics. *)
Theorem C102_never_panics :
  forall (K V : Type) (as_ref : K -> bytes) (c : seq_ctor K V) (l : list (seq_call K V)),
    exists m0 m rs, sm_build as_ref c = Some m0 /\ calls as_ref m0 l = Some (m, rs).
Proof. exact never_panics. Qed.
Print Assumptions C102_never_panics.

(** If the keys are in order and different afterwards, the map works as a finite map of what
    is in the slice from then on. *)
Theorem C102_in_order_partial :
  forall (K V : Type) (as_ref : K -> bytes) (m : seqmap K V) ops q,
    strictly_increasing (keys_of as_ref m) ->
    (exists m' a rs, spec_run as_ref (first_occ as_ref (sm_sequences m)) ops = (a, rs) /\
      sm_run as_ref m ops = Some (m', rs) /\
      (forall q, sm_get as_ref m' q = Some (option_map snd (a q))) /\
      strictly_increasing (keys_of as_ref m')) /\
    (exists r, sm_find as_ref m q = Some r /\ find_spec (first_occ as_ref (sm_sequences m)) q r).
Proof. exact works_as_a_map. Qed.
Print Assumptions C102_in_order_partial.

(** Assigning a value only (with the key or one that reads the same) changes the value of this
    key and nothing else, and keeps the order. *)
Theorem C102_values :
  forall (K V : Type) (as_ref : K -> bytes) (m : seqmap K V) i kv k v,
    strictly_increasing (keys_of as_ref m) ->
    nth_error (sm_sequences m) i = Some kv -> as_ref k = as_ref (fst kv) ->
    strictly_increasing (keys_of as_ref (sm_assign m i (k, v))) /\
    (forall q, sm_get as_ref (sm_assign m i (k, v)) q =
       Some (option_map snd (with_value (first_occ as_ref (sm_sequences m)) (as_ref k) (k, v) q))).
Proof. exact assign_value. Qed.
Print Assumptions C102_values.

(** Sorted, which is all the documentation asks for, is not enough: with a key several times,
    [find] may say that longer sequences exist when none does (which of several equal keys the
    binary search meets is left open by the standard library; here it is that of Rust 1.52 to
    1.81). *)
Theorem C102_duplicates_refuted :
  exists (m : seqmap bytes N) v, comes_about (fun k => k) m /\ sorted_keys (keys_of (fun k => k) m) /\
    sm_find (fun k => k) m [97]%N = Some (Undecided v) /\
    ~ exists kv, In kv (sm_sequences m) /\ fst kv <> [97]%N /\ is_prefix [97]%N (fst kv).
Proof. exact duplicates_mislead. Qed.
Print Assumptions C102_duplicates_refuted.

Example C102_example :
  let s := fun k : bytes => k in
  let m0 := sm_from_vec s [([98], 1); ([97], 0); ([99], 2)]%N in
  (exists m rs, calls s m0 [CallAssign 1 ([98; 120], 7); CallFind [98]; CallOp (OpGet [98; 120])]%N = Some (m, rs) /\
     strictly_increasing (keys_of s m) /\
     rs = [ReplyNone; ReplyFind Incomplete; ReplyOp (RpVal (Some 7%N))]) /\
  (exists m rs, calls s m0 [CallAssign 0 ([122], 9); CallOp (OpGet [122]); CallAssign 8 ([122], 9); CallOp (OpInsert [97] 5)]%N = Some (m, rs) /\
     In ([122], 9)%N (sm_sequences m) /\
     rs = [ReplyNone; ReplyOp (RpVal None); ReplyNone; ReplyOp (RpVal None)]).
Proof. exact seqmut_example. Qed.
