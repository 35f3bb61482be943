(** Specification for changes through [sequences_mut] (C102). *)
From Verif Require Import Base M_Seq S_Seq M_SeqMut.

(** The keys, as text. *)
Definition keys_of {K V} (as_ref : K -> bytes) (m : seqmap K V) : list bytes :=
  map (fun kv => as_ref (fst kv)) (sm_sequences m).

(** Sorted, equal neighbours allowed: what the documentation asks for. *)
Fixpoint sorted_keys (l : list bytes) : Prop :=
  match l with
  | [] => True
  | x :: l => (forall y, In y l -> x = y \/ byte_lt x y) /\ sorted_keys l
  end.

(** What any constructor, any calls and any assignments lead to. *)
Definition comes_about {K V} (as_ref : K -> bytes) (m : seqmap K V) : Prop :=
  exists c m0 l rs, sm_build as_ref c = Some m0 /\ calls as_ref m0 l = Some (m, rs).

(** The map with another value for one of its keys. *)
Definition with_value {K V} (a : amap K V) (q : bytes) (kv : K * V) : amap K V :=
  fun x => if list_eq_dec N.eq_dec x q then Some kv else a x.
