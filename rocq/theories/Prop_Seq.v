(** Property theorems for [SequenceMap] (C01-C05).  [None] from a model function
    is a panic; each theorem also says that there is none. *)
From Verif Require Import Base M_Seq S_Seq P_Seq.

(** C01: any history of API calls on any initial map behaves like a finite map:
    same replies, and [get] / [sequences] show exactly the abstract map. *)
Theorem C01_history_refines_finite_map :
  forall (K V : Type) (as_ref : K -> bytes) (c : seq_ctor K V) (ops : list (seq_op K V)),
    exists m0 m replies a,
      sm_build as_ref c = Some m0 /\
      spec_run as_ref (spec_build as_ref c) ops = (a, replies) /\
      sm_run as_ref m0 ops = Some (m, replies) /\
      (forall q, sm_get as_ref m q = Some (option_map snd (a q))) /\
      (forall kv, In kv (sm_sequences m) <-> a (as_ref (fst kv)) = Some kv).
Proof. exact map_refinement. Qed.
Print Assumptions C01_history_refines_finite_map.

(** A key type whose [as_ref] is not injective: the tag is not part of the text. *)
Definition ex_key : Type := bytes * bool.
Definition ex_ref (k : ex_key) : bytes := fst k.
Definition ex_ops : list (seq_op ex_key N) :=
  [ OpInsert ([98], false) 1; OpInsert ([97], false) 2; OpInsert ([98; 99], false) 3;
    OpInsert ([98], true) 4; OpRemove [97]; OpGetMut [98] N.succ;
    OpEntry ([98; 99], true) [N.succ; N.succ] (EOrInsert 9 (fun x => x * 2)%N) ]%N.

Example C01_example :
  sm_run ex_ref [] ex_ops =
  Some ([(([98], true), 5); (([98; 99], false), 10)],
        [RpVal None; RpVal None; RpVal None; RpVal (Some 1);
         RpPair (Some (([97], false), 2)); RpVal (Some 4); RpVal (Some 5)])%N.
Proof. vm_compute. reflexivity. Qed.

(** C02: [sequences()] is strictly increasing in byte order, without duplicates,
    and shows exactly what [get] sees; [get] never panics. *)
Theorem C02_sequences_strictly_sorted :
  forall (K V : Type) (as_ref : K -> bytes) (m : seqmap K V),
    reachable as_ref m ->
    strictly_increasing (map (fun kv => as_ref (fst kv)) (sm_sequences m)) /\
    NoDup (map (fun kv => as_ref (fst kv)) (sm_sequences m)) /\
    (forall q v, sm_get as_ref m q = Some (Some v) <->
                 exists k, as_ref k = q /\ In (k, v) (sm_sequences m)) /\
    (forall q, sm_get as_ref m q <> None).
Proof. exact sequences_sorted. Qed.
Print Assumptions C02_sequences_strictly_sorted.

Example C02_reachable :
  reachable ex_ref [(([98], true), 5); (([98; 99], false), 10)]%N.
Proof. exists CNew, ex_ops, [], (snd (spec_run ex_ref a_empty ex_ops)). split; vm_compute; reflexivity. Qed.

(** C03: [find] classifies every query as documented, looking at the stored
    sequences as a set. *)
Theorem C03_find_classification :
  forall (K V : Type) (as_ref : K -> bytes) (m : seqmap K V) (q : bytes),
    reachable as_ref m ->
    exists r, sm_find as_ref m q = Some r /\
      find_spec (first_occ as_ref (sm_sequences m)) q r.
Proof. exact find_documented. Qed.
Print Assumptions C03_find_classification.

Example C03_example :
  let m := [(([98], true), 5); (([98; 99], false), 10)]%N in
  (sm_find ex_ref m [98], sm_find ex_ref m [98; 99], sm_find ex_ref m [], sm_find ex_ref m [99])%N
  = (Some (Undecided 5%N), Some (Found 10%N), Some Incomplete, Some NotFound).
Proof. vm_compute. reflexivity. Qed.

(** C04: [From<Vec>] keeps the first of equal keys, [FromIterator] the last;
    no other keys are present. *)
Theorem C04_first_and_last_duplicate :
  forall (K V : Type) (as_ref : K -> bytes) (l : list (K * V)),
    (forall q, sm_get as_ref (sm_from_vec as_ref l) q = Some (option_map snd (first_occ as_ref l q))) /\
    (exists m, sm_from_iter as_ref l = Some m /\
               forall q, sm_get as_ref m q = Some (option_map snd (last_occ as_ref l q))).
Proof. exact constructors. Qed.
Print Assumptions C04_first_and_last_duplicate.

Example C04_example :
  let l := [(([99], false), 1); (([97], false), 2); (([99], true), 3)]%N in
  sm_from_vec ex_ref l = [(([97], false), 2); (([99], false), 1)]%N /\
  sm_from_iter ex_ref l = Some [(([97], false), 2); (([99], true), 3)]%N.
Proof. split; vm_compute; reflexivity. Qed.

(** C05: the entry API has its documented effect on the value of its key, keeps
    the stored key object, and does not touch other keys. *)
Theorem C05_entry_api :
  forall (K V : Type) (as_ref : K -> bytes) (m : seqmap K V) k mods fin,
    reachable as_ref m ->
    exists m' r old,
      sm_get as_ref m (as_ref k) = Some old /\
      sm_step as_ref m (OpEntry k mods fin) = Some (m', r) /\
      sm_get as_ref m' (as_ref k) = Some (fst (entry_effect old mods fin)) /\
      reply_value r = snd (entry_effect old mods fin) /\
      (forall q, q <> as_ref k -> sm_get as_ref m' q = sm_get as_ref m q) /\
      (forall k0 v0 k1 v1, as_ref k0 = as_ref k -> as_ref k1 = as_ref k ->
         In (k0, v0) (sm_sequences m) -> In (k1, v1) (sm_sequences m') -> k1 = k0) /\
      (forall k1 v1, old = None -> as_ref k1 = as_ref k -> In (k1, v1) (sm_sequences m') -> k1 = k).
Proof. exact entry_documented. Qed.
Print Assumptions C05_entry_api.

(** C05, second half: [SequenceMap::insert] stores the new key object too. *)
Theorem C05_insert_replaces_key :
  forall (K V : Type) (as_ref : K -> bytes) (m : seqmap K V) k v,
    reachable as_ref m ->
    exists m' r, sm_insert as_ref m k v = Some (m', r) /\
      sm_get as_ref m (as_ref k) = Some r /\
      In (k, v) (sm_sequences m') /\
      (forall q, q <> as_ref k -> sm_get as_ref m' q = sm_get as_ref m q).
Proof. exact insert_replaces_key. Qed.
Print Assumptions C05_insert_replaces_key.

Example C05_example :
  let m := [(([98], true), 5); (([98; 99], false), 10)]%N in
  sm_step ex_ref m (OpEntry ([98], false) [N.succ] (EReplace 7))%N =
    Some ([(([98], true), 7); (([98; 99], false), 10)], RpVal (Some 6))%N /\
  sm_insert ex_ref m ([98], false)%N 7%N =
    Some ([(([98], false), 7); (([98; 99], false), 10)]%N, Some 5%N).
Proof. split; vm_compute; reflexivity. Qed.
