(** Model of /repo/src/sequence.rs: [SequenceMap].

    [K: AsRef<str>] is a type with a function [as_ref : K -> bytes] (the UTF-8
    bytes of the key); [as_ref] is assumed to be a pure function. *)
From Verif Require Import Base.

(** [Ord for str]: bytewise lexicographic order
    (used by sequence.rs:145 and :156). *)
Fixpoint bytes_cmp (a b : bytes) : comparison :=
  match a, b with
  | [], [] => Eq
  | [], _ :: _ => Lt
  | _ :: _, [] => Gt
  | x :: a', y :: b' =>
      match N.compare x y with
      | Eq => bytes_cmp a' b'
      | c => c
      end
  end.

(** [str::starts_with(&str)] (sequence.rs:96). *)
Fixpoint starts_with (s p : bytes) {struct p} : bool :=
  match p, s with
  | [], _ => true
  | _ :: _, [] => false
  | y :: p', x :: s' => N.eqb x y && starts_with s' p'
  end.

(** [Result<usize, usize>] returned by the binary search. *)
Inductive search_result : Type :=
| SOk (i : nat)
| SErr (i : nat).

(** [FindResult], sequence.rs:13-28. *)
Inductive find_result (V : Type) : Type :=
| NotFound
| Incomplete
| Undecided (v : V)
| Found (v : V).
Arguments NotFound {V}.
Arguments Incomplete {V}.
Arguments Undecided {V} v.
Arguments Found {V} v.

(** [Entry], sequence.rs:185-203: the map is borrowed by the entry; here the
    entry only records what it holds besides the map. *)
Inductive entry (K : Type) : Type :=
| Occupied (index : nat)
| Vacant (key : K) (index : nat).
Arguments Occupied {K} index.
Arguments Vacant {K} key index.

Section SequenceMap.
  Variables (K V : Type) (as_ref : K -> bytes).

  (** [SequenceMap], sequence.rs:8-11. *)
  Definition seqmap := list (K * V).

  (** [SequenceMap::new] / [with_capacity], sequence.rs:44-53
      (the capacity is not observable). *)
  Definition sm_new : seqmap := [].

  (** [binary_search_by_key] as in std: halve the interval
      [left, left+size).  [fuel] is at least [size], so the recursion is never
      cut short. *)
  Fixpoint bsearch (m : seqmap) (key : bytes) (fuel left size : nat) : search_result :=
    match fuel with
    | 0 => SErr left
    | S fuel' =>
        if size =? 0 then SErr left else
        let half := size / 2 in
        let mid := left + half in
        match nth_error m mid with
        | None => SErr left
        | Some kv =>
            match bytes_cmp (as_ref (fst kv)) key with
            | Eq => SOk mid
            | Lt => bsearch m key fuel' (mid + 1) (size - half - 1)
            | Gt => bsearch m key fuel' left half
            end
        end
    end.

  (** [search], sequence.rs:144-146. *)
  Definition sm_search (m : seqmap) (key : bytes) : search_result :=
    bsearch m key (length m) 0 (length m).

  (** [sequences], sequence.rs:56-58. *)
  Definition sm_sequences (m : seqmap) : list (K * V) := m.

  (** [get], sequence.rs:107-112; outer [None] is an index panic. *)
  Definition sm_get (m : seqmap) (key : bytes) : option (option V) :=
    match sm_search m key with
    | SOk n => match nth_error m n with
               | Some kv => Some (Some (snd kv))
               | None => None
               end
    | SErr _ => Some None
    end.

  (** [get_mut] (sequence.rs:115-120) followed by a mutation [f] of the
      referenced value; the reply is the value before [f]. *)
  Definition sm_get_mut (m : seqmap) (key : bytes) (f : V -> V)
    : option (seqmap * option V) :=
    match sm_search m key with
    | SOk n => match nth_error m n with
               | Some kv =>
                   match vec_set n (fst kv, f (snd kv)) m with
                   | Some m' => Some (m', Some (snd kv))
                   | None => None
                   end
               | None => None
               end
    | SErr _ => Some (m, None)
    end.

  (** [find], sequence.rs:89-104; [None] is an index panic. *)
  Definition sm_find (m : seqmap) (key : bytes) : option (find_result V) :=
    let '(n, found) := match sm_search m key with
                       | SOk n => (n, true)
                       | SErr n => (n, false)
                       end in
    let incomplete :=
      match nth_error m (n + (if found then 1 else 0)) with
      | Some kv => starts_with (as_ref (fst kv)) key
      | None => false
      end in
    match found, incomplete with
    | false, false => Some NotFound
    | false, true => Some Incomplete
    | true, false => match nth_error m n with
                     | Some kv => Some (Found (snd kv))
                     | None => None
                     end
    | true, true => match nth_error m n with
                    | Some kv => Some (Undecided (snd kv))
                    | None => None
                    end
    end.

  (** [insert], sequence.rs:126-134. *)
  Definition sm_insert (m : seqmap) (key : K) (value : V) : option (seqmap * option V) :=
    match sm_search m (as_ref key) with
    | SOk n => match nth_error m n, vec_set n (key, value) m with
               | Some kv, Some m' => Some (m', Some (snd kv))
               | _, _ => None
               end
    | SErr n => match vec_insert n (key, value) m with
                | Some m' => Some (m', None)
                | None => None
                end
    end.

  (** [remove], sequence.rs:137-142. *)
  Definition sm_remove (m : seqmap) (key : bytes) : option (seqmap * option (K * V)) :=
    match sm_search m key with
    | SOk n => match vec_remove n m with
               | Some (kv, m') => Some (m', Some kv)
               | None => None
               end
    | SErr _ => Some (m, None)
    end.

  (** Stable sort by key (sequence.rs:156, [sort_by] is stable): insertion
      sort, a new element goes after the equal ones already present.
      Simplification: std's algorithm differs, its result does not. *)
  Fixpoint sort_insert (x : K * V) (l : list (K * V)) : list (K * V) :=
    match l with
    | [] => [x]
    | y :: l' => match bytes_cmp (as_ref (fst x)) (as_ref (fst y)) with
                 | Lt => x :: l
                 | _ => y :: sort_insert x l'
                 end
    end.

  Definition stable_sort (l : list (K * V)) : list (K * V) :=
    fold_left (fun acc x => sort_insert x acc) l [].

  (** [dedup_by] (sequence.rs:157): drop an element whose key equals that of
      the last retained element. *)
  Fixpoint dedup_from (prev : K * V) (l : list (K * V)) : list (K * V) :=
    match l with
    | [] => []
    | y :: l' => match bytes_cmp (as_ref (fst y)) (as_ref (fst prev)) with
                 | Eq => dedup_from prev l'
                 | _ => y :: dedup_from y l'
                 end
    end.

  Definition dedup (l : list (K * V)) : list (K * V) :=
    match l with
    | [] => []
    | x :: l' => x :: dedup_from x l'
    end.

  (** [From<Vec<(K, V)>>::from], sequence.rs:149-161. *)
  Definition sm_from_vec (l : list (K * V)) : seqmap := dedup (stable_sort l).

  (** [FromIterator::from_iter], sequence.rs:163-177. *)
  Fixpoint sm_extend (m : seqmap) (l : list (K * V)) : option seqmap :=
    match l with
    | [] => Some m
    | (k, v) :: l' => match sm_insert m k v with
                      | Some (m', _) => sm_extend m' l'
                      | None => None
                      end
    end.

  Definition sm_from_iter (l : list (K * V)) : option seqmap := sm_extend sm_new l.

  (** [entry], sequence.rs:74-86. *)
  Definition sm_entry (m : seqmap) (key : K) : entry K :=
    match sm_search m (as_ref key) with
    | SOk n => Occupied n
    | SErr n => Vacant key n
    end.

  (** [OccupiedEntry::get_mut] / [into_mut] (sequence.rs:264-272) followed by a
      mutation [f] of the referenced value; replies the value before [f]. *)
  Definition occ_modify (m : seqmap) (i : nat) (f : V -> V) : option (seqmap * V) :=
    match nth_error m i with
    | Some kv => match vec_set i (fst kv, f (snd kv)) m with
                 | Some m' => Some (m', snd kv)
                 | None => None
                 end
    | None => None
    end.

  (** [OccupiedEntry::insert], sequence.rs:275-277. *)
  Definition occ_insert (m : seqmap) (i : nat) (v : V) : option (seqmap * V) :=
    occ_modify m i (fun _ => v).

  (** [OccupiedEntry::remove_entry] / [remove], sequence.rs:280-287. *)
  Definition occ_remove_entry (m : seqmap) (i : nat) : option (seqmap * (K * V)) :=
    match vec_remove i m with
    | Some (kv, m') => Some (m', kv)
    | None => None
    end.

  (** [VacantEntry::insert] (sequence.rs:303-306) followed by a mutation [g]
      through the returned reference; replies the value before [g]. *)
  Definition vac_insert (m : seqmap) (key : K) (i : nat) (v : V) (g : V -> V)
    : option (seqmap * V) :=
    match vec_insert i (key, v) m with
    | Some m' => occ_modify m' i g
    | None => None
    end.

  (** [Entry::and_modify], sequence.rs:208-216. *)
  Definition entry_and_modify (m : seqmap) (e : entry K) (f : V -> V) : option seqmap :=
    match e with
    | Occupied i => match occ_modify m i f with
                    | Some (m', _) => Some m'
                    | None => None
                    end
    | Vacant _ _ => Some m
    end.

  (** A chain of [and_modify] calls. *)
  Fixpoint entry_modifies (m : seqmap) (e : entry K) (fs : list (V -> V)) : option seqmap :=
    match fs with
    | [] => Some m
    | f :: fs' => match entry_and_modify m e f with
                  | Some m' => entry_modifies m' e fs'
                  | None => None
                  end
    end.

  (** [Entry::or_insert] / [or_insert_with] (sequence.rs:220-234), followed by a
      mutation [g] through the returned reference. *)
  Definition entry_or_insert (m : seqmap) (e : entry K) (v : V) (g : V -> V)
    : option (seqmap * V) :=
    match e with
    | Occupied i => occ_modify m i g
    | Vacant k i => vac_insert m k i v g
    end.

  (** [Entry::key] and the [key] methods, sequence.rs:237-242, :247-249, :292-294. *)
  Definition entry_key (m : seqmap) (e : entry K) : option K :=
    match e with
    | Occupied i => option_map fst (nth_error m i)
    | Vacant k _ => Some k
    end.

  (** What a client finally does with an [Entry]. *)
  Inductive entry_final : Type :=
  | EDrop                              (* drop it, having looked at [key()] *)
  | EOrInsert (v : V) (g : V -> V)     (* [or_insert(v)], then mutate by [g] *)
  | EReplace (v : V)                   (* match: [OccupiedEntry::insert(v)] or [VacantEntry::insert(v)] *)
  | ERemoveEntry                       (* match: [OccupiedEntry::remove_entry] or [VacantEntry::into_key] *)
  | ERemove.                           (* match: [OccupiedEntry::remove] or drop *)

  (** One call of the public API. *)
  Inductive seq_op : Type :=
  | OpInsert (k : K) (v : V)
  | OpRemove (q : bytes)
  | OpGet (q : bytes)
  | OpGetMut (q : bytes) (f : V -> V)
  | OpEntry (k : K) (mods : list (V -> V)) (fin : entry_final).

  (** What the client observes. *)
  Inductive seq_reply : Type :=
  | RpVal (o : option V)
  | RpPair (o : option (K * V))
  | RpKey (k : K).

  Definition entry_finish (m : seqmap) (e : entry K) (fin : entry_final)
    : option (seqmap * seq_reply) :=
    match fin with
    | EDrop => match entry_key m e with
               | Some k => Some (m, RpKey k)
               | None => None
               end
    | EOrInsert v g => match entry_or_insert m e v g with
                       | Some (m', x) => Some (m', RpVal (Some x))
                       | None => None
                       end
    | EReplace v =>
        match e with
        | Occupied i => match occ_insert m i v with
                        | Some (m', x) => Some (m', RpVal (Some x))
                        | None => None
                        end
        | Vacant k i => match vac_insert m k i v (fun x => x) with
                        | Some (m', _) => Some (m', RpVal None)
                        | None => None
                        end
        end
    | ERemoveEntry =>
        match e with
        | Occupied i => match occ_remove_entry m i with
                        | Some (m', kv) => Some (m', RpPair (Some kv))
                        | None => None
                        end
        | Vacant k _ => Some (m, RpKey k)
        end
    | ERemove =>
        match e with
        | Occupied i => match occ_remove_entry m i with
                        | Some (m', kv) => Some (m', RpVal (Some (snd kv)))
                        | None => None
                        end
        | Vacant _ _ => Some (m, RpVal None)
        end
    end.

  (** One API call; [None] is a panic. *)
  Definition sm_step (m : seqmap) (o : seq_op) : option (seqmap * seq_reply) :=
    match o with
    | OpInsert k v => match sm_insert m k v with
                      | Some (m', r) => Some (m', RpVal r)
                      | None => None
                      end
    | OpRemove q => match sm_remove m q with
                    | Some (m', r) => Some (m', RpPair r)
                    | None => None
                    end
    | OpGet q => match sm_get m q with
                 | Some r => Some (m, RpVal r)
                 | None => None
                 end
    | OpGetMut q f => match sm_get_mut m q f with
                      | Some (m', r) => Some (m', RpVal r)
                      | None => None
                      end
    | OpEntry k mods fin =>
        let e := sm_entry m k in
        match entry_modifies m e mods with
        | Some m1 => entry_finish m1 e fin
        | None => None
        end
    end.

  (** A history of API calls. *)
  Fixpoint sm_run (m : seqmap) (ops : list seq_op) : option (seqmap * list seq_reply) :=
    match ops with
    | [] => Some (m, [])
    | o :: ops' =>
        match sm_step m o with
        | Some (m', r) => match sm_run m' ops' with
                          | Some (m'', rs) => Some (m'', r :: rs)
                          | None => None
                          end
        | None => None
        end
    end.

  (** The ways a client obtains a map. *)
  Inductive seq_ctor : Type :=
  | CNew
  | CFromVec (l : list (K * V))
  | CFromIter (l : list (K * V)).

  Definition sm_build (c : seq_ctor) : option seqmap :=
    match c with
    | CNew => Some sm_new
    | CFromVec l => Some (sm_from_vec l)
    | CFromIter l => sm_from_iter l
    end.
End SequenceMap.

Arguments sm_new {K V}.
Arguments bsearch {K V} as_ref m key fuel left size.
Arguments sm_search {K V} as_ref m key.
Arguments sm_sequences {K V} m.
Arguments sm_get {K V} as_ref m key.
Arguments sm_get_mut {K V} as_ref m key f.
Arguments sm_find {K V} as_ref m key.
Arguments sm_insert {K V} as_ref m key value.
Arguments sm_remove {K V} as_ref m key.
Arguments sort_insert {K V} as_ref x l.
Arguments stable_sort {K V} as_ref l.
Arguments dedup_from {K V} as_ref prev l.
Arguments dedup {K V} as_ref l.
Arguments sm_from_vec {K V} as_ref l.
Arguments sm_extend {K V} as_ref m l.
Arguments sm_from_iter {K V} as_ref l.
Arguments sm_entry {K V} as_ref m key.
Arguments occ_modify {K V} m i f.
Arguments occ_insert {K V} m i v.
Arguments occ_remove_entry {K V} m i.
Arguments vac_insert {K V} m key i v g.
Arguments entry_and_modify {K V} m e f.
Arguments entry_modifies {K V} m e fs.
Arguments entry_or_insert {K V} m e v g.
Arguments entry_key {K V} m e.
Arguments EDrop {V}.
Arguments EOrInsert {V} v g.
Arguments EReplace {V} v.
Arguments ERemoveEntry {V}.
Arguments ERemove {V}.
Arguments OpInsert {K V} k v.
Arguments OpRemove {K V} q.
Arguments OpGet {K V} q.
Arguments OpGetMut {K V} q f.
Arguments OpEntry {K V} k mods fin.
Arguments RpVal {K V} o.
Arguments RpPair {K V} o.
Arguments RpKey {K V} k.
Arguments entry_finish {K V} m e fin.
Arguments sm_step {K V} as_ref m o.
Arguments sm_run {K V} as_ref m ops.
Arguments CNew {K V}.
Arguments CFromVec {K V} l.
Arguments CFromIter {K V} l.
Arguments sm_build {K V} as_ref c.
