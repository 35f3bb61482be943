(** Specification of a map keyed by strings, independent of [SequenceMap]'s
    representation: a function from strings to the stored key/value pair. *)
From Verif Require Import Base M_Seq.

Section Spec.
  Variables (K V : Type) (as_ref : K -> bytes).

  Definition amap := bytes -> option (K * V).

  Definition a_empty : amap := fun _ => None.

  Definition a_set (a : amap) (q : bytes) (o : option (K * V)) : amap :=
    fun q' => if list_eq_dec N.eq_dec q' q then o else a q'.

  (** Value of the first / last pair of [l] whose key reads [q]. *)
  Fixpoint first_occ (l : list (K * V)) (q : bytes) : option (K * V) :=
    match l with
    | [] => None
    | kv :: l' => if list_eq_dec N.eq_dec (as_ref (fst kv)) q then Some kv else first_occ l' q
    end.

  Definition last_occ (l : list (K * V)) (q : bytes) : option (K * V) := first_occ (rev l) q.

  Definition spec_build (c : seq_ctor K V) : amap :=
    match c with
    | CNew => a_empty
    | CFromVec l => first_occ l
    | CFromIter l => last_occ l
    end.

  (** One API call on the abstract map. *)
  Definition spec_step (a : amap) (o : seq_op K V) : amap * seq_reply K V :=
    match o with
    | OpInsert k v => (a_set a (as_ref k) (Some (k, v)), RpVal (option_map snd (a (as_ref k))))
    | OpRemove q => (a_set a q None, RpPair (a q))
    | OpGet q => (a, RpVal (option_map snd (a q)))
    | OpGetMut q f =>
        match a q with
        | Some (k, v) => (a_set a q (Some (k, f v)), RpVal (Some v))
        | None => (a, RpVal None)
        end
    | OpEntry k mods fin =>
        let q := as_ref k in
        match a q with
        | Some (k0, v0) =>
            (* occupied: the stored key [k0] is kept; the closures act in order *)
            let v1 := fold_left (fun v f => f v) mods v0 in
            match fin with
            | EDrop => (a_set a q (Some (k0, v1)), RpKey k0)
            | EOrInsert _ g => (a_set a q (Some (k0, g v1)), RpVal (Some v1))
            | EReplace v => (a_set a q (Some (k0, v)), RpVal (Some v1))
            | ERemoveEntry => (a_set a q None, RpPair (Some (k0, v1)))
            | ERemove => (a_set a q None, RpVal (Some v1))
            end
        | None =>
            (* vacant: the closures are not run *)
            match fin with
            | EDrop => (a, RpKey k)
            | EOrInsert v g => (a_set a q (Some (k, g v)), RpVal (Some v))
            | EReplace v => (a_set a q (Some (k, v)), RpVal None)
            | ERemoveEntry => (a, RpKey k)
            | ERemove => (a, RpVal None)
            end
        end
    end.

  Fixpoint spec_run (a : amap) (ops : list (seq_op K V)) : amap * list (seq_reply K V) :=
    match ops with
    | [] => (a, [])
    | o :: ops' =>
        let '(a1, r) := spec_step a o in
        let '(a2, rs) := spec_run a1 ops' in
        (a2, r :: rs)
    end.

  (** Byte order on strings: [a] is a proper prefix of [b], or they first
      differ at a byte where [a]'s is smaller. *)
  Definition byte_lt (a b : bytes) : Prop :=
    (exists x r, b = a ++ x :: r) \/
    (exists p x y ra rb, a = p ++ x :: ra /\ b = p ++ y :: rb /\ (x < y)%N).

  (** Every element is smaller than all later ones. *)
  Fixpoint strictly_increasing (l : list bytes) : Prop :=
    match l with
    | [] => True
    | x :: l' => (forall y, In y l' -> byte_lt x y) /\ strictly_increasing l'
    end.

  (** [p] is a prefix of [s]. *)
  Definition is_prefix (p s : bytes) : Prop := exists r, s = p ++ r.

  (** Documented meaning of [find]'s result for query [q] on abstract map [a]. *)
  Definition find_spec (a : amap) (q : bytes) (r : find_result V) : Prop :=
    let stored := exists kv, a q = Some kv in
    let extended := exists s kv, a s = Some kv /\ s <> q /\ is_prefix q s in
    match r with
    | NotFound => ~ stored /\ ~ extended
    | Incomplete => ~ stored /\ extended
    | Undecided v => (exists k, a q = Some (k, v)) /\ extended
    | Found v => (exists k, a q = Some (k, v)) /\ ~ extended
    end.
End Spec.

Arguments a_empty {K V}.
Arguments a_set {K V} a q o.
Arguments first_occ {K V} as_ref l q.
Arguments last_occ {K V} as_ref l q.
Arguments spec_build {K V} as_ref c.
Arguments spec_step {K V} as_ref a o.
Arguments spec_run {K V} as_ref a ops.
Arguments find_spec {K V} a q r.

(** States a client can reach: a constructor followed by any API calls. *)
Definition reachable {K V} (as_ref : K -> bytes) (m : seqmap K V) : Prop :=
  exists c ops m0 replies,
    sm_build as_ref c = Some m0 /\ sm_run as_ref m0 ops = Some (m, replies).

(** Documented effect of [entry(k)], some [and_modify] calls and a final method,
    in terms of the value [old] that [get(k)] returned before: the new value for
    [k] and what the client observes about the value. *)
Definition entry_effect {V} (old : option V) (mods : list (V -> V)) (fin : entry_final V)
  : option V * option V :=
  match old with
  | Some v0 =>
      let v1 := fold_left (fun v f => f v) mods v0 in
      match fin with
      | EDrop => (Some v1, None)
      | EOrInsert _ g => (Some (g v1), Some v1)
      | EReplace v => (Some v, Some v1)
      | ERemoveEntry => (None, Some v1)
      | ERemove => (None, Some v1)
      end
  | None =>
      match fin with
      | EDrop => (None, None)
      | EOrInsert v g => (Some (g v), Some v)
      | EReplace v => (Some v, None)
      | ERemoveEntry => (None, None)
      | ERemove => (None, None)
      end
  end.

Definition reply_value {K V} (r : seq_reply K V) : option V :=
  match r with
  | RpVal o => o
  | RpPair o => option_map snd o
  | RpKey _ => None
  end.
