From Coq Require Import Sorted.
From Verif Require Import Base M_Seq S_Seq P_Seq M_SeqMut S_SeqMut.

Section SeqMut.
  Variables (K V : Type) (as_ref : K -> bytes).
  Notation seqmap := (M_Seq.seqmap K V).

  (** The search stays in the vector, sorted or not. *)
  Definition in_vec (m : seqmap) (r : search_result) : Prop :=
    match r with SOk n => n < length m | SErr n => n <= length m end.
  Lemma bsearch_in m q fuel : forall left size, left + size <= length m -> in_vec m (bsearch as_ref m q fuel left size).
  Proof.
    induction fuel as [|fuel IH]; intros left size H; cbn [bsearch]; [cbn; lia|].
    destruct (Nat.eqb_spec size 0); [cbn; lia|].
    assert (Hh : size / 2 < size) by (apply Nat.div_lt; lia).
    destruct (nth_error m (left + size / 2)) eqn:E; [|cbn; lia].
    destruct (bytes_cmp (as_ref (fst p)) q).
    - unfold in_vec. lia.
    - apply IH. lia.
    - apply IH. lia.
  Qed.
  Lemma search_in m q : in_vec m (sm_search as_ref m q).
  Proof. apply bsearch_in. lia. Qed.

  Lemma nth_some (m : seqmap) n : n < length m -> exists kv, nth_error m n = Some kv.
  Proof. intros H. destruct (nth_error m n) eqn:E; [eauto|]. apply nth_error_None in E. lia. Qed.
  Lemma set_some (m : seqmap) n kv : n < length m -> exists m', vec_set n kv m = Some m' /\ length m' = length m.
  Proof.
    intros H. unfold vec_set. replace (n <? length m) with true by lia. eexists. split; [reflexivity|].
    rewrite app_length, firstn_length. cbn [length]. rewrite skipn_length. lia.
  Qed.
  Lemma insert_some (m : seqmap) n kv : n <= length m -> exists m', vec_insert n kv m = Some m' /\ length m' = S (length m).
  Proof.
    intros H. unfold vec_insert. replace (n <=? length m) with true by lia. eexists. split; [reflexivity|].
    rewrite app_length, firstn_length. cbn [length]. rewrite skipn_length. lia.
  Qed.
  Lemma remove_some (m : seqmap) n : n < length m -> exists kv m', vec_remove n m = Some (kv, m').
  Proof. intros H. unfold vec_remove. destruct (nth_some m n H) as (kv & ->). eauto. Qed.
  Lemma modify_some (m : seqmap) n f : n < length m -> exists m' v, occ_modify m n f = Some (m', v) /\ length m' = length m.
  Proof.
    intros H. unfold occ_modify. destruct (nth_some m n H) as (kv & ->).
    destruct (set_some m n (fst kv, f (snd kv)) H) as (m' & -> & L). eauto.
  Qed.

  Definition entry_in (m : seqmap) (e : entry K) : Prop :=
    match e with Occupied n => n < length m | Vacant _ n => n <= length m end.
  Lemma modifies_some e fs : forall m : seqmap, entry_in m e -> exists m', entry_modifies m e fs = Some m' /\ entry_in m' e.
  Proof.
    induction fs as [|f fs IH]; intros m H; cbn [entry_modifies]; [eauto|].
    destruct e as [n|k n]; cbn [entry_and_modify entry_in] in *.
    - destruct (modify_some m n f H) as (m' & v & -> & L). apply IH. cbn. lia.
    - now apply IH.
  Qed.
  Lemma finish_some e fin (m : seqmap) : entry_in m e -> exists m' r, entry_finish m e fin = Some (m', r).
  Proof.
    intros H. destruct fin, e as [n|k n]; cbn [entry_finish entry_in entry_or_insert entry_key] in *.
    - destruct (nth_some m n H) as (kv & ->). cbn. eauto.
    - eauto.
    - destruct (modify_some m n g H) as (m' & x & -> & _). eauto.
    - unfold vac_insert. destruct (insert_some m n (k, v) H) as (m1 & -> & L).
      destruct (modify_some m1 n g ltac:(lia)) as (m' & x & -> & _). eauto.
    - unfold occ_insert. destruct (modify_some m n (fun _ => v) H) as (m' & x & -> & _). eauto.
    - unfold vac_insert. destruct (insert_some m n (k, v) H) as (m1 & -> & L).
      destruct (modify_some m1 n (fun x => x) ltac:(lia)) as (m' & x & -> & _). eauto.
    - unfold occ_remove_entry. destruct (remove_some m n H) as (kv & m' & ->). eauto.
    - eauto.
    - unfold occ_remove_entry. destruct (remove_some m n H) as (kv & m' & ->). eauto.
    - eauto.
  Qed.

  Lemma step_some (m : seqmap) o : exists m' r, sm_step as_ref m o = Some (m', r).
  Proof.
    destruct o as [k v|q|q|q f|k mods fin]; cbn [sm_step].
    - unfold sm_insert. assert (H := search_in m (as_ref k)). destruct (sm_search as_ref m (as_ref k)) as [n|n]; cbn in H.
      + destruct (nth_some m n H) as (kv & ->). destruct (set_some m n (k, v) H) as (m' & -> & _). eauto.
      + destruct (insert_some m n (k, v) H) as (m' & -> & _). eauto.
    - unfold sm_remove. assert (H := search_in m q). destruct (sm_search as_ref m q) as [n|n]; cbn in H; [|eauto].
      destruct (remove_some m n H) as (kv & m' & ->). eauto.
    - unfold sm_get. assert (H := search_in m q). destruct (sm_search as_ref m q) as [n|n]; cbn in H; [|eauto].
      destruct (nth_some m n H) as (kv & ->). eauto.
    - unfold sm_get_mut. assert (H := search_in m q). destruct (sm_search as_ref m q) as [n|n]; cbn in H; [|eauto].
      destruct (nth_some m n H) as (kv & ->). destruct (set_some m n (fst kv, f (snd kv)) H) as (m' & -> & _). eauto.
    - assert (He : entry_in m (sm_entry as_ref m k)).
      { unfold sm_entry. assert (H := search_in m (as_ref k)). destruct (sm_search as_ref m (as_ref k)); exact H. }
      cbv zeta. destruct (modifies_some _ mods m He) as (m1 & -> & H1). now apply finish_some.
  Qed.
  Lemma find_some (m : seqmap) q : exists r, sm_find as_ref m q = Some r.
  Proof.
    unfold sm_find. assert (H := search_in m q). destruct (sm_search as_ref m q) as [n|n]; cbn in H.
    - destruct (nth_some m n H) as (kv & ->). destruct (match nth_error m (n + 1) with Some _ => _ | None => _ end); eauto.
    - destruct (match nth_error m (n + 0) with Some _ => _ | None => _ end); eauto.
  Qed.
  Lemma call_some (m : seqmap) c : exists m' r, call as_ref m c = Some (m', r).
  Proof.
    destruct c; cbn [call].
    - destruct (step_some m o) as (m' & r & ->). eauto.
    - destruct (find_some m q) as (r & ->). eauto.
    - eauto.
  Qed.
  Lemma calls_some l : forall m : seqmap, exists m' rs, calls as_ref m l = Some (m', rs).
  Proof.
    induction l as [|c l IH]; intros m; cbn [calls]; [eauto|].
    destruct (call_some m c) as (m1 & r & ->). destruct (IH m1) as (m2 & rs & ->). eauto.
  Qed.
  Lemma never_panics (c : seq_ctor K V) (l : list (seq_call K V)) : exists m0 m rs, sm_build as_ref c = Some m0 /\ calls as_ref m0 l = Some (m, rs).
  Proof.
    destruct (build_rel K V as_ref c) as (m0 & H & _). destruct (calls_some l m0) as (m & rs & H2). eauto.
  Qed.

  (** Strictly increasing keys are all it takes. *)
  Lemma increasing_sorted (m : seqmap) : strictly_increasing (keys_of as_ref m) -> sorted K V as_ref m.
  Proof.
    unfold keys_of, sm_sequences, sorted. induction m as [|x m IH]; cbn [map strictly_increasing]; intros H; [constructor|].
    destruct H as [H1 H2]. constructor; [now apply IH|]. apply Forall_forall. intros y Hy.
    apply bytes_cmp_lt_spec, H1. apply in_map_iff. eauto.
  Qed.
  Lemma increasing_rel (m : seqmap) : strictly_increasing (keys_of as_ref m) -> rel K V as_ref m (first_occ as_ref (sm_sequences m)).
  Proof. intros H. split; [now apply increasing_sorted|]. reflexivity. Qed.

  Lemma works_as_a_map (m : seqmap) ops q : strictly_increasing (keys_of as_ref m) ->
    (exists m' a rs, spec_run as_ref (first_occ as_ref (sm_sequences m)) ops = (a, rs) /\
      sm_run as_ref m ops = Some (m', rs) /\
      (forall q, sm_get as_ref m' q = Some (option_map snd (a q))) /\
      strictly_increasing (keys_of as_ref m')) /\
    (exists r, sm_find as_ref m q = Some r /\ find_spec (first_occ as_ref (sm_sequences m)) q r).
  Proof.
    intros H. assert (R := increasing_rel m H). split.
    - destruct (run_refines K V as_ref ops m _ R) as (m' & R1 & R2).
      destruct (spec_run as_ref (first_occ as_ref (sm_sequences m)) ops) as [a rs]. cbn [fst snd] in *.
      exists m', a, rs. split; [reflexivity|]. split; [exact R1|]. split.
      + intros x. now apply get_rel.
      + exact (rel_increasing K V as_ref m' a R2).
    - now apply find_rel.
  Qed.

  (** Assigning an element whose key reads the same. *)
  Lemma assign_value (m : seqmap) i kv k v : strictly_increasing (keys_of as_ref m) ->
    nth_error (sm_sequences m) i = Some kv -> as_ref k = as_ref (fst kv) ->
    strictly_increasing (keys_of as_ref (sm_assign m i (k, v))) /\
    (forall q, sm_get as_ref (sm_assign m i (k, v)) q =
       Some (option_map snd (with_value (first_occ as_ref (sm_sequences m)) (as_ref k) (k, v) q))).
  Proof.
    unfold sm_sequences. intros H Hn Hk. assert (R := increasing_rel m H). unfold sm_sequences in R.
    apply nth_error_split in Hn as (l1 & l2 & -> & <-).
    unfold sm_assign. rewrite vec_set_split.
    assert (R2 := rel_replace K V as_ref l1 kv l2 _ k v R Hk). split.
    - exact (rel_increasing K V as_ref _ _ R2).
    - intros q. rewrite (get_rel K V as_ref _ _ q R2). unfold with_value, a_set. now rewrite Hk.
  Qed.
End SeqMut.

(** Equal neighbours: [find] speaks of a longer sequence where there is none. *)
Definition dup : seqmap bytes N := [([97], 0); ([98], 1); ([99], 2)]%N.
Lemma duplicates_mislead :
  exists (m : seqmap bytes N) v, comes_about (fun k => k) m /\ sorted_keys (keys_of (fun k => k) m) /\
    sm_find (fun k => k) m [97]%N = Some (Undecided v) /\
    ~ exists kv, In kv (sm_sequences m) /\ fst kv <> [97]%N /\ is_prefix [97]%N (fst kv).
Proof.
  exists [([97], 0); ([97], 1); ([97], 2)]%N, 1%N. split; [|split; [|split]].
  - exists (CFromVec dup), dup, [CallAssign 1 ([97], 1)%N; CallAssign 2 ([97], 2)%N], [ReplyNone; ReplyNone]. split; reflexivity.
  - cbn. refine (conj _ (conj _ (conj _ I))); [intros y [<-|[<-|[]]]; auto|intros y [<-|[]]; auto|intros y []].
  - reflexivity.
  - intros (kv & Hin & Hne & _). cbn in Hin. apply Hne. destruct Hin as [<-|[<-|[<-|[]]]]; reflexivity.
Qed.

Lemma seqmut_example :
  let s := fun k : bytes => k in
  let m0 := sm_from_vec s [([98], 1); ([97], 0); ([99], 2)]%N in
  (* values, and a key moved between its neighbours, keep the order *)
  (exists m rs, calls s m0 [CallAssign 1 ([98; 120], 7); CallFind [98]; CallOp (OpGet [98; 120])]%N = Some (m, rs) /\
     strictly_increasing (keys_of s m) /\
     rs = [ReplyNone; ReplyFind Incomplete; ReplyOp (RpVal (Some 7%N))]) /\
  (* out of order: an element is in the slice and not found *)
  (exists m rs, calls s m0 [CallAssign 0 ([122], 9); CallOp (OpGet [122]); CallAssign 8 ([122], 9); CallOp (OpInsert [97] 5)]%N = Some (m, rs) /\
     In ([122], 9)%N (sm_sequences m) /\
     rs = [ReplyNone; ReplyOp (RpVal None); ReplyNone; ReplyOp (RpVal None)]).
Proof.
  cbv zeta. split.
  - eexists _, _. split; [vm_compute; reflexivity|]. split; [|reflexivity].
    cbn. refine (conj _ (conj _ (conj _ I))).
    + intros y [<-|[<-|[]]]; right; exists []; do 4 eexists; repeat split.
    + intros y [<-|[]]; right; exists []; do 4 eexists; repeat split.
    + intros y [].
  - eexists _, _. split; [vm_compute; reflexivity|]. split; [cbn; auto|reflexivity].
Qed.
