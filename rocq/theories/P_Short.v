(** Proofs about short writes (C30, C31, C32). *)
From Verif Require Import Base M_Geom M_Attr M_Buf M_Writer S_Writer S_Short P_Writer.

Lemma goes_on_nil len : goes_on len [].
Proof. split; [intros r []|]. cbn. intros k H. lia. Qed.

(** The loop from an offset. *)
Definition goes_from (len off : nat) (rs : list wresp) : Prop :=
  (forall r, In r rs -> ending len r = None) /\
  forall k, k < length rs -> off + total len (firstn k rs) <> len.
Lemma goes_from_nil len off : goes_from len off [].
Proof. split; [intros r []|]. cbn. intros k H. lia. Qed.
Lemma goes_from_cons len off r rs : off <> len -> ending len r = None ->
  goes_from len (off + took len r) rs -> goes_from len off (r :: rs).
Proof.
  intros Ho Hr [A B]. split.
  - intros r' [<-|H]; [exact Hr|now apply A].
  - intros [|k] Hk; cbn in *; [lia|]. specialize (B k). lia.
Qed.
Lemma beginnings_cons buf r rs : beginnings buf (r :: rs) = firstn (took (length buf) r) buf ++ beginnings buf rs.
Proof. reflexivity. Qed.

Lemma write_data_exact buf : forall sc off d,
  match write_data buf off d sc with
  | Some (n, r, d', sc') =>
      exists rs, goes_from (length buf) off rs /\ n = off + total (length buf) rs /\ d' = d ++ beginnings buf rs /\
        match r with
        | None => sc = rs ++ sc' /\ n = length buf
        | Some e => exists a, sc = rs ++ a :: sc' /\ ending (length buf) a = Some e /\ n <> length buf
        end
  | None => goes_from (length buf) off sc /\ off + total (length buf) sc <> length buf
  end.
Proof.
  assert (Z : forall off d, off <> length buf ->
     forall sc, exists rs : list wresp, goes_from (length buf) off rs /\ off = off + total (length buf) rs /\
       d = d ++ beginnings buf rs /\ rs = [] /\ sc = rs ++ sc :> list wresp).
  { intros off d _ sc. exists []. split; [apply goes_from_nil|]. cbn. rewrite app_nil_r. auto with arith. }
  induction sc as [|a sc IH]; intros off d; cbn [write_data]; destruct (Nat.eqb_spec off (length buf)) as [H|H].
  - exists []. split; [apply goes_from_nil|]. cbn. rewrite app_nil_r. split; [lia|auto].
  - cbn. split; [apply goes_from_nil|lia].
  - exists []. split; [apply goes_from_nil|]. cbn. rewrite app_nil_r. split; [lia|auto].
  - assert (G : ending (length buf) a = None ->
      match write_data buf (off + took (length buf) a) (d ++ firstn (took (length buf) a) buf) sc with
      | Some (n, r, d', sc') =>
          exists rs, goes_from (length buf) off rs /\ n = off + total (length buf) rs /\ d' = d ++ beginnings buf rs /\
            match r with
            | None => a :: sc = rs ++ sc' /\ n = length buf
            | Some e => exists b, a :: sc = rs ++ b :: sc' /\ ending (length buf) b = Some e /\ n <> length buf
            end
      | None => goes_from (length buf) off (a :: sc) /\ off + total (length buf) (a :: sc) <> length buf
      end).
    { intros He. specialize (IH (off + took (length buf) a) (d ++ firstn (took (length buf) a) buf)).
      destruct (write_data buf _ _ sc) as [[[[n r] d'] sc']|].
      - destruct IH as (rs & G & Hn & Hd & Hr). exists (a :: rs). split; [now apply goes_from_cons|].
        cbn [total]. split; [lia|]. split; [rewrite beginnings_cons, Hd, app_assoc; reflexivity|].
        destruct r as [e|].
        + destruct Hr as (b & -> & He' & Hn'). exists b. auto.
        + destruct Hr as [-> Hn']. auto.
      - destruct IH as [G Ht]. split; [now apply goes_from_cons|]. cbn [total]. lia. }
    assert (F : forall e, ending (length buf) a = Some e -> exists rs, goes_from (length buf) off rs /\
       off = off + total (length buf) rs /\ d = d ++ beginnings buf rs /\
       exists b, a :: sc = rs ++ b :: sc /\ ending (length buf) b = Some e /\ off <> length buf).
    { intros e He. exists []. split; [apply goes_from_nil|]. cbn. rewrite app_nil_r. split; [lia|]. split; [reflexivity|].
      exists a. auto. }
    destruct a as [|m| |e]; cbn [took ending] in G, F.
    + specialize (G eq_refl). rewrite firstn_all in G. exact G.
    + destruct (Nat.min m (length buf)) as [|k] eqn:Em; cbn in F, G.
      * now apply F.
      * now apply G.
    + specialize (G eq_refl). rewrite Nat.add_0_r in G. cbn in G. rewrite app_nil_r in G. exact G.
    + now apply F.
Qed.

Lemma goes_from_0 len rs : goes_from len 0 rs <-> goes_on len rs.
Proof. reflexivity. Qed.

(** What a flush does, whatever the OS answers. *)
Lemma flush_exact w :
  match flush w with
  | Ret w' _ => exists rs, script w = rs ++ script w' /\ goes_on (length (obuf w)) rs /\
      total (length (obuf w)) rs = length (obuf w) /\
      dev w' = dev w ++ beginnings (obuf w) rs /\ obuf w' = []
  | Fail w' e => exists rs a, script w = rs ++ a :: script w' /\ goes_on (length (obuf w)) rs /\
      ending (length (obuf w)) a = Some e /\ total (length (obuf w)) rs < length (obuf w) /\
      dev w' = dev w ++ beginnings (obuf w) rs /\ obuf w' = skipn (total (length (obuf w)) rs) (obuf w)
  | Panic => exists rs a sc e, script w = rs ++ a :: sc /\ goes_on (length (obuf w)) rs /\
      ending (length (obuf w)) a = Some e /\ length (obuf w) < total (length (obuf w)) rs
  | Blocked => goes_on (length (obuf w)) (script w) /\ total (length (obuf w)) (script w) <> length (obuf w)
  end.
Proof.
  unfold flush. pose proof (write_data_exact (obuf w) (script w) 0 (dev w)) as H.
  destruct (write_data (obuf w) 0 (dev w) (script w)) as [[[[n r] d] sc]|]; [|exact H].
  destruct H as (rs & G & Hn & Hd & Hr). cbn in Hn.
  destruct (Nat.leb_spec n (length (obuf w))) as [L|L]; destruct r as [e|].
  - destruct Hr as (a & Hs & He & Hne). exists rs, a. cbn. rewrite <- Hn. repeat split; auto; try apply G; lia.
  - destruct Hr as [Hs Hne]. exists rs. cbn. repeat split; auto; try apply G; [lia|].
    rewrite Hne. apply skipn_all.
  - destruct Hr as (a & Hs & He & Hne). exists rs, a, sc, e. repeat split; auto; try apply G; lia.
  - lia.
Qed.

(** The answers that took something. *)
Lemma one_taken buf rs k : total (length buf) rs = k -> (forall r, In r rs -> took (length buf) r = 0 \/ took (length buf) r = k) ->
  k <> 0 -> beginnings buf rs = firstn k buf.
Proof.
  revert k. induction rs as [|r rs IH]; intros k Ht Ha Hk; cbn in Ht; [lia|].
  rewrite beginnings_cons. destruct (Ha r (or_introl eq_refl)) as [E|E]; rewrite E in *.
  - cbn. apply IH; [lia|intros r' H; apply Ha; now right|exact Hk].
  - assert (Z : total (length buf) rs = 0) by lia.
    assert (B : beginnings buf rs = []).
    { clear - Z. induction rs as [|r rs IH]; [reflexivity|]. cbn in Z. rewrite beginnings_cons.
      assert (took (length buf) r = 0) as -> by lia. cbn. apply IH. lia. }
    rewrite B. apply app_nil_r.
Qed.
Lemma none_taken buf rs : total (length buf) rs = 0 -> beginnings buf rs = [].
Proof.
  induction rs as [|r rs IH]; intros Z; [reflexivity|]. cbn in Z. rewrite beginnings_cons.
  assert (took (length buf) r = 0) as -> by lia. cbn. apply IH. lia.
Qed.

Lemma times_0 len rs : times len rs = 0 -> total len rs = 0.
Proof.
  unfold times. induction rs as [|r rs IH]; [reflexivity|]. cbn. destruct (Nat.eqb_spec (took len r) 0) as [E|E]; cbn; [|lia].
  intros H. rewrite E. cbn. now apply IH.
Qed.
Lemma times_1 buf rs : times (length buf) rs <= 1 -> beginnings buf rs = firstn (total (length buf) rs) buf.
Proof.
  induction rs as [|r rs IH]; intros H; [reflexivity|]. rewrite beginnings_cons. cbn [total].
  unfold times in H. cbn in H. destruct (Nat.eqb_spec (took (length buf) r) 0) as [E|E]; cbn in H.
  - rewrite E. cbn. now apply IH.
  - assert (Z : total (length buf) rs = 0) by (apply times_0; unfold times; lia).
    rewrite (none_taken buf rs Z), Z, app_nil_r, Nat.add_0_r. reflexivity.
Qed.
Lemma ending_takes_none len a e : ending len a = Some e -> took len a = 0.
Proof.
  destruct a as [|n| |e']; cbn; try discriminate; [|reflexivity].
  destruct (Nat.eqb_spec (Nat.min n len) 0) as [E|E]; [auto|discriminate].
Qed.
Lemma times_app len a b : times len (a ++ b) = times len a + times len b.
Proof. unfold times. now rewrite filter_app, app_length. Qed.

Lemma one_taking w rs w' r : flush w = r -> r = Ret w' tt \/ (exists e, r = Fail w' e) ->
  script w = rs ++ script w' -> times (length (obuf w)) rs <= 1 -> stream w' = stream w.
Proof.
  intros Hf Hr Hs Ht. pose proof (flush_exact w) as H. rewrite Hf in H. unfold stream.
  destruct Hr as [->|[e ->]].
  - destruct H as (rs' & Hs' & _ & Hn & Hd & Ho). rewrite Hs in Hs'. apply app_inv_tail in Hs'. subst rs'.
    rewrite Hd, Ho, app_nil_r, times_1, Hn, firstn_all; auto.
  - destruct H as (rs' & a & Hs' & _ & He & Hn & Hd & Ho).
    assert (E : rs = rs' ++ [a]).
    { apply (app_inv_tail (script w')). rewrite <- Hs, Hs', <- app_assoc. reflexivity. }
    subst rs. rewrite times_app in Ht. rewrite Hd, Ho, <- app_assoc, times_1 by lia. now rewrite firstn_skipn.
Qed.
