(** Proofs about [SequenceMap]. *)
From Coq Require Import Sorting.Sorted.
From Verif Require Import Base M_Seq S_Seq.

(** ** Vec primitives on split lists *)

Lemma firstn_len_app {A} (l1 l2 : list A) : firstn (length l1) (l1 ++ l2) = l1.
Proof. rewrite firstn_app, Nat.sub_diag, firstn_all; simpl; apply app_nil_r. Qed.

Lemma skipn_len_app {A} (l1 l2 : list A) : skipn (length l1) (l1 ++ l2) = l2.
Proof. rewrite skipn_app, Nat.sub_diag, skipn_all; reflexivity. Qed.

Lemma skipn_S_len_app {A} (l1 l2 : list A) x : skipn (S (length l1)) (l1 ++ x :: l2) = l2.
Proof.
  replace (l1 ++ x :: l2) with ((l1 ++ [x]) ++ l2) by (rewrite <- app_assoc; reflexivity).
  replace (S (length l1)) with (length (l1 ++ [x])) by (rewrite app_length; simpl; lia).
  apply skipn_len_app.
Qed.

Lemma nth_error_len_app {A} (l1 l2 : list A) x : nth_error (l1 ++ x :: l2) (length l1) = Some x.
Proof. rewrite nth_error_app2, Nat.sub_diag; [reflexivity|lia]. Qed.

Lemma vec_set_split {A} (l1 l2 : list A) x y :
  vec_set (length l1) y (l1 ++ x :: l2) = Some (l1 ++ y :: l2).
Proof.
  unfold vec_set.
  replace (length l1 <? length (l1 ++ x :: l2)) with true
    by (symmetry; apply Nat.ltb_lt; rewrite app_length; simpl; lia).
  now rewrite firstn_len_app, skipn_S_len_app.
Qed.

Lemma vec_insert_split {A} (l1 l2 : list A) y :
  vec_insert (length l1) y (l1 ++ l2) = Some (l1 ++ y :: l2).
Proof.
  unfold vec_insert.
  replace (length l1 <=? length (l1 ++ l2)) with true
    by (symmetry; apply Nat.leb_le; rewrite app_length; simpl; lia).
  now rewrite firstn_len_app, skipn_len_app.
Qed.

Lemma vec_remove_split {A} (l1 l2 : list A) x :
  vec_remove (length l1) (l1 ++ x :: l2) = Some (x, l1 ++ l2).
Proof.
  unfold vec_remove. rewrite nth_error_len_app.
  now rewrite firstn_len_app, skipn_S_len_app.
Qed.

(** ** Byte order *)

Lemma bytes_cmp_refl a : bytes_cmp a a = Eq.
Proof. induction a as [|x a IH]; simpl; [reflexivity|]. now rewrite N.compare_refl. Qed.

Lemma bytes_cmp_eq a : forall b, bytes_cmp a b = Eq -> a = b.
Proof.
  induction a as [|x a IH]; intros [|y b]; simpl; try discriminate; [reflexivity|].
  destruct (N.compare_spec x y); try discriminate.
  intros H1; f_equal; [assumption|]. now apply IH.
Qed.

Lemma bytes_cmp_antisym a : forall b, bytes_cmp b a = CompOpp (bytes_cmp a b).
Proof.
  induction a as [|x a IH]; intros [|y b]; simpl; try reflexivity.
  rewrite N.compare_antisym. destruct (N.compare x y); simpl; auto.
Qed.

Lemma bytes_cmp_gt a b : bytes_cmp a b = Gt <-> bytes_cmp b a = Lt.
Proof. rewrite (bytes_cmp_antisym a b). destruct (bytes_cmp a b); simpl; split; congruence. Qed.

Lemma bytes_cmp_trans a : forall b c,
  bytes_cmp a b = Lt -> bytes_cmp b c = Lt -> bytes_cmp a c = Lt.
Proof.
  induction a as [|x a IH]; intros [|y b] [|z c]; simpl; try discriminate; try reflexivity.
  destruct (N.compare_spec x y) as [Hxy|Hxy|Hxy]; try discriminate;
  destruct (N.compare_spec y z) as [Hyz|Hyz|Hyz]; try discriminate; intros H1 H2.
  - subst. rewrite N.compare_refl. now apply (IH b c).
  - subst. now apply N.compare_lt_iff in Hyz; rewrite Hyz.
  - subst. now apply N.compare_lt_iff in Hxy; rewrite Hxy.
  - assert (H : (x < z)%N) by lia. apply N.compare_lt_iff in H. now rewrite H.
Qed.

Lemma bytes_cmp_lt_spec a : forall b, bytes_cmp a b = Lt <-> byte_lt a b.
Proof.
  induction a as [|x a IH]; intros [|y b].
  - simpl; split; [discriminate|].
    intros [[x [r H]]|(p & x & y & ra & rb & H & _)];
      [destruct r; discriminate | destruct p; discriminate].
  - simpl; split; [|reflexivity]. intros _. left. now exists y, b.
  - simpl; split; [discriminate|].
    intros [[x' [r H]]|(p & x' & y & ra & rb & H & H' & _)];
      [discriminate | destruct p; discriminate].
  - simpl. destruct (N.compare_spec x y) as [Hxy|Hxy|Hxy].
    + subst y. rewrite IH. split.
      * intros [(z & r & ->)|(p & u & v & ra & rb & -> & -> & Hlt)].
        -- left; now exists z, r.
        -- right; now exists (x :: p), u, v, ra, rb.
      * intros [(z & r & H)|(p & u & v & ra & rb & H1 & H2 & Hlt)].
        -- injection H as ->. left; now exists z, r.
        -- destruct p as [|w p]; simpl in *.
           ++ injection H1 as -> ->. injection H2 as -> ->. lia.
           ++ injection H1 as -> ->. injection H2 as ->. right; now exists p, u, v, ra, rb.
    + split; [|reflexivity]. intros _. right. now exists [], x, y, a, b.
    + split; [discriminate|].
      intros [(z & r & H)|(p & u & v & ra & rb & H1 & H2 & Hlt)].
      * injection H as -> ->. lia.
      * destruct p as [|w p]; simpl in *.
        -- injection H1 as -> ->. injection H2 as -> ->. lia.
        -- injection H1 as -> ->. injection H2 as -> ->. lia.
Qed.

Lemma bytes_cmp_prefix p r : r <> [] -> bytes_cmp p (p ++ r) = Lt.
Proof.
  induction p as [|x p IH]; simpl; intros Hr.
  - destruct r; [congruence|reflexivity].
  - rewrite N.compare_refl. auto.
Qed.

Lemma starts_with_spec p : forall s, starts_with s p = true <-> is_prefix p s.
Proof.
  unfold is_prefix. induction p as [|x p IH]; intros s; simpl.
  - split; [intros _; now exists s | reflexivity].
  - destruct s as [|y s]; [split; [discriminate|intros [r H]; discriminate]|].
    rewrite andb_true_iff, N.eqb_eq, IH. split.
    + intros [-> [r ->]]. now exists r.
    + intros [r H]. injection H as -> ->. split; [reflexivity|now exists r].
Qed.

(** Strings between [q] and an extension of [q] are extensions of [q]. *)
Lemma between_prefix q : forall s r,
  bytes_cmp q s = Lt -> bytes_cmp s (q ++ r) = Lt -> is_prefix q s.
Proof.
  unfold is_prefix. induction q as [|x q IH]; intros s r; simpl.
  - intros _ _. now exists s.
  - destruct s as [|y s]; [discriminate|]. simpl.
    destruct (N.compare_spec x y) as [H|H|H]; try discriminate.
    + subst y. rewrite N.compare_refl. intros H1 H2.
      destruct (IH s r H1 H2) as [t ->]. now exists t.
    + intros _. destruct (N.compare_spec y x); try discriminate; lia.
Qed.

Section Proofs.
  Variables (K V : Type) (as_ref : K -> bytes).
  Notation key kv := (as_ref (fst kv)).

  Definition lt_kv (x y : K * V) : Prop := bytes_cmp (key x) (key y) = Lt.
  Definition sorted (m : list (K * V)) : Prop := StronglySorted lt_kv m.
  Definition all_lt (m : list (K * V)) (q : bytes) := Forall (fun kv => bytes_cmp (key kv) q = Lt) m.
  Definition all_gt (m : list (K * V)) (q : bytes) := Forall (fun kv => bytes_cmp q (key kv) = Lt) m.

  Lemma sorted_app l1 l2 :
    sorted (l1 ++ l2) <-> sorted l1 /\ sorted l2 /\ (forall x y, In x l1 -> In y l2 -> lt_kv x y).
  Proof.
    unfold sorted. induction l1 as [|a l1 IH]; simpl.
    - split; [intros H; repeat split; [constructor|assumption|contradiction]|tauto].
    - split.
      + intros H. inversion H as [|? ? H1 H2]; subst.
        apply IH in H1 as (Ha & Hb & Hc). rewrite Forall_app in H2. destruct H2 as [H2a H2b].
        repeat split; [constructor; assumption|assumption|].
        intros x y [->|Hx] Hy; [|now apply Hc].
        rewrite Forall_forall in H2b. now apply H2b.
      + intros (H1 & H2 & H3). inversion H1 as [|? ? H4 H5]; subst.
        constructor; [apply IH; repeat split; auto|].
        rewrite Forall_app; split; [assumption|]. rewrite Forall_forall; auto.
  Qed.

  Lemma sorted_cons a l : sorted (a :: l) <-> sorted l /\ Forall (lt_kv a) l.
  Proof. split; [intros H; inversion H; auto|intros [H1 H2]; constructor; auto]. Qed.

  Lemma sorted_mid l1 kv l2 :
    sorted (l1 ++ kv :: l2) <->
    sorted (l1 ++ l2) /\ all_lt l1 (key kv) /\ all_gt l2 (key kv).
  Proof.
    rewrite !sorted_app, sorted_cons. unfold all_lt, all_gt, lt_kv. rewrite !Forall_forall.
    split.
    - intros (H1 & (H2 & H3) & H4). repeat split; auto.
      + intros x y Hx Hy. apply H4; simpl; auto.
      + intros x Hx. apply (H4 x kv); simpl; auto.
    - intros ((H1 & H2 & H3) & H4 & H5). repeat split; auto.
      intros x y Hx [<-|Hy]; auto.
  Qed.

  (** ** The binary search meets its contract on sorted vectors *)

  Definition found_at (m : list (K * V)) (q : bytes) (r : search_result) : Prop :=
    match r with
    | SOk n => exists l1 kv l2, m = l1 ++ kv :: l2 /\ key kv = q /\ n = length l1
    | SErr n => exists l1 l2, m = l1 ++ l2 /\ all_lt l1 q /\ all_gt l2 q /\ n = length l1
    end.

  Lemma bsearch_correct m q fuel : forall left size a b c,
    sorted m -> m = a ++ b ++ c -> left = length a -> size = length b -> size <= fuel ->
    all_lt a q -> all_gt c q ->
    found_at m q (bsearch as_ref m q fuel left size).
  Proof.
    induction fuel as [|fuel IH]; intros left size a b c Hs Hm Hl Hz Hf Ha Hc.
    - assert (b = []) by (destruct b; simpl in *; [reflexivity|lia]). subst b. simpl in *.
      exists a, c. auto.
    - cbn [bsearch]. destruct (Nat.eqb_spec size 0) as [H0|H0].
      + assert (b = []) by (destruct b; simpl in *; [reflexivity|lia]). subst b. simpl in *.
        exists a, c. auto.
      + assert (Hhalf : size / 2 < size) by (apply Nat.div_lt; lia).
        set (half := size / 2) in *.
        destruct (nth_error b half) as [kv|] eqn:Hn;
          [|apply nth_error_None in Hn; lia].
        apply nth_error_split in Hn as (b1 & b2 & Hb & Hb1).
        assert (Hmid : nth_error m (left + half) = Some kv).
        { subst m b left. rewrite nth_error_app2 by lia.
          replace (length a + half - length a) with half by lia.
          rewrite nth_error_app1 by (rewrite app_length; simpl; lia).
          rewrite <- Hb1. apply nth_error_len_app. }
        rewrite Hmid.
        assert (Hs' := Hs). rewrite Hm, Hb in Hs'.
        replace (a ++ (b1 ++ kv :: b2) ++ c) with ((a ++ b1) ++ kv :: (b2 ++ c)) in Hs'
          by (rewrite <- !app_assoc; reflexivity).
        apply sorted_mid in Hs' as (_ & Hlt & Hgt).
        destruct (bytes_cmp (key kv) q) eqn:Hcmp.
        * apply bytes_cmp_eq in Hcmp. exists (a ++ b1), kv, (b2 ++ c).
          repeat split; [subst m b; rewrite <- !app_assoc; reflexivity|assumption|].
          rewrite app_length; lia.
        * apply (IH _ _ (a ++ b1 ++ [kv]) b2 c); auto.
          -- subst m b. rewrite <- !app_assoc. reflexivity.
          -- rewrite !app_length; simpl; lia.
          -- subst size. rewrite Hb, app_length; simpl. lia.
          -- lia.
          -- unfold all_lt in *. rewrite !Forall_app. rewrite Forall_app in Hlt.
             destruct Hlt as [Hlt1 Hlt2]. repeat split.
             ++ assumption.
             ++ eapply Forall_impl; [|exact Hlt2]. simpl. intros x Hx.
                eapply bytes_cmp_trans; eassumption.
             ++ constructor; [assumption|constructor].
        * apply (IH _ _ a b1 (kv :: b2 ++ c)); auto.
          -- subst m b. rewrite <- !app_assoc. reflexivity.
          -- lia.
          -- apply bytes_cmp_gt in Hcmp. constructor; [assumption|].
             eapply Forall_impl; [|exact Hgt]. simpl. intros x Hx.
             eapply bytes_cmp_trans; eassumption.
  Qed.

  Lemma search_correct m q : sorted m -> found_at m q (sm_search as_ref m q).
  Proof.
    intros Hs. unfold sm_search.
    apply (bsearch_correct m q (length m) 0 (length m) [] m []); auto.
    - now rewrite app_nil_r.
    - constructor.
    - constructor.
  Qed.

  Lemma search_cases m q : sorted m ->
    (exists l1 kv l2, m = l1 ++ kv :: l2 /\ key kv = q /\ sm_search as_ref m q = SOk (length l1)) \/
    (exists l1 l2, m = l1 ++ l2 /\ all_lt l1 q /\ all_gt l2 q /\ sm_search as_ref m q = SErr (length l1)).
  Proof.
    intros Hs. pose proof (search_correct m q Hs) as H.
    destruct (sm_search as_ref m q) as [n|n]; simpl in H.
    - destruct H as (l1 & kv & l2 & ? & ? & ->). left; now exists l1, kv, l2.
    - destruct H as (l1 & l2 & ? & ? & ? & ->). right; now exists l1, l2.
  Qed.

  (** ** Abstraction *)

  Notation occ := (@first_occ K V as_ref).

  Lemma occ_app l1 l2 q :
    occ (l1 ++ l2) q = match occ l1 q with Some x => Some x | None => occ l2 q end.
  Proof.
    induction l1 as [|x l1 IH]; simpl; [reflexivity|].
    destruct (list_eq_dec N.eq_dec (key x) q); auto.
  Qed.

  Lemma occ_all_lt l q : all_lt l q -> occ l q = None.
  Proof.
    induction 1 as [|x l H _ IH]; simpl; [reflexivity|].
    destruct (list_eq_dec N.eq_dec (key x) q) as [E|E]; [|assumption].
    rewrite E, bytes_cmp_refl in H; discriminate.
  Qed.

  Lemma occ_all_gt l q : all_gt l q -> occ l q = None.
  Proof.
    induction 1 as [|x l H _ IH]; simpl; [reflexivity|].
    destruct (list_eq_dec N.eq_dec (key x) q) as [E|E]; [|assumption].
    rewrite E, bytes_cmp_refl in H; discriminate.
  Qed.

  Lemma occ_in l q kv : occ l q = Some kv -> In kv l /\ key kv = q.
  Proof.
    induction l as [|x l IH]; simpl; [discriminate|].
    destruct (list_eq_dec N.eq_dec (key x) q) as [E|E].
    - injection 1 as ->. auto.
    - intros H. destruct (IH H); auto.
  Qed.

  Lemma occ_mid l1 kv l2 q : sorted (l1 ++ kv :: l2) ->
    occ (l1 ++ kv :: l2) q =
    if list_eq_dec N.eq_dec q (key kv) then Some kv else occ (l1 ++ l2) q.
  Proof.
    intros H. apply sorted_mid in H as (_ & Hl & Hg).
    rewrite !occ_app. simpl.
    destruct (list_eq_dec N.eq_dec q (key kv)) as [E|E];
    destruct (list_eq_dec N.eq_dec (key kv) q) as [E'|E']; try congruence.
    - subst q. now rewrite occ_all_lt.
  Qed.

  Lemma occ_mid_none l1 kv l2 : sorted (l1 ++ kv :: l2) -> occ (l1 ++ l2) (key kv) = None.
  Proof.
    intros H. apply sorted_mid in H as (_ & Hl & Hg).
    rewrite occ_app, occ_all_lt by assumption. now apply occ_all_gt.
  Qed.

  (** [rel m a]: the vector [m] is sorted and represents the abstract map [a]. *)
  Definition rel (m : list (K * V)) (a : amap K V) : Prop :=
    sorted m /\ forall q, occ m q = a q.

  Lemma rel_cases m a q : rel m a ->
    (exists l1 kv l2, m = l1 ++ kv :: l2 /\ key kv = q /\ a q = Some kv /\
                      sm_search as_ref m q = SOk (length l1)) \/
    (exists l1 l2, m = l1 ++ l2 /\ all_lt l1 q /\ all_gt l2 q /\ a q = None /\
                   sm_search as_ref m q = SErr (length l1)).
  Proof.
    intros [Hs Ha]. destruct (search_cases m q Hs) as [(l1 & kv & l2 & E & Hk & Hr)|(l1 & l2 & E & H1 & H2 & Hr)].
    - left. exists l1, kv, l2. repeat split; auto. rewrite <- Ha, E, occ_mid by (rewrite <- E; exact Hs).
      destruct (list_eq_dec N.eq_dec q (key kv)); congruence.
    - right. exists l1, l2. repeat split; auto. rewrite <- Ha, E, occ_app, occ_all_lt by assumption.
      now apply occ_all_gt.
  Qed.

  Lemma rel_replace l1 kv l2 a k' v' :
    rel (l1 ++ kv :: l2) a -> as_ref k' = key kv ->
    rel (l1 ++ (k', v') :: l2) (a_set a (key kv) (Some (k', v'))).
  Proof.
    intros [Hs Ha] Hk.
    assert (Hs' : sorted (l1 ++ (k', v') :: l2)).
    { apply sorted_mid in Hs. apply sorted_mid. simpl. rewrite Hk. exact Hs. }
    split; [exact Hs'|]. intros q. rewrite occ_mid by exact Hs'. unfold a_set. simpl. rewrite Hk.
    destruct (list_eq_dec N.eq_dec q (key kv)); [reflexivity|].
    rewrite <- Ha, occ_mid by exact Hs. destruct (list_eq_dec N.eq_dec q (key kv)); congruence.
  Qed.

  Lemma rel_delete l1 kv l2 a :
    rel (l1 ++ kv :: l2) a -> rel (l1 ++ l2) (a_set a (key kv) None).
  Proof.
    intros [Hs Ha]. split; [now apply sorted_mid in Hs|].
    intros q. unfold a_set. destruct (list_eq_dec N.eq_dec q (key kv)) as [->|E].
    - now apply occ_mid_none.
    - rewrite <- Ha, occ_mid by exact Hs. destruct (list_eq_dec N.eq_dec q (key kv)); congruence.
  Qed.

  Lemma rel_add l1 l2 a k v :
    rel (l1 ++ l2) a -> all_lt l1 (as_ref k) -> all_gt l2 (as_ref k) ->
    rel (l1 ++ (k, v) :: l2) (a_set a (as_ref k) (Some (k, v))).
  Proof.
    intros [Hs Ha] H1 H2.
    assert (Hs' : sorted (l1 ++ (k, v) :: l2)) by (apply sorted_mid; auto).
    split; [exact Hs'|]. intros q. rewrite occ_mid by exact Hs'. unfold a_set; simpl.
    destruct (list_eq_dec N.eq_dec q (as_ref k)); auto.
  Qed.

  Lemma rel_ext m a b : rel m a -> (forall q, a q = b q) -> rel m b.
  Proof. intros [H1 H2] E. split; [assumption|]. intros q. now rewrite H2. Qed.

  Lemma rel_set_same m a q : rel m a -> rel m (a_set a q (a q)).
  Proof.
    intros H. eapply rel_ext; [exact H|]. intros q'. unfold a_set.
    destruct (list_eq_dec N.eq_dec q' q); congruence.
  Qed.

  Lemma a_set_set (a : amap K V) q x y : forall q', a_set (a_set a q x) q y q' = a_set a q y q'.
  Proof. intros q'. unfold a_set. destruct (list_eq_dec N.eq_dec q' q); reflexivity. Qed.

  Lemma a_set_eq (a : amap K V) q x : a_set a q x q = x.
  Proof. unfold a_set. destruct (list_eq_dec N.eq_dec q q); congruence. Qed.

  Lemma occ_modify_mid (l1 : list (K * V)) kv l2 f :
    occ_modify (l1 ++ kv :: l2) (length l1) f = Some (l1 ++ (fst kv, f (snd kv)) :: l2, snd kv).
  Proof. unfold occ_modify. now rewrite nth_error_len_app, vec_set_split. Qed.

  Lemma entry_modifies_occ (l1 l2 : list (K * V)) fs : forall k v,
    entry_modifies (l1 ++ (k, v) :: l2) (Occupied (length l1)) fs =
    Some (l1 ++ (k, fold_left (fun v f => f v) fs v) :: l2).
  Proof.
    induction fs as [|f fs IH]; intros k v; simpl; [reflexivity|].
    rewrite occ_modify_mid; simpl. apply IH.
  Qed.

  Lemma entry_modifies_vac (m : list (K * V)) k i fs :
    entry_modifies m (Vacant k i) fs = Some m.
  Proof. induction fs as [|f fs IH]; simpl; auto. Qed.

  (** ** Every API call refines the specification *)

  Lemma step_refines m a o : rel m a ->
    exists m', sm_step as_ref m o = Some (m', snd (spec_step as_ref a o)) /\
               rel m' (fst (spec_step as_ref a o)).
  Proof.
    intros Hr. destruct o as [k v|q|q|q f|k mods fin]; simpl.
    - unfold sm_insert.
      destruct (rel_cases m a (as_ref k) Hr) as
        [(l1 & kv & l2 & -> & Hk & Ha & ->)|(l1 & l2 & -> & H1 & H2 & Ha & ->)].
      + rewrite nth_error_len_app, vec_set_split, Ha. eexists; split; [reflexivity|].
        rewrite <- Hk. now apply rel_replace.
      + rewrite vec_insert_split, Ha. eexists; split; [reflexivity|]. now apply rel_add.
    - unfold sm_remove.
      destruct (rel_cases m a q Hr) as
        [(l1 & kv & l2 & -> & Hk & Ha & ->)|(l1 & l2 & -> & H1 & H2 & Ha & ->)].
      + rewrite vec_remove_split, Ha. eexists; split; [reflexivity|].
        rewrite <- Hk. now apply rel_delete.
      + eexists; split; [now rewrite Ha|]. rewrite <- Ha. now apply rel_set_same.
    - unfold sm_get.
      destruct (rel_cases m a q Hr) as
        [(l1 & kv & l2 & -> & Hk & Ha & ->)|(l1 & l2 & -> & H1 & H2 & Ha & ->)].
      + rewrite nth_error_len_app, Ha. eexists; split; [reflexivity|assumption].
      + rewrite Ha. eexists; split; [reflexivity|assumption].
    - unfold sm_get_mut.
      destruct (rel_cases m a q Hr) as
        [(l1 & [k0 v0] & l2 & -> & Hk & Ha & ->)|(l1 & l2 & -> & H1 & H2 & Ha & ->)].
      + rewrite nth_error_len_app, vec_set_split, Ha. eexists; split; [reflexivity|].
        simpl in *. rewrite <- Hk. apply (rel_replace l1 (k0, v0)); auto.
      + rewrite Ha. eexists; split; [reflexivity|assumption].
    - unfold sm_entry.
      destruct (rel_cases m a (as_ref k) Hr) as
        [(l1 & [k0 v0] & l2 & -> & Hk & Ha & ->)|(l1 & l2 & -> & H1 & H2 & Ha & ->)].
      + rewrite entry_modifies_occ, Ha. simpl in Hk.
        set (v1 := fold_left _ mods v0).
        assert (Hr1 : rel (l1 ++ (k0, v1) :: l2) (a_set a (as_ref k) (Some (k0, v1)))).
        { rewrite <- Hk. apply (rel_replace l1 (k0, v0)); auto. }
        destruct fin as [|v g|v| |]; simpl; unfold occ_insert, occ_remove_entry;
          rewrite ?nth_error_len_app, ?occ_modify_mid, ?vec_remove_split; simpl;
          (eexists; split; [reflexivity|]).
        * exact Hr1.
        * eapply rel_ext; [eapply (rel_replace l1 (k0, v1) l2 _ k0 (g v1)); [exact Hr1|reflexivity]|].
          simpl. rewrite Hk. apply a_set_set.
        * eapply rel_ext; [eapply (rel_replace l1 (k0, v1) l2 _ k0 v); [exact Hr1|reflexivity]|].
          simpl. rewrite Hk. apply a_set_set.
        * eapply rel_ext; [eapply (rel_delete l1 (k0, v1)); exact Hr1|].
          simpl. rewrite Hk. apply a_set_set.
        * eapply rel_ext; [eapply (rel_delete l1 (k0, v1)); exact Hr1|].
          simpl. rewrite Hk. apply a_set_set.
      + rewrite entry_modifies_vac, Ha.
        destruct fin as [|v g|v| |]; simpl; unfold vac_insert;
          rewrite ?vec_insert_split, ?occ_modify_mid; simpl;
          (eexists; split; [reflexivity|]); auto.
        * now apply rel_add.
        * now apply rel_add.
  Qed.

  Lemma run_refines ops : forall m a, rel m a ->
    exists m', sm_run as_ref m ops = Some (m', snd (spec_run as_ref a ops)) /\
               rel m' (fst (spec_run as_ref a ops)).
  Proof.
    induction ops as [|o ops IH]; intros m a Hr; simpl.
    - exists m; auto.
    - destruct (step_refines m a o Hr) as (m1 & Hm1 & Hr1). rewrite Hm1.
      destruct (spec_step as_ref a o) as [a1 r]; simpl in *.
      destruct (IH m1 a1 Hr1) as (m2 & Hm2 & Hr2). rewrite Hm2.
      destruct (spec_run as_ref a1 ops) as [a2 rs]; simpl in *. eauto.
  Qed.

  (** ** Constructors *)

  Lemma rel_new : rel [] a_empty.
  Proof. split; [constructor|reflexivity]. Qed.

  Lemma extend_rel l : forall m a, rel m a ->
    exists m', sm_extend as_ref m l = Some m' /\
      rel m' (fun q => match last_occ as_ref l q with Some x => Some x | None => a q end).
  Proof.
    induction l as [|[k v] l IH]; intros m a Hr; simpl.
    - exists m; split; [reflexivity|]. eapply rel_ext; [exact Hr|reflexivity].
    - destruct (step_refines m a (OpInsert k v) Hr) as (m1 & Hm1 & Hr1). simpl in Hm1, Hr1.
      destruct (sm_insert as_ref m k v) as [[m1' r]|]; [|discriminate].
      injection Hm1 as -> _. destruct (IH m1 _ Hr1) as (m2 & Hm2 & Hr2).
      exists m2; split; [assumption|]. eapply rel_ext; [exact Hr2|].
      intros q. unfold last_occ. simpl. rewrite occ_app. simpl.
      destruct (occ (rev l) q); [reflexivity|]. unfold a_set.
      destruct (list_eq_dec N.eq_dec q (as_ref k)), (list_eq_dec N.eq_dec (as_ref k) q); congruence.
  Qed.

  Lemma from_iter_rel l : exists m, sm_from_iter as_ref l = Some m /\ rel m (last_occ as_ref l).
  Proof.
    destruct (extend_rel l [] a_empty rel_new) as (m & Hm & Hr).
    exists m; split; [exact Hm|]. eapply rel_ext; [exact Hr|].
    intros q. simpl. destruct (last_occ as_ref l q); reflexivity.
  Qed.

  (** Weakly sorted lists, for the stable sort. *)
  Definition le_kv (x y : K * V) : Prop := bytes_cmp (key x) (key y) <> Gt.

  Lemma le_kv_trans x y z : le_kv x y -> le_kv y z -> le_kv x z.
  Proof.
    unfold le_kv. intros H1 H2 H3. apply bytes_cmp_gt in H3.
    destruct (bytes_cmp (key y) (key z)) eqn:E2; [| |congruence].
    - apply bytes_cmp_eq in E2. rewrite <- E2 in H3. apply bytes_cmp_gt in H3. congruence.
    - assert (H4 := bytes_cmp_trans _ _ _ E2 H3). apply bytes_cmp_gt in H4. congruence.
  Qed.

  Lemma sort_insert_in (x : K * V) l y : In y (sort_insert as_ref x l) <-> y = x \/ In y l.
  Proof.
    induction l as [|z l IH]; simpl.
    - split; [intros [<-|[]]; auto|intros [->|[]]; auto].
    - destruct (bytes_cmp (key x) (key z)); simpl; rewrite ?IH; intuition congruence.
  Qed.

  Lemma sort_insert_sorted x l :
    StronglySorted le_kv l -> StronglySorted le_kv (sort_insert as_ref x l).
  Proof.
    induction l as [|z l IH]; intros H; simpl.
    - repeat constructor.
    - inversion H as [|? ? H1 H2]; subst.
      destruct (bytes_cmp (key x) (key z)) eqn:E.
      + constructor; [auto|]. rewrite Forall_forall in *. intros y Hy.
        apply sort_insert_in in Hy as [->|Hy]; [|auto].
        unfold le_kv. apply bytes_cmp_eq in E. rewrite E, bytes_cmp_refl. discriminate.
      + constructor; [assumption|]. constructor; [unfold le_kv; congruence|].
        rewrite Forall_forall in *. intros y Hy. apply le_kv_trans with z; [unfold le_kv; congruence|auto].
      + constructor; [auto|]. rewrite Forall_forall in *. intros y Hy.
        apply sort_insert_in in Hy as [->|Hy]; [|auto].
        unfold le_kv. apply bytes_cmp_gt in E. congruence.
  Qed.

  (** The equal elements keep their order: the first occurrence survives. *)
  Lemma sort_insert_occ x l q : StronglySorted le_kv l ->
    occ (sort_insert as_ref x l) q =
    match occ l q with Some y => Some y | None => occ [x] q end.
  Proof.
    induction l as [|z l IH]; intros H; simpl; [reflexivity|].
    inversion H as [|? ? H1 H2]; subst.
    destruct (bytes_cmp (key x) (key z)) eqn:E; simpl.
    - rewrite IH by assumption. destruct (list_eq_dec N.eq_dec (key z) q); reflexivity.
    - destruct (list_eq_dec N.eq_dec (key x) q) as [Ex|Ex].
      + destruct (list_eq_dec N.eq_dec (key z) q) as [Ez|Ez].
        * exfalso. rewrite Ex, Ez, bytes_cmp_refl in E. discriminate.
        * assert (Hno : occ l q = None).
          { destruct (occ l q) as [y|] eqn:Ey; [|reflexivity]. exfalso.
            apply occ_in in Ey as [Hin Hy]. rewrite Forall_forall in H2. specialize (H2 y Hin).
            unfold le_kv in H2. rewrite Hy in H2. rewrite Ex in E. apply bytes_cmp_gt in E. congruence. }
          now rewrite Hno.
      + destruct (list_eq_dec N.eq_dec (key z) q); [reflexivity|].
        destruct (occ l q); reflexivity.
    - rewrite IH by assumption. destruct (list_eq_dec N.eq_dec (key z) q); reflexivity.
  Qed.

  Lemma stable_sort_gen (l : list (K * V)) : forall acc, StronglySorted le_kv acc ->
    let r := fold_left (fun acc x => sort_insert as_ref x acc) l acc in
    StronglySorted le_kv r /\ forall q, occ r q = occ (acc ++ l) q.
  Proof.
    induction l as [|x l IH]; intros acc Hacc; simpl.
    - rewrite app_nil_r. auto.
    - destruct (IH _ (sort_insert_sorted x acc Hacc)) as [H1 H2]. split; [exact H1|].
      intros q. rewrite H2, !occ_app, sort_insert_occ by assumption. simpl.
      destruct (occ acc q); [reflexivity|].
      destruct (list_eq_dec N.eq_dec (key x) q); reflexivity.
  Qed.

  Lemma dedup_from_sorted l : forall p, StronglySorted le_kv (p :: l) ->
    sorted (p :: dedup_from as_ref p l) /\
    (forall q, occ (p :: dedup_from as_ref p l) q = occ (p :: l) q).
  Proof.
    induction l as [|y l IH]; intros p H.
    - split; [repeat constructor|reflexivity].
    - inversion H as [|? ? H1 H2]; subst. inversion H1 as [|? ? H3 H4]; subst.
      inversion H2 as [|? ? H5 H6]; subst.
      cbn [dedup_from]. destruct (bytes_cmp (key y) (key p)) eqn:E.
      + apply bytes_cmp_eq in E.
        assert (Hp : StronglySorted le_kv (p :: l)) by (constructor; assumption).
        destruct (IH p Hp) as [Ha Hb]. split; [exact Ha|].
        intros q. rewrite Hb. simpl. rewrite E.
        destruct (list_eq_dec N.eq_dec (key p) q); reflexivity.
      + exfalso. apply H5. now apply bytes_cmp_gt.
      + destruct (IH y H1) as [Ha Hb]. split.
        * apply sorted_cons; split; [exact Ha|].
          apply bytes_cmp_gt in E. constructor; [exact E|].
          apply sorted_cons in Ha as [_ Ha]. eapply Forall_impl; [|exact Ha].
          intros z Hz. unfold lt_kv in *. eapply bytes_cmp_trans; eassumption.
        * intros q. change (occ (p :: y :: dedup_from as_ref y l) q)
            with (if list_eq_dec N.eq_dec (key p) q then Some p else occ (y :: dedup_from as_ref y l) q).
          rewrite Hb. reflexivity.
  Qed.

  Lemma from_vec_rel l : rel (sm_from_vec as_ref l) (first_occ as_ref l).
  Proof.
    unfold sm_from_vec, stable_sort.
    destruct (stable_sort_gen l [] (SSorted_nil _)) as [H1 H2]. cbv zeta in H1, H2.
    destruct (fold_left _ l []) as [|p r]; cbn [dedup app] in *.
    - split; [constructor|]. intros q. now rewrite <- H2.
    - destruct (dedup_from_sorted r p H1) as [Ha Hb]. split; [exact Ha|].
      intros q. now rewrite Hb, H2.
  Qed.

  Lemma build_rel c : exists m, sm_build as_ref c = Some m /\ rel m (spec_build as_ref c).
  Proof.
    destruct c as [|l|l]; simpl.
    - exists []; split; [reflexivity|exact rel_new].
    - eexists; split; [reflexivity|apply from_vec_rel].
    - apply from_iter_rel.
  Qed.

  (** ** Observations *)

  Lemma get_rel m a q : rel m a -> sm_get as_ref m q = Some (option_map snd (a q)).
  Proof.
    intros Hr. destruct (step_refines m a (OpGet q) Hr) as (m' & H & _). simpl in H.
    destruct (sm_get as_ref m q); [congruence|discriminate].
  Qed.

  Lemma rel_increasing m a : rel m a ->
    strictly_increasing (map (fun kv => key kv) (sm_sequences m)).
  Proof.
    intros [Hs _]. unfold sm_sequences. induction Hs as [|x l Hl IH Hx]; simpl; [exact I|].
    split; [|assumption]. intros y Hy. apply in_map_iff in Hy as (z & <- & Hz).
    rewrite Forall_forall in Hx. apply bytes_cmp_lt_spec. now apply Hx.
  Qed.

  Lemma sorted_in_occ m kv : sorted m -> In kv m -> occ m (key kv) = Some kv.
  Proof.
    intros Hs Hin. apply in_split in Hin as (l1 & l2 & ->). rewrite occ_mid by exact Hs.
    destruct (list_eq_dec N.eq_dec (key kv) (key kv)); congruence.
  Qed.

  Lemma rel_in m a kv : rel m a -> (In kv (sm_sequences m) <-> a (key kv) = Some kv).
  Proof.
    intros [Hs Ha]. unfold sm_sequences. rewrite <- Ha. split.
    - now apply sorted_in_occ.
    - intros H. now apply occ_in in H as [H _].
  Qed.

  Lemma rel_key m a q kv : rel m a -> a q = Some kv -> key kv = q.
  Proof. intros [_ Ha] H. rewrite <- Ha in H. now apply occ_in in H as [_ H]. Qed.

  (** The neighbour examined by [find] decides whether an extension exists. *)
  Lemma extended_iff m a q l2 (before : list (K * V)) :
    rel m a -> (forall s kv, a s = Some kv -> s <> q -> is_prefix q s -> In kv l2) ->
    incl l2 m -> sorted l2 -> all_gt l2 q ->
    (exists s kv, a s = Some kv /\ s <> q /\ is_prefix q s) <->
    match nth_error l2 0 with
    | Some kv => starts_with (key kv) q
    | None => false
    end = true.
  Proof.
    intros Hr Hall Hincl Hs Hgt. split.
    - intros (s & kv & Hs1 & Hs2 & Hs3).
      assert (Hin := Hall s kv Hs1 Hs2 Hs3).
      destruct l2 as [|y l2]; [contradiction|]. simpl.
      apply starts_with_spec.
      assert (Hkv := rel_key _ _ _ _ Hr Hs1). subst s.
      destruct Hin as [<-|Hin]; [assumption|].
      apply sorted_cons in Hs as [_ Hs]. rewrite Forall_forall in Hs. specialize (Hs kv Hin).
      inversion Hgt as [|? ? Hy _]; subst.
      destruct Hs3 as [r Hr3]. eapply between_prefix; [exact Hy|].
      unfold lt_kv in Hs. rewrite Hr3 in Hs. exact Hs.
    - destruct l2 as [|y l2]; simpl; [discriminate|]. intros H.
      apply starts_with_spec in H. inversion Hgt as [|? ? Hy _]; subst.
      assert (Hin : In y m) by (apply Hincl; simpl; auto).
      exists (key y), y. repeat split.
      + now apply (rel_in m a y Hr).
      + intros E. rewrite E, bytes_cmp_refl in Hy. discriminate.
      + assumption.
  Qed.

  Lemma lt_not_prefix s q : bytes_cmp s q = Lt -> ~ is_prefix q s.
  Proof.
    intros H [r ->]. destruct r as [|x r].
    - rewrite app_nil_r, bytes_cmp_refl in H. discriminate.
    - assert (H' : bytes_cmp q (q ++ x :: r) = Lt) by (apply bytes_cmp_prefix; discriminate).
      apply bytes_cmp_gt in H'. congruence.
  Qed.

  Lemma find_rel m a q : rel m a -> exists r, sm_find as_ref m q = Some r /\ find_spec a q r.
  Proof.
    intros Hr. unfold sm_find.
    destruct (rel_cases m a q Hr) as
      [(l1 & kv & l2 & E & Hk & Ha & ->)|(l1 & l2 & E & H1 & H2 & Ha & ->)].
    - assert (Hs := proj1 Hr). rewrite E in Hs.
      assert (Hs0 := Hs). apply sorted_mid in Hs0 as (Hs12 & Hlt & Hgt).
      apply sorted_app in Hs as (_ & Hs2 & _). apply sorted_cons in Hs2 as [Hs2 _].
      rewrite Hk in Hlt, Hgt.
      assert (Hext := extended_iff m a q l2 [] Hr).
      assert (Hall : forall s kv', a s = Some kv' -> s <> q -> is_prefix q s -> In kv' l2).
      { intros s kv' Hs' Hne Hp. assert (Hkey := rel_key _ _ _ _ Hr Hs'). subst s.
        assert (Hin : In kv' m) by (now apply (rel_in m a kv' Hr)).
        rewrite E in Hin. apply in_app_or in Hin as [Hin|[->|Hin]]; [| |assumption].
        - unfold all_lt in Hlt. rewrite Forall_forall in Hlt. specialize (Hlt _ Hin).
          exfalso. exact (lt_not_prefix _ _ Hlt Hp).
        - congruence. }
      specialize (Hext Hall).
      assert (Hincl : incl l2 m) by (rewrite E; intros z Hz; apply in_or_app; simpl; auto).
      specialize (Hext Hincl Hs2 Hgt).
      rewrite E, nth_error_len_app.
      replace (nth_error (l1 ++ kv :: l2) (length l1 + 1)) with (nth_error l2 0)
        by (rewrite nth_error_app2 by lia;
            replace (length l1 + 1 - length l1) with 1 by lia; reflexivity).
      destruct (match nth_error l2 0 with Some kv0 => _ | None => false end) eqn:Ei;
        (eexists; split; [reflexivity|]); simpl.
      + split; [exists (fst kv); now destruct kv|]. now apply Hext.
      + split; [exists (fst kv); now destruct kv|]. intros Hx. apply Hext in Hx. discriminate.
    - assert (Hs := proj1 Hr). rewrite E in Hs. apply sorted_app in Hs as (_ & Hs2 & _).
      assert (Hext := extended_iff m a q l2 [] Hr).
      assert (Hall : forall s kv', a s = Some kv' -> s <> q -> is_prefix q s -> In kv' l2).
      { intros s kv' Hs' Hne Hp. assert (Hkey := rel_key _ _ _ _ Hr Hs'). subst s.
        assert (Hin : In kv' m) by (now apply (rel_in m a kv' Hr)).
        rewrite E in Hin. apply in_app_or in Hin as [Hin|Hin]; [|assumption].
        unfold all_lt in H1. rewrite Forall_forall in H1. specialize (H1 _ Hin).
        exfalso. exact (lt_not_prefix _ _ H1 Hp). }
      specialize (Hext Hall).
      assert (Hincl : incl l2 m) by (rewrite E; intros z Hz; apply in_or_app; simpl; auto).
      specialize (Hext Hincl Hs2 H2).
      replace (nth_error m (length l1 + 0)) with (nth_error l2 0)
        by (rewrite E, nth_error_app2 by lia;
            replace (length l1 + 0 - length l1) with 0 by lia; reflexivity).
      destruct (match nth_error l2 0 with Some kv0 => _ | None => false end) eqn:Ei;
        (eexists; split; [reflexivity|]); simpl.
      + split; [intros [kv Hkv]; congruence|]. now apply Hext.
      + split; [intros [kv Hkv]; congruence|]. intros Hx. apply Hext in Hx. discriminate.
  Qed.

  (** ** End-to-end statements *)

  Lemma history_refines c ops :
    exists m0 m, sm_build as_ref c = Some m0 /\
      let '(a, replies) := spec_run as_ref (spec_build as_ref c) ops in
      sm_run as_ref m0 ops = Some (m, replies) /\ rel m a.
  Proof.
    destruct (build_rel c) as (m0 & H0 & Hr0).
    destruct (run_refines ops m0 _ Hr0) as (m & Hm & Hr).
    exists m0, m. split; [assumption|].
    destruct (spec_run as_ref (spec_build as_ref c) ops); simpl in *. auto.
  Qed.
End Proofs.

Section EndToEnd.
  Variables (K V : Type) (as_ref : K -> bytes).

  Lemma reachable_rel (m : seqmap K V) : reachable as_ref m -> exists a, rel K V as_ref m a.
  Proof.
    intros (c & ops & m0 & rs & H0 & H1).
    destruct (history_refines K V as_ref c ops) as (m0' & m' & Hb & Hr).
    destruct (spec_run as_ref (spec_build as_ref c) ops) as [a replies].
    destruct Hr as [Hrun Hrel]. exists a. congruence.
  Qed.

  Lemma map_refinement (c : seq_ctor K V) ops :
    exists m0 m replies a,
      sm_build as_ref c = Some m0 /\
      spec_run as_ref (spec_build as_ref c) ops = (a, replies) /\
      sm_run as_ref m0 ops = Some (m, replies) /\
      (forall q, sm_get as_ref m q = Some (option_map snd (a q))) /\
      (forall kv, In kv (sm_sequences m) <-> a (as_ref (fst kv)) = Some kv).
  Proof.
    destruct (history_refines K V as_ref c ops) as (m0 & m & Hb & Hr).
    destruct (spec_run as_ref (spec_build as_ref c) ops) as [a replies].
    destruct Hr as [Hrun Hrel]. exists m0, m, replies, a.
    repeat split; auto.
    - intros q. now apply get_rel.
    - now apply rel_in.
    - now apply rel_in.
  Qed.

  Lemma sequences_sorted (m : seqmap K V) : reachable as_ref m ->
    strictly_increasing (map (fun kv => as_ref (fst kv)) (sm_sequences m)) /\
    NoDup (map (fun kv => as_ref (fst kv)) (sm_sequences m)) /\
    (forall q v, sm_get as_ref m q = Some (Some v) <->
                 exists k, as_ref k = q /\ In (k, v) (sm_sequences m)) /\
    (forall q, sm_get as_ref m q <> None).
  Proof.
    intros H. destruct (reachable_rel m H) as [a Hr].
    assert (Hinc := rel_increasing K V as_ref m a Hr).
    split; [assumption|]. split; [|split].
    - clear -Hinc. induction (map _ (sm_sequences m)) as [|x l IH]; [constructor|].
      destruct Hinc as [H1 H2]. constructor; [|auto].
      intros Hin. specialize (H1 x Hin). apply bytes_cmp_lt_spec in H1.
      rewrite bytes_cmp_refl in H1. discriminate.
    - intros q v. rewrite (get_rel K V as_ref m a q Hr). split.
      + intros E. destruct (a q) as [[k v']|] eqn:Ea; [|discriminate]. simpl in E.
        injection E as ->. assert (Hk := rel_key K V as_ref m a q _ Hr Ea). simpl in Hk.
        exists k; split; [assumption|]. apply (rel_in K V as_ref m a _ Hr). simpl. congruence.
      + intros (k & <- & Hin). apply (rel_in K V as_ref m a _ Hr) in Hin. simpl in Hin. now rewrite Hin.
    - intros q. rewrite (get_rel K V as_ref m a q Hr). discriminate.
  Qed.

  Lemma find_documented (m : seqmap K V) q : reachable as_ref m ->
    exists r, sm_find as_ref m q = Some r /\
      find_spec (first_occ as_ref (sm_sequences m)) q r.
  Proof.
    intros H. destruct (reachable_rel m H) as [a Hr].
    apply (find_rel K V as_ref m). split; [exact (proj1 Hr)|reflexivity].
  Qed.

  Lemma constructors (l : list (K * V)) :
    (forall q, sm_get as_ref (sm_from_vec as_ref l) q = Some (option_map snd (first_occ as_ref l q))) /\
    (exists m, sm_from_iter as_ref l = Some m /\
               forall q, sm_get as_ref m q = Some (option_map snd (last_occ as_ref l q))).
  Proof.
    split.
    - intros q. apply get_rel. apply from_vec_rel.
    - destruct (from_iter_rel K V as_ref l) as (m & Hm & Hr). exists m; split; [assumption|].
      intros q. now apply get_rel.
  Qed.

  Lemma entry_documented (m : seqmap K V) k mods fin : reachable as_ref m ->
    exists m' r old,
      sm_get as_ref m (as_ref k) = Some old /\
      sm_step as_ref m (OpEntry k mods fin) = Some (m', r) /\
      sm_get as_ref m' (as_ref k) = Some (fst (entry_effect old mods fin)) /\
      reply_value r = snd (entry_effect old mods fin) /\
      (forall q, q <> as_ref k -> sm_get as_ref m' q = sm_get as_ref m q) /\
      (forall k0 v0 k1 v1, as_ref k0 = as_ref k -> as_ref k1 = as_ref k ->
         In (k0, v0) (sm_sequences m) -> In (k1, v1) (sm_sequences m') -> k1 = k0) /\
      (forall k1 v1, old = None -> as_ref k1 = as_ref k -> In (k1, v1) (sm_sequences m') -> k1 = k).
  Proof.
    intros H. destruct (reachable_rel m H) as [a Hr].
    destruct (step_refines K V as_ref m a (OpEntry k mods fin) Hr) as (m' & Hm' & Hr').
    exists m', (snd (spec_step as_ref a (OpEntry k mods fin))), (option_map snd (a (as_ref k))).
    split; [now apply get_rel|]. split; [assumption|].
    rewrite !(get_rel K V as_ref _ _ _ Hr'). simpl in *.
    split; [|split; [|split; [|split]]].
    - f_equal. destruct (a (as_ref k)) as [[k0 v0]|] eqn:Ea; destruct fin; simpl;
        rewrite ?a_set_eq, ?Ea; reflexivity.
    - destruct (a (as_ref k)) as [[k0 v0]|]; destruct fin; reflexivity.
    - intros q Hq. rewrite (get_rel K V as_ref _ _ q Hr'), (get_rel K V as_ref _ _ q Hr). f_equal. f_equal.
      destruct (a (as_ref k)) as [[k0 v0]|] eqn:Ea; destruct fin; simpl; unfold a_set;
        try (destruct (list_eq_dec N.eq_dec q (as_ref k)); congruence); reflexivity.
    - intros k0 v0 k1 v1 E0 E1 H0 H1.
      apply (rel_in K V as_ref _ _ _ Hr) in H0. apply (rel_in K V as_ref _ _ _ Hr') in H1.
      simpl in H0, H1. rewrite E0 in H0. rewrite E1, H0 in H1.
      destruct fin; simpl in H1; rewrite a_set_eq in H1; congruence.
    - intros k1 v1 Ho E1 H1. apply (rel_in K V as_ref _ _ _ Hr') in H1. simpl in H1.
      destruct (a (as_ref k)) as [[k0 v0]|] eqn:Ea; [discriminate|]. rewrite E1 in H1.
      destruct fin; simpl in H1; rewrite ?a_set_eq in H1; congruence.
  Qed.

  (** [insert] replaces the stored key object as well. *)
  Lemma insert_replaces_key (m : seqmap K V) k v : reachable as_ref m ->
    exists m' r, sm_insert as_ref m k v = Some (m', r) /\
      sm_get as_ref m (as_ref k) = Some r /\
      In (k, v) (sm_sequences m') /\
      (forall q, q <> as_ref k -> sm_get as_ref m' q = sm_get as_ref m q).
  Proof.
    intros H. destruct (reachable_rel m H) as [a Hr].
    destruct (step_refines K V as_ref m a (OpInsert k v) Hr) as (m' & Hm' & Hr'). simpl in *.
    destruct (sm_insert as_ref m k v) as [[m1 r]|]; [|discriminate]. injection Hm' as -> Hrep.
    exists m', r. split; [reflexivity|]. split; [|split].
    - rewrite (get_rel K V as_ref _ _ _ Hr). congruence.
    - apply (rel_in K V as_ref _ _ _ Hr'). simpl. apply a_set_eq.
    - intros q Hq. rewrite (get_rel K V as_ref _ _ q Hr'), (get_rel K V as_ref _ _ q Hr).
      unfold a_set. destruct (list_eq_dec N.eq_dec q (as_ref k)); congruence.
  Qed.
End EndToEnd.
