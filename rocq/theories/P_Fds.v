(** Proofs about descriptors (C88). *)
From Verif Require Import Base M_Fds S_Fds.
Local Open Scope N_scope.

Definition finv (s : ftable) (l : ledger) (bad : bool) : Prop :=
  (forall fd f, others l fd = Some f -> files s fd = Some f) /\
  (forall h fd f, opened l h = Some (fd, f) -> files s fd = Some f /\ others l fd = None) /\
  (forall h k fd f g, opened l h = Some (fd, f) -> opened l k = Some (fd, g) -> h = k) /\
  (forall h, match terms s h with
             | Some d => if owned_fd d then in_fd d = out_fd d /\ exists f, opened l h = Some (out_fd d, f)
                         else in_fd d = 0 /\ (out_fd d = 1 \/ out_fd d = 2) /\ opened l h = None
             | None => opened l h = None
             end) /\
  (bad = false -> forall fd f, files s fd = Some f -> others l fd = Some f \/ exists h, opened l h = Some (fd, f)).

Ltac fspl := cbn in *; unfold setf, seth in *;
  repeat match goal with
  | H : context [(?a =? ?b)%nat] |- _ => destruct (Nat.eqb_spec a b)
  | |- context [(?a =? ?b)%nat] => destruct (Nat.eqb_spec a b)
  | H : context [?a =? ?b] |- _ => destruct (N.eqb_spec a b)
  | |- context [?a =? ?b] => destruct (N.eqb_spec a b)
  end.

Lemma finv_step s l bad o s' r : finv s l bad -> lawful l o -> fstep o s = Some (s', r) ->
  finv s' (note o r l) (bad || match o, r with FDrop _, RPanic => true | _, _ => false end).
Proof.
  intros (I1 & I2 & I3 & I4 & I5) Hl.
  destruct o as [h k info|h info|h info|h|h|h|fd f|fd]; cbn [fstep].
  - destruct k as [[fd f]|]; [|intros [= <- <-]; cbn; rewrite orb_false_r; unfold finv; auto].
    destruct (files s fd) eqn:Ef; [discriminate|]. destruct (terms s h) eqn:Et; [discriminate|].
    assert (Ho : others l fd = None) by (destruct (others l fd) eqn:E; [apply I1 in E; congruence|reflexivity]).
    assert (Hh : opened l h = None) by (specialize (I4 h); rewrite Et in I4; exact I4).
    assert (Hn : forall k g, opened l k <> Some (fd, g)) by (intros k g H; apply I2 in H; destruct H; congruence).
    unfold new_term. destruct info; intros [= <- <-]; cbn [note]; rewrite orb_false_r; unfold finv.
    + split; [|split; [|split; [|split]]].
      * intros n g H. fspl; [congruence|auto].
      * intros a n g H. fspl; try (injection H as <- <-); try congruence; try (split; [reflexivity|exact Ho]); apply I2 in H; try exact H; destruct H; congruence.
      * intros a b n x y Hx Hy. fspl; try congruence; try (injection Hx as <- <-; now apply Hn in Hy); try (injection Hy as <- <-; now apply Hn in Hx). eapply I3; eauto.
      * intros a. specialize (I4 a). fspl; [subst; cbn; eauto|exact I4].
      * intros Hb n g H. fspl; [subst; right; exists h; rewrite Nat.eqb_refl; congruence|].
        destruct (I5 Hb n g H) as [|(k & Hk)]; [auto|]. right. exists k. destruct (Nat.eqb_spec k h); [congruence|exact Hk].
    + split; [|split; [|split; [exact I3|split; [exact I4|]]]].
      * intros n g H. fspl; [congruence|auto].
      * intros a n g H. fspl; [subst; now apply Hn in H|now apply I2 in H].
      * intros Hb n g H. fspl; [congruence|auto].
  - destruct (terms s h) eqn:Et; [discriminate|]. pose proof (I4 h) as Ih. rewrite Et in Ih. unfold new_term.
    destruct info; intros [= <- <-]; cbn [note]; rewrite orb_false_r; (split; [exact I1|split; [exact I2|split; [exact I3|split; [|exact I5]]]]); [|exact I4].
    intros a. specialize (I4 a). fspl; [subst; cbn; auto|exact I4].
  - destruct (terms s h) eqn:Et; [discriminate|]. pose proof (I4 h) as Ih. rewrite Et in Ih. unfold new_term.
    destruct info; intros [= <- <-]; cbn [note]; rewrite orb_false_r; (split; [exact I1|split; [exact I2|split; [exact I3|split; [|exact I5]]]]); [|exact I4].
    intros a. specialize (I4 a). fspl; [subst; cbn; auto|exact I4].
  - destruct (terms s h) as [d|] eqn:Et; [|discriminate]. pose proof (I4 h) as Ih. rewrite Et in Ih.
    assert (T : forall z, terms z = seth h None (terms s) -> forall a, match terms z a with
       | Some d => if owned_fd d then in_fd d = out_fd d /\ exists f, (if (a =? h)%nat then None else opened l a) = Some (out_fd d, f)
                   else in_fd d = 0 /\ (out_fd d = 1 \/ out_fd d = 2) /\ (if (a =? h)%nat then None else opened l a) = None
       | None => (if (a =? h)%nat then None else opened l a) = None end).
    { intros z -> a. specialize (I4 a). unfold seth. destruct (Nat.eqb_spec a h); [reflexivity|exact I4]. }
    destruct (wpoisoned d).
    { intros [= <- <-]. cbn [note]. rewrite orb_true_r. unfold finv. split; [exact I1|]. split; [|split; [|split; [now apply T|discriminate]]].
      - intros a fd f H. fspl; [discriminate|now apply I2 in H].
      - intros a b fd x y Hx Hy. fspl; try discriminate. eapply I3; eauto. }
    destruct (owned_fd d) eqn:Eo.
    + destruct Ih as [_ (f0 & Ih)]. destruct (I2 _ _ _ Ih) as [Hf Hn]. intros [= <- <-]. cbn [note]. rewrite orb_false_r. unfold finv.
      split; [|split; [|split; [|split; [now apply T|]]]].
      * intros fd f H. fspl; [congruence|auto].
      * intros a fd f H. fspl; try discriminate; [|now apply I2 in H]. exfalso. apply n. subst. eapply I3; eauto.
      * intros a b fd x y Hx Hy. fspl; try discriminate. eapply I3; eauto.
      * intros Hb fd f H. fspl; [discriminate|]. destruct (I5 Hb _ _ H) as [|(k & Hk)]; [auto|]. right. exists k.
        destruct (Nat.eqb_spec k h); [subst; rewrite Ih in Hk; congruence|exact Hk].
    + destruct Ih as (_ & _ & Ih). intros [= <- <-]. cbn [note]. rewrite orb_false_r. unfold finv.
      split; [exact I1|]. split; [|split; [|split; [now apply T|]]].
      * intros a fd f H. fspl; [discriminate|now apply I2 in H].
      * intros a b fd x y Hx Hy. fspl; try discriminate. eapply I3; eauto.
      * intros Hb fd f H. destruct (I5 Hb _ _ H) as [|(k & Hk)]; [auto|]. right. exists k. cbn.
        destruct (Nat.eqb_spec k h); [congruence|exact Hk].
  - destruct (terms s h) eqn:Et; [|discriminate]. intros [= <- <-]. cbn [note]. rewrite orb_false_r.
    unfold finv; auto.
  - destruct (terms s h) as [d|] eqn:Et; [|discriminate]. intros [= <- <-]. cbn [note]. rewrite orb_false_r.
    split; [exact I1|]. split; [exact I2|]. split; [exact I3|]. split; [|exact I5].
    intros a. pose proof (I4 a) as Ia. fspl; [subst; rewrite Et in Ia; exact Ia|exact Ia].
  - destruct (files s fd) eqn:Ef; [discriminate|]. intros [= <- <-]. cbn [note]. rewrite orb_false_r. unfold finv.
    split; [|split; [|split; [exact I3|split; [exact I4|]]]].
    + intros n g H. fspl; auto.
    + intros a n g H. destruct (I2 _ _ _ H). fspl; [congruence|auto].
    + intros Hb n g H. fspl; auto.
  - intros [= <- <-]. cbn [note]. rewrite orb_false_r. cbn [lawful] in Hl. unfold finv.
    split; [|split; [|split; [exact I3|split; [exact I4|]]]].
    + intros n g H. fspl; [discriminate|auto].
    + intros a n g H. destruct (I2 _ _ _ H). fspl; [congruence|auto].
    + intros Hb n g H. fspl; [discriminate|auto].
Qed.

Lemma history_inv s l bad : history s l bad -> finv s l bad.
Proof.
  induction 1; [|eapply finv_step; eauto]. unfold finv. cbn. repeat split; auto; try discriminate.
Qed.

Lemma fds_kept s l bad : history s l bad ->
  (forall fd f, others l fd = Some f -> files s fd = Some f) /\
  (forall h d, terms s h = Some d -> owned_fd d = true ->
     in_fd d = out_fd d /\ exists f, opened l h = Some (out_fd d, f) /\ files s (out_fd d) = Some f).
Proof.
  intros H. apply history_inv in H as (I1 & I2 & I3 & I4 & I5). split; [exact I1|].
  intros h d Hd Ho. specialize (I4 h). rewrite Hd, Ho in I4. destruct I4 as [E (f & Hf)]. split; [exact E|]. exists f. split; [exact Hf|]. now apply I2 in Hf.
Qed.

Lemma fds_exact s l : history s l false -> forall fd f,
  files s fd = Some f <-> others l fd = Some f \/ exists h, opened l h = Some (fd, f).
Proof.
  intros H. apply history_inv in H as (I1 & I2 & I3 & I4 & I5). intros fd f. split; [now apply I5|].
  intros [H|(h & H)]; [auto|now apply I2 in H].
Qed.

Lemma drop_leaks s l bad h d : history s l bad -> terms s h = Some d -> owned_fd d = true -> wpoisoned d = true ->
  exists s', fstep (FDrop h) s = Some (s', RPanic) /\ terms s' h = None /\
  exists f, opened l h = Some (out_fd d, f) /\ files s' (out_fd d) = Some f /\
            others l (out_fd d) = None /\ forall k g, opened (note (FDrop h) RPanic l) k <> Some (out_fd d, g).
Proof.
  intros H Hd Ho Hp. apply history_inv in H as (I1 & I2 & I3 & I4 & I5). specialize (I4 h). rewrite Hd, Ho in I4. destruct I4 as [E (f & Hf)].
  cbn [fstep]. rewrite Hd, Hp. eexists. split; [reflexivity|]. cbn. unfold seth. rewrite Nat.eqb_refl. split; [reflexivity|].
  exists f. destruct (I2 _ _ _ Hf) as [A B]. split; [exact Hf|]. split; [exact A|]. split; [exact B|].
  intros k g. destruct (Nat.eqb_spec k h); [discriminate|]. intros Hk. apply n. eapply I3; eauto.
Qed.

Lemma wait_high s l bad h d : history s l bad -> terms s h = Some d ->
  fstep (FWait h) s = Some (s, RPanic) <-> exists fd f, opened l h = Some (fd, f) /\ 1024 <= fd.
Proof.
  intros H Hd. apply history_inv in H as (I1 & I2 & I3 & I4 & I5). specialize (I4 h). rewrite Hd in I4.
  cbn [fstep]. rewrite Hd. unfold FD_SETSIZE. destruct (owned_fd d).
  - destruct I4 as [E (f & Hf)]. rewrite E, Hf. destruct (N.ltb_spec (out_fd d) 1024); (split; [intros G; try discriminate G|intros (fd & g & [= <- <-] & Hg); try lia; try reflexivity]).
    exists (out_fd d), f. auto.
  - destruct I4 as (E & _ & Hf). rewrite E, Hf. cbn. split; [intros G; discriminate G|intros (fd & g & G & _); discriminate G].
Qed.

Lemma kept_fds h i o : forall ops s s', ~ In (FDrop h) ops ->
  (exists d, terms s h = Some d /\ in_fd d = i /\ out_fd d = o /\ owned_fd d = false) -> fruns ops s = Some s' ->
  exists d, terms s' h = Some d /\ in_fd d = i /\ out_fd d = o /\ owned_fd d = false.
Proof.
  induction ops as [|x ops IH]; intros s s' Hn (d & Hd & H1) H; cbn [fruns] in H; [injection H as <-; eauto|].
  destruct (fstep x s) as [[s1 r]|] eqn:Ex; [|discriminate H].
  refine (IH s1 s' (fun Hi => Hn (or_intror Hi)) _ H).
  assert (Hx : x <> FDrop h) by (intros ->; apply Hn; now left). clear Hn IH H.
  destruct x as [k [[fd f]|] info|k info|k info|k|k|k|fd f|fd]; cbn [fstep] in Ex.
  - destruct (files s fd); [discriminate Ex|]. destruct (terms s k) eqn:Ek; [discriminate Ex|].
    unfold new_term in Ex. destruct info; injection Ex as <- _; cbn; [|eauto].
    unfold seth. destruct (Nat.eqb_spec h k) as [<-|]; [congruence|eauto].
  - injection Ex as <- _. eauto.
  - destruct (terms s k) eqn:Ek; [discriminate Ex|]. unfold new_term in Ex. destruct info; injection Ex as <- _; cbn; [|eauto].
    unfold seth. destruct (Nat.eqb_spec h k) as [<-|]; [congruence|eauto].
  - destruct (terms s k) eqn:Ek; [discriminate Ex|]. unfold new_term in Ex. destruct info; injection Ex as <- _; cbn; [|eauto].
    unfold seth. destruct (Nat.eqb_spec h k) as [<-|]; [congruence|eauto].
  - destruct (terms s k) as [d'|] eqn:Ek; [|discriminate Ex].
    assert (Hk : h <> k) by congruence. apply Nat.eqb_neq in Hk.
    destruct (wpoisoned d'); [injection Ex as <- _|destruct (owned_fd d'); injection Ex as <- _]; cbn; unfold seth; rewrite Hk; eauto.
  - destruct (terms s k); [|discriminate Ex]. injection Ex as <- _. eauto.
  - destruct (terms s k) as [d'|] eqn:Ek; [|discriminate Ex]. injection Ex as <- _. cbn. unfold seth.
    destruct (Nat.eqb_spec h k) as [<-|]; [|eauto]. rewrite Hd in Ek. injection Ek as <-. eexists. split; [reflexivity|]. exact H1.
  - destruct (files s fd); [discriminate Ex|]. injection Ex as <- _. eauto.
  - injection Ex as <- _. eauto.
Qed.

Lemma standard_fds x h fd ops s s1 s' : standard x = Some (h, fd) -> fstep x s = Some (s1, ROk) -> ~ In (FDrop h) ops -> fruns ops s1 = Some s' ->
  (exists d, terms s' h = Some d /\ in_fd d = 0 /\ out_fd d = fd) /\
  forall s2 r, fstep (FDrop h) s' = Some (s2, r) -> files s2 = files s'.
Proof.
  intros Hx H Hn Hr.
  assert (G : exists d, terms s1 h = Some d /\ in_fd d = 0 /\ out_fd d = fd /\ owned_fd d = false).
  { destruct x; try discriminate Hx; injection Hx as -> <-; cbn [fstep] in H; (destruct (terms s h); [discriminate H|]);
      unfold new_term in H; destruct info; try discriminate H; injection H as <-; cbn; unfold seth; rewrite Nat.eqb_refl; eexists; (split; [reflexivity|]); auto. }
  destruct (kept_fds h 0 fd ops s1 s' Hn G Hr) as (d & D1 & D2 & D3 & D4). split; [eauto|].
  intros s2 r H2. cbn [fstep] in H2. rewrite D1, D4 in H2. destruct (wpoisoned d); injection H2 as <- _; reflexivity.
Qed.
