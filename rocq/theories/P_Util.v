From Verif Require Import Base M_Utf8 S_Utf8 P_Utf8 M_Util.
Local Open Scope N_scope.

Lemma land31 c : N.land c 31 = c mod 32.
Proof. change 31 with (N.ones 5). rewrite N.land_ones. reflexivity. Qed.

Lemma is_ctrl_spec c : is_ctrl c = true <-> c <= 0x1f.
Proof. unfold is_ctrl, CTRL_MASK. rewrite land31. lia. Qed.

Lemma ctrl_is_ctrl c : is_ctrl (ctrl c) = true.
Proof. apply is_ctrl_spec. unfold ctrl, CTRL_MASK. rewrite land31. lia. Qed.

Definition all32 : list N := map N.of_nat (seq 0 32).
Lemma all32_in c : c <= 0x1f -> In c all32.
Proof. intros H. unfold all32. apply in_map_iff. exists (N.to_nat c). split; [lia|]. apply in_seq. lia. Qed.

Lemma unctrl_roundtrip c : is_ctrl c = true ->
  ctrl (unctrl_upper c) = c /\ ctrl (unctrl_lower c) = c.
Proof.
  intros H. apply is_ctrl_spec, all32_in in H.
  assert (Hs : forallb (fun c => (ctrl (unctrl_upper c) =? c) && (ctrl (unctrl_lower c) =? c)) all32 = true)
    by (vm_compute; reflexivity).
  rewrite forallb_forall in Hs. specialize (Hs c H). lia.
Qed.

Lemma unctrl_lower_not_upper c : ~ (65 <= unctrl_lower c <= 90).
Proof. unfold unctrl_lower, to_ascii_lowercase. destruct ((65 <=? unctrl_upper c) && (unctrl_upper c <=? 90))%bool eqn:E; lia. Qed.

Lemma ctrl_case c : 65 <= c <= 90 -> ctrl c = ctrl (c + 32) /\ ctrl c = c - 64.
Proof. intros H. unfold ctrl, CTRL_MASK, as_u8. rewrite !land31. lia. Qed.

(** For control characters the [unctrl] functions give the printed caret letter. *)
Lemma unctrl_range c : is_ctrl c = true ->
  unctrl_upper c = c + 64 /\ (unctrl_lower c = c + 96 \/ unctrl_lower c = c + 64) /\
  (unctrl_lower c = c + 96 <-> 1 <= c <= 26).
Proof.
  intros H. apply is_ctrl_spec, all32_in in H.
  assert (Hs : forallb (fun c => (unctrl_upper c =? c + 64) &&
      (((unctrl_lower c =? c + 96) && (1 <=? c) && (c <=? 26)) ||
       ((unctrl_lower c =? c + 64) && ((c <? 1) || (26 <? c))))) all32 = true)
    by (vm_compute; reflexivity).
  rewrite forallb_forall in Hs. specialize (Hs c H). lia.
Qed.

(** ** prefixes *)

Lemma first_byte_not_cont c r : scalar c ->
  exists b t, utf8 c ++ r = b :: t /\ is_cont b = false.
Proof.
  intros Hc. destruct (utf8_shape c Hc); simpl; (do 2 eexists); (split; [reflexivity|]);
    unfold is_cont; lia.
Qed.

Lemma boundary_at cs ds : Forall scalar ds ->
  is_char_boundary (utf8s cs ++ utf8s ds) (length (utf8s cs)) = true.
Proof.
  intros Hd. unfold is_char_boundary. destruct (length (utf8s cs)) as [|n] eqn:E; [reflexivity|].
  rewrite nth_error_app2 by lia. rewrite E, Nat.sub_diag.
  destruct ds as [|d ds].
  - simpl. rewrite app_nil_r, E. apply Nat.eqb_refl.
  - inversion Hd; subst. rewrite utf8s_cons.
    destruct (first_byte_not_cont d (utf8s ds)) as (b & t & -> & Hb); [assumption|].
    simpl. now rewrite Hb.
Qed.

Lemma prefixes_gen pre cs : Forall scalar cs ->
  map (fun p => let '(idx, ch) := p in
                let e := (idx + len_utf8 ch)%nat in
                if ((e <=? length (utf8s (pre ++ cs)))%nat && is_char_boundary (utf8s (pre ++ cs)) e)%bool
                then Some (firstn e (utf8s (pre ++ cs))) else None)
      (offsets (length (utf8s pre)) cs) =
  map (fun k => Some (utf8s (firstn (length pre + k) (pre ++ cs)))) (seq 1 (length cs)).
Proof.
  revert pre. induction cs as [|c cs IH]; intros pre Hcs; [reflexivity|].
  inversion Hcs as [|? ? Hc Hcs']; subst.
  assert (Hpre : (length (utf8s pre) + len_utf8 c)%nat = length (utf8s (pre ++ [c]))).
  { rewrite utf8s_app, app_length, utf8s_cons, app_length, utf8_length. simpl. lia. }
  assert (Happ : pre ++ c :: cs = (pre ++ [c]) ++ cs) by (rewrite <- app_assoc; reflexivity).
  cbn [offsets map length seq].
  rewrite Hpre. f_equal.
  - cbv zeta. rewrite Happ. rewrite (utf8s_app (pre ++ [c]) cs).
    rewrite boundary_at by assumption. rewrite app_length.
    replace (length (utf8s (pre ++ [c])) <=? length (utf8s (pre ++ [c])) + length (utf8s cs))%nat with true by lia.
    cbn [andb]. rewrite firstn_app, Nat.sub_diag, firstn_all. simpl. rewrite app_nil_r.
    f_equal. f_equal. replace (length pre + 1)%nat with (length (pre ++ [c])) by (rewrite app_length; simpl; lia).
    rewrite firstn_app, Nat.sub_diag, firstn_all. simpl. now rewrite app_nil_r.
  - rewrite Happ. etransitivity; [apply (IH (pre ++ [c]) Hcs')|]. rewrite <- (seq_shift (length cs) 1), map_map.
    apply map_ext. intros k. f_equal. f_equal. f_equal. rewrite app_length. simpl. lia.
Qed.

Lemma prefixes_spec cs : Forall scalar cs ->
  prefixes (utf8s cs) = map (fun k => Some (utf8s (firstn k cs))) (seq 1 (length cs)).
Proof.
  intros H. unfold prefixes. rewrite char_indices_spec by assumption.
  apply (prefixes_gen [] cs H).
Qed.

Lemma prefixes_exact s p : valid_utf8 s ->
  (In (Some p) (prefixes s) <-> p <> [] /\ (exists r, s = p ++ r) /\ valid_utf8 p) /\
  ~ In None (prefixes s).
Proof.
  intros (cs & Hcs & ->). rewrite prefixes_spec by assumption. split.
  - rewrite in_map_iff. split.
    + intros (k & E & Hk). apply in_seq in Hk. injection E as <-. split; [|split].
      * destruct cs as [|c cs]; [simpl in Hk; lia|]. destruct k; [lia|]. simpl.
        intros E. apply app_eq_nil in E as [E _]. now apply utf8_nonempty in E.
      * exists (utf8s (skipn k cs)). rewrite <- utf8s_app. now rewrite firstn_skipn.
      * exists (firstn k cs). split; [|reflexivity]. rewrite Forall_forall in *. intros x Hx. apply Hcs.
        rewrite <- (firstn_skipn k cs). apply in_or_app. now left.
    + intros (Hne & [r Hr] & (ds & Hds & ->)).
      assert (Hno : forall c r0, scalar c -> @nil N <> utf8 c ++ r0).
      { intros c r0 _ E. symmetry in E. apply app_eq_nil in E as [E _]. now apply utf8_nonempty in E. }
      destruct (utf8s_prefix cs ds [] Hcs Hds Hno) as [es ->].
      { exists r. now rewrite app_nil_r. }
      exists (length ds). split.
      * rewrite firstn_app, Nat.sub_diag, firstn_all. simpl. now rewrite app_nil_r.
      * apply in_seq. rewrite app_length. destruct ds; [exfalso; apply Hne; reflexivity|simpl; lia].
  - rewrite in_map_iff. intros (k & E & _). discriminate.
Qed.

Lemma prefixes_lengths cs : Forall scalar cs ->
  forall i j p q, (i < j)%nat -> nth_error (prefixes (utf8s cs)) i = Some (Some p) ->
    nth_error (prefixes (utf8s cs)) j = Some (Some q) -> (length p < length q)%nat.
Proof.
  intros Hcs i j p q Hij Hi Hj. rewrite prefixes_spec in Hi, Hj by assumption.
  rewrite nth_error_map in Hi, Hj.
  destruct (nth_error (seq 1 (length cs)) i) as [a|] eqn:Ea; [|discriminate].
  destruct (nth_error (seq 1 (length cs)) j) as [b|] eqn:Eb; [|discriminate].
  simpl in Hi, Hj. injection Hi as <-. injection Hj as <-.
  assert (Hi' : (i < length cs)%nat).
  { assert (nth_error (seq 1 (length cs)) i <> None) as Hx by congruence.
    apply nth_error_Some in Hx. rewrite seq_length in Hx. exact Hx. }
  assert (Hj' : (j < length cs)%nat).
  { assert (nth_error (seq 1 (length cs)) j <> None) as Hx by congruence.
    apply nth_error_Some in Hx. rewrite seq_length in Hx. exact Hx. }
  apply (nth_error_nth _ _ 0%nat) in Ea, Eb. rewrite seq_nth in Ea, Eb by assumption.
  subst a b. cbn [Nat.add].
  replace (S j) with (S i + (j - i))%nat by lia.
  assert (Hsplit : firstn (S i + (j - i)) cs = firstn (S i) cs ++ firstn (j - i) (skipn (S i) cs)).
  { rewrite <- (firstn_skipn (S i) cs) at 1. rewrite firstn_app.
    rewrite firstn_all2 by (rewrite firstn_length; lia).
    f_equal. f_equal. rewrite firstn_length. lia. }
  rewrite Hsplit, utf8s_app, app_length.
  destruct (firstn (j - i) (skipn (S i) cs)) as [|c l] eqn:El.
  - exfalso. apply (f_equal (@length N)) in El. rewrite firstn_length, skipn_length in El. simpl in El. lia.
  - rewrite utf8s_cons, app_length, utf8_length. pose proof (len_utf8_pos c). lia.
Qed.

(** ** Key::from(char) *)

Lemma key_cases c :
  (c = 0x1b /\ key_from_char c = KEscape) \/
  (c = 0x7f /\ key_from_char c = KBackspace) \/
  ((c = 13 \/ c = 10) /\ key_from_char c = KEnter) \/
  (c = 9 /\ key_from_char c = KTab) \/
  (c <= 0x1f /\ c <> 0x1b /\ c <> 13 /\ c <> 10 /\ c <> 9 /\
     exists l, key_from_char c = KCtrl l /\ ctrl l = c /\ ~ (65 <= l <= 90)) \/
  (0x1f < c /\ c <> 0x7f /\ key_from_char c = KChar c).
Proof.
  unfold key_from_char.
  destruct (N.eqb_spec c 0x1b); [tauto|].
  destruct (N.eqb_spec c 0x7f); [tauto|].
  destruct ((c =? 13) || (c =? 10))%bool eqn:E; [right; right; left; split; [lia|reflexivity]|].
  destruct (N.eqb_spec c 9); [tauto|].
  destruct (is_ctrl c) eqn:Ec.
  - right; right; right; right; left. assert (H := proj1 (is_ctrl_spec c) Ec).
    repeat split; try lia. exists (unctrl_lower c). repeat split.
    + now apply unctrl_roundtrip.
    + apply unctrl_lower_not_upper.
  - right; right; right; right; right. assert (H := is_ctrl_spec c). split; [|split]; [|assumption|reflexivity].
    destruct (N.le_gt_cases c 0x1f); [|assumption]. intuition congruence.
Qed.

Lemma key_injective c d : key_from_char c = key_from_char d ->
  c = d \/ ((c = 13 \/ c = 10) /\ (d = 13 \/ d = 10)).
Proof.
  intros E.
  destruct (key_cases c) as [[Hc Kc]|[[Hc Kc]|[[Hc Kc]|[[Hc Kc]|[(_ & _ & _ & _ & _ & l & Kc & Hl & _)|(_ & _ & Kc)]]]]];
  destruct (key_cases d) as [[Hd Kd]|[[Hd Kd]|[[Hd Kd]|[[Hd Kd]|[(_ & _ & _ & _ & _ & l' & Kd & Hl' & _)|(_ & _ & Kd)]]]]];
  rewrite Kc, Kd in E; try discriminate E; try (left; congruence); try (right; tauto).
Qed.
