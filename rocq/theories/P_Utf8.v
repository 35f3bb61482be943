From Verif Require Import Base M_Utf8 S_Utf8.
Local Open Scope N_scope.
Ltac Zify.zify_post_hook ::= Z.div_mod_to_equations.

Lemma scalar_spec c : scalar c <-> c < 0xD800 \/ (0xE000 <= c /\ c < 0x110000).
Proof. unfold scalar, is_scalar. lia. Qed.

(** Shape of encodings. *)
Inductive enc_shape (c : N) : bytes -> Prop :=
| Enc1 : c < 128 -> enc_shape c [c]
| Enc2 b0 b1 : 0xC2 <= b0 <= 0xDF -> is_cont b1 = true ->
    c = (b0 mod 32) * 64 + b1 mod 64 -> 0x80 <= c < 0x800 -> enc_shape c [b0; b1]
| Enc3 b0 b1 b2 : 0xE0 <= b0 <= 0xEF -> second3 b0 b1 = true -> is_cont b2 = true ->
    c = (b0 mod 32) * 4096 + ((b1 mod 64) * 64 + b2 mod 64) -> 0x800 <= c < 0x10000 ->
    enc_shape c [b0; b1; b2]
| Enc4 b0 b1 b2 b3 : 0xF0 <= b0 <= 0xF4 -> second4 b0 b1 = true -> is_cont b2 = true -> is_cont b3 = true ->
    c = (b0 mod 8) * 262144 + (((b1 mod 64) * 64 + b2 mod 64) * 64 + b3 mod 64) -> 0x10000 <= c ->
    enc_shape c [b0; b1; b2; b3].

Lemma utf8_shape c : scalar c -> enc_shape c (utf8 c).
Proof.
  intros Hs. apply scalar_spec in Hs. unfold utf8.
  destruct (N.ltb_spec c 0x80); [now constructor|].
  destruct (N.ltb_spec c 0x800).
  { constructor; try (unfold is_cont); lia. }
  destruct (N.ltb_spec c 0x10000).
  { constructor; try (unfold is_cont); try (unfold second3); lia. }
  constructor; try (unfold is_cont); try (unfold second4); lia.
Qed.

Lemma shape_utf8 c v : enc_shape c v -> scalar c /\ utf8 c = v.
Proof.
  intros H. rewrite scalar_spec. unfold utf8.
  destruct H as [H|b0 b1 H0 H1 Hc Hr|b0 b1 b2 H0 H1 H2 Hc Hr|b0 b1 b2 b3 H0 H1 H2 H3 Hc Hr].
  - split; [lia|]. destruct (N.ltb_spec c 0x80); [reflexivity|lia].
  - unfold is_cont in H1. split; [lia|].
    destruct (N.ltb_spec c 0x80); [lia|]. destruct (N.ltb_spec c 0x800); [|lia].
    repeat f_equal; lia.
  - unfold is_cont in H2. unfold second3 in H1. split; [lia|].
    destruct (N.ltb_spec c 0x80); [lia|]. destruct (N.ltb_spec c 0x800); [lia|].
    destruct (N.ltb_spec c 0x10000); [|lia].
    repeat f_equal; lia.
  - unfold is_cont in H2, H3. unfold second4 in H1. split; [lia|].
    destruct (N.ltb_spec c 0x80); [lia|]. destruct (N.ltb_spec c 0x800); [lia|].
    destruct (N.ltb_spec c 0x10000); [lia|].
    repeat f_equal; lia.
Qed.

Lemma utf8_length c : length (utf8 c) = len_utf8 c.
Proof.
  unfold utf8, len_utf8.
  destruct (c <? 0x80); [reflexivity|]. destruct (c <? 0x800); [reflexivity|].
  destruct (c <? 0x10000); reflexivity.
Qed.

Lemma len_utf8_pos c : (1 <= len_utf8 c <= 4)%nat.
Proof.
  unfold len_utf8.
  destruct (c <? 0x80); [lia|]. destruct (c <? 0x800); [lia|].
  destruct (c <? 0x10000); lia.
Qed.

Lemma utf8_nonempty c : utf8 c <> [].
Proof. intros H. assert (H1 := utf8_length c). rewrite H in H1. assert (H2 := len_utf8_pos c). simpl in H1. lia. Qed.

Lemma width2 b : 0xC2 <= b <= 0xDF -> utf8_char_width b = 2%nat.
Proof. intros H. unfold utf8_char_width. now replace ((0xC2 <=? b) && (b <=? 0xDF))%bool with true by lia. Qed.
Lemma width3 b : 0xE0 <= b <= 0xEF -> utf8_char_width b = 3%nat.
Proof.
  intros H. unfold utf8_char_width. replace ((0xC2 <=? b) && (b <=? 0xDF))%bool with false by lia.
  now replace ((0xE0 <=? b) && (b <=? 0xEF))%bool with true by lia.
Qed.
Lemma width4 b : 0xF0 <= b <= 0xF4 -> utf8_char_width b = 4%nat.
Proof.
  intros H. unfold utf8_char_width. replace ((0xC2 <=? b) && (b <=? 0xDF))%bool with false by lia.
  replace ((0xE0 <=? b) && (b <=? 0xEF))%bool with false by lia.
  now replace ((0xF0 <=? b) && (b <=? 0xF4))%bool with true by lia.
Qed.

(** Decoding an encoded character gives it back, whatever follows. *)
Lemma shape_decode c v r : enc_shape c v ->
  next_char (v ++ r) = Some (c, length v) /\ validate_step (v ++ r) = VOk (length v).
Proof.
  intros H.
  destruct H as [H|b0 b1 H0 H1 Hc Hr|b0 b1 b2 H0 H1 H2 Hc Hr|b0 b1 b2 b3 H0 H1 H2 H3 Hc Hr];
    cbn [app next_char validate_step length].
  - replace (c <? 128) with true by lia. auto.
  - replace (b0 <? 128) with false by lia. replace (b0 <? 0xE0) with true by lia.
    rewrite width2, H1 by lia. split; [repeat f_equal; lia|reflexivity].
  - replace (b0 <? 128) with false by lia. replace (b0 <? 0xE0) with false by lia.
    replace (b0 <? 0xF0) with true by lia.
    rewrite width3, H1, H2 by lia. split; [repeat f_equal; lia|reflexivity].
  - replace (b0 <? 128) with false by lia. replace (b0 <? 0xE0) with false by lia.
    replace (b0 <? 0xF0) with false by lia.
    rewrite width4, H1, H2, H3 by lia. split; [repeat f_equal; lia|reflexivity].
Qed.

Lemma next_char_utf8 c r : scalar c -> next_char (utf8 c ++ r) = Some (c, len_utf8 c).
Proof. intros H. rewrite <- utf8_length. exact (proj1 (shape_decode c _ r (utf8_shape c H))). Qed.

Lemma validate_utf8 c r : scalar c -> validate_step (utf8 c ++ r) = VOk (len_utf8 c).
Proof. intros H. rewrite <- utf8_length. exact (proj2 (shape_decode c _ r (utf8_shape c H))). Qed.

(** The converse, by cases on the validation step. *)
Lemma width_cases b : 128 <= b ->
  (0xC2 <= b <= 0xDF /\ utf8_char_width b = 2%nat) \/
  (0xE0 <= b <= 0xEF /\ utf8_char_width b = 3%nat) \/
  (0xF0 <= b <= 0xF4 /\ utf8_char_width b = 4%nat) \/
  ((b < 0xC2 \/ 0xF4 < b) /\ utf8_char_width b = 0%nat).
Proof.
  intros H. unfold utf8_char_width.
  destruct ((0xC2 <=? b) && (b <=? 0xDF))%bool eqn:E2; [left; split; [lia|reflexivity]|].
  destruct ((0xE0 <=? b) && (b <=? 0xEF))%bool eqn:E3; [right; left; split; [lia|reflexivity]|].
  destruct ((0xF0 <=? b) && (b <=? 0xF4))%bool eqn:E4; [right; right; left; split; [lia|reflexivity]|].
  right; right; right. split; [lia|reflexivity].
Qed.

Lemma shape2 b0 b1 : 0xC2 <= b0 <= 0xDF -> is_cont b1 = true -> exists c, enc_shape c [b0; b1].
Proof. intros H0 H1. eexists. eapply Enc2; [exact H0|exact H1|reflexivity|]. unfold is_cont in H1. lia. Qed.
Lemma shape3 b0 b1 b2 : 0xE0 <= b0 <= 0xEF -> second3 b0 b1 = true -> is_cont b2 = true ->
  exists c, enc_shape c [b0; b1; b2].
Proof.
  intros H0 H1 H2. eexists. eapply Enc3; [exact H0|exact H1|exact H2|reflexivity|].
  unfold is_cont in H2. unfold second3 in H1. lia.
Qed.
Lemma shape4 b0 b1 b2 b3 : 0xF0 <= b0 <= 0xF4 -> second4 b0 b1 = true -> is_cont b2 = true -> is_cont b3 = true ->
  exists c, enc_shape c [b0; b1; b2; b3].
Proof.
  intros H0 H1 H2 H3. eexists. eapply Enc4; [exact H0|exact H1|exact H2|exact H3|reflexivity|].
  unfold is_cont in H2, H3. unfold second4 in H1. lia.
Qed.

Definition fill3 (b0 : N) : N := if b0 =? 0xE0 then 0xA0 else 0x80.
Definition fill4 (b0 : N) : N := if b0 =? 0xF0 then 0x90 else 0x80.
Lemma fill3_ok b0 : 0xE0 <= b0 <= 0xEF -> second3 b0 (fill3 b0) = true.
Proof. intros H. unfold fill3, second3. destruct (N.eqb_spec b0 0xE0); lia. Qed.
Lemma fill4_ok b0 : 0xF0 <= b0 <= 0xF4 -> second4 b0 (fill4 b0) = true.
Proof. intros H. unfold fill4, second4. destruct (N.eqb_spec b0 0xF0); lia. Qed.

Lemma no_char_from v k : validate_step v = VErr (Some k) ->
  forall c r, scalar c -> v <> utf8 c ++ r.
Proof. intros H c r Hc ->. rewrite validate_utf8 in H by assumption. discriminate. Qed.

(** The step's verdict: [VOk] exactly on an encoded character, [VErr None]
    exactly on a truncated one. *)
Lemma step_ok v n : validate_step v = VOk n ->
  exists c r, scalar c /\ v = utf8 c ++ r /\ n = len_utf8 c.
Proof.
  assert (Hfin : forall c w r, enc_shape c w -> v = w ++ r -> n = length w ->
            exists c r, scalar c /\ v = utf8 c ++ r /\ n = len_utf8 c).
  { intros c w r Hs Hv Hn. apply shape_utf8 in Hs as [Hs <-]. exists c, r.
    rewrite <- utf8_length. auto. }
  destruct v as [|b0 v]; [discriminate|]. cbn [validate_step].
  destruct (N.ltb_spec b0 128) as [Hlt|Hge].
  { injection 1 as <-. apply (Hfin b0 [b0] v); [now constructor|reflexivity|reflexivity]. }
  destruct (width_cases b0 Hge) as [[Hb ->]|[[Hb ->]|[[Hb ->]|[Hb ->]]]]; [| | |discriminate].
  - destruct v as [|b1 v]; [discriminate|]. destruct (is_cont b1) eqn:E1; [|discriminate].
    injection 1 as <-. destruct (shape2 b0 b1 Hb E1) as [c Hc]. exact (Hfin c _ v Hc eq_refl eq_refl).
  - destruct v as [|b1 v]; [discriminate|]. destruct (second3 b0 b1) eqn:E1; [|discriminate].
    destruct v as [|b2 v]; [discriminate|]. destruct (is_cont b2) eqn:E2; [|discriminate].
    injection 1 as <-. destruct (shape3 b0 b1 b2 Hb E1 E2) as [c Hc]. exact (Hfin c _ v Hc eq_refl eq_refl).
  - destruct v as [|b1 v]; [discriminate|]. destruct (second4 b0 b1) eqn:E1; [|discriminate].
    destruct v as [|b2 v]; [discriminate|]. destruct (is_cont b2) eqn:E2; [|discriminate].
    destruct v as [|b3 v]; [discriminate|]. destruct (is_cont b3) eqn:E3; [|discriminate].
    injection 1 as <-. destruct (shape4 b0 b1 b2 b3 Hb E1 E2 E3) as [c Hc]. exact (Hfin c _ v Hc eq_refl eq_refl).
Qed.

Lemma step_incomplete v : v <> [] -> validate_step v = VErr None -> truncated_char v.
Proof.
  intros Hne H. split; [assumption|]. revert H.
  assert (Hfin : forall c w t, enc_shape c w -> w = v ++ t -> t <> [] ->
            exists c t, scalar c /\ t <> [] /\ utf8 c = v ++ t).
  { intros c w t Hs Hv Ht. apply shape_utf8 in Hs as [Hs <-]. now exists c, t. }
  destruct v as [|b0 v]; [congruence|]. cbn [validate_step].
  destruct (N.ltb_spec b0 128) as [Hlt|Hge]; [discriminate|].
  destruct (width_cases b0 Hge) as [[Hb ->]|[[Hb ->]|[[Hb ->]|[Hb ->]]]]; [| | |discriminate].
  - destruct v as [|b1 v]; [|destruct (is_cont b1); discriminate].
    intros _. destruct (shape2 b0 0x80 Hb eq_refl) as [c Hc].
    apply (Hfin c _ [0x80] Hc); [reflexivity|discriminate].
  - destruct v as [|b1 v].
    + intros _. destruct (shape3 b0 _ 0x80 Hb (fill3_ok b0 Hb) eq_refl) as [c Hc].
      apply (Hfin c _ [fill3 b0; 0x80] Hc); [reflexivity|discriminate].
    + destruct (second3 b0 b1) eqn:E1; [|discriminate].
      destruct v as [|b2 v]; [|destruct (is_cont b2); discriminate].
      intros _. destruct (shape3 b0 b1 0x80 Hb E1 eq_refl) as [c Hc].
      apply (Hfin c _ [0x80] Hc); [reflexivity|discriminate].
  - destruct v as [|b1 v].
    + intros _. destruct (shape4 b0 _ 0x80 0x80 Hb (fill4_ok b0 Hb) eq_refl eq_refl) as [c Hc].
      apply (Hfin c _ [fill4 b0; 0x80; 0x80] Hc); [reflexivity|discriminate].
    + destruct (second4 b0 b1) eqn:E1; [|discriminate].
      destruct v as [|b2 v].
      * intros _. destruct (shape4 b0 b1 0x80 0x80 Hb E1 eq_refl eq_refl) as [c Hc].
        apply (Hfin c _ [0x80; 0x80] Hc); [reflexivity|discriminate].
      * destruct (is_cont b2) eqn:E2; [|discriminate].
        destruct v as [|b3 v]; [|destruct (is_cont b3); discriminate].
        intros _. destruct (shape4 b0 b1 b2 0x80 Hb E1 E2 eq_refl) as [c Hc].
        apply (Hfin c _ [0x80] Hc); [reflexivity|discriminate].
Qed.

Lemma shape_truncate c w v t : enc_shape c w -> w = v ++ t -> t <> [] -> v <> [] ->
  validate_step v = VErr None.
Proof.
  intros Hs Hw Ht Hv.
  destruct Hs as [H|b0 b1 H0 H1 Hc Hr|b0 b1 b2 H0 H1 H2 Hc Hr|b0 b1 b2 b3 H0 H1 H2 H3 Hc Hr].
  - destruct v as [|? [|]]; simpl in Hw; congruence.
  - destruct v as [|x0 v]; [congruence|]. simpl in Hw. injection Hw as <- Hw.
    cbn [validate_step]. replace (b0 <? 128) with false by lia. rewrite width2 by lia.
    destruct v as [|x1 v]; [reflexivity|]. simpl in Hw. injection Hw as <- Hw.
    destruct v; simpl in Hw; [subst t; congruence|discriminate].
  - destruct v as [|x0 v]; [congruence|]. simpl in Hw. injection Hw as <- Hw.
    cbn [validate_step]. replace (b0 <? 128) with false by lia. rewrite width3 by lia.
    destruct v as [|x1 v]; [reflexivity|]. simpl in Hw. injection Hw as <- Hw. rewrite H1.
    destruct v as [|x2 v]; [reflexivity|]. simpl in Hw. injection Hw as <- Hw.
    destruct v; simpl in Hw; [subst t; congruence|discriminate].
  - destruct v as [|x0 v]; [congruence|]. simpl in Hw. injection Hw as <- Hw.
    cbn [validate_step]. replace (b0 <? 128) with false by lia. rewrite width4 by lia.
    destruct v as [|x1 v]; [reflexivity|]. simpl in Hw. injection Hw as <- Hw. rewrite H1.
    destruct v as [|x2 v]; [reflexivity|]. simpl in Hw. injection Hw as <- Hw. rewrite H2.
    destruct v as [|x3 v]; [reflexivity|]. simpl in Hw. injection Hw as <- Hw.
    destruct v; simpl in Hw; [subst t; congruence|discriminate].
Qed.

Lemma step_truncated v : truncated_char v -> validate_step v = VErr None.
Proof.
  intros (Hv & c & t & Hc & Ht & E).
  apply (shape_truncate c (utf8 c) v t); auto. now apply utf8_shape.
Qed.

(** ** Whole strings *)

Lemma utf8s_cons c cs : utf8s (c :: cs) = utf8 c ++ utf8s cs.
Proof. reflexivity. Qed.

Lemma skipn_utf8 c r : skipn (len_utf8 c) (utf8 c ++ r) = r.
Proof. rewrite <- utf8_length, skipn_app, Nat.sub_diag, skipn_all. reflexivity. Qed.

Lemma firstn_utf8 c r : firstn (len_utf8 c) (utf8 c ++ r) = utf8 c.
Proof. rewrite <- utf8_length, firstn_app, Nat.sub_diag, firstn_all. simpl. apply app_nil_r. Qed.

(** Main induction: [validate] splits the input into complete characters and a
    remainder that does not start with one. *)
Lemma validate_split fuel : forall index v, (length v <= fuel)%nat ->
  exists cs rest, Forall scalar cs /\ v = utf8s cs ++ rest /\
    match validate fuel index v with
    | UOk => rest = []
    | UErr n e => rest <> [] /\ n = (index + length (utf8s cs))%nat /\ validate_step rest = VErr e
    end.
Proof.
  induction fuel as [|fuel IH]; intros index v Hlen.
  - destruct v; [|simpl in Hlen; lia]. exists [], []. simpl. auto.
  - destruct v as [|b v]; [exists [], []; simpl; auto|].
    cbn [validate]. destruct (validate_step (b :: v)) as [n|e] eqn:E.
    + apply step_ok in E as (c & r & Hc & Hv & ->). rewrite Hv, skipn_utf8.
      assert (Hr : (length r <= fuel)%nat).
      { apply (f_equal (@length N)) in Hv. rewrite app_length, utf8_length in Hv.
        pose proof (len_utf8_pos c). lia. }
      destruct (IH (index + len_utf8 c)%nat r Hr) as (cs & rest & Hcs & Hr2 & Hm).
      exists (c :: cs), rest. split; [now constructor|]. split.
      { rewrite utf8s_cons, <- app_assoc, <- Hr2. reflexivity. }
      destruct (validate fuel (index + len_utf8 c) r) as [|n e]; [assumption|].
      destruct Hm as (H1 & H2 & H3). repeat split; auto.
      rewrite utf8s_cons, app_length, utf8_length. lia.
    + exists [], (b :: v). simpl. repeat split; auto; try discriminate.
Qed.

Lemma from_utf8_split v :
  exists cs rest, Forall scalar cs /\ v = utf8s cs ++ rest /\
    match from_utf8 v with
    | UOk => rest = []
    | UErr n e => rest <> [] /\ n = length (utf8s cs) /\ validate_step rest = VErr e
    end.
Proof. apply (validate_split (length v) 0 v). lia. Qed.

(** Unique decomposition. *)
Lemma utf8_prefix_free c d r s : scalar c -> scalar d ->
  utf8 c ++ r = utf8 d ++ s -> c = d /\ r = s.
Proof.
  intros Hc Hd E. assert (H := next_char_utf8 c r Hc). rewrite E, next_char_utf8 in H by assumption.
  injection H as H _. subst d. split; [reflexivity|]. now apply app_inv_head in E.
Qed.

Lemma utf8s_prefix cs : forall ds rest, Forall scalar cs -> Forall scalar ds ->
  (forall c r, scalar c -> rest <> utf8 c ++ r) ->
  (exists t, utf8s cs ++ rest = utf8s ds ++ t) -> exists es, cs = ds ++ es.
Proof.
  induction cs as [|c cs IH]; intros ds rest Hcs Hds Hrest [t E].
  - destruct ds as [|d ds]; [now exists []|]. exfalso. inversion Hds; subst.
    apply (Hrest d (utf8s ds ++ t)); [assumption|].
    rewrite app_assoc, <- utf8s_cons. exact E.
  - destruct ds as [|d ds]; [now exists (c :: cs)|].
    inversion Hcs; subst. inversion Hds; subst.
    rewrite !utf8s_cons, <- !app_assoc in E.
    apply utf8_prefix_free in E as [-> E]; auto.
    destruct (IH ds rest) as [es ->]; auto; [now exists t|]. now exists es.
Qed.

Lemma err_no_char rest e : validate_step rest = VErr e -> forall c r, scalar c -> rest <> utf8 c ++ r.
Proof. intros H c r Hc ->. rewrite validate_utf8 in H by assumption. discriminate. Qed.

Lemma utf8s_app cs ds : utf8s (cs ++ ds) = utf8s cs ++ utf8s ds.
Proof. unfold utf8s. apply flat_map_app. Qed.

Lemma from_utf8_spec v :
  match from_utf8 v with
  | UOk => valid_utf8 v
  | UErr n e =>
      ~ valid_utf8 v /\ (n < length v)%nat /\ valid_utf8 (firstn n v) /\
      (forall p r, v = p ++ r -> valid_utf8 p -> (length p <= n)%nat) /\
      (e = None <-> truncated_char (skipn n v))
  end.
Proof.
  destruct (from_utf8_split v) as (cs & rest & Hcs & Hv & Hm).
  destruct (from_utf8 v) as [|n e].
  - exists cs. subst. now rewrite app_nil_r.
  - destruct Hm as (Hne & -> & Hst).
    assert (Hlong : forall p r, v = p ++ r -> valid_utf8 p -> (length p <= length (utf8s cs))%nat).
    { intros p r Hp (ds & Hds & ->).
      destruct (utf8s_prefix cs ds rest Hcs Hds (err_no_char _ _ Hst)) as [es ->].
      { exists r. congruence. }
      rewrite utf8s_app, app_length. lia. }
    assert (Hlt : (length (utf8s cs) < length v)%nat).
    { rewrite Hv, app_length. destruct rest; [congruence|simpl; lia]. }
    split; [|split; [|split; [|split]]].
    + intros Hval. specialize (Hlong v []). rewrite app_nil_r in Hlong. specialize (Hlong eq_refl Hval). lia.
    + assumption.
    + exists cs. split; [assumption|].
      rewrite Hv, firstn_app, Nat.sub_diag, firstn_all; simpl; apply app_nil_r.
    + assumption.
    + rewrite Hv, skipn_app, Nat.sub_diag, skipn_all. simpl. split.
      * intros ->. now apply step_incomplete.
      * intros Ht. apply step_truncated in Ht. congruence.
Qed.

Lemma from_utf8_valid v : valid_utf8 v <-> from_utf8 v = UOk.
Proof.
  pose proof (from_utf8_spec v) as H. destruct (from_utf8 v) as [|n e].
  - tauto.
  - split; [tauto|discriminate].
Qed.

(** Error lengths stay inside the input: [n + k <= length v]. *)
Lemma step_err_len v k : validate_step v = VErr (Some k) -> (1 <= k <= 3 /\ k <= length v)%nat.
Proof.
  destruct v as [|b0 v]; [discriminate|]. cbn [validate_step].
  destruct (N.ltb_spec b0 128) as [Hlt|Hge]; [discriminate|].
  destruct (width_cases b0 Hge) as [[Hb ->]|[[Hb ->]|[[Hb ->]|[Hb ->]]]].
  - destruct v as [|b1 v]; [discriminate|]. destruct (is_cont b1); [discriminate|].
    injection 1 as <-. simpl. lia.
  - destruct v as [|b1 v]; [discriminate|]. destruct (second3 b0 b1).
    + destruct v as [|b2 v]; [discriminate|]. destruct (is_cont b2); [discriminate|].
      injection 1 as <-. simpl. lia.
    + injection 1 as <-. simpl. lia.
  - destruct v as [|b1 v]; [discriminate|]. destruct (second4 b0 b1).
    + destruct v as [|b2 v]; [discriminate|]. destruct (is_cont b2).
      * destruct v as [|b3 v]; [discriminate|]. destruct (is_cont b3); [discriminate|].
        injection 1 as <-. simpl. lia.
      * injection 1 as <-. simpl. lia.
    + injection 1 as <-. simpl. lia.
  - injection 1 as <-. simpl. lia.
Qed.

(** [char_indices] lists the characters with their byte offsets. *)
Fixpoint offsets (off : nat) (cs : list N) : list (nat * N) :=
  match cs with
  | [] => []
  | c :: cs' => (off, c) :: offsets (off + len_utf8 c) cs'
  end.

Lemma char_indices_from_spec cs : forall fuel off, Forall scalar cs ->
  (length (utf8s cs) <= fuel)%nat ->
  char_indices_from fuel off (utf8s cs) = offsets off cs.
Proof.
  induction cs as [|c cs IH]; intros fuel off Hcs Hf; simpl offsets.
  - destruct fuel; reflexivity.
  - inversion Hcs; subst. rewrite utf8s_cons, app_length, utf8_length in Hf.
    pose proof (len_utf8_pos c). destruct fuel as [|fuel]; [lia|].
    cbn [char_indices_from]. rewrite utf8s_cons, next_char_utf8 by assumption.
    rewrite skipn_utf8, IH; [reflexivity|assumption|lia].
Qed.

Lemma char_indices_spec cs : Forall scalar cs -> char_indices (utf8s cs) = offsets 0 cs.
Proof. intros H. apply char_indices_from_spec; auto. Qed.
