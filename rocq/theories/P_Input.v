(** Proofs about decoding terminal input. *)
From Verif Require Import Base M_Utf8 S_Utf8 P_Utf8 M_Geom M_Seq S_Seq P_Seq M_Signal M_Util P_Util M_Input S_Input.

(** ** The valid prefix of the input *)
Lemma utf8_prefix_cases buf : exists cs rest,
  Forall scalar cs /\ buf = utf8s cs ++ rest /\ (forall c r, scalar c -> rest <> utf8 c ++ r) /\
  utf8_prefix buf = match cs with
                    | [] => match rest with
                            | [] => Some []
                            | _ => match validate_step rest with VErr (Some _) => None | _ => Some [] end
                            end
                    | _ => Some (utf8s cs)
                    end.
Proof.
  destruct (from_utf8_split buf) as (cs & rest & Hcs & Hv & Hm). exists cs, rest.
  split; [assumption|]. split; [assumption|]. unfold utf8_prefix.
  destruct (from_utf8 buf) as [|n e].
  - subst rest. split.
    + intros c r _ E. symmetry in E. apply app_eq_nil in E as [E _]. now apply utf8_nonempty in E.
    + rewrite app_nil_r in Hv. subst. now destruct cs.
  - destruct Hm as (Hne & -> & Hst). split; [exact (err_no_char _ _ Hst)|].
    destruct cs as [|c cs].
    + cbn [utf8s flat_map length Nat.eqb negb]. destruct rest as [|b rest]; [congruence|]. rewrite Hst. now destruct e.
    + rewrite utf8s_cons, app_length, utf8_length.
      assert (Hp := len_utf8_pos c). replace (len_utf8 c + length (utf8s cs) =? 0) with false by lia.
      cbn [negb]. f_equal. subst buf. rewrite utf8s_cons, firstn_app.
      replace (len_utf8 c + length (utf8s cs) - length (utf8 c ++ utf8s cs)) with 0
        by (rewrite app_length, utf8_length; lia).
      cbn [firstn]. rewrite app_nil_r, firstn_all2; [reflexivity|]. rewrite app_length, utf8_length. lia.
Qed.

(** ** The scan over prefixes finds the longest match *)
Section Scan.
  Variable m : seq_map.
  Hypothesis Hm : key_map m.

  Lemma occ_in q kv : first_occ key_ref (sm_sequences m) q = Some kv <-> In kv (sm_sequences m) /\ fst kv = q.
  Proof.
    destruct Hm as [Hr _]. destruct (reachable_rel _ _ _ m Hr) as [a Ha].
    assert (Hf : rel _ _ key_ref m (first_occ key_ref (sm_sequences m))) by (split; [exact (proj1 Ha)|reflexivity]).
    split.
    - intros H. assert (Hk := rel_key _ _ _ _ _ _ _ Hf H). split; [|exact Hk].
      apply (rel_in _ _ _ _ _ kv Hf). unfold key_ref in *. now rewrite Hk.
    - intros (H & <-). now apply (rel_in _ _ _ _ _ kv Hf) in H.
  Qed.

  Lemma stored q v : (exists k, first_occ key_ref (sm_sequences m) q = Some (k, v)) <-> In (q, v) (sm_sequences m).
  Proof.
    split.
    - intros (k & H). apply occ_in in H as (H & E). cbn in E. now subst.
    - intros H. exists q. apply occ_in. auto.
  Qed.

  Variable cs : list N.
  Hypothesis Hcs : Forall scalar cs.

  Notation pfx k := (utf8s (firstn k cs)).

  Definition best (last : option (bytes * seq_data)) (k : nat) : Prop :=
    match last with
    | None => forall j v, 1 <= j < k -> ~ In (pfx j, v) (sm_sequences m)
    | Some (q, v) => In (q, v) (sm_sequences m) /\
        exists i, 1 <= i < k /\ q = pfx i /\ forall j v', i < j < k -> ~ In (pfx j, v') (sm_sequences m)
    end.

  Lemma pfx_ext j k : j <= k <= length cs -> is_prefix (pfx j) (pfx k).
  Proof.
    intros H. exists (utf8s (firstn (k - j) (skipn j cs))). rewrite <- utf8s_app. f_equal.
    rewrite <- (firstn_skipn j cs) at 1. rewrite firstn_app, firstn_firstn, firstn_length.
    replace (Nat.min k j) with j by lia. f_equal. f_equal. lia.
  Qed.
  Lemma pfx_lt j k : j < k <= length cs -> length (pfx j) < length (pfx k).
  Proof.
    intros H. assert (Hx := prefixes_lengths cs Hcs).
    destruct j as [|j].
    - cbn [firstn utf8s flat_map length]. destruct k as [|k]; [lia|]. destruct cs as [|c l]; [cbn in H; lia|].
      cbn [firstn]. rewrite utf8s_cons, app_length, utf8_length. assert (Hl := len_utf8_pos c). lia.
    - destruct k as [|k]; [lia|]. apply (Hx j k); [lia| |]; rewrite prefixes_spec by assumption;
        rewrite nth_error_map, (nth_error_nth' _ 0) by (rewrite seq_length; lia); rewrite seq_nth by lia; reflexivity.
  Qed.

  Lemma scan_best n : forall k last, k + n = S (length cs) -> 1 <= k -> best last k ->
    exists r, scan m (map (fun k => Some (pfx k)) (seq k n)) last = Val r /\ best r (S (length cs)).
  Proof.
    induction n as [|n IH]; intros k last Hk H1 Hb.
    - exists last. split; [reflexivity|]. now replace (S (length cs)) with k by lia.
    - cbn [seq map scan]. destruct Hm as [Hr _]. destruct (find_documented _ _ key_ref m (pfx k) Hr) as (r & -> & Hs).
      destruct r as [| |v|v]; cbn [find_spec] in Hs.
      + exists last. split; [reflexivity|]. destruct Hs as [Hs1 Hs2].
        assert (Hno : forall j v, k <= j <= length cs -> ~ In (pfx j, v) (sm_sequences m)).
        { intros j v Hj Hin. apply stored in Hin as (q & Hq). destruct (Nat.eq_dec j k) as [->|Hne].
          - apply Hs1. now exists (q, v).
          - apply Hs2. exists (pfx j), (q, v). split; [assumption|]. split; [|apply pfx_ext; lia].
            intros E. assert (Hx := pfx_lt k j ltac:(lia)). rewrite E in Hx. lia. }
        destruct last as [[q v]|].
        * destruct Hb as (Hb & i & Hi & Hq & Hj). split; [assumption|]. exists i. split; [lia|]. split; [assumption|].
          intros j v' Hj'. destruct (Nat.lt_ge_cases j k); [apply Hj; lia|apply Hno; lia].
        * intros j v' Hj'. destruct (Nat.lt_ge_cases j k); [apply Hb; lia|apply Hno; lia].
      + apply IH; [lia|lia|]. destruct Hs as [Hs1 _].
        assert (Hno : forall v, ~ In (pfx k, v) (sm_sequences m)).
        { intros v Hin. apply stored in Hin as (q & Hq). apply Hs1. now exists (q, v). }
        destruct last as [[q v]|].
        * destruct Hb as (Hb & i & Hi & Hq & Hj). split; [assumption|]. exists i. split; [lia|]. split; [assumption|].
          intros j v' Hj'. destruct (Nat.eq_dec j k) as [->|]; [apply Hno|apply Hj; lia].
        * intros j v' Hj'. destruct (Nat.eq_dec j k) as [->|]; [apply Hno|apply Hb; lia].
      + apply IH; [lia|lia|]. destruct Hs as [Hs1 _]. apply stored in Hs1. split; [assumption|].
        exists k. split; [lia|]. split; [reflexivity|]. intros j v' Hj. lia.
      + exists (Some (pfx k, v)). split; [reflexivity|]. destruct Hs as [Hs1 Hs2]. apply stored in Hs1.
        split; [assumption|]. exists k. split; [lia|]. split; [reflexivity|].
        intros j v' Hj Hin. apply stored in Hin as (q & Hq). apply Hs2. exists (pfx j), (q, v').
        split; [assumption|]. split; [|apply pfx_ext; lia].
        intros E. assert (Hx := pfx_lt k j ltac:(lia)). rewrite E in Hx. lia.
  Qed.

  Lemma scan_all : exists r, scan m (prefixes (utf8s cs)) None = Val r /\ best r (S (length cs)).
  Proof.
    rewrite prefixes_spec by assumption. apply scan_best; [lia|lia|]. cbn. intros j v Hj. lia.
  Qed.

  (** Matches of the whole input are matches of its valid prefix. *)
  Lemma match_pfx rest q v : (forall c r, scalar c -> rest <> utf8 c ++ r) ->
    matches m (utf8s cs ++ rest) q v -> exists j, 1 <= j <= length cs /\ q = pfx j.
  Proof.
    intros Hrest (Hin & Hne & (r & Hr)). destruct Hm as [_ Hu]. destruct (Hu _ _ Hin) as (ds & Hds & ->).
    destruct (utf8s_prefix cs ds rest Hcs Hds Hrest) as (es & ->); [now exists r|].
    exists (length ds). split.
    - rewrite app_length. destruct ds; [now exfalso; apply Hne|cbn; lia].
    - rewrite firstn_app, Nat.sub_diag, firstn_all. cbn [firstn]. now rewrite app_nil_r.
  Qed.

  Lemma pfx_match rest j v : 1 <= j <= length cs -> In (pfx j, v) (sm_sequences m) -> matches m (utf8s cs ++ rest) (pfx j) v.
  Proof.
    intros Hj Hin. split; [assumption|]. split.
    - intros E. assert (Hx := pfx_lt 0 j ltac:(lia)). rewrite E in Hx. cbn in Hx. lia.
    - destruct (pfx_ext j (length cs) ltac:(lia)) as (r & Hr). rewrite firstn_all in Hr.
      exists (r ++ rest). now rewrite app_assoc, <- Hr.
  Qed.

  Lemma scan_longest rest : (forall c r, scalar c -> rest <> utf8 c ++ r) ->
    exists r, scan m (prefixes (utf8s cs)) None = Val r /\
      match r with
      | None => no_match m (utf8s cs ++ rest)
      | Some (q, v) => longest m (utf8s cs ++ rest) q v
      end.
  Proof.
    intros Hrest. destruct scan_all as (r & Hr & Hb). exists r. split; [assumption|].
    destruct r as [[q v]|]; cbn [best] in Hb.
    - destruct Hb as (Hin & i & Hi & -> & Hj). split; [apply pfx_match; [lia|assumption]|].
      intros q' v' Hq'. destruct (match_pfx _ _ _ Hrest Hq') as (j & Hj' & ->).
      destruct (Nat.le_gt_cases j i) as [Hle|Hgt].
      + destruct (Nat.eq_dec j i) as [->|]; [lia|]. assert (Hx := pfx_lt j i ltac:(lia)). lia.
      + exfalso. apply (Hj j v'); [lia|]. apply Hq'.
    - intros q v Hq. destruct (match_pfx _ _ _ Hrest Hq) as (j & Hj & ->). apply (Hb j v); [lia|]. apply Hq.
  Qed.
End Scan.

(** ** What [peek_event] returns *)
Definition plain (c : N) : peeked := PEvent (EKey (key_from_char c)) (len_utf8 c).

Lemma longest_unique m input q v q' v' : key_map m -> longest m input q v -> longest m input q' v' -> q = q' /\ v = v'.
Proof.
  intros Hm (M1 & L1) (M2 & L2).
  assert (Hl : length q = length q') by (apply Nat.le_antisymm; [exact (L2 _ _ M1)|exact (L1 _ _ M2)]).
  assert (Hq : q = q').
  { destruct M1 as (_ & _ & (r & Hr)), M2 as (_ & _ & (r' & Hr')).
    rewrite Hr in Hr'. apply (f_equal (firstn (length q))) in Hr'.
    rewrite firstn_len_app in Hr'. rewrite Hl, firstn_len_app in Hr'. exact Hr'. }
  split; [assumption|]. subst q'. destruct M1 as (I1 & _), M2 as (I2 & _).
  apply (stored m Hm) in I1 as (k & I1). apply (stored m Hm) in I2 as (k' & I2). congruence.
Qed.

(** The input begins with a whole character. *)
Lemma peek_char m c r : key_map m -> scalar c ->
  (no_match m (utf8 c ++ r) /\ peek_event (utf8 c ++ r) m = Val (plain c)) \/
  (exists q k, longest m (utf8 c ++ r) q (SKey k) /\ peek_event (utf8 c ++ r) m = Val (PEvent (EKey k) (length q))) \/
  (exists q, longest m (utf8 c ++ r) q XTermMouse /\
     peek_event (utf8 c ++ r) m =
       match parse_mouse_data (skipn (length q) (utf8 c ++ r)) with
       | Boom => Boom
       | Val None => Val (plain c)
       | Val (Some (d, n)) => Val (PEvent (EMouse d) (length q + n))
       end).
Proof.
  intros Hm Hc. destruct (utf8_prefix_cases (utf8 c ++ r)) as (cs & rest & Hcs & Hb & Hrest & Hp).
  destruct cs as [|c' cs].
  { exfalso. cbn [utf8s flat_map app] in Hb. exact (Hrest c r Hc (eq_sym Hb)). }
  inversion Hcs as [|? ? Hc' Hcs']; subst.
  assert (c' = c).
  { rewrite utf8s_cons, <- app_assoc in Hb. apply utf8_prefix_free in Hb as [Hb _]; auto. }
  subst c'. unfold peek_event. rewrite Hp.
  destruct (utf8s (c :: cs)) as [|b s] eqn:Es.
  { exfalso. rewrite utf8s_cons in Es. apply app_eq_nil in Es as [Es _]. now apply utf8_nonempty in Es. }
  rewrite <- Es in *. clear b s Es.
  destruct (scan_longest m Hm (c :: cs) Hcs rest Hrest) as (res & -> & Hl).
  assert (Hn : next_char (utf8s (c :: cs)) = Some (c, len_utf8 c)) by (rewrite utf8s_cons; now apply next_char_utf8).
  rewrite Hn. rewrite <- Hb in Hl. destruct res as [[q [|k]]|].
  - right; right. exists q. split; [assumption|]. rewrite Hb at 1. rewrite <- Hb.
    destruct (parse_mouse_data _) as [[[d n]|]|]; reflexivity.
  - right; left. exists q, k. split; [assumption|reflexivity].
  - left. split; [assumption|reflexivity].
Qed.

(** It does not. *)
Lemma peek_nochar m buf : (forall c r, scalar c -> buf <> utf8 c ++ r) ->
  peek_event buf m = Val (match buf with
                          | [] => PNone
                          | _ => match validate_step buf with VErr (Some _) => PErr | _ => PNone end
                          end).
Proof.
  intros Hno. destruct (utf8_prefix_cases buf) as (cs & rest & Hcs & Hb & Hrest & Hp).
  destruct cs as [|c cs].
  - cbn [utf8s flat_map app] in Hb. subst rest. unfold peek_event. rewrite Hp.
    destruct buf as [|b buf]; [reflexivity|]. destruct (validate_step (b :: buf)) as [n|[k|]]; reflexivity.
  - exfalso. inversion Hcs; subst. rewrite utf8s_cons, <- app_assoc in Hno. eapply Hno; eauto.
Qed.

Lemma char_or_not buf : (exists c r, scalar c /\ buf = utf8 c ++ r) \/ (forall c r, scalar c -> buf <> utf8 c ++ r).
Proof.
  destruct (utf8_prefix_cases buf) as (cs & rest & Hcs & Hb & Hrest & Hp).
  destruct cs as [|c cs]; [right; cbn [utf8s flat_map app] in Hb; now subst|].
  left. inversion Hcs; subst. exists c, (utf8s cs ++ rest). now rewrite utf8s_cons, app_assoc.
Qed.

(** C36 *)
Lemma peek_plain m c r : key_map m -> scalar c -> no_match m (utf8 c ++ r) ->
  peek_event (utf8 c ++ r) m = Val (PEvent (EKey (key_from_char c)) (length (utf8 c))).
Proof.
  intros Hm Hc Hn. rewrite utf8_length.
  destruct (peek_char m c r Hm Hc) as [(_ & H)|[(q & k & (H & _) & _)|(q & (H & _) & _)]]; [exact H| |];
    exfalso; exact (Hn _ _ H).
Qed.

Lemma match_char m buf q v : key_map m -> matches m buf q v -> exists c r, scalar c /\ buf = utf8 c ++ r.
Proof.
  intros (_ & Hu) (Hin & Hne & (r & ->)). destruct (Hu _ _ Hin) as (cs & Hcs & ->).
  destruct cs as [|c cs]; [now exfalso; apply Hne|]. inversion Hcs; subst.
  exists c, (utf8s cs ++ r). now rewrite utf8s_cons, app_assoc.
Qed.

(** C37 *)
Lemma peek_key m buf q k : key_map m -> longest m buf q (SKey k) -> peek_event buf m = Val (PEvent (EKey k) (length q)).
Proof.
  intros Hm Hl. destruct (match_char m buf q _ Hm (proj1 Hl)) as (c & r & Hc & ->).
  destruct (peek_char m c r Hm Hc) as [(H & _)|[(q' & k' & H & E)|(q' & H & _)]].
  - exfalso. exact (H _ _ (proj1 Hl)).
  - destruct (longest_unique _ _ _ _ _ _ Hm Hl H) as [-> Hk]. injection Hk as ->. exact E.
  - destruct (longest_unique _ _ _ _ _ _ Hm Hl H) as [_ Hk]. discriminate.
Qed.

Lemma peek_mouse m buf q : key_map m -> longest m buf q XTermMouse ->
  exists c r, scalar c /\ buf = utf8 c ++ r /\
    peek_event buf m = match parse_mouse_data (skipn (length q) buf) with
                       | Boom => Boom
                       | Val None => Val (plain c)
                       | Val (Some (d, n)) => Val (PEvent (EMouse d) (length q + n))
                       end.
Proof.
  intros Hm Hl. destruct (match_char m buf q _ Hm (proj1 Hl)) as (c & r & Hc & ->).
  exists c, r. split; [assumption|]. split; [reflexivity|].
  destruct (peek_char m c r Hm Hc) as [(H & _)|[(q' & k' & H & E)|(q' & H & E)]].
  - exfalso. exact (H _ _ (proj1 Hl)).
  - destruct (longest_unique _ _ _ _ _ _ Hm Hl H) as [_ Hk]. discriminate.
  - destruct (longest_unique _ _ _ _ _ _ Hm Hl H) as [-> _]. exact E.
Qed.

(** ** Numbers *)
Local Open Scope N_scope.

Definition acc (n : N) (ds : bytes) : N := fold_left (fun n b => n * 10 + (b - 48)) ds n.

Lemma acc_ge ds : forall n, n <= acc n ds.
Proof.
  induction ds as [|d ds IH]; intros n; cbn [acc fold_left]; [lia|]. specialize (IH (n * 10 + (d - 48))).
  unfold acc in IH. lia.
Qed.

Lemma parse_from ds : forall n b r, Forall digit ds -> acc n ds <= U32_MAX -> ~ digit b ->
  parse_integer_from n (ds ++ b :: r) = Some (acc n ds, b, r).
Proof.
  induction ds as [|d ds IH]; intros n b r Hd Ha Hb.
  - cbn. unfold digit in Hb. replace ((48 <=? b) && (b <=? 57))%bool with false by lia. reflexivity.
  - inversion Hd as [|? ? H1 H2]; subst. cbn [app parse_integer_from]. unfold digit in H1.
    replace ((48 <=? d) && (d <=? 57))%bool with true by lia. cbv zeta.
    assert (Hg := acc_ge ds (n * 10 + (d - 48))). cbn [acc fold_left] in Ha. unfold acc in Hg.
    replace (n * 10 <=? U32_MAX) with true by lia. replace (n * 10 + (d - 48) <=? U32_MAX) with true by lia.
    now apply IH.
Qed.

Lemma parse_number ds b r : number ds -> ~ digit b -> parse_integer (ds ++ b :: r) = Some (value ds, b, r).
Proof. intros (H1 & H2) Hb. apply parse_from; auto. Qed.

Lemma parse_from_inv buf : forall n k b r, parse_integer_from n buf = Some (k, b, r) -> n <= U32_MAX ->
  exists ds, buf = ds ++ b :: r /\ Forall digit ds /\ k = acc n ds /\ acc n ds <= U32_MAX /\ ~ digit b.
Proof.
  induction buf as [|d buf IH]; intros n k b r H Hn; cbn [parse_integer_from] in H; [discriminate|].
  destruct ((48 <=? d) && (d <=? 57))%bool eqn:Ed.
  - cbv zeta in H. destruct (N.leb_spec (n * 10) U32_MAX); [|discriminate].
    destruct (N.leb_spec (n * 10 + (d - 48)) U32_MAX) as [Hm|]; [|discriminate].
    destruct (IH _ _ _ _ H Hm) as (ds & -> & H1 & H2 & H3 & H4). exists (d :: ds).
    split; [reflexivity|]. split; [constructor; [unfold digit; lia|assumption]|]. auto.
  - injection H as <- <- <-. exists []. split; [reflexivity|]. split; [constructor|]. split; [reflexivity|].
    split; [assumption|]. unfold digit. lia.
Qed.

Lemma parse_number_inv buf k b r : parse_integer buf = Some (k, b, r) ->
  exists ds, buf = ds ++ b :: r /\ number ds /\ k = value ds /\ ~ digit b.
Proof.
  intros H. apply parse_from_inv in H as (ds & H1 & H2 & H3 & H4 & H5); [|unfold U32_MAX; lia].
  exists ds. unfold number, value. auto.
Qed.

Lemma digits_digit u : Forall digit (digits_of u).
Proof. induction u; cbn [digits_of]; constructor; auto; unfold digit; lia. Qed.

Lemma acc_app a b n : acc n (a ++ b) = acc (acc n a) b.
Proof. unfold acc. apply fold_left_app. Qed.

Fixpoint accu (u : Decimal.uint) (n : N) : N :=
  match u with
  | Decimal.Nil => n
  | Decimal.D0 u => accu u (n * 10 + 0) | Decimal.D1 u => accu u (n * 10 + 1)
  | Decimal.D2 u => accu u (n * 10 + 2) | Decimal.D3 u => accu u (n * 10 + 3)
  | Decimal.D4 u => accu u (n * 10 + 4) | Decimal.D5 u => accu u (n * 10 + 5)
  | Decimal.D6 u => accu u (n * 10 + 6) | Decimal.D7 u => accu u (n * 10 + 7)
  | Decimal.D8 u => accu u (n * 10 + 8) | Decimal.D9 u => accu u (n * 10 + 9)
  end.
Lemma acc_accu u : forall n, acc n (digits_of u) = accu u n.
Proof.
  induction u; intros n; cbn [digits_of accu acc fold_left]; try reflexivity;
    rewrite <- IHu; unfold acc; f_equal; lia.
Qed.
Lemma accu_pos u : forall p, accu u (Npos p) = Npos (Pos.of_uint_acc u p).
Proof. induction u; intros p; cbn [accu Pos.of_uint_acc]; [reflexivity|..]; rewrite <- IHu; f_equal; lia. Qed.
Lemma accu_of u : accu u 0 = N.of_uint u.
Proof.
  induction u; [reflexivity|..]; cbn [accu N.of_uint Pos.of_uint];
    [exact IHu|..]; change (0 * 10) with 0; cbn [N.add]; apply accu_pos.
Qed.
Lemma value_decimal n : value (decimal n) = n.
Proof.
  unfold value, decimal. change (acc 0 (digits_of (N.to_uint n)) = n).
  now rewrite acc_accu, accu_of, DecimalN.Unsigned.of_to.
Qed.
Lemma number_decimal n : n <= U32_MAX -> number (decimal n).
Proof. intros H. split; [apply digits_digit|]. now rewrite value_decimal. Qed.

(** ** Mouse reports *)
Definition decode_mods (input : N) : N :=
  let mods := if negb (N.land input XTERM_SHIFT_MASK =? 0) then N.lor 0 SHIFT else 0 in
  let mods := if negb (N.land input XTERM_META_MASK =? 0) then N.lor mods ALT else mods in
  if negb (N.land input XTERM_CTRL_MASK =? 0) then N.lor mods CTRL else mods.
Definition decode_input (input : N) (is_pressed : bool) : mouse_input :=
  let input := N.land input (u32_not XTERM_MODIFIER_MASK) in
  if input <=? 3 then mouse_button_event input is_pressed
  else if input =? 64 then MWheelUp
  else if input =? 65 then MWheelDown
  else MMotion.

Lemma not_digit59 : ~ digit 59. Proof. unfold digit. lia. Qed.

Lemma parse_mouse a b c f r : number a -> number b -> number c -> f = 77 \/ f = 109 ->
  parse_mouse_data (a ++ [59] ++ b ++ [59] ++ c ++ [f] ++ r) =
  if (value c =? 0) || (value b =? 0) then Boom
  else Val (Some (MouseEvent (Cursor (N.to_nat (value c - 1)) (N.to_nat (value b - 1)))
                    (decode_input (value a) (f =? 77)) (decode_mods (value a)),
                  length (a ++ [59] ++ b ++ [59] ++ c ++ [f]))).
Proof.
  intros Ha Hb Hc Hf. unfold parse_mouse_data. cbn [app].
  rewrite parse_number by (auto using not_digit59). cbn [negb N.eqb Pos.eqb].
  rewrite parse_number by (auto using not_digit59). cbn [negb N.eqb Pos.eqb].
  rewrite parse_number by (auto; unfold digit; lia).
  replace (length (a ++ 59%N :: b ++ 59%N :: c ++ f :: r) - length r)%nat with
    (length (a ++ [59] ++ b ++ [59] ++ c ++ [f]))
    by (repeat (rewrite ?app_length; cbn [length]); lia).
  destruct Hf as [-> | ->]; reflexivity.
Qed.

Lemma parse_mouse_inv buf : match parse_mouse_data buf with
  | Boom => exists a b c f r, buf = a ++ [59] ++ b ++ [59] ++ c ++ [f] ++ r /\
      number a /\ number b /\ number c /\ (f = 77 \/ f = 109) /\ (value b = 0 \/ value c = 0)
  | Val None => True
  | Val (Some (d, n)) => exists a b c f r, buf = a ++ [59] ++ b ++ [59] ++ c ++ [f] ++ r /\
      number a /\ number b /\ number c /\ (f = 77 \/ f = 109) /\ 1 <= value b /\ 1 <= value c /\
      n = length (a ++ [59] ++ b ++ [59] ++ c ++ [f])
  end.
Proof.
  destruct (parse_mouse_data buf) as [[[d n]|]|] eqn:E; [|exact I|]; revert E; unfold parse_mouse_data.
  all: destruct (parse_integer buf) as [[[a e] b1]|] eqn:E1; [|discriminate].
  all: destruct (N.eqb_spec e 59); [subst e; cbn [negb]|discriminate].
  all: destruct (parse_integer b1) as [[[b e] b2]|] eqn:E2; [|discriminate].
  all: destruct (N.eqb_spec e 59); [subst e; cbn [negb]|discriminate].
  all: destruct (parse_integer b2) as [[[c f] b3]|] eqn:E3; [|discriminate].
  all: apply parse_number_inv in E1 as (ds & -> & H1 & -> & _).
  all: apply parse_number_inv in E2 as (es & -> & H2 & -> & _).
  all: apply parse_number_inv in E3 as (fs & -> & H3 & -> & _).
  all: destruct (N.eqb_spec f 77) as [Hf|Hf]; [|destruct (N.eqb_spec f 109) as [Hg|]; [|discriminate]]; cbv zeta.
  all: destruct (N.eqb_spec (value fs) 0); cbn [orb]; [try discriminate|destruct (N.eqb_spec (value es) 0); try discriminate]; intros E.
  all: exists ds, es, fs, f, b3; cbn [app]; repeat (split; [solve [auto]|]); auto.
  all: split; [lia|]; split; [lia|]; injection E as _ <-; repeat (rewrite ?app_length; cbn [length]); lia.
Qed.

Lemma decode_told d : decode_input (deed_code d) (match what d with Release _ => 109 =? 77 | _ => 77 =? 77 end) = minput (told d) /\
  decode_mods (deed_code d) = mmods (told d).
Proof.
  destruct d as [w l c s a k]. unfold deed_code, told. cbn [what at_line at_column shift meta control minput mmods].
  destruct w as [[]|[]|[]|[[]|]], s, a, k; split; reflexivity.
Qed.

Lemma code_small d : deed_code d <= U32_MAX.
Proof.
  destruct d as [w l c s a k]. unfold deed_code. cbn [what shift meta control].
  destruct w as [[]|[]|[]|[[]|]], s, a, k; cbn; unfold U32_MAX; lia.
Qed.

(** C38 *)
Lemma sgr_parse code x y f rest : code <= U32_MAX -> x <= U32_MAX -> y <= U32_MAX -> f = 77 \/ f = 109 ->
  parse_mouse_data (skipn 3 (sgr code x y f ++ rest)) =
  if (y =? 0) || (x =? 0) then Boom
  else Val (Some (MouseEvent (Cursor (N.to_nat (y - 1)) (N.to_nat (x - 1)))
                    (decode_input code (f =? 77)) (decode_mods code), (length (sgr code x y f) - 3)%nat)).
Proof.
  intros H1 H2 H3 Hf.
  assert (E : skipn 3 (sgr code x y f ++ rest) = decimal code ++ [59] ++ decimal x ++ [59] ++ decimal y ++ [f] ++ rest).
  { unfold sgr. cbn [app skipn]. repeat (rewrite <- ?app_assoc; cbn [app]). reflexivity. }
  rewrite E, parse_mouse by auto using number_decimal. rewrite !value_decimal.
  destruct ((y =? 0) || (x =? 0))%bool; [reflexivity|]. do 3 f_equal.
  unfold sgr. cbn [app length]. lia.
Qed.

Lemma sgr_event m code x y f rest : key_map m -> longest m (sgr code x y f ++ rest) XTERM_MOUSE_INTRO XTermMouse ->
  code <= U32_MAX -> 1 <= x <= U32_MAX -> 1 <= y <= U32_MAX -> f = 77 \/ f = 109 ->
  peek_event (sgr code x y f ++ rest) m =
    Val (PEvent (EMouse (MouseEvent (Cursor (N.to_nat (y - 1)) (N.to_nat (x - 1)))
                           (decode_input code (f =? 77)) (decode_mods code))) (length (sgr code x y f))).
Proof.
  intros Hm Hl Hc Hx Hy Hf. destruct (peek_mouse m _ _ Hm Hl) as (c & r & _ & _ & ->).
  cbn [length XTERM_MOUSE_INTRO]. rewrite sgr_parse by (auto; lia).
  replace ((y =? 0) || (x =? 0))%bool with false by lia.
  do 2 f_equal. unfold sgr. cbn [app length]. lia.
Qed.

Lemma report_decodes m d rest : key_map m -> longest m (report d ++ rest) XTERM_MOUSE_INTRO XTermMouse ->
  at_line d < U32_MAX -> at_column d < U32_MAX ->
  peek_event (report d ++ rest) m = Val (PEvent (EMouse (told d)) (length (report d))).
Proof.
  intros Hm Hl H1 H2. unfold report in *.
  rewrite sgr_event; auto using code_small; try lia; [|destruct (what d); auto].
  destruct (decode_told d) as [D1 D2]. do 3 f_equal.
  unfold told in *. cbn [minput mmods] in *. rewrite <- D1, <- D2.
  f_equal; [f_equal; lia|]. destruct (what d); reflexivity.
Qed.

(** The meaning of every code, by its bits. *)
Lemma base_code b : b <= U32_MAX -> N.land b (u32_not XTERM_MODIFIER_MASK) = 32 * (b / 32) + b mod 4.
Proof.
  intros Hb. change (u32_not XTERM_MODIFIER_MASK) with 4294967267. unfold U32_MAX in Hb.
  set (x := N.land b 4294967267).
  assert (H1 : x / 32 = b / 32).
  { change 32 with (2 ^ 5). rewrite <- !N.shiftr_div_pow2. unfold x. rewrite N.shiftr_land.
    change (N.shiftr 4294967267 5) with (N.ones 27). rewrite N.land_ones, N.shiftr_div_pow2.
    change (2 ^ 5) with 32. change (2 ^ 27) with 134217728. apply N.mod_small.
    apply N.div_lt_upper_bound; lia. }
  assert (H2 : x mod 32 = b mod 4).
  { change 32 with (2 ^ 5). rewrite <- N.land_ones. unfold x. rewrite <- N.land_assoc.
    change (N.land 4294967267 (N.ones 5)) with (N.ones 2). rewrite N.land_ones. reflexivity. }
  rewrite <- H1, <- H2. apply N.div_mod'. 
Qed.

Lemma bit_mask b k m : m = 2 ^ k -> negb (N.land b m =? 0) = N.testbit b k.
Proof.
  intros ->. rewrite <- N.shiftl_1_l. destruct (N.testbit b k) eqn:Et.
  - destruct (N.eqb_spec (N.land b (N.shiftl 1 k)) 0) as [E|]; [|reflexivity].
    apply (f_equal (fun x => N.testbit x k)) in E. rewrite N.land_spec, Et, N.shiftl_spec_high', N.sub_diag in E by lia.
    discriminate.
  - destruct (N.eqb_spec (N.land b (N.shiftl 1 k)) 0) as [|E]; [reflexivity|]. exfalso. apply E. apply N.bits_inj.
    intros j. rewrite N.land_spec, N.bits_0. destruct (N.eq_dec j k) as [->|Hne]; [now rewrite Et|].
    rewrite N.shiftl_1_l, N.pow2_bits_false by lia. apply andb_false_r.
Qed.

Lemma decode_mods_code b : decode_mods b = code_mods b.
Proof.
  unfold decode_mods, code_mods.
  rewrite (bit_mask b 2 XTERM_SHIFT_MASK), (bit_mask b 3 XTERM_META_MASK), (bit_mask b 4 XTERM_CTRL_MASK) by reflexivity.
  destruct (N.testbit b 2), (N.testbit b 3), (N.testbit b 4); reflexivity.
Qed.

Lemma decode_input_code b p : b <= U32_MAX -> decode_input b p = code_input b p.
Proof.
  intros Hb. unfold decode_input, code_input. rewrite base_code by exact Hb.
  assert (Hm : b mod 4 < 4) by (apply N.mod_lt; lia).
  set (q := b / 32). set (r := b mod 4) in *. clearbody q r.
  destruct (N.leb_spec (32 * q + r) 3) as [H|H].
  - assert (q = 0) by lia. subst q. cbn [N.eqb N.mul N.add].
    assert (Hr : r = 0 \/ r = 1 \/ r = 2 \/ r = 3) by lia.
    destruct Hr as [->|[->|[->| ->]]]; destruct p; reflexivity.
  - replace (q =? 0) with false by lia.
    destruct (N.eqb_spec q 2) as [->|Hq].
    + assert (Hr : r = 0 \/ r = 1 \/ r = 2 \/ r = 3) by lia.
      destruct Hr as [->|[->|[->| ->]]]; reflexivity.
    + replace (32 * q + r =? 64) with false by lia. replace (32 * q + r =? 65) with false by lia. reflexivity.
Qed.

Lemma sgr_every_code m code x y f rest : key_map m -> longest m (sgr code x y f ++ rest) XTERM_MOUSE_INTRO XTermMouse ->
  code <= U32_MAX -> 1 <= x <= U32_MAX -> 1 <= y <= U32_MAX -> f = 77 \/ f = 109 ->
  peek_event (sgr code x y f ++ rest) m =
    Val (PEvent (EMouse (MouseEvent (Cursor (N.to_nat (y - 1)) (N.to_nat (x - 1)))
                           (code_input code (f =? 77)) (code_mods code))) (length (sgr code x y f))).
Proof.
  intros. rewrite sgr_event by auto. rewrite decode_input_code, decode_mods_code by auto. reflexivity.
Qed.

Lemma further_motion m n x y f rest : 6 <= n <= 11 -> key_map m ->
  longest m (sgr (further_button n) x y f ++ rest) XTERM_MOUSE_INTRO XTermMouse ->
  1 <= x <= U32_MAX -> 1 <= y <= U32_MAX -> f = 77 \/ f = 109 ->
  peek_event (sgr (further_button n) x y f ++ rest) m =
    Val (PEvent (EMouse (MouseEvent (Cursor (N.to_nat (y - 1)) (N.to_nat (x - 1))) MMotion 0))
                (length (sgr (further_button n) x y f))).
Proof.
  intros Hn Hm Hl Hx Hy Hf.
  assert (E : n = 6 \/ n = 7 \/ n = 8 \/ n = 9 \/ n = 10 \/ n = 11) by lia.
  rewrite sgr_every_code by (auto; unfold U32_MAX; destruct E as [->|[->|[->|[->|[->| ->]]]]]; cbn; lia).
  do 3 f_equal. destruct E as [->|[->|[->|[->|[->| ->]]]]]; reflexivity.
Qed.

(** ** Panics and bounds *)
Lemma peek_boom m buf : key_map m ->
  (peek_event buf m = Boom <-> exists q r, longest m buf q XTermMouse /\ buf = q ++ r /\ zero_report r).
Proof.
  intros Hm. split.
  - intros Hb. destruct (char_or_not buf) as [(c & r & Hc & ->)|Hno]; [|rewrite peek_nochar in Hb by exact Hno; discriminate].
    destruct (peek_char m c r Hm Hc) as [(_ & H)|[(q & k & _ & H)|(q & Hl & H)]]; rewrite H in Hb; try discriminate.
    destruct (proj1 Hl) as (_ & _ & (r' & Hr)). exists q, r'. split; [exact Hl|]. split; [exact Hr|].
    rewrite Hr, skipn_app, Nat.sub_diag, skipn_all in Hb. cbn [app skipn] in Hb.
    pose proof (parse_mouse_inv r') as Hi. destruct (parse_mouse_data r') as [[[d n]|]|]; try discriminate.
    destruct Hi as (a & b & x & f & r0 & Hi). exists a, b, x, f, r0. exact Hi.
  - intros (q & r & Hl & -> & (a & b & c & f & rest & -> & Ha & Hb & Hc & Hf & Hz)).
    destruct (peek_mouse m _ _ Hm Hl) as (ch & r' & _ & _ & ->).
    rewrite skipn_app, Nat.sub_diag, skipn_all. cbn [app skipn].
    pose proof (parse_mouse a b c f rest Ha Hb Hc Hf) as Hp. cbn [app] in Hp. rewrite Hp.
    replace ((value c =? 0) || (value b =? 0))%bool with true by lia. reflexivity.
Qed.

Lemma peek_bounds m buf e n : key_map m -> peek_event buf m = Val (PEvent e n) -> (1 <= n <= length buf)%nat.
Proof.
  intros Hm Hb. destruct (char_or_not buf) as [(c & r & Hc & ->)|Hno].
  2:{ rewrite peek_nochar in Hb by exact Hno. destruct buf as [|b0 buf0]; [discriminate|].
      destruct (validate_step (b0 :: buf0)) as [|[]]; discriminate. }
  assert (H1 : (1 <= len_utf8 c <= length (utf8 c ++ r))%nat).
  { rewrite app_length, utf8_length. unfold len_utf8. destruct (c <? 0x80), (c <? 0x800), (c <? 0x10000); lia. }
  destruct (peek_char m c r Hm Hc) as [(_ & H)|[(q & k & Hl & H)|(q & Hl & H)]]; rewrite H in Hb.
  - injection Hb as _ <-. exact H1.
  - injection Hb as _ <-. destruct (proj1 Hl) as (_ & Hne & (r' & ->)). rewrite app_length.
    destruct q; [congruence|cbn [length]; lia].
  - destruct (proj1 Hl) as (_ & Hne & (r' & Hr)). rewrite Hr in Hb |- *.
    rewrite skipn_app, Nat.sub_diag, skipn_all in Hb. cbn [app skipn] in Hb.
    pose proof (parse_mouse_inv r') as Hi. destruct (parse_mouse_data r') as [[[d k]|]|]; try discriminate.
    + injection Hb as _ <-. destruct Hi as (a & b & x & f & r0 & -> & _ & _ & _ & _ & _ & _ & ->).
      destruct q; [congruence|]. repeat (rewrite ?app_length; cbn [length]). lia.
    + injection Hb as _ <-. rewrite <- Hr. exact H1.
Qed.

(** ** Reports and sequences that arrive in pieces *)
Lemma cut_report p s code x y f : sgr code x y f = p ++ s -> s <> [] -> (3 <= length p)%nat ->
  code <= U32_MAX -> 1 <= x <= U32_MAX -> 1 <= y <= U32_MAX -> f = 77 \/ f = 109 ->
  parse_mouse_data (skipn 3 p) = Val None.
Proof.
  intros E Hs Hp Hc Hx Hy Hf.
  pose proof (sgr_parse code x y f [] Hc ltac:(lia) ltac:(lia) Hf) as Hw.
  replace ((y =? 0) || (x =? 0))%bool with false in Hw by lia.
  rewrite app_nil_r in Hw. pose proof (f_equal (@length _) E) as Hlen. rewrite app_length in Hlen.
  assert (Hsl : (0 < length s)%nat) by (destruct s; [congruence|cbn; lia]).
  rewrite Hlen in Hw. rewrite E in Hw.
  replace (skipn 3 (p ++ s)) with (skipn 3 p ++ s) in Hw.
  2:{ rewrite skipn_app. f_equal. replace (3 - length p)%nat with 0%nat by lia. reflexivity. }
  pose proof (parse_mouse_inv (skipn 3 p)) as Hi.
  assert (Hlp : length (skipn 3 p) = (length p - 3)%nat) by apply skipn_length.
  destruct (parse_mouse_data (skipn 3 p)) as [[[d n]|]|]; [|reflexivity|]; exfalso.
  - destruct Hi as (a & b & c & g & r & Ei & Ha & Hb & Hcn & Hg & Hb1 & Hc1 & Hn).
    rewrite Ei in Hw. repeat (rewrite <- ?app_assoc in Hw; cbn [app] in Hw).
    pose proof (parse_mouse a b c g (r ++ s) Ha Hb Hcn Hg) as Hq. cbn [app] in Hq. rewrite Hq in Hw.
    replace ((value c =? 0) || (value b =? 0))%bool with false in Hw by lia.
    injection Hw as _ _ _ _ Hw. rewrite Ei in Hlp. revert Hlp Hw.
    repeat (rewrite ?app_length; cbn [length]). lia.
  - destruct Hi as (a & b & c & g & r & Ei & Ha & Hb & Hcn & Hg & Hz).
    rewrite Ei in Hw. repeat (rewrite <- ?app_assoc in Hw; cbn [app] in Hw).
    pose proof (parse_mouse a b c g (r ++ s) Ha Hb Hcn Hg) as Hq. cbn [app] in Hq. rewrite Hq in Hw.
    replace ((value c =? 0) || (value b =? 0))%bool with true in Hw by lia. discriminate.
Qed.

Lemma split_report m d p s : key_map m -> report d = p ++ s -> p <> [] -> s <> [] ->
  at_line d < U32_MAX -> at_column d < U32_MAX ->
  (forall q v, matches m p q v -> q = XTERM_MOUSE_INTRO /\ v = XTermMouse) ->
  peek_event p m = Val (PEvent (EKey KEscape) 1).
Proof.
  intros Hm E Hp Hs H1 H2 Honly.
  assert (Hc : exists r, p = utf8 27 ++ r).
  { unfold report, sgr in E. cbn [app] in E. destruct p as [|b p]; [congruence|]. injection E as <- _. now exists p. }
  destruct Hc as (r & Hr).
  assert (S27 : scalar 27) by reflexivity.
  rewrite Hr in Honly |- *. destruct (peek_char m 27 r Hm S27) as [(_ & H)|[(q & k & Hl & H)|(q & Hl & H)]].
  - rewrite H. reflexivity.
  - destruct (Honly _ _ (proj1 Hl)). discriminate.
  - rewrite H. destruct (Honly _ _ (proj1 Hl)) as [-> _].
    destruct (proj1 Hl) as (_ & _ & (r' & Hr')). rewrite <- Hr in Hr' |- *.
    cbn [length XTERM_MOUSE_INTRO]. unfold report in E.
    assert (Hl3 : (3 <= length p)%nat) by (rewrite Hr', app_length; cbn [length XTERM_MOUSE_INTRO]; lia).
    assert (Hf : (match what d with Release _ => 109 | _ => 77 end = 77 \/ match what d with Release _ => 109 | _ => 77 end = 109))
      by (destruct (what d); auto).
    rewrite (cut_report p s _ _ _ _ E Hs Hl3 (code_small d) ltac:(lia) ltac:(lia) Hf). reflexivity.
Qed.

(** ** [sequences] *)
Definition kept (caps : list (option bytes * key)) : list (seq_op bytes seq_data) :=
  flat_map (fun c => match fst c with
                     | Some s => if forallb (fun b => b <? 128) s then [OpInsert s (SKey (snd c))] else []
                     | None => []
                     end) caps.

Lemma insert_refines m a s v : rel bytes seq_data key_ref m a ->
  exists m' r, sm_insert key_ref m s v = Some (m', r) /\ sm_step key_ref m (OpInsert s v) = Some (m', RpVal r) /\
    rel bytes seq_data key_ref m' (a_set a s (Some (s, v))).
Proof.
  intros Hr. destruct (step_refines _ _ key_ref m a (OpInsert s v) Hr) as (m' & H & Hr').
  cbn [sm_step] in H |- *. destruct (sm_insert key_ref m s v) as [[m1 r]|]; [|discriminate].
  injection H as -> H. eauto.
Qed.

Lemma add_run caps : forall m a, rel bytes seq_data key_ref m a ->
  exists m' rs, add_keys caps m = Some m' /\ sm_run key_ref m (kept caps) = Some (m', rs) /\
    rel bytes seq_data key_ref m' (fun q => match meaning caps q with Some k => Some (q, SKey k) | None => a q end).
Proof.
  induction caps as [|[[s|] k] caps IH]; intros m a Hr; cbn [add_keys kept flat_map fst snd].
  - exists m, []. split; [reflexivity|]. split; [reflexivity|]. exact Hr.
  - unfold ascii_str. destruct (forallb (fun b => b <? 128) s) eqn:Ea.
    + destruct (insert_refines m a s (SKey k) Hr) as (m1 & r1 & E1 & E2 & Hr1). rewrite E1.
      destruct (IH m1 _ Hr1) as (m' & rs & H1 & H2 & H3). exists m', (RpVal r1 :: rs).
      split; [exact H1|]. split.
      * cbn [app sm_run]. rewrite E2. fold (kept caps). rewrite H2. reflexivity.
      * eapply rel_ext; [exact H3|]. intros q. cbn [meaning]. destruct (meaning caps q) eqn:Em; [reflexivity|].
        rewrite Ea. unfold a_set. destruct (list_eq_dec N.eq_dec q s) as [->|Hn].
        -- destruct (list_eq_dec N.eq_dec s s); congruence.
        -- destruct (list_eq_dec N.eq_dec s q); congruence.
    + destruct (IH m a Hr) as (m' & rs & H1 & H2 & H3). exists m', rs. split; [exact H1|]. split; [exact H2|].
      eapply rel_ext; [exact H3|]. intros q. cbn [meaning]. destruct (meaning caps q); [reflexivity|].
      rewrite Ea. destruct (list_eq_dec N.eq_dec s q); reflexivity.
  - destruct (IH m a Hr) as (m' & rs & H1 & H2 & H3). exists m', rs. split; [exact H1|]. split; [exact H2|].
    eapply rel_ext; [exact H3|]. intros q. cbn [meaning]. destruct (meaning caps q); reflexivity.
Qed.

Lemma run_snoc (ops : list (seq_op bytes seq_data)) o : forall m m1 rs m2 r,
  sm_run key_ref m ops = Some (m1, rs) -> sm_step key_ref m1 o = Some (m2, r) ->
  sm_run key_ref m (ops ++ [o]) = Some (m2, rs ++ [r]).
Proof.
  induction ops as [|o' ops IH]; intros m m1 rs m2 r H1 H2; cbn [app sm_run] in *.
  - injection H1 as -> <-. rewrite H2. reflexivity.
  - destruct (sm_step key_ref m o') as [[m' r']|]; [|discriminate].
    destruct (sm_run key_ref m' ops) as [[m'' rs'']|] eqn:E; [|discriminate].
    injection H1 as -> <-. rewrite (IH _ _ _ _ _ E H2). reflexivity.
Qed.

Lemma meaning_ascii caps q k : meaning caps q = Some k -> is_ascii q.
Proof.
  induction caps as [|[[s|] k'] caps IH]; cbn [meaning]; [discriminate| |];
    (destruct (meaning caps q); [auto|]); [|discriminate].
  destruct (list_eq_dec N.eq_dec s q) as [->|]; [|discriminate].
  destruct (forallb (fun b => b <? 128) q) eqn:E; [|discriminate]. intros _.
  apply Forall_forall. intros b Hb. rewrite forallb_forall in E. specialize (E b Hb). lia.
Qed.

Lemma ascii_valid q : is_ascii q -> valid_utf8 q.
Proof.
  intros H. exists q. induction H as [|b q Hb Hq (H1 & H2)]; [split; [constructor|reflexivity]|].
  split; [constructor; [unfold scalar, is_scalar; lia|exact H1]|].
  rewrite utf8s_cons, <- H2. unfold utf8. replace (b <? 0x80) with true by lia. reflexivity.
Qed.

Lemma sequences_map caps name : exists m, sequences caps name = Some m /\ key_map m /\
  forall q v, In (q, v) (sm_sequences m) <->
    (if is_xterm name then if list_eq_dec N.eq_dec q XTERM_MOUSE_INTRO then Some XTermMouse
                           else option_map SKey (meaning caps q)
     else option_map SKey (meaning caps q)) = Some v.
Proof.
  unfold sequences. destruct (add_run caps sm_new (fun _ => None) (rel_new _ _ _)) as (m & rs & H1 & H2 & H3).
  rewrite H1. destruct (is_xterm name).
  - destruct (insert_refines m _ XTERM_MOUSE_INTRO XTermMouse H3) as (m1 & r & E1 & E2 & H4). rewrite E1.
    exists m1. split; [reflexivity|].
    assert (Hin : forall q v, In (q, v) (sm_sequences m1) <->
      (if list_eq_dec N.eq_dec q XTERM_MOUSE_INTRO then Some XTermMouse else option_map SKey (meaning caps q)) = Some v).
    { intros q v. rewrite (rel_in _ _ _ _ _ _ H4). unfold key_ref, a_set. cbn [fst].
      destruct (list_eq_dec N.eq_dec q XTERM_MOUSE_INTRO) as [->|].
      - split; congruence.
      - destruct (meaning caps q); cbn [option_map]; split; congruence. }
    split; [|exact Hin]. split.
    + exists CNew, (kept caps ++ [OpInsert XTERM_MOUSE_INTRO XTermMouse]), sm_new, (rs ++ [RpVal r]).
      split; [reflexivity|]. exact (run_snoc _ _ _ _ _ _ _ H2 E2).
    + intros q v Hq. apply Hin in Hq. apply ascii_valid. destruct (list_eq_dec N.eq_dec q XTERM_MOUSE_INTRO) as [->|].
      * unfold XTERM_MOUSE_INTRO, is_ascii. repeat constructor; lia.
      * destruct (meaning caps q) eqn:Em; [|discriminate]. exact (meaning_ascii _ _ _ Em).
  - exists m. split; [reflexivity|].
    assert (Hin : forall q v, In (q, v) (sm_sequences m) <-> option_map SKey (meaning caps q) = Some v).
    { intros q v. rewrite (rel_in _ _ _ _ _ _ H3). unfold key_ref. cbn [fst].
      destruct (meaning caps q); cbn [option_map]; split; congruence. }
    split; [|exact Hin]. split.
    + exists CNew, (kept caps), sm_new, rs. split; [reflexivity|exact H2].
    + intros q v Hq. apply Hin in Hq. apply ascii_valid. destruct (meaning caps q) eqn:Em; [|discriminate].
      exact (meaning_ascii _ _ _ Em).
Qed.

Lemma split_key m c r q : key_map m -> scalar c -> no_match m (utf8 c ++ r) -> is_prefix (utf8 c ++ r) q ->
  peek_event (utf8 c ++ r) m = Val (PEvent (EKey (key_from_char c)) (length (utf8 c))).
Proof. intros. now apply peek_plain. Qed.
