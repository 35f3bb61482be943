(** The ANSI terminal of S_Emu.v implements its terminfo entry. *)
From Coq Require Import Decimal DecimalPos DecimalN.
From Verif Require Import Base M_Utf8 S_Utf8 P_Utf8 M_Geom S_Geom M_Attr M_Buf S_Buf M_Writer S_Tty S_Writer S_Emu.

(** ** Lists *)
Lemma setn_length {A} (x : A) l : forall i, length (setn i x l) = length l.
Proof. induction l as [|y l IH]; intros [|i]; cbn; auto. Qed.

Lemma setn_same {A} (x : A) l : forall i, i < length l -> nth_error (setn i x l) i = Some x.
Proof. induction l as [|y l IH]; intros [|i] H; cbn in *; auto; try lia. apply IH. lia. Qed.

Lemma setn_other {A} (x : A) l : forall i j, j <> i -> nth_error (setn i x l) j = nth_error l j.
Proof. induction l as [|y l IH]; intros [|i] [|j] H; cbn; auto; try congruence. Qed.

Lemma is_trail_false o : o <> Some VTrail -> is_trail o = false.
Proof. destruct o as [[]|]; cbn; auto; congruence. Qed.

Lemma nth_map_combine (f : nat * vcell -> vcell) l : forall s j,
  nth_error (map f (combine (seq s (length l)) l)) j =
  option_map (fun x => f (s + j, x)) (nth_error l j).
Proof.
  induction l as [|y l IH]; intros s [|j]; cbn; auto.
  - now rewrite Nat.add_0_r.
  - rewrite IH. now replace (S s + j) with (s + S j) by lia.
Qed.

Lemma erase_length i k a l : length (erase i k a l) = length l.
Proof.
  unfold erase. rewrite map_length, combine_length, seq_length.
  destruct ((i <? k) && is_trail (nth_error l i)); rewrite ?setn_length; lia.
Qed.

Lemma erase_in i k a l j : i <= j < k -> j < length l ->
  nth_error (erase i k a l) j = Some (VC [SPACE] (Attrs None (bg a) style_empty)).
Proof.
  intros H1 H2. unfold erase. rewrite nth_map_combine.
  set (l1 := if (i <? k) && is_trail (nth_error l i) then setn (i - 1) (VC [SPACE] no_attrs) l else l).
  assert (Hl : length l1 = length l) by (unfold l1; destruct (_ && _); rewrite ?setn_length; lia).
  destruct (nth_error l1 j) as [x|] eqn:E; [|apply nth_error_None in E; lia].
  cbn [option_map fst snd Nat.add]. replace ((i <=? j) && (j <? k)) with true by lia. reflexivity.
Qed.

Lemma erase_out i k a l j : nth_error l i <> Some VTrail \/ i = 0 -> j < i \/ k <= j ->
  nth_error (erase i k a l) j = nth_error l j.
Proof.
  intros H1 H2. unfold erase. rewrite nth_map_combine.
  set (l1 := if (i <? k) && is_trail (nth_error l i) then setn (i - 1) (VC [SPACE] no_attrs) l else l).
  assert (Hl : nth_error l1 j = nth_error l j).
  { unfold l1. destruct H1 as [H1| ->].
    - rewrite (is_trail_false _ H1), andb_false_r. reflexivity.
    - destruct (Nat.ltb_spec 0 k); cbn [andb]; [|reflexivity].
      destruct (is_trail (nth_error l 0)); [|reflexivity]. apply setn_other. cbn. lia. }
  rewrite Hl. destruct (nth_error l j) as [x|]; [|reflexivity].
  cbn [option_map fst snd Nat.add]. replace ((i <=? j) && (j <? k)) with false by lia. reflexivity.
Qed.

(** ** Feeding *)
Lemma fold_app {A B} (f : A -> B -> A) l m a : fold_left f (l ++ m) a = fold_left f m (fold_left f l a).
Proof. apply fold_left_app. Qed.

Section Emu.
  Variable E : env.
  Hypothesis HE : env_ok E.

  Notation run bs e := (fold_left (emu_step E) bs e).

  Fixpoint value (u : uint) (acc : N) : N :=
    match u with
    | Nil => acc
    | D0 u => value u (acc * 10 + 0) | D1 u => value u (acc * 10 + 1) | D2 u => value u (acc * 10 + 2)
    | D3 u => value u (acc * 10 + 3) | D4 u => value u (acc * 10 + 4) | D5 u => value u (acc * 10 + 5)
    | D6 u => value u (acc * 10 + 6) | D7 u => value u (acc * 10 + 7) | D8 u => value u (acc * 10 + 8)
    | D9 u => value u (acc * 10 + 9)
    end%N.

  Lemma run_digits u : forall v q ps p,
    run (digits u) (Emu v (Csi q ps p)) = Emu v (Csi q ps (value u p)).
  Proof. induction u; intros v q ps p; cbn [digits fold_left value]; [reflexivity|..]; rewrite <- IHu; reflexivity. Qed.

  Lemma value_pos u : forall p, value u (Npos p) = Npos (Pos.of_uint_acc u p).
  Proof.
    induction u; intros p; cbn [value Pos.of_uint_acc]; [reflexivity|..]; rewrite <- IHu; f_equal; lia.
  Qed.

  Lemma value_of u : value u 0 = N.of_uint u.
  Proof.
    induction u; [reflexivity|..]; cbn [value N.of_uint Pos.of_uint];
      [exact IHu|..]; change (0 * 10)%N with 0%N; cbn [N.add]; apply value_pos.
  Qed.

  Lemma run_dec n v q ps : run (dec n) (Emu v (Csi q ps 0)) = Emu v (Csi q ps n).
  Proof. unfold dec. now rewrite run_digits, value_of, DecimalN.Unsigned.of_to. Qed.

  (** ** Text *)
  Lemma run_utf c v : scalar c -> forall r p, utf8 c = p ++ r -> r <> [] -> p <> [] ->
    run r (Emu v (Utf p)) = Emu (emu_print E c v) Ground.
  Proof.
    intros Hc. induction r as [|b r IH]; intros p Hp Hr Hn; [congruence|].
    cbn [fold_left]. unfold emu_step at 2. cbn [emode ev].
    destruct r as [|b' r].
    - cbn [fold_left]. rewrite <- Hp. unfold emu_char.
      assert (H1 := validate_utf8 c [] Hc). assert (H2 := next_char_utf8 c [] Hc). rewrite app_nil_r in *.
      now rewrite H1, H2.
    - unfold emu_char. rewrite step_truncated.
      + apply IH; [now rewrite <- app_assoc|discriminate|]. destruct p; discriminate.
      + split; [destruct p; discriminate|]. exists c, (b' :: r). split; [assumption|]. split; [discriminate|].
        now rewrite <- app_assoc.
  Qed.

  Lemma utf8_first c : scalar c -> exists b r, utf8 c = b :: r /\
    ((r = [] /\ b = c /\ (c < 128)%N) \/ (r <> [] /\ (128 <= b)%N)).
  Proof.
    intros Hc. unfold utf8.
    destruct (N.ltb_spec c 0x80); [do 2 eexists; split; [reflexivity|left; auto]|].
    destruct (N.ltb_spec c 0x800); [do 2 eexists; split; [reflexivity|right; split; [discriminate|lia]]|].
    destruct (N.ltb_spec c 0x10000); do 2 eexists; (split; [reflexivity|right; split; [discriminate|lia]]).
  Qed.

  Lemma run_char c v : scalar c -> ~ (c < 32)%N -> c <> 127%N ->
    run (utf8 c) (Emu v Ground) = Emu (emu_print E c v) Ground.
  Proof.
    intros Hc H1 H2. destruct (utf8_first c Hc) as (b & r & Eu & Hb).
    assert (Hg : (27 <? b = true)%N /\ (b <? 32 = false)%N /\ (b =? 127 = false)%N).
    { destruct Hb as [(-> & -> & _)|(_ & Hb)]; lia. }
    rewrite Eu. cbn [fold_left]. unfold emu_step at 2. cbn [emode ev].
    replace (b =? 27)%N with false by lia. destruct Hg as (_ & -> & ->). cbn [orb].
    destruct r as [|b' r].
    - cbn [fold_left]. unfold emu_char. assert (H3 := validate_utf8 c [] Hc). assert (H4 := next_char_utf8 c [] Hc).
      rewrite app_nil_r in *. rewrite Eu in *. now rewrite H3, H4.
    - unfold emu_char. rewrite step_truncated.
      + apply (run_utf c v Hc); [assumption|discriminate|discriminate].
      + split; [discriminate|]. exists c, (b' :: r). split; [assumption|]. split; [discriminate|]. assumption.
  Qed.

  (** ** The view *)
  Definition good (v : view) : Prop := length (vcells v) = total (vsize v).

  Lemma look_spec e v : emu_look e = Some v <-> e = Emu v Ground /\ good v.
  Proof.
    unfold emu_look. destruct e as [v' m]. cbn. destruct m; try (split; [discriminate|intros [H _]; discriminate]).
    destruct (Nat.eqb_spec (length (vcells v')) (total (vsize v'))) as [Hl|Hl].
    - split; [intros H; injection H as <-; auto|intros [H _]; injection H as <-; auto].
    - split; [discriminate|]. intros [H Hg]. injection H as <-. contradiction.
  Qed.

  Lemma put_length i w c a l : length (put i w c a l) = length l.
  Proof.
    unfold put. repeat match goal with |- context [if ?b then _ else _] => destruct b end; rewrite ?setn_length; auto.
  Qed.

  Lemma add_mark_length i m l : length (add_mark i m l) = length l.
  Proof. unfold add_mark. destruct (nth_error l i) as [[]|]; rewrite ?setn_length; auto. Qed.

  Lemma keeps_refl v : keeps v v. Proof. repeat split. Qed.

  Lemma keeps_trans a b c : keeps a b -> keeps b c -> keeps a c.
  Proof. unfold keeps. intuition congruence. Qed.

  Lemma keeps_cur v p : keeps v (set_vcur p v). Proof. repeat split. Qed.

  Lemma keeps_cells v l : length l = length (vcells v) -> keeps v (set_vcells l v).
  Proof. intros H. repeat split. exact H. Qed.

  Lemma line_feed_keeps v : keeps v (line_feed v).
  Proof.
    unfold line_feed. destruct (S (line (vcur v)) <? lines (vsize v)); [apply keeps_cur|].
    apply keeps_cells. rewrite firstn_length, app_length, skipn_length, repeat_length. lia.
  Qed.

  Lemma print_keeps c v : keeps v (emu_print E c v).
  Proof.
    unfold emu_print. destruct (combining E c).
    - destruct (0 <? column (vcur v)); [|apply keeps_refl]. apply keeps_cells, add_mark_length.
    - destruct (cwidth E c) as [[|w]|]; try apply keeps_refl.
      set (v1 := if column (vcur v) + S w <=? columns (vsize v) then v else line_feed (set_vcur (Cursor (line (vcur v)) 0) v)).
      assert (H : keeps v v1).
      { unfold v1. destruct (_ <=? _); [apply keeps_refl|].
        eapply keeps_trans; [apply keeps_cur|apply line_feed_keeps]. }
      eapply keeps_trans; [exact H|]. eapply keeps_trans; [|apply keeps_cur]. apply keeps_cells, put_length.
  Qed.

  Lemma control_keeps c v : keeps v (emu_control E c v).
  Proof.
    unfold emu_control. repeat match goal with |- context [match ?x with _ => _ end] => destruct x end;
      try apply keeps_refl; try apply keeps_cur; apply line_feed_keeps.
  Qed.

  Lemma keeps_good v v' : keeps v v' -> good v -> good v'.
  Proof. unfold keeps, good. intros (-> & _ & _ & ->). auto. Qed.

  Lemma print_put c w v : good v -> cwidth E c = Some w -> printable E c -> room w v ->
    put_effect c w v (emu_print E c v).
  Proof.
    intros Hg Hw (_ & _ & _ & Hc & Hw2) (R1 & R2 & R3).
    assert (Hw3 : w = 1 \/ w = 2) by (rewrite Hw in Hw2; destruct Hw2 as [H|H]; injection H; auto).
    unfold emu_print. rewrite Hc, Hw. destruct w as [|w']; [lia|].
    replace (column (vcur v) + S w' <=? columns (vsize v)) with true by lia.
    unfold put_effect, put. cbn [vsize vattrs vvis vcells vcur set_vcur set_vcells].
    set (i := cell_no (vsize v) (vcur v)) in *. rewrite !(is_trail_false _ R3).
    set (l := if is_trail (nth_error (vcells v) (i + S w')) then _ else vcells v).
    assert (Hi : i + S w' <= length (vcells v)).
    { unfold good, total in Hg. rewrite Hg. unfold i, cell_no. nia. }
    assert (Hll : length l = length (vcells v)).
    { unfold l. destruct (is_trail _); [apply setn_length|reflexivity]. }
    assert (Hlo : forall j, j <> i + S w' -> nth_error l j = nth_error (vcells v) j).
    { intros j Hj. unfold l. destruct (is_trail _); [now apply setn_other|reflexivity]. }
    do 3 (split; [reflexivity|]). split; [|split; [reflexivity|split; [|split; [|split; [|split]]]]].
    - destruct (S w' =? 2); rewrite !setn_length; exact Hll.
    - destruct (S w' =? 2).
      + rewrite setn_other by lia. apply setn_same. lia.
      + apply setn_same. lia.
    - intros Hw'. rewrite Hw'. cbn [Nat.eqb]. apply setn_same. rewrite setn_length. lia.
    - intros j Hj. destruct (Nat.eqb_spec (S w') 2); rewrite ?setn_other by lia; apply Hlo; lia.
    - intros Hn. destruct (Nat.eqb_spec (S w') 2); rewrite ?setn_other by lia; unfold l; now rewrite (is_trail_false _ Hn).
    - assert (Hx : nth_error l (i + S w') <> Some VTrail).
      { unfold l. destruct (nth_error (vcells v) (i + S w')) as [[t a|]|] eqn:Et; cbn [is_trail]; rewrite ?Et; try discriminate.
        rewrite setn_same; [discriminate|]. apply nth_error_Some. congruence. }
      destruct (Nat.eqb_spec (S w') 2); rewrite ?setn_other by lia; exact Hx.
  Qed.

  Lemma print_mark c v i : good v -> mark E c -> left_cell v i -> mark_effect c i v (emu_print E c v).
  Proof.
    intros Hg (_ & _ & _ & Hm) (L1 & L2 & L3). unfold emu_print. rewrite Hm.
    replace (0 <? column (vcur v)) with true by lia.
    set (p := cell_no (vsize v) (vcur v) - 1) in *.
    assert (Hi : (if is_trail (nth_error (vcells v) p) then p - 1 else p) = i).
    { destruct L3 as [(-> & H)|(-> & H)]; [now rewrite (is_trail_false _ H)|now rewrite H]. }
    rewrite Hi. unfold mark_effect. cbn [vsize vattrs vvis vcells vcur set_vcells].
    repeat split; [apply add_mark_length| |].
    - intros s a Hs. unfold add_mark. rewrite Hs. apply setn_same. apply nth_error_Some. congruence.
    - intros j Hj. unfold add_mark. destruct (nth_error (vcells v) i) as [[]|]; auto. now apply setn_other.
  Qed.

  (** ** Capabilities *)
  Lemma run_csi n v bs final r : run (27 :: 91 :: bs)%N (Emu v Ground) = Emu v (Csi false [] n) ->
    r = csi false [n] final v -> (64 <= final <= 126)%N ->
    run ((27 :: 91 :: bs) ++ [final])%N (Emu v Ground) = Emu r Ground.
  Proof.
    intros H1 -> H2. rewrite fold_app, H1. cbn [fold_left emu_step emode ev].
    replace ((48 <=? final) && (final <=? 57))%N with false by lia.
    replace (final =? 59)%N with false by lia.
    destruct (N.eqb_spec final 63); [lia|].
    replace ((64 <=? final) && (final <=? 126))%N with true by lia. reflexivity.
  Qed.

  Lemma run_csi1 n final v : (64 <= final <= 126)%N ->
    run ([27; 91] ++ dec n ++ [final])%N (Emu v Ground) = Emu (csi false [n] final v) Ground.
  Proof.
    intros H. change ([27; 91] ++ dec n ++ [final])%N with ((27 :: 91 :: dec n) ++ [final])%N.
    eapply run_csi; [|reflexivity|assumption]. apply (run_dec n v false []).
  Qed.

  Lemma run_csi2 a b final v : (64 <= final <= 126)%N ->
    run ([27; 91] ++ dec a ++ [59] ++ dec b ++ [final])%N (Emu v Ground) = Emu (csi false [a; b] final v) Ground.
  Proof.
    intros H. rewrite fold_app.
    change (run [27; 91]%N (Emu v Ground)) with (Emu v (Csi false [] 0)).
    rewrite fold_app, run_dec, fold_app.
    change (run [59]%N (Emu v (Csi false [] a))) with (Emu v (Csi false [a] 0)).
    rewrite fold_app, run_dec. cbn [fold_left emu_step emode ev].
    replace ((48 <=? final) && (final <=? 57))%N with false by lia.
    replace (final =? 59)%N with false by lia.
    destruct (N.eqb_spec final 63); [lia|].
    replace ((64 <=? final) && (final <=? 126))%N with true by lia. reflexivity.
  Qed.

  Lemma sgr_fg a n : (n < 8)%N -> exists k, nth_error ansi_colors (N.to_nat n) = Some k /\
    sgr a (30 + n) = Attrs (Some k) (bg a) (sty a).
  Proof.
    intros H. assert (Hn : In n [0; 1; 2; 3; 4; 5; 6; 7]%N) by (cbn; lia).
    cbn in Hn. repeat (destruct Hn as [<-|Hn]; [eexists; split; reflexivity|]). contradiction.
  Qed.
  Lemma sgr_bg a n : (n < 8)%N -> exists k, nth_error ansi_colors (N.to_nat n) = Some k /\
    sgr a (40 + n) = Attrs (fg a) (Some k) (sty a).
  Proof.
    intros H. assert (Hn : In n [0; 1; 2; 3; 4; 5; 6; 7]%N) by (cbn; lia).
    cbn in Hn. repeat (destruct Hn as [<-|Hn]; [eexists; split; reflexivity|]). contradiction.
  Qed.

  Lemma run_sgr_fg n v : (n < 8)%N ->
    run ([27; 91; 51] ++ dec n ++ [109])%N (Emu v Ground) = Emu (set_vattrs (sgr (vattrs v) (30 + n)) v) Ground.
  Proof.
    intros H. assert (Hn : In n [0; 1; 2; 3; 4; 5; 6; 7]%N) by (cbn; lia).
    cbn in Hn. repeat (destruct Hn as [<-|Hn]; [reflexivity|]). contradiction.
  Qed.
  Lemma run_sgr_bg n v : (n < 8)%N ->
    run ([27; 91; 52] ++ dec n ++ [109])%N (Emu v Ground) = Emu (set_vattrs (sgr (vattrs v) (40 + n)) v) Ground.
  Proof.
    intros H. assert (Hn : In n [0; 1; 2; 3; 4; 5; 6; 7]%N) by (cbn; lia).
    cbn in Hn. repeat (destruct Hn as [<-|Hn]; [reflexivity|]). contradiction.
  Qed.

  Lemma arg1_pos n : (0 < n)%N -> arg1 n = N.to_nat n.
  Proof. intros H. unfold arg1. now rewrite N.max_r by lia. Qed.

  Lemma erased_erase i k v : good v -> k <= total (vsize v) ->
    nth_error (vcells v) i <> Some VTrail \/ i = 0 ->
    erased i k v (set_vcells (erase i k (vattrs v) (vcells v)) v).
  Proof.
    intros Hg Hk Hi. split; cbn [vcells set_vcells].
    - intros j Hj. now apply erase_out.
    - intros j Hj. exists (Attrs None (bg (vattrs v)) style_empty). split.
      + apply erase_in; [assumption|]. unfold good in Hg. lia.
      + intros ->. reflexivity.
  Qed.

  Lemma same_cells v l : length l = length (vcells v) -> same_but_cells v (set_vcells l v).
  Proof. intros H. repeat split. exact H. Qed.

  Lemma ansi_cap c ps bs v : good v -> ansi_string c ps = Some bs -> cap_dom c ps v ->
    exists v', run bs (Emu v Ground) = Emu v' Ground /\ cap_effect c ps v v' /\ good v'.
  Proof.
    intros Hg Hs Hd.
    assert (Hmv : forall p q, (column (vcur v) < columns (vsize v) -> p = q) -> moved q v (set_vcur p v)).
    { intros p q H. split; [apply keeps_cur|]. intros Hc. now rewrite (H Hc). }
    assert (Hgc : forall p, good (set_vcur p v)) by (intros p; exact Hg).
    assert (Hga : forall a, good (set_vattrs a v)) by (intros a; exact Hg).
    assert (Hgv : forall a, good (set_vvis a v)) by (intros a; exact Hg).
    assert (Hge : forall i k, good (set_vcells (erase i k (vattrs v) (vcells v)) v)).
    { intros i k. unfold good. cbn [vcells vsize set_vcells]. now rewrite erase_length. }
    destruct c; cbn [ansi_string] in Hs; repeat (destruct ps as [|? ps]; try discriminate); injection Hs as <-;
      cbn [cap_dom] in Hd.
    - (* EnterCaMode *) exists v. split; [reflexivity|]. split; [apply keeps_refl|assumption].
    - exists v. split; [reflexivity|]. split; [apply keeps_refl|assumption].
    - (* ChangeScrollRegion *) eexists. split; [apply run_csi2; lia|]. split; [apply keeps_cur|apply Hgc].
    - (* CursorHome *) eexists. split; [reflexivity|]. split; [|apply Hgc]. reflexivity.
    - (* CursorAddress *) eexists. split; [apply run_csi2; lia|]. split; [|apply Hgc].
      cbn [cap_effect csi hd nth]. rewrite !arg1_pos by lia. f_equal. f_equal; lia.
    - (* ClearScreen *)
      exists (csi false [2%N] 74 (csi false [0%N] 72 v)). split; [reflexivity|]. split; [|exact (Hge 0 _)].
      cbn [csi]. split; [reflexivity|]. split.
      + apply (same_cells (set_vcur (Cursor 0 0) v)). cbn [vcells set_vcur vattrs]. apply erase_length.
      + exact (erased_erase 0 (total (vsize v)) v Hg (le_n _) (or_intror eq_refl)).
    - (* ClrEol *) eexists. split; [reflexivity|]. split; [|exact (Hge _ _)]. split.
      + apply same_cells, erase_length.
      + intros ((B1 & B2) & Ht). apply erased_erase; auto. unfold total. nia.
    - (* ClrEos *) eexists. split; [reflexivity|]. split; [|exact (Hge _ _)]. split.
      + apply same_cells, erase_length.
      + intros ((B1 & B2) & Ht). apply erased_erase; auto.
    - (* CursorUp *) exists (csi false [0%N] 65 v). split; [reflexivity|]. split; [|apply Hgc].
      apply Hmv. intros Hc. f_equal. lia.
    - eexists. split; [apply run_csi1; lia|]. split; [|apply Hgc]. cbn [csi hd]. rewrite arg1_pos by assumption.
      apply Hmv. intros Hc. f_equal. lia.
    - eexists. split; [apply run_csi1; lia|]. split; [|apply Hgc]. cbn [csi hd]. rewrite arg1_pos by assumption.
      apply Hmv. intros Hc. cbn [hd]. f_equal; lia.
    - (* CursorLeft *) exists (emu_control E 8%N v). split; [reflexivity|]. split; [|apply Hgc].
      apply Hmv. intros Hc. f_equal. change (N.to_nat (hd 1%N [])) with 1. lia.
    - eexists. split; [apply run_csi1; lia|]. split; [|apply Hgc]. cbn [csi hd]. rewrite arg1_pos by assumption.
      apply Hmv. intros Hc. cbn [hd]. f_equal; lia.
    - (* CursorRight *) exists (csi false [0%N] 67 v). split; [reflexivity|]. split; [|apply Hgc].
      apply Hmv. intros Hc. f_equal. change (N.to_nat (hd 1%N [])) with 1. change (arg1 (hd 0%N [0%N])) with 1. lia.
    - eexists. split; [apply run_csi1; lia|]. split; [|apply Hgc]. cbn [csi hd]. rewrite arg1_pos by assumption.
      apply Hmv. intros Hc. cbn [hd]. f_equal; lia.
    - eexists. split; [reflexivity|]. split; [|apply Hgv]. reflexivity.
    - eexists. split; [reflexivity|]. split; [|apply Hgv]. reflexivity.
    - eexists. split; [reflexivity|]. split; [|apply Hga]. reflexivity.
    - eexists. split; [apply run_sgr_fg; assumption|]. split; [|apply Hga].
      destruct (sgr_fg (vattrs v) _ Hd) as (k & E1 & E2). exists k. cbn [hd]. now rewrite E2.
    - eexists. split; [apply run_sgr_bg; assumption|]. split; [|apply Hga].
      destruct (sgr_bg (vattrs v) _ Hd) as (k & E1 & E2). exists k. cbn [hd]. now rewrite E2.
    - eexists. split; [reflexivity|]. split; [|apply Hga]. reflexivity.
    - eexists. split; [reflexivity|]. split; [|apply Hga]. reflexivity.
    - eexists. split; [reflexivity|]. split; [|apply Hga]. reflexivity.
    - eexists. split; [reflexivity|]. split; [|apply Hga]. reflexivity.
    - eexists. split; [reflexivity|]. split; [|apply Hga]. reflexivity.
    - eexists. split; [reflexivity|]. split; [|apply Hga]. reflexivity.
    - exists v. split; [reflexivity|]. split; [reflexivity|assumption].
    - exists v. split; [reflexivity|]. split; [reflexivity|assumption].
  Qed.

  Lemma texty_char c : scalar c -> printable E c \/ mark E c ->
    ~ (c < 32)%N /\ c <> 127%N.
  Proof.
    intros Hs H. destruct HE as (_ & _ & _ & Hc).
    assert (Hn : ~ is_control c).
    { intros Hk. destruct (Hc c Hk) as [K1 K2]. unfold width0 in K1.
      destruct H as [(_ & _ & _ & _ & [H|H])|(_ & _ & _ & H)]; rewrite H in *; try discriminate. }
    unfold is_control in Hn. lia.
  Qed.

  Lemma ansi_text c v : good v -> texty E c ->
    exists v', run (utf8 c) (Emu v Ground) = Emu v' Ground /\ keeps v v' /\
      (forall w, cwidth E c = Some w -> printable E c -> room w v -> put_effect c w v v') /\
      (forall i, mark E c -> left_cell v i -> mark_effect c i v v') /\
      (c = CR -> v' = set_vcur (Cursor (line (vcur v)) 0) v).
  Proof.
    intros Hg (Hs & Ht).
    assert (Hctl : c = TAB \/ c = LF \/ c = CR ->
      run (utf8 c) (Emu v Ground) = Emu (emu_control E c v) Ground /\
      ~ printable E c /\ ~ mark E c).
    { intros H. split; [destruct H as [->|[->| ->]]; reflexivity|].
      unfold printable, mark. tauto. }
    assert (Hc : (printable E c \/ mark E c) \/ (c = TAB \/ c = LF \/ c = CR)) by tauto.
    destruct Hc as [Hc|Hc].
    - destruct (texty_char c Hs Hc) as [H1 H2]. exists (emu_print E c v). split; [now apply run_char|].
      split; [apply print_keeps|]. split; [intros; now apply print_put|]. split; [intros; now apply print_mark|].
      intros ->. exfalso. apply H1. reflexivity.
    - destruct (Hctl Hc) as (H1 & H2 & H3). exists (emu_control E c v). split; [assumption|].
      split; [apply control_keeps|]. split; [contradiction|]. split; [contradiction|]. intros ->. reflexivity.
  Qed.

  Theorem ansi_implements : implements E ansi_cfg (ansi_tty E).
  Proof.
    split; cbn [feed look ansi_tty tstate].
    - intros t a b. apply fold_app.
    - reflexivity.
    - intros t v H. apply look_spec in H. apply H.
    - intros c e He k ps bs k' Hexp t v Hl Hd. apply look_spec in Hl. destruct Hl as [-> Hg].
      cbn in He. unfold ansi_info in He. injection He as <-.
      destruct (ansi_string c ps) as [b|] eqn:Es; [|discriminate]. injection Hexp as <- <-.
      destruct (ansi_cap c ps b v Hg Es Hd) as (v' & E1 & E2 & E3). exists v'.
      rewrite E1. split; [|assumption]. apply look_spec. auto.
    - intros c Hc t v Hl. apply look_spec in Hl. destruct Hl as [-> Hg].
      destruct (ansi_text c v Hg Hc) as (v' & E1 & E2 & E3). exists v'. rewrite E1.
      split; [|auto]. apply look_spec. split; [reflexivity|]. eapply keeps_good; eauto.
    - intros _ t v Hl. apply look_spec in Hl. destruct Hl as [-> Hg].
      repeat split; apply look_spec; (split; [reflexivity|assumption]).
  Qed.
End Emu.

(** A terminal also implements every smaller terminfo entry. *)
Lemma implements_fewer E C C' K :
  (forall c e, info C' c = Some e -> info C c = Some e) -> (xterm C' = true -> xterm C = true) ->
  implements E C K -> implements E C' K.
Proof. intros H1 H2 H. split; try apply H; intros; [eapply (cap_ok _ _ _ H); eauto|apply H; auto]. Qed.

Lemma ansi_all_caps : all_attr_caps ansi_cfg.
Proof. intros c _. reflexivity. Qed.

Lemma emu_new_look sz : emu_look (emu_new sz) =
  Some (View sz (repeat (VC [SPACE] no_attrs) (total sz)) (Cursor 0 0) no_attrs true).
Proof. unfold emu_look. cbn. now rewrite repeat_length, Nat.eqb_refl. Qed.

Lemma missing_exit_italics E : env_ok E -> exists C w' v,
  implements E C (ansi_tty E) /\
  run_ok C [OAddStyle ITALIC; ORemoveStyle ITALIC] (writer_new 64 []) = Some w' /\
  emu_look (feed (ansi_tty E) (emu_new (Size 2 2)) (stream w')) = Some v /\
  fold_left request [OAddStyle ITALIC; ORemoveStyle ITALIC] no_attrs = no_attrs /\
  vattrs v = Attrs None None ITALIC.
Proof.
  intros HE.
  exists (TCfg (fun c => match c with ExitItalicsMode => None | _ => ansi_info c end) (grow ansi_cfg) true).
  do 2 eexists. split.
  - apply (implements_fewer E ansi_cfg); auto using ansi_implements.
    intros c e. cbn. destruct c; auto; discriminate.
  - split; [reflexivity|]. split; [reflexivity|]. split; reflexivity.
Qed.
