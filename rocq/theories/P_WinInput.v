(** Proofs about decoding Windows input records and timeouts. *)
From Verif Require Import Base M_Utf8 S_Utf8 M_Geom M_Signal M_Util P_Util M_Input M_Buf M_Writer M_Prepare M_Reader
  M_WinWriter S_WinWriter M_WinReader S_WinReader.
Local Open Scope N_scope.

(** ** Bits *)
Lemma land_bit x i : (N.land x (N.shiftl 1 i) =? 0) = negb (N.testbit x i).
Proof.
  rewrite N.shiftl_1_l. destruct (N.testbit x i) eqn:T; cbn.
  - apply N.eqb_neq. intros H. apply (f_equal (fun y => N.testbit y i)) in H.
    rewrite N.land_spec, N.pow2_bits_true, T, N.bits_0 in H. discriminate H.
  - apply N.eqb_eq. apply N.bits_inj. intros j. rewrite N.land_spec, N.bits_0.
    destruct (N.eq_dec i j) as [->|Hne]; [now rewrite T|]. rewrite N.pow2_bits_false by exact Hne. apply andb_false_r.
Qed.
Lemma lxor_differs p b i : N.testbit (N.lxor p b) i = true <-> N.testbit p i <> N.testbit b i.
Proof. rewrite N.lxor_spec. destruct (N.testbit p i), (N.testbit b i); cbn; split; congruence. Qed.

Lemma testbit_small x n i : x < 2 ^ n -> n <= i -> N.testbit x i = false.
Proof.
  intros Hx Hi. destruct (N.eq_dec x 0) as [->|Hn]; [apply N.bits_0|].
  apply N.bits_above_log2. assert (N.log2 x < n); [|lia]. apply N.log2_lt_pow2; lia.
Qed.

Lemma land_or_bits c i j : negb (N.land c (N.lor (N.shiftl 1 i) (N.shiftl 1 j)) =? 0) = N.testbit c i || N.testbit c j.
Proof.
  rewrite N.land_lor_distr_r.
  destruct (N.lor (N.land c (N.shiftl 1 i)) (N.land c (N.shiftl 1 j)) =? 0) eqn:H; symmetry; cbn.
  - apply N.eqb_eq, N.lor_eq_0_iff in H. destruct H as [H1 H2].
    apply N.eqb_eq in H1, H2. rewrite land_bit in H1, H2. lia.
  - apply N.eqb_neq in H. destruct (N.testbit c i) eqn:A, (N.testbit c j) eqn:B; try reflexivity.
    exfalso. apply H. apply N.lor_eq_0_iff. split; apply N.eqb_eq; rewrite land_bit; [now rewrite A|now rewrite B].
Qed.
Lemma has_alt_bits c : has_alt c = alt_held c.
Proof. unfold has_alt, alt_held. rewrite orb_comm. exact (land_or_bits c 1 0). Qed.
Lemma has_ctrl_bits c : has_ctrl c = ctrl_held c.
Proof. unfold has_ctrl, ctrl_held. rewrite orb_comm. exact (land_or_bits c 3 2). Qed.
Lemma has_shift_bits c : has_shift c = N.testbit c 4.
Proof. unfold has_shift. change SHIFT_PRESSED with (N.shiftl 1 4). rewrite land_bit. apply negb_involutive. Qed.

(** ** Mouse *)
Lemma bit_to_button_ok : forall i, i < 32 -> bit_to_button (N.shiftl 1 i) = Some (button_no i).
Proof.
  assert (H : forall n, (n < 32)%nat -> bit_to_button (N.shiftl 1 (N.of_nat n)) = Some (button_no (N.of_nat n))).
  { intros n Hn. do 32 (destruct n as [|n]; [vm_compute; reflexivity|]). lia. }
  intros i Hi. specialize (H (N.to_nat i)). rewrite N2Nat.id in H. apply H. lia.
Qed.

Lemma changed_from_first p b i : first_change p b i -> i < 32 ->
  forall n k, (N.to_nat k + n = 32)%nat -> k <= i ->
  changed_from p b n k = Val (Some (if N.testbit p i then MReleased (button_no i) else MPressed (button_no i))).
Proof.
  intros [Hi Hlow] Hi32. induction n as [|n IH]; intros k Hk Hki; [lia|].
  cbn [changed_from]. rewrite land_bit, negb_involutive.
  destruct (N.eq_dec k i) as [->|Hne].
  - apply lxor_differs in Hi. rewrite Hi. rewrite bit_to_button_ok by exact Hi32.
    rewrite land_bit. destruct (N.testbit p i); reflexivity.
  - assert (Hd : N.testbit (N.lxor p b) k = false).
    { destruct (N.testbit (N.lxor p b) k) eqn:T; [|reflexivity]. apply lxor_differs in T. now rewrite Hlow in T by lia. }
    rewrite Hd. apply IH; lia.
Qed.
Lemma button_changed_first p b i : first_change p b i -> i < 32 ->
  button_changed p b = Val (Some (if N.testbit p i then MReleased (button_no i) else MPressed (button_no i))).
Proof. intros H Hi. apply (changed_from_first p b i H Hi); [reflexivity|lia]. Qed.

Lemma differ_small p b i : p < 4294967296 -> b < 4294967296 -> N.testbit p i <> N.testbit b i -> i < 32.
Proof.
  intros Hp Hb Hd. destruct (N.lt_ge_cases i 32) as [|Hge]; [assumption|]. exfalso. apply Hd.
  rewrite (testbit_small p 32), (testbit_small b 32); auto.
Qed.

Lemma only_first p b i : only_change p b i -> first_change p b i.
Proof.
  intros H. split; [now apply H|]. intros j Hj.
  destruct (Bool.bool_dec (N.testbit p j) (N.testbit b j)) as [|Hd]; [assumption|]. apply H in Hd. lia.
Qed.

Lemma high_word_up b : b < 4294967296 -> (0 <? high_word b)%Z = wheel_up b.
Proof.
  intros Hb. unfold high_word, wheel_up. rewrite N.shiftr_div_pow2. change (2 ^ 16) with 65536.
  assert (b / 65536 < 65536) by (apply N.div_lt_upper_bound; lia).
  rewrite N.mod_small by assumption. set (d := b / 65536) in *. clearbody d. clear Hb.
  destruct (Z.of_N d <? 32768)%Z eqn:C; lia.
Qed.

Lemma coord_ok E p : (32768 <= Z.of_nat (umax E))%Z -> (0 <= cX p < 32768 /\ 0 <= cY p < 32768)%Z ->
  coord_to_cursor E p = Cursor (Z.to_nat (cY p)) (Z.to_nat (cX p)).
Proof.
  intros HE [Hx Hy]. unfold coord_to_cursor, as_usize. rewrite !Z.mod_small by lia. reflexivity.
Qed.

Lemma mods_ok ctl :
  (let mods := 0 in
   let mods := if has_alt ctl then N.lor mods ALT else mods in
   let mods := if has_ctrl ctl then N.lor mods CTRL else mods in
   if has_shift ctl then N.lor mods SHIFT else mods) = mods_of ctl.
Proof.
  cbv zeta. rewrite has_alt_bits, has_ctrl_bits, has_shift_bits. unfold mods_of, alt_held, ctrl_held.
  destruct (N.testbit ctl 0 || N.testbit ctl 1), (N.testbit ctl 2 || N.testbit ctl 3), (N.testbit ctl 4); reflexivity.
Qed.

Lemma wheel_bit fl : negb (N.land fl MOUSE_WHEELED =? 0) = wheel fl.
Proof. change MOUSE_WHEELED with (N.shiftl 1 2). rewrite land_bit. apply negb_involutive. Qed.

(** One record, by the first change. *)
Lemma mouse_event_ok E track p pos b ctl fl p' i :
  (32768 <= Z.of_nat (umax E))%Z -> mouse_ok (MouseRec pos b ctl fl) ->
  (if wheel fl then Val (WReader track p, Some (if wheel_up b then MWheelUp else MWheelDown))
   else if p =? b then Val (WReader track b, if (b =? 0) && negb track then None else Some MMotion)
   else match button_changed p b with Boom => Boom | Val i => Val (WReader track b, i) end)
    = Val (WReader track p', i) ->
  win_mouse_event E (MouseRec pos b ctl fl) (WReader track p) =
    Val (WReader track p', as_event (MouseRec pos b ctl fl) i).
Proof.
  intros HE [Hpos Hb] H. unfold win_mouse_event. cbn [always_track prev_buttons].
  rewrite wheel_bit, (high_word_up b Hb), (coord_ok E pos HE Hpos).
  pose proof (mods_ok ctl) as Hm. cbv zeta in Hm |- *. rewrite Hm. clear Hm. unfold as_event.
  destruct (wheel fl).
  - injection H as <- <-. reflexivity.
  - destruct (p =? b) eqn:Eb.
    + destruct ((b =? 0) && negb track); injection H as <- <-; reflexivity.
    + destruct (button_changed p b) as [i'|] eqn:Eq; [|discriminate H].
      injection H as <- <-. destruct i'; reflexivity.
Qed.

Lemma says_event E track p r p' i :
  (32768 <= Z.of_nat (umax E))%Z -> p < 4294967296 -> mouse_ok r -> says track p r p' i ->
  win_mouse_event E r (WReader track p) = Val (WReader track p', as_event r i) /\ p' < 4294967296.
Proof.
  intros HE Hp Hok H.
  destruct H as [pos b ctl fl Hw|pos ctl fl Hw Hh Ht|pos ctl fl Hw Hh H0 Ht|pos b ctl fl i Hw Hh Hc Hb|pos b ctl fl i Hw Hh Hc Hb];
    (split; [apply mouse_event_ok; auto; rewrite Hw|try exact Hp; apply Hok]).
  - reflexivity.
  - rewrite N.eqb_refl. destruct Ht as [Hn| ->]; [|now rewrite andb_false_r].
    apply N.eqb_neq in Hn. now rewrite Hn.
  - rewrite N.eqb_refl, H0, Ht. reflexivity.
  - assert (Hd : N.testbit p i <> N.testbit b i) by now apply Hc.
    assert (i < 32) by (apply (differ_small p b); auto; apply Hok).
    destruct (N.eqb_spec p b) as [->|_]; [congruence|].
    rewrite (button_changed_first p b i); auto using only_first.
    destruct (N.testbit p i); [congruence|reflexivity].
  - assert (Hd : N.testbit p i <> N.testbit b i) by now apply Hc.
    assert (i < 32) by (apply (differ_small p b); auto; apply Hok).
    destruct (N.eqb_spec p b) as [->|_]; [congruence|].
    rewrite (button_changed_first p b i); auto using only_first.
    destruct (N.testbit p i); [reflexivity|congruence].
Qed.

(** C57, for sequences. *)
Lemma mouse_sequence E track rs : forall p is,
  (32768 <= Z.of_nat (umax E))%Z -> p < 4294967296 -> Forall mouse_ok rs -> says_all track p rs is ->
  exists rd', run_mouse E rs (WReader track p) = Val (rd', map (fun ri => as_event (fst ri) (snd ri)) (combine rs is)).
Proof.
  induction rs as [|r rs IH]; intros p is HE Hp Hok H; inversion H; subst; clear H; cbn [run_mouse].
  - eexists. reflexivity.
  - inversion Hok as [|? ? Hr Hrs]; subst.
    destruct (says_event E track p r p' i) as [He Hp']; auto. rewrite He.
    destruct (IH p' is0) as [rd' ->]; auto. eexists. reflexivity.
Qed.

(** Two changes at once: the second is never reported. *)
Lemma two_changes E track p b pos ctl fl i j :
  (32768 <= Z.of_nat (umax E))%Z -> p < 4294967296 -> mouse_ok (MouseRec pos b ctl fl) ->
  wheel fl = false -> first_change p b i -> i < j -> N.testbit p j <> N.testbit b j ->
  win_mouse_event E (MouseRec pos b ctl fl) (WReader track p) =
    Val (WReader track b,
         as_event (MouseRec pos b ctl fl)
           (Some (if N.testbit p i then MReleased (button_no i) else MPressed (button_no i)))).
Proof.
  intros HE Hp Hok Hw Hf Hij Hd. apply mouse_event_ok; auto. rewrite Hw.
  destruct (N.eqb_spec p b) as [->|_]; [now elim (proj1 Hf)|].
  rewrite (button_changed_first p b i); auto. apply (differ_small p b); auto; [apply Hok|apply Hf].
Qed.

(** Some change exists between different numbers. *)
Lemma first_change_exists p b : p <> b -> exists i, first_change p b i.
Proof.
  intros Hne.
  assert (Hex : exists n, N.testbit p (N.of_nat n) <> N.testbit b (N.of_nat n)).
  { destruct (N.eq_dec (N.lxor p b) 0) as [H0|H0]; [apply N.lxor_eq in H0; contradiction|].
    exists (N.to_nat (N.log2 (N.lxor p b))). rewrite N2Nat.id. apply lxor_differs. now apply N.bit_log2. }
  destruct Hex as [n Hn]. revert Hn.
  induction n as [n IH] using lt_wf_ind. intros Hn.
  destruct (Exists_dec (fun k => N.testbit p (N.of_nat k) <> N.testbit b (N.of_nat k)) (seq 0 n)) as [He|He].
  { intros k. destruct (Bool.bool_dec (N.testbit p (N.of_nat k)) (N.testbit b (N.of_nat k))); [right|left]; auto. }
  - apply Exists_exists in He. destruct He as (k & Hk & Hd). apply in_seq in Hk. apply (IH k); [lia|exact Hd].
  - exists (N.of_nat n). split; [exact Hn|]. intros j Hj.
    destruct (Bool.bool_dec (N.testbit p j) (N.testbit b j)) as [|Hd]; [assumption|]. exfalso. apply He.
    apply Exists_exists. exists (N.to_nat j). split; [apply in_seq; lia|now rewrite N2Nat.id].
Qed.

Lemma high_bits b0 d i : b0 < 65536 -> i < 16 -> N.testbit (b0 + d * 65536) i = N.testbit b0 i.
Proof.
  intros Hb Hi. rewrite <- (N.mod_pow2_bits_low (b0 + d * 65536) 16 i) by exact Hi.
  change (2 ^ 16) with 65536. rewrite N.mod_add by lia. now rewrite N.mod_small by exact Hb.
Qed.

Lemma horizontal_wheel E track pos pos' ctl ctl' b0 d :
  (32768 <= Z.of_nat (umax E))%Z -> b0 < 65536 -> 0 < d < 65536 ->
  (0 <= cX pos < 32768 /\ 0 <= cY pos < 32768)%Z -> (0 <= cX pos' < 32768 /\ 0 <= cY pos' < 32768)%Z ->
  exists k rd', 16 <= k < 32 /\
    let r := MouseRec pos (b0 + d * 65536) ctl MOUSE_HWHEELED in
    let r' := MouseRec pos' b0 ctl' 0 in
    run_mouse E [r; r'] (WReader track b0) =
      Val (rd', [as_event r (Some (MPressed (MOther k))); as_event r' (Some (MReleased (MOther k)))]).
Proof.
  intros HE Hb Hd Hp Hp'.
  destruct (first_change_exists b0 (b0 + d * 65536)) as [k Hk]; [lia|].
  assert (Hk16 : 16 <= k).
  { destruct (N.lt_ge_cases k 16) as [Hlt|]; [|assumption]. destruct Hk as [Hk _]. now rewrite high_bits in Hk. }
  assert (Hk32 : k < 32) by (apply (differ_small b0 (b0 + d * 65536)); [lia|lia|apply Hk]).
  assert (H0 : N.testbit b0 k = false) by (apply (testbit_small b0 16); [exact Hb|exact Hk16]).
  assert (Hbtn : button_no k = MOther k) by (destruct k as [|[[q|q|]|[q|q|]|]]; try reflexivity; lia).
  exists k, (WReader track b0). split; [lia|]. cbv zeta. cbn [run_mouse].
  rewrite (mouse_event_ok E track b0 pos _ ctl _ (b0 + d * 65536) (Some (MPressed (MOther k)))); auto.
  2: { split; [exact Hp|lia]. }
  2: { change (wheel MOUSE_HWHEELED) with false. cbv iota.
       destruct (N.eqb_spec b0 (b0 + d * 65536)); [lia|]. rewrite (button_changed_first _ _ k Hk Hk32), H0, Hbtn. reflexivity. }
  rewrite (mouse_event_ok E track (b0 + d * 65536) pos' b0 ctl' 0 b0 (Some (MReleased (MOther k)))); auto.
  - split; [exact Hp'|lia].
  - change (wheel 0) with false. cbv iota. destruct (N.eqb_spec (b0 + d * 65536) b0); [lia|].
    assert (Hk' : first_change (b0 + d * 65536) b0 k).
    { destruct Hk as [H1 H2]. split; [congruence|]. intros j Hj. symmetry. auto. }
    rewrite (button_changed_first _ _ k Hk' Hk32), Hbtn.
    destruct (N.testbit (b0 + d * 65536) k) eqn:T; [reflexivity|]. destruct Hk as [Hk _]. congruence.
Qed.

(** ** Keys *)
Lemma vk_in vk k : In (vk, k) vk_table -> vk_key vk = Some k.
Proof.
  intros H. cbn in H. repeat (destruct H as [H|H]; [injection H as <- <-; reflexivity|]). destruct H.
Qed.
Lemma vk_other vk : other_vk vk -> vk_key vk = None.
Proof.
  intros H. destruct (vk_key vk) as [k|] eqn:Hk; [|reflexivity]. exfalso. apply H.
  unfold vk_key in Hk.
  repeat (match type of Hk with context [match ?x with _ => _ end] => destruct x end; try discriminate Hk);
    cbn; auto 30.
Qed.

Lemma ctrl_of_unctrl u : 0 < u < 32 -> ctrl (unctrl_lower u) = u.
Proof.
  intros H. assert (G : forall n, (n < 32)%nat -> ctrl (unctrl_lower (N.of_nat n)) = N.of_nat n).
  { intros n Hn. do 32 (destruct n as [|n]; [vm_compute; reflexivity|]). lia. }
  specialize (G (N.to_nat u)). rewrite N2Nat.id in G. apply G. lia.
Qed.

Lemma ctrl_below u : ctrl u < 32.
Proof. unfold ctrl, CTRL_MASK. change 0x1f with (N.ones 5). rewrite N.land_ones. apply N.mod_lt. discriminate. Qed.

Lemma key_record down vk ctl u :
  u < 65536 ->
  (down = false -> key_press_event (KeyRec down vk ctl u) = None) /\
  (forall k, down = true -> In (vk, k) vk_table -> key_press_event (KeyRec down vk ctl u) = Some k) /\
  (down = true -> other_vk vk ->
     (alt_held ctl = true -> key_press_event (KeyRec down vk ctl u) = None) /\
     (u = 0 -> key_press_event (KeyRec down vk ctl u) = None) /\
     (alt_held ctl = false -> ctrl_held ctl = false -> u <> 0 -> scalar u ->
        key_press_event (KeyRec down vk ctl u) = Some (key_from_char u)) /\
     (alt_held ctl = false -> ctrl_held ctl = true -> 0 < u < 32 ->
        exists l, key_press_event (KeyRec down vk ctl u) = Some (KCtrl l) /\ ctrl l = u)).
Proof.
  intros Hu. unfold key_press_event. rewrite has_alt_bits, has_ctrl_bits.
  split; [intros ->; reflexivity|]. split.
  - intros k -> H. cbn [negb]. now rewrite (vk_in _ _ H).
  - intros -> H. cbn [negb]. rewrite (vk_other _ H).
    split; [intros ->; reflexivity|]. split; [intros ->; now destruct (alt_held ctl)|]. split.
    + intros -> -> Hn Hs. apply N.eqb_neq in Hn. rewrite Hn. cbn [negb]. unfold from_u32. now rewrite Hs.
    + intros -> -> Hr. destruct (N.eqb_spec u 0); [lia|]. cbn [negb]. unfold from_u32.
      assert (Hs : is_scalar u = true) by (unfold is_scalar; lia). rewrite Hs.
      eexists. split; [reflexivity|now apply ctrl_of_unctrl].
Qed.

Lemma ctrl_confused vk ctl u :
  other_vk vk -> alt_held ctl = false -> ctrl_held ctl = true -> 32 <= u < 65536 -> scalar u ->
  exists l, key_press_event (KeyRec true vk ctl u) = Some (KCtrl l) /\ ctrl l <> u.
Proof.
  intros H Ha Hc Hu Hs. exists (unctrl_lower u). split.
  - unfold key_press_event. rewrite has_alt_bits, has_ctrl_bits, Ha, Hc, (vk_other _ H). cbn [negb].
    destruct (N.eqb_spec u 0); [lia|]. cbn [negb]. unfold from_u32. now rewrite Hs.
  - pose proof (ctrl_below (unctrl_lower u)). lia.
Qed.

(** ** Typed characters *)
Lemma typed_bmp vk ctl c :
  other_vk vk -> alt_held ctl = false -> ctrl_held ctl = false ->
  32 <= c < 65536 -> c <> 127 -> scalar c -> key_press_event (KeyRec true vk ctl c) = Some (KChar c).
Proof.
  intros H Ha Hc Hr Hn Hs. destruct (key_record true vk ctl c) as (_ & _ & K); [lia|].
  destruct (K eq_refl H) as (_ & _ & K3 & _). rewrite K3; auto; [|lia].
  f_equal. unfold key_from_char.
  destruct (N.eqb_spec c 0x1b); [lia|]. destruct (N.eqb_spec c 0x7f); [lia|].
  destruct (N.eqb_spec c 13); [lia|]. destruct (N.eqb_spec c 10); [lia|]. destruct (N.eqb_spec c 9); [lia|]. cbn.
  destruct (is_ctrl c) eqn:I; [|reflexivity]. unfold is_ctrl, CTRL_MASK in I.
  apply N.eqb_eq in I. change 0x1f with (N.ones 5) in I. rewrite N.land_ones in I.
  assert (c mod 2 ^ 5 < 2 ^ 5) by (apply N.mod_lt; discriminate). change (2 ^ 5) with 32 in *. lia.
Qed.

Lemma surrogates_lost vk ctl u : other_vk vk -> scalar u -> 65536 <= u ->
  Forall (fun w => key_press_event (KeyRec true vk ctl w) = None) (encode_wide [u]).
Proof.
  intros H Hs Hu.
  assert (Hs' : is_scalar u = true) by exact Hs. unfold is_scalar in Hs'.
  cbn. rewrite app_nil_r. unfold utf16_units. destruct (N.ltb_spec u 0x10000); [lia|].
  assert (Hhi : N.shiftr (u - 0x10000) 10 < 1024).
  { rewrite N.shiftr_div_pow2. change (2 ^ 10) with 1024. apply N.div_lt_upper_bound; lia. }
  assert (Hlo : N.land (u - 0x10000) 0x3FF < 1024).
  { change 0x3FF with (N.ones 10). rewrite N.land_ones. apply N.mod_lt. discriminate. }
  assert (G : forall w, 0xD800 <= w < 0xE000 -> key_press_event (KeyRec true vk ctl w) = None).
  { intros w Hw. unfold key_press_event. cbn [negb]. rewrite (vk_other _ H). destruct (has_alt ctl); [reflexivity|].
    destruct (negb (w =? 0)); [|reflexivity]. unfold from_u32.
    assert (E : is_scalar w = false) by (unfold is_scalar; lia). now rewrite E. }
  clear Hs'. constructor; [|constructor; [|constructor]]; apply G; lia.
Qed.

(** ** Timeouts *)
Lemma millis_exact d :
  nanos d < 1000000000 -> secs d * 1000 + nanos d / 1000000 < INFINITE ->
  as_millis (Some d) = Val (secs d * 1000 + nanos d / 1000000).
Proof.
  intros Hn H. unfold as_millis. unfold INFINITE in H.
  assert (nanos d / 1000000 < 1000) by (apply N.div_lt_upper_bound; lia).
  set (m := nanos d / 1000000) in *. clearbody m.
  rewrite (N.mod_small (secs d * 1000)) by lia. rewrite (N.mod_small m) by lia.
  destruct (N.leb_spec 18446744073709551616 (secs d * 1000)); [lia|].
  destruct (N.leb_spec 4294967296 (secs d * 1000 + m)); [lia|reflexivity].
Qed.

Lemma millis_short d ms :
  nanos d < 1000000000 -> 4294967296 <= secs d * 1000 -> as_millis (Some d) = Val ms ->
  ms < secs d * 1000 + nanos d / 1000000.
Proof.
  intros Hn H. unfold as_millis.
  assert (nanos d / 1000000 < 1000) by (apply N.div_lt_upper_bound; lia).
  set (m := nanos d / 1000000) in *. clearbody m.
  destruct (N.leb_spec 18446744073709551616 (secs d * 1000)); [intros X; discriminate X|].
  rewrite (N.mod_small m) by lia.
  assert (secs d * 1000 mod 4294967296 < 4294967296) by (apply N.mod_lt; lia).
  destruct (N.leb_spec 4294967296 (secs d * 1000 mod 4294967296 + m)); [intros X; discriminate X|].
  intros X. injection X as <-. lia.
Qed.

Lemma millis_panics d :
  18446744073709551616 <= secs d * 1000 -> as_millis (Some d) = Boom.
Proof.
  intros H. unfold as_millis. destruct (N.leb_spec 18446744073709551616 (secs d * 1000)); [reflexivity|lia].
Qed.
