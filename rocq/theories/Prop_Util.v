(** Property theorems for util.rs, [Key::from] and UTF-8 (C08-C10, C42). *)
From Verif Require Import Base M_Utf8 S_Utf8 P_Utf8 M_Util P_Util.
Local Open Scope N_scope.

(** C08: [is_ctrl] is exactly U+0000..U+001F; [ctrl] always yields a control
    character; on control characters both [unctrl] functions are undone by
    [ctrl] and give the caret letter; [unctrl_lower] is never upper case; [ctrl]
    ignores the case of ASCII letters. *)
Theorem C08_ctrl_unctrl :
  forall c : N,
    (is_ctrl c = true <-> c <= 0x1f) /\
    is_ctrl (ctrl c) = true /\
    (is_ctrl c = true -> ctrl (unctrl_upper c) = c /\ ctrl (unctrl_lower c) = c) /\
    (is_ctrl c = true -> unctrl_upper c = c + 64 /\
        (unctrl_lower c = c + 96 \/ unctrl_lower c = c + 64) /\
        (unctrl_lower c = c + 96 <-> 1 <= c <= 26)) /\
    ~ (65 <= unctrl_lower c <= 90) /\
    (65 <= c <= 90 -> ctrl c = ctrl (c + 32) /\ ctrl c = c - 64).
Proof.
  exact (fun c => conj (is_ctrl_spec c) (conj (ctrl_is_ctrl c) (conj (unctrl_roundtrip c)
           (conj (unctrl_range c) (conj (unctrl_lower_not_upper c) (ctrl_case c)))))).
Qed.
Print Assumptions C08_ctrl_unctrl.

Example C08_example :
  (ctrl 99, unctrl_upper 3, unctrl_lower 3, is_ctrl 0x1f, is_ctrl 0x103, ctrl 0x1F603)
  = (3, 67, 99, true, false, 3).
Proof. vm_compute. reflexivity. Qed.

(** C09: [prefixes] yields, for k = 1, 2, ..., the first k characters. *)
Theorem C09_prefixes_enumerate :
  forall cs : list N, Forall scalar cs ->
    prefixes (utf8s cs) = map (fun k => Some (utf8s (firstn k cs))) (seq 1 (length cs)).
Proof. exact prefixes_spec. Qed.
Print Assumptions C09_prefixes_enumerate.

(** C09, as a set: exactly the non-empty prefixes that are themselves strings;
    slicing never panics. *)
Theorem C09_prefixes_exact :
  forall s p : bytes, valid_utf8 s ->
    (In (Some p) (prefixes s) <-> p <> [] /\ (exists r, s = p ++ r) /\ valid_utf8 p) /\
    ~ In None (prefixes s).
Proof. exact prefixes_exact. Qed.
Print Assumptions C09_prefixes_exact.

(** C09: shortest first, strictly increasing. *)
Theorem C09_prefixes_increasing :
  forall cs : list N, Forall scalar cs ->
    forall i j p q, (i < j)%nat -> nth_error (prefixes (utf8s cs)) i = Some (Some p) ->
      nth_error (prefixes (utf8s cs)) j = Some (Some q) -> (length p < length q)%nat.
Proof. exact prefixes_lengths. Qed.
Print Assumptions C09_prefixes_increasing.

Example C09_example :
  let s := utf8s [97; 0xE9; 0x20AC; 0x1F600] in
  map (option_map (@length N)) (prefixes s) = [Some 1; Some 3; Some 6; Some 10]%nat /\
  Forall scalar [97; 0xE9; 0x20AC; 0x1F600].
Proof. split; [vm_compute; reflexivity|]. repeat constructor. Qed.

(** C10: the classification of characters into keys. *)
Theorem C10_key_classification :
  forall c : N,
    (c = 0x1b /\ key_from_char c = KEscape) \/
    (c = 0x7f /\ key_from_char c = KBackspace) \/
    ((c = 13 \/ c = 10) /\ key_from_char c = KEnter) \/
    (c = 9 /\ key_from_char c = KTab) \/
    (c <= 0x1f /\ c <> 0x1b /\ c <> 13 /\ c <> 10 /\ c <> 9 /\
       exists l, key_from_char c = KCtrl l /\ ctrl l = c /\ ~ (65 <= l <= 90)) \/
    (0x1f < c /\ c <> 0x7f /\ key_from_char c = KChar c).
Proof. exact key_cases. Qed.
Print Assumptions C10_key_classification.

(** C10: only CR and LF share a key. *)
Theorem C10_key_injective :
  forall c d : N, key_from_char c = key_from_char d ->
    c = d \/ ((c = 13 \/ c = 10) /\ (d = 13 \/ d = 10)).
Proof. exact key_injective. Qed.
Print Assumptions C10_key_injective.

Example C10_example :
  map key_from_char [3; 0; 10; 13; 0x1f; 97; 0x1F600]
  = [KCtrl 99; KCtrl 64; KEnter; KEnter; KCtrl 95; KChar 97; KChar 0x1F600].
Proof. vm_compute. reflexivity. Qed.

(** C42: [from_utf8] accepts exactly concatenated encodings of scalar values; on
    other input it stops at the longest such prefix, and reports a missing tail
    ([error_len() == None]) exactly when the rest is a truncated character. *)
Theorem C42_from_utf8_exact :
  forall v : bytes,
  match from_utf8 v with
  | UOk => valid_utf8 v
  | UErr n e =>
      ~ valid_utf8 v /\ (n < length v)%nat /\ valid_utf8 (firstn n v) /\
      (forall p r, v = p ++ r -> valid_utf8 p -> (length p <= n)%nat) /\
      (e = None <-> truncated_char (skipn n v))
  end.
Proof. exact from_utf8_spec. Qed.
Print Assumptions C42_from_utf8_exact.

(** C42: decoding inverts encoding, for every scalar value and continuation. *)
Theorem C42_decode_encode :
  forall (c : N) (r : bytes), scalar c -> next_char (utf8 c ++ r) = Some (c, length (utf8 c)).
Proof. exact (fun c r H => eq_trans (next_char_utf8 c r H) (f_equal (fun n => Some (c, n)) (eq_sym (utf8_length c)))). Qed.
Print Assumptions C42_decode_encode.

Example C42_example :
  from_utf8 [97; 0xE2; 0x82; 0xAC] = UOk /\
  from_utf8 [97; 0xE2; 0x82] = UErr 1 None /\        (* truncated *)
  from_utf8 [97; 0xED; 0xA0; 0x80] = UErr 1 (Some 1%nat) /\  (* surrogate *)
  from_utf8 [0xC0; 0x80] = UErr 0 (Some 1%nat) /\    (* overlong *)
  from_utf8 [0xF4; 0x90; 0x80; 0x80] = UErr 0 (Some 1%nat).  (* above U+10FFFF *)
Proof. repeat split. Qed.
