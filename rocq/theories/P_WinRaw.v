(** Proofs about when Windows [read_raw] returns (C75). *)
From Verif Require Import Base M_Utf8 S_Utf8 M_Geom M_Signal M_Util M_Input M_Buf S_Buf M_Writer M_Prepare M_Reader
  M_WinWriter M_WinReader S_WinReader P_WinReader.
Local Open Scope nat_scope.

Definition comes (l : list wtick) (s : wsys) : Prop :=
  exists r u, rec_char r = Some u /\ (In r (w_queue s) \/ In (WRec r) l).
Definition measure (l : list wtick) (s : wsys) : nat := length (w_queue s) + length l.

Lemma happens_queue t s : exists q, w_queue (whappens t s) = w_queue s ++ q /\ length q <= 1 /\
  (forall r, t = WRec r -> q = [r]).
Proof.
  assert (N : exists q, w_queue s = w_queue s ++ q /\ length q <= 1).
  { exists []. rewrite app_nil_r. auto. }
  destruct t; cbn [whappens]; try (exists []; rewrite ?app_nil_r; cbn; repeat split; auto; intros; discriminate).
  - exists [r]. repeat split; auto. intros r0 [= <-]. reflexivity.
  - unfold raise_ctrl. destruct (w_regs s); [exists []; rewrite app_nil_r; cbn; repeat split; auto; intros; discriminate|].
    unfold ctrl_handler. destruct (_ || _)%bool; [|exists []; rewrite app_nil_r; cbn; repeat split; auto; intros; discriminate].
    destruct (_ =? _)%N; [exists []; rewrite app_nil_r; cbn; repeat split; auto; intros; discriminate|].
    match goal with |- context [if ?w then with_wqueue _ _ else _] => destruct w end; [exists [wake_record]|exists []; rewrite app_nil_r]; cbn; repeat split; auto; intros; discriminate.
Qed.

Lemma happens_comes t l s : comes (t :: l) s -> comes l (whappens t s).
Proof.
  intros (r & u & Hr & H). exists r, u. split; [exact Hr|]. destruct (happens_queue t s) as (q & Q & _ & F). rewrite Q.
  destruct H as [H|[->|H]]; [left; apply in_or_app; auto| |auto].
  left. apply in_or_app. right. rewrite (F r eq_refl). now left.
Qed.
Lemma happens_measure t l s : measure l (whappens t s) <= measure (t :: l) s.
Proof. unfold measure. destruct (happens_queue t s) as (q & -> & L & _). rewrite app_length. cbn [length]. lia. Qed.

Lemma pass_comes l : forall s, comes l s -> comes (w_time (wpass l s)) (wpass l s) /\ measure (w_time (wpass l s)) (wpass l s) <= measure l s.
Proof.
  induction l as [|t l IH]; intros s H; [split; [exact H|auto]|].
  assert (G : comes (w_time (wpass l (whappens t s))) (wpass l (whappens t s)) /\
     measure (w_time (wpass l (whappens t s))) (wpass l (whappens t s)) <= measure (t :: l) s).
  { destruct (IH _ (happens_comes t l s H)) as [A B]. split; [exact A|]. pose proof (happens_measure t l s). lia. }
  destruct t; try exact G. cbn [wpass]. split; [exact (happens_comes WStep l s H)|]. unfold measure. cbn. lia.
Qed.

Lemma await_comes ms l : forall s, comes l s ->
  match wawait ms l s with
  | (s', XReady) => comes (w_time s') s' /\ measure (w_time s') s' <= measure l s /\ w_queue s' <> []
  | (s', XNever) => False
  | _ => True
  end.
Proof.
  induction l as [|t l IH]; intros s H; cbn [wawait].
  - destruct (w_failing s); [exact I|]. destruct (w_queue s) as [|q0 q] eqn:Q.
    + destruct H as (r & u & _ & [H|H]); [rewrite Q in H|]; destruct H.
    + unfold measure. cbn [with_wtime w_queue w_time]. rewrite Q. split; [exact H|]. split; [auto|discriminate].
  - destruct (w_failing s); [exact I|]. destruct (w_queue s) as [|q0 q] eqn:Q.
    2: { unfold measure. cbn [with_wtime w_queue w_time]. rewrite Q. split; [exact H|]. split; [auto|discriminate]. }
    destruct (match ms with Some 0%N => true | _ => false end); [exact I|].
    assert (G : match wawait ms l (whappens t s) with
      | (s', XReady) => comes (w_time s') s' /\ measure (w_time s') s' <= measure (t :: l) s /\ w_queue s' <> []
      | (s', XNever) => False
      | _ => True end).
    { specialize (IH _ (happens_comes t l s H)). pose proof (happens_measure t l s).
      destruct (wawait ms l (whappens t s)) as [s' [| | |]]; auto. destruct IH as (A & B & D). split; [exact A|]. split; [lia|exact D]. }
    destruct t; try exact G. destruct ms; [exact I|exact G].
Qed.

Lemma take_none room q : 0 < room -> fst (take_chars room q) = [] ->
  snd (take_chars room q) = [] /\ forall r u, In r q -> rec_char r <> Some u.
Proof.
  intros Hr. destruct room as [|room]; [lia|]. clear Hr. induction q as [|r q IH]; cbn [take_chars].
  - intros _. split; [reflexivity|]. intros r u [].
  - destruct (rec_char r) as [v|] eqn:E; [destruct (take_chars room q); discriminate|].
    intros H. destruct (IH H) as [A B]. split; [exact A|]. intros r' u [->|Hin]; [congruence|now apply B].
Qed.

Lemma read_console_comes fuel room : 0 < room -> forall s, comes (w_time s) s -> measure (w_time s) s < fuel ->
  read_console fuel room s <> Blocked.
Proof.
  intros Hr. induction fuel as [|fuel IH]; intros s H Hf; [lia|].
  assert (R : (room =? 0) = false) by (apply Nat.eqb_neq; lia).
  cbn [read_console]. rewrite R. pose proof (await_comes None (w_time s) s H) as A.
  assert (T : snd (wawait None (w_time s) s) <> XTimeout).
  { destruct (await_steps None (w_time s) s) as (l1 & _ & _ & W). intros E. rewrite E in W. now destruct W. }
  destruct (wawait None (w_time s) s) as [s1 [| |e|]]; [|now elim T|discriminate|destruct A].
  destruct A as (A1 & A2 & A3). pose proof (take_none room (w_queue s1) Hr) as K.
  destruct (take_chars room (w_queue s1)) as [[|u us] q]; [|discriminate]. cbn [fst snd] in K.
  destruct (K eq_refl) as [-> K2]. apply IH.
  - destruct A1 as (r & u & E & [X|X]); [elim (K2 r u X E)|]. exists r, u. auto.
  - unfold measure in *. cbn [with_wqueue w_queue w_time length]. destruct (w_queue s1); [now elim A3|]. cbn [length] in A2. lia.
Qed.

Lemma raw_returns len t s : as_millis t <> Boom -> (0 < to_dword len)%N ->
  (exists r u, rec_char r = Some u /\ (In r (w_queue s) \/ In (WRec r) (w_time s))) ->
  win_read_raw len t s <> Blocked.
Proof.
  intros Ht Hl H. change (comes (w_time s) s) in H.
  unfold win_read_raw, win_wait_event, win_get_signal. cbv zeta.
  destruct (pass_comes (w_time s) s H) as [H1 _]. fold (wadvance s) in H1. set (s1 := wadvance s) in *. clearbody s1.
  assert (F : forall s2, comes (w_time s2) s2 ->
     (if negb true then Ret s2 (None, [])
      else match win_take_signal s2 with
         | (s, Some sig) => Ret s (Some (ESignal sig), [])
         | (s, None) =>
             let! (s, us) := read_console (S (length (w_queue (wadvance s)) + length (w_time (wadvance s)))) (N.to_nat (to_dword len)) (wadvance s) in
             match us with
             | [] => Ret s (None, [])
             | _ => Ret s (Some (ERaw (length us)), us)
             end
         end : wsres (option event * list N)) <> Blocked).
  { intros s2 H2. cbn [negb]. unfold win_take_signal. cbv zeta. destruct (win_conv_signal _); [discriminate|].
    destruct (pass_comes (w_time s2) s2 H2) as [H3 _]. fold (wadvance s2) in H3. set (s3 := wadvance s2) in *. clearbody s3.
    assert (H3' : comes (w_time (with_wlast NO_SIGNAL s3)) (with_wlast NO_SIGNAL s3)) by exact H3.
    set (s4 := with_wlast NO_SIGNAL s3) in *. clearbody s4.
    destruct (pass_comes (w_time s4) s4 H3') as [H5 _]. fold (wadvance s4) in H5. set (s5 := wadvance s4) in *. clearbody s5.
    pose proof (read_console_comes (S (length (w_queue s5) + length (w_time s5))) (N.to_nat (to_dword len)) ltac:(lia) s5 H5 ltac:(unfold measure; lia)) as R.
    destruct (read_console _ _ s5) as [s6 us|s6 e| |]; cbn [obind]; try discriminate; [destruct us; discriminate|congruence]. }
  destruct (win_conv_signal (w_last s1)); [apply F; exact H1|].
  destruct (as_millis t) as [ms|]; [|congruence]. unfold wait_for_single_object. cbv zeta.
  destruct (pass_comes (w_time s1) s1 H1) as [H2 _]. fold (wadvance s1) in H2. set (s2 := wadvance s1) in *. clearbody s2.
  pose proof (await_comes (if (ms =? INFINITE)%N then None else Some ms) (w_time s2) s2 H2) as A.
  destruct (wawait _ (w_time s2) s2) as [s3 [| |e|]]; cbn [obind]; try discriminate; [|destruct A].
  apply F, A.
Qed.
