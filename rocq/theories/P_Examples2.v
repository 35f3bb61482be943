(** Proofs about the example programs (C140): the screen. *)
From Verif Require Import Base M_Utf8 M_Geom S_Geom M_Attr M_Buf S_Buf M_Writer S_Tty S_Writer M_Screen S_Screen P_Screen2 M_Api M_ScreenApi S_Canvas P_Canvas M_Locks S_Locks S_Together
  S_Loop S_CursorMode S_Program P_Program2 S_WinProgram M_Examples S_Examples P_Examples.

Lemma draws_app E l1 : forall l2 k, draws E (l1 ++ l2) k = draws E l2 (draws E l1 k).
Proof. induction l1 as [|m l1 IH]; intros l2 k; cbn; auto. Qed.

Section Order.
  Variables (E : env) (kids : list kid) (k : canvas).
  Hypothesis Hb : brush k = Attrs None None 0%N.
  Hypothesis Ht : Forall (plain_text E) kids.
  Hypothesis Ho : own_lines kids.
  Hypothesis Hk : Forall (has_room (ksize k)) kids.

  (** One piece of the order. *)
  Definition piece_ok (y : nat * list mark) : Prop :=
    (fst y = 0 /\ exists sz, snd y = [Fitted sz] /\ Forall (has_room sz) kids) \/
    (exists i d x, fst y = S i /\ nth_error kids i = Some d /\ In x (kvalues d) /\ a_round d (snd y) x).

  Definition now (o : list (nat * list mark)) : canvas := marked E (concat (map snd o)) k.
  Definition is_round (y : nat * list mark) : Prop := fst y <> 0.

  Lemma own i j d e : nth_error kids i = Some d -> nth_error kids j = Some e -> kline d = kline e -> i = j.
  Proof.
    intros H1 H2 H. apply (proj1 (NoDup_nth_error (map kline kids)) Ho).
    - rewrite map_length. apply nth_error_Some. congruence.
    - rewrite !nth_error_map, H1, H2. cbn. congruence.
  Qed.

  Lemma order_inv o : Forall piece_ok o ->
    brush (now o) = Attrs None None 0%N /\ Forall (has_room (ksize (now o))) kids /\
    (forall i d b p x, nth_error kids i = Some d -> done_by (S i) o = b ++ [p] -> In x (kvalues d) -> a_round d p x ->
       forall j q, nth_error (label d x) j = Some q -> ink (now o) (kline d) j = q) /\
    (forall l c, elsewhere kids l c -> ink (now o) l c = ink k l c \/ ink (now o) l c = empty_ink) /\
    (Forall is_round o -> ksize (now o) = ksize k /\ (forall l c, elsewhere kids l c -> ink (now o) l c = ink k l c) /\
       (o <> [] -> pen (now o) = Cursor 0 0 /\ last_shown E (concat (map snd o)) k None = Some (now o) /\ sent_all (concat (map snd o)) false = true)).
  Proof.
    induction o as [|[j p] o IH] using rev_ind; intros H.
    - cbn. split; [exact Hb|]. split; [exact Hk|]. split; [intros i d [|] p x _ X; discriminate X|]. split; [auto|].
      intros _. split; [reflexivity|]. split; [auto|]. intros []; reflexivity.
    - apply Forall_app in H. destruct H as [H Hy]. inversion Hy as [|? ? Hp _]; subst. destruct (IH H) as (B & R & L & N & Q). clear IH.
      assert (En : now (o ++ [(j, p)]) = marked E p (now o)).
      { unfold now. rewrite map_app, concat_app, marked_app. cbn [map snd concat]. now rewrite app_nil_r. }
      rewrite En. destruct Hp as [(Hj & sz & Hp & Hr)|(i & d & x & Hj & Hd & Hx & Hp)]; cbn [fst snd] in Hj, Hp; subst j.
      + subst p. cbn [marked]. cbn [refit ksize brush pen ink]. split; [exact B|]. split; [exact Hr|].
        split; [|split].
        * intros i d b q x Hd Hi Hx Hq j y Hy'.
          assert (Hi' : done_by (S i) o = b ++ [q]).
          { rewrite <- Hi. unfold done_by. rewrite filter_app, map_app. cbn. now rewrite app_nil_r. }
          destruct (proj1 (Forall_forall _ _) R d (nth_error_In _ _ Hd)) as [R1 R2]. specialize (R2 x Hx).
          assert (Hj : j < length (label d x)) by (apply nth_error_Some; congruence).
          rewrite (proj2 (Nat.ltb_lt _ _) R1), (proj2 (Nat.ltb_lt j (columns (ksize (now o))))) by lia. cbn [andb]. eapply L; eauto.
        * intros l c Hl. destruct ((l <? _) && (c <? _)); [now apply N|now right].
        * intros Hf. apply Forall_app in Hf. destruct Hf as [_ Hf]. inversion Hf as [|? ? Hf0 _]. destruct (Hf0 eq_refl).
      + rewrite (marked_round E d p x (now o) Hp).
        assert (Hd' := nth_error_In _ _ Hd).
        destruct (proj1 (Forall_forall _ _) Ht d Hd') as (T1 & T2 & T3 & T4).
        destruct (proj1 (Forall_forall _ _) R d Hd') as [R1 R2].
        assert (Rx : forall y, In y (kvalues d) -> let k' := draws E (round_calls d y) (now o) in
          ksize k' = ksize (now o) /\ brush k' = Attrs None None 0%N /\ pen k' = Cursor 0 0 /\
          forall l c, ink k' l c = if l =? kline d then match nth_error (label d y) c with Some q => q | None => ink (now o) l c end else ink (now o) l c).
        { intros y Y. apply round_draws; auto. exact (proj1 (Forall_forall _ _) T4 y Y). }
        destruct (Rx x Hx) as (K1 & K2 & K3 & K4). cbv zeta in *.
        set (k' := draws E (round_calls d x) (now o)) in *.
        assert (Hl : forall l c, elsewhere kids l c -> ink k' l c = ink (now o) l c).
        { intros l c Hl. rewrite K4. destruct (Nat.eqb_spec l (kline d)) as [->|]; [|reflexivity].
          destruct (nth_error (label d x) c) as [q|] eqn:Eq; [|reflexivity]. assert (c < length (label d x)) by (apply nth_error_Some; congruence).
          specialize (Hl d x Hd' Hx eq_refl). lia. }
        split; [exact K2|]. split; [rewrite K1; exact R|]. split; [|split].
        * intros i' d' b q y Hd2 Hi Hx' Hq j z Hz.
          unfold done_by in Hi. rewrite filter_app, map_app in Hi. cbn [filter fst] in Hi. rewrite K4.
          destruct (Nat.eqb_spec (S i) (S i')) as [Ei|Ei].
          -- injection Ei as <-. rewrite Hd in Hd2. injection Hd2 as <-. cbn [map snd] in Hi. apply app_inj_tail in Hi. destruct Hi as [_ <-].
             (* the same piece *)
             rewrite <- K4. unfold k'. rewrite <- (marked_round E d p x (now o) Hp), (marked_round E d p y (now o) Hq).
             destruct (Rx y Hx') as (_ & _ & _ & K5). rewrite K5, Nat.eqb_refl, Hz. reflexivity.
          -- cbn [map] in Hi. rewrite app_nil_r in Hi.
             destruct (Nat.eqb_spec (kline d') (kline d)) as [El|_]; [|eapply L; eauto].
             destruct Ei. f_equal. exact (own i i' d d' Hd Hd2 (eq_sym El)).
        * intros l c Hel. rewrite (Hl l c Hel). now apply N.
        * intros Hf. apply Forall_app in Hf. destruct Hf as [Hf _]. destruct (Q Hf) as (Q1 & Q2 & _).
          split; [congruence|]. split; [intros l c Hel; rewrite (Hl l c Hel); now apply Q2|]. intros _. split; [exact K3|].
          rewrite map_app, concat_app, last_shown_app, sent_all_app. cbn [map snd concat]. rewrite app_nil_r.
          assert (Em := marked_round E d p x (now o) Hp). fold k' in Em.
          destruct Hp as (xs & -> & _). rewrite last_shown_app, sent_all_app. cbn [last_shown sent_all]. split; [|reflexivity].
          rewrite marked_app in Em. cbn [marked] in Em. unfold now in Em. rewrite Em. reflexivity.
  Qed.
End Order.

(** The pieces of the threads. *)
Lemma pieces_ok n kids order : (forall i, did None (nth i (main_task n :: map draw_task kids) Finish) (done_by i order)) ->
  (forall sz, In (Fitted sz) (concat (map snd order)) -> Forall (has_room sz) kids) ->
  Forall (piece_ok kids) order /\
  (forall i d, nth_error kids i = Some d -> Forall2 (a_round d) (done_by (S i) order) (kvalues d)).
Proof.
  intros H Hs.
  assert (A : forall i d, nth_error kids i = Some d -> Forall2 (a_round d) (done_by (S i) order) (kvalues d)).
  { intros i d Hd. apply did_rounds. specialize (H (S i)). cbn [nth] in H.
    rewrite (nth_error_nth _ _ Finish (map_nth_error draw_task _ _ Hd)) in H. exact H. }
  split; [|exact A]. apply Forall_forall. intros [j p] Hy.
  assert (Hi : In p (done_by j order)).
  { unfold done_by. apply in_map_iff. exists (j, p). split; [reflexivity|]. apply filter_In. split; [exact Hy|]. apply Nat.eqb_refl. }
  destruct j as [|i]; cbn [fst snd].
  - left. split; [reflexivity|]. specialize (H 0). cbn [nth] in H. apply did_main in H.
    destruct (proj1 (Forall_forall _ _) H p Hi) as (sz & ->). exists sz. split; [reflexivity|]. apply Hs. apply in_concat. exists [Fitted sz].
    split; [|now left]. apply in_map_iff. exists (0, [Fitted sz]). auto.
  - right. destruct (nth_error kids i) as [d|] eqn:Hd.
    + specialize (A i d Hd).
      assert (X : exists x, In x (kvalues d) /\ a_round d p x).
      { clear - A Hi. induction A as [|q x l l' Hq _ IH]; [destruct Hi|]. destruct Hi as [->|Hi]; [exists x; split; [now left|exact Hq]|].
        destruct (IH Hi) as (y & Y1 & Y2). exists y. split; [now right|exact Y2]. }
      destruct X as (x & X1 & X2). exists i, d, x. auto.
    + specialize (H (S i)). cbn [nth] in H. apply nth_error_None in Hd. rewrite nth_overflow in H by now rewrite map_length.
      assert (E0 : done_by (S i) order = []) by (inversion H; reflexivity). rewrite E0 in Hi. destruct Hi.
Qed.

(** All together. *)
Lemma lines_shown E kids k n order : brush k = Attrs None None 0%N -> Forall (plain_text E) kids -> own_lines kids -> Forall (has_room (ksize k)) kids ->
  (forall i, did None (nth i (main_task n :: map draw_task kids) Finish) (done_by i order)) ->
  (forall sz, In (Fitted sz) (concat (map snd order)) -> Forall (has_room sz) kids) ->
  let l := concat (map snd order) in
  let k' := marked E l k in
  shows_latest kids k' /\
  (forall l c, elsewhere kids l c -> ink k' l c = ink k l c \/ ink k' l c = empty_ink) /\
  (one_size l -> ksize k' = ksize k /\ (forall l c, elsewhere kids l c -> ink k' l c = ink k l c) /\
    ((exists d, In d kids /\ kvalues d <> []) -> pen k' = Cursor 0 0 /\ last_shown E l k None = Some k' /\ sent_all l false = true)).
Proof.
  intros Hb Ht Ho Hk Hd Hs. cbv zeta.
  destruct (pieces_ok n kids order Hd Hs) as [P1 P2].
  destruct (order_inv E kids k Hb Ht Ho Hk order P1) as (_ & _ & L & N & Q). unfold now in *.
  split; [|split; [exact N|]].
  - intros d x Hi (b & Hb') j q Hq. apply In_nth_error in Hi. destruct Hi as (i & Hi). assert (A := P2 i d Hi). rewrite Hb' in A.
    apply Forall2_app_inv_r in A. destruct A as (l1 & l2 & _ & A & E2). inversion A as [|p y l3 l4 A1 A2]; subst. inversion A2; subst.
    apply (L i d l1 p x Hi E2); auto. rewrite Hb'. apply in_or_app. right. now left.
  - intros H1. assert (Hr : Forall is_round order).
    { apply Forall_forall. intros [j p] Hy. destruct (proj1 (Forall_forall _ _) P1 _ Hy) as [(_ & sz & Hp & _)|(i & d & x & Hj & _)]; unfold is_round; cbn [fst snd] in *; [|lia].
      destruct (H1 sz). apply in_concat. exists p. split; [apply in_map_iff; exists (j, p); auto|]. rewrite Hp. now left. }
    destruct (Q Hr) as (Q1 & Q2 & Q3). split; [exact Q1|]. split; [exact Q2|]. intros (d & Hi & Hv). apply Q3. intros ->.
    apply In_nth_error in Hi. destruct Hi as (i & Hi). assert (A := P2 i d Hi). cbn in A. inversion A as [E0|]. now destruct Hv.
Qed.

(** ** The programs follow the rules *)
Lemma sketch_follows b ms k : follows b None (Some OfScreen) k -> follows b None (Some OfScreen) (sketch ms k).
Proof. intros H. induction ms as [|m ms IH]; [exact H|]. cbn. split; [reflexivity|]. intros _. exact IH. Qed.
Lemma draw_follows b d : follows b None None (draw_task d).
Proof.
  unfold draw_task. induction (kvalues d) as [|x vs IH]; [cbn; repeat split|]. cbn [fold_right]. unfold draw_round at 1.
  split; [reflexivity|]. intros r. apply sketch_follows. cbn. split; [reflexivity|]. intros a. split; [reflexivity|]. intros _. destruct a; try exact IH; cbn; auto.
Qed.
Lemma until_follows b n : follows b (Some OfScreen) None (until_q n).
Proof.
  assert (F : follows b (Some OfScreen) None (Call SRDrop (fun _ => Finish))) by (cbn; repeat split).
  induction n as [|n IH]; cbn [until_q]; [exact F|]. split; [destruct b; cbn; auto|]. intros [|e| |sz|c|]; cbn [read_guard_after write_guard_after]; auto. destruct (c =? 113)%N; auto.
Qed.
Lemma main_follows b n : follows b None None (main_task n).
Proof. split; [cbn; auto|]. intros r. apply until_follows. Qed.

Lemma sketch_draws T ms k : Forall T ms -> drawing_program T k -> drawing_program T (sketch ms k).
Proof. intros H Hk. induction H as [|m ms Hm _ IH]; [exact Hk|]. cbn. split; [eauto|]. intros _. exact IH. Qed.
Lemma draw_draws T d : (forall x, In x (kvalues d) -> Forall T (round_calls d x)) -> drawing_program T (draw_task d).
Proof.
  unfold draw_task. induction (kvalues d) as [|x vs IH]; intros H; [exact I|]. cbn [fold_right]. unfold draw_round at 1.
  split; [exact I|]. intros _. apply sketch_draws; [apply H; now left|]. split; [exact I|]. intros r. split; [exact I|]. intros _.
  assert (D := IH (fun y Y => H y (or_intror Y))). destruct r; try exact I; exact D.
Qed.
Lemma main_draws T n : drawing_program T (main_task n).
Proof.
  split; [exact I|]. intros _. induction n as [|n IH]; cbn [until_q]; [split; [exact I|]; intros _; exact I|].
  split; [exact I|]. intros [|e| |sz|c|]; try exact IH; [split; [exact I|]; intros _; exact I|]. destruct (c =? 113)%N; [split; [exact I|]; intros _; exact I|exact IH].
Qed.
Lemma draws_screen E p : drawing_program (fun m => no_wide E (method_text m)) p -> screen_program E p.
Proof. induction p as [|c k IH]; [auto|]. intros [H1 H2]. split; [exact H1|]. intros r. apply IH, H2. Qed.

Lemma narrow_text E s : Forall (one_column E) s -> no_wide E s.
Proof. intros H. refine (Forall_impl _ _ H). intros c (W & _) [_ X]. congruence. Qed.
Lemma narrow_round E d x : plain_text E d -> In x (kvalues d) -> Forall (fun m => no_wide E (method_text m)) (round_calls d x).
Proof.
  intros (T1 & T2 & T3 & T4) Hx. assert (Hx' := narrow_text E _ (proj1 (Forall_forall _ _) T4 x Hx)).
  assert (Hn : no_wide E []) by constructor.
  unfold round_calls. do 6 (apply Forall_cons; [cbn [method_text]; first [exact Hn|now apply narrow_text]|]).
  apply Forall_cons; [|apply Forall_cons; [exact Hn|apply Forall_nil]].
  cbn [method_text concat]. rewrite app_nil_r. apply Forall_app. split; [now apply narrow_text|]. apply Forall_app. split; [exact Hx'|].
  constructor; [|constructor]. intros [(_ & _ & X & _) _]. now destruct X.
Qed.
