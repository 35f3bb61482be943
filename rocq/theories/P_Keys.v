(** Proofs about the keys of a terminfo entry. *)
From Coq Require Import String.
From Verif Require Import Base M_Utf8 S_Utf8 M_Geom M_Seq S_Seq M_Signal M_Util M_Input S_Input P_Input M_Keys S_Keys.
Local Open Scope N_scope.

Definition caps_of (db : string -> option bytes) : list (option bytes * key) :=
  map (fun ck => (db (cap_name (fst ck)), snd ck)) key_caps.

Lemma caps_described db : caps_of db = map (fun nk => (db (fst nk), snd nk)) described.
Proof. reflexivity. Qed.

Lemma meaning_in caps q k : meaning caps q = Some k -> In (Some q, k) caps.
Proof.
  induction caps as [|[[s|] k'] caps IH]; cbn [meaning]; [discriminate| |].
  - destruct (meaning caps q) as [k0|]; [intros H; right; apply IH; exact H|].
    destruct (list_eq_dec N.eq_dec s q) as [->|]; [|discriminate].
    destruct (forallb _ q); [|discriminate]. intros H. injection H as <-. now left.
  - destruct (meaning caps q) as [k0|]; [intros H; right; apply IH; exact H|discriminate].
Qed.

Lemma meaning_some caps q k : is_ascii q -> In (Some q, k) caps -> (forall k', In (Some q, k') caps -> k' = k) ->
  meaning caps q = Some k.
Proof.
  intros Ha. assert (Hf : forallb (fun b => b <? 128) q = true).
  { apply forallb_forall. intros b Hb. unfold is_ascii in Ha. rewrite Forall_forall in Ha. specialize (Ha b Hb). lia. }
  induction caps as [|[s k'] caps IH]; intros Hi Hu; [destruct Hi|]. cbn [meaning].
  destruct (meaning caps q) as [k0|] eqn:Em.
  - f_equal. apply Hu. right. now apply meaning_in.
  - destruct Hi as [Hi|Hi].
    + injection Hi as -> ->. destruct (list_eq_dec N.eq_dec q q) as [_|n]; [|now destruct n]. now rewrite Hf.
    + exfalso. assert (X : None = Some k) by (apply IH; [exact Hi|intros k1 H1; apply Hu; now right]). discriminate X.
Qed.

Lemma caps_in db q k : In (Some q, k) (caps_of db) <-> exists name, In (name, k) described /\ db name = Some q.
Proof.
  rewrite caps_described, in_map_iff. split.
  - intros ([n k'] & H & Hi). cbn [fst snd] in H. injection H as H1 H2. subst k'. now exists n.
  - intros (n & Hi & H). exists (n, k). cbn [fst snd]. now rewrite H.
Qed.

Lemma terminal_keys db name : exists m, terminal_sequences (fun c => db (cap_name c)) name = Some m /\ key_map m /\
  forall k q rest, sends db k q -> q <> [] -> is_ascii q -> nothing_longer db q (q ++ rest) ->
    (is_xterm name = true -> ~ is_prefix XTERM_MOUSE_INTRO (q ++ rest)) ->
    longest m (q ++ rest) q (SKey k).
Proof.
  destruct (sequences_map (caps_of db) name) as (m & E & Hm & Hin). exists m. split; [exact E|]. split; [exact Hm|].
  intros k q rest ((n & Hn & Hq) & Hu) Hne Ha Hl Hx.
  assert (Hmean : meaning (caps_of db) q = Some k).
  { apply meaning_some; [exact Ha|apply caps_in; eauto|]. intros k' Hk. apply caps_in in Hk. destruct Hk as (n' & H1 & H2). eauto. }
  split.
  - split; [|split; [exact Hne|now exists rest]]. apply Hin. rewrite Hmean. destruct (is_xterm name) eqn:Ex; [|reflexivity].
    destruct (list_eq_dec N.eq_dec q XTERM_MOUSE_INTRO) as [H|]; [|reflexivity].
    exfalso. apply (Hx eq_refl). rewrite <- H. now exists rest.
  - intros q' v' (H1 & _ & H2). apply Hin in H1.
    assert (X : option_map SKey (meaning (caps_of db) q') = Some v').
    { destruct (is_xterm name) eqn:Ex; [|exact H1]. destruct (list_eq_dec N.eq_dec q' XTERM_MOUSE_INTRO) as [H|]; [|exact H1].
      exfalso. apply (Hx eq_refl). now rewrite <- H. }
    destruct (meaning (caps_of db) q') as [k'|] eqn:Em; [|discriminate X]. apply meaning_in in Em. apply caps_in in Em.
    destruct Em as (n' & H3 & H4). eapply Hl; eauto.
Qed.
