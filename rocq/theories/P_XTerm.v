(** The names of xterms (C69). *)
From Coq Require Import String.
From Verif Require Import Base M_Utf8 S_Utf8 M_Geom M_Seq S_Seq P_Seq M_Signal M_Util M_Input S_Input P_Input M_Writer
  M_Prepare M_Reader M_Keys S_Keys P_Keys2 S_XTerm.
Local Open Scope N_scope.

Lemma is_xterm_spec name : is_xterm name = true <-> xterm_name name.
Proof.
  unfold is_xterm, xterm_name. change (ascii_of "xterm") with [120; 116; 101; 114; 109].
  change (ascii_of "xterm-") with ([120; 116; 101; 114; 109] ++ [45]).
  rewrite orb_true_iff, starts_with_spec. unfold is_prefix.
  destruct (list_eq_dec N.eq_dec name [120; 116; 101; 114; 109]) as [->|H]; split; intros [X|X]; auto; congruence.
Qed.

Lemma key_map_of_entry caps name : exists m, sequences caps name = Some m /\ key_map m /\
  forall q v, In (q, v) (sm_sequences m) <->
    (xterm_name name /\ q = XTERM_MOUSE_INTRO /\ v = XTermMouse) \/
    (~ (xterm_name name /\ q = XTERM_MOUSE_INTRO) /\ exists k, meaning caps q = Some k /\ v = SKey k).
Proof.
  destruct (sequences_map caps name) as (m & H1 & H2 & H3). exists m. split; [exact H1|]. split; [exact H2|].
  intros q v. rewrite H3. assert (X := is_xterm_spec name). destruct (is_xterm name).
  - destruct X as [X _]. specialize (X eq_refl). destruct (list_eq_dec N.eq_dec q XTERM_MOUSE_INTRO) as [->|Hq].
    + split; [intros [= <-]; auto|]. intros [(_ & _ & ->)|(H & _)]; [reflexivity|]. destruct H; auto.
    + destruct (meaning caps q) as [k|]; cbn [option_map]; split.
      * intros [= <-]. right. split; [tauto|]. now exists k.
      * intros [(_ & Q & _)|(_ & k' & [= <-] & ->)]; [contradiction|reflexivity].
      * discriminate.
      * intros [(_ & Q & _)|(_ & k' & Q & _)]; [contradiction|discriminate].
  - assert (Y : ~ xterm_name name) by (intros Q; apply X in Q; discriminate Q).
    destruct (meaning caps q) as [k|]; cbn [option_map]; split.
    + intros [= <-]. right. split; [tauto|]. now exists k.
    + intros [(Q & _)|(_ & k' & [= <-] & ->)]; [contradiction|reflexivity].
    + discriminate.
    + intros [(Q & _)|(_ & k' & Q & _)]; [contradiction|discriminate].
Qed.

Lemma read_key_of_entry db name : exists m, terminal_sequences (fun c => db (cap_name c)) name = Some m /\
  forall C t s k q rest,
    sends db k q -> q <> [] -> is_ascii q -> nothing_longer db q (q ++ rest) ->
    (xterm_name name -> ~ is_prefix XTERM_MOUSE_INTRO (q ++ rest)) ->
    inbuf s = q ++ rest ->
    read_event C m t s = Ret (with_inbuf rest (incap s) s) (Some (EKey k)).
Proof.
  destruct (read_described db name) as (m & H1 & H2). exists m. split; [exact H1|].
  intros C t s k q rest A1 A2 A3 A4 A5 A6. apply (H2 C t s k q rest A1 A2 A3 A4); [|exact A6]. intros X. apply A5, is_xterm_spec, X.
Qed.
