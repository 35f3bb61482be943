(** Property theorems for what is typed and what is read (C98). *)
From Verif Require Import Base M_Utf8 S_Utf8 M_Geom M_Seq S_Seq M_Signal M_Util M_Input S_Input P_Input M_Writer S_Writer S_Emu
  M_Prepare M_Reader S_Prepare S_Reader P_Prepare P_Reader P_Reader2 P_Reader3 Prop_Input Prop_Prepare S_Typing P_Typing.
Local Open Scope N_scope.

(** C98: a program that calls [read_event] again and again gets exactly the events of what
    the user did, in order, and uses up the input. *)
Theorem C98_typed_is_read :
  forall C m, key_map m -> (forall c n, (n <= grow C c n)%nat) ->
  forall s l, calm s -> inbuf s = [] -> arriving m [] (portions s) l ->
    exists n s' es, rrun C m (repeat (RRead None) n) s = Some (s', map YEvent es) /\
      somes es = map heard l /\ (length l <= n <= length l + length (portions s))%nat /\ S_Reader.stream s' = [] /\ calm s'.
Proof.
  exact (fun C m Hm Hg s l Hc Hi Ha => typed_is_read C m Hm Hg (portions s) [] l Ha (or_introl eq_refl) s Hc Hi eq_refl).
Qed.
Print Assumptions C98_typed_is_read.

(** The portions are legible if no sequence of the key map begins another and no character
    typed begins one ... *)
Theorem C98_unambiguous_is_legible :
  forall m, key_map m -> unambiguous m -> forall l rest, Forall (ordinary m) l -> legible m l rest.
Proof. exact (fun m Hm Hu l rest => ordinary_legible m Hm l rest Hu). Qed.
Print Assumptions C98_unambiguous_is_legible.

(** ... except that Escape may come at the end of a portion. *)
Theorem C98_escape_at_the_end :
  forall m, key_map m -> unambiguous m -> (forall v, ~ In ([27], v) (sm_sequences m)) ->
  forall l, Forall (ordinary m) l -> legible m (l ++ [Typed 27]) [].
Proof. exact (fun m Hm Hu He l Hl => escape_last m Hm l Hu Hl He). Qed.
Print Assumptions C98_escape_at_the_end.

(** C98: text may arrive in portions of any size, cut anywhere. *)
Theorem C98_text_in_any_portions :
  forall C m, key_map m -> (forall c n, (n <= grow C c n)%nat) ->
  forall text s, Forall (fun c => scalar c /\ begins_nothing m c) text ->
    calm s -> inbuf s = [] -> Forall (fun b => b <> []) (portions s) -> utf8s text = concat (portions s) ->
    exists n s' es, rrun C m (repeat (RRead None) n) s = Some (s', map YEvent es) /\
      somes es = map (fun c => EKey (key_from_char c)) text /\ S_Reader.stream s' = [] /\ calm s'.
Proof. exact text_arrives. Qed.
Print Assumptions C98_text_in_any_portions.

(** C98: and whatever else happens (signals, timeouts, failures, preparing and restoring
    between the reads): the characters read are those at the front of the text, the rest
    is still to be read, and no read complains of invalid UTF-8. *)
Theorem C98_text_whatever_happens :
  forall C m, key_map m ->
  forall ops text s s' rs, Forall (fun c => scalar c /\ begins_nothing m c) text ->
    Forall not_raw ops -> S_Reader.stream s = utf8s text -> rrun C m ops s = Some (s', rs) ->
    ~ In (YErr RUtf8) rs /\
    exists t1 t2, text = t1 ++ t2 /\ flat_map key_or_mouse rs = map (fun c => EKey (key_from_char c)) t1 /\
      S_Reader.stream s' = utf8s t2.
Proof. exact text_always. Qed.
Print Assumptions C98_text_whatever_happens.

(** Up, Home and Delete keys and the mouse. *)
Definition ex_clear_caps : list (option bytes * key) :=
  [(Some [27; 79; 65], KUp); (Some [27; 79; 72], KHome); (Some [27; 91; 51; 126], KDelete)].
Definition ex_clear : seq_map := match sequences ex_clear_caps ex_name with Some m => m | None => sm_new end.
Lemma ex_clear_map : key_map ex_clear.
Proof. destruct (sequences_map ex_clear_caps ex_name) as (m & E & H & _). unfold ex_clear. rewrite E. exact H. Qed.
Lemma ex_clear_seqs : sm_sequences ex_clear =
  [([27; 79; 65], SKey KUp); ([27; 79; 72], SKey KHome); ([27; 91; 51; 126], SKey KDelete); ([27; 91; 60], XTermMouse)].
Proof. vm_compute. reflexivity. Qed.

Definition ex_acts : list act := [Typed 233; Struck [27; 79; 65] KUp; Moused ex_deed; Typed 97; Typed 27].
Definition ex_typing : sys :=
  ex_sys [TInput [195]; TStep; TIntr; TInput ([169; 27; 79; 65] ++ S_Input.report ex_deed ++ [97; 27]); TTime; TStep].

Example C98_example :
  unambiguous ex_clear /\ calm ex_typing /\ inbuf ex_typing = [] /\ arriving ex_clear [] (portions ex_typing) ex_acts /\
  (match rrun ansi_cfg ex_clear (repeat (RRead None) 6) ex_typing with Some (_, rs) => rs | None => [] end)
  = map YEvent [None; Some (EKey (KChar 233)); Some (EKey KUp); Some (EMouse (told ex_deed)); Some (EKey (KChar 97)); Some (EKey KEscape)].
Proof.
  assert (Hu : unambiguous ex_clear).
  { intros q v q' v' H H' (r & Hr). rewrite ex_clear_seqs in H, H'. cbn [In] in H, H'.
    repeat match type of H with _ \/ _ => destruct H as [H|H] end; try contradiction; injection H as <- <-;
      repeat match type of H' with _ \/ _ => destruct H' as [H'|H'] end; try contradiction; injection H' as <- <-;
      try reflexivity; discriminate Hr. }
  split; [exact Hu|]. split; [split; [reflexivity|]; split; [reflexivity|]; repeat constructor|]. split; [reflexivity|].
  split; [|vm_compute; reflexivity].
  change ex_acts with ([] ++ (([Typed 233; Struck [27; 79; 65] KUp; Moused ex_deed; Typed 97] ++ [Typed 27]) ++ [])).
  change (portions ex_typing) with ([195] :: [[169; 27; 79; 65] ++ S_Input.report ex_deed ++ [97; 27]]).
  apply Ar_portion with (held' := [195]); [discriminate|cbn; lia|reflexivity|exact I| |].
  { right. split; [discriminate|]. exists 233, [169]. split; [reflexivity|]. split; [discriminate|reflexivity]. }
  apply Ar_portion with (held' := []); [discriminate|vm_compute; lia|reflexivity| |now left|apply Ar_end].
  apply (C98_escape_at_the_end ex_clear ex_clear_map Hu).
  - intros v H. rewrite ex_clear_seqs in H. cbn [In] in H.
    repeat match type of H with _ \/ _ => destruct H as [H|H] end; try contradiction; discriminate H.
  - assert (Hb : forall c, c = 233 \/ c = 97 -> begins_nothing ex_clear c).
    { intros c Hc q v H (r & Hr). rewrite ex_clear_seqs in H. cbn [In] in H.
      repeat match type of H with _ \/ _ => destruct H as [H|H] end; try contradiction; injection H as <- <-;
        destruct Hc as [-> | ->]; discriminate Hr. }
    repeat (apply Forall_cons); [..|apply Forall_nil]; cbn [ordinary]; rewrite ?ex_clear_seqs.
    + split; [reflexivity|apply Hb; now left].
    + split; [now left|discriminate].
    + split; [do 3 right; now left|split; reflexivity].
    + split; [reflexivity|apply Hb; now right].
Qed.

(** Text with a signal, a failing read and a new size in between. *)
Example C98_text_example :
  (match rrun ansi_cfg ex_clear [RPrepare ex_cfg; RRead None; RRead None; RRead None; RRead None; RWait None; RRead None]
     (ex_sys [TInput [97; 195]; TSig 28; TStep; TStep; TStep; TStep; TStep; TFail 5; TInput [169; 98]; TStep; TStep]) with
   | Some (s', rs) => (flat_map key_or_mouse rs, S_Reader.stream s') | None => ([], []) end)
  = ([EKey (KChar 97); EKey (KChar 233); EKey (KChar 98)], []).
Proof. vm_compute. reflexivity. Qed.
