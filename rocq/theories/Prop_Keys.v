(** Property theorems for the keys of a terminfo entry (C69). *)
From Coq Require Import String.
From Verif Require Import Base M_Utf8 S_Utf8 M_Geom M_Seq S_Seq M_Signal M_Util M_Input S_Input M_Writer S_Emu
  M_Prepare M_Reader S_Prepare M_Keys S_Keys P_Keys P_Keys2 S_XTerm P_XTerm Prop_Input Prop_Prepare.
Local Open Scope N_scope.

(** C69: a terminal whose terminfo entry is [db] (a value for each capability's name), with
    the name [name].  When the bytes [q] that its key [k] sends are at the start of the
    buffered input, [read_event] tells [k] and takes exactly these bytes; provided the
    entry gives [q] (in ASCII) to no other key, no longer value of a key is there, and no
    report of the mouse. *)
Theorem C69_keys_of_the_entry :
  forall db name, exists m, terminal_sequences (fun c => db (cap_name c)) name = Some m /\
  forall C t s k q rest,
    sends db k q -> q <> [] -> is_ascii q -> nothing_longer db q (q ++ rest) ->
    (xterm_name name -> ~ is_prefix XTERM_MOUSE_INTRO (q ++ rest)) ->
    inbuf s = q ++ rest ->
    read_event C m t s = Ret (with_inbuf rest (incap s) s) (Some (EKey k)).
Proof. exact read_key_of_entry. Qed.
Print Assumptions C69_keys_of_the_entry.

(** Part of the entry of xterm: F1 is ESC O P, F10 is ESC [ 2 1 ~, page up is ESC [ 5 ~. *)
Definition xterm_db (name : string) : option bytes :=
  if String.eqb name "kf1" then Some [27; 79; 80]
  else if String.eqb name "kf10" then Some [27; 91; 50; 49; 126]
  else if String.eqb name "kpp" then Some [27; 91; 53; 126]
  else None.

Ltac by_cases H := repeat (destruct H as [H|H]; [injection H as <- <-|]); [..|destruct H].

Example C69_entry_example :
  let q := [27; 91; 50; 49; 126] in
  sends xterm_db (KF 10) q /\ is_ascii q /\ nothing_longer xterm_db q (q ++ [120]) /\
  xterm_name ex_name /\ ~ is_prefix XTERM_MOUSE_INTRO (q ++ [120]) /\
  match terminal_sequences (fun c => xterm_db (cap_name c)) ex_name with
  | Some m => read_event ansi_cfg m None (with_inbuf (q ++ [120]) 200 (ex_sys [])) =
                Ret (with_inbuf [120] 200 (ex_sys [])) (Some (EKey (KF 10)))
  | None => False
  end.
Proof.
  cbv zeta. split.
  { split; [exists "kf10"%string; split; [cbn; tauto|reflexivity]|].
    intros n k' Hn H. cbn [In described] in Hn. by_cases Hn; try discriminate H; reflexivity. }
  split; [repeat constructor|]. split.
  { intros n k' q' Hn H _. cbn [In described] in Hn. by_cases Hn; try discriminate H; injection H as <-; cbn; lia. }
  split; [exact (proj1 ex_xterms)|]. split; [intros [r H]; discriminate H|]. vm_compute. reflexivity.
Qed.
