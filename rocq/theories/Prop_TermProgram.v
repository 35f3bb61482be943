(** Property theorems for any programs that share a [Terminal] (C118). *)
From Verif Require Import Base M_Utf8 S_Utf8 M_Geom S_Geom M_Attr M_Buf S_Buf P_Buf3 M_Writer S_Tty S_Writer S_Emu P_Emu P_Screen5 M_Api S_Api M_Locks S_Locks S_Together
  M_WinWriter S_WinWriter S_WinScreen M_WinApi S_WinApi Prop_WinApi M_WinLocks S_WinLocks M_WinShare P_WinProgram3 S_TermProgram P_TermProgram2 P_TermProgram3 P_TermProgram4.
From Verif Require P_WinWriter.

(** C118: any number of threads share a terminal that shows [v], each running any program of
    calls of the methods of [Terminal] and its guards that follows the rules for the guards
    (C52); what a program does next may depend on everything that was answered.  However
    they are scheduled: once all have finished, and no access to the terminal has failed,
    there is an order of all that was written, in pieces that are not mixed, in which the
    pieces of each thread are what its program writes, such that the terminal shows what
    the documented effects of the calls make of [v] in that order, once the output has
    reached it; if the device takes everything it is given, it has. *)
Theorem C118_share_terminal : forall E C K t0, implements E C K -> full_caps C ->
  forall (progs : list client) w d v tr c w',
  Forall (fun p => S_Locks.follows true None None p /\ terminal_program (xterm C = true) (sensible E) p) progs ->
  whole_writes (script w) -> style_ok (sty (wat w)) -> look K (feed K t0 (stream w)) = Some v -> vattrs v = wat w ->
  run E C (start progs (Some w, d)) tr c -> finished c -> S_Together.no_failure tr -> fst (shared c) = Some w' ->
  exists order : list (nat * list tmethod), (forall i, wrote None (nth i progs Finish) (done_by i order)) /\
    (perfect (script w) -> obuf w = [] -> obuf w' = []) /\
    exists v', look K (feed K t0 (stream w')) = Some v' /\ vattrs v' = wat w' /\
      effects E (map OnGuard (concat (map snd order))) v v'.
Proof. exact share_terminal. Qed.
Print Assumptions C118_share_terminal.

(** C118, Windows: the same of a console; a thread may also read while it holds the write
    guard, and turn off mouse reports that were never turned on. *)
Theorem C118_share_console : forall draw default E, S_WinApi.draws draw -> (default < 65536)%N -> (65536 <= Z.of_nat (umax E))%Z ->
  forall (progs : list client) s F tr c s',
  Forall (fun p => S_Locks.follows false None None p /\ terminal_program True scalar_text p) progs ->
  faces default (w_con s) F -> f_attrs F = w_at s -> view_ok (f_view F) ->
  wrun (console_access draw E default) (wstart progs (Some s, tt)) tr c -> wfinished c -> S_Together.no_failure tr ->
  wshared c = (Some s', tt) ->
  exists (order : list (nat * list tmethod)) F', (forall i, wrote None (nth i progs Finish) (done_by i order)) /\
    win_effects draw default (map OnGuard (concat (map snd order))) F F' /\ faces default (w_con s') F'.
Proof. exact wshare_terminal. Qed.
Print Assumptions C118_share_console.

(** A thread of examples/threads.rs (one round of it, and it does not end the line); a thread
    that turns on mouse and keypad reports, reads and turns them off; and one that, while the
    terminal is busy, waits for input and then writes "x". *)
Definition say (ms : list tmethod) (k : client) : client := fold_right (fun m k => Call (WDo (forward m)) (fun _ => k)) k ms.
Definition child (name : list N) (c : color) : client :=
  Call TLockWrite (fun _ => say [TWriteStr [91]%N; TBold; TSetFg (Some c); TWriteStr name; TClearAttributes; TWriteFmt [[93]; [58]]%N]
    (Call WDrop (fun _ => Finish))).
Definition listener : client :=
  Call (TPrepare true true true) (fun _ => Call TRead (fun _ => Call (TRestore true true) (fun _ => Finish))).
Definition shy : client :=
  Call TTryLockWrite (fun r => match r with
    | AOk => say [TWriteStr [121]%N] (Call WDrop (fun _ => Finish))
    | _ => Call TWait (fun _ => Call (TWrite (forward (TMoveLeft 0))) (fun _ => Call (TWrite (forward (TWriteChar 120%N))) (fun _ => Finish)))
    end).
Definition ex_terms : list client := [child [97; 98]%N Red; listener; shy].

Lemma say_follows b l k : S_Locks.follows b None (Some OfTerminal) k -> S_Locks.follows b None (Some OfTerminal) (say l k).
Proof. intros H. induction l as [|m l IH]; [exact H|]. cbn. split; [reflexivity|]. intros _. exact IH. Qed.
Lemma say_terminal X T l k : terminal_program X T k -> Forall T l -> terminal_program X T (say l k).
Proof. intros H. induction 1 as [|m l Hm _ IH]; [exact H|]. cbn. split; [eauto|]. intros _. exact IH. Qed.
Lemma ex_terms_ok b (X : Prop) (T : tmethod -> Prop) : X ->
  Forall T [TWriteStr [91]%N; TBold; TSetFg (Some Red); TWriteStr [97; 98]%N; TClearAttributes; TWriteFmt [[93]; [58]]%N] ->
  T (TWriteStr [121]%N) -> T (TMoveLeft 0) -> T (TWriteChar 120%N) ->
  Forall (fun p => S_Locks.follows b None None p /\ terminal_program X T p) ex_terms.
Proof.
  intros HX HT H1 H2 H3.
  assert (F0 : S_Locks.follows b None (Some OfTerminal) (Call WDrop (fun _ => Finish))) by (cbn; repeat split).
  assert (T0 : terminal_program X T (Call WDrop (fun _ => Finish))) by (cbn; repeat split).
  repeat (apply Forall_cons); [| | |constructor].
  - split.
    + unfold child. cbn [S_Locks.follows allowed]. split; [reflexivity|]. intros []; exact (say_follows b _ _ F0).
    + split; [exact I|]. intros _. apply say_terminal; assumption.
  - split; cbn; repeat (split; auto; intros _).
  - split; (split; [cbn; auto|]); intros [].
    1: exact (say_follows b _ _ F0).
    6: apply say_terminal; [exact T0|constructor; [exact H1|constructor]].
    all: cbn; repeat (split; auto; intros _); try exact I.
    all: split; [exists (TMoveLeft 0); auto|]; intros _; split; [exists (TWriteChar 120%N); auto|]; intros _; exact I.
Qed.

Definition ex_cell (x : vcell) (c : N) (a : attrs) : bool := match x with VC s b => bytes_eqb s [c] && attrs_eqb a b | _ => false end.
Definition ex_line (v : S_Tty.view) : bool :=
  match vcells v with
  | [a; b; c; d; e; f; g] => ex_cell a 91 no_attrs && ex_cell b 97 (Attrs (Some Red) None BOLD) && ex_cell c 98 (Attrs (Some Red) None BOLD) &&
      ex_cell d 93 no_attrs && ex_cell e 58 no_attrs && ex_cell f 120 no_attrs && ex_cell g 32 no_attrs
  | _ => false
  end.
Example C118_example :
  let E := demo_env 1000 in
  let w := writer_new 64 (alls 9) in
  implements E ansi_cfg (ansi_tty E) /\ full_caps ansi_cfg /\
  Forall (fun p => S_Locks.follows true None None p /\ terminal_program (xterm ansi_cfg = true) (sensible E) p) ex_terms /\
  perfect (script w) /\ obuf w = [] /\ whole_writes (script w) /\ style_ok (sty (wat w)) /\
  (exists v0, look (ansi_tty E) (feed (ansi_tty E) (emu_new (Size 1 7)) (stream w)) = Some v0 /\ vattrs v0 = wat w) /\
  exists tr c w' v, run E ansi_cfg (start ex_terms (Some w, None)) tr c /\ finished c /\ S_Together.no_failure tr /\
    fst (shared c) = Some w' /\ look (ansi_tty E) (feed (ansi_tty E) (emu_new (Size 1 7)) (stream w')) = Some v /\ ex_line v = true.
Proof.
  cbv zeta. split; [apply ansi_implements, demo_env_ok|].
  split; [split; [apply ansi_all_caps|split; reflexivity]|].
  split; [apply ex_terms_ok; [reflexivity| | | |]; repeat constructor; unfold texty, scalar, printable; cbn; intuition discriminate|].
  split; [repeat (constructor; [left; reflexivity|]); constructor|]. split; [reflexivity|].
  split; [repeat (apply Forall_cons; [constructor|]); apply Forall_nil|]. split; [reflexivity|].
  split; [eexists; split; vm_compute; reflexivity|].
  apply (terminal_shows_ok (demo_env 1000) ex_terms (writer_new 64 (alls 9))
    (map (fun i => (i, COther 113%N)) ([0; 2] ++ repeat 0 8 ++ repeat 1 9 ++ repeat 2 3 ++ repeat 1 6 ++ repeat 2 4)) (emu_new (Size 1 7)) ex_line).
  vm_compute. reflexivity.
Qed.

Definition ex_row : con :=
  Con (View (Coord 8 1) (Coord 0 0) (Rect 0 0 0 7) (fun _ _ => (32, 7)%N)) 7 [] (25%N, true) (repeat (CTake 9) 5).
Example C118_console_example :
  let E := demo_env (Z.to_nat 65536) in
  let s := Wins no_attrs ex_row in
  S_WinApi.draws demo_draw /\ (65536 <= Z.of_nat (umax E))%Z /\
  Forall (fun p => S_Locks.follows false None None p /\ terminal_program True scalar_text p) ex_terms /\
  faces 7 (w_con s) (Face (c_view ex_row) no_attrs (25%N, true)) /\ view_ok (c_view ex_row) /\
  exists tr c, wrun (console_access demo_draw E 7) (wstart ex_terms (Some s, tt)) tr c /\ wfinished c /\
    S_Together.no_failure tr /\
    match fst (wshared c) with
    | Some s' => forallb (fun x => let '(x, g, w) := x in let '(g', w') := v_cell (c_view (w_con s')) 0 (Z.of_N x) in (g =? g')%N && (w =? w')%N)
        [(0, 91, 7); (1, 97, 12); (2, 98, 12); (3, 93, 7); (4, 58, 7); (5, 120, 7)]%N
    | None => false
    end = true.
Proof.
  cbv zeta. split; [exact demo_draws|]. split; [cbn [umax demo_env]; lia|].
  split; [apply ex_terms_ok; [exact I| | | |]; repeat constructor; unfold scalar; cbn; lia|].
  split; [split; [reflexivity|]; split; [exact (P_WinWriter.word_shows 7 no_attrs eq_refl)|reflexivity]|].
  split; [vm_compute; intuition discriminate|].
  destruct (wlends_ok (console_access demo_draw (demo_env (Z.to_nat 65536)) 7) ex_terms (Some (Wins no_attrs ex_row), tt)
    (map (fun i => (i, COther 113%N)) ([0; 2] ++ repeat 0 7 ++ repeat 1 8 ++ repeat 2 3 ++ repeat 1 5 ++ repeat 2 3))
    (fun w _ => match w with
    | Some s' => forallb (fun x => let '(x, g, w) := x in let '(g', w') := v_cell (c_view (w_con s')) 0 (Z.of_N x) in (g =? g')%N && (w =? w')%N)
        [(0, 91, 7); (1, 97, 12); (2, 98, 12); (3, 93, 7); (4, 58, 7); (5, 120, 7)]%N
    | None => false
    end)) as (tr & c & H1 & H2 & H3 & _ & H4).
  - vm_compute. reflexivity.
  - exists tr, c. auto.
Qed.
