(** Specification vocabulary for any programs that share a [Terminal], at any time, also when
    accesses to it fail and when the process is stopped and continued (C124). *)
From Verif Require Import Base M_Utf8 M_Geom M_Attr M_Buf M_Writer M_Api M_Locks M_WinWriter M_WinApi S_TermProgram S_OneThread S_WinOneThread.

(** Any program of calls of the methods of [Terminal] and its guards, with any arguments. *)
Definition uses_terminal (p : client) : Prop := terminal_program True (fun _ => True) p.

(** What is done, with its answer: an output method; preparing the terminal for the reading
    of input, also once more when the process has been continued; undoing that; and dropping
    a write guard, on Unix (on Windows that does nothing). *)
Inductive tdeed : Type :=
| Wrote (m : tmethod) (r : ans)
| Ready (mouse track keypad : bool) (r : ans)
| Undone (mouse keypad : bool) (r : ans)
| LetGo.
Definition let_go (unix : bool) : list tdeed := if unix then [LetGo] else [].
Definition piece (l : list tdeed) : list (list tdeed) := match l with [] => [] | _ => [l] end.

(** Which answers calls that concern only the input may have. *)
Definition reads_terminal (c : call) : Prop := c = TRead \/ c = RRead.
Definition sized (r : ans) : Prop := (exists e, r = AErr e) \/ exists sz, r = AResized sz.
Definition tinput_answer (unix : bool) (c : call) (r : ans) : Prop :=
  match c with
  | TLockRead | RDrop => r = AOk
  | TTryLockRead => r = AOk \/ r = AWouldBlock
  | TWait | RWait => r = AOk \/ exists n, r = AOther n
  | TRead | RRead => (exists n, r = AOther n) \/ unix = false /\ sized r
  | _ => False
  end.
Inductive readies : call -> ans -> tdeed -> Prop :=
| readies_prepare mouse track keypad r : readies (TPrepare mouse track keypad) r (Ready mouse track keypad r)
| readies_restore mouse keypad r : readies (TRestore mouse keypad) r (Undone mouse keypad r)
| readies_rprepare mouse track keypad r : readies (RPrepare mouse track keypad) r (Ready mouse track keypad r)
| readies_rrestore mouse keypad r : readies (RRestore mouse keypad) r (Undone mouse keypad r).
Inductive writes : call -> ans -> tdeed -> Prop :=
| writes_method m r : writes (WDo (forward m)) r (Wrote m r)
| writes_prepare mouse track keypad r : writes (RPrepareWithLock mouse track keypad) r (Ready mouse track keypad r)
| writes_restore mouse keypad r : writes (RRestoreWithLock mouse keypad) r (Undone mouse keypad r).

(** What a program may have done, in pieces that nothing interrupts: [g] is what it has done
    so far through the write guard, if it holds one.  What it does next depends on the
    answers.  A method that needs the write guard takes one, and drops it. *)
Inductive tdid (unix : bool) : option (list tdeed) -> client -> list (list tdeed) -> Prop :=
| td_end : tdid unix None Finish []
| td_alone m k r l : ~ idle m -> tdid unix None (k r) l -> tdid unix None (Call (TWrite (forward m)) k) ((Wrote m r :: let_go unix) :: l)
| td_idle m k l : idle m -> tdid unix None (k AOk) l -> tdid unix None (Call (TWrite (forward m)) k) l
| td_ready c x k r l : readies c r x -> tdid unix None (k r) l -> tdid unix None (Call c k) ((x :: let_go unix) :: l)
| td_lock c k l : c = TLockWrite \/ c = TTryLockWrite -> tdid unix (Some []) (k AOk) l -> tdid unix None (Call c k) l
| td_locked k l : tdid unix None (k AWouldBlock) l -> tdid unix None (Call TTryLockWrite k) l
| td_through c x k r g l : writes c r x -> tdid unix (Some (g ++ [x])) (k r) l -> tdid unix (Some g) (Call c k) l
| td_drop k g l : tdid unix None (k AOk) l -> tdid unix (Some g) (Call WDrop k) (piece (g ++ let_go unix) ++ l)
| td_size k r l : r = AOk \/ sized r -> tdid unix None (k r) l -> tdid unix None (Call TSize k) (piece (let_go unix) ++ l)
| td_told c k r l : unix = true -> reads_terminal c -> sized r -> tdid unix None (k r) l -> tdid unix None (Call c k) ([LetGo] :: l)
| td_resumed c k mouse track keypad r l : unix = true -> reads_terminal c -> tdid unix None (k r) l ->
    tdid unix None (Call c k) ([Ready mouse track keypad r; LetGo] :: l)
| td_input g c k r l : tinput_answer unix c r -> tdid unix g (k r) l -> tdid unix g (Call c k) l.

(** [Terminal::restore]: the mouse and the keypad, if they were enabled. *)
Definition restored (C : tcfg) (mouse keypad : bool) (w : wst) : out wst werr unit :=
  let! (w, _u) := when mouse (disable_mouse C) w in
  let! (w, _u) := when keypad (disable_keypad C) w in
  flush w.

(** One after the other, without threads and locks: [w] becomes [w']. *)
Inductive tperformed (C : tcfg) : list tdeed -> wst -> wst -> Prop :=
| tperf_end w : tperformed C [] w w
| tperf_wrote m l w w1 r w' : answers (guard_method C m w) w1 r -> tperformed C l w1 w' -> tperformed C (Wrote m r :: l) w w'
| tperf_ready mouse track keypad l w w1 r w' :
    answers (prepared_again C mouse track keypad w) w1 r -> tperformed C l w1 w' -> tperformed C (Ready mouse track keypad r :: l) w w'
| tperf_undone mouse keypad l w w1 r w' :
    answers (restored C mouse keypad w) w1 r -> tperformed C l w1 w' -> tperformed C (Undone mouse keypad r :: l) w w'
| tperf_let_go l w w1 u w' : guard_drop w = Ret w1 u -> tperformed C l w1 w' -> tperformed C (LetGo :: l) w w'.

(** The same on Windows; what [prepare] and [restore] change there is not behind the lock. *)
Inductive wtperformed (draw : list N -> N -> view -> view) (default : N) (E : env) : list tdeed -> wins -> wins -> Prop :=
| wtperf_end s : wtperformed draw default E [] s s
| wtperf_wrote m l s s1 r s' :
    wanswers (win_guard_method draw default E m s) s1 r -> wtperformed draw default E l s1 s' -> wtperformed draw default E (Wrote m r :: l) s s'
| wtperf_ready mouse track keypad l s s' :
    wtperformed draw default E l s s' -> wtperformed draw default E (Ready mouse track keypad AOk :: l) s s'
| wtperf_undone mouse keypad l s s' :
    wtperformed draw default E l s s' -> wtperformed draw default E (Undone mouse keypad AOk :: l) s s'.
