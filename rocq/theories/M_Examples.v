(** The example programs in which threads share a terminal or a screen
    (/repo/examples/threads.rs and /repo/examples/screen_threads.rs), as clients of the API.
    What the programs leave to chance is a parameter: how many threads there are, their
    names and colours (examples/threads.rs:34-45 starts five, called "child0" to "child4", in
    five colours; so does examples/screen_threads.rs:46-58), and the texts of the random numbers. *)
From Verif Require Import Base M_Utf8 M_Geom M_Attr M_Buf M_Writer M_Api M_ScreenApi M_Locks.

(** A thread: name, colour, the line it draws on, and for each round of its loop the text of
    the random number.  [threads.rs] ends after five rounds (examples/threads.rs:57), a thread
    of [screen_threads.rs] when the main thread tells it (examples/screen_threads.rs:87-91):
    here, after any number of rounds. *)
Record kid : Type := Kid { kname : list N; kcolor : color; kline : nat; kvalues : list (list N) }.

(** "[" and "]: random output: " (examples/threads.rs:64-69, examples/screen_threads.rs:101-106). *)
Definition opening : list N := [91]%N.
Definition closing : list N := [93; 58; 32; 114; 97; 110; 100; 111; 109; 32; 111; 117; 116; 112; 117; 116; 58; 32]%N.

(** examples/threads.rs:64-69: the calls in the loop, [writeln!] with its pieces. *)
Definition line_calls (d : kid) (value : list N) : list tmethod :=
  [TWriteStr opening; TBold; TSetFg (Some (kcolor d)); TWriteStr (kname d); TClearAttributes; TWriteFmt [closing; value; [10%N]]].

(** Calls through the write guard, each followed by [?]: after an error, the function returns,
    which drops the guard (examples/threads.rs:64-69). *)
Fixpoint insist (ms : list tmethod) (k : client) : client :=
  match ms with
  | [] => k
  | m :: ms => Call (WDo (forward m)) (fun r => match r with AOk => insist ms k | _ => Call WDrop (fun _ => Finish) end)
  end.
(** examples/threads.rs:53-76: [run_task]; sleeping does nothing to the terminal. *)
Definition say_round (d : kid) (value : list N) (k : client) : client :=
  Call TLockWrite (fun _ => insist (line_calls d value) (Call WDrop (fun _ => k))).
Definition say_task (d : kid) : client := fold_right (say_round d) Finish (kvalues d).

(** examples/screen_threads.rs:99-110: what is drawn in the loop. *)
Definition round_calls (d : kid) (value : list N) : list smethod :=
  [SSetCursor (At (Cursor (kline d) 0)); SWriteStr opening; SBold; SSetFg (Some (kcolor d)); SWriteStr (kname d); SClearAttributes;
   SWriteFmt [closing; value; [10%N]]; SSetCursor (Pair 0 0)].
Fixpoint sketch (ms : list smethod) (k : client) : client :=
  match ms with
  | [] => k
  | m :: ms => Call (SWBuf (sforward m)) (fun _ => sketch ms k)
  end.
(** examples/screen_threads.rs:82-118: [run_task]; [refresh] is followed by [?]. *)
Definition draw_round (d : kid) (value : list N) (k : client) : client :=
  Call SLockWrite (fun _ => sketch (round_calls d value)
    (Call SWRefresh (fun r => Call SWDrop (fun _ => match r with AOk => k | _ => Finish end)))).
Definition draw_task (d : kid) : client := fold_right (draw_round d) Finish (kvalues d).

(** examples/screen_threads.rs:60-80: the main thread, once the others are started, reads
    events until 'q' or an error and ends, which drops the read guard.  Simplified: it reads
    at most [n] events, and [AOther 113] stands for 'q' or a failed read. *)
Fixpoint until_q (n : nat) : client :=
  match n with
  | 0 => Call SRDrop (fun _ => Finish)
  | S n => Call SRRead (fun r => match r with
      | AErr _ => Call SRDrop (fun _ => Finish)
      | AOther c => if (c =? 113)%N then Call SRDrop (fun _ => Finish) else until_q n
      | _ => until_q n
      end)
  end.
Definition main_task (n : nat) : client := Call SLockRead (fun _ => until_q n).
