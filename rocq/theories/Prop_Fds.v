(** Property theorems for the descriptors of terminals (C88). *)
From Verif Require Import Base M_Fds S_Fds P_Fds.
Local Open Scope N_scope.

(** C88: whatever happens, what others have open stays as it is, and a living terminal
    from [Terminal::open] reads and writes what it opened. *)
Theorem C88_not_others :
  forall s l bad, history s l bad ->
    (forall fd f, others l fd = Some f -> files s fd = Some f) /\
    (forall h d, terms s h = Some d -> owned_fd d = true ->
       in_fd d = out_fd d /\ exists f, opened l h = Some (out_fd d, f) /\ files s (out_fd d) = Some f).
Proof. exact fds_kept. Qed.
Print Assumptions C88_not_others.

(** A terminal from [Terminal::stdout] or [Terminal::stderr] reads descriptor 0 and writes
    descriptor 1 or 2, whatever happens until it is dropped; dropping it closes nothing. *)
Theorem C88_standard_streams :
  forall x h fd ops s s1 s', standard x = Some (h, fd) -> fstep x s = Some (s1, ROk) ->
    ~ In (FDrop h) ops -> fruns ops s1 = Some s' ->
    (exists d, terms s' h = Some d /\ in_fd d = 0 /\ out_fd d = fd) /\
    forall s2 r, fstep (FDrop h) s' = Some (s2, r) -> files s2 = files s'.
Proof. exact standard_fds. Qed.
Print Assumptions C88_standard_streams.

(** Nothing else is open, unless a terminal was dropped after a panic with its write
    guard. *)
Theorem C88_no_leak_partial :
  forall s l, history s l false -> forall fd f,
    files s fd = Some f <-> others l fd = Some f \/ exists h, opened l h = Some (fd, f).
Proof. exact fds_exact. Qed.
Print Assumptions C88_no_leak_partial.

(** That leaks: dropping panics, and the descriptor stays open with nobody to close it. *)
Theorem C88_poisoned_refuted :
  forall s l bad h d, history s l bad -> terms s h = Some d -> owned_fd d = true -> wpoisoned d = true ->
    exists s', fstep (FDrop h) s = Some (s', RPanic) /\ terms s' h = None /\
    exists f, opened l h = Some (out_fd d, f) /\ files s' (out_fd d) = Some f /\
              others l (out_fd d) = None /\ forall k g, opened (note (FDrop h) RPanic l) k <> Some (out_fd d, g).
Proof. exact drop_leaks. Qed.
Print Assumptions C88_poisoned_refuted.

(** A terminal with a descriptor from 1024 on (others are open) cannot be waited on. *)
Theorem C88_high_refuted :
  forall s l bad h d, history s l bad -> terms s h = Some d ->
    fstep (FWait h) s = Some (s, RPanic) <-> exists fd f, opened l h = Some (fd, f) /\ 1024 <= fd.
Proof. exact wait_high. Qed.
Print Assumptions C88_high_refuted.

(** A program with files 5 and 6 open, that opens terminals 70 (twice, and once without
    terminfo entry) and drops one; another file gets the descriptor; then a panic. *)
Definition ex_files (n : N) : option N := if n =? 5 then Some 50 else if n =? 6 then Some 60 else None.
Definition ex_ops : list fop :=
  [FOpen 0 (Some (3, 70)) true; FOpen 1 (Some (4, 70)) true; FOpen 2 (Some (7, 70)) false; FStdout 3 true;
   FDrop 0; FOtherOpen 3 30; FDrop 3; FOtherClose 5; FOpen 4 (Some (2000, 70)) true; FWait 4; FGuardPanic 4].
Fixpoint frun (ops : list fop) (s : ftable) (l : ledger) : option (ftable * ledger * list freply) :=
  match ops with
  | [] => Some (s, l, [])
  | o :: ops => match fstep o s with
                | Some (s, r) => match frun ops s (note o r l) with Some (s, l, rs) => Some (s, l, r :: rs) | None => None end
                | None => None
                end
  end.
Example C88_example :
  match frun ex_ops (FTable ex_files (fun _ => None)) (Ledger ex_files (fun _ => None)) with
  | Some (s, l, rs) =>
      map (files s) [3; 4; 5; 6; 7; 2000] = [Some 30; Some 70; None; Some 60; None; Some 70] /\
      map (others l) [3; 4; 5; 6; 7; 2000] = [Some 30; None; None; Some 60; None; None] /\
      map (opened l) [0; 1; 2; 3; 4]%nat = [None; Some (4, 70); None; None; Some (2000, 70)] /\
      rs = [ROk; ROk; RErr; ROk; ROk; ROk; ROk; ROk; ROk; RPanic; RPanic] /\
      terms s 4%nat = Some (TDesc 2000 2000 true true)
  | None => False
  end.
Proof. vm_compute. repeat split; reflexivity. Qed.

Example C88_standard_example :
  let ops := [FOpen 1 (Some (3, 70)) true; FStdout 2 true; FGuardPanic 1; FDrop 1; FOtherClose 5; FGuardPanic 0; FWait 0] in
  match fstep (FStderr 0 true) (FTable ex_files (fun _ => None)) with
  | Some (s1, ROk) =>
      match fruns ops s1 with
      | Some s' => terms s' 0%nat = Some (TDesc 0 2 false true) /\ terms s' 2%nat = Some (TDesc 0 1 false false) /\
                   files s' 3 = Some 70 /\ files s' 5 = None /\
                   match fstep (FDrop 0) s' with Some (_, RPanic) => True | _ => False end
      | None => False
      end
  | _ => False
  end.
Proof. vm_compute. repeat split; reflexivity. Qed.
