(** Property theorems for short writes (C30, C31, C32). *)
From Verif Require Import Base M_Geom M_Attr M_Buf M_Writer S_Writer S_Short P_Short.

(** C30, C31, C32: what [flush] does, whatever the OS answers to each [write].  The
    device receives the beginning of the buffer once for every answer, as far as the OS
    took it.  Flush succeeds when the amounts taken add up to exactly the length of
    the buffer.  It fails at the first answer that is an error or takes nothing, if less
    was taken until then; it panics there if more was taken; and it goes on
    for ever if neither happens. *)
Theorem C30_flush_exactly_partial :
  forall w,
  match flush w with
  | Ret w' _ => exists rs, script w = rs ++ script w' /\ goes_on (length (obuf w)) rs /\
      total (length (obuf w)) rs = length (obuf w) /\
      dev w' = dev w ++ beginnings (obuf w) rs /\ obuf w' = []
  | Fail w' e => exists rs a, script w = rs ++ a :: script w' /\ goes_on (length (obuf w)) rs /\
      ending (length (obuf w)) a = Some e /\ total (length (obuf w)) rs < length (obuf w) /\
      dev w' = dev w ++ beginnings (obuf w) rs /\ obuf w' = skipn (total (length (obuf w)) rs) (obuf w)
  | Panic => exists rs a sc e, script w = rs ++ a :: sc /\ goes_on (length (obuf w)) rs /\
      ending (length (obuf w)) a = Some e /\ length (obuf w) < total (length (obuf w)) rs
  | Blocked => goes_on (length (obuf w)) (script w) /\ total (length (obuf w)) (script w) <> length (obuf w)
  end.
Proof. exact flush_exact. Qed.
Print Assumptions C30_flush_exactly_partial.

(** All four outcomes occur with short writes. *)
Example C30_flush_exactly_example :
  let w sc := W [97; 98; 99; 100]%N 512 no_attrs 0 [] sc in
  (exists w', flush (w [WOk 1; WIntr; WOk 3]) = Ret w' tt /\ dev w' = [97; 97; 98; 99]%N) /\
  (exists w', flush (w [WOk 3; WErr 5; WAll]%N) = Fail w' (EOs 5) /\ dev w' ++ obuf w' = [97; 98; 99; 100]%N) /\
  flush (w [WOk 3; WOk 3; WErr 5]%N) = Panic /\
  flush (w [WOk 3; WOk 3; WOk 3]) = Blocked.
Proof. cbv zeta. repeat split; try reflexivity; eexists; split; reflexivity. Qed.

(** C32: nothing is lost or repeated by a flush, whether it succeeds or fails, in which
    the OS took bytes with at most one of its answers: also if this was a short write,
    followed by an error. *)
Theorem C32_one_write_takes_partial :
  forall w rs w' r, flush w = r -> r = Ret w' tt \/ (exists e, r = Fail w' e) ->
    script w = rs ++ script w' -> times (length (obuf w)) rs <= 1 -> stream w' = stream w.
Proof. exact one_taking. Qed.
Print Assumptions C32_one_write_takes_partial.

Example C32_one_write_takes_example :
  exists w', flush (W [97; 98; 99; 100]%N 512 no_attrs 0 [96]%N [WIntr; WOk 3; WErr 5; WAll]%N) = Fail w' (EOs 5) /\
    script w' = [WAll] /\ times 4 [WIntr; WOk 3; WErr 5]%N = 1 /\ dev w' = [96; 97; 98; 99]%N /\ obuf w' = [100]%N.
Proof. eexists. repeat split; reflexivity. Qed.
