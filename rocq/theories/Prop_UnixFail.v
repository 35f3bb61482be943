(** Property theorems for refreshes of a Unix screen that fail (C27). *)
From Verif Require Import Base M_Utf8 S_Utf8 M_Geom S_Geom M_Attr M_Buf S_Buf M_Writer S_Tty S_Writer
  M_Screen S_Screen P_Buf3 M_Api M_ScreenApi S_Canvas S_UnixFail S_Emu P_Emu P_Screen5 P_UnixFail.

(** C27, for refreshes that fail because the OS takes no output, however often and wherever:
    the next refresh that succeeds shows the whole canvas, with the cursor at the pen, but for
    at most one position for each refresh that failed while it was drawing since the size last
    changed, and this only as long as the canvas still has there what it had when that refresh
    failed.  Missing: the lost positions, for which it is refuted (Prop_Screen.v); double-width
    characters; terminals that lack capabilities. *)
Theorem C27_all_but_lost_partial : forall E C, env_ok E -> env_chars E -> forall K, caps_coherent C -> implements E C K ->
  forall s t k l, battered E C K s t k l ->
  forall s' u x, refresh E C s = Ret s' u -> stream (wr s') = stream (wr s) ++ x ->
    obuf (wr s') = [] /\
    exists v, look K (feed K t x) = Some v /\ vsize v = ksize k /\ vcur v = pen_goal k /\
      exists lost, length lost = length l /\
        forall p, in_bounds p (ksize k) ->
          displays_at C v k p \/
          exists k0, In (p, k0) (combine lost l) /\ ink k0 (line p) (column p) = ink k (line p) (column p).
Proof. exact battered_shows. Qed.
Print Assumptions C27_all_but_lost_partial.

(** A refresh fails after the first of two texts: the second is lost, what is drawn
    afterwards is shown; and when the program changes the lost position, it is shown. *)
Example C27_lost_example :
  let E := demo_env 1000 in
  env_ok E /\ env_chars E /\ caps_coherent ansi_cfg /\ implements E ansi_cfg (ansi_tty E) /\
  (exists s t k ks s' x v, battered E ansi_cfg (ansi_tty E) s t k ks /\
     refresh E ansi_cfg s = Ret s' tt /\ stream (wr s') = stream (wr s) ++ x /\
     look (ansi_tty E) (feed (ansi_tty E) t x) = Some v /\ fill_shows [32]%N 1 k ks v = true) /\
  (exists s t k ks s' x v, battered E ansi_cfg (ansi_tty E) s t k ks /\
     refresh E ansi_cfg s = Ret s' tt /\ stream (wr s') = stream (wr s) ++ x /\
     look (ansi_tty E) (feed (ansi_tty E) t x) = Some v /\ fill_shows [101]%N 1 k ks v = true).
Proof.
  cbv zeta. split; [apply demo_env_ok|]. split; [apply demo_chars|]. split; [apply ansi_coherent|].
  split; [apply ansi_implements, demo_env_ok|].
  assert (W : whole_writes (WAll :: WErr 5%N :: alls 9)) by (repeat (apply Forall_cons; [constructor|]); constructor). split.
  - apply (battering_ok (demo_env 1000) (demo_env_ok 1000) (Size 1 3) (WAll :: WErr 5%N :: alls 9) fill_acts (fill_shows [32]%N 1)).
    + small.
    + exact W.
    + exact fill_narrow.
    + vm_compute. reflexivity.
  - apply (battering_ok (demo_env 1000) (demo_env_ok 1000) (Size 1 3) (WAll :: WErr 5%N :: alls 9)
      (fill_acts ++ [BDraw; BDo (SWriteAt (Pair 0 1) [101]%N)]) (fill_shows [101]%N 1)).
    + small.
    + exact W.
    + apply Forall_app. split; [exact fill_narrow|]. apply Forall_cons; [exact I|]. apply Forall_cons; [|constructor].
      apply Forall_cons; [intros (_ & H); discriminate|constructor].
    + vm_compute. reflexivity.
Qed.
