(** Proofs for C141: the example program examples/style.rs. *)
From Coq Require Import String.
From Verif Require Import Base M_Utf8 S_Utf8 M_Geom S_Geom M_Attr M_Buf S_Buf M_Writer S_Tty S_Writer M_Api S_Api P_Api M_Lines S_Lines P_Lines M_StyleExample S_StyleExample.
From Verif Require M_WinWriter S_WinWriter S_WinScreen M_WinApi S_WinApi S_WinLines P_WinLines.

Lemma style_shown E C K t0 : implements E C K -> full_caps C -> ascii_plain E ->
  forall i m x w w' v, nth_error style_calls i = Some m -> nth_error style_texts i = Some x -> perfect (script w) -> obuf w = [] -> wat w = no_attrs ->
  look K (feed K t0 (dev w)) = Some v -> vattrs v = no_attrs -> space (List.length (in_cells [x])) v ->
  api_run C [OnTerminal m] w = Some w' ->
  exists v', look K (feed K t0 (dev w')) = Some v' /\ vsize v' = vsize v /\ vattrs v' = no_attrs /\
    vcur v' = Cursor (line (vcur v)) (column (vcur v) + List.length (in_cells [x])) /\
    vcells v' = splice (cell_no (vsize v) (vcur v)) (in_cells [x]) (vcells v).
Proof.
  intros HK Hc HE i m x w w' v Hm Hx.
  assert (H : forallb ascii_texts [m] = true /\ row E [m] no_attrs = in_cells [x] /\ asked_at_end [m] no_attrs = no_attrs).
  { do 5 (destruct i as [|i]; [injection Hm as <-; injection Hx as <-; split; [vm_compute; reflexivity|]; split; [rows HE|vm_compute; reflexivity]|]).
    destruct i; discriminate Hm. }
  destruct H as (H1 & H2 & H3). intros. eapply (program_shown E C K t0 [m]); eauto.
Qed.

Section Win.
  Import M_WinWriter S_WinWriter S_WinScreen M_WinApi S_WinApi S_WinLines P_WinLines.
  Lemma win_style_shown draw shown default E : draws draw -> places draw shown -> (default < 65536)%N -> (65536 <= Z.of_nat (umax E))%Z ->
    ascii_shown shown -> forall i m x s s' F, nth_error style_calls i = Some m -> nth_error style_texts i = Some x ->
    faces default (w_con s) F -> f_attrs F = no_attrs -> w_at s = no_attrs ->
    view_ok (f_view F) -> (cX (v_cur (f_view F)) + Z.of_nat (List.length (in_runs [x])) < cX (v_size (f_view F)))%Z ->
    win_api_run draw default E [OnTerminal m] s = Some s' ->
    exists F', faces default (w_con s') F' /\ f_attrs F' = no_attrs /\ wlaid shown default (in_runs [x]) (f_view F) (f_view F').
  Proof.
    intros HD HP Hd HU Ha i m x s s' F Hm Hx Hf Hn Hw Hv Hr R.
    assert (H : Forall (on_api (win_line_call shown)) (map OnTerminal [m]) /\ inked [m] no_attrs = in_runs [x] /\ asked_at_end [m] no_attrs = no_attrs).
    { do 5 (destruct i as [|i]; [injection Hm as <-; injection Hx as <-; (split; [apply ascii_calls; [exact Ha|vm_compute; reflexivity]|]); split; vm_compute; reflexivity|]).
      destruct i; discriminate Hm. }
    destruct H as (H1 & H2 & H3).
    pose proof (win_line_shown draw shown default E HD HP Hd HU (map OnTerminal [m]) s s' F H1 Hf ltac:(congruence) Hv) as T. cbn zeta in T.
    rewrite map_map, map_id, Hn, H2, H3 in T. exact (T Hr R).
  Qed.
End Win.
