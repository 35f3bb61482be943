(** A refresh by a program succeeds (C138). *)
From Verif Require Import Base M_Utf8 M_Geom S_Geom M_Attr M_Seq S_Seq M_Input S_Input M_Buf S_Buf M_Writer S_Writer M_Prepare M_Reader M_Screen
  M_UnixScreen S_UnixScreen S_NoPanic P_NoPanic2 P_NoPanic3.
From Verif Require P_Screen3 S_Emu.
From Verif Require Import S_Succeeds P_Succeeds P_Succeeds2.
Local Open Scope nat_scope.

(** After any calls of a program. *)
Lemma program_goes E C m cfg ops s0 s1 u u' rs : env_ok E -> key_map m -> whole_writes (script (M_Prepare.wr s0)) ->
  unix_screen_new E C cfg s0 = Ret s1 u -> Forall public_op ops -> urun E C m ops u = Some (u', rs) ->
  drawable C -> (forall c n, n <= grow C c n) -> 0 < lines (bsize (u_sb u')) -> 0 < columns (bsize (u_sb u')) ->
  let w := M_Prepare.wr (u_sys u') in
  perfect (script w) -> 2 * stale (u_sb u') < writes_left (script w) ->
  exists u'', ustep E C m URefresh u' = Some (u'', YUnit) /\
    let w' := M_Prepare.wr (u_sys u'') in
    perfect (script w') /\ writes_made w w' <= 2 * stale (u_sb u') + 1 /\
    forall k, short_cells k (u_sb u') -> k <= ocap w ->
      writes_made w w' <= stale (u_sb u') + 1 /\ (writes_made w w' - 1) * (ocap w + 1 - k) <= bytes_taken w w'.
Proof.
  intros HE Hm Hw Hn Hp Hr HD Hg Hl Hc w Hpf Hwl. destruct (new_inv C E cfg s0 s1 u HE Hw Hn) as (z & Hz & Hi).
  destruct (urun_inv E C m HE Hm s0 ops _ u u' rs Hp Hi Hr) as (st & _ & I').
  assert (Hb : buf_ok E (u_sb u')) by apply I'.
  destruct (refresh_goes E C HD Hg (out_side u') Hb Hl Hc Hpf Hwl) as (s' & R & P & L & F).
  destruct (P_Screen3.refresh_and_drop E C _ _ _ R) as [D _].
  exists (with_out s' u'). cbn [ustep]. unfold on_out. rewrite D. split; [reflexivity|].
  cbn zeta. change (M_Prepare.wr (u_sys (with_out s' u'))) with (M_Screen.wr s').
  change (M_Screen.wr (out_side u')) with w in *. change (M_Screen.sb (out_side u')) with (u_sb u') in *.
  split; [exact P|]. split; [unfold writes_made; lia|].
  intros k Hk Hk2. specialize (F k Hk Hk2). replace (ocap w + 1) with (S (ocap w)) by lia. exact F.
Qed.

Lemma ansi_drawable : drawable S_Emu.ansi_cfg /\ (forall c n, n <= grow S_Emu.ansi_cfg c n).
Proof.
  split.
  - constructor.
    + eexists. split; [reflexivity|]. intros k. reflexivity.
    + eexists. split; [reflexivity|]. intros k y x. reflexivity.
    + intros e k [= <-]. reflexivity.
    + intros c e k n Hc He. cbn [In] in Hc. repeat (destruct Hc as [<-|Hc]; [injection He as <-; reflexivity|]). contradiction.
    + intros c e k Hc He. cbn [In] in Hc. repeat (destruct Hc as [<-|Hc]; [injection He as <-; reflexivity|]). contradiction.
  - intros c n. cbn. lia.
Qed.
