(** Concrete watched histories (C115), and the cursor of a Windows console. *)
From Verif Require Import Base M_Utf8 S_Utf8 M_Geom S_Geom M_Attr M_Buf S_Buf M_Writer S_Tty S_Writer M_Screen S_Screen
  P_Buf3 P_Writer P_Screen2 S_Emu P_Emu P_Screen5 S_CursorMode P_CursorMode.

(** ** A play of drawing, setting the mode and refreshing *)
Inductive cact : Type := CBuf (o : buf_op) | CMode (m : cursor_mode) | CRefresh.
Definition cplay1 (E : env) (a : cact) (x : scr * emu * bool) : option (scr * emu * bool) :=
  let '(s, t, b) := x in
  match a with
  | CBuf (BResize _) => None
  | CBuf o => match run_buf_op E (sb s) o with Val b' => Some (with_sb b' s, t, b) | Boom => None end
  | CMode m => match on_writer (set_cursor_mode ansi_cfg m) s with
               | Ret s' _ => match grown s s' with Some y => Some (s', feed (ansi_tty E) t y, visible_in m) | None => None end
               | _ => None
               end
  | CRefresh => match refresh E ansi_cfg s with
                | Ret s' _ => match grown s s' with Some y => Some (s', feed (ansi_tty E) t y, b) | None => None end
                | _ => None
                end
  end.
Fixpoint cplay (E : env) (l : list cact) (x : scr * emu * bool) : option (scr * emu * bool) :=
  match l with
  | [] => Some x
  | a :: l => match cplay1 E a x with Some x => cplay E l x | None => None end
  end.

Lemma cplay_watched E allowed l : forall s t b s' t' b',
  watched E ansi_cfg (ansi_tty E) allowed anyhow s t b ->
  Forall (fun a => match a with CBuf o => allowed o | _ => True end) l ->
  cplay E l (s, t, b) = Some (s', t', b') -> watched E ansi_cfg (ansi_tty E) allowed anyhow s' t' b'.
Proof.
  induction l as [|a l IH]; intros s t b s' t' b' H Hl Hp; cbn [cplay] in Hp.
  - injection Hp as <- <- <-. exact H.
  - inversion Hl; subst. destruct (cplay1 E a (s, t, b)) as [[[s1 t1] b1]|] eqn:E1; [|discriminate].
    apply (IH s1 t1 b1); auto. clear Hp. destruct a as [o|m|]; cbn [cplay1] in E1.
    + assert (Hr : forall sz, o <> BResize sz) by (intros sz ->; discriminate).
      assert (Hb : exists b2, run_buf_op E (sb s) o = Val b2 /\ (s1, t1, b1) = (with_sb b2 s, t, b)).
      { destruct o; try discriminate; match type of E1 with context [match ?r with _ => _ end] => destruct r eqn:Er end;
          try discriminate; injection E1 as <- <- <-; eauto. }
      destruct Hb as (b2 & Hb & Hq). injection Hq as -> -> ->. eapply Wa_buffer; eauto.
    + destruct (on_writer _ s) as [s2 []| | |] eqn:Er; try discriminate.
      destruct (grown s s2) as [x|] eqn:Eg; [|discriminate]. injection E1 as <- <- <-.
      apply (Wa_mode E ansi_cfg (ansi_tty E) allowed anyhow s t b m s2 x); auto using grown_ok.
    + destruct (refresh E ansi_cfg s) as [s2 []| | |] eqn:Er; try discriminate.
      destruct (grown s s2) as [x|] eqn:Eg; [|discriminate]. injection E1 as <- <- <-.
      apply (Wa_refresh E ansi_cfg (ansi_tty E) allowed anyhow s t b s2 x); auto using grown_ok; try (intros; exact I).
Qed.

Definition crun (E : env) (sz : size) (sc : list wresp) (l : list cact) : option (scr * emu * bool) :=
  match start E sz sc with Some (s, t) => cplay E l (s, t, true) | None => None end.
Lemma crun_watched E allowed sz sc l s t b : env_ok E -> screen_size sz -> whole_writes sc ->
  Forall (fun a => match a with CBuf o => allowed o | _ => True end) l ->
  crun E sz sc l = Some (s, t, b) -> watched E ansi_cfg (ansi_tty E) allowed anyhow s t b.
Proof.
  intros HE Hsz Hw Hl H. unfold crun in H. destruct (start E sz sc) as [[s0 t0]|] eqn:Es; [|discriminate].
  apply (cplay_watched E allowed l s0 t0 true); auto. clear H.
  unfold start in Es. destruct (screen_new _ _ _ _ _) as [s1 []| | |] eqn:En; try discriminate.
  injection Es as <- <-.
  apply (Wa_new E ansi_cfg (ansi_tty E) allowed anyhow sz (writer_new (N.to_nat 8192) sc) s1 (emu_new sz)
    (View sz (repeat (VC [SPACE] no_attrs) (total sz)) (Cursor 0 0) no_attrs true)); auto.
  cbn [stream writer_new dev obuf app]. rewrite (feed_nil _ _ _ (ansi_implements E HE)). apply emu_new_look.
Qed.

Definition coutcome (E : env) (sz : size) (sc : list wresp) (l : list cact) (P : scr -> view -> bool -> bool) : bool :=
  match crun E sz sc l with
  | Some (s, t, b) => match look (ansi_tty E) t with Some v => P s v b | None => false end
  | None => false
  end.
Lemma coutcome_ok E allowed sz sc l P : env_ok E -> screen_size sz -> whole_writes sc ->
  Forall (fun a => match a with CBuf o => allowed o | _ => True end) l ->
  coutcome E sz sc l P = true ->
  exists s t b v, watched E ansi_cfg (ansi_tty E) allowed anyhow s t b /\ look (ansi_tty E) t = Some v /\ P s v b = true.
Proof.
  intros HE Hs Hw Hl H. unfold coutcome in H.
  destruct (crun E sz sc l) as [[[s t] b]|] eqn:Er; [|discriminate].
  destruct (look (ansi_tty E) t) as [v|] eqn:El; [|discriminate].
  exists s, t, b, v. split; [eapply crun_watched; eauto|auto].
Qed.
