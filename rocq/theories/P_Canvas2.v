(** Playing paintings, for the examples. *)
From Verif Require Import Base M_Utf8 S_Utf8 M_Geom S_Geom P_Geom M_Attr S_Buf M_Writer S_Tty S_Writer
  M_Screen S_Screen P_Buf P_Buf2 P_Buf3 P_Screen P_Screen2 S_Emu P_Emu P_Screen5 M_Api M_ScreenApi M_Buf S_Canvas P_Canvas.

Inductive pact : Type := PDo (m : smethod) | PRefresh.

Section Play.
  Variable E : env.
  Hypothesis HE : env_ok E.

  Fixpoint paint (st : scr * emu * canvas) (l : list pact) : option (scr * emu * canvas) :=
    match l with
    | [] => Some st
    | a :: l =>
        let '(s, t, k) := st in
        match a with
        | PDo m => match screen_method E m (sb s) with
                   | Val b => paint (with_sb b s, t, draw E m k) l
                   | Boom => None
                   end
        | PRefresh => match refresh E ansi_cfg s with
                      | Ret s' _ => match grown s s' with
                                    | Some x => paint (s', feed (ansi_tty E) t x, k) l
                                    | None => None
                                    end
                      | _ => None
                      end
        end
    end.

  Definition narrow_act (a : pact) : Prop := match a with PDo m => no_wide E (method_text m) | PRefresh => True end.

  Lemma paint_ok l : forall s t k s' t' k', painted E ansi_cfg (ansi_tty E) s t k -> Forall narrow_act l ->
    paint (s, t, k) l = Some (s', t', k') -> painted E ansi_cfg (ansi_tty E) s' t' k'.
  Proof.
    induction l as [|a l IH]; intros s t k s' t' k' H Hl Hp; cbn [paint] in Hp.
    - injection Hp as <- <- <-. exact H.
    - inversion Hl; subst. destruct a as [m|].
      + destruct (screen_method E m (sb s)) as [b|] eqn:Em; [|discriminate].
        refine (IH _ _ _ _ _ _ _ _ Hp); [|assumption]. now apply Pt_method.
      + destruct (refresh E ansi_cfg s) as [s2 []| | |] eqn:Er; try discriminate.
        destruct (grown s s2) as [x|] eqn:Eg; [|discriminate].
        refine (IH _ _ _ _ _ _ _ _ Hp); [|assumption]. eapply Pt_refresh; [exact H|exact Er|]. now apply grown_ok.
  Qed.

  Definition painting (sz : size) (sc : list wresp) (l : list pact) (P : canvas -> view -> bool) : bool :=
    match start E sz sc with
    | Some (s, t) => match paint (s, t, blank_canvas sz) l with
                     | Some (s, t, k) => match refreshed E s t with Some (_, _, v) => P k v | None => false end
                     | None => false
                     end
    | None => false
    end.

  Lemma painting_ok sz sc l P : screen_size sz -> whole_writes sc -> Forall narrow_act l ->
    painting sz sc l P = true ->
    exists s t k s' x v, painted E ansi_cfg (ansi_tty E) s t k /\
      refresh E ansi_cfg s = Ret s' tt /\ stream (wr s') = stream (wr s) ++ x /\
      look (ansi_tty E) (feed (ansi_tty E) t x) = Some v /\ P k v = true.
  Proof.
    intros Hs Hw Hl H. unfold painting in H. destruct (start E sz sc) as [[s0 t0]|] eqn:Es; [|discriminate].
    destruct (paint (s0, t0, blank_canvas sz) l) as [[[s t] k]|] eqn:Ep; [|discriminate].
    destruct (refreshed E s t) as [[[s' x] v]|] eqn:Ef; [|discriminate].
    destruct (refreshed_ok _ _ _ _ _ _ Ef) as (A & B & D). exists s, t, k, s', x, v.
    split; [|auto]. refine (paint_ok l _ _ _ _ _ _ _ Hl Ep).
    unfold start in Es. destruct (screen_new _ _ _ _ _) as [s2 []| | |] eqn:En; try discriminate.
    injection Es as <- <-.
    apply (Pt_new E ansi_cfg (ansi_tty E) sz (writer_new (N.to_nat 8192) sc) s2 (emu_new sz)
      (View sz (repeat (VC [SPACE] no_attrs) (total sz)) (Cursor 0 0) no_attrs true)); auto.
    cbn [stream writer_new dev obuf app]. rewrite (feed_nil _ _ _ (ansi_implements E HE)). apply emu_new_look.
  Qed.
End Play.
