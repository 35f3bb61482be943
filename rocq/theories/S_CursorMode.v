(** Specification vocabulary for the visibility of the cursor of a [Screen] (C115). *)
From Verif Require Import Base M_Utf8 M_Geom S_Geom M_Attr M_Buf S_Buf M_Writer S_Tty S_Writer M_Screen S_Screen.

Definition visible_in (m : cursor_mode) : bool := match m with CInvisible => false | _ => true end.

(** Histories of a [Screen] as in S_Screen.v, with what the program asked for last: [b]
    says whether the cursor should be visible. *)
Inductive watched (E : env) (C : tcfg) (K : tty) (allowed : buf_op -> Prop)
    (careful : scr -> view -> Prop) : scr -> tstate K -> bool -> Prop :=
| Wa_new sz w s t0 v0 :
    screen_size sz -> whole_writes (script w) ->
    look K (feed K t0 (stream w)) = Some v0 -> vsize v0 = sz -> vattrs v0 = shown_attrs C (wat w) ->
    screen_new E C sz (inr sz) w = Ret s tt ->
    watched E C K allowed careful s (feed K t0 (stream (wr s))) (vvis v0)
| Wa_buffer s t b o b' :
    watched E C K allowed careful s t b ->
    allowed o -> (forall sz, o <> BResize sz) ->
    run_buf_op E (sb s) o = Val b' ->
    watched E C K allowed careful (with_sb b' s) t b
| Wa_mode s t b m s' x :
    watched E C K allowed careful s t b ->
    on_writer (set_cursor_mode C m) s = Ret s' tt ->
    stream (wr s') = stream (wr s) ++ x ->
    watched E C K allowed careful s' (feed K t x) (visible_in m)
| Wa_refresh s t b s' x :
    watched E C K allowed careful s t b ->
    (forall v, look K t = Some v -> careful s v) ->
    refresh E C s = Ret s' tt ->
    stream (wr s') = stream (wr s) ++ x ->
    watched E C K allowed careful s' (feed K t x) b
| Wa_unflushed s t b s1 s2 e x :
    watched E C K allowed careful s t b ->
    (forall v, look K t = Some v -> careful s v) ->
    compose E C s = Ret s1 tt -> on_writer flush s1 = Fail s2 e ->
    stream (wr s2) = stream (wr s) ++ x ->
    watched E C K allowed careful s2 (feed K t x) b
| Wa_resize s t b v new s' t' v' :
    (* the terminal changes its size, whatever it shows afterwards *)
    watched E C K allowed careful s t b ->
    look K t = Some v -> screen_size new -> obuf (wr s) = [] ->
    look K t' = Some v' -> vsize v' = new -> vattrs v' = vattrs v -> vvis v' = vvis v ->
    update_size E new s = Val s' ->
    watched E C K allowed careful s' t' b.
