(** Specification vocabulary for interactive programs: read a key, draw, refresh, and again
    (C137). *)
From Verif Require Import Base M_Utf8 S_Utf8 M_Geom S_Geom M_Attr M_Seq S_Seq M_Signal M_Util M_Input S_Input M_Buf S_Buf M_Writer M_Prepare M_Reader
  M_WinWriter M_WinReader S_WinReader M_WinScreen S_WinScreen M_ScreenApi S_WinCanvas.
From Verif Require S_Tty S_Writer M_Screen S_Screen S_WinWriter S_Canvas M_UnixScreen S_Reader S_Typing S_Portable.

(** The keys among some events. *)
Definition keys (es : list event) : list key :=
  flat_map (fun e => match e with EKey k => [k] | _ => [] end) es.

Section Program.
  (** A program: what it remembers, and what it does when a key is pressed: what it remembers
      then and the methods of [Screen] it calls. *)
  Variables (M : Type) (react : M -> key -> M * list smethod).
  Variable E : env.

  (** What it should make of some keys, on a drawing surface. *)
  Fixpoint answers (ks : list key) (x : M) (k : S_Canvas.canvas) : M * S_Canvas.canvas :=
    match ks with
    | [] => (x, k)
    | key :: ks => answers ks (fst (react x key)) (S_Canvas.draws E (snd (react x key)) k)
    end.

  (** Where the program is: it goes on, it waits in a read with nothing to come, a method it
      called panicked, refreshing failed, panicked or did not return, or reading did. *)
  Inductive stage (U : Type) : Type := Going (x : M) (u : U) | Waiting (x : M) (u : U) | Panicked | Unshown | Unread.
  Arguments Going {U}. Arguments Waiting {U}. Arguments Panicked {U}. Arguments Unshown {U}. Arguments Unread {U}.

  (** One round of the program on Unix: [read_event] without a time limit; for a key, the
      methods it calls and [refresh]. *)
  Definition unix_round (C : tcfg) (m : seq_map) (x : M) (u : M_UnixScreen.uscr) : stage M_UnixScreen.uscr :=
    match read_event C m None (M_UnixScreen.u_sys u) with
    | Ret s e =>
        match M_UnixScreen.follow E e (M_UnixScreen.with_sys s u), e with
        | Val u, Some (EKey key) =>
            match screen_methods E (snd (react x key)) (M_UnixScreen.u_sb u) with
            | Val b =>
                match M_Screen.screen_refresh E C (M_Screen.with_sb b (M_UnixScreen.out_side u)) with
                | Ret y _ => Going (fst (react x key)) (M_UnixScreen.with_out y u)
                | _ => Unshown
                end
            | Boom => Panicked
            end
        | Val u, _ => Going x u
        | Boom, _ => Unread
        end
    | Blocked => Waiting x u
    | _ => Unread
    end.
  (** On Windows; the write guard refreshes once more when it is dropped. *)
  Definition win_round (draw : list N -> N -> view -> view) (x : M) (w : wscr) : stage wscr :=
    match gs_read_event E None w with
    | Ret w (Some (EKey key), _) =>
        match screen_methods E (snd (react x key)) (g_sb w) with
        | Val b =>
            match win_refresh draw E (with_gsb b w) with
            | Ret w _ => match win_refresh draw E w with
                         | Ret w _ | Fail w _ => Going (fst (react x key)) w
                         | _ => Unshown
                         end
            | _ => Unshown
            end
        | Boom => Panicked
        end
    | Ret w _ => Going x w
    | Blocked => Waiting x w
    | _ => Unread
    end.

  (** [n] rounds. *)
  Fixpoint rounds {U} (round : M -> U -> stage U) (n : nat) (x : M) (u : U) : stage U :=
    match n with
    | O => Going x u
    | S n => match round x u with Going x u => rounds round n x u | o => o end
    end.
End Program.
Arguments Going {M U}. Arguments Waiting {M U}. Arguments Panicked {M U}. Arguments Unshown {M U}. Arguments Unread {M U}.

(** The program only writes text that fits one position for each character; on a console also
    text that it shows. *)
Definition writes_narrow {M} (react : M -> key -> M * list smethod) (E : env) : Prop :=
  forall x key, S_Buf.no_wide E (concat (map S_Canvas.method_text (snd (react x key)))).
Definition writes_single {M} (react : M -> key -> M * list smethod) (E : env) (shown : list N -> option N) : Prop :=
  forall x key, Forall (single E shown) (concat (map S_Canvas.method_text (snd (react x key)))).

(** A new screen on a Unix terminal [K], whose window does not change, where the user will do
    [acts] and nothing else happens.  [t0]: the terminal before it received anything. *)
Record unix_start (E : env) (C : tcfg) (m : seq_map) (K : S_Tty.tty) (z : size) (t0 : S_Tty.tstate K)
    (u : M_UnixScreen.uscr) (acts : list S_Typing.act) : Prop := {
  us_new : exists cfg s0 s1 v0,
    win s0 = inr z /\ S_Screen.screen_size z /\ S_Writer.whole_writes (script (wr s0)) /\
    S_Tty.look K (S_Tty.feed K t0 (S_Writer.stream (wr s0))) = Some v0 /\ S_Tty.vsize v0 = z /\
    S_Tty.vattrs v0 = S_Writer.shown_attrs C (wat (wr s0)) /\
    M_UnixScreen.unix_screen_new E C cfg s0 = Ret s1 u;
  us_calm : S_Reader.calm (M_UnixScreen.u_sys u);
  us_window : forall r, ~ In (TWin r) (time (M_UnixScreen.u_sys u));
  us_fresh : inbuf (M_UnixScreen.u_sys u) = [];
  us_typed : S_Typing.arriving m [] (S_Reader.portions (M_UnixScreen.u_sys u)) acts
}.
(** What the terminal shows once it has received everything. *)
Definition unix_sees (K : S_Tty.tty) (t0 : S_Tty.tstate K) (u : M_UnixScreen.uscr) : option S_Tty.view :=
  S_Tty.look K (S_Tty.feed K t0 (S_Writer.stream (wr (M_UnixScreen.u_sys u)))).

(** A new screen on a Windows console whose window does not change, where the user will make
    the records [rs] (keys and mouse) and nothing else happens. *)
Definition no_resize (r : record) : Prop := match r with SizeRec _ => False | _ => True end.
Record win_start (E : env) (z : size) (w : wscr) (rs : list record) : Prop := {
  ws_new : exists cfg t t1,
    displayed t /\ S_WinWriter.view_ok (c_view (w_con (t_w t))) /\
    (t_default t < 65536)%N /\ w_at (t_w t) = no_attrs /\ c_attr (w_con (t_w t)) = t_default t /\
    size_of_view (c_view (w_con (t_w t))) = z /\ win_screen_new E cfg t = Ret t1 w;
  ws_calm : S_Portable.wcalm (t_in (g_t w));
  ws_typed : records (t_in (g_t w)) = rs;
  ws_window : Forall no_resize rs
}.
(** The keys among the records. *)
Definition record_keys (rs : list record) : list key :=
  flat_map (fun r => match key_press_event r with Some k => [k] | None => [] end) rs.
